"""Translate /repo/xoa/cf.cfg (as ConfigObj reads it) into rocq/theories/CFShippedData.v.

Values with commas are lists, the others are strings; scalars first, then sub-sections, in order.
Fails on anything that this small reader does not handle (quotes, interpolation, inline comments,
duplicate keys)."""
import re, sys
src = sys.argv[1] if len(sys.argv) > 1 else "/repo/xoa/cf.cfg"
root = {}
stack = [root]
for n, line in enumerate(open(src), 1):
    s = line.strip()
    if not s or s.startswith("#"):
        continue
    assert not re.search(r"[#'\"%$]", s), (n, s)
    m = re.match(r"^(\[+)(.*?)(\]+)$", s)
    if m:
        assert len(m[1]) == len(m[3])
        d = len(m[1])
        assert d <= len(stack), (n, s)
        del stack[d:]
        name = m[2].strip()
        assert name not in stack[-1], (n, name)
        stack[-1][name] = {}
        stack.append(stack[-1][name])
        continue
    k, v = s.split("=", 1)
    k, v = k.strip(), v.strip()
    assert k not in stack[-1], (n, k)
    stack[-1][k] = [x.strip() for x in v.rstrip(",").split(",")] if "," in v else v  # a last comma is allowed
    assert not isinstance(stack[-1][k], list) or all(stack[-1][k]), (n, s)
def order(d):
    return [(k, v) for k, v in d.items() if not isinstance(v, dict)] + [(k, v) for k, v in d.items() if isinstance(v, dict)]
def coq(v, ind):
    if isinstance(v, str):
        return 'VStr "%s"' % v
    if isinstance(v, list):
        return "VList [" + "; ".join('VStr "%s"' % x for x in v) + "]"
    pad = "\n" + " " * ind
    return "VDict [" + ("; " + pad).join('("%s", %s)' % (k, coq(x, ind + 1)) for k, x in order(v)) + "]"
out = ['(** GENERATED by tools/cfdata.py from xoa/cf.cfg:1-%d: the sections of the shipped CF configuration,' % n,
       '    as ConfigObj reads them (before validation). *)',
       'From Verif Require Export Misc.', 'Open Scope string_scope.', '']
for sec, body in root.items():
    out.append("(** xoa/cf.cfg, section [%s] *)" % sec)
    out.append("Definition cfcfg_%s : list (string * pyval) := [" % sec)
    out.append(";\n".join('  ("%s", %s)' % (k, coq(v, 3)) for k, v in body.items()))
    out.append("].")
open("/verif/rocq/theories/CFShippedData.v", "w").write("\n".join(out) + "\n")
print({k: len(v) for k, v in root.items()})
