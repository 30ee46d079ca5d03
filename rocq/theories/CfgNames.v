(** Model of the names of options in xoa/cfgm.py: _opt2cfgname_ (1612-1616), _cfg2optname_
    (1619-1626), _walker_argcfg_setcfg_ (1752-1776), _walker_argcfg_setarg_ (1779-1845),
    _parent_list_ (1902-1907), get_sec_names (1946-1954), get_cfg_path (1957-1984). *)
From Verif Require Export PyRe.
Open Scope string_scope.

Fixpoint smap (f : ascii -> ascii) (s : string) : string :=
  match s with EmptyString => "" | String c s' => String (f c) (smap f s') end.
Definition under : ascii := "_".
Definition dash : ascii := "-".
Definition is_blank (c : ascii) : bool :=
  let n := nat_of_ascii c in (n =? 32)%nat || ((9 <=? n) && (n <=? 13))%nat.
(** [re.compile(r"[_\s]").sub("-", name)] *)
Definition sub_dash (s : string) : string := smap (fun c => if Ascii.eqb c under || is_blank c then dash else c) s.
(** [s.replace("-", "_")] *)
Definition sub_under (s : string) : string := smap (fun c => if Ascii.eqb c dash then under else c) s.
(** [s.lstrip_c(c)], [s.strip("_")] *)
Fixpoint lstrip_c (c : ascii) (s : string) : string :=
  match s with String a s' => if Ascii.eqb a c then lstrip_c c s' else s | _ => s end.
Fixpoint str_rev (s : string) : string := match s with EmptyString => "" | String a s' => str_rev s' ++ String a "" end.
Definition strip_under (s : string) : string := str_rev (lstrip_c under (str_rev (lstrip_c under s))).
(** [sep.join(l)] *)
Fixpoint join (sep : string) (l : list string) : string :=
  match l with [] => "" | [x] => x | x :: l' => x ++ sep ++ join sep l' end.

(** xoa/cfgm.py:1612-1616 *)
Definition opt2cfgname (name : string) (nested : option string) : string :=
  let key := sub_under name in
  match nested with
  | Some n => if nonempty n && startswith key (n ++ "_") then sdrop (String.length (n ++ "_")) key else key
  | None => key
  end.
(** lines 1622-1626 *)
Definition cfg2optname (name : string) (nested : option string) : string :=
  let opt := sub_dash name in
  lower (match nested with Some n => if nonempty n then n ++ "-" ++ opt else opt | None => opt end).
(** argparse: the destination of the flag [--opt] *)
Definition dest_of (opt : string) : string := sub_under (lstrip_c dash ("--" ++ opt)).

(** An option of the configuration: names of its sections from the top, and its key *)
Record path := mkpath { parents : list string; key : string }.
(** lines 1788-1792: the declared flag.  (Simplification: a name is not made of underscores only.) *)
Definition flag (nested : option string) (p : path) : string :=
  cfg2optname (join "_" (map strip_under (parents p) ++ [strip_under (key p)])%list) nested.
(** line 1757 *)
Definition cfgkey (p : path) : string := join "_" (map strip_under (parents p) ++ [key p])%list.
(** line 1765: does the option [dest] match the key? *)
Definition reaches (nested : option string) (dest : string) (p : path) : bool :=
  String.eqb (opt2cfgname dest nested) (lower (cfgkey p)).

(** A configuration: values at paths *)
Section conf.
  Variable V : Type.
  Definition path_eqb (p q : path) : bool :=
    (if list_eq_dec string_dec (parents p) (parents q) then true else false) && String.eqb (key p) (key q).
  Definition conf := list (path * V).
  Fixpoint cget (c : conf) (p : path) : option V :=
    match c with [] => None | (q, v) :: c' => if path_eqb p q then Some v else cget c' p end.
  (** the last value set is the first found *)
  Definition cset (c : conf) (p : path) (v : V) : conf := (p, v) :: c.
  (** lines 1758-1776; [options]: the namespace of argparse, None for an option that is not given *)
  Definition setcfg_one (nested : option string) (p : path) (c : conf) (ov : string * option V) : conf :=
    match snd ov with
    | None => c
    | Some v => if reaches nested (fst ov) p then cset c p v else c
    end.
  Definition setcfg (nested : option string) (options : list (string * option V)) (c : conf) (p : path) : conf :=
    fold_left (setcfg_one nested p) options c.
  (** lines 1287-1294: walk over the default configuration *)
  Definition set_all (nested : option string) (options : list (string * option V)) (schema : list path) (c : conf) : conf :=
    fold_left (setcfg nested options) schema c.
End conf.
Arguments cget {V}. Arguments cset {V}. Arguments setcfg_one {V}. Arguments setcfg {V}. Arguments set_all {V}.

(** Values, and what argparse puts in the namespace: None for an option that is not given,
    but a boolean for a flag (lines 1830-1842: store_true when the default is False, else store_false) *)
Inductive oval := OBool (b : bool) | OText (s : string).
Inductive okind := KBool (default : bool) | KStore.
Definition parsed (k : okind) (given : option string) : option oval :=
  match k, given with
  | KBool d, Some _ => Some (OBool (negb d))
  | KBool d, None => Some (OBool d)
  | KStore, Some s => Some (OText s)
  | KStore, None => None
  end.

(** ** Sections: name and parent.  xoa/cfgm.py:1946-1984 *)
Inductive sect := Root | Sub (name : string) (parent : sect).
Fixpoint depth (s : sect) : nat := match s with Root => 0 | Sub _ p => S (depth p) end.
Definition sname (s : sect) : string := match s with Root => "" | Sub n _ => n end.
Definition sparent (s : sect) : sect := match s with Root => Root | Sub _ p => p end.
Fixpoint sec_loop (n : nat) (s : sect) (acc : list string) : list string :=
  match n with O => acc | S n' => let s := sparent s in sec_loop n' s (acc ++ [sname s])%list end.
Definition get_sec_names (s : sect) : list string :=
  match depth s with O => [] | S n => rev (sec_loop n s [sname s]) end.
Fixpoint ancestors (s : sect) (acc : list string) : list string :=
  match s with Root => acc | Sub n p => ancestors p (acc ++ [n])%list end.
Definition get_cfg_path (s : sect) (entry : option string) (sep : string) : string :=
  join sep (rev (ancestors s (match entry with Some e => [e] | None => [] end))).
