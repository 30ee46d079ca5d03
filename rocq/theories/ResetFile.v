(** Model of ConfigManager.reset, xoa/cfgm.py:865-907, on a file system.

    A file is the list of its bytes; copying and writing first empty the destination and then
    write it byte by byte, and a crash may occur between any two of these steps.
    Simplifications: permissions, directories and links are not modelled; what is written for a
    default configuration (configobj's write) is a parameter. *)
From Verif Require Export PyDict.
Open Scope string_scope.

Definition bytes := list ascii.
Definition fs := dict bytes.
Inductive step := Empty (path : string) | Put (path : string) (b : ascii) | Remove (path : string).
Definition do_step (f : fs) (s : step) : fs :=
  match s with
  | Empty p => dset f p []
  | Put p b => dset f p (match dget f p with Some c => c ++ [b] | None => [b] end)%list
  | Remove p => ddel f p
  end.
Definition run (f : fs) (l : list step) : fs := fold_left do_step l f.
Definition write (p : string) (c : bytes) : list step := Empty p :: map (Put p) c.
(** lines 889-901.  [defaults]: the text of the default configuration, when it could be computed.
    [os.path.exists] and the copied content are those of the initial file system. *)
Definition reset (f : fs) (cfgfile : string) (backup : bool) (defaults : res bytes) : res (list step) :=
  let* d := defaults in
  Ok ((match dget f cfgfile with
       | Some old => (if backup then write (cfgfile ++ ".bak") old else []) ++ [Remove cfgfile]
       | None => []
       end) ++ write cfgfile d)%list.
(** line 896-897: what is said about the backup *)
Definition backup_said (f : fs) (cfgfile : string) (backup : bool) : bool := dmem f cfgfile && backup.
