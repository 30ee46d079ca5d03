(** Model of the CF specifications that are used by default: the shipped configuration xoa/cf.cfg
    (CFShippedData.v) validated with xoa/cf.ini, then processed by CFSpecs._post_process_
    (CFInherit.v), as seen by the searches and the formatting (CFSearch.v, CFFormat.v).
    Simplification: there is no user configuration file. *)
From Verif Require Export CFShippedData CFInherit.
From Verif Require Export CFFormat.
Open Scope string_scope.

(** ** xoa/cf.ini:16-70: the types and default values of the options.
    [strings] is the list form of [string] (xoa/cfgm.py:90-195, 597-645). *)
Inductive otype := TString (default : pyval) | TStrings (default : pyval).
Definition check_option (t : otype) (v : option pyval) : pyval :=
  match t, v with
  | TString d, None => d
  | TString _, Some v => v
  | TStrings d, None => d
  | TStrings d, Some (Misc.VStr s) =>
    if String.eqb s "None" then Misc.VNone else if String.eqb s "" then d else Misc.VList [Misc.VStr s]
  | TStrings _, Some v => v
  end.
(** ConfigObj.validate of a section: the options in the order of the file, then the missing ones *)
Definition check_options (opts : list (string * otype)) (d : dict pyval) : dict pyval :=
  (map (fun kv => (fst kv, match dget opts (fst kv) with Some t => check_option t (Some (snd kv)) | None => snd kv end)) d ++
   map (fun kt => (fst kt, check_option (snd kt) None)) (List.filter (fun kt => negb (dmem d (fst kt))) opts))%list.
(** cf.ini:16-34 [data_vars][__many__] and 46-63 [coords][__many__] *)
Definition data_var_opts : list (string * otype) :=
  [("name", TStrings (Misc.VList [])); ("domain", TString (Misc.VStr "generic")); ("cmap", TString Misc.VNone);
   ("inherit", TString Misc.VNone); ("squeeze", TStrings Misc.VNone); ("search_order", TString (Misc.VStr "sn"))].
Definition coord_opts : list (string * otype) :=
  [("name", TStrings (Misc.VList [])); ("domain", TString (Misc.VStr "generic"));
   ("inherit", TString Misc.VNone); ("search_order", TString (Misc.VStr "nsa"))].
Definition attr_opts : list (string * otype) :=
  [("long_name", TStrings (Misc.VList [])); ("standard_name", TStrings (Misc.VList [])); ("units", TStrings (Misc.VList []))].
Definition coord_attr_opts : list (string * otype) := (attr_opts ++ [("axis", TString Misc.VNone)])%list.
Definition scalars (d : dict pyval) : dict pyval := List.filter (fun kv => negb (match snd kv with Misc.VDict _ => true | _ => false end)) d.
Definition subsection (d : dict pyval) (k : string) : dict pyval := match dget d k with Some (Misc.VDict e) => e | _ => [] end.
Definition check_data_var (v : pyval) : pyval :=
  match v with
  | Misc.VDict d => Misc.VDict (check_options data_var_opts (scalars d) ++
       [("attrs", Misc.VDict (check_options attr_opts (subsection d "attrs"))); ("select", Misc.VDict (subsection d "select"))])%list
  | _ => v
  end.
Definition check_coord (v : pyval) : pyval :=
  match v with
  | Misc.VDict d => Misc.VDict (check_options coord_opts (scalars d) ++
       [("attrs", Misc.VDict (check_options coord_attr_opts (subsection d "attrs")))])%list
  | _ => v
  end.
(** cf.ini:65-70 *)
Definition dim_opts : list (string * otype) :=
  map (fun k => (k, TStrings (Misc.VList []))) ["x"; "y"; "z"; "t"; "f"].
Definition cfcfg : cfdict := mkcf
  (map (fun kv => (fst kv, check_data_var (snd kv))) cfcfg_data_vars)
  (map (fun kv => (fst kv, check_coord (snd kv))) cfcfg_coords)
  (check_options dim_opts cfcfg_dims).

(** ** What the searches use of the processed specifications *)
Definition strs (l : list pyval) : list string :=
  List.concat (map (fun v => match v with Misc.VStr s => [s] | _ => [] end) l).
Definition refs_of (v : pyval) : refs :=
  match v with Misc.VList l => RefList (strs l) | Misc.VStr s => RefStr s | _ => RefNone end.
Definition spec_of (v : pyval) : spec :=
  match v with
  | Misc.VDict d => mkspec (match dget d "search_order" with Some (Misc.VStr s) => s | _ => "" end)
      (match dget d "name" with Some (Misc.VList l) => strs l | _ => [] end)
      (map (fun kv => (fst kv, refs_of (snd kv))) (subsection d "attrs"))
  | _ => mkspec "" [] []
  end.
Definition specs_of (d : dict pyval) : catspecs := map (fun kv => (fst kv, spec_of (snd kv))) d.
(** sys.getrecursionlimit(), about *)
Definition recursion_limit : nat := 900.
Definition shipped : res cfdict := post_process recursion_limit cfcfg.
Definition shipped_part (f : cfdict -> dict pyval) : dict pyval := match shipped with Ok c => f c | Raise _ => [] end.
Definition shipped_vars : catspecs := Eval vm_compute in specs_of (shipped_part CFInherit.data_vars).
Definition shipped_coords : catspecs := Eval vm_compute in specs_of (shipped_part CFInherit.coords).
Definition shipped_dims : dict (list string) := Eval vm_compute in
  map (fun kv => (fst kv, match snd kv with Misc.VList l => strs l | _ => [] end)) (shipped_part CFInherit.dims).
(** cf.ini:1-3 [sglocator] (an empty list of locations for None) *)
Definition shipped_sg : sgloc := mksg default_name_format [].
