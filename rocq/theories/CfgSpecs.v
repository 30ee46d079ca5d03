(** Model of ConfigManager.__init__ (xoa/cfgm.py:733-807) and ConfigManager.get_defaults
    (lines 831-861): several managers and default configurations in one program, with the objects
    that they share.

    A configobj.ConfigObj given as specifications is used as it is (lines 764-765) and modified in
    place by the filter (line 781) and by the walk (lines 800-803).  The dictionary of the inline
    comments of the top level of the specifications becomes that of the default configurations
    (line 860).

    Simplifications: the specifications are not interpolated; the validator is the default one;
    only the names and the inline comments of the top level of the default configurations are
    kept (not the values, nor the comments of lower levels, which are not shared in this way);
    the warnings about empty specifications are not modelled. *)
From Verif Require Export CfgTree.
From Verif Require BoolSpec.
Open Scope string_scope.

(** ** _walker_set_boolean_false_by_default_ (lines 1931-1943) on a tree, by configobj's
    Section.walk: options first, then subsections, with what was already changed when an
    exception occurs *)
Section walks.
  Variable change : string -> res string.
  Fixpoint walk_options (l : list string) (it : list (string * node)) : list (string * node) * option exn :=
    match l with
    | [] => (it, None)
    | k :: l' =>
      match dget it k with
      | Some (Leaf (VStr s)) =>
        match change s with
        | Ok s' => walk_options l' (dset it k (Leaf (VStr s')))
        | Raise e => (it, Some e)
        end
      | Some _ => (it, Some TypeError) (* _parse_check on something else than a text *)
      | None => (it, Some KeyError)
      end
    end.
  Fixpoint walk_sections (subs : list (string * (node * option exn))) (l : list string) (it : list (string * node)) : list (string * node) * option exn :=
    match l with
    | [] => (it, None)
    | k :: l' =>
      match dget subs k with
      | Some (m, None) => walk_sections subs l' (dset it k m)
      | Some (m, Some e) => (dset it k m, Some e)
      | None => (it, Some KeyError)
      end
    end.
  Fixpoint walk_texts (n : node) : node * option exn :=
    match n with
    | Leaf _ => (n, Some AttributeError)
    | Sec sc ss it =>
      let subs := map (fun kn => (fst kn, walk_texts (snd kn))) it in
      match walk_options sc it with
      | (it1, Some e) => (Sec sc ss it1, Some e)
      | (it1, None) => let '(it2, e) := walk_sections subs ss it1 in (Sec sc ss it2, e)
      end
    end.
End walks.
Definition walk_false : node -> node * option exn := walk_texts BoolSpec.set_false.

(** ** The objects of a program *)
(** A specification object: its content and its inline_comments at the top level (an address) *)
Record spec := mkspec { sp_tree : node; sp_inline : nat }.
(** A default configuration: its names at the top level, its inline_comments *)
Record config := mkconfig { cg_names : list string; cg_inline : nat }.
Record state := mkstate { st_specs : list spec; st_configs : list config; st_dicts : list (dict string) }.
Fixpoint put_nth {A} (l : list A) (i : nat) (x : A) : list A :=
  match l, i with
  | [], _ => []
  | _ :: l', O => x :: l'
  | y :: l', S i' => y :: put_nth l' i' x
  end.
Definition the_dict (st : state) (a : nat) : dict string := nth a (st_dicts st) [].
Definition set_dict (st : state) (a : nat) (d : dict string) : state := mkstate (st_specs st) (st_configs st) (put_nth (st_dicts st) a d).
Definition set_tree (st : state) (a : nat) (t : node) : state :=
  match nth_error (st_specs st) a with
  | Some sp => mkstate (put_nth (st_specs st) a (mkspec t (sp_inline sp))) (st_configs st) (st_dicts st)
  | None => st
  end.

(** filter_section at the top level, with the comments: Section.__delitem__ removes the name, then
    its inline comment (KeyError without it).  The subsections are filtered afterwards. *)
Fixpoint missing (names : list string) (d : dict string) : option (list string) :=
  match names with
  | [] => None
  | k :: l => if dmem d k then option_map (cons k) (missing l (ddel d k)) else Some [k]
  end.
Definition removed (t : node) (d : list (string * fval)) (g : bool) : list string :=
  List.filter (fun k => negb (f_keep d g k)) (scalars t ++ sections t)%list.
Definition filter_top (t : node) (d : list (string * fval)) (g : bool) (inline : dict string) : node * dict string * option exn :=
  let r := removed t d g in
  match missing r inline with
  | None => (filter_section t d g, fold_left (fun i k => ddel i k) r inline, None)
  | Some done => (fold_left delitem done t, fold_left (fun i k => ddel i k) done inline, Some KeyError)
  end.

Inductive source := File (t : node) (inline : dict string) | Object (a : nat).
Definition is_empty (t : node) : bool := match items t with [] => true | _ => false end.
(** ConfigManager.__init__, lines 761-803; the manager is the address of its specifications.
    [flt]: cfgfilter and cfgfilter_default when cfgfilter is a dictionary. *)
Definition new_manager (src : source) (flt : option (list (string * fval) * bool)) (boolean_false : bool) (st : state) : res nat * state :=
  let '(a, st) := match src with
                  | Object a => (a, st)
                  | File t i => (List.length (st_specs st),
                                 mkstate (st_specs st ++ [mkspec t (List.length (st_dicts st))])%list (st_configs st) (st_dicts st ++ [i])%list)
                  end in
  match nth_error (st_specs st) a with
  | None => (Raise NameError, st)
  | Some sp =>
    let '(t, st, e) :=
      match flt with
      | Some (d, g) =>
        if is_empty (sp_tree sp) then (sp_tree sp, st, None)
        else let '(t, i, e) := filter_top (sp_tree sp) d g (the_dict st (sp_inline sp)) in
             (t, set_dict (set_tree st a t) (sp_inline sp) i, e)
      | None => (sp_tree sp, st, None)
      end in
    match e with
    | Some e => (Raise e, st)
    | None =>
      if boolean_false then
        let '(t', e) := walk_false t in
        let st := set_tree st a t' in
        match e with Some e => (Raise e, st) | None => (Ok a, st) end
      else (Ok a, st)
    end
  end.

Section defaults.
  (** Does an option have a default value?  (validate.Validator, left arbitrary) *)
  Variable has_default : string -> bool.
  Definition default_names (t : node) : list string :=
    (List.filter (fun k => match dget (items t) k with Some (Leaf (VStr s)) => has_default s | _ => false end) (scalars t) ++ sections t)%list.
  (** ConfigManager.get_defaults, lines 831-861: the new configuration is the last one.
      [validate(copy=True)] gives it comments of its own, taken from the specifications; then
      they are erased (lines 854-858: [call_on_sections] when nocomments is 2) or replaced by the
      dictionary of the specifications (line 860). *)
  Definition copied (t : node) (d : dict string) : dict string :=
    map (fun k => (k, match dget d k with Some c => c | None => "" end)) (scalars t ++ sections t)%list.
  Definition erased (t : node) (names : list string) (nocomments : Z) (d : dict string) : dict string :=
    map (fun kc => (fst kc, if mem (fst kc) names && (mem (fst kc) (scalars t) || Z.eqb nocomments 2) then "" else snd kc)) d.
  Definition get_defaults (a : nat) (nocomments : Z) (st : state) : res nat * state :=
    match nth_error (st_specs st) a with
    | None => (Raise NameError, st)
    | Some sp =>
      let t := sp_tree sp in
      let names := default_names t in
      let own := copied t (the_dict st (sp_inline sp)) in
      let c := List.length (st_configs st) in
      let new := List.length (st_dicts st) in
      if negb (Z.eqb nocomments 0) then
        (Ok c, mkstate (st_specs st) (st_configs st ++ [mkconfig names new])%list (st_dicts st ++ [erased t names nocomments own])%list)
      else if is_empty t then
        (Ok c, mkstate (st_specs st) (st_configs st ++ [mkconfig names new])%list (st_dicts st ++ [own])%list)
      else (Ok c, mkstate (st_specs st) (st_configs st ++ [mkconfig names (sp_inline sp)])%list (st_dicts st))
    end.
End defaults.

(** What a program does with a configuration: change an inline comment, remove an option
    (Section.__delitem__), read what ConfigObj.write puts after each name *)
Definition set_comment (c : nat) (k text : string) (st : state) : state :=
  match nth_error (st_configs st) c with
  | Some cg => set_dict st (cg_inline cg) (dset (the_dict st (cg_inline cg)) k text)
  | None => st
  end.
Definition del_option (c : nat) (k : string) (st : state) : option exn * state :=
  match nth_error (st_configs st) c with
  | Some cg =>
    if mem k (cg_names cg) then
      let st' := mkstate (st_specs st) (put_nth (st_configs st) c (mkconfig (remove_first k (cg_names cg)) (cg_inline cg))) (st_dicts st) in
      if dmem (the_dict st (cg_inline cg)) k then (None, set_dict st' (cg_inline cg) (ddel (the_dict st (cg_inline cg)) k))
      else (Some KeyError, st')
    else (Some KeyError, st)
  | None => (Some NameError, st)
  end.
Fixpoint comments_of (names : list string) (d : dict string) : res (list (string * string)) :=
  match names with
  | [] => Ok []
  | k :: l => match dget d k with Some c => let* r := comments_of l d in Ok ((k, c) :: r) | None => Raise KeyError end
  end.
Definition write (c : nat) (st : state) : res (list (string * string)) :=
  match nth_error (st_configs st) c with
  | Some cg => comments_of (cg_names cg) (the_dict st (cg_inline cg))
  | None => Raise NameError
  end.

(** A program *)
Inductive op :=
| Manager (src : source) (flt : option (list (string * fval) * bool)) (boolean_false : bool)
| Defaults (a : nat) (nocomments : Z)
| Comment (c : nat) (k text : string)
| Remove (c : nat) (k : string).
Definition step (has_default : string -> bool) (st : state) (o : op) : state :=
  match o with
  | Manager src flt b => snd (new_manager src flt b st)
  | Defaults a z => snd (get_defaults has_default a z st)
  | Comment c k t => set_comment c k t st
  | Remove c k => snd (del_option c k st)
  end.
Definition run (has_default : string -> bool) (l : list op) (st : state) : state := fold_left (step has_default) l st.
