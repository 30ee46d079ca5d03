(** Model of xoa/color.py:48-118, class CmapAdapter.  The colormaps [C] and the cropping
    function of cmocean ([crop cmap vmin vmax pivot], lines 28-45) are arguments; so is
    Python's conversion [float(s)], which answers None for a ValueError. *)
From Verif Require Export PyDict.
From Coq Require Export QArith.
Open Scope string_scope.

Section Color.
  Context {C : Type} (crop : C -> Q -> Q -> Q -> C) (pyfloat : string -> option Q).

  Inductive kind := Pivot | Cycle.
  (** [a_specs]: None when the attribute is not set (the branch [specs is None] of line 83
      always fails at line 85) *)
  Record adapter := mkad { a_cmap : C; a_specs : option (kind * Q); a_vmin : option Q; a_vmax : option Q }.

  (** lines 80-92: __init__ *)
  Definition init (cmap : C) (specs : option string) : res adapter :=
    match specs with
    | None => Raise AttributeError
    | Some s =>
      if startswith s "piv" then
        match pyfloat (sdrop 3 s) with
        | Some v => Ok (mkad cmap (Some (Pivot, v)) None None)
        | None => Raise ValueError
        end
      else if startswith s "cyc" then
        match pyfloat (sdrop 3 s) with
        | Some v => Ok (mkad cmap (Some (Cycle, v)) (Some 0) (Some v))
        | None => Raise ValueError
        end
      else Ok (mkad cmap None None None)
    end.
  (** lines 94-100: set_vlim *)
  Definition set_vlim (a : adapter) (vmin vmax : Q) : res (adapter * (Q * Q)) :=
    match a_specs a with
    | None => Raise AttributeError
    | Some (k, _) =>
      let (vmin, vmax) := match k with Cycle => (0, 360) | Pivot => (vmin, vmax) end in
      Ok (mkad (a_cmap a) (a_specs a) (Some vmin) (Some vmax), (vmin, vmax))
    end.
  (** lines 102-111: get_cmap ([None] when the function returns nothing) *)
  Definition get_cmap (a : adapter) : res (option C) :=
    match a_specs a with
    | None => Raise AttributeError
    | Some (Pivot, p) =>
      Ok (Some (match a_vmin a, a_vmax a with
                | Some lo, Some hi => crop (a_cmap a) lo hi p
                | _, _ => a_cmap a
                end))
    | Some (Cycle, _) => Ok None
    end.
  (** lines 113-115: get_dict *)
  Definition get_dict (a : adapter) : res (option C * option Q * option Q) :=
    let* c := get_cmap a in Ok (c, a_vmin a, a_vmax a).

  (** cfgm.py:310-322: the validator [is_cmap].  A value is a text, a list or an already built
      object; [str] is Python's [str(value)] and [lookup] is [plt.get_cmap], whose errors on
      an unknown name are ValueErrors.  For a list, line 318 imports a name [cmap_custom] which
      color.py does not define: [NoImport] stands for the ImportError. *)
  Inductive cvalue := VText (s : string) | VItems (l : list string) | VObject (repr : string).
  Inductive coutcome := CNone | CAdapter (a : adapter) | NoImport | CRaise (e : exn).
  Definition is_cmap (strlist : list string -> string) (lookup : cvalue -> option C) (v : cvalue) : coutcome :=
    let str := match v with VText s => s | VItems l => strlist l | VObject r => r end in
    if str =? "None" then CNone else
    match v with
    | VItems _ => NoImport
    | _ =>
      match lookup v with
      | None => CRaise ValueError
      | Some c => match init c None with Ok a => CAdapter a | Raise e => CRaise e end
      end
    end.

  (** A history of calls on one adapter *)
  Inductive call := CSet (vmin vmax : Q) | CGetCmap | CGetDict.
  Definition step (a : adapter) (c : call) : res adapter :=
    match c with
    | CSet lo hi => let* r := set_vlim a lo hi in Ok (fst r)
    | CGetCmap => let* _ := get_cmap a in Ok a
    | CGetDict => let* _ := get_dict a in Ok a
    end.
  Fixpoint run (a : adapter) (cs : list call) : res adapter :=
    match cs with [] => Ok a | c :: cs' => let* a' := step a c in run a' cs' end.
End Color.
Arguments adapter C : clear implicits.
Arguments coutcome C : clear implicits.
