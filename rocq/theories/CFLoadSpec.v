(** What loading several CF configurations must give (C46). *)
From Verif Require Import CFLoad.
Open Scope string_scope.

Definition dims_of (ax : string) (s : src) : list string :=
  match dget (s_dims s) ax with Some (_, l) => l | None => [] end.
Definition names_of (k : string) (s : src) : list string :=
  match dget (s_coords s) k with Some (_, l) => l | None => [] end.
Definition axis_of (k : string) (s : src) : string :=
  match dget (s_coords s) k with Some (x, _) => x | None => "" end.
Definition has_dims (ax : string) (ss : list src) : Prop := exists s, In s ss /\ In ax (dkeys (s_dims s)).
Definition has_coord (k : string) (ss : list src) : Prop := exists s, In s ss /\ In k (dkeys (s_coords s)).
(** Merged values: the lists one after the other, the first axis that is set *)
Definition all_dims (ax : string) (ss : list src) : list string := flat_map (dims_of ax) ss.
Definition all_names (k : string) (ss : list src) : list string := flat_map (names_of k) ss.
Fixpoint first_axis (k : string) (ss : list src) : string :=
  match ss with
  | [] => ""
  | s :: ss' => if axis_of k s =? "" then first_axis k ss' else axis_of k s
  end.
(** Names of the coordinates, in the order of their first appearance *)
Fixpoint firsts (seen l : list string) : list string :=
  match l with
  | [] => []
  | x :: l' => if existsb (String.eqb x) seen then firsts seen l' else x :: firsts (seen ++ [x]) l'
  end.
Definition coord_keys (ss : list src) : list string := firsts [] (flat_map (fun s => dkeys (s_coords s)) ss).
(** The names that a coordinate adds to the valid dimensions of an axis *)
Definition adds (ax : string) (ss : list src) (k : string) : list string :=
  if first_axis k ss =? "" then []
  else if lower (first_axis k ss) =? ax then k :: all_names k ss else [].
Definition expected_dims (ax : string) (ss : list src) : list string :=
  (all_dims ax ss ++ flat_map (adds ax ss) (coord_keys ss))%list.

Definition src_wf (s : src) : Prop := dict_wf (s_dims s) /\ dict_wf (s_coords s).
(** Every axis used by a coordinate has its list in the section [dims] (always true of
    validated configurations) *)
Definition axes_known (ss : list src) : Prop :=
  forall k, has_coord k ss -> first_axis k ss <> "" -> has_dims (lower (first_axis k ss)) ss.
(** The source of a reference when there is no cache *)
Definition reads (disk : string -> res src) (r : ref) (s : src) : Prop :=
  match r with RText s' => s = s' | RName n => disk n = Ok s | RTuple _ _ => False end.
