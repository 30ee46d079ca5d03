(** Specification vocabulary for C23 and C24: labelled arrays seen as functions of named
    positions. *)
From Verif Require Export Labelled.
Open Scope nat_scope.

(** A DataArray has one size per dimension and distinct dimensions. *)
Definition wf {A} (a : da A) : Prop := List.length (dims a) = List.length (shape a) /\ NoDup (dims a).
(** The element of [a] at named positions ([a.isel(env)]) *)
Definition look {A} (a : da A) (env : string -> nat) : A := value a (map env (dims a)).
Definition setpos (env : string -> nat) (d : string) (k : nat) : string -> nat :=
  fun d' => if String.eqb d' d then k else env d'.
(** The elements of [a] along dimension [d], the other positions being fixed *)
Definition column {A} (a : da A) (env : string -> nat) (d : string) : list A :=
  map (fun k => look a (setpos env d k)) (seq 0 (size a d)).
(** [env] designates an element of [a], the position along [d] being irrelevant *)
Definition in_range {A} (a : da A) (env : string -> nat) (d : string) : Prop :=
  forall x, In x (dims a) -> x <> d -> env x < size a x.

(** Requested dimensions: names in their order, [rest] in place of the Ellipsis *)
Fixpoint placed (req : list (option string)) (rest : list string) : list string :=
  match req with
  | [] => []
  | Some d :: r => d :: placed r rest
  | None :: r => (rest ++ placed r rest)%list
  end.
(** Dimensions of the array that are not requested, in their order *)
Definition unnamed (ds : list string) (req : list (option string)) : list string :=
  List.filter (fun d => negb (existsb (fun r => match r with Some n => String.eqb d n | None => false end) req)) ds.
(** Requested dimensions that the array has *)
Definition known (ds : list string) (req : list (option string)) : list (option string) :=
  List.filter (fun r => match r with Some n => existsb (String.eqb n) ds | None => true end) req.
(** Without Ellipsis the other dimensions are flushed to the left. *)
Definition flush_left (req : list (option string)) : list (option string) :=
  if existsb (fun r => match r with None => true | _ => false end) req then req else None :: req.
