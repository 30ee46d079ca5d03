(** Specification vocabulary for C26 and C27. *)
From Verif Require Export SGLoc.
Open Scope string_scope.

Definition known_attr (attr : string) : Prop :=
  attr = "name" \/ attr = "standard_name" \/ attr = "long_name".
(** A location: one of the valid locations, or letters when there is no list, up to case *)
Definition is_location (sg : sgloc) (l : string) : Prop :=
  match valid_locations sg with
  | [] => l <> "" /\ all_chars is_letter l = true
  | ws => exists w, In w ws /\ lower l = lower w
  end.
(** A root: word characters, and spaces in a long name *)
Definition is_root (attr r : string) : Prop := r <> "" /\ all_chars (root_class attr) r = true.
(** [v] begins with root [r] at location [l] written in the format of the attribute (up to
    case), and goes on with [rest]. *)
Definition carries (sg : sgloc) (attr v r l rest : string) : Prop :=
  is_root attr r /\ is_location sg l /\
  let f := format_of sg attr in
  exists p m q, lower p = lower (pre f) /\ lower m = lower (mid f) /\ lower q = lower (post f) /\
    v = (if root_first f then p ++ r ++ m ++ l ++ q ++ rest else p ++ l ++ m ++ r ++ q ++ rest).
(** Formats with a real separator: its first character is not a letter *)
Definition starts_non_letter (s : string) : Prop :=
  match s with String c _ => is_letter c = false | EmptyString => False end.
Definition letters (s : string) : Prop := s <> "" /\ all_chars is_letter s = true.
