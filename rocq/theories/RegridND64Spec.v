(** Specification vocabulary for regrid1d on labelled arrays of binary64 numbers (C78): what each method does of
    one column of data [v], with the input and output coordinates [yi], [yo] at the same place.  The relations on rows are those
    of C61-C63, C69 and C71. *)
From Verif Require Export Float64Spec Float64CellSpec Edges64Spec GridG Edges64Props RegridProps.
From Flocq Require Import Core BinarySingleNaN.
From Coq Require Import Reals.
Open Scope R_scope.
Local Notation row := (list (binary_float 53 1024)).

(** Numbers only *)
Definition all_numbers (l : row) : Prop := forall i, (i < List.length l)%nat -> gvalid real64 l i.
(** The edges that get_edges_1d gives to the cells of an axis are fit for averaging: of ordinary magnitude and, for the
    output axis, distinct (C71: always so for an axis of integers) *)
Definition usable_edges (strict : bool) (l : row) : Prop :=
  forall junk e, get_edges_1d_g o64 junk l = Ok e -> Forall ordinary e /\ if strict then gincreasing real64 e else True.
Definition column_pre64 (k : kernel) (v yi yo : row) : Prop :=
  match k with
  | Linear => Forall (within 500) v /\ Forall (within 500) yi /\ Forall (within 500) yo /\
              gincreasing real64 yi /\ gnondecreasing real64 yo
  | Nearest => Forall (within 1022) yi /\ Forall (within 1022) yo /\ gincreasing real64 yi /\ gnondecreasing real64 yo /\
               gno_hole real64 yi /\ gno_hole real64 yo /\ exists j, gvalid real64 yo j
  | Cubic | Hermit => Forall (within 900) v /\ all_numbers v /\ Forall (within 1000) yi /\ Forall (within 1000) yo /\
               gincreasing real64 yi /\ gincreasing real64 yo
  | Cellave => Forall ordinary v /\ (Z.of_nat (List.length v) <= 2 ^ 40)%Z /\
               (2 <= List.length yi)%nat /\ (2 <= List.length yo)%nat /\
               Forall (within 900) yi /\ Forall (within 900) yo /\ all_numbers yi /\ all_numbers yo /\
               gnondecreasing real64 yi /\ gincreasing real64 yo /\ usable_edges false yi /\ usable_edges true yo
  end.
Definition column_spec64 (k : kernel) (v yi yo r : row) : Prop :=
  match k with
  | Linear => linear64_row v yi yo r
  | Nearest => nearest64_row v yi yo r
  | Cubic => poly64_row lower_end v yi yo r /\ poly64_err cubic_poly 512 v yi yo r
  | Hermit => poly64_row some_end v yi yo r /\ poly64_err (hermite_poly 0 0) 4096 v yi yo r
  | Cellave => exists ei eo, edges64 yi ei /\ edges64 yo eo /\ cellave64_row false "no"%string v ei eo r
  end.
