(** Property C14: cell edges, xoa/grid.py. *)
From Verif Require Import Grid GridSpec GridProofs.
Open Scope nat_scope.
Local Notation "! q" := (Some q%Q) (at level 10, q at level 9).

(** Whatever the memory [junk] of the new array. *)
Theorem C14_edges_1d : forall junk d, 2 <= List.length d ->
  exists e, get_edges_1d store_float junk d = Ok e /\ edges_spec d e.
Proof. exact edges_spec_ok. Qed.
Print Assumptions C14_edges_1d.

Theorem C14_edges_1d_needs_two : forall store junk d, List.length d < 2 ->
  get_edges_1d store junk d = Raise IndexError.
Proof. exact get_edges_1d_short. Qed.
Print Assumptions C14_edges_1d_needs_two.

(** A strictly increasing axis: the edges are strictly increasing and strictly
    separate the values. *)
Theorem C14_edges_increasing : forall junk d e,
  2 <= List.length d -> all_valid d -> increasing d ->
  get_edges_1d store_float junk d = Ok e ->
  increasing e /\ all_valid e /\
  forall i x, val d i x -> exists a b, val e i a /\ val e (S i) b /\ (a < x < b)%Q.
Proof.
  intros junk d e Hn Hv Hm E. destruct (C14_edges_1d junk d Hn) as (e' & E' & S).
  rewrite E in E'. injection E' as <-.
  assert (Henc : forall i x, val d i x -> exists a b, val e i a /\ val e (Datatypes.S i) b /\ (1 * a < 1 * x < 1 * b)%Q).
  { apply edges_enclose; auto; [now left|]. intros i j a b Hij Ha Hb.
    specialize (Hm i j a b Hij Ha Hb). lra. }
  split; [|split].
  - intros i j a b Hij Ha Hb.
    assert (H := edges_monotonic 1 d e Henc Hv (proj1 S) i j a b Hij Ha Hb). lra.
  - intros i Hi. rewrite (proj1 S) in Hi. destruct (Nat.eq_dec i (List.length d)) as [->|Hne].
    + destruct (Hv (List.length d - 1)) as [x Hx]; [lia|]. destruct (Henc _ _ Hx) as (a & b & _ & Hb & _).
      replace (Datatypes.S (List.length d - 1)) with (List.length d) in Hb by lia. exists b. exact Hb.
    + destruct (Hv i) as [x Hx]; [lia|]. destruct (Henc _ _ Hx) as (a & b & Ha & _). exists a. exact Ha.
  - intros i x Hx. destruct (Henc i x Hx) as (a & b & Ha & Hb & H1 & H2). exists a, b.
    repeat split; auto; lra.
Qed.
Print Assumptions C14_edges_increasing.

Theorem C14_edges_decreasing : forall junk d e,
  2 <= List.length d -> all_valid d -> strictly_decreasing d ->
  get_edges_1d store_float junk d = Ok e ->
  strictly_decreasing e /\
  forall i x, val d i x -> exists a b, val e i a /\ val e (S i) b /\ (b < x < a)%Q.
Proof.
  intros junk d e Hn Hv Hm E. destruct (C14_edges_1d junk d Hn) as (e' & E' & S).
  rewrite E in E'. injection E' as <-.
  assert (Henc : forall i x, val d i x -> exists a b, val e i a /\ val e (Datatypes.S i) b /\ (-1 * a < -1 * x < -1 * b)%Q).
  { apply edges_enclose; auto; [now right|]. intros i j a b Hij Ha Hb.
    specialize (Hm i j a b Hij Ha Hb). lra. }
  split.
  - intros i j a b Hij Ha Hb.
    assert (H := edges_monotonic (-1) d e Henc Hv (proj1 S) i j a b Hij Ha Hb). lra.
  - intros i x Hx. destruct (Henc i x Hx) as (a & b & Ha & Hb & H1 & H2). exists a, b.
    repeat split; auto; lra.
Qed.
Print Assumptions C14_edges_decreasing.

Theorem C14_edges_regular : forall junk d e y0 h,
  2 <= List.length d -> all_valid d ->
  (forall i a, val d i a -> (a == y0 + inject_Z (Z.of_nat i) * h)%Q) ->
  get_edges_1d store_float junk d = Ok e ->
  forall k x, val e k x -> (x == (y0 - h / 2) + inject_Z (Z.of_nat k) * h)%Q.
Proof.
  intros junk d e y0 h Hn Hv Hr E. destruct (C14_edges_1d junk d Hn) as (e' & E' & S).
  rewrite E in E'. injection E' as <-. now apply (edges_regular y0 h d e).
Qed.
Print Assumptions C14_edges_regular.

(** An integer axis: the edges are truncated to integers and no longer separate
    the values. *)
Theorem C14_edges_integer_refuted : exists d e,
  2 <= List.length d /\ all_valid d /\ increasing d /\
  (forall junk, get_edges_1d store_int junk d = Ok e) /\
  ~ increasing e.
Proof.
  exists [!0; !1; !2]. eexists. split; [simpl; lia|].
  assert (Hval : forall i x, val [!0; !1; !2] i x -> i < 3 /\ (x == inject_Z (Z.of_nat i))%Q).
  { intros [|[|[|i]]] x H; unfold val in H; simpl in H; try (injection H as <-; split; [lia|reflexivity]).
    destruct i; discriminate. }
  split; [|split; [|split]].
  - intros [|[|[|i]]] Hi; try (eexists; reflexivity). simpl in Hi. lia.
  - intros i j a b Hij Ha Hb. destruct (Hval _ _ Ha) as [_ ->], (Hval _ _ Hb) as [_ ->].
    rewrite <- Zlt_Qlt. lia.
  - intro junk. vm_compute. reflexivity.
  - intro H. assert (H1 := H 0 1 0%Q 0%Q ltac:(lia) eq_refl eq_refl). lra.
Qed.
Print Assumptions C14_edges_integer_refuted.

Example C14_ex : exists e, get_edges_1d store_float (fun _ => nan) [!0; !2; !3; !7] = Ok e /\
  feql e [!(-1); !1; !(5#2); !5; !9].
Proof.
  eexists. split; [vm_compute; reflexivity|]. repeat split; vm_compute; reflexivity.
Qed.
