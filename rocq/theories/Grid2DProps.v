(** C47: edges of 2D coordinates. *)
From Verif Require Import PyBaseFacts Grid GridSpec GridProofs Grid2D.
From Coq Require Import Lia Lqa.
Open Scope nat_scope.

(** The edges of a sequence of [n] numbers: half way inside, linear extrapolation at both ends *)
Definition edge1 (n : nat) (f : nat -> Q) (k : nat) : Q :=
  if k =? 0 then ((3 # 2) * f 0%nat - (1 # 2) * f 1%nat)%Q
  else if k =? n then ((3 # 2) * f (n - 1)%nat - (1 # 2) * f (n - 2)%nat)%Q
  else ((f (k - 1)%nat + f k) / 2)%Q.
(** on each axis *)
Definition edge2 (ny nx : nat) (f : nat -> nat -> Q) (j i : nat) : Q :=
  edge1 ny (fun j' => edge1 nx (f j') i) j.
Definition on_row_border (ny j : nat) : bool := (j =? 0) || (j =? ny).
(** What is left of the uninitialised memory: all of it on the border, half of it at corners *)
Definition residue (ny nx : nat) (q : nat -> nat -> Q) (j i : nat) : Q :=
  if on_row_border ny j then (if on_row_border nx i then q j i / 2 else q j i)%Q
  else if on_row_border nx i then q j i else 0%Q.

Lemma edges_map junk n f : 2 <= n ->
  exists e, get_edges_1d store_float junk (map (fun i => Some (f i)) (seq 0 n)) = Ok e /\
    forall k, k <= n -> exists q, nth k e None = Some q /\ (q == edge1 n f k)%Q.
Proof.
  intro Hn. set (d := map (fun i => Some (f i)) (seq 0 n) : list fl).
  assert (L : @List.length fl d = n) by (unfold d; now rewrite map_length, seq_length).
  destruct (get_edges_1d_ok store_float junk d) as (e & E & Le & V); [lia|].
  exists e. split; [exact E|]. intros k Hk.
  assert (D : forall i, i < n -> nth_error d i = Some (Some (f i))).
  { intros i Hi. unfold d. rewrite nth_error_map. rewrite (proj2 (nth_seq 0 n i i)) by lia. reflexivity. }
  specialize (V k ltac:(lia)). unfold edges_val in V. rewrite L in V.
  unfold edge1. destruct (Nat.eqb_spec k 0) as [Ek|N0]; [subst k|].
  - rewrite !D in V by lia. cbn [Nat.eqb] in V. eexists.
    split; [apply nth_error_nth; rewrite V; cbn; reflexivity|]. unfold half. field.
  - destruct (Nat.eqb_spec k n) as [Ek|Nn]; [subst k|].
    + rewrite !D in V by lia. cbn [Nat.eqb] in V. eexists.
      split; [apply nth_error_nth; rewrite V; cbn; reflexivity|]. unfold half. field.
    + rewrite !D in V by lia. cbn [Nat.eqb] in V. eexists.
      split; [apply nth_error_nth; rewrite V; cbn; reflexivity|]. unfold half. field.
Qed.

(** Every edge is the ideal one, plus what was in the uninitialised memory on the border *)
Theorem C47_edges_2d (junk : grid) junk1 suffix (a : da fl) ny nx (f q : nat -> nat -> Q) : shape a = [ny; nx] -> 2 <= ny -> 2 <= nx ->
  (forall j i, j < ny -> i < nx -> value a [j; i] = Some (f j i)) ->
  (forall j i, junk j i = Some (q j i)) ->
  exists r, get_edges_2d true true junk junk1 suffix a = Ok r /\
    dims r = map (fun d => (d ++ suffix)%string) (dims a) /\ shape r = [S ny; S nx] /\
    forall j i, j <= ny -> i <= nx ->
      feq (value r [j; i]) (Some (edge2 ny nx f j i + residue ny nx q j i)%Q).
Proof.
  intros Hs Hy Hx Hv Hj. unfold get_edges_2d. rewrite Hs.
  destruct (Nat.ltb_spec ny 2); [lia|].
  assert (R : forall j j', j < ny -> j' < ny -> map (fun i => extrap (value a [j; i]) (value a [j'; i])) (seq 0 nx) =
     map (fun i => Some ((3 # 2) * f j i - (1 # 2) * f j' i)%Q) (seq 0 nx)).
  { intros j j' Lj Lj'. apply map_ext_in. intros i Hi. apply in_seq in Hi. rewrite !Hv by lia. reflexivity. }
  assert (C : forall i i', i < nx -> i' < nx -> map (fun j => extrap (value a [j; i]) (value a [j; i'])) (seq 0 ny) =
     map (fun j => Some ((3 # 2) * f j i - (1 # 2) * f j i')%Q) (seq 0 ny)).
  { intros i i' Li Li'. apply map_ext_in. intros j Hj'. apply in_seq in Hj'. rewrite !Hv by lia. reflexivity. }
  rewrite !R, !C by lia. clear R C.
  destruct (edges_map (junk1 0) nx (fun i => ((3 # 2) * f 0%nat i - (1 # 2) * f 1%nat i)%Q) Hx) as (e0 & E0 & V0).
  destruct (edges_map (junk1 1) nx (fun i => ((3 # 2) * f (ny - 1)%nat i - (1 # 2) * f (ny - 2)%nat i)%Q) Hx) as (e1 & E1 & V1).
  destruct (edges_map (junk1 2) ny (fun j => ((3 # 2) * f j 0%nat - (1 # 2) * f j 1%nat)%Q) Hy) as (e2 & E2 & V2).
  destruct (edges_map (junk1 3) ny (fun j => ((3 # 2) * f j (nx - 1)%nat - (1 # 2) * f j (nx - 2)%nat)%Q) Hy) as (e3 & E3 & V3).
  rewrite E0, E1, E2, E3. cbn [bind negb]. eexists. split; [reflexivity|]. cbn [dims shape value nth].
  split; [reflexivity|]. split; [reflexivity|]. intros j i Lj Li.
  destruct (V0 i Li) as (q0 & N0 & Q0). destruct (V1 i Li) as (q1 & N1 & Q1).
  destruct (V2 j Lj) as (q2 & N2 & Q2). destruct (V3 j Lj) as (q3 & N3 & Q3).
  unfold add_row, add_col. rewrite N0, N1, N2, N3. unfold edge2, edge1, residue, on_row_border in *.
  destruct (Nat.eqb_spec j 0) as [J0|J0], (Nat.eqb_spec j ny) as [J1|J1]; try lia;
  destruct (Nat.eqb_spec i 0) as [I0|I0], (Nat.eqb_spec i nx) as [I1|I1]; try lia; subst; cbn [orb andb Nat.leb].
  all: try (rewrite ?(proj2 (Nat.ltb_ge _ _)) by lia).
  all: rewrite ?Bool.andb_false_r; cbn [andb].
  all: try (rewrite !Hj; cbn; rewrite ?Q0, ?Q1, ?Q2, ?Q3; field).
  - rewrite (proj2 (Nat.ltb_ge nx nx)) by lia. rewrite Bool.andb_false_r, Hj. cbn. rewrite Q3. field.
  - rewrite (proj2 (Nat.ltb_lt j ny)), (proj2 (Nat.ltb_lt i nx)) by lia.
    destruct j as [|j]; [lia|]. destruct i as [|i]; [lia|]. cbn [andb].
    rewrite !Hv by lia. cbn. field.
Qed.
Print Assumptions C47_edges_2d.

(** Inside, the edges do not depend on the memory: the mean of the four neighbours *)
Theorem C47_inside (junk : grid) junk1 suffix (a : da fl) ny nx (f q : nat -> nat -> Q) r : shape a = [ny; nx] -> 2 <= ny -> 2 <= nx ->
  (forall j i, j < ny -> i < nx -> value a [j; i] = Some (f j i)) ->
  (forall j i, junk j i = Some (q j i)) ->
  get_edges_2d true true junk junk1 suffix a = Ok r ->
  forall j i, S j < ny -> S i < nx ->
    feq (value r [S j; S i]) (Some ((f j i + f j (S i) + f (S j) i + f (S j) (S i)) / 4)%Q).
Proof.
  intros Hs Hy Hx Hv Hj E j i Lj Li.
  destruct (C47_edges_2d junk junk1 suffix a ny nx f q Hs Hy Hx Hv Hj) as (r' & E' & _ & _ & V).
  rewrite E in E'. injection E' as <-. specialize (V (S j) (S i) ltac:(lia) ltac:(lia)).
  unfold edge2, edge1, residue, on_row_border in V.
  destruct (Nat.eqb_spec (S j) ny), (Nat.eqb_spec (S i) nx); try lia. cbn [Nat.eqb orb] in V.
  rewrite !Nat.sub_succ, !Nat.sub_0_r in V.
  destruct (value r [S j; S i]) as [v|]; cbn in *; [|easy]. rewrite V. field.
Qed.
(** A regular (possibly rotated) grid: all the edges are half a cell away, if the memory was zero *)
Theorem C47_affine (junk : grid) junk1 suffix (a : da fl) ny nx (x0 dx dy : Q) r : shape a = [ny; nx] -> 2 <= ny -> 2 <= nx ->
  (forall j i, j < ny -> i < nx ->
     value a [j; i] = Some (x0 + dx * inject_Z (Z.of_nat i) + dy * inject_Z (Z.of_nat j))%Q) ->
  (forall j i, junk j i = Some 0%Q) ->
  get_edges_2d true true junk junk1 suffix a = Ok r ->
  forall j i, j <= ny -> i <= nx ->
    feq (value r [j; i]) (Some (x0 + dx * (inject_Z (Z.of_nat i) - (1 # 2)) + dy * (inject_Z (Z.of_nat j) - (1 # 2)))%Q).
Proof.
  intros Hs Hy Hx Hv Hj E j i Lj Li.
  destruct (C47_edges_2d junk junk1 suffix a ny nx _ (fun _ _ => 0%Q) Hs Hy Hx Hv Hj) as (r' & E' & _ & _ & V).
  rewrite E in E'. injection E' as <-. specialize (V j i Lj Li).
  destruct (value r [j; i]) as [v|]; cbn in *; [|easy]. rewrite V. clear V.
  assert (R0 : (residue ny nx (fun _ _ => 0) j i == 0)%Q).
  { unfold residue. destruct (on_row_border ny j), (on_row_border nx i); reflexivity. }
  rewrite R0. unfold edge2, edge1.
  assert (P : forall n, 1 <= n -> (inject_Z (Z.of_nat (n - 1)) == inject_Z (Z.of_nat n) - 1)%Q).
  { intros n Hn. rewrite Nat2Z.inj_sub by lia. unfold Zminus. rewrite inject_Z_plus. reflexivity. }
  assert (P2 : forall n, 2 <= n -> (inject_Z (Z.of_nat (n - 2)) == inject_Z (Z.of_nat n) - 2)%Q).
  { intros n Hn. rewrite Nat2Z.inj_sub by lia. unfold Zminus. rewrite inject_Z_plus. reflexivity. }
  destruct (Nat.eqb_spec j 0) as [J0|J0], (Nat.eqb_spec i 0) as [I0|I0];
  try destruct (Nat.eqb_spec j ny) as [J1|J1]; try destruct (Nat.eqb_spec i nx) as [I1|I1]; subst;
  rewrite ?P, ?P2 by lia;
  change (inject_Z (Z.of_nat 0)) with 0%Q; change (inject_Z (Z.of_nat 1)) with 1%Q; field.
Qed.
(** but on the border anything can come out *)
Theorem C47_border_refuted junk1 suffix (a : da fl) ny nx (f : nat -> nat -> Q) (v : Q) i : shape a = [ny; nx] ->
  2 <= ny -> 2 <= nx -> i <= nx ->
  (forall j i, j < ny -> i < nx -> value a [j; i] = Some (f j i)) ->
  exists junk r, get_edges_2d true true junk junk1 suffix a = Ok r /\ feq (value r [0; i]) (Some v).
Proof.
  intros Hs Hy Hx Li Hv.
  set (w := (v - edge2 ny nx f 0 i)%Q). set (q := if on_row_border nx i then (2 * w)%Q else w).
  destruct (C47_edges_2d (fun _ _ => Some q) junk1 suffix a ny nx f (fun _ _ => q) Hs Hy Hx Hv) as (r & E & _ & _ & V); auto.
  exists (fun _ _ => Some q), r. split; [exact E|]. specialize (V 0 i ltac:(lia) Li).
  destruct (value r [0; i]) as [x|]; cbn in *; [|easy]. rewrite V. unfold residue, q. cbn [on_row_border Nat.eqb orb].
  destruct (on_row_border nx i); unfold w; field.
Qed.
(** Other arrays *)
Theorem C47_ndarray_refuted junk junk1 suffix (a : da fl) ny nx : shape a = [ny; nx] -> 2 <= ny -> 2 <= nx ->
  get_edges_2d false true junk junk1 suffix a = Raise AttributeError.
Proof.
  intros Hs Hy Hx. unfold get_edges_2d. rewrite Hs. destruct (Nat.ltb_spec ny 2); [lia|].
  do 4 match goal with |- context[get_edges_1d store_float ?j ?l] =>
    destruct (get_edges_1d_ok store_float j l) as (? & -> & _); [rewrite map_length, seq_length; lia|]; cbn [bind negb] end.
  reflexivity.
Qed.
Theorem C47_integers_refuted is_xr junk junk1 suffix (a : da fl) ny nx : shape a = [ny; nx] -> 2 <= ny -> 2 <= nx ->
  get_edges_2d is_xr false junk junk1 suffix a = Raise TypeError.
Proof.
  intros Hs Hy Hx. unfold get_edges_2d. rewrite Hs. destruct (Nat.ltb_spec ny 2); [lia|].
  match goal with |- context[get_edges_1d store_float ?j ?l] =>
    destruct (get_edges_1d_ok store_float j l) as (? & -> & _); [rewrite map_length, seq_length; lia|]; cbn [bind negb] end.
  reflexivity.
Qed.
Theorem C47_too_small is_xr is_float junk junk1 suffix (a : da fl) ny nx : shape a = [ny; nx] -> ny < 2 \/ nx < 2 ->
  get_edges_2d is_xr is_float junk junk1 suffix a = Raise IndexError.
Proof.
  intros Hs H. unfold get_edges_2d. rewrite Hs. destruct (Nat.ltb_spec ny 2); [reflexivity|].
  rewrite get_edges_1d_short; [reflexivity|]. rewrite map_length, seq_length. lia.
Qed.
(** A rotated grid of 2 x 3 cells *)
Definition rotated : da fl := mkda ["y"; "x"]%string [2; 3]
  (fun idx => Some (10 + 2 * inject_Z (Z.of_nat (nth 1 idx 0%nat)) + 1 * inject_Z (Z.of_nat (nth 0 idx 0%nat)))%Q).
Example C47_ex : exists r, get_edges_2d true true (fun _ _ => Some 0%Q) (fun _ _ => None) "_edges" rotated = Ok r /\
  dims r = ["y_edges"; "x_edges"]%string /\ shape r = [3; 4] /\ feq (value r [0; 0]) (Some (17 # 2)%Q) /\
  feq (value r [2; 3]) (Some (33 # 2)%Q).
Proof.
  eexists. split; [reflexivity|]. repeat split; vm_compute; reflexivity.
Qed.
