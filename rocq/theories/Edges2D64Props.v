(** C80: the corners of 2D cells (xoa.grid.get_edges_2d) computed on doubles. *)
From Verif Require Import Float64PolyErr Grid2DG Edges64Spec Edges2D64Spec Sigma64 Sigma64Props Sigma64Order Float64CellRows Float64Props Edges64Props Edges2D64Facts.
From Verif Require Import Labelled.
From Flocq Require Import Core BinarySingleNaN.
From Coq Require Import Reals Lra Psatz.
Open Scope R_scope.
Local Notation app := Float64App.app.
Local Notation value := Sigma64Spec.value.
Local Notation at_ := Labelled.value.
Definition quarter64 : f64 := const64 (1 # 4).
Definition c15_64 : f64 := const64 (3 # 2).
Definition mean64 (a b c d : f64) : f64 := mul64 quarter64 (add64 (add64 (add64 a b) c) d).
Definition extrap64 (a b : f64) : f64 := sub64 (mul64 c15_64 a) (mul64 half64 b).
(** get_edges_2d of a float64 DataArray *)
Definition get_edges_2d_64 (junk junk1 : nat -> nat -> f64) (suffix : string) (a : da f64) : res (da f64) :=
  get_edges_2d_g o64 quarter64 c15_64 B754_nan junk junk1 suffix a.

(** ** What is computed at each position *)
Definition e1 (n : nat) (f : nat -> f64) (k : nat) : f64 :=
  if (k =? 0)%nat then outer64 (f 0%nat) (f 1%nat) else if (k =? n)%nat then outer64 (f (n - 1)%nat) (f (n - 2)%nat) else inner64 (f (k - 1)%nat) (f k).
Lemma nth_map_seq {A} (f : nat -> A) n k : (k < n)%nat -> nth_error (map f (seq 0 n)) k = Some (f k).
Proof.
  intro H. rewrite nth_error_map. assert (E : nth_error (seq 0 n) k = Some k); [|now rewrite E].
  rewrite (nth_error_nth' _ 0%nat) by now rewrite seq_length. now rewrite seq_nth.
Qed.
Lemma e1_ok junk n f : (2 <= n)%nat -> exists e, get_edges_1d_g o64 junk (map f (seq 0 n)) = Ok e /\
  forall k, (k <= n)%nat -> nth k e B754_nan = e1 n f k.
Proof.
  intro H. set (l := map f (seq 0 n)). assert (L : List.length l = n) by (unfold l; now rewrite map_length, seq_length).
  assert (X : forall k, (k < n)%nat -> nth_error l k = Some (f k)) by (intros; now apply nth_map_seq). clearbody l.
  assert (H' : (2 <= List.length l)%nat) by lia. destruct (get_edges_1d_g_ok o64 junk l H') as (e & E & Le & V). exists e. split; auto. intros k Hk.
  specialize (V k). unfold edges_val_g in V. change (num_ o64) with f64 in *. rewrite L in V. specialize (V Hk). unfold e1.
  destruct (Nat.eqb_spec k 0) as [K|K].
  - rewrite !X in V by lia. exact (nth_error_nth _ _ _ V).
  - destruct (Nat.eqb_spec k n) as [K'|K']; rewrite !X in V by lia; exact (nth_error_nth _ _ _ V).
Qed.
(** rows and columns extrapolated beyond the border *)
Definition beyond_row (ny : nat) (d : nat -> nat -> f64) (j : nat) : nat -> f64 :=
  fun i => if (j =? 0)%nat then extrap64 (d 0%nat i) (d 1%nat i) else extrap64 (d (ny - 1)%nat i) (d (ny - 2)%nat i).
Definition beyond_col (nx : nat) (d : nat -> nat -> f64) (i : nat) : nat -> f64 :=
  fun j => if (i =? 0)%nat then extrap64 (d j 0%nat) (d j 1%nat) else extrap64 (d j (nx - 1)%nat) (d j (nx - 2)%nat).
Definition corner64 (ny nx : nat) (junk d : nat -> nat -> f64) (j i : nat) : f64 :=
  if on_border ny j then
    if on_border nx i then mul64 (add64 (add64 (junk j i) (e1 nx (beyond_row ny d j) i)) (e1 ny (beyond_col nx d i) j)) half64
    else add64 (junk j i) (e1 nx (beyond_row ny d j) i)
  else if on_border nx i then add64 (junk j i) (e1 ny (beyond_col nx d i) j)
  else mean64 (d j i) (d (j - 1)%nat i) (d j (i - 1)%nat) (d (j - 1)%nat (i - 1)%nat).
Lemma computed junk junk1 suffix (a : da f64) ny nx : shape a = [ny; nx] -> (2 <= ny)%nat -> (2 <= nx)%nat ->
  exists r, get_edges_2d_64 junk junk1 suffix a = Ok r /\ dims r = map (fun d => (d ++ suffix)%string) (dims a) /\ shape r = [S ny; S nx] /\
    forall j i, (j <= ny)%nat -> (i <= nx)%nat -> at_ r [j; i] = corner64 ny nx junk (fun j i => at_ a [j; i]) j i.
Proof.
  intros Hs Hy Hx. unfold get_edges_2d_64, get_edges_2d_g. change (num_ o64) with f64 in *. rewrite Hs. destruct (Nat.ltb_spec ny 2); [lia|].
  set (d := fun j i => at_ a [j; i]).
  destruct (e1_ok (junk1 0%nat) nx (beyond_row ny d 0) Hx) as (t & E1 & V1). destruct (e1_ok (junk1 1%nat) nx (beyond_row ny d ny) Hx) as (t2 & E2 & V2).
  destruct (e1_ok (junk1 2%nat) ny (beyond_col nx d 0) Hy) as (t3 & E3 & V3). destruct (e1_ok (junk1 3%nat) ny (beyond_col nx d nx) Hy) as (t4 & E4 & V4).
  assert (Ny : (ny =? 0)%nat = false) by (apply Nat.eqb_neq; lia). assert (Nx : (nx =? 0)%nat = false) by (apply Nat.eqb_neq; lia).
  unfold beyond_row, beyond_col in E1, E2, E3, E4. rewrite Ny in E2. rewrite Nx in E4. cbn [Nat.eqb] in E1, E3.
  change (num_ o64) with f64 in *. change (extrap_g o64 c15_64) with extrap64.
  unfold d in E1, E2, E3, E4. eexists. split; [rewrite E1; cbn [bind]; rewrite E2; cbn [bind]; rewrite E3; cbn [bind]; rewrite E4; cbn [bind]; reflexivity|].
  split; [reflexivity|]. split; [reflexivity|]. intros j i Hj Hi. cbn [at_ nth]. unfold corner64, on_border, add_row_g, add_col_g.
  change (o_add o64) with add64. change (o_mul o64) with mul64. change (o_half o64) with half64. change (num_ o64) with f64 in *.
  destruct (Nat.eqb_spec j 0) as [->|J0]; [|destruct (Nat.eqb_spec j ny) as [->|Jn]]; (destruct (Nat.eqb_spec i 0) as [->|I0]; [|destruct (Nat.eqb_spec i nx) as [->|In_]]); cbn [orb andb];
    rewrite ?Ny, ?Nx, ?Nat.eqb_refl, ?(proj2 (Nat.eqb_neq 0 nx)), ?(proj2 (Nat.eqb_neq 0 ny)) by lia; rewrite ?V1, ?V2, ?V3, ?V4 by lia.
  all: match goal with |- context[if ?b then _ else _] => destruct b eqn:G end; try reflexivity; exfalso; rewrite ?andb_true_iff, ?andb_false_iff, ?Nat.leb_le, ?Nat.leb_gt, ?Nat.ltb_lt, ?Nat.ltb_ge in G; lia.
Qed.

(** ** Constants and elementary steps *)
Lemma quarter_val : is_finite quarter64 = true /\ B2R quarter64 = / 4.
Proof. destruct (const_val quarter64 false 4503599627370496 (-54) eq_refl) as [F V]. split; auto. rewrite V. unfold F2R. cbn. lra. Qed.
Lemma c15_val : is_finite c15_64 = true /\ B2R c15_64 = 3 / 2.
Proof. destruct (const_val c15_64 false 6755399441055744 (-52) eq_refl) as [F V]. split; auto. rewrite V. unfold F2R. cbn. lra. Qed.
Lemma quarter_fin : fin 0 quarter64.
Proof. destruct quarter_val as [F V]. split; auto. rewrite V. cbn. rewrite Rabs_pos_eq; lra. Qed.
Lemma quarter_app : app 1 quarter64 (/ 4) (/ 4) 0.
Proof. destruct quarter_val as [F V]. assert (A : app 1 quarter64 (B2R quarter64) (/ 4) 0) by (apply app_exact; auto using scale_1; rewrite V, Rabs_pos_eq; lra). now rewrite V in A. Qed.
Lemma c15_app : app 1 c15_64 (3 / 2) (3 / 2) 0.
Proof. destruct c15_val as [F V]. assert (A : app 1 c15_64 (B2R c15_64) (3 / 2) 0) by (apply app_exact; auto using scale_1; rewrite V, Rabs_pos_eq; lra). now rewrite V in A. Qed.

(** ** Inside: the mean of the four neighbours *)
Lemma mean_fin a b c d : fin 900 a -> fin 900 b -> fin 900 c -> fin 900 d ->
  is_finite (mean64 a b c d) = true /\ B2R (mean64 a b c d) = RN (RN (RN (RN (B2R a + B2R b) + B2R c) + B2R d) * / 4).
Proof.
  intros Fa Fb Fc Fd. assert (F1 : fin 901 (add64 a b)) by (apply (fin_ops_add 901 900 900); auto; lia).
  assert (F2 : fin 902 (add64 (add64 a b) c)) by (apply (fin_ops_add 902 901 900); auto; lia).
  assert (F3 : fin 903 (add64 (add64 (add64 a b) c) d)) by (apply (fin_ops_add 903 902 900); auto; lia).
  assert (F4 : fin 903 (mean64 a b c d)) by (apply (fin_ops_mul 903 0 903); auto using quarter_fin; lia). split; [apply F4|].
  unfold mean64 in *. rewrite mul_fin_inv by (apply quarter_fin || apply F3 || apply F4). rewrite (proj2 quarter_val).
  rewrite add_fin_inv by (apply F2 || apply Fd || apply F3). rewrite add_fin_inv by (apply F1 || apply Fc || apply F2). rewrite add_fin_inv by (apply Fa || apply Fb || apply F1).
  f_equal. ring.
Qed.
Lemma mean_between a b c d lo hi : fin 900 a -> fin 900 b -> fin 900 c -> fin 900 d ->
  generic_format radix2 fexp64 lo -> generic_format radix2 fexp64 hi ->
  lo <= B2R a <= hi -> lo <= B2R b <= hi -> lo <= B2R c <= hi -> lo <= B2R d <= hi -> lo <= B2R (mean64 a b c d) <= hi.
Proof.
  intros Fa Fb Fc Fd Gl Gh A B C D. rewrite (proj2 (mean_fin a b c d Fa Fb Fc Fd)). split.
  - rewrite <- (round_generic radix2 fexp64 (round_mode mode_NE) lo Gl) at 1. apply RN_le. assert (H := sum4_ge lo _ _ _ _ Gl (proj1 A) (proj1 B) (proj1 C) (proj1 D)). lra.
  - rewrite <- (round_generic radix2 fexp64 (round_mode mode_NE) hi Gh) at 1. apply RN_le. assert (H := sum4_le hi _ _ _ _ Gh (proj2 A) (proj2 B) (proj2 C) (proj2 D)). lra.
Qed.
Lemma mean_app M a b c d x y z t : scale M -> app M a x 1 0 -> app M b y 1 0 -> app M c z 1 0 -> app M d t 1 0 ->
  app M (mean64 a b c d) ((x + y + z + t) / 4) 1 (34 / 10).
Proof.
  intros S A B C D. assert (H1 : app M (add64 a b) (x + y) 2 2) by (eapply app_add; eauto; try lra; tn).
  assert (H2 : app M (add64 (add64 a b) c) (x + y + z) 3 (51 / 10)) by (eapply app_add; eauto; try lra; tn).
  assert (H3 : app M (add64 (add64 (add64 a b) c) d) (x + y + z + t) 4 (92 / 10)) by (eapply app_add; eauto; try lra; tn).
  replace ((x + y + z + t) / 4) with (/ 4 * (x + y + z + t)) by lra. unfold mean64. eapply app_mul; eauto using quarter_app; try lra; tn.
Qed.
(** ** Borders *)
Lemma extrap_app M a b x y : scale M -> app M a x 1 0 -> app M b y 1 0 -> app M (extrap64 a b) (3 / 2 * x - 1 / 2 * y) 2 (41 / 10).
Proof.
  intros S A B. assert (H1 : app M (mul64 c15_64 a) (3 / 2 * x) (3 / 2) (151 / 100)) by (eapply app_mul; eauto using c15_app; try lra; tn).
  assert (H2 : app M (mul64 half64 b) (/ 2 * y) (/ 2) (51 / 100)) by (eapply app_mul; eauto using half_app; try lra; tn).
  replace (1 / 2 * y) with (/ 2 * y) by lra. unfold extrap64. eapply app_sub; eauto; try lra; tn.
Qed.
Lemma outer_app M a b x y : scale M -> app M a x 2 (41 / 10) -> app M b y 2 (41 / 10) -> app M (outer64 a b) (3 / 2 * x - 1 / 2 * y) 4 (165 / 10).
Proof.
  intros S A B. assert (D : app M (sub64 b a) (y - x) 4 (123 / 10)) by (eapply app_sub; eauto; try lra; tn).
  assert (H : app M (mul64 (sub64 b a) half64) ((y - x) * / 2) 2 (82 / 10)) by (eapply app_mul_r; eauto using half_app; try lra; tn).
  replace (3 / 2 * x - 1 / 2 * y) with (x - (y - x) * / 2) by lra. unfold outer64. eapply app_sub; eauto; try lra; tn.
Qed.
Lemma inner_app M a b x y : scale M -> app M a x 2 (41 / 10) -> app M b y 2 (41 / 10) -> app M (inner64 a b) ((x + y) / 2) 4 (165 / 10).
Proof.
  intros S A B. assert (D : app M (add64 a b) (x + y) 4 (123 / 10)) by (eapply app_add; eauto; try lra; tn).
  replace ((x + y) / 2) with (/ 2 * (x + y)) by lra. unfold inner64. eapply app_mul; eauto using half_app; try lra; tn.
Qed.
Lemma e1_app M n (f : nat -> f64) (g : nat -> R) k : scale M -> (2 <= n)%nat -> (k <= n)%nat -> (forall i, (i < n)%nat -> app M (f i) (g i) 2 (41 / 10)) ->
  app M (e1 n f k) (edge1R n g k) 4 (165 / 10).
Proof.
  intros S Hn Hk H. unfold e1, edge1R. destruct (Nat.eqb_spec k 0); [|destruct (Nat.eqb_spec k n)].
  - apply outer_app; auto; apply H; lia.
  - apply outer_app; auto; apply H; lia.
  - apply inner_app; auto; apply H; lia.
Qed.
(** Both orders of extrapolation give the same corner *)
Lemma edge1R_border n g k : (2 <= n)%nat -> on_border n k = true ->
  edge1R n g k = if (k =? 0)%nat then 3 / 2 * g 0%nat - 1 / 2 * g 1%nat else 3 / 2 * g (n - 1)%nat - 1 / 2 * g (n - 2)%nat.
Proof. intros Hn H. unfold on_border in H. unfold edge1R. destruct (Nat.eqb_spec k 0); auto. destruct (Nat.eqb_spec k n); auto. discriminate. Qed.
Lemma edge1R_comb n a b g h k : edge1R n (fun i => a * g i - b * h i) k = a * edge1R n g k - b * edge1R n h k.
Proof. unfold edge1R. destruct (k =? 0)%nat; [|destruct (k =? n)%nat]; lra. Qed.
Lemma edge2R_row ny nx f j i : (2 <= ny)%nat -> on_border ny j = true ->
  edge2R ny nx f j i = edge1R nx (fun i => if (j =? 0)%nat then 3 / 2 * f 0%nat i - 1 / 2 * f 1%nat i else 3 / 2 * f (ny - 1)%nat i - 1 / 2 * f (ny - 2)%nat i) i.
Proof.
  intros Hy H. unfold edge2R. rewrite edge1R_border by auto. destruct (j =? 0)%nat; rewrite edge1R_comb; reflexivity.
Qed.
Lemma edge2R_col ny nx f j i : (2 <= nx)%nat -> on_border nx i = true ->
  edge2R ny nx f j i = edge1R ny (fun j => if (i =? 0)%nat then 3 / 2 * f j 0%nat - 1 / 2 * f j 1%nat else 3 / 2 * f j (nx - 1)%nat - 1 / 2 * f j (nx - 2)%nat) j.
Proof.
  intros Hx H. unfold edge2R. unfold edge1R at 1 3. destruct (j =? 0)%nat; [|destruct (j =? ny)%nat]; rewrite !(edge1R_border nx _ i) by auto; destruct (i =? 0)%nat; lra.
Qed.
Lemma edge2R_inside ny nx f j i : on_border ny j = false -> on_border nx i = false ->
  edge2R ny nx f j i = (f j i + f (j - 1)%nat i + f j (i - 1)%nat + f (j - 1)%nat (i - 1)%nat) / 4.
Proof.
  unfold on_border, edge2R, edge1R. destruct (j =? 0)%nat; [discriminate|]. destruct (j =? ny)%nat; [discriminate|]. destruct (i =? 0)%nat; [discriminate|]. destruct (i =? nx)%nat; [discriminate|]. intros _ _. lra.
Qed.
Lemma corner_app M ny nx (junk d : nat -> nat -> f64) (f q : nat -> nat -> R) j i : scale M -> (2 <= ny)%nat -> (2 <= nx)%nat -> (j <= ny)%nat -> (i <= nx)%nat ->
  (forall j i, (j < ny)%nat -> (i < nx)%nat -> app M (d j i) (f j i) 1 0) -> (on_border ny j = true \/ on_border nx i = true -> app M (junk j i) (q j i) 1 0) ->
  app M (corner64 ny nx junk d j i) (edge2R ny nx f j i + residueR ny nx q j i) 9 29.
Proof.
  intros S Hy Hx Hj Hi H Hq. unfold corner64, residueR.
  assert (R : on_border ny j = true -> app M (e1 nx (beyond_row ny d j) i) (edge2R ny nx f j i) 4 (165 / 10)).
  { intro B. rewrite edge2R_row by auto. apply e1_app; auto. intros k Hk. unfold beyond_row. destruct (j =? 0)%nat; apply extrap_app; auto; apply H; lia. }
  assert (C : on_border nx i = true -> app M (e1 ny (beyond_col nx d i) j) (edge2R ny nx f j i) 4 (165 / 10)).
  { intro B. rewrite edge2R_col by auto. apply e1_app; auto. intros k Hk. unfold beyond_col. destruct (i =? 0)%nat; apply extrap_app; auto; apply H; lia. }
  assert (W : forall x r a k, app M x r a k -> 0 <= k -> a <= 9 -> k <= 29 -> app M x r 9 29).
  { intros x r a k (F & A & E) Pk Ha Hk. assert (P := scale_pos M S). assert (U := u64_pos). split; auto. split.
    - eapply Rle_trans; [exact A|]. apply Rmult_le_compat_r; lra.
    - eapply Rle_trans; [exact E|]. apply Rmult_le_compat_r; [lra|]. apply Rmult_le_compat_r; lra. }
  destruct (on_border ny j) eqn:By, (on_border nx i) eqn:Bx.
  - specialize (R eq_refl). specialize (C eq_refl). specialize (Hq (or_introl eq_refl)).
    assert (H1 : app M (add64 (junk j i) (e1 nx (beyond_row ny d j) i)) (q j i + edge2R ny nx f j i) 5 (216 / 10)) by (eapply app_add; eauto; try lra; tn).
    assert (H2 : app M (add64 (add64 (junk j i) (e1 nx (beyond_row ny d j) i)) (e1 ny (beyond_col nx d i) j)) (q j i + edge2R ny nx f j i + edge2R ny nx f j i) 9 (472 / 10)) by (eapply app_add; eauto; try lra; tn).
    replace (edge2R ny nx f j i + q j i / 2) with ((q j i + edge2R ny nx f j i + edge2R ny nx f j i) * / 2) by lra. eapply app_mul_r; eauto using half_app; try lra; tn.
  - specialize (R eq_refl). specialize (Hq (or_introl eq_refl)). rewrite Rplus_comm. eapply (W _ _ 5 (216 / 10)); try lra. eapply app_add; eauto; try lra; tn.
  - specialize (C eq_refl). specialize (Hq (or_intror eq_refl)). rewrite Rplus_comm. eapply (W _ _ 5 (216 / 10)); try lra. eapply app_add; eauto; try lra; tn.
  - rewrite Rplus_0_r, edge2R_inside by auto. eapply (W _ _ 1 (34 / 10)); try lra. unfold on_border in *.
    destruct (Nat.eqb_spec j 0); [discriminate|]. destruct (Nat.eqb_spec j ny); [discriminate|]. destruct (Nat.eqb_spec i 0); [discriminate|]. destruct (Nat.eqb_spec i nx); [discriminate|].
    apply mean_app; auto; apply H; lia.
Qed.

(** ** Theorems *)
Theorem C80_accuracy : forall junk junk1 suffix a ny nx f q M, coordinates a ny nx f -> memory junk q -> reasonable M ->
  (forall j i, (j < ny)%nat -> (i < nx)%nat -> Rabs (f j i) <= M) -> (forall j i, Rabs (q j i) <= M) ->
  exists r, get_edges_2d_64 junk junk1 suffix a = Ok r /\ dims r = map (fun d => (d ++ suffix)%string) (dims a) /\ shape r = [S ny; S nx] /\
    forall j i, (j <= ny)%nat -> (i <= nx)%nat -> exists v, value (at_ r [j; i]) v /\ Rabs (v - (edge2R ny nx f j i + residueR ny nx q j i)) <= 29 * ulp1 * M.
Proof.
  intros junk junk1 suffix a ny nx f q M (Hs & Hy & Hx & Hv) Hm HM Hf Hq. apply reasonable_scale in HM.
  destruct (computed junk junk1 suffix a ny nx Hs Hy Hx) as (r & E & D & Sh & V). exists r. split; auto. split; auto. split; auto. intros j i Hj Hi. rewrite V by auto.
  eapply app_out; [exact HM| |apply Rle_refl]. apply corner_app; auto; intros; apply appM; auto.
Qed.
Print Assumptions C80_accuracy.
Lemma inside_at junk junk1 suffix (a r : da f64) ny nx j i : shape a = [ny; nx] -> get_edges_2d_64 junk junk1 suffix a = Ok r -> (S j < ny)%nat -> (S i < nx)%nat ->
  at_ r [S j; S i] = mean64 (at_ a [S j; S i]) (at_ a [j; S i]) (at_ a [S j; i]) (at_ a [j; i]).
Proof.
  intros Hs E Hj Hi. destruct (computed junk junk1 suffix a ny nx Hs ltac:(lia) ltac:(lia)) as (r' & E' & _ & _ & V). rewrite E in E'. injection E' as <-.
  rewrite V by lia. unfold corner64, on_border. rewrite !(proj2 (Nat.eqb_neq _ _)) by lia. cbn [orb].
  replace (S j - 1)%nat with j by lia. replace (S i - 1)%nat with i by lia. reflexivity.
Qed.
Lemma format_value (x : f64) r : value x r -> generic_format radix2 fexp64 r.
Proof. intro V. apply value_iff in V. destruct V as [_ <-]. apply format64. Qed.
(** Inside, whatever the memory and the rest of the array: between the least and the greatest neighbour, close to the mean *)
Theorem C80_inside : forall junk junk1 suffix a r ny nx j i x00 x01 x10 x11, shape a = [ny; nx] ->
  get_edges_2d_64 junk junk1 suffix a = Ok r -> (S j < ny)%nat -> (S i < nx)%nat ->
  value (at_ a [j; i]) x00 -> value (at_ a [j; S i]) x01 -> value (at_ a [S j; i]) x10 -> value (at_ a [S j; S i]) x11 ->
  within 900 (at_ a [j; i]) -> within 900 (at_ a [j; S i]) -> within 900 (at_ a [S j; i]) -> within 900 (at_ a [S j; S i]) ->
  exists v, value (at_ r [S j; S i]) v /\
    Rmin (Rmin x00 x01) (Rmin x10 x11) <= v <= Rmax (Rmax x00 x01) (Rmax x10 x11) /\
    forall M, reasonable M -> Rabs x00 <= M -> Rabs x01 <= M -> Rabs x10 <= M -> Rabs x11 <= M -> Rabs (v - (x00 + x01 + x10 + x11) / 4) <= 4 * ulp1 * M.
Proof.
  intros junk junk1 suffix a r ny nx j i x00 x01 x10 x11 Hs E Hj Hi V00 V01 V10 V11 W00 W01 W10 W11. rewrite (inside_at _ _ _ _ _ _ _ _ _ Hs E Hj Hi).
  assert (F00 := within_fin _ _ W00 V00). assert (F01 := within_fin _ _ W01 V01). assert (F10 := within_fin _ _ W10 V10). assert (F11 := within_fin _ _ W11 V11).
  destruct (mean_fin _ _ _ _ F11 F01 F10 F00) as [F _]. eexists. split; [apply value_iff; split; [exact F|reflexivity]|]. split.
  - assert (Hmin : forall x y, generic_format radix2 fexp64 x -> generic_format radix2 fexp64 y -> generic_format radix2 fexp64 (Rmin x y)) by (intros; unfold Rmin; destruct Rle_dec; auto).
    assert (Hmax : forall x y, generic_format radix2 fexp64 x -> generic_format radix2 fexp64 y -> generic_format radix2 fexp64 (Rmax x y)) by (intros; unfold Rmax; destruct Rle_dec; auto).
    assert (G00 := format_value _ _ V00). assert (G01 := format_value _ _ V01). assert (G10 := format_value _ _ V10). assert (G11 := format_value _ _ V11).
    apply mean_between; auto.
    all: apply value_iff in V00, V01, V10, V11; destruct V00 as [_ E00], V01 as [_ E01], V10 as [_ E10], V11 as [_ E11]; rewrite ?E00, ?E01, ?E10, ?E11.
    all: unfold Rmin, Rmax; repeat destruct Rle_dec; lra.
  - intros M HM B00 B01 B10 B11. apply reasonable_scale in HM.
    assert (A := mean_app M _ _ _ _ _ _ _ _ HM (appM M _ _ HM V11 B11) (appM M _ _ HM V01 B01) (appM M _ _ HM V10 B10) (appM M _ _ HM V00 B00)).
    destruct (app_out M _ _ _ _ 4 HM A ltac:(lra)) as (v & Vv & Ev). apply value_iff in Vv. destruct Vv as [_ <-].
    replace ((x00 + x01 + x10 + x11) / 4) with ((x11 + x01 + x10 + x00) / 4) by lra. exact Ev.
Qed.
Print Assumptions C80_inside.
(** Four equal neighbours: exactly their value *)
Theorem C80_flat : forall junk junk1 suffix a r ny nx j i x, shape a = [ny; nx] ->
  get_edges_2d_64 junk junk1 suffix a = Ok r -> (S j < ny)%nat -> (S i < nx)%nat ->
  (forall j' i', (j' = j \/ j' = S j) -> (i' = i \/ i' = S i) -> value (at_ a [j'; i']) x /\ within 900 (at_ a [j'; i'])) ->
  value (at_ r [S j; S i]) x.
Proof.
  intros junk junk1 suffix a r ny nx j i x Hs E Hj Hi H.
  destruct (H j i) as [V0 W0]; auto. destruct (H j (S i)) as [V1 W1]; auto. destruct (H (S j) i) as [V2 W2]; auto. destruct (H (S j) (S i)) as [V3 W3]; auto.
  destruct (C80_inside junk junk1 suffix a r ny nx j i x x x x) as (v & V & B & _); auto.
  assert (Rmin x x = x) as Em by (unfold Rmin; destruct Rle_dec; auto). assert (Rmax x x = x) as EM by (unfold Rmax; destruct Rle_dec; auto).
  rewrite !Em, !EM in B. replace x with v by lra. exact V.
Qed.
Print Assumptions C80_flat.
(** One missing neighbour: missing *)
Theorem C80_missing : forall junk junk1 suffix a r ny nx j i j' i', shape a = [ny; nx] ->
  get_edges_2d_64 junk junk1 suffix a = Ok r -> (S j < ny)%nat -> (S i < nx)%nat -> (j' = j \/ j' = S j) -> (i' = i \/ i' = S i) ->
  isNaN (at_ a [j'; i']) -> isNaN (at_ r [S j; S i]).
Proof.
  intros junk junk1 suffix a r ny nx j i j' i' Hs E Hj Hi Ej Ei H. rewrite (inside_at _ _ _ _ _ _ _ _ _ Hs E Hj Hi). unfold mean64. apply nan_mul. right.
  destruct Ej as [-> | ->], Ei as [-> | ->].
  - apply nan_add. now right.
  - apply nan_add. left. apply nan_add. left. apply nan_add. now right.
  - apply nan_add. left. apply nan_add. now right.
  - apply nan_add. left. apply nan_add. left. apply nan_add. now left.
Qed.
Print Assumptions C80_missing.
(** The border holds what the memory held before: missing when it is not a number, whatever the coordinates *)
Theorem C80_border_refuted : forall junk1 suffix a r ny nx j i, shape a = [ny; nx] -> (2 <= ny)%nat -> (2 <= nx)%nat ->
  get_edges_2d_64 (fun _ _ => B754_nan) junk1 suffix a = Ok r -> (j <= ny)%nat -> (i <= nx)%nat ->
  j = 0%nat \/ j = ny \/ i = 0%nat \/ i = nx -> isNaN (at_ r [j; i]).
Proof.
  intros junk1 suffix a r ny nx j i Hs Hy Hx E Hj Hi H. destruct (computed (fun _ _ => B754_nan) junk1 suffix a ny nx Hs Hy Hx) as (r' & E' & _ & _ & V).
  rewrite E in E'. injection E' as <-. rewrite V by auto. unfold corner64, on_border.
  destruct (Nat.eqb_spec j 0), (Nat.eqb_spec j ny), (Nat.eqb_spec i 0), (Nat.eqb_spec i nx); cbn [orb]; try lia;
    first [ apply nan_mul; left; apply nan_add; left; apply nan_add; now left | apply nan_add; now left ].
Qed.
Print Assumptions C80_border_refuted.

(** ** Exact grids *)
Lemma half_dy : dy 1 1 half64 (/ 2).
Proof. destruct half_val as [F V]. split; auto. split; auto. exists 1%Z. split; [lia|]. cbn. lra. Qed.
Lemma c15_dy : dy 1 3 c15_64 (3 / 2).
Proof. destruct c15_val as [F V]. split; auto. split; auto. exists 3%Z. split; [lia|]. cbn. lra. Qed.
Lemma quarter_dy : dy 2 1 quarter64 (/ 4).
Proof. destruct quarter_val as [F V]. split; auto. split; auto. exists 1%Z. split; [lia|]. cbn. lra. Qed.
Lemma dy_eq p B x r q C s : dy q C x s -> (0 <= q)%Z -> q = p -> (C <= B)%Z -> s = r -> dy p B x r.
Proof. intros (F & V & z & Hz & E) _ <- HC <-. split; auto. split; auto. exists z. split; auto. lia. Qed.
Section Lattice.
Variable p : Z.
Hypothesis Hp : (0 <= p <= 60)%Z.
Let B : Z := (2 ^ 45)%Z.
Lemma HB : B = 35184372088832%Z. Proof. reflexivity. Qed.
Lemma extrap_dy a b x y : dy p B a x -> dy p B b y -> dy (p + 1) (4 * B) (extrap64 a b) (3 / 2 * x - 1 / 2 * y).
Proof.
  intros A C. pose proof HB. apply (dy_eq _ _ _ _ (1 + p) (3 * B + 1 * B) (3 / 2 * x - / 2 * y)); try lia; [|lra].
  apply dy_sub; try lia; apply dy_mul; auto using c15_dy, half_dy; lia.
Qed.
Lemma outer_dy a b x y : dy (p + 1) (4 * B) a x -> dy (p + 1) (4 * B) b y -> dy (p + 2) (16 * B) (outer64 a b) (3 / 2 * x - 1 / 2 * y).
Proof.
  intros A C. pose proof HB. apply (dy_eq _ _ _ _ (p + 1 + 1) (8 * B + (4 * B + 4 * B) * 1) (x - (y - x) * / 2)); try lia; [|lra].
  apply dy_sub; try lia.
  - apply (dy_up (p + 1) _ (4 * B)); auto; try lia. replace (p + 1 + 1 - (p + 1))%Z with 1%Z by lia. lia.
  - apply dy_mul; auto using half_dy; try lia. apply dy_sub; auto; lia.
Qed.
Lemma inner_dy a b x y : dy (p + 1) (4 * B) a x -> dy (p + 1) (4 * B) b y -> dy (p + 2) (16 * B) (inner64 a b) ((x + y) / 2).
Proof.
  intros A C. pose proof HB. apply (dy_eq _ _ _ _ (1 + (p + 1)) (1 * (4 * B + 4 * B)) (/ 2 * (x + y))); try lia; [|lra].
  apply dy_mul; auto using half_dy; try lia. apply dy_add; auto; lia.
Qed.
Lemma e1_dy n (f : nat -> f64) (g : nat -> R) k : (2 <= n)%nat -> (k <= n)%nat -> (forall i, (i < n)%nat -> dy (p + 1) (4 * B) (f i) (g i)) ->
  dy (p + 2) (16 * B) (e1 n f k) (edge1R n g k).
Proof.
  intros Hn Hk H. unfold e1, edge1R. destruct (Nat.eqb_spec k 0); [|destruct (Nat.eqb_spec k n)].
  - apply outer_dy; auto; apply H; lia.
  - apply outer_dy; auto; apply H; lia.
  - apply inner_dy; auto; apply H; lia.
Qed.
Lemma corner_dy ny nx (junk d : nat -> nat -> f64) (f q : nat -> nat -> R) j i : (2 <= ny)%nat -> (2 <= nx)%nat -> (j <= ny)%nat -> (i <= nx)%nat ->
  (forall j i, (j < ny)%nat -> (i < nx)%nat -> dy p B (d j i) (f j i)) -> (on_border ny j = true \/ on_border nx i = true -> dy p B (junk j i) (q j i)) ->
  value (corner64 ny nx junk d j i) (edge2R ny nx f j i + residueR ny nx q j i).
Proof.
  intros Hy Hx Hj Hi H Hq. pose proof HB. unfold corner64, residueR.
  assert (R : on_border ny j = true -> dy (p + 2) (16 * B) (e1 nx (beyond_row ny d j) i) (edge2R ny nx f j i)).
  { intro X. rewrite edge2R_row by auto. apply e1_dy; auto. intros k Hk. unfold beyond_row. destruct (j =? 0)%nat; apply extrap_dy; auto; apply H; lia. }
  assert (C : on_border nx i = true -> dy (p + 2) (16 * B) (e1 ny (beyond_col nx d i) j) (edge2R ny nx f j i)).
  { intro X. rewrite edge2R_col by auto. apply e1_dy; auto. intros k Hk. unfold beyond_col. destruct (i =? 0)%nat; apply extrap_dy; auto; apply H; lia. }
  assert (J : on_border ny j = true \/ on_border nx i = true -> dy (p + 2) (4 * B) (junk j i) (q j i)).
  { intro X. apply (dy_up p _ B); auto; try lia. replace (p + 2 - p)%Z with 2%Z by lia. lia. }
  destruct (on_border ny j) eqn:By, (on_border nx i) eqn:Bx.
  - specialize (R eq_refl). specialize (C eq_refl). specialize (J (or_introl eq_refl)).
    replace (edge2R ny nx f j i + q j i / 2) with ((q j i + edge2R ny nx f j i + edge2R ny nx f j i) * / 2) by lra.
    apply (dy_value (p + 2 + 1) ((4 * B + 16 * B + 16 * B) * 1)). apply dy_mul; auto using half_dy; try lia. apply dy_add; auto; try lia. apply dy_add; auto; lia.
  - specialize (R eq_refl). specialize (J (or_introl eq_refl)). rewrite Rplus_comm. apply (dy_value (p + 2) (4 * B + 16 * B)). apply dy_add; auto; lia.
  - specialize (C eq_refl). specialize (J (or_intror eq_refl)). rewrite Rplus_comm. apply (dy_value (p + 2) (4 * B + 16 * B)). apply dy_add; auto; lia.
  - rewrite Rplus_0_r, edge2R_inside by auto. unfold on_border in *.
    destruct (Nat.eqb_spec j 0); [discriminate|]. destruct (Nat.eqb_spec j ny); [discriminate|]. destruct (Nat.eqb_spec i 0); [discriminate|]. destruct (Nat.eqb_spec i nx); [discriminate|].
    replace ((f j i + f (j - 1)%nat i + f j (i - 1)%nat + f (j - 1)%nat (i - 1)%nat) / 4) with (/ 4 * (f j i + f (j - 1)%nat i + f j (i - 1)%nat + f (j - 1)%nat (i - 1)%nat)) by lra.
    apply (dy_value (2 + p) (1 * (B + B + B + B))). unfold mean64. apply dy_mul; auto using quarter_dy; try lia. apply dy_add; try lia; [apply dy_add; try lia; [apply dy_add; try lia|]|]; apply H; lia.
Qed.
End Lattice.
(** [r] is a multiple of 1/2^k and not too large: integer, half, quarter ... degrees *)
Definition lattice (k : nat) (r : R) : Prop := exists z : Z, (Z.abs z <= 2 ^ 45)%Z /\ r = IZR z / 2 ^ k.
Lemma lattice_dy k x r : (k <= 60)%nat -> value x r -> lattice k r -> dy (Z.of_nat k) (2 ^ 45) x r.
Proof.
  intros Hk V (z & Hz & E). apply value_iff in V. destruct V as [F V]. split; auto. split; auto. exists z. split; auto. rewrite E. unfold Rdiv. f_equal.
  rewrite bpow_opp, bpow_powerRZ. f_equal. change (IZR radix2) with 2. now rewrite <- pow_powerRZ.
Qed.
Theorem C80_exact : forall k junk junk1 suffix a ny nx f q, (k <= 60)%nat -> coordinates a ny nx f -> memory junk q ->
  (forall j i, (j < ny)%nat -> (i < nx)%nat -> lattice k (f j i)) -> (forall j i, lattice k (q j i)) ->
  exists r, get_edges_2d_64 junk junk1 suffix a = Ok r /\
    forall j i, (j <= ny)%nat -> (i <= nx)%nat -> value (at_ r [j; i]) (edge2R ny nx f j i + residueR ny nx q j i).
Proof.
  intros k junk junk1 suffix a ny nx f q Hk (Hs & Hy & Hx & Hv) Hm Hf Hq.
  destruct (computed junk junk1 suffix a ny nx Hs Hy Hx) as (r & E & _ & _ & V). exists r. split; auto. intros j i Hj Hi. rewrite V by auto.
  apply (corner_dy (Z.of_nat k)); auto; [lia| |]; intros; apply lattice_dy; auto.
Qed.
Print Assumptions C80_exact.
(** A regular grid, rotated or not, on such a lattice, and memory of zeros: the exact corners *)
Theorem C80_regular : forall k junk junk1 suffix a ny nx x0 dx dy_, (k <= 60)%nat ->
  coordinates a ny nx (fun j i => x0 + dx * INR i + dy_ * INR j) -> memory junk (fun _ _ => 0) ->
  (forall j i, (j < ny)%nat -> (i < nx)%nat -> lattice k (x0 + dx * INR i + dy_ * INR j)) ->
  exists r, get_edges_2d_64 junk junk1 suffix a = Ok r /\
    forall j i, (j <= ny)%nat -> (i <= nx)%nat -> value (at_ r [j; i]) (x0 + dx * (INR i - 1 / 2) + dy_ * (INR j - 1 / 2)).
Proof.
  intros k junk junk1 suffix a ny nx x0 dx dy_ Hk Hc Hm Hl. assert (Hd := Hc). destruct Hd as (_ & Hy & Hx & _).
  assert (L0 : forall j i : nat, lattice k 0) by (intros; exists 0%Z; split; [lia|unfold Rdiv; ring]).
  destruct (C80_exact k junk junk1 suffix a ny nx _ _ Hk Hc Hm Hl L0) as (r & E & V). exists r. split; auto. intros j i Hj Hi. specialize (V j i Hj Hi).
  assert (E1 : forall n (u w : R) m, (2 <= n)%nat -> (m <= n)%nat -> edge1R n (fun t => u + w * INR t) m = u + w * (INR m - 1 / 2)).
  { intros n u w m Hn Hmn. unfold edge1R. destruct (Nat.eqb_spec m 0) as [->|]; [cbn [INR]; lra|]. destruct (Nat.eqb_spec m n) as [->|].
    - rewrite !minus_INR by lia. cbn [INR]. lra.
    - rewrite minus_INR by lia. cbn [INR]. lra. }
  assert (Q : edge2R ny nx (fun j i => x0 + dx * INR i + dy_ * INR j) j i + residueR ny nx (fun _ _ => 0) j i = x0 + dx * (INR i - 1 / 2) + dy_ * (INR j - 1 / 2)).
  { assert (residueR ny nx (fun _ _ => 0) j i = 0) as -> by (unfold residueR; destruct on_border, on_border; lra).
    unfold edge2R. transitivity (edge1R ny (fun j' => (x0 + dx * (INR i - 1 / 2)) + dy_ * INR j') j); [|rewrite E1 by auto; lra].
    assert (X : forall g h n m, (forall t, g t = h t) -> edge1R n g m = edge1R n h m) by (intros g h n m G; unfold edge1R; rewrite !G; reflexivity). rewrite Rplus_0_r. apply X. intro t.
    rewrite (X _ (fun t0 => (x0 + dy_ * INR t) + dx * INR t0)) by (intro; lra). rewrite E1 by auto. lra. }
  rewrite Q in V. exact V.
Qed.
Print Assumptions C80_regular.
Definition rotated64 : da f64 := mkda ["y"; "x"]%string [3; 3]%nat (fun idx => mk64 (10 + 2 * Z.of_nat (nth 1 idx 0%nat) + Z.of_nat (nth 0 idx 0%nat)) 0).
Lemma rotated_coords : coordinates rotated64 3 3 (fun j i => 10 + 2 * INR i + 1 * INR j).
Proof.
  split; [reflexivity|]. split; [lia|]. split; [lia|]. intros j i Hj Hi. cbn [rotated64 at_ nth]. rewrite !INR_IZR_INZ.
  replace (10 + 2 * IZR (Z.of_nat i) + 1 * IZR (Z.of_nat j)) with (IZR (10 + 2 * Z.of_nat i + Z.of_nat j)) by (rewrite !plus_IZR, mult_IZR; lra). apply val_int. lia.
Qed.
Example C80_ex : coordinates rotated64 3 3 (fun j i => 10 + 2 * INR i + 1 * INR j) /\ memory (fun _ _ => zero64) (fun _ _ => 0) /\
  (forall j i, (j < 3)%nat -> (i < 3)%nat -> lattice 0 (10 + 2 * INR i + 1 * INR j)) /\ within 900 (at_ rotated64 [1; 2]%nat) /\
  exists r, get_edges_2d_64 (fun _ _ => zero64) (fun _ _ => zero64) "_edges" rotated64 = Ok r /\ dims r = ["y_edges"; "x_edges"]%string /\
    value (at_ r [0; 0]%nat) (17 / 2) /\ value (at_ r [1; 1]%nat) (23 / 2) /\ value (at_ r [3; 3]%nat) (35 / 2).
Proof.
  assert (Hm : memory (fun _ _ => zero64) (fun _ _ => 0)) by (intros j i; reflexivity).
  assert (Hl : forall j i, (j < 3)%nat -> (i < 3)%nat -> lattice 0 (10 + 2 * INR i + 1 * INR j)).
  { intros j i Hj Hi. exists (10 + 2 * Z.of_nat i + Z.of_nat j)%Z. split; [lia|]. rewrite !INR_IZR_INZ, !plus_IZR, mult_IZR. cbn [pow]. lra. }
  split; [exact rotated_coords|]. split; auto. split; auto. split.
  - right. exists (IZR 15). split; [apply (val_int 15); lia|]. rewrite pow64, Rabs_pos_eq by lra. apply Rle_trans with (bpow radix2 4); [cbn; lra|apply bpow_le; lia].
  - destruct (C80_regular 0 (fun _ _ => zero64) (fun _ _ => zero64) "_edges" rotated64 3 3 10 2 1 ltac:(lia) rotated_coords Hm Hl) as (r & E & V). exists r. split; auto. split.
    + destruct (computed (fun _ _ => zero64) (fun _ _ => zero64) "_edges" rotated64 3 3 eq_refl ltac:(lia) ltac:(lia)) as (r' & E' & D & _). rewrite E in E'. injection E' as <-. exact D.
    + assert (V0 := V 0%nat 0%nat ltac:(lia) ltac:(lia)). assert (V1 := V 1%nat 1%nat ltac:(lia) ltac:(lia)). assert (V3 := V 3%nat 3%nat ltac:(lia) ltac:(lia)). cbn [INR] in V0, V1, V3.
      replace (17 / 2) with (10 + 2 * (0 - 1 / 2) + 1 * (0 - 1 / 2)) by lra. replace (23 / 2) with (10 + 2 * (1 - 1 / 2) + 1 * (1 - 1 / 2)) by lra.
      replace (35 / 2) with (10 + 2 * (1 + 1 + 1 - 1 / 2) + 1 * (1 + 1 + 1 - 1 / 2)) by lra. auto.
Qed.
