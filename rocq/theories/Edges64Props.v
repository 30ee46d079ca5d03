(** C71: the edges of cells (xoa.grid.get_edges_1d) computed on doubles. *)
From Verif Require Import Float64PolyErr GridGProofs Edges64Spec Sigma64 Sigma64Props Sigma64Order Float64CellRows Float64Props.
From Flocq Require Import Core BinarySingleNaN Plus_error.
From Coq Require Import Reals Lra Psatz.
Open Scope R_scope.
Local Notation app := Float64App.app.
Definition o64 : nops := sops64 (fun x => x) (fun x => x).
Definition half64 : f64 := const64 (1 # 2).
Definition inner64 (a b : f64) : f64 := mul64 half64 (add64 a b).
Definition outer64 (a b : f64) : f64 := sub64 a (mul64 (sub64 b a) half64).

Lemma half_val : is_finite half64 = true /\ B2R half64 = / 2.
Proof. destruct (const_val half64 false 4503599627370496 (-53) eq_refl) as [F V]. split; auto. rewrite V. unfold F2R. cbn. lra. Qed.
Lemma half_fin : fin 0 half64.
Proof. destruct half_val as [F V]. split; auto. rewrite V. cbn. rewrite Rabs_pos_eq; lra. Qed.

(** Halving a rounded sum: one rounding in all *)
Lemma RN_half x : bpow radix2 (-1021) <= Rabs x -> RN (x * / 2) = RN x * / 2.
Proof.
  intro H. assert (N : x <> 0). { intro E. rewrite E, Rabs_R0 in H. assert (P := bpow_gt_0 radix2 (-1021)). lra. }
  assert (M : (-1021 < mag radix2 x)%Z). { apply mag_gt_bpow. exact H. }
  assert (E : x * / 2 = x * bpow radix2 (-1)) by reflexivity.
  unfold round, F2R, scaled_mantissa, cexp. cbn [Fnum Fexp].
  rewrite E. rewrite mag_mult_bpow by auto. replace (- (1))%Z with (-1)%Z by reflexivity.
  assert (X : fexp64 (mag radix2 x + -1) = (fexp64 (mag radix2 x) + -1)%Z).
  { change fexp64 with (FLT_exp (-1074) 53). unfold FLT_exp. lia. }
  rewrite X. replace (- (fexp64 (mag radix2 x) + -1))%Z with (- fexp64 (mag radix2 x) + 1)%Z by lia. rewrite (bpow_plus radix2 (- fexp64 _) 1), (bpow_plus radix2 (fexp64 _) (-1)).
  replace (x * bpow radix2 (-1) * (bpow radix2 (- fexp64 (mag radix2 x)) * bpow radix2 1)) with (x * bpow radix2 (- fexp64 (mag radix2 x))) by (change (bpow radix2 1) with 2; change (bpow radix2 (-1)) with (/ 2); field).
  change (bpow radix2 (-1)) with (/ 2). ring.
Qed.
Lemma RN_half_sum x y : generic_format radix2 fexp64 x -> generic_format radix2 fexp64 y -> RN (RN (x + y) * / 2) = RN ((x + y) * / 2).
Proof.
  intros Fx Fy. destruct (Rle_lt_dec (bpow radix2 (-1021)) (Rabs (x + y))) as [H|H].
  - rewrite (RN_half (x + y) H). apply round_generic; auto with typeclass_instances. rewrite <- (RN_half (x + y) H). apply generic_format_round; auto with typeclass_instances.
  - f_equal. f_equal. apply round_generic; auto with typeclass_instances.
    apply (@FLT_format_plus_small radix2 (-1074) 53 Hprec64 x y Fx Fy). left. exact H.
Qed.
Lemma inner_val a b : fin 900 a -> fin 900 b -> is_finite (inner64 a b) = true /\ B2R (inner64 a b) = RN ((B2R a + B2R b) * / 2).
Proof.
  intros Fa Fb. assert (F1 : fin 901 (add64 a b)) by (apply (fin_ops_add 901 900 900); auto; lia).
  assert (F2 : fin 901 (inner64 a b)) by (apply (fin_ops_mul 901 0 901); auto using half_fin; lia). split; [apply F2|].
  unfold inner64 in *. rewrite mul_fin_inv by (apply half_fin || apply F1 || apply F2). rewrite (proj2 half_val), add_fin_inv by (apply Fa || apply Fb || apply F1).
  rewrite Rmult_comm. apply RN_half_sum; apply format64.
Qed.
Lemma inner_between a b : fin 900 a -> fin 900 b -> B2R a <= B2R b -> B2R a <= B2R (inner64 a b) <= B2R b.
Proof.
  intros Fa Fb L. rewrite (proj2 (inner_val a b Fa Fb)). split.
  - rewrite <- (RN_id a) at 1. apply RN_le. lra.
  - rewrite <- (RN_id b) at 2. apply RN_le. lra.
Qed.
Lemma inner_comm a b : fin 900 a -> fin 900 b -> B2R (inner64 a b) = B2R (inner64 b a).
Proof. intros Fa Fb. rewrite (proj2 (inner_val a b Fa Fb)), (proj2 (inner_val b a Fb Fa)). now rewrite Rplus_comm. Qed.
Lemma nearest_RN x r : value x (RN r) -> closest_double x r.
Proof.
  intro V. exists (RN r). split; auto. intros y w Vy. apply value_iff in Vy. destruct Vy as [_ <-].
  destruct (round_N_pt radix2 fexp64 (fun x => negb (Z.even x)) r) as [_ N]. apply N. apply format64.
Qed.
Lemma outer_fin a b : fin 900 a -> fin 900 b ->
  fin 901 (sub64 b a) /\ fin 901 (mul64 (sub64 b a) half64) /\ fin 902 (outer64 a b) /\
  B2R (outer64 a b) = RN (B2R a - RN (RN (B2R b - B2R a) * / 2)).
Proof.
  intros Fa Fb. assert (F1 : fin 901 (sub64 b a)) by (apply (fin_ops_sub 901 900 900); auto; lia).
  assert (F2 : fin 901 (mul64 (sub64 b a) half64)) by (apply (fin_ops_mul 901 901 0); auto using half_fin; lia).
  assert (F3 : fin 902 (outer64 a b)) by (apply (fin_ops_sub 902 900 901); auto; lia).
  repeat (split; auto). unfold outer64 in *. rewrite sub_fin_inv by (apply Fa || apply F2 || apply F3). rewrite mul_fin_inv by (apply half_fin || apply F1 || apply F2).
  rewrite (proj2 half_val), sub_fin_inv by (apply Fa || apply Fb || apply F1). reflexivity.
Qed.
Lemma outer_low a b : fin 900 a -> fin 900 b -> B2R a <= B2R b -> B2R (outer64 a b) <= B2R a.
Proof.
  intros Fa Fb L. destruct (outer_fin a b Fa Fb) as (_ & _ & _ & ->). rewrite <- (RN_id a) at 3. apply RN_le.
  assert (0 <= RN (B2R b - B2R a)) by (rewrite <- RN_0; apply RN_le; lra).
  assert (0 <= RN (RN (B2R b - B2R a) * / 2)) by (rewrite <- RN_0; apply RN_le; lra). lra.
Qed.
Lemma outer_high a b : fin 900 a -> fin 900 b -> B2R b <= B2R a -> B2R a <= B2R (outer64 a b).
Proof.
  intros Fa Fb L. destruct (outer_fin a b Fa Fb) as (_ & _ & _ & ->). rewrite <- (RN_id a) at 1. apply RN_le.
  assert (RN (B2R b - B2R a) <= 0) by (rewrite <- RN_0; apply RN_le; lra).
  assert (RN (RN (B2R b - B2R a) * / 2) <= 0) by (rewrite <- RN_0; apply RN_le; lra). lra.
Qed.
Lemma half_app : app 1 half64 (/ 2) (/ 2) 0.
Proof. destruct half_val as [F V]. assert (A : app 1 half64 (B2R half64) (/ 2) 0) by (apply app_exact; auto using scale_1; rewrite V, Rabs_pos_eq; lra). now rewrite V in A. Qed.
Lemma outer_acc M a b x y : scale M -> value a x -> value b y -> Rabs x <= M -> Rabs y <= M ->
  exists v, value (outer64 a b) v /\ Rabs (v - (x - (y - x) / 2)) <= 5 * ulp1 * M.
Proof.
  intros S Va Vb Ba Bb. assert (A := appM M a x S Va Ba). assert (B := appM M b y S Vb Bb).
  assert (D : app M (sub64 b a) (y - x) 2 2) by (eapply app_sub; eauto; try lra; tn).
  assert (H : app M (mul64 (sub64 b a) half64) ((y - x) * / 2) 1 (201 / 100)).
  { replace (mul64 (sub64 b a) half64) with (mul64 half64 (sub64 b a)) by apply Float64PolyErr.mul64_comm. rewrite Rmult_comm. eapply app_mul; eauto using half_app; try lra; tn. }
  assert (O_ : app M (outer64 a b) (x - (y - x) * / 2) 2 5) by (unfold outer64; eapply app_sub; eauto; try lra; tn).
  destruct (app_out M _ _ 2 5 5 S O_ ltac:(lra)) as (v & Vv & Ev). exists v. split; auto.
Qed.

(** ** Rows *)
Lemma gval_value (l : list f64) i r : gval real64 l i r <-> exists x, nth_error l i = Some x /\ value x r.
Proof. reflexivity. Qed.
Lemma within_fin x r : within 900 x -> value x r -> fin 900 x.
Proof.
  intros [N|(r' & R' & B)] V; [rewrite N in V; discriminate|]. unfold value in V. rewrite V in R'. injection R' as <-.
  apply value_iff in V. destruct V as [F <-]. rewrite pow64 in B. split; auto.
Qed.
Section Rows.
Variables (junk : nat -> f64) (d e : list f64).
Hypothesis N2 : (2 <= List.length d)%nat.
Hypothesis W : Forall (within 900) d.
Hypothesis E : get_edges_1d_g o64 junk d = Ok e.
Lemma e_len : List.length e = S (List.length d).
Proof. destruct (get_edges_1d_g_ok o64 junk d N2) as (e' & E' & L & _). rewrite E in E'. injection E' as <-. exact L. Qed.
Lemma e_at k : (k <= List.length d)%nat -> nth_error e k = edges_val_g o64 d k.
Proof. destruct (get_edges_1d_g_ok o64 junk d N2) as (e' & E' & _ & V). rewrite E in E'. injection E' as <-. exact (V k). Qed.
Lemma e_inner i x y : nth_error d i = Some x -> nth_error d (S i) = Some y -> nth_error e (S i) = Some (inner64 x y).
Proof.
  intros X Y. assert (S i < List.length d)%nat by (apply nth_error_Some; change (num_ o64) with f64 in *; congruence).
  rewrite e_at by lia. unfold edges_val_g. change (num_ o64) with f64 in *. destruct (Nat.eqb_spec (S i) 0); [lia|]. destruct (Nat.eqb_spec (S i) (List.length d)); [lia|].
  replace (S i - 1)%nat with i by lia. rewrite X, Y. reflexivity.
Qed.
Lemma e_first x y : nth_error d 0 = Some x -> nth_error d 1 = Some y -> nth_error e 0 = Some (outer64 x y).
Proof. intros X Y. rewrite e_at by lia. unfold edges_val_g. change (num_ o64) with f64 in *. cbn [Nat.eqb]. rewrite X, Y. reflexivity. Qed.
Lemma e_last n x y : S (S n) = List.length d -> nth_error d n = Some x -> nth_error d (S n) = Some y -> nth_error e (S (S n)) = Some (outer64 y x).
Proof.
  intros L X Y. rewrite e_at by lia. unfold edges_val_g. change (num_ o64) with f64 in *. destruct (Nat.eqb_spec (S (S n)) 0); [lia|]. destruct (Nat.eqb_spec (S (S n)) (List.length d)); [|lia].
  replace (List.length d - 1)%nat with (S n) by lia. replace (List.length d - 2)%nat with n by lia. rewrite X, Y. reflexivity.
Qed.
Lemma d_fin i x r : nth_error d i = Some x -> value x r -> fin 900 x.
Proof. intros X V. eapply within_fin; eauto. eapply Forall_row; eauto. Qed.
Lemma nth_d i : (i < List.length d)%nat -> exists x, nth_error d i = Some x.
Proof. intro H. destruct (nth_error d i) eqn:X; eauto. apply nth_error_None in X. lia. Qed.

Lemma edges64_ok : edges64 d e.
Proof.
  split; [exact e_len|]. split; [|split; [|split; [|split; [|split]]]].
  - intros i a b (x & X & Vx) (y & Y & Vy). exists (inner64 x y). split; [now apply e_inner|]. apply nearest_RN.
    destruct (inner_val x y (d_fin _ _ _ X Vx) (d_fin _ _ _ Y Vy)) as [F V]. apply value_iff. split; auto.
    apply value_iff in Vx, Vy. destruct Vx as [_ <-], Vy as [_ <-]. exact V.
  - intros M a b RM (x & X & Vx) (y & Y & Vy) Ba Bb. destruct (outer_acc M x y a b (reasonable_scale M RM) Vx Vy Ba Bb) as (v & Vv & Ev).
    exists v. split; auto. exists (outer64 x y). split; auto. now apply e_first.
  - intros n M a b L RM (x & X & Vx) (y & Y & Vy) Ba Bb. destruct (outer_acc M y x b a (reasonable_scale M RM) Vy Vx Bb Ba) as (v & Vv & Ev).
    exists v. split; [exists (outer64 y x); split; auto; now apply e_last|]. replace (b + (b - a) / 2) with (b - (a - b) / 2) by lra. exact Ev.
  - intros i x y X Y H. unfold nan_at. rewrite (e_inner i x y X Y). f_equal. apply nan_mul. right. now apply nan_add.
  - intros x y X Y H. unfold nan_at. rewrite (e_first x y X Y). f_equal. apply nan_sub. destruct H; auto; right; apply nan_mul; left; apply nan_sub; auto.
  - intros n x y L X Y H. unfold nan_at. rewrite (e_last n x y L X Y). f_equal. apply nan_sub. destruct H; auto; right; apply nan_mul; left; apply nan_sub; auto.
Qed.
End Rows.
Theorem C71_edges : forall junk d, (2 <= List.length d)%nat -> Forall (within 900) d ->
  exists e, get_edges_1d_g o64 junk d = Ok e /\ edges64 d e.
Proof.
  intros junk d N W. destruct (get_edges_1d_g_ok o64 junk d N) as (e & E & _). exists e. split; auto. now apply (edges64_ok junk).
Qed.
Print Assumptions C71_edges.

(** ** Cells hold their centres *)
Definition no_missing (l : list f64) : Prop := forall i x, nth_error l i = Some x -> exists r, value x r.
(** [up = 1] for an increasing axis, [-1] for a decreasing one *)
Section Mono.
Variables (junk : nat -> f64) (d e : list f64) (up : R).
Hypothesis N2 : (2 <= List.length d)%nat.
Hypothesis W : Forall (within 900) d.
Hypothesis NM : no_missing d.
Hypothesis Hup : up = 1 \/ up = -1.
Hypothesis Mo : forall i a b, gval real64 d i a -> gval real64 d (S i) b -> up * a <= up * b.
Hypothesis E : get_edges_1d_g o64 junk d = Ok e.
Lemma d_val i : (i < List.length d)%nat -> exists x, nth_error d i = Some x /\ fin 900 x /\ value x (B2R x).
Proof.
  intro H. destruct (nth_error d i) as [x|] eqn:X; [|apply nth_error_None in X; lia]. exists x. split; auto.
  destruct (NM i x X) as [r V]. assert (F := d_fin d W i x r X V). split; auto. apply value_iff. split; auto. apply F.
Qed.
Lemma d_mono i x y : nth_error d i = Some x -> nth_error d (S i) = Some y -> value x (B2R x) -> value y (B2R y) -> up * B2R x <= up * B2R y.
Proof. intros X Y Vx Vy. apply (Mo i); [now exists x|now exists y]. Qed.
Lemma inner_up a b : fin 900 a -> fin 900 b -> up * B2R a <= up * B2R b -> up * B2R a <= up * B2R (inner64 a b) <= up * B2R b.
Proof.
  intros Fa Fb L. destruct Hup as [-> | ->].
  - assert (H := inner_between a b Fa Fb ltac:(lra)). lra.
  - assert (H := inner_between b a Fb Fa ltac:(lra)). rewrite (inner_comm a b Fa Fb). lra.
Qed.
Lemma outer_up_low a b : fin 900 a -> fin 900 b -> up * B2R a <= up * B2R b -> up * B2R (outer64 a b) <= up * B2R a.
Proof. intros Fa Fb L. destruct Hup as [-> | ->]; [assert (H := outer_low a b Fa Fb ltac:(lra)); lra|assert (H := outer_high a b Fa Fb ltac:(lra)); lra]. Qed.
Lemma outer_up_high a b : fin 900 a -> fin 900 b -> up * B2R b <= up * B2R a -> up * B2R a <= up * B2R (outer64 a b).
Proof. intros Fa Fb L. destruct Hup as [-> | ->]; [assert (H := outer_high a b Fa Fb ltac:(lra)); lra|assert (H := outer_low a b Fa Fb ltac:(lra)); lra]. Qed.
Lemma low_edge i x : nth_error d i = Some x -> fin 900 x -> value x (B2R x) -> exists a, gval real64 e i a /\ up * a <= up * B2R x.
Proof.
  intros X Fx Vx. destruct i as [|i].
  - destruct (d_val 1 ltac:(lia)) as (y & Y & Fy & Vy). destruct (outer_fin x y Fx Fy) as (_ & _ & F & _).
    exists (B2R (outer64 x y)). split; [exists (outer64 x y); split; [eapply e_first; eauto|apply value_iff; split; auto; apply F]|].
    apply outer_up_low; auto. eapply d_mono; eauto.
  - assert (L : (S i < List.length d)%nat) by (apply nth_error_Some; change (num_ o64) with f64 in *; congruence).
    destruct (d_val i ltac:(lia)) as (y & Y & Fy & Vy). destruct (inner_val y x Fy Fx) as [F _].
    exists (B2R (inner64 y x)). split; [exists (inner64 y x); split; [eapply e_inner; eauto|apply value_iff; auto]|].
    apply inner_up; auto. eapply d_mono; eauto.
Qed.
Lemma high_edge i x : nth_error d i = Some x -> fin 900 x -> value x (B2R x) -> exists a, gval real64 e (S i) a /\ up * B2R x <= up * a.
Proof.
  intros X Fx Vx. assert (L : (i < List.length d)%nat) by (apply nth_error_Some; change (num_ o64) with f64 in *; congruence).
  destruct (Nat.eq_dec (S i) (List.length d)) as [Q|Q].
  - destruct i as [|i]; [lia|]. destruct (d_val i ltac:(lia)) as (y & Y & Fy & Vy). destruct (outer_fin x y Fx Fy) as (_ & _ & F & _).
    exists (B2R (outer64 x y)). split; [exists (outer64 x y); split; [eapply e_last; eauto|apply value_iff; split; auto; apply F]|].
    apply outer_up_high; auto. eapply d_mono; eauto.
  - destruct (d_val (S i) ltac:(lia)) as (y & Y & Fy & Vy). destruct (inner_val x y Fx Fy) as [F _].
    exists (B2R (inner64 x y)). split; [exists (inner64 x y); split; [eapply e_inner; eauto|apply value_iff; auto]|].
    apply inner_up; auto. eapply d_mono; eauto.
Qed.
Lemma enclosed i r : gval real64 d i r -> exists a b, gval real64 e i a /\ gval real64 e (S i) b /\ up * a <= up * r <= up * b.
Proof.
  intros (x & X & V). assert (F := d_fin d W i x r X V). apply value_iff in V. destruct V as [Fx <-]. assert (V : value x (B2R x)) by (apply value_iff; auto).
  destruct (low_edge i x X F V) as (a & Va & La), (high_edge i x X F V) as (b & Vb & Lb). exists a, b. auto.
Qed.
Lemma e_step i a b : gval real64 e i a -> gval real64 e (S i) b -> up * a <= up * b.
Proof.
  intros Va Vb. assert (L : (S i < List.length e)%nat) by (destruct Vb as (y & Y & _); apply nth_error_Some; change (num_ o64) with f64 in *; congruence).
  assert (LE := e_len junk d e N2 E). change (num_ o64) with f64 in *. destruct (d_val i ltac:(lia)) as (x & X & F & V).
  destruct (enclosed i (B2R x)) as (a' & b' & Va' & Vb' & H); [now exists x|].
  assert (a' = a). { destruct Va as (t & T & Vt), Va' as (t' & T' & Vt'). congruence. }
  assert (b' = b). { destruct Vb as (t & T & Vt), Vb' as (t' & T' & Vt'). congruence. } subst. lra.
Qed.
Lemma e_valid i : (i < List.length e)%nat -> exists a, gval real64 e i a.
Proof.
  intro H. assert (LE := e_len junk d e N2 E). change (num_ o64) with f64 in *. destruct (Nat.eq_dec i (List.length d)) as [Q|Q].
  - destruct i as [|i]; [lia|]. destruct (d_val i ltac:(lia)) as (x & X & F & V). destruct (high_edge i x X F V) as (a & Va & _). eauto.
  - destruct (d_val i ltac:(lia)) as (x & X & F & V). destruct (low_edge i x X F V) as (a & Va & _). eauto.
Qed.
Lemma e_mono j : forall i a b, (i < j)%nat -> gval real64 e i a -> gval real64 e j b -> up * a <= up * b.
Proof.
  induction j as [|j IH]; intros i a b L Va Vb; [lia|]. destruct (Nat.eq_dec i j) as [->|Q]; [eapply e_step; eauto|].
  assert (J : (S j < List.length e)%nat) by (destruct Vb as (y & Y & _); apply nth_error_Some; change (num_ o64) with f64 in *; congruence).
  destruct (e_valid j ltac:(change (num_ o64) with f64 in *; lia)) as [c Vc]. apply Rle_trans with (up * c); [apply (IH i); auto; lia|eapply e_step; eauto].
Qed.
End Mono.
Theorem C71_cells_hold_their_centres : forall junk d e, (2 <= List.length d)%nat -> Forall (within 900) d -> no_missing d ->
  get_edges_1d_g o64 junk d = Ok e ->
  (gnondecreasing real64 d -> gnondecreasing real64 e /\ no_missing e /\
     forall i x, gval real64 d i x -> exists a b, gval real64 e i a /\ gval real64 e (S i) b /\ a <= x <= b) /\
  ((forall i j a b, (i < j)%nat -> gval real64 d i a -> gval real64 d j b -> b <= a) ->
     (forall i j a b, (i < j)%nat -> gval real64 e i a -> gval real64 e j b -> b <= a) /\ no_missing e /\
     forall i x, gval real64 d i x -> exists a b, gval real64 e i a /\ gval real64 e (S i) b /\ b <= x <= a).
Proof.
  assert (NMe : forall junk d e up, (2 <= List.length d)%nat -> Forall (within 900) d -> no_missing d -> up = 1 \/ up = -1 ->
    (forall i a b, gval real64 d i a -> gval real64 d (S i) b -> up * a <= up * b) -> get_edges_1d_g o64 junk d = Ok e -> no_missing e).
  { intros junk d e up N W NM U Mo E i x X. destruct (e_valid junk d e up N W NM U Mo E i) as (a & y & Y & V).
    - apply nth_error_Some. change (num_ o64) with f64 in *. congruence.
    - exists a. change (num_ o64) with f64 in *. rewrite X in Y. injection Y as <-. exact V. }
  intros junk d e N W NM E. split; intro Mo.
  - assert (Mo' : forall i a b, gval real64 d i a -> gval real64 d (S i) b -> 1 * a <= 1 * b). { intros i a b A B. specialize (Mo i (S i) a b ltac:(lia) A B). lra. }
    split; [|split; [eapply NMe with (up := 1); eauto|]].
    + intros i j a b L A B. assert (H := e_mono junk d e 1 N W NM (or_introl eq_refl) Mo' E j i a b L A B). lra.
    + intros i x V. destruct (enclosed junk d e 1 N W NM (or_introl eq_refl) Mo' E i x V) as (a & b & A & B & H). exists a, b. repeat split; auto; lra.
  - assert (Mo' : forall i a b, gval real64 d i a -> gval real64 d (S i) b -> -1 * a <= -1 * b). { intros i a b A B. specialize (Mo i (S i) a b ltac:(lia) A B). lra. }
    split; [|split; [eapply NMe with (up := -1); eauto|]].
    + intros i j a b L A B. assert (H := e_mono junk d e (-1) N W NM (or_intror eq_refl) Mo' E j i a b L A B). lra.
    + intros i x V. destruct (enclosed junk d e (-1) N W NM (or_intror eq_refl) Mo' E i x V) as (a & b & A & B & H). exists a, b. repeat split; auto; lra.
Qed.
Print Assumptions C71_cells_hold_their_centres.

(** ** Integers *)
Lemma half_int_RN z : (Z.abs z <= 2 ^ 52)%Z -> RN (IZR z * / 2) = IZR z * / 2.
Proof.
  intro H. apply round_generic; auto with typeclass_instances. change fexp64 with (FLT_exp (-1074) 53). apply generic_format_FLT.
  exists (Float radix2 z (-1)); cbn [Fnum Fexp]; [unfold F2R; cbn [Fnum Fexp]; change (bpow radix2 (-1)) with (/ 2); reflexivity| |lia].
  change (radix2 ^ 53)%Z with (2 ^ 53)%Z. lia.
Qed.
Lemma int_fin x z : (Z.abs z <= 2 ^ 50)%Z -> value x (IZR z) -> fin 900 x /\ is_finite x = true /\ B2R x = IZR z.
Proof.
  intros H V. apply value_iff in V. destruct V as [F V]. split; auto. split; auto. rewrite V, <- abs_IZR.
  apply Rle_trans with (bpow radix2 50); [change (bpow radix2 50) with (IZR (2 ^ 50)); now apply IZR_le|apply bpow_le; lia].
Qed.
Lemma inner_int x y a b : (Z.abs a <= 2 ^ 50)%Z -> (Z.abs b <= 2 ^ 50)%Z -> value x (IZR a) -> value y (IZR b) -> value (inner64 x y) ((IZR a + IZR b) / 2).
Proof.
  intros Ha Hb Vx Vy. destruct (int_fin x a Ha Vx) as (Fx & _ & Ex), (int_fin y b Hb Vy) as (Fy & _ & Ey).
  destruct (inner_val x y Fx Fy) as [F V]. apply value_iff. split; auto. rewrite V, Ex, Ey, <- plus_IZR. apply half_int_RN. lia.
Qed.
Lemma outer_int x y a b : (Z.abs a <= 2 ^ 50)%Z -> (Z.abs b <= 2 ^ 50)%Z -> value x (IZR a) -> value y (IZR b) -> value (outer64 x y) (IZR a - (IZR b - IZR a) / 2).
Proof.
  intros Ha Hb Vx Vy. destruct (int_fin x a Ha Vx) as (Fx & _ & Ex), (int_fin y b Hb Vy) as (Fy & _ & Ey).
  destruct (outer_fin x y Fx Fy) as (_ & _ & F & V). apply value_iff. split; [apply F|]. rewrite V, Ex, Ey, <- minus_IZR.
  rewrite RN_int by lia. rewrite half_int_RN by lia. replace (IZR a - IZR (b - a) * / 2) with (IZR (3 * a - b) * / 2) by (rewrite !minus_IZR, mult_IZR; lra).
  rewrite half_int_RN by lia. rewrite minus_IZR, mult_IZR, minus_IZR. lra.
Qed.
Definition integer_axis (d : list f64) : Prop := forall i x, nth_error d i = Some x -> exists z, (Z.abs z <= 2 ^ 50)%Z /\ value x (IZR z).
Theorem C71_integer_axis_exact : forall junk d e, (2 <= List.length d)%nat -> integer_axis d -> get_edges_1d_g o64 junk d = Ok e ->
  (forall i a b, gval real64 d i a -> gval real64 d (S i) b -> gval real64 e (S i) ((a + b) / 2)) /\
  (forall a b, gval real64 d 0 a -> gval real64 d 1 b -> gval real64 e 0 (a - (b - a) / 2)) /\
  (forall n a b, S (S n) = List.length d -> gval real64 d n a -> gval real64 d (S n) b -> gval real64 e (S (S n)) (b + (b - a) / 2)).
Proof.
  intros junk d e N I E. split; [|split].
  - intros i a b (x & X & Vx) (y & Y & Vy). destruct (I i x X) as (za & Ha & Va), (I (S i) y Y) as (zb & Hb & Vb).
    rewrite (value_fun _ _ _ Vx Va), (value_fun _ _ _ Vy Vb). exists (inner64 x y). split; [eapply e_inner; eauto|now apply inner_int].
  - intros a b (x & X & Vx) (y & Y & Vy). destruct (I 0%nat x X) as (za & Ha & Va), (I 1%nat y Y) as (zb & Hb & Vb).
    rewrite (value_fun _ _ _ Vx Va), (value_fun _ _ _ Vy Vb). exists (outer64 x y). split; [eapply e_first; eauto|now apply outer_int].
  - intros n a b L (x & X & Vx) (y & Y & Vy). destruct (I n x X) as (za & Ha & Va), (I (S n) y Y) as (zb & Hb & Vb).
    rewrite (value_fun _ _ _ Vx Va), (value_fun _ _ _ Vy Vb). exists (outer64 y x). split; [eapply e_last; eauto|].
    replace (IZR zb + (IZR zb - IZR za) / 2) with (IZR zb - (IZR za - IZR zb) / 2) by lra. now apply outer_int.
Qed.
Print Assumptions C71_integer_axis_exact.

(** Two adjacent doubles: the first cell has no width *)
Theorem C71_strict_refuted : exists d e, get_edges_1d_g o64 (fun _ => zero64) d = Ok e /\
  List.length d = 2%nat /\ gincreasing real64 d /\ exists a, gval real64 e 0 a /\ gval real64 e 1 a.
Proof.
  set (x := mk64 4503599627370498 (-52)). set (y := mk64 4503599627370499 (-52)).
  destruct (get_edges_1d_g_ok o64 (fun _ => zero64) [x; y] ltac:(cbn; lia)) as (e & E & L & V). exists [x; y], e. split; [exact E|]. split; [reflexivity|]. split.
  - assert (Vx : value x (F2R (Float radix2 4503599627370498 (-52)))) by (apply (cst x false 4503599627370498 (-52)); vm_compute; reflexivity).
    assert (Vy : value y (F2R (Float radix2 4503599627370499 (-52)))) by (apply (cst y false 4503599627370499 (-52)); vm_compute; reflexivity).
    intros [|[|i]] [|[|j]] a b H (t & T & R1) (u & U & R2); try lia; cbn in T, U; try discriminate; try (destruct j; discriminate); try (destruct i; discriminate).
    injection T as <-. injection U as <-. fold (value x a) in R1. fold (value y b) in R2. rewrite (value_fun _ _ _ R1 Vx), (value_fun _ _ _ R2 Vy). apply F2R_lt. lia.
  - exists (F2R (Float radix2 4503599627370498 (-52))). split.
    + exists (outer64 x y). split; [change (num_ o64) with f64 in *; rewrite V by (cbn; lia); reflexivity|]. apply (cst _ false 4503599627370498 (-52)). vm_compute. reflexivity.
    + exists (inner64 x y). split; [change (num_ o64) with f64 in *; rewrite V by (cbn; lia); reflexivity|]. apply (cst _ false 4503599627370498 (-52)). vm_compute. reflexivity.
Qed.
Print Assumptions C71_strict_refuted.
(** A single value has no edges *)
Theorem C71_needs_two : forall junk d, (List.length d < 2)%nat -> get_edges_1d_g o64 junk d = Raise IndexError.
Proof. apply get_edges_1d_g_short. Qed.
Print Assumptions C71_needs_two.

Lemma ex3 (a b c : f64) : value a 1 -> value b 2 -> value c 4 ->
  Forall (within 900) [a; b; c; B754_nan] /\ integer_axis [a; b; c] /\ no_missing [a; b; c] /\ gnondecreasing real64 [a; b; c].
Proof.
  intros A B C.
  assert (I : integer_axis [a; b; c]).
  { intros [|[|[|i]]] x X; cbn [nth_error] in X; try (destruct i; discriminate); injection X as <-; [exists 1%Z|exists 2%Z|exists 4%Z]; split; auto; lia. }
  split.
  - assert (Wi : forall x z, (Z.abs z <= 4)%Z -> value x (IZR z) -> within 900 x).
    { intros x z Hz V. right. exists (IZR z). split; auto. rewrite pow64, <- abs_IZR. apply Rle_trans with (bpow radix2 2); [change (bpow radix2 2) with (IZR 4); now apply IZR_le|apply bpow_le; lia]. }
    apply Forall_cons; [apply (Wi a 1%Z); auto; lia|]. apply Forall_cons; [apply (Wi b 2%Z); auto; lia|]. apply Forall_cons; [apply (Wi c 4%Z); auto; lia|]. apply Forall_cons; [left; reflexivity|]. apply Forall_nil.
  - split; auto. split; [intros i x X; destruct (I i x X) as (z & _ & V); eauto|].
    intros i j u v L (x & X & Vx) (y & Y & Vy).
    destruct i as [|[|[|i]]], j as [|[|[|j]]]; try lia; cbn [nth_error] in X, Y; try discriminate; try (destruct i; discriminate); try (destruct j; discriminate);
      injection X as <-; injection Y as <-; [rewrite (value_fun _ _ _ Vx A), (value_fun _ _ _ Vy B)|rewrite (value_fun _ _ _ Vx A), (value_fun _ _ _ Vy C)|rewrite (value_fun _ _ _ Vx B), (value_fun _ _ _ Vy C)]; lra.
Qed.
Example C71_ex : exists e, get_edges_1d_g o64 (fun _ => B754_nan) [mk64 1 0; mk64 2 0; mk64 4 0; B754_nan] = Ok e /\
  map (@B2SF 53 1024) e = map (@B2SF 53 1024) [mk64 1 (-1); mk64 3 (-1); mk64 3 0; B754_nan; B754_nan] /\
  Forall (within 900) [mk64 1 0; mk64 2 0; mk64 4 0; B754_nan] /\ integer_axis [mk64 1 0; mk64 2 0; mk64 4 0] /\ no_missing [mk64 1 0; mk64 2 0; mk64 4 0] /\ gnondecreasing real64 [mk64 1 0; mk64 2 0; mk64 4 0].
Proof.
  eexists. split; [reflexivity|]. split; [vm_compute; reflexivity|]. apply ex3; apply val_int; lia.
Qed.
