(** C70: the conversions of sigma coordinates to heights, computed with doubles. *)
From Verif Require Import Sigma64 Float64CellRows Float64Props.
From Flocq Require Import Core BinarySingleNaN.
From Coq Require Import Reals Lra Psatz.
Open Scope R_scope.

Local Notation app := Float64App.app.
Lemma reasonable_scale M : reasonable M -> scale M.
Proof. intros [A B]. rewrite !pow64 in *. split; auto. eapply Rle_trans; [exact B|]. apply bpow_le. lia. Qed.
Lemma value_iff x r : value x r <-> is_finite x = true /\ B2R x = r.
Proof. unfold value. rewrite rank64_iff. tauto. Qed.
Lemma value_fun x r s : value x r -> value x s -> r = s.
Proof. unfold value. congruence. Qed.
Lemma ulp_u : ulp1 = u64.
Proof. unfold ulp1. now rewrite pow64. Qed.
Lemma app1 x r : value x r -> Rabs r <= 1 -> app 1 x r 1 0.
Proof. intros H B. apply value_iff in H. destruct H as [F <-]. apply app_exact; auto using scale_1. lra. Qed.
Lemma appM M x r : scale M -> value x r -> Rabs r <= M -> app M x r 1 0.
Proof. intros S H B. apply value_iff in H. destruct H as [F <-]. apply app_exact; auto. lra. Qed.
Lemma app_out M x r a k K : scale M -> app M x r a k -> k <= K -> exists v, value x v /\ Rabs (v - r) <= K * ulp1 * M.
Proof.
  intros S (F & _ & E) HK. exists (B2R x). split; [apply value_iff; auto|]. rewrite ulp_u. eapply Rle_trans; [exact E|].
  assert (P := scale_pos M S). assert (U := u64_pos). apply Rmult_le_compat_r; [lra|]. apply Rmult_le_compat_r; lra.
Qed.
Ltac tn := unfold tiny; lra.

(** ** Intermediate results *)
Section At.
Variables (s c e h hc : f64) (s' c' e' h' hc' : R).
Hypothesis Vs : value s s'. Hypothesis Vc : value c c'. Hypothesis Ve : value e e'. Hypothesis Vh : value h h'. Hypothesis Vhc : value hc hc'.
Hypothesis Bs : Rabs s' <= 1. Hypothesis Bc : Rabs c' <= 1.
Variable M : R.
Hypothesis SM : scale M.
Lemma a_sub : Rabs h' <= M -> Rabs hc' <= M -> app M (sub64 h hc) (h' - hc') 2 2.
Proof. intros. eapply app_sub; eauto using appM; try lra; tn. Qed.
Lemma a_add : Rabs h' <= M -> Rabs e' <= M -> app M (add64 h e) (h' + e') 2 2.
Proof. intros. eapply app_add; eauto using appM; try lra; tn. Qed.
Lemma a_mul1 x x' : value x x' -> Rabs x' <= M -> app M (mul64 s x) (s' * x') 1 (101 / 100).
Proof. intros. eapply app_mul; eauto using appM, app1; try lra; tn. Qed.
Lemma a_mul1c x x' : value x x' -> Rabs x' <= M -> app M (mul64 c x) (c' * x') 1 (101 / 100).
Proof. intros. eapply app_mul; eauto using appM, app1; try lra; tn. Qed.
Lemma a_mul2 x x' : app M x x' 2 2 -> app M (mul64 s x) (s' * x') 2 (401 / 100).
Proof. intros. eapply app_mul; eauto using app1; try lra; tn. Qed.
Lemma a_mul2c x x' : app M x x' 2 2 -> app M (mul64 c x) (c' * x') 2 (401 / 100).
Proof. intros. eapply app_mul; eauto using app1; try lra; tn. Qed.
Lemma a_atm : Rabs h' <= M -> Rabs hc' <= M -> app M (atm64 s h hc) (s' * (h' - hc') + hc') 3 8.
Proof. intros. unfold atm64. eapply app_add; eauto using a_mul2, a_sub, appM; try lra; tn. Qed.
Lemma a_sig : Rabs h' <= M -> Rabs e' <= M -> app M (sig64 s e h) (s' * (h' + e') + e') 3 8.
Proof. intros. unfold sig64. eapply app_add; eauto using a_mul2, a_add, appM; try lra; tn. Qed.
Lemma a_zc : Rabs h' <= M -> Rabs hc' <= M -> app M (zc64 s c h hc) (s' * hc' + c' * (h' - hc')) 3 (81 / 10).
Proof. intros. unfold zc64. eapply app_add; eauto using a_mul2c, a_sub, a_mul1; try lra; tn. Qed.
Lemma a_s1 : app 1 (add64 s one64) (s' + 1) 2 2.
Proof. eapply app_add; eauto using one_app, app1, scale_1; try lra; tn. Qed.
Lemma a_s : Rabs h' <= M -> Rabs hc' <= M -> Rabs e' <= M -> app M (s64 s c e h hc) ((s' + 1) * e' + (s' * hc' + c' * (h' - hc'))) 5 18.
Proof.
  intros. unfold s64. eapply app_add with (k := 41 / 10) (a := 2); eauto using a_zc; try lra; [|tn].
  eapply app_mul; eauto using a_s1, appM; try lra; tn.
Qed.
Lemma a_n2 : Rabs h' <= M -> Rabs hc' <= M -> app M (n2 s c h hc) (s' * hc' + c' * h') 2 (41 / 10).
Proof. intros. unfold n2. eapply app_add; eauto using a_mul1c, a_mul1; try lra; tn. Qed.
End At.

Section Divided.
Variables (s c e h hc : f64) (s' c' e' h' hc' : R).
Hypothesis Vs : value s s'. Hypothesis Vc : value c c'. Hypothesis Ve : value e e'. Hypothesis Vh : value h h'. Hypothesis Vhc : value hc hc'.
Hypothesis Bs : Rabs s' <= 1. Hypothesis Bc : Rabs c' <= 1.
Hypothesis Sh : scale h'.
Lemma h_pos : 0 < h'.
Proof. now apply scale_pos. Qed.
Lemma h_abs : Rabs h' <= h'.
Proof. rewrite Rabs_pos_eq; [lra|]. left. exact h_pos. Qed.
(** [S / h] *)
Lemma a_q1 : Rabs hc' <= h' -> app 1 (q1 s c h hc) ((s' * hc' + c' * (h' - hc')) / h') 3 (112 / 10).
Proof.
  intro H. unfold q1. destruct (proj1 (value_iff _ _) Vh) as [Fh Wh].
  eapply app_div with (e := 0) (l := 0); eauto using a_zc, h_abs; try lra; [rewrite Rabs_R0; lra|tn].
Qed.
Lemma a_q1p : Rabs hc' <= h' -> app 1 (add64 (q1 s c h hc) one64) ((s' * hc' + c' * (h' - hc')) / h' + 1) 4 (153 / 10).
Proof. intro H. eapply app_add; eauto using a_q1, one_app, scale_1; try lra; tn. Qed.
Lemma a_g1 : Rabs hc' <= h' -> Rabs e' <= h' ->
  app h' (g164 s c e h hc) ((s' * hc' + c' * (h' - hc')) + ((s' * hc' + c' * (h' - hc')) / h' + 1) * e') 7 36.
Proof.
  intros H H'. unfold g164. eapply app_add with (l := 195 / 10) (b := 4); eauto using a_zc, h_abs; try lra; [|tn].
  eapply app_mul; eauto using a_q1p, appM; try lra; tn.
Qed.
(** [S] in the second form *)
Hypothesis Phc : 0 <= hc' <= bpow radix2 900.
Hypothesis Th : h' <= bpow radix2 900.
Lemma D_scale : scale (hc' + h').
Proof. destruct Sh as [A B]. split; [lra|]. apply Rle_trans with (2 * bpow radix2 900); [lra|]. change 2 with (bpow radix2 1). rewrite <- bpow_plus. apply bpow_le. lia. Qed.
Lemma D_ok : is_finite (add64 hc h) = true /\ exists d, Rabs d <= u64 /\ B2R (add64 hc h) = (hc' + h') * (1 + d).
Proof.
  destruct (proj1 (value_iff _ _) Vh) as [Fh Wh], (proj1 (value_iff _ _) Vhc) as [Fc Wc].
  destruct (add_ok hc h 901) as [F V]; auto; try lia.
  { rewrite Wh, Wc. rewrite Rabs_pos_eq by (assert (P := h_pos); lra). apply Rle_trans with (2 * bpow radix2 900); [lra|]. change 2 with (bpow radix2 1). rewrite <- bpow_plus. apply bpow_le. lia. }
  split; auto. destruct (RN_add_err _ _ (format64 hc) (format64 h)) as (d & Hd & Hr). exists d. split; auto. now rewrite V, Hr, Wh, Wc.
Qed.
Lemma D_pos : 0 < B2R (add64 hc h).
Proof.
  destruct D_ok as (F & d & Hd & ->). apply Rabs_le_iff in Hd. assert (P := h_pos). assert (U := u64_tiny). unfold tiny in U. apply Rmult_lt_0_compat; lra.
Qed.
Lemma a_S2 : app 1 (S2 s c h hc) ((s' * hc' + c' * h') / (hc' + h')) 2 (82 / 10).
Proof.
  unfold S2. destruct D_ok as (F & d & Hd & Vd). assert (P := h_pos).
  eapply app_div with (e := d) (l := 1); [exact D_scale| |exact F|exact Vd|lra| | | |]; try lra.
  - eapply a_n2; eauto using D_scale; rewrite Rabs_pos_eq; lra.
  - lra.
  - tn.
Qed.
Lemma a_S2p : app 1 (add64 (S2 s c h hc) one64) ((s' * hc' + c' * h') / (hc' + h') + 1) 3 (113 / 10).
Proof. eapply app_add; eauto using a_S2, one_app, scale_1; try lra; tn. Qed.
Lemma a_hS M : scale M -> h' <= M -> app M (mul64 (S2 s c h hc) h) ((s' * hc' + c' * h') / (hc' + h') * h') 2 (103 / 10).
Proof. intros SM H. assert (P := h_pos). eapply app_mul with (b := 1) (l := 0); eauto using a_S2; try (apply appM; auto; rewrite Rabs_pos_eq; lra); try lra; tn. Qed.
Lemma a_Se M : scale M -> Rabs e' <= M -> app M (mul64 (add64 (S2 s c h hc) one64) e) (((s' * hc' + c' * h') / (hc' + h') + 1) * e') 3 (144 / 10).
Proof. intros SM H. eapply app_mul; eauto using a_S2p, appM; try lra; tn. Qed.
Lemma a_g2 M : scale M -> h' <= M -> Rabs e' <= M ->
  app M (g264 s c e h hc) ((s' * hc' + c' * h') / (hc' + h') * h' + ((s' * hc' + c' * h') / (hc' + h') + 1) * e') 5 30.
Proof. intros SM H H'. unfold g264. eapply app_add; eauto using a_hS, a_Se; try lra; tn. Qed.
End Divided.

(** ** Accuracy *)
Theorem C70_accuracy_two_levels : forall fs ft,
  (forall sig ps ptop p, atmosphere_sigma_coordinate_g (sops64 fs ft) sig ps ptop = Ok p ->
   forall pos M s a b, value (gat_ sig pos) s -> value (gat_ ps pos) a -> value (gat_ ptop pos) b ->
   Rabs s <= 1 -> reasonable M -> Rabs a <= M -> Rabs b <= M ->
   exists x, value (gat_ p pos) x /\ Rabs (x - atmosphere_cf s a b) <= 8 * ulp1 * M) /\
  (forall sig ssh bathy z, ocean_sigma_coordinate_g (sops64 fs ft) sig ssh bathy = Ok z ->
   forall pos M s eta h, value (gat_ sig pos) s -> value (gat_ ssh pos) eta -> value (gat_ bathy pos) h ->
   Rabs s <= 1 -> reasonable M -> Rabs eta <= M -> Rabs h <= M ->
   exists x, value (gat_ z pos) x /\ Rabs (x - sigma_cf s eta h) <= 8 * ulp1 * M).
Proof.
  intros fs ft. split.
  - intros sig ps ptop p H pos M s a b Vs Va Vb Bs RM Ba Bb. rewrite (atm_at fs ft sig ps ptop p pos H). apply reasonable_scale in RM.
    destruct (app_out M _ _ 3 8 8 RM (a_atm _ _ _ _ _ _ Vs Va Vb Bs M RM Ba Bb) ltac:(lra)) as (x & Vx & Ex). exists x. split; auto.
    unfold atmosphere_cf. replace (b + s * (a - b)) with (s * (a - b) + b) by ring. exact Ex.
  - intros sig ssh bathy z H pos M s eta h Vs Ve Vh Bs RM Be Bh. rewrite (sig_at fs ft sig ssh bathy z pos H). apply reasonable_scale in RM.
    destruct (app_out M _ _ 3 8 8 RM (a_sig _ _ _ _ _ _ Vs Ve Vh Bs M RM Bh Be) ltac:(lra)) as (x & Vx & Ex). exists x. split; auto.
    unfold sigma_cf. replace (eta + s * (eta + h)) with (s * (h + eta) + eta) by ring. exact Ex.
Qed.
Print Assumptions C70_accuracy_two_levels.
Theorem C70_accuracy_stretched : forall fs ft,
  (forall sig ssh bathy hc a b cs c C z c', gfilled_cache _ c = None -> curve_s fs ft sig a b cs = Ok C ->
   ocean_s_coordinate_gen (sops64 fs ft) sig ssh bathy hc a b cs c = Ok (z, c') ->
   forall pos M s k eta h Hc, value (gat_ sig pos) s -> value (gat_ C pos) k -> value (gat_ ssh pos) eta -> value (gat_ bathy pos) h -> value (gat_ hc pos) Hc ->
   Rabs s <= 1 -> Rabs k <= 1 -> reasonable M -> Rabs eta <= M -> Rabs h <= M -> Rabs Hc <= M ->
   exists x, value (gat_ z pos) x /\ Rabs (x - s_cf s k eta h Hc) <= 18 * ulp1 * M) /\
  (forall sig ssh bathy hc a b cs c C z c', gfilled_cache _ c = None -> stretching_g _ sig a b cs = Ok C ->
   ocean_s_coordinate_g1_g (sops64 fs ft) sig ssh bathy hc a b cs c = Ok (z, c') ->
   forall pos s k eta h Hc, value (gat_ sig pos) s -> value (gat_ C pos) k -> value (gat_ ssh pos) eta -> value (gat_ bathy pos) h -> value (gat_ hc pos) Hc ->
   Rabs s <= 1 -> Rabs k <= 1 -> reasonable h -> Rabs eta <= h -> Rabs Hc <= h ->
   exists x, value (gat_ z pos) x /\ Rabs (x - g1_cf s k eta h Hc) <= 36 * ulp1 * h) /\
  (forall sig ssh bathy hc a b cs c C z c', gfilled_cache _ c = None -> stretching_g _ sig a b cs = Ok C ->
   ocean_s_coordinate_g2_g (sops64 fs ft) sig ssh bathy hc a b cs c = Ok (z, c') ->
   forall pos M s k eta h Hc, value (gat_ sig pos) s -> value (gat_ C pos) k -> value (gat_ ssh pos) eta -> value (gat_ bathy pos) h -> value (gat_ hc pos) Hc ->
   Rabs s <= 1 -> Rabs k <= 1 -> reasonable h -> 0 <= Hc <= powerRZ 2 900 -> reasonable M -> h <= M -> Rabs eta <= M ->
   exists x, value (gat_ z pos) x /\ Rabs (x - g2_cf s k eta h Hc) <= 30 * ulp1 * M).
Proof.
  intros fs ft. split; [|split].
  - intros sig ssh bathy hc a b cs c C z c' F HC H pos M s k eta h Hc Vs Vk Ve Vh Vc Bs Bk RM Be Bh Bc.
    rewrite (s_at fs ft sig ssh bathy hc a b cs c C z c' pos F HC H). apply reasonable_scale in RM.
    destruct (app_out M _ _ 5 18 18 RM (a_s _ _ _ _ _ _ _ _ _ _ Vs Vk Ve Vh Vc Bs Bk M RM Bh Bc Be) ltac:(lra)) as (x & Vx & Ex). exists x. split; auto.
    replace (s_cf s k eta h Hc) with ((s + 1) * eta + (s * Hc + k * (h - Hc))) by (unfold s_cf; ring). exact Ex.
  - intros sig ssh bathy hc a b cs c C z c' F HC H pos s k eta h Hc Vs Vk Ve Vh Vc Bs Bk RM Be Bc.
    rewrite (g1_at fs ft sig ssh bathy hc a b cs c C z c' pos F HC H). apply reasonable_scale in RM.
    destruct (app_out h _ _ 7 36 36 RM (a_g1 _ _ _ _ _ _ _ _ _ _ Vs Vk Ve Vh Vc Bs Bk RM Bc Be) ltac:(lra)) as (x & Vx & Ex). exists x. split; auto.
    assert (P := scale_pos h RM).
    replace (g1_cf s k eta h Hc) with ((s * Hc + k * (h - Hc)) + ((s * Hc + k * (h - Hc)) / h + 1) * eta) by (unfold g1_cf; field; lra). exact Ex.
  - intros sig ssh bathy hc a b cs c C z c' F HC H pos M s k eta h Hc Vs Vk Ve Vh Vc Bs Bk Rh Bc RM Bh Be.
    rewrite (g2_at fs ft sig ssh bathy hc a b cs c C z c' pos F HC H). assert (Sh := reasonable_scale h Rh). apply reasonable_scale in RM. destruct Rh as [_ Th]. rewrite pow64 in Th, Bc.
    destruct (app_out M _ _ 5 30 30 RM (a_g2 _ _ _ _ _ _ _ _ _ _ Vs Vk Ve Vh Vc Bs Bk Sh Bc Th M RM Bh Be) ltac:(lra)) as (x & Vx & Ex). exists x. split; auto.
    assert (P := scale_pos h Sh).
    replace (g2_cf s k eta h Hc) with ((s * Hc + k * h) / (Hc + h) * h + ((s * Hc + k * h) / (Hc + h) + 1) * eta) by (unfold g2_cf; field; lra). exact Ex.
Qed.
Print Assumptions C70_accuracy_stretched.

(** ** The surface is exact, and the bottom in the second generic form *)
Definition sized (r : R) : Prop := Rabs r <= powerRZ 2 900.
Lemma sized_fin x r : value x r -> sized r -> fin 900 x.
Proof. intros V B. apply value_iff in V. destruct V as [F V]. unfold sized in B. rewrite pow64 in B. split; auto. now rewrite V. Qed.
Lemma unit_fin x r : value x r -> Rabs r <= 1 -> fin 0 x.
Proof. intros V B. apply value_iff in V. destruct V as [F V]. split; auto. rewrite V. exact B. Qed.
Lemma val_of k x r : fin k x -> B2R x = r -> value x r.
Proof. intros [F _] V. now apply value_iff. Qed.
Lemma zc_zero s c h hc h' hc' : value s 0 -> value c 0 -> value h h' -> value hc hc' -> sized h' -> sized hc' -> fin 903 (zc64 s c h hc) /\ B2R (zc64 s c h hc) = 0.
Proof.
  intros Vs Vc Vh Vhc Bh Bhc. assert (Fs := unit_fin s 0 Vs ltac:(rewrite Rabs_R0; lra)). assert (Fc := unit_fin c 0 Vc ltac:(rewrite Rabs_R0; lra)).
  apply sized_fin with (1 := Vh) in Bh. apply sized_fin with (1 := Vhc) in Bhc. apply value_iff in Vs, Vc. destruct Vs as [_ Vs], Vc as [_ Vc].
  assert (F1 : fin 901 (sub64 h hc)) by (apply (fin_ops_sub 901 900 900); auto; lia).
  assert (F2 : fin 901 (mul64 c (sub64 h hc))) by (apply (fin_ops_mul 901 0 901); auto; lia).
  assert (F3 : fin 900 (mul64 s hc)) by (apply (fin_ops_mul 900 0 900); auto; lia).
  assert (Z2 : B2R (mul64 c (sub64 h hc)) = 0) by (apply (mul_0 901); auto; lia).
  assert (Z3 : B2R (mul64 s hc) = 0) by (apply (mul_0 900); auto; lia).
  split; [apply (fin_ops_add 903 900 901); auto; lia|]. unfold zc64. rewrite (add_0l 901 900); auto; lia.
Qed.
Lemma div_zero x y : is_finite x = true -> B2R x = 0 -> B2R y <> 0 -> is_finite (div64 x y) = true /\ B2R (div64 x y) = 0.
Proof.
  intros F V N. destruct (div_ok x y 0 ltac:(lia) F N) as [F' V'].
  { rewrite V. unfold Rdiv. rewrite Rmult_0_l, Rabs_R0. cbn. lra. }
  split; auto. rewrite V', V. unfold Rdiv. rewrite Rmult_0_l. apply RN_0.
Qed.
Lemma one_plus0 x : is_finite x = true -> B2R x = 0 -> fin 0 (add64 x one64) /\ B2R (add64 x one64) = 1.
Proof.
  intros F V. assert (I : isint x 0) by (split; auto). assert (A := int_add x one64 0 1 I Float64Poly.c1 ltac:(cbn; lia)). destruct A as [A1 A2].
  split; auto. apply fin0_le. split; auto. rewrite A2. cbn. rewrite Rabs_R1. lra.
Qed.
Theorem C70_surface : forall fs ft,
  (forall sig ps ptop p, atmosphere_sigma_coordinate_g (sops64 fs ft) sig ps ptop = Ok p ->
   forall pos a b, value (gat_ sig pos) 0 -> value (gat_ ps pos) a -> value (gat_ ptop pos) b -> sized a -> sized b ->
   value (gat_ p pos) b) /\
  (forall sig ssh bathy z, ocean_sigma_coordinate_g (sops64 fs ft) sig ssh bathy = Ok z ->
   forall pos eta h, value (gat_ sig pos) 0 -> value (gat_ ssh pos) eta -> value (gat_ bathy pos) h -> sized eta -> sized h ->
   value (gat_ z pos) eta) /\
  (forall sig ssh bathy hc a b cs c C z c', gfilled_cache _ c = None -> curve_s fs ft sig a b cs = Ok C ->
   ocean_s_coordinate_gen (sops64 fs ft) sig ssh bathy hc a b cs c = Ok (z, c') ->
   forall pos eta h Hc, value (gat_ sig pos) 0 -> value (gat_ C pos) 0 -> value (gat_ ssh pos) eta -> value (gat_ bathy pos) h -> value (gat_ hc pos) Hc ->
   sized eta -> sized h -> sized Hc -> value (gat_ z pos) eta) /\
  (forall sig ssh bathy hc a b cs c C z c', gfilled_cache _ c = None -> stretching_g _ sig a b cs = Ok C ->
   ocean_s_coordinate_g1_g (sops64 fs ft) sig ssh bathy hc a b cs c = Ok (z, c') ->
   forall pos eta h Hc, value (gat_ sig pos) 0 -> value (gat_ C pos) 0 -> value (gat_ ssh pos) eta -> value (gat_ bathy pos) h -> value (gat_ hc pos) Hc ->
   sized eta -> sized h -> sized Hc -> h <> 0 -> value (gat_ z pos) eta) /\
  (forall sig ssh bathy hc a b cs c C z c', gfilled_cache _ c = None -> stretching_g _ sig a b cs = Ok C ->
   ocean_s_coordinate_g2_g (sops64 fs ft) sig ssh bathy hc a b cs c = Ok (z, c') ->
   forall pos eta h Hc, value (gat_ sig pos) 0 -> value (gat_ C pos) 0 -> value (gat_ ssh pos) eta -> value (gat_ bathy pos) h -> value (gat_ hc pos) Hc ->
   sized eta -> sized h -> sized Hc -> Hc + h <> 0 -> value (gat_ z pos) eta).
Proof.
  assert (Z1 : Rabs 0 <= 1) by (rewrite Rabs_R0; lra).
  intros fs ft. split; [|split; [|split; [|split]]].
  - intros sig ps ptop p H pos a b Vs Va Vb Ba Bb. rewrite (atm_at fs ft sig ps ptop p pos H). unfold atm64.
    assert (Fs := unit_fin _ _ Vs Z1). assert (Fa := sized_fin _ _ Va Ba). assert (Fb := sized_fin _ _ Vb Bb). apply value_iff in Vs, Vb. destruct Vs as [_ Vs], Vb as [_ Vb].
    set (S_ := gat_ sig pos) in *. set (A := gat_ ps pos) in *. set (B := gat_ ptop pos) in *.
    assert (F1 : fin 901 (sub64 A B)) by (apply (fin_ops_sub 901 900 900); auto; lia).
    assert (F2 : fin 901 (mul64 S_ (sub64 A B))) by (apply (fin_ops_mul 901 0 901); auto; lia).
    assert (Z : B2R (mul64 S_ (sub64 A B)) = 0) by (apply (mul_0 901); auto; lia).
    apply (val_of 903); [apply (fin_ops_add 903 901 900); auto; lia|]. rewrite (add_0l 900 901); auto; lia.
  - intros sig ssh bathy p H pos b a Vs Vb Va Bb Ba. rewrite (sig_at fs ft sig ssh bathy p pos H). unfold sig64.
    assert (Fs := unit_fin _ _ Vs Z1). assert (Fa := sized_fin _ _ Va Ba). assert (Fb := sized_fin _ _ Vb Bb). apply value_iff in Vs, Vb. destruct Vs as [_ Vs], Vb as [_ Vb].
    set (S_ := gat_ sig pos) in *. set (A := gat_ bathy pos) in *. set (B := gat_ ssh pos) in *.
    assert (F1 : fin 901 (add64 A B)) by (apply (fin_ops_add 901 900 900); auto; lia).
    assert (F2 : fin 901 (mul64 S_ (add64 A B))) by (apply (fin_ops_mul 901 0 901); auto; lia).
    assert (Z : B2R (mul64 S_ (add64 A B)) = 0) by (apply (mul_0 901); auto; lia).
    apply (val_of 903); [apply (fin_ops_add 903 901 900); auto; lia|]. rewrite (add_0l 900 901); auto; lia.
  - intros sig ssh bathy hc a b cs c C z c' F HC H pos eta h Hc Vs Vk Ve Vh Vc Be Bh Bc.
    rewrite (s_at fs ft sig ssh bathy hc a b cs c C z c' pos F HC H). unfold s64.
    destruct (zc_zero _ _ _ _ _ _ Vs Vk Vh Vc Bh Bc) as [Fz Zz]. assert (Fe := sized_fin _ _ Ve Be).
    apply value_iff in Vs, Ve. destruct Vs as [Fs Vs], Ve as [_ Ve]. destruct (one_plus0 _ Fs Vs) as [F1 Z1'].
    assert (F2 : fin 900 (mul64 (add64 (gat_ sig pos) one64) (gat_ ssh pos))) by (apply (fin_ops_mul 900 0 900); auto; lia).
    apply (val_of 905); [apply (fin_ops_add 905 900 903); auto; lia|]. rewrite (add_0r 900 903); auto; try lia. rewrite (mul_1 900); auto; lia.
  - intros sig ssh bathy hc a b cs c C z c' F HC H pos eta h Hc Vs Vk Ve Vh Vc Be Bh Bc Nh.
    rewrite (g1_at fs ft sig ssh bathy hc a b cs c C z c' pos F HC H). unfold g164.
    destruct (zc_zero _ _ _ _ _ _ Vs Vk Vh Vc Bh Bc) as [Fz Zz]. assert (Fe := sized_fin _ _ Ve Be).
    apply value_iff in Vh, Ve. destruct Vh as [Fh Vh], Ve as [_ Ve].
    destruct (div_zero _ (gat_ bathy pos) (proj1 Fz) Zz ltac:(now rewrite Vh)) as [Fq Vq]. fold (q1 (gat_ sig pos) (gat_ C pos) (gat_ bathy pos) (gat_ hc pos)) in Fq, Vq.
    destruct (one_plus0 _ Fq Vq) as [F1 Z1'].
    assert (F2 : fin 900 (mul64 (add64 (q1 (gat_ sig pos) (gat_ C pos) (gat_ bathy pos) (gat_ hc pos)) one64) (gat_ ssh pos))) by (apply (fin_ops_mul 900 0 900); auto; lia).
    apply (val_of 905); [apply (fin_ops_add 905 903 900); auto; lia|]. rewrite (add_0l 900 903); auto; try lia. rewrite (mul_1 900); auto; lia.
  - intros sig ssh bathy hc a b cs c C z c' F HC H pos eta h Hc Vs Vk Ve Vh Vc Be Bh Bc Nh.
    rewrite (g2_at fs ft sig ssh bathy hc a b cs c C z c' pos F HC H). unfold g264.
    assert (Fs := unit_fin _ _ Vs Z1). assert (Fk := unit_fin _ _ Vk Z1). assert (Fe := sized_fin _ _ Ve Be). assert (Fh := sized_fin _ _ Vh Bh). assert (Fc := sized_fin _ _ Vc Bc).
    apply value_iff in Vh, Ve, Vs, Vk, Vc. destruct Vh as [_ Vh], Ve as [_ Ve], Vs as [_ Vs], Vk as [_ Vk], Vc as [_ Vc].
    set (s := gat_ sig pos) in *. set (k := gat_ C pos) in *. set (H_ := gat_ bathy pos) in *. set (HC_ := gat_ hc pos) in *. set (E := gat_ ssh pos) in *.
    assert (N0 : fin 902 (n2 s k H_ HC_) /\ B2R (n2 s k H_ HC_) = 0).
    { assert (A1 : fin 900 (mul64 s HC_)) by (apply (fin_ops_mul 900 0 900); auto; lia). assert (A2 : fin 900 (mul64 k H_)) by (apply (fin_ops_mul 900 0 900); auto; lia).
      split; [apply (fin_ops_add 902 900 900); auto; lia|]. unfold n2. rewrite (add_0l 900 900); auto; try lia; apply (mul_0 900); auto; lia. }
    assert (D0 : B2R (add64 HC_ H_) <> 0).
    { assert (FD : fin 901 (add64 HC_ H_)) by (apply (fin_ops_add 901 900 900); auto; lia). rewrite add_fin_inv by (apply Fc || apply Fh || apply FD).
      apply (round_plus_neq_0 radix2 fexp64 (round_mode mode_NE) _ _ (format64 HC_)); [apply format64|]. now rewrite Vc, Vh. }
    destruct (div_zero _ (add64 HC_ H_) (proj1 (proj1 N0)) (proj2 N0) D0) as [Fq Vq]. fold (S2 s k H_ HC_) in Fq, Vq.
    destruct (one_plus0 _ Fq Vq) as [F1 Z1'].
    assert (FS : fin 0 (S2 s k H_ HC_)) by (apply fin0_le; split; auto; rewrite Vq, Rabs_R0; lra).
    assert (F2 : fin 900 (mul64 (add64 (S2 s k H_ HC_) one64) E)) by (apply (fin_ops_mul 900 0 900); auto; lia).
    assert (F3 : fin 900 (mul64 (S2 s k H_ HC_) H_)) by (apply (fin_ops_mul 900 0 900); auto; lia).
    assert (Z3 : B2R (mul64 (S2 s k H_ HC_) H_) = 0) by (apply (mul_0 900); auto; lia).
    apply (val_of 905); [apply (fin_ops_add 905 900 900); auto; lia|]. rewrite (add_0l 900 900); auto; try lia. rewrite (mul_1 900); auto; lia.
Qed.
Print Assumptions C70_surface.

Lemma int_m1 x : value x (-1) -> isint x (-1).
Proof. intro V. apply value_iff in V. exact V. Qed.
Lemma mul_m1 k x y : (-1074 <= k < 1024)%Z -> fin k y -> value x (-1) -> fin k (mul64 x y) /\ B2R (mul64 x y) = - B2R y.
Proof.
  intros K Fy V. apply value_iff in V. destruct V as [F V].
  assert (Fx : fin 0 x) by (apply fin0_le; split; auto; rewrite V; apply Rabs_le_iff; lra).
  assert (FM : fin k (mul64 x y)) by (apply (fin_ops_mul k 0 k); auto; lia). split; auto.
  rewrite mul_fin_inv by (apply Fx || apply Fy || apply FM). rewrite V. replace (-1 * B2R y) with (- B2R y) by ring.
  apply round_generic; auto with typeclass_instances. apply generic_format_opp, format64.
Qed.
Theorem C70_bottom : forall fs ft,
  (forall sig ssh bathy hc a b cs c C z c', gfilled_cache _ c = None -> stretching_g _ sig a b cs = Ok C ->
   ocean_s_coordinate_g2_g (sops64 fs ft) sig ssh bathy hc a b cs c = Ok (z, c') ->
   forall pos eta h Hc, value (gat_ sig pos) (-1) -> value (gat_ C pos) (-1) -> value (gat_ ssh pos) eta -> value (gat_ bathy pos) h -> value (gat_ hc pos) Hc ->
   sized eta -> sized h -> sized Hc -> Hc + h <> 0 -> value (gat_ z pos) (- h)) /\
  (forall sig ssh bathy hc a b cs c C z c', gfilled_cache _ c = None -> curve_s fs ft sig a b cs = Ok C ->
   ocean_s_coordinate_gen (sops64 fs ft) sig ssh bathy hc a b cs c = Ok (z, c') ->
   forall pos eta h Hc, value (gat_ sig pos) (-1) -> value (gat_ C pos) (-1) -> value (gat_ ssh pos) eta -> value (gat_ bathy pos) h -> value (gat_ hc pos) Hc ->
   sized eta -> sized h -> sized Hc -> value (gat_ z pos) (RN (- Hc - RN (h - Hc)))).
Proof.
  intros fs ft. split.
  - intros sig ssh bathy hc a b cs c C z c' F HC H pos eta h Hc Vs Vk Ve Vh Vc Be Bh Bc Nh.
    rewrite (g2_at fs ft sig ssh bathy hc a b cs c C z c' pos F HC H). unfold g264.
    assert (Fe := sized_fin _ _ Ve Be). assert (Fh := sized_fin _ _ Vh Bh). assert (Fc := sized_fin _ _ Vc Bc).
    destruct (mul_m1 900 _ _ ltac:(lia) Fc Vs) as [F1 V1]. destruct (mul_m1 900 _ _ ltac:(lia) Fh Vk) as [F2 V2].
    apply value_iff in Vh, Ve, Vc. destruct Vh as [_ Vh], Ve as [_ Ve], Vc as [_ Vc].
    set (s := gat_ sig pos) in *. set (k := gat_ C pos) in *. set (H_ := gat_ bathy pos) in *. set (HC_ := gat_ hc pos) in *. set (E := gat_ ssh pos) in *.
    assert (FD : fin 901 (add64 HC_ H_)) by (apply (fin_ops_add 901 900 900); auto; lia).
    assert (FN : fin 901 (n2 s k H_ HC_)) by (apply (fin_ops_add 901 900 900); auto; lia).
    assert (VD : B2R (add64 HC_ H_) = RN (Hc + h)) by (rewrite add_fin_inv by (apply Fc || apply Fh || apply FD); now rewrite Vc, Vh).
    assert (VN : B2R (n2 s k H_ HC_) = - RN (Hc + h)).
    { unfold n2 in *. rewrite add_fin_inv by (apply F1 || apply F2 || apply FN). rewrite V1, V2, Vc, Vh. replace (- Hc + - h) with (- (Hc + h)) by ring. apply round_NE_opp. }
    assert (D0 : RN (Hc + h) <> 0). { rewrite <- Vc, <- Vh. apply (round_plus_neq_0 radix2 fexp64 (round_mode mode_NE) _ _ (format64 HC_)); [apply format64|]. now rewrite Vc, Vh. }
    assert (Q : B2R (n2 s k H_ HC_) / B2R (add64 HC_ H_) = -1) by (rewrite VN, VD; field; exact D0).
    destruct (div_ok (n2 s k H_ HC_) (add64 HC_ H_) 0 ltac:(lia) (proj1 FN)) as [FS VS].
    { rewrite VD. exact D0. } { rewrite Q. apply Rabs_le_iff. cbn. lra. }
    rewrite Q in VS. change (-1) with (IZR (-1)) in VS. rewrite RN_int in VS by (cbn; lia). fold (S2 s k H_ HC_) in FS, VS.
    assert (IS : isint (S2 s k H_ HC_) (-1)) by (split; auto).
    destruct (mul_m1 900 (S2 s k H_ HC_) H_ ltac:(lia) Fh (proj2 (value_iff _ _) IS)) as [F3 V3].
    assert (I0 := int_add _ _ _ _ IS Float64Poly.c1 ltac:(cbn; lia)). fold one64 in I0. change (-1 + 1)%Z with 0%Z in I0. destruct I0 as [F4 V4].
    assert (F4' : fin 0 (add64 (S2 s k H_ HC_) one64)) by (apply fin0_le; split; auto; rewrite V4, Rabs_R0; lra).
    assert (F5 : fin 900 (mul64 (add64 (S2 s k H_ HC_) one64) E)) by (apply (fin_ops_mul 900 0 900); auto; lia).
    assert (Z5 : B2R (mul64 (add64 (S2 s k H_ HC_) one64) E) = 0) by (apply (mul_0 900); auto; lia).
    apply (val_of 905); [apply (fin_ops_add 905 900 900); auto; lia|]. rewrite (add_0r 900 900); auto; try lia. now rewrite V3, Vh.
  - intros sig ssh bathy hc a b cs c C z c' F HC H pos eta h Hc Vs Vk Ve Vh Vc Be Bh Bc.
    rewrite (s_at fs ft sig ssh bathy hc a b cs c C z c' pos F HC H). unfold s64, zc64.
    assert (Fe := sized_fin _ _ Ve Be). assert (Fh := sized_fin _ _ Vh Bh). assert (Fc := sized_fin _ _ Vc Bc).
    set (s := gat_ sig pos) in *. set (k := gat_ C pos) in *. set (H_ := gat_ bathy pos) in *. set (HC_ := gat_ hc pos) in *. set (E := gat_ ssh pos) in *.
    assert (FD : fin 901 (sub64 H_ HC_)) by (apply (fin_ops_sub 901 900 900); auto; lia).
    destruct (mul_m1 900 _ _ ltac:(lia) Fc Vs) as [F1 V1]. destruct (mul_m1 901 _ _ ltac:(lia) FD Vk) as [F2 V2].
    assert (IS := int_m1 _ Vs). apply value_iff in Vh, Ve, Vc. destruct Vh as [_ Vh], Ve as [_ Ve], Vc as [_ Vc].
    assert (VD : B2R (sub64 H_ HC_) = RN (h - Hc)) by (rewrite sub_fin_inv by (apply Fc || apply Fh || apply FD); now rewrite Vc, Vh).
    assert (FN : fin 902 (add64 (mul64 s HC_) (mul64 k (sub64 H_ HC_)))) by (apply (fin_ops_add 902 900 901); auto; lia).
    assert (VN : B2R (add64 (mul64 s HC_) (mul64 k (sub64 H_ HC_))) = RN (- Hc - RN (h - Hc))).
    { rewrite add_fin_inv by (apply F1 || apply F2 || apply FN). now rewrite V1, V2, Vc, VD. }
    assert (I0 := int_add _ _ _ _ IS Float64Poly.c1 ltac:(cbn; lia)). fold one64 in I0. change (-1 + 1)%Z with 0%Z in I0. destruct I0 as [F4 V4].
    assert (F4' : fin 0 (add64 s one64)) by (apply fin0_le; split; auto; rewrite V4, Rabs_R0; lra).
    assert (F5 : fin 900 (mul64 (add64 s one64) E)) by (apply (fin_ops_mul 900 0 900); auto; lia).
    assert (Z5 : B2R (mul64 (add64 s one64) E) = 0) by (apply (mul_0 900); auto; lia).
    apply (val_of 905); [apply (fin_ops_add 905 900 902); auto; lia|]. rewrite (add_0l 902 900); auto; try lia.
Qed.
Print Assumptions C70_bottom.

(** ** Levels keep their order *)
Definition f_ {M x r a k} (H : app M x r a k) : is_finite x = true := proj1 H.
Section Order.
Variables (s t k l e h hc e2 h2 hc2 : f64) (s' t' k' l' e' h' hc' : R).
Hypothesis Vs : value s s'. Hypothesis Vt : value t t'. Hypothesis Vk : value k k'. Hypothesis Vl : value l l'.
Hypothesis Ve : value e e'. Hypothesis Vh : value h h'. Hypothesis Vhc : value hc hc'.
Hypothesis Ve2 : value e2 e'. Hypothesis Vh2 : value h2 h'. Hypothesis Vhc2 : value hc2 hc'.
Hypothesis Bs : Rabs s' <= 1. Hypothesis Bt : Rabs t' <= 1. Hypothesis Bk : Rabs k' <= 1. Hypothesis Bl : Rabs l' <= 1.
Hypothesis Lst : s' <= t'. Hypothesis Lkl : k' <= l'.
Lemma val_B x r : value x r -> is_finite x = true /\ B2R x = r.
Proof. apply value_iff. Qed.
Lemma same_val x y r : value x r -> value y r -> is_finite x = true /\ is_finite y = true /\ B2R x = B2R y.
Proof. intros A B. apply value_iff in A, B. destruct A as [? ->], B as [? ->]. auto. Qed.
Lemma mul_mono2 a b c d : is_finite a = true -> is_finite b = true -> is_finite c = true -> is_finite d = true -> B2R c = B2R d ->
  is_finite (mul64 a c) = true -> is_finite (mul64 b d) = true -> 0 <= B2R c -> B2R a <= B2R b -> B2R (mul64 a c) <= B2R (mul64 b d).
Proof. intros Fa Fb Fc Fd E F1 F2 P L. rewrite !mul_fin_inv by assumption. rewrite <- E. apply RN_le. now apply Rmult_le_compat_r. Qed.
Lemma div_mono2 a b c d : is_finite a = true -> is_finite b = true -> B2R c = B2R d ->
  is_finite (div64 a c) = true -> is_finite (div64 b d) = true -> 0 < B2R c -> B2R a <= B2R b -> B2R (div64 a c) <= B2R (div64 b d).
Proof.
  intros Fa Fb E F1 F2 P L. rewrite !div_fin_inv by (try assumption; try rewrite <- E; apply Rgt_not_eq; assumption). rewrite <- E. apply RN_le.
  apply Rmult_le_compat_r; auto. left. now apply Rinv_0_lt_compat.
Qed.
Lemma sub_same : is_finite (sub64 h hc) = true -> is_finite (sub64 h2 hc2) = true -> B2R (sub64 h hc) = B2R (sub64 h2 hc2).
Proof. intros. destruct (same_val _ _ _ Vh Vh2) as (? & ? & E1), (same_val _ _ _ Vhc Vhc2) as (? & ? & E2). rewrite !sub_fin_inv by assumption. now rewrite E1, E2. Qed.
Lemma o_atm M : scale M -> Rabs h' <= M -> Rabs hc' <= M -> hc' <= h' -> B2R (atm64 s h hc) <= B2R (atm64 t h2 hc2).
Proof.
  intros SM Bh Bc L. destruct (same_val _ _ _ Vhc Vhc2) as (Fc & Fc2 & Ec), (same_val _ _ _ Vh Vh2) as (Fh & Fh2 & Eh). destruct (val_B _ _ Vs) as [Fs Ws], (val_B _ _ Vt) as [Ft Wt].
  assert (A1 := a_sub h hc h' hc' Vh Vhc M SM Bh Bc). assert (A2 := a_sub h2 hc2 h' hc' Vh2 Vhc2 M SM Bh Bc).
  assert (M1 := a_mul2 s s' Vs Bs M SM _ _ A1). assert (M2 := a_mul2 t t' Vt Bt M SM _ _ A2).
  assert (T1 := a_atm s h hc s' h' hc' Vs Vh Vhc Bs M SM Bh Bc). assert (T2 := a_atm t h2 hc2 t' h' hc' Vt Vh2 Vhc2 Bt M SM Bh Bc).
  unfold atm64 in *. apply add_mono; try assumption; try (exact (f_ M1)); try (exact (f_ M2)); try (exact (f_ T1)); try (exact (f_ T2)); [|rewrite Ec; lra].
  apply mul_mono2; try assumption; try (exact (f_ A1)); try (exact (f_ A2)); try (exact (f_ M1)); try (exact (f_ M2)).
  - apply sub_same; [exact (f_ A1)|exact (f_ A2)].
  - apply sub_nonneg'; try assumption; [exact (f_ A1)|]. apply value_iff in Vh, Vhc. destruct Vh as [_ ->], Vhc as [_ ->]. exact L.
  - now rewrite Ws, Wt.
Qed.
Lemma o_sig M : scale M -> Rabs h' <= M -> Rabs e' <= M -> 0 <= h' + e' -> B2R (sig64 s e h) <= B2R (sig64 t e2 h2).
Proof.
  intros SM Bh Be L. destruct (same_val _ _ _ Ve Ve2) as (Fc & Fc2 & Ec), (same_val _ _ _ Vh Vh2) as (Fh & Fh2 & Eh). destruct (val_B _ _ Vs) as [Fs Ws], (val_B _ _ Vt) as [Ft Wt].
  assert (A1 := a_add e h e' h' Ve Vh M SM Bh Be). assert (A2 := a_add e2 h2 e' h' Ve2 Vh2 M SM Bh Be).
  assert (M1 := a_mul2 s s' Vs Bs M SM _ _ A1). assert (M2 := a_mul2 t t' Vt Bt M SM _ _ A2).
  assert (T1 := a_sig s e h s' e' h' Vs Ve Vh Bs M SM Bh Be). assert (T2 := a_sig t e2 h2 t' e' h' Vt Ve2 Vh2 Bt M SM Bh Be).
  unfold sig64 in *. apply add_mono; try assumption; try (exact (f_ M1)); try (exact (f_ M2)); try (exact (f_ T1)); try (exact (f_ T2)); [|rewrite Ec; lra].
  apply mul_mono2; try assumption; try (exact (f_ A1)); try (exact (f_ A2)); try (exact (f_ M1)); try (exact (f_ M2)).
  - rewrite !add_fin_inv; try assumption; try (exact (f_ A1)); try (exact (f_ A2)). now rewrite Eh, Ec.
  - apply add_nonneg'; try assumption; [exact (f_ A1)|]. apply value_iff in Vh, Ve. destruct Vh as [_ ->], Ve as [_ ->]. exact L.
  - now rewrite Ws, Wt.
Qed.
Lemma o_zc M : scale M -> Rabs h' <= M -> Rabs hc' <= M -> 0 <= hc' <= h' -> B2R (zc64 s k h hc) <= B2R (zc64 t l h2 hc2).
Proof.
  intros SM Bh Bc L. destruct (same_val _ _ _ Vhc Vhc2) as (Fc & Fc2 & Ec), (same_val _ _ _ Vh Vh2) as (Fh & Fh2 & Eh).
  destruct (val_B _ _ Vs) as [Fs Ws], (val_B _ _ Vt) as [Ft Wt], (val_B _ _ Vk) as [Fk Wk], (val_B _ _ Vl) as [Fl Wl].
  assert (A1 := a_sub h hc h' hc' Vh Vhc M SM Bh Bc). assert (A2 := a_sub h2 hc2 h' hc' Vh2 Vhc2 M SM Bh Bc).
  assert (M1 := a_mul2c k k' Vk Bk M SM _ _ A1). assert (M2 := a_mul2c l l' Vl Bl M SM _ _ A2).
  assert (N1 := a_mul1 s s' Vs Bs M SM hc hc' Vhc Bc). assert (N2 := a_mul1 t t' Vt Bt M SM hc2 hc' Vhc2 Bc).
  assert (T1 := a_zc s k h hc s' k' h' hc' Vs Vk Vh Vhc Bs Bk M SM Bh Bc). assert (T2 := a_zc t l h2 hc2 t' l' h' hc' Vt Vl Vh2 Vhc2 Bt Bl M SM Bh Bc).
  unfold zc64 in *. apply add_mono; try (exact (f_ M1)); try (exact (f_ M2)); try (exact (f_ N1)); try (exact (f_ N2)); try (exact (f_ T1)); try (exact (f_ T2)).
  - apply mul_mono2; try assumption; try (exact (f_ N1)); try (exact (f_ N2)); [|now rewrite Ws, Wt]. apply value_iff in Vhc. destruct Vhc as [_ ->]. lra.
  - apply mul_mono2; try assumption; try (exact (f_ A1)); try (exact (f_ A2)); try (exact (f_ M1)); try (exact (f_ M2)).
    + apply sub_same; [exact (f_ A1)|exact (f_ A2)].
    + apply sub_nonneg'; try assumption; [exact (f_ A1)|]. apply value_iff in Vh, Vhc. destruct Vh as [_ ->], Vhc as [_ ->]. lra.
    + now rewrite Wk, Wl.
Qed.
Lemma o_s M : scale M -> Rabs h' <= M -> Rabs hc' <= M -> Rabs e' <= M -> 0 <= hc' <= h' -> 0 <= e' -> B2R (s64 s k e h hc) <= B2R (s64 t l e2 h2 hc2).
Proof.
  intros SM Bh Bc Be L Le. destruct (same_val _ _ _ Ve Ve2) as (Fe & Fe2 & Ee). destruct (val_B _ _ Vs) as [Fs Ws], (val_B _ _ Vt) as [Ft Wt], one_val as [F1 W1].
  assert (P1 := a_s1 s s' Vs Bs). assert (P2 := a_s1 t t' Vt Bt).
  assert (T1 := a_zc s k h hc s' k' h' hc' Vs Vk Vh Vhc Bs Bk M SM Bh Bc). assert (T2 := a_zc t l h2 hc2 t' l' h' hc' Vt Vl Vh2 Vhc2 Bt Bl M SM Bh Bc).
  assert (Z1 := a_s s k e h hc s' k' e' h' hc' Vs Vk Ve Vh Vhc Bs Bk M SM Bh Bc Be). assert (Z2 := a_s t l e2 h2 hc2 t' l' e' h' hc' Vt Vl Ve2 Vh2 Vhc2 Bt Bl M SM Bh Bc Be).
  assert (Q1 : app M (mul64 (add64 s one64) e) ((s' + 1) * e') 2 (41 / 10)) by (eapply app_mul; eauto using appM; try lra; tn).
  assert (Q2 : app M (mul64 (add64 t one64) e2) ((t' + 1) * e') 2 (41 / 10)) by (eapply app_mul; eauto using appM; try lra; tn).
  unfold s64 in *. apply add_mono; try (exact (f_ Q1)); try (exact (f_ Q2)); try (exact (f_ T1)); try (exact (f_ T2)); try (exact (f_ Z1)); try (exact (f_ Z2)); [|now apply (o_zc M)].
  apply mul_mono2; try assumption; try (exact (f_ P1)); try (exact (f_ P2)); try (exact (f_ Q1)); try (exact (f_ Q2)).
  - apply value_iff in Ve. destruct Ve as [_ ->]. exact Le.
  - apply add_mono; try assumption; try (exact (f_ P1)); try (exact (f_ P2)); [now rewrite Ws, Wt|lra].
Qed.
Lemma o_g1 : scale h' -> Rabs e' <= h' -> 0 <= hc' <= h' -> 0 <= e' -> B2R (g164 s k e h hc) <= B2R (g164 t l e2 h2 hc2).
Proof.
  intros Sh Be L Le. assert (P := scale_pos _ Sh). assert (Bh := h_abs h' Sh). assert (Bc : Rabs hc' <= h') by (rewrite Rabs_pos_eq; lra).
  destruct (same_val _ _ _ Ve Ve2) as (Fe & Fe2 & Ee), (same_val _ _ _ Vh Vh2) as (Fh & Fh2 & Eh). destruct one_val as [F1 W1].
  assert (T1 := a_zc s k h hc s' k' h' hc' Vs Vk Vh Vhc Bs Bk h' Sh Bh Bc). assert (T2 := a_zc t l h2 hc2 t' l' h' hc' Vt Vl Vh2 Vhc2 Bt Bl h' Sh Bh Bc).
  assert (Q1 := a_q1 s k h hc s' k' h' hc' Vs Vk Vh Vhc Bs Bk Sh Bc). assert (Q2 := a_q1 t l h2 hc2 t' l' h' hc' Vt Vl Vh2 Vhc2 Bt Bl Sh Bc).
  assert (R1 := a_q1p s k h hc s' k' h' hc' Vs Vk Vh Vhc Bs Bk Sh Bc). assert (R2 := a_q1p t l h2 hc2 t' l' h' hc' Vt Vl Vh2 Vhc2 Bt Bl Sh Bc).
  assert (Z1 := a_g1 s k e h hc s' k' e' h' hc' Vs Vk Ve Vh Vhc Bs Bk Sh Bc Be). assert (Z2 := a_g1 t l e2 h2 hc2 t' l' e' h' hc' Vt Vl Ve2 Vh2 Vhc2 Bt Bl Sh Bc Be).
  assert (U1 : app h' (mul64 (add64 (q1 s k h hc) one64) e) (((s' * hc' + k' * (h' - hc')) / h' + 1) * e') 4 (195 / 10)) by (eapply app_mul; eauto using appM; try lra; tn).
  assert (U2 : app h' (mul64 (add64 (q1 t l h2 hc2) one64) e2) (((t' * hc' + l' * (h' - hc')) / h' + 1) * e') 4 (195 / 10)) by (eapply app_mul; eauto using appM; try lra; tn).
  unfold g164 in *. apply add_mono; try (exact (f_ U1)); try (exact (f_ U2)); try (exact (f_ T1)); try (exact (f_ T2)); try (exact (f_ Z1)); try (exact (f_ Z2)); [now apply (o_zc h')|].
  apply mul_mono2; try assumption; try (exact (f_ R1)); try (exact (f_ R2)); try (exact (f_ U1)); try (exact (f_ U2)).
  - apply value_iff in Ve. destruct Ve as [_ ->]. exact Le.
  - apply add_mono; try assumption; try (exact (f_ Q1)); try (exact (f_ Q2)); try (exact (f_ R1)); try (exact (f_ R2)); [|lra].
    unfold q1 in *. apply div_mono2; try assumption; try (exact (f_ T1)); try (exact (f_ T2)); try (exact (f_ Q1)); try (exact (f_ Q2)); [|now apply (o_zc h')].
    apply value_iff in Vh. destruct Vh as [_ ->]. exact P.
Qed.
Lemma o_g2 M : scale h' -> h' <= bpow radix2 900 -> 0 <= hc' <= bpow radix2 900 -> scale M -> h' <= M -> Rabs e' <= M -> 0 <= e' -> B2R (g264 s k e h hc) <= B2R (g264 t l e2 h2 hc2).
Proof.
  intros Sh Th Pc SM HM Be Le. assert (P := scale_pos _ Sh).
  destruct (same_val _ _ _ Ve Ve2) as (Fe & Fe2 & Ee), (same_val _ _ _ Vh Vh2) as (Fh & Fh2 & Eh), (same_val _ _ _ Vhc Vhc2) as (Fc & Fc2 & Ec). destruct one_val as [F1 W1].
  destruct (val_B _ _ Vs) as [Fs Ws], (val_B _ _ Vt) as [Ft Wt], (val_B _ _ Vk) as [Fk Wk], (val_B _ _ Vl) as [Fl Wl].
  assert (SD := D_scale h' hc' Sh Pc Th). assert (BD1 : Rabs h' <= hc' + h') by (rewrite Rabs_pos_eq; lra). assert (BD2 : Rabs hc' <= hc' + h') by (rewrite Rabs_pos_eq; lra).
  assert (N1 := a_n2 s k h hc s' k' h' hc' Vs Vk Vh Vhc Bs Bk _ SD BD1 BD2). assert (N2 := a_n2 t l h2 hc2 t' l' h' hc' Vt Vl Vh2 Vhc2 Bt Bl _ SD BD1 BD2).
  assert (X1 := a_mul1 s s' Vs Bs _ SD hc hc' Vhc BD2). assert (X2 := a_mul1 t t' Vt Bt _ SD hc2 hc' Vhc2 BD2).
  assert (Y1 := a_mul1c k k' Vk Bk _ SD h h' Vh BD1). assert (Y2 := a_mul1c l l' Vl Bl _ SD h2 h' Vh2 BD1).
  assert (S1 := a_S2 s k h hc s' k' h' hc' Vs Vk Vh Vhc Bs Bk Sh Pc Th). assert (S2_ := a_S2 t l h2 hc2 t' l' h' hc' Vt Vl Vh2 Vhc2 Bt Bl Sh Pc Th).
  assert (R1 := a_S2p s k h hc s' k' h' hc' Vs Vk Vh Vhc Bs Bk Sh Pc Th). assert (R2 := a_S2p t l h2 hc2 t' l' h' hc' Vt Vl Vh2 Vhc2 Bt Bl Sh Pc Th).
  assert (H1 := a_hS s k h hc s' k' h' hc' Vs Vk Vh Vhc Bs Bk Sh Pc Th M SM HM). assert (H2 := a_hS t l h2 hc2 t' l' h' hc' Vt Vl Vh2 Vhc2 Bt Bl Sh Pc Th M SM HM).
  assert (U1 := a_Se s k e h hc s' k' e' h' hc' Vs Vk Ve Vh Vhc Bs Bk Sh Pc Th M SM Be). assert (U2 := a_Se t l e2 h2 hc2 t' l' e' h' hc' Vt Vl Ve2 Vh2 Vhc2 Bt Bl Sh Pc Th M SM Be).
  assert (Z1 := a_g2 s k e h hc s' k' e' h' hc' Vs Vk Ve Vh Vhc Bs Bk Sh Pc Th M SM HM Be). assert (Z2 := a_g2 t l e2 h2 hc2 t' l' e' h' hc' Vt Vl Ve2 Vh2 Vhc2 Bt Bl Sh Pc Th M SM HM Be).
  destruct (D_ok h hc h' hc' Vh Vhc Sh Pc Th) as [FD1 _]. destruct (D_ok h2 hc2 h' hc' Vh2 Vhc2 Sh Pc Th) as [FD2 _]. assert (PD := D_pos h hc h' hc' Vh Vhc Sh Pc Th).
  assert (Wh : B2R h = h') by (apply value_iff in Vh; tauto). assert (Wc : B2R hc = hc') by (apply value_iff in Vhc; tauto). assert (We : B2R e = e') by (apply value_iff in Ve; tauto).
  assert (L1 : B2R (n2 s k h hc) <= B2R (n2 t l h2 hc2)).
  { unfold n2 in *. apply add_mono; try (exact (f_ X1)); try (exact (f_ X2)); try (exact (f_ Y1)); try (exact (f_ Y2)); try (exact (f_ N1)); try (exact (f_ N2)).
    - apply mul_mono2; try assumption; try (exact (f_ X1)); try (exact (f_ X2)); [rewrite Wc; lra|now rewrite Ws, Wt].
    - apply mul_mono2; try assumption; try (exact (f_ Y1)); try (exact (f_ Y2)); [rewrite Wh; lra|now rewrite Wk, Wl]. }
  assert (L2 : B2R (S2 s k h hc) <= B2R (S2 t l h2 hc2)).
  { unfold S2 in *. apply div_mono2; try assumption; try (exact (f_ N1)); try (exact (f_ N2)); try (exact (f_ S1)); try (exact (f_ S2_)).
    rewrite !add_fin_inv by assumption. now rewrite Eh, Ec. }
  unfold g264 in *. apply add_mono; try (exact (f_ H1)); try (exact (f_ H2)); try (exact (f_ U1)); try (exact (f_ U2)); try (exact (f_ Z1)); try (exact (f_ Z2)).
  - apply mul_mono2; try assumption; try (exact (f_ S1)); try (exact (f_ S2_)); try (exact (f_ H1)); try (exact (f_ H2)). rewrite Wh. lra.
  - apply mul_mono2; try assumption; try (exact (f_ R1)); try (exact (f_ R2)); try (exact (f_ U1)); try (exact (f_ U2)); [now rewrite We|].
    apply add_mono; try assumption; try (exact (f_ S1)); try (exact (f_ S2_)); try (exact (f_ R1)); try (exact (f_ R2)); lra.
Qed.
End Order.
