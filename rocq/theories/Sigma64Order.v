(** C70, continued: the order of the levels, missing values, and what rounding breaks. *)
From Verif Require Import Sigma64 Sigma64Props Float64CellRows Float64Props.
From Flocq Require Import Core BinarySingleNaN.
From Coq Require Import Reals Lra Psatz.
Open Scope R_scope.

(** Two positions [p], [q] of the same arrays, where the other inputs have the same values *)
Theorem C70_levels_ordered : forall fs ft,
  (forall sig ps ptop P, atmosphere_sigma_coordinate_g (sops64 fs ft) sig ps ptop = Ok P ->
   forall p q M s t a b, value (gat_ sig p) s -> value (gat_ sig q) t -> value (gat_ ps p) a -> value (gat_ ps q) a -> value (gat_ ptop p) b -> value (gat_ ptop q) b ->
   Rabs s <= 1 -> Rabs t <= 1 -> reasonable M -> Rabs a <= M -> Rabs b <= M -> s <= t -> b <= a ->
   exists x y, value (gat_ P p) x /\ value (gat_ P q) y /\ x <= y) /\
  (forall sig ssh bathy z, ocean_sigma_coordinate_g (sops64 fs ft) sig ssh bathy = Ok z ->
   forall p q M s t eta h, value (gat_ sig p) s -> value (gat_ sig q) t -> value (gat_ ssh p) eta -> value (gat_ ssh q) eta -> value (gat_ bathy p) h -> value (gat_ bathy q) h ->
   Rabs s <= 1 -> Rabs t <= 1 -> reasonable M -> Rabs eta <= M -> Rabs h <= M -> s <= t -> 0 <= h + eta ->
   exists x y, value (gat_ z p) x /\ value (gat_ z q) y /\ x <= y) /\
  (forall sig ssh bathy hc a b cs c C z c', gfilled_cache _ c = None -> curve_s fs ft sig a b cs = Ok C ->
   ocean_s_coordinate_gen (sops64 fs ft) sig ssh bathy hc a b cs c = Ok (z, c') ->
   forall p q M s t k l eta h Hc, value (gat_ sig p) s -> value (gat_ sig q) t -> value (gat_ C p) k -> value (gat_ C q) l ->
   value (gat_ ssh p) eta -> value (gat_ ssh q) eta -> value (gat_ bathy p) h -> value (gat_ bathy q) h -> value (gat_ hc p) Hc -> value (gat_ hc q) Hc ->
   Rabs s <= 1 -> Rabs t <= 1 -> Rabs k <= 1 -> Rabs l <= 1 -> reasonable M -> h <= M -> s <= t -> k <= l -> 0 <= Hc <= h -> 0 <= eta <= M ->
   exists x y, value (gat_ z p) x /\ value (gat_ z q) y /\ x <= y) /\
  (forall sig ssh bathy hc a b cs c C z c', gfilled_cache _ c = None -> stretching_g _ sig a b cs = Ok C ->
   ocean_s_coordinate_g1_g (sops64 fs ft) sig ssh bathy hc a b cs c = Ok (z, c') ->
   forall p q s t k l eta h Hc, value (gat_ sig p) s -> value (gat_ sig q) t -> value (gat_ C p) k -> value (gat_ C q) l ->
   value (gat_ ssh p) eta -> value (gat_ ssh q) eta -> value (gat_ bathy p) h -> value (gat_ bathy q) h -> value (gat_ hc p) Hc -> value (gat_ hc q) Hc ->
   Rabs s <= 1 -> Rabs t <= 1 -> Rabs k <= 1 -> Rabs l <= 1 -> reasonable h -> s <= t -> k <= l -> 0 <= Hc <= h -> 0 <= eta <= h ->
   exists x y, value (gat_ z p) x /\ value (gat_ z q) y /\ x <= y) /\
  (forall sig ssh bathy hc a b cs c C z c', gfilled_cache _ c = None -> stretching_g _ sig a b cs = Ok C ->
   ocean_s_coordinate_g2_g (sops64 fs ft) sig ssh bathy hc a b cs c = Ok (z, c') ->
   forall p q M s t k l eta h Hc, value (gat_ sig p) s -> value (gat_ sig q) t -> value (gat_ C p) k -> value (gat_ C q) l ->
   value (gat_ ssh p) eta -> value (gat_ ssh q) eta -> value (gat_ bathy p) h -> value (gat_ bathy q) h -> value (gat_ hc p) Hc -> value (gat_ hc q) Hc ->
   Rabs s <= 1 -> Rabs t <= 1 -> Rabs k <= 1 -> Rabs l <= 1 -> reasonable h -> reasonable M -> h <= M -> s <= t -> k <= l -> 0 <= Hc <= powerRZ 2 900 -> 0 <= eta <= M ->
   exists x y, value (gat_ z p) x /\ value (gat_ z q) y /\ x <= y).
Proof.
  intros fs ft. split; [|split; [|split; [|split]]].
  - intros sig ps ptop P H p q M s t a b Vs Vt Va Va' Vb Vb' Bs Bt RM Ba Bb L1 L2.
    rewrite (atm_at fs ft sig ps ptop P p H), (atm_at fs ft sig ps ptop P q H). apply reasonable_scale in RM.
    assert (A1 := a_atm _ _ _ _ _ _ Vs Va Vb Bs M RM Ba Bb). assert (A2 := a_atm _ _ _ _ _ _ Vt Va' Vb' Bt M RM Ba Bb).
    exists (B2R (atm64 (gat_ sig p) (gat_ ps p) (gat_ ptop p))), (B2R (atm64 (gat_ sig q) (gat_ ps q) (gat_ ptop q))).
    split; [apply value_iff; split; [exact (f_ A1)|reflexivity]|]. split; [apply value_iff; split; [exact (f_ A2)|reflexivity]|].
    eapply o_atm; eauto.
  - intros sig ssh bathy z H p q M s t eta h Vs Vt Ve Ve' Vh Vh' Bs Bt RM Be Bh L1 L2.
    rewrite (sig_at fs ft sig ssh bathy z p H), (sig_at fs ft sig ssh bathy z q H). apply reasonable_scale in RM.
    assert (A1 := a_sig _ _ _ _ _ _ Vs Ve Vh Bs M RM Bh Be). assert (A2 := a_sig _ _ _ _ _ _ Vt Ve' Vh' Bt M RM Bh Be).
    exists (B2R (sig64 (gat_ sig p) (gat_ ssh p) (gat_ bathy p))), (B2R (sig64 (gat_ sig q) (gat_ ssh q) (gat_ bathy q))).
    split; [apply value_iff; split; [exact (f_ A1)|reflexivity]|]. split; [apply value_iff; split; [exact (f_ A2)|reflexivity]|].
    eapply o_sig; eauto.
  - intros sig ssh bathy hc a b cs c C z c' F HC H p q M s t k l eta h Hc Vs Vt Vk Vl Ve Ve' Vh Vh' Vc Vc' Bs Bt Bk Bl RM HM L1 L2 L3 L4.
    rewrite (s_at fs ft sig ssh bathy hc a b cs c C z c' p F HC H), (s_at fs ft sig ssh bathy hc a b cs c C z c' q F HC H). apply reasonable_scale in RM.
    assert (Be : Rabs eta <= M) by (rewrite Rabs_pos_eq; lra). assert (Bh : Rabs h <= M) by (rewrite Rabs_pos_eq; lra). assert (Bc : Rabs Hc <= M) by (rewrite Rabs_pos_eq; lra).
    assert (A1 := a_s _ _ _ _ _ _ _ _ _ _ Vs Vk Ve Vh Vc Bs Bk M RM Bh Bc Be). assert (A2 := a_s _ _ _ _ _ _ _ _ _ _ Vt Vl Ve' Vh' Vc' Bt Bl M RM Bh Bc Be).
    eexists. eexists. split; [apply value_iff; split; [exact (f_ A1)|reflexivity]|]. split; [apply value_iff; split; [exact (f_ A2)|reflexivity]|].
    eapply o_s with (M := M); eauto. lra.
  - intros sig ssh bathy hc a b cs c C z c' F HC H p q s t k l eta h Hc Vs Vt Vk Vl Ve Ve' Vh Vh' Vc Vc' Bs Bt Bk Bl RM L1 L2 L3 L4.
    rewrite (g1_at fs ft sig ssh bathy hc a b cs c C z c' p F HC H), (g1_at fs ft sig ssh bathy hc a b cs c C z c' q F HC H). apply reasonable_scale in RM.
    assert (Be : Rabs eta <= h) by (rewrite Rabs_pos_eq; lra). assert (Bc : Rabs Hc <= h) by (rewrite Rabs_pos_eq; lra).
    assert (A1 := a_g1 _ _ _ _ _ _ _ _ _ _ Vs Vk Ve Vh Vc Bs Bk RM Bc Be). assert (A2 := a_g1 _ _ _ _ _ _ _ _ _ _ Vt Vl Ve' Vh' Vc' Bt Bl RM Bc Be).
    eexists. eexists. split; [apply value_iff; split; [exact (f_ A1)|reflexivity]|]. split; [apply value_iff; split; [exact (f_ A2)|reflexivity]|].
    eapply o_g1; eauto. lra.
  - intros sig ssh bathy hc a b cs c C z c' F HC H p q M s t k l eta h Hc Vs Vt Vk Vl Ve Ve' Vh Vh' Vc Vc' Bs Bt Bk Bl Rh RM HM L1 L2 L3 L4.
    rewrite (g2_at fs ft sig ssh bathy hc a b cs c C z c' p F HC H), (g2_at fs ft sig ssh bathy hc a b cs c C z c' q F HC H).
    assert (Sh := reasonable_scale h Rh). apply reasonable_scale in RM. destruct Rh as [_ Th]. rewrite pow64 in Th, L3.
    assert (Be : Rabs eta <= M) by (rewrite Rabs_pos_eq; lra).
    assert (A1 := a_g2 _ _ _ _ _ _ _ _ _ _ Vs Vk Ve Vh Vc Bs Bk Sh L3 Th M RM HM Be). assert (A2 := a_g2 _ _ _ _ _ _ _ _ _ _ Vt Vl Ve' Vh' Vc' Bt Bl Sh L3 Th M RM HM Be).
    eexists. eexists. split; [apply value_iff; split; [exact (f_ A1)|reflexivity]|]. split; [apply value_iff; split; [exact (f_ A2)|reflexivity]|].
    eapply o_g2 with (M := M); eauto. lra.
Qed.
Print Assumptions C70_levels_ordered.

(** ** Missing values *)
Lemma nan_add x y : isNaN x \/ isNaN y -> isNaN (add64 x y).
Proof. unfold isNaN. intros [-> | ->]; [reflexivity|]. destruct x; reflexivity. Qed.
Lemma nan_sub x y : isNaN x \/ isNaN y -> isNaN (sub64 x y).
Proof. unfold isNaN. intros [-> | ->]; [reflexivity|]. destruct x; reflexivity. Qed.
Lemma nan_mul x y : isNaN x \/ isNaN y -> isNaN (mul64 x y).
Proof. unfold isNaN. intros [-> | ->]; [reflexivity|]. destruct x; reflexivity. Qed.
Lemma nan_div x y : isNaN x \/ isNaN y -> isNaN (div64 x y).
Proof. unfold isNaN. intros [-> | ->]; [reflexivity|]. destruct x; reflexivity. Qed.
Theorem C70_missing : forall fs ft,
  (forall sig ps ptop P, atmosphere_sigma_coordinate_g (sops64 fs ft) sig ps ptop = Ok P ->
   forall p, isNaN (gat_ sig p) \/ isNaN (gat_ ps p) \/ isNaN (gat_ ptop p) -> isNaN (gat_ P p)) /\
  (forall sig ssh bathy z, ocean_sigma_coordinate_g (sops64 fs ft) sig ssh bathy = Ok z ->
   forall p, isNaN (gat_ sig p) \/ isNaN (gat_ ssh p) \/ isNaN (gat_ bathy p) -> isNaN (gat_ z p)) /\
  (forall sig ssh bathy hc a b cs c C z c', gfilled_cache _ c = None -> curve_s fs ft sig a b cs = Ok C ->
   ocean_s_coordinate_gen (sops64 fs ft) sig ssh bathy hc a b cs c = Ok (z, c') ->
   forall p, isNaN (gat_ sig p) \/ isNaN (gat_ C p) \/ isNaN (gat_ ssh p) \/ isNaN (gat_ bathy p) \/ isNaN (gat_ hc p) -> isNaN (gat_ z p)) /\
  (forall sig ssh bathy hc a b cs c C z c', gfilled_cache _ c = None -> stretching_g _ sig a b cs = Ok C ->
   ocean_s_coordinate_g1_g (sops64 fs ft) sig ssh bathy hc a b cs c = Ok (z, c') ->
   forall p, isNaN (gat_ sig p) \/ isNaN (gat_ C p) \/ isNaN (gat_ ssh p) \/ isNaN (gat_ bathy p) \/ isNaN (gat_ hc p) -> isNaN (gat_ z p)) /\
  (forall sig ssh bathy hc a b cs c C z c', gfilled_cache _ c = None -> stretching_g _ sig a b cs = Ok C ->
   ocean_s_coordinate_g2_g (sops64 fs ft) sig ssh bathy hc a b cs c = Ok (z, c') ->
   forall p, isNaN (gat_ sig p) \/ isNaN (gat_ C p) \/ isNaN (gat_ ssh p) \/ isNaN (gat_ bathy p) \/ isNaN (gat_ hc p) -> isNaN (gat_ z p)).
Proof.
  intros fs ft. split; [|split; [|split; [|split]]].
  - intros sig ps ptop P H p N. rewrite (atm_at fs ft sig ps ptop P p H). unfold atm64. apply nan_add. destruct N as [N|[N|N]]; auto; left; apply nan_mul; auto; right; now apply nan_sub; auto.
  - intros sig ssh bathy z H p N. rewrite (sig_at fs ft sig ssh bathy z p H). unfold sig64. apply nan_add. destruct N as [N|[N|N]]; auto; left; apply nan_mul; auto; right; now apply nan_add; auto.
  - intros sig ssh bathy hc a b cs c C z c' F HC H p N. rewrite (s_at fs ft sig ssh bathy hc a b cs c C z c' p F HC H). unfold s64, zc64. apply nan_add.
    destruct N as [N|[N|[N|[N|N]]]].
    + left. apply nan_mul. left. apply nan_add. auto.
    + right. apply nan_add. right. apply nan_mul. auto.
    + left. apply nan_mul. auto.
    + right. apply nan_add. right. apply nan_mul. right. apply nan_sub. auto.
    + right. apply nan_add. left. apply nan_mul. auto.
  - intros sig ssh bathy hc a b cs c C z c' F HC H p N. rewrite (g1_at fs ft sig ssh bathy hc a b cs c C z c' p F HC H). unfold g164, zc64. apply nan_add.
    destruct N as [N|[N|[N|[N|N]]]].
    + left. apply nan_add. left. apply nan_mul. auto.
    + left. apply nan_add. right. apply nan_mul. auto.
    + right. apply nan_mul. auto.
    + left. apply nan_add. right. apply nan_mul. right. apply nan_sub. auto.
    + left. apply nan_add. left. apply nan_mul. auto.
  - intros sig ssh bathy hc a b cs c C z c' F HC H p N. rewrite (g2_at fs ft sig ssh bathy hc a b cs c C z c' p F HC H). unfold g264, S2, n2. apply nan_add.
    destruct N as [N|[N|[N|[N|N]]]].
    + left. apply nan_mul. left. apply nan_div. left. apply nan_add. left. apply nan_mul. auto.
    + left. apply nan_mul. left. apply nan_div. left. apply nan_add. right. apply nan_mul. auto.
    + right. apply nan_mul. auto.
    + left. apply nan_mul. auto.
    + left. apply nan_mul. left. apply nan_div. left. apply nan_add. left. apply nan_mul. auto.
Qed.
Print Assumptions C70_missing.

(** ** What rounding breaks *)
Section Refuted.
Variables fs ft : f64 -> f64.
Local Notation O_ := (sops64 fs ft).
Definition scal (x : f64) : garr O_ := @mkgarr O_ [] (fun _ => x).
Definition two_levels (x y : f64) : garr O_ := @mkgarr O_ ["k"%string] (fun p => if Nat.eqb (p "k"%string) 0 then x else y).
Definition here (n : nat) : string -> nat := fun _ => n.
End Refuted.
Lemma cst (x : f64) s m e : B2SF x = SpecFloat.S754_finite s m e -> value x (F2R (Float radix2 (cond_Zopp s (Zpos m)) e)).
Proof. intro H. apply value_iff. now apply const_val. Qed.
Lemma cst0 (x : f64) s : B2SF x = SpecFloat.S754_zero s -> value x 0.
Proof. intro H. apply value_iff. destruct x; try discriminate. split; reflexivity. Qed.
Lemma val_m1 : value (mk64 (-1) 0) (-1).
Proof. apply value_iff. apply mk64_int. lia. Qed.
Lemma val_int z : (Z.abs z <= 2 ^ 53)%Z -> value (mk64 z 0) (IZR z).
Proof. intro H. apply value_iff. now apply mk64_int. Qed.
Ltac konst := match goal with |- value ?x ?v => first [ eapply cst; vm_compute; reflexivity | eapply cst0; vm_compute; reflexivity ] end.

(** At s = 1 the pressure is above the surface pressure; at the bottom the height is below the bathymetry. *)
Theorem C70_ends_refuted : forall fs ft,
  (exists ps ptop P a x, let S_ := scal fs ft in
     atmosphere_sigma_coordinate_g _ (S_ (mk64 1 0)) (S_ ps) (S_ ptop) = Ok P /\ value (mk64 1 0) 1 /\ value ps a /\ value (gat_ P (here 0)) x /\ a < x) /\
  (exists ssh bathy z h x, let S_ := scal fs ft in
     ocean_sigma_coordinate_g _ (S_ (mk64 (-1) 0)) (S_ ssh) (S_ bathy) = Ok z /\ value bathy h /\ value (gat_ z (here 0)) x /\ x < - h) /\
  (exists ssh bathy hc z h Hc x, let S_ := scal fs ft in
     ocean_s_coordinate_gen _ (S_ (mk64 (-1) 0)) (S_ ssh) (S_ bathy) (S_ hc) (S_ ssh) (S_ ssh) (Some (S_ (mk64 (-1) 0))) None = Ok (z, None) /\
     value ssh 0 /\ value bathy h /\ value hc Hc /\ 0 < Hc < h /\ value (gat_ z (here 0)) x /\ x < - h) /\
  (exists ssh bathy hc z h Hc x, let S_ := scal fs ft in
     ocean_s_coordinate_g1_g _ (S_ (mk64 (-1) 0)) (S_ ssh) (S_ bathy) (S_ hc) None None (Some (S_ (mk64 (-1) 0))) None = Ok (z, None) /\
     value bathy h /\ value hc Hc /\ 0 < Hc < h /\ value (gat_ z (here 0)) x /\ x < - h).
Proof.
  intros fs ft. split; [|split; [|split]].
  - exists (mk64 8782019273372467 (-51)), (mk64 7656119366529843 (-52)). eexists. eexists. eexists. cbv zeta.
    split; [reflexivity|]. split; [apply val_int; lia|]. split; [konst|]. split; [konst|]. apply F2R_lt. cbn. lia.
  - exists (mk64 1 0), (mk64 8782019273372467 (-51)). eexists. eexists. eexists. cbv zeta.
    split; [reflexivity|]. split; [konst|]. split; [konst|]. rewrite <- F2R_Zopp. apply F2R_lt. cbn. lia.
  - exists (mk64 0 0), (mk64 8219069319951155 (-50)), (mk64 6305039478318694 (-52)). eexists. eexists. eexists. eexists. cbv zeta.
    split; [reflexivity|]. split; [konst|]. split; [konst|]. split; [konst|]. split; [split; [apply F2R_gt_0; cbn; lia|unfold F2R; cbn; lra]|]. split; [konst|]. rewrite <- F2R_Zopp. apply F2R_lt. cbn. lia.
  - exists (mk64 1 (-1)), (mk64 6980579422424269 (-50)), (mk64 6305039478318694 (-52)). eexists. eexists. eexists. eexists. cbv zeta.
    split; [reflexivity|]. split; [konst|]. split; [konst|]. split; [split; [apply F2R_gt_0; cbn; lia|unfold F2R; cbn; lra]|]. split; [konst|]. rewrite <- F2R_Zopp. apply F2R_lt. cbn. lia.
Qed.
Print Assumptions C70_ends_refuted.
(** With a sea surface below its mean level, two levels can cross by one unit in the last place. *)
Theorem C70_crossing_refuted : forall fs ft,
  (exists s t k e h hc z s' t' e' h' hc' x y, let S_ := scal fs ft in
     ocean_s_coordinate_gen _ (two_levels fs ft s t) (S_ e) (S_ h) (S_ hc) (S_ e) (S_ e) (Some (S_ k)) None = Ok (z, None) /\
     value s s' /\ value t t' /\ s' < t' /\ value e e' /\ value h h' /\ value hc hc' /\ 0 < hc' < h' /\ - h' < e' < 0 /\
     value (gat_ z (here 0)) x /\ value (gat_ z (here 1)) y /\ y < x) /\
  (exists s t k e h hc z s' t' e' h' hc' x y, let S_ := scal fs ft in
     ocean_s_coordinate_g1_g _ (two_levels fs ft s t) (S_ e) (S_ h) (S_ hc) None None (Some (S_ k)) None = Ok (z, None) /\
     value s s' /\ value t t' /\ s' < t' /\ value e e' /\ value h h' /\ value hc hc' /\ 0 < hc' <= h' /\ - h' < e' < 0 /\
     value (gat_ z (here 0)) x /\ value (gat_ z (here 1)) y /\ y < x) /\
  (exists s t k e h hc z s' t' e' h' hc' x y, let S_ := scal fs ft in
     ocean_s_coordinate_g2_g _ (two_levels fs ft s t) (S_ e) (S_ h) (S_ hc) None None (Some (S_ k)) None = Ok (z, None) /\
     value s s' /\ value t t' /\ s' < t' /\ value e e' /\ value h h' /\ value hc hc' /\ 0 < hc' < h' /\ - h' < e' < 0 /\
     value (gat_ z (here 0)) x /\ value (gat_ z (here 1)) y /\ y < x).
Proof.
  intros fs ft. split; [|split].
  - exists (mk64 (-6305039478318694) (-54)), (mk64 (-6305039478318693) (-54)), (mk64 (-8646911284551352) (-54)), (mk64 (-7205759403792794) (-53)), (mk64 13 0), (mk64 5 0).
    do 8 eexists. cbv zeta. split; [reflexivity|]. split; [konst|]. split; [konst|]. split; [apply F2R_lt; cbn; lia|]. split; [konst|]. split; [konst|]. split; [konst|].
    split; [unfold F2R; cbn; lra|]. split; [unfold F2R; cbn; lra|]. split; [konst|]. split; [konst|]. apply F2R_lt. cbn. lia.
  - exists (mk64 (-6485183463413514) (-54)), (mk64 (-6485183463413513) (-54)), (mk64 (-8646911284551352) (-54)), (mk64 (-6305039478318694) (-53)), (mk64 1 0), (mk64 1 0).
    do 8 eexists. cbv zeta. split; [reflexivity|]. split; [konst|]. split; [konst|]. split; [apply F2R_lt; cbn; lia|]. split; [konst|]. split; [konst|]. split; [konst|].
    split; [unfold F2R; cbn; lra|]. split; [unfold F2R; cbn; lra|]. split; [konst|]. split; [konst|]. apply F2R_lt. cbn. lia.
  - exists (mk64 (-8376695306909123) (-53)), (mk64 (-8376695306909122) (-53)), (mk64 (-6755399441055744) (-53)), (mk64 (-8106479329266893) (-53)), (mk64 15 0), (mk64 9 0).
    do 8 eexists. cbv zeta. split; [reflexivity|]. split; [konst|]. split; [konst|]. split; [apply F2R_lt; cbn; lia|]. split; [konst|]. split; [konst|]. split; [konst|].
    split; [unfold F2R; cbn; lra|]. split; [unfold F2R; cbn; lra|]. split; [konst|]. split; [konst|]. apply F2R_lt. cbn. lia.
Qed.
Print Assumptions C70_crossing_refuted.

(** ** The hypotheses can be met *)
Example C70_ex : forall fs ft, exists z, let S_ := scal fs ft in
  let s := two_levels fs ft (mk64 (-1) (-1)) (mk64 (-1) (-2)) in
  ocean_s_coordinate_g2_g _ s (S_ (mk64 2 0)) (S_ (mk64 30 0)) (S_ (mk64 10 0)) None None (Some (two_levels fs ft (mk64 (-1) 0) (mk64 (-1) (-1)))) None = Ok (z, None) /\
  value (gat_ z (here 0)) (-26) /\ value (gat_ z (here 1)) (-12) /\ reasonable 30 /\ g2_cf (- / 2) (-1) 2 30 10 = -26.
Proof.
  intros fs ft. eexists. cbv zeta. split; [reflexivity|].
  split; [replace (-26) with (F2R (Float radix2 (cond_Zopp true 7318349394477056) (-48))) by (unfold F2R; cbn; lra); konst|].
  split; [replace (-12) with (F2R (Float radix2 (cond_Zopp true 6755399441055744) (-49))) by (unfold F2R; cbn; lra); konst|].
  split; [|unfold g2_cf; lra]. split.
  - rewrite pow64. apply Rle_trans with (bpow radix2 0); [apply bpow_le; lia|cbn; lra].
  - rewrite pow64. apply Rle_trans with (bpow radix2 5); [cbn; lra|apply bpow_le; lia].
Qed.
