(** C87 for cellave1d *)
From Verif Require Import InterpUnits InterpUnitsProps.
Open Scope Z_scope.

Section cell.
  Variables (c d a b : Q).
  Hypothesis c_pos : (0 < c)%Q.
  Variable conserv : bool.
  Hypothesis scale : conserv = true \/ (c == 1)%Q.
  Notation RY := (Ry c d).
  Notation RC := (Rc a b 0).
  (** data: NaNs at the same places *)
  Definition Rm (x y z : fl) : Prop := RC x y z /\ isnan y = isnan x /\ isnan z = isnan x.
  (** weights *)
  Definition Rw (x y z : fl) : Prop := x = y /\ feq z x.
  Lemma Ry_leb x y z x' y' z' : RY x y z -> RY x' y' z' -> fleb y y' = fleb x x' /\ fleb z z' = fleb x x'.
  Proof using c_pos. clear scale.
    intros [<- H] [<- H']. split; auto. destruct x, z, x', z'; cbn in *; try tauto.
    apply Qle_bool_ext. rewrite H, H'. now apply scale_le.
  Qed.
  Lemma feqb_leb x y : feqb x y = (fleb x y && fleb y x)%bool.
  Proof using. clear scale c_pos.
    destruct x as [p|], y as [q|]; cbn; auto. destruct (Qeq_bool p q) eqn:E.
    - apply Qeq_bool_iff in E. symmetry. apply andb_true_iff. split; apply Qle_bool_iff; lra.
    - symmetry. apply not_true_is_false. intro H. apply andb_true_iff in H as [H1 H2]. apply Qle_bool_iff in H1, H2.
      assert (X : (p == q)%Q) by lra. apply Qeq_bool_iff in X. congruence.
  Qed.
  Lemma Ry_eqb x y z x' y' z' : RY x y z -> RY x' y' z' -> feqb y y' = feqb x x' /\ feqb z z' = feqb x x'.
  Proof using c_pos. clear scale.
    intros H H'. rewrite !feqb_leb. destruct (Ry_leb _ _ _ _ _ _ H H') as [-> ->], (Ry_leb _ _ _ _ _ _ H' H) as [-> ->]. auto.
  Qed.
  Lemma Ry_min x y z x' y' z' : RY x y z -> RY x' y' z' -> RY (fmin x x') (fmin y y') (fmin z z').
  Proof using c_pos. clear scale. intros H H'. unfold fmin. destruct (Ry_ltb c d c_pos _ _ _ _ _ _ H' H) as [-> ->]. now destruct (fltb x' x). Qed.
  Lemma Ry_max x y z x' y' z' : RY x y z -> RY x' y' z' -> RY (fmax x x') (fmax y y') (fmax z z').
  Proof using c_pos. clear scale. intros H H'. unfold fmax. destruct (Ry_ltb c d c_pos _ _ _ _ _ _ H H') as [-> ->]. now destruct (fltb x x'). Qed.
  Lemma Rw_eq0 x y z : Rw x y z -> feqb y f0 = feqb x f0 /\ feqb z f0 = feqb x f0.
  Proof using. clear scale c_pos.
    intros [<- H]. split; auto. destruct x as [p|], z as [q|]; cbn in *; try tauto.
    destruct (Qeq_bool p 0) eqn:E; [apply Qeq_bool_iff in E; apply Qeq_bool_iff; now rewrite H|].
    destruct (Qeq_bool q 0) eqn:E'; auto. apply Qeq_bool_iff in E'. rewrite H in E'. apply Qeq_bool_iff in E'. congruence.
  Qed.
  Lemma Rw_add x y z x' y' z' : Rw x y z -> Rw x' y' z' -> Rw (fadd x x') (fadd y y') (fadd z z').
  Proof using. clear scale c_pos. intros [<- H] [<- H']. split; auto. destruct x, z, x', z'; cbn in *; try tauto. now rewrite H, H'. Qed.
  Lemma Rc_mul x y z x' y' z' : RC x y z -> Rw x' y' z' -> RC (fmul x x') (fmul y y') (fmul z z').
  Proof using. clear scale c_pos. unfold Rc. intros H [<- H']. destruct x, y, z, x', z'; cbn in *; try tauto. rewrite H, H'. ring. Qed.
  Lemma Rc_add x y z x' y' z' : RC x y z -> RC x' y' z' -> RC (fadd x x') (fadd y y') (fadd z z').
  Proof using. clear scale c_pos. unfold Rc. intros H H'. destruct x, y, z, x', y', z'; cbn in *; try tauto. rewrite H, H'. ring. Qed.
  Lemma Rc_div x y z x' y' z' : RC x y z -> Rw x' y' z' -> rel3 RC (fdiv x x') (fdiv y y') (fdiv z z').
  Proof using. clear scale c_pos.
    intros H Hw. assert (E := Rw_eq0 _ _ _ Hw). destruct Hw as [<- H']. unfold fdiv. destruct x' as [p|], z' as [q|]; cbn in *; try tauto.
    - destruct E as [_ ->]. destruct (Qeq_bool p 0) eqn:Z0; constructor. unfold Rc in *.
      assert (NZ : ~ (p == 0)%Q) by (intro X; apply Qeq_bool_iff in X; congruence).
      destruct x, y, z; cbn in *; try tauto. rewrite H, H'. now field.
    - constructor. exact Logic.I.
  Qed.
  Lemma Rd_div x y z x' y' z' : Rd c x y z -> Rd c x' y' z' -> rel3 Rw (fdiv x x') (fdiv y y') (fdiv z z').
  Proof using c_pos. clear scale.
    intros Hx Hd. assert (E := Rd_eq0 c c_pos _ _ _ Hd). destruct Hx as [<- H], Hd as [<- H']. unfold fdiv.
    destruct x' as [p|], z' as [q|]; cbn in *; try tauto.
    - rewrite E. destruct (Qeq_bool p 0) eqn:Z0; constructor. split; auto.
      assert (NZ : ~ (p == 0)%Q) by (intro X; apply Qeq_bool_iff in X; congruence).
      destruct x, z; cbn in *; try tauto. rewrite H, H'. field. split; auto. intro X. rewrite X in c_pos. discriminate.
    - constructor. split; auto.
  Qed.
  Definition Rin (s t u : Z * fl * arr) : Prop :=
    let '(i, w, v) := s in let '(i', w', v') := t in let '(i'', w'', v'') := u in
    i' = i /\ i'' = i /\ Rw w w' w'' /\ Forall3 (Forall3 RC) v v' v''.
  Lemma in3 vari vari' vari'' yib yib' yib'' yob yob' yob'' extrap ix ixi ixiy ixoy nyi iyo :
    Forall3 (Forall3 Rm) vari vari' vari'' -> Forall3 (Forall3 RY) yib yib' yib'' -> Forall3 (Forall3 RY) yob yob' yob'' ->
    forall i s t u, Rin s t u -> relc Rin
      (cellave_in_step vari yib yob conserv extrap ix ixi ixiy ixoy nyi iyo i s)
      (cellave_in_step vari' yib' yob' conserv extrap ix ixi ixiy ixoy nyi iyo i t)
      (cellave_in_step vari'' yib'' yob'' conserv extrap ix ixi ixiy ixoy nyi iyo i u).
  Proof using c_pos scale.
    intros Hv Hi Ho i [[i0 w] v] [[i0' w'] v'] [[i0'' w''] v''] (-> & -> & Hw & Hs). unfold cellave_in_step.
    eapply relc_bind; [apply get23; eassumption|]. intros y0 y0' y0'' Hy0. eapply relc_bind; [apply get23; eassumption|]. intros y1 y1' y1'' Hy1.
    eapply relc_bind; [apply get23; eassumption|]. intros o0 o0' o0'' Ho0. eapply relc_bind; [apply get23; eassumption|]. intros o1 o1' o1'' Ho1.
    destruct (Ry_ltb c d c_pos _ _ _ _ _ _ Ho0 Hy0) as [-> ->], (Ry_ltb c d c_pos _ _ _ _ _ _ Hy1 Ho1) as [-> ->].
    set (k0 := ((String.eqb extrap "bellow" || String.eqb extrap "both") && (i =? 0) && fltb o0 y0)%bool).
    set (k1 := ((String.eqb extrap "above" || String.eqb extrap "both") && (i =? nyi - 1) && fltb y1 o1)%bool).
    assert (X0 : RY (if k0 then o0 else y0) (if k0 then o0' else y0') (if k0 then o0'' else y0'')) by (destruct k0; assumption).
    assert (X1 : RY (if k1 then o1 else y1) (if k1 then o1' else y1') (if k1 then o1'' else y1'')) by (destruct k1; assumption).
    revert X0 X1. generalize (if k0 then o0 else y0) (if k0 then o0' else y0') (if k0 then o0'' else y0'')
      (if k1 then o1 else y1) (if k1 then o1' else y1') (if k1 then o1'' else y1''). clear k0 k1 Hy0 Hy1 y0 y0' y0'' y1 y1' y1''.
    intros y0 y0' y0'' y1 y1' y1'' Hy0 Hy1. cbv zeta.
    destruct (Ry_ltb c d c_pos _ _ _ _ _ _ Ho1 Hy0) as [-> ->]. destruct (fltb o1 y0) eqn:B1; [constructor; repeat split; auto|].
    1,2: apply Hw.
    destruct (Ry_ltb c d c_pos _ _ _ _ _ _ Hy1 Ho0) as [-> ->]. destruct (fltb y1 o0) eqn:B2; [constructor; repeat split; auto|].
    1,2: apply Hw.
    assert (D := Ry_sub c d _ _ _ _ _ _ (Ry_min _ _ _ _ _ _ Hy1 Ho1) (Ry_max _ _ _ _ _ _ Hy0 Ho0)).
    assert (DO := Ry_sub c d _ _ _ _ _ _ Ho1 Ho0). destruct (Ry_eqb _ _ _ _ _ _ Hy0 Hy1) as [-> ->].
    eapply relc_bind with (R := Rw).
    { destruct (conserv && negb (feqb y0 y1))%bool eqn:K; [now apply Rd_div|]. constructor. destruct D as [D1 D2]. split; auto.
      destruct scale as [->|C].
      - cbn in K. apply negb_false_iff in K. destruct y0 as [p|], y1 as [q|]; cbn in K; try discriminate. apply Qeq_bool_iff in K.
        unfold fmin, fmax in *. destruct o1 as [r|]; cbn in *.
        + destruct o0 as [s|]; cbn in *.
          * unfold Qltb in *. destruct (Qle_bool p r) eqn:L1; [|discriminate]. destruct (Qle_bool s q) eqn:L2; [|discriminate].
            apply Qle_bool_iff in L1, L2. destruct (Qle_bool q r) eqn:L3.
            -- cbn in *. destruct (Qle_bool s p) eqn:L4; cbn in *.
               ++ match goal with |- feq ?z _ => destruct z; cbn in *; [|tauto] end. rewrite D2, K. ring.
               ++ apply not_true_iff_false in L4. destruct L4. apply Qle_bool_iff. lra.
            -- apply not_true_iff_false in L3. destruct L3. apply Qle_bool_iff. lra.
          * unfold Qltb in *. destruct (Qle_bool p r) eqn:L1; [|discriminate]. apply Qle_bool_iff in L1. destruct (Qle_bool q r) eqn:L3.
            -- cbn in *. match goal with |- feq ?z _ => destruct z; cbn in *; [|tauto] end. rewrite D2, K. ring.
            -- apply not_true_iff_false in L3. destruct L3. apply Qle_bool_iff. lra.
        + destruct o0 as [s|]; cbn in *.
          * unfold Qltb in *. destruct (Qle_bool s q) eqn:L2; [|discriminate]. apply Qle_bool_iff in L2. destruct (Qle_bool s p) eqn:L4.
            -- cbn in *. match goal with |- feq ?z _ => destruct z; cbn in *; [|tauto] end. rewrite D2, K. ring.
            -- apply not_true_iff_false in L4. destruct L4. apply Qle_bool_iff. lra.
          * match goal with |- feq ?z _ => destruct z; cbn in *; [|tauto] end. rewrite D2, K. ring.
      - revert D2. generalize (fsub (fmin y1 o1) (fmax y0 o0)) (fsub (fmin y1'' o1'') (fmax y0'' o0'')). intros [p|] [q|]; cbn; auto.
        intros ->. rewrite C. ring. }
    intros dy dy' dy'' Hdy. eapply relc_bind; [apply get23; eassumption|]. intros x x' x'' (Hx & N1 & N2). rewrite N1, N2.
    eapply relc_bind with (R := fun s t u => Rw (fst s) (fst t) (fst u) /\ Forall3 (Forall3 RC) (snd s) (snd t) (snd u)).
    { destruct (isnan x); [constructor; split; auto|]. eapply rel3_bind; [apply get23; eassumption|]. intros p p' p'' Hp.
      eapply rel3_bind; [apply get23; eassumption|]. intros q q' q'' [Hq _].
      eapply rel3_bind; [apply set23; [eassumption|]|]. { apply Rc_add; [exact Hp|]. apply Rc_mul; [exact Hq|exact Hdy]. }
      intros r r' r'' Hr. constructor. cbn. split; auto. now apply Rw_add. }
    intros [p q] [p' q'] [p'' q''] [H1 H2]. cbn [fst snd] in *. destruct (Ry_leb _ _ _ _ _ _ Ho1 Hy1) as [-> ->].
    destruct (fleb o1 y1); constructor; repeat split; auto; apply H1.
  Qed.
  Definition Rout (s t u : Z * arr) : Prop := fst t = fst s /\ fst u = fst s /\ Forall3 (Forall3 RC) (snd s) (snd t) (snd u).
  Lemma out3 vari vari' vari'' yib yib' yib'' yob yob' yob'' extrap ix ixi ixiy ixoy nyi :
    Forall3 (Forall3 Rm) vari vari' vari'' -> Forall3 (Forall3 RY) yib yib' yib'' -> Forall3 (Forall3 RY) yob yob' yob'' ->
    forall iyo s t u, Rout s t u -> relc Rout
      (cellave_out_step vari yib yob conserv extrap ix ixi ixiy ixoy nyi iyo s)
      (cellave_out_step vari' yib' yob' conserv extrap ix ixi ixiy ixoy nyi iyo t)
      (cellave_out_step vari'' yib'' yob'' conserv extrap ix ixi ixiy ixoy nyi iyo u).
  Proof using c_pos scale.
    intros Hv Hi Ho iyo [i0 v] [i0' v'] [i0'' v''] (E1 & E2 & Hs). cbn [fst snd] in *. subst i0' i0''. unfold cellave_out_step.
    eapply relc_bind; [apply get23; eassumption|]. intros o0 o0' o0'' Ho0. eapply relc_bind; [apply get23; eassumption|]. intros o1 o1' o1'' Ho1.
    destruct (Ry_eqb _ _ _ _ _ _ Ho0 Ho1) as [-> ->]. destruct (feqb o0 o1); [constructor; repeat split; auto|].
    eapply relc_bind; [apply for_each3 with (R := Rin)|].
    - intros x s t u H. now apply in3.
    - repeat split; auto.
    - intros [[i1 w] r] [[i1' w'] r'] [[i1'' w''] r''] (-> & -> & Hw & Hr). destruct conserv; [constructor; repeat split; auto|].
      destruct (Rw_eq0 _ _ _ Hw) as [-> ->]. destruct (negb (feqb w f0)).
      + eapply relc_bind; [apply get23; eassumption|]. intros p p' p'' Hp. eapply relc_bind; [now apply Rc_div|]. intros q q' q'' Hq.
        eapply relc_bind; [apply set23; eassumption|]. intros z z' z'' Hz. constructor; repeat split; auto.
      + eapply relc_bind; [apply set23 with (x := nan) (y := nan) (z := nan); [eassumption|exact Logic.I]|]. intros z z' z'' Hz.
        constructor; repeat split; auto.
  Qed.
  Lemma cell3 vari vari' vari'' yib yib' yib'' yob yob' yob'' extrap :
    Forall3 (Forall3 Rm) vari vari' vari'' -> Forall3 (Forall3 RY) yib yib' yib'' -> Forall3 (Forall3 RY) yob yob' yob'' ->
    rel3 (Forall3 (Forall3 RC)) (cellave1d vari yib yob conserv extrap) (cellave1d vari' yib' yob' conserv extrap) (cellave1d vari'' yib'' yob'' conserv extrap).
  Proof using c_pos scale.
    intros Hv Hi Ho. unfold cellave1d, nrows, ncols.
    destruct (F3_len _ _ _ _ Hv) as [Ev1 Ev2], (F3_len _ _ _ _ Hi) as [Ei1 Ei2], (F3_len _ _ _ _ Ho) as [Eo1 Eo2], (ncols3 _ _ _ _ Ho) as [-> ->], (ncols3 _ _ _ _ Hv) as [-> ->].
    rewrite <- Ev2, <- Ev1, <- Ei2, <- Ei1, <- Eo2, <- Eo1. clear Ev1 Ev2 Ei1 Ei2 Eo1 Eo2.
    apply for_each3.
    - intros ix s t u Hs.
      assert (X : forall (n : Z), rel3 (fun a b e => a = b /\ b = e) (row_index n ix) (row_index n ix) (row_index n ix)).
      { intro n. unfold row_index. destruct (n =? 0); constructor; auto. }
      eapply relc_bind; [apply X|]. intros e1 ? ? [<- <-]. eapply relc_bind; [apply X|]. intros e2 ? ? [<- <-].
      eapply relc_bind; [apply X|]. intros e3 ? ? [<- <-]. 
      eapply relc_bind; [apply for_each3 with (R := Rout)|].
      + intros x p q r H. now apply out3.
      + repeat split; auto.
      + intros p q r (_ & _ & H). now constructor.
    - unfold full2. assert (X0 : RC f0 f0 f0) by (unfold Rc; cbn; ring).
      assert (X : forall k, Forall3 RC (List.repeat f0 k) (List.repeat f0 k) (List.repeat f0 k)) by (induction k; cbn; constructor; auto).
      match goal with |- context [List.repeat _ (Z.to_nat (Z.max ?p ?q))] => induction (Z.to_nat (Z.max p q)); cbn; constructor; auto end.
  Qed.
End cell.
Lemma missing_rel a b v : forall w, same_missing v w -> Forall3 (Forall3 (Rm a b)) v w (lincomb_all a b 0 v w).
Proof.
  induction v as [|r v IH]; intros [|s w] H; try discriminate; unfold lincomb_all; cbn; constructor.
  - injection H as E _. revert s E. induction r as [|x r IHr]; intros [|y s] E; try discriminate; cbn; constructor.
    + injection E as E _. repeat split; [|auto|destruct x, y; cbn in *; congruence]. unfold Rc. destruct (lincomb a b 0 x y); cbn; auto. reflexivity.
    + injection E as _ E. now apply IHr.
  - injection H as _ H. now apply IH.
Qed.

(** ** Without the conservative mode, in any units.  While an output cell is computed, its sum is
    in the units of the edges. *)
Inductive F3i {A B C} (R : nat -> A -> B -> C -> Prop) : nat -> list A -> list B -> list C -> Prop :=
| F3inil n : F3i R n [] [] []
| F3icons n x y z l m p : R n x y z -> F3i R (S n) l m p -> F3i R n (x :: l) (y :: m) (z :: p).
Lemma F3i_len {A B C} (R : nat -> A -> B -> C -> Prop) n l m p : F3i R n l m p -> List.length m = List.length l /\ List.length p = List.length l.
Proof. induction 1 as [|? ? ? ? ? ? ? ? ? [E1 E2]]; cbn; auto. Qed.
Lemma F3i_impl {A B C} (R T : nat -> A -> B -> C -> Prop) n l m p : (forall k x y z, R k x y z -> T k x y z) -> F3i R n l m p -> F3i T n l m p.
Proof. intro H. induction 1; constructor; auto. Qed.
Lemma F3i_nth {A B C} (R : nat -> A -> B -> C -> Prop) n l m p : F3i R n l m p -> forall k, (k < List.length l)%nat ->
  exists x y z, nth_error l k = Some x /\ nth_error m k = Some y /\ nth_error p k = Some z /\ R (n + k)%nat x y z.
Proof.
  induction 1 as [|n x y z l m p H F IH]; intros k L; cbn in L; [lia|]. destruct k as [|k]; cbn.
  - exists x, y, z. rewrite Nat.add_0_r. auto.
  - destruct (IH k ltac:(lia)) as (x' & y' & z' & H1 & H2 & H3 & H4). exists x', y', z'. replace (n + S k)%nat with (S n + k)%nat by lia. auto.
Qed.
Lemma F3i_upd {A B C} (R T : nat -> A -> B -> C -> Prop) n l m p : F3i R n l m p -> forall k x y z,
  (forall j x y z, j <> (n + k)%nat -> R j x y z -> T j x y z) -> T (n + k)%nat x y z -> F3i T n (upd l k x) (upd m k y) (upd p k z).
Proof.
  induction 1 as [|n x y z l m p H F IH]; intros k x' y' z' E Hs; [constructor|]. destruct k as [|k]; cbn; constructor.
  - now rewrite Nat.add_0_r in Hs.
  - rewrite Nat.add_0_r in E. clear IH. assert (G : forall q, (n < q)%nat -> F3i R q l m p -> F3i T q l m p).
    { intros q L F'. clear - E L F'. induction F' as [|q a b c l m p H F IH]; constructor; [apply E; auto; lia|apply IH; lia]. }
    apply G; auto.
  - apply E; auto. lia.
  - apply IH; [intros j a0 b0 c0 N; apply E; lia|]. now replace (S n + k)%nat with (n + S k)%nat by lia.
Qed.
Lemma pyidx_nonneg n i : 0 <= i -> pyidx n i = if i <? Z.of_nat n then Some (Z.to_nat i) else None.
Proof.
  intro H. unfold pyidx. rewrite (proj2 (Z.leb_le 0 i) H). cbn. destruct (i <? Z.of_nat n); auto.
  rewrite (proj2 (Z.ltb_ge i 0) H), andb_false_r. reflexivity.
Qed.
Lemma F3i_get {A B C} (R : nat -> A -> B -> C -> Prop) l m p i : F3i R 0 l m p -> 0 <= i ->
  rel3 (R (Z.to_nat i)) (pyget l i) (pyget m i) (pyget p i).
Proof.
  intros F H. unfold pyget. destruct (F3i_len _ _ _ _ _ F) as [-> ->]. rewrite pyidx_nonneg by auto. destruct (Z.ltb_spec i (Z.of_nat (List.length l))); [|constructor].
  destruct (F3i_nth _ _ _ _ _ F (Z.to_nat i) ltac:(lia)) as (x & y & z & -> & -> & -> & Hr). now constructor.
Qed.
Lemma F3i_set {A B C} (R T : nat -> A -> B -> C -> Prop) l m p i x y z : F3i R 0 l m p -> 0 <= i ->
  (forall j x y z, j <> Z.to_nat i -> R j x y z -> T j x y z) -> T (Z.to_nat i) x y z ->
  rel3 (F3i T 0) (pyset l i x) (pyset m i y) (pyset p i z).
Proof.
  intros F H E Hs. unfold pyset. destruct (F3i_len _ _ _ _ _ F) as [-> ->]. rewrite pyidx_nonneg by auto. destruct (i <? Z.of_nat (List.length l)); constructor.
  eapply F3i_upd; eauto.
Qed.
Lemma range3 {A B C} (R : Z -> A -> B -> C -> Prop) (f : Z -> A -> ctl A) g h hi :
  (forall x a b c, 0 <= x < hi -> R x a b c -> relc (R (x + 1)) (f x a) (g x b) (h x c)) ->
  (forall x a, match f x a with Break _ => False | _ => True end) ->
  forall a b c, R 0 a b c -> rel3 (R (Z.max 0 hi)) (for_each (pyrange 0 hi) f a) (for_each (pyrange 0 hi) g b) (for_each (pyrange 0 hi) h c).
Proof.
  intros H NB a b c H0. unfold pyrange. replace (hi - 0) with hi by lia.
  assert (G : forall n s, Z.of_nat s + Z.of_nat n = Z.max 0 hi -> forall a b c, R (Z.of_nat s) a b c ->
     rel3 (R (Z.max 0 hi)) (for_each (map (fun k => 0 + Z.of_nat k) (seq s n)) f a) (for_each (map (fun k => 0 + Z.of_nat k) (seq s n)) g b)
       (for_each (map (fun k => 0 + Z.of_nat k) (seq s n)) h c)).
  { induction n as [|n IH]; intros s E x y z Hx; cbn [seq map for_each].
    - constructor. replace (Z.max 0 hi) with (Z.of_nat s) by lia. exact Hx.
    - rewrite Z.add_0_l. assert (Y := H (Z.of_nat s) x y z ltac:(lia) Hx). assert (NBs := NB (Z.of_nat s) x). revert NBs.
      destruct Y as [x' y' z' Hx'|x' y' z' Hx'|e]; intro NBs; [|contradiction|constructor].
      apply IH; [lia|]. replace (Z.of_nat (S s)) with (Z.of_nat s + 1) by lia. exact Hx'. }
  apply (G (Z.to_nat hi) 0%nat); auto; lia.
Qed.
Section means.
  Variables (c d a b : Q).
  Hypothesis c_pos : (0 < c)%Q.
  Notation RY := (Ry c d).
  Notation RC := (Rc a b 0).
  Inductive kind := KZero | KDone | KSum.
  Definition Rk (k : kind) (x y z : fl) : Prop :=
    match k with
    | KZero => feq x f0 /\ feq y f0 /\ feq z f0
    | KDone => RC x y z
    | KSum => feq z (rescale c 0 (lincomb a b 0 x y))
    end.
  Lemma zero_any k x y z : Rk KZero x y z -> Rk k x y z.
  Proof using.
    destruct k; cbn; auto; intros (H1 & H2 & H3); unfold Rc; destruct x, y, z; cbn in *; try tauto; rewrite H1, H2, H3; ring.
  Qed.
  Definition Rar (k : nat -> nat -> kind) (v w u : arr) : Prop := F3i (fun i => F3i (fun j => Rk (k i j)) 0%nat) 0%nat v w u.
  Lemma Rar_get k v w u i j : Rar k v w u -> 0 <= i -> 0 <= j -> rel3 (Rk (k (Z.to_nat i) (Z.to_nat j))) (get2 v i j) (get2 w i j) (get2 u i j).
  Proof using. intros H Hi Hj. unfold get2. eapply rel3_bind; [apply (F3i_get _ _ _ _ i H Hi)|]. intros r s t Hr. now apply (F3i_get _ _ _ _ j Hr). Qed.
  Lemma Rar_set k k' v w u i j x y z : Rar k v w u -> 0 <= i -> 0 <= j ->
    (forall i' j', (i', j') <> (Z.to_nat i, Z.to_nat j) -> k' i' j' = k i' j') -> Rk (k' (Z.to_nat i) (Z.to_nat j)) x y z ->
    rel3 (Rar k') (set2 v i j x) (set2 w i j y) (set2 u i j z).
  Proof using.
    intros H Hi Hj E Hx. unfold set2. eapply rel3_bind; [apply (F3i_get _ _ _ _ i H Hi)|]. intros r s t Hr. cbn beta in Hr.
    eapply rel3_bind.
    - apply (F3i_set _ (fun j0 => Rk (k' (Z.to_nat i) j0)) r s t j x y z Hr Hj); [|exact Hx].
      intros j' x' y' z' N. rewrite (E (Z.to_nat i) j'); auto. congruence.
    - intros r' s' t' Hr'. unfold Rar. eapply (F3i_set _ _ v w u i r' s' t' H Hi); [|exact Hr']. intros i' x' y' z' N. apply F3i_impl.
      intros j' x2 y2 z2. rewrite (E i' j'); auto. congruence.
  Qed.
  Lemma Rar_impl k k' v w u : (forall i j, k i j = KZero \/ k i j = k' i j) -> Rar k v w u -> Rar k' v w u.
  Proof using.
    intro H. apply F3i_impl. intros i r s t. apply F3i_impl. intros j x y z. destruct (H i j) as [->|<-]; auto using zero_any.
  Qed.
  Definition Rin2 k (s t u : Z * fl * arr) : Prop :=
    let '(i, w, v) := s in let '(i', w', v') := t in let '(i'', w'', v'') := u in
    i' = i /\ i'' = i /\ Rd c w w' w'' /\ Rar k v v' v''.
  Lemma min2 vari vari' vari'' yib yib' yib'' yob yob' yob'' extrap ix ixi ixiy ixoy nyi iyo k :
    Forall3 (Forall3 (Rm a b)) vari vari' vari'' -> Forall3 (Forall3 RY) yib yib' yib'' -> Forall3 (Forall3 RY) yob yob' yob'' ->
    0 <= iyo -> 0 <= ix -> 0 <= ixi -> (ixi = ix \/ Z.of_nat (List.length vari) <= ix) -> k (Z.to_nat ix) (Z.to_nat iyo) = KSum ->
    forall i s t u, Rin2 k s t u -> relc (Rin2 k)
      (cellave_in_step vari yib yob false extrap ix ixi ixiy ixoy nyi iyo i s)
      (cellave_in_step vari' yib' yob' false extrap ix ixi ixiy ixoy nyi iyo i t)
      (cellave_in_step vari'' yib'' yob'' false extrap ix ixi ixiy ixoy nyi iyo i u).
  Proof using c_pos.
    intros Hv Hi Ho Py Px Pxi Hix Hk i [[i0 w] v] [[i0' w'] v'] [[i0'' w''] v''] (-> & -> & Hw & Hs). unfold cellave_in_step.
    eapply relc_bind; [apply get23; eassumption|]. intros y0 y0' y0'' Hy0. eapply relc_bind; [apply get23; eassumption|]. intros y1 y1' y1'' Hy1.
    eapply relc_bind; [apply get23; eassumption|]. intros o0 o0' o0'' Ho0. eapply relc_bind; [apply get23; eassumption|]. intros o1 o1' o1'' Ho1.
    destruct (Ry_ltb c d c_pos _ _ _ _ _ _ Ho0 Hy0) as [-> ->], (Ry_ltb c d c_pos _ _ _ _ _ _ Hy1 Ho1) as [-> ->].
    set (k0 := ((String.eqb extrap "bellow" || String.eqb extrap "both") && (i =? 0) && fltb o0 y0)%bool).
    set (k1 := ((String.eqb extrap "above" || String.eqb extrap "both") && (i =? nyi - 1) && fltb y1 o1)%bool).
    assert (X0 : RY (if k0 then o0 else y0) (if k0 then o0' else y0') (if k0 then o0'' else y0'')) by (destruct k0; assumption).
    assert (X1 : RY (if k1 then o1 else y1) (if k1 then o1' else y1') (if k1 then o1'' else y1'')) by (destruct k1; assumption).
    revert X0 X1. generalize (if k0 then o0 else y0) (if k0 then o0' else y0') (if k0 then o0'' else y0'')
      (if k1 then o1 else y1) (if k1 then o1' else y1') (if k1 then o1'' else y1''). clear k0 k1 Hy0 Hy1 y0 y0' y0'' y1 y1' y1''.
    intros y0 y0' y0'' y1 y1' y1'' Hy0 Hy1. cbv zeta.
    destruct (Ry_ltb c d c_pos _ _ _ _ _ _ Ho1 Hy0) as [-> ->]. destruct (fltb o1 y0); [constructor; repeat split; auto; apply Hw|].
    destruct (Ry_ltb c d c_pos _ _ _ _ _ _ Hy1 Ho0) as [-> ->]. destruct (fltb y1 o0); [constructor; repeat split; auto; apply Hw|].
    assert (D := Ry_sub c d _ _ _ _ _ _ (Ry_min c d c_pos _ _ _ _ _ _ Hy1 Ho1) (Ry_max c d c_pos _ _ _ _ _ _ Hy0 Ho0)).
    cbn [andb bindc].
    revert D. generalize (fsub (fmin y1 o1) (fmax y0 o0)) (fsub (fmin y1' o1') (fmax y0' o0')) (fsub (fmin y1'' o1'') (fmax y0'' o0'')).
    intros dy dy' dy'' Hdy. eapply relc_bind; [apply get23; eassumption|]. intros x x' x'' (Hx & N1 & N2). rewrite N1, N2.
    eapply relc_bind with (R := fun s t u => Rd c (fst s) (fst t) (fst u) /\ Rar k (snd s) (snd t) (snd u)).
    { destruct (isnan x); [constructor; split; auto|]. eapply rel3_bind; [apply (Rar_get k v v' v''); auto|]. intros p p' p'' Hp.
      destruct Hix as [->|Hout].
      - eapply rel3_bind; [apply get23; eassumption|]. intros q q' q'' [Hq _]. rewrite Hk in Hp. 
        eapply rel3_bind; [apply (Rar_set k k v v' v'' ix iyo _ _ _ Hs Px Py (fun _ _ _ => eq_refl)); rewrite Hk|].
        + cbn [Rk] in *.
          destruct Hdy as [<- Hdy]. unfold Rc in *. clear - Hp Hq Hdy. destruct p, p', p'', q, q', q'', dy, dy''; cbn in *; try tauto. rewrite Hp, Hq, Hdy. ring.
        + intros r r' r'' Hr. constructor. cbn. split; auto. now apply Rd_add.
      - assert (G : forall (A : Type) (l : list A), List.length l = List.length vari -> pyget l ix = Raise IndexError).
        { intros A l El. unfold pyget. rewrite El, pyidx_nonneg by auto. now rewrite (proj2 (Z.ltb_ge _ _) Hout). }
        destruct (F3_len _ _ _ _ Hv) as [E1 E2]. unfold get2. rewrite !G by congruence. constructor. }
    intros [p q] [p' q'] [p'' q''] [H1 H2]. cbn [fst snd] in *. destruct (Ry_leb c d c_pos _ _ _ _ _ _ Ho1 Hy1) as [-> ->].
    destruct (fleb o1 y1); constructor; repeat split; auto; apply H1.
  Qed.
  (** cells before (ix, iyo) are done, the other ones are zero *)
  Definition before (ix iyo : Z) (i j : nat) : kind :=
    if (Z.of_nat i <? ix) then KDone else if (Z.of_nat i =? ix) && (Z.of_nat j <? iyo) then KDone else KZero.
  Definition Rout2 ix iyo (s t u : Z * arr) : Prop := fst t = fst s /\ fst u = fst s /\ Rar (before ix iyo) (snd s) (snd t) (snd u).
  Lemma mout2 vari vari' vari'' yib yib' yib'' yob yob' yob'' extrap ix ixi ixiy ixoy nyi iyo :
    Forall3 (Forall3 (Rm a b)) vari vari' vari'' -> Forall3 (Forall3 RY) yib yib' yib'' -> Forall3 (Forall3 RY) yob yob' yob'' ->
    0 <= iyo -> 0 <= ix -> 0 <= ixi -> (ixi = ix \/ Z.of_nat (List.length vari) <= ix) ->
    forall s t u, Rout2 ix iyo s t u -> relc (Rout2 ix (iyo + 1))
      (cellave_out_step vari yib yob false extrap ix ixi ixiy ixoy nyi iyo s)
      (cellave_out_step vari' yib' yob' false extrap ix ixi ixiy ixoy nyi iyo t)
      (cellave_out_step vari'' yib'' yob'' false extrap ix ixi ixiy ixoy nyi iyo u).
  Proof using c_pos.
    intros Hv Hi Ho Py Px Pxi Hix [i0 v] [i0' v'] [i0'' v''] (E1 & E2 & Hs). cbn [fst snd] in *. subst i0' i0''. unfold cellave_out_step.
    pose (sum := fun i j : nat => if (i =? Z.to_nat ix)%nat && (j =? Z.to_nat iyo)%nat then KSum else before ix iyo i j).
    assert (T : forall i j, (i, j) <> (Z.to_nat ix, Z.to_nat iyo) -> before ix (iyo + 1) i j = sum i j).
    { intros i j N. unfold sum, before. destruct (Nat.eqb_spec i (Z.to_nat ix)) as [->|Ni], (Nat.eqb_spec j (Z.to_nat iyo)) as [->|Nj]; cbn [andb];
        try congruence; destruct (Z.ltb_spec (Z.of_nat (Z.to_nat ix)) ix); try lia; auto; repeat (match goal with |- context [?p <? ?q] => destruct (Z.ltb_spec p q) | |- context [?p =? ?q] => destruct (Z.eqb_spec p q) end; cbn [andb]; try lia; auto). }
    assert (T0 : sum (Z.to_nat ix) (Z.to_nat iyo) = KSum) by (unfold sum; now rewrite !Nat.eqb_refl).
    assert (T1 : before ix (iyo + 1) (Z.to_nat ix) (Z.to_nat iyo) = KDone).
    { unfold before. rewrite !Z2Nat.id by auto. rewrite Z.ltb_irrefl, Z.eqb_refl. cbn. destruct (Z.ltb_spec iyo (iyo + 1)); auto; lia. }
    assert (T2 : before ix iyo (Z.to_nat ix) (Z.to_nat iyo) = KZero).
    { unfold before. rewrite !Z2Nat.id by auto. now rewrite Z.ltb_irrefl, Z.eqb_refl, Z.ltb_irrefl. }
    assert (dec : forall i j, (i, j) = (Z.to_nat ix, Z.to_nat iyo) \/ (i, j) <> (Z.to_nat ix, Z.to_nat iyo)).
    { intros i j. destruct (Nat.eq_dec i (Z.to_nat ix)) as [->|]; [destruct (Nat.eq_dec j (Z.to_nat iyo)) as [->|]|]; auto; right; congruence. }
    eapply relc_bind; [apply get23; eassumption|]. intros o0 o0' o0'' Ho0. eapply relc_bind; [apply get23; eassumption|]. intros o1 o1' o1'' Ho1.
    destruct (Ry_eqb c d c_pos _ _ _ _ _ _ Ho0 Ho1) as [-> ->]. destruct (feqb o0 o1).
    { constructor; repeat split; auto. cbn. eapply Rar_impl; [|exact Hs]. intros i j. destruct (dec i j) as [E|N]; [injection E as -> ->; auto|].
      right. rewrite T by auto. unfold sum. destruct (Nat.eqb_spec i (Z.to_nat ix)) as [->|], (Nat.eqb_spec j (Z.to_nat iyo)) as [->|]; cbn; auto. congruence. }
    eapply relc_bind; [apply for_each3 with (R := Rin2 sum)|].
    - intros x s t u H. now apply min2.
    - repeat split; auto. { cbn. ring. } eapply Rar_impl; [|exact Hs]. intros i j. unfold sum.
      destruct (Nat.eqb_spec i (Z.to_nat ix)) as [->|], (Nat.eqb_spec j (Z.to_nat iyo)) as [->|]; cbn; auto.
    - intros [[i1 w] r] [[i1' w'] r'] [[i1'' w''] r''] (-> & -> & Hw & Hr).
      assert (W0 : feqb w' f0 = feqb w f0 /\ feqb w'' f0 = feqb w f0).
      { assert (E := Rd_eq0 c c_pos _ _ _ Hw). destruct Hw as [<- Hw]. split; auto. destruct w, w''; cbn in *; tauto. }
      destruct W0 as [-> ->]. destruct (negb (feqb w f0)) eqn:NZ.
      + eapply relc_bind; [apply (Rar_get sum r r' r''); auto|]. intros p p' p'' Hp. rewrite T0 in Hp.
        eapply relc_bind with (R := RC).
        { destruct Hw as [<- Hw]. cbn in Hp. unfold fdiv. clear - Hp Hw c_pos NZ. destruct w as [w|], w'' as [w''|]; cbn in *; try tauto.
          - apply negb_true_iff in NZ. rewrite NZ. assert (N : ~ (w == 0)%Q) by (intro X; apply Qeq_bool_iff in X; congruence).
            assert (Cn : ~ (c == 0)%Q) by (intro X; rewrite X in c_pos; discriminate).
            destruct (Qeq_bool w'' 0) eqn:Z0.
            + exfalso. apply Qeq_bool_iff in Z0. rewrite Z0 in Hw. assert (Y : (c * w == 0)%Q) by lra. apply Qmult_integral in Y as [Y|Y]; auto.
            + constructor. unfold Rc. destruct p, p', p''; cbn in *; try tauto. rewrite Hp, Hw. field. auto.
          - constructor. exact Logic.I. }
        intros q q' q'' Hq. eapply relc_bind; [apply (Rar_set sum (before ix (iyo + 1))); auto; rewrite T1; exact Hq|].
        intros z z' z'' Hz. constructor; repeat split; auto.
      + eapply relc_bind; [apply (Rar_set sum (before ix (iyo + 1)) _ _ _ _ _ nan nan nan Hr); auto; rewrite T1; exact Logic.I|].
        intros z z' z'' Hz. constructor; repeat split; auto.
  Qed.
  Lemma out_nobreak vari yib yob conserv extrap ix ixi ixiy ixoy nyi iyo s :
    match cellave_out_step vari yib yob conserv extrap ix ixi ixiy ixoy nyi iyo s with Break _ => False | _ => True end.
  Proof using.
    clear. destruct s as [i0 v]. unfold cellave_out_step. destruct (get2 yob ixoy iyo) as [o0|]; cbn [bindc]; auto.
    destruct (get2 yob ixoy (iyo + 1)) as [o1|]; cbn [bindc]; auto. destruct (feqb o0 o1); auto.
    destruct (for_each _ _ _) as [[[p q] r]|]; cbn [bindc]; auto. destruct conserv; auto. destruct (negb _).
    - destruct (get2 r ix iyo); cbn [bindc]; auto. destruct (fdiv _ _); cbn [bindc]; auto. destruct (set2 _ _ _ _); cbn [bindc]; auto.
    - destruct (set2 _ _ _ _); cbn [bindc]; auto.
  Qed.
  Lemma F3i_Forall3 {A B C} (R : nat -> A -> B -> C -> Prop) (T : A -> B -> C -> Prop) n l m p :
    (forall k x y z, (List.length l + n > k)%nat -> R k x y z -> T x y z) -> F3i R n l m p -> Forall3 T l m p.
  Proof using. clear. intros H F. induction F as [|n x y z l m p H0 F IH]; constructor; [apply (H n); auto; cbn; lia|]. apply IH. intros k a0 b0 c0 L. apply H. cbn. lia. Qed.
  Lemma Rar_Forall3 k v w u : (forall i j, k i j <> KSum) -> Rar k v w u -> Forall3 (Forall3 RC) v w u.
  Proof using.
    clear c_pos. intro H. apply F3i_Forall3. intros i r s t _. apply F3i_Forall3. intros j x y z _. specialize (H i j). 
    destruct (k i j); [apply (zero_any KDone)|auto|congruence].
  Qed.
  Lemma mean3 vari vari' vari'' yib yib' yib'' yob yob' yob'' extrap :
    Forall3 (Forall3 (Rm a b)) vari vari' vari'' -> Forall3 (Forall3 RY) yib yib' yib'' -> Forall3 (Forall3 RY) yob yob' yob'' ->
    rel3 (Forall3 (Forall3 RC)) (cellave1d vari yib yob false extrap) (cellave1d vari' yib' yob' false extrap) (cellave1d vari'' yib'' yob'' false extrap).
  Proof using c_pos.
    intros Hv Hi Ho. unfold cellave1d, nrows, ncols.
    destruct (F3_len _ _ _ _ Hv) as [Ev1 Ev2], (F3_len _ _ _ _ Hi) as [Ei1 Ei2], (F3_len _ _ _ _ Ho) as [Eo1 Eo2], (ncols3 _ _ _ _ Ho) as [-> ->], (ncols3 _ _ _ _ Hv) as [-> ->].
    rewrite <- Ev2, <- Ev1, <- Ei2, <- Ei1, <- Eo2, <- Eo1. clear Ev1 Ev2 Ei1 Ei2 Eo1 Eo2.
    set (nx := Z.max (Z.of_nat (List.length vari)) (Z.of_nat (List.length yob))).
    match goal with |- rel3 _ ?x ?y ?z => enough (R : rel3 (fun p q r => Rar (before (Z.max 0 nx) 0) p q r) x y z) end.
    { destruct R; constructor. eapply Rar_Forall3; [|eassumption]. intros i j. unfold before. destruct (_ <? _); [discriminate|]. destruct (_ && _)%bool; discriminate. }
    apply (range3 (fun ix => Rar (before ix 0))).
    - intros ix s t u Hix Hs.
      assert (X : forall (n : Z), 0 <= n -> rel3 (fun a b e => a = b /\ b = e /\ 0 <= a /\ (a = ix \/ n <= ix)) (row_index n ix) (row_index n ix) (row_index n ix)).
      { intros n Hn. unfold row_index. destruct (Z.eqb_spec n 0); constructor. repeat split.
        - assert (0 <= ix mod n) by (apply Z.mod_pos_bound; lia). lia.
        - destruct (Z.lt_ge_cases ix n); [left|auto]. rewrite Z.mod_small by lia. lia. }
      eapply relc_bind; [apply X; lia|]. intros e1 ? ? (<- & <- & P1 & Q1). eapply relc_bind; [apply X; lia|]. intros e2 ? ? (<- & <- & _ & _).
      eapply relc_bind; [apply X; lia|]. intros e3 ? ? (<- & <- & _ & _).
      eapply relc_bind; [apply (range3 (fun iy => Rout2 ix iy))|].
      + intros x p q r Hx H. apply mout2; auto; lia.
      + intros x p. apply out_nobreak.
      + repeat split; auto.
      + intros p q r (_ & _ & H). constructor. eapply Rar_impl; [|exact H]. intros i j. unfold before.
        repeat (match goal with |- context [?p <? ?q] => destruct (Z.ltb_spec p q) | |- context [?p =? ?q] => destruct (Z.eqb_spec p q) end; cbn [andb]; try lia; auto).
    - intros ix v. destruct (row_index _ ix); cbn [bindc]; auto. destruct (row_index _ ix); cbn [bindc]; auto. destruct (row_index _ ix); cbn [bindc]; auto.
      destruct (for_each _ _ _); cbn [bindc]; auto.
    - unfold full2. assert (X0 : forall i j, Rk (before 0 0 i j) f0 f0 f0) by (intros i j; apply zero_any; cbn; repeat split; reflexivity).
      assert (X : forall i k j, F3i (fun j => Rk (before 0 0 i j)) j (List.repeat f0 k) (List.repeat f0 k) (List.repeat f0 k)) by (intros i k; induction k; intro j; cbn; constructor; auto).
      unfold Rar. match goal with |- F3i _ _ (List.repeat _ (Z.to_nat ?p)) _ _ => generalize 0%nat at 2 end.
      induction (Z.to_nat nx); intro k; cbn; constructor; auto.
  Qed.
End means.
(** cellave1d of a combination of two arrays with the same NaNs, on edges in other units and with
    another origin, is the combination of the two cell averages, for every option, NaN, shape and
    order of the edges. *)
Theorem C87_cellave a b c d v w yib yob conserv extrap : (0 < c)%Q -> same_missing v w ->
  combines (lincomb_all a b 0) (cellave1d v yib yob conserv extrap) (cellave1d w yib yob conserv extrap)
    (cellave1d (lincomb_all a b 0 v w) (rescale_all c d yib) (rescale_all c d yob) conserv extrap).
Proof.
  intros C M. apply back. destruct conserv.
  - apply (cell3 c d a b C true (or_introl eq_refl)); auto using missing_rel, rescale_rel.
  - apply (mean3 c d a b C); auto using missing_rel, rescale_rel.
Qed.
Print Assumptions C87_cellave.
(** Non-trivial case of the hypotheses: two arrays with the same NaN *)
Example C87_cellave_case : exists r, 
  same_missing [[Some 1%Q; None; Some 3%Q]] [[Some 5%Q; None; Some 9%Q]] /\
  cellave1d [[Some 1%Q; None; Some 3%Q]] [[Some 0%Q; Some 1%Q; Some 2%Q; Some 4%Q]] [[Some 0%Q; Some 3%Q]] true "no" = Ok r /\
  same_values r [[Some (4 # 3)%Q]].
Proof. eexists. split; [reflexivity|]. split; [vm_compute; reflexivity|]. repeat constructor. Qed.
