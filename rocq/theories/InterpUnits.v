(** Simulation of three runs of the 1D kernels, for C87 *)
From Verif Require Export InterpUnitsSpec.
Open Scope Z_scope.

Inductive Forall3 {A B C} (R : A -> B -> C -> Prop) : list A -> list B -> list C -> Prop :=
| F3nil : Forall3 R [] [] []
| F3cons a b c l m n : R a b c -> Forall3 R l m n -> Forall3 R (a :: l) (b :: m) (c :: n).
Inductive rel3 {A B C} (R : A -> B -> C -> Prop) : res A -> res B -> res C -> Prop :=
| r3ok a b c : R a b c -> rel3 R (Ok a) (Ok b) (Ok c)
| r3err e : rel3 R (Raise e) (Raise e) (Raise e).
Inductive relc {A B C} (R : A -> B -> C -> Prop) : ctl A -> ctl B -> ctl C -> Prop :=
| rcnext a b c : R a b c -> relc R (Next a) (Next b) (Next c)
| rcbreak a b c : R a b c -> relc R (Break a) (Break b) (Break c)
| rcfail e : relc R (Fail e) (Fail e) (Fail e).
Lemma F3_len {A B C} (R : A -> B -> C -> Prop) l m n : Forall3 R l m n -> List.length l = List.length m /\ List.length m = List.length n.
Proof. induction 1 as [|? ? ? ? ? ? ? ? [E1 E2]]; cbn; auto. Qed.
Lemma rel3_bind {A B C A' B' C'} (R : A -> B -> C -> Prop) (S : A' -> B' -> C' -> Prop) x y z f g h :
  rel3 R x y z -> (forall a b c, R a b c -> rel3 S (f a) (g b) (h c)) -> rel3 S (bind x f) (bind y g) (bind z h).
Proof. intros [a b c H|e] F; cbn; auto. constructor. Qed.
Lemma relc_bind {A B C A' B' C'} (R : A -> B -> C -> Prop) (S : A' -> B' -> C' -> Prop) x y z f g h :
  rel3 R x y z -> (forall a b c, R a b c -> relc S (f a) (g b) (h c)) -> relc S (bindc x f) (bindc y g) (bindc z h).
Proof. intros [a b c H|e] F; cbn; auto. constructor. Qed.
Lemma relc_next {A B C} (R : A -> B -> C -> Prop) x y z : rel3 R x y z -> relc R (next_of x) (next_of y) (next_of z).
Proof. intros []; cbn; now constructor. Qed.
Lemma for_each3 {X A B C} (R : A -> B -> C -> Prop) (f : X -> A -> ctl A) g h : 
  (forall x a b c, R a b c -> relc R (f x a) (g x b) (h x c)) ->
  forall l a b c, R a b c -> rel3 R (for_each l f a) (for_each l g b) (for_each l h c).
Proof.
  intro H. induction l as [|x l IH]; intros a b c Hr; cbn; [now constructor|].
  destruct (H x a b c Hr); auto; now constructor.
Qed.
Lemma pyget3 {A B C} (R : A -> B -> C -> Prop) l m n i : Forall3 R l m n -> rel3 R (pyget l i) (pyget m i) (pyget n i).
Proof.
  intro H. unfold pyget. destruct (F3_len _ _ _ _ H) as [E1 E2]. rewrite <- E2, <- E1.
  destruct (pyidx (List.length l) i) as [k|]; [|constructor]. clear E1 E2. revert k.
  induction H as [|a b c l m n Ha H IH]; intros [|k]; cbn; try (now constructor); apply IH.
Qed.
Lemma upd3 {A B C} (R : A -> B -> C -> Prop) l m n k x y z : Forall3 R l m n -> R x y z -> Forall3 R (upd l k x) (upd m k y) (upd n k z).
Proof. intros H Hx. revert k. induction H as [|a b c l m n Ha H IH]; intros [|k]; cbn; constructor; auto. Qed.
Lemma pyset3 {A B C} (R : A -> B -> C -> Prop) l m n i x y z : Forall3 R l m n -> R x y z ->
  rel3 (Forall3 R) (pyset l i x) (pyset m i y) (pyset n i z).
Proof.
  intros H Hx. unfold pyset. destruct (F3_len _ _ _ _ H) as [E1 E2]. rewrite <- E2, <- E1.
  destruct (pyidx (List.length l) i) as [k|]; constructor. now apply upd3.
Qed.
Lemma get23 {A B C} (R : A -> B -> C -> Prop) l m n i j : Forall3 (Forall3 R) l m n ->
  rel3 R (let* r := pyget l i in pyget r j) (let* r := pyget m i in pyget r j) (let* r := pyget n i in pyget r j).
Proof. intro H. eapply rel3_bind; [apply pyget3; eassumption|]. intros a b c Hr. now apply pyget3. Qed.
Lemma set23 (R : fl -> fl -> fl -> Prop) l m n i j x y z : Forall3 (Forall3 R) l m n -> R x y z ->
  rel3 (Forall3 (Forall3 R)) (set2 l i j x) (set2 m i j y) (set2 n i j z).
Proof.
  intros H Hx. unfold set2. eapply rel3_bind; [apply pyget3; eassumption|]. intros a b c Hr.
  eapply rel3_bind; [apply pyset3; eassumption|]. intros a' b' c' Hr'. now apply pyset3.
Qed.

(** ** Coordinates *)
Section units.
  Variables (c d : Q).
  Hypothesis c_pos : (0 < c)%Q.
  (** the same coordinate in the first two runs, and in other units in the third one *)
  Definition Ry (x y z : fl) : Prop := x = y /\ feq z (rescale c d x).
  (** differences of coordinates *)
  Definition Rd (x y z : fl) : Prop := x = y /\ feq z (rescale c 0 x).
  Lemma Ry_sub x y z x' y' z' : Ry x y z -> Ry x' y' z' -> Rd (fsub x x') (fsub y y') (fsub z z').
  Proof.
    intros [<- H] [<- H']. split; auto. destruct x, z, x', z'; cbn in *; try tauto. rewrite H, H'. ring.
  Qed.
  Lemma Rd_add x y z x' y' z' : Rd x y z -> Rd x' y' z' -> Rd (fadd x x') (fadd y y') (fadd z z').
  Proof.
    intros [<- H] [<- H']. split; auto. destruct x, z, x', z'; cbn in *; try tauto. rewrite H, H'. ring.
  Qed.
  Lemma Qle_bool_ext a b a' b' : (a <= b <-> a' <= b')%Q -> Qle_bool a b = Qle_bool a' b'.
  Proof.
    intro H. destruct (Qle_bool a b) eqn:E, (Qle_bool a' b') eqn:E'; auto.
    - apply Qle_bool_iff, H, Qle_bool_iff in E. congruence.
    - apply Qle_bool_iff, H, Qle_bool_iff in E'. congruence.
  Qed.
  Lemma scale_le a b : (c * a + d <= c * b + d <-> a <= b)%Q.
  Proof.
    split; intro H.
    - apply (Qmult_le_l _ _ c c_pos). lra.
    - apply (Qmult_le_l _ _ c c_pos) in H. lra.
  Qed.
  Lemma scale0_le a b : (c * a + 0 <= c * b + 0 <-> a <= b)%Q.
  Proof.
    split; intro H.
    - apply (Qmult_le_l _ _ c c_pos). lra.
    - apply (Qmult_le_l _ _ c c_pos) in H. lra.
  Qed.
  Lemma Ry_ltb x y z x' y' z' : Ry x y z -> Ry x' y' z' -> fltb y y' = fltb x x' /\ fltb z z' = fltb x x'.
  Proof.
    intros [<- H] [<- H']. split; auto. destruct x, z, x', z'; cbn in *; try tauto. unfold Qltb. f_equal.
    apply Qle_bool_ext. rewrite H, H'. apply scale_le.
  Qed.
  Lemma Rd_ltb x y z x' y' z' : Rd x y z -> Rd x' y' z' -> fltb y y' = fltb x x' /\ fltb z z' = fltb x x'.
  Proof.
    intros [<- H] [<- H']. split; auto. destruct x, z, x', z'; cbn in *; try tauto. unfold Qltb. f_equal.
    apply Qle_bool_ext. rewrite H, H'. apply scale0_le.
  Qed.
  Lemma Rd_leb x y z x' y' z' : Rd x y z -> Rd x' y' z' -> fleb y y' = fleb x x' /\ fleb z z' = fleb x x'.
  Proof.
    intros [<- H] [<- H']. split; auto. destruct x, z, x', z'; cbn in *; try tauto.
    apply Qle_bool_ext. rewrite H, H'. apply scale0_le.
  Qed.
  Lemma Rd_0 : Rd f0 f0 f0.
  Proof. split; auto. cbn. ring. Qed.
  Lemma Rd_eq0 x y z : Rd x y z -> match x, z with Some p, Some q => Qeq_bool q 0 = Qeq_bool p 0 | None, None => True | _, _ => False end.
  Proof.
    intros [<- H]. destruct x as [p|], z as [q|]; cbn in *; try tauto.
    destruct (Qeq_bool p 0) eqn:E.
    - apply Qeq_bool_iff in E. apply Qeq_bool_iff. rewrite H, E. ring.
    - destruct (Qeq_bool q 0) eqn:E'; auto. apply Qeq_bool_iff in E'. rewrite E' in H.
      assert (X : (c * p == 0)%Q) by lra. apply Qmult_integral in X as [X|X]; [rewrite X in c_pos; discriminate|].
      apply Qeq_bool_iff in X. congruence.
  Qed.
  (** NaNs and get_iminmax *)
  Lemma isnan_iminmax l m : map isnan l = map isnan m -> get_iminmax l = get_iminmax m.
  Proof.
    intro H. unfold get_iminmax. assert (L : List.length l = List.length m) by (rewrite <- (map_length isnan l), H; apply map_length).
    assert (G : forall i (S : Type) (k k' : fl -> ctl S), (forall x y, isnan x = isnan y -> k x = k' y) -> bindc (pyget l i) k = bindc (pyget m i) k').
    { intros i S k k' K. unfold pyget. rewrite L. destruct (pyidx (List.length m) i) as [j|]; auto.
      clear L. revert m H j. induction l as [|a l IH]; intros [|b m] H j; try discriminate; [now destruct j|].
      injection H as E H. destruct j; cbn; auto. }
    rewrite L. generalize (pyrange 0 (Z.of_nat (List.length m))) (-1, -1). induction l0 as [|i l0 IH]; intros st; cbn; auto.
    assert (E : iminmax_step l (Z.of_nat (List.length m)) i st = iminmax_step m (Z.of_nat (List.length m)) i st).
    { unfold iminmax_step. destruct st as [a b]. apply G. intros x y Exy. rewrite Exy. apply G. intros x' y' ->. reflexivity. }
    rewrite E. destruct (iminmax_step m _ i st); auto.
  Qed.
  Lemma Ry_iminmax l m n : Forall3 Ry l m n -> get_iminmax m = get_iminmax l /\ get_iminmax n = get_iminmax l.
  Proof.
    intro H. split; apply isnan_iminmax; induction H as [|x y z l m n [<- Hz] H IH]; cbn; auto; rewrite IH; f_equal.
    destruct x, z; cbn in *; tauto.
  Qed.

  (** ** The kernels, for values related by [R] *)
  Section kernel.
    Variable R : fl -> fl -> fl -> Prop.
    Hypothesis R_nan : R nan nan nan.
    Definition Rst (s t u : Z * list fl) : Prop := fst t = fst s /\ fst u = fst s /\ Forall3 R (snd s) (snd t) (snd u).
    Notation step := (Z -> Z -> Z * list fl -> ctl (Z * list fl)).
    Definition Rstep (f g h : step) : Prop := forall i j s t u, Rst s t u -> relc Rst (f i j s) (g i j t) (h i j u).
    Lemma interval3 f g h yi yi' yi'' yo yo' yo'' m hi : Rstep f g h -> Forall3 Ry yi yi' yi'' -> Forall3 Ry yo yo' yo'' ->
      forall i s t u, Rst s t u ->
      relc Rst (interval_step f yi yo m hi i s) (interval_step g yi' yo' m hi i t) (interval_step h yi'' yo'' m hi i u).
    Proof.
      intros Hf Hi Ho i s t u Hs. assert (Hs' := Hs). destruct Hs' as (E1 & E2 & _). unfold interval_step. rewrite E1, E2.
      eapply relc_bind; [apply pyget3; eassumption|]. intros y y' y'' Hy. eapply relc_bind; [apply pyget3; eassumption|]. intros a a' a'' Ha.
      destruct (Ry_ltb _ _ _ _ _ _ Hy Ha) as [-> ->]. destruct (fltb y a); [now constructor|].
      eapply relc_bind; [apply pyget3; eassumption|]. intros y0 y0' y0'' Hy0. eapply relc_bind; [apply pyget3; eassumption|]. intros b b' b'' Hb.
      destruct (Ry_ltb _ _ _ _ _ _ Hb Hy0) as [-> ->]. destruct (fltb b y0); [now constructor|].
      apply relc_next, for_each3; auto.
    Qed.
    Lemma row3 f g h yi yi' yi'' yo yo' yo'' hi (out out' out'' : list fl) :
      (forall a b, Rstep (f a b) (g a b) (h a b)) -> Forall3 Ry yi yi' yi'' -> Forall3 Ry yo yo' yo'' -> Forall3 R out out' out'' ->
      rel3 (Forall3 R)
        (let* (a, b) := get_iminmax yi in let* (a', b') := get_iminmax yo in
         let* st := for_each (pyrange a b) (interval_step (f a b) yi yo b' (hi b')) (a', out) in Ok (snd st))
        (let* (a, b) := get_iminmax yi' in let* (a', b') := get_iminmax yo' in
         let* st := for_each (pyrange a b) (interval_step (g a b) yi' yo' b' (hi b')) (a', out') in Ok (snd st))
        (let* (a, b) := get_iminmax yi'' in let* (a', b') := get_iminmax yo'' in
         let* st := for_each (pyrange a b) (interval_step (h a b) yi'' yo'' b' (hi b')) (a', out'') in Ok (snd st)).
    Proof.
      intros Hf Hi Ho Hout. destruct (Ry_iminmax _ _ _ Hi) as [-> ->], (Ry_iminmax _ _ _ Ho) as [-> ->].
      destruct (get_iminmax yi) as [[a b]|e]; [|constructor]. cbn. destruct (get_iminmax yo) as [[a' b']|e]; [|constructor]. cbn.
      eapply rel3_bind; [apply for_each3 with (R := Rst)|].
      - intros x p q r Hp. now apply interval3.
      - repeat split; auto.
      - intros s t u (_ & _ & H). now constructor.
    Qed.
    Notation rowf := (Z -> Z -> list fl -> list fl -> list fl -> res (list fl)).
    Definition Rrow (f g h : rowf) : Prop := forall ix ixi yi yi' yi'' yo yo' yo'' o o' o'',
      Forall3 Ry yi yi' yi'' -> Forall3 Ry yo yo' yo'' -> Forall3 R o o' o'' ->
      rel3 (Forall3 R) (f ix ixi yi yo o) (g ix ixi yi' yo' o') (h ix ixi yi'' yo'' o'').
    Lemma full3 n m : Forall3 (Forall3 R) (full2 n m nan) (full2 n m nan) (full2 n m nan).
    Proof.
      unfold full2. assert (X : forall k, Forall3 R (List.repeat nan k) (List.repeat nan k) (List.repeat nan k)).
      { induction k; cbn; constructor; auto. }
      induction (Z.to_nat n); cbn; constructor; auto.
    Qed.
    Lemma ncols3 {A B C} (S : A -> B -> C -> Prop) (l : list (list A)) (m : list (list B)) (n : list (list C)) :
      Forall3 (Forall3 S) l m n ->
      match m with [] => 0 | r :: _ => Z.of_nat (List.length r) end = match l with [] => 0 | r :: _ => Z.of_nat (List.length r) end /\
      match n with [] => 0 | r :: _ => Z.of_nat (List.length r) end = match l with [] => 0 | r :: _ => Z.of_nat (List.length r) end.
    Proof. intros [|a b c' ? ? ? H _]; auto. destruct (F3_len _ _ _ _ H) as [-> ->]. auto. Qed.
    Lemma rows3 (RV : fl -> fl -> fl -> Prop) f g h v v' v'' yi yi' yi'' yo yo' yo'' order : Rrow f g h ->
      Forall3 (Forall3 RV) v v' v'' -> Forall3 (Forall3 Ry) yi yi' yi'' -> Forall3 (Forall3 Ry) yo yo' yo'' ->
      rel3 (Forall3 (Forall3 R)) (rows_kernel f v yi yo order) (rows_kernel g v' yi' yo' order) (rows_kernel h v'' yi'' yo'' order).
    Proof.
      intros Hf Hv Hi Ho. unfold rows_kernel, nrows, ncols.
      destruct (F3_len _ _ _ _ Hv) as [Ev1 Ev2], (F3_len _ _ _ _ Hi) as [Ei1 Ei2], (F3_len _ _ _ _ Ho) as [Eo1 Eo2], (ncols3 _ _ _ _ Ho) as [-> ->].
      rewrite <- Ev2, <- Ev1, <- Ei2, <- Ei1, <- Eo2, <- Eo1. clear Ev1 Ev2 Ei1 Ei2 Eo1 Eo2.
      apply for_each3; [|apply full3]. intros ix s t u Hs.
      assert (X : forall (n : Z), rel3 (fun a b e => a = b /\ b = e) (row_index n ix) (row_index n ix) (row_index n ix)).
      { intro n. unfold row_index. destruct (n =? 0); constructor; auto. }
      eapply relc_bind; [apply X|]. intros a ? ? [<- <-]. eapply relc_bind; [apply X|]. intros b ? ? [<- <-].
      eapply relc_bind; [apply X|]. intros e ? ? [<- <-].
      eapply relc_bind; [apply pyget3; eassumption|]. intros ri ri' ri'' Hri. eapply relc_bind; [apply pyget3; eassumption|]. intros ro ro' ro'' Hro.
      eapply relc_bind; [apply pyget3; eassumption|]. intros w w' w'' Hw. eapply relc_bind; [now apply Hf|]. intros z z' z'' Hz.
      apply relc_next. now apply pyset3.
    Qed.
  End kernel.

  (** ** nearest1d: any relation that holds between NaNs *)
  Lemma nearest_step3 (R : fl -> fl -> fl -> Prop) v v' v'' yi yi' yi'' yo yo' yo'' :
    Forall3 R v v' v'' -> Forall3 Ry yi yi' yi'' -> Forall3 Ry yo yo' yo'' ->
    Rstep R (nearest_step v yi yo) (nearest_step v' yi' yo') (nearest_step v'' yi'' yo'').
  Proof.
    intros Hv Hi Ho i j [z o] [z' o'] [z'' o''] (E1 & E2 & Hs). cbn [fst snd] in *. subst z' z''. unfold nearest_step.
    eapply relc_bind; [apply pyget3; eassumption|]. intros y y' y'' Hy. eapply relc_bind; [apply pyget3; eassumption|]. intros y0 y0' y0'' Hy0.
    eapply relc_bind; [apply pyget3; eassumption|]. intros y1 y1' y1'' Hy1.
    assert (D0 := Ry_sub _ _ _ _ _ _ Hy Hy0). assert (D1 := Ry_sub _ _ _ _ _ _ Hy1 Hy).
    destruct (Rd_ltb _ _ _ _ _ _ D1 Rd_0) as [-> ->]. destruct (fltb (fsub y1 y) f0); [now constructor|].
    destruct (Rd_ltb _ _ _ _ _ _ D0 Rd_0) as [-> ->]. destruct (fltb (fsub y y0) f0); [now constructor|].
    destruct (Rd_leb _ _ _ _ _ _ D0 D1) as [-> ->]. destruct (fleb (fsub y y0) (fsub y1 y));
      (eapply relc_bind; [apply pyget3; eassumption|]; intros x x' x'' Hx; eapply relc_bind; [apply pyset3; eassumption|]; intros q q' q'' Hq;
       constructor; repeat split; auto).
  Qed.
  Lemma nearest3 (R : fl -> fl -> fl -> Prop) v v' v'' yi yi' yi'' yo yo' yo'' order : R nan nan nan ->
    Forall3 (Forall3 R) v v' v'' -> Forall3 (Forall3 Ry) yi yi' yi'' -> Forall3 (Forall3 Ry) yo yo' yo'' ->
    rel3 (Forall3 (Forall3 R)) (nearest1d_sched v yi yo order) (nearest1d_sched v' yi' yo' order) (nearest1d_sched v'' yi'' yo'' order).
  Proof.
    intros HN Hv Hi Ho. unfold nearest1d_sched. eapply rows3; eauto. intros ix ixi ri ri' ri'' ro ro' ro'' o o' o'' Hri Hro Hoo.
    eapply rel3_bind; [apply pyget3; eassumption|]. intros r r' r'' Hr. unfold nearest_row.
    apply (row3 R (fun _ _ => nearest_step r ri ro) (fun _ _ => nearest_step r' ri' ro') (fun _ _ => nearest_step r'' ri'' ro'')
             ri ri' ri'' ro ro' ro'' (fun b => b + 1)); auto. intros _ _. now apply nearest_step3.
  Qed.

  (** ** Combinations *)
  Section comb.
    Variables a b g : Q.
    Definition Rc (x y z : fl) : Prop := feq z (lincomb a b g x y).
    Ltac opts := repeat match goal with x : fl |- _ => destruct x as [?|] end; unfold fc in *; cbn in *; try tauto; try exact Logic.I.
    Lemma linear_value v0 w0 u0 v1 w1 u1 d0 d0' d0'' d1 d1' d1'' : Rc v0 w0 u0 -> Rc v1 w1 u1 -> Rd d0 d0' d0'' -> Rd d1 d1' d1'' ->
      rel3 Rc (fdiv (fadd (fmul v0 d1) (fmul v1 d0)) (fadd d0 d1)) (fdiv (fadd (fmul w0 d1') (fmul w1 d0')) (fadd d0' d1'))
        (fdiv (fadd (fmul u0 d1'') (fmul u1 d0'')) (fadd d0'' d1'')).
    Proof.
      intros H0 H1 D0 D1. assert (DD := Rd_add _ _ _ _ _ _ D0 D1). assert (E := Rd_eq0 _ _ _ DD). destruct DD as [_ DD].
      destruct D0 as [<- D0], D1 as [<- D1]. unfold fdiv. destruct (fadd d0 d1) as [s|] eqn:Es, (fadd d0'' d1'') as [s'|] eqn:Es'; try tauto.
      - rewrite E. destruct (Qeq_bool s 0) eqn:Z0; constructor. assert (NZ : ~ (s == 0)%Q) by (intro X; apply Qeq_bool_iff in X; congruence).
        unfold Rc in *. opts; try discriminate.
        injection Es as <-. injection Es' as <-. rewrite H0, H1, D0, D1. field. split; [exact NZ|].
        intro X. assert (Y : (c * (q2 + q0) == 0)%Q) by lra. apply Qmult_integral in Y as [Y|Y]; [rewrite Y in c_pos; discriminate|].
        now apply NZ.
      - constructor. exact Logic.I.
    Qed.
    Lemma linear_step3 v v' v'' yi yi' yi'' yo yo' yo'' :
      Forall3 Rc v v' v'' -> Forall3 Ry yi yi' yi'' -> Forall3 Ry yo yo' yo'' ->
      Rstep Rc (linear_step v yi yo) (linear_step v' yi' yo') (linear_step v'' yi'' yo'').
    Proof.
      intros Hv Hi Ho i j [z o] [z' o'] [z'' o''] (E1 & E2 & Hs). cbn [fst snd] in *. subst z' z''. unfold linear_step.
      eapply relc_bind; [apply pyget3; eassumption|]. intros y y' y'' Hy. eapply relc_bind; [apply pyget3; eassumption|]. intros y0 y0' y0'' Hy0.
      eapply relc_bind; [apply pyget3; eassumption|]. intros y1 y1' y1'' Hy1.
      assert (D0 := Ry_sub _ _ _ _ _ _ Hy Hy0). assert (D1 := Ry_sub _ _ _ _ _ _ Hy1 Hy).
      destruct (Rd_ltb _ _ _ _ _ _ D1 Rd_0) as [-> ->]. destruct (fltb (fsub y1 y) f0); [now constructor|].
      destruct (Rd_ltb _ _ _ _ _ _ D0 Rd_0) as [-> ->]. destruct (fltb (fsub y y0) f0); [now constructor|].
      destruct (Rd_leb _ _ _ _ _ _ Rd_0 D0) as [-> ->], (Rd_leb _ _ _ _ _ _ Rd_0 D1) as [-> ->].
      destruct (fleb f0 (fsub y y0) && fleb f0 (fsub y1 y))%bool; [|now constructor].
      eapply relc_bind; [apply pyget3; eassumption|]. intros v0 w0 u0 H0. eapply relc_bind; [apply pyget3; eassumption|]. intros v1 w1 u1 H1.
      eapply relc_bind; [apply linear_value; eassumption|]. intros x x' x'' Hx. eapply relc_bind; [apply pyset3; eassumption|]. intros q q' q'' Hq.
      constructor; repeat split; auto.
    Qed.
    Lemma linear3 v v' v'' yi yi' yi'' yo yo' yo'' order :
      Forall3 (Forall3 Rc) v v' v'' -> Forall3 (Forall3 Ry) yi yi' yi'' -> Forall3 (Forall3 Ry) yo yo' yo'' ->
      rel3 (Forall3 (Forall3 Rc)) (linear1d_sched v yi yo order) (linear1d_sched v' yi' yo' order) (linear1d_sched v'' yi'' yo'' order).
    Proof.
      intros Hv Hi Ho. unfold linear1d_sched. eapply rows3; eauto; [exact Logic.I|]. intros ix ixi ri ri' ri'' ro ro' ro'' o o' o'' Hri Hro Hoo.
      eapply rel3_bind; [apply pyget3; eassumption|]. intros r r' r'' Hr. unfold linear_row.
      apply (row3 Rc (fun _ _ => linear_step r ri ro) (fun _ _ => linear_step r' ri' ro') (fun _ _ => linear_step r'' ri'' ro'')
               ri ri' ri'' ro ro' ro'' (fun b => b + 1)); auto. intros _ _. now apply linear_step3.
    Qed.

    (** ** Polynomials *)
    Lemma outer3 v w u ix ixi i lo hi : Forall3 (Forall3 Rc) v w u ->
      rel3 (fun x y z => Rc (fst x) (fst y) (fst z) /\ Rc (snd x) (snd y) (snd z))
        (outer_values v ix ixi i lo hi) (outer_values w ix ixi i lo hi) (outer_values u ix ixi i lo hi).
    Proof.
      intro H. unfold outer_values.
      assert (T : forall x y z x' y' z', Rc x y z -> Rc x' y' z' ->
        rel3 Rc (Ok (fsub (fmul (fc 2) x) x')) (Ok (fsub (fmul (fc 2) y) y')) (Ok (fsub (fmul (fc 2) z) z'))).
      { intros x y z x' y' z' Hx Hx'. constructor. unfold Rc in *. opts. rewrite Hx, Hx'. ring. }
      eapply rel3_bind with (R := Rc).
      { destruct (i =? lo); [|now apply get23]. eapply rel3_bind; [apply get23; eassumption|]. intros x y z Hx.
        eapply rel3_bind; [apply get23; eassumption|]. intros x' y' z' Hx'. now apply T. }
      intros x y z Hx. eapply rel3_bind with (R := Rc).
      { destruct (i =? hi - 1); [|now apply get23]. eapply rel3_bind; [apply get23; eassumption|]. intros x1 y1 z1 Hx1.
        eapply rel3_bind; [apply get23; eassumption|]. intros x' y' z' Hx'. now apply T. }
      intros x' y' z' Hx'. constructor. now split.
    Qed.
    Lemma mu3 d0 d0' d0'' d1 d1' d1'' : Rd d0 d0' d0'' -> Rd d1 d1' d1'' ->
      rel3 (fun x y z => x = y /\ feq z x) (fdiv d0 (fadd d0 d1)) (fdiv d0' (fadd d0' d1')) (fdiv d0'' (fadd d0'' d1'')).
    Proof.
      intros D0 D1. assert (DD := Rd_add _ _ _ _ _ _ D0 D1). assert (E := Rd_eq0 _ _ _ DD). destruct DD as [_ DD].
      destruct D0 as [<- D0], D1 as [<- D1]. unfold fdiv. destruct (fadd d0 d1) as [s|] eqn:Es, (fadd d0'' d1'') as [s'|] eqn:Es'; try tauto.
      - rewrite E. destruct (Qeq_bool s 0) eqn:Z0; constructor. split; auto. assert (NZ : ~ (s == 0)%Q) by (intro X; apply Qeq_bool_iff in X; congruence).
        cbn in DD. destruct d0 as [p|], d0'' as [q|]; cbn in *; try tauto; try discriminate. rewrite D0, DD. field. split; [exact NZ|].
        intro X. rewrite X in c_pos. discriminate.
      - constructor. split; auto.
    Qed.
    Definition Rpoly (poly : fl -> fl -> fl -> fl -> fl -> fl) : Prop := forall mu mu'' x0 y0 z0 x1 y1 z1 x2 y2 z2 x3 y3 z3,
      feq mu'' mu -> Rc x0 y0 z0 -> Rc x1 y1 z1 -> Rc x2 y2 z2 -> Rc x3 y3 z3 ->
      Rc (poly mu x0 x1 x2 x3) (poly mu y0 y1 y2 y3) (poly mu'' z0 z1 z2 z3).
    Lemma cubic_poly : Rpoly cubic_formula.
    Proof.
      intros mu mu'' x0 y0 z0 x1 y1 z1 x2 y2 z2 x3 y3 z3 Hm H0 H1 H2 H3. unfold Rc, cubic_formula, fcub, fsq in *.
      destruct mu as [m|], mu'' as [m''|]; cbn in Hm; try tauto; try (opts; fail).
      destruct x0 as [x0|], y0 as [y0|], z0 as [z0|]; cbn in H0; try tauto; try (opts; fail).
      destruct x1 as [x1|], y1 as [y1|], z1 as [z1|]; cbn in H1; try tauto; try (opts; fail).
      destruct x2 as [x2|], y2 as [y2|], z2 as [z2|]; cbn in H2; try tauto; try (opts; fail).
      destruct x3 as [x3|], y3 as [y3|], z3 as [z3|]; cbn in H3; try tauto; try (opts; fail).
      cbn. rewrite Hm, H0, H1, H2, H3. ring.
    Qed.
    Lemma hermit_poly bias tension : Rpoly (hermit_formula bias tension).
    Proof.
      intros mu mu'' x0 y0 z0 x1 y1 z1 x2 y2 z2 x3 y3 z3 Hm H0 H1 H2 H3. unfold Rc, hermit_formula, fcub, fsq in *.
      destruct bias as [bi|]; [|destruct mu, mu'', x0, y0, z0, x1, y1, z1; cbn in *; tauto].
      destruct tension as [te|]; [|destruct mu, mu'', x0, y0, z0, x1, y1, z1; cbn in *; tauto].
      destruct mu as [m|], mu'' as [m''|]; cbn in Hm; try tauto; try (cbn; exact Logic.I).
      destruct x0 as [x0|], y0 as [y0|], z0 as [z0|]; cbn in H0; try tauto; try (opts; fail).
      destruct x1 as [x1|], y1 as [y1|], z1 as [z1|]; cbn in H1; try tauto; try (opts; fail).
      destruct x2 as [x2|], y2 as [y2|], z2 as [z2|]; cbn in H2; try tauto; try (opts; fail).
      destruct x3 as [x3|], y3 as [y3|], z3 as [z3|]; cbn in H3; try tauto; try (opts; fail).
      cbn. rewrite Hm, H0, H1, H2, H3. ring.
    Qed.
    Lemma poly_step3 poly v v' v'' ix ixi lo hi yi yi' yi'' yo yo' yo'' : Rpoly poly ->
      Forall3 (Forall3 Rc) v v' v'' -> Forall3 Ry yi yi' yi'' -> Forall3 Ry yo yo' yo'' ->
      Rstep Rc (poly_step poly v ix ixi lo hi yi yo) (poly_step poly v' ix ixi lo hi yi' yo') (poly_step poly v'' ix ixi lo hi yi'' yo'').
    Proof.
      intros Hp Hv Hi Ho i j [z o] [z' o'] [z'' o''] (E1 & E2 & Hs). cbn [fst snd] in *. subst z' z''. unfold poly_step.
      eapply relc_bind; [apply pyget3; eassumption|]. intros y y' y'' Hy. eapply relc_bind; [apply pyget3; eassumption|]. intros y0 y0' y0'' Hy0.
      eapply relc_bind; [apply pyget3; eassumption|]. intros y1 y1' y1'' Hy1.
      assert (D0 := Ry_sub _ _ _ _ _ _ Hy Hy0). assert (D1 := Ry_sub _ _ _ _ _ _ Hy1 Hy).
      destruct (Rd_ltb _ _ _ _ _ _ D1 Rd_0) as [-> ->]. destruct (fltb (fsub y1 y) f0); [now constructor|].
      destruct (Rd_leb _ _ _ _ _ _ Rd_0 D0) as [-> ->], (Rd_leb _ _ _ _ _ _ Rd_0 D1) as [-> ->].
      destruct (fleb f0 (fsub y y0) && fleb f0 (fsub y1 y))%bool; [|now constructor].
      eapply relc_bind; [apply mu3; eassumption|]. intros m m' m'' [<- Hm].
      eapply relc_bind; [apply outer3; eassumption|]. intros p p' p'' [Hp1 Hp2].
      eapply relc_bind; [apply get23; eassumption|]. intros v0 w0 u0 H0. eapply relc_bind; [apply get23; eassumption|]. intros v1 w1 u1 H1.
      eapply relc_bind; [apply pyset3; [eassumption|apply Hp; eassumption]|]. intros q q' q'' Hq.
      constructor; repeat split; auto.
    Qed.
    Lemma poly3 poly v v' v'' yi yi' yi'' yo yo' yo'' order : Rpoly poly ->
      Forall3 (Forall3 Rc) v v' v'' -> Forall3 (Forall3 Ry) yi yi' yi'' -> Forall3 (Forall3 Ry) yo yo' yo'' ->
      rel3 (Forall3 (Forall3 Rc)) (rows_kernel (fun ix ixi => poly_row poly v ix ixi) v yi yo order)
        (rows_kernel (fun ix ixi => poly_row poly v' ix ixi) v' yi' yo' order) (rows_kernel (fun ix ixi => poly_row poly v'' ix ixi) v'' yi'' yo'' order).
    Proof.
      intros Hp Hv Hi Ho. eapply rows3; eauto; [exact Logic.I|]. intros ix ixi ri ri' ri'' ro ro' ro'' o o' o'' Hri Hro Hoo.
      unfold poly_row. destruct (F3_len _ _ _ _ Hro) as [E1 E2]. rewrite <- E2, <- E1.
      apply (row3 Rc (fun lo hi => poly_step poly v ix ixi lo hi ri ro) (fun lo hi => poly_step poly v' ix ixi lo hi ri' ro')
               (fun lo hi => poly_step poly v'' ix ixi lo hi ri'' ro'')
               ri ri' ri'' ro ro' ro'' (fun _ => Z.of_nat (List.length ro))); auto. intros lo hi. now apply poly_step3.
    Qed.
  End comb.
End units.
