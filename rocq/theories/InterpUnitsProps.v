(** C87: changing units or combining data commutes with the interpolation *)
From Verif Require Import InterpUnits.
Open Scope Q_scope.
Open Scope list_scope.

(** ** From the specification to the simulation, and back *)
Lemma rescale_rel c d y : Forall3 (Forall3 (Ry c d)) y y (rescale_all c d y).
Proof.
  induction y as [|r y IH]; cbn; constructor; auto. induction r as [|x r IHr]; cbn; constructor; auto.
  split; auto. destruct x; cbn; auto. reflexivity.
Qed.
Lemma lincomb_row a b g r s : List.length r = List.length s -> Forall3 (Rc a b g) r s (map2 (lincomb a b g) r s).
Proof.
  revert s. induction r as [|x r IHr]; intros [|y s] E; try discriminate; cbn; constructor; auto.
  unfold Rc. destruct (lincomb a b g x y); cbn; auto. reflexivity.
Qed.
Lemma lincomb_rel a b g v : forall w, same_shape v w -> Forall3 (Forall3 (Rc a b g)) v w (lincomb_all a b g v w).
Proof.
  induction v as [|r v IH]; intros [|s w] H; try discriminate; unfold lincomb_all; cbn; constructor.
  - injection H as E _. now apply lincomb_row.
  - injection H as _ H. now apply IH.
Qed.
Lemma row_back a b g r s t : Forall3 (Rc a b g) r s t -> feql t (map2 (lincomb a b g) r s).
Proof. induction 1; cbn; auto. Qed.
Lemma back a b g r1 r2 r3 : rel3 (Forall3 (Forall3 (Rc a b g))) r1 r2 r3 -> combines (lincomb_all a b g) r1 r2 r3.
Proof.
  intros [v w u H|e]; cbn; auto. unfold same_shape, same_values, lincomb_all. induction H as [|r s t v w u Hr H [IH1 IH2]]; cbn; [auto|].
  split; [f_equal; auto; now destruct (F3_len _ _ _ _ Hr)|]. constructor; auto. now apply row_back.
Qed.
Lemma same_shape_refl v : same_shape v v. Proof. reflexivity. Qed.

(** ** Theorems *)
(** Interpolating a combination of two arrays, in any units of the coordinates, gives the
    combination of the two interpolated arrays.  This holds for linear1d, cubic1d and hermit1d,
    for all coordinates (NaNs, not sorted...), all shapes and all schedules of the rows. *)
Theorem C87_linear a b g c d v w yi yo order : 0 < c -> same_shape v w ->
  combines (lincomb_all a b g) (linear1d_sched v yi yo order) (linear1d_sched w yi yo order)
    (linear1d_sched (lincomb_all a b g v w) (rescale_all c d yi) (rescale_all c d yo) order).
Proof. intros C S. apply back. apply linear3 with c d; auto using rescale_rel, lincomb_rel. Qed.
Theorem C87_cubic a b g c d v w yi yo order : 0 < c -> same_shape v w ->
  combines (lincomb_all a b g) (cubic1d_sched v yi yo order) (cubic1d_sched w yi yo order)
    (cubic1d_sched (lincomb_all a b g v w) (rescale_all c d yi) (rescale_all c d yo) order).
Proof. intros C S. apply back. exact (poly3 c d C a b g cubic_formula _ _ _ _ _ _ _ _ _ order (cubic_poly a b g) (lincomb_rel a b g v w S) (rescale_rel c d yi) (rescale_rel c d yo)). Qed.
Theorem C87_hermit bias tension a b g c d v w yi yo order : 0 < c -> same_shape v w ->
  combines (lincomb_all a b g) (hermit1d_sched bias tension v yi yo order) (hermit1d_sched bias tension w yi yo order)
    (hermit1d_sched bias tension (lincomb_all a b g v w) (rescale_all c d yi) (rescale_all c d yo) order).
Proof. intros C S. apply back. exact (poly3 c d C a b g (hermit_formula bias tension) _ _ _ _ _ _ _ _ _ order (hermit_poly a b g bias tension) (lincomb_rel a b g v w S) (rescale_rel c d yi) (rescale_rel c d yo)). Qed.
(** nearest1d commutes with any function applied to the values *)
Theorem C87_nearest (f : fl -> fl) c d v yi yo order : 0 < c -> f nan = nan ->
  nearest1d_sched (map (map f) v) (rescale_all c d yi) (rescale_all c d yo) order =
  let* r := nearest1d_sched v yi yo order in Ok (map (map f) r).
Proof.
  intros C F. pose (R := fun x y z : fl => x = y /\ z = f x).
  assert (Hv : Forall3 (Forall3 R) v v (map (map f) v)).
  { induction v as [|r v IH]; cbn; constructor; auto. induction r as [|x r IHr]; cbn; constructor; auto. now split. }
  assert (H := nearest3 c d C R v v (map (map f) v) yi yi (rescale_all c d yi) yo yo (rescale_all c d yo) order
                 (conj eq_refl (eq_sym F)) Hv (rescale_rel _ _ _) (rescale_rel _ _ _)).
  inversion H as [r r' r'' Hr E1 E2 E3|e E1 E2 E3]; cbn; auto. f_equal. clear - Hr.
  induction Hr as [|x y z l m n Hx H IH]; cbn; auto. rewrite IH. f_equal.
  induction Hx as [|? ? ? ? ? ? [Ex ->] _ IHx]; cbn; auto. now rewrite IHx, Ex.
Qed.

(** ** Units of the data *)
Lemma units_row a g r : feql (map2 (lincomb a 0 g) r r) (map (rescale a g) r).
Proof. induction r as [|x r IH]; cbn; auto. split; auto. destruct x as [q|]; cbn; auto. ring. Qed.
Lemma feql_trans_ x : forall y z, feql x y -> feql y z -> feql x z.
Proof.
  induction x as [|a x IH]; intros [|b y] [|c z] H1 H2; cbn in *; try tauto. destruct H1 as [H1 H1'], H2 as [H2 H2']. split; eauto.
  destruct a, b, c; cbn in *; try tauto. now rewrite H1.
Qed.
Lemma feql_sym_ x : forall y, feql x y -> feql y x.
Proof. induction x as [|a x IH]; intros [|b y] H; cbn in *; try tauto. destruct H. split; auto. destruct a, b; cbn in *; auto. now symmetry. Qed.
Lemma same_values_trans u v w : same_values u v -> same_values v w -> same_values u w.
Proof.
  intro H. revert w. induction H as [|x y u v Hx H IH]; intros w Hw; inversion Hw; subst; constructor; [eapply feql_trans_; eassumption|apply IH; assumption].
Qed.
(** Data in other units ([a x + g], for instance kelvins), coordinates in other units (for
    instance kilometers): the same interpolated values in the new units. *)
Lemma units_of (K : arr -> arr -> arr -> list Z -> res arr) a g c d v yi yo order :
  (forall v', same_values v' (rescale_all a g v) -> 
     combines (lincomb_all a 0 g) (K v yi yo order) (K v yi yo order) (K v' (rescale_all c d yi) (rescale_all c d yo) order)) ->
  follows (rescale_all a g) (K v yi yo order) (K (rescale_all a g v) (rescale_all c d yi) (rescale_all c d yo) order).
Proof.
  intro H. specialize (H (rescale_all a g v)). assert (X : same_values (rescale_all a g v) (rescale_all a g v)).
  { clear. unfold same_values. induction v as [|r v IH]; cbn; constructor; auto. induction r as [|x r IHr]; cbn; auto. split; auto. destruct x; cbn; auto. reflexivity. }
  specialize (H X). unfold combines, follows in *. destruct (K v yi yo order) as [r|e], (K (rescale_all a g v) _ _ order) as [r'|e']; try tauto.
  destruct H as [_ H]. eapply same_values_trans; [exact H|]. clear. unfold same_values, lincomb_all.
  induction r as [|x r IH]; cbn; constructor; auto. apply units_row.
Qed.
Lemma units_rel a g v v' : same_values v' (rescale_all a g v) -> Forall3 (Forall3 (Rc a 0 g)) v v v'.
Proof.
  revert v'. induction v as [|r v IH]; intros v' H; inversion H as [|r' s v0 w0 Hr Hv]; subst; constructor; [|now apply IH].
  clear - Hr. revert r' Hr. induction r as [|x r IHr]; intros [|x' r'] H; cbn in *; try tauto; constructor; [|now apply IHr].
  destruct H as [H _]. unfold Rc. destruct x, x'; cbn in *; try tauto. rewrite H. ring.
Qed.
Theorem C87_units a g c d v yi yo order : 0 < c ->
  follows (rescale_all a g) (linear1d_sched v yi yo order) (linear1d_sched (rescale_all a g v) (rescale_all c d yi) (rescale_all c d yo) order) /\
  follows (rescale_all a g) (cubic1d_sched v yi yo order) (cubic1d_sched (rescale_all a g v) (rescale_all c d yi) (rescale_all c d yo) order) /\
  forall bias tension,
  follows (rescale_all a g) (hermit1d_sched bias tension v yi yo order)
    (hermit1d_sched bias tension (rescale_all a g v) (rescale_all c d yi) (rescale_all c d yo) order).
Proof.
  intro C. split; [|split; [|intros bias tension]].
  - apply (units_of linear1d_sched). intros v' H. apply back. apply linear3 with c d; auto using rescale_rel, units_rel.
  - apply (units_of cubic1d_sched). intros v' H. apply back. exact (poly3 c d C a 0 g cubic_formula _ _ _ _ _ _ _ _ _ order (cubic_poly a 0 g) (units_rel a g v v' H) (rescale_rel c d yi) (rescale_rel c d yo)).
  - apply (units_of (hermit1d_sched bias tension)). intros v' H. apply back. exact (poly3 c d C a 0 g (hermit_formula bias tension) _ _ _ _ _ _ _ _ _ order (hermit_poly a 0 g bias tension) (units_rel a g v v' H) (rescale_rel c d yi) (rescale_rel c d yo)).
Qed.

(** ** Extrapolation commutes with any function that keeps the NaNs *)
Lemma pyget_map {A B} (f : A -> B) l i : pyget (map f l) i = let* x := pyget l i in Ok (f x).
Proof. unfold pyget. rewrite map_length. destruct (pyidx (List.length l) i) as [k|]; auto. rewrite nth_error_map. now destruct (nth_error l k). Qed.
Lemma repeat_map_ {A B} (f : A -> B) x n : List.repeat (f x) n = map f (List.repeat x n).
Proof. induction n; cbn; congruence. Qed.
Theorem C87_extrap (f : fl -> fl) v mode : (forall x, isnan (f x) = isnan x) ->
  extrap1d (map (map f) v) mode = let* r := extrap1d v mode in Ok (map (map f) r).
Proof.
  intro F. unfold extrap1d. destruct (String.eqb mode "no"); [reflexivity|].
  induction v as [|r v IH]; [reflexivity|]. cbn [map map_res]. rewrite IH.
  assert (E : extrap_row mode (map f r) = let* r' := extrap_row mode r in Ok (map f r')).
  { unfold extrap_row. rewrite <- (isnan_iminmax r (map f r)).
    2: { rewrite map_map. apply map_ext. intro. now rewrite F. }
    destruct (get_iminmax r) as [[lo hi]|e]; [|reflexivity]. cbn [bind]. destruct (lo =? -1)%Z; [reflexivity|].
    assert (G1 : forall r lo, (let* x := pyget (map f r) lo in Ok (fill_before (map f r) lo x)) =
                     let* r' := (let* x := pyget r lo in Ok (fill_before r lo x)) in Ok (map f r')).
    { clear. intros r lo. rewrite pyget_map. destruct (pyget r lo); [|reflexivity]. cbn. f_equal. unfold fill_before.
      rewrite map_length, map_app, <- repeat_map_. f_equal. apply skipn_map. }
    assert (G2 : forall r lo, (let* x := pyget (map f r) lo in Ok (fill_from (map f r) (lo + 1)%Z x)) =
                     let* r' := (let* x := pyget r lo in Ok (fill_from r (lo + 1)%Z x)) in Ok (map f r')).
    { clear. intros r lo. rewrite pyget_map. destruct (pyget r lo); [|reflexivity]. cbn. f_equal. unfold fill_from.
      rewrite map_length, map_app, <- repeat_map_. f_equal. apply firstn_map. }
    destruct (String.eqb mode "both" || String.eqb mode "bottom")%bool.
    - rewrite G1. destruct (let* x := pyget r lo in Ok (fill_before r lo x)) as [r'|e]; [|reflexivity]. cbn [bind].
      destruct (String.eqb mode "both" || String.eqb mode "top")%bool; [apply G2|reflexivity].
    - cbn [bind]. destruct (String.eqb mode "both" || String.eqb mode "top")%bool; [apply G2|reflexivity]. }
  rewrite E. destruct (extrap_row mode r) as [r'|e]; [|reflexivity]. cbn [bind]. now destruct (map_res (extrap_row mode) v).
Qed.
(** Scales must be positive: turning a vertical axis upside down does not commute. *)
Theorem C87_reversed_refuted : exists v yi yo r r', linear1d v yi yo = Ok r /\
  linear1d v (rescale_all (-(1)) 0 yi) (rescale_all (-(1)) 0 yo) = Ok r' /\ ~ same_values r' r.
Proof.
  exists [[Some 10; Some 20]], [[Some 0; Some 1]], [[Some (1#2)]]. eexists _, _.
  split; [|split].
  - vm_compute. reflexivity.
  - vm_compute. reflexivity.
  - intro H. inversion H as [|? ? ? ? X]; subst. destruct X as [X _]. exact X.
Qed.
(** Non-trivial case: two cells, a NaN, meters to kilometers and Celsius to kelvins *)
Example C87_case :
  (exists r, linear1d [[Some 10; Some 20; None]] [[Some 0; Some 1000; Some 2000]] [[Some 500; Some 1500]] = Ok r /\
    same_values r [[Some 15; None]]) /\
  exists r, linear1d (rescale_all 1 (5463 # 20) [[Some 10; Some 20; None]]) (rescale_all (1 # 1000) 0 [[Some 0; Some 1000; Some 2000]])
      (rescale_all (1 # 1000) 0 [[Some 500; Some 1500]]) = Ok r /\ same_values r [[Some (5763 # 20); None]].
Proof.
  split; eexists; (split; [vm_compute; reflexivity|]); repeat constructor.
Qed.
Print Assumptions C87_linear.
Print Assumptions C87_hermit.
Print Assumptions C87_nearest.
Print Assumptions C87_units.
Print Assumptions C87_extrap.
