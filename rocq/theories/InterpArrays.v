(** Array-level results: rows, schedules, memory safety. *)
From Verif Require Export InterpRows2.
From Coq Require Export Permutation.
Open Scope nat_scope.

Lemma row_index_ok n ix : 0 < n ->
  row_index (Z.of_nat n) (Z.of_nat ix) = Ok (Z.of_nat (ix mod n)).
Proof.
  intro H. unfold row_index.
  destruct (Z.eqb_spec (Z.of_nat n) 0); [lia|].
  f_equal. rewrite Nat2Z.inj_mod.
  pose proof (Z.mod_pos_bound (Z.of_nat ix) (Z.of_nat n)). lia.
Qed.

Lemma shape_row a n m i r : shape a n m -> nth_error a i = Some r -> List.length r = m.
Proof.
  intros [_ Hf] Hr. rewrite Forall_forall in Hf. apply Hf. eapply nth_error_In; eauto.
Qed.

Lemma shape_get a n m i : shape a n m -> i < n -> exists r, nth_error a i = Some r.
Proof.
  intros [Hl _] Hi. destruct (nth_error a i) eqn:E; eauto.
  apply nth_error_None in E. lia.
Qed.

Lemma shape_ncols a n m : shape a n m -> 0 < n -> ncols a = Z.of_nat m.
Proof.
  intros [Hl Hf] Hn. destruct a as [|r a]; simpl in *; [lia|].
  inversion Hf; subst. reflexivity.
Qed.

Lemma nrows_shape a n m : shape a n m -> nrows a = Z.of_nat n.
Proof. intros [Hl _]. unfold nrows. now rewrite Hl. Qed.

Lemma nth_error_full2 n m x i :
  i < n -> nth_error (full2 (Z.of_nat n) (Z.of_nat m) x) i = Some (List.repeat x m).
Proof. intro H. unfold full2. rewrite !Nat2Z.id. now apply nth_error_repeat. Qed.

Lemma length_full2 n m x : List.length (full2 (Z.of_nat n) (Z.of_nat m) x) = n.
Proof. unfold full2. rewrite !Nat2Z.id. apply repeat_length. Qed.

Lemma seq_order_nat vari yo : seq_order vari yo =
  map Z.of_nat (seq 0 (Nat.max (List.length vari) (List.length yo))).
Proof.
  unfold seq_order, nrows.
  replace (Z.max (Z.of_nat (List.length vari)) (Z.of_nat (List.length yo)))
    with (Z.of_nat (Nat.max (List.length vari) (List.length yo))) by lia.
  change 0%Z with (Z.of_nat 0). rewrite pyrange_nat. now rewrite Nat.sub_0_r.
Qed.

(** Sequential run: every row satisfies what the row kernel guarantees. *)
Lemma rows_kernel_ok row vari yi yo nxi nxiy nxo nyi nyo
    (P : nat -> list fl -> Prop) :
  shape vari nxi nyi -> shape yi nxiy nyi -> shape yo nxo nyo ->
  0 < nxi -> 0 < nxiy -> 0 < nxo ->
  (forall ix ryi ryo, ix < Nat.max nxi nxo ->
     nth_error yi (ix mod nxiy) = Some ryi -> nth_error yo (ix mod nxo) = Some ryo ->
     exists r, row (Z.of_nat ix) (Z.of_nat (ix mod nxi)) ryi ryo (List.repeat nan nyo) = Ok r
               /\ List.length r = nyo /\ P ix r) ->
  exists out, rows_kernel row vari yi yo (seq_order vari yo) = Ok out /\
    shape out (Nat.max nxi nxo) nyo /\
    forall ix r, nth_error out ix = Some r -> P ix r.
Proof.
  intros Hv Hyi Hyo Hnxi Hnxiy Hnxo Hrow.
  set (nx := Nat.max nxi nxo) in *.
  unfold rows_kernel. rewrite (shape_ncols yo nxo nyo) by auto.
  rewrite (nrows_shape _ _ _ Hv), (nrows_shape _ _ _ Hyi), (nrows_shape _ _ _ Hyo).
  replace (Z.max (Z.of_nat nxi) (Z.of_nat nxo)) with (Z.of_nat nx) by lia.
  assert (Eo : seq_order vari yo = map Z.of_nat (seq 0 nx)).
  { rewrite seq_order_nat. destruct Hv as [-> _], Hyo as [-> _]. reflexivity. }
  rewrite Eo, for_each_map.
  apply for_each_seq with (I := fun k varo =>
     List.length varo = nx /\
     forall ix, ix < nx ->
       if ix <? k then exists r, nth_error varo ix = Some r /\ List.length r = nyo /\ P ix r
       else nth_error varo ix = Some (List.repeat nan nyo)).
  - split; [apply length_full2|]. intros ix Hix. now apply nth_error_full2.
  - intros k varo Hk [Hl Hinv].
    rewrite !row_index_ok by auto. cbn [bindc].
    destruct (shape_get yi nxiy nyi (k mod nxiy)) as [ryi Eyi]; auto.
    { apply Nat.mod_upper_bound; lia. }
    destruct (shape_get yo nxo nyo (k mod nxo)) as [ryo Eyo]; auto.
    { apply Nat.mod_upper_bound; lia. }
    rewrite (pyget_nat yi _ _ Eyi), (pyget_nat yo _ _ Eyo). cbn [bindc].
    pose proof (Hinv k ltac:(lia)) as Hk0. rewrite Nat.ltb_irrefl in Hk0.
    rewrite (pyget_nat varo _ _ Hk0). cbn [bindc].
    destruct (Hrow k ryi ryo ltac:(lia) Eyi Eyo) as (r & Er & Hlr & HPr).
    rewrite Er. cbn [bindc]. rewrite pyset_nat by lia. cbn [next_of].
    split; [now rewrite upd_length|].
    intros ix Hix. rewrite nth_error_upd by lia.
    destruct (Nat.eqb_spec ix k) as [->|Hne].
    + replace (k <? 1 + k) with true by (symmetry; apply Nat.ltb_lt; lia). eauto.
    + replace (ix <? 1 + k) with (ix <? k)
        by (destruct (Nat.ltb_spec ix k), (Nat.ltb_spec ix (1 + k)); auto; lia).
      now apply Hinv.
  - intros out [Hl Hinv]. rewrite Nat.add_0_l in Hinv.
    assert (Hall : forall ix r, nth_error out ix = Some r -> List.length r = nyo /\ P ix r).
    { intros ix r Hr. assert (Hix : ix < nx).
      { rewrite <- Hl. apply nth_error_Some. congruence. }
      specialize (Hinv ix Hix). replace (ix <? nx) with true in Hinv
        by (symmetry; now apply Nat.ltb_lt).
      destruct Hinv as (r' & Hr' & H). rewrite Hr in Hr'. inversion Hr'; subst. auto. }
    split.
    + split; [exact Hl|]. apply Forall_forall. intros r Hin.
      apply In_nth_error in Hin. destruct Hin as [ix Hix]. now apply Hall in Hix.
    + intros ix r Hr. now apply Hall in Hr.
Qed.

(** ** Schedules *)


Section Perm.
  Context {A S : Type}.
  Variable f : A -> S -> res S.
  Definition bodyf (x : A) (s : S) : ctl S := next_of (f x s).
  Hypothesis Hcomm : forall x y s, x <> y ->
    same_ok (let* s1 := f x s in f y s1) (let* s1 := f y s in f x s1).
  Hypothesis Adec : forall x y : A, {x = y} + {x <> y}.

  Lemma for_each_cons_f x l s :
    for_each (x :: l) bodyf s = let* s1 := f x s in for_each l bodyf s1.
  Proof. simpl. unfold bodyf at 1. destruct (f x s); reflexivity. Qed.

  Lemma for_each_perm l1 l2 : Permutation l1 l2 ->
    forall s, same_ok (for_each l1 bodyf s) (for_each l2 bodyf s).
  Proof.
    induction 1 as [|x l1 l2 HP IH|x y l|l1 l2 l3 HP1 IH1 HP2 IH2]; intros s r.
    - tauto.
    - rewrite !for_each_cons_f. destruct (f x s); simpl; [apply IH|tauto].
    - rewrite !for_each_cons_f.
      destruct (Adec x y) as [->|Hne]; [tauto|].
      pose proof (Hcomm y x s (not_eq_sym Hne)) as Hc.
      assert (E : forall x y, (let* s1 := f x s in for_each (y :: l) bodyf s1)
              = let* s2 := (let* s1 := f x s in f y s1) in for_each l bodyf s2).
      { intros a b. destruct (f a s) as [s1|]; simpl; auto.
        unfold bodyf at 1. destruct (f b s1); reflexivity. }
      rewrite !E. unfold same_ok in Hc.
      destruct (let* s1 := f y s in f x s1) as [s2|e2] eqn:E2.
      + pose proof (proj1 (Hc s2) eq_refl) as H'. rewrite H'. tauto.
      + destruct (let* s1 := f x s in f y s1) as [s3|e3] eqn:E3.
        * pose proof (proj2 (Hc s3) eq_refl). discriminate.
        * simpl. split; discriminate.
    - rewrite (IH1 s r). apply IH2.
  Qed.
End Perm.

(** Update of one row by a function of this row only *)
Definition row_update (h : Z -> list fl -> res (list fl)) (x : Z) (s : arr) : res arr :=
  let* r := pyget s x in let* r' := h x r in pyset s x r'.

Lemma row_update_inv h x s t : row_update h x s = Ok t ->
  exists k r r', pyidx (List.length s) x = Some k /\ nth_error s k = Some r /\
    h x r = Ok r' /\ t = upd s k r'.
Proof.
  unfold row_update, pyget, pyset.
  destruct (pyidx (List.length s) x) as [k|] eqn:Ek; [|discriminate].
  destruct (nth_error s k) as [r|] eqn:Er; [|discriminate]. cbn [bind].
  destruct (h x r) as [r'|] eqn:Eh; [|discriminate]. cbn [bind].
  intro H; inversion H; subst. exists k, r, r'. auto.
Qed.

Lemma row_update_comm1 h x y s t : (0 <= x)%Z -> (0 <= y)%Z -> x <> y ->
  (let* s1 := row_update h x s in row_update h y s1) = Ok t ->
  (let* s1 := row_update h y s in row_update h x s1) = Ok t.
Proof.
  intros Hx Hy Hne H.
  destruct (row_update h x s) as [s1|] eqn:E1; [|discriminate]. cbn [bind] in H.
  apply row_update_inv in E1. destruct E1 as (k & r & r' & Ek & Er & Eh & ->).
  apply row_update_inv in H. destruct H as (k2 & r2 & r2' & Ek2 & Er2 & Eh2 & ->).
  rewrite upd_length in Ek2.
  assert (Hk : k <> k2).
  { pose proof (pyidx_lt _ _ _ Ek). pose proof (pyidx_lt _ _ _ Ek2).
    unfold pyidx in Ek, Ek2.
    destruct ((0 <=? x) && (x <? Z.of_nat (List.length s)))%Z eqn:B1.
    2:{ destruct ((- Z.of_nat (List.length s) <=? x) && (x <? 0))%Z eqn:B2; [lia|discriminate]. }
    destruct ((0 <=? y) && (y <? Z.of_nat (List.length s)))%Z eqn:B3.
    2:{ destruct ((- Z.of_nat (List.length s) <=? y) && (y <? 0))%Z eqn:B4; [lia|discriminate]. }
    inversion Ek; inversion Ek2; subst. lia. }
  rewrite nth_error_upd_neq in Er2 by auto.
  assert (H1 : row_update h y s = Ok (upd s k2 r2')).
  { unfold row_update, pyget, pyset. rewrite Ek2, Er2. cbn [bind]. rewrite Eh2. reflexivity. }
  rewrite H1. cbn [bind].
  unfold row_update, pyget, pyset. rewrite upd_length, Ek.
  rewrite nth_error_upd_neq by auto. rewrite Er. cbn [bind]. rewrite Eh. cbn [bind].
  now rewrite (upd_comm s k2 k) by auto.
Qed.

Lemma for_each_ext_ok {A S} l (b1 b2 : A -> S -> ctl S) s :
  (forall x s', In x l -> b1 x s' = b2 x s') -> for_each l b1 s = for_each l b2 s.
Proof. apply for_each_ext. Qed.

(** Guarded update, so that commutation holds for all indices. *)
Lemma rows_kernel_perm row vari yi yo order :
  Permutation order (seq_order vari yo) ->
  same_ok (rows_kernel row vari yi yo order)
          (rows_kernel row vari yi yo (seq_order vari yo)).
Proof.
  intro HP. unfold rows_kernel.
  set (h := fun (ix : Z) (ro : list fl) =>
     let* ixi := row_index (nrows vari) ix in
     let* ixiy := row_index (nrows yi) ix in
     let* ixoy := row_index (nrows yo) ix in
     let* ryi := pyget yi ixiy in
     let* ryo := pyget yo ixoy in
     row ix ixi ryi ryo ro).
  match goal with |- same_ok (for_each _ ?b _) _ => set (body := b) end.
  set (g := fun ix s => if (ix <? 0)%Z then Raise IndexError else row_update h ix s).
  assert (Hpos : forall x, In x (seq_order vari yo) -> (0 <= x)%Z).
  { intros x Hx. unfold seq_order in Hx. apply in_pyrange in Hx. lia. }
  assert (Hb : forall l s, (forall x, In x l -> (0 <= x)%Z) ->
                same_ok (for_each l body s) (for_each l (bodyf g) s)).
  { induction l as [|x l IH]; intros s Hl r; [tauto|].
    rewrite for_each_cons_f. cbn [for_each].
    unfold g at 1. replace (x <? 0)%Z with false by (specialize (Hl x (or_introl eq_refl)); lia).
    assert (Hstep : forall s', body x s = Next s' <-> row_update h x s = Ok s').
    { intro s'. unfold body, row_update, h.
      destruct (row_index (nrows vari) x); simpl;
        [|destruct (pyget s x); simpl; split; discriminate].
      destruct (row_index (nrows yi) x); simpl;
        [|destruct (pyget s x); simpl; split; discriminate].
      destruct (row_index (nrows yo) x); simpl;
        [|destruct (pyget s x); simpl; split; discriminate].
      destruct (pyget yi a0); simpl;
        [|destruct (pyget s x); simpl; split; discriminate].
      destruct (pyget yo a1); simpl;
        [|destruct (pyget s x); simpl; split; discriminate].
      destruct (pyget s x); simpl; [|split; discriminate].
      destruct (row x a a2 a3 a4); simpl; [|split; discriminate].
      unfold pyset. destruct (pyidx (List.length s) x); simpl; split; congruence. }
    assert (Hnb : forall s', body x s <> Break s').
    { intros s' H. unfold body in H.
      repeat match type of H with
      | bindc ?e _ = _ => destruct e; simpl in H; [|discriminate]
      end.
      destruct (pyset s x _); discriminate. }
    destruct (body x s) as [s'|s'|e] eqn:E.
    - rewrite (proj1 (Hstep s') eq_refl). cbn [bind]. apply IH.
      intros z Hz. apply Hl. now right.
    - exfalso. now apply (Hnb s').
    - destruct (row_update h x s) as [s'|] eqn:E2.
      + pose proof (proj2 (Hstep s') eq_refl). discriminate.
      + simpl. split; discriminate. }
  intro r.
  rewrite (Hb order _ (fun x Hx => Hpos x (Permutation_in _ HP Hx)) r).
  rewrite (Hb (seq_order vari yo) _ Hpos r).
  apply for_each_perm; auto.
  - intros x y s Hne t. unfold g.
    destruct (Z.ltb_spec x 0) as [Hx|Hx], (Z.ltb_spec y 0) as [Hy|Hy]; simpl.
    + tauto.
    + destruct (row_update h y s); simpl; split; discriminate.
    + destruct (row_update h x s); simpl; split; discriminate.
    + split; apply row_update_comm1; auto.
  - apply Z.eq_dec.
Qed.

(** ** Memory safety *)

Lemma for_each_safe {A S} (l : list A) (body : A -> S -> ctl S) (I : S -> Prop) s e0 :
  I s ->
  (forall x s', In x l -> I s' ->
     match body x s' with Next s2 => I s2 | Break s2 => I s2 | Fail e => e <> e0 end) ->
  for_each l body s <> Raise e0 /\ (forall r, for_each l body s = Ok r -> I r).
Proof.
  revert s; induction l as [|x l IH]; simpl; intros s Hs Hb.
  - split; [discriminate|]. intros r Hr. inversion Hr; subst; auto.
  - pose proof (Hb x s (or_introl eq_refl) Hs) as H.
    destruct (body x s) as [s2|s2|e].
    + apply IH; [exact H|]. intros y s' Hy Hs'. apply (Hb y s'); [right; exact Hy|exact Hs'].
    + split; [discriminate|]. intros r Hr. inversion Hr; subst; auto.
    + split; [congruence|discriminate].
Qed.

Lemma fdiv_safe x y : fdiv x y <> Raise IndexError.
Proof. unfold fdiv. destruct y as [q|]; [|discriminate]. destruct (Qeq_bool q 0); discriminate. Qed.

Definition scan_inv (n : nat) (jmax : Z) (st : Z * list fl) : Prop :=
  List.length (snd st) = n /\ (-1 <= fst st <= jmax)%Z.

(** What a step must ensure for the scanning loops to be memory safe *)
Definition safe_step (yi yo : list fl) (jmax : Z)
    (step : Z -> Z -> Z * list fl -> ctl (Z * list fl)) : Prop :=
  forall i j st y0 ym, (0 <= i)%Z -> (i + 1 < Z.of_nat (List.length yi))%Z ->
    (-1 <= j <= jmax)%Z ->
    pyget yi i = Ok y0 -> pyget yo jmax = Ok ym -> fltb ym y0 = false ->
    scan_inv (List.length yo) jmax st ->
    match step i j st with
    | Next s2 | Break s2 => scan_inv (List.length yo) jmax s2
    | Fail e => e <> IndexError
    end.

Lemma scan_safe step yi yo imin imax jmin jmax out :
  safe_step yi yo jmax step ->
  (0 <= imin)%Z \/ (imax <= imin)%Z -> (imax < Z.of_nat (List.length yi))%Z ->
  (-1 <= jmin <= jmax)%Z -> (jmax < Z.of_nat (List.length yo))%Z ->
  0 < List.length yo -> List.length out = List.length yo ->
  for_each (pyrange imin imax)
    (interval_step step yi yo jmax (jmax + 1)) (jmin, out) <> Raise IndexError /\
  (forall r, for_each (pyrange imin imax)
    (interval_step step yi yo jmax (jmax + 1)) (jmin, out) = Ok r ->
    scan_inv (List.length yo) jmax r).
Proof.
  intros Hs Hi Him Hj Hjl Hpos Hlo.
  apply for_each_safe with (I := scan_inv (List.length yo) jmax).
  - split; simpl; auto.
  - intros i st Hin Hst. apply in_pyrange in Hin. unfold interval_step.
    destruct (pyget_ok yi (i + 1)) as [y1 Hy1]; [lia|].
    destruct (pyget_ok yi i) as [y0 Hy0]; [lia|].
    destruct Hst as [Hl Hm].
    destruct (pyget_ok yo (fst st)) as [a Ha]; [lia|].
    destruct (pyget_ok yo jmax) as [b Hb]; [lia|].
    rewrite Hy1, Hy0, Ha, Hb. cbn [bindc].
    destruct (fltb y1 a); [split; auto|].
    destruct (fltb b y0) eqn:Eb; [split; auto|].
    destruct (for_each_safe (pyrange (fst st) (jmax + 1)) (step i)
               (scan_inv (List.length yo) jmax) st IndexError) as [H1 H2].
    + split; auto.
    + intros j st' Hj' Hst'. apply in_pyrange in Hj'.
      apply (Hs i j st' y0 b); auto; lia.
    + destruct (for_each (pyrange (fst st) (jmax + 1)) (step i) st) as [s2|e]; simpl.
      * apply H2. reflexivity.
      * congruence.
Qed.

(** [below] at the last output index contradicts the [break] test. *)
Lemma below_last j jmax yo y y0 ym :
  pyget yo j = Ok y -> pyget yo jmax = Ok ym -> fltb ym y0 = false ->
  (-1 <= j <= jmax)%Z -> fltb (fsub y y0) f0 = true -> (j + 1 <= jmax)%Z.
Proof.
  intros Hy Hm Hf Hj Hlt. destruct (Z.eq_dec j jmax) as [->|]; [|lia]. exfalso.
  rewrite Hy in Hm. inversion Hm; subst ym.
  destruct y as [y|], y0 as [y0|]; simpl in *; try discriminate.
  apply Qltb_lt in Hlt. apply Qltb_ge in Hf. lra.
Qed.

Lemma pyset_safe (out : list fl) n j x jmax :
  List.length out = n -> (-1 <= j <= jmax)%Z -> (jmax < Z.of_nat n)%Z -> 0 < n ->
  exists out', pyset out j x = Ok out' /\ List.length out' = n.
Proof. intros <- Hj Hjm Hp. apply pyset_ok. lia. Qed.

Lemma linear_step_safe v yi yo jmax :
  List.length v = List.length yi -> (jmax < Z.of_nat (List.length yo))%Z -> 0 < List.length yo ->
  safe_step yi yo jmax (linear_step v yi yo).
Proof.
  intros Hv Hjm Hp i j [m out] y0 ym Hi1 Hi2 Hj Hy0 Hym Hf [Hl Hm]. simpl in Hl, Hm.
  unfold linear_step.
  destruct (pyget_ok yo j) as [y Hy]; [lia|].
  destruct (pyget_ok yi (i + 1)) as [y1 Hy1]; [lia|].
  rewrite Hy, Hy0, Hy1. cbn [bindc].
  destruct (fltb (fsub y1 y) f0); [split; simpl; auto|].
  destruct (fltb (fsub y y0) f0) eqn:Eb.
  { pose proof (below_last j jmax yo y y0 ym Hy Hym Hf Hj Eb). split; simpl; auto; lia. }
  destruct (fleb f0 (fsub y y0) && fleb f0 (fsub y1 y)); [|split; simpl; auto].
  destruct (pyget_ok v i) as [v0 ->]; [lia|].
  destruct (pyget_ok v (i + 1)) as [v1 ->]; [lia|]. cbn [bindc].
  destruct (fdiv _ _) as [q|e] eqn:Ed; cbn [bindc].
  - destruct (pyset_safe out _ j q jmax Hl Hj Hjm Hp) as (o' & -> & Hl').
    split; simpl; auto.
  - intros ->. now apply fdiv_safe in Ed.
Qed.

Lemma nearest_step_safe v yi yo jmax :
  List.length v = List.length yi -> (jmax < Z.of_nat (List.length yo))%Z -> 0 < List.length yo ->
  safe_step yi yo jmax (nearest_step v yi yo).
Proof.
  intros Hv Hjm Hp i j [m out] y0 ym Hi1 Hi2 Hj Hy0 Hym Hf [Hl Hm]. simpl in Hl, Hm.
  unfold nearest_step.
  destruct (pyget_ok yo j) as [y Hy]; [lia|].
  destruct (pyget_ok yi (i + 1)) as [y1 Hy1]; [lia|].
  rewrite Hy, Hy0, Hy1. cbn [bindc].
  destruct (fltb (fsub y1 y) f0); [split; simpl; auto|].
  destruct (fltb (fsub y y0) f0) eqn:Eb.
  { pose proof (below_last j jmax yo y y0 ym Hy Hym Hf Hj Eb). split; simpl; auto; lia. }
  destruct (pyget_ok v i) as [v0 ->]; [lia|].
  destruct (pyget_ok v (i + 1)) as [v1 ->]; [lia|].
  destruct (fleb (fsub y y0) (fsub y1 y)); cbn [bindc].
  - destruct (pyset_safe out _ j v0 jmax Hl Hj Hjm Hp) as (o' & -> & Hl'). split; simpl; auto.
  - destruct (pyset_safe out _ j v1 jmax Hl Hj Hjm Hp) as (o' & -> & Hl'). split; simpl; auto.
Qed.

Lemma iminmax_range d r : iminmax_ok d r ->
  ((0 <= fst r)%Z \/ (snd r <= fst r)%Z) /\
  (fst r <= snd r < Z.of_nat (List.length d))%Z /\ (-1 <= fst r)%Z.
Proof.
  intros [[-> _]|(a & b & -> & Ha & Hb & Hab)]; simpl.
  - lia.
  - pose proof (valid_lt _ _ Hb). pose proof (Hab a Ha). lia.
Qed.

Definition safe_row (n : nat) (x : res (list fl)) : Prop :=
  x <> Raise IndexError /\ forall r, x = Ok r -> List.length r = n.

Lemma row_safe mk (v yi yo out : list fl) :
  (forall jmax, (jmax < Z.of_nat (List.length yo))%Z -> safe_step yi yo jmax mk) ->
  List.length v = List.length yi -> List.length out = List.length yo -> 0 < List.length yo ->
  safe_row (List.length yo)
  (let* (iyimin, iyimax) := get_iminmax yi in
   let* (iyomin, iyomax) := get_iminmax yo in
   let* st := for_each (pyrange iyimin iyimax)
     (interval_step mk yi yo iyomax (iyomax + 1)) (iyomin, out) in
   Ok (snd st)).
Proof.
  intros Hs Hv Ho Hp.
  destruct (get_iminmax_ok yi) as ([imin imax] & -> & Hi).
  destruct (get_iminmax_ok yo) as ([jmin jmax] & -> & Hj). cbn [bind].
  apply iminmax_range in Hi, Hj. simpl in Hi, Hj.
  destruct (scan_safe mk yi yo imin imax jmin jmax out (Hs jmax ltac:(lia))) as [H1 H2];
    auto; try lia.
  destruct (for_each _ _ _) as [st|e]; cbn [bind]; split; try discriminate.
  - intros r Hr. inversion Hr; subst. destruct (H2 st eq_refl) as [Hl _]. exact Hl.
  - congruence.
Qed.

Lemma linear_row_safe v yi yo out :
  List.length v = List.length yi -> List.length out = List.length yo -> 0 < List.length yo ->
  safe_row (List.length yo) (linear_row v yi yo out).
Proof. intros Hv Ho Hp. apply row_safe with (v := v); auto. intros; apply linear_step_safe; auto. Qed.
Lemma nearest_row_safe v yi yo out :
  List.length v = List.length yi -> List.length out = List.length yo -> 0 < List.length yo ->
  safe_row (List.length yo) (nearest_row v yi yo out).
Proof. intros Hv Ho Hp. apply row_safe with (v := v); auto. intros; apply nearest_step_safe; auto. Qed.

(** Array level: no out of range access, under any schedule. *)
Lemma rows_kernel_safe row vari yi yo order nxi nxiy nxo nyi nyo :
  shape vari nxi nyi -> shape yi nxiy nyi -> shape yo nxo nyo ->
  0 < nxi -> 0 < nxiy -> 0 < nxo ->
  (forall x, In x order -> (0 <= x < Z.of_nat (Nat.max nxi nxo))%Z) ->
  (forall ix ixi ryi ryo ro, ixi < nxi -> List.length ryi = nyi ->
     List.length ryo = nyo -> List.length ro = nyo ->
     safe_row nyo (row ix (Z.of_nat ixi) ryi ryo ro)) ->
  rows_kernel row vari yi yo order <> Raise IndexError.
Proof.
  intros Hv Hyi Hyo H1 H2 H3 Hord Hrow. unfold rows_kernel.
  rewrite (shape_ncols yo nxo nyo) by auto.
  rewrite (nrows_shape _ _ _ Hv), (nrows_shape _ _ _ Hyi), (nrows_shape _ _ _ Hyo).
  replace (Z.max (Z.of_nat nxi) (Z.of_nat nxo)) with (Z.of_nat (Nat.max nxi nxo)) by lia.
  apply for_each_safe with (I := fun varo => shape varo (Nat.max nxi nxo) nyo).
  - split; [apply length_full2|]. unfold full2. rewrite !Nat2Z.id.
    apply Forall_forall. intros r Hr. apply repeat_spec in Hr. subst. apply repeat_length.
  - intros x varo Hx Hs. apply Hord in Hx.
    replace x with (Z.of_nat (Z.to_nat x)) by lia. set (k := Z.to_nat x).
    assert (Hk : k < Nat.max nxi nxo) by lia.
    rewrite !row_index_ok by auto. cbn [bindc].
    destruct (shape_get yi nxiy nyi (k mod nxiy)) as [ryi Eyi]; auto.
    { apply Nat.mod_upper_bound; lia. }
    destruct (shape_get yo nxo nyo (k mod nxo)) as [ryo Eyo]; auto.
    { apply Nat.mod_upper_bound; lia. }
    destruct (shape_get varo _ nyo k Hs Hk) as [ro Ero].
    rewrite (pyget_nat yi _ _ Eyi), (pyget_nat yo _ _ Eyo), (pyget_nat varo _ _ Ero).
    cbn [bindc].
    destruct (Hrow (Z.of_nat k) (k mod nxi) ryi ryo ro) as [Hn Hlen].
    { apply Nat.mod_upper_bound; lia. }
    { exact (shape_row _ _ _ _ _ Hyi Eyi). }
    { exact (shape_row _ _ _ _ _ Hyo Eyo). }
    { exact (shape_row _ _ _ _ _ Hs Ero). }
    destruct (row (Z.of_nat k) (Z.of_nat (k mod nxi)) ryi ryo ro) as [r|e]; cbn [bindc].
    + destruct Hs as [Hl Hf]. rewrite pyset_nat by lia. cbn [next_of]. split.
      * now rewrite upd_length.
      * apply Forall_forall. intros r' Hr'. apply In_nth_error in Hr'. destruct Hr' as [q Hq].
        rewrite nth_error_upd in Hq by lia.
        destruct (Nat.eqb_spec q k); [inversion Hq; subst; now apply Hlen|].
        rewrite Forall_forall in Hf. apply Hf. eapply nth_error_In; eauto.
    + congruence.
Qed.
