From Verif Require Export PyBaseFacts Interp InterpSpec.
Open Scope nat_scope.

Ltac bdestr b := let E := fresh "E" in destruct b eqn:E.

(** Value with NaN as default *)
Definition yat (l : list fl) (i : nat) : fl := nth i l None.

Lemma yat_val l i x : yat l i = Some x <-> val l i x.
Proof.
  unfold yat, val. revert i; induction l as [|y l IH]; intros [|i]; simpl.
  - split; discriminate.
  - split; discriminate.
  - split; intro H; [now rewrite H|now inversion H].
  - apply IH.
Qed.

Lemma yat_lt l i x : yat l i = Some x -> i < List.length l.
Proof. intro H. apply yat_val in H. apply nth_error_Some. unfold val in H. congruence. Qed.

Lemma pyget_yat l i : i < List.length l -> pyget l (Z.of_nat i) = Ok (yat l i).
Proof.
  intro H. apply pyget_nat. unfold yat. now apply nth_error_nth'.
Qed.

Lemma nth_error_yat l i : i < List.length l -> nth_error l i = Some (yat l i).
Proof. intro H. unfold yat. now apply nth_error_nth'. Qed.

Lemma pyget_last l : 0 < List.length l -> pyget l (-1)%Z = Ok (yat l (List.length l - 1)).
Proof.
  intro H. unfold pyget, pyidx.
  replace ((0 <=? -1) && (-1 <? Z.of_nat (List.length l)))%Z with false by lia.
  replace ((- Z.of_nat (List.length l) <=? -1) && (-1 <? 0))%Z with true by lia.
  replace (Z.to_nat (-1 + Z.of_nat (List.length l))) with (List.length l - 1) by lia.
  rewrite nth_error_yat by lia. reflexivity.
Qed.

(** ** get_iminmax *)


Lemma isnan_yat d k : isnan (yat d k) = true <-> ~ valid d k.
Proof.
  unfold valid. destruct (yat d k) eqn:E; simpl; split.
  - discriminate.
  - intro H. exfalso. apply H. exists q. now apply yat_val.
  - intros _ [x Hx]. apply yat_val in Hx. congruence.
  - reflexivity.
Qed.
Lemma isnan_yat_false d k : isnan (yat d k) = false <-> valid d k.
Proof.
  unfold valid. destruct (yat d k) eqn:E; simpl; split.
  - intros _. exists q. now apply yat_val.
  - reflexivity.
  - discriminate.
  - intros [x Hx]. apply yat_val in Hx. congruence.
Qed.

Lemma valid_lt d k : valid d k -> k < List.length d.
Proof. intros [x Hx]. apply nth_error_Some. unfold val in Hx. congruence. Qed.

Definition imin_inv (d : list fl) (i : nat) (m : Z) : Prop :=
  (m = (-1)%Z /\ forall k, k < i -> ~ valid d k) \/
  (exists a, m = Z.of_nat a /\ a < i /\ valid d a /\ forall k, valid d k -> a <= k).
Definition imax_inv (d : list fl) (i : nat) (m : Z) : Prop :=
  (m = (-1)%Z /\ forall k, List.length d <= k + i -> ~ valid d k) \/
  (exists b, m = Z.of_nat b /\ b < List.length d <= b + i /\ valid d b
             /\ forall k, valid d k -> k <= b).

Lemma get_iminmax_ok d : exists r, get_iminmax d = Ok r /\ iminmax_ok d r.
Proof.
  unfold get_iminmax.
  replace (pyrange 0 (Z.of_nat (List.length d)))
    with (map Z.of_nat (seq 0 (List.length d))).
  2:{ change 0%Z with (Z.of_nat 0). rewrite pyrange_nat. now rewrite Nat.sub_0_r. }
  rewrite for_each_map.
  apply for_each_seq with
    (I := fun i st => imin_inv d i (fst st) /\ imax_inv d i (snd st)).
  - split; left; simpl; split; auto; intros k Hk; [lia|].
    intro Hv. apply valid_lt in Hv. lia.
  - intros i [m M] Hi [Hm HM]. simpl in Hm, HM.
    unfold iminmax_step.
    rewrite pyget_yat by lia. cbn [bindc].
    replace (Z.of_nat (List.length d) - 1 - Z.of_nat i)%Z
      with (Z.of_nat (List.length d - 1 - i)) by lia.
    rewrite pyget_yat by lia. cbn [bindc].
    set (n := List.length d) in *.
    assert (Hm' : imin_inv d (1 + i)
              (if ((m <? 0)%Z && negb (isnan (yat d i)))%bool then Z.of_nat i else m)).
    { destruct Hm as [[-> Hk]|[a [-> [Ha [Hva Hka]]]]].
      - simpl. destruct (isnan (yat d i)) eqn:En; simpl.
        + left. split; auto. intros k Hki. destruct (Nat.eq_dec k i) as [->|Hne].
          * now apply isnan_yat.
          * apply Hk. lia.
        + right. exists i. apply isnan_yat_false in En. repeat split; auto; try lia.
          intros k Hv. destruct (Nat.le_gt_cases i k) as [|Hlt]; auto.
          exfalso. now apply (Hk k).
      - replace (Z.of_nat a <? 0)%Z with false by lia. simpl.
        right. exists a. repeat split; auto; lia. }
    assert (HM' : imax_inv d (1 + i)
              (if ((M <? 0)%Z && negb (isnan (yat d (n - 1 - i))))%bool
               then Z.of_nat (n - 1 - i) else M)).
    { destruct HM as [[-> Hk]|[b [-> [Hb [Hvb Hkb]]]]].
      - simpl. destruct (isnan (yat d (n - 1 - i))) eqn:En; simpl.
        + left. split; auto. intros k Hki. fold n in Hki.
          destruct (Nat.eq_dec k (n - 1 - i)) as [->|Hne].
          * now apply isnan_yat.
          * apply Hk. fold n. lia.
        + right. exists (n - 1 - i). apply isnan_yat_false in En.
          fold n. repeat split; auto; try lia.
          intros k Hv. destruct (Nat.le_gt_cases k (n - 1 - i)) as [|Hlt]; auto.
          exfalso. apply (Hk k); auto. fold n. lia.
      - replace (Z.of_nat b <? 0)%Z with false by lia. simpl.
        right. exists b. fold n in Hb. fold n. repeat split; auto; lia. }
    revert Hm' HM'.
    generalize (if ((m <? 0)%Z && negb (isnan (yat d i)))%bool then Z.of_nat i else m).
    generalize (if ((M <? 0)%Z && negb (isnan (yat d (n - 1 - i))))%bool
               then Z.of_nat (n - 1 - i) else M).
    intros M2 m2 Hm' HM'.
    destruct ((M2 >? 0) && (m2 >? 0))%Z eqn:Eb; [|split; assumption].
    destruct Hm' as [[-> _]|[a [-> [_ [Ha Hka]]]]]; [lia|].
    destruct HM' as [[-> _]|[b [-> [_ [Hb Hkb]]]]]; [lia|].
    right. exists a, b. repeat split; auto.
  - intros [m M] [Hm HM]; simpl in *.
    destruct Hm as [[-> Hk]|[a [-> [Ha [Hva Hka]]]]].
    + destruct HM as [[-> _]|[b [-> [Hb [Hvb _]]]]].
      * left. split; auto. intros k Hv. apply (Hk k); auto. now apply valid_lt.
      * exfalso. apply (Hk b); auto. lia.
    + destruct HM as [[-> HM]|[b [-> [Hb [Hvb Hkb]]]]].
      * exfalso. apply (HM a); auto. lia.
      * right. exists a, b. repeat split; auto.
Qed.

(** ** Generic analysis of the two nested scanning loops *)

Definition above (yi yo : list fl) (i j : nat) : bool :=
  fltb (fsub (yat yi (S i)) (yat yo j)) f0.
Definition below (yi yo : list fl) (i j : nat) : bool :=
  fltb (fsub (yat yo j) (yat yi i)) f0.

Lemma above_val yi yo i j : above yi yo i j = true <->
  exists b y, val yi (S i) b /\ val yo j y /\ (b < y)%Q.
Proof.
  unfold above. split.
  - destruct (yat yi (S i)) eqn:E1; simpl; [|discriminate].
    destruct (yat yo j) eqn:E2; simpl; [|discriminate].
    rewrite Qltb_lt. intro H. exists q, q0. rewrite <- !yat_val. repeat split; auto. lra.
  - intros (b & y & Hb & Hy & Hlt). apply yat_val in Hb, Hy. rewrite Hb, Hy. simpl.
    apply Qltb_lt. lra.
Qed.
Lemma below_val yi yo i j : below yi yo i j = true <->
  exists a y, val yi i a /\ val yo j y /\ (y < a)%Q.
Proof.
  unfold below. split.
  - destruct (yat yo j) eqn:E2; simpl; [|discriminate].
    destruct (yat yi i) eqn:E1; simpl; [|discriminate].
    rewrite Qltb_lt. intro H. exists q0, q. rewrite <- !yat_val. repeat split; auto. lra.
  - intros (b & y & Hb & Hy & Hlt). apply yat_val in Hb, Hy. rewrite Hb, Hy. simpl.
    apply Qltb_lt. lra.
Qed.

Lemma fltb_val l i l' j : fltb (yat l i) (yat l' j) = true <->
  exists a b, val l i a /\ val l' j b /\ (a < b)%Q.
Proof.
  split.
  - destruct (yat l i) eqn:E1; simpl; [|discriminate].
    destruct (yat l' j) eqn:E2; simpl; [|discriminate].
    rewrite Qltb_lt. intro H. exists q, q0. rewrite <- !yat_val. auto.
  - intros (b & y & Hb & Hy & Hlt). apply yat_val in Hb, Hy. rewrite Hb, Hy. simpl.
    now apply Qltb_lt.
Qed.

Lemma val_fun l i a b : val l i a -> val l i b -> a = b.
Proof. unfold val. congruence. Qed.

(** The value given by the last interval (before the [k]th) touching [j]. *)
Fixpoint best (touch : nat -> nat -> bool) (W : nat -> nat -> fl) (j k : nat) : fl :=
  match k with
  | O => nan
  | S k' => if touch k' j then W k' j else best touch W j k'
  end.

Lemma best_none touch W j k :
  (forall i, i < k -> touch i j = false) -> best touch W j k = nan.
Proof.
  induction k as [|k IH]; simpl; intro H; auto.
  rewrite H by lia. apply IH. intros i Hi. apply H. lia.
Qed.

Lemma best_last touch W j k i :
  i < k -> touch i j = true -> (forall i', i < i' < k -> touch i' j = false) ->
  best touch W j k = W i j.
Proof.
  induction k as [|k IH]; simpl; intros Hi Ht Hn; [lia|].
  destruct (Nat.eq_dec i k) as [->|Hne].
  - now rewrite Ht.
  - rewrite (Hn k) by lia. apply IH; auto; try lia. intros i' Hi'. apply Hn. lia.
Qed.

Lemma best_some touch W j k :
  (exists i, i < k /\ touch i j = true /\ (forall i', i < i' < k -> touch i' j = false)
             /\ best touch W j k = W i j)
  \/ ((forall i, i < k -> touch i j = false) /\ best touch W j k = nan).
Proof.
  induction k as [|k IH]; simpl.
  - right; split; auto. intros; lia.
  - destruct (touch k j) eqn:E.
    + left. exists k. repeat split; auto. intros; lia.
    + destruct IH as [(i & Hi & Ht & Hn & Hb)|[Hn Hb]].
      * left. exists i. repeat split; auto. intros i' Hi'.
        destruct (Nat.eq_dec i' k) as [->|]; auto. apply Hn; lia.
      * right. split; auto. intros i Hi.
        destruct (Nat.eq_dec i k) as [->|]; auto. apply Hn; lia.
Qed.

Section Scan.
  Variables (yi yo : list fl).
  Variable step : Z -> Z -> Z * list fl -> ctl (Z * list fl).
  Variable touch : nat -> nat -> bool.
  Variable W : nat -> nat -> fl.
  Variables (imin imax jmin jmax hi : nat).
  Hypothesis Hincr : increasing yi.
  Hypothesis Hnd : nondecreasing yo.
  Hypothesis Himin : valid yi imin.
  Hypothesis Himax : valid yi imax.
  Hypothesis Himm : forall k, valid yi k -> imin <= k <= imax.
  Hypothesis Hjmin : valid yo jmin.
  Hypothesis Hjmax : valid yo jmax.
  Hypothesis Hjmm : forall k, valid yo k -> jmin <= k <= jmax.
  Hypothesis Hhi : jmax < hi <= List.length yo.
  Hypothesis Htouch : forall i j, touch i j = true ->
    exists a b y, val yi i a /\ val yi (S i) b /\ val yo j y /\ (a <= y <= b)%Q.
  Hypothesis Hstep : forall i j m out,
    imin <= i < imax -> jmin <= m <= j -> m <= jmax -> j < hi -> List.length out = List.length yo ->
    fltb (yat yo jmax) (yat yi i) = false ->
    match step (Z.of_nat i) (Z.of_nat j) (Z.of_nat m, out) with
    | Fail _ => False
    | Break st => st = (Z.of_nat m, out) /\ above yi yo i j = true
    | Next (m2, out2) =>
      out2 = (if touch i j then upd out j (W i j) else out) /\
      exists m', m2 = Z.of_nat m' /\
        (m' = m \/ (m <= m' /\ m' <= S j /\ m' <= jmax /\
                    forall i' j', i < i' -> j' < m' -> touch i' j' = false))
    end.

  Lemma touch_above i j j' : above yi yo i j = true -> j <= j' -> touch i j' = false.
  Proof.
    intros Ha Hj. destruct (touch i j') eqn:E; auto. exfalso.
    apply Htouch in E. destruct E as (a & b & y & Hva & Hvb & Hvy & Hle).
    apply above_val in Ha. destruct Ha as (b' & y' & Hb' & Hy' & Hlt).
    pose proof (val_fun _ _ _ _ Hvb Hb'); subst b'.
    destruct (Nat.eq_dec j j') as [->|Hne].
    - pose proof (val_fun _ _ _ _ Hvy Hy'); subst. lra.
    - assert (y' <= y)%Q by (apply (Hnd j j'); auto; lia). lra.
  Qed.

  Lemma inner_ok i m out :
    imin <= i < imax -> jmin <= m <= jmax -> List.length out = List.length yo ->
    fltb (yat yo jmax) (yat yi i) = false ->
    (forall i' j, i <= i' -> j < m -> touch i' j = false) ->
    exists st, for_each (pyrange (Z.of_nat m) (Z.of_nat hi)) (step (Z.of_nat i))
                 (Z.of_nat m, out) = Ok st /\
      exists m' out', st = (Z.of_nat m', out') /\ jmin <= m' <= jmax /\
        List.length out' = List.length yo /\
        (forall i' j, i < i' -> j < m' -> touch i' j = false) /\
        forall j, j < List.length yo ->
          nth_error out' j = if touch i j then Some (W i j) else nth_error out j.
  Proof.
    intros Hi Hm Hlen Hnb Hdead.
    rewrite pyrange_nat, for_each_map.
    apply for_each_seq with (I := fun j st =>
      exists m' out', st = (Z.of_nat m', out') /\ m <= m' <= jmax /\ m' <= j /\
        List.length out' = List.length yo /\
        (forall i' j', i < i' -> j' < m' -> touch i' j' = false) /\
        forall j', j' < List.length yo ->
          nth_error out' j' =
            if (j' <? j) && touch i j' then Some (W i j') else nth_error out j').
    - exists m, out. repeat split; auto; try lia.
      + intros i' j' Hi' Hj'. apply Hdead; lia.
      + intros j' Hj'. destruct (Nat.ltb_spec j' m); simpl; auto.
        now rewrite Hdead by lia.
    - intros j st Hj (m' & out' & -> & Hm' & Hmj & Hl & Hd & Hout).
      assert (HS := Hstep i j m' out' Hi ltac:(lia) ltac:(lia) ltac:(lia) Hl Hnb).
      destruct (step (Z.of_nat i) (Z.of_nat j) (Z.of_nat m', out')) as [[m2 o2]|st|e];
        [| |contradiction].
      + destruct HS as [-> (m3 & -> & Hm3)].
        exists m3. eexists. split; [reflexivity|].
        assert (Hl2 : List.length (if touch i j then upd out' j (W i j) else out')
                      = List.length yo).
        { destruct (touch i j); [now rewrite upd_length|assumption]. }
        repeat split; auto; try lia.
        * intros i' j' Hi' Hj'. destruct Hm3 as [->|(_ & _ & _ & H3)]; auto.
        * intros j' Hj'.
          destruct (Nat.eq_dec j' j) as [->|Hne].
          -- replace (j <? 1 + j) with true by (symmetry; apply Nat.ltb_lt; lia).
             simpl. destruct (touch i j) eqn:Et.
             ++ apply nth_error_upd_eq. lia.
             ++ rewrite Hout by lia. now rewrite Nat.ltb_irrefl.
          -- replace (j' <? 1 + j) with (j' <? j)
               by (destruct (Nat.ltb_spec j' j), (Nat.ltb_spec j' (1 + j)); auto; lia).
             destruct (touch i j).
             ++ rewrite nth_error_upd_neq by lia. now apply Hout.
             ++ now apply Hout.
      + destruct HS as [-> Hab].
        exists m', out'. repeat split; auto; try lia.
        intros j' Hj'. rewrite Hout by lia.
        destruct (Nat.ltb_spec j' j); simpl; auto.
        now rewrite (touch_above i j j') by (auto; lia).
    - intros st (m' & out' & -> & Hm' & Hmj & Hl & Hd & Hout).
      exists m', out'. repeat split; auto; try lia.
      intros j Hj. rewrite Hout by lia.
      destruct (Nat.ltb_spec j (m + (hi - m))); simpl; auto.
      destruct (touch i j) eqn:Et; auto.
      apply Htouch in Et. destruct Et as (a & b & y & _ & _ & Hy & _).
      assert (valid yo j) by (exists y; auto). apply Hjmm in H0. lia.
  Qed.

  Lemma scan_ok out0 :
    List.length out0 = List.length yo ->
    (forall j, j < List.length yo -> nth_error out0 j = Some nan) ->
    exists st, for_each (pyrange (Z.of_nat imin) (Z.of_nat imax))
                 (interval_step step yi yo (Z.of_nat jmax) (Z.of_nat hi))
                 (Z.of_nat jmin, out0) = Ok st /\
      List.length (snd st) = List.length yo /\
      forall j, j < List.length yo ->
        nth_error (snd st) j = Some (best touch W j (List.length yi)).
  Proof.
    intros Hl0 Hnan.
    pose proof (valid_lt _ _ Himax) as Hil. pose proof (valid_lt _ _ Hjmax) as Hjl.
    assert (Hrange : forall i j, touch i j = true -> imin <= i < imax).
    { intros i j Ht. apply Htouch in Ht. destruct Ht as (a & b & y & Ha & Hb & _).
      assert (valid yi i) by (exists a; auto). assert (valid yi (S i)) by (exists b; auto).
      apply Himm in H, H0. lia. }
    assert (Hbest : forall j k, imax <= k -> best touch W j k = best touch W j imax).
    { intros j k Hk. induction Hk as [|k Hk IH]; auto. simpl.
      destruct (touch k j) eqn:Et; auto. apply Hrange in Et. lia. }
    rewrite pyrange_nat, for_each_map.
    apply for_each_seq with (I := fun i st =>
      exists m out, st = (Z.of_nat m, out) /\ jmin <= m <= jmax /\
        List.length out = List.length yo /\
        (forall i' j, i <= i' -> j < m -> touch i' j = false) /\
        forall j, j < List.length yo -> nth_error out j = Some (best touch W j i)).
    - exists jmin, out0. repeat split; auto; try lia.
      + apply Hjmm in Hjmin. lia.
      + intros i' j _ Hj. destruct (touch i' j) eqn:Et; auto.
        apply Htouch in Et. destruct Et as (a & b & y & _ & _ & Hy & _).
        assert (valid yo j) by (exists y; auto). apply Hjmm in H. lia.
      + intros j Hj. rewrite Hnan by auto. f_equal. symmetry. apply best_none.
        intros i Hi. destruct (touch i j) eqn:Et; auto. apply Hrange in Et. lia.
    - intros i st Hi (m & out & -> & Hm & Hl & Hd & Hout).
      unfold interval_step. cbn [fst].
      replace (Z.of_nat i + 1)%Z with (Z.of_nat (S i)) by lia.
      assert (Himr : imin <= i < imax) by lia.
      rewrite !pyget_yat by lia. cbn [bindc].
      destruct (fltb (yat yi (S i)) (yat yo m)) eqn:Ec.
      + (* continue *)
        exists m, out. repeat split; auto; try lia.
        * intros i' j Hi' Hj. apply Hd; lia.
        * intros j Hj. rewrite Hout by auto. simpl.
          replace (touch i j) with false; auto. symmetry.
          destruct (Nat.lt_ge_cases j m) as [Hjm|Hjm]; [apply Hd; lia|].
          apply (touch_above i m); auto. apply above_val. apply fltb_val in Ec.
          exact Ec.
      + destruct (fltb (yat yo jmax) (yat yi i)) eqn:Eb.
        * (* break *)
          cbn [snd]. split; [assumption|]. intros j Hj. rewrite Hout by auto. f_equal.
          rewrite (Hbest j (List.length yi)) by lia.
          assert (Hno : forall i', i <= i' -> touch i' j = false).
          { intros i' Hi'. destruct (touch i' j) eqn:Et; auto. exfalso.
            apply Htouch in Et. destruct Et as (a & b & y & Ha & Hb & Hy & Hle).
            apply fltb_val in Eb. destruct Eb as (ym & ai & Hym & Hai & Hlt).
            assert (y <= ym)%Q.
            { assert (Hvj : valid yo j) by (exists y; auto). apply Hjmm in Hvj.
              destruct (Nat.eq_dec j jmax) as [->|].
              - pose proof (val_fun _ _ _ _ Hy Hym); subst; lra.
              - apply (Hnd j jmax); auto; lia. }
            assert (ai <= a)%Q.
            { destruct (Nat.eq_dec i i') as [->|].
              - pose proof (val_fun _ _ _ _ Ha Hai); subst; lra.
              - apply Qlt_le_weak. apply (Hincr i i'); auto; lia. }
            lra. }
          clear - Hno Himr. induction imax as [|k IH]; [lia|]. simpl.
          destruct (Nat.eq_dec i k) as [->|Hne].
          -- now rewrite Hno by lia.
          -- rewrite Hno by lia. apply IH. lia.
        * destruct (inner_ok i m out Himr Hm Hl Eb Hd) as (st & Est & Hst).
          rewrite Est. cbn [next_of].
          destruct Hst as (m' & out' & -> & Hm' & Hl' & Hd' & Ho').
          exists m', out'. repeat split; auto; try lia.
          intros j Hj. rewrite Ho' by auto. simpl. destruct (touch i j); auto.
    - intros st (m & out & -> & Hm & Hl & Hd & Hout). cbn [snd].
      split; [assumption|].
      intros j Hj. rewrite Hout by auto. f_equal.
      apply Himm in Himin. replace (imin + (imax - imin)) with imax by lia.
      rewrite (Hbest j (List.length yi)) by lia. reflexivity.
  Qed.
End Scan.
