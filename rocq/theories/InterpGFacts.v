(** The loops of the kernels, for any arithmetic whose comparisons and signs of differences are
    right. *)
From Verif Require Export PyBaseFacts InterpG InterpGSpec.
From Coq Require Import Lra.
Open Scope nat_scope.

Section Facts.
Variable o : fops.
Variable rank : fnum o -> option R.
Variable good : fnum o -> Prop.
Local Notation fl := (fnum o).
Local Notation nan := (n_nan o).
Local Notation isnan := (n_isnan o).
Local Notation fltb := (n_ltb o).
Local Notation fsub := (n_sub o).
Local Notation fleb := (n_leb o).
Local Notation f0 := (n_const o 0).
Local Notation val := (gval rank).
Local Notation valid := (gvalid rank).
Local Notation increasing := (gincreasing rank).
Local Notation nondecreasing := (gnondecreasing rank).
Local Notation in_cell := (gin_cell rank).
Hypothesis isnan_nan : isnan nan = true.
Hypothesis rank_nan : rank nan = None.

Definition gyat (l : list fl) (i : nat) : fl := nth i l nan.
Local Notation yat := gyat.
Lemma pyget_gyat l i : i < List.length l -> pyget l (Z.of_nat i) = Ok (yat l i).
Proof. intro H. apply pyget_nat. unfold gyat. now apply nth_error_nth'. Qed.
Lemma nth_error_gyat l i : i < List.length l -> nth_error l i = Some (yat l i).
Proof. intro H. unfold gyat. now apply nth_error_nth'. Qed.
Lemma pyget_glast l : 0 < List.length l -> pyget l (-1)%Z = Ok (yat l (List.length l - 1)).
Proof.
  intro H. unfold pyget, pyidx.
  replace ((0 <=? -1) && (-1 <? Z.of_nat (List.length l)))%Z with false by lia.
  replace ((- Z.of_nat (List.length l) <=? -1) && (-1 <? 0))%Z with true by lia.
  replace (Z.to_nat (-1 + Z.of_nat (List.length l))) with (List.length l - 1) by lia.
  rewrite nth_error_gyat by lia. reflexivity.
Qed.
Lemma rank_yat l i x : rank (yat l i) = Some x <-> val l i x.
Proof.
  unfold gyat, gval. split.
  - intro H. destruct (nth_error l i) as [t|] eqn:E.
    + exists t. split; auto. now rewrite <- (nth_error_nth _ _ nan E).
    + apply nth_error_None in E. rewrite nth_overflow in H by auto. congruence.
  - intros (t & E & H). now rewrite (nth_error_nth _ _ nan E).
Qed.
Lemma val_glt l i x : val l i x -> i < List.length l.
Proof. intros (t & E & _). apply nth_error_Some. congruence. Qed.
Lemma valid_glt d k : valid d k -> k < List.length d.
Proof. intros [x Hx]. eapply val_glt; eauto. Qed.
Lemma val_gfun l i a b : val l i a -> val l i b -> a = b.
Proof. intros (t & E & H) (t' & E' & H'). congruence. Qed.

(** ** get_iminmax *)
Definition nvalid (d : list fl) (k : nat) : Prop := exists t, nth_error d k = Some t /\ isnan t = false.
Definition giminmax_ok (d : list fl) (r : Z * Z) : Prop :=
  (r = (-1, -1)%Z /\ forall k, ~ nvalid d k) \/
  (exists a b, r = (Z.of_nat a, Z.of_nat b) /\ nvalid d a /\ nvalid d b /\
     forall k, nvalid d k -> a <= k <= b).
Lemma nisnan_yat_false d k : isnan (yat d k) = false <-> nvalid d k.
Proof.
  unfold nvalid, gyat. split.
  - intro H. destruct (nth_error d k) as [t|] eqn:E.
    + exists t. split; auto. now rewrite <- (nth_error_nth _ _ nan E).
    + apply nth_error_None in E. rewrite nth_overflow in H by auto. congruence.
  - intros (t & E & H). now rewrite (nth_error_nth _ _ nan E).
Qed.
Lemma nisnan_yat d k : isnan (yat d k) = true <-> ~ nvalid d k.
Proof.
  rewrite <- nisnan_yat_false. destruct (isnan (yat d k)); split; congruence.
Qed.
Lemma nvalid_lt d k : nvalid d k -> k < List.length d.
Proof. intros (t & E & _). apply nth_error_Some. congruence. Qed.

Definition gimin_inv (d : list fl) (i : nat) (m : Z) : Prop :=
  (m = (-1)%Z /\ forall k, k < i -> ~ nvalid d k) \/
  (exists a, m = Z.of_nat a /\ a < i /\ nvalid d a /\ forall k, nvalid d k -> a <= k).
Definition gimax_inv (d : list fl) (i : nat) (m : Z) : Prop :=
  (m = (-1)%Z /\ forall k, List.length d <= k + i -> ~ nvalid d k) \/
  (exists b, m = Z.of_nat b /\ b < List.length d <= b + i /\ nvalid d b
             /\ forall k, nvalid d k -> k <= b).

Lemma get_giminmax_ok d : exists r, get_iminmax_g o d = Ok r /\ giminmax_ok d r.
Proof.
  unfold get_iminmax_g.
  replace (pyrange 0 (Z.of_nat (List.length d)))
    with (map Z.of_nat (seq 0 (List.length d))).
  2:{ change 0%Z with (Z.of_nat 0). rewrite pyrange_nat. now rewrite Nat.sub_0_r. }
  rewrite for_each_map.
  apply for_each_seq with
    (I := fun i st => gimin_inv d i (fst st) /\ gimax_inv d i (snd st)).
  - split; left; simpl; split; auto; intros k Hk; [lia|].
    intro Hv. apply nvalid_lt in Hv. lia.
  - intros i [m M] Hi [Hm HM]. simpl in Hm, HM.
    unfold iminmax_step_g.
    rewrite pyget_gyat by lia. cbn [bindc].
    replace (Z.of_nat (List.length d) - 1 - Z.of_nat i)%Z
      with (Z.of_nat (List.length d - 1 - i)) by lia.
    rewrite pyget_gyat by lia. cbn [bindc].
    set (n := List.length d) in *.
    assert (Hm' : gimin_inv d (1 + i)
              (if ((m <? 0)%Z && negb (isnan (yat d i)))%bool then Z.of_nat i else m)).
    { destruct Hm as [[-> Hk]|[a [-> [Ha [Hva Hka]]]]].
      - simpl. destruct (isnan (yat d i)) eqn:En; simpl.
        + left. split; auto. intros k Hki. destruct (Nat.eq_dec k i) as [->|Hne].
          * now apply nisnan_yat.
          * apply Hk. lia.
        + right. exists i. apply nisnan_yat_false in En. repeat split; auto; try lia.
          intros k Hv. destruct (Nat.le_gt_cases i k) as [|Hlt]; auto.
          exfalso. now apply (Hk k).
      - replace (Z.of_nat a <? 0)%Z with false by lia. simpl.
        right. exists a. repeat split; auto; lia. }
    assert (HM' : gimax_inv d (1 + i)
              (if ((M <? 0)%Z && negb (isnan (yat d (n - 1 - i))))%bool
               then Z.of_nat (n - 1 - i) else M)).
    { destruct HM as [[-> Hk]|[b [-> [Hb [Hvb Hkb]]]]].
      - simpl. destruct (isnan (yat d (n - 1 - i))) eqn:En; simpl.
        + left. split; auto. intros k Hki. fold n in Hki.
          destruct (Nat.eq_dec k (n - 1 - i)) as [->|Hne].
          * now apply nisnan_yat.
          * apply Hk. fold n. lia.
        + right. exists (n - 1 - i). apply nisnan_yat_false in En.
          fold n. repeat split; auto; try lia.
          intros k Hv. destruct (Nat.le_gt_cases k (n - 1 - i)) as [|Hlt]; auto.
          exfalso. apply (Hk k); auto. fold n. lia.
      - replace (Z.of_nat b <? 0)%Z with false by lia. simpl.
        right. exists b. fold n in Hb. fold n. repeat split; auto; lia. }
    revert Hm' HM'.
    generalize (if ((m <? 0)%Z && negb (isnan (yat d i)))%bool then Z.of_nat i else m).
    generalize (if ((M <? 0)%Z && negb (isnan (yat d (n - 1 - i))))%bool
               then Z.of_nat (n - 1 - i) else M).
    intros M2 m2 Hm' HM'.
    destruct ((M2 >? 0) && (m2 >? 0))%Z eqn:Eb; [|split; assumption].
    destruct Hm' as [[-> _]|[a [-> [_ [Ha Hka]]]]]; [lia|].
    destruct HM' as [[-> _]|[b [-> [_ [Hb Hkb]]]]]; [lia|].
    right. exists a, b. repeat split; auto.
  - intros [m M] [Hm HM]; simpl in *.
    destruct Hm as [[-> Hk]|[a [-> [Ha [Hva Hka]]]]].
    + destruct HM as [[-> _]|[b [-> [Hb [Hvb _]]]]].
      * left. split; auto. intros k Hv. apply (Hk k); auto. now apply nvalid_lt.
      * exfalso. apply (Hk b); auto. lia.
    + destruct HM as [[-> HM]|[b [-> [Hb [Hvb Hkb]]]]].
      * exfalso. apply (HM a); auto. lia.
      * right. exists a, b. repeat split; auto.
Qed.


(** ** Comparisons *)
Hypothesis L_isnan : forall x, good x -> (isnan x = true <-> rank x = None).
Hypothesis L_lt : forall a b, good a -> good b -> (fltb a b = true <-> exists x y, rank a = Some x /\ rank b = Some y /\ (x < y)%R).
Hypothesis L_sub_lt : forall a b, good a -> good b -> (fltb (fsub a b) f0 = true <-> exists x y, rank a = Some x /\ rank b = Some y /\ (x < y)%R).
Hypothesis L_sub_ge : forall a b, good a -> good b -> (fleb f0 (fsub a b) = true <-> exists x y, rank a = Some x /\ rank b = Some y /\ (y <= x)%R).
Hypothesis good_nan : good nan.
Lemma good_yat l i : Forall good l -> good (yat l i).
Proof.
  intro H. unfold gyat. destruct (nth_in_or_default i l nan) as [E|E]; [|now rewrite E].
  rewrite Forall_forall in H. now apply H.
Qed.
Lemma nvalid_valid d k : Forall good d -> (nvalid d k <-> valid d k).
Proof.
  intro H. unfold nvalid, gvalid, gval. split.
  - intros (t & E & Ht). rewrite Forall_forall in H. assert (G := H t (nth_error_In _ _ E)).
    destruct (rank t) as [x|] eqn:Er; [eauto|]. apply L_isnan in Er; [congruence|auto].
  - intros (x & t & E & Er). exists t. split; auto. rewrite Forall_forall in H. assert (G := H t (nth_error_In _ _ E)).
    destruct (isnan t) eqn:En; auto. apply L_isnan in En; [congruence|auto].
Qed.
Lemma giminmax_valid d : Forall good d -> exists r, get_iminmax_g o d = Ok r /\
  ((r = (-1, -1)%Z /\ forall k, ~ valid d k) \/
   (exists a b, r = (Z.of_nat a, Z.of_nat b) /\ valid d a /\ valid d b /\ forall k, valid d k -> a <= k <= b)).
Proof.
  intro G. destruct (get_giminmax_ok d) as (r & Hr & Hok). exists r. split; auto.
  destruct Hok as [[E H]|(a & b & E & Ha & Hb & H)].
  - left. split; auto. intros k Hk. apply (H k). now apply nvalid_valid.
  - right. exists a, b. split; auto. split; [now apply nvalid_valid|]. split; [now apply nvalid_valid|].
    intros k Hk. apply H. now apply nvalid_valid.
Qed.

Definition gabove (yi yo : list fl) (i j : nat) : bool := fltb (fsub (yat yi (S i)) (yat yo j)) f0.
Definition gbelow (yi yo : list fl) (i j : nat) : bool := fltb (fsub (yat yo j) (yat yi i)) f0.
Local Notation above := gabove.
Local Notation below := gbelow.
Lemma gabove_val yi yo i j : Forall good yi -> Forall good yo -> (above yi yo i j = true <->
  exists b y, val yi (S i) b /\ val yo j y /\ (b < y)%R).
Proof.
  intros Gi Go. unfold gabove. rewrite L_sub_lt by now apply good_yat.
  split; intros (b & y & H); exists b, y; rewrite ?rank_yat in *; auto; now rewrite <- !rank_yat in H.
Qed.
Lemma gbelow_val yi yo i j : Forall good yi -> Forall good yo -> (below yi yo i j = true <->
  exists a y, val yi i a /\ val yo j y /\ (y < a)%R).
Proof.
  intros Gi Go. unfold gbelow. rewrite L_sub_lt by now apply good_yat.
  split; intros (b & y & H); exists y, b; rewrite ?rank_yat in *; tauto.
Qed.
Lemma gfltb_val l i l' j : Forall good l -> Forall good l' -> (fltb (yat l i) (yat l' j) = true <->
  exists a b, val l i a /\ val l' j b /\ (a < b)%R).
Proof.
  intros Gi Go. rewrite L_lt by now apply good_yat.
  split; intros (b & y & H); exists b, y; rewrite ?rank_yat in *; tauto.
Qed.

(** The value given by the last interval (before the [k]th) touching [j]. *)
Fixpoint gbest (touch : nat -> nat -> bool) (W : nat -> nat -> fl) (j k : nat) : fl :=
  match k with
  | O => nan
  | S k' => if touch k' j then W k' j else gbest touch W j k'
  end.

Lemma gbest_none touch W j k :
  (forall i, i < k -> touch i j = false) -> gbest touch W j k = nan.
Proof.
  induction k as [|k IH]; simpl; intro H; auto.
  rewrite H by lia. apply IH. intros i Hi. apply H. lia.
Qed.

Lemma gbest_last touch W j k i :
  i < k -> touch i j = true -> (forall i', i < i' < k -> touch i' j = false) ->
  gbest touch W j k = W i j.
Proof.
  induction k as [|k IH]; simpl; intros Hi Ht Hn; [lia|].
  destruct (Nat.eq_dec i k) as [->|Hne].
  - now rewrite Ht.
  - rewrite (Hn k) by lia. apply IH; auto; try lia. intros i' Hi'. apply Hn. lia.
Qed.

Lemma gbest_some touch W j k :
  (exists i, i < k /\ touch i j = true /\ (forall i', i < i' < k -> touch i' j = false)
             /\ gbest touch W j k = W i j)
  \/ ((forall i, i < k -> touch i j = false) /\ gbest touch W j k = nan).
Proof.
  induction k as [|k IH]; simpl.
  - right; split; auto. intros; lia.
  - destruct (touch k j) eqn:E.
    + left. exists k. repeat split; auto. intros; lia.
    + destruct IH as [(i & Hi & Ht & Hn & Hb)|[Hn Hb]].
      * left. exists i. repeat split; auto. intros i' Hi'.
        destruct (Nat.eq_dec i' k) as [->|]; auto. apply Hn; lia.
      * right. split; auto. intros i Hi.
        destruct (Nat.eq_dec i k) as [->|]; auto. apply Hn; lia.
Qed.

Section Scan.
  Variables (yi yo : list fl).
  Variable step : Z -> Z -> Z * list fl -> ctl (Z * list fl).
  Variable touch : nat -> nat -> bool.
  Variable W : nat -> nat -> fl.
  Variables (imin imax jmin jmax hi : nat).
  Hypothesis Gyi : Forall good yi.
  Hypothesis Gyo : Forall good yo.
  Hypothesis Hincr : increasing yi.
  Hypothesis Hnd : nondecreasing yo.
  Hypothesis Himin : valid yi imin.
  Hypothesis Himax : valid yi imax.
  Hypothesis Himm : forall k, valid yi k -> imin <= k <= imax.
  Hypothesis Hjmin : valid yo jmin.
  Hypothesis Hjmax : valid yo jmax.
  Hypothesis Hjmm : forall k, valid yo k -> jmin <= k <= jmax.
  Hypothesis Hhi : jmax < hi <= List.length yo.
  Hypothesis Htouch : forall i j, touch i j = true ->
    exists a b y, val yi i a /\ val yi (S i) b /\ val yo j y /\ (a <= y <= b)%R.
  Hypothesis Hstep : forall i j m out,
    imin <= i < imax -> jmin <= m <= j -> m <= jmax -> j < hi -> List.length out = List.length yo ->
    fltb (yat yo jmax) (yat yi i) = false ->
    match step (Z.of_nat i) (Z.of_nat j) (Z.of_nat m, out) with
    | Fail _ => False
    | Break st => st = (Z.of_nat m, out) /\ above yi yo i j = true
    | Next (m2, out2) =>
      out2 = (if touch i j then upd out j (W i j) else out) /\
      exists m', m2 = Z.of_nat m' /\
        (m' = m \/ (m <= m' /\ m' <= S j /\ m' <= jmax /\
                    forall i' j', i < i' -> j' < m' -> touch i' j' = false))
    end.

  Lemma gtouch_above i j j' : above yi yo i j = true -> j <= j' -> touch i j' = false.
  Proof.
    intros Ha Hj. destruct (touch i j') eqn:E; auto. exfalso.
    apply Htouch in E. destruct E as (a & b & y & Hva & Hvb & Hvy & Hle).
    apply (gabove_val _ _ _ _ Gyi Gyo) in Ha. destruct Ha as (b' & y' & Hb' & Hy' & Hlt).
    pose proof (val_gfun _ _ _ _ Hvb Hb'); subst b'.
    destruct (Nat.eq_dec j j') as [->|Hne].
    - pose proof (val_gfun _ _ _ _ Hvy Hy'); subst. lra.
    - assert (y' <= y)%R by (apply (Hnd j j'); auto; lia). lra.
  Qed.

  Lemma ginner_ok i m out :
    imin <= i < imax -> jmin <= m <= jmax -> List.length out = List.length yo ->
    fltb (yat yo jmax) (yat yi i) = false ->
    (forall i' j, i <= i' -> j < m -> touch i' j = false) ->
    exists st, for_each (pyrange (Z.of_nat m) (Z.of_nat hi)) (step (Z.of_nat i))
                 (Z.of_nat m, out) = Ok st /\
      exists m' out', st = (Z.of_nat m', out') /\ jmin <= m' <= jmax /\
        List.length out' = List.length yo /\
        (forall i' j, i < i' -> j < m' -> touch i' j = false) /\
        forall j, j < List.length yo ->
          nth_error out' j = if touch i j then Some (W i j) else nth_error out j.
  Proof.
    intros Hi Hm Hlen Hnb Hdead.
    rewrite pyrange_nat, for_each_map.
    apply for_each_seq with (I := fun j st =>
      exists m' out', st = (Z.of_nat m', out') /\ m <= m' <= jmax /\ m' <= j /\
        List.length out' = List.length yo /\
        (forall i' j', i < i' -> j' < m' -> touch i' j' = false) /\
        forall j', j' < List.length yo ->
          nth_error out' j' =
            if (j' <? j) && touch i j' then Some (W i j') else nth_error out j').
    - exists m, out. repeat split; auto; try lia.
      + intros i' j' Hi' Hj'. apply Hdead; lia.
      + intros j' Hj'. destruct (Nat.ltb_spec j' m); simpl; auto.
        now rewrite Hdead by lia.
    - intros j st Hj (m' & out' & -> & Hm' & Hmj & Hl & Hd & Hout).
      assert (HS := Hstep i j m' out' Hi ltac:(lia) ltac:(lia) ltac:(lia) Hl Hnb).
      destruct (step (Z.of_nat i) (Z.of_nat j) (Z.of_nat m', out')) as [[m2 o2]|st|e];
        [| |contradiction].
      + destruct HS as [-> (m3 & -> & Hm3)].
        exists m3. eexists. split; [reflexivity|].
        assert (Hl2 : List.length (if touch i j then upd out' j (W i j) else out')
                      = List.length yo).
        { destruct (touch i j); [now rewrite upd_length|assumption]. }
        repeat split; auto; try lia.
        * intros i' j' Hi' Hj'. destruct Hm3 as [->|(_ & _ & _ & H3)]; auto.
        * intros j' Hj'.
          destruct (Nat.eq_dec j' j) as [->|Hne].
          -- replace (j <? 1 + j) with true by (symmetry; apply Nat.ltb_lt; lia).
             simpl. destruct (touch i j) eqn:Et.
             ++ apply nth_error_upd_eq. lia.
             ++ rewrite Hout by lia. now rewrite Nat.ltb_irrefl.
          -- replace (j' <? 1 + j) with (j' <? j)
               by (destruct (Nat.ltb_spec j' j), (Nat.ltb_spec j' (1 + j)); auto; lia).
             destruct (touch i j).
             ++ rewrite nth_error_upd_neq by lia. now apply Hout.
             ++ now apply Hout.
      + destruct HS as [-> Hab].
        exists m', out'. repeat split; auto; try lia.
        intros j' Hj'. rewrite Hout by lia.
        destruct (Nat.ltb_spec j' j); simpl; auto.
        now rewrite (gtouch_above i j j') by (auto; lia).
    - intros st (m' & out' & -> & Hm' & Hmj & Hl & Hd & Hout).
      exists m', out'. repeat split; auto; try lia.
      intros j Hj. rewrite Hout by lia.
      destruct (Nat.ltb_spec j (m + (hi - m))); simpl; auto.
      destruct (touch i j) eqn:Et; auto.
      apply Htouch in Et. destruct Et as (a & b & y & _ & _ & Hy & _).
      assert (valid yo j) by (exists y; auto). apply Hjmm in H0. lia.
  Qed.

  Lemma gscan_ok out0 :
    List.length out0 = List.length yo ->
    (forall j, j < List.length yo -> nth_error out0 j = Some nan) ->
    exists st, for_each (pyrange (Z.of_nat imin) (Z.of_nat imax))
                 (interval_step_g o step yi yo (Z.of_nat jmax) (Z.of_nat hi))
                 (Z.of_nat jmin, out0) = Ok st /\
      List.length (snd st) = List.length yo /\
      forall j, j < List.length yo ->
        nth_error (snd st) j = Some (gbest touch W j (List.length yi)).
  Proof.
    intros Hl0 Hnan.
    pose proof (valid_glt _ _ Himax) as Hil. pose proof (valid_glt _ _ Hjmax) as Hjl.
    assert (Hrange : forall i j, touch i j = true -> imin <= i < imax).
    { intros i j Ht. apply Htouch in Ht. destruct Ht as (a & b & y & Ha & Hb & _).
      assert (valid yi i) by (exists a; auto). assert (valid yi (S i)) by (exists b; auto).
      apply Himm in H, H0. lia. }
    assert (Hgbest : forall j k, imax <= k -> gbest touch W j k = gbest touch W j imax).
    { intros j k Hk. induction Hk as [|k Hk IH]; auto. simpl.
      destruct (touch k j) eqn:Et; auto. apply Hrange in Et. lia. }
    rewrite pyrange_nat, for_each_map.
    apply for_each_seq with (I := fun i st =>
      exists m out, st = (Z.of_nat m, out) /\ jmin <= m <= jmax /\
        List.length out = List.length yo /\
        (forall i' j, i <= i' -> j < m -> touch i' j = false) /\
        forall j, j < List.length yo -> nth_error out j = Some (gbest touch W j i)).
    - exists jmin, out0. repeat split; auto; try lia.
      + apply Hjmm in Hjmin. lia.
      + intros i' j _ Hj. destruct (touch i' j) eqn:Et; auto.
        apply Htouch in Et. destruct Et as (a & b & y & _ & _ & Hy & _).
        assert (valid yo j) by (exists y; auto). apply Hjmm in H. lia.
      + intros j Hj. rewrite Hnan by auto. f_equal. symmetry. apply gbest_none.
        intros i Hi. destruct (touch i j) eqn:Et; auto. apply Hrange in Et. lia.
    - intros i st Hi (m & out & -> & Hm & Hl & Hd & Hout).
      unfold interval_step_g. cbn [fst].
      replace (Z.of_nat i + 1)%Z with (Z.of_nat (S i)) by lia.
      assert (Himr : imin <= i < imax) by lia.
      rewrite !pyget_gyat by lia. cbn [bindc].
      destruct (fltb (yat yi (S i)) (yat yo m)) eqn:Ec.
      + (* continue *)
        exists m, out. repeat split; auto; try lia.
        * intros i' j Hi' Hj. apply Hd; lia.
        * intros j Hj. rewrite Hout by auto. simpl.
          replace (touch i j) with false; auto. symmetry.
          destruct (Nat.lt_ge_cases j m) as [Hjm|Hjm]; [apply Hd; lia|].
          apply (gtouch_above i m); auto. apply (gabove_val _ _ _ _ Gyi Gyo). apply gfltb_val in Ec; [|assumption|assumption].
          exact Ec.
      + destruct (fltb (yat yo jmax) (yat yi i)) eqn:Eb.
        * (* break *)
          cbn [snd]. split; [assumption|]. intros j Hj. rewrite Hout by auto. f_equal.
          rewrite (Hgbest j (List.length yi)) by lia.
          assert (Hno : forall i', i <= i' -> touch i' j = false).
          { intros i' Hi'. destruct (touch i' j) eqn:Et; auto. exfalso.
            apply Htouch in Et. destruct Et as (a & b & y & Ha & Hb & Hy & Hle).
            apply gfltb_val in Eb; [|assumption|assumption]. destruct Eb as (ym & ai & Hym & Hai & Hlt).
            assert (y <= ym)%R.
            { assert (Hvj : valid yo j) by (exists y; auto). apply Hjmm in Hvj.
              destruct (Nat.eq_dec j jmax) as [->|].
              - pose proof (val_gfun _ _ _ _ Hy Hym); subst; lra.
              - apply (Hnd j jmax); auto; lia. }
            assert (ai <= a)%R.
            { destruct (Nat.eq_dec i i') as [->|].
              - pose proof (val_gfun _ _ _ _ Ha Hai); subst; lra.
              - apply Rlt_le. apply (Hincr i i'); auto; lia. }
            lra. }
          clear - Hno Himr. induction imax as [|k IH]; [lia|]. simpl.
          destruct (Nat.eq_dec i k) as [->|Hne].
          -- now rewrite Hno by lia.
          -- rewrite Hno by lia. apply IH. lia.
        * destruct (ginner_ok i m out Himr Hm Hl Eb Hd) as (st & Est & Hst).
          rewrite Est. cbn [next_of].
          destruct Hst as (m' & out' & -> & Hm' & Hl' & Hd' & Ho').
          exists m', out'. repeat split; auto; try lia.
          intros j Hj. rewrite Ho' by auto. simpl. destruct (touch i j); auto.
    - intros st (m & out & -> & Hm & Hl & Hd & Hout). cbn [snd].
      split; [assumption|].
      intros j Hj. rewrite Hout by auto. f_equal.
      apply Himm in Himin. replace (imin + (imax - imin)) with imax by lia.
      rewrite (Hgbest j (List.length yi)) by lia. reflexivity.
  Qed.
End Scan.


(** ** Rows *)
Definition gtouchb (yi yo : list fl) (i j : nat) : bool :=
  fleb f0 (fsub (yat yo j) (yat yi i)) && fleb f0 (fsub (yat yi (S i)) (yat yo j)).
Local Notation touchb := gtouchb.
Lemma gtouchb_vals yi yo i j : Forall good yi -> Forall good yo -> (touchb yi yo i j = true <->
  exists a b y, val yi i a /\ val yi (S i) b /\ val yo j y /\ (a <= y <= b)%R).
Proof.
  intros Gi Go. unfold gtouchb. rewrite andb_true_iff, !L_sub_ge by now apply good_yat. split.
  - intros [(y & a & Hy & Ha & H1) (b & y' & Hb & Hy' & H2)]. rewrite Hy in Hy'. injection Hy' as <-.
    exists a, b, y. rewrite rank_yat in *. auto.
  - intros (a & b & y & Ha & Hb & Hy & H). rewrite <- rank_yat in *. split; [exists y, a|exists b, y]; tauto.
Qed.
Lemma gtouchb_cell yi yo i j : Forall good yi -> Forall good yo -> (touchb yi yo i j = true <->
  exists y, val yo j y /\ in_cell yi i y).
Proof.
  intros Gi Go. rewrite gtouchb_vals by auto. unfold gin_cell. split.
  - intros (a & b & y & Ha & Hb & Hy & H); exists y; split; auto; exists a, b; auto.
  - intros (y & Hy & a & b & H). exists a, b, y. tauto.
Qed.
Lemma gscan_nan_yo step yi yo iyimin iyimax hi out0 :
  Forall good yi -> Forall good yo ->
  (forall k, ~ valid yo k) -> 0 < List.length yo ->
  (0 <= iyimin)%Z \/ (iyimax <= iyimin)%Z -> (iyimax < Z.of_nat (List.length yi))%Z ->
  (hi <= Z.of_nat (List.length yo))%Z ->
  (forall i j st, (0 <= i)%Z -> (i + 1 < Z.of_nat (List.length yi))%Z ->
      (-1 <= j < Z.of_nat (List.length yo))%Z -> step i j st = Next st) ->
  for_each (pyrange iyimin iyimax)
    (interval_step_g o step yi yo (-1) hi) (-1, out0)%Z = Ok (-1, out0)%Z.
Proof.
  intros Gi Go Hno Hpos Hi Him Hhi Hst.
  assert (Hin_good : forall l i t, Forall good l -> pyget l i = Ok t -> good t).
  { intros l i t G H. unfold pyget in H. destruct (pyidx (List.length l) i) as [k|]; [|discriminate].
    destruct (nth_error l k) as [t'|] eqn:E; [|discriminate]. injection H as <-.
    rewrite Forall_forall in G. apply G. eapply nth_error_In; eauto. }
  assert (Hy : exists x, pyget yo (-1)%Z = Ok x /\ rank x = None).
  { exists (yat yo (List.length yo - 1)). split; [now apply pyget_glast|].
    destruct (rank (yat yo (List.length yo - 1))) eqn:E; auto.
    exfalso. apply (Hno (List.length yo - 1)). exists r. now apply rank_yat. }
  destruct Hy as (x & Hx & Rx). assert (Gx := Hin_good _ _ _ Go Hx).
  destruct (for_each_ok (pyrange iyimin iyimax)
    (interval_step_g o step yi yo (-1) hi) (fun st => st = (-1, out0)%Z) (-1, out0)%Z
    eq_refl) as (r & Hr & ->); [|exact Hr].
  intros i st Hin ->. apply in_pyrange in Hin.
  unfold interval_step_g. cbn [fst].
  destruct (pyget_ok yi (i + 1)) as [y1 Hy1]; [lia|].
  destruct (pyget_ok yi i) as [y0 Hy0]; [lia|].
  rewrite Hy1, Hy0, Hx. cbn [bindc].
  assert (G1 := Hin_good _ _ _ Gi Hy1). assert (G0 := Hin_good _ _ _ Gi Hy0).
  assert (F1 : fltb y1 x = false).
  { destruct (fltb y1 x) eqn:E; auto. apply L_lt in E; auto. destruct E as (p & q & _ & E & _). congruence. }
  assert (F2 : fltb x y0 = false).
  { destruct (fltb x y0) eqn:E; auto. apply L_lt in E; auto. destruct E as (p & q & E & _). congruence. }
  rewrite F1, F2.
  destruct (for_each_ok (pyrange (-1) hi) (step i) (fun st => st = (-1, out0)%Z) (-1, out0)%Z
    eq_refl) as (r & Hr & ->).
  - intros j st Hj ->. apply in_pyrange in Hj. rewrite Hst; auto; lia.
  - rewrite Hr. reflexivity.
Qed.

(** ** linear1d *)
(** What the division is applied to *)
Definition gden (a y b : fl) : fl := n_add o (fsub y a) (fsub b y).
Hypothesis L_div : forall x ta ty tb a y b, good ta -> good ty -> good tb ->
  rank ta = Some a -> rank ty = Some y -> rank tb = Some b -> (a <= y <= b)%R -> (a < b)%R ->
  exists z, n_div o x (gden ta ty tb) = Ok z.
(** The expression computed in a cell *)
Definition glin (u w a y b : fl) : fl :=
  match n_div o (n_add o (n_mul o u (fsub b y)) (n_mul o w (fsub y a))) (gden a y b) with Ok x => x | Raise _ => nan end.
Definition glinW (v yi yo : list fl) (i j : nat) : fl := glin (yat v i) (yat v (S i)) (yat yi i) (yat yo j) (yat yi (S i)).

Lemma glinear_step_ok v yi yo i j m jmax out :
  Forall good yi -> Forall good yo ->
  increasing yi -> nondecreasing yo -> List.length v = List.length yi ->
  (forall k, valid yo k -> k <= jmax) -> valid yo jmax ->
  S i < List.length yi -> j < List.length yo -> m <= j ->
  List.length out = List.length yo ->
  fltb (yat yo jmax) (yat yi i) = false ->
  match linear_step_g o v yi yo (Z.of_nat i) (Z.of_nat j) (Z.of_nat m, out) with
  | Fail _ => False
  | Break st => st = (Z.of_nat m, out) /\ above yi yo i j = true
  | Next (m2, out2) =>
    out2 = (if touchb yi yo i j then upd out j (glinW v yi yo i j) else out) /\
    exists m', m2 = Z.of_nat m' /\
      (m' = m \/ (m <= m' /\ m' <= S j /\ m' <= jmax /\
                  forall i' j', i < i' -> j' < m' -> touchb yi yo i' j' = false))
  end.
Proof.
  intros Gyi Gyo Hinc Hnd Hlv Hjm Hjv Hi Hj Hmj Hlo Hnb.
  unfold linear_step_g.
  replace (Z.of_nat i + 1)%Z with (Z.of_nat (S i)) by lia.
  rewrite !pyget_gyat by lia. cbn [bindc].
  fold (above yi yo i j). destruct (above yi yo i j) eqn:Ea; [auto|].
  fold (below yi yo i j). destruct (below yi yo i j) eqn:Eb.
  - assert (Ht : touchb yi yo i j = false).
    { destruct (touchb yi yo i j) eqn:Et; auto. apply (gtouchb_vals _ _ _ _ Gyi Gyo) in Et.
      destruct Et as (a & b & y & Ha & Hb & Hy & Hle). apply (gbelow_val _ _ _ _ Gyi Gyo) in Eb.
      destruct Eb as (a' & y' & Ha' & Hy' & Hlt).
      pose proof (val_gfun _ _ _ _ Ha Ha'). pose proof (val_gfun _ _ _ _ Hy Hy'). subst. lra. }
    rewrite Ht. split; auto. exists (S j). split; [lia|]. right.
    apply (gbelow_val _ _ _ _ Gyi Gyo) in Eb. destruct Eb as (a & y & Ha & Hy & Hlt).
    assert (Hjlt : j < jmax).
    { pose proof (Hjm j (ex_intro _ y Hy)).
      destruct (Nat.eq_dec j jmax) as [->|]; [|lia].
      exfalso. assert (fltb (yat yo jmax) (yat yi i) = true); [|congruence].
      apply (gfltb_val _ _ _ _ Gyo Gyi). exists y, a. auto. }
    repeat split; try lia.
    intros i' j' Hi' Hj'. destruct (touchb yi yo i' j') eqn:Et; auto. exfalso.
    apply (gtouchb_vals _ _ _ _ Gyi Gyo) in Et. destruct Et as (a' & b' & y' & Ha' & Hb' & Hy' & Hle).
    assert (y' <= y)%R.
    { destruct (Nat.eq_dec j' j) as [->|].
      - pose proof (val_gfun _ _ _ _ Hy Hy'); subst; lra.
      - apply (Hnd j' j); auto; lia. }
    assert (a < a')%R by (apply (Hinc i i'); auto). lra.
  - fold (touchb yi yo i j). destruct (touchb yi yo i j) eqn:Et.
    + apply (gtouchb_vals _ _ _ _ Gyi Gyo) in Et. destruct Et as (a & b & y & Ha & Hb & Hy & Hle).
      assert (a < b)%R by (apply (Hinc i (S i)); auto).
      unfold glinW, glin. apply rank_yat in Ha, Hb, Hy.
      destruct (L_div (n_add o (n_mul o (yat v i) (fsub (yat yi (S i)) (yat yo j))) (n_mul o (yat v (S i)) (fsub (yat yo j) (yat yi i))))
                 _ _ _ _ _ _ (good_yat yi i Gyi) (good_yat yo j Gyo) (good_yat yi (S i) Gyi) Ha Hy Hb Hle H) as [z Hz].
      rewrite Hz. unfold gden in Hz. rewrite Hz. cbn [bindc].
      rewrite pyset_nat by lia. cbn [bindc]. split; auto. exists m; auto.
    + split; auto. exists m; auto.
Qed.
Lemma pyget_rank_none yo j y : Forall good yo -> (forall k, ~ valid yo k) -> pyget yo j = Ok y -> good y /\ rank y = None.
Proof.
  intros Go Hno Hy. unfold pyget in Hy. destruct (pyidx (List.length yo) j) as [k|]; [|discriminate].
  destruct (nth_error yo k) as [t|] eqn:E; [|discriminate]. injection Hy as ->. split.
  - rewrite Forall_forall in Go. apply Go. eapply nth_error_In; eauto.
  - destruct (rank y) eqn:Er; auto. exfalso. apply (Hno k). exists r, y. auto.
Qed.
Lemma pyget_good l i t : Forall good l -> pyget l i = Ok t -> good t.
Proof.
  intros G H. unfold pyget in H. destruct (pyidx (List.length l) i) as [k|]; [|discriminate].
  destruct (nth_error l k) as [t'|] eqn:E; [|discriminate]. injection H as <-.
  rewrite Forall_forall in G. apply G. eapply nth_error_In; eauto.
Qed.
Lemma none_tests y0 y1 y : good y0 -> good y1 -> good y -> rank y = None ->
  fltb (fsub y1 y) f0 = false /\ fltb (fsub y y0) f0 = false /\ fleb f0 (fsub y y0) = false.
Proof.
  intros G0 G1 G R. split; [|split].
  - destruct (fltb (fsub y1 y) f0) eqn:E; auto. apply L_sub_lt in E; auto. destruct E as (p & q & _ & E & _). congruence.
  - destruct (fltb (fsub y y0) f0) eqn:E; auto. apply L_sub_lt in E; auto. destruct E as (p & q & E & _). congruence.
  - destruct (fleb f0 (fsub y y0)) eqn:E; auto. apply L_sub_ge in E; auto. destruct E as (p & q & E & _). congruence.
Qed.

Lemma glinear_row_best v yi yo :
  Forall good yi -> Forall good yo ->
  increasing yi -> nondecreasing yo -> List.length v = List.length yi ->
  0 < List.length yo ->
  exists out, linear_row_g o v yi yo (List.repeat nan (List.length yo)) = Ok out /\ List.length out = List.length yo /\
    forall j, j < List.length yo ->
      nth_error out j = Some (gbest (touchb yi yo) (glinW v yi yo) j (List.length yi)).
Proof.
  intros Gyi Gyo Hinc Hnd Hlv Hpos.
  assert (Hrep : forall j, j < List.length yo ->
            nth_error (List.repeat nan (List.length yo)) j = Some nan).
  { intros j Hj. now apply nth_error_repeat. }
  unfold linear_row_g.
  destruct (giminmax_valid yi Gyi) as ([imin imax] & -> & Hi).
  destruct (giminmax_valid yo Gyo) as ([jmin jmax] & -> & Hj). cbn [bind].
  destruct Hi as [[Hi Hno]|(a & b & Hi & Hva & Hvb & Hab)]; inversion Hi; subst; clear Hi.
  - (* no valid input coordinate *)
    change (pyrange (-1) (-1)) with (@nil Z). cbn [for_each bind snd].
    eexists; split; [reflexivity|]. split; [apply repeat_length|].
    intros j Hj'. rewrite Hrep by auto. f_equal. symmetry. apply gbest_none.
    intros i _. destruct (touchb yi yo i j) eqn:Et; auto. apply (gtouchb_vals _ _ _ _ Gyi Gyo) in Et.
    destruct Et as (x & _ & _ & Hx & _). exfalso. apply (Hno i). now exists x.
  - destruct Hj as [[Hj Hno]|(c & d & Hj & Hvc & Hvd & Hcd)]; inversion Hj; subst; clear Hj.
    + (* no valid output coordinate *)
      rewrite gscan_nan_yo; auto; try lia.
      * cbn [bind snd]. eexists; split; [reflexivity|]. split; [apply repeat_length|].
        intros j Hj'. rewrite Hrep by auto. f_equal. symmetry. apply gbest_none.
        intros i _. destruct (touchb yi yo i j) eqn:Et; auto. apply (gtouchb_vals _ _ _ _ Gyi Gyo) in Et.
        destruct Et as (x & x' & y & _ & _ & Hy & _). exfalso. apply (Hno j). now exists y.
      * pose proof (valid_glt _ _ Hvb). lia.
      * intros i j [m out] Hi0 Hi1 Hjr. unfold linear_step_g.
        destruct (pyget_ok yo j) as [y Hy]; [lia|].
        destruct (pyget_ok yi i) as [y0 Hy0]; [lia|].
        destruct (pyget_ok yi (i + 1)) as [y1 Hy1]; [lia|].
        rewrite Hy, Hy0, Hy1. cbn [bindc].
        destruct (pyget_rank_none yo j y Gyo Hno Hy) as [Gy Ry].
        destruct (none_tests y0 y1 y (pyget_good _ _ _ Gyi Hy0) (pyget_good _ _ _ Gyi Hy1) Gy Ry) as (E1 & E2 & E3).
        rewrite E1, E2, E3. reflexivity.
    + destruct (gscan_ok yi yo (linear_step_g o v yi yo) (touchb yi yo) (glinW v yi yo)
                  a b c d (S d)) with (out0 := List.repeat nan (List.length yo))
        as (st & Hst & Hl & Hout); auto.
      * pose proof (valid_glt _ _ Hvd). lia.
      * intros i j Ht. apply (gtouchb_vals _ _ _ _ Gyi Gyo) in Ht. exact Ht.
      * intros i j m out Hi Hm Hmd Hj Hlo Hnb.
        pose proof (valid_glt _ _ Hvb). pose proof (valid_glt _ _ Hvd).
        apply glinear_step_ok with (jmax := d); auto; try lia.
        intros k Hk. apply Hcd in Hk. lia.
      * apply repeat_length.
      * replace (Z.of_nat d + 1)%Z with (Z.of_nat (S d)) by lia.
        rewrite Hst. cbn [bind].
        eexists; split; [reflexivity|]. auto.
Qed.

Lemma gcells_adjacent yi i i' y :
  increasing yi -> in_cell yi i y -> in_cell yi i' y -> i < i' -> i' = S i.
Proof.
  intros Hinc (a & b & Ha & Hb & Hy) (a' & b' & Ha' & Hb' & Hy') Hlt.
  destruct (Nat.eq_dec i' (S i)) as [|Hne]; auto. exfalso.
  assert (b < a')%R by (apply (Hinc (S i) i'); auto; lia). lra.
Qed.
Lemma gin_cell_lt yi i y : in_cell yi i y -> S i < List.length yi.
Proof. intros (a & b & Ha & Hb & _). apply valid_glt. now exists b. Qed.
Lemma gbest_cell W yi yo i j y :
  Forall good yi -> Forall good yo ->
  increasing yi -> val yo j y -> in_cell yi i y -> ~ in_cell yi (S i) y ->
  gbest (touchb yi yo) W j (List.length yi) = W i j.
Proof.
  intros Gyi Gyo Hinc Hy Hc Hn. apply gbest_last.
  - apply gin_cell_lt in Hc. lia.
  - apply gtouchb_cell; eauto.
  - intros i' Hi'. destruct (touchb yi yo i' j) eqn:Et; auto. exfalso.
    apply (gtouchb_cell _ _ _ _ Gyi Gyo) in Et. destruct Et as (y' & Hy' & Hc').
    pose proof (val_gfun _ _ _ _ Hy Hy'); subst y'.
    assert (i' = S i) as -> by (eapply gcells_adjacent; eauto; lia). contradiction.
Qed.
Lemma gbest_out W yi yo j :
  Forall good yi -> Forall good yo ->
  ~ (exists y i, val yo j y /\ in_cell yi i y) ->
  gbest (touchb yi yo) W j (List.length yi) = nan.
Proof.
  intros Gyi Gyo Hn. apply gbest_none. intros i _.
  destruct (touchb yi yo i j) eqn:Et; auto. exfalso. apply Hn.
  apply (gtouchb_cell _ _ _ _ Gyi Gyo) in Et. destruct Et as (y & Hy & Hc). eauto.
Qed.
(** The cell that counts: the upper one for a shared node *)
Lemma gupper_cell yi yo j i0 y : Forall good yi -> Forall good yo -> increasing yi -> val yo j y -> in_cell yi i0 y ->
  exists i, in_cell yi i y /\ ~ in_cell yi (S i) y.
Proof.
  intros Gyi Gyo Hinc Hy Hc0. destruct (touchb yi yo (S i0) j) eqn:Et.
  - apply (gtouchb_cell _ _ _ _ Gyi Gyo) in Et. destruct Et as (y' & Hy' & Hc').
    pose proof (val_gfun _ _ _ _ Hy Hy'); subst y'.
    exists (S i0). split; auto. intro H2.
    assert (S (S i0) = S i0) by (eapply gcells_adjacent; eauto). lia.
  - exists i0. split; auto. intro H. assert (touchb yi yo (S i0) j = true); [|congruence].
    apply gtouchb_cell; eauto.
Qed.

(** ** nearest1d *)
Definition gnear (u w a y b : fl) : fl := if fleb (fsub y a) (fsub b y) then u else w.
Definition gnearW (v yi yo : list fl) (i j : nat) : fl := gnear (yat v i) (yat v (S i)) (yat yi i) (yat yo j) (yat yi (S i)).
Lemma gnot_above_below yi yo i j a b y :
  Forall good yi -> Forall good yo ->
  val yi i a -> val yi (S i) b -> val yo j y ->
  above yi yo i j = false -> below yi yo i j = false -> touchb yi yo i j = true.
Proof.
  intros Gyi Gyo Ha Hb Hy Hab Hbe. apply (gtouchb_vals _ _ _ _ Gyi Gyo). exists a, b, y. repeat split; auto.
  - destruct (Rlt_le_dec y a) as [Hlt|]; auto. exfalso.
    assert (below yi yo i j = true); [|congruence]. apply gbelow_val; eauto.
  - destruct (Rlt_le_dec b y) as [Hlt|]; auto. exfalso.
    assert (above yi yo i j = true); [|congruence]. apply gabove_val; eauto.
Qed.
Lemma gnearest_step_ok v yi yo i j m jmax out :
  Forall good yi -> Forall good yo ->
  increasing yi -> nondecreasing yo -> List.length v = List.length yi ->
  (forall k, valid yo k -> k <= jmax) -> valid yo jmax ->
  valid yi i -> valid yi (S i) -> valid yo j -> m <= j ->
  List.length out = List.length yo ->
  fltb (yat yo jmax) (yat yi i) = false ->
  match nearest_step_g o v yi yo (Z.of_nat i) (Z.of_nat j) (Z.of_nat m, out) with
  | Fail _ => False
  | Break st => st = (Z.of_nat m, out) /\ above yi yo i j = true
  | Next (m2, out2) =>
    out2 = (if touchb yi yo i j then upd out j (gnearW v yi yo i j) else out) /\
    exists m', m2 = Z.of_nat m' /\
      (m' = m \/ (m <= m' /\ m' <= S j /\ m' <= jmax /\
                  forall i' j', i < i' -> j' < m' -> touchb yi yo i' j' = false))
  end.
Proof.
  intros Gyi Gyo Hinc Hnd Hlv Hjm Hjv [a Ha] [b Hb] [y Hy] Hmj Hlo Hnb.
  assert (Hi : S i < List.length yi) by (apply valid_glt; now exists b).
  assert (Hj : j < List.length yo) by (apply valid_glt; now exists y).
  pose proof (glinear_step_ok v yi yo i j m jmax out Gyi Gyo Hinc Hnd Hlv Hjm Hjv Hi Hj Hmj Hlo Hnb) as HL.
  revert HL. unfold linear_step_g, nearest_step_g.
  replace (Z.of_nat i + 1)%Z with (Z.of_nat (S i)) by lia.
  rewrite !pyget_gyat by lia. cbn [bindc].
  fold (above yi yo i j). destruct (above yi yo i j) eqn:Ea; [auto|].
  fold (below yi yo i j). destruct (below yi yo i j) eqn:Eb.
  - assert (Ht : touchb yi yo i j = false).
    { destruct (touchb yi yo i j) eqn:Et; auto. apply (gtouchb_vals _ _ _ _ Gyi Gyo) in Et.
      destruct Et as (a1 & b1 & y1 & Ha1 & Hb1 & Hy1 & Hle). apply (gbelow_val _ _ _ _ Gyi Gyo) in Eb.
      destruct Eb as (a' & y' & Ha' & Hy' & Hlt).
      pose proof (val_gfun _ _ _ _ Ha1 Ha'). pose proof (val_gfun _ _ _ _ Hy1 Hy'). subst. lra. }
    rewrite !Ht. auto.
  - intros _. rewrite (gnot_above_below yi yo i j a b y) by auto.
    unfold gnearW, gnear.
    destruct (fleb (fsub (yat yo j) (yat yi i)) (fsub (yat yi (S i)) (yat yo j))).
    + rewrite pyset_nat by lia. cbn [bindc]. split; auto. exists m; auto.
    + rewrite pyset_nat by lia. cbn [bindc]. split; auto. exists m; auto.
Qed.
Lemma gnearest_row_best v yi yo :
  Forall good yi -> Forall good yo ->
  increasing yi -> nondecreasing yo -> gno_hole rank yi -> gno_hole rank yo ->
  List.length v = List.length yi -> (exists k, valid yo k) ->
  exists out, nearest_row_g o v yi yo (List.repeat nan (List.length yo)) = Ok out /\
    List.length out = List.length yo /\
    forall j, j < List.length yo ->
      nth_error out j = Some (gbest (touchb yi yo) (gnearW v yi yo) j (List.length yi)).
Proof.
  intros Gyi Gyo Hinc Hnd Hhi Hho Hlv [k0 Hk0].
  assert (Hrep : forall j, j < List.length yo ->
            nth_error (List.repeat nan (List.length yo)) j = Some nan).
  { intros j Hj. now apply nth_error_repeat. }
  unfold nearest_row_g.
  destruct (giminmax_valid yi Gyi) as ([imin imax] & -> & Hi).
  destruct (giminmax_valid yo Gyo) as ([jmin jmax] & -> & Hj). cbn [bind].
  destruct Hi as [[Hi Hno]|(a & b & Hi & Hva & Hvb & Hab)]; inversion Hi; subst; clear Hi.
  - change (pyrange (-1) (-1)) with (@nil Z). cbn [for_each bind snd].
    eexists; split; [reflexivity|]. split; [apply repeat_length|].
    intros j Hj'. rewrite Hrep by auto. f_equal. symmetry. apply gbest_none.
    intros i _. destruct (touchb yi yo i j) eqn:Et; auto. apply (gtouchb_vals _ _ _ _ Gyi Gyo) in Et.
    destruct Et as (x & _ & _ & Hx & _). exfalso. apply (Hno i). now exists x.
  - destruct Hj as [[Hj Hno]|(c & d & Hj & Hvc & Hvd & Hcd)]; inversion Hj; subst; clear Hj.
    + exfalso. now apply (Hno k0).
    + destruct (gscan_ok yi yo (nearest_step_g o v yi yo) (touchb yi yo) (gnearW v yi yo)
                  a b c d (S d)) with (out0 := List.repeat nan (List.length yo))
        as (st & Hst & Hl & Hout); auto.
      * pose proof (valid_glt _ _ Hvd). lia.
      * intros i j Ht. apply (gtouchb_vals _ _ _ _ Gyi Gyo) in Ht. exact Ht.
      * intros i j m out Hi Hm Hmd Hj Hlo Hnb.
        apply gnearest_step_ok with (jmax := d); auto; try lia.
        -- intros k Hk. apply Hcd in Hk. lia.
        -- apply (Hhi a b); auto; lia.
        -- apply (Hhi a b); auto; lia.
        -- apply (Hho c d); auto; lia.
      * apply repeat_length.
      * replace (Z.of_nat d + 1)%Z with (Z.of_nat (S d)) by lia.
        rewrite Hst. cbn [bind].
        eexists; split; [reflexivity|]. auto.
Qed.

Lemma gincreasing_le yi i j a b :
  increasing yi -> i <= j -> val yi i a -> val yi j b -> (a <= b)%R.
Proof.
  intros Hinc Hle Ha Hb. destruct (Nat.eq_dec i j) as [->|].
  - pose proof (val_gfun _ _ _ _ Ha Hb); subst; lra.
  - apply Rlt_le. apply (Hinc i j); auto; lia.
Qed.

(** ** cubic1d and hermit1d *)
Definition gpolyW (poly : fl -> fl -> fl -> fl -> fl -> fl) (v yi yo : list fl)
    (imin imax i j : nat) : fl :=
  let dy0 := fsub (yat yo j) (yat yi i) in
  let dy1 := fsub (yat yi (S i)) (yat yo j) in
  let mu := match n_div o dy0 (n_add o dy0 dy1) with Ok x => x | Raise _ => nan end in
  let vc0 := if i =? imin then fsub (n_mul o (fc_g o 2) (yat v i)) (yat v (S i)) else yat v (i - 1) in
  let vc1 := if S i =? imax then fsub (n_mul o (fc_g o 2) (yat v (S i))) (yat v i)
             else yat v (S (S i)) in
  poly mu vc0 (yat v i) (yat v (S i)) vc1.

Lemma gget2_row vari ix v i :
  pyget vari ix = Ok v -> i < List.length v -> get2_g o vari ix (Z.of_nat i) = Ok (yat v i).
Proof. intros H Hi. unfold get2_g. rewrite H. cbn [bind]. now apply pyget_gyat. Qed.

Lemma gouter_values_ok vari ix v i imin imax :
  pyget vari ix = Ok v -> imin <= i -> i < imax -> imax < List.length v ->
  outer_values_g o vari ix ix (Z.of_nat i) (Z.of_nat imin) (Z.of_nat imax) =
  Ok (if i =? imin then fsub (n_mul o (fc_g o 2) (yat v i)) (yat v (S i)) else yat v (i - 1),
      if S i =? imax then fsub (n_mul o (fc_g o 2) (yat v (S i))) (yat v i) else yat v (S (S i))).
Proof.
  intros Hv H1 H2 H3. unfold outer_values_g.
  replace (Z.of_nat i + 1)%Z with (Z.of_nat (S i)) by lia.
  replace (Z.of_nat i + 2)%Z with (Z.of_nat (S (S i))) by lia.
  replace (Z.of_nat i =? Z.of_nat imin)%Z with (i =? imin)
    by (destruct (Nat.eqb_spec i imin), (Z.eqb_spec (Z.of_nat i) (Z.of_nat imin)); auto; lia).
  replace (Z.of_nat i =? Z.of_nat imax - 1)%Z with (S i =? imax)
    by (destruct (Nat.eqb_spec (S i) imax), (Z.eqb_spec (Z.of_nat i) (Z.of_nat imax - 1));
        auto; lia).
  destruct (Nat.eqb_spec i imin).
  - rewrite !(gget2_row vari ix v) by (auto; lia). cbn [bind].
    destruct (Nat.eqb_spec (S i) imax).
    + cbn [bind]. reflexivity.
    + rewrite (gget2_row vari ix v) by (auto; lia). reflexivity.
  - replace (Z.of_nat i - 1)%Z with (Z.of_nat (i - 1)) by lia.
    rewrite !(gget2_row vari ix v) by (auto; lia). cbn [bind].
    destruct (Nat.eqb_spec (S i) imax).
    + cbn [bind]. reflexivity.
    + rewrite (gget2_row vari ix v) by (auto; lia). reflexivity.
Qed.

Lemma gpoly_step_ok poly vari ix v yi yo imin imax i j m jmax out :
  Forall good yi -> Forall good yo ->
  increasing yi -> increasing yo -> pyget vari ix = Ok v ->
  List.length v = List.length yi ->
  (forall k, valid yo k -> k <= jmax) ->
  imin <= i -> i < imax -> imax < List.length yi -> j < List.length yo -> m <= j ->
  List.length out = List.length yo ->
  match poly_step_g o poly vari ix ix (Z.of_nat imin) (Z.of_nat imax) yi yo
          (Z.of_nat i) (Z.of_nat j) (Z.of_nat m, out) with
  | Fail _ => False
  | Break st => st = (Z.of_nat m, out) /\ above yi yo i j = true
  | Next (m2, out2) =>
    out2 = (if touchb yi yo i j then upd out j (gpolyW poly v yi yo imin imax i j) else out) /\
    exists m', m2 = Z.of_nat m' /\
      (m' = m \/ (m <= m' /\ m' <= S j /\ m' <= jmax /\
                  forall i' j', i < i' -> j' < m' -> touchb yi yo i' j' = false))
  end.
Proof.
  intros Gyi Gyo Hinc Hinco Hv Hlv Hjm Hi1 Hi2 Hi3 Hj Hmj Hlo.
  unfold poly_step_g.
  replace (Z.of_nat i + 1)%Z with (Z.of_nat (S i)) by lia.
  rewrite !pyget_gyat by lia. cbn [bindc].
  fold (above yi yo i j). destruct (above yi yo i j) eqn:Ea; [auto|].
  fold (touchb yi yo i j). destruct (touchb yi yo i j) eqn:Et.
  - apply (gtouchb_vals _ _ _ _ Gyi Gyo) in Et. destruct Et as (a & b & y & Ha & Hb & Hy & Hle).
    assert (a < b)%R by (apply (Hinc i (S i)); auto).
    unfold gpolyW. pose proof Ha as Ha'. pose proof Hb as Hb'. pose proof Hy as Hy'.
    apply rank_yat in Ha, Hb, Hy.
    destruct (L_div (fsub (yat yo j) (yat yi i)) _ _ _ _ _ _ (good_yat yi i Gyi) (good_yat yo j Gyo) (good_yat yi (S i) Gyi) Ha Hy Hb Hle H) as [z Hz].
    unfold gden in Hz. rewrite Hz. cbn [bindc].
    rewrite (gouter_values_ok vari ix v) by (auto; lia). cbn [bindc fst snd].
    rewrite !(gget2_row vari ix v) by (auto; lia). cbn [bindc].
    rewrite pyset_nat by lia. cbn [bindc]. split; [reflexivity|].
    exists j. split; [reflexivity|]. right. repeat split; try lia.
    + apply Hjm. now exists y.
    + intros i' j' Hi' Hj'. destruct (touchb yi yo i' j') eqn:Et; auto. exfalso.
      apply (gtouchb_vals _ _ _ _ Gyi Gyo) in Et. destruct Et as (a2 & b2 & y2 & Ha2 & Hb2 & Hy2 & Hle2).
      assert (y2 < y)%R by (apply (Hinco j' j); auto).
      assert (b <= a2)%R by (apply (gincreasing_le yi (S i) i'); auto). lra.
  - split; auto. exists m; auto.
Qed.

Lemma gincreasing_nd l : increasing l -> nondecreasing l.
Proof. intros H i j a b Hij Ha Hb. apply Rlt_le. eapply H; eauto. Qed.

(** First and last valid indices *)
Definition gfirst_valid (l : list fl) (a : nat) : Prop :=
  valid l a /\ forall k, valid l k -> a <= k.
Definition glast_valid (l : list fl) (b : nat) : Prop :=
  valid l b /\ forall k, valid l k -> k <= b.

Lemma gpoly_row_best poly vari ix v yi yo :
  Forall good yi -> Forall good yo ->
  increasing yi -> increasing yo -> pyget vari ix = Ok v ->
  List.length v = List.length yi -> 0 < List.length yo ->
  exists out, poly_row_g o poly vari ix ix yi yo (List.repeat nan (List.length yo)) = Ok out /\
    List.length out = List.length yo /\
    ((forall k, ~ valid yi k) /\ out = List.repeat nan (List.length yo) \/
     exists imin imax, gfirst_valid yi imin /\ glast_valid yi imax /\
     forall j, j < List.length yo ->
      nth_error out j
      = Some (gbest (touchb yi yo) (gpolyW poly v yi yo imin imax) j (List.length yi))).
Proof.
  intros Gyi Gyo Hinc Hinco Hv Hlv Hpos.
  assert (Hrep : forall j, j < List.length yo ->
            nth_error (List.repeat nan (List.length yo)) j = Some nan).
  { intros j Hj. now apply nth_error_repeat. }
  unfold poly_row_g.
  destruct (giminmax_valid yi Gyi) as ([imin imax] & -> & Hi).
  destruct (giminmax_valid yo Gyo) as ([jmin jmax] & -> & Hj). cbn [bind].
  destruct Hi as [[Hi Hno]|(a & b & Hi & Hva & Hvb & Hab)]; inversion Hi; subst; clear Hi.
  - change (pyrange (-1) (-1)) with (@nil Z). cbn [for_each bind snd].
    eexists; split; [reflexivity|]. split; [apply repeat_length|]. left. auto.
  - destruct Hj as [[Hj Hno]|(c & d & Hj & Hvc & Hvd & Hcd)]; inversion Hj; subst; clear Hj.
    + rewrite gscan_nan_yo; auto; try lia.
      * cbn [bind snd]. eexists; split; [reflexivity|]. split; [apply repeat_length|].
        right. exists a, b. split; [split; auto; intros k Hk; apply Hab in Hk; lia|].
        split; [split; auto; intros k Hk; apply Hab in Hk; lia|].
        intros j Hj'. rewrite Hrep by auto. f_equal. symmetry. apply gbest_none.
        intros i _. destruct (touchb yi yo i j) eqn:Et; auto. apply (gtouchb_vals _ _ _ _ Gyi Gyo) in Et.
        destruct Et as (x & x' & y & _ & _ & Hy & _). exfalso. apply (Hno j). now exists y.
      * pose proof (valid_glt _ _ Hvb). lia.
      * intros i j [m out] Hi0 Hi1 Hjr. unfold poly_step_g.
        destruct (pyget_ok yo j) as [y Hy]; [lia|].
        destruct (pyget_ok yi i) as [y0 Hy0]; [lia|].
        destruct (pyget_ok yi (i + 1)) as [y1 Hy1]; [lia|].
        rewrite Hy, Hy0, Hy1. cbn [bindc].
        destruct (pyget_rank_none yo j y Gyo Hno Hy) as [Gy Ry].
        destruct (none_tests y0 y1 y (pyget_good _ _ _ Gyi Hy0) (pyget_good _ _ _ Gyi Hy1) Gy Ry) as (E1 & E2 & E3).
        rewrite E1, E3. reflexivity.
    + destruct (gscan_ok yi yo
          (poly_step_g o poly vari ix ix (Z.of_nat a) (Z.of_nat b) yi yo)
          (touchb yi yo) (gpolyW poly v yi yo a b)
                  a b c d (List.length yo)) with (out0 := List.repeat nan (List.length yo))
        as (st & Hst & Hl & Hout); auto.
      * now apply gincreasing_nd.
      * pose proof (valid_glt _ _ Hvd). lia.
      * intros i j Ht. apply (gtouchb_vals _ _ _ _ Gyi Gyo) in Ht. exact Ht.
      * intros i j m out Hi Hm Hmd Hj Hlo Hnb.
        pose proof (valid_glt _ _ Hvb).
        apply gpoly_step_ok; auto; try lia.
        intros k Hk. apply Hcd in Hk. lia.
      * apply repeat_length.
      * rewrite Hst. cbn [bind]. eexists; split; [reflexivity|]. split; auto.
        right. exists a, b. split; [split; auto; intros k Hk; apply Hab in Hk; lia|].
        split; [split; auto; intros k Hk; apply Hab in Hk; lia|]. auto.
Qed.


End Facts.
