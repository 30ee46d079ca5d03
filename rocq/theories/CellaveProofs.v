(** extrap1d and cellave1d *)
From Verif Require Export InterpArrays.
Open Scope nat_scope.

(** ** extrap1d: specification *)



Lemma invalid_nan r i : i < List.length r -> ~ valid r i -> nth_error r i = Some nan.
Proof.
  intros Hi Hv. rewrite nth_error_yat by auto. f_equal.
  apply isnan_yat in Hv. destruct (yat r i); [discriminate|reflexivity].
Qed.

Lemma nth_error_fill_before {A} (l : list A) a x i :
  a <= List.length l ->
  nth_error (fill_before l (Z.of_nat a) x) i = if i <? a then Some x else nth_error l i.
Proof.
  intro Ha. unfold fill_before. rewrite Nat2Z.id, Nat.min_l by lia.
  destruct (Nat.ltb_spec i a).
  - rewrite nth_error_app1 by (now rewrite repeat_length). now apply nth_error_repeat.
  - rewrite nth_error_app2 by (now rewrite repeat_length). rewrite repeat_length.
    revert a i Ha H; induction l as [|y l IH]; intros a i Ha H.
    + simpl in Ha. assert (a = 0) by lia. subst. simpl. now rewrite Nat.sub_0_r.
    + destruct a as [|a]; simpl; [now rewrite Nat.sub_0_r|].
      destruct i as [|i]; [lia|]. simpl in Ha. change (S i - S a) with (i - a). simpl nth_error at 2. apply IH; lia.
Qed.

Lemma nth_error_fill_from {A} (l : list A) a x i :
  a <= List.length l ->
  nth_error (fill_from l (Z.of_nat a) x) i =
  if i <? a then nth_error l i else if i <? List.length l then Some x else None.
Proof.
  intro Ha. unfold fill_from. rewrite Nat2Z.id.
  assert (Hf : List.length (firstn a l) = a) by (rewrite firstn_length; lia).
  destruct (Nat.ltb_spec i a).
  - rewrite nth_error_app1 by lia.
    revert a i Ha Hf H; induction l as [|y l IH]; intros [|a] [|i] Ha Hf H; simpl in *; auto; try lia.
    apply IH; lia.
  - rewrite nth_error_app2 by lia. rewrite Hf.
    destruct (Nat.ltb_spec i (List.length l)).
    + apply nth_error_repeat. lia.
    + apply nth_error_None. rewrite repeat_length. lia.
Qed.

Lemma fill_before_length {A} (l : list A) a x :
  a <= List.length l -> List.length (fill_before l (Z.of_nat a) x) = List.length l.
Proof.
  intro Ha. unfold fill_before. rewrite app_length, repeat_length, skipn_length, Nat2Z.id. lia.
Qed.
Lemma fill_from_length {A} (l : list A) a x :
  a <= List.length l -> List.length (fill_from l (Z.of_nat a) x) = List.length l.
Proof.
  intro Ha. unfold fill_from. rewrite app_length, repeat_length, firstn_length, Nat2Z.id. lia.
Qed.

Lemma extrap_row_correct mode r :
  exists r', extrap_row mode r = Ok r' /\ extrap_row_spec mode r r'.
Proof.
  unfold extrap_row.
  destruct (get_iminmax_ok r) as ([imin imax] & -> & Hi). cbn [bind].
  destruct Hi as [[Hi Hno]|(a & b & Hi & Hva & Hvb & Hab)]; inversion Hi; subst; clear Hi.
  - change (-1 =? -1)%Z with true. cbn iota. exists r. split; auto. repeat split; auto.
    + intros i k x _ Hx. exfalso. apply (Hno k). now exists x.
    + intros i k x _ _ Hx. exfalso. apply (Hno k). now exists x.
    + intros i k1 k2 _ _ H. exfalso. now apply (Hno k1).
  - destruct (Z.eqb_spec (Z.of_nat a) (-1)) as [Hc|_]; [lia|].
    fold (fills_bottom mode). fold (fills_top mode).
    pose proof (valid_lt _ _ Hva) as Hla. pose proof (valid_lt _ _ Hvb) as Hlb.
    assert (Hle : a <= b) by (apply Hab; auto).
    destruct Hva as [xa Hxa]. destruct Hvb as [xb Hxb].
    rewrite (pyget_nat r a (Some xa)) by exact Hxa. cbn [bind].
    set (r1 := if fills_bottom mode then fill_before r (Z.of_nat a) (Some xa) else r).
    assert (E1 : (if fills_bottom mode then Ok (fill_before r (Z.of_nat a) (Some xa)) else Ok r)
                 = Ok r1) by (unfold r1; destruct (fills_bottom mode); auto).
    rewrite E1. cbn [bind].
    assert (Hl1 : List.length r1 = List.length r).
    { unfold r1; destruct (fills_bottom mode); auto. apply fill_before_length. lia. }
    assert (Hn1 : forall i, nth_error r1 i =
       if (i <? a) && fills_bottom mode then Some (Some xa) else nth_error r i).
    { intro i. unfold r1. destruct (fills_bottom mode).
      - rewrite nth_error_fill_before by lia. now rewrite andb_true_r.
      - now rewrite andb_false_r. }
    assert (Hxb1 : nth_error r1 b = Some (Some xb)).
    { rewrite Hn1. replace (b <? a) with false by (symmetry; apply Nat.ltb_ge; lia).
      exact Hxb. }
    rewrite (pyget_nat r1 b (Some xb)) by exact Hxb1. cbn [bind].
    replace (Z.of_nat b + 1)%Z with (Z.of_nat (S b)) by lia.
    set (r2 := if fills_top mode then fill_from r1 (Z.of_nat (S b)) (Some xb) else r1).
    assert (E2 : (if fills_top mode then Ok (fill_from r1 (Z.of_nat (S b)) (Some xb)) else Ok r1)
                 = Ok r2) by (unfold r2; destruct (fills_top mode); auto).
    rewrite E2. exists r2. split; auto.
    assert (Hl2 : List.length r2 = List.length r).
    { unfold r2; destruct (fills_top mode); auto. rewrite fill_from_length; lia. }
    assert (Hn2 : forall i, i < List.length r -> nth_error r2 i =
       if (b <? i) && fills_top mode then Some (Some xb)
       else if (i <? a) && fills_bottom mode then Some (Some xa) else nth_error r i).
    { intros i Hi. unfold r2. destruct (fills_top mode).
      - rewrite nth_error_fill_from by lia. rewrite andb_true_r, Hl1.
        destruct (Nat.ltb_spec i (S b)), (Nat.ltb_spec b i); try lia; auto.
        replace (i <? List.length r) with true by (symmetry; now apply Nat.ltb_lt). auto.
      - now rewrite andb_false_r, Hn1. }
    assert (Ha1 : forall k x, val r k x -> (forall k', k' < k -> ~ valid r k') -> k = a /\ x = xa).
    { intros k x Hk Hf. assert (Hvk : valid r k) by (now exists x). apply Hab in Hvk.
      destruct (Nat.eq_dec k a) as [->|].
      - split; auto. apply (val_fun _ _ _ _ Hk Hxa).
      - exfalso. apply (Hf a); [lia|]. now exists xa. }
    assert (Hb1 : forall k x, val r k x -> (forall k', k < k' -> ~ valid r k') -> k = b /\ x = xb).
    { intros k x Hk Hf. assert (Hvk : valid r k) by (now exists x). apply Hab in Hvk.
      destruct (Nat.eq_dec k b) as [->|].
      - split; auto. apply (val_fun _ _ _ _ Hk Hxb).
      - exfalso. apply (Hf b); [lia|]. now exists xb. }
    split; [exact Hl2|]. split.
    { intros i x Hx. assert (Hvi : valid r i) by (now exists x).
      pose proof (Hab i Hvi). pose proof (valid_lt _ _ Hvi). rewrite Hn2 by auto.
      replace (b <? i) with false by (symmetry; apply Nat.ltb_ge; lia).
      replace (i <? a) with false by (symmetry; apply Nat.ltb_ge; lia). exact Hx. }
    split.
    { intros i k x Hik Hk Hf. destruct (Ha1 k x Hk Hf) as [-> ->].
      rewrite Hn2 by lia.
      replace (b <? i) with false by (symmetry; apply Nat.ltb_ge; lia).
      replace (i <? a) with true by (symmetry; apply Nat.ltb_lt; lia). cbn [andb].
      destruct (fills_bottom mode); auto. apply invalid_nan; [lia|]. now apply Hf. }
    split.
    { intros i k x Hki Hi Hk Hf. destruct (Hb1 k x Hk Hf) as [-> ->].
      rewrite Hn2 by lia.
      replace (b <? i) with true by (symmetry; apply Nat.ltb_lt; lia).
      replace (i <? a) with false by (symmetry; apply Nat.ltb_ge; lia). cbn [andb].
      destruct (fills_top mode); auto. apply invalid_nan; [lia|]. now apply Hf. }
    split.
    { intros i k1 k2 H1 H2 V1 V2 Hi. apply Hab in V1. pose proof (Hab k2 V2).
      pose proof (valid_lt _ _ V2). rewrite Hn2 by lia.
      replace (b <? i) with false by (symmetry; apply Nat.ltb_ge; lia).
      replace (i <? a) with false by (symmetry; apply Nat.ltb_ge; lia). cbn [andb].
      apply invalid_nan; auto. lia. }
    { intro Hno. exfalso. apply (Hno a). now exists xa. }
Qed.

(** The specification determines the row. *)
Lemma valid_dec r i : valid r i \/ ~ valid r i.
Proof.
  destruct (isnan (yat r i)) eqn:E.
  - right. now apply isnan_yat.
  - left. now apply isnan_yat_false.
Qed.

Lemma extrap_spec_unique mode r r1 r2 :
  extrap_row_spec mode r r1 -> extrap_row_spec mode r r2 -> r1 = r2.
Proof.
  intros (L1 & A1 & B1 & C1 & D1 & E1) (L2 & A2 & B2 & C2 & D2 & E2).
  destruct (get_iminmax_ok r) as ([imin imax] & _ & Hi).
  destruct Hi as [[_ Hno]|(a & b & _ & Hva & Hvb & Hab)].
  - rewrite E1, E2; auto.
  - apply nth_error_ext. intro i.
    destruct (Nat.lt_ge_cases i (List.length r)) as [Hlt|Hge].
    2:{ rewrite (proj2 (nth_error_None r1 i)), (proj2 (nth_error_None r2 i)); auto; lia. }
    destruct (valid_dec r i) as [[x Hx]|Hn].
    + now rewrite (A1 i x Hx), (A2 i x Hx).
    + pose proof Hva as [xa Hxa]. pose proof Hvb as [xb Hxb].
      assert (Hfa : forall k', k' < a -> ~ valid r k').
      { intros k' Hk' Hv. apply Hab in Hv. lia. }
      assert (Hfb : forall k', b < k' -> ~ valid r k').
      { intros k' Hk' Hv. apply Hab in Hv. lia. }
      destruct (Nat.lt_ge_cases i a).
      * now rewrite (B1 i a xa), (B2 i a xa).
      * destruct (Nat.lt_ge_cases b i).
        -- now rewrite (C1 i b xb), (C2 i b xb).
        -- assert (i <> a) by (intros ->; contradiction).
           assert (i <> b) by (intros ->; contradiction).
           rewrite (D1 i a b), (D2 i a b); auto; lia.
Qed.

Lemma extrap_spec_idem mode r r1 r2 :
  extrap_row_spec mode r r1 -> extrap_row_spec mode r1 r2 -> r2 = r1.
Proof.
  intros H1 H2. apply (extrap_spec_unique mode r1); auto.
  destruct H1 as (L1 & A1 & B1 & C1 & D1 & E1).
  assert (Hval : forall i x, val r1 i x -> nth_error r1 i = Some (Some x)) by auto.
  destruct (get_iminmax_ok r) as ([imin imax] & _ & Hi).
  destruct Hi as [[_ Hno]|(a & b & _ & Hva & Hvb & Hab)].
  { pose proof (E1 Hno) as E. subst r1. repeat split; auto; intros; exfalso;
      match goal with
      | H : val r ?k ?x |- _ => apply (Hno k); now exists x
      | H : valid r ?k |- _ => now apply (Hno k)
      end. }
  pose proof Hva as [xa Hxa]. pose proof Hvb as [xb Hxb].
  assert (Hfa : forall k', k' < a -> ~ valid r k').
  { intros k' Hk' Hv. apply Hab in Hv. lia. }
  assert (Hfb : forall k', b < k' -> ~ valid r k').
  { intros k' Hk' Hv. apply Hab in Hv. lia. }
  assert (Hle : a <= b) by (apply Hab; auto).
  pose proof (valid_lt _ _ Hvb) as Hlb.
  split; auto. split; auto. split; [|split; [|split]].
  - intros i k x Hik Hk Hf.
    destruct (fills_bottom mode) eqn:Eb.
    + (* bottom filled: the first valid index of r1 is 0 *)
      exfalso. apply (Hf i Hik).
      destruct (Nat.lt_ge_cases i a) as [Hia|Hia].
      * exists xa. unfold val. now rewrite (B1 i a xa).
      * exfalso. apply (Hf a); [lia|]. exists xa. unfold val. now apply A1.
    + assert (Hka : k <= a).
      { destruct (Nat.le_gt_cases k a); auto. exfalso. apply (Hf a); auto.
        exists xa. unfold val. now apply A1. }
      apply B1 with (k := a) (x := xa); auto. lia.
  - intros i k x Hki Hi Hk Hf. rewrite L1 in Hi.
    destruct (fills_top mode) eqn:Eb.
    + exfalso. apply (Hf i Hki).
      destruct (Nat.lt_ge_cases b i) as [Hia|Hia].
      * exists xb. unfold val. now rewrite (C1 i b xb).
      * exfalso. apply (Hf b); [lia|]. exists xb. unfold val. now apply A1.
    + assert (Hka : b <= k).
      { destruct (Nat.le_gt_cases b k); auto. exfalso. apply (Hf b); auto.
        exists xb. unfold val. now apply A1. }
      apply C1 with (k := b) (x := xb); auto. lia.
  - intros i k1 k2 H1 H2' V1 V2 Hn.
    apply invalid_nan; auto. apply valid_lt in V2. lia.
  - auto.
Qed.

Lemma map_res_spec {A B} (f : A -> res B) (P : A -> B -> Prop) l :
  (forall x, exists y, f x = Ok y /\ P x y) ->
  exists l', map_res f l = Ok l' /\ Forall2 P l l'.
Proof.
  intro H. induction l as [|x l (l' & E & F)].
  - exists []. simpl. auto.
  - destruct (H x) as (y & Ey & Py). exists (y :: l'). simpl. rewrite Ey. simpl. rewrite E.
    simpl. auto.
Qed.

Lemma extrap_no r : extrap_row_spec "no" r r.
Proof.
  split; auto. split; auto. split; [|split; [|split]]; auto.
  - intros i k x Hik Hk Hf. simpl. apply invalid_nan; auto.
    assert (valid r k) by (now exists x). apply valid_lt in H. lia.
  - intros i k x Hik Hi Hk Hf. simpl. apply invalid_nan; auto.
  - intros i k1 k2 H1 H2 V1 V2 Hn. apply invalid_nan; auto. apply valid_lt in V2. lia.
Qed.

Lemma extrap1d_correct vari mode :
  exists out, extrap1d vari mode = Ok out /\ Forall2 (extrap_row_spec mode) vari out.
Proof.
  unfold extrap1d. destruct (String.eqb_spec mode "no") as [->|Hne].
  - exists vari. split; auto. induction vari; constructor; auto. apply extrap_no.
  - apply map_res_spec. intro r. apply extrap_row_correct.
Qed.

Lemma extrap1d_idem vari mode out :
  extrap1d vari mode = Ok out -> extrap1d out mode = Ok out.
Proof.
  intro H. destruct (extrap1d_correct vari mode) as (o & Ho & HF).
  rewrite H in Ho. inversion Ho; subst o.
  destruct (extrap1d_correct out mode) as (o2 & Ho2 & HF2). rewrite Ho2. f_equal.
  clear H Ho Ho2. revert o2 HF2. induction HF as [|r r' l l' Hr HF IH]; intros o2 HF2.
  - now inversion HF2.
  - inversion HF2 as [|? r2 ? l2 Hr2 HF2']; subst. f_equal; auto.
    eapply extrap_spec_idem; eauto.
Qed.

(** ** cellave1d *)


Lemma qsum_ext n f g : (forall i, i < n -> (f i == g i)%Q) -> (qsum n f == qsum n g)%Q.
Proof.
  induction n as [|n IH]; intro H; simpl; [reflexivity|].
  rewrite IH by (intros; apply H; lia). rewrite (H n) by lia. reflexivity.
Qed.
Lemma qsum_zero n f : (forall i, i < n -> (f i == 0)%Q) -> (qsum n f == 0)%Q.
Proof.
  induction n as [|n IH]; intro H; simpl; [reflexivity|].
  rewrite IH by (intros; apply H; lia). rewrite (H n) by lia. ring.
Qed.
Lemma qsum_plus n f g : (qsum n (fun i => f i + g i) == qsum n f + qsum n g)%Q.
Proof. induction n as [|n IH]; simpl; [ring|]. rewrite IH. ring. Qed.
Lemma qsum_scal n c f : (qsum n (fun i => c * f i) == c * qsum n f)%Q.
Proof. induction n as [|n IH]; simpl; [ring|]. rewrite IH. ring. Qed.
Lemma qsum_swap n m f :
  (qsum n (fun i => qsum m (fun j => f i j)) == qsum m (fun j => qsum n (fun i => f i j)))%Q.
Proof.
  induction n as [|n IH]; simpl.
  - symmetry. apply qsum_zero. reflexivity.
  - rewrite IH. rewrite <- qsum_plus. reflexivity.
Qed.
Lemma qsum_telescope n f : (qsum n (fun i => f (S i) - f i) == f n - f 0%nat)%Q.
Proof. induction n as [|n IH]; simpl; [ring|]. rewrite IH. ring. Qed.
Lemma qsum_le n f g : (forall i, i < n -> (f i <= g i)%Q) -> (qsum n f <= qsum n g)%Q.
Proof.
  induction n as [|n IH]; intro H; simpl; [lra|].
  assert (qsum n f <= qsum n g)%Q by (apply IH; intros; apply H; lia).
  assert (f n <= g n)%Q by (apply H; lia). lra.
Qed.
(** Beyond [k] all the terms vanish. *)
Lemma qsum_stop n k f : k <= n -> (forall i, k <= i < n -> (f i == 0)%Q) ->
  (qsum n f == qsum k f)%Q.
Proof.
  intro H. induction H as [|n Hn IH]; intro Hz; [reflexivity|]. simpl.
  rewrite IH by (intros; apply Hz; lia). rewrite (Hz n) by lia. ring.
Qed.


Definition g2 (a : arr) (i j : nat) : option fl :=
  match nth_error a i with Some r => nth_error r j | None => None end.

Lemma get2_g2 a i j x : g2 a i j = Some x -> get2 a (Z.of_nat i) (Z.of_nat j) = Ok x.
Proof.
  unfold g2, get2. destruct (nth_error a i) as [r|] eqn:E; [|discriminate]. intro H.
  rewrite (pyget_nat a i r E). cbn [bind]. now apply pyget_nat.
Qed.

Lemma set2_g2 a i j x y n m : shape a n m -> g2 a i j = Some y ->
  exists a', set2 a (Z.of_nat i) (Z.of_nat j) x = Ok a' /\ shape a' n m /\
    forall i' j', g2 a' i' j' = if (i' =? i) && (j' =? j) then Some x else g2 a i' j'.
Proof.
  intros Hs Hg. unfold g2 in Hg.
  destruct (nth_error a i) as [r|] eqn:E; [|discriminate].
  unfold set2. rewrite (pyget_nat a i r E). cbn [bind].
  assert (Hj : j < List.length r) by (apply nth_error_Some; congruence).
  assert (Hi : i < List.length a) by (apply nth_error_Some; congruence).
  rewrite pyset_nat by auto. cbn [bind]. rewrite pyset_nat by auto.
  eexists; split; [reflexivity|]. split.
  - pose proof (shape_row _ _ _ _ _ Hs E) as Hr. destruct Hs as [Hl Hf]. split.
    + now rewrite upd_length.
    + apply Forall_forall. intros r' Hr'. apply In_nth_error in Hr'. destruct Hr' as [q Hq].
      rewrite nth_error_upd in Hq by lia.
      destruct (Nat.eqb_spec q i); [inversion Hq; subst; now rewrite upd_length|].
      rewrite Forall_forall in Hf. apply Hf. eapply nth_error_In; eauto.
  - intros i' j'. unfold g2. rewrite nth_error_upd by auto.
    destruct (Nat.eqb_spec i' i) as [->|]; simpl; auto.
    rewrite E. now rewrite nth_error_upd by auto.
Qed.

Section Cellave.
  (** One row with all its coordinates valid *)
  Variables (vari yib yob : arr) (nx nyi nyo : nat) (conserv : bool).
  Variables (ix ixiy ixoy : nat) (v : list fl) (b o : nat -> Q).
  Hypothesis Hv : nth_error vari ix = Some v.
  Hypothesis Hlv : List.length v = nyi.
  Hypothesis Hb : forall i, i <= nyi -> g2 yib ixiy i = Some (Some (b i)).
  Hypothesis Ho : forall j, j <= nyo -> g2 yob ixoy j = Some (Some (o j)).
  Hypothesis Hbinc : forall i j, i <= j -> j <= nyi -> (b i <= b j)%Q.
  Hypothesis Hoinc : forall i j, i < j -> j <= nyo -> (o i < o j)%Q.
  Hypothesis Hix : ix < nx.

  Definition width (j : nat) : Q := (o (S j) - o j)%Q.
  Definition ov (i j : nat) : Q := overlap (b i) (b (S i)) (o j) (o (S j)).
  (** weight of input cell [i] in output cell [j] as accumulated by the loop *)
  Definition wgt (i j : nat) : Q := if conserv then (ov i j / width j)%Q else ov i j.
  Definition mwgt (i j : nat) : Q := match yat v i with Some _ => wgt i j | None => 0%Q end.
  Definition mval (i j : nat) : Q :=
    match yat v i with Some x => (x * wgt i j)%Q | None => 0%Q end.

  Lemma width_pos j : j < nyo -> (0 < width j)%Q.
  Proof. intro H. unfold width. pose proof (Hoinc j (S j) ltac:(lia) ltac:(lia)). lra. Qed.

  Lemma ov_zero_above i j : i < nyi -> j < nyo -> (o (S j) <= b i)%Q -> (ov i j == 0)%Q.
  Proof.
    intros Hi Hj H. unfold ov, overlap.
    pose proof (Q.le_min_r (b (S i)) (o (S j))). pose proof (Q.le_max_l (b i) (o j)).
    rewrite Q.max_l; [reflexivity|]. lra.
  Qed.
  Lemma ov_zero_below i j : i < nyi -> j < nyo -> (b (S i) <= o j)%Q -> (ov i j == 0)%Q.
  Proof.
    intros Hi Hj H. unfold ov, overlap.
    pose proof (Q.le_min_l (b (S i)) (o (S j))). pose proof (Q.le_max_r (b i) (o j)).
    rewrite Q.max_l; [reflexivity|]. lra.
  Qed.
  Lemma wgt_zero i j : (ov i j == 0)%Q -> (wgt i j == 0)%Q.
  Proof.
    intro H. unfold wgt. destruct conserv; rewrite H; [unfold Qdiv; ring|reflexivity].
  Qed.
  Lemma m_zero i j : (ov i j == 0)%Q -> (mwgt i j == 0)%Q /\ (mval i j == 0)%Q.
  Proof.
    intro H. apply wgt_zero in H. unfold mwgt, mval.
    destruct (yat v i); split; try reflexivity; auto. rewrite H. ring.
  Qed.

  Lemma fmin_Q x y : feq (fmin (Some x) (Some y)) (Some (Qmin x y)).
  Proof.
    unfold fmin. cbn [fltb]. destruct (Qltb y x) eqn:E; simpl.
    - apply Qltb_lt in E. rewrite Q.min_r; [reflexivity|]. lra.
    - apply Qltb_ge in E. rewrite Q.min_l; [reflexivity|]. auto.
  Qed.
  Lemma fmax_Q x y : feq (fmax (Some x) (Some y)) (Some (Qmax x y)).
  Proof.
    unfold fmax. cbn [fltb]. destruct (Qltb x y) eqn:E; simpl.
    - apply Qltb_lt in E. rewrite Q.max_r; [reflexivity|]. lra.
    - apply Qltb_ge in E. rewrite Q.max_l; [reflexivity|]. auto.
  Qed.

  (** State after the cells [0 .. k-1] have been considered for output [j] *)
  Definition in_inv (j : nat) (varo0 : arr) (k : nat) (st : Z * fl * arr) : Prop :=
    exists i0 w q varo, st = (Z.of_nat i0, Some w, varo) /\ i0 <= nyi /\
      (forall i, i < i0 -> (b (S i) < o j)%Q) /\
      (w == qsum k (fun i => mwgt i j))%Q /\
      shape varo nx nyo /\
      g2 varo ix j = Some (Some q) /\ (q == qsum k (fun i => mval i j))%Q /\
      forall i' j', (i', j') <> (ix, j) -> g2 varo i' j' = g2 varo0 i' j'.

  Lemma in_step_ok j varo0 k st :
    j < nyo -> k < nyi -> in_inv j varo0 k st ->
    match cellave_in_step vari yib yob conserv "no" (Z.of_nat ix) (Z.of_nat ix)
            (Z.of_nat ixiy) (Z.of_nat ixoy) (Z.of_nat nyi) (Z.of_nat j) (Z.of_nat k) st with
    | Next s2 => in_inv j varo0 (S k) s2
    | Break s2 => in_inv j varo0 nyi s2
    | Fail _ => False
    end.
  Proof.
    intros Hj Hk (i0 & w & q & varo & -> & Hi0n & Hi0 & Hw & Hs & Hg & Hq & Hfr).
    unfold cellave_in_step.
    replace (Z.of_nat k + 1)%Z with (Z.of_nat (S k)) by lia.
    replace (Z.of_nat j + 1)%Z with (Z.of_nat (S j)) by lia.
    rewrite (get2_g2 _ _ _ _ (Hb k ltac:(lia))), (get2_g2 _ _ _ _ (Hb (S k) ltac:(lia))).
    rewrite (get2_g2 _ _ _ _ (Ho j ltac:(lia))), (get2_g2 _ _ _ _ (Ho (S j) ltac:(lia))).
    cbn [bindc].
    change (String.eqb "no" "bellow") with false. change (String.eqb "no" "both") with false.
    change (String.eqb "no" "above") with false. cbn [orb andb].
    cbv zeta. cbn [fltb fleb feqb].
    pose proof (Hbinc k (S k) ltac:(lia) ltac:(lia)) as Hbk.
    pose proof (width_pos j Hj) as Hwj. unfold width in Hwj.
    destruct (Qltb (o (S j)) (b k)) eqn:E1.
    { (* break: the cells from k on are above *)
      apply Qltb_lt in E1.
      assert (Hz : forall i, k <= i < nyi -> (ov i j == 0)%Q).
      { intros i Hi. apply ov_zero_above; auto; try lia.
        pose proof (Hbinc k i ltac:(lia) ltac:(lia)). lra. }
      exists i0, w, q, varo. repeat split; auto; try apply Hs.
      - rewrite Hw. symmetry. apply qsum_stop; [lia|]. intros i Hi. now apply m_zero, Hz.
      - rewrite Hq. symmetry. apply qsum_stop; [lia|]. intros i Hi. now apply m_zero, Hz. }
    apply Qltb_ge in E1.
    destruct (Qltb (b (S k)) (o j)) eqn:E2.
    { apply Qltb_lt in E2.
      assert (Hz : (ov k j == 0)%Q) by (apply ov_zero_below; auto; lra).
      destruct (m_zero k j Hz) as [Z1 Z2].
      exists (S k), w, q, varo. repeat split; auto; try lia; try apply Hs.
      - intros i Hi. pose proof (Hbinc (S i) (S k) ltac:(lia) ltac:(lia)). lra.
      - simpl. rewrite Hw, Z1. ring.
      - simpl. rewrite Hq, Z2. ring. }
    apply Qltb_ge in E2.
    (* the contribution *)
    assert (Hd : exists d0, fsub (fmin (Some (b (S k))) (Some (o (S j))))
                  (fmax (Some (b k)) (Some (o j))) = Some d0 /\ (d0 == ov k j)%Q).
    { pose proof (fmin_Q (b (S k)) (o (S j))) as Hmn. pose proof (fmax_Q (b k) (o j)) as Hmx.
      destruct (fmin (Some (b (S k))) (Some (o (S j)))) as [mn|]; [|contradiction].
      destruct (fmax (Some (b k)) (Some (o j))) as [mx|]; [|contradiction].
      simpl in Hmn, Hmx. exists (mn - mx)%Q. split; [reflexivity|]. rewrite Hmn, Hmx.
      unfold ov, overlap. rewrite (Q.max_r 0); [reflexivity|].
      destruct (Q.min_spec (b (S k)) (o (S j))) as [[A1 A2]|[A1 A2]]; rewrite A2;
      destruct (Q.max_spec (b k) (o j)) as [[A3 A4]|[A3 A4]]; rewrite A4; lra. }
    destruct Hd as (d0 & Ed0 & Hd0). rewrite Ed0.
    assert (Hd1 : exists d1,
       (if conserv && negb (Qeq_bool (b k) (b (S k)))
        then fdiv (Some d0) (fsub (Some (o (S j))) (Some (o j))) else @Ok fl (Some d0))
       = @Ok fl (Some d1) /\ (d1 == wgt k j)%Q).
    { unfold wgt, width. destruct conserv; cbn [andb].
      - destruct (Qeq_bool (b k) (b (S k))) eqn:Eb; cbn [negb].
        + apply Qeq_bool_iff in Eb. exists d0. split; auto.
          assert (d0 == 0)%Q.
          { rewrite Hd0. unfold ov, overlap. rewrite (Q.max_l 0); [reflexivity|].
            pose proof (Q.le_min_l (b (S k)) (o (S j))).
            pose proof (Q.le_max_l (b k) (o j)). lra. }
          rewrite <- Hd0, H. field. intro Hz; lra.
        + cbn [fsub f2]. rewrite fdiv_pos by lra. eexists; split; [reflexivity|].
          rewrite Hd0. reflexivity.
      - exists d0. auto. }
    destruct Hd1 as (d1 & Ed1 & Hd1). rewrite Ed1. cbn [bindc].
    assert (Hgv : g2 vari ix k = Some (yat v k)).
    { unfold g2. rewrite Hv. apply nth_error_yat. lia. }
    rewrite (get2_g2 _ _ _ _ Hgv). cbn [bindc].
    (* state after the accumulation *)
    assert (Hacc : exists s2, in_inv j varo0 (S k) s2 /\
      bindc (if isnan (yat v k) then Ok (Some w, varo)
       else let* a := get2 varo (Z.of_nat ix) (Z.of_nat j) in
            let* b0 := Ok (yat v k) in
            let* varo' := set2 varo (Z.of_nat ix) (Z.of_nat j) (fadd a (fmul b0 (Some d1))) in
            Ok (fadd (Some w) (Some d1), varo'))
        (fun wv => Next (Z.of_nat i0, fst wv, snd wv)) = Next s2).
    { destruct (yat v k) as [x|] eqn:Ex; cbn [isnan].
      - rewrite (get2_g2 _ _ _ _ Hg). cbn [bind].
        destruct (set2_g2 varo ix j (fadd (Some q) (fmul (Some x) (Some d1))) _ nx nyo Hs Hg)
          as (varo' & Es & Hs' & Hg').
        rewrite Es. cbn [bind bindc fst snd]. eexists. split; [|reflexivity].
        exists i0, (w + d1)%Q, (q + x * d1)%Q, varo'. repeat split; auto; try apply Hs'.
        + assert (Em : (mwgt k j == d1)%Q) by (unfold mwgt; rewrite Ex, Hd1; reflexivity).
          cbn [qsum]. rewrite Hw, Em. reflexivity.
        + rewrite Hg', !Nat.eqb_refl. reflexivity.
        + assert (Em : (mval k j == x * d1)%Q) by (unfold mval; rewrite Ex, Hd1; reflexivity).
          cbn [qsum]. rewrite Hq, Em. reflexivity.
        + intros i' j' Hne. rewrite Hg'.
          destruct (Nat.eqb_spec i' ix) as [->|]; simpl; [|now apply Hfr].
          destruct (Nat.eqb_spec j' j) as [->|]; [contradiction|now apply Hfr].
      - cbn [bindc fst snd]. eexists. split; [|reflexivity].
        exists i0, w, q, varo. repeat split; auto; try apply Hs.
        + assert (Em : (mwgt k j == 0)%Q) by (unfold mwgt; rewrite Ex; reflexivity).
          cbn [qsum]. rewrite Hw, Em. ring.
        + assert (Em : (mval k j == 0)%Q) by (unfold mval; rewrite Ex; reflexivity).
          cbn [qsum]. rewrite Hq, Em. ring. }
    destruct Hacc as (s2 & Hs2 & Es2).
    destruct (isnan (yat v k)) eqn:En.
    - cbn [bindc fst snd] in Es2. injection Es2 as Es2'. subst s2. cbn [bindc fst snd].
      destruct (Qle_bool (o (S j)) (b (S k))) eqn:E3; [|exact Hs2].
      apply Qle_bool_iff in E3.
      assert (Hz : forall i, S k <= i < nyi -> (ov i j == 0)%Q).
      { intros i Hi. apply ov_zero_above; auto; try lia.
        pose proof (Hbinc (S k) i ltac:(lia) ltac:(lia)). lra. }
      destruct Hs2 as (i1 & w1 & q1 & varo1 & Hs2e & H1 & H2 & H3 & H4 & H5 & H6 & H7).
      exists i1, w1, q1, varo1. split; [exact Hs2e|]. repeat split; auto; try apply H4.
      + rewrite H3. symmetry. apply qsum_stop; [lia|]. intros i Hi. now apply m_zero, Hz.
      + rewrite H6. symmetry. apply qsum_stop; [lia|]. intros i Hi. now apply m_zero, Hz.
    - cbn [bind] in Es2.
      destruct (let* a := get2 varo (Z.of_nat ix) (Z.of_nat j) in
                let* varo' := set2 varo (Z.of_nat ix) (Z.of_nat j)
                   (fadd a (fmul (yat v k) (Some d1))) in
                Ok (fadd (Some w) (Some d1), varo')) as [wv|e] eqn:Ewv; [|discriminate].
      cbn [bind]. rewrite Ewv. cbn [bindc]. cbn [bindc] in Es2. injection Es2 as Es2'. subst s2.
      destruct (Qle_bool (o (S j)) (b (S k))) eqn:E3; [|exact Hs2].
      apply Qle_bool_iff in E3.
      assert (Hz : forall i, S k <= i < nyi -> (ov i j == 0)%Q).
      { intros i Hi. apply ov_zero_above; auto; try lia.
        pose proof (Hbinc (S k) i ltac:(lia) ltac:(lia)). lra. }
      destruct Hs2 as (i1 & w1 & q1 & varo1 & Hs2e & H1 & H2 & H3 & H4 & H5 & H6 & H7).
      exists i1, w1, q1, varo1. split; [exact Hs2e|]. repeat split; auto; try apply H4.
      + rewrite H3. symmetry. apply qsum_stop; [lia|]. intros i Hi. now apply m_zero, Hz.
      + rewrite H6. symmetry. apply qsum_stop; [lia|]. intros i Hi. now apply m_zero, Hz.
  Qed.

  (** What the row must contain in the end *)
  Definition cell_value (j : nat) (x : fl) : Prop :=
    if conserv then feq x (Some (qsum nyi (fun i => mval i j)))
    else
      ((qsum nyi (fun i => mwgt i j) == 0)%Q /\ x = nan) \/
      (~ (qsum nyi (fun i => mwgt i j) == 0)%Q /\
       feq x (Some (qsum nyi (fun i => mval i j) / qsum nyi (fun i => mwgt i j))%Q)).

  Definition out_inv (varo0 : arr) (j : nat) (st : Z * arr) : Prop :=
    exists i0 varo, st = (Z.of_nat i0, varo) /\ i0 <= nyi /\
      (forall i j', i < i0 -> j <= j' -> j' <= nyo -> (b (S i) < o j')%Q) /\
      shape varo nx nyo /\
      (forall i' j', i' <> ix -> g2 varo i' j' = g2 varo0 i' j') /\
      forall j', j' < nyo ->
        if j' <? j then exists x, g2 varo ix j' = Some x /\ cell_value j' x
        else exists q, g2 varo ix j' = Some (Some q) /\ (q == 0)%Q.

  Lemma out_step_ok varo0 j st :
    j < nyo -> out_inv varo0 j st ->
    match cellave_out_step vari yib yob conserv "no" (Z.of_nat ix) (Z.of_nat ix)
            (Z.of_nat ixiy) (Z.of_nat ixoy) (Z.of_nat nyi) (Z.of_nat j) st with
    | Next s2 => out_inv varo0 (S j) s2
    | Break _ => False
    | Fail _ => False
    end.
  Proof.
    intros Hj (i0 & varo & -> & Hi0n & Hi0 & Hs & Hfr & Hrow).
    unfold cellave_out_step.
    replace (Z.of_nat j + 1)%Z with (Z.of_nat (S j)) by lia.
    rewrite (get2_g2 _ _ _ _ (Ho j ltac:(lia))), (get2_g2 _ _ _ _ (Ho (S j) ltac:(lia))).
    cbn [bindc feqb].
    pose proof (Hoinc j (S j) ltac:(lia) ltac:(lia)) as Hoj.
    destruct (Qeq_bool (o j) (o (S j))) eqn:Eq.
    { apply Qeq_bool_iff in Eq. lra. }
    (* inner loop *)
    pose proof (Hrow j Hj) as Hrj. rewrite Nat.ltb_irrefl in Hrj.
    destruct Hrj as (q0 & Hq0 & Eq0).
    assert (Hzero : forall i, i < i0 -> (ov i j == 0)%Q).
    { intros i Hi. apply ov_zero_below; auto; try lia.
      pose proof (Hi0 i j Hi ltac:(lia) ltac:(lia)). lra. }
    destruct (for_each_seq i0 (nyi - i0)
      (fun k => cellave_in_step vari yib yob conserv "no" (Z.of_nat ix) (Z.of_nat ix)
            (Z.of_nat ixiy) (Z.of_nat ixoy) (Z.of_nat nyi) (Z.of_nat j) (Z.of_nat k))
      (in_inv j varo) (in_inv j varo nyi) (Z.of_nat i0, f0, varo)) as (st2 & Est2 & Hst2).
    { exists i0, 0%Q, q0, varo. repeat split; auto; try apply Hs.
      - intros i Hi. apply Hi0; auto; lia.
      - symmetry. apply qsum_zero. intros i Hi. now apply m_zero, Hzero.
      - rewrite Eq0. symmetry. apply qsum_zero. intros i Hi. now apply m_zero, Hzero. }
    { intros k s' Hk Hin. apply in_step_ok; auto. lia. }
    { intros s' Hin. replace (i0 + (nyi - i0)) with nyi in Hin by lia. exact Hin. }
    rewrite pyrange_nat, for_each_map, Est2. cbn [bindc].
    destruct Hst2 as (i1 & w & q & varo1 & -> & Hi1n & Hi1 & Hw & Hs1 & Hg1 & Hq1 & Hfr1).
    assert (Hi1' : forall i j', i < i1 -> S j <= j' -> j' <= nyo -> (b (S i) < o j')%Q).
    { intros i j' Hi Hj' Hj'n. pose proof (Hi1 i Hi).
      pose proof (Hoinc j j' ltac:(lia) Hj'n). lra. }
    assert (Hother : forall varo2,
      (forall i' j', (i', j') <> (ix, j) -> g2 varo2 i' j' = g2 varo1 i' j') ->
      (forall i' j', i' <> ix -> g2 varo2 i' j' = g2 varo0 i' j') /\
      (forall j', j' < nyo -> j' <> j ->
        if j' <? S j then exists x, g2 varo2 ix j' = Some x /\ cell_value j' x
        else exists q, g2 varo2 ix j' = Some (Some q) /\ (q == 0)%Q)).
    { intros varo2 H2. split.
      - intros i' j' Hne. rewrite H2 by congruence. rewrite Hfr1 by congruence. now apply Hfr.
      - intros j' Hj' Hne. rewrite H2 by congruence. rewrite Hfr1 by congruence.
        specialize (Hrow j' Hj').
        replace (j' <? S j) with (j' <? j)
          by (destruct (Nat.ltb_spec j' j), (Nat.ltb_spec j' (S j)); auto; lia).
        exact Hrow. }
    destruct conserv eqn:Ec.
    - destruct (Hother varo1 ltac:(auto)) as [Ho1 Ho2].
      exists i1, varo1. repeat split; auto; try apply Hs1.
      intros j' Hj'. destruct (Nat.eq_dec j' j) as [->|Hne]; [|now apply Ho2].
      replace (j <? S j) with true by (symmetry; apply Nat.ltb_lt; lia).
      exists (Some q). split; auto. unfold cell_value. rewrite Ec. exact Hq1.
    - cbn [feqb f0].
      destruct (Qeq_bool w 0) eqn:Ew; cbn [negb].
      + apply Qeq_bool_iff in Ew.
        destruct (set2_g2 varo1 ix j nan _ nx nyo Hs1 Hg1) as (varo2 & Es & Hs2 & Hg2).
        rewrite Es. cbn [bindc].
        destruct (Hother varo2) as [Ho1 Ho2].
        { intros i' j' Hne. rewrite Hg2.
          destruct (Nat.eqb_spec i' ix) as [->|]; simpl; auto.
          destruct (Nat.eqb_spec j' j) as [->|]; auto. contradiction. }
        exists i1, varo2. repeat split; auto; try apply Hs2.
        intros j' Hj'. destruct (Nat.eq_dec j' j) as [->|Hne]; [|now apply Ho2].
        replace (j <? S j) with true by (symmetry; apply Nat.ltb_lt; lia).
        exists nan. split; [now rewrite Hg2, !Nat.eqb_refl|].
        unfold cell_value. rewrite Ec. left. split; auto. now rewrite <- Hw.
      + assert (Hwn : ~ (w == 0)%Q) by (now apply Qeq_bool_neq').
        rewrite (get2_g2 _ _ _ _ Hg1). cbn [bindc].
        unfold fdiv. rewrite Ew. cbn [bindc].
        destruct (set2_g2 varo1 ix j (Some (q / w)%Q) _ nx nyo Hs1 Hg1)
          as (varo2 & Es & Hs2 & Hg2).
        rewrite Es. cbn [bindc].
        destruct (Hother varo2) as [Ho1 Ho2].
        { intros i' j' Hne. rewrite Hg2.
          destruct (Nat.eqb_spec i' ix) as [->|]; simpl; auto.
          destruct (Nat.eqb_spec j' j) as [->|]; auto. contradiction. }
        exists i1, varo2. repeat split; auto; try apply Hs2.
        intros j' Hj'. destruct (Nat.eq_dec j' j) as [->|Hne]; [|now apply Ho2].
        replace (j <? S j) with true by (symmetry; apply Nat.ltb_lt; lia).
        eexists. split; [now rewrite Hg2, !Nat.eqb_refl|].
        unfold cell_value. rewrite Ec. right. split; [now rewrite <- Hw|].
        simpl. rewrite Hq1, Hw. reflexivity.
  Qed.

  Lemma cellave_row_ok varo0 :
    shape varo0 nx nyo ->
    (forall j, j < nyo -> g2 varo0 ix j = Some f0) ->
    exists st, for_each (pyrange 0 (Z.of_nat nyo))
      (cellave_out_step vari yib yob conserv "no" (Z.of_nat ix) (Z.of_nat ix)
            (Z.of_nat ixiy) (Z.of_nat ixoy) (Z.of_nat nyi)) (0%Z, varo0) = Ok st /\
      shape (snd st) nx nyo /\
      (forall i' j', i' <> ix -> g2 (snd st) i' j' = g2 varo0 i' j') /\
      forall j, j < nyo -> exists x, g2 (snd st) ix j = Some x /\ cell_value j x.
  Proof.
    intros Hs H0. change 0%Z with (Z.of_nat 0). rewrite pyrange_nat, Nat.sub_0_r, for_each_map.
    apply for_each_seq with (I := out_inv varo0).
    - exists 0, varo0. repeat split; auto; try apply Hs; try lia.
      intros j' Hj'. simpl. exists 0%Q. split; [now apply H0|reflexivity].
    - intros j st Hj Hinv. pose proof (out_step_ok varo0 j st ltac:(lia) Hinv) as H.
      destruct (cellave_out_step _ _ _ _ _ _ _ _ _ _ _ st); auto. contradiction.
    - intros st (i0 & varo & -> & _ & _ & Hs' & Hfr & Hrow). cbn [snd].
      repeat split; auto; try apply Hs'.
      intros j Hj. specialize (Hrow j Hj).
      replace (j <? 0 + nyo) with true in Hrow by (symmetry; apply Nat.ltb_lt; lia).
      exact Hrow.
  Qed.
End Cellave.

(** ** Specification of cellave1d, row by row *)




Lemma yat_nth_error l i : i < List.length l -> nth_error l i = Some (yat l i).
Proof. apply nth_error_yat. Qed.

Lemma cell_value_spec conserv v (yb ob : list fl) j x nyi :
  List.length v = nyi -> (0 < numat ob (S j) - numat ob j)%Q ->
  cell_value nyi conserv v (numat yb) (numat ob) j x ->
  if conserv then
      feq x (Some (cell_sum v yb ob j / (numat ob (S j) - numat ob j))%Q)
  else
      ((cell_weight v yb ob j == 0)%Q /\ x = nan) \/
      (~ (cell_weight v yb ob j == 0)%Q /\
       feq x (Some (cell_sum v yb ob j / cell_weight v yb ob j)%Q)).
Proof.
  intros <- Hw. unfold cell_value.
  assert (Ew : conserv = false ->
     (qsum (List.length v) (fun i => mwgt conserv v (numat yb) (numat ob) i j)
      == cell_weight v yb ob j)%Q).
  { intros ->. unfold cell_weight. apply qsum_ext. intros i Hi. unfold mwgt, wgt, ov.
    rewrite yat_nth_error by auto. destruct (yat v i); reflexivity. }
  assert (Es : (qsum (List.length v) (fun i => mval conserv v (numat yb) (numat ob) i j)
      == if conserv then cell_sum v yb ob j / (numat ob (S j) - numat ob j)
         else cell_sum v yb ob j)%Q).
  { unfold cell_sum. destruct conserv.
    - transitivity (qsum (List.length v) (fun i =>
        (/ (numat ob (S j) - numat ob j)) *
         match nth_error v i with
    | Some (Some x) =>
        (x * overlap (numat yb i) (numat yb (S i)) (numat ob j) (numat ob (S j)))%Q
    | _ => 0%Q end)%Q).
      + apply qsum_ext. intros i Hi. unfold mval, wgt, ov, width.
        rewrite yat_nth_error by auto. destruct (yat v i).
        * field. intro Hz; lra.
        * ring.
      + rewrite qsum_scal. field. intro Hz; lra.
    - apply qsum_ext. intros i Hi. unfold mval, wgt, ov.
      rewrite yat_nth_error by auto. destruct (yat v i); reflexivity. }
  destruct conserv.
  - intro H. eapply feq_trans; [exact H|]. simpl. exact Es.
  - intros [[H1 H2]|[H1 H2]].
    + left. split; auto. now rewrite <- Ew.
    + right. split; [now rewrite <- Ew|]. eapply feq_trans; [exact H2|]. simpl.
      rewrite Es, Ew; reflexivity.
Qed.

Lemma g2_num a n m ix r i :
  shape a n m -> nth_error a ix = Some r -> all_valid r -> i < m ->
  g2 a ix i = Some (Some (numat r i)).
Proof.
  intros Hs Hr Hv Hi. unfold g2. rewrite Hr.
  rewrite <- (shape_row _ _ _ _ _ Hs Hr) in Hi.
  destruct (Hv i Hi) as [x Hx]. unfold numat, val in *. now rewrite Hx.
Qed.

Lemma num_val r i : all_valid r -> i < List.length r -> val r i (numat r i).
Proof.
  intros Hv Hi. destruct (Hv i Hi) as [x Hx]. unfold numat, val in *. now rewrite Hx.
Qed.

Lemma cellave1d_correct vari yib yob conserv nxi nxiy nxo nyi nyo :
  shape vari nxi nyi -> shape yib nxiy (S nyi) -> shape yob nxo (S nyo) ->
  0 < nxiy -> 0 < nxo -> nxo <= nxi ->
  Forall all_valid yib -> Forall all_valid yob ->
  Forall nondecreasing yib -> Forall increasing yob ->
  exists out, cellave1d vari yib yob conserv "no" = Ok out /\ shape out nxi nyo /\
    forall ix v rb ro r, nth_error vari ix = Some v ->
      nth_error yib (ix mod nxiy) = Some rb -> nth_error yob (ix mod nxo) = Some ro ->
      nth_error out ix = Some r -> cellave_row_spec conserv v rb ro r.
Proof.
  intros Hv Hb Ho H1 H2 H3 Vb Vo Ib Io.
  unfold cellave1d.
  rewrite (nrows_shape _ _ _ Hv), (nrows_shape _ _ _ Hb), (nrows_shape _ _ _ Ho).
  rewrite (shape_ncols _ _ _ Ho) by auto. rewrite (shape_ncols _ _ _ Hv) by lia.
  replace (Z.max (Z.of_nat nxi) (Z.of_nat nxo)) with (Z.of_nat nxi) by lia.
  replace (Z.of_nat (S nyo) - 1)%Z with (Z.of_nat nyo) by lia.
  change 0%Z with (Z.of_nat 0) at 1. rewrite pyrange_nat, Nat.sub_0_r, for_each_map.
  rewrite Forall_forall in Vb, Vo, Ib, Io.
  apply for_each_seq with (I := fun k varo =>
    shape varo nxi nyo /\
    forall ix, ix < nxi ->
      if ix <? k then
        forall v rb ro r, nth_error vari ix = Some v ->
          nth_error yib (ix mod nxiy) = Some rb -> nth_error yob (ix mod nxo) = Some ro ->
          nth_error varo ix = Some r -> cellave_row_spec conserv v rb ro r
      else forall j, j < nyo -> g2 varo ix j = Some f0).
  - split.
    + split; [apply length_full2|]. unfold full2. rewrite !Nat2Z.id.
      apply Forall_forall. intros r Hr. apply repeat_spec in Hr. subst. apply repeat_length.
    + intros ix Hix. simpl. intros j Hj. unfold g2.
      rewrite nth_error_full2 by auto. now apply nth_error_repeat.
  - intros ix varo Hix [Hs Hinv].
    rewrite !row_index_ok by lia. cbn [bindc].
    rewrite (Nat.mod_small ix nxi) by lia.
    destruct (shape_get _ _ _ ix Hv) as [v Ev]; [lia|].
    destruct (shape_get yib nxiy _ (ix mod nxiy) Hb) as [rb Erb].
    { apply Nat.mod_upper_bound; lia. }
    destruct (shape_get yob nxo _ (ix mod nxo) Ho) as [ro Ero].
    { apply Nat.mod_upper_bound; lia. }
    assert (Hvb : all_valid rb) by (apply Vb; eapply nth_error_In; eauto).
    assert (Hvo : all_valid ro) by (apply Vo; eapply nth_error_In; eauto).
    assert (Hib : nondecreasing rb) by (apply Ib; eapply nth_error_In; eauto).
    assert (Hio : increasing ro) by (apply Io; eapply nth_error_In; eauto).
    pose proof (shape_row _ _ _ _ _ Hv Ev) as Lv.
    pose proof (shape_row _ _ _ _ _ Hb Erb) as Lb.
    pose proof (shape_row _ _ _ _ _ Ho Ero) as Lo.
    assert (Ho' : forall i j, i < j -> j <= nyo -> (numat ro i < numat ro j)%Q).
    { intros i j Hij Hj. apply (Hio i j); auto; apply num_val; auto; lia. }
    assert (HR := cellave_row_ok vari yib yob nxi nyi nyo conserv ix (ix mod nxiy) (ix mod nxo)
                v (numat rb) (numat ro) Ev Lv).
    destruct HR with (varo0 := varo) as (st & Est & Hs' & Hfr & Hrow).
    + intros i Hi. eapply g2_num; eauto. lia.
    + intros j Hj. eapply g2_num; eauto. lia.
    + intros i j Hij Hj. destruct (Nat.eq_dec i j) as [->|]; [lra|].
      apply (Hib i j); try lia; apply num_val; auto; lia.
    + exact Ho'.
    + lia.
    + exact Hs.
    + pose proof (Hinv ix ltac:(lia)) as Hk. now rewrite Nat.ltb_irrefl in Hk.
    + unfold arr in *. rewrite Est. cbn [bindc]. split; [exact Hs'|].
      intros ix' Hix'.
      destruct (Nat.eq_dec ix' ix) as [->|Hne].
      * replace (ix <? 1 + ix) with true by (symmetry; apply Nat.ltb_lt; lia).
        intros v' rb' ro' r Ev' Erb' Ero' Er.
        assert (v' = v) as -> by congruence. assert (rb' = rb) as -> by congruence.
        assert (ro' = ro) as -> by congruence.
        pose proof (shape_row _ _ _ _ _ Hs' Er) as Lr.
        split; [lia|]. intros j Hj.
        destruct (Hrow j ltac:(lia)) as (x & Hx & Hcv).
        exists x. split.
        { unfold g2 in Hx. now rewrite Er in Hx. }
        apply cell_value_spec with (nyi := nyi); auto.
        pose proof (Ho' j (S j) ltac:(lia) ltac:(lia)). lra.
      * assert (Hrr : forall j, g2 (snd st) ix' j = g2 varo ix' j).
        { intro j. now apply Hfr. }
        pose proof (Hinv ix' Hix') as Hk.
        replace (ix' <? 1 + ix) with (ix' <? ix)
          by (destruct (Nat.ltb_spec ix' ix), (Nat.ltb_spec ix' (1 + ix)); auto; lia).
        destruct (ix' <? ix).
        -- intros v' rb' ro' r Ev' Erb' Ero' Er.
           destruct (shape_get _ _ _ ix' Hs) as [r0 Er0]; [lia|].
           assert (r = r0) as ->.
           { apply nth_error_ext. intro j. specialize (Hrr j). unfold g2 in Hrr.
             now rewrite Er, Er0 in Hrr. }
           eapply Hk; eauto.
        -- intros j Hj. rewrite Hrr. now apply Hk.
  - intros out [Hs Hinv]. split; [exact Hs|].
    intros ix v rb ro r Ev Erb Ero Er.
    assert (Hix : ix < nxi).
    { destruct Hs as [<- _]. apply nth_error_Some. congruence. }
    specialize (Hinv ix Hix). replace (ix <? 0 + nxi) with true in Hinv
      by (symmetry; apply Nat.ltb_lt; lia).
    eapply Hinv; eauto.
Qed.

(** Conservation *)
Lemma overlap_clamp b0 b1 o0 o1 : (b0 <= b1)%Q -> (o0 <= o1)%Q ->
  (overlap b0 b1 o0 o1 == Qmin (Qmax o1 b0) b1 - Qmin (Qmax o0 b0) b1)%Q.
Proof.
  intros H1 H2. unfold overlap.
  destruct (Q.min_spec b1 o1) as [[A1 A2]|[A1 A2]]; rewrite A2;
  destruct (Q.max_spec b0 o0) as [[B1 B2]|[B1 B2]]; rewrite B2;
  destruct (Q.max_spec o1 b0) as [[C1 C2]|[C1 C2]]; rewrite C2;
  destruct (Q.max_spec o0 b0) as [[D1 D2]|[D1 D2]]; rewrite D2;
  repeat match goal with |- context [Qmin ?x ?y] =>
    let A := fresh in let B := fresh in
    destruct (Q.min_spec x y) as [[A B]|[A B]]; rewrite B; clear B end;
  match goal with |- context [Qmax 0 ?y] =>
    let A := fresh in let B := fresh in
    destruct (Q.max_spec 0 y) as [[A B]|[A B]]; rewrite B; clear B end; lra.
Qed.

Lemma cellave_conserves v yb ob r :
  cellave_row_spec true v yb ob r ->
  all_valid v -> List.length yb = S (List.length v) -> 0 < List.length ob ->
  all_valid yb -> all_valid ob -> nondecreasing yb -> increasing ob ->
  (numat ob 0 <= numat yb 0)%Q -> (numat yb (List.length v) <= numat ob (List.length ob - 1))%Q ->
  (qsum (List.length r) (fun j => numat r j * (numat ob (S j) - numat ob j)) ==
   qsum (List.length v) (fun i => numat v i * (numat yb (S i) - numat yb i)))%Q.
Proof.
  intros [Hl Hr] Av Ly Lo Ay Ao Iy Io Hlo Hhi.
  set (n := List.length v) in *. set (m := List.length r) in *.
  assert (Ho : forall i j, i < j -> j <= m -> (numat ob i < numat ob j)%Q).
  { intros i j Hij Hj. apply (Io i j); auto; apply num_val; auto; lia. }
  assert (Hy : forall i j, i <= j -> j <= n -> (numat yb i <= numat yb j)%Q).
  { intros i j Hij Hj. destruct (Nat.eq_dec i j) as [->|]; [lra|].
    apply (Iy i j); try lia; apply num_val; auto; lia. }
  transitivity (qsum m (fun j => qsum n (fun i =>
     numat v i * overlap (numat yb i) (numat yb (S i)) (numat ob j) (numat ob (S j))))%Q).
  - apply qsum_ext. intros j Hj. destruct (Hr j ltac:(lia)) as (x & Hx & Hf).
    assert (Hw : (0 < numat ob (S j) - numat ob j)%Q).
    { pose proof (Ho j (S j) ltac:(lia) ltac:(lia)). lra. }
    destruct x as [x|]; [|contradiction]. simpl in Hf.
    unfold numat at 1. rewrite Hx. rewrite Hf.
    transitivity (cell_sum v yb ob j); [field; intro Hz; lra|].
    unfold cell_sum. apply qsum_ext. intros i Hi.
    destruct (Av i Hi) as [p Hp]. unfold numat at 5. unfold val in Hp. rewrite Hp. reflexivity.
  - rewrite qsum_swap. apply qsum_ext. intros i Hi.
    rewrite qsum_scal.
    assert (E : (qsum m (fun j => overlap (numat yb i) (numat yb (S i)) (numat ob j) (numat ob (S j)))
              == numat yb (S i) - numat yb i)%Q); [|now rewrite E].
    transitivity (qsum m (fun j =>
       (fun k => Qmin (Qmax (numat ob k) (numat yb i)) (numat yb (S i))) (S j) -
       (fun k => Qmin (Qmax (numat ob k) (numat yb i)) (numat yb (S i))) j)%Q).
    { apply qsum_ext. intros j Hj. apply overlap_clamp.
      - apply Hy; lia.
      - apply Qlt_le_weak. apply Ho; lia. }
    rewrite (qsum_telescope m (fun k => Qmin (Qmax (numat ob k) (numat yb i)) (numat yb (S i)))).
    replace (List.length ob - 1) with m in Hhi by lia.
    pose proof (Hy 0 i ltac:(lia) ltac:(lia)). pose proof (Hy (S i) n ltac:(lia) ltac:(lia)).
    pose proof (Hy i (S i) ltac:(lia) ltac:(lia)).
    rewrite (Q.max_r (numat ob 0)) by lra. rewrite (Q.min_l (numat yb i)) by lra.
    rewrite (Q.max_l (numat ob m)) by lra. rewrite (Q.min_r (numat ob m)) by lra. reflexivity.
Qed.

(** The mean of valid data lies in any interval containing the overlapping
    valid data. *)
Lemma overlap_pos b0 b1 o0 o1 : (0 <= overlap b0 b1 o0 o1)%Q.
Proof. unfold overlap. apply Q.le_max_l. Qed.

Lemma cellave_bounded v yb ob r lo hi :
  cellave_row_spec false v yb ob r ->
  (forall i x, val v i x -> (lo <= x <= hi)%Q) ->
  forall j x, val r j x -> (lo <= x <= hi)%Q.
Proof.
  intros [Hl Hr] Hv j x Hx.
  assert (Hj : S j < List.length ob).
  { assert (valid r j) by (now exists x). apply valid_lt in H. lia. }
  destruct (Hr j Hj) as (x' & Hx' & Hcase). unfold val in Hx.
  rewrite Hx in Hx'. inversion Hx'; subst x'.
  destruct Hcase as [[_ H]|[Hne Hf]]; [discriminate|]. simpl in Hf.
  assert (Hw : (0 <= cell_weight v yb ob j)%Q).
  { unfold cell_weight.
    apply Qle_trans with (qsum (List.length v) (fun _ => 0%Q)).
    - rewrite qsum_zero by reflexivity. lra.
    - apply qsum_le. intros i Hi. destruct (nth_error v i) as [[y|]|]; try lra.
      apply overlap_pos. }
  assert (Hlo : (lo * cell_weight v yb ob j <= cell_sum v yb ob j)%Q).
  { unfold cell_weight, cell_sum. rewrite <- qsum_scal. apply qsum_le. intros i Hi.
    destruct (nth_error v i) as [[y|]|] eqn:E; try lra.
    pose proof (Hv i y E).
    pose proof (overlap_pos (numat yb i) (numat yb (S i)) (numat ob j) (numat ob (S j))). nra. }
  assert (Hhi : (cell_sum v yb ob j <= hi * cell_weight v yb ob j)%Q).
  { unfold cell_weight, cell_sum. rewrite <- qsum_scal. apply qsum_le. intros i Hi.
    destruct (nth_error v i) as [[y|]|] eqn:E; try lra.
    pose proof (Hv i y E).
    pose proof (overlap_pos (numat yb i) (numat yb (S i)) (numat ob j) (numat ob (S j))). nra. }
  assert (Hpos : (0 < cell_weight v yb ob j)%Q) by lra.
  rewrite Hf. split.
  - apply Qle_shift_div_l; auto.
  - apply Qle_shift_div_r; auto.
Qed.
