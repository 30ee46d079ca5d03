(** Facts about the primitives of [PyBase.v]. *)
From Verif Require Export PyBase.

Lemma Qltb_lt a b : Qltb a b = true <-> (a < b)%Q.
Proof.
  unfold Qltb. rewrite negb_true_iff. split; intro H.
  - apply Qnot_le_lt. intro Hle. apply Qle_bool_iff in Hle. congruence.
  - destruct (Qle_bool b a) eqn:E; [|reflexivity].
    apply Qle_bool_iff in E. lra.
Qed.

Lemma Qltb_ge a b : Qltb a b = false <-> (b <= a)%Q.
Proof.
  unfold Qltb. rewrite negb_false_iff. apply Qle_bool_iff.
Qed.

Lemma Qle_bool_gt a b : Qle_bool a b = false <-> (b < a)%Q.
Proof.
  split; intro H.
  - apply Qnot_le_lt. intro Hle. apply Qle_bool_iff in Hle. congruence.
  - destruct (Qle_bool a b) eqn:E; [|reflexivity].
    apply Qle_bool_iff in E. lra.
Qed.

Lemma Qeq_bool_neq' a b : Qeq_bool a b = false <-> ~ (a == b)%Q.
Proof.
  split; intro H.
  - now apply Qeq_bool_neq.
  - destruct (Qeq_bool a b) eqn:E; [|reflexivity].
    apply Qeq_bool_iff in E. contradiction.
Qed.

Lemma feq_refl x : feq x x.
Proof. destruct x; simpl; [reflexivity|exact I]. Qed.
Lemma feq_sym x y : feq x y -> feq y x.
Proof. destruct x, y; simpl; auto. intro H; now symmetry. Qed.
Lemma feq_trans x y z : feq x y -> feq y z -> feq x z.
Proof. destruct x, y, z; simpl; auto; try tauto. intros H1 H2; now rewrite H1. Qed.

(** ** upd *)
Lemma upd_length {A} (l : list A) k x : List.length (upd l k x) = List.length l.
Proof. revert k; induction l as [|y l IH]; intros [|k]; simpl; auto. Qed.

Lemma nth_error_upd_eq {A} (l : list A) k x :
  k < List.length l -> nth_error (upd l k x) k = Some x.
Proof. revert k; induction l as [|y l IH]; intros [|k] H; simpl in *; auto; try lia. apply IH; lia. Qed.

Lemma nth_error_upd_neq {A} (l : list A) k j x :
  j <> k -> nth_error (upd l k x) j = nth_error l j.
Proof.
  revert k j; induction l as [|y l IH]; intros [|k] [|j] H; simpl; auto; try lia.
Qed.

Lemma nth_error_upd {A} (l : list A) k j x :
  k < List.length l ->
  nth_error (upd l k x) j = if Nat.eqb j k then Some x else nth_error l j.
Proof.
  intro H. destruct (Nat.eqb_spec j k) as [->|Hn].
  - now apply nth_error_upd_eq.
  - now apply nth_error_upd_neq.
Qed.

Lemma upd_comm {A} (l : list A) i j x y :
  i <> j -> upd (upd l i x) j y = upd (upd l j y) i x.
Proof.
  revert i j; induction l as [|z l IH]; intros [|i] [|j] H; simpl; auto; try lia.
  f_equal. apply IH. lia.
Qed.

Lemma nth_error_ext {A} (l1 l2 : list A) :
  (forall k, nth_error l1 k = nth_error l2 k) -> l1 = l2.
Proof.
  revert l2; induction l1 as [|x l1 IH]; intros [|y l2] H.
  - reflexivity.
  - specialize (H 0); discriminate.
  - specialize (H 0); discriminate.
  - f_equal; [specialize (H 0); now inversion H|].
    apply IH. intro k. exact (H (S k)).
Qed.

(** ** pyidx / pyget / pyset *)
Lemma pyidx_nonneg n i :
  (0 <= i < Z.of_nat n)%Z -> pyidx n i = Some (Z.to_nat i).
Proof.
  intro H. unfold pyidx.
  destruct (Z.leb_spec 0 i); destruct (Z.ltb_spec i (Z.of_nat n)); try lia. reflexivity.
Qed.

Lemma pyidx_nat n k : k < n -> pyidx n (Z.of_nat k) = Some k.
Proof. intro H. rewrite pyidx_nonneg by lia. f_equal; lia. Qed.

Lemma pyidx_lt n i k : pyidx n i = Some k -> k < n.
Proof.
  unfold pyidx.
  destruct ((0 <=? i) && (i <? Z.of_nat n))%Z eqn:E1.
  - intro H; inversion H; subst. lia.
  - destruct ((- Z.of_nat n <=? i) && (i <? 0))%Z eqn:E2; intro H; inversion H; subst. lia.
Qed.

Lemma pyidx_in n i : (- Z.of_nat n <= i < Z.of_nat n)%Z -> exists k, pyidx n i = Some k.
Proof.
  intro H. unfold pyidx.
  destruct ((0 <=? i) && (i <? Z.of_nat n))%Z eqn:E1; [eauto|].
  destruct ((- Z.of_nat n <=? i) && (i <? 0))%Z eqn:E2; [eauto|]. lia.
Qed.

Lemma pyget_nat {A} (l : list A) k x : nth_error l k = Some x -> pyget l (Z.of_nat k) = Ok x.
Proof.
  intro H. unfold pyget. rewrite pyidx_nat.
  - now rewrite H.
  - apply nth_error_Some; congruence.
Qed.

Lemma pyget_ok {A} (l : list A) i :
  (- Z.of_nat (List.length l) <= i < Z.of_nat (List.length l))%Z -> exists x, pyget l i = Ok x.
Proof.
  intro H. destruct (pyidx_in _ _ H) as [k Hk]. unfold pyget. rewrite Hk.
  pose proof (pyidx_lt _ _ _ Hk) as Hlt.
  destruct (nth_error l k) eqn:E; [eauto|]. apply nth_error_None in E. lia.
Qed.

Lemma pyset_nat {A} (l : list A) k x :
  k < List.length l -> pyset l (Z.of_nat k) x = Ok (upd l k x).
Proof. intro H. unfold pyset. now rewrite pyidx_nat. Qed.

Lemma pyset_ok {A} (l : list A) i x :
  (- Z.of_nat (List.length l) <= i < Z.of_nat (List.length l))%Z ->
  exists l', pyset l i x = Ok l' /\ List.length l' = List.length l.
Proof.
  intro H. destruct (pyidx_in _ _ H) as [k Hk]. unfold pyset. rewrite Hk.
  eexists; split; [reflexivity|]. apply upd_length.
Qed.

(** ** Loop rules *)
Lemma for_each_inv {A S} (l : list A) (body : A -> S -> ctl S) (I : S -> Prop) s r :
  I s ->
  (forall x s', In x l -> I s' ->
     match body x s' with Next s2 => I s2 | Break s2 => I s2 | Fail _ => True end) ->
  for_each l body s = Ok r -> I r.
Proof.
  revert s; induction l as [|x l IH]; simpl; intros s Hs Hb Hr.
  - inversion Hr; subst; assumption.
  - pose proof (Hb x s (or_introl eq_refl) Hs) as H.
    destruct (body x s) as [s2|s2|e].
    + apply (IH s2); [exact H| |exact Hr].
      intros y s' Hy Hs'. apply (Hb y s'); [right; exact Hy|exact Hs'].
    + inversion Hr; subst; assumption.
    + discriminate.
Qed.

Lemma for_each_ok {A S} (l : list A) (body : A -> S -> ctl S) (I : S -> Prop) s :
  I s ->
  (forall x s', In x l -> I s' ->
     match body x s' with Next s2 => I s2 | Break s2 => I s2 | Fail _ => False end) ->
  exists r, for_each l body s = Ok r /\ I r.
Proof.
  revert s; induction l as [|x l IH]; simpl; intros s Hs Hb.
  - eauto.
  - pose proof (Hb x s (or_introl eq_refl) Hs) as H.
    destruct (body x s) as [s2|s2|e]; [|eauto|contradiction].
    apply IH; [exact H|].
    intros y s' Hy Hs'. apply (Hb y s'); [right; exact Hy|exact Hs'].
Qed.

(** Invariant indexed by the position in [seq]. *)
Lemma for_each_seq {S} a n (body : nat -> S -> ctl S) (I : nat -> S -> Prop) (P : S -> Prop) s :
  I a s ->
  (forall k s', a <= k < a + n -> I k s' ->
     match body k s' with Next s2 => I (1 + k) s2 | Break s2 => P s2 | Fail _ => False end) ->
  (forall s', I (a + n) s' -> P s') ->
  exists r, for_each (seq a n) body s = Ok r /\ P r.
Proof.
  revert a s; induction n as [|n IH]; simpl; intros a s Hs Hb HP.
  - exists s; split; auto. apply HP. now rewrite Nat.add_0_r.
  - pose proof (Hb a s ltac:(lia) Hs) as H.
    destruct (body a s) as [s2|s2|e]; [|eauto|contradiction].
    apply (IH (Datatypes.S a)); auto.
    + intros k s' Hk. apply Hb. lia.
    + intros s' Hs'. apply HP. now rewrite <- plus_n_Sm.
Qed.

Lemma pyrange_nat a b : pyrange (Z.of_nat a) (Z.of_nat b) = map Z.of_nat (seq a (b - a)).
Proof.
  unfold pyrange. replace (Z.to_nat (Z.of_nat b - Z.of_nat a)) with (b - a) by lia.
  assert (H : forall n c, map (fun k => (Z.of_nat a + Z.of_nat k)%Z) (seq c n)
                     = map Z.of_nat (seq (a + c) n)).
  { induction n as [|n IH]; intro c; simpl; auto. f_equal; [lia|].
    rewrite IH. f_equal. f_equal. lia. }
  rewrite (H (b - a) 0). now rewrite Nat.add_0_r.
Qed.

Lemma in_pyrange x a b : In x (pyrange a b) <-> (a <= x < b)%Z.
Proof.
  unfold pyrange. rewrite in_map_iff. split.
  - intros [k [<- Hk]]. apply in_seq in Hk. lia.
  - intro H. exists (Z.to_nat (x - a)). split; [lia|]. apply in_seq. lia.
Qed.

Lemma for_each_map {A B S} (f : A -> B) l (body : B -> S -> ctl S) s :
  for_each (map f l) body s = for_each l (fun x => body (f x)) s.
Proof.
  revert s; induction l as [|x l IH]; simpl; intro s; auto.
  destruct (body (f x) s); auto.
Qed.

Lemma for_each_ext {A S} l (b1 b2 : A -> S -> ctl S) s :
  (forall x s', In x l -> b1 x s' = b2 x s') -> for_each l b1 s = for_each l b2 s.
Proof.
  revert s; induction l as [|x l IH]; simpl; intros s H; auto.
  rewrite (H x s) by auto. destruct (b2 x s); auto.
Qed.
