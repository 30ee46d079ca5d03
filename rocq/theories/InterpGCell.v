(** cellave1d for any arithmetic: whatever the rounding, an output cell receives the contributions of
    the input cells it meets, from the first to the last one, each once. *)
From Verif Require Export InterpGArrays.
From Coq Require Import Reals Lra.
Open Scope nat_scope.

Section Cell.
Variable ops : fops.
Local Notation fl := (fnum ops).
Local Notation nan := (n_nan ops).
Local Notation isnan := (n_isnan ops).
Local Notation fadd := (n_add ops).
Local Notation fsub := (n_sub ops).
Local Notation fmul := (n_mul ops).
Local Notation fdiv := (n_div ops).
Local Notation fltb := (n_ltb ops).
Local Notation fleb := (n_leb ops).
Local Notation feqb := (n_eqb ops).
Local Notation f0 := (n_const ops 0).
Local Notation gshape := (@InterpGSpec.gshape fl).
Variable rank : fl -> option R.
Hypothesis L_lt : forall a b x y, rank a = Some x -> rank b = Some y -> (fltb a b = true <-> (x < y)%R).
Hypothesis L_le : forall a b x y, rank a = Some x -> rank b = Some y -> (fleb a b = true <-> (x <= y)%R).
Hypothesis L_eq : forall a b x y, rank a = Some x -> rank b = Some y -> (feqb a b = true <-> (x = y)%R).
Hypothesis L_div0 : forall a w, feqb w f0 = false -> exists z, fdiv a w = Ok z.
Hypothesis L_divw : forall d a b x y, rank a = Some x -> rank b = Some y -> (x < y)%R -> exists z, fdiv d (fsub b a) = Ok z.

Definition gg2 (a : arr_g ops) (i j : nat) : option fl :=
  match nth_error a i with Some r => nth_error r j | None => None end.
Lemma get2_gg2 a i j x : gg2 a i j = Some x -> get2_g ops a (Z.of_nat i) (Z.of_nat j) = Ok x.
Proof.
  unfold gg2, get2_g. destruct (nth_error a i) as [r|] eqn:E; [|discriminate]. intro H.
  rewrite (pyget_nat a i r E). cbn [bind]. now apply pyget_nat.
Qed.
Lemma set2_gg2 a i j x y n m : gshape a n m -> gg2 a i j = Some y ->
  exists a', set2_g ops a (Z.of_nat i) (Z.of_nat j) x = Ok a' /\ gshape a' n m /\
    forall i' j', gg2 a' i' j' = if (i' =? i) && (j' =? j) then Some x else gg2 a i' j'.
Proof.
  intros Hs Hg. unfold gg2 in Hg.
  destruct (nth_error a i) as [r|] eqn:E; [|discriminate].
  unfold set2_g. rewrite (pyget_nat a i r E). cbn [bind].
  assert (Hj : j < List.length r) by (apply nth_error_Some; congruence).
  assert (Hi : i < List.length a) by (apply nth_error_Some; congruence).
  rewrite pyset_nat by auto. cbn [bind]. rewrite pyset_nat by auto.
  eexists; split; [reflexivity|]. split.
  - pose proof (gshape_row ops _ _ _ _ _ Hs E) as Hr. destruct Hs as [Hl Hf]. split.
    + now rewrite upd_length.
    + apply Forall_forall. intros r' Hr'. apply In_nth_error in Hr'. destruct Hr' as [q Hq].
      rewrite nth_error_upd in Hq by lia.
      destruct (Nat.eqb_spec q i); [inversion Hq; subst; now rewrite upd_length|].
      rewrite Forall_forall in Hf. apply Hf. eapply nth_error_In; eauto.
  - intros i' j'. unfold gg2. rewrite nth_error_upd by auto.
    destruct (Nat.eqb_spec i' i) as [->|]; simpl; auto.
    rewrite E. now rewrite nth_error_upd by auto.
Qed.

(** What is accumulated for an output cell, given the edges [e0 i], [e1 i] of the input cells (after
    their extension) and those [p], [q] of the output cell *)
Definition weight_g (conserv : bool) (e0 e1 p q : fl) : res fl :=
  let d := fsub (fmin_g ops e1 q) (fmax_g ops e0 p) in
  if (conserv && negb (feqb e0 e1))%bool then fdiv d (fsub q p) else Ok d.
Definition before (a b : fl) : Prop := exists x y, rank a = Some x /\ rank b = Some y /\ (x <= y)%R.
(** The sums [w] and [s] after the [k] first input cells *)
Inductive acc (conserv : bool) (v : list fl) (e0 e1 : nat -> fl) (p q : fl) : nat -> fl -> fl -> Prop :=
| acc_0 : acc conserv v e0 e1 p q 0 f0 f0
| acc_nan k w s x : acc conserv v e0 e1 p q k w s -> nth_error v k = Some x -> isnan x = true ->
    acc conserv v e0 e1 p q (S k) w s
| acc_out k w s : acc conserv v e0 e1 p q k w s -> before (e1 k) p \/ before q (e0 k) ->
    acc conserv v e0 e1 p q (S k) w s
| acc_add k w s x d : acc conserv v e0 e1 p q k w s -> nth_error v k = Some x -> isnan x = false ->
    before p (e1 k) -> before (e0 k) q -> weight_g conserv (e0 k) (e1 k) p q = Ok d ->
    acc conserv v e0 e1 p q (S k) (fadd w d) (fadd s (fmul x d)).
(** What an output cell contains *)
Definition cell_result (conserv : bool) (w s x : fl) : Prop :=
  if conserv then x = s
  else if feqb w f0 then x = nan else fdiv s w = Ok x.

Section Row.
Variables (vari yib yob : arr_g ops) (nx nyi nyo : nat) (conserv : bool) (extrap : string).
Variables (ix ixiy ixoy : nat) (v : list fl) (b o : nat -> fl) (B O : nat -> R).
Hypothesis Hv : nth_error vari ix = Some v.
Hypothesis Hlv : List.length v = nyi.
Hypothesis Hb : forall i, i <= nyi -> gg2 yib ixiy i = Some (b i).
Hypothesis Ho : forall j, j <= nyo -> gg2 yob ixoy j = Some (o j).
Hypothesis HB : forall i, i <= nyi -> rank (b i) = Some (B i).
Hypothesis HO : forall j, j <= nyo -> rank (o j) = Some (O j).
Hypothesis Hbinc : forall i j, i <= j -> j <= nyi -> (B i <= B j)%R.
Hypothesis Hoinc : forall i j, i < j -> j <= nyo -> (O i < O j)%R.
Hypothesis Hix : ix < nx.

Definition below : bool := String.eqb extrap "bellow" || String.eqb extrap "both".
Definition above : bool := String.eqb extrap "above" || String.eqb extrap "both".
Definition edge0 (j i : nat) : fl := if (below && (i =? 0) && fltb (o j) (b i))%bool then o j else b i.
Definition edge1 (j i : nat) : fl := if (above && (S i =? nyi) && fltb (b (S i)) (o (S j)))%bool then o (S j) else b (S i).
Definition E0 (j i : nat) : R := if (below && (i =? 0))%bool then Rmin (B i) (O j) else B i.
Definition E1 (j i : nat) : R := if (above && (S i =? nyi))%bool then Rmax (B (S i)) (O (S j)) else B (S i).

Lemma edge0_rank j i : j <= nyo -> i <= nyi -> rank (edge0 j i) = Some (E0 j i).
Proof.
  intros Hj Hi. unfold edge0, E0. destruct (below && (i =? 0))%bool; cbn [andb]; [|auto].
  assert (L := L_lt (o j) (b i) _ _ (HO j Hj) (HB i Hi)). unfold Rmin.
  destruct (fltb (o j) (b i)); destruct (Rle_dec (B i) (O j)); auto.
  - destruct L as [L _]. specialize (L eq_refl). lra.
  - destruct L as [_ L]. exfalso. assert (false = true) by (apply L; lra). discriminate.
Qed.
Lemma edge1_rank j i : S j <= nyo -> S i <= nyi -> rank (edge1 j i) = Some (E1 j i).
Proof.
  intros Hj Hi. unfold edge1, E1. destruct (above && (S i =? nyi))%bool; cbn [andb]; [|auto].
  assert (L := L_lt (b (S i)) (o (S j)) _ _ (HB (S i) Hi) (HO (S j) Hj)). unfold Rmax.
  destruct (fltb (b (S i)) (o (S j))); destruct (Rle_dec (B (S i)) (O (S j))); auto.
  - destruct L as [L _]. specialize (L eq_refl). lra.
  - destruct L as [_ L]. rewrite HB by auto. f_equal. destruct r as [r|r]; auto. exfalso. assert (false = true) by (now apply L). discriminate.
Qed.

Definition in_inv (j : nat) (varo0 : arr_g ops) (k : nat) (st : Z * fl * arr_g ops) : Prop :=
  exists i0 w q varo, st = (Z.of_nat i0, w, varo) /\ i0 <= nyi /\
    (forall i, i < i0 -> (B (S i) < O j)%R /\ (above && (S i =? nyi))%bool = false) /\
    acc conserv v (edge0 j) (edge1 j) (o j) (o (S j)) k w q /\
    gshape varo nx nyo /\ gg2 varo ix j = Some q /\
    forall i' j', (i', j') <> (ix, j) -> gg2 varo i' j' = gg2 varo0 i' j'.

(** The remaining cells are above *)
Lemma acc_end j k w q : j < nyo -> k <= nyi ->
  acc conserv v (edge0 j) (edge1 j) (o j) (o (S j)) k w q ->
  (forall i, k <= i < nyi -> (O (S j) <= E0 j i)%R) ->
  acc conserv v (edge0 j) (edge1 j) (o j) (o (S j)) nyi w q.
Proof.
  intros Hj Hk A H. replace nyi with (k + (nyi - k)) by lia.
  assert (G : forall m, k + m <= nyi -> acc conserv v (edge0 j) (edge1 j) (o j) (o (S j)) (k + m) w q).
  { induction m as [|m IH]; intro Hm; [now rewrite Nat.add_0_r|]. rewrite Nat.add_succ_r. apply acc_out; [apply IH; lia|].
    right. exists (O (S j)), (E0 j (k + m)). split; [apply HO; lia|]. split; [apply edge0_rank; lia|]. apply H. lia. }
  apply G. lia.
Qed.

Lemma in_step_g_ok j varo0 k st : j < nyo -> k < nyi -> in_inv j varo0 k st ->
  match cellave_in_step_g ops vari yib yob conserv extrap (Z.of_nat ix) (Z.of_nat ix)
          (Z.of_nat ixiy) (Z.of_nat ixoy) (Z.of_nat nyi) (Z.of_nat j) (Z.of_nat k) st with
  | Next s2 => in_inv j varo0 (S k) s2
  | Break s2 => in_inv j varo0 nyi s2
  | Fail _ => False
  end.
Proof.
  intros Hj Hk (i0 & w & q & varo & -> & Hi0n & Hi0 & HA & Hs & Hg & Hfr).
  unfold cellave_in_step_g.
  replace (Z.of_nat k + 1)%Z with (Z.of_nat (S k)) by lia.
  replace (Z.of_nat j + 1)%Z with (Z.of_nat (S j)) by lia.
  rewrite (get2_gg2 _ _ _ _ (Hb k ltac:(lia))), (get2_gg2 _ _ _ _ (Hb (S k) ltac:(lia))).
  rewrite (get2_gg2 _ _ _ _ (Ho j ltac:(lia))), (get2_gg2 _ _ _ _ (Ho (S j) ltac:(lia))).
  cbn [bindc]. cbv zeta.
  replace (Z.of_nat k =? 0)%Z with (k =? 0) by (destruct (Nat.eqb_spec k 0), (Z.eqb_spec (Z.of_nat k) 0); auto; lia).
  replace (Z.of_nat k =? Z.of_nat nyi - 1)%Z with (S k =? nyi) by (destruct (Nat.eqb_spec (S k) nyi), (Z.eqb_spec (Z.of_nat k) (Z.of_nat nyi - 1)); auto; lia).
  fold below. fold above.
  change (if (below && (k =? 0) && fltb (o j) (b k))%bool then o j else b k) with (edge0 j k).
  change (if (above && (S k =? nyi) && fltb (b (S k)) (o (S j)))%bool then o (S j) else b (S k)) with (edge1 j k).
  assert (R0 := edge0_rank j k ltac:(lia) ltac:(lia)). assert (R1 := edge1_rank j k ltac:(lia) ltac:(lia)).
  assert (P0 := HO j ltac:(lia)). assert (P1 := HO (S j) ltac:(lia)).
  assert (Hw := Hoinc j (S j) ltac:(lia) ltac:(lia)).
  assert (Hnext : forall i, k < i < nyi -> (B (S k) <= E0 j i)%R).
  { intros i Hi. unfold E0. replace (i =? 0) with false by (symmetry; apply Nat.eqb_neq; lia). rewrite andb_false_r. apply Hbinc; lia. }
  assert (HEB : (E0 j k <= B k)%R). { unfold E0. destruct (_ && _)%bool; [apply Rmin_l|lra]. }
  assert (Hbk := Hbinc k (S k) ltac:(lia) ltac:(lia)).
  destruct (fltb (o (S j)) (edge0 j k)) eqn:C1.
  { apply (L_lt _ _ _ _ P1 R0) in C1. exists i0, w, q, varo. repeat split; auto; try apply Hs; try (apply Hi0; auto).
    apply acc_end with (k := k); auto; [lia|]. intros i Hi. destruct (Nat.eq_dec i k) as [->|N]; [lra|].
    specialize (Hnext i ltac:(lia)). lra. }
  assert (G1 : (E0 j k <= O (S j))%R). { destruct (Rle_lt_dec (E0 j k) (O (S j))) as [|G]; auto. apply (L_lt _ _ _ _ P1 R0) in G. congruence. }
  destruct (fltb (edge1 j k) (o j)) eqn:C2.
  { apply (L_lt _ _ _ _ R1 P0) in C2.
    assert (Hl : (above && (S k =? nyi))%bool = false).
    { destruct (above && (S k =? nyi))%bool eqn:Q; auto. exfalso. unfold E1 in C2. rewrite Q in C2. assert (X := Rmax_r (B (S k)) (O (S j))). lra. }
    assert (HE1 : E1 j k = B (S k)) by (unfold E1; now rewrite Hl). rewrite HE1 in C2.
    exists (S k), w, q, varo. repeat split; auto; try lia; try apply Hs.
    - assert (B (S i) <= B (S k))%R by (apply Hbinc; lia). lra.
    - destruct (Nat.eq_dec i k) as [->|N]; auto. replace (S i =? nyi) with false; [apply andb_false_r|]. symmetry. apply Nat.eqb_neq. lia.
    - apply acc_out; auto. left. exists (E1 j k), (O j). repeat split; auto. lra. }
  assert (G2 : (O j <= E1 j k)%R). { destruct (Rle_lt_dec (O j) (E1 j k)) as [|G]; auto. apply (L_lt _ _ _ _ R1 P0) in G. congruence. }
  set (d := fsub (fmin_g ops (edge1 j k) (o (S j))) (fmax_g ops (edge0 j k) (o j))).
  assert (Hd : exists d1, weight_g conserv (edge0 j k) (edge1 j k) (o j) (o (S j)) = Ok d1).
  { unfold weight_g. destruct (conserv && negb (feqb (edge0 j k) (edge1 j k)))%bool; eauto. }
  destruct Hd as [d1 Ed1]. assert (Ed1' := Ed1). unfold weight_g in Ed1'. fold d in Ed1'. cbv zeta in Ed1'. rewrite Ed1'. cbn [bindc].
  destruct (nth_error v k) as [x|] eqn:Ex; [|apply nth_error_None in Ex; lia].
  assert (Hgv : gg2 vari ix k = Some x) by (unfold gg2; now rewrite Hv).
  rewrite (get2_gg2 _ _ _ _ Hgv). cbn [bindc].
  assert (Hfin : forall s2, in_inv j varo0 (S k) s2 -> (O (S j) <= E1 j k)%R -> in_inv j varo0 nyi s2).
  { intros s2 (i1 & w1 & q1 & varo1 & Hs2e & H1 & H2 & H3 & H4 & H5 & H6) G3.
    exists i1, w1, q1, varo1. repeat split; auto; try apply H4; try (apply H2; auto).
    apply acc_end with (k := S k); auto. intros i Hi. specialize (Hnext i ltac:(lia)).
    assert (E1 j k = B (S k)); [|lra]. unfold E1. replace (S k =? nyi) with false; [now rewrite andb_false_r|]. symmetry. apply Nat.eqb_neq. lia. }
  destruct (isnan x) eqn:En.
  - cbn [bindc fst snd].
    assert (I2 : in_inv j varo0 (S k) (Z.of_nat i0, w, varo)).
    { exists i0, w, q, varo. repeat split; auto; try apply Hs; try (apply Hi0; auto). eapply acc_nan; eauto. }
    destruct (fleb (o (S j)) (edge1 j k)) eqn:C3; [|exact I2].
    apply Hfin; auto. now apply (L_le _ _ _ _ P1 R1).
  - rewrite (get2_gg2 _ _ _ _ Hg). cbn [bind].
    destruct (set2_gg2 varo ix j (fadd q (fmul x d1)) _ nx nyo Hs Hg) as (varo' & Es & Hs' & Hg').
    rewrite Es. cbn [bind bindc fst snd].
    assert (I2 : in_inv j varo0 (S k) (Z.of_nat i0, fadd w d1, varo')).
    { exists i0, (fadd w d1), (fadd q (fmul x d1)), varo'. repeat split; auto; try apply Hs'; try (apply Hi0; auto).
      - eapply acc_add; eauto; [exists (O j), (E1 j k)|exists (E0 j k), (O (S j))]; auto.
      - rewrite Hg', !Nat.eqb_refl. reflexivity.
      - intros i' j' Hne. rewrite Hg'.
        destruct (Nat.eqb_spec i' ix) as [->|]; simpl; [|now apply Hfr].
        destruct (Nat.eqb_spec j' j) as [->|]; [contradiction|now apply Hfr]. }
    destruct (fleb (o (S j)) (edge1 j k)) eqn:C3; [|exact I2].
    apply Hfin; auto. now apply (L_le _ _ _ _ P1 R1).
Qed.

(** What the row must contain in the end *)
Definition cell_value_g (j : nat) (x : fl) : Prop :=
  exists w s, acc conserv v (edge0 j) (edge1 j) (o j) (o (S j)) nyi w s /\ cell_result conserv w s x.
Definition out_inv (varo0 : arr_g ops) (j : nat) (st : Z * arr_g ops) : Prop :=
  exists i0 varo, st = (Z.of_nat i0, varo) /\ i0 <= nyi /\
    (forall i j', i < i0 -> j <= j' -> j' <= nyo -> (B (S i) < O j')%R /\ (above && (S i =? nyi))%bool = false) /\
    gshape varo nx nyo /\
    (forall i' j', i' <> ix -> gg2 varo i' j' = gg2 varo0 i' j') /\
    forall j', j' < nyo ->
      if j' <? j then exists x, gg2 varo ix j' = Some x /\ cell_value_g j' x
      else gg2 varo ix j' = Some f0.

Lemma out_step_g_ok varo0 j st : j < nyo -> out_inv varo0 j st ->
  match cellave_out_step_g ops vari yib yob conserv extrap (Z.of_nat ix) (Z.of_nat ix)
          (Z.of_nat ixiy) (Z.of_nat ixoy) (Z.of_nat nyi) (Z.of_nat j) st with
  | Next s2 => out_inv varo0 (S j) s2
  | Break _ => False
  | Fail _ => False
  end.
Proof.
  intros Hj (i0 & varo & -> & Hi0n & Hi0 & Hs & Hfr & Hrow).
  unfold cellave_out_step_g.
  replace (Z.of_nat j + 1)%Z with (Z.of_nat (S j)) by lia.
  rewrite (get2_gg2 _ _ _ _ (Ho j ltac:(lia))), (get2_gg2 _ _ _ _ (Ho (S j) ltac:(lia))).
  cbn [bindc].
  pose proof (Hoinc j (S j) ltac:(lia) ltac:(lia)) as Hoj.
  destruct (feqb (o j) (o (S j))) eqn:Eq.
  { apply (L_eq _ _ _ _ (HO j ltac:(lia)) (HO (S j) ltac:(lia))) in Eq. lra. }
  pose proof (Hrow j Hj) as Hrj. rewrite Nat.ltb_irrefl in Hrj.
  assert (Hacc0 : acc conserv v (edge0 j) (edge1 j) (o j) (o (S j)) i0 f0 f0).
  { assert (G : forall m, m <= i0 -> acc conserv v (edge0 j) (edge1 j) (o j) (o (S j)) m f0 f0).
    { induction m as [|m IH]; intro Hm; [apply acc_0|]. apply acc_out; [apply IH; lia|]. left.
      destruct (Hi0 m j ltac:(lia) ltac:(lia) ltac:(lia)) as [X1 X2].
      exists (E1 j m), (O j). split; [apply edge1_rank; lia|]. split; [apply HO; lia|]. unfold E1. rewrite X2. lra. }
    now apply G. }
  destruct (for_each_seq i0 (nyi - i0)
    (fun k => cellave_in_step_g ops vari yib yob conserv extrap (Z.of_nat ix) (Z.of_nat ix)
          (Z.of_nat ixiy) (Z.of_nat ixoy) (Z.of_nat nyi) (Z.of_nat j) (Z.of_nat k))
    (in_inv j varo) (in_inv j varo nyi) (Z.of_nat i0, f0, varo)) as (st2 & Est2 & Hst2).
  { exists i0, f0, f0, varo. repeat split; auto; try apply Hs; apply (Hi0 i j); auto; lia. }
  { intros k s' Hk Hin. apply in_step_g_ok; auto. lia. }
  { intros s' Hin. replace (i0 + (nyi - i0)) with nyi in Hin by lia. exact Hin. }
  rewrite pyrange_nat, for_each_map, Est2. cbn [bindc].
  destruct Hst2 as (i1 & w & q & varo1 & -> & Hi1n & Hi1 & HA & Hs1 & Hg1 & Hfr1).
  assert (Hi1' : forall i j', i < i1 -> S j <= j' -> j' <= nyo -> (B (S i) < O j')%R /\ (above && (S i =? nyi))%bool = false).
  { intros i j' Hi Hj' Hj'n. destruct (Hi1 i Hi) as [X1 X2]. split; auto.
    pose proof (Hoinc j j' ltac:(lia) Hj'n). lra. }
  assert (Hother : forall varo2 x,
    (forall i' j', (i', j') <> (ix, j) -> gg2 varo2 i' j' = gg2 varo1 i' j') -> gg2 varo2 ix j = Some x -> cell_result conserv w q x ->
    gshape varo2 nx nyo -> out_inv varo0 (S j) (Z.of_nat i1, varo2)).
  { intros varo2 x H2 Hx Hc Hs2. exists i1, varo2. repeat split; auto; try apply Hs2; try (eapply Hi1'; eauto).
    - intros i' j' Hne. rewrite H2 by congruence. rewrite Hfr1 by congruence. now apply Hfr.
    - intros j' Hj'. destruct (Nat.eq_dec j' j) as [->|Hne].
      + replace (j <? S j) with true by (symmetry; apply Nat.ltb_lt; lia). exists x. split; auto. exists w, q. auto.
      + rewrite H2 by congruence. rewrite Hfr1 by congruence. specialize (Hrow j' Hj').
        replace (j' <? S j) with (j' <? j)
          by (destruct (Nat.ltb_spec j' j), (Nat.ltb_spec j' (S j)); auto; lia).
        exact Hrow. }
  unfold cell_result in Hother.
  destruct conserv eqn:Ec; [eapply Hother; eauto|].
  destruct (feqb w f0) eqn:Ew; cbn [negb].
  - destruct (set2_gg2 varo1 ix j nan _ nx nyo Hs1 Hg1) as (varo2 & Es & Hs2 & Hg2).
    rewrite Es. cbn [bindc]. apply Hother with nan; auto.
    + intros i' j' Hne. rewrite Hg2.
      destruct (Nat.eqb_spec i' ix) as [->|]; simpl; auto.
      destruct (Nat.eqb_spec j' j) as [->|]; auto. contradiction.
    + now rewrite Hg2, !Nat.eqb_refl.
  - rewrite (get2_gg2 _ _ _ _ Hg1). cbn [bindc].
    destruct (L_div0 q w Ew) as [z Ez]. rewrite Ez. cbn [bindc].
    destruct (set2_gg2 varo1 ix j z _ nx nyo Hs1 Hg1) as (varo2 & Es & Hs2 & Hg2).
    rewrite Es. cbn [bindc]. apply Hother with z; auto.
    + intros i' j' Hne. rewrite Hg2.
      destruct (Nat.eqb_spec i' ix) as [->|]; simpl; auto.
      destruct (Nat.eqb_spec j' j) as [->|]; auto. contradiction.
    + now rewrite Hg2, !Nat.eqb_refl.
Qed.

Lemma cellave_row_g_ok varo0 :
  gshape varo0 nx nyo ->
  (forall j, j < nyo -> gg2 varo0 ix j = Some f0) ->
  exists st, for_each (pyrange 0 (Z.of_nat nyo))
    (cellave_out_step_g ops vari yib yob conserv extrap (Z.of_nat ix) (Z.of_nat ix)
          (Z.of_nat ixiy) (Z.of_nat ixoy) (Z.of_nat nyi)) (0%Z, varo0) = Ok st /\
    gshape (snd st) nx nyo /\
    (forall i' j', i' <> ix -> gg2 (snd st) i' j' = gg2 varo0 i' j') /\
    forall j, j < nyo -> exists x, gg2 (snd st) ix j = Some x /\ cell_value_g j x.
Proof.
  intros Hs H0. change 0%Z with (Z.of_nat 0). rewrite pyrange_nat, Nat.sub_0_r, for_each_map.
  apply for_each_seq with (I := out_inv varo0).
  - exists 0, varo0. repeat split; auto; try apply Hs; try lia.
  - intros j st Hj Hinv. pose proof (out_step_g_ok varo0 j st ltac:(lia) Hinv) as H.
    destruct (cellave_out_step_g _ _ _ _ _ _ _ _ _ _ _ _ st); auto. contradiction.
  - intros st (i0 & varo & -> & _ & _ & Hs' & Hfr & Hrow). cbn [snd].
    repeat split; auto; try apply Hs'.
    intros j Hj. specialize (Hrow j Hj).
    replace (j <? 0 + nyo) with true in Hrow by (symmetry; apply Nat.ltb_lt; lia).
    exact Hrow.
Qed.
End Row.

(** A coordinate row: all its values are numbers *)
Definition all_rank (l : list fl) : Prop := forall i, i < List.length l -> exists x, gval rank l i x.
Definition gnum (l : list fl) (i : nat) : R := match nth_error l i with Some t => match rank t with Some x => x | None => 0%R end | None => 0%R end.
Definition gat (l : list fl) (i : nat) : fl := nth i l nan.
Lemma gat_nth l i : i < List.length l -> nth_error l i = Some (gat l i).
Proof. intro H. unfold gat. apply nth_error_nth'. exact H. Qed.
Lemma gat_rank l i : all_rank l -> i < List.length l -> rank (gat l i) = Some (gnum l i).
Proof. intros A H. destruct (A i H) as (x & t & E & R). unfold gnum. rewrite E. rewrite (gat_nth l i H) in E. injection E as ->. now rewrite R. Qed.
Lemma gnum_val l i : all_rank l -> i < List.length l -> gval rank l i (gnum l i).
Proof. intros A H. exists (gat l i). split; [now apply gat_nth|now apply gat_rank]. Qed.
Lemma gnum_is l i x : gval rank l i x -> gnum l i = x.
Proof. intros (t & E & R). unfold gnum. now rewrite E, R. Qed.

(** A row of the result *)
Definition cell_row_g (conserv : bool) (extrap : string) (v rb ro r : list fl) : Prop :=
  S (List.length r) = List.length ro /\
  forall j, j < List.length r -> exists x, nth_error r j = Some x /\
    cell_value_g (List.length v) conserv extrap v (gat rb) (gat ro) j x.

Theorem cellave1d_g_correct vari yib yob conserv extrap nxi nxiy nxo nyi nyo :
  gshape vari nxi nyi -> gshape yib nxiy (S nyi) -> gshape yob nxo (S nyo) ->
  0 < nxiy -> 0 < nxo -> nxo <= nxi ->
  Forall all_rank yib -> Forall all_rank yob ->
  Forall (gnondecreasing rank) yib -> Forall (gincreasing rank) yob ->
  exists out, cellave1d_g ops vari yib yob conserv extrap = Ok out /\ gshape out nxi nyo /\
    grows_ok (cell_row_g conserv extrap) vari yib yob out.
Proof.
  intros Hv Hb Ho H1 H2 H3 Vb Vo Ib Io.
  assert (C : exists out, cellave1d_g ops vari yib yob conserv extrap = Ok out /\ gshape out nxi nyo /\
    forall ix v rb ro r, nth_error vari ix = Some v ->
      nth_error yib (ix mod nxiy) = Some rb -> nth_error yob (ix mod nxo) = Some ro ->
      nth_error out ix = Some r -> cell_row_g conserv extrap v rb ro r).
  2:{ destruct C as (out & E & Hs & HR). exists out. repeat split; auto; try apply Hs;
      (assert (Hix : ix < nxi) by (destruct Hs as [<- _]; apply nth_error_Some; congruence));
      destruct Hv as [L1 _], Hb as [L2 _], Ho as [L3 _]; rewrite L1 in H; rewrite L2 in H0;
      rewrite L3 in H4; rewrite Nat.mod_small in H by lia; now apply (HR ix v ryi ryo r). }
  unfold cellave1d_g.
  rewrite (gnrows_shape ops _ _ _ Hv), (gnrows_shape ops _ _ _ Hb), (gnrows_shape ops _ _ _ Ho).
  rewrite (gshape_ncols ops _ _ _ Ho) by auto. rewrite (gshape_ncols ops _ _ _ Hv) by lia.
  replace (Z.max (Z.of_nat nxi) (Z.of_nat nxo)) with (Z.of_nat nxi) by lia.
  replace (Z.of_nat (S nyo) - 1)%Z with (Z.of_nat nyo) by lia.
  change 0%Z with (Z.of_nat 0) at 1. rewrite pyrange_nat, Nat.sub_0_r, for_each_map.
  rewrite Forall_forall in Vb, Vo, Ib, Io.
  apply for_each_seq with (I := fun k varo =>
    gshape varo nxi nyo /\
    forall ix, ix < nxi ->
      if ix <? k then
        forall v rb ro r, nth_error vari ix = Some v ->
          nth_error yib (ix mod nxiy) = Some rb -> nth_error yob (ix mod nxo) = Some ro ->
          nth_error varo ix = Some r -> cell_row_g conserv extrap v rb ro r
      else forall j, j < nyo -> gg2 varo ix j = Some f0).
  - split.
    + split; [apply glength_full2|]. unfold full2_g. rewrite !Nat2Z.id.
      apply Forall_forall. intros r Hr. apply repeat_spec in Hr. subst. apply repeat_length.
    + intros ix Hix. simpl. intros j Hj. unfold gg2.
      rewrite gnth_error_full2 by auto. now apply nth_error_repeat.
  - intros ix varo Hix [Hs Hinv].
    rewrite !grow_index_ok by lia. cbn [bindc].
    rewrite (Nat.mod_small ix nxi) by lia.
    destruct (gshape_get ops _ _ _ ix Hv) as [v Ev]; [lia|].
    destruct (gshape_get ops yib nxiy _ (ix mod nxiy) Hb) as [rb Erb].
    { apply Nat.mod_upper_bound; lia. }
    destruct (gshape_get ops yob nxo _ (ix mod nxo) Ho) as [ro Ero].
    { apply Nat.mod_upper_bound; lia. }
    assert (Hvb : all_rank rb) by (apply Vb; eapply nth_error_In; eauto).
    assert (Hvo : all_rank ro) by (apply Vo; eapply nth_error_In; eauto).
    assert (Hib : gnondecreasing rank rb) by (apply Ib; eapply nth_error_In; eauto).
    assert (Hio : gincreasing rank ro) by (apply Io; eapply nth_error_In; eauto).
    pose proof (gshape_row ops _ _ _ _ _ Hv Ev) as Lv.
    pose proof (gshape_row ops _ _ _ _ _ Hb Erb) as Lb.
    pose proof (gshape_row ops _ _ _ _ _ Ho Ero) as Lo.
    assert (Ho' : forall i j, i < j -> j <= nyo -> (gnum ro i < gnum ro j)%R).
    { intros i j Hij Hj. apply (Hio i j); auto; apply gnum_val; auto; lia. }
    destruct (cellave_row_g_ok vari yib yob nxi nyi nyo conserv extrap ix (ix mod nxiy) (ix mod nxo)
                v (gat rb) (gat ro) (gnum rb) (gnum ro) Ev Lv) with (varo0 := varo) as (st & Est & Hs' & Hfr & Hrow).
    + intros i Hi. unfold gg2. rewrite Erb. apply gat_nth. lia.
    + intros j Hj. unfold gg2. rewrite Ero. apply gat_nth. lia.
    + intros i Hi. apply gat_rank; auto. lia.
    + intros i Hi. apply gat_rank; auto. lia.
    + intros i j Hij Hj. destruct (Nat.eq_dec i j) as [->|]; [lra|].
      apply (Hib i j); try lia; apply gnum_val; auto; lia.
    + exact Ho'.
    + lia.
    + exact Hs.
    + pose proof (Hinv ix ltac:(lia)) as Hk. now rewrite Nat.ltb_irrefl in Hk.
    + unfold arr_g in *. rewrite Est. cbn [bindc]. split; [exact Hs'|].
      intros ix' Hix'.
      destruct (Nat.eq_dec ix' ix) as [->|Hne].
      * replace (ix <? 1 + ix) with true by (symmetry; apply Nat.ltb_lt; lia).
        intros v' rb' ro' r Ev' Erb' Ero' Er.
        assert (v' = v) as -> by congruence. assert (rb' = rb) as -> by congruence.
        assert (ro' = ro) as -> by congruence.
        pose proof (gshape_row ops _ _ _ _ _ Hs' Er) as Lr.
        split; [lia|]. intros j Hj.
        destruct (Hrow j ltac:(lia)) as (x & Hx & Hcv).
        exists x. split; [unfold gg2 in Hx; now rewrite Er in Hx|]. now rewrite Lv.
      * assert (Hrr : forall j, gg2 (snd st) ix' j = gg2 varo ix' j) by (intro j; now apply Hfr).
        pose proof (Hinv ix' Hix') as Hk.
        replace (ix' <? 1 + ix) with (ix' <? ix)
          by (destruct (Nat.ltb_spec ix' ix), (Nat.ltb_spec ix' (1 + ix)); auto; lia).
        destruct (ix' <? ix).
        -- intros v' rb' ro' r Ev' Erb' Ero' Er.
           destruct (gshape_get ops _ _ _ ix' Hs) as [r0 Er0]; [lia|].
           assert (r = r0) as ->.
           { apply nth_error_ext. intro j. specialize (Hrr j). unfold gg2 in Hrr.
             now rewrite Er, Er0 in Hrr. }
           eapply Hk; eauto.
        -- intros j Hj. rewrite Hrr. now apply Hk.
  - intros out [Hs Hinv]. split; [exact Hs|].
    intros ix v rb ro r Ev Erb Ero Er.
    assert (Hix : ix < nxi).
    { destruct Hs as [<- _]. apply nth_error_Some. congruence. }
    specialize (Hinv ix Hix). replace (ix <? 0 + nxi) with true in Hinv
      by (symmetry; apply Nat.ltb_lt; lia).
    eapply Hinv; eauto.
Qed.
End Cell.
