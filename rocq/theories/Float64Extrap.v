(** get_iminmax and extrap1d in binary64, infinities included. *)
From Verif Require Export Float64PolyRows CellaveProofs.
Open Scope nat_scope.

Lemma number_val d k : has_number d k <-> nvalid ops64 d k.
Proof.
  unfold has_number, number, nvalid, isNaN. split.
  - intros (x & E & N). exists x. split; auto. cbn. destruct x; auto. congruence.
  - intros (x & E & N). exists x. split; auto. cbn in N. intros ->. discriminate.
Qed.
Lemma iminmax64_ok d : exists r, get_iminmax_g ops64 d = Ok r /\ iminmax64 d r.
Proof.
  destruct (get_giminmax_ok ops64 eq_refl d) as (r & E & H). exists r. split; auto.
  destruct H as [[E1 H]|(a & b & E1 & A & B & H)].
  - left. split; auto. intros k Hk. apply (H k). now apply number_val.
  - right. exists a, b. split; auto. split; [now apply number_val|]. split; [now apply number_val|]. intros k Hk. apply H. now apply number_val.
Qed.
Lemma has_lt r i : has_number r i -> i < List.length r.
Proof. intros (x & E & _). apply nth_error_Some. congruence. Qed.
Lemma not_number r i : i < List.length r -> ~ has_number r i -> nth_error r i = Some B754_nan.
Proof.
  intros L N. destruct (nth_error r i) as [x|] eqn:E; [|apply nth_error_None in E; lia].
  destruct (is_nan x) eqn:X; [destruct x; auto; discriminate|]. exfalso. apply N. exists x. split; auto. unfold isNaN. intros ->. discriminate.
Qed.
Lemma number_fun r k x y : number r k x -> number r k y -> x = y.
Proof. intros [A _] [B _]. congruence. Qed.

Lemma extrap64_row_ok mode r : mode <> "no"%string ->
  exists r', extrap_row_g ops64 mode r = Ok r' /\ extrap64_row (fills_bottom mode) (fills_top mode) r r'.
Proof.
  intros _. unfold extrap_row_g.
  destruct (iminmax64_ok r) as ([imin imax] & -> & Hi). cbn [bind].
  destruct Hi as [[Hi Hno]|(a & b & Hi & Hva & Hvb & Hab)]; inversion Hi; subst; clear Hi.
  - change (-1 =? -1)%Z with true. cbn iota. exists r. split; auto. repeat split; auto.
    + intros i x [E _]. exact E.
    + intros i k x _ Hx. exfalso. apply (Hno k). now exists x.
    + intros i k x _ Hx. exfalso. apply (Hno k). now exists x.
    + intros i k1 k2 _ H. exfalso. now apply (Hno k1).
  - destruct (Z.eqb_spec (Z.of_nat a) (-1)) as [Hc|_]; [lia|].
    fold (fills_bottom mode). fold (fills_top mode).
    pose proof (has_lt _ _ Hva) as Hla. pose proof (has_lt _ _ Hvb) as Hlb.
    assert (Hle : a <= b) by (apply Hab; auto).
    change (fnum ops64) with f64 in *.
    destruct Hva as [xa Hxa]. destruct Hvb as [xb Hxb].
    pose proof (pyget_nat r a xa (proj1 Hxa)) as P0. rewrite P0. cbn [bind].
    set (r1 := if fills_bottom mode then fill_before r (Z.of_nat a) xa else r).
    match goal with |- context [if fills_bottom mode then Ok ?A else Ok ?B] => assert (E1 : (if fills_bottom mode then Ok A else Ok B) = Ok r1) by (unfold r1; destruct (fills_bottom mode); auto) end.
    rewrite E1. cbn [bind].
    assert (Hl1 : List.length r1 = List.length r).
    { unfold r1; destruct (fills_bottom mode); auto. apply fill_before_length. lia. }
    assert (Hn1 : forall i, nth_error r1 i = if (i <? a) && fills_bottom mode then Some xa else nth_error r i).
    { intro i. unfold r1. destruct (fills_bottom mode).
      - rewrite nth_error_fill_before by lia. now rewrite andb_true_r.
      - now rewrite andb_false_r. }
    assert (Hxb1 : nth_error r1 b = Some xb).
    { rewrite Hn1. replace (b <? a) with false by (symmetry; apply Nat.ltb_ge; lia). apply Hxb. }
    pose proof (pyget_nat r1 b xb Hxb1) as P1. rewrite P1. cbn [bind].
    replace (Z.of_nat b + 1)%Z with (Z.of_nat (S b)) by lia.
    set (r2 := if fills_top mode then fill_from r1 (Z.of_nat (S b)) xb else r1).
    match goal with |- context [if fills_top mode then Ok ?A else Ok ?B] => assert (E2 : (if fills_top mode then Ok A else Ok B) = Ok r2) by (unfold r2; destruct (fills_top mode); auto) end.
    rewrite E2. exists r2. split; auto.
    assert (Hl2 : List.length r2 = List.length r).
    { unfold r2; destruct (fills_top mode); auto. rewrite fill_from_length; lia. }
    assert (Hn2 : forall i, i < List.length r -> nth_error r2 i =
       if (b <? i) && fills_top mode then Some xb
       else if (i <? a) && fills_bottom mode then Some xa else nth_error r i).
    { intros i Hi. unfold r2. destruct (fills_top mode).
      - rewrite nth_error_fill_from by lia. rewrite andb_true_r, Hl1.
        destruct (Nat.ltb_spec i (S b)), (Nat.ltb_spec b i); try lia; auto.
        replace (i <? List.length r) with true by (symmetry; now apply Nat.ltb_lt). auto.
      - now rewrite andb_false_r, Hn1. }
    assert (Ha1 : forall k x, number r k x -> (forall k', k' < k -> ~ has_number r k') -> k = a /\ x = xa).
    { intros k x Hk Hf. assert (Hvk : has_number r k) by (now exists x). apply Hab in Hvk.
      destruct (Nat.eq_dec k a) as [->|].
      - split; auto. apply (number_fun _ _ _ _ Hk Hxa).
      - exfalso. apply (Hf a); [lia|]. now exists xa. }
    assert (Hb1 : forall k x, number r k x -> (forall k', k < k' -> ~ has_number r k') -> k = b /\ x = xb).
    { intros k x Hk Hf. assert (Hvk : has_number r k) by (now exists x). apply Hab in Hvk.
      destruct (Nat.eq_dec k b) as [->|].
      - split; auto. apply (number_fun _ _ _ _ Hk Hxb).
      - exfalso. apply (Hf b); [lia|]. now exists xb. }
    split; [exact Hl2|]. split.
    { intros i x Hx. assert (Hvi : has_number r i) by (now exists x).
      pose proof (Hab i Hvi). pose proof (has_lt _ _ Hvi). rewrite Hn2 by auto.
      replace (b <? i) with false by (symmetry; apply Nat.ltb_ge; lia).
      replace (i <? a) with false by (symmetry; apply Nat.ltb_ge; lia). apply Hx. }
    split.
    { intros i k x Hik Hk Hf. destruct (Ha1 k x Hk Hf) as [-> ->].
      rewrite Hn2 by lia.
      replace (b <? i) with false by (symmetry; apply Nat.ltb_ge; lia).
      replace (i <? a) with true by (symmetry; apply Nat.ltb_lt; lia). cbn [andb].
      destruct (fills_bottom mode); auto. apply not_number; [lia|]. now apply Hf. }
    split.
    { intros i k x [Hki Hi] Hk Hf. destruct (Hb1 k x Hk Hf) as [-> ->].
      rewrite Hn2 by lia.
      replace (b <? i) with true by (symmetry; apply Nat.ltb_lt; lia).
      replace (i <? a) with false by (symmetry; apply Nat.ltb_ge; lia). cbn [andb].
      destruct (fills_top mode); auto. apply not_number; [lia|]. now apply Hf. }
    split.
    { intros i k1 k2 [H1 H2] V1 V2 Hi. apply Hab in V1. pose proof (Hab k2 V2).
      pose proof (has_lt _ _ V2). unfold nan_at. rewrite Hn2 by lia.
      replace (b <? i) with false by (symmetry; apply Nat.ltb_ge; lia).
      replace (i <? a) with false by (symmetry; apply Nat.ltb_ge; lia). cbn [andb].
      apply not_number; auto. lia. }
    { intro Hno. exfalso. apply (Hno a). now exists xa. }
Qed.
Lemma extrap64_ok vari mode : exists out, extrap1d_g ops64 vari mode = Ok out /\
  Forall2 (extrap64_row (fills_bottom mode) (fills_top mode)) vari out.
Proof.
  unfold extrap1d_g. destruct (String.eqb_spec mode "no") as [->|Hne].
  - exists vari. split; auto. induction vari as [|r l IH]; constructor; auto. cbn.
    split; auto. split; [intros i x [E _]; exact E|]. split; [|split; [|split]]; auto.
    + intros i k x L Hk Hf. apply not_number; auto. assert (k < List.length r) by (apply has_lt; now exists x). change (fnum ops64) with f64 in *. lia.
    + intros i k x L _ Hf. apply not_number; auto; [lia|]. apply Hf. lia.
    + intros i k1 k2 L _ H2 N. apply not_number; auto. apply has_lt in H2. lia.
  - apply map_res_spec. intro r. now apply extrap64_row_ok.
Qed.
