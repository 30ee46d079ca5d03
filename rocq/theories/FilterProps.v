(** C37: convolution *)
From Verif Require Export FilterSpec.
From Coq Require Import Lqa FinFun.
Open Scope nat_scope.

Lemma indices_in s i : In i (indices s) <-> in_shape s i.
Proof.
  unfold in_shape. revert i. induction s as [|n s IH]; intro i; cbn [indices].
  - split; [intros [<-|[]]; constructor|intro H; inversion H; now left].
  - rewrite in_flat_map. split.
    + intros (x & Hx & H). apply in_map_iff in H. destruct H as (r & <- & Hr). apply in_seq in Hx. constructor; [lia|now apply IH].
    + intro H. inversion H as [|x y r s' Hx Hr]; subst. exists x. split; [apply in_seq; lia|]. apply in_map_iff. exists r. split; auto. now apply IH.
Qed.
Lemma nodup_flat_map {A B} (f : A -> list B) l : NoDup l -> (forall x, In x l -> NoDup (f x)) ->
  (forall x y z, In x l -> In y l -> In z (f x) -> In z (f y) -> x = y) -> NoDup (flat_map f l).
Proof.
  induction l as [|x l IH]; intros Hl Hf Hd; [constructor|]. inversion Hl; subst. cbn [flat_map].
  assert (X : forall a b : list B, NoDup a -> NoDup b -> (forall z, In z a -> ~ In z b) -> NoDup (a ++ b)).
  { induction a as [|u a IHa]; intros b Ha Hb Hab; auto. inversion Ha; subst. cbn. constructor.
    - intro H. apply in_app_or in H. destruct H; [auto|]. apply (Hab u); [now left|auto].
    - apply IHa; auto. intros z Hz. apply Hab. now right. }
  apply X.
  - apply Hf; now left.
  - apply IH; auto; [intros y Hy; apply Hf; now right|]. intros y z t Hy Hz. apply Hd; now right.
  - intros z Hz H. apply in_flat_map in H. destruct H as (y & Hy & Hz'). assert (x = y) by (apply (Hd x y z); auto; [now left|now right]). subst. contradiction.
Qed.
Lemma indices_nodup s : NoDup (indices s).
Proof.
  induction s as [|n s IH]; cbn [indices]; [constructor; [intros []|constructor]|].
  apply nodup_flat_map; [apply seq_NoDup| |].
  - intros x _. apply Injective_map_NoDup; auto. intros a b H. now injection H.
  - intros x y z _ _ Hx Hy. apply in_map_iff in Hx, Hy. destruct Hx as (a & <- & _). destruct Hy as (b & E & _). now injection E.
Qed.
Lemma shape_length s i : in_shape s i -> List.length i = List.length s.
Proof. unfold in_shape. induction 1; cbn; auto. Qed.

(** The data position under a kernel position *)
Lemma axis_iff n k i j p : axis n k i j = Some p <-> p < n /\ p + j = i + (k - 1) / 2.
Proof.
  unfold axis. generalize ((k - 1) / 2). intro h. destruct (j <=? i + h) eqn:E.
  - apply Nat.leb_le in E. destruct (i + h - j <? n) eqn:F.
    + apply Nat.ltb_lt in F. split; [intro H; injection H as <-; lia|intros [H1 H2]; f_equal; lia].
    + apply Nat.ltb_ge in F. split; [discriminate|lia].
  - apply Nat.leb_gt in E. split; [discriminate|lia].
Qed.
Lemma position_iff s ks i j p : List.length s = List.length ks -> List.length i = List.length ks -> List.length j = List.length ks ->
  (position s ks i j = Some p <-> in_shape s p /\ meets ks i j p = true).
Proof.
  revert ks i j p. induction s as [|n s IH]; intros [|k ks] [|a i] [|b j] p H1 H2 H3; try discriminate; cbn [position].
  - unfold in_shape. split; [intro H; injection H as <-; split; [constructor|reflexivity]|intros [H _]; inversion H; reflexivity].
  - cbn in H1, H2, H3. specialize (IH ks i j). destruct (axis n k a b) as [c|] eqn:E.
    + apply axis_iff in E. destruct (position s ks i j) as [q|] eqn:F.
      * destruct (proj1 (IH q ltac:(lia) ltac:(lia) ltac:(lia)) eq_refl) as [G1 G2]. split.
        -- intro H. injection H as <-. split; [constructor; auto; lia|]. cbn [meets]. rewrite G2, andb_true_r. apply Nat.eqb_eq. lia.
        -- intros [Hs Hm]. inversion Hs as [|c' n' p' s' Hc Hp]; subst. cbn [meets] in Hm. apply andb_prop in Hm. destruct Hm as [Hm1 Hm2].
           apply Nat.eqb_eq in Hm1. assert (position_eq : Some q = Some p') by (apply IH; auto; lia). injection position_eq as ->. f_equal. f_equal. lia.
      * split; [discriminate|]. intros [Hs Hm]. inversion Hs as [|c' n' p' s' Hc Hp]; subst. cbn [meets] in Hm. apply andb_prop in Hm.
        assert (X : None = Some p') by (apply IH; try lia; tauto). discriminate.
    + split; [discriminate|]. intros [Hs Hm]. inversion Hs as [|c' n' p' s' Hc Hp]; subst. cbn [meets] in Hm. apply andb_prop in Hm. destruct Hm as [Hm1 _].
      apply Nat.eqb_eq in Hm1. assert (X : axis n k a b = Some c') by (apply axis_iff; split; [exact Hc|exact Hm1]). congruence.
Qed.

(** Sums *)
Lemma qsum_cons x l : qsum (x :: l) = (x + qsum l)%Q.
Proof. reflexivity. Qed.
Lemma qsum_nil : qsum [] = 0%Q.
Proof. reflexivity. Qed.
Lemma qsum_app a b : (qsum (a ++ b) == qsum a + qsum b)%Q.
Proof. induction a as [|x a IH]; cbn [app]; rewrite ?qsum_nil, ?qsum_cons, ?IH; ring. Qed.
Lemma qsum_ext {A} (f g : A -> Q) l : (forall x, In x l -> f x == g x)%Q -> (qsum (map f l) == qsum (map g l))%Q.
Proof. induction l as [|x l IH]; intro H; cbn [map]; [reflexivity|]. rewrite !qsum_cons, IH by (intros; apply H; now right). rewrite (H x) by now left. reflexivity. Qed.
Lemma qsum_flat {A B} (f : A -> list B) (g : B -> Q) l : (qsum (map g (flat_map f l)) == qsum (map (fun x => qsum (map g (f x))) l))%Q.
Proof.
  induction l as [|x l IH]; cbn [flat_map map]; [reflexivity|]. rewrite map_app, qsum_app, IH. reflexivity.
Qed.
Lemma qsum_zero {A} (f : A -> Q) l : (forall x, In x l -> f x == 0)%Q -> (qsum (map f l) == 0)%Q.
Proof. induction l as [|x l IH]; intro H; cbn [map]; [reflexivity|]. rewrite qsum_cons, IH by (intros; apply H; now right). rewrite (H x) by now left. reflexivity. Qed.
Lemma qsum_one {A} (f : A -> Q) l x : NoDup l -> In x l -> (forall y, In y l -> y <> x -> f y == 0)%Q -> (qsum (map f l) == f x)%Q.
Proof.
  induction l as [|y l IH]; intros Hn Hx Hf; [destruct Hx|]. inversion Hn; subst. cbn [map]. rewrite qsum_cons.
  destruct Hx as [->|Hx].
  - rewrite qsum_zero; [lra|]. intros z Hz. apply Hf; [now right|]. intros ->. contradiction.
  - rewrite IH; auto; [|intros; apply Hf; auto; now right]. rewrite (Hf y); [lra|now left|]. intros ->. contradiction.
Qed.
Lemma qsum_le {A} (f g : A -> Q) l : (forall x, In x l -> f x <= g x)%Q -> (qsum (map f l) <= qsum (map g l))%Q.
Proof. induction l as [|x l IH]; intro H; cbn [map]; [lra|]. rewrite !qsum_cons. assert (H1 := H x (or_introl eq_refl)). assert (H2 := IH (fun y Hy => H y (or_intror Hy))). lra. Qed.
Lemma qsum_nonneg {A} (f : A -> Q) l : (forall x, In x l -> 0 <= f x)%Q -> (0 <= qsum (map f l))%Q.
Proof. intro H. rewrite <- (qsum_zero (fun _ : A => 0%Q) l) by reflexivity. apply qsum_le. auto. Qed.

(** The two convolutions of the code are sums over the valid neighbours. *)
Lemma conv_neighbours a k i (f : Q -> Q) : List.length (shape a) = List.length (shape k) -> in_shape (shape a) i ->
  (conv_same (shape a) (shape k) (fun p => match value a p with Some v => f v | None => 0%Q end) (value k) i
   == qsum (map (fun wv => fst wv * f (snd wv)) (neighbours a k i)))%Q.
Proof.
  intros Hl Hi. unfold conv_same, neighbours. rewrite qsum_flat. apply qsum_ext. intros j Hj. apply indices_in in Hj.
  assert (L : forall p, position (shape a) (shape k) i j = Some p <-> in_shape (shape a) p /\ meets (shape k) i j p = true).
  { intro p. apply position_iff; auto; [rewrite (shape_length _ _ Hi); auto|apply (shape_length _ _ Hj)]. }
  rewrite qsum_flat.
  set (F := fun p => qsum (map (fun wv : Q * Q => fst wv * f (snd wv))%Q
              (if meets (shape k) i j p then match value a p with Some v => [(value k j, v)] | None => [] end else []))).
  destruct (position (shape a) (shape k) i j) as [p|] eqn:E.
  - destruct (proj1 (L p) eq_refl) as [Hp Hm]. rewrite (qsum_one F (indices (shape a)) p).
    + unfold F. rewrite Hm. destruct (value a p) as [v|]; cbn [map fst snd]; rewrite ?qsum_cons, ?qsum_nil; lra.
    + apply indices_nodup.
    + now apply indices_in.
    + intros q Hq N. unfold F. destruct (meets (shape k) i j q) eqn:Mq; [|reflexivity]. exfalso. apply N.
      assert (X : Some p = Some q) by (apply L; split; auto; now apply indices_in). now injection X.
  - symmetry. apply qsum_zero. intros q Hq. unfold F. destruct (meets (shape k) i j q) eqn:Mq; [|reflexivity]. exfalso.
    assert (X : None = Some q) by (apply L; split; auto; now apply indices_in). discriminate.
Qed.
Lemma conv_moment a k i : List.length (shape a) = List.length (shape k) -> in_shape (shape a) i ->
  (conv_same (shape a) (shape k) (fun p => filled (value a p)) (value k) i == moment (neighbours a k i))%Q.
Proof. intros Hl Hi. apply (conv_neighbours a k i (fun v => v) Hl Hi). Qed.
Lemma conv_weight a k i : List.length (shape a) = List.length (shape k) -> in_shape (shape a) i ->
  (conv_same (shape a) (shape k) (fun p => if isnan (value a p) then 0%Q else 1%Q) (value k) i == weight (neighbours a k i))%Q.
Proof.
  intros Hl Hi. assert (H := conv_neighbours a k i (fun _ => 1%Q) Hl Hi). unfold weight.
  rewrite <- (qsum_ext (fun wv : Q * Q => fst wv * 1)%Q fst); [|intros; lra]. rewrite <- H.
  unfold conv_same. apply qsum_ext. intros j _. destruct (position (shape a) (shape k) i j); [|reflexivity]. destruct (value a l); reflexivity.
Qed.
Lemma neighbours_in a k i w v : In (w, v) (neighbours a k i) <->
  exists j p, in_shape (shape k) j /\ in_shape (shape a) p /\ meets (shape k) i j p = true /\ w = value k j /\ value a p = Some v.
Proof.
  unfold neighbours. rewrite in_flat_map. split.
  - intros (j & Hj & H). apply in_flat_map in H. destruct H as (p & Hp & H). destruct (meets (shape k) i j p) eqn:M; [|destruct H].
    destruct (value a p) as [u|] eqn:E; [|destruct H]. destruct H as [H|[]]. injection H as <- <-.
    exists j, p. split; [now apply indices_in|]. split; [now apply indices_in|auto].
  - intros (j & p & Hj & Hp & M & -> & E). exists j. split; [now apply indices_in|]. apply in_flat_map. exists p. split; [now apply indices_in|].
    rewrite M, E. now left.
Qed.
Lemma weight_bounds a k i : List.length (shape a) = List.length (shape k) -> in_shape (shape a) i -> nonneg k ->
  (0 <= weight (neighbours a k i) <= total k)%Q.
Proof.
  intros Hl Hi Hn. split.
  - unfold weight. apply qsum_nonneg. intros [w v] H. apply neighbours_in in H. destruct H as (j & p & Hj & _ & _ & -> & _). cbn. auto.
  - rewrite <- conv_weight by auto. unfold conv_same, total. apply qsum_le. intros j Hj. apply indices_in in Hj. assert (Hw := Hn j Hj).
    destruct (position _ _ i j) as [p|]; [|lra]. destruct (isnan (value a p)); lra.
Qed.
Lemma clip_id x lo hi : (lo <= x <= hi)%Q -> (clip x lo hi == x)%Q.
Proof.
  intros [H1 H2]. unfold clip, qmin, qmax. destruct (Qle_bool x lo) eqn:E.
  - apply Qle_bool_iff in E. destruct (Qle_bool lo hi) eqn:F; [lra|]. exfalso. assert (X : Qle_bool lo hi = true) by (apply Qle_bool_iff; lra). congruence.
  - destruct (Qle_bool x hi) eqn:F; [lra|]. exfalso. assert (X : Qle_bool x hi = true) by (apply Qle_bool_iff; lra). congruence.
Qed.
Lemma qle_cases a b : (Qle_bool a b = true /\ a <= b)%Q \/ (Qle_bool a b = false /\ b < a)%Q.
Proof.
  destruct (Qle_bool a b) eqn:E; [left|right]; split; auto; [now apply Qle_bool_iff|].
  apply Qnot_le_lt. intro H. apply Qle_bool_iff in H. congruence.
Qed.
Lemma has_nan_iff a : has_nan a <-> existsb (fun i => isnan (value a i)) (indices (shape a)) = true.
Proof.
  rewrite existsb_exists. unfold has_nan. split; intros (i & H1 & H2); exists i.
  - split; [now apply indices_in|now rewrite H2].
  - split; [now apply indices_in|]. destruct (value a i); [discriminate|auto].
Qed.

(** With normalisation, the result is the mean of the valid neighbours weighted by the kernel; it is
    missing where their weight is negligible (when some data are missing) or null (otherwise). *)
Theorem C37_mean a k : List.length (shape a) = List.length (shape k) -> nonneg k ->
  exists v, convolve_ true a k true = Ok v /\ forall i, in_shape (shape a) i ->
    let n := neighbours a k i in
    (v i = None <-> (has_nan a /\ weight n <= (1 # 1000000) * total k)%Q \/ (weight n == 0)%Q) /\
    (forall q, v i = Some q -> (0 < weight n)%Q /\ (q == moment n / weight n)%Q).
Proof.
  intros Hl Hn. unfold convolve_. rewrite Hl, Nat.eqb_refl. cbn [negb andb]. eexists. split; [reflexivity|]. intros i Hi. cbn beta. set (n := neighbours a k i).
  assert (Hb := weight_bounds a k i Hl Hi Hn). fold n in Hb.
  set (W := clip _ 0 (total k)).
  assert (HW : (W == weight n)%Q).
  { unfold W. rewrite clip_id; [now apply conv_weight|]. rewrite conv_weight by auto. exact Hb. }
  assert (HM := conv_moment a k i Hl Hi). fold n in HM. set (M := conv_same _ _ (fun p => filled (value a p)) _ i) in *.
  assert (Hm : existsb (fun i => isnan (value a i)) (indices (shape a)) = true <-> has_nan a) by (symmetry; apply has_nan_iff).
  set (WM := existsb _ (indices (shape a))) in *. clearbody W M WM.
  assert (HA : (Qabs W == W)%Q) by (apply Qabs_pos; lra).
  assert (D : forall q, qdiv M W = Some q -> (0 < weight n)%Q /\ (q == moment n / weight n)%Q).
  { intros q. unfold qdiv. destruct (Qeq_bool W 0) eqn:E; [discriminate|]. intro H. assert (Eq : q = (M / W)%Q) by congruence. subst q. apply Qeq_bool_neq in E.
    split; [|rewrite HM, HW; reflexivity]. destruct (Qlt_le_dec 0 (weight n)); auto. exfalso. apply E. lra. }
  assert (D0 : qdiv M W = None <-> (weight n == 0)%Q).
  { unfold qdiv. destruct (Qeq_bool W 0) eqn:E.
    - apply Qeq_bool_eq in E. split; auto. intros _. lra.
    - apply Qeq_bool_neq in E. split; [discriminate|]. intro H. exfalso. apply E. lra. }
  destruct (qle_cases (Qabs W) ((1 # 1000000) * total k)) as [[-> Hle]|[-> Hlt]].
  - destruct WM; cbn [andb].
    + split; [|discriminate]. split; auto. intros _. left. split; [tauto|lra].
    + split; auto. rewrite D0. split; auto. intros [[H _]|H]; auto. apply Hm in H. discriminate.
  - rewrite andb_false_r. split; auto. rewrite D0. split; auto. intros [[_ H]|H]; auto. lra.
Qed.
(** Without normalisation, it is the weighted sum of the valid neighbours. *)
Theorem C37_sum float a k : List.length (shape a) = List.length (shape k) -> nonneg k ->
  exists v, convolve_ float a k false = Ok v /\ forall i, in_shape (shape a) i ->
    let n := neighbours a k i in
    (v i = None <-> (has_nan a /\ weight n <= (1 # 1000000) * total k)%Q) /\
    (forall q, v i = Some q -> (q == moment n)%Q).
Proof.
  intros Hl Hn. unfold convolve_. rewrite Hl, Nat.eqb_refl. cbn [negb andb]. eexists. split; [reflexivity|]. intros i Hi. cbn beta. set (n := neighbours a k i).
  assert (Hb := weight_bounds a k i Hl Hi Hn). fold n in Hb.
  set (W := clip _ 0 (total k)).
  assert (HW : (W == weight n)%Q).
  { unfold W. rewrite clip_id; [now apply conv_weight|]. rewrite conv_weight by auto. exact Hb. }
  assert (HM := conv_moment a k i Hl Hi). fold n in HM. set (M := conv_same _ _ (fun p => filled (value a p)) _ i) in *.
  assert (Hm : existsb (fun i => isnan (value a i)) (indices (shape a)) = true <-> has_nan a) by (symmetry; apply has_nan_iff).
  set (WM := existsb _ (indices (shape a))) in *. clearbody W M WM.
  assert (HA : (Qabs W == W)%Q) by (apply Qabs_pos; lra).
  destruct (qle_cases (Qabs W) ((1 # 1000000) * total k)) as [[-> Hle]|[-> Hlt]].
  - destruct WM; cbn [andb].
    + split; [|discriminate]. split; auto. intros _. split; [tauto|lra].
    + split; [|intros q H; assert (q = M) by congruence; subst; auto]. split; [discriminate|]. intros [H _]. apply Hm in H. discriminate.
  - rewrite andb_false_r. split; [|intros q H; assert (q = M) by congruence; subst; auto]. split; [discriminate|]. intros [_ H]. lra.
Qed.
Lemma mean_bounds l lo hi : (forall w v, In (w, v) l -> 0 <= w /\ lo <= v <= hi)%Q -> (0 < weight l)%Q ->
  (lo <= moment l / weight l <= hi)%Q.
Proof.
  intros H HW.
  assert (B : (lo * weight l <= moment l <= hi * weight l)%Q).
  { clear HW. unfold weight, moment. induction l as [|[w v] l IH]; cbn [map fst snd]; rewrite ?qsum_nil, ?qsum_cons; [lra|].
    destruct (H w v (or_introl eq_refl)) as [Hw Hv]. specialize (IH (fun w v X => H w v (or_intror X))).
    assert (lo * w <= w * v)%Q by nra. assert (w * v <= hi * w)%Q by nra. lra. }
  assert (E : (moment l == (moment l / weight l) * weight l)%Q) by (field; lra).
  set (m := (moment l / weight l)%Q) in *. clearbody m. set (W := weight l) in *. clearbody W. set (M := moment l) in *. clearbody M.
  split.
  - destruct (Qlt_le_dec m lo) as [X|]; auto. exfalso. assert (m * W < lo * W)%Q by nra. lra.
  - destruct (Qlt_le_dec hi m) as [X|]; auto. exfalso. assert (hi * W < m * W)%Q by nra. lra.
Qed.

Section convolve.
  Variable window : nat -> list Q.
  Variable fill : Q.
  Notation generate_kernel := (generate_kernel window fill).
  Notation convolve := (convolve window fill).
  Lemma convolve_inv float a spec norm r : convolve float a spec norm = Ok r ->
    exists k v, generate_kernel float spec (dims a) = Ok k /\ convolve_ float a k norm = Ok v /\ List.length (shape a) = List.length (shape k) /\
      dims r = dims a /\ shape r = shape a /\ value r = v.
  Proof.
    unfold Filter.convolve. destruct (generate_kernel float spec (dims a)) as [k|]; [|discriminate]. cbn [bind]. intro H.
    destruct (convolve_ float a k norm) as [v|] eqn:E; [|discriminate]. cbn [bind] in H. injection H as <-. exists k, v.
    split; auto. split; auto. split; [|auto]. unfold convolve_ in E. destruct (List.length (shape a) =? List.length (shape k)) eqn:El; [|discriminate].
    now apply Nat.eqb_eq.
  Qed.
  (** convolve(data, kernel, normalize=True): an array like the data, whose value at each point is the
      weighted mean of the valid data under the kernel; missing where their weight is null or,
      if some data are missing somewhere, below a millionth of the kernel sum. *)
  Theorem C37_convolve a spec r : convolve true a spec true = Ok r -> exists k, generate_kernel true spec (dims a) = Ok k /\
    dims r = dims a /\ shape r = shape a /\
    (nonneg k -> forall i, in_shape (shape a) i -> let n := neighbours a k i in
      (value r i = None <-> (has_nan a /\ weight n <= (1 # 1000000) * total k)%Q \/ (weight n == 0)%Q) /\
      (forall q, value r i = Some q -> (0 < weight n)%Q /\ (q == moment n / weight n)%Q)).
  Proof.
    intro H. destruct (convolve_inv _ _ _ _ _ H) as (k & v & Ek & Ev & Hl & D & S & V). exists k. split; auto. split; auto. split; auto.
    intros Hn i Hi. destruct (C37_mean a k Hl Hn) as (v' & Ev' & X). rewrite V. rewrite Ev in Ev'. injection Ev' as ->. apply X. exact Hi.
  Qed.
  (** Bounds: a result is between the bounds of the valid data under the kernel, hence of the data. *)
  Theorem C37_bounds a spec r k lo hi : convolve true a spec true = Ok r -> generate_kernel true spec (dims a) = Ok k -> nonneg k ->
    forall i q, in_shape (shape a) i -> value r i = Some q ->
    (forall p v, in_shape (shape a) p -> linked k i p -> value a p = Some v -> (lo <= v <= hi)%Q) -> (lo <= q <= hi)%Q.
  Proof.
    intros H Hk Hn i q Hi Hq Hb. destruct (C37_convolve a spec r H) as (k' & Ek' & _ & _ & X). rewrite Hk in Ek'. injection Ek' as <-.
    destruct (X Hn i Hi) as [_ Y]. destruct (Y q Hq) as [HW E].
    (* neighbours without weight do not count *)
    set (n := neighbours a k i) in *. set (n' := List.filter (fun wv => negb (Qeq_bool (fst wv) 0)) n).
    assert (E1 : (weight n' == weight n /\ moment n' == moment n)%Q).
    { unfold n', weight, moment. clear. induction n as [|[w v] n IH]; [split; reflexivity|]. cbn [List.filter fst]. destruct IH as [I1 I2].
      destruct (Qeq_bool w 0) eqn:Ew; cbn [negb map fst snd]; rewrite ?qsum_cons, I1, I2.
      - apply Qeq_bool_eq in Ew. rewrite Ew. split; ring.
      - split; reflexivity. }
    rewrite E. destruct E1 as [E1 E2]. rewrite <- E1, <- E2. apply mean_bounds; [|lra].
    intros w v Hin. apply filter_In in Hin. destruct Hin as [Hin Hw]. apply negb_true_iff in Hw. apply Qeq_bool_neq in Hw. cbn [fst] in Hw.
    apply neighbours_in in Hin. destruct Hin as (j & p & Hj & Hp & M & -> & Ev). assert (W0 := Hn j Hj). split; auto.
    apply (Hb p v Hp); auto. exists j. split; auto. split; auto. destruct (Qlt_le_dec 0 (value k j)); auto. exfalso. apply Hw. lra.
  Qed.
  (** Constant data are preserved. *)
  Theorem C37_constant a spec r k c : convolve true a spec true = Ok r -> generate_kernel true spec (dims a) = Ok k -> nonneg k ->
    (forall p v, in_shape (shape a) p -> value a p = Some v -> (v == c)%Q) ->
    forall i q, in_shape (shape a) i -> value r i = Some q -> (q == c)%Q.
  Proof.
    intros H Hk Hn Hc i q Hi Hq. assert (B := C37_bounds a spec r k c c H Hk Hn i q Hi Hq).
    assert (X : (c <= q <= c)%Q) by (apply B; intros p v Hp _ Ev; assert (Z := Hc p v Hp Ev); lra). lra.
  Qed.
  (** A valid point under a kernel with some weight at its centre stays valid. *)
  Theorem C37_defined a spec r k : convolve true a spec true = Ok r -> generate_kernel true spec (dims a) = Ok k -> nonneg k ->
    forall i p, in_shape (shape a) i -> in_shape (shape a) p -> value a p <> None ->
    (exists j, in_shape (shape k) j /\ meets (shape k) i j p = true /\ (1 # 1000000) * total k < value k j)%Q -> value r i <> None.
  Proof.
    intros H Hk Hn i p Hi Hp Hv (j & Hj & M & Hw). destruct (C37_convolve a spec r H) as (k' & Ek' & _ & _ & X). rewrite Hk in Ek'. injection Ek' as <-.
    destruct (X Hn i Hi) as [Y _]. rewrite Y. set (n := neighbours a k i) in *.
    assert (Hge : (value k j <= weight n)%Q).
    { destruct (value a p) as [v|] eqn:Ev; [|congruence]. assert (In (value k j, v) n) by (apply neighbours_in; eauto 10).
      assert (P : forall x, In x n -> (0 <= fst x)%Q).
      { intros [w u] Hin. apply neighbours_in in Hin. destruct Hin as (j' & p' & Hj' & _ & _ & -> & _). cbn. auto. }
      clear - H0 P. unfold weight. induction n as [|x n IH]; [destruct H0|]. cbn [map]. rewrite qsum_cons. destruct H0 as [->|H0].
      - cbn [fst]. assert (0 <= qsum (map fst n))%Q by (apply qsum_nonneg; intros; apply P; now right). lra.
      - assert (Y := P x (or_introl eq_refl)). assert (Z := IH H0 (fun y Hy => P y (or_intror Hy))). lra. }
    assert (0 <= total k)%Q by (apply qsum_nonneg; intros j' Hj'; apply Hn; now apply indices_in).
    intros [[_ Z]|Z]; lra.
  Qed.
  (** Linearity, for data with the same missing values. *)
  Theorem C37_linear a b c spec norm ra rb rc k x y :
    convolve true a spec norm = Ok ra -> convolve true b spec norm = Ok rb -> convolve true c spec norm = Ok rc ->
    generate_kernel true spec (dims a) = Ok k -> nonneg k ->
    dims b = dims a -> dims c = dims a -> shape b = shape a -> shape c = shape a ->
    (forall p, in_shape (shape a) p -> match value a p, value b p with
       | Some u, Some v => eqv (value c p) (Some (x * u + y * v)%Q) | None, None => value c p = None | _, _ => False end) ->
    forall i, in_shape (shape a) i -> match value ra i, value rb i with
       | Some u, Some v => eqv (value rc i) (Some (x * u + y * v)%Q) | None, None => value rc i = None | _, _ => False end.
  Proof.
    intros Ha Hb Hc Hk Hn Db Dc Sb Sc Hp i Hi.
    destruct (convolve_inv _ _ _ _ _ Ha) as (ka & va & Eka & Eva & Hla & _ & _ & Va).
    destruct (convolve_inv _ _ _ _ _ Hb) as (kb & vb & Ekb & Evb & Hlb & _ & _ & Vb).
    destruct (convolve_inv _ _ _ _ _ Hc) as (kc & vc & Ekc & Evc & Hlc & _ & _ & Vc).
    rewrite Db in Ekb. rewrite Dc in Ekc. rewrite Hk in Eka, Ekb, Ekc. injection Eka as <-. injection Ekb as <-. injection Ekc as <-.
    assert (Hib : in_shape (shape b) i) by (rewrite Sb; auto). assert (Hic : in_shape (shape c) i) by (rewrite Sc; auto).
    (* neighbours of the three arrays *)
    assert (N : forall p, in_shape (shape a) p -> (value a p = None <-> value b p = None) /\ (value a p = None <-> value c p = None)).
    { intros p Hpp. specialize (Hp p Hpp). destruct (value a p), (value b p), (value c p); cbn in Hp; try tauto; try discriminate; split; split; auto; discriminate. }
    assert (NN : (has_nan a <-> has_nan b) /\ (has_nan a <-> has_nan c)).
    { unfold has_nan. rewrite Sb, Sc. split; split; intros (p & H1 & H2); exists p; (split; [exact H1|destruct (N p H1) as [Na Nb]; tauto]). }
    assert (WW : (weight (neighbours b k i) == weight (neighbours a k i) /\ weight (neighbours c k i) == weight (neighbours a k i) /\
                 moment (neighbours c k i) == x * moment (neighbours a k i) + y * moment (neighbours b k i))%Q).
    { rewrite <- !conv_weight, <- !conv_moment by auto. unfold conv_same. rewrite Sb, Sc.
      split; [|split].
      - apply qsum_ext. intros j Hj. destruct (position _ _ i j) as [p|] eqn:E; [|reflexivity]. apply position_iff in E; auto; [|rewrite (shape_length _ _ Hi); auto|apply shape_length; now apply indices_in].
        destruct E as [E _]. destruct (N p E) as [N1 _]. destruct (value a p), (value b p); cbn; try reflexivity; exfalso; [discriminate (proj2 N1 eq_refl)|discriminate (proj1 N1 eq_refl)].
      - apply qsum_ext. intros j Hj. destruct (position _ _ i j) as [p|] eqn:E; [|reflexivity]. apply position_iff in E; auto; [|rewrite (shape_length _ _ Hi); auto|apply shape_length; now apply indices_in].
        destruct E as [E _]. destruct (N p E) as [_ N1]. destruct (value a p), (value c p); cbn; try reflexivity; exfalso; [discriminate (proj2 N1 eq_refl)|discriminate (proj1 N1 eq_refl)].
      - assert (L : forall (f g h : list nat -> Q) l, (forall j, In j l -> h j == x * f j + y * g j)%Q -> (qsum (map h l) == x * qsum (map f l) + y * qsum (map g l))%Q).
        { intros f g h. induction l as [|j l IH]; intro X; cbn [map]; rewrite ?qsum_nil, ?qsum_cons; [ring|]. rewrite IH by (intros; apply X; now right). rewrite (X j) by now left. ring. }
        apply L. intros j Hj. destruct (position _ _ i j) as [p|] eqn:E; [|ring]. apply position_iff in E; auto; [|rewrite (shape_length _ _ Hi); auto|apply shape_length; now apply indices_in].
        destruct E as [E _]. specialize (Hp p E). destruct (value a p), (value b p), (value c p); cbn in *; try tauto; try discriminate; [rewrite Hp|]; ring. }
    destruct WW as (W1 & W2 & M). destruct NN as [N1 N2].
    rewrite Va, Vb, Vc. destruct norm.
    - destruct (C37_mean a k Hla Hn) as (va' & E & Xa). rewrite Eva in E. injection E as <-. destruct (Xa i Hi) as [Xa1 Xa2].
      destruct (C37_mean b k Hlb Hn) as (vb' & E & Xb). rewrite Evb in E. injection E as <-. destruct (Xb i Hib) as [Xb1 Xb2].
      destruct (C37_mean c k Hlc Hn) as (vc' & E & Xc). rewrite Evc in E. injection E as <-. destruct (Xc i Hic) as [Xc1 Xc2].
      cbn zeta in *. rewrite W1 in Xb1. rewrite W2 in Xc1. rewrite <- N1 in Xb1. rewrite <- N2 in Xc1.
      destruct (va i) as [u|], (vb i) as [v|], (vc i) as [w|]; try solve [tauto|exfalso; (discriminate (proj2 Xa1 (proj1 Xb1 eq_refl)) || discriminate (proj2 Xb1 (proj1 Xa1 eq_refl)) || discriminate (proj2 Xa1 (proj1 Xc1 eq_refl)) || discriminate (proj2 Xc1 (proj1 Xa1 eq_refl)))].
      cbn. destruct (Xa2 u eq_refl) as [A1 A2]. destruct (Xb2 v eq_refl) as [B1 B2]. destruct (Xc2 w eq_refl) as [C1 C2].
      rewrite A2, B2, C2, M, W1, W2. field. lra.
    - destruct (C37_sum true a k Hla Hn) as (va' & E & Xa). rewrite Eva in E. injection E as <-. destruct (Xa i Hi) as [Xa1 Xa2].
      destruct (C37_sum true b k Hlb Hn) as (vb' & E & Xb). rewrite Evb in E. injection E as <-. destruct (Xb i Hib) as [Xb1 Xb2].
      destruct (C37_sum true c k Hlc Hn) as (vc' & E & Xc). rewrite Evc in E. injection E as <-. destruct (Xc i Hic) as [Xc1 Xc2].
      cbn zeta in *. rewrite W1 in Xb1. rewrite W2 in Xc1. rewrite <- N1 in Xb1. rewrite <- N2 in Xc1.
      destruct (va i) as [u|], (vb i) as [v|], (vc i) as [w|]; try solve [tauto|exfalso; (discriminate (proj2 Xa1 (proj1 Xb1 eq_refl)) || discriminate (proj2 Xb1 (proj1 Xa1 eq_refl)) || discriminate (proj2 Xa1 (proj1 Xc1 eq_refl)) || discriminate (proj2 Xc1 (proj1 Xa1 eq_refl)))].
      cbn. rewrite (Xa2 u eq_refl), (Xb2 v eq_refl), (Xc2 w eq_refl), M. reflexivity.
  Qed.
  (** Integer data cannot be normalised. *)
  Theorem C37_integers_refuted a spec k : generate_kernel false spec (dims a) = Ok k -> List.length (shape a) = List.length (shape k) ->
    convolve false a spec true = Raise TypeError.
  Proof. intros Hk Hl. unfold Filter.convolve. rewrite Hk. cbn [bind]. unfold convolve_. rewrite Hl, Nat.eqb_refl. reflexivity. Qed.
End convolve.

(** *** Refutations and examples *)
Definition vec (d : string) (l : list (option Q)) : da (option Q) := mkda [d] [List.length l] (fun i => nth (nth 0 i 0) l None).
(** A point with a valid neighbour of non-null weight may be missing, and may become so because of a
    missing value far from the kernel. *)
Theorem C37_local_refuted w f : let k := KList [1; 0; 2000000]%Q in
  let a := vec "x" [Some 1; Some 2; Some 3; Some 4; Some 5]%Q in let b := vec "x" [Some 1; Some 2; Some 3; Some 4; None]%Q in
  match convolve w f true a k true, convolve w f true b k true with
  | Ok ra, Ok rb => eqv (value ra [0]) (Some 2%Q) /\ value rb [0] = None
  | _, _ => False end.
Proof. vm_compute. auto. Qed.
(** False for kernels with negative weights: the weights are brought back between 0 and the sum of the kernel, so that
    constant data are not preserved near the edges and the missing data. *)
Theorem C37_negative_refuted w f : let k := KList [-1; 3; -1]%Q in
  let a := vec "x" [Some 1; Some 1; Some 1; Some 1]%Q in let b := vec "x" [Some 1; Some 1; None; Some 1]%Q in
  match convolve w f true a k true, convolve w f true b k true with
  | Ok ra, Ok rb => eqv (value ra [0]) (Some 2%Q) /\ eqv (value ra [1]) (Some 1%Q) /\ eqv (value ra [3]) (Some 2%Q) /\
                    eqv (value rb [1]) (Some 2%Q) /\ value rb [2] = None /\ eqv (value rb [3]) (Some 3%Q)
  | _, _ => False end.
Proof. vm_compute. auto 10. Qed.
(** The kernel is truncated for integer data. *)
Theorem C37_truncated_refuted w f : let a := vec "x" [Some 4; Some 8; Some 16]%Q in
  match convolve w f false a (KList [1 # 2; 1; 1 # 2]%Q) false, convolve w f true a (KList [1 # 2; 1; 1 # 2]%Q) false with
  | Ok ri, Ok rf => value ri [1] = Some 8%Q /\ eqv (value rf [1]) (Some 18%Q) | _, _ => False end.
Proof. vm_compute. auto. Qed.
Definition ex_kernel : kspec := KTuple [KVals [1; 2; 1]%Q; KVals [1; 1; 1]%Q].
Definition ex_data : da (option Q) :=
  mkda ["y"; "x"]%string [2; 3] (fun i => nth (3 * nth 0 i 0 + nth 1 i 0) [Some 1; Some 2; Some 3; None; None; Some 6]%Q None).
Example ex_convolve w f : match convolve w f true ex_data ex_kernel true with
  | Ok r => dims r = ["y"; "x"]%string /\ eqv (value r [0; 0]) (Some (3 # 2)) /\ eqv (value r [1; 0]) (Some (3 # 2)) /\ eqv (value r [1; 2]) (Some (17 # 4)) | _ => False end.
Proof. vm_compute. auto. Qed.
Lemma nonneg_check k : forallb (fun j => Qle_bool 0 (value k j)) (indices (shape k)) = true -> nonneg k.
Proof. intros H j Hj. apply indices_in in Hj. rewrite forallb_forall in H. apply Qle_bool_iff. auto. Qed.
Example ex_convolve_kernel w f : exists k, generate_kernel w f true ex_kernel ["y"; "x"]%string = Ok k /\ shape k = [3; 3] /\ nonneg k /\ has_nan ex_data.
Proof.
  eexists. split; [reflexivity|]. split; [reflexivity|]. split; [apply nonneg_check; vm_compute; reflexivity|].
  exists [1; 0]. split; [repeat constructor|reflexivity].
Qed.
Print Assumptions C37_negative_refuted.
