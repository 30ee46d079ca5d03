(** C39: erode_mask *)
From Verif Require Import PyDictFacts CoordsProofs TransposeProps.
From Verif Require Export KernelProps.
From Coq Require Import Lqa.
Open Scope nat_scope.

(** *** Named positions *)
Lemma pos_map ds (f : string -> nat) d : NoDup ds -> In d ds -> pos ds (map f ds) d = f d.
Proof.
  intros Hn Hd. unfold pos. induction ds as [|x ds IH]; [destruct Hd|]. inversion Hn; subst. cbn [map combine dget].
  destruct (String.eqb_spec d x); [now subst|]. apply IH; auto. destruct Hd; [congruence|auto].
Qed.
Lemma map_pos_id ds idx : NoDup ds -> List.length idx = List.length ds -> map (pos ds idx) ds = idx.
Proof.
  intros Hn. revert idx. induction ds as [|x ds IH]; intros [|i idx] H; try discriminate; auto. inversion Hn; subst. cbn [map]. f_equal.
  - unfold pos. cbn. now rewrite String.eqb_refl.
  - rewrite <- (IH H3 idx) at 2 by (cbn in H; lia). apply map_ext_in. intros d Hd. unfold pos. cbn [combine dget].
    destruct (String.eqb_spec d x); [subst; contradiction|reflexivity].
Qed.
Lemma in_shape_sizes {A} (a : da A) env : wf a -> (forall d, In d (dims a) -> env d < size a d) -> in_shape (shape a) (map env (dims a)).
Proof.
  intros [Hl Hn] He. rewrite <- (map_pos_id (dims a) (shape a) Hn) by auto. change (map (pos (dims a) (shape a)) (dims a)) with (map (size a) (dims a)).
  unfold in_shape. assert (G : forall l, (forall d, In d l -> env d < size a d) -> Forall2 lt (map env l) (map (size a) l)); [|now apply G].
  induction l as [|d l IH]; intro H; cbn [map]; constructor; [apply H; now left|apply IH; intros; apply H; now right].
Qed.
Lemma sizes_in_shape {A} (a : da A) i d : wf a -> in_shape (shape a) i -> In d (dims a) -> pos (dims a) i d < size a d.
Proof.
  intros [Hl Hn] Hi Hd. unfold size. unfold in_shape in Hi. revert Hl Hd. generalize (dims a). unfold pos. clear Hn. induction Hi as [|x n r s Hx Hr IH]; intros ds Hl Hd.
  - destruct ds; [destruct Hd|discriminate].
  - destruct ds as [|y ds]; [discriminate|]. cbn [combine dget]. destruct (String.eqb_spec d y); [auto|]. apply IH; [cbn in Hl; lia|]. destruct Hd; [congruence|auto].
Qed.
Lemma shape_sizes {A} (a : da A) : wf a -> shape a = map (size a) (dims a).
Proof. intros [Hl Hn]. symmetry. apply map_pos_id; auto. Qed.

(** *** One pass *)
Section windows.
  Variable window : nat -> list Q.
  Variable fill : Q.
  Notation generate_kernel := (generate_kernel window fill).
  Notation convolve := (convolve window fill).
  Notation convolve_and_fill := (convolve_and_fill window fill).
  Notation iterate := (iterate window fill).
  Notation erode_loop := (erode_loop window fill).
  Notation erode_mask := (erode_mask window fill).

  Lemma regenerate k ds : wf k -> dims k = ds -> exists k', generate_kernel true (KDa k) ds = Ok k' /\ shape k' = shape k /\
    forall j, in_shape (shape k) j -> value k' j = value k j.
  Proof.
    intros Hw <-. assert (Hn := proj2 Hw). destruct (C38_ready window fill k (dims k) Hw Hn) as [H _]. destruct (H (incl_refl _)) as (b & E & D & S & _ & L).
    exists b. split; auto.
    assert (Wb : wf b).
    { unfold Filter.generate_kernel in E. rewrite (proj2 (forallb_incl (dims k) (dims k)) (incl_refl _)) in E. cbn [bind] in E.
      destruct (insert_ok k (dims k) Hw Hn (incl_refl _)) as (b' & Eb & W & _). rewrite Eb in E. cbn [bind astype] in E. now injection E as <-. }
    assert (Es : shape b = shape k).
    { rewrite (shape_sizes b Wb), (shape_sizes k Hw), D. apply map_ext_in. intros d Hd. now apply S. }
    split; auto. intros j Hj. assert (X := L (pos (dims k) j)). unfold look in X. rewrite D in X.
    rewrite map_pos_id in X; auto. rewrite (shape_length _ _ Hj). symmetry. apply Hw.
  Qed.
  Definition suited (a : da (option Q)) (k : da Q) : Prop := wf a /\ wf k /\ dims k = dims a /\ nonneg k.
  Lemma same_kernel k k' : shape k' = shape k -> (forall j, in_shape (shape k) j -> value k' j = value k j) ->
    (total k' = total k) /\ (nonneg k -> nonneg k') /\ forall i p, linked k' i p <-> linked k i p.
  Proof.
    intros Hs Hv. split; [|split].
    - unfold total. rewrite Hs. f_equal. apply map_ext_in. intros j Hj. apply Hv. now apply indices_in.
    - intros Hn j Hj. rewrite Hs in Hj. rewrite Hv by auto. auto.
    - intros i p. unfold linked. rewrite Hs. split; intros (j & H1 & H2 & H3); exists j; (split; [exact H1|]; split; [exact H2|]); rewrite Hv in *; auto.
  Qed.
  Lemma step a k : suited a k -> exists b, convolve_and_fill true a k = Ok b /\ dims b = dims a /\ shape b = shape a /\
    (forall i v, value a i = Some v -> value b i = Some v) /\
    (forall i q lo hi, in_shape (shape a) i -> value a i = None -> value b i = Some q ->
       (exists p, in_shape (shape a) p /\ linked k i p /\ value a p <> None) /\
       ((forall p v, in_shape (shape a) p -> linked k i p -> value a p = Some v -> (lo <= v <= hi)%Q) -> (lo <= q <= hi)%Q)) /\
    (no_negligible k -> forall i p, in_shape (shape a) i -> in_shape (shape a) p -> linked k i p -> value a p <> None -> value b i <> None).
  Proof.
    intros (Wa & Wk & D & Hn). destruct (regenerate k (dims a) Wk D) as (k' & Ek & Hs & Hv). destruct (same_kernel k k' Hs Hv) as (T & N & Lk). specialize (N Hn).
    assert (Hl : List.length (shape a) = List.length (shape k')).
    { rewrite Hs, <- (proj1 Wa), <- (proj1 Wk). now rewrite D. }
    destruct (C37_mean a k' Hl N) as (v & Ev & X).
    assert (Ec : convolve true a (KDa k) true = Ok (mkda (dims a) (shape a) v)) by (unfold Filter.convolve; rewrite Ek; cbn [bind]; now rewrite Ev).
    unfold Filter.convolve_and_fill. rewrite Ec. cbn [bind]. eexists. split; [reflexivity|]. cbn [dims shape value]. split; auto. split; auto. split; [|split].
    - intros i u ->. reflexivity.
    - intros i q lo hi Hi Ha Hq. rewrite Ha in Hq. split.
      + destruct (X i Hi) as [_ Y]. destruct (Y q Hq) as [W _].
        assert (E : exists wv, In wv (neighbours a k' i) /\ (0 < fst wv)%Q).
        { destruct (existsb (fun wv : Q * Q => negb (Qle_bool (fst wv) 0)) (neighbours a k' i)) eqn:E.
          - apply existsb_exists in E. destruct E as (wv & H1 & H2). exists wv. split; auto. destruct (qle_cases (fst wv) 0) as [[F _]|[_ F]]; auto. rewrite F in H2. discriminate.
          - exfalso. assert (Z : (weight (neighbours a k' i) <= 0)%Q); [|lra]. unfold weight. rewrite <- (qsum_zero (fun _ : Q * Q => 0%Q) (neighbours a k' i)) by reflexivity. apply qsum_le.
            intros wv Hwv. destruct (qle_cases (fst wv) 0) as [[_ F]|[F _]]; auto.
            assert (F' : existsb (fun wv : Q * Q => negb (Qle_bool (fst wv) 0)) (neighbours a k' i) = true) by (apply existsb_exists; exists wv; split; auto; now rewrite F). congruence. }
        destruct E as ([w u] & H1 & H2). apply neighbours_in in H1. destruct H1 as (j & p & Hj & Hp & M & -> & Eu). exists p. split; auto. split; [|congruence].
        apply Lk. exists j. auto.
      + intro Hb. apply (C37_bounds window fill a (KDa k) _ k' lo hi Ec Ek N i q Hi Hq). intros p u Hp Hlk. apply Hb; auto. now apply Lk.
    - intros Hng i p Hi Hp Hlk Hvp. assert (Y : v i <> None).
      { apply (C37_defined window fill a (KDa k) _ k' Ec Ek N i p Hi Hp Hvp). apply Lk in Hlk. destruct Hlk as (j & Hj & M & P). exists j. split; auto. split; auto.
        rewrite T. rewrite Hs in Hj. rewrite Hv in * by auto. now apply Hng. }
      destruct (value a i); [discriminate|auto].
  Qed.
  (** *** Passes *)
  Lemma near_shift a b k : (forall i, in_shape (shape a) i -> (value b i <> None <-> near a k 1 i)) -> shape b = shape a ->
    forall n i, in_shape (shape a) i -> (near b k n i <-> near a k (S n) i).
  Proof.
    intros Hb Hs. induction n as [|n IH]; intros i Hi; [apply Hb; auto|].
    change (near b k (S n) i) with (near b k n i \/ exists p, in_shape (shape b) p /\ linked k i p /\ near b k n p).
    change (near a k (S (S n)) i) with (near a k (S n) i \/ exists p, in_shape (shape a) p /\ linked k i p /\ near a k (S n) p).
    rewrite Hs, (IH i Hi). split; (intros [H|(p & H1 & H2 & H3)]; [now left|right; exists p; split; auto; split; auto; now apply IH]).
  Qed.
  Lemma step_near a k b : suited a k -> no_negligible k -> convolve_and_fill true a k = Ok b -> forall i, in_shape (shape a) i -> (value b i <> None <-> near a k 1 i).
  Proof.
    intros Hs Hng E i Hi. destruct (step a k Hs) as (b' & E' & _ & _ & K & N & P). rewrite E in E'. injection E' as <-. cbn [near]. split.
    - intro Hv. destruct (value a i) as [v|] eqn:Ea; [now left|right]. destruct (value b i) as [q|] eqn:Eb; [|congruence].
      destruct (N i q 0%Q 0%Q Hi Ea Eb) as [(p & H1 & H2 & H3) _]. eauto.
    - intros [H|(p & H1 & H2 & H3)].
      + destruct (value a i) as [v|] eqn:Ea; [|congruence]. now rewrite (K i v Ea).
      + apply (P Hng i p); auto.
  Qed.
  Lemma suited_step a k b : suited a k -> dims b = dims a -> shape b = shape a -> suited b k.
  Proof. intros ([H1 H2] & W & D & N) Db Sb. split; [split; [now rewrite Db, Sb|now rewrite Db]|]. split; auto. split; [congruence|auto]. Qed.
  Lemma iterate_ok n : forall a k, suited a k -> exists b, iterate n true a k = Ok b /\ dims b = dims a /\ shape b = shape a /\
    (forall i v, value a i = Some v -> value b i = Some v) /\
    (forall lo hi, (forall p v, in_shape (shape a) p -> value a p = Some v -> (lo <= v <= hi)%Q) -> forall i q, in_shape (shape a) i -> value b i = Some q -> (lo <= q <= hi)%Q) /\
    (no_negligible k -> forall i, in_shape (shape a) i -> (value b i <> None <-> near a k n i)).
  Proof.
    induction n as [|n IH]; intros a k Hs; cbn [Filter.iterate].
    - exists a. split; auto. split; auto. split; auto. split; auto. split; [intros lo hi Hb i q Hi Hq; now apply (Hb i)|]. intros. reflexivity.
    - destruct (step a k Hs) as (b & E & Db & Sb & K & N & P). rewrite E. cbn [bind]. destruct (IH b k (suited_step a k b Hs Db Sb)) as (c & Ec & Dc & Sc & Kc & Bc & Nc).
      exists c. split; auto. split; [congruence|]. split; [congruence|]. split; [auto|]. rewrite Sb in *. split.
      + intros lo hi Hb. apply Bc. intros p v Hp Hv. destruct (value a p) as [u|] eqn:Ea.
        * rewrite (K p u Ea) in Hv. injection Hv as <-. now apply (Hb p).
        * destruct (N p v lo hi Hp Ea Hv) as [_ X]. apply X. intros p' v' Hp' _ Hv'. now apply (Hb p').
      + intros Hng i Hi. rewrite (Nc Hng i Hi). apply near_shift; auto. intros. now apply (step_near a k b).
  Qed.

  (** *** The test of the loop *)
  Lemma count_or {A} (f g : A -> bool) l : List.length (List.filter f l) <= List.length (List.filter (fun x => f x || g x) l) /\
    (List.length (List.filter (fun x => f x || g x) l) <= List.length (List.filter f l) <-> forall x, In x l -> f x = false -> g x = false).
  Proof.
    induction l as [|x l [I1 I2]]; [split; [auto|split; [intros _ x []|auto]]|]. cbn [List.filter]. destruct (f x) eqn:F; cbn [orb List.length].
    - split; [lia|]. split; intro H.
      + intros y [->|Hy] Fy; [congruence|]. apply I2; auto. lia.
      + apply le_n_S. apply I2. intros y Hy. apply H. now right.
    - destruct (g x) eqn:G; cbn [List.length].
      + split; [lia|]. split; [lia|]. intro H. exfalso. assert (Y := H x (or_introl eq_refl) F). congruence.
      + split; auto. rewrite I2. split; intro H.
        * intros y [->|Hy] Fy; auto.
        * intros y Hy. apply H. now right.
  Qed.
  (** Mask and data agree: the mask has the dimensions of the kernel, and the sizes of the data. *)
  Definition covers (m : da bool) (a : da (option Q)) (kd : list string) : Prop :=
    wf m /\ incl kd (dims m) /\ incl (dims m) (dims a) /\ forall d, In d (dims m) -> size m d = size a d.
  Definition position_of {A} (a : da A) (env : string -> nat) : Prop := forall d, In d (dims a) -> env d < size a d.
  (** No missing value where the mask is False *)
  Definition unmasked_valid (a : da (option Q)) (m : da bool) (kd : list string) : Prop :=
    forall env env', position_of m env -> position_of a env' -> (forall d, In d kd -> env' d = env d) -> look m env = false -> look a env' <> None.
  Lemma reduced_iff a kd env : wf a -> (forall d, In d kd -> In d (dims a) -> env d < size a d) -> (reduced_mask a kd env = true <->
    exists env', position_of a env' /\ (forall d, In d kd -> In d (dims a) -> env' d = env d) /\ look a env' = None).
  Proof.
    intros Hw Hr. assert (Hn := proj2 Hw). unfold reduced_mask. set (rest := List.filter (fun d => negb (mem d kd)) (dims a)).
    assert (Hnr : NoDup rest) by (apply NoDup_filter; auto).
    assert (Hin : forall d, In d rest <-> In d (dims a) /\ ~ In d kd) by (intro d; unfold rest; rewrite filter_In, negb_true_iff, mem_nIn; reflexivity).
    assert (SR : forall d, In d rest -> size (mkda rest (map (size a) rest) (fun _ => tt)) d = size a d) by (intros d Hd; unfold size at 1; cbn [dims shape]; now apply pos_map).
    rewrite existsb_exists. split.
    - intros (o & Ho & Hv). apply indices_in in Ho. exists (fun d => if mem d kd then env d else pos rest o d). split; [|split].
      + intros d Hd. destruct (mem d kd) eqn:E; [apply mem_In in E; auto|].
        assert (Hd' : In d rest) by (apply Hin; split; auto; now apply mem_nIn).
        assert (X : pos rest o d < size (mkda rest (map (size a) rest) (fun _ => tt)) d) by (apply (sizes_in_shape (mkda rest (map (size a) rest) (fun _ => tt))); auto; split; cbn [dims shape]; [now rewrite map_length|auto]).
        rewrite SR in X by auto. exact X.
      + intros d Hd _. now rewrite (proj2 (mem_In d kd) Hd).
      + unfold look. destruct (value a _); [discriminate|reflexivity].
    - intros (env' & Hp & He & Hv). exists (map env' rest). split.
      + apply indices_in. assert (X := in_shape_sizes (mkda rest (map (size a) rest) (fun _ => tt)) env'). cbn [dims shape] in X. apply X; [split; cbn [dims shape]; [now rewrite map_length|auto]|].
        intros d Hd. rewrite SR by auto. apply Hp. now apply Hin in Hd.
      + unfold look in Hv. replace (map (fun d => if mem d kd then env d else pos rest (map env' rest) d) (dims a)) with (map env' (dims a)); [now rewrite Hv|].
        apply map_ext_in. intros d Hd. destruct (mem d kd) eqn:E; [apply mem_In in E; now apply He|]. rewrite pos_map; auto. apply Hin. split; auto. now apply mem_nIn.
  Qed.
  Lemma done_iff a m kd : wf a -> covers m a kd -> (count_mask m <? count_masked a m kd = false <-> unmasked_valid a m kd).
  Proof.
    intros Hw (Wm & Hk & Hd & Hs). rewrite Nat.ltb_ge. unfold count_masked.
    assert (F : List.filter (fun d => negb (mem d (dims m))) (List.filter (fun d => mem d kd) (dims a)) = []).
    { assert (F : forall d, In d (List.filter (fun d => negb (mem d (dims m))) (List.filter (fun d => mem d kd) (dims a))) -> False).
      { intros d H. apply filter_In in H. destruct H as [H1 H2]. apply filter_In in H1. destruct H1 as [_ H1]. apply mem_In, Hk, mem_In in H1. rewrite H1 in H2. discriminate. }
      destruct (List.filter _ _) as [|x l]; auto. destruct (F x). now left. }
    rewrite F, app_nil_r. assert (E : map (fun d => if mem d (dims m) then size m d else size a d) (dims m) = shape m).
    { rewrite (shape_sizes m Wm). apply map_ext_in. intros d H. now rewrite (proj2 (mem_In d (dims m)) H). }
    rewrite E. unfold count_mask. set (L := List.filter (fun idx => value m (map (pos (dims m) idx) (dims m)) || _) _).
    assert (EL : L = List.filter (fun idx => value m idx || reduced_mask a kd (pos (dims m) idx)) (indices (shape m))).
    { unfold L. apply filter_ext_in. intros idx Hidx. apply indices_in in Hidx. rewrite map_pos_id; auto; [apply Wm|]. rewrite (shape_length _ _ Hidx). symmetry. apply Wm. }
    rewrite EL. clear L EL. rewrite (proj2 (count_or (value m) (fun idx => reduced_mask a kd (pos (dims m) idx)) (indices (shape m)))).
    unfold unmasked_valid. split.
    - intros H env env' He He' Hkd Hm Hv. set (idx := map env (dims m)). assert (Hidx : in_shape (shape m) idx) by (apply in_shape_sizes; auto).
      specialize (H idx (proj2 (indices_in _ _) Hidx) Hm). assert (X : reduced_mask a kd (pos (dims m) idx) = true); [|congruence].
      assert (P : forall d, In d kd -> pos (dims m) idx d = env d) by (intros d Hd'; unfold idx; apply pos_map; [apply Wm|auto]).
      apply reduced_iff; auto.
      + intros d H1 H2. rewrite P by auto. rewrite <- Hs by auto. auto.
      + exists env'. split; auto. split; auto. intros d H1 _. rewrite P by auto. auto.
    - intros H idx Hidx Hm. apply indices_in in Hidx. destruct (reduced_mask a kd (pos (dims m) idx)) eqn:R; auto. exfalso.
      assert (P : forall d, In d (dims m) -> pos (dims m) idx d < size m d) by (intros d Hd'; now apply sizes_in_shape).
      apply reduced_iff in R; auto; [|intros d H1 H2; rewrite <- Hs by auto; auto]. destruct R as (env' & R1 & R2 & R3).
      apply (H (pos (dims m) idx) env'); auto. unfold look. rewrite map_pos_id; auto; [apply Wm|]. rewrite (shape_length _ _ Hidx). symmetry. apply Wm.
  Qed.
  (** *** The loop *)
  Lemma covers_step a b m kd : covers m a kd -> dims b = dims a -> shape b = shape a -> covers m b kd.
  Proof. intros (H1 & H2 & H3 & H4) D S. split; auto. split; auto. split; [now rewrite D|]. intros d Hd. rewrite H4 by auto. unfold size. now rewrite D, S. Qed.
  Lemma loop_ok m kd fuel : forall a k, suited a k -> covers m a kd ->
    (exists n b, n < fuel /\ erode_loop fuel true a k m kd = Ok (Some b) /\ iterate (S n) true a k = Ok b /\ unmasked_valid b m kd /\
       forall n' b', n' < n -> iterate (S n') true a k = Ok b' -> ~ unmasked_valid b' m kd) \/
    (erode_loop fuel true a k m kd = Ok None /\ forall n b, n < fuel -> iterate (S n) true a k = Ok b -> ~ unmasked_valid b m kd).
  Proof.
    induction fuel as [|f IH]; intros a k Hs Hc; cbn [Filter.erode_loop]; [right; split; auto; intros; lia|].
    destruct (step a k Hs) as (b & E & Db & Sb & _). rewrite E. cbn [bind].
    assert (Hsb := suited_step a k b Hs Db Sb). assert (Hcb := covers_step a b m kd Hc Db Sb). assert (D := done_iff b m kd (proj1 Hsb) Hcb).
    assert (I1 : forall n, iterate (S n) true a k = iterate n true b k) by (intro n; cbn [Filter.iterate]; rewrite E; reflexivity).
    destruct (count_mask m <? count_masked b m kd) eqn:T.
    - assert (ND : ~ unmasked_valid b m kd) by (intro X; apply D in X; discriminate).
      destruct (IH b k Hsb Hcb) as [(n & c & H1 & H2 & H3 & H4 & H5)|[H1 H2]].
      + left. exists (S n), c. split; [lia|]. split; auto. rewrite I1. split; auto. split; auto. intros n' b' Hn' Hb'. rewrite I1 in Hb'.
        destruct n' as [|n']; [cbn in Hb'; injection Hb' as <-; auto|]. apply (H5 n' b'); auto. lia.
      + right. split; auto. intros n c Hn Hi. rewrite I1 in Hi. destruct n as [|n]; [cbn in Hi; injection Hi as <-; auto|]. apply (H2 n c); auto. lia.
    - left. exists 0, b. split; [lia|]. split; auto. rewrite I1. split; auto. split; [now apply D|]. intros; lia.
  Qed.
  (** With a mask: it ends if and only if every unmasked point is within reach of valid data, and then
      these points are valid, valid data are unchanged, and the filled ones are in the range of the
      valid data. *)
  Theorem C39_mask a k m kd : suited a k -> no_negligible k -> covers m a kd ->
    ((exists fuel b, erode_loop fuel true a k m kd = Ok (Some b)) <->
     (exists n, forall env env', position_of m env -> position_of a env' -> (forall d, In d kd -> env' d = env d) -> look m env = false -> near a k n (map env' (dims a)))) /\
    (forall fuel b, erode_loop fuel true a k m kd = Ok (Some b) ->
       unmasked_valid b m kd /\ dims b = dims a /\ shape b = shape a /\ (forall i v, value a i = Some v -> value b i = Some v) /\
       (forall lo hi, (forall p v, in_shape (shape a) p -> value a p = Some v -> (lo <= v <= hi)%Q) -> forall i q, in_shape (shape a) i -> value b i = Some q -> (lo <= q <= hi)%Q)).
  Proof.
    intros Hs Hng Hc.
    assert (V : forall n b, iterate n true a k = Ok b -> (unmasked_valid b m kd <->
      forall env env', position_of m env -> position_of a env' -> (forall d, In d kd -> env' d = env d) -> look m env = false -> near a k n (map env' (dims a)))).
    { intros n b E. destruct (iterate_ok n a k Hs) as (b' & E' & Db & Sb & _ & _ & N). rewrite E in E'. injection E' as <-. specialize (N Hng).
      unfold unmasked_valid, position_of, look, size. rewrite Db, Sb. split; intros H env env' H1 H2 H3 H4; specialize (H env env' H1 H2 H3 H4); apply N; auto; apply in_shape_sizes; auto; apply Hs. }
    assert (Mono : forall n i, near a k n i -> near a k (S n) i) by (intros n i H; now left).
    split.
    - split.
      + intros (fuel & b & E). destruct (loop_ok m kd fuel a k Hs Hc) as [(n & b' & _ & E' & I & U & _)|[E' _]]; [|congruence]. exists (S n). apply (V (S n) b' I). exact U.
      + intros (n & Hn). exists (S n). destruct (loop_ok m kd (S n) a k Hs Hc) as [(n' & b' & _ & E' & _)|[_ X]]; [eauto|]. exfalso.
        destruct (iterate_ok (S n) a k Hs) as (b & Eb & _). apply (X n b); auto. apply (V (S n) b Eb). intros. apply Mono. eapply Hn; eauto.
    - intros fuel b E. destruct (loop_ok m kd fuel a k Hs Hc) as [(n & b' & _ & E' & I & U & _)|[E' _]]; [|congruence]. rewrite E in E'. injection E' as <-. split; auto.
      destruct (iterate_ok (S n) a k Hs) as (b' & Eb & Db & Sb & K & B & _). rewrite I in Eb. injection Eb as <-. auto.
  Qed.
  (** It stops at the first pass where it can. *)
  Theorem C39_first a k m kd fuel b : suited a k -> covers m a kd -> erode_loop fuel true a k m kd = Ok (Some b) ->
    exists n, iterate (S n) true a k = Ok b /\ unmasked_valid b m kd /\ forall n' b', n' < n -> iterate (S n') true a k = Ok b' -> ~ unmasked_valid b' m kd.
  Proof. intros Hs Hc E. destruct (loop_ok m kd fuel a k Hs Hc) as [(n & b' & _ & E' & I & U & F)|[E' _]]; [|congruence]. rewrite E in E'. injection E' as <-. eauto. Qed.

  (** *** The default kernel *)
  Lemma indices_length s : List.length (indices s) = prod s.
  Proof.
    induction s as [|n s IH]; auto. cbn [indices prod]. assert (G : forall l, List.length (flat_map (fun i => map (cons i) (indices s)) l) = List.length l * prod s).
    { induction l as [|i l I]; auto. cbn [flat_map List.length Nat.mul]. rewrite app_length, map_length, I, IH. reflexivity. }
    now rewrite G, seq_length.
  Qed.
  Lemma prod_nine (f : string -> nat) x y : f x = 3 -> f y = 3 -> forall ds, NoDup ds -> (forall d, In d ds -> d <> x -> d <> y -> f d = 1) -> prod (map f ds) <= 9.
  Proof.
    intros Hx Hy.
    assert (N : forall ds, (forall d, In d ds -> d <> x -> d <> y -> f d = 1) -> ~ In x ds -> ~ In y ds -> prod (map f ds) = 1).
    { induction ds as [|d ds IH]; intros H Hnx Hny; auto. cbn [map prod].
      assert (Ex : d <> x) by (intros ->; apply Hnx; now left). assert (Ey : d <> y) by (intros ->; apply Hny; now left).
      rewrite (H d (or_introl eq_refl) Ex Ey), IH; [reflexivity| | |].
      - intros; apply H; auto. now right.
      - intro X. apply Hnx. now right.
      - intro X. apply Hny. now right. }
    assert (O : forall z ds, NoDup ds -> z = x \/ z = y -> (forall d, In d ds -> d <> x -> d <> y -> f d = 1) -> ~ In z ds -> prod (map f ds) <= 3).
    { intros z ds Hn Hz. induction ds as [|d ds IH]; intros H Hnz; [cbn; lia|]. inversion Hn; subst. cbn [map prod].
      destruct (string_dec d x) as [E|E]; [|destruct (string_dec d y) as [E'|E']].
      - subst d. rewrite Hx, N; auto; [intros; apply H; auto; now right|]. destruct Hz as [-> | ->]; [destruct Hnz; now left|]. intro X. apply Hnz. now right.
      - subst d. rewrite Hy, N; auto; [intros; apply H; auto; now right|]. destruct Hz as [-> | ->]; [|destruct Hnz; now left]. intro X. apply Hnz. now right.
      - rewrite (H d (or_introl eq_refl) E E'), Nat.mul_1_l. apply IH; auto; [intros; apply H; auto; now right|]. intro X. apply Hnz. now right. }
    intros ds Hn. induction ds as [|d ds IH]; intro H; [cbn; lia|]. inversion Hn; subst. cbn [map prod].
    destruct (string_dec d x) as [E|E]; [|destruct (string_dec d y) as [E'|E']].
    - subst d. rewrite Hx. assert (X := O x ds H3 (or_introl eq_refl)). assert (prod (map f ds) <= 3) by (apply X; auto; intros; apply H; auto; now right). lia.
    - subst d. rewrite Hy. assert (X := O y ds H3 (or_intror eq_refl)). assert (prod (map f ds) <= 3) by (apply X; auto; intros; apply H; auto; now right). lia.
    - rewrite (H d (or_introl eq_refl) E E'), Nat.mul_1_l. apply IH; auto. intros; apply H; auto. now right.
  Qed.
  (** Distance in steps along x and y *)
  Definition gap (u v : nat) : nat := (u - v) + (v - u).
  Definition within (ds : list string) (x y : string) (n : nat) (env env' : string -> nat) : Prop :=
    (forall d, In d ds -> d <> x -> d <> y -> env' d = env d) /\ gap (env x) (env' x) + gap (env y) (env' y) <= n.
  Lemma meets_map ds (sz e j e' : string -> nat) :
    meets (map sz ds) (map e ds) (map j ds) (map e' ds) = forallb (fun d => e' d + j d =? e d + (sz d - 1) / 2) ds.
  Proof. induction ds as [|d ds IH]; auto. cbn [map meets forallb]. now rewrite IH. Qed.
  Lemma shapiro_generated ds x y : NoDup ds -> In x ds -> In y ds -> x <> y -> exists k,
    generate_kernel true (KDa (shapiro_kernel [y; x])) ds = Ok k /\ wf k /\ dims k = ds /\ nonneg k /\ no_negligible k /\
    size k x = 3 /\ size k y = 3 /\ (forall d, In d ds -> d <> x -> d <> y -> size k d = 1) /\
    (forall e e', linked k (map e ds) (map e' ds) <-> within ds x y 1 e e').
  Proof.
    intros Hn Hx Hy Hxy. set (s := shapiro_kernel [y; x]).
    assert (Ws : wf s) by (split; [reflexivity|]; cbn; constructor; [intros [E|[]]; congruence|constructor; [intros []|constructor]]).
    destruct (C38_ready window fill s ds Ws Hn) as [H _]. assert (Hi : incl (dims s) ds) by (intros d [<-|[<-|[]]]; auto).
    assert (Wg : exists k, generate_kernel true (KDa s) ds = Ok k /\ wf k).
    { unfold Filter.generate_kernel. rewrite (proj2 (forallb_incl (dims s) ds) Hi). cbn [bind]. destruct (insert_ok s ds Ws Hn Hi) as (b' & Eb & W & _). rewrite Eb. cbn [bind astype]. eauto. }
    destruct Wg as (k & E & W). destruct (H Hi) as (k' & E' & D & S & S1 & L). rewrite E in E'. injection E' as <-. clear H.
    assert (Sx : size k x = 3). { rewrite S by (right; now left). unfold size, s, pos. cbn. rewrite (proj2 (String.eqb_neq x y) Hxy). now rewrite String.eqb_refl. }
    assert (Sy : size k y = 3). { rewrite S by (now left). unfold size, s, pos. cbn. now rewrite String.eqb_refl. }
    assert (So : forall d, In d ds -> d <> x -> d <> y -> size k d = 1) by (intros d H1 H2 H3; apply S1; auto; intros [X|[X|[]]]; congruence).
    assert (Sh : shape k = map (size k) ds) by (rewrite (shape_sizes k W), D; reflexivity).
    assert (V : forall e, e x < 3 -> e y < 3 -> (value k (map e ds) == inject_Z (Z.of_nat (count_ones [e y; e x])))%Q).
    { intros e H1 H2. assert (X := L e). unfold look in X. rewrite D in X. rewrite X. change (dims s) with [y; x]. cbn [map]. apply shapiro_value. cbn [List.length repeat]. unfold in_shape. apply Forall2_cons; [auto|]. apply Forall2_cons; [auto|]. constructor. }
    assert (Idx : forall j, in_shape (shape k) j -> exists e, j = map e ds /\ e x < 3 /\ e y < 3 /\ forall d, In d ds -> d <> x -> d <> y -> e d = 0).
    { intros j Hj. exists (pos ds j). assert (P : forall d, In d ds -> pos ds j d < size k d) by (intros d Hd; rewrite <- D; apply sizes_in_shape; auto; now rewrite D).
      split; [symmetry; apply map_pos_id; auto; rewrite (shape_length _ _ Hj), Sh; apply map_length|]. split; [now rewrite <- Sx; apply P|]. split; [now rewrite <- Sy; apply P|].
      intros d H1 H2 H3. assert (X := P d H1). rewrite So in X by auto. lia. }
    assert (Cb : forall u v, (0 <= inject_Z (Z.of_nat (count_ones [u; v])) <= 2)%Q).
    { intros u v. unfold count_ones. cbn [List.filter]. destruct (1 =? u), (1 =? v); cbn [List.length]; split; unfold Qle; cbn; lia. }
    exists k. split; auto. split; auto. split; auto.
    assert (Nn : nonneg k). { intros j Hj. destruct (Idx j Hj) as (e & -> & H1 & H2 & _). rewrite V by auto. apply Cb. }
    split; auto. split; [|split; [auto|split; [auto|split; [auto|]]]].
    - (* no negligible weight *)
      assert (T : (total k <= 18)%Q).
      { unfold total. apply Qle_trans with (qsum (map (fun _ => 2%Q) (indices (shape k)))).
        - apply qsum_le. intros j Hj. apply indices_in in Hj. destruct (Idx j Hj) as (e & -> & H1 & H2 & _). rewrite V by auto. apply Cb.
        - assert (G : forall l : list (list nat), (qsum (map (fun _ => 2%Q) l) == 2 * inject_Z (Z.of_nat (List.length l)))%Q).
          { induction l as [|u l IH]; cbn [map List.length]; rewrite ?qsum_nil, ?qsum_cons; [reflexivity|]. rewrite IH, Nat2Z.inj_succ, <- Z.add_1_l, inject_Z_plus. ring. }
          rewrite G, indices_length. assert (P9 : prod (shape k) <= 9) by (rewrite Sh; now apply prod_nine with (x := x) (y := y)).
          assert (inject_Z (Z.of_nat (prod (shape k))) <= inject_Z 9)%Q by (rewrite <- Zle_Qle; lia). change (inject_Z 9) with 9%Q in *. lra. }
      assert (V1 : forall j, in_shape (shape k) j -> (0 < value k j)%Q -> (1 <= value k j)%Q).
      { intros j Hj. destruct (Idx j Hj) as (e & -> & H1 & H2 & _). rewrite V by auto. rewrite <- (Zlt_Qlt 0), <- (Zle_Qle 1). lia. }
      split; [|intros j Hj Hp; assert (X := V1 j Hj Hp); lra].
      set (e1 := fun d => if String.eqb d x || String.eqb d y then 1 else 0).
      assert (J : in_shape (shape k) (map e1 ds)).
      { rewrite <- D. apply in_shape_sizes; auto. rewrite D. intros d Hd. unfold e1. destruct (String.eqb_spec d x) as [->|Nx]; [cbn; lia|]. destruct (String.eqb_spec d y) as [->|Ny]; [cbn; lia|]. cbn. rewrite So by auto. lia. }
      assert (E1 : e1 x = 1 /\ e1 y = 1) by (unfold e1; rewrite !String.eqb_refl, orb_true_r; auto). destruct E1 as [E1x E1y].
      assert (P1 : (0 < value k (map e1 ds))%Q) by (rewrite V by lia; rewrite E1x, E1y; reflexivity).
      unfold total. assert (In (map e1 ds) (indices (shape k))) by now apply indices_in. revert H.
      assert (Nn' : forall j, In j (indices (shape k)) -> (0 <= value k j)%Q) by (intros j Hj; apply Nn; now apply indices_in). revert Nn'.
      generalize (indices (shape k)). intros l. induction l as [|u l IH]; intros Nl Hu; [destruct Hu|]. destruct Hu as [Hu|Hu]; [subst u|]; cbn [map]; rewrite qsum_cons.
      + assert (0 <= qsum (map (value k) l))%Q by (apply qsum_nonneg; intros; apply Nl; now right). lra.
      + assert (X := Nl u (or_introl eq_refl)). assert (Y := IH (fun j Hj => Nl j (or_intror Hj)) Hu). lra.
    - (* neighbours *)
      intros e e'. split.
      + intros (j & Hj & M & P). destruct (Idx j Hj) as (f & -> & H1 & H2 & H3). rewrite Sh in M. rewrite meets_map in M. rewrite forallb_forall in M.
        assert (Mx := M x Hx). assert (My := M y Hy). apply Nat.eqb_eq in Mx, My. rewrite Sx in Mx. rewrite Sy in My. change ((3 - 1) / 2) with 1 in *.
        rewrite V in P by auto. split.
        * intros d Hd Nx Ny. assert (Md := M d Hd). apply Nat.eqb_eq in Md. rewrite So, H3 in Md by auto. change ((1 - 1) / 2) with 0 in Md. lia.
        * unfold gap. destruct (Nat.eq_dec (f x) 1) as [Fx|Fx]; [lia|]. destruct (Nat.eq_dec (f y) 1) as [Fy|Fy]; [lia|]. exfalso.
          unfold count_ones in P. cbn [List.filter] in P. destruct (Nat.eqb_spec 1 (f y)); [lia|]. destruct (Nat.eqb_spec 1 (f x)); [lia|]. cbn in P. unfold Qlt in P. cbn in P. lia.
      + intros [Ho Hg]. unfold gap in Hg. set (f := fun d => if String.eqb d x then e x + 1 - e' x else if String.eqb d y then e y + 1 - e' y else 0).
        assert (Fx : f x = e x + 1 - e' x) by (unfold f; now rewrite String.eqb_refl).
        assert (Fy : f y = e y + 1 - e' y) by (unfold f; rewrite String.eqb_refl; destruct (String.eqb_spec y x); [congruence|reflexivity]).
        assert (Fo : forall d, d <> x -> d <> y -> f d = 0) by (intros d H1 H2; unfold f; destruct (String.eqb_spec d x); [congruence|]; destruct (String.eqb_spec d y); [congruence|reflexivity]).
        exists (map f ds). split; [|split].
        * rewrite <- D. apply in_shape_sizes; auto. rewrite D. intros d Hd. destruct (string_dec d x) as [->|Nx]; [lia|]. destruct (string_dec d y) as [->|Ny]; [lia|]. rewrite So, Fo by auto. lia.
        * rewrite Sh, meets_map. apply forallb_forall. intros d Hd. apply Nat.eqb_eq. destruct (string_dec d x) as [->|Nx]; [rewrite Sx; change ((3 - 1) / 2) with 1; lia|].
          destruct (string_dec d y) as [->|Ny]; [rewrite Sy; change ((3 - 1) / 2) with 1; lia|]. rewrite So, Fo, Ho by auto. change ((1 - 1) / 2) with 0. lia.
        * rewrite V by lia. rewrite <- (Zlt_Qlt 0). unfold count_ones. cbn [List.filter]. destruct (Nat.eqb_spec 1 (f y)), (Nat.eqb_spec 1 (f x)); cbn [List.length]; lia.
  Qed.

  Lemma gap_triangle u v w : gap u w <= gap u v + gap v w.
  Proof. unfold gap. lia. Qed.
  Lemma near_within a k x y : wf a -> In x (dims a) -> In y (dims a) -> x <> y ->
    (forall e e', linked k (map e (dims a)) (map e' (dims a)) <-> within (dims a) x y 1 e e') ->
    forall n e, position_of a e -> (near a k n (map e (dims a)) <-> exists e', position_of a e' /\ within (dims a) x y n e e' /\ look a e' <> None).
  Proof.
    intros Hw Hx Hy Hxy HL. assert (Hn := proj2 Hw).
    assert (Z : forall e e', within (dims a) x y 0 e e' -> map e (dims a) = map e' (dims a)).
    { intros e e' [H1 H2]. apply map_ext_in. intros d Hd. unfold gap in H2. destruct (string_dec d x) as [->|Nx]; [lia|]. destruct (string_dec d y) as [->|Ny]; [lia|]. now rewrite H1. }
    assert (Mono : forall n i, near a k n i -> near a k (S n) i) by (intros n i H; now left).
    assert (Ref : forall e n, within (dims a) x y n e e) by (intros e n; split; auto; unfold gap; lia).
    induction n as [|n IH]; intros e He.
    - cbn [near]. split.
      + intro H. exists e. split; auto.
      + intros (e' & _ & H1 & H2). unfold look in H2. now rewrite (Z e e' H1).
    - split.
      + cbn [near]. intros [H|(p & Hp & H1 & H2)].
        * apply IH in H; auto. destruct H as (e' & H1 & [H2 H3] & H4). exists e'. split; auto. split; [split; [auto|lia]|auto].
        * set (f := pos (dims a) p). assert (Ep : p = map f (dims a)) by (symmetry; apply map_pos_id; auto; rewrite (shape_length _ _ Hp); symmetry; apply Hw).
          assert (Hf : position_of a f) by (intros d Hd; unfold f; now apply sizes_in_shape). rewrite Ep in H1, H2. apply HL in H1. apply IH in H2; auto.
          destruct H2 as (e' & E1 & [E2 E3] & E4). destruct H1 as [G1 G2]. exists e'. split; auto. split; [|auto]. split.
          -- intros d H1 Nx Ny. rewrite E2, G1; auto.
          -- assert (T1 := gap_triangle (e x) (f x) (e' x)). assert (T2 := gap_triangle (e y) (f y) (e' y)). lia.
      + intros (e' & H1 & [H2 H3] & H4).
        destruct (le_lt_dec (gap (e x) (e' x) + gap (e y) (e' y)) n) as [Hle|Hgt].
        * apply Mono. apply IH; auto. exists e'. split; auto. split; [split; auto|auto].
        * assert (Step : exists z v, (z = x \/ z = y) /\ v < size a z /\ gap (e z) v <= 1 /\ gap v (e' z) + 1 <= gap (e z) (e' z)).
          { unfold gap in *. destruct (Nat.eq_dec (e x) (e' x)) as [E|E].
            - exists y. destruct (le_lt_dec (e y) (e' y)); [exists (e y + 1)|exists (e y - 1)]; assert (A1 := He y Hy); assert (A2 := H1 y Hy); repeat split; auto; lia.
            - exists x. destruct (le_lt_dec (e x) (e' x)); [exists (e x + 1)|exists (e x - 1)]; assert (A1 := He x Hx); assert (A2 := H1 x Hx); repeat split; auto; lia. }
          destruct Step as (z & v & Hz & Hv & G1 & G2).
          assert (Hzd : In z (dims a)) by (destruct Hz as [-> | ->]; auto).
          set (f := setpos e z v). assert (Fz : f z = v) by (unfold f, setpos; now rewrite String.eqb_refl).
          assert (Fo : forall d, d <> z -> f d = e d) by (intros d Hd; unfold f, setpos; destruct (String.eqb_spec d z); [congruence|reflexivity]).
          assert (Hf : position_of a f) by (intros d Hd; destruct (string_dec d z) as [->|Nz]; [now rewrite Fz|rewrite Fo by auto; auto]).
          assert (Gxy : gap (e x) (f x) + gap (e y) (f y) <= 1 /\ gap (f x) (e' x) + gap (f y) (e' y) <= n).
          { destruct Hz as [-> | ->]; rewrite Fz, Fo by congruence; unfold gap in *; lia. }
          right. exists (map f (dims a)). split; [now apply in_shape_sizes|]. split.
          -- apply HL. split; [|tauto]. intros d Hd Nx Ny. apply Fo. destruct Hz; congruence.
          -- apply IH; auto. exists e'. split; auto. split; [|auto]. split; [|tauto]. intros d Hd Nx Ny. rewrite H2 by auto. symmetry. apply Fo. destruct Hz; congruence.
  Qed.
  (** *** erode_mask, any kernel without negative weight: valid data are unchanged, filled values are in the range of the
      valid data, and after n passes the valid points are those at most n kernel steps away from valid data. *)
  Theorem C39_times fuel a n kernel xdim ydim k : 2 <= List.length (dims a) ->
    generate_kernel true (match kernel with None => KDa (shapiro_kernel [ydim; xdim]) | Some s => s end) (dims a) = Ok k -> suited a k ->
    List.length (List.filter (fun d => negb (size k d =? 1)) (dims k)) <= 2 ->
    exists b, erode_mask fuel true a (UTimes n) kernel xdim ydim = Ok (Some b) /\ dims b = dims a /\ shape b = shape a /\
      (forall i v, value a i = Some v -> value b i = Some v) /\
      (forall lo hi, (forall p v, in_shape (shape a) p -> value a p = Some v -> (lo <= v <= hi)%Q) -> forall i q, in_shape (shape a) i -> value b i = Some q -> (lo <= q <= hi)%Q) /\
      (no_negligible k -> forall i, in_shape (shape a) i -> (value b i <> None <-> near a k (Z.to_nat n) i)).
  Proof.
    intros H2 Hk Hs Hkd. unfold Filter.erode_mask. destruct (Nat.ltb_spec (List.length (dims a)) 2); [lia|]. cbn [bind]. rewrite Hk. cbn [bind].
    destruct (Nat.ltb_spec 2 (List.length (List.filter (fun d => negb (size k d =? 1)) (dims k)))); [lia|].
    destruct (iterate_ok (Z.to_nat n) a k Hs) as (b & E & X). rewrite E. cbn [bind]. eauto.
  Qed.
  Lemma default_kd k ds x y : NoDup ds -> In x ds -> In y ds -> x <> y -> dims k = ds -> size k x = 3 -> size k y = 3 -> (forall d, In d ds -> d <> x -> d <> y -> size k d = 1) ->
    let kd := List.filter (fun d => negb (@size Q k d =? 1)) (dims k) in List.length kd <= 2 /\ forall d, In d kd <-> d = x \/ d = y.
  Proof.
    intros Hn Hx Hy Hxy -> Sx Sy So. cbn zeta. assert (I : forall d, In d (List.filter (fun d => negb (size k d =? 1)) ds) <-> d = x \/ d = y).
    { intro d. rewrite filter_In. split.
      - intros [H1 H2]. destruct (string_dec d x); auto. destruct (string_dec d y); auto. rewrite So in H2 by auto. discriminate.
      - intros [-> | ->]; [rewrite Sx|rewrite Sy]; auto. }
    split; auto. apply (NoDup_incl_length (l' := [x; y])); [now apply NoDup_filter|]. intros d Hd. apply I in Hd. cbn. destruct Hd; auto.
  Qed.
  (** With the default kernel: the valid points after n passes are those at most n steps along x and y away from a valid point. *)
  Theorem C39_default fuel a n xdim ydim : wf a -> In xdim (dims a) -> In ydim (dims a) -> xdim <> ydim ->
    exists b, erode_mask fuel true a (UTimes n) None xdim ydim = Ok (Some b) /\ dims b = dims a /\ shape b = shape a /\
      (forall env, position_of a env -> (look b env <> None <->
        exists env', position_of a env' /\ within (dims a) xdim ydim (Z.to_nat n) env env' /\ look a env' <> None)) /\
      (forall i v, value a i = Some v -> value b i = Some v) /\
      (forall lo hi, (forall p v, in_shape (shape a) p -> value a p = Some v -> (lo <= v <= hi)%Q) -> forall i q, in_shape (shape a) i -> value b i = Some q -> (lo <= q <= hi)%Q).
  Proof.
    intros Hw Hx Hy Hxy. destruct (shapiro_generated (dims a) xdim ydim (proj2 Hw) Hx Hy Hxy) as (k & Ek & Wk & D & Nn & Ng & Sx & Sy & So & HL).
    destruct (default_kd k (dims a) xdim ydim (proj2 Hw) Hx Hy Hxy D Sx Sy So) as [Hkd _].
    assert (H2 : 2 <= List.length (dims a)).
    { assert (N2 : NoDup [xdim; ydim]) by (constructor; [intros [X|[]]; congruence|constructor; [intros []|constructor]]). apply (NoDup_incl_length (l' := dims a)) in N2; [exact N2|]. intros d [<-|[<-|[]]]; auto. }
    assert (Hs : suited a k) by (split; auto).
    destruct (C39_times fuel a n None xdim ydim k H2 Ek Hs Hkd) as (b & E & Db & Sb & K & B & N). exists b. split; auto. split; auto. split; auto. split; [|auto].
    intros env He. unfold look at 1. rewrite Db. rewrite (N Ng _ (in_shape_sizes a env Hw He)). now apply near_within.
  Qed.
  (** With a mask on the horizontal dimensions and the default kernel: it ends if and only if each horizontal slice
      has valid data, unless everything is masked, and then no unmasked point is missing. *)
  Theorem C39_default_mask a m xdim ydim : wf a -> In xdim (dims a) -> In ydim (dims a) -> xdim <> ydim ->
    wf m -> incl (dims m) (dims a) -> In xdim (dims m) -> In ydim (dims m) -> (forall d, In d (dims m) -> size m d = size a d) ->
    ((exists fuel b, erode_mask fuel true a (UMask m) None xdim ydim = Ok (Some b)) <->
       (forall env env', position_of m env -> position_of a env' -> env' xdim = env xdim -> env' ydim = env ydim -> look m env = false ->
          exists env'', position_of a env'' /\ (forall d, In d (dims a) -> d <> xdim -> d <> ydim -> env'' d = env' d) /\ look a env'' <> None)) /\
    (forall fuel b, erode_mask fuel true a (UMask m) None xdim ydim = Ok (Some b) -> dims b = dims a /\ shape b = shape a /\
       (forall env env', position_of m env -> position_of a env' -> env' xdim = env xdim -> env' ydim = env ydim -> look m env = false -> look b env' <> None) /\
       (forall i v, value a i = Some v -> value b i = Some v) /\
       (forall lo hi, (forall p v, in_shape (shape a) p -> value a p = Some v -> (lo <= v <= hi)%Q) -> forall i q, in_shape (shape a) i -> value b i = Some q -> (lo <= q <= hi)%Q)) /\
    (forall fuel, (forall b, erode_mask fuel true a (UMask m) None xdim ydim <> Ok (Some b)) -> erode_mask fuel true a (UMask m) None xdim ydim = Ok None).
  Proof.
    intros Hw Hx Hy Hxy Wm Him Hmx Hmy Hsz. destruct (shapiro_generated (dims a) xdim ydim (proj2 Hw) Hx Hy Hxy) as (k & Ek & Wk & D & Nn & Ng & Sx & Sy & So & HL).
    destruct (default_kd k (dims a) xdim ydim (proj2 Hw) Hx Hy Hxy D Sx Sy So) as [Hkd Ikd]. set (kd := List.filter (fun d => negb (size k d =? 1)) (dims k)) in *.
    assert (H2 : 2 <= List.length (dims a)).
    { assert (N2 : NoDup [xdim; ydim]) by (constructor; [intros [X|[]]; congruence|constructor; [intros []|constructor]]). apply (NoDup_incl_length (l' := dims a)) in N2; [exact N2|]. intros d [<-|[<-|[]]]; auto. }
    assert (Hs : suited a k) by (split; auto).
    (* the transposed mask *)
    destruct (C23_compat bool m (map Some (dims a)) None (EName "compat") Wm (or_introl eq_refl)) as [Hc _].
    assert (NDk : NoDup (known (dims m) (map Some (dims a)))).
    { apply NoDup_filter. apply FinFun.Injective_map_NoDup; [intros u v X; now injection X|apply Hw]. }
    destruct (Hc NDk) as (m' & Em & _). destruct (C23_no_element_lost bool m m' _ _ _ Wm Em) as (Wm' & Lm & Pm).
    assert (Dm : forall d, In d (dims m') <-> In d (dims m)).
    { intro d. split; [|intro Hd; apply Pm; auto]. destruct (Hc NDk) as (m'' & Em' & D''). rewrite Em in Em'. injection Em' as <-. rewrite D''. intro Hd. apply in_placed in Hd. destruct Hd as [Hd|Hd].
      - assert (Hk : In (Some d) (known (dims m) (map Some (dims a)))).
        { apply in_names in Hd. unfold flush_left in Hd. destruct (existsb _ _); [|destruct Hd as [Hd|Hd]; [discriminate|]]; auto. }
        unfold known in Hk. apply filter_In in Hk. destruct Hk as [_ Hk]. now apply mem_In.
      - apply in_unnamed in Hd. tauto. }
    assert (Cov : covers m' a kd).
    { split; auto. split; [intros d Hd; apply Dm; apply Ikd in Hd; destruct Hd as [-> | ->]; auto|]. split; [intros d Hd; apply Him; now apply Dm|].
      intros d Hd. apply Dm in Hd. destruct (Pm d Hd) as [_ P2]. rewrite P2. auto. }
    assert (PO : forall env, position_of m' env <-> position_of m env).
    { intro env. unfold position_of. split; intros H d Hd.
      - destruct (Pm d Hd) as [P1 P2]. rewrite <- P2. auto.
      - apply Dm in Hd. destruct (Pm d Hd) as [_ P2]. rewrite P2. auto. }
    assert (Red : forall fuel, erode_mask fuel true a (UMask m) None xdim ydim = erode_loop fuel true a k m' kd).
    { intro fuel. unfold Filter.erode_mask. destruct (Nat.ltb_spec (List.length (dims a)) 2); [lia|]. rewrite (proj2 (forallb_incl (dims m) (dims a)) Him).
      cbv beta iota. rewrite Em. cbn [bind]. rewrite Ek. cbn [bind]. fold kd. destruct (Nat.ltb_spec 2 (List.length kd)); [lia|reflexivity]. }
    assert (KD : forall env env' : string -> nat, (forall d, In d kd -> env' d = env d) <-> env' xdim = env xdim /\ env' ydim = env ydim).
    { intros env env'. split; [intro H; split; apply H; apply Ikd; auto|]. intros [H1 H3] d Hd. apply Ikd in Hd. destruct Hd as [-> | ->]; auto. }
    destruct (C39_mask a k m' kd Hs Ng Cov) as [T R].
    assert (NW := near_within a k xdim ydim Hw Hx Hy Hxy HL).
    split; [|split].
    - split.
      + intros (fuel & b & E). rewrite Red in E. destruct (proj1 T (ex_intro _ fuel (ex_intro _ b E))) as (n & Hn).
        intros env env' P1 P2 E1 E2 Hm. specialize (Hn env env' (proj2 (PO env) P1) P2 (proj2 (KD env env') (conj E1 E2))). rewrite Lm in Hn. specialize (Hn Hm).
        apply NW in Hn; auto. destruct Hn as (e & G1 & [G2 _] & G3). exists e. auto.
      + intro H. assert (Hn : exists n, forall env env', position_of m' env -> position_of a env' -> (forall d, In d kd -> env' d = env d) -> look m' env = false -> near a k n (map env' (dims a))).
        { exists (size a xdim + size a ydim). intros env env' P1 P2 Hkd' Hm. apply KD in Hkd'. rewrite Lm in Hm. destruct (H env env' (proj1 (PO env) P1) P2 (proj1 Hkd') (proj2 Hkd') Hm) as (e & G1 & G2 & G3).
          apply NW; auto. exists e. split; auto. split; auto. split; auto. unfold gap. assert (A1 := P2 xdim Hx). assert (A2 := P2 ydim Hy). assert (A3 := G1 xdim Hx). assert (A4 := G1 ydim Hy). lia. }
        apply T in Hn. destruct Hn as (fuel & b & E). exists fuel, b. now rewrite Red.
    - intros fuel b E. rewrite Red in E. destruct (R fuel b E) as (U & Db & Sb & K & B). split; auto. split; auto. split; [|auto].
      intros env env' P1 P2 E1 E2 Hm. apply (U env env'); [now apply PO| |now apply KD|now rewrite Lm].
      unfold position_of, size. rewrite Db, Sb. exact P2.
    - intros fuel H. rewrite Red in *. destruct (loop_ok m' kd fuel a k Hs Cov) as [(n & b & _ & E & _)|[E _]]; [|exact E]. exfalso. apply (H b). exact E.
  Qed.

  (** A mask without a dimension of the kernel: as soon as one value of it is True, the loop never ends. *)
  Lemma filter_app_len {A} (f : A -> bool) l l' : List.length (List.filter f (l ++ l')) = List.length (List.filter f l) + List.length (List.filter f l').
  Proof. now rewrite filter_app, app_length. Qed.
  Lemma indices_app s1 s2 : indices (s1 ++ s2) = flat_map (fun i => map (app i) (indices s2)) (indices s1).
  Proof.
    induction s1 as [|n s1 IH]; cbn [app indices flat_map]; [rewrite app_nil_r; now rewrite map_id|]. rewrite IH. generalize (seq 0 n). intro l. induction l as [|i l I]; auto.
    cbn [flat_map]. rewrite I. rewrite flat_map_app. f_equal. clear. induction (indices s1) as [|j l IH]; auto. cbn [flat_map map]. rewrite map_app, IH, map_map. reflexivity.
  Qed.
  Lemma count_flat {A B} (f : B -> bool) (g : A -> bool) (h : A -> list B) c l : (forall x, In x l -> g x = true -> c <= List.length (List.filter f (h x))) ->
    c * List.length (List.filter g l) <= List.length (List.filter f (flat_map h l)).
  Proof.
    induction l as [|x l IH]; intro H; [cbn; lia|]. cbn [flat_map List.filter]. rewrite filter_app_len. assert (I := IH (fun y Hy => H y (or_intror Hy))).
    destruct (g x) eqn:G; cbn [List.length]; [assert (X := H x (or_introl eq_refl) G)|]; lia.
  Qed.
  Lemma prod_pos s : (forall n, In n s -> 0 < n) -> 0 < prod s.
  Proof. induction s as [|n s IH]; intro H; cbn; [lia|]. assert (A := H n (or_introl eq_refl)). assert (B := IH (fun m Hm => H m (or_intror Hm))). nia. Qed.
  Lemma prod_two s n : In n s -> 2 <= n -> (forall n, In n s -> 0 < n) -> 2 <= prod s.
  Proof.
    induction s as [|k s IH]; intros Hn H2 H; [destruct Hn|]. cbn [prod]. assert (A := H k (or_introl eq_refl)). destruct Hn as [->|Hn].
    - assert (B := prod_pos s (fun m Hm => H m (or_intror Hm))). nia.
    - assert (B := IH Hn H2 (fun m Hm => H m (or_intror Hm))). nia.
  Qed.
  Lemma count_partial a m kd d : wf m -> NoDup (dims a) -> In d (dims a) -> In d kd -> ~ In d (dims m) -> 2 <= size a d -> (forall x, In x (dims a) -> 0 < size a x) ->
    0 < count_mask m -> count_mask m < count_masked a m kd.
  Proof.
    intros Wm Hn Hd Hk Hnm H2 Hp Hc. unfold count_masked. set (new := List.filter (fun d => negb (mem d (dims m))) (List.filter (fun d => mem d kd) (dims a))).
    assert (Inew : forall x, In x new -> In x (dims a) /\ ~ In x (dims m)).
    { intros x Hx. unfold new in Hx. apply filter_In in Hx. destruct Hx as [H1 H3]. apply filter_In in H1. split; [tauto|]. apply mem_nIn. now apply negb_true_iff. }
    assert (Dnew : In d new) by (unfold new; apply filter_In; split; [apply filter_In; split; auto; now apply mem_In|apply negb_true_iff; now apply mem_nIn]).
    rewrite map_app. assert (E1 : map (fun d => if mem d (dims m) then size m d else size a d) (dims m) = shape m).
    { rewrite (shape_sizes m Wm). apply map_ext_in. intros x Hx. now rewrite (proj2 (mem_In x (dims m)) Hx). }
    assert (E2 : map (fun d => if mem d (dims m) then size m d else size a d) new = map (size a) new).
    { apply map_ext_in. intros x Hx. destruct (Inew x Hx) as [_ X]. now rewrite (proj2 (mem_nIn x (dims m)) X). }
    rewrite E1, E2, indices_app. set (f := fun idx => _ || _).
    assert (C2 : 2 <= prod (map (size a) new)).
    { apply prod_two with (n := size a d); auto; [now apply in_map|]. intros n Hx. apply in_map_iff in Hx. destruct Hx as (x & <- & Hx). apply Hp. apply Inew, Hx. }
    assert (C : prod (map (size a) new) * count_mask m <= List.length (List.filter f (flat_map (fun i => map (app i) (indices (map (size a) new))) (indices (shape m))))); [|nia].
    unfold count_mask. apply count_flat. intros i Hi Hv. apply indices_in in Hi.
    assert (Li : List.length i = List.length (dims m)) by (rewrite (shape_length _ _ Hi); symmetry; apply Wm).
    assert (AllT : forall l, List.filter f (map (app i) l) = map (app i) l).
    { induction l as [|o l IH]; auto. cbn [map List.filter]. assert (F : f (i ++ o) = true); [|now rewrite F, IH].
      unfold f. apply orb_true_iff. left. assert (Em : map (pos (dims m ++ new) (i ++ o)) (dims m) = i); [|now rewrite Em].
      rewrite <- (map_pos_id (dims m) i (proj2 Wm) Li) at 2. apply map_ext_in. intros x Hx. unfold pos.
      assert (G : forall ks (l1 : list nat) ks' l2, List.length l1 = List.length ks -> In x ks -> dget (combine (ks ++ ks') (l1 ++ l2)) x = dget (combine ks l1) x).
      { induction ks as [|y ks I]; intros [|z l1] ks' l2 HL Hin; try discriminate; [destruct Hin|]. cbn [app combine dget]. destruct (String.eqb_spec x y); auto. apply I; [cbn in HL; lia|]. destruct Hin; [congruence|auto]. }
      now rewrite G. }
    rewrite AllT, map_length, indices_length. lia.
  Qed.
  Theorem C39_partial_mask_refuted a k m d : suited a k -> wf m -> In d (dims a) -> size k d <> 1 -> ~ In d (dims m) -> 2 <= size a d ->
    (forall x, In x (dims a) -> 0 < size a x) -> 0 < count_mask m ->
    forall fuel, erode_loop fuel true a k m (List.filter (fun d => negb (size k d =? 1)) (dims k)) = Ok None.
  Proof.
    intros Hs Wm Hd Hk Hnm H2 Hp Hc fuel. set (kd := List.filter (fun d => negb (size k d =? 1)) (dims k)).
    assert (Hkd : In d kd). { unfold kd. apply filter_In. destruct Hs as (_ & _ & D & _). rewrite D. split; auto. apply negb_true_iff. now apply Nat.eqb_neq. }
    revert a Hs Hd H2 Hp. induction fuel as [|f IH]; intros a Hs Hd H2 Hp; auto. cbn [Filter.erode_loop]. destruct (step a k Hs) as (b & E & Db & Sb & _). rewrite E. cbn [bind].
    assert (Sz : forall x, size b x = size a x) by (intro x; unfold size; now rewrite Db, Sb).
    assert (X : count_mask m < count_masked b m kd).
    { apply count_partial with (d := d); auto; rewrite ?Db, ?Sz; auto; [apply Hs|]. intros x Hx. rewrite Sz. auto. }
    apply Nat.ltb_lt in X. rewrite X. apply IH; rewrite ?Db, ?Sz; auto; [now apply (suited_step a)|]. intros x Hx. rewrite Sz. auto.
  Qed.
  (** Errors *)
  Theorem C39_errors fuel float a u kernel xdim ydim : (List.length (dims a) < 2 -> erode_mask fuel float a u kernel xdim ydim = Raise XoaError) /\
    (2 <= List.length (dims a) -> forall m, ~ incl (dims m) (dims a) -> erode_mask fuel float a (UMask m) kernel xdim ydim = Raise XoaError) /\
    (forall n ks k, 2 <= List.length (dims a) -> generate_kernel float ks (dims a) = Ok k ->
       (exists d1 d2 d3, NoDup [d1; d2; d3] /\ forall d, In d [d1; d2; d3] -> In d (dims k) /\ size k d <> 1) ->
       erode_mask fuel float a (UTimes n) (Some ks) xdim ydim = Raise XoaError).
  Proof.
    unfold Filter.erode_mask. split; [|split]; [intro H|intro H|].
    - destruct (Nat.ltb_spec (List.length (dims a)) 2); [reflexivity|lia].
    - intros m Hm. destruct (Nat.ltb_spec (List.length (dims a)) 2); [lia|]. destruct (forallb (fun d => mem d (dims a)) (dims m)) eqn:E; [|reflexivity]. exfalso. apply Hm. now apply forallb_incl.
    - intros n ks k H Hk (d1 & d2 & d3 & Nd & Hd). destruct (Nat.ltb_spec (List.length (dims a)) 2); [lia|]. cbn [bind]. rewrite Hk. cbn [bind].
      assert (L : 3 <= List.length (List.filter (fun d => negb (size k d =? 1)) (dims k))).
      { change 3 with (List.length [d1; d2; d3]). apply NoDup_incl_length; auto. intros d Hi. apply filter_In. destruct (Hd d Hi) as [H1 H2].
        split; auto. apply negb_true_iff. now apply Nat.eqb_neq. }
      destruct (Nat.ltb_spec 2 (List.length (List.filter (fun d => negb (size k d =? 1)) (dims k)))); [reflexivity|lia].
  Qed.
End windows.
(** *** Examples and refutations *)
Definition grid (ny nx : nat) (l : list (option Q)) : da (option Q) := mkda ["y"; "x"]%string [ny; nx] (fun i => nth (nx * nth 0 i 0 + nth 1 i 0) l None).
Definition bgrid (ny nx : nat) (l : list bool) : da bool := mkda ["y"; "x"]%string [ny; nx] (fun i => nth (nx * nth 0 i 0 + nth 1 i 0) l false).
Definition ex_sea := grid 2 3 [Some 4; None; None; None; None; None]%Q.
Example ex_erode w f : match erode_mask w f 0 true ex_sea (UTimes 2) None "x" "y" with
  | Ok (Some b) => map (fun i => match value b i with Some q => Some (Qred q) | None => None end) (indices [2; 3]) = [Some 4; Some 4; Some 4; Some 4; Some 4; None]%Q | _ => False end.
Proof. vm_compute. auto. Qed.
(** A point under the mask may be filled. *)
Theorem C39_masked_refuted w f : let m := bgrid 2 3 [false; false; true; true; true; true] in
  match erode_mask w f 5 true ex_sea (UMask m) None "x" "y" with
  | Ok (Some b) => value b [1; 0] <> None /\ value m [1; 0] = true | _ => False end.
Proof. vm_compute. split; [discriminate|auto]. Qed.
(** Without valid data it never ends. *)
Theorem C39_no_data_refuted w f : let a := grid 2 3 (repeat None 6) in let m := bgrid 2 3 [false; false; true; true; true; true] in
  forall fuel, erode_mask w f fuel true a (UMask m) None "x" "y" = Ok None.
Proof.
  intros a m fuel. assert (Wa : wf a) by (split; [reflexivity|]; cbn; repeat constructor; cbn; intuition discriminate).
  assert (Wm : wf m) by (split; [reflexivity|]; cbn; repeat constructor; cbn; intuition discriminate).
  destruct (C39_default_mask w f a m "x" "y") as (H1 & _ & H3); auto; try (cbn; tauto); try discriminate.
  - intros d Hd; exact Hd.
  - apply H3. intros b E. destruct (proj1 H1 (ex_intro _ fuel (ex_intro _ b E)) (fun _ => 0) (fun _ => 0)) as (env & _ & _ & X); try reflexivity.
    + intros d Hd. destruct Hd as [<-|[<-|[]]]; cbv; lia.
    + intros d Hd. destruct Hd as [<-|[<-|[]]]; cbv; lia.
    + apply X. unfold look. cbn [a grid value]. apply nth_repeat.
Qed.
Example ex_partial_mask w f : let m := mkda ["x"%string] [3] (fun i => nth (nth 0 i 0) [false; false; true] false) in
  forall fuel, erode_mask w f fuel true ex_sea (UMask m) None "x" "y" = Ok None.
Proof.
  intros m fuel. assert (Wa : wf ex_sea) by (split; [reflexivity|]; cbn; repeat constructor; cbn; intuition discriminate).
  destruct (shapiro_generated w f ["y"; "x"]%string "x" "y") as (k & Ek & Wk & D & Nn & _ & Sx & Sy & _); try (cbn; tauto); try discriminate; [apply Wa|].
  unfold erode_mask. cbn [dims ex_sea grid List.length Nat.ltb Nat.leb]. cbn [m dims forallb]. change (mem "x" ["y"; "x"]%string) with true. cbn [andb].
  change (transpose m (map Some ["y"; "x"]%string) None (EName "compat")) with (transpose (A:=bool) m [Some "y"; Some "x"]%string None (EName "compat")).
  destruct (transpose m [Some "y"; Some "x"]%string None (EName "compat")) as [m'|e] eqn:Em; [|discriminate]. cbn [bind]. rewrite Ek. cbn [bind].
  set (kd := List.filter (fun d => negb (size k d =? 1)) (dims k)). assert (Ekd : kd = ["y"; "x"]%string) by (unfold kd; rewrite D; cbn [List.filter]; now rewrite Sx, Sy).
  rewrite Ekd at 1. cbn [List.length Nat.ltb Nat.leb]. apply C39_partial_mask_refuted with (d := "y"%string).
  - split; auto.
  - apply (C23_no_element_lost bool m m' _ _ _) in Em; [tauto|]. split; [reflexivity|]. cbn. repeat constructor. intros [].
  - now left.
  - rewrite Sy. discriminate.
  - vm_compute in Em. injection Em as <-. cbn. intuition discriminate.
  - cbv. lia.
  - intros d Hd. destruct Hd as [<-|[<-|[]]]; cbv; lia.
  - vm_compute in Em. injection Em as <-. cbv. lia.
Qed.
