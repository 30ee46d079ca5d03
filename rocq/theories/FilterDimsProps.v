(** C90: the order of the dimensions of the data does not matter to filters *)
From Coq Require Import Permutation Lqa.
From Verif Require Export FilterDims.
From Verif Require Import CoordsProofs TransposeProps FilterProps KernelProps ErodeProps.
Open Scope nat_scope.
Open Scope list_scope.

Lemma eqv_refl x : eqv x x. Proof. destruct x; cbn; auto. reflexivity. Qed.
Lemma sbn_shapes {A} (R : A -> A -> Prop) a b : same_by_name R a b -> shape a = map (size a) (dims a) /\ shape b = map (size a) (dims b).
Proof.
  intros (Wa & Wb & P & Sz & _). split; [now apply shape_sizes|]. rewrite (shape_sizes b Wb) at 1. apply map_ext_in. intros d Hd. apply Sz. now apply P.
Qed.
Lemma clip_comp x x' h h' : (x == x')%Q -> (h == h')%Q -> (clip x 0 h == clip x' 0 h')%Q.
Proof.
  intros Hx Hh. unfold clip, qmin, qmax. assert (E : Qle_bool x 0 = Qle_bool x' 0) by (now rewrite Hx). rewrite E. destruct (Qle_bool x' 0).
  - assert (E1 : Qle_bool 0 h = Qle_bool 0 h') by (now rewrite Hh). rewrite E1. destruct (Qle_bool 0 h'); [reflexivity|exact Hh].
  - assert (E1 : Qle_bool x h = Qle_bool x' h') by (now rewrite Hx, Hh). rewrite E1. destruct (Qle_bool x' h'); [exact Hx|exact Hh].
Qed.
Lemma convolve_named float norm a b k k' : same_by_name eqv a b -> same_by_name eq k k' -> dims k = dims a -> dims k' = dims b ->
  match convolve_ float a k norm, convolve_ float b k' norm with
  | Ok v, Ok v' => forall env, eqv (v (map env (dims a))) (v' (map env (dims b)))
  | Raise e, Raise e' => e = e'
  | _, _ => False end.
Proof.
  intros Ha Hk D D'. destruct (sbn_shapes _ _ _ Ha) as [Sa Sb], (sbn_shapes _ _ _ Hk) as [Sk Sk'].
  destruct Ha as ([_ N] & [_ N'] & P & Sz & V), Hk as (_ & _ & _ & Sz' & V'). rewrite D in Sk, V', Sz'. rewrite D' in Sk'.
  unfold convolve_. rewrite Sk, Sk', Sa, Sb, !map_length, !Nat.eqb_refl. cbn [negb].
  assert (G : forall e, (forall d, In d (dims a) -> (e d < size k d)%nat) -> (value k (map e (dims a)) == value k' (map e (dims b)))%Q).
  { intros e He. specialize (V' e He). unfold look in V'. rewrite D, D' in V'. now rewrite V'. }
  assert (T : (total k == total k')%Q).
  { unfold total. rewrite Sk, Sk'. apply sum_perm; auto. }
  assert (M : existsb (fun i => isnan (value a i)) (indices (map (size a) (dims a))) = existsb (fun i => isnan (value b i)) (indices (map (size a) (dims b)))).
  { apply exists_perm; auto. intros e He. specialize (V e He). unfold look in V. destruct (value a _), (value b _); cbn in *; tauto. }
  rewrite <- M. destruct (norm && negb float)%bool; [reflexivity|]. intro env.
  match goal with |- context [qdiv (conv_same _ _ ?F _ _) (clip (conv_same _ _ ?W _ _) _ _)] => set (Fa := F); set (Wa := W) end.
  assert (C : (conv_same (map (size a) (dims a)) (map (size k) (dims a)) Fa (value k) (map env (dims a)) ==
               conv_same (map (size a) (dims b)) (map (size k) (dims b)) (fun p => filled (value b p)) (value k') (map env (dims b)))%Q).
  { apply conv_perm; auto. intros e He. specialize (V e He). unfold look in V. unfold Fa. destruct (value a _), (value b _); cbn in *; try tauto; auto; reflexivity. }
  assert (W : (clip (conv_same (map (size a) (dims a)) (map (size k) (dims a)) Wa (value k) (map env (dims a))) 0 (total k) ==
               clip (conv_same (map (size a) (dims b)) (map (size k) (dims b)) (fun p => if isnan (value b p) then 0%Q else 1%Q) (value k') (map env (dims b))) 0 (total k'))%Q).
  { apply clip_comp; auto. apply conv_perm; auto. intros e He. specialize (V e He). unfold look in V. unfold Wa. destruct (value a _), (value b _); cbn in *; try tauto; reflexivity. }
  revert C W. generalize (conv_same (map (size a) (dims a)) (map (size k) (dims a)) Fa (value k) (map env (dims a))).
  generalize (conv_same (map (size a) (dims b)) (map (size k) (dims b)) (fun p => filled (value b p)) (value k') (map env (dims b))).
  generalize (clip (conv_same (map (size a) (dims a)) (map (size k) (dims a)) Wa (value k) (map env (dims a))) 0 (total k)).
  generalize (clip (conv_same (map (size a) (dims b)) (map (size k) (dims b)) (fun p => if isnan (value b p) then 0%Q else 1%Q) (value k') (map env (dims b))) 0 (total k')).
  intros w' w c' c C W.
  assert (B : Qle_bool (Qabs w) ((1 # 1000000) * total k) = Qle_bool (Qabs w') ((1 # 1000000) * total k')) by (now rewrite W, T). rewrite B.
  destruct (_ && _)%bool; cbn; auto. destruct norm; cbn; [|exact C]. unfold qdiv. assert (E : Qeq_bool w 0 = Qeq_bool w' 0) by (now rewrite W). rewrite E.
  destruct (Qeq_bool w' 0); cbn; auto. now rewrite C, W.
Qed.

Lemma nodup_app {A} (l l' : list A) : NoDup l -> NoDup l' -> (forall x, In x l -> In x l' -> False) -> NoDup (l ++ l').
Proof.
  intros H H' D. induction l as [|x l IH]; auto. inversion H; subst. cbn. constructor; [|apply IH; auto; intros y Hy; apply D; now right].
  rewrite in_app_iff. intros [X|X]; [auto|]. apply (D x); [now left|auto].
Qed.
Lemma forallb_same {A} (f g : A -> bool) l : (forall x, f x = g x) -> forallb f l = forallb g l.
Proof. intro H. induction l as [|x l IH]; cbn; auto. now rewrite H, IH. Qed.
Section windows.
  Variables (window : nat -> list Q) (fill : Q).
  Notation generate_kernel := (generate_kernel window fill).
  Notation convolve := (convolve window fill).
  Notation convolve_and_fill := (convolve_and_fill window fill).
  Notation iterate := (iterate window fill).
  Notation erode_loop := (erode_loop window fill).
  Notation erode_mask := (erode_mask window fill).

  (** Kernels for the two orders of the dimensions *)
  Definition kagree (a b : da (option Q)) (r r' : res (da Q)) : Prop :=
    match r, r' with
    | Ok k, Ok k' => dims k = dims a /\ dims k' = dims b /\ same_by_name eq k k'
    | Raise e, Raise e' => e = e'
    | _, _ => False end.
  Lemma insert_named float a b k k1 : wf k -> wf k1 -> NoDup (dims a) -> NoDup (dims b) -> (forall d, In d (dims a) <-> In d (dims b)) ->
    same_by_name eq k k1 -> incl (dims k) (dims a) ->
    kagree a b (let* k := insert_into (dims a) k in Ok (astype float k)) (let* k := insert_into (dims b) k1 in Ok (astype float k)).
  Proof.
    intros Wk Wk1 N N' P (_ & _ & P1 & S1 & V1) Hi. assert (Hi' : incl (dims k1) (dims b)) by (intros d Hd; apply P, Hi, P1, Hd).
    destruct (insert_ok k (dims a) Wk N Hi) as (x & -> & Wx & Dx & Sx & Ox & Lx). destruct (insert_ok k1 (dims b) Wk1 N' Hi') as (y & -> & Wy & Dy & Sy & Oy & Ly).
    cbn [bind kagree].
    assert (Sz : forall d, In d (dims a) -> size y d = size x d).
    { intros d Hd. destruct (mem_dec d (dims k)) as [H|H].
      - rewrite Sx, Sy; auto. now apply P1.
      - rewrite Ox, Oy; auto; [now apply P|]. intro X. now apply H, P1. }
    assert (G : forall env, (forall d, In d (dims a) -> env d < size x d) -> look x env = look y env).
    { intros env He. rewrite Lx, Ly. apply V1. intros d Hd. rewrite <- Sx by auto. apply He. auto. }
    assert (E : dims (astype float x) = dims a /\ dims (astype float y) = dims b) by (destruct float; auto). destruct E as [E1 E2].
    split; [exact E1|]. split; [exact E2|]. unfold same_by_name. rewrite E1, E2.
    split; [destruct float; exact Wx|]. split; [destruct float; exact Wy|]. split; [exact P|]. split; [destruct float; exact Sz|].
    intros env He. destruct float; [now apply G|]. unfold look. cbn. change (value x (map env (dims x))) with (look x env). change (value y (map env (dims y))) with (look y env).
    rewrite G; auto.
  Qed.
  Lemma sbn_refl k : wf k -> same_by_name (@eq Q) k k.
  Proof. intro W. repeat split; auto; apply W. Qed.
  Lemma gen_da float a b k k1 : wf k -> wf k1 -> NoDup (dims a) -> NoDup (dims b) -> (forall d, In d (dims a) <-> In d (dims b)) -> same_by_name eq k k1 ->
    kagree a b (generate_kernel float (KDa k) (dims a)) (generate_kernel float (KDa k1) (dims b)).
  Proof.
    intros Wk Wk1 N N' P H. unfold Filter.generate_kernel. assert (P1 := proj1 (proj2 (proj2 H))).
    assert (E : forallb (fun d => mem d (dims b)) (dims k1) = forallb (fun d => mem d (dims a)) (dims k)).
    { rewrite (forallb_set _ _ _ P1). apply forallb_same. intro d. destruct (mem d (dims a)) eqn:X.
      - apply mem_In, P, mem_In, X.
      - apply mem_nIn. intro Y. apply P in Y. apply mem_nIn in X. auto. }
    rewrite E. destruct (forallb _ (dims k)) eqn:X; cbn [bind]; [|reflexivity]. apply insert_named; auto. now apply forallb_incl.
  Qed.
  Lemma from_dict_wf d k : from_dict window fill d = Ok k -> wf k /\ dims k = dkeys d.
  Proof.
    unfold from_dict. destruct (orthogonal _ _ _ _) as [[x|]|e]; cbn [bind]; try discriminate. unfold label.
    destruct (_ && _)%bool eqn:E; [|discriminate]. apply andb_true_iff in E as [E1 E2]. intro H. injection H as <-. split; [|reflexivity]. split; [now apply Nat.eqb_eq|now apply nodupb_ok].
  Qed.
  Lemma gen_named float a b spec : by_name (dims a) spec -> NoDup (dims a) -> NoDup (dims b) -> (forall d, In d (dims a) <-> In d (dims b)) ->
    kagree a b (generate_kernel float spec (dims a)) (generate_kernel float spec (dims b)).
  Proof.
    intros B N N' P. destruct spec as [| | |d| |k|]; try contradiction.
    - cbn in B. unfold Filter.generate_kernel. destruct (from_dict window fill d) as [k|e] eqn:E; cbn [bind]; [|reflexivity].
      destruct (from_dict_wf d k E) as [W D]. apply insert_named; auto using sbn_refl. now rewrite D.
    - apply gen_da; auto. now apply sbn_refl.
  Qed.

  Lemma mk_sbn a b (v v' : list nat -> option Q) : same_by_name eqv a b -> (forall env, (forall d, In d (dims a) -> env d < size a d) -> eqv (v (map env (dims a))) (v' (map env (dims b)))) ->
    same_by_name eqv (mkda (dims a) (shape a) v) (mkda (dims b) (shape b) v').
  Proof. intros (Wa & Wb & P & S & _) H. split; [exact Wa|]. split; [exact Wb|]. split; [exact P|]. split; [exact S|]. exact H. Qed.
  Lemma convolve_agree float a b spec spec' norm : same_by_name eqv a b -> kagree a b (generate_kernel float spec (dims a)) (generate_kernel float spec' (dims b)) ->
    match convolve float a spec norm, convolve float b spec' norm with
    | Ok x, Ok y => dims x = dims a /\ shape x = shape a /\ dims y = dims b /\ shape y = shape b /\ same_by_name eqv x y
    | Raise e, Raise e' => e = e'
    | _, _ => False end.
  Proof.
    intros H K. unfold Filter.convolve. destruct (generate_kernel float spec (dims a)) as [k|e], (generate_kernel float spec' (dims b)) as [k'|e']; cbn [bind kagree] in *; try contradiction; auto.
    destruct K as (D & D' & K). assert (X := convolve_named float norm a b k k' H K D D'). destruct (convolve_ float a k norm), (convolve_ float b k' norm); cbn [bind]; try contradiction; auto.
    cbn [dims shape]. repeat (split; [reflexivity|]). apply mk_sbn; auto.
  Qed.
  (** convolve gives the same result, by named positions, for all orders of the dimensions of the data. *)
  Theorem C90_convolve float a b kernel norm : same_by_name eqv a b -> by_name (dims a) kernel ->
    agree a b (convolve float a kernel norm) (convolve float b kernel norm).
  Proof.
    intros H B. assert (X := convolve_agree float a b kernel kernel norm H). unfold agree.
    assert (K : kagree a b (generate_kernel float kernel (dims a)) (generate_kernel float kernel (dims b))).
    { destruct H as ([_ N] & [_ N'] & P & _). now apply gen_named. }
    specialize (X K). destruct (convolve float a kernel norm), (convolve float b kernel norm); auto. tauto.
  Qed.
  (** In particular for an array that has been transposed. *)
  Theorem C90_transposed float a b req sizes mode kernel norm : wf a -> transpose a req sizes mode = Ok b -> incl (dims b) (dims a) -> by_name (dims a) kernel ->
    agree a b (convolve float a kernel norm) (convolve float b kernel norm).
  Proof.
    intros W E I B. apply C90_convolve; auto. destruct (C23_no_element_lost _ a b req sizes mode W E) as (Wb & L & S).
    split; [exact W|]. split; [exact Wb|]. split; [intro d; split; [apply S|apply I]|]. split; [apply S|]. intros env _. rewrite L. apply eqv_refl.
  Qed.

  (** *** erode_mask *)
  Definition sim (a b : da (option Q)) (r r' : res (da (option Q))) : Prop :=
    match r, r' with
    | Ok x, Ok y => dims x = dims a /\ shape x = shape a /\ dims y = dims b /\ shape y = shape b /\ same_by_name eqv x y
    | Raise e, Raise e' => e = e'
    | _, _ => False end.
  Lemma fill_agree float a b k k' : same_by_name eqv a b -> same_by_name eq k k' -> sim a b (convolve_and_fill float a k) (convolve_and_fill float b k').
  Proof.
    intros H K. assert (G : kagree a b (generate_kernel float (KDa k) (dims a)) (generate_kernel float (KDa k') (dims b))).
    { destruct H as ([_ N] & [_ N'] & P & _). apply gen_da; auto; apply K. }
    assert (X := convolve_agree float a b (KDa k) (KDa k') true H G). unfold Filter.convolve_and_fill.
    destruct (convolve float a (KDa k) true) as [x|], (convolve float b (KDa k') true) as [y|]; cbn [bind sim]; auto.
    destruct X as (D1 & S1 & D2 & S2 & X). cbn [dims shape]. repeat (split; [reflexivity|]). apply mk_sbn; auto. intros env He.
    destruct H as (_ & _ & _ & _ & V). specialize (V env He). unfold look in V. destruct (value a _), (value b _); cbn in *; try tauto.
    destruct X as (_ & _ & _ & _ & VX). specialize (VX env). unfold look in VX. rewrite D1, D2 in VX. apply VX. unfold size. rewrite D1, S1. exact He.
  Qed.
  Lemma sim_trans a b x y r r' : dims x = dims a -> shape x = shape a -> dims y = dims b -> shape y = shape b -> sim x y r r' -> sim a b r r'.
  Proof. intros D1 S1 D2 S2. unfold sim. rewrite D1, S1, D2, S2. auto. Qed.
  Lemma iterate_agree float n : forall a b k k', same_by_name eqv a b -> same_by_name eq k k' -> sim a b (iterate n float a k) (iterate n float b k').
  Proof.
    induction n as [|n IH]; intros a b k k' H K; [cbn; auto|]. cbn [Filter.iterate]. assert (X := fill_agree float a b k k' H K).
    destruct (convolve_and_fill float a k) as [x|], (convolve_and_fill float b k') as [y|]; cbn [bind sim] in *; try contradiction; auto.
    destruct X as (D1 & S1 & D2 & S2 & X). apply (sim_trans a b x y); auto.
  Qed.
  (** The mask, at the same named positions *)
  Lemma bool_iff (p q : bool) : (p = true <-> q = true) -> p = q.
  Proof. destruct p, q; intros [H1 H2]; auto. symmetry. auto. Qed.
  Lemma reduced_named a b kd kd' env env' : same_by_name eqv a b -> (forall d, In d kd <-> In d kd') -> (forall d, In d (dims a) -> env d = env' d) ->
    (forall d, In d kd -> In d (dims a) -> env d < size a d) ->
    reduced_mask a kd env = reduced_mask b kd' env'.
  Proof.
    intros (Wa & Wb & P & S & V) PK EE He. apply bool_iff.
    rewrite (reduced_iff a kd env Wa He). rewrite (reduced_iff b kd' env' Wb); [|intros d H1 H2; apply P in H2; rewrite S, <- EE by auto; apply He; auto; now apply PK].
    unfold position_of. split; intros (e & H1 & H2 & H3); exists e.
    - split; [intros d Hd; rewrite S by (now apply P); apply H1; now apply P|]. split; [intros d Hd Hd'; rewrite <- EE by (now apply P); apply H2; [now apply PK|now apply P]|].
      specialize (V e H1). rewrite H3 in V. destruct (look b e); [contradiction|auto].
    - assert (H1' : forall d, In d (dims a) -> e d < size a d) by (intros d Hd; rewrite <- S by auto; apply H1; now apply P).
      split; [exact H1'|]. split; [intros d Hd Hd'; rewrite EE by auto; apply H2; [now apply PK|now apply P]|].
      specialize (V e H1'). rewrite H3 in V. destruct (look a e); [contradiction|auto].
  Qed.
  Lemma pos_absent ds idx d : ~ In d ds -> pos ds idx d = 0.
  Proof.
    unfold pos. revert idx. induction ds as [|x ds IH]; intros [|i idx] H; cbn [combine dget]; auto. destruct (String.eqb_spec d x); [subst; exfalso; apply H; now left|].
    apply IH. intro X. apply H. now right.
  Qed.
  Lemma mem_same l l' d : (forall d, In d l <-> In d l') -> mem d l = mem d l'.
  Proof. intro P. apply bool_iff. rewrite !mem_In. apply P. Qed.
  Lemma count_mask_named m m' : same_by_name eq m m' -> count_mask m = count_mask m'.
  Proof.
    intro H. destruct (sbn_shapes _ _ _ H) as [S S']. destruct H as ([_ N] & [_ N'] & P & _ & V). unfold count_mask. rewrite S, S'. apply count_perm; auto.
  Qed.
  Lemma count_masked_named a b m m' kd kd' : same_by_name eqv a b -> same_by_name eq m m' -> (forall d, In d kd <-> In d kd') ->
    (forall d, In d (dims m) -> In d (dims a) -> size m d = size a d) -> count_masked a m kd = count_masked b m' kd'.
  Proof.
    intros H M PK Sm. assert (H0 := H). destruct H as ([_ N] & [_ N'] & P & Sz & _), M as ([_ Nm] & [_ Nm'] & Pm & Szm & Vm). unfold count_masked.
    set (ds := dims m ++ _). set (ds' := dims m' ++ _).
    assert (In1 : forall d, In d ds <-> In d (dims m) \/ (In d (dims a) /\ In d kd)).
    { intro d. unfold ds. rewrite in_app_iff, !filter_In, mem_In, negb_true_iff, mem_nIn. destruct (mem_dec d (dims m)); tauto. }
    assert (In2 : forall d, In d ds' <-> In d (dims m') \/ (In d (dims b) /\ In d kd')).
    { intro d. unfold ds'. rewrite in_app_iff, !filter_In, mem_In, negb_true_iff, mem_nIn. destruct (mem_dec d (dims m')); tauto. }
    assert (PD : forall d, In d ds <-> In d ds') by (intro d; rewrite In1, In2, (Pm d), (P d), (PK d); reflexivity).
    assert (ND : NoDup ds /\ NoDup ds').
    { split; apply nodup_app; auto; try (repeat apply NoDup_filter; auto; fail); intros d H1 H2; apply filter_In in H2 as [_ H2]; apply negb_true_iff, mem_nIn in H2; auto. }
    set (sz := fun d => if mem d (dims m) then size m d else size a d).
    assert (ES : map (fun d => if mem d (dims m') then size m' d else size b d) ds' = map sz ds').
    { apply map_ext_in. intros d Hd. unfold sz. rewrite (mem_same (dims m') (dims m)) by (intro; symmetry; apply Pm). destruct (mem d (dims m)) eqn:E; [apply Szm; now apply mem_In|].
      apply Sz. apply PD, In1 in Hd. apply mem_nIn in E. tauto. }
    rewrite ES. apply count_perm; try apply ND; auto. intros e He. cbv zeta.
    assert (Q1 : forall d, In d ds -> pos ds (map e ds) d = e d) by (intros; apply ErodeProps.pos_map; auto; apply ND).
    assert (Q2 : forall d, In d ds' -> pos ds' (map e ds') d = e d) by (intros; apply ErodeProps.pos_map; auto; apply ND).
    f_equal.
    - assert (X := Vm e). unfold look in X. rewrite (map_ext_in (pos ds (map e ds)) e), (map_ext_in (pos ds' (map e ds')) e).
      + apply X. intros d Hd. specialize (He d). unfold sz in He. rewrite (proj2 (mem_In d (dims m)) Hd) in He. apply He, In1. auto.
      + intros d Hd. apply Q2, In2. auto.
      + intros d Hd. apply Q1, In1. auto.
    - apply reduced_named; auto.
      + intros d _. destruct (mem_dec d ds) as [X|X]; [rewrite Q1, Q2; auto; now apply PD|]. rewrite !pos_absent; auto. intro Y. now apply X, PD.
      + intros d H1 H2. assert (X : In d ds) by (apply In1; auto). rewrite Q1 by auto. specialize (He d X). unfold sz in He. destruct (mem d (dims m)) eqn:E; auto. rewrite <- Sm; auto. now apply mem_In.
  Qed.
  Lemma loop_agree float (m m' : da bool) (kd kd' : list string) (k k' : da Q) : same_by_name eq k k' -> same_by_name eq m m' -> (forall d, In d kd <-> In d kd') -> forall fuel a b, same_by_name eqv a b ->
    (forall d, In d (dims m) -> In d (dims a) -> size m d = size a d) ->
    oagree a b (erode_loop fuel float a k m kd) (erode_loop fuel float b k' m' kd').
  Proof.
    intros K M PK. induction fuel as [|fuel IH]; intros a b H Sm; [exact Logic.I|]. cbn [Filter.erode_loop]. assert (X := fill_agree float a b k k' H K).
    destruct (convolve_and_fill float a k) as [x|], (convolve_and_fill float b k') as [y|]; cbn [bind sim oagree] in *; try contradiction; auto.
    destruct X as (D1 & S1 & D2 & S2 & X). assert (Sm' : forall d, In d (dims m) -> In d (dims x) -> size m d = size x d) by (unfold size at 2; rewrite D1, S1; exact Sm).
    rewrite (count_mask_named m m' M), (count_masked_named x y m m' kd kd' X M PK Sm'). destruct (_ <? _).
    - specialize (IH x y X Sm'). unfold oagree in *. rewrite D1, D2 in IH. exact IH.
    - cbn. auto.
  Qed.
  Lemma mask_transposed (m : da bool) (ds : list string) : wf m -> incl (dims m) ds -> NoDup ds -> exists m', transpose m (map Some ds) None (EName "compat") = Ok m' /\
    wf m' /\ (forall d, In d (dims m) <-> In d (dims m')) /\ (forall d, In d (dims m) -> size m' d = size m d) /\ forall env, look m' env = look m env.
  Proof.
    intros W I N. destruct (C23_compat bool m (map Some ds) None (EName "compat") W (or_introl eq_refl)) as [H _].
    assert (ND : NoDup (known (dims m) (map Some ds))).
    { apply NoDup_filter. apply FinFun.Injective_map_NoDup; auto. intros x y E. now injection E. }
    destruct (H ND) as (b & E & D). destruct (C23_no_element_lost bool m b _ _ _ W E) as (Wb & L & S). exists b. split; [exact E|]. split; [exact Wb|]. split; [|split; [apply S|exact L]].
    intro d. split; [apply S|]. rewrite D. intro Hd. apply in_placed in Hd. destruct Hd as [Hd|Hd]; [|apply in_unnamed in Hd; tauto].
    apply (known_names (dims m) (map Some ds)). unfold flush_left in Hd. destruct (existsb _ _); exact Hd.
  Qed.
  (** erode_mask gives the same result for all orders of the dimensions: same passes, same filled points and values. *)
  Theorem C90_erode fuel float a b u kernel xdim ydim : same_by_name eqv a b ->
    match kernel with Some spec => by_name (dims a) spec | None => xdim <> ydim end ->
    match u with UTimes _ => True | UMask m => wf m /\ forall d, In d (dims m) -> In d (dims a) -> size m d = size a d end ->
    oagree a b (erode_mask fuel float a u kernel xdim ydim) (erode_mask fuel float b u kernel xdim ydim).
  Proof.
    intros H B U. unfold Filter.erode_mask. assert (H0 := H). destruct H as ([_ N] & [_ N'] & P & _).
    assert (LN : List.length (dims b) = List.length (dims a)) by (symmetry; apply Permutation_length, NoDup_Permutation; auto). rewrite LN.
    destruct (List.length (dims a) <? 2); [reflexivity|].
    set (spec := match kernel with None => _ | Some k => k end).
    assert (K : kagree a b (generate_kernel float spec (dims a)) (generate_kernel float spec (dims b))).
    { apply gen_named; auto. unfold spec. destruct kernel; auto. cbn. split; [reflexivity|]. cbn. constructor; [|repeat constructor; cbn; tauto]. cbn. intros [X|[]]. auto. }
    assert (KD : forall k k' : da Q, same_by_name eq k k' -> dims k = dims a -> dims k' = dims b ->
      let kd := List.filter (fun d => negb (size k d =? 1)) (dims k) in let kd' := List.filter (fun d => negb (size k' d =? 1)) (dims k') in
      (forall d, In d kd <-> In d kd') /\ List.length kd' = List.length kd).
    { intros k k' (_ & _ & Pk & Sk & _) D D' kd kd'. assert (X : forall d, In d kd <-> In d kd').
      { intro d. unfold kd, kd'. rewrite !filter_In. rewrite <- (Pk d). split; intros [H1 H2]; split; auto; [rewrite Sk by auto; exact H2|rewrite Sk in H2 by auto; exact H2]. }
      split; auto. symmetry. apply Permutation_length, NoDup_Permutation; auto; apply NoDup_filter; [now rewrite D|now rewrite D']. }
    destruct u as [n|m].
    - cbn [bind]. destruct (generate_kernel float spec (dims a)) as [k|e], (generate_kernel float spec (dims b)) as [k'|e']; cbn [bind kagree] in *; try contradiction; auto.
      destruct K as (D & D' & K). destruct (KD k k' K D D') as [_ L]. rewrite L. destruct (2 <? _); [reflexivity|].
      assert (X := iterate_agree float (Z.to_nat n) a b k k' H0 K). destruct (iterate (Z.to_nat n) float a k), (iterate (Z.to_nat n) float b k'); cbn in *; tauto.
    - destruct U as [Wm Sm]. rewrite <- (forallb_same (fun d => mem d (dims a)) (fun d => mem d (dims b)) (dims m)) by (intro; now apply mem_same).
      destruct (forallb _ (dims m)) eqn:F; [|reflexivity]. apply forallb_incl in F.
      destruct (mask_transposed m (dims a) Wm F N) as (m1 & -> & W1 & P1 & S1 & L1).
      destruct (mask_transposed m (dims b) Wm (fun d Hd => proj1 (P d) (F d Hd)) N') as (m2 & -> & W2 & P2 & S2 & L2). cbn [bind].
      destruct (generate_kernel float spec (dims a)) as [k|e], (generate_kernel float spec (dims b)) as [k'|e']; cbn [bind kagree] in *; try contradiction; auto.
      destruct K as (D & D' & K). destruct (KD k k' K D D') as [PK L]. rewrite L. destruct (2 <? _); [reflexivity|].
      apply loop_agree; auto.
      + split; [exact W1|]. split; [exact W2|]. split; [intro d; now rewrite <- P1, <- P2|]. split; [intros d Hd; apply P1 in Hd; now rewrite S1, S2|]. intros env _. now rewrite L1, L2.
      + intros d H1 H2. apply P1 in H1. rewrite S1 by auto. auto.
  Qed.
End windows.
Print Assumptions C90_convolve.
Print Assumptions C90_transposed.
Print Assumptions C90_erode.
(** Non-trivial case: data with NaNs on (y, x) and (x, y) *)
Lemma permuted_same nd (a : da (option Q)) : wf a -> NoDup nd -> (forall d, In d (dims a) <-> In d nd) -> same_by_name eqv a (permute a nd).
Proof.
  intros W N P. split; [exact W|]. split; [now apply permute_wf|]. split; [exact P|]. split; [intros d Hd; apply permute_size; now apply P|].
  intros env _. rewrite permute_look; [apply eqv_refl|intros d; apply P].
Qed.
Definition ex_turned : da (option Q) := permute ex_data ["x"; "y"]%string.
Example C90_case w f : same_by_name eqv ex_data ex_turned /\ dims ex_turned <> dims ex_data /\
  by_name (dims ex_data) (KDict [("x", KVals [1; 2; 1]%Q); ("y", KVals [1; 1; 1]%Q)]%string) /\
  match convolve w f true ex_turned (KDict [("x", KVals [1; 2; 1]%Q); ("y", KVals [1; 1; 1]%Q)]%string) true with
  | Ok r => eqv (value r [2; 0]) (Some 4%Q) | _ => False end.
Proof.
  assert (W : wf ex_data) by (split; [reflexivity|]; cbn; repeat constructor; cbn; intuition discriminate).
  split; [|split; [|split]].
  - apply permuted_same; auto; [cbn; repeat constructor; cbn; intuition discriminate|]. intro d. cbn. tauto.
  - discriminate.
  - cbn. intros d [<-|[<-|[]]]; cbn; auto.
  - vm_compute. reflexivity.
Qed.
(** A sequence of kernels is positional: its result depends on the order of the dimensions. *)
Theorem C90_sequence_refuted w f :
  match convolve w f true ex_data ex_kernel true, convolve w f true ex_turned ex_kernel true with
  | Ok r, Ok r' => same_by_name eqv ex_data ex_turned /\ ~ same_by_name eqv r r' | _, _ => False end.
Proof.
  assert (H : match convolve w f true ex_data ex_kernel true, convolve w f true ex_turned ex_kernel true with
    | Ok r, Ok r' => dims r = ["y"; "x"]%string /\ dims r' = ["x"; "y"]%string /\ shape r = [2; 3] /\ ~ eqv (value r [0; 0]) (value r' [0; 0]) | _, _ => False end)
    by (vm_compute; repeat split; auto; discriminate).
  destruct (convolve w f true ex_data ex_kernel true) as [r|], (convolve w f true ex_turned ex_kernel true) as [r'|]; try contradiction.
  split; [exact (proj1 (C90_case w f))|]. destruct H as (D & D' & S & H). intros (_ & _ & _ & _ & V). apply H. specialize (V (fun _ => 0)). unfold look, size in V. rewrite D, D', S in V. apply V.
  intros d [<-|[<-|[]]]; vm_compute; auto.
Qed.
Print Assumptions C90_sequence_refuted.
