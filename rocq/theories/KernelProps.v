(** C38: kernels *)
From Verif Require Import PyDictFacts CoordsProofs TransposeProps.
From Verif Require Export FilterProps.
From Coq Require Import Lqa.
Open Scope nat_scope.

Section windows.
  Variable window : nat -> list Q.
  Variable fill : Q.
  Notation one_kernel := (one_kernel window fill).
  Notation orthogonal := (orthogonal window fill).
  Notation generate_kernel := (generate_kernel window fill).

  Definition ones (ls : list (list Q)) : Prop := Forall (fun l => List.length l = 1) ls.
  Definition is_outer (ls : list (list Q)) (a : nd) : Prop :=
    nshape a = map (@List.length Q) ls /\ forall idx, in_shape (map (@List.length Q) ls) idx -> (nvalue a idx == outer ls idx)%Q.
  Lemma outer_snoc ls l idx i : List.length idx = List.length ls -> (outer (ls ++ [l]) (idx ++ [i]) == outer ls idx * nth i l 0)%Q.
  Proof.
    revert idx. induction ls as [|x ls IH]; intros [|j idx] H; try discriminate; cbn [app outer]; [ring|].
    rewrite IH by (cbn in H; lia). ring.
  Qed.
  Lemma in_shape_snoc s n idx : in_shape (s ++ [n]) idx -> exists a i, idx = a ++ [i] /\ in_shape s a /\ i < n.
  Proof.
    unfold in_shape. intro H. apply Forall2_app_inv_r in H. destruct H as (a & b & Ha & Hb & ->).
    inversion Hb as [|i m b' s' Hi Hr]; subst. inversion Hr; subst. eauto.
  Qed.
  Lemma ones_repeat ls : ones ls -> map (@List.length Q) ls = repeat 1 (List.length ls).
  Proof. induction 1 as [|l ls H _ IH]; cbn; [reflexivity|]. now rewrite H, IH. Qed.
  Lemma zeros m idx : in_shape (repeat 1 m) idx -> idx = repeat 0 m.
  Proof.
    unfold in_shape. revert idx. induction m as [|m IH]; intros idx H; inversion H; subst; auto. cbn. f_equal; [lia|auto].
  Qed.
  Lemma removelast_repeat {A} (x : A) m : removelast (repeat x (S m)) = repeat x m.
  Proof. induction m as [|m IH]; auto. change (removelast (repeat x (S (S m)))) with (x :: removelast (repeat x (S m))). now rewrite IH. Qed.
  Lemma repeat_snoc {A} (x : A) m : repeat x m ++ [x] = x :: repeat x m.
  Proof. induction m as [|m IH]; auto. cbn. now rewrite IH. Qed.
  Lemma merge_ok ls a l : ls <> [] -> is_outer ls a -> ones (tl ls) -> exists b, merge a l = Ok b /\ is_outer (ls ++ [l]) b.
  Proof.
    intros Hne [Hs Hv] H1. destruct ls as [|l0 ls]; [congruence|]. cbn [tl] in H1. unfold merge. rewrite Hs. cbn [map].
    destruct ls as [|l1 ls].
    - cbn [map]. eexists. split; [reflexivity|]. split; [reflexivity|]. cbn [app map]. intros idx H. unfold in_shape in H.
      inversion H as [|i n0 r s Hi Hr]; subst. inversion Hr as [|j n1 r' s' Hj Hr']; subst. inversion Hr'; subst. cbn [nvalue nth].
      rewrite Hv by (repeat constructor; auto). cbn [outer]. ring.
    - assert (E := ones_repeat _ H1). cbn [map] in E. set (m := List.length ls) in *.
      assert (E' : @List.length Q l1 :: map (@List.length Q) ls = repeat 1 (S m)) by (rewrite E; reflexivity).
      assert (Hlast : List.last (repeat 1 (S m)) 0 = 1).
      { clear. induction m as [|m IH]; auto. }
      cbn [map]. rewrite E'. rewrite Hlast, Nat.eqb_refl, removelast_repeat. eexists. split; [reflexivity|]. split.
      + cbn [nshape]. rewrite map_app. cbn [map]. cbn [app]. f_equal. change (List.length l1 :: (map (@List.length Q) ls ++ [List.length l])) with ((List.length l1 :: map (@List.length Q) ls) ++ [List.length l]). rewrite E'. reflexivity.
      + intros idx Hidx. change (((l0 :: l1 :: ls) ++ [l])) with ((l0 :: l1 :: ls) ++ [l]) in Hidx. rewrite map_app in Hidx. cbn [map] in Hidx. apply in_shape_snoc in Hidx.
        destruct Hidx as (a0 & j & -> & Ha & Hj). rewrite outer_snoc by (rewrite (shape_length _ _ Ha); cbn; rewrite map_length; reflexivity).
        inversion Ha as [|i n0 r s Hi Hr]; subst. assert (Hr2 : in_shape (repeat 1 (S m)) r) by (unfold in_shape; rewrite <- E'; exact Hr).
        apply zeros in Hr2. subst r. cbn [repeat app nvalue].
        assert (R1 : removelast (repeat 0 m ++ [j]) = repeat 0 m) by apply removelast_last. rewrite R1.
        assert (R2 : List.last (repeat 0 m ++ [j]) 0 = j) by apply last_last. rewrite R2.
        rewrite repeat_snoc. rewrite Hv; [reflexivity|]. cbn [map]. constructor; auto.
  Qed.
  Lemma merge_bad ls a l x y : ls = x :: y -> y <> [] -> is_outer ls a -> List.length (List.last y []) <> 1 -> merge a l = Raise ValueError.
  Proof.
    intros -> Hy [Hs _] Hb. unfold merge. rewrite Hs. cbn [map]. destruct y as [|l1 y]; [congruence|]. cbn [map].
    assert (E : List.last (List.length l1 :: map (@List.length Q) y) 0 = List.length (List.last (l1 :: y) [])).
    { clear. revert l1. induction y as [|z y IH]; intro l1; auto. change (List.last (List.length l1 :: map (@List.length Q) (z :: y)) 0) with (List.last (List.length z :: map (@List.length Q) y) 0). rewrite IH. reflexivity. }
    rewrite E. destruct (Nat.eqb_spec (List.length (List.last (l1 :: y) [])) 1); [contradiction|reflexivity].
  Qed.
  Lemma ones_dec ls : {ones ls} + {~ ones ls}.
  Proof. apply Forall_dec. intro l. apply Nat.eq_dec. Qed.
  Lemma orthogonal_from ks rs : Forall2 (fun k l => one_kernel k = Ok l) ks rs -> forall ls a, ls <> [] -> is_outer ls a -> ones (removelast (tl ls)) ->
    (ones (removelast (tl (ls ++ rs))) -> exists b, orthogonal ks (Some a) = Ok (Some b) /\ is_outer (ls ++ rs) b) /\
    (~ ones (removelast (tl (ls ++ rs))) -> orthogonal ks (Some a) = Raise ValueError).
  Proof.
    induction 1 as [|k l ks rs Hk _ IH]; intros ls a Hne Ho H1; cbn [Filter.orthogonal].
    - rewrite app_nil_r. split; [intros _; eauto|contradiction].
    - unfold ortho_step. rewrite Hk. cbn [bind].
      assert (Hsplit : exists x y, ls = x :: y) by (destruct ls; [congruence|eauto]). destruct Hsplit as (x & y & ->). cbn [tl] in H1.
      destruct (ones_dec y) as [Hy|Hy].
      + destruct (merge_ok (x :: y) a l ltac:(discriminate) Ho Hy) as (b & -> & Hb). cbn [bind].
        destruct (IH ((x :: y) ++ [l]) b) as [I1 I2]; auto; [discriminate| |].
        * cbn [app tl]. rewrite removelast_last. exact Hy.
        * rewrite <- app_assoc in I1, I2. auto.
      + assert (Hyn : y <> []) by (intros ->; apply Hy; constructor).
        rewrite (merge_bad (x :: y) a l x y eq_refl Hyn Ho).
        * split; [|reflexivity]. intro H. exfalso. apply Hy. cbn [app tl] in H.
          assert (E : removelast (y ++ l :: rs) = y ++ removelast (l :: rs)) by (apply removelast_app; discriminate).
          rewrite E in H. now apply Forall_app in H.
        * intro H. apply Hy. rewrite (app_removelast_last [] Hyn). apply Forall_app. split; auto.
  Qed.
  (** Orthogonal kernels: the product of the 1d kernels for one or two of them; from three on, an
      error unless all those in the middle are of size one. *)
  Theorem C38_orthogonal ks ls : ls <> [] -> Forall2 (fun k l => one_kernel k = Ok l) ks ls ->
    (ones (removelast (tl ls)) -> exists a, orthogonal ks None = Ok (Some a) /\ nshape a = map (@List.length Q) ls /\
       forall idx, in_shape (nshape a) idx -> (nvalue a idx == outer ls idx)%Q) /\
    (~ ones (removelast (tl ls)) -> orthogonal ks None = Raise ValueError).
  Proof.
    intros Hne H. inversion H as [|k l ks' ls' Hk Hr]; subst; [congruence|]. cbn [Filter.orthogonal]. unfold ortho_step. rewrite Hk. cbn [bind].
    destruct (orthogonal_from ks' ls' Hr [l] (of_list l)) as [H1 H2]; [discriminate| |constructor|].
    - split; [reflexivity|]. intros idx Hi. inversion Hi as [|i n r s Hi1 Hi2]; subst. inversion Hi2; subst. cbn. ring.
    - cbn [app] in H1, H2. split; auto. intro Hm. destruct (H1 Hm) as (b & E & S & V). exists b. split; auto. split; auto. now rewrite S.
  Qed.
  (** 1d kernels: explicit values as they are; an integer calls the window function; a fractional size
      calls it with the integer part, between two fill values; an integral float calls it with two
      less than this size, between two fill values. *)
  Theorem C38_one l z q : one_kernel (KVals l) = Ok l /\
    ((0 <= z)%Z -> one_kernel (KSize z) = Ok (window (Z.to_nat z))) /\ ((z < 0)%Z -> one_kernel (KSize z) = Raise ValueError) /\
    ((forall n, List.length (window n) = n) -> (0 <= q)%Q -> let n := Z.to_nat (Z.quot (Qnum q) (Zpos (Qden q))) in
      (~ (exists m, q == inject_Z m)%Q -> one_kernel (KFloat q) = Ok (fill :: window n ++ [fill])) /\
      (forall m : nat, (q == inject_Z (Z.of_nat (m + 2)))%Q -> one_kernel (KFloat q) = Ok (fill :: window m ++ [fill]))).
  Proof.
    split; [reflexivity|]. split; [|split].
    - intro H. cbn. unfold call_window. destruct (Z.ltb_spec z 0); [lia|reflexivity].
    - intro H. cbn. unfold call_window. destruct (Z.ltb_spec z 0); [reflexivity|lia].
    - intros Hw Hq n.
      assert (Core : forall m, map (fun i => if (i =? 0) || (i =? m + 2 - 1) then fill else nth (i - 1) (window m) 0%Q) (seq 0 (m + 2)) = fill :: window m ++ [fill]).
      { intro m. apply nth_ext with (d := 0%Q) (d' := 0%Q).
        - rewrite map_length, seq_length. cbn. rewrite app_length, Hw. cbn. lia.
        - intros i Hi. rewrite map_length, seq_length in Hi. rewrite nth_indep with (d' := (fun i => if (i =? 0) || (i =? m + 2 - 1) then fill else nth (i - 1) (window m) 0%Q) 0) by (rewrite map_length, seq_length; lia).
          rewrite (map_nth (fun i => if (i =? 0) || (i =? m + 2 - 1) then fill else nth (i - 1) (window m) 0%Q)). rewrite seq_nth by lia. rewrite Nat.add_0_l.
          destruct i as [|i]; [reflexivity|]. change (S i =? 0) with false. cbn [orb nth]. replace (S i - 1) with i by lia.
          destruct (Nat.eqb_spec (S i) (m + 2 - 1)) as [E|E].
          + rewrite app_nth2 by (rewrite Hw; lia). rewrite Hw. replace (i - m) with 0 by lia. reflexivity.
          + rewrite app_nth1 by (rewrite Hw; lia). reflexivity. }
      assert (Hz : (0 <= Z.quot (Qnum q) (Z.pos (Qden q)))%Z) by (apply Z.quot_pos; [unfold Qle in Hq; cbn in Hq; lia|lia]).
      split.
      + intro Hni. cbn [Filter.one_kernel]. set (s := Z.quot (Qnum q) (Z.pos (Qden q))) in *.
        destruct (Qeq_bool (inject_Z s) q) eqn:E; [exfalso; apply Hni; exists s; apply Qeq_bool_eq in E; now rewrite E|].
        destruct (Z.ltb_spec (s + 2) 0); [lia|]. unfold call_window. replace (s + 2 - 2)%Z with s by lia. destruct (Z.ltb_spec s 0); [lia|]. cbn [bind].
        rewrite <- Core. unfold n. replace (Z.to_nat (s + 2)) with (Z.to_nat s + 2) by lia. reflexivity.
      + intros m E. cbn [Filter.one_kernel].
        assert (Es : Z.quot (Qnum q) (Z.pos (Qden q)) = Z.of_nat (m + 2)).
        { unfold Qeq in E. cbn in E. rewrite Z.mul_1_r in E. rewrite E. apply Z.quot_mul. discriminate. }
        rewrite Es. assert (Qeq_bool (inject_Z (Z.of_nat (m + 2))) q = true) as -> by (apply Qeq_bool_iff; now rewrite E).
        destruct (Z.ltb_spec (Z.of_nat (m + 2)) 0); [lia|]. unfold call_window. destruct (Z.ltb_spec (Z.of_nat (m + 2) - 2) 0); [lia|]. cbn [bind].
        rewrite Nat2Z.id. replace (Z.to_nat (Z.of_nat (m + 2) - 2)) with m by lia. now rewrite Core.
  Qed.

  (** Kernels are inserted in the dimensions of the data. *)
  Lemma insert_ok k ds : wf k -> NoDup ds -> incl (dims k) ds -> exists b, insert_into ds k = Ok b /\ wf b /\ dims b = ds /\
    (forall d, In d (dims k) -> size b d = size k d) /\ (forall d, In d ds -> ~ In d (dims k) -> size b d = 1) /\ forall env, look b env = look k env.
  Proof.
    intros Hw Hn Hi. unfold insert_into.
    destruct (C23_insert_resize Q k (map Some ds) None (EName "insert") Insert Hw (or_introl eq_refl) (or_introl eq_refl)) as [H _].
    assert (Hs : NoDup (map Some ds)) by (apply FinFun.Injective_map_NoDup; auto; intros x y E; now injection E).
    destruct (H Hs) as (b & E & D & S). destruct (C23_no_element_lost Q k b _ _ _ Hw E) as (W & L & P). exists b. split; auto. split; auto.
    assert (D' : dims b = ds).
    { rewrite D. assert (Hf : flush_left (map Some ds) = None :: map Some ds).
      { unfold flush_left. replace (existsb _ (map Some ds)) with false; auto. clear. induction ds; auto. }
      rewrite Hf. cbn [placed]. assert (U : unnamed (dims k) (map Some ds) = []).
      { assert (U : forall d, In d (unnamed (dims k) (map Some ds)) -> False); [|destruct (unnamed (dims k) (map Some ds)) as [|x l]; auto; destruct (U x); now left].
        intros d Hd. apply in_unnamed in Hd. destruct Hd as [H1 H2]. apply H2. apply in_map. auto. }
      rewrite U. cbn [app]. clear. induction ds as [|d ds IH]; auto. cbn [map placed]. now rewrite IH. }
    split; auto. split; [intros d Hd; apply P; auto|]. split; [|exact L]. intros d H1 H2. rewrite S; auto. now rewrite D'.
  Qed.
  (** The size of a dimension and the positions of an array of given sizes *)
  Definition named_sizes (d : dict k1) (ls : list (list Q)) (ds : list string) : list nat :=
    map (fun x => match dget (combine (dkeys d) ls) x with Some l => List.length l | None => 1 end) ds.
  Lemma pos_combine {A} (ks : list string) (ls : list A) (f : A -> nat) x : List.length ks = List.length ls ->
    pos ks (map f ls) x = match dget (combine ks ls) x with Some l => f l | None => 0 end.
  Proof.
    unfold pos. revert ls. induction ks as [|k ks IH]; intros [|l ls] H; try discriminate; auto. cbn [combine map dget].
    cbn in H. destruct (String.eqb x k); auto.
  Qed.

  Lemma generate_dict d ls : d <> [] -> NoDup (dkeys d) -> Forall2 (fun kv l => one_kernel (snd kv) = Ok l) d ls ->
    (ones (removelast (tl ls)) -> exists k0, from_dict window fill d = Ok k0 /\ wf k0 /\ dims k0 = dkeys d /\
       (forall x, size k0 x = match dget (combine (dkeys d) ls) x with Some l => List.length l | None => 0 end) /\
       (forall env, (forall x, In x (dkeys d) -> env x < size k0 x) -> (look k0 env == outer ls (map env (dkeys d)))%Q)) /\
    (~ ones (removelast (tl ls)) -> from_dict window fill d = Raise ValueError).
  Proof.
    intros Hd Hk HF. assert (HF' : Forall2 (fun k l => one_kernel k = Ok l) (map snd d) ls).
    { clear - HF. induction HF; cbn; constructor; auto. }
    assert (Hl : ls <> []) by (inversion HF; subst; [congruence|discriminate]).
    assert (HL : List.length (dkeys d) = List.length ls) by (unfold dkeys; rewrite map_length; clear - HF; induction HF; cbn; auto).
    destruct (C38_orthogonal _ _ Hl HF') as [H1 H2]. unfold from_dict. split; intro H.
    - destruct (H1 H) as (a & -> & S & V). cbn [bind]. unfold label. rewrite S, map_length, HL, Nat.eqb_refl, (proj2 (nodupb_ok _) Hk). cbn [andb].
      eexists. split; [reflexivity|]. split; [split; cbn [dims shape]; [now rewrite map_length|auto]|]. split; [reflexivity|].
      assert (Sz : forall x, size (mkda (dkeys d) (map (List.length (A:=Q)) ls) (nvalue a)) x = match dget (combine (dkeys d) ls) x with Some l => List.length l | None => 0 end)
        by (intro x; unfold size; cbn [dims shape]; now apply pos_combine).
      split; [exact Sz|]. intros env He. unfold look. cbn [dims value]. apply V. rewrite S. unfold in_shape.
      assert (X : forall ks l, List.length ks = List.length l -> NoDup ks -> (forall x, In x ks -> env x < match dget (combine ks l) x with Some l => List.length l | None => 0 end) -> Forall2 lt (map env ks) (map (List.length (A:=Q)) l)).
      { clear. induction ks as [|k ks IH]; intros [|l ls] HL Hn He; try discriminate; cbn [map]; [constructor|]. inversion Hn; subst. constructor.
        - specialize (He k (or_introl eq_refl)). cbn [combine dget] in He. now rewrite String.eqb_refl in He.
        - apply IH; auto. intros x Hx. specialize (He x (or_intror Hx)). cbn [combine dget] in He. destruct (String.eqb_spec x k); [subst; contradiction|exact He]. }
      apply X; auto. intros x Hx. rewrite <- Sz. auto.
    - now rewrite (H2 H).
  Qed.
  (** generate_kernel of a dictionary: the data dimensions in their order, the size of each 1d kernel on its
      dimension and one elsewhere, the product of the 1d kernels; an error for three kernels or more
      unless those in the middle are of size one. *)
  Theorem C38_generate d ls ds : d <> [] -> NoDup (dkeys d) -> NoDup ds -> incl (dkeys d) ds ->
    Forall2 (fun kv l => one_kernel (snd kv) = Ok l) d ls ->
    (ones (removelast (tl ls)) -> exists k, generate_kernel true (KDict d) ds = Ok k /\ dims k = ds /\
       (forall x, In x ds -> size k x = match dget (combine (dkeys d) ls) x with Some l => List.length l | None => 1 end) /\
       forall env, (forall x, In x ds -> env x < size k x) -> (look k env == outer ls (map env (dkeys d)))%Q) /\
    (~ ones (removelast (tl ls)) -> generate_kernel true (KDict d) ds = Raise ValueError).
  Proof.
    intros Hd Hk Hn Hi HF. destruct (generate_dict d ls Hd Hk HF) as [H1 H2]. unfold Filter.generate_kernel. split; intro H.
    - destruct (H1 H) as (k0 & -> & W & D & S & V). cbn [bind]. destruct (insert_ok k0 ds W Hn) as (b & -> & Wb & Db & Sb & S1 & L); [now rewrite D|].
      cbn [bind astype]. exists b. split; auto. split; auto.
      assert (HL : List.length (dkeys d) = List.length ls) by (unfold dkeys; rewrite map_length; clear - HF; induction HF; cbn; auto).
      assert (G : forall x, (exists l, dget (combine (dkeys d) ls) x = Some l) <-> In x (dkeys d)).
      { intro x. clear - HL. revert ls HL. induction (dkeys d) as [|k ks IH]; intros [|l ls] HL; try discriminate; cbn [combine dget]; [split; [intros (? & ?); discriminate|intros []]|].
        destruct (String.eqb_spec x k); [subst; split; [now left|eauto]|]. rewrite IH by (cbn in HL; lia). split; [now right|]. intros [E|E]; [congruence|auto]. }
      assert (SS : forall x, In x ds -> size b x = match dget (combine (dkeys d) ls) x with Some l => List.length l | None => 1 end).
      { intros x Hx. destruct (in_dec string_dec x (dkeys d)) as [Hxd|Hxd].
        - rewrite Sb by now rewrite D. rewrite S. destruct (proj2 (G x) Hxd) as [l ->]. reflexivity.
        - rewrite S1; auto; [|now rewrite D]. destruct (dget (combine (dkeys d) ls) x) as [l|] eqn:E; auto. exfalso. apply Hxd, G. eauto. }
      split; auto. intros env He. rewrite L. apply V. intros x Hx. rewrite <- Sb by now rewrite D. apply He. auto.
    - now rewrite (H2 H).
  Qed.
  (** Integers, tuples and lists are dictionaries: a tuple is for the last dimensions. *)
  Theorem C38_specs float z l vals ds : (ds <> [] -> generate_kernel float (KInt z) ds = generate_kernel float (KDict (map (fun d => (d, KSize z)) ds)) ds) /\
    (l <> [] -> List.length l <= List.length ds ->
       generate_kernel float (KTuple l) ds = generate_kernel float (KDict (combine (skipn (List.length ds - List.length l) ds) l)) ds) /\
    (List.length ds < List.length l -> generate_kernel float (KTuple l) ds = Raise XoaError) /\
    generate_kernel float (KList vals) ds = generate_kernel float (KDict (map (fun d => (d, KVals vals)) ds)) ds.
  Proof.
    unfold Filter.generate_kernel, last_dims. split; [|split; [|split]].
    - intro H. rewrite repeat_length, Nat.ltb_irrefl, Nat.sub_diag. cbn [skipn].
      replace (combine (if List.length ds =? 0 then ds else ds) (repeat (KSize z) (List.length ds))) with (map (fun d => (d, KSize z)) ds); auto.
      destruct (List.length ds =? 0); clear H; (induction ds as [|d ds IH]; [reflexivity|]; cbn [map List.length repeat combine]; now rewrite IH).
    - intros H1 H2. destruct (Nat.ltb_spec (List.length ds) (List.length l)); [lia|]. destruct l as [|x l]; [congruence|]. reflexivity.
    - intro H. destruct (Nat.ltb_spec (List.length ds) (List.length l)); [reflexivity|lia].
    - reflexivity.
  Qed.
  (** So an integer or a list is refused for data of three dimensions or more. *)
  Theorem C38_three_dims_refuted ds z vals : NoDup ds -> 3 <= List.length ds -> (forall n, List.length (window n) = n) ->
    ((0 <= z)%Z -> z <> 1%Z -> generate_kernel true (KInt z) ds = Raise ValueError) /\
    (List.length vals <> 1 -> generate_kernel true (KList vals) ds = Raise ValueError).
  Proof.
    intros Hn H3 Hw. assert (Core : forall k l, one_kernel k = Ok l -> List.length l <> 1 -> generate_kernel true (KDict (map (fun d => (d, k)) ds)) ds = Raise ValueError).
    { intros k l Hk Hl. assert (DK : dkeys (map (fun d => (d, k)) ds) = ds) by (unfold dkeys; rewrite map_map; apply map_id).
      apply (C38_generate (map (fun d => (d, k)) ds) (repeat l (List.length ds)) ds).
      - destruct ds; [cbn in H3; lia|discriminate].
      - now rewrite DK.
      - auto.
      - rewrite DK. apply incl_refl.
      - clear - Hk. induction ds; cbn; constructor; auto.
      - destruct ds as [|d1 [|d2 [|d3 ds]]]; cbn in H3; try lia. cbn [List.length repeat tl]. intro X. inversion X. contradiction. }
    split.
    - intros Hz Hz1. destruct (C38_specs true z [] [] ds) as [-> _]; [|destruct ds; [cbn in H3; lia|discriminate]]. apply (Core _ (window (Z.to_nat z))).
      + destruct (C38_one [] z 0) as (_ & X & _). auto.
      + rewrite Hw. lia.
    - intro Hv. destruct (C38_specs true 0 [] vals ds) as (_ & _ & _ & ->). now apply (Core _ vals).
  Qed.
  (** Ready kernels: inserted in the dimensions of the data; refused with a foreign dimension. *)
  Theorem C38_ready k ds : wf k -> NoDup ds ->
    (incl (dims k) ds -> exists b, generate_kernel true (KDa k) ds = Ok b /\ dims b = ds /\ (forall d, In d (dims k) -> size b d = size k d) /\
       (forall d, In d ds -> ~ In d (dims k) -> size b d = 1) /\ forall env, look b env = look k env) /\
    (~ incl (dims k) ds -> generate_kernel true (KDa k) ds = Raise XoaError).
  Proof.
    intros Hw Hn. unfold Filter.generate_kernel. split; intro H.
    - rewrite (proj2 (forallb_incl (dims k) ds) H). cbn [bind]. destruct (insert_ok k ds Hw Hn H) as (b & -> & W & X). cbn [bind astype]. eauto.
    - destruct (forallb (fun d => mem d ds) (dims k)) eqn:E; [|reflexivity]. exfalso. apply H. now apply forallb_incl.
  Qed.
  (** Numpy arrays are for the last dimensions; with too many dimensions, and for a float alone, the error
      is not the one of the library. *)
  Theorem C38_numpy a ds float q : (nshape a <> [] -> NoDup ds -> List.length (nshape a) <= List.length ds ->
      generate_kernel true (KArray a) ds = generate_kernel true (KDa (mkda (skipn (List.length ds - List.length (nshape a)) ds) (nshape a) (nvalue a))) ds) /\
    (List.length ds < List.length (nshape a) -> generate_kernel float (KArray a) ds = Raise AttributeError) /\
    generate_kernel float (KScalar q) ds = Raise UnboundLocalError.
  Proof.
    unfold Filter.generate_kernel, last_dims, label. split; [|split; [|reflexivity]].
    - intros H0 Hn H. destruct (Nat.ltb_spec (List.length ds) (List.length (nshape a))); [lia|].
      destruct (nshape a) as [|n s] eqn:E; [congruence|]. cbn [List.length Nat.eqb]. rewrite skipn_length.
      replace (List.length ds - (List.length ds - S (List.length s))) with (S (List.length s)) by (cbn in H; lia). rewrite Nat.eqb_refl.
      assert (Hsk : forall m (l : list string), NoDup l -> NoDup (skipn m l)).
      { induction m as [|m IH]; intros [|x l] Hl; auto. cbn [skipn]. inversion Hl; auto. }
      rewrite (proj2 (nodupb_ok _) (Hsk _ _ Hn)). cbn [andb dims bind]. rewrite (proj2 (forallb_incl _ ds)); [reflexivity|].
      intros x Hx. rewrite <- (firstn_skipn (List.length ds - S (List.length s)) ds). apply in_or_app. auto.
    - intro H. destruct (Nat.ltb_spec (List.length ds) (List.length (nshape a))); [reflexivity|lia].
  Qed.
  (** A numpy array without dimension is refused. *)
  Theorem C38_numpy_scalar a ds float : nshape a = [] -> ds <> [] -> generate_kernel float (KArray a) ds = Raise ValueError.
  Proof.
    intros H Hd. unfold Filter.generate_kernel, last_dims, label. rewrite H. cbn. destruct ds; [congruence|reflexivity].
  Qed.
End windows.

(** Shapiro kernel: three points on each dimension, the number of centred coordinates, symmetric *)
Lemma shapiro_value ds idx : in_shape (repeat 3 (List.length ds)) idx -> (value (shapiro_kernel ds) idx == inject_Z (Z.of_nat (count_ones idx)))%Q.
Proof.
  cbn [value shapiro_kernel]. unfold in_shape, count_ones. generalize (List.length ds). intro n. revert idx. induction n as [|n IH]; intros idx H; inversion H as [|i m r s Hi Hr]; subst; cbn [map List.filter]; [reflexivity|].
  rewrite qsum_cons, IH by exact Hr. assert (E : forall c a b : nat, c + a = b -> (inject_Z (Z.of_nat c) + inject_Z (Z.of_nat a) == inject_Z (Z.of_nat b))%Q).
  { intros c a b <-. rewrite Nat2Z.inj_add, inject_Z_plus. reflexivity. }
  apply E. destruct i as [|[|[|i]]]; [| | |lia]; reflexivity.
Qed.
Lemma mirror_in s idx : in_shape s idx -> in_shape s (mirror s idx).
Proof. unfold in_shape. induction 1 as [|i n r s' Hi Hr IH]; cbn; constructor; auto. lia. Qed.
Theorem C38_shapiro ds : dims (shapiro_kernel ds) = ds /\ shape (shapiro_kernel ds) = repeat 3 (List.length ds) /\
  forall idx, in_shape (shape (shapiro_kernel ds)) idx ->
    (value (shapiro_kernel ds) idx == inject_Z (Z.of_nat (count_ones idx)))%Q /\
    (value (shapiro_kernel ds) (mirror (shape (shapiro_kernel ds)) idx) == value (shapiro_kernel ds) idx)%Q.
Proof.
  split; [reflexivity|]. split; [reflexivity|]. intros idx H. change (shape (shapiro_kernel ds)) with (repeat 3 (List.length ds)) in *. split; [now apply shapiro_value|].
  rewrite !shapiro_value by auto using mirror_in. assert (E : count_ones (mirror (repeat 3 (List.length ds)) idx) = count_ones idx); [|now rewrite E].
  unfold in_shape, count_ones in *. revert H. generalize (List.length ds). intro n. revert idx. induction n as [|n IH]; intros idx H; inversion H as [|i m r s Hi Hr]; subst; auto.
  cbn [repeat mirror List.filter]. destruct i as [|[|[|i]]]; [| | |lia]; cbn [Nat.eqb Nat.sub List.length]; now rewrite IH.
Qed.
(** Isotropic kernels: symmetric; the fill value outside of the ellipsoid, the window at the distance to the centre inside;
    not a number as soon as the kernel is of size one on some dimension. *)
Lemma iso_mirror w i : 2 <= w -> i < w -> (iso_coord w (w - 1 - i) == - iso_coord w i)%Q.
Proof.
  intros Hw Hi. unfold iso_coord. replace (Z.of_nat (w - 1 - i)) with (Z.of_nat (w - 1) + - Z.of_nat i)%Z by lia. rewrite inject_Z_plus, inject_Z_opp.
  assert (~ inject_Z (Z.of_nat (w - 1)) == 0)%Q by (unfold Qeq; cbn; lia). field. auto.
Qed.
(** Specification: squared distance to the centre of the box, each side scaled to length one *)
Definition centred (w i : nat) : Q := (inject_Z (2 * Z.of_nat i - (Z.of_nat w - 1)) / inject_Z (2 * (Z.of_nat w - 1)))%Q.
Definition distance2 (s idx : list nat) : Q := fold_right Qplus 0%Q (map (fun wi => (centred (fst wi) (snd wi) * centred (fst wi) (snd wi))%Q) (combine s idx)).
Lemma iso_coord_centred w i : 2 <= w -> (iso_coord w i == centred w i)%Q.
Proof.
  intro H. unfold iso_coord, centred. replace (Z.of_nat (w - 1)) with (Z.of_nat w - 1)%Z by lia. unfold Z.sub. rewrite ?inject_Z_plus, ?inject_Z_mult, ?inject_Z_opp, ?inject_Z_plus, ?inject_Z_opp.
  assert (~ inject_Z (Z.of_nat w) + inject_Z (- (1)) == 0)%Q by (rewrite <- inject_Z_plus; unfold Qeq; cbn; lia).
  assert (E : (inject_Z (- (1)) == - inject_Z 1)%Q) by reflexivity. change (inject_Z 2) with (2#1)%Q. change (inject_Z 1) with 1%Q in *. rewrite ?E in *. field. auto.
Qed.
Lemma iso_r2_distance s idx : in_shape s idx -> ~ In 1 s -> (iso_r2 s idx == distance2 s idx)%Q.
Proof.
  unfold in_shape, distance2. induction 1 as [|i n r s' Hi Hr IH]; intro H1; [reflexivity|]. cbn [iso_r2 combine map fold_right fst snd].
  assert (n <> 1) by (intro X; apply H1; now left). rewrite IH by (intro X; apply H1; now right). rewrite !iso_coord_centred by lia. reflexivity.
Qed.
Theorem C38_isotropic s window fill idx : in_shape s idx ->
  (In 1 s -> isotropic_kernel s window fill idx = None) /\
  (~ In 1 s ->
    ((distance2 s idx <= 1 # 4)%Q -> exists r2, (r2 == distance2 s idx)%Q /\ isotropic_kernel s window fill idx = Some (window r2)) /\
    ((1 # 4 < distance2 s idx)%Q -> isotropic_kernel s window fill idx = Some fill) /\
    ((forall x y, x == y -> window x == window y)%Q -> eqv (isotropic_kernel s window fill (mirror s idx)) (isotropic_kernel s window fill idx))).
Proof.
  intro H. unfold isotropic_kernel. split.
  - intro H1. replace (existsb (Nat.eqb 1) s) with true; auto. symmetry. apply existsb_exists. exists 1. auto.
  - intro H1. assert (existsb (Nat.eqb 1) s = false) as ->.
    { destruct (existsb (Nat.eqb 1) s) eqn:E; auto. apply existsb_exists in E. destruct E as (x & Hx & E). apply Nat.eqb_eq in E. subst. contradiction. }
    assert (M : (iso_r2 s (mirror s idx) == iso_r2 s idx)%Q).
    { unfold in_shape in H. clear - H H1. induction H as [|i n r s' Hi Hr IH]; [reflexivity|]. cbn [mirror iso_r2]. rewrite IH by (intro X; apply H1; now right).
      rewrite iso_mirror; [ring| |auto]. assert (n <> 1) by (intro X; apply H1; now left). lia. }
    pose proof (iso_r2_distance _ _ H H1) as D.
    split; [|split].
    + intro L. exists (iso_r2 s idx). split; [exact D|]. destruct (qle_cases (iso_r2 s idx) (1 # 4)) as [[-> _]|[_ X]]; [reflexivity|lra].
    + intro L. destruct (qle_cases (iso_r2 s idx) (1 # 4)) as [[_ X]|[-> _]]; [lra|reflexivity].
    + intro Hp. destruct (qle_cases (iso_r2 s idx) (1 # 4)) as [[-> X]|[-> X]]; destruct (qle_cases (iso_r2 s (mirror s idx)) (1 # 4)) as [[-> Y]|[-> Y]]; cbn; try reflexivity; try lra. now apply Hp.
Qed.
Example ex_isotropic : Qeq (distance2 [3; 5] [1; 2]) 0 /\ Qeq (distance2 [3; 5] [0; 0]) (1 # 2) /\
  eqv (isotropic_kernel [3; 5] (fun r => 1 - r)%Q (7 # 1) [1; 1]) (Some (15 # 16)) /\ eqv (isotropic_kernel [3; 5] (fun r => 1 - r)%Q (7 # 1) [0; 0]) (Some (7 # 1)).
Proof. repeat split; reflexivity. Qed.
(** A window given by its values: interpolated, so the same values for the same size, and within their range *)
Lemma interp_eq x x0 f0 x1 f1 l : np_interp x ((x0, f0) :: (x1, f1) :: l) =
  if Qle_bool x x0 then f0 else if Qle_bool x x1 then (f0 + (f1 - f0) / (x1 - x0) * (x - x0))%Q else np_interp x ((x1, f1) :: l).
Proof. reflexivity. Qed.
Lemma interp_bounds l x lo hi : l <> [] -> (forall i, S i < List.length l -> (fst (nth i l (0%Q, 0%Q)) < fst (nth (S i) l (0%Q, 0%Q)))%Q) ->
  (forall p, In p l -> lo <= snd p <= hi)%Q -> (lo <= np_interp x l <= hi)%Q.
Proof.
  induction l as [|[x0 f0] l IH]; intros Hne Hs Hb; [congruence|]. destruct l as [|[x1 f1] l'].
  - exact (Hb (x0, f0) (or_introl eq_refl)).
  - rewrite interp_eq. assert (B0 := Hb (x0, f0) (or_introl eq_refl)). assert (B1 := Hb (x1, f1) (or_intror (or_introl eq_refl))). cbn [snd] in *.
    assert (L := Hs 0 ltac:(cbn; lia)). cbn in L.
    destruct (qle_cases x x0) as [[-> X0]|[-> X0]]; [exact B0|]. set (N := np_interp x ((x1, f1) :: l')) in *. destruct (qle_cases x x1) as [[-> X1]|[-> X1]].
    + set (t := ((x - x0) / (x1 - x0))%Q). assert (T : (0 <= t <= 1)%Q).
      { unfold t. split; [apply Qle_shift_div_l; lra|apply Qle_shift_div_r; lra]. }
      assert (E : (f0 + (f1 - f0) / (x1 - x0) * (x - x0) == f0 * (1 - t) + f1 * t)%Q) by (unfold t; field; lra). rewrite E. split; nra.
    + unfold N. apply IH; [discriminate| |].
      * intros i Hi. apply (Hs (S i)). cbn in *. lia.
      * intros p Hp. apply Hb. now right.
Qed.
Lemma interp_same (f : nat -> Q) : (forall i, f i < f (S i))%Q -> forall w s k, s <= k < s + List.length w ->
  (np_interp (f k) (combine (map f (seq s (List.length w))) w) == nth (k - s) w 0)%Q.
Proof.
  intro Hf. assert (Hm : forall i j, i < j -> (f i < f j)%Q).
  { intros i j H. induction H as [|j H IH]; [auto|]. assert (X := Hf j). lra. }
  induction w as [|v w IH]; intros s k Hk; [cbn in Hk; lia|]. cbn [List.length seq map combine]. destruct w as [|v1 w].
  - cbn [List.length] in Hk. replace (k - s) with 0 by lia. reflexivity.
  - cbn [List.length seq map combine]. rewrite interp_eq. destruct (Nat.eq_dec k s) as [E|E].
    + subst k. destruct (qle_cases (f s) (f s)) as [[-> _]|[_ X]]; [|lra]. replace (s - s) with 0 by lia. reflexivity.
    + destruct (qle_cases (f k) (f s)) as [[_ X]|[-> X]]; [assert (Y := Hm s k ltac:(lia)); lra|].
      destruct (Nat.eq_dec k (S s)) as [E1|E1].
      * subst k. destruct (qle_cases (f (S s)) (f (S s))) as [[-> _]|[_ Y]]; [|lra]. replace (S s - s) with 1 by lia. cbn [nth]. field. lra.
      * destruct (qle_cases (f k) (f (S s))) as [[_ Y]|[-> Y]]; [assert (Z := Hm (S s) k ltac:(lia)); lra|].
        specialize (IH (S s) k ltac:(cbn in *; lia)). cbn [List.length seq map combine] in IH. etransitivity; [exact IH|].
        replace (k - s) with (S (k - S s)) by lia. reflexivity.
Qed.
Lemma linspace_lt n i : 2 <= n -> (inject_Z (Z.of_nat i) / inject_Z (Z.of_nat (n - 1)) < inject_Z (Z.of_nat (S i)) / inject_Z (Z.of_nat (n - 1)))%Q.
Proof.
  intro H. assert (P : (0 < inject_Z (Z.of_nat (n - 1)))%Q) by (unfold Qlt; cbn; lia). unfold Qdiv.
  apply Qmult_lt_r; [now apply Qinv_lt_0_compat|]. rewrite <- Zlt_Qlt. lia.
Qed.
Theorem C38_window w size : w <> [] -> List.length (window_values w size) = size /\
  (forall lo hi, (forall v, In v w -> lo <= v <= hi)%Q -> forall v, In v (window_values w size) -> (lo <= v <= hi)%Q) /\
  (size = List.length w -> Forall2 Qeq (window_values w size) w).
Proof.
  intro Hw. unfold window_values. split; [now rewrite map_length, seq_length|]. split.
  - intros lo hi Hb v Hv. apply in_map_iff in Hv. destruct Hv as (k & <- & _).
    apply interp_bounds.
    + destruct w; [congruence|discriminate].
    + intros i Hi. rewrite combine_length, map_length, seq_length, Nat.min_id in Hi.
      rewrite !combine_nth by now rewrite map_length, seq_length. cbn [fst].
      assert (N : forall j, j < List.length w -> nth j (map (linspace01 (List.length w)) (seq 0 (List.length w))) 0%Q = linspace01 (List.length w) j).
      { intros j Hj. rewrite nth_indep with (d' := linspace01 (List.length w) 0) by (rewrite map_length, seq_length; lia). rewrite map_nth, seq_nth by auto. reflexivity. }
      rewrite !N by lia. unfold linspace01. destruct (Nat.eqb_spec (List.length w) 1); [lia|]. apply linspace_lt. lia.
    + intros [x f] Hp. apply in_combine_r in Hp. cbn [snd]. auto.
  - intros ->. destruct (Nat.eq_dec (List.length w) 1) as [E|E].
    + destruct w as [|v [|]]; try discriminate. cbn. repeat constructor.
    + set (f := linspace01 (List.length w)).
      assert (Hf : forall i, (f i < f (S i))%Q).
      { intro i. unfold f, linspace01. destruct (Nat.eqb_spec (List.length w) 1); [lia|]. apply linspace_lt. destruct w; cbn in *; [congruence|lia]. }
      assert (I : forall k, k < List.length w -> (np_interp (f k) (combine (map f (seq 0 (List.length w))) w) == nth k w 0)%Q).
      { intros k Hk. rewrite interp_same; [|auto|lia]. now rewrite Nat.sub_0_r. }
      revert I. generalize (combine (map f (seq 0 (List.length w))) w). intros c I. clearbody f. clear E Hw Hf.
      assert (G : forall w' s, (forall k : nat, k < List.length w' -> (np_interp (f (s + k)%nat) c == nth k w' 0)%Q) -> Forall2 Qeq (map (fun k => np_interp (f k) c) (seq s (List.length w'))) w').
      { induction w' as [|v w' IH]; intros s H; cbn; constructor.
        - specialize (H 0 ltac:(cbn; lia)). rewrite Nat.add_0_r in H. exact H.
        - apply IH. intros k Hk. specialize (H (S k) ltac:(cbn; lia)). rewrite Nat.add_succ_r in H. exact H. }
      apply G. intros k Hk. apply I. exact Hk.
Qed.

(** *** Examples *)
Definition ones_window (n : nat) : list Q := repeat 1%Q n.
Example ex_generate : match generate_kernel ones_window 0 true (KDict [("x", KVals [1; 2; 1]); ("y", KSize 3)]%string%Q) ["t"; "y"; "x"]%string with
  | Ok k => dims k = ["t"; "y"; "x"]%string /\ shape k = [1; 3; 3] /\ (value k [0%nat; 2%nat; 1%nat] == 2)%Q | Raise _ => False end.
Proof. vm_compute. auto. Qed.
Example ex_integral_float_refuted : one_kernel ones_window 0 (KFloat 3) = Ok [0; 1; 0]%Q /\ one_kernel ones_window 0 (KSize 3) = Ok [1; 1; 1]%Q.
Proof. vm_compute. auto. Qed.
Example ex_generate_3d_refuted : generate_kernel ones_window 0 true (KInt 3) ["t"; "y"; "x"]%string = Raise ValueError.
Proof. vm_compute. auto. Qed.
Example ex_shapiro : map (value (shapiro_kernel ["y"; "x"]%string)) (indices [3; 3]) = [0; 1; 0; 1; 2; 1; 0; 1; 0]%Q.
Proof. vm_compute. auto. Qed.
