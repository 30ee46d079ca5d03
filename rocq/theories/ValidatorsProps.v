(** C32 and C33: validation of lists and of numbers. *)
From Verif Require Import ValidatorsSpec PyBaseFacts.
From Coq Require Import Lia Lqa.
Open Scope string_scope.

Lemma is_boolean_iff f b : match f with Some v => is_boolean v | None => Ok false end = Ok b <-> flag f b.
Proof.
  assert (E : forall s l, existsb (String.eqb s) l = true <-> In s l).
  { intros s l. rewrite existsb_exists. split; [intros (x & Hx & Ex); apply String.eqb_eq in Ex; now subst|].
    intro H. exists s. split; auto. apply String.eqb_refl. }
  assert (D : forall s, In s ["on"; "1"; "true"; "yes"] -> ~ In s ["off"; "0"; "false"; "no"]).
  { intros s [<-|[<-|[<-|[<-|[]]]]] H; cbn in H; intuition discriminate. }
  unfold flag. destruct f as [[|s|[q|]|b'|l|l|n]|]; cbn [is_boolean]; try (split; [discriminate|tauto]).
  - destruct (existsb (String.eqb (lower s)) ["on"; "1"; "true"; "yes"]) eqn:E1.
    + apply E in E1. destruct b; split; auto; try discriminate. intro H. exfalso. eapply D; eauto.
    + destruct (existsb (String.eqb (lower s)) ["off"; "0"; "false"; "no"]) eqn:E2.
      * apply E in E2. destruct b; split; auto; try discriminate. intro H. exfalso. eapply D; eauto.
      * destruct b; split; try discriminate; intro H; apply E in H; congruence.
  - destruct (Qeq_bool q 0) eqn:E0; [|destruct (Qeq_bool q 1) eqn:E1].
    + apply Qeq_bool_iff in E0. destruct b; split; auto; try discriminate. intro H. exfalso. rewrite E0 in H. discriminate.
    + apply Qeq_bool_iff in E1. destruct b; split; auto; try discriminate. intro H. exfalso. rewrite E1 in H. discriminate.
    + destruct b; split; try discriminate; intro H; apply Qeq_bool_iff in H; congruence.
  - split; [intro H; now injection H|intros ->; auto].
  - split; [intro H; now injection H|intros ->; auto].
Qed.
Lemma even_iff n : Nat.even n = true <-> exists k, n = (2 * k)%nat.
Proof. rewrite Nat.even_spec. unfold Nat.Even. tauto. Qed.
Lemma odd_iff n : Nat.odd n = true <-> exists k, n = (2 * k + 1)%nat.
Proof. rewrite Nat.odd_spec. unfold Nat.Odd. tauto. Qed.
Lemma flag_unique f b b' : flag f b -> flag f b' -> b = b'.
Proof. intros H H'. apply is_boolean_iff in H, H'. congruence. Qed.
Lemma size_ok_iff o n : flags_given o ->
  size_ok o n = Ok tt /\ allowed o n /\ o_shape o = false \/
  size_ok o n = Raise ValidateError /\ allowed o n /\ o_shape o = true \/
  size_ok o n = Raise VdtSizeError /\ ~ allowed o n.
Proof.
  intros [[bo Ho] [be He]]. unfold size_ok, allowed.
  destruct (match o_n o with Some k => negb (Z.of_nat n =? k)%Z | None => false end) eqn:E1.
  { right; right. split; auto. intros (H & _). destruct (o_n o) as [k|]; [|discriminate]. specialize (H k eq_refl).
    apply Bool.negb_true_iff, Z.eqb_neq in E1. contradiction. }
  destruct (match o_nmin o with Some k => (Z.of_nat n <? k)%Z | None => false end) eqn:E2.
  { right; right. split; auto. intros (_ & H & _). destruct (o_nmin o) as [k|]; [|discriminate]. specialize (H k eq_refl).
    apply Z.ltb_lt in E2. lia. }
  destruct (match o_nmax o with Some k => (k <? Z.of_nat n)%Z | None => false end) eqn:E3.
  { right; right. split; auto. intros (_ & _ & H & _). destruct (o_nmax o) as [k|]; [|discriminate]. specialize (H k eq_refl).
    apply Z.ltb_lt in E3. lia. }
  set (FO := match o_odd o with Some v => is_boolean v | None => Ok false end).
  assert (HO : FO = Ok bo) by now apply is_boolean_iff. rewrite HO. cbn [bind].
  destruct (bo && Nat.even n) eqn:E4.
  { right; right. split; auto. intros (_ & _ & _ & H & _). apply andb_prop in E4. destruct E4 as [-> E4]. apply H, odd_iff in Ho.
    rewrite <- Nat.negb_even, E4 in Ho. discriminate. }
  set (FE := match o_even o with Some v => is_boolean v | None => Ok false end).
  assert (HE : FE = Ok be) by now apply is_boolean_iff. rewrite HE. cbn [bind].
  destruct (be && Nat.odd n) eqn:E5.
  { right; right. split; auto. intros (_ & _ & _ & _ & H). apply andb_prop in E5. destruct E5 as [-> E5]. apply H, even_iff in He.
    rewrite <- Nat.negb_even, He in E5. discriminate. }
  assert (HA : (forall k, o_n o = Some k -> Z.of_nat n = k) /\
  (forall k, o_nmin o = Some k -> (k <= Z.of_nat n)%Z) /\
  (forall k, o_nmax o = Some k -> (Z.of_nat n <= k)%Z) /\
  (flag (o_odd o) true -> exists k, n = (2 * k + 1)%nat) /\
  (flag (o_even o) true -> exists k, n = (2 * k)%nat)).
  { split; [|split; [|split; [|split]]].
    - intros k E. rewrite E in E1. apply Bool.negb_false_iff, Z.eqb_eq in E1. auto.
    - intros k E. rewrite E in E2. apply Z.ltb_ge in E2. auto.
    - intros k E. rewrite E in E3. apply Z.ltb_ge in E3. auto.
    - intro H. assert (bo = true) by (eapply flag_unique; eauto). subst bo. apply odd_iff. rewrite <- Nat.negb_even. cbn in E4. now rewrite E4.
    - intro H. assert (be = true) by (eapply flag_unique; eauto). subst be. apply even_iff. rewrite <- Nat.negb_odd. cbn in E5. now rewrite E5. }
  destruct (o_shape o); auto.
Qed.
Lemma map_res_ok {A B} (f : A -> res B) l m : map_res f l = Ok m <-> Forall2 (fun x y => f x = Ok y) l m.
Proof.
  revert m; induction l as [|x l IH]; intro m; cbn [map_res].
  - split; [intro H; injection H as <-; constructor|]. inversion 1; auto.
  - destruct (f x) as [y|e] eqn:E; cbn [bind].
    + destruct (map_res f l) as [r|e] eqn:E'; cbn [bind].
      * split.
        -- intro H. injection H as <-. constructor; auto. now apply IH.
        -- inversion 1 as [|? ? ? ? H1 H2]; subst. apply IH in H2. congruence.
      * split; [discriminate|]. inversion 1 as [|? ? ? ? H1 H2]; subst. apply IH in H2. discriminate.
    + split; [discriminate|]. inversion 1; congruence.
Qed.
Lemma map_res_raise {A B} (f : A -> res B) l b x e af : l = (b ++ x :: af)%list -> f x = Raise e ->
  (forall y, In y b -> exists z, f y = Ok z) -> map_res f l = Raise e.
Proof.
  intros -> Hx. induction b as [|y b IH]; intro H; cbn [app map_res]; [now rewrite Hx|].
  destruct (H y (or_introl eq_refl)) as [z ->]. cbn [bind]. rewrite IH; auto. intros; apply H; now right.
Qed.
Lemma list_validator_eq validator args kw o v : ~ none_like v ->
  list_validator validator args kw o v =
  let w := effective args kw v in
  let* _ := size_ok o (List.length (elements w)) in
  let* out := map_res validator (elements w) in Ok (rebuilt w out).
Proof.
  intro N. unfold list_validator. assert (prints_none v = false) as ->.
  { destruct v; auto; cbn. - exfalso. apply N. now left. - destruct (String.eqb_spec s "None"); auto. exfalso. apply N. right. now subst. }
  set (d := match args with a :: _ => a | [] => match kw with Some d => d | None => YTuple [] end end).
  assert (E : match v with YStr "" => d | _ => v end = effective args kw v).
  { unfold effective, d. destruct v as [|[|c s]| | | | | ]; auto; destruct args, kw; reflexivity. }
  cbn zeta. rewrite E. generalize (effective args kw v) as w. intro w.
  destruct w; reflexivity.
Qed.

(** None is not a list. *)
Theorem C32_none validator args kw o v : none_like v -> list_validator validator args kw o v = Ok YNone.
Proof. unfold list_validator. intros [->| ->]; reflexivity. Qed.
(** What is accepted: the right number of elements, validated one by one, in order. *)
Theorem C32_accepts validator args kw o v out : ~ none_like v -> flags_given o ->
  let w := effective args kw v in
  list_validator validator args kw o v = Ok out <->
  allowed o (List.length (elements w)) /\ o_shape o = false /\
  exists l, Forall2 (fun x y => validator x = Ok y) (elements w) l /\ out = rebuilt w l.
Proof.
  intros N F. cbn zeta. rewrite list_validator_eq by auto. cbn zeta.
  destruct (size_ok_iff o (List.length (elements (effective args kw v))) F) as [(E & A & S)|[(E & A & S)|(E & A)]]; rewrite E; cbn [bind].
  - destruct (map_res validator _) as [l|e] eqn:M; cbn [bind].
    + split.
      * intro H. injection H as <-. split; auto. split; auto. exists l. split; auto. now apply map_res_ok.
      * intros (_ & _ & l' & Hl & ->). apply map_res_ok in Hl. congruence.
    + split; [discriminate|]. intros (_ & _ & l' & Hl & ->). apply map_res_ok in Hl. congruence.
  - split; [discriminate|]. intros (_ & X & _). congruence.
  - split; [discriminate|]. tauto.
Qed.
(** Wrong number of elements *)
Theorem C32_size validator args kw o v : ~ none_like v -> flags_given o ->
  ~ allowed o (List.length (elements (effective args kw v))) ->
  list_validator validator args kw o v = Raise VdtSizeError.
Proof.
  intros N F A. rewrite list_validator_eq by auto. cbn zeta.
  destruct (size_ok_iff o (List.length (elements (effective args kw v))) F) as [(E & A' & S)|[(E & A' & S)|(E & A')]]; try contradiction.
  now rewrite E.
Qed.
(** The error of the first refused element *)
Theorem C32_element validator args kw o v b x af e : ~ none_like v -> flags_given o ->
  allowed o (List.length (elements (effective args kw v))) -> o_shape o = false ->
  elements (effective args kw v) = (b ++ x :: af)%list -> validator x = Raise e ->
  (forall y, In y b -> exists z, validator y = Ok z) ->
  list_validator validator args kw o v = Raise e.
Proof.
  intros N F A S Ee Hx Hb. rewrite list_validator_eq by auto. cbn zeta.
  destruct (size_ok_iff o (List.length (elements (effective args kw v))) F) as [(E & A' & S')|[(E & A' & S')|(E & A')]]; try contradiction; try congruence.
  rewrite E. cbn [bind]. now rewrite (map_res_raise _ _ _ _ _ _ Ee Hx Hb).
Qed.
(** The setting [shape] refuses every value. *)
Theorem C32_shape_refuted validator args kw o v out : ~ none_like v -> flags_given o -> o_shape o = true ->
  list_validator validator args kw o v <> Ok out.
Proof. intros N F S H. apply C32_accepts in H; auto. destruct H as (_ & X & _). congruence. Qed.
(** An empty value takes the first positional argument as its default: for integers(0, 10), that
    is its minimum. *)
Theorem C32_default_refuted : exists o, flags_given o /\
  list_validator (fun v => Ok v) [YNum (Some 0%Q); YNum (Some 10%Q)] None o (YStr "") = Ok (YList [YNum (Some 0%Q)]).
Proof.
  exists (mklopts None None None None None false). split; [|reflexivity]. split; exists false; reflexivity.
Qed.
Example ex_list : let o := mklopts None (Some 2%Z) (Some 5%Z) (Some (YStr "True")) None false in
  flags_given o /\ allowed o 3 /\ ~ allowed o 4 /\
  list_validator (fun v => match v with YStr s => Ok (YStr (lower s)) | _ => Raise VdtTypeError end) [] None o
     (YTuple [YStr "A"; YStr "b"; YStr "C"]) = Ok (YTuple [YStr "a"; YStr "b"; YStr "c"]).
Proof.
  cbn zeta. split; [|split; [|split]]; [split; [exists true; cbn; auto|exists false; reflexivity]| | |reflexivity].
  - unfold allowed. cbn. repeat split; try discriminate; try (intros k H; injection H as <-; lia). exists 1%nat. lia.
  - intros (_ & _ & _ & H & _). destruct H as [k Hk]; [cbn; auto|]. lia.
Qed.

(** ** C33 *)
Section numerics.
  Variables (eval : string -> option yval) (parse : ntype -> string -> option fl) (strip_brackets : string -> string).
  Let numerics := is_numerics eval parse strip_brackets.
  (** The number an element stands for *)
  Definition stands_for (t : ntype) (v : yval) (x : fl) : Prop :=
    match v with YNum y => x = y | YStr s => parse t s = Some x | YBool b => x = Some (if b then 1 else 0)%Q | _ => False end.

  Lemma conv_bound t q : (t = TInt -> integral q) -> exists q', conv t (Some q) = Ok (Some q') /\ q' = q.
  Proof.
    destruct t; cbn; [eauto|]. intro H. destruct (H eq_refl) as [z ->]. eexists. split; [reflexivity|].
    unfold trunc, inject_Z. cbn. now rewrite Z.quot_1_r.
  Qed.
  Lemma one_clamped t lo hi v x : stands_for t v x ->
    (t = TInt -> (forall m, lo = Some m -> integral m) /\ (forall m, hi = Some m -> integral m)) ->
    (forall m M, lo = Some m -> hi = Some M -> (m <= M)%Q) ->
    exists w y, one_numeric parse t (num_bound lo) (num_bound hi) v = Ok w /\ num_of w = Some y /\ clamped lo hi x y.
  Proof.
    intros Hs Hi Hb. unfold one_numeric.
    assert (exists v', match v with YStr s => match parse t s with Some x => Ok (YNum x) | None => Raise VdtTypeError end | _ => Ok v end = Ok v' /\ num_of v' = Some x) as (v' & -> & Hv).
    { destruct v; cbn in *; try tauto; subst; eauto. rewrite Hs. eauto. }
    cbn [bind].
    assert (Hlo : exists w y, clamp_min t (num_bound lo) v' = Ok w /\ num_of w = Some y /\
      match x, y with
      | Some p, Some q => ((forall m, lo = Some m -> m <= p) -> q = p)%Q /\ (forall m, lo = Some m -> (m <= q)%Q) /\ (q = p \/ lo = Some q)
      | None, None => True | _, _ => False end).
    { destruct lo as [m|]; cbn [num_bound clamp_min].
      - rewrite Hv. cbn [num_of]. destruct x as [p|]; cbn [fltb]; unfold Qltb.
        + destruct (Qle_bool m p) eqn:E; cbn [negb].
          * apply Qle_bool_iff in E. exists v', (Some p). rewrite Hv. split; [auto|]. split; [auto|]. split; [auto|]. split; [|auto]. intros m' X. injection X as <-. auto.
          * assert (L : (p < m)%Q) by (apply Qnot_le_lt; intro X; apply Qle_bool_iff in X; congruence).
            destruct (conv_bound t m) as (q' & -> & ->). { intro X. now apply (proj1 (Hi X)). }
            cbn [bind]. exists (YNum (Some m)), (Some m). split; [reflexivity|]. split; [reflexivity|]. split.
            -- intro X. specialize (X m eq_refl). lra.
            -- split; auto. intros m' X. injection X as <-. lra.
        + exists v', None. auto.
      - exists v', x. split; auto. split; auto. destruct x; auto. repeat split; auto. discriminate. }
    destruct Hlo as (w & y & -> & Hw & Hy). cbn [bind].
    destruct hi as [M|]; cbn [num_bound clamp_max].
    - rewrite Hw. cbn [num_of]. destruct y as [q|]; cbn [fltb]; unfold Qltb.
      + destruct x as [p|]; [|tauto]. destruct Hy as (H1 & H2 & H3). destruct (Qle_bool q M) eqn:E; cbn [negb].
        * apply Qle_bool_iff in E. exists w, (Some q). split; auto. split; auto. cbn. repeat split; auto.
          -- intros m X. now injection X as <-.
          -- tauto.
        * assert (L : (M < q)%Q) by (apply Qnot_le_lt; intro X; apply Qle_bool_iff in X; congruence).
          destruct (conv_bound t M) as (q' & -> & ->). { intro X. now apply (proj2 (Hi X)). }
          cbn [bind]. exists (YNum (Some M)), (Some M). split; [reflexivity|]. split; [reflexivity|]. cbn. split; [|split; [|split]].
          -- intros X Y. specialize (Y M eq_refl). rewrite (H1 X) in L. lra.
          -- intros m X. eapply Hb; eauto.
          -- intros m X. injection X as <-. lra.
          -- auto.
      + destruct x as [p|]; [tauto|]. exists w, None. auto.
    - exists w, y. split; auto. split; auto. destruct x as [p|], y as [q|]; cbn; auto. destruct Hy as (H1 & H2 & H3).
      repeat split; auto; try discriminate. tauto.
  Qed.
  (** is_numerics on a list or tuple of numbers: each one is brought back within the bounds. *)
  Theorem C33_numerics t lo hi l xs n : 
    (t = TInt -> (forall m, lo = Some m -> integral m) /\ (forall m, hi = Some m -> integral m)) ->
    (forall m M, lo = Some m -> hi = Some M -> (m <= M)%Q) ->
    Forall2 (stands_for t) l xs -> (forall k, n = Some k -> Z.of_nat (List.length l) = k) ->
    exists out ys, numerics (num_bound lo) (num_bound hi) t n (YList l) = Ok (YTuple out) /\
      numerics (num_bound lo) (num_bound hi) t n (YTuple l) = Ok (YTuple out) /\
      map num_of out = map Some ys /\ Forall2 (clamped lo hi) xs ys.
  Proof.
    intros Hi Hb HF Hn. assert (exists out ys, map_res (one_numeric parse t (num_bound lo) (num_bound hi)) l = Ok out /\
       map num_of out = map Some ys /\ Forall2 (clamped lo hi) xs ys) as (out & ys & E & H1 & H2).
    { clear Hn. induction HF as [|v x l xs Hv HF IH]; cbn [map_res].
      - exists [], []. auto.
      - destruct (one_clamped t lo hi v x Hv Hi Hb) as (w & y & -> & Hw & Hy). cbn [bind].
        destruct IH as (out & ys & -> & H1 & H2). cbn [bind]. exists (w :: out), (y :: ys). split; auto. split; [cbn; congruence|now constructor]. }
    exists out, ys. assert (Bb : forall b, bound parse t (num_bound b) = Ok (num_bound b)) by (intros [b|]; reflexivity).
    assert (Nn : match n with Some k => negb (Z.of_nat (List.length l) =? k)%Z | None => false end = false).
    { destruct n as [k|]; auto. rewrite (Hn k eq_refl), Z.eqb_refl. reflexivity. }
    unfold numerics, is_numerics. cbn [prints_none to_tuple bind]. rewrite Nn, !Bb. cbn [bind]. rewrite E. cbn [bind]. auto.
  Qed.
  (** Wrong number of values *)
  Theorem C33_count t mn mx l k : Z.of_nat (List.length l) <> k ->
    numerics mn mx t (Some k) (YList l) = Raise VdtTypeError /\ numerics mn mx t (Some k) (YTuple l) = Raise VdtTypeError.
  Proof.
    intro H. unfold numerics, is_numerics. cbn [prints_none to_tuple bind]. apply Z.eqb_neq in H. rewrite H. auto.
  Qed.
  Lemma numerics_none mn mx t n : numerics mn mx t n YNone = Ok YNone.
  Proof. reflexivity. Qed.
  (** is_minmax does not change the order of its two values. *)
  Theorem C33_minmax lo hi t p q : (forall m M, lo = Some m -> hi = Some M -> (m <= M)%Q) ->
    (t = TInt -> (forall m, lo = Some m -> integral m) /\ (forall m, hi = Some m -> integral m)) ->
    exists a b, is_minmax eval parse strip_brackets (num_bound lo) (num_bound hi) t (YTuple [YNum (Some p); YNum (Some q)]) = Ok (YTuple [YNum (Some a); YNum (Some b)]) /\
      clamped lo hi (Some p) (Some a) /\ clamped lo hi (Some q) (Some b).
  Proof.
    intros Hb Hi. destruct (C33_numerics t lo hi [YNum (Some p); YNum (Some q)] [Some p; Some q] (Some 2%Z) Hi Hb) as (out & ys & _ & E & H1 & H2).
    - repeat constructor.
    - intros k X. now injection X as <-.
    - inversion H2 as [|? y1 ? ys1 Hy1 H2']; subst. inversion H2' as [|? y2 ? ys2 Hy2 H2'']; subst. inversion H2''; subst.
      destruct y1 as [a|]; [|destruct Hy1]. destruct y2 as [b|]; [|destruct Hy2].
      destruct out as [|v1 [|v2 [|v3 out]]]; try discriminate. cbn in H1. injection H1 as E1 E2.
      unfold is_minmax. fold numerics. rewrite E. cbn [bind forallb]. rewrite E1, E2. cbn.
      assert (forall v r, num_of v = Some (Some r) -> In v [v1; v2] -> v = YNum (Some r)) as Hnum.
      { intros v r Ev Hin. unfold numerics, is_numerics in E. cbn [prints_none to_tuple bind List.length] in E.
        cbn -[one_numeric bound] in E. destruct (bound parse t (num_bound lo)) as [bl|] eqn:B1; cbn [bind] in E; [|discriminate].
        destruct (bound parse t (num_bound hi)) as [bh|] eqn:B2; cbn [bind] in E; [|discriminate].
        assert (Hone : forall z w, one_numeric parse t bl bh (YNum z) = Ok w -> exists z', w = YNum z').
        { intros z w. unfold one_numeric. cbn [bind]. unfold clamp_min, clamp_max.
          destruct bl as [m|]; cbn [num_of bind].
          - destruct (num_of m); [|discriminate]. destruct (fltb z f); cbn [bind].
            + destruct (conv t f); cbn [bind]; [|discriminate]. destruct bh as [M|]; cbn [num_of]; [|intro X; injection X as <-; eauto].
              destruct (num_of M); [|discriminate]. destruct (fltb f0 a0); [destruct (conv t f0); cbn; [|discriminate]|]; intro X; injection X as <-; eauto.
            + destruct bh as [M|]; cbn [num_of]; [|intro X; injection X as <-; eauto].
              destruct (num_of M); [|discriminate]. destruct (fltb f0 z); [destruct (conv t f0); cbn; [|discriminate]|]; intro X; injection X as <-; eauto.
          - destruct bh as [M|]; cbn [num_of]; [|intro X; injection X as <-; eauto].
            destruct (num_of M); [|discriminate]. destruct (fltb f z); [destruct (conv t f); cbn; [|discriminate]|]; intro X; injection X as <-; eauto. }
        destruct (one_numeric parse t bl bh (YNum (Some p))) as [w1|] eqn:O1; cbn [bind] in E; [|discriminate].
        destruct (one_numeric parse t bl bh (YNum (Some q))) as [w2|] eqn:O2; cbn [bind] in E; [|discriminate].
        injection E as -> ->. destruct (Hone _ _ O1) as [z1 ->], (Hone _ _ O2) as [z2 ->].
        destruct Hin as [<-|[<-|[]]]; cbn in Ev; congruence. }
      rewrite (Hnum v1 a E1), (Hnum v2 b E2) by (simpl; auto). exists a, b. auto.
  Qed.
  (** A text, once its brackets are removed: a tuple, a list or a number as they are evaluated; a
      text that evaluates to a text is taken as its characters; else a validation error. *)
  Theorem C33_text mn mx t n s : strip_brackets s <> "None" ->
    numerics mn mx t n (YStr s) =
    match eval (strip_brackets s) with
    | None => Raise VdtTypeError
    | Some (YTuple l) | Some (YList l) => numerics mn mx t n (YTuple l)
    | Some (YStr s') => numerics mn mx t n (YTuple (map (fun c => YStr (String c "")) (list_ascii_of_string s')))
    | Some v => numerics mn mx t n (YTuple [v])
    end.
  Proof.
    intro H. unfold numerics, is_numerics. cbn [prints_none]. destruct (String.eqb_spec (strip_brackets s) "None"); [congruence|].
    cbn [to_tuple]. destruct (eval (strip_brackets s)) as [v|]; [|reflexivity]. destruct v as [|s'| | | | |]; try reflexivity.
    cbn [bind]. replace (str_items s') with (map (fun c => YStr (String c "")) (list_ascii_of_string s')); [reflexivity|].
    induction s' as [|c s' IH]; cbn; [reflexivity|]. now rewrite IH.
  Qed.
  (** An item, or a bound, that is neither a text nor a number is a TypeError, which is not a
      validation error either, unless there is no bound. *)
  Theorem C33_not_number t n v : num_of v = None -> (forall s, v <> YStr s) -> (forall k, n = Some k -> k = 1%Z) ->
    numerics None None t n (YTuple [v]) = Ok (YTuple [v]) /\
    (forall m hi, numerics (Some (YNum m)) (num_bound hi) t n (YTuple [v]) = Raise TypeError) /\
    (forall m, numerics None (Some (YNum m)) t n (YTuple [v]) = Raise TypeError) /\
    (v <> YNone -> forall x, numerics None (Some v) t n (YTuple [YNum x]) = Raise TypeError /\
       forall b, numerics (Some v) (num_bound b) t n (YTuple [YNum x]) = Raise TypeError).
  Proof.
    intros Hv Hs Hn. assert (Nn : match n with Some k => negb (1 =? k)%Z | None => false end = false).
    { destruct n as [k|]; auto. rewrite (Hn k eq_refl). reflexivity. }
    assert (Bv : v <> YNone -> bound parse t (Some v) = Ok (Some v)).
    { intro H. destruct v; try reflexivity; [contradiction|]. exfalso. now apply (Hs s). }
    assert (Lv : match v with YStr s => match parse t s with Some x => Ok (YNum x) | None => Raise VdtTypeError end | _ => Ok v end = Ok v).
    { destruct v; try reflexivity. exfalso. now apply (Hs s). }
    assert (Bb : forall b, bound parse t (num_bound b) = Ok (num_bound b)) by (intros [b|]; reflexivity).
    unfold numerics, is_numerics. cbn [prints_none to_tuple bind List.length]. change (Z.of_nat 1) with 1%Z. rewrite Nn.
    split; [|split; [|split]].
    - cbn [bound bind map_res]. unfold one_numeric. rewrite Lv. reflexivity.
    - intros m hi. rewrite Bb. cbn [bound bind map_res]. unfold one_numeric. rewrite Lv. cbn [bind clamp_min]. rewrite Hv. reflexivity.
    - intros m. cbn [bound bind map_res]. unfold one_numeric. rewrite Lv. cbn [bind clamp_min clamp_max]. rewrite Hv. reflexivity.
    - intros Nv x. rewrite (Bv Nv). split.
      + cbn [bound bind map_res]. unfold one_numeric. cbn [bind clamp_min clamp_max num_of]. rewrite Hv. reflexivity.
      + intro b. rewrite Bb. cbn [bind map_res]. unfold one_numeric. cbn [bind clamp_min num_of]. rewrite Hv. reflexivity.
  Qed.
  (** A bound that can not be read is a ValueError, which is not a validation error. *)
  Theorem C33_bad_bound t n l s b : parse t s = None -> (forall k, n = Some k -> Z.of_nat (List.length l) = k) ->
    numerics (Some (YStr s)) b t n (YTuple l) = Raise ValueError /\
    (b = None \/ (exists q, b = Some (YNum q)) -> numerics b (Some (YStr s)) t n (YTuple l) = Raise ValueError).
  Proof.
    intros H Hn. assert (Nn : match n with Some k => negb (Z.of_nat (List.length l) =? k)%Z | None => false end = false).
    { destruct n as [k|]; auto. rewrite (Hn k eq_refl), Z.eqb_refl. reflexivity. }
    unfold numerics, is_numerics. cbn [prints_none to_tuple bind]. rewrite Nn. cbn [bound]. rewrite H. split; [reflexivity|].
    intros [->|[q ->]]; reflexivity.
  Qed.
End numerics.
Definition no_eval (_ : string) : option yval := None.
Definition no_parse (_ : ntype) (_ : string) : option fl := None.
(** "Returns a (min, max) pair" is false. *)
Theorem C33_minmax_refuted : exists a b, (b < a)%Q /\
  is_minmax no_eval no_parse (fun s => s) None None TFloat (YTuple [YNum (Some 5%Q); YNum (Some 2%Q)]) = Ok (YTuple [YNum (Some a); YNum (Some b)]).
Proof. exists 5%Q, 2%Q. split; reflexivity. Qed.
(** NaN is accepted whatever the bounds. *)
Theorem C33_nan_refuted : is_figsize no_eval no_parse (fun s => s) (YTuple [YNum None; YNum (Some 30%Q)]) = Ok (YTuple [YNum None; YNum (Some 20%Q)]).
Proof. reflexivity. Qed.
(** A figure size: two numbers, brought between 0 and 20 *)
Theorem C33_figsize eval parse strip x y : exists a b,
  is_figsize eval parse strip (YTuple [YNum (Some x); YNum (Some y)]) = Ok (YTuple [a; b]) /\
  exists p q, num_of a = Some (Some p) /\ num_of b = Some (Some q) /\
  (0 <= p <= 20)%Q /\ (0 <= q <= 20)%Q /\ ((0 <= x <= 20)%Q -> (p == x)%Q) /\ ((0 <= y <= 20)%Q -> (q == y)%Q).
Proof.
  assert (O : forall z, exists p, one_numeric parse TFloat (Some (YNum (Some 0%Q))) (Some (YNum (Some 20%Q))) (YNum (Some z)) = Ok (YNum (Some p)) /\
     (0 <= p <= 20)%Q /\ ((0 <= z <= 20)%Q -> (p == z)%Q)).
  { intro z. unfold one_numeric, clamp_min, clamp_max. cbn [bind num_of fltb]. unfold Qltb.
    destruct (Qle_bool 0 z) eqn:E1; cbn [negb bind conv num_of fltb]; unfold Qltb.
    - apply Qle_bool_iff in E1. destruct (Qle_bool z 20) eqn:E2; cbn [negb bind conv].
      + apply Qle_bool_iff in E2. exists z. split; [reflexivity|]. split; [auto|reflexivity].
      + assert (~ (z <= 20)%Q) by (intro H; apply Qle_bool_iff in H; congruence).
        exists 20%Q. split; [reflexivity|]. split; [split; discriminate|]. intros [_ H']. contradiction.
    - assert (~ (0 <= z)%Q) by (intro H; apply Qle_bool_iff in H; congruence).
      exists 0%Q. split; [reflexivity|]. split; [split; discriminate|]. intros [H' _]. contradiction. }
  destruct (O x) as (p & Ep & Rp & Sp), (O y) as (q & Eq & Rq & Sq).
  exists (YNum (Some p)), (YNum (Some q)). split.
  - unfold is_figsize, is_numerics. cbn [prints_none to_tuple bind List.length bound map_res]. cbn -[one_numeric]. rewrite Ep. cbn [bind]. rewrite Eq. reflexivity.
  - exists p, q. cbn [num_of]. auto 10.
Qed.
(** Integers with a bound that is not an integer: the answer is out of the bounds. *)
Theorem C33_int_bound_refuted : exists y, (y < 1 # 2)%Q /\
  is_numerics no_eval no_parse (fun s => s) (Some (YNum (Some (1 # 2)%Q))) None TInt None (YList [YNum (Some (-3)%Q)]) = Ok (YTuple [YNum (Some y)]).
Proof. exists 0%Q. split; reflexivity. Qed.
(** One value beyond the minimum *)
Example ex_clamp : is_numerics no_eval (fun _ s => if String.eqb s "7.5" then Some (Some (15 # 2)%Q) else None) (fun s => s)
   (Some (YNum (Some 0%Q))) (Some (YNum (Some 6%Q))) TFloat (Some 3%Z) (YList [YNum (Some (-1)%Q); YNum (Some (3 # 2)%Q); YStr "7.5"]) =
  Ok (YTuple [YNum (Some 0%Q); YNum (Some (3 # 2)%Q); YNum (Some 6%Q)]).
Proof. reflexivity. Qed.
