(** C57: enumerations of choices. *)
From Verif Require Import Enums ValScalar ValScalarProps PyReFacts.
From Coq Require Import Lia DecimalZ.
Open Scope string_scope.

(** ** Specification *)
(** The names of the enumeration are declared with a value; a later name of a value is an alias *)
Definition values (ms : enum_members) : list Z := map snd ms.
Definition names_of (z : Z) (ms : enum_members) : list string := map fst (List.filter (fun nv => Z.eqb (snd nv) z) ms).
(** The declarations whose value was not declared before *)
Fixpoint firsts (seen : list Z) (ms : enum_members) : enum_members :=
  match ms with
  | [] => []
  | (n, z) :: ms' => if existsb (Z.eqb z) seen then firsts seen ms' else (n, z) :: firsts (z :: seen) ms'
  end.

(** ** Membership *)
Theorem C57_name_in ms s : exists b, enum_contains ms (EName s) = Ok b /\ (b = true <-> exists z, In (s, z) ms).
Proof.
  eexists. split; [reflexivity|]. rewrite existsb_exists. split.
  - intros ([n z] & Hi & E). apply String.eqb_eq in E. cbn in E. subst. eauto.
  - intros [z Hi]. exists (s, z). split; auto. apply String.eqb_refl.
Qed.
Lemma by_value_some ms z m : enum_by_value ms z = Some m -> In m ms /\ snd m = z.
Proof. intro H. apply find_some in H. destruct H as [Hi E]. apply Z.eqb_eq in E. auto. Qed.
Lemma by_value_none ms z : enum_by_value ms z = None <-> ~ In z (values ms).
Proof.
  unfold enum_by_value, values. split.
  - intros H Hi. apply in_map_iff in Hi. destruct Hi as (m & E & Hi). assert (X := find_none _ _ H _ Hi). cbn in X. rewrite E, Z.eqb_refl in X. discriminate.
  - intro H. destruct (List.find _ ms) as [m|] eqn:E; auto. exfalso. apply find_some in E. destruct E as [Hi E]. apply Z.eqb_eq in E. apply H. rewrite <- E. now apply in_map.
Qed.
Theorem C57_value_in ms z : z <> 0%Z -> In z (values ms) -> enum_contains ms (ECode z) = Ok true.
Proof.
  intros N H. cbn. destruct (enum_by_value ms z) as [m|] eqn:E; [|apply by_value_none in E; contradiction]. cbn. apply by_value_some in E. destruct E as [_ ->].
  destruct (Z.eqb_spec z 0); [contradiction|reflexivity].
Qed.
(** False: [value in enumeration] tells whether it is a value.  0 never is, and a value that is not
    is an error. *)
Theorem C57_zero_refuted ms : In 0%Z (values ms) -> enum_contains ms (ECode 0) = Ok false.
Proof.
  intro H. cbn. destruct (enum_by_value ms 0) as [m|] eqn:E; [|apply by_value_none in E; contradiction]. cbn. apply by_value_some in E. now destruct E as [_ ->].
Qed.
Theorem C57_unknown_refuted ms z : ~ In z (values ms) -> enum_contains ms (ECode z) = Raise ValueError /\ enum_contains ms ENone = Raise ValueError.
Proof. intro H. apply by_value_none in H. cbn. now rewrite H. Qed.

(** ** Calling: the first declaration with this value; without value, the first one *)
Theorem C57_call ms a m : default_call ms a = Ok m -> exists l1 l2, ms = (l1 ++ m :: l2)%list /\
  match a with ENone => l1 = [] | ECode z => snd m = z /\ ~ In z (values l1) | EName _ => False end.
Proof.
  destruct a as [|s|z]; cbn [default_call enum_call].
  - destruct ms as [|m' ms]; [discriminate|]. intro H. injection H as ->. exists [], ms. auto.
  - discriminate.
  - destruct (enum_by_value ms z) as [m'|] eqn:E; [|discriminate]. intro H. injection H as ->. revert E. unfold enum_by_value.
    induction ms as [|x ms IH]; cbn; [discriminate|]. destruct (Z.eqb_spec (snd x) z) as [Ez|Ez].
    + intro H. injection H as ->. exists [], ms. cbn. auto.
    + intro H. destruct (IH H) as (l1 & l2 & -> & Es & Hn). exists (x :: l1), l2. split; auto. split; auto. cbn. intros [X|X]; auto.
Qed.
Theorem C57_call_total ms z : In z (values ms) -> exists m, default_call ms (ECode z) = Ok m.
Proof. intro H. cbn. destruct (enum_by_value ms z) as [m|] eqn:E; eauto. apply by_value_none in E. contradiction. Qed.
(** Without value, a call and an index are the same *)
Theorem C57_default ms : default_call ms ENone = enum_getitem ms ENone /\ forall z, default_call ms (ECode z) = enum_getitem ms (ECode z).
Proof. split; reflexivity. Qed.
(** False: a name can be called. *)
Theorem C57_call_name_refuted ms s : default_call ms (EName s) = Raise ValueError.
Proof. reflexivity. Qed.

(** ** Groups *)
Lemma names_of_app z a b : names_of z (a ++ b)%list = (names_of z a ++ names_of z b)%list.
Proof. unfold names_of. now rewrite filter_app, map_app. Qed.
Lemma add_name_keys g z n : map fst (add_name g z n) = if existsb (Z.eqb z) (map fst g) then map fst g else (map fst g ++ [z])%list.
Proof.
  induction g as [|[z' ns] g IH]; [reflexivity|]. cbn [add_name map fst existsb]. rewrite (Z.eqb_sym z z'). destruct (Z.eqb z' z); [reflexivity|].
  cbn [map fst orb]. rewrite IH. now destruct (existsb (Z.eqb z) (map fst g)).
Qed.
Lemma existsb_in z l : existsb (Z.eqb z) l = true <-> In z l.
Proof. rewrite existsb_exists. split; [intros (x & Hx & E); apply Z.eqb_eq in E; now subst|intro; exists z; split; auto; apply Z.eqb_refl]. Qed.
Definition grouped (ms : enum_members) (g : list (Z * list string)) : Prop :=
  NoDup (map fst g) /\ (forall z, In z (map fst g) <-> In z (values ms)) /\ (forall z ns, In (z, ns) g -> ns = names_of z ms).
Lemma add_name_in z ns g z' n : NoDup (map fst g) -> In (z, ns) (add_name g z' n) ->
  (z <> z' /\ In (z, ns) g) \/ (z = z' /\ exists ms', ns = (ms' ++ [n])%list /\ ((ms' = [] /\ ~ In z (map fst g)) \/ In (z, ms') g)).
Proof.
  induction g as [|[z1 n1] g IH]; cbn [add_name map fst]; intros N H.
  - destruct H as [H|[]]. injection H as <- <-. right. split; auto. exists []. cbn. auto.
  - inversion N as [|? ? N1 N2]; subst. destruct (Z.eqb_spec z1 z') as [Ez|Ez].
    + subst. destruct H as [H|H].
      * injection H as <- <-. right. split; auto. exists n1. cbn. auto.
      * left. split; [|now right]. intros ->. apply N1. apply in_map_iff. exists (z', ns). auto.
    + destruct H as [H|H].
      * injection H as <- <-. left. split; auto. now left.
      * destruct (IH N2 H) as [[Hz Hi]|(-> & ms' & -> & X)]; [left; split; auto; now right|]. right. split; auto. exists ms'. split; auto.
        destruct X as [[-> Hn]|Hi]; [left; split; auto; cbn; intros [?|?]; congruence|right; now right].
Qed.
Lemma groups_grouped ms : grouped ms (groups ms).
Proof.
  unfold groups. assert (H : forall l pre g, grouped pre g -> grouped (pre ++ l)%list (fold_left (fun g nv => add_name g (snd nv) (fst nv)) l g)).
  { induction l as [|[n z] l IH]; intros pre g G; cbn [fold_left]; [now rewrite app_nil_r|].
    assert (E : (pre ++ (n, z) :: l = (pre ++ [(n, z)]) ++ l)%list) by now rewrite <- app_assoc. rewrite E. apply IH. clear IH E.
    destruct G as (G1 & G2 & G3). cbn [snd fst].
    assert (V : values (pre ++ [(n, z)])%list = (values pre ++ [z])%list) by (unfold values; now rewrite map_app). split; [|split].
    - rewrite add_name_keys. destruct (existsb (Z.eqb z) (map fst g)) eqn:E; auto.
      assert (Hn : ~ In z (map fst g)) by (rewrite <- existsb_in, E; discriminate). clear - G1 Hn.
      induction (map fst g) as [|x l IH]; cbn; [constructor; auto; constructor|]. inversion G1; subst. constructor.
      + rewrite in_app_iff. cbn. intros [?|[?|[]]]; auto. subst. apply Hn. now left.
      + apply IH; auto. intro. apply Hn. now right.
    - intro z'. rewrite V, in_app_iff, add_name_keys. destruct (existsb (Z.eqb z) (map fst g)) eqn:E.
      + rewrite G2. apply existsb_in in E. split; auto. intros [?|[<-|[]]]; auto. now apply G2.
      + rewrite in_app_iff, G2. reflexivity.
    - intros z' ns H. rewrite names_of_app. apply add_name_in in H; auto. destruct H as [[Hz Hi]|(-> & ms' & -> & X)].
      + rewrite (G3 _ _ Hi). unfold names_of. cbn [List.filter snd]. destruct (Z.eqb_spec z z'); [congruence|]. now rewrite app_nil_r.
      + unfold names_of at 2. cbn [List.filter snd]. rewrite Z.eqb_refl. cbn [map fst]. f_equal. destruct X as [[-> Hn]|Hi]; [|now apply G3].
        rewrite G2 in Hn. clear - Hn. unfold names_of, values in *. induction pre as [|[a b] pre IH]; cbn in *; auto.
        destruct (Z.eqb_spec b z); [exfalso; auto|apply IH; auto]. }
  apply (H ms [] []). split; [constructor|]. split; [cbn; tauto|]. intros ? ? [].
Qed.
(** One group per value, with all its names in the order of their declaration *)
Theorem C57_groups ms : NoDup (map fst (groups ms)) /\ forall z ns, In (z, ns) (groups ms) <-> In z (values ms) /\ ns = names_of z ms.
Proof.
  destruct (groups_grouped ms) as (G1 & G2 & G3). split; auto. intros z ns. split.
  - intro H. split; [|now apply G3]. apply G2. apply in_map_iff. exists (z, ns). auto.
  - intros [H ->]. apply G2 in H. apply in_map_iff in H. destruct H as ([z' ns] & E & H). cbn in E. subst. now rewrite <- (G3 _ _ H).
Qed.
(** The groups come in the order of the members that are not aliases, whose names come first *)
Theorem C57_order ms : map (fun g => (hd "" (snd g), fst g)) (groups ms) = firsts [] ms.
Proof.
  assert (K : forall g z n, (forall z ns, In (z, ns) g -> ns <> []) ->
    (forall z' ns, In (z', ns) (add_name g z n) -> ns <> []) /\
    map (fun g => (hd "" (snd g), fst g)) (add_name g z n) =
    if existsb (Z.eqb z) (map fst g) then map (fun g => (hd "" (snd g), fst g)) g else (map (fun g => (hd "" (snd g), fst g)) g ++ [(n, z)])%list).
  { induction g as [|[z1 n1] g IH]; intros z n Ne; cbn [add_name map fst snd existsb hd].
    - split; [|reflexivity]. intros ? ? [H|[]]. injection H as _ <-. discriminate.
    - rewrite (Z.eqb_sym z z1). assert (N1 : n1 <> []) by (apply (Ne z1); now left). destruct (Z.eqb z1 z) eqn:E.
      + split; [|cbn; f_equal; f_equal; now destruct n1].
        intros z' ns [H|H]; [injection H as <- <-; now destruct n1|]. apply (Ne z'). now right.
      + destruct (IH z n) as [I1 I2]; [intros; apply (Ne z0); now right|]. split.
        * intros z' ns [H|H]; [injection H as <- <-; auto|]. eapply I1; eauto.
        * cbn [map fst snd orb]. rewrite I2. now destruct (existsb (Z.eqb z) (map fst g)). }
  assert (H : forall l g seen, (forall z ns, In (z, ns) g -> ns <> []) -> (forall z, In z seen <-> In z (map fst g)) ->
    map (fun g => (hd "" (snd g), fst g)) (fold_left (fun g nv => add_name g (snd nv) (fst nv)) l g) = (map (fun g => (hd "" (snd g), fst g)) g ++ firsts seen l)%list).
  { induction l as [|[n z] l IH]; intros g seen Ne Hs; cbn [fold_left firsts snd fst]; [now rewrite app_nil_r|].
    destruct (K g z n Ne) as [K1 K2].
    assert (Eb : existsb (Z.eqb z) seen = existsb (Z.eqb z) (map fst g)).
    { destruct (existsb (Z.eqb z) (map fst g)) eqn:E; [apply existsb_in, Hs, existsb_in, E|].
      destruct (existsb (Z.eqb z) seen) eqn:E2; auto. apply existsb_in, Hs, existsb_in in E2. congruence. }
    rewrite Eb. destruct (existsb (Z.eqb z) (map fst g)) eqn:E.
    - rewrite (IH _ seen K1), K2; auto. intro z'. rewrite add_name_keys, E. apply Hs.
    - rewrite (IH _ (z :: seen) K1), K2.
      + now rewrite <- app_assoc.
      + intro z'. rewrite add_name_keys, E, in_app_iff. cbn. rewrite Hs. tauto. }
  apply (H ms [] []); [intros ? ? []|reflexivity].
Qed.

(** ** Texts *)
Definition ident (s : string) : Prop := all_chars (fun c => negb (Ascii.eqb c """") && negb (Ascii.eqb c "|") && negb (Ascii.eqb c ",")) s = true.
Lemma ident_not s (c : ascii) : ident s -> c = """"%char \/ c = "|"%char \/ c = ","%char -> all_chars (fun x => negb (Ascii.eqb x c)) s = true.
Proof.
  intros H Hc. revert H. apply all_chars_mono. intros x Hx. apply andb_true_iff in Hx. destruct Hx as [Hx H3]. apply andb_true_iff in Hx. destruct Hx as [H1 H2].
  destruct Hc as [->|[-> | ->]]; auto.
Qed.
Lemma digits_ident d : ident (NilEmpty.string_of_uint d).
Proof. unfold ident. induction d; cbn; auto. Qed.
Lemma show_int_ident z : ident (show_int z).
Proof.
  unfold show_int, NilZero.string_of_int, ident. destruct (Z.to_int z) as [d|d]; unfold NilZero.string_of_uint; destruct d; try reflexivity; apply (digits_ident).
Qed.
Lemma show_int_inj z z' : show_int z = show_int z' -> z = z'.
Proof.
  unfold show_int. intro H. assert (X : forall i, NilZero.int_of_string (NilZero.string_of_int i) = Some i -> True) by auto. clear X.
  assert (A : forall z, Z.to_int z <> Decimal.Pos Decimal.Nil /\ Z.to_int z <> Decimal.Neg Decimal.Nil).
  { intros [|p|p]; cbn; split; try discriminate; intro E; injection E as E; revert E; apply DecimalPos.Unsigned.to_uint_nonnil. }
  assert (B := NilZero.isi (Z.to_int z) (proj1 (A z)) (proj2 (A z))). assert (B' := NilZero.isi (Z.to_int z') (proj1 (A z')) (proj2 (A z'))).
  rewrite H, B' in B. injection B as B. assert (C := DecimalZ.of_to z). rewrite <- B, DecimalZ.of_to in C. auto.
Qed.
Lemma split_join1 (c : ascii) x l : (forall y, In y (x :: l) -> all_chars (fun a => negb (Ascii.eqb a c)) y = true) ->
  split_on c (join (String c "") (x :: l)) = x :: l.
Proof.
  revert x. induction l as [|y l IH]; intros x H; cbn [join].
  - apply split_on_none. apply H. now left.
  - cbn [append]. rewrite split_on_sep by (apply H; now left). f_equal. apply IH. intros. apply H. now right.
Qed.
Lemma split_join2 (c d : ascii) x l : c <> d -> (forall y, In y (x :: l) -> all_chars (fun a => negb (Ascii.eqb a c)) y = true) ->
  split_on c (join (String c (String d "")) (x :: l)) = x :: map (String d) l.
Proof.
  intros Hd. revert x. induction l as [|y l IH]; intros x H; cbn [map].
  - apply split_on_none. apply H. now left.
  - change (join (String c (String d "")) (x :: y :: l)) with (x ++ String c (String d (join (String c (String d "")) (y :: l)))). rewrite split_on_sep by (apply H; now left). f_equal. cbn [split_on].
    destruct (Ascii.eqb_spec d c); [congruence|]. rewrite IH by (intros; apply H; now right). reflexivity.
Qed.
Lemma quoted_inj a b : quoted a = quoted b -> a = b.
Proof.
  unfold quoted. intro E. injection E as E. assert (L := f_equal String.length E). rewrite !slen_app in L. cbn in L. apply sapp_inv_len in E; [tauto|lia].
Qed.
Lemma quoted_not n (c : ascii) : ident n -> c = "|"%char \/ c = ","%char -> all_chars (fun x => negb (Ascii.eqb x c)) (quoted n) = true.
Proof.
  intros H Hc. unfold quoted. cbn [all_chars]. rewrite all_chars_app. cbn. rewrite (ident_not _ _ H) by tauto. destruct Hc as [-> | ->]; reflexivity.
Qed.
Lemma map_inj {A B} (f : A -> B) (P : A -> Prop) : (forall x y, P x -> P y -> f x = f y -> x = y) ->
  forall l l', Forall P l -> Forall P l' -> map f l = map f l' -> l = l'.
Proof.
  intros Hf. induction l as [|x l IH]; intros [|y l'] F F' E; try discriminate; auto. cbn in E. injection E as E1 E2. inversion F; inversion F'; subst. f_equal; auto.
Qed.
Definition body (g : Z * list string) : string := join "|" (show_int (fst g) :: map quoted (snd g)).
Definition named (g : Z * list string) : Prop := Forall ident (snd g).
Lemma body_inj g g' : named g -> named g' -> body g = body g' -> g = g'.
Proof.
  destruct g as [z ns], g' as [z' ns']. intros N N' E.
  assert (F : forall z ns, named (z, ns) -> forall y, In y (show_int z :: map quoted ns) -> all_chars (fun a => negb (Ascii.eqb a "|")) y = true).
  { intros a b Hn y [<-|Hy]; [apply ident_not; [apply show_int_ident|tauto]|]. apply in_map_iff in Hy. destruct Hy as (x & <- & Hx). unfold named in Hn. rewrite Forall_forall in Hn. apply quoted_not; [|tauto]. now apply Hn. }
  assert (X := f_equal (split_on "|") E). unfold body in X. rewrite !split_join1 in X by (apply F; auto). cbn [fst snd] in X. injection X as X1 X2.
  apply show_int_inj in X1. subst. f_equal. apply (map_inj quoted (fun _ => True)) in X2; auto using quoted_inj; apply Forall_forall; auto.
Qed.
Lemma body_not g : named g -> all_chars (fun a => negb (Ascii.eqb a ",")) (body g) = true.
Proof.
  unfold body, named. intro N. assert (H : forall l, Forall (fun y => all_chars (fun a => negb (Ascii.eqb a ",")) y = true) l -> all_chars (fun a => negb (Ascii.eqb a ",")) (join "|" l) = true).
  { induction l as [|x [|y l] IH]; intro F; auto; cbn [join]; [now inversion F|]. inversion F; subst. rewrite all_chars_app. cbn [append all_chars]. rewrite H1. cbn. now apply IH. }
  apply H. constructor; [apply ident_not; [apply show_int_ident|tauto]|]. rewrite Forall_forall in *. intros y Hy. apply in_map_iff in Hy. destruct Hy as (x & <- & Hx). apply quoted_not; [now apply N|tauto].
Qed.
Lemma body_nonempty g : body g <> "".
Proof.
  unfold body. assert (N : show_int (fst g) <> "").
  { unfold show_int, NilZero.string_of_int, NilZero.string_of_uint. destruct (Z.to_int (fst g)) as [d|d]; [|discriminate]. destruct d; discriminate. }
  destruct (snd g); cbn [map join]; auto. destruct (show_int (fst g)); [contradiction|discriminate].
Qed.
Lemma choices_ok so py es ms : so && negb py = false -> get_choices so py es ms = Ok (map (fun g => es ++ body g ++ es) (groups ms)).
Proof.
  intro H. unfold get_choices. induction (groups ms) as [|g l IH]; [reflexivity|]. cbn [mapM].
  assert (C : choice so py es g = Ok (es ++ body g ++ es)) by (unfold choice, show_member; now rewrite H). rewrite C. cbn [bind]. rewrite IH. reflexivity.
Qed.
(** The text of an enumeration always exists in the interpreters that format members as integers,
    and enumerations that read the same have the same groups. *)
Theorem C57_text so py ms ms' : so && negb py = false -> (forall n z, In (n, z) ms \/ In (n, z) ms' -> ident n) ->
  (exists s, enum_str so py ms = Ok s) /\ (enum_str so py ms = enum_str so py ms' -> groups ms = groups ms').
Proof.
  intros Hf Hi. unfold enum_str. rewrite !choices_ok by exact Hf. cbn [bind]. split; [eauto|].
  intro E. injection E as E.
  assert (N : forall m, m = ms \/ m = ms' -> Forall named (groups m)).
  { intros m Hm. apply Forall_forall. intros [z ns] Hg. apply C57_groups in Hg. destruct Hg as [_ ->]. unfold named. cbn [snd]. apply Forall_forall. intros n Hn.
    unfold names_of in Hn. apply in_map_iff in Hn. destruct Hn as ([n' z'] & E1 & Hn). cbn in E1. subst. apply filter_In in Hn. destruct Hn as [Hn _]. apply (Hi n z'). destruct Hm as [-> | ->]; auto. }
  assert (N1 := N ms (or_introl eq_refl)). assert (N2 := N ms' (or_intror eq_refl)). clear N Hi Hf.
  assert (B : forall l, map (fun g => "" ++ body g ++ "") l = map body l) by (intro l; apply map_ext; intro g; cbn [append]; apply sapp_nil_r).
  rewrite !B in E. clear B. revert N1 N2 E. generalize (groups ms) (groups ms'). clear ms ms'. intros g g' N1 N2 E.
  assert (Ne : forall l, map body l <> [] -> join ", " (map body l) <> "").
  { intros [|x l] H; [contradiction|]. cbn [map join]. assert (X := body_nonempty x). destruct (body x); [contradiction|]. destruct (map body l); discriminate. }
  destruct g as [|x g], g' as [|x' g'].
  - reflexivity.
  - exfalso. apply (Ne (x' :: g')); [discriminate|]. rewrite <- E. reflexivity.
  - exfalso. apply (Ne (x :: g)); [discriminate|]. rewrite E. reflexivity.
  - assert (C : forall l, Forall named l -> forall y, In y (map body l) -> all_chars (fun a => negb (Ascii.eqb a ",")) y = true).
    { intros l F y Hy. apply in_map_iff in Hy. destruct Hy as (a & <- & Ha). rewrite Forall_forall in F. apply body_not. auto. }
    assert (X := f_equal (split_on ",") E). cbn [map] in X.
    rewrite !split_join2 in X; [|discriminate|intros y Hy; now apply (C (x' :: g'))|discriminate|intros y Hy; now apply (C (x :: g))].
    injection X as X1 X2. inversion N1; inversion N2; subst. f_equal; [now apply body_inj|].
    apply (map_inj (String " ") (fun _ => True)) in X2; [|congruence|apply Forall_forall; auto|apply Forall_forall; auto].
    apply (map_inj body named) in X2; auto using body_inj.
Qed.
(** False: the text of an enumeration can always be got.  Before Python 3.12, that of the
    enumerations of xoa, which are IntEnumChoices, can not. *)
Theorem C57_text_refuted ms : ms <> [] -> enum_str true false ms = Raise ValueError /\ forall l c, get_rst true false false l c ms = Raise ValueError.
Proof.
  intro N. unfold enum_str, get_rst, get_choices. assert (G : exists g l, groups ms = g :: l).
  { destruct ms as [|[n z] ms]; [contradiction|]. destruct (groups ((n, z) :: ms)) as [|g l] eqn:E; eauto. exfalso.
    assert (X : In (z, names_of z ((n, z) :: ms)) (groups ((n, z) :: ms))) by (apply C57_groups; split; auto; cbn; auto). rewrite E in X. destruct X. }
  destruct G as (g & l & ->). cbn. auto.
Qed.
(** With links, it always can: one link per value, in the order of the values, which shows the
    value and all its names, and points to the member of the first name *)
Definition link_target (module : option string) (cls name : string) : string :=
  match module with
  | Some (String a m) => String a m ++ "." ++ cls ++ "." ++ name
  | _ => cls ++ "." ++ name
  end.
Theorem C57_links so py l c ms : exists pieces, get_rst so py true l c ms = Ok (join ", " pieces) /\
  Forall2 (fun z p => exists n ns, names_of z ms = n :: ns /\
             p = ":attr:`" ++ join "|" (show_int z :: map quoted (n :: ns)) ++ "<" ++ link_target l c n ++ ">`")
          (map fst (groups ms)) pieces.
Proof.
  unfold get_rst. cbv zeta. eexists. split; [reflexivity|].
  assert (G : forall g, In g (groups ms) -> In (fst g, snd g) (groups ms)) by (intros [? ?]; auto).
  revert G. generalize (groups ms) at 1 3 4 as gs. induction gs as [|[z ns] gs IH]; intro G; cbn [map]; constructor; [|apply IH; intros; apply G; now right].
  cbn [fst snd]. assert (X := G (z, ns) (or_introl eq_refl)). cbn [fst snd] in X. apply C57_groups in X. destruct X as [Hz E]. subst ns.
  assert (Hne : names_of z ms <> []).
  { intro X. apply in_map_iff in Hz. destruct Hz as ([n z'] & E1 & Hn). cbn in E1. subst z'. assert (Y : In n (names_of z ms)).
    { unfold names_of. apply in_map_iff. exists (n, z). split; auto. apply filter_In. split; auto. cbn. apply Z.eqb_refl. } rewrite X in Y. destruct Y. }
  destruct (names_of z ms) as [|n ns]; [contradiction|]. exists n, ns. split; [reflexivity|]. cbn [hd].
  do 2 f_equal. f_equal. unfold link_target. destruct l as [[|a m]|]; cbn [String.eqb append]; rewrite ?sapp_assoc; cbn [append]; rewrite ?sapp_assoc; reflexivity.
Qed.

(** ** Iterables *)
Theorem C57_iterable o nostr nogen : is_iterable o nostr nogen = true <->
  o = PySized \/ (o = PyStr /\ nostr = false) \/ (o = PyGen /\ nogen = false).
Proof. destruct o, nostr, nogen; cbn; intuition congruence. Qed.

(** ** The methods of regrid1d *)
Definition ex_methods : enum_members :=
  [("linear", 1); ("interp", 1); ("nearest", 0); ("cubic", 2); ("hermit", 3); ("hermitian", 3); ("cellave", -1)]%Z.
Example ex_idents : forall n z, In (n, z) ex_methods -> ident n.
Proof. intros n z H. repeat (destruct H as [H|H]; [injection H as <- <-; reflexivity|]). destruct H. Qed.
Example ex_text : enum_str true true ex_methods = Ok "1|""linear""|""interp"", 0|""nearest"", 2|""cubic"", 3|""hermit""|""hermitian"", -1|""cellave""".
Proof. vm_compute. reflexivity. Qed.
Example ex_in : enum_contains ex_methods (EName "interp") = Ok true /\ enum_contains ex_methods (ECode 3) = Ok true /\
  enum_contains ex_methods (ECode 0) = Ok false /\ enum_contains ex_methods (ECode 7) = Raise ValueError /\ default_call ex_methods ENone = Ok ("linear", 1%Z).
Proof. vm_compute. auto 10. Qed.
