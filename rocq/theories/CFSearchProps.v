(** C29: searches with CF specifications. *)
From Verif Require Export CFSearchProofs.
From Coq Require Import Lia.
Open Scope string_scope.

(** ** Lemmas on the loops *)
Definition in_found (found : list (darr * string)) (obj : darr) : bool :=
  existsb (fun f => match da_name (fst f), da_name obj with
     | Some a, Some b => String.eqb a b | None, None => true | _, _ => false end) found.
Lemma in_found_iff found obj : in_found found obj = true <-> In (da_name obj) (map (fun f => da_name (fst f)) found).
Proof.
  unfold in_found. rewrite existsb_exists, in_map_iff. split.
  - intros (f & Hf & E). exists f. split; auto. destruct (da_name (fst f)), (da_name obj); try discriminate; auto.
    apply String.eqb_eq in E. congruence.
  - intros (f & E & Hf). exists f. split; auto. rewrite E. destruct (da_name obj); auto. apply String.eqb_refl.
Qed.
Lemma in_found_app found o n obj : in_found (found ++ [(o, n)])%list obj = true <->
  in_found found obj = true \/ da_name o = da_name obj.
Proof. rewrite !in_found_iff, map_app, in_app_iff. cbn [map In fst]. intuition. Qed.

Definition mb (sg : sgloc) (loc : mloc) (c : string * refs) (o : darr) : bool :=
  match match_specs sg o [c] loc with Ok b => b | Raise _ => false end.

Lemma bool_eq (a b : bool) : (a = true <-> b = true) -> a = b.
Proof. destruct a, b; intuition congruence. Qed.
Lemma filter_ext_in' {A} (f g : A -> bool) l : (forall x, In x l -> f x = g x) -> List.filter f l = List.filter g l.
Proof. apply filter_ext_in. Qed.

Lemma scan_named sg cs loc c n : forall objs found nm f, distinct_names objs ->
  scan sg cs loc (Some [c]) objs (Some n) found = Ok (nm, f) ->
  nm = Some n /\
  (forall o, In o objs -> exists b, match_specs sg o [c] loc = Ok b) /\
  f = (found ++ map (fun o => (o, n)) (List.filter (fun o => mb sg loc c o && negb (in_found found o)) objs))%list.
Proof.
  induction objs as [|o objs IH]; intros found nm f Hd; cbn [scan].
  - intro H. injection H as <- <-. split; auto. split; [intros ? []|]. cbn. now rewrite app_nil_r.
  - unfold distinct_names in Hd. cbn [map] in Hd. apply NoDup_cons_iff in Hd. destruct Hd as [Hn Hd].
    destruct (match_specs sg o [c] loc) as [b|ex] eqn:E; cbn [bind]; [|discriminate].
    assert (Hmb : mb sg loc c o = b) by (unfold mb; now rewrite E).
    cbn [List.filter]. rewrite Hmb. destruct b; cbn [andb].
    + fold (in_found found o). destruct (in_found found o) eqn:Ef; cbn [negb].
      * intro H. destruct (IH _ _ _ Hd H) as (H1 & H2 & H3). split; auto. split; auto.
        intros o' [<-|Ho]; eauto.
      * intro H. destruct (IH _ _ _ Hd H) as (H1 & H2 & H3). split; auto. split.
        { intros o' [<-|Ho]; eauto. }
        rewrite H3, <- app_assoc. cbn [map app]. do 3 f_equal. apply filter_ext_in. intros x Hx. f_equal. f_equal.
        apply bool_eq. rewrite in_found_app. split; [|auto]. intros [H'|H']; auto. exfalso. apply Hn.
        rewrite H'. now apply in_map.
    + intro H. destruct (IH _ _ _ Hd H) as (H1 & H2 & H3). split; auto. split; auto.
      intros o' [<-|Ho]; eauto.
Qed.
Lemma filter_filter' {A} (p q : A -> bool) l : List.filter p (List.filter q l) = List.filter (fun x => p x && q x) l.
Proof.
  induction l as [|x l IH]; [reflexivity|]. cbn [List.filter]. destruct (q x) eqn:Eq; cbn [List.filter].
  - rewrite IH, andb_true_r. reflexivity.
  - rewrite andb_false_r. exact IH.
Qed.
Lemma name_unique objs o o' : distinct_names objs -> In o objs -> In o' objs -> da_name o = da_name o' -> o = o'.
Proof.
  unfold distinct_names. induction objs as [|x objs IH]; intros Hd H1 H2 E; [destruct H1|].
  cbn [map] in Hd. apply NoDup_cons_iff in Hd. destruct Hd as [Hn Hd].
  destruct H1 as [->|H1], H2 as [->|H2]; auto; exfalso; apply Hn; [rewrite E|rewrite <- E]; now apply in_map.
Qed.
Lemma scan_all_named sg cs loc n objs : distinct_names objs -> forall crits found f,
  (forall o, In o (map fst found) -> In o objs) ->
  scan_all sg cs loc (map (fun kv => Some [kv]) crits) objs (Some n) found = Ok f ->
  (forall c o, In c crits -> In o objs -> exists b, match_specs sg o [c] loc = Ok b) /\
  f = (found ++ map (fun o => (o, n)) (by_priority (mb sg loc) crits (List.filter (fun o => negb (in_found found o)) objs)))%list.
Proof.
  intros Hd. induction crits as [|c crits IH]; intros found f Hf; cbn [map scan_all].
  - intro H. injection H as <-. split; [intros ? ? []|]. cbn. now rewrite app_nil_r.
  - destruct (scan sg cs loc (Some [c]) objs (Some n) found) as [[nm f1]|ex] eqn:E; cbn [bind fst snd]; [|discriminate].
    destruct (scan_named _ _ _ _ _ _ _ _ _ Hd E) as (-> & Hok & Hf1). intro H.
    assert (Hf1' : forall o, In o (map fst f1) -> In o objs).
    { intros o Ho. rewrite Hf1, map_app, in_app_iff in Ho. destruct Ho as [Ho|Ho]; auto.
      rewrite map_map in Ho. cbn [fst] in Ho. rewrite map_id in Ho. apply filter_In in Ho. tauto. }
    destruct (IH f1 f Hf1' H) as [H1 H2]. split.
    + intros c' o [<-|Hc] Ho; auto.
    + rewrite H2, Hf1. rewrite <- app_assoc. f_equal. cbn [by_priority]. rewrite map_app. f_equal.
      * f_equal. rewrite filter_filter'. reflexivity.
      * f_equal. f_equal. rewrite filter_filter'. apply filter_ext_in. intros o Ho.
        rewrite <- Hf1. apply bool_eq. rewrite negb_true_iff, andb_true_iff, !negb_true_iff.
        destruct (in_found f1 o) eqn:E1.
        -- split; [discriminate|]. intros [A B]. exfalso.
           apply in_found_iff in E1. rewrite Hf1, map_app, in_app_iff in E1. destruct E1 as [E1|E1].
           ++ apply (proj2 (in_found_iff found o)) in E1. congruence.
           ++ rewrite map_map in E1. cbn [fst] in E1. apply in_map_iff in E1. destruct E1 as (o' & En & Ho').
              apply filter_In in Ho'. destruct Ho' as [Ho' Hm]. assert (o' = o) by (eapply name_unique; eauto). subst o'.
              rewrite A in Hm. discriminate.
        -- split; [|auto]. intros _. assert (E2 : in_found found o = false).
           { destruct (in_found found o) eqn:E2; auto. apply in_found_iff in E2. assert (X : in_found f1 o = true); [|congruence].
             apply in_found_iff. rewrite Hf1, map_app, in_app_iff. auto. }
           split; auto. destruct (mb sg loc c o) eqn:Em; auto. exfalso.
           assert (X : in_found f1 o = true); [|congruence]. apply in_found_iff. rewrite Hf1, map_app, in_app_iff. right.
           rewrite map_map. cbn [fst]. apply in_map_iff. exists o. split; auto. apply filter_In. split; auto. now rewrite Em, E2.
Qed.

(** *** Search of a given CF name *)
Theorem C29_search sg cs objs n sp loc errors found :
  dget cs n = Some sp -> distinct_names objs ->
  search_all sg cs objs (Some n) loc errors = Ok (Some found) ->
  exists M, (forall c o, In c (criteria n sp) -> In o objs -> (M c o = true <-> meets sg loc o c)) /\
    found = map (fun o => (o, n)) (by_priority M (criteria n sp) objs).
Proof.
  intros Hs Hd. unfold search_all. rewrite Hs.
  destruct (scan_all sg cs loc (map (fun kv => Some [kv]) (ordered_match_specs n sp)) objs (Some n) []) as [f|ex] eqn:E; cbn [bind]; [|discriminate].
  intro H. injection H as <-. rewrite ordered_criteria in E.
  destruct (scan_all_named sg cs loc n objs Hd (criteria n sp) [] f) as [H1 H2]; [intros ? []|exact E|].
  exists (mb sg loc). split.
  - intros c o Hc Ho. destruct (H1 c o Hc Ho) as [b Hb]. unfold mb. rewrite Hb.
    rewrite (match_specs_iff _ _ _ _ _ Hb). split.
    + intros (c' & [<-|[]] & Hm). exact Hm.
    + intro Hm. exists c. split; [now left|exact Hm].
  - rewrite H2. cbn [app]. do 2 f_equal. clear. induction objs as [|o objs IH]; [reflexivity|].
    cbn [List.filter in_found existsb negb]. f_equal. exact IH.
Qed.
Lemma by_priority_in M crits : forall objs o, In o (by_priority M crits objs) <->
  In o objs /\ exists c, In c crits /\ M c o = true.
Proof.
  induction crits as [|c crits IH]; intros objs o; cbn [by_priority].
  - split; [intros []|intros (_ & c & [] & _)].
  - rewrite in_app_iff, IH, !filter_In. split.
    + intros [[H1 H2]|[[H1 H2] (c' & H3 & H4)]]; split; auto; [exists c|exists c']; split; auto; [now left|now right].
    + intros (H1 & c' & [<-|H2] & H3); auto. destruct (M c o) eqn:E; [auto|]. right. split; [split; auto|eauto].
Qed.
(** The items that are found are exactly those that match. *)
Theorem C29_found_iff sg cs objs n sp loc errors found :
  dget cs n = Some sp -> distinct_names objs ->
  search_all sg cs objs (Some n) loc errors = Ok (Some found) ->
  forall o m, In (o, m) found <-> m = n /\ In o objs /\ matches sg loc n sp o.
Proof.
  intros Hs Hd H o m. destruct (C29_search _ _ _ _ _ _ _ _ Hs Hd H) as (M & HM & ->).
  rewrite in_map_iff. split.
  - intros (o' & E & Ho). injection E as <- <-. apply by_priority_in in Ho. destruct Ho as (Ho & c & Hc & Hm).
    split; auto. split; auto. exists c. split; auto. now apply HM.
  - intros (-> & Ho & c & Hc & Hm). exists o. split; auto. apply by_priority_in. split; auto. exists c. split; auto. now apply HM.
Qed.
Lemma by_priority_head M crits : forall objs o rest, by_priority M crits objs = o :: rest ->
  exists c1 c c2 o1 o2, crits = (c1 ++ c :: c2)%list /\ objs = (o1 ++ o :: o2)%list /\ M c o = true /\
    (forall c' o', In c' c1 -> In o' objs -> M c' o' = false) /\ (forall o', In o' o1 -> M c o' = false).
Proof.
  induction crits as [|c crits IH]; intros objs o rest; cbn [by_priority]; [discriminate|].
  destruct (List.filter (M c) objs) as [|x l] eqn:E.
  - cbn [app]. assert (HN : forall o', In o' objs -> M c o' = false).
    { intros o' Ho. destruct (M c o') eqn:Em; auto. assert (In o' []); [|contradiction]. rewrite <- E. now apply filter_In. }
    assert (Hid : List.filter (fun o => negb (M c o)) objs = objs).
    { clear - HN. induction objs as [|x l IH]; [reflexivity|]. cbn [List.filter].
      rewrite (HN x) by now left. cbn [negb]. f_equal. apply IH. intros o' H. apply HN. now right. }
    rewrite Hid. intro H. destruct (IH _ _ _ H) as (c1 & c0 & c2 & o1 & o2 & -> & -> & H1 & H2 & H3).
    exists (c :: c1), c0, c2, o1, o2. repeat split; auto. intros c' o' [<-|Hc] Ho; auto.
  - cbn [app]. intro H. injection H as <- _. exists [], c, crits.
    clear IH. revert x l E. induction objs as [|y objs IHo]; intros x l E; [discriminate|].
    cbn [List.filter] in E. destruct (M c y) eqn:Ey.
    + injection E as <- <-. exists [], objs. split; auto. split; auto. split; auto. split; [intros ? ? []|intros ? []].
    + destruct (IHo x l E) as (o1 & o2 & _ & -> & H1 & _ & H3). exists (y :: o1), o2. split; auto. split; auto. split; auto. split; [intros ? ? []|].
      intros o' [<-|Ho]; auto.
Qed.
(** [single=True]: nothing when nothing matches; the best match otherwise, unless errors are
    raised and several items match. *)
Theorem C29_single sg cs objs n sp loc errors r :
  dget cs n = Some sp -> distinct_names objs ->
  search_single sg cs objs (Some n) loc errors = Ok r ->
  match r with
  | None => errors <> ERaise /\ forall o, In o objs -> ~ matches sg loc n sp o
  | Some (o, m) => m = n /\
    (errors = ERaise -> forall o', In o' objs -> matches sg loc n sp o' -> o' = o) /\
    exists c1 c c2 o1 o2, criteria n sp = (c1 ++ c :: c2)%list /\ objs = (o1 ++ o :: o2)%list /\ meets sg loc o c /\
      (forall c' o', In c' c1 -> In o' objs -> ~ meets sg loc o' c') /\ (forall o', In o' o1 -> ~ meets sg loc o' c)
  end.
Proof.
  intros Hs Hd. unfold search_single.
  destruct (search_all sg cs objs (Some n) loc errors) as [[found|]|ex] eqn:E; cbn [bind]; [| |discriminate].
  2:{ unfold search_all in E. rewrite Hs in E. destruct (scan_all _ _ _ _ _ _ _) in E; discriminate. }
  assert (Hiff := C29_found_iff _ _ _ _ _ _ _ _ Hs Hd E).
  destruct (C29_search _ _ _ _ _ _ _ _ Hs Hd E) as (M & HM & Hfound). rewrite Hfound in Hiff.
  assert (Hb : forall c' o', In c' (criteria n sp) -> In o' objs -> M c' o' = false -> ~ meets sg loc o' c').
  { intros c' o' Hc Ho Hf Hm. apply HM in Hm; auto. congruence. }
  destruct found as [|x l].
  - destruct errors; try discriminate; intro H; injection H as <-; (split; [discriminate|]);
      intros o Ho Hm; assert (X : In (o, n) []) by (rewrite Hfound; apply Hiff; auto); destruct X.
  - intro H. assert (Hr : r = Some x /\ (errors = ERaise -> l = [])).
    { destruct errors, l; try discriminate; injection H as <-; split; auto; discriminate. }
    destruct Hr as [-> Hl]. destruct x as [o m].
    destruct (by_priority M (criteria n sp) objs) as [|o0 rest] eqn:Ep; [discriminate|].
    cbn [map] in Hfound. injection Hfound as -> -> Hrest.
    split; auto. split.
    + intros He o' Ho' Hm'. specialize (Hl He). rewrite Hl in Hrest. assert (X : In (o', n) (map (fun o => (o, n)) (o0 :: rest))).
      { apply Hiff. auto. } cbn [map] in X. rewrite <- Hrest in X. destruct X as [X|[]]. now injection X as ->.
    + destruct (by_priority_head _ _ _ _ _ Ep) as (c1 & c & c2 & o1 & o2 & E1 & E2 & H1 & H2 & H3).
      exists c1, c, c2, o1, o2. split; auto. split; auto.
      assert (Hc : In c (criteria n sp)). { rewrite E1, in_app_iff. simpl. auto. }
      split; [|split].
      * apply HM; auto. rewrite E2, in_app_iff. simpl. auto.
      * intros c' o' Hc' Ho'. apply Hb; auto. rewrite E1, in_app_iff. auto.
      * intros o' Ho'. apply Hb; auto. rewrite E2, in_app_iff. auto.
Qed.
Theorem C29_unknown sg cs objs n loc : dget cs n = None ->
  search_single sg cs objs (Some n) loc ERaise = Raise XoaCFError /\
  search_single sg cs objs (Some n) loc EWarn = Ok None /\ search_single sg cs objs (Some n) loc EIgnore = Ok None.
Proof. intro H. unfold search_single, search_all. rewrite H. auto. Qed.

(** *** Without surprise in the attributes, there is no exception but XoaCFError, which is raised
    when asked for and the number of matches is not one. *)
Lemma chars_ok sg attr v l loc : simple_loc loc -> exists b, match_refs sg attr v l loc = Ok b.
Proof.
  intro Hl. induction l as [|r l [b IH]]; cbn [match_refs]; [eauto|].
  assert (Hv : exists b, match_value sg attr v r loc = Ok b).
  { unfold match_value. assert (Hm : exists ob, (if is_valid_attr attr then match_attr sg attr v r loc else Ok None) = Ok ob).
    { destruct (is_valid_attr attr) eqn:Ea; [|eauto]. unfold match_attr. rewrite Ea. cbn [negb].
      assert (Hp : exists p, parse_attr sg attr (lower v) = Ok p). { unfold parse_attr. rewrite Ea. eauto. }
      destruct Hp as [p ->]. cbn [bind]. destruct (String.eqb (lower (fst p)) (lower r)); cbn [negb]; [|eauto].
      destruct loc as [| |s|[|x k]]; eauto. destruct Hl as [->| ->]; cbn; eauto. }
    destruct Hm as [ob ->]. cbn [bind]. destruct ob as [[]|]; eauto. }
  destruct Hv as [b0 ->]. cbn [bind]. destruct b0; eauto.
Qed.
Lemma match_specs_total sg da ms loc : simple_loc loc ->
  (forall attr, (exists s, da_get da attr = VStr s) \/ da_get da attr = VNone) ->
  (forall attr r, In (attr, r) ms -> r = RefNone -> da_get da attr = VNone) ->
  exists b, match_specs sg da ms loc = Ok b.
Proof.
  intros Hl Hs. induction ms as [|[attr r] ms IH]; intro Hr; cbn [match_specs]; [eauto|].
  assert (Hone : exists b, match da_get da attr with
              | VNone => Ok false
              | VStr v => let* l := iter_refs r in match_refs sg attr v l loc
              | _ => let* l := iter_refs r in match l with [] => Ok false | _ => Raise AttributeError end
              end = Ok b).
  { destruct (Hs attr) as [[s E]|E]; rewrite E; [|eauto].
    destruct r as [l|t|]; cbn [iter_refs bind]; try apply chars_ok; auto.
    specialize (Hr attr RefNone (or_introl eq_refl) eq_refl). congruence. }
  destruct Hone as [b ->]. cbn [bind]. destruct b; [eauto|]. apply IH. intros a' r' H. apply Hr. now right.
Qed.
Lemma fair_get cs da attr : fair cs da -> (exists s, da_get da attr = VStr s) \/ da_get da attr = VNone.
Proof.
  intros [H _]. unfold da_get. destruct (String.eqb attr "name").
  - destruct (da_name da); eauto.
  - unfold get_aval. destruct (dget (da_attrs da) attr) as [v|] eqn:E; [|auto]. destruct (H _ _ E) as [[s ->]| ->]; eauto.
Qed.
Lemma criteria_in name sp attr r : In (attr, r) (criteria name sp) ->
  (attr = "name" /\ r = RefList (name :: s_names sp)) \/ dget (s_attrs sp) attr = Some r.
Proof.
  unfold criteria. rewrite in_flat_map. intros (a & Hu & H). clear Hu. unfold attr_refs in H.
  destruct (String.eqb_spec a "name") as [Ea|N].
  - destruct H as [E|[]]. injection E as <- <-. auto.
  - destruct (dget (s_attrs sp) a) eqn:E; [|destruct H]. destruct H as [E'|[]]. injection E' as <- <-. auto.
Qed.
Lemma fair_specs sg cs da name sp loc ms : simple_loc loc -> fair cs da -> In (name, sp) cs ->
  incl ms (criteria name sp) -> exists b, match_specs sg da ms loc = Ok b.
Proof.
  intros Hl Hf Hin Hi. apply match_specs_total; auto.
  - intro attr. eapply fair_get; eauto.
  - intros attr r H ->. apply Hi in H. apply criteria_in in H. destruct H as [[_ H]|H]; [discriminate|]. destruct Hf as [_ Hf]. eauto.
Qed.
Lemma scan_total sg cs loc arg : forall objs name found,
  (forall o, In o objs -> match arg with
    | Some ms => exists b, match_specs sg o ms loc = Ok b
    | None => exists m, match_any sg cs o loc = Ok m end) ->
  exists nm f, scan sg cs loc arg objs name found = Ok (nm, f).
Proof.
  induction objs as [|o objs IH]; intros name found H; cbn [scan]; [eauto|].
  assert (Hr : forall o, In o objs -> match arg with
    | Some ms => exists b, match_specs sg o ms loc = Ok b
    | None => exists m, match_any sg cs o loc = Ok m end) by (intros; apply H; now right).
  specialize (H o (or_introl eq_refl)). destruct arg as [ms|].
  - destruct H as [b ->]. cbn [bind]. destruct (if b then name else None) as [m|]; [|apply IH, Hr].
    destruct (existsb _ found); apply IH, Hr.
  - destruct H as [m ->]. cbn [bind]. destruct m as [m|]; [|apply IH, Hr].
    destruct (existsb _ found); apply IH, Hr.
Qed.
Theorem C29_total sg cs objs n sp loc errors :
  dget cs n = Some sp -> simple_loc loc -> (forall o, In o objs -> fair cs o) ->
  exists found, search_all sg cs objs (Some n) loc errors = Ok (Some found).
Proof.
  intros Hs Hl Hf. unfold search_all. rewrite Hs, ordered_criteria.
  assert (Hin : In (n, sp) cs) by now apply dget_some_in.
  assert (H : forall crits name found, incl crits (criteria n sp) ->
    exists f, scan_all sg cs loc (map (fun kv => Some [kv]) crits) objs name found = Ok f).
  { induction crits as [|c crits IH]; intros name found Hi; cbn [map scan_all]; [eauto|].
    destruct (scan_total sg cs loc (Some [c]) objs name found) as (nm & f & ->).
    - intros o Ho. apply (fair_specs sg cs o n sp); auto. intros x [<-|[]]. apply Hi. now left.
    - cbn [bind fst snd]. apply IH. intros x Hx. apply Hi. now right. }
  destruct (H (criteria n sp) (Some n) []) as [f ->]; [apply incl_refl|]. cbn [bind]. eauto.
Qed.
Theorem C29_match_total sg cs da loc : simple_loc loc -> fair cs da -> exists m, match_any sg cs da loc = Ok m.
Proof.
  intros Hl Hf. assert (H : forall todo, incl todo cs -> exists m, match_any sg todo da loc = Ok m).
  { induction todo as [|[n sp] todo IH]; intro Hi; cbn [match_any]; [eauto|].
    destruct (fair_specs sg cs da n sp loc (ordered_match_specs n sp)) as [b ->]; auto.
    - apply Hi. now left.
    - rewrite ordered_criteria. apply incl_refl.
    - cbn [bind]. destruct b; [eauto|]. apply IH. intros x Hx. apply Hi. now right. }
  apply H, incl_refl.
Qed.
(** *** Search in several categories *)
Definition no_match sg loc n (c : catspecs * list darr) : Prop :=
  forall sp o, dget (fst c) n = Some sp -> In o (snd c) -> ~ matches sg loc n sp o.
(** The best match of the first category that has one; without any, None or an error. *)
Theorem C29_search_cats sg cats n loc errors r : (forall c, In c cats -> distinct_names (snd c)) ->
  search_cats sg cats (Some n) loc errors = Ok r ->
  match r with
  | None => errors <> ERaise /\ forall c, In c cats -> no_match sg loc n c
  | Some (o, m) => m = n /\ exists before cs objs after sp, cats = (before ++ (cs, objs) :: after)%list /\
      (forall c, In c before -> no_match sg loc n c) /\ dget cs n = Some sp /\
      exists c1 c c2 o1 o2, criteria n sp = (c1 ++ c :: c2)%list /\ objs = (o1 ++ o :: o2)%list /\ meets sg loc o c /\
        (forall c' o', In c' c1 -> In o' objs -> ~ meets sg loc o' c') /\ (forall o', In o' o1 -> ~ meets sg loc o' c)
  end.
Proof.
  induction cats as [|[cs objs] cats IH]; intros Hd; cbn [search_cats].
  - destruct errors; intro H; try discriminate; injection H as <-; (split; [discriminate|intros c []]).
  - destruct (search_single sg cs objs (Some n) loc EIgnore) as [s|x] eqn:ES; cbn [bind]; [|discriminate].
    assert (Hd1 : distinct_names objs) by exact (Hd _ (or_introl eq_refl)).
    destruct (dget cs n) as [sp|] eqn:EN.
    + assert (HS := C29_single _ _ _ _ _ _ _ _ EN Hd1 ES). destruct s as [[o m]|].
      * intro H. injection H as <-. destruct HS as (-> & _ & HS). split; [reflexivity|].
        exists [], cs, objs, cats, sp. split; [reflexivity|]. split; [intros c []|]. split; [exact EN|exact HS].
      * destruct HS as [_ HS]. intro H. specialize (IH (fun c Hc => Hd c (or_intror Hc)) H).
        assert (HN : no_match sg loc n (cs, objs)).
        { intros sp' o E Ho. cbn in E, Ho. rewrite EN in E. injection E as <-. now apply HS. }
        destruct r as [[o m]|].
        -- destruct IH as (-> & b & cs1 & ob1 & a & sp1 & -> & Hb & Hr). split; [reflexivity|].
           exists ((cs, objs) :: b), cs1, ob1, a, sp1. split; [reflexivity|]. split; [|exact Hr].
           intros c [<-|Hc]; auto.
        -- destruct IH as [H1 H2]. split; auto. intros c [<-|Hc]; auto.
    + destruct (C29_unknown sg cs objs n loc EN) as (_ & _ & EU). rewrite EU in ES. injection ES as <-.
      intro H. specialize (IH (fun c Hc => Hd c (or_intror Hc)) H).
      assert (HN : no_match sg loc n (cs, objs)).
      { intros sp' o E Ho. cbn in E. congruence. }
      destruct r as [[o m]|].
      * destruct IH as (-> & b & cs1 & ob1 & a & sp1 & -> & Hb & Hr). split; [reflexivity|].
        exists ((cs, objs) :: b), cs1, ob1, a, sp1. split; [reflexivity|]. split; [|exact Hr].
        intros c [<-|Hc]; auto.
      * destruct IH as [H1 H2]. split; auto. intros c [<-|Hc]; auto.
Qed.
(** The only error is that there is no match at all when errors are raised: a match that is not
    the only one of its category is not an error, and neither is a name that a category does not
    know. *)
Theorem C29_search_cats_total sg cats n loc errors : simple_loc loc ->
  (forall c o, In c cats -> In o (snd c) -> fair (fst c) o) ->
  (exists r, search_cats sg cats (Some n) loc errors = Ok r) \/
  errors = ERaise /\ search_cats sg cats (Some n) loc errors = Raise XoaCFError.
Proof.
  intros Hl. induction cats as [|[cs objs] cats IH]; intro Hf; cbn [search_cats].
  - destruct errors; eauto.
  - assert (HS : exists s, search_single sg cs objs (Some n) loc EIgnore = Ok s).
    { destruct (dget cs n) as [sp|] eqn:EN; [|destruct (C29_unknown sg cs objs n loc EN) as (_ & _ & E); eauto].
      destruct (C29_total sg cs objs n sp loc EIgnore EN Hl) as [f EF]; [intros o Ho; now apply (Hf (cs, objs) o (or_introl eq_refl))|].
      unfold search_single. rewrite EF. cbn [bind]. destruct f; eauto. }
    destruct HS as [s ->]. cbn [bind]. destruct s as [x|]; [eauto|]. apply IH. intros c o Hc. apply Hf. now right.
Qed.
Theorem C29_search_cats_raise sg cats n loc : simple_loc loc ->
  (forall c o, In c cats -> In o (snd c) -> fair (fst c) o) -> (forall c, In c cats -> distinct_names (snd c)) ->
  search_cats sg cats (Some n) loc ERaise = Raise XoaCFError <-> (forall c, In c cats -> no_match sg loc n c).
Proof.
  intros Hl Hf Hd. split; intro H.
  - destruct (C29_search_cats_total sg cats n loc EIgnore Hl Hf) as [[r Hr]|[E _]]; [|discriminate].
    assert (HR := C29_search_cats _ _ _ _ _ _ Hd Hr). destruct r as [[o m]|]; [|now destruct HR].
    exfalso. clear HR. revert H Hr. clear. induction cats as [|[cs objs] cats IH]; cbn [search_cats]; [discriminate|].
    destruct (search_single sg cs objs (Some n) loc EIgnore) as [[s|]|x]; cbn [bind]; [discriminate|auto|discriminate].
  - destruct (C29_search_cats_total sg cats n loc ERaise Hl Hf) as [[r Hr]|[_ Hr]]; auto.
    assert (HR := C29_search_cats _ _ _ _ _ _ Hd Hr). destruct r as [[o m]|]; [|now destruct HR].
    destruct HR as (-> & b & cs & ob & a & sp & -> & _ & E & c1 & c & c2 & o1 & o2 & E1 & -> & Hm & _).
    exfalso. apply (H (cs, (o1 ++ o :: o2)%list)) with (sp := sp) (o := o); auto.
    + rewrite in_app_iff; simpl; auto.
    + cbn. rewrite in_app_iff; simpl; auto.
    + exists c. split; auto. rewrite E1, in_app_iff; simpl; auto.
Qed.
(** Which categories: data variables first in a dataset, coordinates first in an array; one
    category when it is given by its name; a list of categories is as good as none. *)
Theorem C29_categories sg specs ds name loc errors :
  (forall c, specs_search sg specs ds (CatOne c) name loc errors = search_cats sg [specs c] name loc errors) /\
  (forall c l, specs_search sg specs true (CatList (c :: l)) name loc errors = specs_search sg specs true CatNone name loc errors) /\
  specs_search sg specs true CatNone name loc errors = search_cats sg [specs DataVars; specs Coords] name loc errors /\
  specs_search sg specs false CatNone name loc errors = search_cats sg [specs Coords; specs DataVars] name loc errors.
Proof. repeat split. Qed.
(** match without a name: the first entry that matches. *)
Theorem C29_match sg cs da loc m : match_any sg cs da loc = Ok m ->
  match m with
  | Some name => exists before sp after, cs = (before ++ (name, sp) :: after)%list /\
      matches sg loc name sp da /\ forall n s, In (n, s) before -> ~ matches sg loc n s da
  | None => forall n s, In (n, s) cs -> ~ matches sg loc n s da
  end.
Proof. apply match_any_iff. Qed.

(** *** Search without a name: the items that match some entry are found, but the CF name of the
    first one is given to all. *)
Lemma scan_any sg cs loc : forall objs name found nm f, distinct_names objs ->
  (forall o, In o objs -> in_found found o = false) ->
  scan sg cs loc None objs name found = Ok (nm, f) ->
  exists l, map fst f = (map fst found ++ l)%list /\
    (forall o, In o l <-> In o objs /\ exists n s, In (n, s) cs /\ matches sg loc n s o) /\
    (forall n0, name = Some n0 -> forall o m, In (o, m) f -> In (o, m) found \/ m = n0) /\
    (name = None -> found = [] -> f = [] \/ exists o n0 rest, f = (o, n0) :: rest /\
       (exists before sp after, cs = (before ++ (n0, sp) :: after)%list /\ matches sg loc n0 sp o) /\
       forall o' m, In (o', m) f -> m = n0).
Proof.
  induction objs as [|o objs IH]; intros name found nm f Hd Hn; cbn [scan].
  - intro H. injection H as <- <-. exists []. rewrite app_nil_r. split; [reflexivity|]. split; [|split; auto].
    intro o. split; [intros []|intros [[] _]].
  - unfold distinct_names in Hd. cbn [map] in Hd. apply NoDup_cons_iff in Hd. destruct Hd as [Hno Hd].
    destruct (match_any sg cs o loc) as [m|ex] eqn:E; cbn [bind]; [|discriminate].
    assert (Hm := match_any_iff _ _ _ _ _ E).
    assert (Hf0 : forall x, In x objs -> in_found found x = false) by (intros; apply Hn; now right).
    destruct m as [m|].
    + fold (in_found found o). rewrite (Hn o) by now left. intro H.
      assert (Hf1 : forall x, In x objs -> in_found (found ++ [(o, match name with Some n => n | None => m end)])%list x = false).
      { intros x Hx. destruct (in_found _ x) eqn:Ex; auto. apply in_found_app in Ex. destruct Ex as [Ex|Ex].
        - rewrite Hf0 in Ex; auto.
        - exfalso. apply Hno. rewrite Ex. now apply in_map. }
      destruct (IH _ _ _ _ Hd Hf1 H) as (l & H1 & H2 & H3 & _). exists (o :: l). split; [|split; [|split]].
      * rewrite H1, map_app. cbn [map fst]. now rewrite <- app_assoc.
      * intro x. cbn [In]. rewrite H2. split.
        -- intros [<-|[Hx Hy]]; [|tauto]. split; auto. destruct Hm as (b & sp & a & -> & Hm & _). exists m, sp. split; auto.
           rewrite in_app_iff. simpl. auto.
        -- intros [[->|Hx] Hy]; auto.
      * intros n0 ->. intros x mx Hx. destruct (H3 n0 eq_refl x mx Hx) as [H'|H']; auto.
        rewrite in_app_iff in H'. destruct H' as [H'|[H'|[]]]; auto. injection H' as _ <-. auto.
      * intros -> ->. right. cbn [app] in H1. destruct f as [|[o1 n1] f]; [discriminate|].
        cbn [map fst] in H1. injection H1 as -> H1. assert (Hall : forall o' mx, In (o', mx) ((o, n1) :: f) -> mx = m).
        { intros o' mx Hx. destruct (H3 m eq_refl o' mx Hx) as [[H'|[]]|H']; auto. now injection H' as _ <-. }
        assert (n1 = m) by (eapply Hall; left; reflexivity). subst n1.
        exists o, m, f. split; auto. split; auto. destruct Hm as (b & sp & a & Ecs & Hm & _). exists b, sp, a. auto.
    + intro H. destruct (IH _ _ _ _ Hd Hf0 H) as (l & H1 & H2 & H3 & H4). exists l. split; auto. split; auto.
      intro x. rewrite H2. split.
      * intros [Hx Hy]. split; [now right|exact Hy].
      * intros [[->|Hx] (n & s & Hns & Hy)]; [|eauto]. exfalso. eapply Hm; eauto.
Qed.
Theorem C29_search_any sg cs objs loc errors found : distinct_names objs ->
  search_all sg cs objs None loc errors = Ok (Some found) ->
  (forall o, In o (map fst found) <-> In o objs /\ exists n s, In (n, s) cs /\ matches sg loc n s o) /\
  (forall o n0 rest, found = (o, n0) :: rest -> (exists sp, In (n0, sp) cs /\ matches sg loc n0 sp o) /\
     forall o' m, In (o', m) found -> m = n0).
Proof.
  intros Hd. unfold search_all. cbn [scan_all].
  destruct (scan sg cs loc None objs None []) as [[nm f]|ex] eqn:E; cbn [bind fst snd scan_all]; [|discriminate].
  intro H. injection H as <-. destruct (scan_any sg cs loc objs None [] nm f Hd (fun _ _ => eq_refl) E) as (l & H1 & H2 & _ & H4).
  split.
  - intro o. rewrite H1. cbn [map app]. apply H2.
  - intros o n0 rest ->. destruct (H4 eq_refl eq_refl) as [H|(o1 & n1 & r1 & Ef & Hm & Hall)]; [discriminate|].
    injection Ef as -> -> ->. split; auto. destruct Hm as (b & sp & a & -> & Hm). exists sp. split; auto.
    rewrite in_app_iff. simpl. auto.
Qed.

(** *** Refutations and examples *)
Definition sg0 : sgloc := mksg default_name_format [].
Definition ex_specs : catspecs :=
  [("time", mkspec "nsa" [] [("standard_name", RefList ["time"]); ("axis", RefStr "T")]);
   ("lon", mkspec "snu" ["longitude"] [("standard_name", RefList ["longitude"]); ("units", RefList ["degrees_east"]); ("axis", RefStr "X")]);
   ("x", mkspec "nsa" ["xi"] [("standard_name", RefList ["x_grid_index"]); ("axis", RefNone)]);
   ("depth", mkspec "nsa" [] [("standard_name", RefList ["ocean_layer_depth"]); ("axis", RefStr "Z")])].
Definition item (n : string) (a : attrs) : darr := mkdarr (Some n) a.
(** A coordinate with attribute axis="Z" can not be matched, because an entry before depth has no axis. *)
Theorem C29_axis_refuted : match_any sg0 ex_specs (item "lev" [("axis", VStr "Z")]) MAny = Raise TypeError.
Proof. vm_compute. reflexivity. Qed.
(** A location given as a string: an item at no location makes the search fail. *)
Theorem C29_loc_refuted : search_all sg0 ex_specs [item "xi" []] (Some "x") (MStr "u") EIgnore = Raise TypeError.
Proof. vm_compute. reflexivity. Qed.
(** The second item is named after the first one, although it does not match it. *)
Theorem C29_sticky_refuted : exists o2,
  search_all sg0 ex_specs [item "time" []; o2] None MAny EWarn = Ok (Some [(item "time" [], "time"); (o2, "time")]) /\
  exists sp, dget ex_specs "time" = Some sp /\ ~ matches sg0 MAny "time" sp o2.
Proof.
  exists (item "longitude" []). split; [vm_compute; reflexivity|]. eexists. split; [reflexivity|].
  intros (c & Hc & Hm). assert (E : match_specs sg0 (item "longitude" []) (criteria "time" (mkspec "nsa" [] [("standard_name", RefList ["time"]); ("axis", RefStr "T")])) MAny = Ok false) by (vm_compute; reflexivity).
  apply match_specs_iff in E. assert (X : false = true); [|discriminate]. apply E. eauto.
Qed.
(** Priority: the standard name comes before the name for lon. *)
Example ex_priority : search_single sg0 ex_specs
    [item "lon" []; item "foo" [("standard_name", VStr "longitude")]] (Some "lon") MAny EWarn =
  Ok (Some (item "foo" [("standard_name", VStr "longitude")], "lon")).
Proof. vm_compute. reflexivity. Qed.
Example ex_raise : search_single sg0 ex_specs
    [item "lon" []; item "foo" [("standard_name", VStr "longitude")]] (Some "lon") MAny ERaise = Raise XoaCFError.
Proof. vm_compute. reflexivity. Qed.
Example ex_fair : fair ex_specs (item "foo" [("standard_name", VStr "longitude")]).
Proof.
  split.
  - intros k v. cbn. destruct (String.eqb k "standard_name"); [|discriminate]. intro E. injection E as <-. eauto.
  - intros name sp attr Hin. simpl in Hin. intro Hr.
    assert (attr = "axis").
    { repeat (destruct Hin as [E|Hin]; [injection E as <- <-; cbn in Hr;
        repeat match type of Hr with context [String.eqb ?a ?b] => destruct (String.eqb_spec a b); try discriminate; auto end|]). destruct Hin. }
    subst. reflexivity.
Qed.
