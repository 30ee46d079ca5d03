(** Lemmas for C29. *)
From Verif Require Export CFSearchSpec PyDictFacts.
From Verif Require Import MiscProofs PyReFacts SGLocProofs.
From Coq Require Import Lia.
Open Scope string_scope.

Lemma existsb_in x l : existsb (String.eqb x) l = true <-> In x l.
Proof.
  rewrite existsb_exists. split.
  - intros (y & Hy & E). apply String.eqb_eq in E. now subst.
  - intro H. exists x. split; auto. apply String.eqb_refl.
Qed.
Lemma contains_iff s p : contains s p = true <-> exists a b, s = a ++ p ++ b.
Proof.
  induction s as [|c s IH]; cbn [contains].
  - rewrite orb_false_r, startswith_app. split.
    + intros (t & E). exists "", t. exact E.
    + intros (a & b & E). destruct a; [eauto|discriminate].
  - rewrite orb_true_iff, startswith_app, IH. split.
    + intros [(t & E)|(a & b & E)]; [exists "", t; exact E|exists (String c a), b; now rewrite E].
    + intros (a & b & E). destruct a as [|c' a]; [left; eauto|right]. injection E as _ ->. eauto.
Qed.
Lemma match_string_same v ref : match_string (Some v) (One (CStr ref)) true None = true <-> same_text v ref.
Proof.
  unfold match_string, same_text. destruct (String.eqb_spec v "") as [->|Nv]; cbn [orb checks_false].
  { split; [discriminate|intros (H & _); congruence]. }
  destruct (String.eqb_spec ref "") as [->|Nr].
  { split; [discriminate|intros (_ & H & _); congruence]. }
  cbn [check_list List.filter is_cnone negb match_loop app map existsb].
  rewrite orb_false_r, String.eqb_eq. intuition.
Qed.
Lemma match_attr_iff sg attr v ref loc b : known_attr attr -> match_attr sg attr v ref loc = Ok b ->
  (b = Some true <-> exists r ol, parse_attr sg attr (lower v) = Ok (r, ol) /\ lower r = lower ref /\ loc_ok loc ol).
Proof.
  intros Hk. apply valid_attr_iff in Hk. unfold match_attr. rewrite Hk. cbn [negb].
  destruct (parse_attr sg attr (lower v)) as [[r ol]|ex] eqn:Ep; cbn [bind fst snd]; [|discriminate].
  assert (Hex : (exists r0 ol0, Ok (r, ol) = Ok (r0, ol0) /\ lower r0 = lower ref /\ loc_ok loc ol0) <->
     (lower r = lower ref /\ loc_ok loc ol)).
  { split; [intros (r0 & ol0 & E & H); injection E as <- <-; exact H|eauto]. }
  rewrite Hex. destruct (String.eqb_spec (lower r) (lower ref)) as [E|N]; cbn [negb].
  2:{ intro H. injection H as <-. split; [discriminate|tauto]. }
  assert (HN : forall o : option string, Some (match o with None => true | _ => false end) = Some true <-> o = None).
  { intros []; split; congruence. }
  destruct loc as [| |s|[|x l]]; cbn [loc_ok].
  - intro H. injection H as <-. tauto.
  - intro H. injection H as <-. rewrite HN. tauto.
  - destruct (String.eqb_spec s "any") as [->|Ns].
    + intro H. injection H as <-. tauto.
    + destruct (nonempty s) eqn:En; cbn [negb].
      * apply nonempty_iff in En. destruct ol as [l|]; [|discriminate]. intro H. injection H as <-.
        split.
        -- intro H. injection H as H. apply contains_iff in H. destruct H as (a & b & H). split; auto. right. right.
           split; auto. exists l, a, b. auto.
        -- intros (_ & [H|[[H _]|(_ & l' & a & b & H1 & H2)]]); try congruence. injection H1 as <-.
           f_equal. apply contains_iff. eauto.
      * intro H. injection H as <-. rewrite HN. assert (Es : s = ""). { destruct s; [reflexivity|discriminate]. }
        split; [auto|]. intros (_ & [H|[[_ H]|(H & _)]]); congruence.
  - intro H. injection H as <-. rewrite HN. tauto.
  - intro H. injection H as <-. destruct ol as [y|].
    + split.
      * intro H. injection H as H. change (existsb (String.eqb y) (x :: l) = true) in H. apply existsb_in in H. eauto.
      * intros (_ & z & H1 & H2). injection H1 as <-. f_equal. change (existsb (String.eqb y) (x :: l) = true). now apply existsb_in.
    + split; [discriminate|]. intros (_ & z & H1 & _). discriminate.
Qed.

Lemma match_value_iff sg attr v ref loc b : match_value sg attr v ref loc = Ok b ->
  (b = true <-> fits sg loc attr v ref).
Proof.
  unfold match_value, fits. destruct (is_valid_attr attr) eqn:Ea.
  - assert (Hk := Ea). apply valid_attr_iff in Hk.
    destruct (match_attr sg attr v ref loc) as [ob|ex] eqn:E; cbn [bind]; [|discriminate].
    assert (Hm := match_attr_iff sg attr v ref loc ob Hk E). destruct ob as [[|]|].
    + intro H. injection H as <-. tauto.
    + intro H. assert (Hb : match_string (Some v) (One (CStr ref)) true None = b) by congruence. clear H. rewrite <- Hb. rewrite match_string_same. split; [auto|]. intros [H|[_ H]]; [auto|]. apply Hm in H. discriminate.
    + intro H. assert (Hb : match_string (Some v) (One (CStr ref)) true None = b) by congruence. clear H. rewrite <- Hb. rewrite match_string_same. split; [auto|]. intros [H|[_ H]]; [auto|]. apply Hm in H. discriminate.
  - cbn [bind]. intro H. assert (Hb : match_string (Some v) (One (CStr ref)) true None = b) by congruence. clear H. rewrite <- Hb. rewrite match_string_same. split; [auto|].
    intros [H|[H _]]; [auto|]. apply valid_attr_iff in H. congruence.
Qed.
Lemma match_refs_iff sg attr v l loc b : match_refs sg attr v l loc = Ok b ->
  (b = true <-> exists ref, In ref l /\ fits sg loc attr v ref).
Proof.
  revert b; induction l as [|r l IH]; intro b; cbn [match_refs].
  - intro H. injection H as <-. split; [discriminate|intros (? & [] & _)].
  - destruct (match_value sg attr v r loc) as [b0|ex] eqn:E; cbn [bind]; [|discriminate].
    apply match_value_iff in E. destruct b0.
    + intro H. injection H as <-. split; [|auto]. intros _. exists r. split; [now left|now apply E].
    + intro H. rewrite (IH b H). split; intros (ref & Hin & Hf); exists ref; (split; [|exact Hf]).
      * now right.
      * destruct Hin as [->|Hin]; auto. apply E in Hf. discriminate.
Qed.
Lemma match_specs_iff sg da ms loc b : match_specs sg da ms loc = Ok b ->
  (b = true <-> exists crit, In crit ms /\ meets sg loc da crit).
Proof.
  revert b; induction ms as [|[attr r] ms IH]; intro b; cbn [match_specs].
  - intro H. injection H as <-. split; [discriminate|intros (? & [] & _)].
  - assert (Hone : forall b0, match da_get da attr with
              | VNone => Ok false
              | VStr v => let* l := iter_refs r in match_refs sg attr v l loc
              | _ => let* l := iter_refs r in match l with [] => Ok false | _ => Raise AttributeError end
              end = Ok b0 -> (b0 = true <-> meets sg loc da (attr, r))).
    { intros b0 H. unfold meets. cbn [fst snd]. destruct (da_get da attr) as [v|vl| |n].
      - destruct r as [l|s|]; cbn [iter_refs bind ref_list] in *; try discriminate;
          apply match_refs_iff in H; rewrite H; split; intros (x & Hx); [exists v, x; tauto| |exists v, x; tauto|];
          destruct Hx as (ref & E & Hx); injection E as <-; exists ref; tauto.
      - destruct (iter_refs r) as [[|]|]; cbn [bind] in H; try discriminate. injection H as <-.
        split; [discriminate|]. intros (? & ? & E & _). discriminate.
      - injection H as <-. split; [discriminate|]. intros (? & ? & E & _). discriminate.
      - destruct (iter_refs r) as [[|]|]; cbn [bind] in H; try discriminate. injection H as <-.
        split; [discriminate|]. intros (? & ? & E & _). discriminate. }
    match goal with |- bind ?X _ = _ -> _ => set (F := X) in *; destruct F as [b0|ex] eqn:E end; cbn [bind]; [|discriminate].
    specialize (Hone b0 eq_refl). destruct b0.
    + intro H. injection H as <-. split; [|auto]. intros _. exists (attr, r). split; [now left|now apply Hone].
    + intro H. rewrite (IH b H). split; intros (c & Hin & Hf); exists c; (split; [|exact Hf]).
      * now right.
      * destruct Hin as [<-|Hin]; auto. apply Hone in Hf. discriminate.
Qed.

(** ** Criteria *)
Definition add1 (name : string) (sp : spec) (ms : dict refs) (attr : string) : dict refs :=
  if String.eqb attr "name" then dset ms "name" (RefList (name :: s_names sp))
  else match dget (s_attrs sp) attr with Some r => dset ms attr r | None => ms end.
Lemma fold_letter name sp a ms :
  fold_left (add_spec name sp (String a "")) match_keys ms = fold_left (add1 name sp) (letter_attr (String a "")) ms.
Proof. destruct a as [[] [] [] [] [] [] [] []]; reflexivity. Qed.
Lemma chars_one s c : In c (chars s) -> exists a, c = String a "".
Proof. induction s as [|a s IH]; cbn [chars]; intros []; eauto. Qed.
Lemma ordered_fold name sp : ordered_match_specs name sp =
  fold_left (add1 name sp) (flat_map letter_attr (chars (s_order sp))) [].
Proof.
  unfold ordered_match_specs. assert (H := chars_one (s_order sp)).
  generalize (@nil (string * refs)). induction (chars (s_order sp)) as [|c l IH]; intro ms; [reflexivity|].
  cbn [fold_left flat_map]. rewrite fold_left_app. destruct (H c) as [a ->]; [now left|].
  rewrite fold_letter. apply IH. intros c' Hc. apply H. now right.
Qed.
Lemma attr_refs_keys name sp S : map fst (flat_map (attr_refs name sp) S) =
  List.filter (fun a => match attr_refs name sp a with [] => false | _ => true end) S.
Proof.
  induction S as [|a S IH]; [reflexivity|]. cbn [flat_map List.filter]. rewrite map_app, IH.
  unfold attr_refs. destruct (String.eqb a "name"); [reflexivity|]. destruct (dget (s_attrs sp) a); reflexivity.
Qed.
Lemma dget_app {V} (d e : dict V) k : dget (d ++ e)%list k = match dget d k with Some v => Some v | None => dget e k end.
Proof. induction d as [|[k0 v0] d IH]; [reflexivity|]. cbn [app dget]. destruct (String.eqb k k0); auto. Qed.
Lemma attr_refs_get name sp S a r : In (a, r) (attr_refs name sp a) -> In a S -> dget (flat_map (attr_refs name sp) S) a = Some r.
Proof.
  intros Ha. induction S as [|b S IH]; intros Hin; [destruct Hin|]. cbn [flat_map]. rewrite dget_app.
  destruct (string_dec b a) as [->|N].
  - revert Ha. unfold attr_refs. destruct (String.eqb a "name").
    + intros [E|[]]. injection E as <-. cbn [dget]. now rewrite String.eqb_refl.
    + destruct (dget (s_attrs sp) a); [|intros []]. intros [E|[]]. injection E as <-. cbn [dget]. now rewrite String.eqb_refl.
  - destruct Hin as [E|Hin]; [congruence|]. replace (dget (attr_refs name sp b) a) with (@None refs); [auto|].
    unfold attr_refs. destruct (String.eqb b "name"); [|destruct (dget (s_attrs sp) b)]; cbn [dget];
      try (destruct (String.eqb_spec a b); [congruence|reflexivity]).
Qed.
Lemma add1_step name sp S a : add1 name sp (flat_map (attr_refs name sp) S) a =
  if existsb (String.eqb a) S then flat_map (attr_refs name sp) S else flat_map (attr_refs name sp) (S ++ [a]).
Proof.
  destruct (existsb (String.eqb a) S) eqn:E.
  - apply existsb_in in E. unfold add1. destruct (String.eqb_spec a "name") as [->|N].
    + apply dset_same. apply attr_refs_get; auto. unfold attr_refs. rewrite String.eqb_refl. now left.
    + destruct (dget (s_attrs sp) a) as [r|] eqn:Er; auto. apply dset_same. apply attr_refs_get; auto.
      unfold attr_refs. destruct (String.eqb_spec a "name"); [congruence|]. rewrite Er. now left.
  - assert (Hn : ~ In a (map fst (flat_map (attr_refs name sp) S))).
    { rewrite attr_refs_keys, filter_In, <- existsb_in, E. intros [? _]. discriminate. }
    rewrite flat_map_app. cbn [flat_map]. rewrite app_nil_r. unfold add1.
    destruct (String.eqb_spec a "name") as [->|N].
    + now apply dset_new.
    + assert (Ea : attr_refs name sp a = match dget (s_attrs sp) a with Some r => [(a, r)] | None => [] end).
      { unfold attr_refs. destruct (String.eqb_spec a "name"); [congruence|reflexivity]. }
      rewrite Ea. destruct (dget (s_attrs sp) a); [now apply dset_new|now rewrite app_nil_r].
Qed.
Lemma fold_add1 name sp L : forall S seen, (forall x, existsb (String.eqb x) seen = existsb (String.eqb x) S) ->
  fold_left (add1 name sp) L (flat_map (attr_refs name sp) S) =
  flat_map (attr_refs name sp) (S ++ gunique_loop String.eqb seen L).
Proof.
  induction L as [|a L IH]; intros S seen H; cbn [fold_left gunique_loop]; [now rewrite app_nil_r|].
  rewrite add1_step, <- H. destruct (existsb (String.eqb a) seen) eqn:E; [now apply IH|].
  rewrite (IH (S ++ [a])%list (a :: seen)).
  - now rewrite <- app_assoc.
  - intro x. cbn [existsb]. rewrite existsb_app. cbn [existsb]. rewrite orb_false_r, H. apply orb_comm.
Qed.
Lemma ordered_criteria name sp : ordered_match_specs name sp = criteria name sp.
Proof.
  rewrite ordered_fold. unfold criteria, gunique. apply (fold_add1 name sp _ [] []). reflexivity.
Qed.

(** ** match *)
Lemma match_any_iff sg todo da loc m : match_any sg todo da loc = Ok m ->
  match m with
  | Some name => exists before sp after, todo = (before ++ (name, sp) :: after)%list /\
      matches sg loc name sp da /\ forall n s, In (n, s) before -> ~ matches sg loc n s da
  | None => forall n s, In (n, s) todo -> ~ matches sg loc n s da
  end.
Proof.
  revert m; induction todo as [|[name sp] todo IH]; intro m; cbn [match_any].
  - intro H. injection H as <-. intros ? ? [].
  - destruct (match_specs sg da (ordered_match_specs name sp) loc) as [b|ex] eqn:E; cbn [bind]; [|discriminate].
    apply match_specs_iff in E. rewrite ordered_criteria in E. destruct b.
    + intro H. injection H as <-. exists [], sp, todo. split; [reflexivity|]. split; [now apply E|intros ? ? []].
    + intro H. specialize (IH m H). destruct m as [n|].
      * destruct IH as (b & sp' & a & -> & H1 & H2). exists ((name, sp) :: b), sp', a. split; [reflexivity|]. split; auto.
        intros n' s' [X|X]; [|auto]. injection X as <- <-. intro Hm. apply E in Hm. discriminate.
      * intros n' s' [X|X]; [|auto]. injection X as <- <-. intro Hm. apply E in Hm. discriminate.
Qed.
Lemma matches_in_some sg loc cs da name sp : In (name, sp) cs -> matches sg loc name sp da ->
  match_any sg cs da loc <> Ok None.
Proof. intros Hin Hm E. apply match_any_iff in E. eapply E; eauto. Qed.
