(** C30: types of dimensions. *)
From Verif Require Import CFSearchProofs CFSearchProps PyDictFacts PyBaseFacts.
From Verif Require Import SGLocProofs CFSearchSpec.
From Coq Require Import Lia Sorted.
Open Scope string_scope.

Lemma F2_length {A B} (R : A -> B -> Prop) l m : Forall2 R l m -> List.length l = List.length m.
Proof. induction 1; simpl; auto. Qed.
Lemma nonempty_iff s : nonempty s = true <-> s <> "".
Proof. destruct s; split; intro H; try discriminate; try reflexivity. now destruct H. Qed.
Lemma first_split_unique {A} (P : A -> Prop) l1 x1 r1 l2 x2 r2 :
  (l1 ++ x1 :: r1)%list = (l2 ++ x2 :: r2)%list -> P x1 -> P x2 ->
  (forall y, In y l1 -> ~ P y) -> (forall y, In y l2 -> ~ P y) -> l1 = l2 /\ x1 = x2 /\ r1 = r2.
Proof.
  revert l2. induction l1 as [|a l1 IH]; intros [|b l2]; cbn [app]; intros E H1 H2 N1 N2.
  - injection E as -> ->. auto.
  - injection E as -> _. exfalso. apply (N2 b); auto. now left.
  - injection E as <- _. exfalso. apply (N1 a); auto. now left.
  - injection E as -> E. destruct (IH l2 E H1 H2) as (-> & -> & ->); auto; intros; [apply N1|apply N2]; now right.
Qed.
Lemma has_axis_unique sg cs da t t' : has_axis sg cs da t -> has_axis sg cs da t' -> t = t'.
Proof.
  intros [(s & H & ->)|(H & b & n & sp & a & s & E & M & N & X & ->)] [(s' & H' & ->)|(H' & b' & n' & sp' & a' & s' & E' & M' & N' & X' & ->)]; try congruence.
  rewrite E in E'.
  destruct (first_split_unique (fun x => matches sg MAny (fst x) (snd x) da) _ _ _ _ _ _ E') as (_ & Es & _); auto.
  - intros [x y]. apply N.
  - intros [x y]. apply N'.
  - injection Es as <- <-. congruence.
Qed.
Lemma registered_unique dims r t t' : registered dims r t -> registered dims r t' -> t = t'.
Proof.
  intros (b & l & a & E & Hi & Hn) (b' & l' & a' & E' & Hi' & Hn'). rewrite E in E'.
  destruct (first_split_unique (fun x : string * list string => In (lower r) (snd x)) _ _ _ _ _ _ E') as (_ & Es & _); auto.
  - intros [x y]. apply Hn.
  - intros [x y]. apply Hn'.
  - now injection Es.
Qed.
(** A dimension has one type. *)
Theorem C30_one_type sg cs dims a d t t' : has_type sg cs dims a d t -> has_type sg cs dims a d t' -> t = t'.
Proof.
  intros (_ & r & ol & P & H) (_ & r' & ol' & P' & H'). rewrite P in P'. injection P' as <- <-.
  destruct H as [H|(N & _ & H)], H' as [H'|(N' & _ & H')].
  - eapply registered_unique; eauto.
  - exfalso. eapply N'; eauto.
  - exfalso. eapply N; eauto.
  - destruct (dget (x_coords a) r); eapply has_axis_unique; eauto.
Qed.

Lemma get_axis_iff sg cs da o : dict_wf cs -> get_axis sg cs da = Ok o -> forall t, o = Some t <-> has_axis sg cs da t.
Proof.
  intros Hw H. unfold get_axis in H.
  assert (Hx : match o with Some t => has_axis sg cs da t | None => forall t, ~ has_axis sg cs da t end).
  { destruct (dget (da_attrs da) "axis") as [[s| | |]|] eqn:E; try discriminate.
    - injection H as <-. left. eauto.
    - injection H as <-. intros t [(s & E' & _)|(E' & _)]; congruence.
    - destruct (match_any sg cs da MAny) as [m|] eqn:Em; cbn [bind] in H; [|discriminate].
      apply match_any_iff in Em. destruct m as [n|].
      + destruct Em as (b & sp & a & Ecs & M & N).
        assert (G : dget cs n = Some sp) by (apply dget_in; auto; rewrite Ecs, in_app_iff; simpl; auto).
        rewrite G in H. destruct (dget (s_attrs sp) "axis") as [[| |]|] eqn:Ea; try discriminate; injection H as <-.
        * right. split; auto. exists b, n, sp, a, s. auto.
        * intros t [(s & E' & _)|(_ & b' & n' & sp' & a' & s & E' & M' & N' & X' & _)]; [congruence|].
          rewrite Ecs in E'. destruct (first_split_unique (fun x => matches sg MAny (fst x) (snd x) da) _ _ _ _ _ _ E') as (_ & Es & _); auto.
          -- intros [x y]. apply N.
          -- intros [x y]. apply N'.
          -- injection Es as <- <-. congruence.
      + injection H as <-. intros t [(s & E' & _)|(_ & b' & n' & sp' & a' & s & E' & M' & _)]; [congruence|].
        apply (Em n' sp'); auto. rewrite E', in_app_iff. simpl. auto. }
  intro t. destruct o as [t0|].
  - split; [intro X; injection X as <-; auto|]. intro X. f_equal. eapply has_axis_unique; eauto.
  - split; [discriminate|]. intro X. exfalso. eapply Hx; eauto.
Qed.
Lemma known_type_iff dims r : match known_type dims r with
  | Some t => registered dims r t | None => forall t, ~ registered dims r t end.
Proof.
  unfold known_type. induction dims as [|[t l] dims IH]; cbn [List.find snd].
  - intros t (b & l & a & E & _). destruct b; discriminate.
  - destruct (existsb (String.eqb (lower r)) l) eqn:E.
    + exists [], l, dims. split; auto. split; [|intros ? ? []]. now apply existsb_in.
    + assert (N : ~ In (lower r) l) by (rewrite <- existsb_in; congruence).
      destruct (List.find _ dims) as [[t' l']|].
      * destruct IH as (b & l0 & a & -> & Hi & Hn). exists ((t, l) :: b), l0, a. split; auto. split; auto.
        intros x y [X|X]; [injection X as <- <-; auto|eauto].
      * intros t' (b & l0 & a & X & Hi & Hn). destruct b as [|p b]; cbn [app] in X.
        -- injection X as <- <- <-. auto.
        -- injection X as <- ->. apply (IH t'). exists b, l0, a. split; auto. split; auto. intros; apply (Hn t'0); now right.
Qed.
Lemma get_dim_type_iff sg cs dims a d o : dict_wf cs -> get_dim_type sg cs dims d (Some a) = Ok o ->
  forall t, t <> "" -> (o = Some t <-> has_type sg cs dims a d t).
Proof.
  intros Hw H t Ht. unfold get_dim_type in H. destruct (parse_attr sg "name" d) as [[r ol]|] eqn:P; cbn [bind fst] in H; [|discriminate].
  unfold has_type. assert (Hk := known_type_iff dims r). destruct (known_type dims r) as [t0|].
  - injection H as <-. split.
    + intro X. injection X as <-. split; auto. exists r, ol. auto.
    + intros (_ & r' & ol' & P' & X). rewrite P in P'. injection P' as <- <-. f_equal. destruct X as [X|(N & _)]; [|exfalso; eapply N; eauto].
      eapply registered_unique; eauto.
  - destruct (negb (existsb (String.eqb r) (x_dims a))) eqn:En; [discriminate|].
    apply Bool.negb_false_iff in En. apply existsb_in in En.
    destruct (dget (x_coords a) r) as [c|] eqn:Ec.
    + assert (Hx := get_axis_iff _ _ _ _ Hw H t). rewrite Hx. split.
      * intro X. split; auto. exists r, ol. split; auto. right. rewrite Ec. auto.
      * intros (_ & r' & ol' & P' & X). rewrite P in P'. injection P' as <- <-. destruct X as [X|(_ & _ & X)]; [exfalso; eapply Hk; eauto|]. now rewrite Ec in X.
    + destruct (get_axis sg cs (x_da a)) as [ax|] eqn:Ea; cbn [bind] in H; [|discriminate].
      assert (Hx := get_axis_iff _ _ _ _ Hw Ea t). assert (E : o = Some t <-> ax = Some t).
      { injection H as <-. destruct ax as [s|]; [|tauto]. destruct (nonempty s) eqn:Es; [tauto|]. split; [discriminate|].
        intro X. injection X as ->. apply nonempty_iff in Ht. congruence. }
      rewrite E, Hx. split.
      * intro X. split; auto. exists r, ol. split; auto. right. rewrite Ec. auto.
      * intros (_ & r' & ol' & P' & X). rewrite P in P'. injection P' as <- <-. destruct X as [X|(_ & _ & X)]; [exfalso; eapply Hk; eauto|]. now rewrite Ec in X.
Qed.
Theorem C30_get_dim_type sg cs dims a d o : dict_wf cs -> get_dim_type sg cs dims d (Some a) = Ok o ->
  forall t, t <> "" -> (o = Some t <-> has_type sg cs dims a d t).
Proof. apply get_dim_type_iff. Qed.

Lemma skip_loc_iff sg loc d r ol : parse_attr sg "name" d = Ok (r, ol) -> (skip_loc loc ol = false <-> at_loc sg loc d).
Proof.
  intro P. unfold at_loc, skip_loc. destruct loc as [l|]; [|split; auto; intros _ l p root X; discriminate].
  destruct ol as [p|].
  2: { split; auto. intros _ l' p root _ _ _ P'. rewrite P in P'. discriminate. }
  split.
  - intros H l' p' root E N1 N2 P' N3. injection E as <-. rewrite P in P'. injection P' as _ <-.
    apply nonempty_iff in N1, N3. rewrite N1, N3 in H. destruct (String.eqb_spec l "any"); [contradiction|].
    destruct (String.eqb_spec l p); auto. discriminate.
  - intro H. destruct (String.eqb_spec l "any"); [reflexivity|]. destruct (nonempty p) eqn:Np; auto. destruct (nonempty l) eqn:Nl; auto.
    apply nonempty_iff in Np, Nl. rewrite (H l p r) by auto. rewrite String.eqb_refl. reflexivity.
Qed.

(** search_dim: the first dimension of the array of this type at this location, or None. *)
Lemma search_dim_loop_iff sg cs dims a t loc : dict_wf cs -> forall todo o,
  search_dim_loop sg cs dims a t loc todo = Ok o ->
  match o with
  | Some d => exists before after, todo = (before ++ d :: after)%list /\ has_type sg cs dims a d t /\ at_loc sg loc d /\
      forall d', In d' before -> at_loc sg loc d' -> ~ has_type sg cs dims a d' t
  | None => forall d, In d todo -> at_loc sg loc d -> ~ has_type sg cs dims a d t
  end.
Proof.
  intros Hw. induction todo as [|d todo IH]; intros o; cbn [search_dim_loop].
  { intro H. injection H as <-. intros ? []. }
  destruct (parse_attr sg "name" d) as [[r ol]|] eqn:P; cbn [bind snd]; [|discriminate].
  assert (Hs := skip_loc_iff sg loc d r ol P).
  assert (Hno : (at_loc sg loc d -> ~ has_type sg cs dims a d t) -> search_dim_loop sg cs dims a t loc todo = Ok o ->
    match o with
    | Some d0 => exists before after, (d :: todo)%list = (before ++ d0 :: after)%list /\ has_type sg cs dims a d0 t /\ at_loc sg loc d0 /\
      forall d', In d' before -> at_loc sg loc d' -> ~ has_type sg cs dims a d' t
    | None => forall d0, In d0 (d :: todo) -> at_loc sg loc d0 -> ~ has_type sg cs dims a d0 t
    end).
  { intros N H. apply IH in H. destruct o as [d0|].
    - destruct H as (b & af & -> & H1 & H2 & H3). exists (d :: b), af. split; auto. split; auto. split; auto.
      intros d' [<-|X]; auto.
    - intros d0 [<-|X]; auto. }
  destruct (skip_loc loc ol) eqn:Es.
  - apply Hno. intros X. apply Hs in X. discriminate.
  - destruct (get_dim_type sg cs dims d (Some a)) as [ty|] eqn:G; cbn [bind]; [|discriminate].
    assert (Ht := get_dim_type_iff _ _ _ _ _ _ Hw G). destruct ty as [ty|].
    + destruct (nonempty ty && String.eqb ty t) eqn:E.
      * intro H. injection H as <-. apply andb_prop in E. destruct E as [E1 E2]. apply String.eqb_eq in E2. subst ty.
        apply nonempty_iff in E1. exists [], todo. split; auto. split; [now apply (Ht t)|]. split; [tauto|intros ? []].
      * apply Hno. intros _ X. assert (N := proj1 X). apply (Ht t N) in X. injection X as ->. rewrite String.eqb_refl, Bool.andb_true_r in E.
        apply nonempty_iff in N. congruence.
    + apply Hno. intros _ X. assert (N := proj1 X). apply (Ht t N) in X. discriminate.
Qed.
Theorem C30_search_dim sg cs dims a t loc o : dict_wf cs -> search_dim sg cs dims a t loc = Ok o ->
  match o with
  | Some d => exists before after, x_dims a = (before ++ d :: after)%list /\ has_type sg cs dims a d (lower t) /\ at_loc sg loc d /\
      forall d', In d' before -> at_loc sg loc d' -> ~ has_type sg cs dims a d' (lower t)
  | None => forall d, In d (x_dims a) -> at_loc sg loc d -> ~ has_type sg cs dims a d (lower t)
  end.
Proof. intros Hw. apply search_dim_loop_iff, Hw. Qed.

(** Totality *)
Lemma get_axis_total sg cs da : axis_fair cs da -> exists o, get_axis sg cs da = Ok o.
Proof.
  intros (Hf & Ha & Hw). unfold get_axis. destruct (dget (da_attrs da) "axis") as [v|] eqn:E.
  - destruct (proj1 Hf _ _ E) as [[s ->]| ->]; eauto.
  - destruct (C29_match_total sg cs da MAny Logic.I Hf) as [m Hm]. rewrite Hm. cbn [bind]. destruct m as [n|]; [|eauto].
    apply match_any_iff in Hm. destruct Hm as (b & sp & af & Ecs & _).
    assert (Hin : In (n, sp) cs) by (rewrite Ecs, in_app_iff; simpl; auto).
    assert (G : dget cs n = Some sp) by (apply dget_in; auto).
    rewrite G. destruct (Ha _ _ Hin) as (r & -> & Hr). destruct r; eauto. exfalso. now apply (Hr l).
Qed.
Lemma get_dim_type_total sg cs dims a d : dim_fair sg cs dims a d -> exists o, get_dim_type sg cs dims d (Some a) = Ok o.
Proof.
  intros (r & ol & P & H). unfold get_dim_type. rewrite P. cbn [bind fst]. assert (Hk := known_type_iff dims r).
  destruct (known_type dims r) as [t|]; [eauto|]. destruct H as [[t H]|[Hi H]]; [exfalso; eapply Hk; eauto|].
  apply existsb_in in Hi. rewrite Hi. cbn [negb]. destruct (dget (x_coords a) r) as [c|].
  - now apply get_axis_total.
  - destruct (get_axis_total sg cs _ H) as [o ->]. cbn [bind]. eauto.
Qed.
Theorem C30_search_dim_total sg cs dims a t loc : (forall d, In d (x_dims a) -> dim_fair sg cs dims a d) ->
  exists o, search_dim sg cs dims a t loc = Ok o.
Proof.
  intro H. unfold search_dim. revert H. generalize (x_dims a) at 1 2 as todo. induction todo as [|d todo IH]; intro H; cbn [search_dim_loop]; [eauto|].
  destruct (H d (or_introl eq_refl)) as (r & ol & P & HH). rewrite P. cbn [bind snd].
  assert (Hr := IH (fun d' X => H d' (or_intror X))). destruct (skip_loc loc ol); auto.
  destruct (get_dim_type_total sg cs dims a d) as [o ->]; [apply H; now left|]. cbn [bind]. destruct o as [ty|]; auto.
  destruct (nonempty ty && String.eqb ty (lower t)); eauto.
Qed.

(** get_dims *)
Lemma scan_types_get sg cs dims a : forall types scanned out, NoDup types -> dict_wf scanned ->
  (forall t, In t types -> ~ In t (dkeys scanned)) ->
  scan_types sg cs dims a types scanned = Ok out ->
  exists vals, out = (scanned ++ combine types vals)%list /\ Forall2 (fun t o => search_dim sg cs dims a t None = Ok o) types vals.
Proof.
  induction types as [|t types IH]; intros scanned out Hn Hw Hd; cbn [scan_types].
  - intro H. injection H as <-. exists []. rewrite app_nil_r. auto.
  - destruct (search_dim sg cs dims a t None) as [o|] eqn:E; cbn [bind]; [|discriminate]. intro H.
    apply NoDup_cons_iff in Hn. destruct Hn as [Hn1 Hn2].
    assert (Eq : dset scanned t o = (scanned ++ [(t, o)])%list).
    { apply dset_new. apply Hd. now left. }
    rewrite Eq in H.
    edestruct (IH (scanned ++ [(t, o)])%list out Hn2) as (vals & E1 & E2); [| |exact H|].
    + unfold dict_wf, dkeys. rewrite <- Eq. now apply dset_wf.
    + intros t' Ht'. unfold dkeys. rewrite map_app, in_app_iff. cbn [map fst In]. intros [X|[X|[]]].
      * apply (Hd t'); auto. now right.
      * subst. auto.
    + exists (o :: vals). split; [|constructor; auto]. cbn [combine]. rewrite E1, <- app_assoc. reflexivity.
Qed.
Lemma scan_types_total sg cs dims a : forall types scanned,
  (forall t, In t types -> exists o, search_dim sg cs dims a t None = Ok o) ->
  exists out, scan_types sg cs dims a types scanned = Ok out.
Proof.
  induction types as [|t types IH]; intros scanned H; cbn [scan_types]; [eauto|].
  destruct (H t (or_introl eq_refl)) as [o ->]. cbn [bind]. apply IH. intros; apply H; now right.
Qed.
Lemma combine_snd {A B} (l : list A) (m : list B) : List.length l = List.length m -> map snd (combine l m) = m.
Proof. revert m; induction l as [|x l IH]; intros [|y m] H; cbn; auto; try discriminate. f_equal. apply IH. now injection H. Qed.
Lemma unfound_in d t : In t (unfound d) <-> In (t, None) d.
Proof.
  unfold unfound. rewrite in_map_iff. split.
  - intros ([k [v|]] & <- & H); apply filter_In in H; destruct H as [H E]; [discriminate|exact H].
  - intro H. exists (t, None). split; auto. apply filter_In. auto.
Qed.
(** Without the positional fallback, the answer is that of search_dim for each type. *)
Theorem C30_get_dims sg cs dims a types positions errors out : NoDup types ->
  get_dims sg cs dims a types false positions errors = Ok out ->
  Forall2 (fun t o => search_dim sg cs dims a t None = Ok o) types out /\
  (errors = ERaise -> (List.length types <= List.length (x_dims a))%nat /\ forall o, In o out -> o <> None).
Proof.
  intros Hn H. unfold get_dims in H. destruct (match errors with ERaise => _ | _ => false end) eqn:El; [discriminate|].
  destruct (scan_types sg cs dims a types []) as [sc|] eqn:Es; cbn [bind] in H; [|discriminate].
  destruct (scan_types_get _ _ _ _ _ _ _ Hn (NoDup_nil _ : dict_wf []) (fun _ _ X => X) Es) as (vals & Ev & Hf). cbn [app] in Ev.
  assert (Hl := F2_length _ _ _ Hf).
  assert (Hs : map snd sc = vals) by (rewrite Ev; now apply combine_snd).
  assert (out = vals /\ (errors = ERaise -> unfound sc = [])) as [-> Hu].
  { destruct errors, (unfound sc); try discriminate; injection H as <-; auto; split; auto; discriminate. }
  split; auto. intros ->. split; [now apply Nat.ltb_ge in El|]. intros o Ho ->. specialize (Hu eq_refl).
  rewrite <- Hs in Ho. apply in_map_iff in Ho. destruct Ho as ([t o] & E & Ho). cbn in E. subst o. apply unfound_in in Ho. rewrite Hu in Ho. destruct Ho.
Qed.

(** It succeeds for every array whose dimensions can be typed. *)
Theorem C30_get_dims_total sg cs dims a types positions errors : dict_wf cs -> NoDup types ->
  (forall d, In d (x_dims a) -> dim_fair sg cs dims a d) ->
  (errors = ERaise -> (List.length types <= List.length (x_dims a))%nat /\
     forall t, In t types -> exists d, In d (x_dims a) /\ has_type sg cs dims a d (lower t)) ->
  exists out, get_dims sg cs dims a types false positions errors = Ok out.
Proof.
  intros Hw Hn Hf He. unfold get_dims.
  assert (match errors with ERaise => (List.length (x_dims a) <? List.length types)%nat | _ => false end = false) as ->.
  { destruct errors; auto. apply Nat.ltb_ge. now apply He. }
  destruct (scan_types_total sg cs dims a types []) as [sc Es].
  { intros t _. now apply C30_search_dim_total. }
  rewrite Es. cbn [bind]. destruct errors; eauto. destruct (unfound sc) as [|t l] eqn:Eu; [eauto|]. exfalso.
  assert (Hin : In t (unfound sc)) by (rewrite Eu; now left). apply unfound_in in Hin.
  destruct (scan_types_get _ _ _ _ _ _ _ Hn (NoDup_nil _ : dict_wf []) (fun _ _ X => X) Es) as (vals & Ev & HF). cbn [app] in Ev. subst sc.
  assert (Ht := in_combine_l _ _ _ _ Hin).
  assert (Hs : search_dim sg cs dims a t None = Ok None).
  { clear -Hin HF. induction HF as [|x y l m HR HF IH]; cbn in Hin; [destruct Hin|]. destruct Hin as [X|Hin]; [now injection X as -> ->|auto]. }
  apply C30_search_dim in Hs; auto. destruct (proj2 (He eq_refl) t Ht) as (d & Hd & Hty). apply (Hs d); auto. intros l' p root X. discriminate.
Qed.
(** errors="raise": it fails when a type is not found. *)
Theorem C30_get_dims_raise sg cs dims a types positions t : dict_wf cs -> NoDup types -> In t types ->
  (forall d, In d (x_dims a) -> dim_fair sg cs dims a d) ->
  (forall d, In d (x_dims a) -> ~ has_type sg cs dims a d (lower t)) ->
  get_dims sg cs dims a types false positions ERaise = Raise XoaError.
Proof.
  intros Hw Hn Ht Hf Hno. unfold get_dims. destruct (_ <? _)%nat; auto.
  destruct (scan_types_total sg cs dims a types []) as [sc Es].
  { intros x _. now apply C30_search_dim_total. }
  rewrite Es. cbn [bind]. destruct (unfound sc) as [|t' l] eqn:Eu; auto. exfalso.
  destruct (scan_types_get _ _ _ _ _ _ _ Hn (NoDup_nil _ : dict_wf []) (fun _ _ X => X) Es) as (vals & Ev & HF). cbn [app] in Ev. subst sc.
  assert (exists o, In (t, o) (combine types vals) /\ search_dim sg cs dims a t None = Ok o) as (o & Hc & Hs).
  { clear -Ht HF. induction HF as [|x y l m HR HF IH]; [destruct Ht|]. destruct Ht as [->|Ht]; [exists y; cbn; auto|].
    destruct (IH Ht) as (o & H1 & H2). exists o. cbn. auto. }
  apply C30_search_dim in Hs; auto. destruct o as [d|].
  - destruct Hs as (b & af & Ed & Hty & _). apply (Hno d); auto. rewrite Ed, in_app_iff. simpl. auto.
  - apply unfound_in in Hc. rewrite Eu in Hc. destruct Hc.
Qed.
(** Two types that differ (up to case) never get the same dimension. *)
Theorem C30_distinct sg cs dims a types positions errors out i j ti tj d : dict_wf cs -> NoDup types ->
  get_dims sg cs dims a types false positions errors = Ok out ->
  nth_error types i = Some ti -> nth_error types j = Some tj -> lower ti <> lower tj ->
  nth_error out i = Some (Some d) -> nth_error out j <> Some (Some d).
Proof.
  intros Hw Hn H Hi Hj Hne Hoi Hoj. apply C30_get_dims in H; auto. destruct H as [HF _].
  assert (G : forall k t o, nth_error types k = Some t -> nth_error out k = Some o -> search_dim sg cs dims a t None = Ok o).
  { clear -HF. induction HF; intros [|k] t o; cbn; try discriminate; intros X Y.
    - injection X as <-. injection Y as <-. auto.
    - eauto. }
  apply (G i ti) in Hoi; auto. apply (G j tj) in Hoj; auto.
  apply C30_search_dim in Hoi; auto. apply C30_search_dim in Hoj; auto.
  destruct Hoi as (_ & _ & _ & H1 & _), Hoj as (_ & _ & _ & H2 & _). apply Hne. eapply C30_one_type; eauto.
Qed.

(** The positional fallback: a type that is found keeps its dimension; one that is not found
    gets the dimension at its place in [positions], counted from the end. *)
Lemma positional_get a nf : forall rpos i sc out, positional a nf rpos i sc = Ok out -> NoDup rpos ->
  forall t, ((~ In t nf \/ ~ In t rpos) -> dget out t = dget sc t) /\
   (forall k, In t nf -> nth_error rpos k = Some t -> exists d, nth_error (rev (x_dims a)) (i + k) = Some d /\ dget out t = Some (Some d)).
Proof.
  induction rpos as [|p rpos IH]; intros i sc out; cbn [positional].
  - intros H _ t. injection H as <-. split; auto.
    intros [|k]; discriminate.
  - intros H Hn t. apply NoDup_cons_iff in Hn. destruct Hn as [Hn1 Hn2].
    destruct (existsb (String.eqb p) nf) eqn:E.
    + destruct (nth_error (rev (x_dims a)) i) as [d|] eqn:Ed; [|discriminate]. destruct (IH _ _ _ H Hn2 t) as (H2 & H3). split.
      * intros X. rewrite H2; [|destruct X as [X|X]; auto; right; intro; apply X; now right].
        rewrite dget_dset. destruct (String.eqb_spec t p) as [->|]; auto. apply existsb_in in E.
        destruct X as [X|X]; [contradiction|]. exfalso. apply X. now left.
      * intros [|k] Hin Hk; cbn in Hk.
        -- injection Hk as ->. exists d. split; [now rewrite Nat.add_0_r|]. rewrite H2 by auto. now rewrite dget_dset, String.eqb_refl.
        -- destruct (H3 k Hin Hk) as (d' & Hd' & Ho). exists d'. split; auto. now rewrite Nat.add_succ_r.
    + destruct (IH _ _ _ H Hn2 t) as (H2 & H3). split.
      * intros X. apply H2. destruct X as [X|X]; auto. right. intro; apply X; now right.
      * intros [|k] Hin Hk; cbn in Hk.
        -- injection Hk as ->. exfalso. apply existsb_in in Hin. congruence.
        -- destruct (H3 k Hin Hk) as (d' & Hd' & Ho). exists d'. split; auto. now rewrite Nat.add_succ_r.
Qed.

Lemma positional_keys a nf : forall rpos i sc out, (forall t, In t nf -> In t (dkeys sc)) -> positional a nf rpos i sc = Ok out -> dkeys out = dkeys sc.
Proof.
  induction rpos as [|p rpos IH]; intros i sc out Hk; cbn [positional].
  - intro H. now injection H as <-.
  - destruct (existsb (String.eqb p) nf) eqn:E; [|apply IH; auto].
    destruct (nth_error _ i) as [d|]; [|discriminate]. apply existsb_in in E.
    assert (K : dkeys (dset sc p (Some d)) = dkeys sc).
    { rewrite dkeys_dset. apply Hk, dmem_in in E. now rewrite E. }
    intro H. rewrite (IH (S i) (dset sc p (Some d)) out); auto. now rewrite K.
Qed.
Lemma nth_dget {B} : forall (sc : dict B) i t, dict_wf sc -> nth_error (dkeys sc) i = Some t -> nth_error (map snd sc) i = dget sc t.
Proof.
  unfold dict_wf, dkeys. induction sc as [|[k v] sc IH]; intros [|i] t; cbn [map fst snd nth_error dget]; try discriminate; intros Hw H.
  - injection H as <-. now rewrite String.eqb_refl.
  - apply NoDup_cons_iff in Hw. destruct Hw as [H1 H2]. rewrite (IH _ _ H2 H). destruct (String.eqb_spec t k) as [->|]; auto.
    exfalso. apply H1. now apply nth_error_In in H.
Qed.
Theorem C30_positional sg cs dims a types positions errors out : NoDup types -> NoDup positions ->
  get_dims sg cs dims a types true positions errors = Ok out ->
  List.length out = List.length types /\
  forall i t, nth_error types i = Some t -> exists o, search_dim sg cs dims a t None = Ok o /\
    match o with
    | Some d => nth_error out i = Some (Some d)
    | None => (~ In t positions /\ nth_error out i = Some None) \/
              exists k d, nth_error (rev positions) k = Some t /\ nth_error (rev (x_dims a)) k = Some d /\ nth_error out i = Some (Some d)
    end.
Proof.
  intros Hn Hp H. unfold get_dims in H. destruct (match errors with ERaise => _ | _ => false end); [discriminate|].
  destruct (scan_types sg cs dims a types []) as [sc|] eqn:Es; cbn [bind] in H; [|discriminate].
  destruct (scan_types_get _ _ _ _ _ _ _ Hn (NoDup_nil _ : dict_wf []) (fun _ _ X => X) Es) as (vals & Ev & HF). cbn [app] in Ev.
  destruct (positional a (unfound sc) (rev positions) 0 sc) as [sc'|] eqn:Ep; cbn [bind] in H; [|discriminate].
  assert (out = map snd sc') as ->.
  { destruct errors, (unfound sc'); try discriminate; now injection H as <-. } clear H.
  assert (Hl := F2_length _ _ _ HF).
  assert (K0 : dkeys sc = types).
  { rewrite Ev. clear -Hl. unfold dkeys. revert vals Hl. induction types as [|x l IH]; intros [|y v] Hl; try discriminate; cbn; auto. f_equal. apply IH. now injection Hl. }
  assert (Hu : forall t, In t (unfound sc) -> In t (dkeys sc)).
  { intros t Ht. apply unfound_in in Ht. unfold dkeys. apply (in_map fst) in Ht. exact Ht. }
  assert (K := positional_keys _ _ _ _ _ _ Hu Ep). rewrite K0 in K.
  assert (W0 : dict_wf sc) by (unfold dict_wf; now rewrite K0).
  assert (W : dict_wf sc') by (unfold dict_wf; now rewrite K).
  split. { rewrite map_length, <- K. unfold dkeys. now rewrite map_length. }
  intros i t Ht. assert (Hvi : exists o, nth_error vals i = Some o /\ search_dim sg cs dims a t None = Ok o).
  { clear -HF Ht. revert i Ht. induction HF; intros [|i]; cbn; try discriminate; intro X; [injection X as <-; eauto|auto]. }
  destruct Hvi as (o & Hvi & Hs). exists o. split; auto.
  assert (Gt : dget sc t = Some o).
  { rewrite <- (nth_dget sc i t); auto; [|now rewrite K0]. rewrite Ev, combine_snd; auto. }
  rewrite (nth_dget sc' i t); [|exact W|now rewrite K].
  destruct (positional_get _ _ _ _ _ _ Ep (NoDup_rev Hp) t) as (G1 & G2). destruct o as [d|].
  - rewrite G1; auto. left. intro X. apply unfound_in in X. apply dget_in in X; auto. congruence.
  - assert (Hun : In t (unfound sc)) by (apply unfound_in, dget_in; auto).
    destruct (in_dec string_dec t positions) as [Hi|Hi].
    + right. apply in_rev in Hi. apply In_nth_error in Hi. destruct Hi as [k Hk]. destruct (G2 k Hun Hk) as (d & Hd & Ho).
      exists k, d. auto.
    + left. split; auto. rewrite G1; auto. right. now rewrite <- in_rev.
Qed.

(** search_dim without a type: the dimension has the axis of the array, or is its only one. *)
Lemma search_dim0_loop_iff sg cs dims a t loc : dict_wf cs -> forall todo last r,
  search_dim0_loop sg cs dims a t loc todo last = Ok r ->
  match fst r with
  | Some (d, t') => t = Some t' /\ In d todo /\ has_type sg cs dims a d t' /\ at_loc sg loc d
  | None => forall d t', t = Some t' -> In d todo -> at_loc sg loc d -> ~ has_type sg cs dims a d t'
  end.
Proof.
  intro Hw. induction todo as [|d todo IH]; intros last r; cbn [search_dim0_loop].
  { intro H. injection H as <-. intros ? ? _ []. }
  destruct (parse_attr sg "name" d) as [[rt ol]|] eqn:P; cbn [bind snd]; [|discriminate].
  assert (Hs := skip_loc_iff sg loc d rt ol P).
  assert (Hno : forall last', (forall t', t = Some t' -> at_loc sg loc d -> ~ has_type sg cs dims a d t') -> search_dim0_loop sg cs dims a t loc todo last' = Ok r ->
    match fst r with
    | Some (d0, t') => t = Some t' /\ In d0 (d :: todo) /\ has_type sg cs dims a d0 t' /\ at_loc sg loc d0
    | None => forall d0 t', t = Some t' -> In d0 (d :: todo) -> at_loc sg loc d0 -> ~ has_type sg cs dims a d0 t'
    end).
  { intros last' N H. apply IH in H. destruct (fst r) as [[d0 t']|].
    - destruct H as (H1 & H2 & H3). split; auto. split; auto. now right.
    - intros d0 t' Et [<-|X]; eauto. }
  destruct (skip_loc loc ol) eqn:Es.
  - apply Hno. intros t' _ X. apply Hs in X. discriminate.
  - destruct (get_dim_type sg cs dims d (Some a)) as [ty|] eqn:G; cbn [bind]; [|discriminate].
    assert (Ht := get_dim_type_iff _ _ _ _ _ _ Hw G). destruct t as [t'|]; [|apply Hno; discriminate]. destruct ty as [ty|].
    + destruct (nonempty t' && nonempty ty && String.eqb ty t') eqn:E.
      * intro H. injection H as <-. cbn [fst]. apply andb_prop in E. destruct E as [E1 E2]. apply andb_prop in E1. destruct E1 as [E0 E1].
        apply String.eqb_eq in E2. subst ty. apply nonempty_iff in E1. split; auto. split; [now left|]. split; [now apply (Ht t')|tauto].
      * apply Hno. intros t0 Et _ X. injection Et as <-. assert (N := proj1 X). apply (Ht t' N) in X. injection X as ->.
        apply nonempty_iff in N. rewrite String.eqb_refl, N in E. discriminate.
    + apply Hno. intros t0 Et _ X. injection Et as <-. assert (N := proj1 X). apply (Ht t' N) in X. discriminate.
Qed.
Theorem C30_search_dim_auto sg cs dims a loc o : dict_wf cs -> search_dim0 sg cs dims a loc = Ok o ->
  match o with
  | Some (d, t) => In d (x_dims a) /\
      ((exists t', t = Some t' /\ has_axis sg cs (x_da a) t' /\ has_type sg cs dims a d t' /\ at_loc sg loc d) \/ x_dims a = [d])
  | None => (List.length (x_dims a) <> 1)%nat /\ forall d t', has_axis sg cs (x_da a) t' -> In d (x_dims a) -> at_loc sg loc d -> ~ has_type sg cs dims a d t'
  end.
Proof.
  intros Hw. unfold search_dim0. destruct (get_axis sg cs (x_da a)) as [t|] eqn:Ea; cbn [bind]; [|discriminate].
  assert (Hx := get_axis_iff _ _ _ _ Hw Ea).
  destruct (search_dim0_loop sg cs dims a t loc (x_dims a) None) as [[r l]|] eqn:E; cbn [bind fst snd]; [|discriminate].
  apply search_dim0_loop_iff in E; auto. cbn [fst] in E. destruct r as [[d t']|].
  - intro H. injection H as <-. destruct E as (Et & Hd & Hty & Hl). split; auto. left. exists t'. split; auto. split; auto. now apply Hx.
  - destruct (x_dims a) as [|d [|d' ds]] eqn:Ed.
    + intro H. injection H as <-. split; [discriminate|]. intros ? ? _ [].
    + destruct l as [ty|]; [|discriminate]. intro H. injection H as <-. split; [now left|auto].
    + intro H. injection H as <-. split; [cbn; lia|]. intros x t' Ha. apply Hx in Ha. subst t. eauto.
Qed.

(** search_from_dim: a coordinate that has this dimension, and the axis of its type. *)
Lemma insert_ndim_in c l x : In x (insert_ndim c l) <-> x = c \/ In x l.
Proof.
  induction l as [|y l IH]; cbn [insert_ndim]; [simpl; intuition|].
  destruct (_ <=? _)%nat; cbn [In]; [intuition|]. rewrite IH. tauto.
Qed.
Lemma sort_ndim_in l x : In x (sort_ndim l) <-> In x l.
Proof. induction l as [|y l IH]; cbn [sort_ndim]; [tauto|]. rewrite insert_ndim_in, IH. simpl. intuition. Qed.
Definition ndim (c : cda) := List.length (c_dims c).
Lemma sort_ndim_sorted l : StronglySorted (fun x y => (ndim y <= ndim x)%nat) (sort_ndim l).
Proof.
  induction l as [|c l IH]; cbn [sort_ndim]; [constructor|].
  induction (sort_ndim l) as [|y m IHm]; cbn [insert_ndim]; [repeat constructor|].
  inversion IH as [|? ? Hm HF]; subst. destruct (Nat.leb_spec (List.length (c_dims y)) (List.length (c_dims c))) as [H|H].
  - constructor; auto. constructor; [exact H|]. eapply Forall_impl; [|exact HF]. intros z Hz. cbn beta in *. unfold ndim in *. lia.
  - constructor; auto. apply Forall_forall. intros z Hz. apply insert_ndim_in in Hz. destruct Hz as [->|Hz]; [unfold ndim; lia|].
    rewrite Forall_forall in HF. now apply HF.
Qed.
Lemma first_axis_iff sg cs dim t : dict_wf cs -> forall l o, StronglySorted (fun x y => (ndim y <= ndim x)%nat) l ->
  first_axis sg cs dim t l = Ok o ->
  match o with
  | Some c => In c l /\ In dim (c_dims c) /\ t <> "" /\ has_axis sg cs (c_da c) t /\
      forall c', In c' l -> In dim (c_dims c') -> has_axis sg cs (c_da c') t -> (ndim c' <= ndim c)%nat
  | None => forall c, In c l -> In dim (c_dims c) -> t <> "" -> ~ has_axis sg cs (c_da c) t
  end.
Proof.
  intros Hw. induction l as [|c l IH]; intros o Hs; cbn [first_axis].
  { intro H. injection H as <-. intros ? []. }
  inversion Hs as [|? ? Hs' HF]; subst. specialize (fun o => IH o Hs').
  assert (Hno : (In dim (c_dims c) -> t <> "" -> ~ has_axis sg cs (c_da c) t) -> first_axis sg cs dim t l = Ok o ->
    match o with
    | Some c0 => In c0 (c :: l) /\ In dim (c_dims c0) /\ t <> "" /\ has_axis sg cs (c_da c0) t /\
        forall c', In c' (c :: l) -> In dim (c_dims c') -> has_axis sg cs (c_da c') t -> (ndim c' <= ndim c0)%nat
    | None => forall c0, In c0 (c :: l) -> In dim (c_dims c0) -> t <> "" -> ~ has_axis sg cs (c_da c0) t
    end).
  { intros N H. apply IH in H. destruct o as [c0|].
    - destruct H as (H1 & H2 & H3 & H4 & H5). split; [now right|]. split; auto. split; auto. split; auto.
      intros c' [<-|X] Y Z; [exfalso; now apply N|auto].
    - intros c0 [<-|X]; auto. }
  destruct (existsb (String.eqb dim) (c_dims c)) eqn:Ed.
  - apply existsb_in in Ed. destruct (get_axis sg cs (c_da c)) as [ax|] eqn:Ea; cbn [bind]; [|discriminate].
    assert (Hx := get_axis_iff _ _ _ _ Hw Ea). destruct ax as [s|].
    + destruct (nonempty s && String.eqb s t) eqn:E.
      * intro H. injection H as <-. apply andb_prop in E. destruct E as [E1 E2]. apply String.eqb_eq in E2. subst s. apply nonempty_iff in E1.
        split; [now left|]. split; auto. split; auto. split; [now apply Hx|]. intros c' [<-|X] _ _; auto.
        rewrite Forall_forall in HF. now apply HF.
      * apply Hno. intros _ N X. apply Hx in X. injection X as ->. apply nonempty_iff in N. rewrite N, String.eqb_refl in E. discriminate.
    + apply Hno. intros _ N X. apply Hx in X. discriminate.
  - apply Hno. intros X. apply existsb_in in X. congruence.
Qed.
(** A name that is not a dimension of the array is refused, with the error of the package *)
Theorem C30_search_from_dim_unknown sg cs dims a d : ~ In d (x_dims a) -> search_from_dim sg cs dims a d = Raise XoaError.
Proof.
  intro H. unfold search_from_dim. destruct (existsb (String.eqb d) (x_dims a)) eqn:E; [|reflexivity]. apply existsb_in in E. contradiction.
Qed.
Theorem C30_search_from_dim sg cs dims a d o : dict_wf cs -> search_from_dim sg cs dims a d = Ok o ->
  In d (x_dims a) /\
  match o with
  | Some c =>
      (dget (x_coords a) d = Some c /\ forall k c', In (k, c') (x_coords a) -> In d (c_dims c') -> k = d) \/
      ((exists k, In (k, c) (x_coords a)) /\ In d (c_dims c) /\
       exists t, has_type sg cs dims a d t /\ has_axis sg cs (c_da c) t /\
       forall k c', In (k, c') (x_coords a) -> In d (c_dims c') -> has_axis sg cs (c_da c') t -> (ndim c' <= ndim c)%nat)
  | None => forall t k c, has_type sg cs dims a d t -> In (k, c) (x_coords a) -> In d (c_dims c) -> ~ has_axis sg cs (c_da c) t
  end.
Proof.
  intros Hw H. unfold search_from_dim in H. destruct (existsb (String.eqb d) (x_dims a)) eqn:Ed; cbn [negb] in H; [|discriminate].
  apply existsb_in in Ed. split; auto.
  destruct (existsb (fun kv : string * cda => negb (String.eqb (fst kv) d) && existsb (String.eqb d) (c_dims (snd kv))) (x_coords a)) eqn:Eo; cbv zeta iota in H.
  all: assert (Hgen : (let* t := get_dim_type sg cs dims d (Some a) in
    match t with
    | None => Ok None
    | Some t => first_axis sg cs d t (sort_ndim (map snd (x_coords a)))
    end) = Ok o -> match o with
  | Some c => ((exists k, In (k, c) (x_coords a)) /\ In d (c_dims c) /\
       exists t, has_type sg cs dims a d t /\ has_axis sg cs (c_da c) t /\
       forall k c', In (k, c') (x_coords a) -> In d (c_dims c') -> has_axis sg cs (c_da c') t -> (ndim c' <= ndim c)%nat)
  | None => forall t k c, has_type sg cs dims a d t -> In (k, c) (x_coords a) -> In d (c_dims c) -> ~ has_axis sg cs (c_da c) t
  end).
  1,3: clear H; destruct (get_dim_type sg cs dims d (Some a)) as [ty|] eqn:G; cbn [bind]; [|discriminate];
    assert (Ht := get_dim_type_iff _ _ _ _ _ _ Hw G); destruct ty as [t|];
    [intro H; apply first_axis_iff in H; auto using sort_ndim_sorted; destruct o as [c|];
      [destruct H as (H1 & H2 & H3 & H4 & H5); apply (proj1 (sort_ndim_in _ _)) in H1; apply in_map_iff in H1;
       destruct H1 as ([k c0] & E & H1); cbn [snd] in E; subst c0; split; [eauto|]; split; auto; exists t; split; [now apply (Ht t)|]; split; auto;
       intros k' c' X; apply H5; apply sort_ndim_in; apply (in_map snd) in X; exact X
      |intros t' k c Hty X; assert (N := proj1 Hty); apply (Ht t' N) in Hty; injection Hty as <-; intro Y;
       apply H; auto; apply sort_ndim_in; apply (in_map snd) in X; exact X]
    |intro H; injection H as <-; intros t k c Hty; assert (N := proj1 Hty); apply (Ht t N) in Hty; discriminate].
  - apply Hgen in H. destruct o; auto.
  - destruct (dget (x_coords a) d) as [c|] eqn:Ec.
    + injection H as <-. left. split; auto. intros k c' X Y. destruct (String.eqb_spec k d); auto. exfalso.
      assert (Z : existsb (fun kv : string * cda => negb (String.eqb (fst kv) d) && existsb (String.eqb d) (c_dims (snd kv))) (x_coords a) = true).
      { apply existsb_exists. exists (k, c'). split; auto. cbn [fst snd]. apply existsb_in in Y. rewrite Y.
        destruct (String.eqb_spec k d); [contradiction|reflexivity]. }
      congruence.
    + apply Hgen in H. destruct o; auto.
Qed.

(** *** Refutations and examples *)
Definition ex_dims : dict (list string) := [("x", ["x"; "lon"; "xi"]); ("y", ["y"; "lat"]); ("t", ["t"; "time"])].
Definition plain (dims : list string) : xda := mkxda (item "temp" []) dims [].
(** The dimension my_dim is taken for my at location dim, and there is no such dimension. *)
Theorem C30_located_refuted : search_dim sg0 ex_specs ex_dims (plain ["my_dim"; "lon"]) "x" None = Raise XoaCFError.
Proof. vm_compute. reflexivity. Qed.
(** A dimension registered with an upper case letter is not recognised. *)
Theorem C30_upper_refuted : search_dim sg0 ex_specs [("x", ["XI"])] (plain ["XI"]) "x" None = Ok None.
Proof. vm_compute. reflexivity. Qed.
(** A type asked for twice is given once. *)
Theorem C30_repeat_refuted : get_dims sg0 ex_specs ex_dims (plain ["lat"; "lon"]) ["x"; "x"] false [] ERaise = Ok [Some "lon"].
Proof. vm_compute. reflexivity. Qed.
(** The positional fallback gives the same dimension to two types, *)
Theorem C30_positional_refuted : get_dims sg0 ex_specs ex_dims (plain ["lon"; "foo"; "bar"]) ["z"; "x"] true ["t"; "z"; "y"; "x"] ERaise =
  Ok [Some "lon"; Some "lon"].
Proof. vm_compute. reflexivity. Qed.
(** or fails with IndexError, even when errors are ignored. *)
Theorem C30_positional_index_refuted : get_dims sg0 ex_specs ex_dims (plain ["lat"; "lon"]) ["t"] true ["t"; "z"; "y"; "x"] EIgnore = Raise IndexError.
Proof. vm_compute. reflexivity. Qed.
(** The only dimension is at another location, no type is given: UnboundLocalError *)
Theorem C30_unbound_refuted : search_dim0 sg0 ex_specs ex_dims (plain ["lon_u"]) (Some "v") = Raise UnboundLocalError.
Proof. vm_compute. reflexivity. Qed.

Example ex_dim_fair d : In d ["time"; "lat_v"; "lon"] -> dim_fair sg0 ex_specs ex_dims (plain ["time"; "lat_v"; "lon"]) d.
Proof.
  intros [<-|[<-|[<-|[]]]]; (eexists _, _; split; [vm_compute; reflexivity|]); left.
  - exists "t", [("x", ["x"; "lon"; "xi"]); ("y", ["y"; "lat"])], ["t"; "time"], []. split; [reflexivity|]. split; [cbn; auto|].
    cbn. intros t' l' [X|[X|[]]]; injection X as <- <-; cbn; intuition discriminate.
  - exists "y", [("x", ["x"; "lon"; "xi"])], ["y"; "lat"], [("t", ["t"; "time"])]. split; [reflexivity|]. split; [cbn; auto|].
    cbn. intros t' l' [X|[]]; injection X as <- <-; cbn; intuition discriminate.
  - exists "x", [], ["x"; "lon"; "xi"], [("y", ["y"; "lat"]); ("t", ["t"; "time"])]. split; [reflexivity|]. split; [cbn; auto|]. intros ? ? [].
Qed.
Example ex_get_dims : get_dims sg0 ex_specs ex_dims (plain ["time"; "lat_v"; "lon"]) ["x"; "t"; "y"] false [] ERaise = Ok [Some "lon"; Some "time"; Some "lat_v"].
Proof. vm_compute. reflexivity. Qed.
Example ex_positional : get_dims sg0 ex_specs ex_dims (plain ["time"; "lev"; "lat"; "lon"]) ["z"; "x"] true ["t"; "z"; "y"; "x"] ERaise = Ok [Some "lev"; Some "lon"].
Proof. vm_compute. reflexivity. Qed.
Example ex_from_dim : exists c, search_from_dim sg0 ex_specs [("z", ["level"])] (mkxda (item "temp" []) ["level"; "lon"]
   [("level", mkcda (item "level" []) ["level"]); ("depth", mkcda (item "depth" []) ["level"; "lon"])]) "level" = Ok (Some c) /\ c_da c = item "depth" [].
Proof. eexists. split; vm_compute; reflexivity. Qed.
