(** C56: getting given coordinates, and searching in both categories. *)
From Verif Require Import CFGetters CFSearchSpec CFSearchProps.
From Verif Require Import PyDictFacts.
From Coq Require Import Lia.
Open Scope string_scope.

(** The best match of an entry among items: of its first criterion that is met, the first item *)
Definition best sg loc n (c : catspecs * list darr) (o : darr) : Prop := exists sp c1 k c2 o1 o2,
  dget (fst c) n = Some sp /\ criteria n sp = (c1 ++ k :: c2)%list /\ snd c = (o1 ++ o :: o2)%list /\ meets sg loc o k /\
  (forall c' o', In c' c1 -> In o' (snd c) -> ~ meets sg loc o' c') /\ (forall o', In o' o1 -> ~ meets sg loc o' k).
Definition none_in sg n (l : list (catspecs * list darr)) : Prop := forall c, In c l -> no_match sg MAny n c.
(** The best match of the first category that has one *)
Definition first_best sg n (l : list (catspecs * list darr)) (o : darr) : Prop :=
  exists b c a, l = (b ++ c :: a)%list /\ none_in sg n b /\ best sg MAny n c o.
Definition scanned (specs : category -> catspecs * list darr) (ds : bool) : list (catspecs * list darr) :=
  if ds then [specs DataVars; specs Coords] else [specs Coords; specs DataVars].
Definition sane (l : list (catspecs * list darr)) : Prop :=
  (forall c o, In c l -> In o (snd c) -> fair (fst c) o) /\ forall c, In c l -> distinct_names (snd c).

Lemma search_is sg specs ds n e : specs_search sg specs ds CatNone (Some n) MAny e = search_cats sg (scanned specs ds) (Some n) MAny e.
Proof. now destruct ds. Qed.
Lemma search_cases sg l n e : sane l -> e <> ERaise ->
  (search_cats sg l (Some n) MAny e = Ok None /\ none_in sg n l) \/
  exists o, search_cats sg l (Some n) MAny e = Ok (Some (o, n)) /\ first_best sg n l o.
Proof.
  intros [Hf Hd] He. destruct (C29_search_cats_total sg l n MAny e I Hf) as [[r Hr]|[E _]]; [|congruence].
  assert (HR := C29_search_cats _ _ _ _ _ _ Hd Hr). destruct r as [[o m]|].
  - right. destruct HR as (-> & b & cs & ob & a & sp & -> & Hb & E & c1 & c & c2 & o1 & o2 & E1 & E2 & Hm & H1 & H2).
    exists o. split; auto. exists b, (cs, ob), a. split; auto. split; [exact Hb|]. exists sp, c1, c, c2, o1, o2. cbn [fst snd]. auto 10.
  - left. split; auto. now destruct HR.
Qed.
Lemma none_not_best sg n l o : none_in sg n l -> ~ first_best sg n l o.
Proof.
  intros N (b & c & a & -> & _ & sp & c1 & k & c2 & o1 & o2 & E & E1 & E2 & Hm & _).
  apply (N c ltac:(rewrite in_app_iff; cbn; auto) sp o E); [rewrite E2, in_app_iff; cbn; auto|]. exists k. split; auto. rewrite E1, in_app_iff. cbn. auto.
Qed.

(** get_lon, get_lat, get_depth and get_altitude: the best match, or None *)
Theorem C56_named sg specs ds n errors : sane (scanned specs ds) ->
  (get_named sg specs ds n errors = Ok None /\ none_in sg n (scanned specs ds)) \/
  exists o, get_named sg specs ds n errors = Ok (Some (o, n)) /\ first_best sg n (scanned specs ds) o.
Proof. intro S. unfold get_named. rewrite search_is. now apply search_cases. Qed.
(** Each of them with its own entry *)
Definition gets (g : sgloc -> (category -> catspecs * list darr) -> bool -> errs -> res (option (darr * string))) (n : string) : Prop :=
  forall sg specs ds errors, sane (scanned specs ds) ->
  (g sg specs ds errors = Ok None /\ none_in sg n (scanned specs ds)) \/
  exists o, g sg specs ds errors = Ok (Some (o, n)) /\ first_best sg n (scanned specs ds) o.
Theorem C56_lon_lat_depth_altitude : gets get_lon "lon" /\ gets get_lat "lat" /\ gets get_depth "depth" /\ gets get_altitude "altitude".
Proof. repeat split; intros sg specs ds errors S; apply C56_named; exact S. Qed.
(** False: with [errors="raise"], which is the default, a missing coordinate is an error. *)
Theorem C56_named_refuted sg specs ds n : sane (scanned specs ds) -> none_in sg n (scanned specs ds) ->
  get_named sg specs ds n ERaise = Ok None.
Proof. intros S N. destruct (C56_named sg specs ds n ERaise S) as [[E _]|(o & _ & F)]; auto. exfalso. revert F. now apply none_not_best. Qed.

(** get_vertical: the depth, else the altitude... *)
Theorem C56_vertical sg specs ds errors : let l := scanned specs ds in sane l ->
  (exists o, get_vertical sg specs ds errors = Ok (Some (o, "depth")) /\ first_best sg "depth" l o) \/
  (none_in sg "depth" l /\ exists o, get_vertical sg specs ds errors = Ok (Some (o, "altitude")) /\ first_best sg "altitude" l o) \/
  (none_in sg "depth" l /\ none_in sg "altitude" l /\ get_vertical sg specs ds errors = Raise XoaError).
Proof.
  intros l S. unfold get_vertical. rewrite !search_is. fold l.
  destruct (search_cases sg l "depth" EIgnore S ltac:(discriminate)) as [[-> N]|(o & -> & F)]; cbn [bind]; [|left; eauto].
  right. destruct (search_cases sg l "altitude" EIgnore S ltac:(discriminate)) as [[-> N']|(o & -> & F)]; cbn [bind]; [|left; eauto]. right. auto.
Qed.
(** ... and an error without both, whatever [errors]: *)
Theorem C56_vertical_refuted sg specs ds errors : sane (scanned specs ds) -> none_in sg "depth" (scanned specs ds) -> none_in sg "altitude" (scanned specs ds) ->
  get_vertical sg specs ds errors = Raise XoaError.
Proof.
  intros S N1 N2. destruct (C56_vertical sg specs ds errors S) as [(o & _ & F)|[(_ & o & _ & F)|(_ & _ & E)]]; auto; exfalso; revert F; now apply none_not_best.
Qed.

(** get_level and get_time: the only match.  None or several are an error, whatever [errors]. *)
Lemma nodup_priority M crits : forall objs, NoDup objs -> NoDup (by_priority M crits objs).
Proof.
  induction crits as [|c crits IH]; intros objs N; cbn; [constructor|].
  assert (Sub : forall objs' o, In o (by_priority M crits objs') -> In o objs').
  { clear. induction crits as [|c crits IH]; intros objs' o; cbn; [tauto|]. rewrite in_app_iff. intros [H|H]; [apply filter_In in H; tauto|].
    apply IH in H. apply filter_In in H. tauto. }
  assert (X : forall (l1 l2 : list darr), NoDup l1 -> NoDup l2 -> (forall x, In x l1 -> ~ In x l2) -> NoDup (l1 ++ l2)%list).
  { clear. induction l1 as [|x l1 IH]; intros l2 N1 N2 D; cbn; auto. inversion N1; subst. constructor.
    - rewrite in_app_iff. intros [H|H]; [contradiction|]. apply (D x); cbn; auto.
    - apply IH; auto. intros y Hy. apply D. now right. }
  apply X; [now apply NoDup_filter|apply IH; now apply NoDup_filter|].
  intros o H1 H2. apply filter_In in H1. apply Sub in H2. apply filter_In in H2. destruct H1 as [_ H1], H2 as [_ H2]. rewrite H1 in H2. discriminate.
Qed.
Theorem C56_coord sg specs n sp : dget (fst (specs Coords)) n = Some sp -> sane [specs Coords] ->
  let objs := snd (specs Coords) in
  (exists o, get_coord sg specs n = Ok (Some (o, n)) /\ In o objs /\ matches sg MAny n sp o /\ forall o', In o' objs -> matches sg MAny n sp o' -> o' = o) \/
  (get_coord sg specs n = Raise XoaCFError /\
   ((forall o, In o objs -> ~ matches sg MAny n sp o) \/
    exists o o', o <> o' /\ In o objs /\ In o' objs /\ matches sg MAny n sp o /\ matches sg MAny n sp o')).
Proof.
  intros E S. unfold get_coord. destruct (specs Coords) as [cs ob]. cbn zeta. cbn [fst snd] in *. destruct S as [Hf Hd].
  specialize (Hd _ (or_introl eq_refl)). cbn [snd] in Hd.
  assert (Hf' : forall o, In o ob -> fair cs o) by (intros o Ho; now apply (Hf (cs, ob) o (or_introl eq_refl))).
  unfold search_single. destruct (C29_total sg cs ob n sp MAny ERaise E I Hf') as [found Hs]. rewrite Hs. cbn [bind].
  assert (Iff := C29_found_iff _ _ _ _ _ _ _ _ E Hd Hs). destruct (C29_search _ _ _ _ _ _ _ _ E Hd Hs) as (M & _ & EF).
  assert (ND : NoDup (by_priority M (criteria n sp) ob)). { apply nodup_priority. unfold distinct_names in Hd. now apply NoDup_map_inv in Hd. }
  destruct found as [|[o m] [|[o' m'] rest]].
  - right. split; auto. left. intros o Ho Hm. apply (proj2 (Iff o n)). auto.
  - left. destruct (proj1 (Iff o m) (or_introl eq_refl)) as (-> & Ho & Hm). exists o. split; auto. split; auto. split; auto.
    intros o' Ho' Hm'. destruct (proj2 (Iff o' n) (conj eq_refl (conj Ho' Hm'))) as [X|[]]. congruence.
  - right. split; auto. right. destruct (proj1 (Iff o m) (or_introl eq_refl)) as (-> & Ho & Hm).
    destruct (proj1 (Iff o' m') (or_intror (or_introl eq_refl))) as (-> & Ho' & Hm'). exists o, o'. repeat split; auto.
    destruct (by_priority M (criteria n sp) ob) as [|a [|b l]]; try discriminate EF. injection EF as -> -> _. inversion ND as [|? ? Na _]; subst. intros ->. apply Na. now left.
Qed.
(** The level and the time *)
Theorem C56_level_time sg specs sp errors : sane [specs Coords] ->
  let objs := snd (specs Coords) in
  let only_match n (r : res (option (darr * string))) :=
    (exists o, r = Ok (Some (o, n)) /\ In o objs /\ matches sg MAny n sp o /\ forall o', In o' objs -> matches sg MAny n sp o' -> o' = o) \/
    (r = Raise XoaCFError /\
     ((forall o, In o objs -> ~ matches sg MAny n sp o) \/
      exists o o', o <> o' /\ In o objs /\ In o' objs /\ matches sg MAny n sp o /\ matches sg MAny n sp o')) in
  (dget (fst (specs Coords)) "level" = Some sp -> only_match "level" (get_level sg specs errors)) /\
  (dget (fst (specs Coords)) "time" = Some sp -> only_match "time" (get_time sg specs)).
Proof. intros S objs only. split; intro E; apply (C56_coord sg specs _ sp E S). Qed.
Theorem C56_coord_refuted sg specs errors sp : dget (fst (specs Coords)) "level" = Some sp -> sane [specs Coords] ->
  (forall o, In o (snd (specs Coords)) -> ~ matches sg MAny "level" sp o) -> get_level sg specs errors = Raise XoaCFError.
Proof. intros E S N. destruct (C56_coord sg specs "level" sp E S) as [(o & _ & Ho & Hm & _)|[H _]]; auto. exfalso. now apply (N o). Qed.

(** get_cf_coords: one result per name, in the same order; None when there is no match. *)
Theorem C56_coords sg specs names errors : sane [specs Coords] ->
  exists l, get_cf_coords sg specs names errors = Ok l /\
  Forall2 (fun n r => match r with
                      | None => no_match sg MAny n (specs Coords)
                      | Some (o, m) => m = n /\ best sg MAny n (specs Coords) o
                      end) names l.
Proof.
  intros [Hf Hd]. specialize (Hd _ (or_introl eq_refl)).
  assert (Hf' : forall o, In o (snd (specs Coords)) -> fair (fst (specs Coords)) o) by (intros o Ho; now apply (Hf (specs Coords) o (or_introl eq_refl))).
  unfold get_cf_coords. induction names as [|n names (l & IH & HF)]; [exists []; split; [reflexivity|constructor]|].
  cbn [map_res].
  assert (H : exists r, search_single sg (fst (specs Coords)) (snd (specs Coords)) (Some n) MAny EWarn = Ok r /\
     match r with None => no_match sg MAny n (specs Coords) | Some (o, m) => m = n /\ best sg MAny n (specs Coords) o end).
  { destruct (dget (fst (specs Coords)) n) as [sp|] eqn:E.
    - destruct (C29_total sg _ (snd (specs Coords)) n sp MAny EWarn E I Hf') as [f Ef].
      assert (X : exists r, search_single sg (fst (specs Coords)) (snd (specs Coords)) (Some n) MAny EWarn = Ok r) by (unfold search_single; rewrite Ef; cbn [bind]; destruct f; eauto).
      destruct X as [r Hr]. exists r. split; auto. assert (HS := C29_single _ _ _ _ _ _ _ _ E Hd Hr). destruct r as [[o m]|].
      + destruct HS as (-> & _ & c1 & c & c2 & o1 & o2 & E1 & E2 & Hm & H1 & H2). split; auto. exists sp, c1, c, c2, o1, o2. auto 10.
      + destruct HS as [_ HS]. intros sp' o E' Ho. rewrite E in E'. injection E' as <-. now apply HS.
    - destruct (C29_unknown sg (fst (specs Coords)) (snd (specs Coords)) n MAny E) as (_ & -> & _). exists None. split; auto. intros sp' o E'. congruence. }
  destruct H as (r & -> & Hr). cbn [bind]. rewrite IH. cbn [bind]. exists (r :: l). split; auto.
Qed.

(** match: an array that has the name of one of its dimensions or coordinates is first compared
    to the coordinates, any other one to the data variables. *)
Theorem C56_match sg specs a loc r : (forall c, ~ In "" (dkeys (specs c))) -> specs_match sg specs a loc = Ok r ->
  let named := exists n, da_name (x_da a) = Some n /\ (In n (x_dims a) \/ In n (dkeys (x_coords a))) in
  let hit c n := exists b sp af, specs c = (b ++ (n, sp) :: af)%list /\ matches sg loc n sp (x_da a) /\ forall n' s', In (n', s') b -> ~ matches sg loc n' s' (x_da a) in
  let no c := forall n sp, In (n, sp) (specs c) -> ~ matches sg loc n sp (x_da a) in
  match r with
  | Some (c, n) => hit c n /\ (named /\ (c = DataVars -> no Coords) \/ ~ named /\ (c = Coords -> no DataVars))
  | None => no DataVars /\ no Coords
  end.
Proof.
  intros Ne H named hit no. unfold specs_match in H.
  assert (G : (get_category a = Coords /\ named) \/ (get_category a = DataVars /\ ~ named)).
  { unfold get_category, named. destruct (da_name (x_da a)) as [n|].
    - destruct (existsb (String.eqb n) (x_dims a) || dmem (x_coords a) n)%bool eqn:E.
      + left. split; auto. exists n. split; auto. apply orb_true_iff in E. destruct E as [E|E]; [left|right; now apply dmem_in].
        apply existsb_exists in E. destruct E as (x & Hx & E). apply String.eqb_eq in E. now subst.
      + right. split; auto. intros (m & Em & Hm). injection Em as <-. apply orb_false_iff in E. destruct E as [E1 E2]. destruct Hm as [Hm|Hm].
        * assert (X : existsb (String.eqb n) (x_dims a) = true); [|congruence]. apply existsb_exists. exists n. split; auto. apply String.eqb_refl.
        * apply dmem_in in Hm. congruence.
    - right. split; auto. intros (m & Em & _). discriminate. }
  assert (S : forall c m, match_any sg (specs c) (x_da a) loc = Ok m -> match m with Some n => nonempty n = true /\ hit c n | None => no c end).
  { intros c m Hm. assert (X := C29_match sg _ _ _ _ Hm). destruct m as [n|]; [|exact X]. split; [|exact X].
    destruct X as (b & sp & af & E & _). destruct n; auto. exfalso. apply (Ne c). rewrite E. unfold dkeys. rewrite map_app, in_app_iff. cbn. auto. }
  assert (K : forall c1 c2, match_cats sg specs (x_da a) loc [c1; c2] = Ok r ->
    match r with Some (c, n) => hit c n /\ (c = c1 \/ c = c2 /\ no c1) | None => no c1 /\ no c2 end).
  { intros c1 c2. cbn [match_cats]. destruct (match_any sg (specs c1) (x_da a) loc) as [[n|]|] eqn:E1; cbn [bind]; [| |discriminate].
    - destruct (S _ _ E1) as [-> Hh]. intro X. injection X as <-. auto.
    - assert (N1 := S _ _ E1). cbn beta iota in N1. destruct (match_any sg (specs c2) (x_da a) loc) as [[n|]|] eqn:E2; cbn [bind]; [| |discriminate].
      + destruct (S _ _ E2) as [-> Hh]. intro X. injection X as <-. auto.
      + assert (N2 := S _ _ E2). cbn beta iota in N2. intro X. injection X as <-. auto. }
  destruct G as [[Eg Hn]|[Eg Hn]]; rewrite Eg in H; cbn [match_order] in H; apply K in H; destruct r as [[c n]|].
  - destruct H as [Hh Hc]. split; auto. left. split; auto. intros ->. destruct Hc as [Hc|[_ Hc]]; [discriminate|exact Hc].
  - tauto.
  - destruct H as [Hh Hc]. split; auto. right. split; auto. intros ->. destruct Hc as [Hc|[_ Hc]]; [discriminate|exact Hc].
  - tauto.
Qed.

(** ** All matches of both categories *)
(** False: a list is always returned.  When a category does not know the name, it is an error;
    and most names belong to one category only. *)
Theorem C56_multi_refuted {A} (get : darr * string -> A) same sg cats n loc cs objs : In (cs, objs) cats -> dget cs n = None ->
  forall found l, search_multi get same sg cats (Some n) loc found <> Ok l.
Proof.
  intros Hi Hn. induction cats as [|[cs' objs'] cats IH]; [destruct Hi|]. intros found l. cbn [search_multi].
  destruct Hi as [E|Hi].
  - injection E as -> ->. unfold search_all. rewrite Hn. cbn [bind]. discriminate.
  - destruct (search_all sg cs' objs' (Some n) loc EIgnore) as [[r|]|]; cbn [bind]; try discriminate.
    destruct (new_ones same (map get r) found) as [m|]; cbn [bind]; [|discriminate]. apply IH, Hi.
Qed.
(** The error is that of a loop on None. *)
Theorem C56_multi_error {A} (get : darr * string -> A) same sg cs objs cats n loc found : dget cs n = None ->
  search_multi get same sg ((cs, objs) :: cats) (Some n) loc found = Raise TypeError.
Proof. intro Hn. cbn [search_multi]. unfold search_all. now rewrite Hn. Qed.
(** When both know it: the matches of both, best first, those of the second category that were
    not found in the first *)
Lemma new_ones_nil {A} (same : A -> A -> res bool) l : new_ones same l [] = Ok l.
Proof. induction l as [|x l IH]; cbn; auto. now rewrite IH. Qed.
Theorem C56_multi sg cs1 ob1 cs2 ob2 n loc f1 f2 : forall {A} (get : darr * string -> A) same,
  search_all sg cs1 ob1 (Some n) loc EIgnore = Ok (Some f1) -> search_all sg cs2 ob2 (Some n) loc EIgnore = Ok (Some f2) ->
  (f1 = [] \/ f2 = [] -> search_multi get same sg [(cs1, ob1); (cs2, ob2)] (Some n) loc [] = Ok (map get f1 ++ map get f2)%list) /\
  (forall x y f1' f2', f1 = x :: f1' -> f2 = y :: f2' -> same (get x) (get y) = Raise ValueError ->
     search_multi get same sg [(cs1, ob1); (cs2, ob2)] (Some n) loc [] = Raise ValueError).
Proof.
  intros A get same E1 E2. cbn [search_multi]. rewrite E1. cbn [bind]. rewrite new_ones_nil. cbn [bind]. rewrite E2. cbn [bind List.app]. split.
  - intros [->| ->]; cbn [map].
    + rewrite new_ones_nil. reflexivity.
    + reflexivity.
  - intros x y f1' f2' -> -> Hs. cbn [map new_ones is_in]. rewrite Hs. reflexivity.
Qed.

(** When what is found can be compared (names): those of the second category that are not equal to
    one of the first *)
Lemma is_in_eq {A} (same : A -> A -> res bool) f : (forall x y, same x y = Ok (f x y)) -> forall r found, is_in same r found = Ok (existsb (fun x => f x r) found).
Proof. intros H r found. induction found as [|x l IH]; auto. cbn [is_in existsb]. rewrite H. cbn [bind]. destruct (f x r); [reflexivity|exact IH]. Qed.
Lemma new_ones_eq {A} (same : A -> A -> res bool) f : (forall x y, same x y = Ok (f x y)) -> forall l found,
  new_ones same l found = Ok (List.filter (fun r => negb (existsb (fun x => f x r) found)) l).
Proof.
  intros H l found. induction l as [|r l IH]; auto. cbn [new_ones List.filter]. rewrite (is_in_eq same f H). cbn [bind]. rewrite IH. cbn [bind].
  destruct (existsb _ found); reflexivity.
Qed.
Theorem C56_multi_new sg cs1 ob1 cs2 ob2 n loc f1 f2 : forall {A} (get : darr * string -> A) same (equal : A -> A -> bool),
  search_all sg cs1 ob1 (Some n) loc EIgnore = Ok (Some f1) -> search_all sg cs2 ob2 (Some n) loc EIgnore = Ok (Some f2) ->
  (forall x y, same x y = Ok (equal x y)) ->
  exists keep : A -> bool, (forall r : A, keep r = true <-> forall x, In x f1 -> equal (get x) r = false) /\
  search_multi get same sg [(cs1, ob1); (cs2, ob2)] (Some n) loc [] = Ok (map get f1 ++ List.filter keep (map get f2))%list.
Proof.
  intros A get same equal E1 E2 H. exists (fun r => negb (existsb (fun x => equal x r) (map get f1))). split.
  - intro r. rewrite negb_true_iff. split.
    + intros X x Hx. destruct (equal (get x) r) eqn:E; auto. exfalso.
      assert (Y : existsb (fun x => equal x r) (map get f1) = true) by (apply existsb_exists; exists (get x); split; [now apply in_map|exact E]). congruence.
    + intro X. destruct (existsb _ _) eqn:E; auto. apply existsb_exists in E. destruct E as (y & Hy & E). apply in_map_iff in Hy. destruct Hy as (x & <- & Hx). rewrite X in E by exact Hx. discriminate.
  - cbn [search_multi]. rewrite E1. cbn [bind]. rewrite new_ones_nil. cbn [bind]. rewrite E2. cbn [bind List.app]. now rewrite (new_ones_eq same equal H).
Qed.

(** ** Containers *)
(** A name is that of a category, else of a data variable, else of a coordinate, else of another
    section. *)
Theorem C56_getitem dv co secs s : specs_getitem dv co secs s =
  if (s =? "data_vars")%string then Ok (TCat DataVars) else if (s =? "coords")%string then Ok (TCat Coords) else
  match dget dv s, dget co s, dget secs s with
  | Some n, _, _ => Ok (TEntry DataVars n)
  | None, Some n, _ => Ok (TEntry Coords n)
  | None, None, Some n => Ok (TSection n)
  | None, None, None => Raise KeyError
  end.
Proof. unfold specs_getitem, cat_named. destruct (s =? "data_vars")%string; [reflexivity|]. destruct (s =? "coords")%string; [reflexivity|]. destruct (dget dv s), (dget co s), (dget secs s); reflexivity. Qed.
(** The categories are in the container... *)
Theorem C56_contains s : specs_contains s = true <-> s = "data_vars" \/ s = "coords".
Proof.
  unfold specs_contains, cat_named. destruct (String.eqb_spec s "data_vars") as [->|N1]; [intuition|].
  destruct (String.eqb_spec s "coords") as [->|N2]; [intuition|]. intuition (discriminate || contradiction).
Qed.
(** ... but it is false that what can be got is in the container. *)
Theorem C56_contains_refuted dv co secs s n : s <> "data_vars" -> s <> "coords" -> dget dv s = Some n ->
  specs_getitem dv co secs s = Ok (TEntry DataVars n) /\ specs_contains s = false.
Proof.
  intros N1 N2 H. unfold specs_contains, specs_getitem, cat_named. destruct (String.eqb_spec s "data_vars"); [congruence|].
  destruct (String.eqb_spec s "coords"); [congruence|]. now rewrite H.
Qed.
Theorem C56_get_specs d name e r : get_specs d name e = r <->
  match dget d name with Some n => r = Ok (Some n) | None => (e = ERaise /\ r = Raise XoaCFError) \/ (e <> ERaise /\ r = Ok None) end.
Proof. unfold get_specs. destruct (dget d name); [intuition congruence|]. destruct e; intuition congruence. Qed.

(** ** The hypotheses are met: a data variable and two coordinates *)
Definition ex_foo := item "foo" [("standard_name", VStr "longitude")].
Definition ex_cats (c : category) : catspecs * list darr :=
  match c with DataVars => ([("temp", mkspec "sn" [] [("standard_name", RefList ["sea_water_temperature"])])], [ex_foo]) | Coords => (ex_specs, [item "time" []; ex_foo]) end.
Example ex_sane : sane (scanned ex_cats true).
Proof.
  assert (F : fair ex_specs (item "time" [])).
  { split; [intros k v H; discriminate H|]. intros name sp attr Hin Hr. apply (proj2 ex_fair _ _ _ Hin) in Hr. unfold da_get in *. cbn in Hr |- *. destruct (attr =? "name")%string; [discriminate|reflexivity]. }
  assert (F' : fair (fst (ex_cats DataVars)) ex_foo).
  { split; [apply ex_fair|]. intros name sp attr Hin Hr. simpl in Hin. destruct Hin as [E|[]]. injection E as <- <-. unfold s_attrs in Hr. cbn [dget] in Hr.
    destruct (String.eqb attr "standard_name"); discriminate. }
  split.
  - intros c o [<-|[<-|[]]] Ho; [destruct Ho as [<-|[]]; exact F'|]. destruct Ho as [<-|[<-|[]]]; [exact F|exact ex_fair].
  - intros c [<-|[<-|[]]]; unfold distinct_names; cbn; repeat constructor; cbn; intuition congruence.
Qed.
Example ex_lon : get_lon sg0 ex_cats true ERaise = Ok (Some (ex_foo, "lon")) /\ get_lat sg0 ex_cats true ERaise = Ok None /\
  get_time sg0 ex_cats = Ok (Some (item "time" [], "time")) /\ get_vertical sg0 ex_cats true EIgnore = Raise XoaError.
Proof. vm_compute. auto. Qed.
Example ex_match : specs_match sg0 (fun c => fst (ex_cats c)) (mkxda ex_foo [] [("foo", mkcda ex_foo [])]) MAny = Ok (Some (Coords, "lon")).
Proof. vm_compute. reflexivity. Qed.
