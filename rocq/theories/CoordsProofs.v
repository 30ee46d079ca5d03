(** Facts on labelled arrays and on transpose. *)
From Verif Require Export Coords CoordsSpec PyDictFacts.
Open Scope nat_scope.

Lemma mem_In d l : mem d l = true <-> In d l.
Proof.
  unfold mem. rewrite existsb_exists. split.
  - intros (x & H & E). apply String.eqb_eq in E. now subst.
  - intro H. exists d. split; auto. apply String.eqb_refl.
Qed.
Lemma mem_nIn d l : mem d l = false <-> ~ In d l.
Proof. rewrite <- mem_In. destruct (mem d l); split; congruence. Qed.
Lemma mem_dec (d : string) (l : list string) : {In d l} + {~ In d l}.
Proof. destruct (mem d l) eqn:E; [left; now apply mem_In|right; now apply mem_nIn]. Qed.
Lemma nodupb_ok l : nodupb l = true <-> NoDup l.
Proof.
  induction l as [|d l IH]; simpl; [split; auto; constructor|].
  rewrite andb_true_iff, negb_true_iff, mem_nIn, IH, NoDup_cons_iff. tauto.
Qed.
Lemma forallb_incl l m : forallb (fun d => mem d m) l = true <-> incl l m.
Proof.
  rewrite forallb_forall. unfold incl. split; intros H x Hx; specialize (H x Hx); now apply mem_In.
Qed.
Lemma subset_incl l m : subset l m = true <-> incl l m.
Proof. apply forallb_incl. Qed.
Lemma is_perm_ok l all : is_perm l all = true <-> NoDup l /\ incl l all /\ List.length l = List.length all.
Proof.
  unfold is_perm. rewrite !andb_true_iff, Nat.eqb_eq, nodupb_ok, forallb_incl. tauto.
Qed.

(** *** Positions *)
Lemma pos_map (ds : list string) env d : In d ds -> pos ds (map env ds) d = env d.
Proof.
  unfold pos. induction ds as [|x ds IH]; [intros []|]. intro H. simpl.
  destruct (String.eqb_spec d x) as [->|Hne]; [reflexivity|].
  destruct H as [->|H]; [congruence|]. exact (IH H).
Qed.
Lemma map_pos ds env l : incl l ds -> map (pos ds (map env ds)) l = map env l.
Proof. intro H. apply map_ext_in. intros d Hd. apply pos_map, H, Hd. Qed.
Lemma pos_nth ds : forall s, List.length ds = List.length s -> NoDup ds -> map (pos ds s) ds = s.
Proof.
  unfold pos. induction ds as [|d ds IH]; intros [|n s]; simpl; intros HL HN; try discriminate; auto.
  rewrite String.eqb_refl. f_equal. inversion HN; subst. etransitivity; [|apply (IH s); [lia|assumption]].
  apply map_ext_in. intros x Hx. destruct (String.eqb_spec x d) as [->|]; [contradiction|reflexivity].
Qed.
Lemma wf_shape {A} (a : da A) : wf a -> shape a = map (size a) (dims a).
Proof. intros [H1 H2]. symmetry. now apply pos_nth. Qed.

Lemma permute_dims {A} (a : da A) nd : dims (permute a nd) = nd.
Proof. reflexivity. Qed.
Lemma permute_size {A} (a : da A) nd d : In d nd -> size (permute a nd) d = size a d.
Proof. intro H. unfold size at 1. cbn [permute dims shape]. now apply pos_map. Qed.
Lemma permute_look {A} (a : da A) nd env : incl (dims a) nd -> look (permute a nd) env = look a env.
Proof. intro H. unfold look. cbn [permute dims value]. now rewrite map_pos. Qed.
Lemma permute_wf {A} (a : da A) nd : NoDup nd -> wf (permute a nd).
Proof. intro H. split; cbn [permute dims shape]; [now rewrite map_length|auto]. Qed.

Lemma is_perm_incl l all : is_perm l all = true -> incl all l.
Proof. rewrite is_perm_ok. intros (H1 & H2 & H3). apply NoDup_length_incl; auto. lia. Qed.

(** [b] is a reordering of [a]: same elements, same sizes *)
Definition reordered {A} (a b : da A) (nd : list string) : Prop :=
  wf b /\ dims b = nd /\ (forall env, look b env = look a env) /\
  (forall d, In d (dims a) -> In d nd /\ size b d = size a d).
Lemma permute_reordered {A} (a : da A) nd :
  NoDup nd -> incl (dims a) nd -> reordered a (permute a nd) nd.
Proof.
  intros H1 H2. split; [now apply permute_wf|]. split; [reflexivity|]. split.
  - intro. now apply permute_look.
  - intros d Hd. split; [now apply H2|]. now apply permute_size, H2.
Qed.

(** *** xr_transpose *)
Lemma names_map l : names (map Some l) = l.
Proof. induction l; simpl; congruence. Qed.
Lemma nellipsis_map l : nellipsis (map Some l) = 0.
Proof. induction l; simpl; auto. Qed.
Lemma in_names d req : In d (names req) <-> In (Some d) req.
Proof.
  induction req as [|[x|] r IH]; simpl; [tauto| |].
  - rewrite IH. split; intros [H|H]; auto; [left; congruence|left; congruence].
  - rewrite IH. intuition discriminate.
Qed.
Lemma nellipsis_0 req : nellipsis req = 0 <-> ~ In None req.
Proof.
  induction req as [|[x|] r IH]; simpl; [tauto| |].
  - unfold nellipsis in *. simpl. rewrite IH. intuition discriminate.
  - unfold nellipsis in *. simpl. intuition discriminate.
Qed.
Lemma nellipsis_cons_none r : nellipsis (None :: r) = S (nellipsis r).
Proof. reflexivity. Qed.
Lemma nellipsis_cons_some d r : nellipsis (Some d :: r) = nellipsis r.
Proof. reflexivity. Qed.
Lemma NoDup_req req : NoDup req <-> NoDup (names req) /\ nellipsis req <= 1.
Proof.
  induction req as [|[x|] r IH].
  - simpl. split; auto using NoDup_nil. 
  - rewrite NoDup_cons_iff, nellipsis_cons_some. cbn [names]. rewrite NoDup_cons_iff, in_names. tauto.
  - rewrite NoDup_cons_iff, nellipsis_cons_none. cbn [names]. rewrite <- nellipsis_0. split.
    + intros [H1 H2]. apply IH in H2. intuition lia.
    + intros [H1 H2]. split; [lia|]. apply IH. split; auto. lia.
Qed.
Lemma placed_flat req o :
  flat_map (fun d => match d with Some d => [d] | None => o end) req = placed req o.
Proof. induction req as [|[x|] r IH]; simpl; congruence. Qed.
Lemma placed_none req o : ~ In None req -> placed req o = names req.
Proof. induction req as [|[x|] r IH]; simpl; intro H; [auto| |]; [rewrite IH; auto|]. exfalso. auto. Qed.
Lemma placed_map l o : placed (map Some l) o = l.
Proof. induction l; simpl; congruence. Qed.
Lemma in_placed req o d : In d (placed req o) -> In d (names req) \/ In d o.
Proof.
  induction req as [|[x|] r IH]; simpl; [tauto| |].
  - intros [H|H]; auto. destruct (IH H); auto.
  - rewrite in_app_iff. intros [H|H]; auto.
Qed.
Lemma placed_in req o d : In d (names req) \/ (In None req /\ In d o) -> In d (placed req o).
Proof.
  induction req as [|[x|] r IH]; simpl.
  - tauto.
  - intros [[H|H]|[[H|H] H']]; auto; discriminate.
  - rewrite in_app_iff. intros [H|[H H']]; auto.
Qed.
Lemma NoDup_placed req o :
  NoDup req -> NoDup o -> (forall d, In d o -> ~ In d (names req)) -> NoDup (placed req o).
Proof.
  intros HN Ho Hd. induction req as [|[x|] r IH]; simpl; [constructor| |].
  - apply NoDup_cons_iff in HN. destruct HN as [Hx HN]. constructor.
    + intro H. apply in_placed in H. destruct H as [H|H]; [now apply in_names in H|].
      apply (Hd x H). simpl. auto.
    + apply IH; auto. intros d H1 H2. apply (Hd d H1). simpl. auto.
  - apply NoDup_cons_iff in HN. destruct HN as [Hx HN].
    rewrite placed_none by auto.
    assert (HNn : NoDup (names r)) by now apply NoDup_req.
    clear IH. cbn [names] in Hd. revert Ho Hd.
    induction o as [|y o IHo]; intros Ho Hd; simpl; auto.
    apply NoDup_cons_iff in Ho. constructor.
    + rewrite in_app_iff. intros [H|H]; [tauto|]. apply (Hd y); simpl; auto.
    + apply IHo; [tauto|]. intros d H. apply Hd. simpl; auto.
Qed.
Lemma NoDup_placed_inv req o : (forall d, In d o -> ~ In d (names req)) ->
  NoDup (placed req o) -> NoDup (names req).
Proof.
  intros Hd. induction req as [|[x|] r IH]; simpl; [constructor| |].
  - intro H. apply NoDup_cons_iff in H. destruct H as [H1 H2]. constructor.
    + intro Hx. apply H1. apply placed_in. auto.
    + apply IH; auto. intros d Hd1 Hd2. apply (Hd d Hd1). simpl. auto.
  - intro H. apply IH; auto. revert H. generalize (placed r o). clear. intro l.
    induction o; simpl; intro H; auto. inversion H; auto.
Qed.

Lemma unnamed_names ds req : unnamed ds req = List.filter (fun d => negb (mem d (names req))) ds.
Proof.
  unfold unnamed. apply filter_ext_in. intros d _. f_equal.
  induction req as [|[x|] r IH]; simpl; auto. now rewrite IH.
Qed.
Lemma in_unnamed d ds req : In d (unnamed ds req) <-> In d ds /\ ~ In (Some d) req.
Proof.
  rewrite unnamed_names, filter_In, negb_true_iff, mem_nIn, in_names. tauto.
Qed.

(** With an Ellipsis *)
Lemma xr_transpose_ell {A} (a : da A) req : NoDup (dims a) -> In None req ->
  (NoDup req -> incl (names req) (dims a) ->
     let nd := placed req (unnamed (dims a) req) in
     xr_transpose a req = Ok (permute a nd) /\ NoDup nd /\ incl (dims a) nd) /\
  (~ (NoDup req /\ incl (names req) (dims a)) -> xr_transpose a req = Raise ValueError).
Proof.
  intros HN Hin. destruct req as [|r0 req0] eqn:Er; [destruct Hin|].
  assert (Hlt : (0 <? nellipsis req) = true).
  { apply Nat.ltb_lt. destruct (nellipsis req) eqn:E; [|lia].
    apply (proj1 (nellipsis_0 req)) in E. subst. contradiction. }
  assert (Hx : xr_transpose a req =
     if 1 <? nellipsis req then Raise ValueError
     else if is_perm (placed req (unnamed (dims a) req)) (dims a)
          then Ok (permute a (placed req (unnamed (dims a) req))) else Raise ValueError).
  { unfold xr_transpose. rewrite Er. rewrite <- Er. unfold infix_dims. rewrite Hlt.
    destruct (1 <? nellipsis req); [reflexivity|]. cbn [bind].
    rewrite placed_flat, <- unnamed_names. reflexivity. }
  rewrite <- Er in *. clear Er. split.
  - intros H1 H2. cbn zeta.
    assert (Hnd : NoDup (placed req (unnamed (dims a) req))).
    { apply NoDup_placed; auto.
      - unfold unnamed. now apply NoDup_filter.
      - intros d Hd. apply in_unnamed in Hd. now rewrite in_names. }
    assert (Hi1 : incl (placed req (unnamed (dims a) req)) (dims a)).
    { intros d Hd. apply in_placed in Hd. destruct Hd as [Hd|Hd]; [now apply H2|].
      now apply in_unnamed in Hd. }
    assert (Hi2 : incl (dims a) (placed req (unnamed (dims a) req))).
    { intros d Hd. apply placed_in. destruct (mem_dec d (names req)) as [H|H]; auto.
      right. split; auto. apply in_unnamed. rewrite <- in_names. auto. }
    rewrite Hx. apply NoDup_req in H1. destruct (Nat.ltb_spec 1 (nellipsis req)); [lia|].
    replace (is_perm _ (dims a)) with true; [auto|]. symmetry. apply is_perm_ok.
    split; auto. split; auto. apply Nat.le_antisymm; apply NoDup_incl_length; auto.
  - intro H. rewrite Hx. destruct (Nat.ltb_spec 1 (nellipsis req)); auto.
    destruct (is_perm _ _) eqn:E; auto. exfalso. apply is_perm_ok in E. destruct E as (E1 & E2 & E3).
    apply H. split.
    + apply NoDup_req. split; [|lia]. apply NoDup_placed_inv in E1; auto.
      intros d Hd. apply in_unnamed in Hd. now rewrite in_names.
    + intros d Hd. apply E2. apply placed_in. auto.
Qed.
(** Without *)
Lemma xr_transpose_noell {A} (a : da A) req : NoDup (dims a) -> req <> [] -> ~ In None req ->
  (NoDup req -> incl (names req) (dims a) -> incl (dims a) (names req) ->
     xr_transpose a req = Ok (permute a (names req))) /\
  (~ (NoDup req /\ incl (names req) (dims a) /\ incl (dims a) (names req)) ->
     xr_transpose a req = Raise ValueError).
Proof.
  intros HN Hne Hin.
  assert (Hx : xr_transpose a req =
     if forallb (fun d => mem d (dims a)) (names req) && forallb (fun d => mem d (names req)) (dims a)
     then if is_perm (names req) (dims a) then Ok (permute a (names req)) else Raise ValueError
     else Raise ValueError).
  { unfold xr_transpose. destruct req as [|r0 r]; [congruence|]. unfold infix_dims.
    apply nellipsis_0 in Hin. rewrite Hin. cbn [Nat.ltb Nat.leb].
    destruct (_ && _); reflexivity. }
  split.
  - intros H1 H2 H3. rewrite Hx. rewrite (proj2 (forallb_incl _ _) H2), (proj2 (forallb_incl _ _) H3).
    apply NoDup_req in H1. replace (is_perm _ _) with true; auto. symmetry. apply is_perm_ok.
    split; [tauto|]. split; auto. apply Nat.le_antisymm; apply NoDup_incl_length; tauto.
  - intro H. rewrite Hx. destruct (forallb _ _) eqn:E1; auto. destruct (forallb _ (dims a)) eqn:E2; auto.
    cbn [andb]. destruct (is_perm _ _) eqn:E3; auto. exfalso. apply H.
    apply forallb_incl in E1, E2. apply is_perm_ok in E3. split; auto. apply NoDup_req.
    split; [tauto|]. apply nellipsis_0 in Hin. lia.
Qed.
Lemma xr_transpose_ok {A} (a b : da A) req : wf a -> xr_transpose a req = Ok b -> reordered a b (dims b).
Proof.
  intros [Hl HN]. unfold xr_transpose. intro H.
  destruct (match req with [] => _ | _ => _ end) as [nd|e]; [|discriminate]. cbn [bind] in H.
  destruct (is_perm nd (dims a)) eqn:E; [|discriminate]. injection H as <-.
  assert (Hi := is_perm_incl _ _ E). apply is_perm_ok in E. now apply permute_reordered.
Qed.

(** *** expand_dims *)
Lemma expand_ok {A} (a b : da A) new : wf a -> NoDup (dkeys new) -> xr_expand_dims a new = Ok b ->
  wf b /\ dims b = (dkeys new ++ dims a)%list /\ (forall env, look b env = look a env) /\
  (forall d, In d (dims a) -> size b d = size a d) /\
  (forall d k, dget new d = Some k -> size b d = k).
Proof.
  intros [Hl HN] Hk. unfold xr_expand_dims. destruct (existsb _ _) eqn:E; [discriminate|].
  intro H. injection H as <-.
  assert (Hd : forall d, In d (dkeys new) -> ~ In d (dims a)).
  { intros d H1 H2. assert (existsb (fun d => mem d (dims a)) (dkeys new) = true); [|congruence].
    apply existsb_exists. exists d. split; auto. now apply mem_In. }
  split; [|split; [reflexivity|]]; [|split; [|split]].
  - split; cbn [dims shape].
    + rewrite !app_length. unfold dkeys. rewrite !map_length. lia.
    + clear E. induction (dkeys new) as [|k ks IH]; simpl; auto. apply NoDup_cons_iff in Hk. constructor.
      * rewrite in_app_iff. intros [H|H]; [tauto|]. apply (Hd k); simpl; auto.
      * apply IH; [tauto|]. intros. apply Hd. simpl; auto.
  - intro env. unfold look. cbn [dims value]. f_equal. rewrite map_app.
    rewrite skipn_app. rewrite skipn_all2, map_length; unfold dkeys; rewrite ?map_length; auto.
    rewrite Nat.sub_diag. reflexivity.
  - intros d Hin. unfold size, pos. cbn [dims shape].
    assert (Hn : ~ In d (dkeys new)) by (intro H; exact (Hd d H Hin)).
    replace (dget (combine (dkeys new ++ dims a) (map snd new ++ shape a)) d) with (dget (combine (dims a) (shape a)) d); auto.
    clear -Hn. induction new as [|[k v] new IH]; simpl in *; auto.
    destruct (String.eqb_spec d k) as [->|]; [tauto|]. apply IH. tauto.
  - intros d k Hg. unfold size, pos. cbn [dims shape].
    replace (dget (combine (dkeys new ++ dims a) (map snd new ++ shape a)) d) with (Some k); auto.
    clear -Hg. induction new as [|[k' v] new IH]; simpl in *; [discriminate|].
    destruct (String.eqb d k'); auto.
Qed.

(** *** transpose *)
Lemma ell_exists req :
  existsb (fun r : option string => match r with None => true | _ => false end) req = (0 <? nellipsis req).
Proof. induction req as [|[x|] r IH]; simpl; auto. Qed.
Lemma subset_strict_ok l m : subset_strict l m = true <-> incl l m /\ ~ incl m l.
Proof.
  unfold subset_strict. rewrite andb_true_iff, negb_true_iff, forallb_incl. rewrite <- (forallb_incl m l).
  destruct (forallb _ m); intuition congruence.
Qed.
Lemma unnamed_nil ds req : incl ds (names req) -> unnamed ds req = [].
Proof.
  intro H. destruct (unnamed ds req) as [|d l] eqn:E; auto. exfalso.
  assert (Hd : In d (unnamed ds req)) by (rewrite E; simpl; auto).
  apply in_unnamed in Hd. destruct Hd as [H1 H2]. apply H2, in_names, H, H1.
Qed.
Lemma transposed_core {A} (b : da A) kept : wf b -> incl (names kept) (dims b) ->
  let od := if negb (0 <? nellipsis kept) && subset_strict (names kept) (dims b)
            then None :: kept else kept in
  let nd := placed (flush_left kept) (unnamed (dims b) kept) in
  (NoDup kept -> xr_transpose b od = Ok (permute b nd) /\ NoDup nd /\ incl (dims b) nd) /\
  (~ NoDup kept -> xr_transpose b od = Raise ValueError).
Proof.
  intros Hwf Hi. cbn zeta. assert (HN := proj2 Hwf). unfold flush_left. rewrite ell_exists.
  destruct (0 <? nellipsis kept) eqn:E.
  - cbn [negb andb]. assert (Hin : In None kept).
    { clear -E. induction kept as [|[x|] r IH]; [discriminate| |simpl; auto]. right. apply IH, E. }
    destruct (xr_transpose_ell b kept HN Hin) as [H1 H2]. split; [auto|]. intro H. apply H2. tauto.
  - assert (Hni : ~ In None kept).
    { apply Nat.ltb_ge in E. apply nellipsis_0. lia. }
    cbn [negb andb]. destruct (subset_strict (names kept) (dims b)) eqn:Es.
    + assert (Hun : unnamed (dims b) (None :: kept) = unnamed (dims b) kept) by reflexivity.
      destruct (xr_transpose_ell b (None :: kept) HN (or_introl eq_refl)) as [H1 H2]. rewrite Hun in H1.
      split.
      * intro H. apply H1; auto. now constructor.
      * intro H. apply H2. intros [H3 _]. apply NoDup_cons_iff in H3. tauto.
    + assert (Hs : incl (dims b) (names kept)).
      { destruct (forallb (fun d => mem d (names kept)) (dims b)) eqn:F; [now apply forallb_incl in F|].
        exfalso. assert (subset_strict (names kept) (dims b) = true); [|congruence].
        apply subset_strict_ok. split; auto. rewrite <- forallb_incl. congruence. }
      rewrite unnamed_nil by auto. cbn [placed app]. rewrite placed_none by auto.
      destruct kept as [|k kept0] eqn:Ek.
      * split; [|intro H; exfalso; apply H; constructor]. intros _.
        destruct (dims b) as [|d l] eqn:Ed; [|exfalso; apply (Hs d); simpl; auto].
        unfold xr_transpose. rewrite Ed. cbn. repeat split; [constructor|]. auto using incl_refl.
      * rewrite <- Ek in *. assert (Hne : kept <> []) by (rewrite Ek; discriminate).
        destruct (xr_transpose_noell b kept HN Hne Hni) as [H1 H2]. split.
        -- intro H. split; [apply H1; auto|]. split; [|auto]. now apply NoDup_req.
        -- intro H. apply H2. tauto.
Qed.

Lemma fold_compat {A} (a : da A) mode sizes req : mode <> "insert"%string -> mode <> "resize"%string ->
  forall o e, fold_left (fun s d => spec_step a mode sizes d s) req (o, e) = ((o ++ known (dims a) req)%list, e).
Proof.
  intros H1 H2. induction req as [|[n|] req IH]; intros o e; cbn [fold_left].
  - unfold known. simpl. now rewrite app_nil_r.
  - unfold spec_step at 2. rewrite (proj2 (String.eqb_neq _ _) H1), (proj2 (String.eqb_neq _ _) H2).
    unfold mem. unfold known. cbn [List.filter]. fold (known (dims a) req).
    destruct (existsb (String.eqb n) (dims a)); rewrite IH; [|reflexivity]. now rewrite <- app_assoc.
  - unfold spec_step at 2. rewrite IH. rewrite <- app_assoc. reflexivity.
Qed.
(** Size given to a new dimension *)
Definition new_size (mode : string) (sizes : option (dict nat)) (d : string) : nat :=
  if String.eqb mode "insert" then 1
  else match sizes with
       | None => 1
       | Some ss => match dget ss d with Some k => k | None => 1 end
       end.
Lemma fold_new {A} (a : da A) mode sizes req : mode = "insert"%string \/ mode = "resize"%string ->
  forall o e, NoDup (dkeys e) -> exists e',
  fold_left (fun s d => spec_step a mode sizes d s) req (o, e) = ((o ++ req)%list, e') /\
  NoDup (dkeys e') /\
  forall d, dget e' d = if mem d (names req) && negb (mem d (dims a)) then Some (new_size mode sizes d) else dget e d.
Proof.
  intros Hm. induction req as [|[n|] req IH]; intros o e He; cbn [fold_left].
  - exists e. rewrite app_nil_r. auto.
  - assert (Hs : spec_step a mode sizes (Some n) (o, e) =
       ((o ++ [Some n])%list, if mem n (dims a) then e else dset e n (new_size mode sizes n))).
    { unfold spec_step. destruct (mem n (dims a)); auto. unfold new_size.
      destruct Hm as [-> | ->]; reflexivity. }
    rewrite Hs. destruct (IH (o ++ [Some n])%list (if mem n (dims a) then e else dset e n (new_size mode sizes n)))
      as (e' & E1 & E2 & E3).
    { destruct (mem n (dims a)); auto. now apply dset_wf. }
    exists e'. rewrite E1, <- app_assoc. split; [reflexivity|]. split; auto.
    intro d. rewrite E3. cbn [names mem existsb]. destruct (String.eqb_spec d n) as [->|Hne]; cbn [orb andb].
    + destruct (mem n (dims a)) eqn:En; cbn [negb]; rewrite ?andb_false_r, ?andb_true_r; auto.
      rewrite dget_dset, String.eqb_refl. destruct (mem n (names req)); auto.
    + fold (mem d (names req)). destruct (mem d (names req) && negb (mem d (dims a))); auto.
      destruct (mem n (dims a)); auto. rewrite dget_dset.
      destruct (String.eqb_spec d n); [congruence|reflexivity].
  - cbn [names]. unfold spec_step at 2. destruct (IH (o ++ [None])%list e He) as (e' & E1 & E2 & E3).
    exists e'. rewrite E1, <- app_assoc. auto.
Qed.
