(** C23: xoa/coords.py:transpose.  An array is seen as a function of named positions
    ([look], CoordsSpec.v). *)
From Verif Require Import CoordsProofs.
Open Scope nat_scope.

Inductive tmode := Classic | Compat | Insert | Resize.
(** Names and codes of the modes *)
Definition says (m : enumarg) (t : tmode) : Prop :=
  match t with
  | Classic => In m [ENone; EName "classic"; EName "basic"; EName "xarray"; ECode 0]
  | Compat => In m [EName "compat"; ECode (-1)]
  | Insert => In m [EName "insert"; ECode 1]
  | Resize => In m [EName "resize"; ECode 2]
  end%string%Z.
Definition tname (t : tmode) : string :=
  match t with Classic => "classic" | Compat => "compat" | Insert => "insert" | Resize => "resize" end.
Lemma says_getitem m t : says m t -> exists z, enum_getitem transpose_modes m = Ok (tname t, z).
Proof.
  destruct t; simpl; intro H; repeat (destruct H as [<-|H]; [eexists; reflexivity|]); destruct H.
Qed.
Lemma known_none ds req : nellipsis (known ds req) = nellipsis req.
Proof.
  induction req as [|[x|] r IH]; [reflexivity| |].
  - unfold known. cbn [List.filter]. destruct (existsb _ _); rewrite ?nellipsis_cons_some; exact IH.
  - unfold known. cbn [List.filter]. rewrite !nellipsis_cons_none. f_equal. exact IH.
Qed.
Lemma known_names ds req : incl (names (known ds req)) ds.
Proof.
  intros d H. apply in_names in H. unfold known in H. apply filter_In in H. destruct H as [_ H].
  now apply mem_In.
Qed.
Lemma known_unnamed ds req : unnamed ds (known ds req) = unnamed ds req.
Proof.
  rewrite !unnamed_names. apply filter_ext_in. intros d Hd. f_equal.
  apply eq_true_iff_eq. rewrite !mem_In, !in_names. unfold known. rewrite filter_In.
  split; [tauto|]. intro H. split; auto. now apply mem_In.
Qed.

(** *** Whatever the mode and the request: nothing is lost, nothing is moved.  The result
    has the same element at the same named position, and the dimensions of [a] are kept
    with their sizes. *)
Theorem C23_no_element_lost : forall A (a b : da A) req sizes mode, wf a ->
  transpose a req sizes mode = Ok b ->
  wf b /\ (forall env, look b env = look a env) /\
  (forall d, In d (dims a) -> In d (dims b) /\ size b d = size a d).
Proof.
  intros A a b req sizes mode Hwf H. unfold transpose in H.
  destruct (enum_getitem transpose_modes mode) as [[m z]|e]; [|discriminate]. cbn [bind fst] in H.
  destruct (String.eqb_spec m "classic") as [->|Hc].
  - apply xr_transpose_ok in H; auto. destruct H as (H1 & _ & H2 & H3). auto.
  - destruct (fold_left _ req _) as [odims expand] eqn:Ef.
    assert (Hb : exists b1, match expand with [] => Ok a | _ => xr_expand_dims a expand end = Ok b1 /\
      wf b1 /\ (forall env, look b1 env = look a env) /\
      (forall d, In d (dims a) -> In d (dims b1) /\ size b1 d = size a d)).
    { destruct (match expand with [] => Ok a | _ => xr_expand_dims a expand end) as [b1|e] eqn:E;
        [|discriminate]. exists b1. split; auto. destruct expand as [|kv ex] eqn:Ee.
      - injection E as <-. repeat split; auto; apply Hwf.
      - assert (Hkeys : NoDup (dkeys (kv :: ex))).
        { destruct (String.eqb_spec m "insert") as [Hi|Hi]; [|destruct (String.eqb_spec m "resize") as [Hr|Hr]].
          - destruct (fold_new a m sizes req (or_introl Hi) [] []) as (e' & E1 & E2 & _); [constructor|].
            assert (X := eq_trans (eq_sym Ef) E1). injection X as _ ->. exact E2.
          - destruct (fold_new a m sizes req (or_intror Hr) [] []) as (e' & E1 & E2 & _); [constructor|].
            assert (X := eq_trans (eq_sym Ef) E1). injection X as _ ->. exact E2.
          - assert (X := eq_trans (eq_sym Ef) (fold_compat a m sizes req Hi Hr [] [])). discriminate. }
        destruct (expand_ok a b1 _ Hwf Hkeys E) as (G1 & G2 & G3 & G4 & _). split; auto. split; auto.
        intros d Hd. split; auto. rewrite G2. apply in_or_app. auto. }
    destruct Hb as (b1 & E & W & L & S). rewrite E in H. cbn [bind] in H.
    apply xr_transpose_ok in H; auto. destruct H as (H1 & _ & H2 & H3). split; auto. split.
    + intro env. now rewrite H2.
    + intros d Hd. destruct (S d Hd) as [S1 S2]. destruct (H3 d S1) as [H4 H5]. split; auto. congruence.
Qed.
Print Assumptions C23_no_element_lost.

(** *** compat: unknown dimensions are ignored; the dimensions that are not requested stay
    in their order on the left (or in place of the Ellipsis).  It fails exactly when a
    known dimension, or the Ellipsis, is repeated. *)
Theorem C23_compat : forall A (a : da A) req sizes mode, wf a -> says mode Compat ->
  (NoDup (known (dims a) req) -> exists b, transpose a req sizes mode = Ok b /\
     dims b = placed (flush_left (known (dims a) req)) (unnamed (dims a) req)) /\
  (~ NoDup (known (dims a) req) -> transpose a req sizes mode = Raise ValueError).
Proof.
  intros A a req sizes mode Hwf Hm. destruct (says_getitem _ _ Hm) as [z Ez].
  unfold transpose. rewrite Ez. cbn [bind fst tname]. cbn [String.eqb Ascii.eqb Bool.eqb].
  rewrite fold_compat by discriminate. cbn [app].
  rewrite <- (known_none (dims a) req), <- (known_unnamed (dims a) req).
  destruct (transposed_core a (known (dims a) req) Hwf (known_names _ _)) as [H1 H2].
  cbn zeta in *. split; [|exact H2]. intro H. destruct (H1 H) as (H3 & _). eexists. split; [exact H3|reflexivity].
Qed.
Print Assumptions C23_compat.

(** *** insert, resize: unknown dimensions are created, of size 1 or of the given size *)
Lemma new_dims_in {A} (a : da A) (expand : dict nat) req f : NoDup (dkeys expand) ->
  (forall d, dget expand d = if mem d (names req) && negb (mem d (dims a)) then Some (f d) else None) ->
  forall d, In d (dkeys expand) <-> In (Some d) req /\ ~ In d (dims a).
Proof.
  intros Hw Hg d. rewrite <- in_names, <- (mem_In d (names req)), <- (mem_nIn d (dims a)). specialize (Hg d). split.
  - intro H. destruct (dget expand d) as [k|] eqn:E; [|exfalso; apply (proj1 (dget_none _ _) E H)].
    destruct (mem d (names req)), (mem d (dims a)); try discriminate; auto.
  - intros [H1 H2]. rewrite H1, H2 in Hg. cbn in Hg. apply dget_some_in in Hg.
    apply (in_map fst) in Hg. exact Hg.
Qed.
Theorem C23_insert_resize : forall A (a : da A) req sizes mode t, wf a -> says mode t ->
  t = Insert \/ t = Resize ->
  (NoDup req -> exists b, transpose a req sizes mode = Ok b /\
     dims b = placed (flush_left req) (unnamed (dims a) req) /\
     forall d, In d (dims b) -> ~ In d (dims a) ->
       size b d = match t, sizes with
                  | Resize, Some s => match dget s d with Some k => k | None => 1 end
                  | _, _ => 1
                  end) /\
  (~ NoDup req -> transpose a req sizes mode = Raise ValueError).
Proof.
  intros A a req sizes mode t Hwf Hm Ht. destruct (says_getitem _ _ Hm) as [z Ez].
  assert (Hn : tname t = "insert"%string \/ tname t = "resize"%string) by (destruct Ht as [-> | ->]; auto).
  destruct (fold_new a (tname t) sizes req Hn [] []) as (e & E1 & E2 & E3); [constructor|].
  cbn [app dget] in *.
  assert (Hin := new_dims_in a e req _ E2 E3).
  unfold transpose. rewrite Ez. cbn [bind fst].
  replace (String.eqb (tname t) "classic") with false by (destruct Ht as [-> | ->]; reflexivity).
  set (FF := fold_left _ req _). assert (HF : FF = (req, e)) by exact E1. rewrite HF. clear FF HF.
  assert (Hb : exists b, match e with [] => Ok a | _ => xr_expand_dims a e end = Ok b /\
     wf b /\ dims b = (dkeys e ++ dims a)%list /\
     (forall d k, dget e d = Some k -> size b d = k)).
  { destruct e as [|kv e0] eqn:Ee.
    - exists a. repeat split; try apply Hwf. intros d k H. discriminate.
    - rewrite <- Ee in *.
      assert (Hx : existsb (fun d => mem d (dims a)) (dkeys e) = false).
      { destruct (existsb _ _) eqn:X; auto. apply existsb_exists in X. destruct X as (d & X1 & X2).
        apply Hin in X1. apply mem_In in X2. tauto. }
      destruct (xr_expand_dims a e) as [b|] eqn:Eb; [|unfold xr_expand_dims in Eb; rewrite Hx in Eb; discriminate].
      exists b. split; [subst e; auto|]. destruct (expand_ok a b e Hwf E2 Eb) as (G1 & G2 & G3 & G4 & G5). auto. }
  destruct Hb as (b & Eb & Wb & Db & Sb). rewrite Eb. cbn [bind].
  assert (Hincl : incl (names req) (dims b)).
  { intros d Hd. rewrite Db. apply in_or_app. destruct (mem_dec d (dims a)) as [H|H]; auto.
    left. apply Hin. split; auto. now apply in_names. }
  assert (Hun : unnamed (dims b) req = unnamed (dims a) req).
  { rewrite !unnamed_names, Db. assert (Hf : forall l, (forall d, In d l -> In d (names req)) ->
      List.filter (fun d => negb (mem d (names req))) (l ++ dims a) =
      List.filter (fun d => negb (mem d (names req))) (dims a)).
    { induction l as [|d l IH]; intro Hl; simpl; auto.
      rewrite (proj2 (mem_In d (names req))) by (apply Hl; simpl; auto). cbn [negb].
      apply IH. intros. apply Hl. simpl. auto. }
    apply Hf. intros d Hd. apply Hin in Hd. now apply in_names. }
  destruct (transposed_core b req Wb Hincl) as [H1 H2]. cbn zeta in *. split; [|exact H2].
  intro H. destruct (H1 H) as (H3 & H4 & H5). eexists. split; [exact H3|]. rewrite permute_dims.
  split; [now rewrite Hun|]. intros d Hd Hnd. rewrite permute_size by auto.
  assert (Hk : dget e d = Some (new_size (tname t) sizes d)).
  { rewrite E3. rewrite (proj2 (mem_nIn d (dims a)) Hnd).
    replace (mem d (names req)) with true; auto. symmetry. apply mem_In.
    apply in_placed in Hd. destruct Hd as [Hd|Hd].
    - rewrite in_names in *. unfold flush_left in Hd. destruct (existsb _ req); auto.
      destruct Hd; auto; discriminate.
    - rewrite Hun in Hd. apply in_unnamed in Hd. tauto. }
  rewrite (Sb _ _ Hk). unfold new_size.
  destruct Ht as [-> | ->]; cbn; auto.
Qed.
Print Assumptions C23_insert_resize.

(** *** classic (xarray's own rule): every dimension must be named once, or the Ellipsis
    stands for the others; unknown dimensions are rejected; an empty request reverses. *)
Theorem C23_classic : forall A (a : da A) req sizes mode, wf a -> says mode Classic ->
  (forall d, In (Some d) req -> ~ In d (dims a) -> transpose a req sizes mode = Raise ValueError) /\
  (~ NoDup req -> transpose a req sizes mode = Raise ValueError) /\
  (req <> [] -> ~ In None req -> forall d, In d (dims a) -> ~ In (Some d) req ->
     transpose a req sizes mode = Raise ValueError) /\
  (NoDup req -> (forall d, In (Some d) req -> In d (dims a)) ->
     (In None req \/ (req <> [] /\ forall d, In d (dims a) -> In (Some d) req)) ->
     exists b, transpose a req sizes mode = Ok b /\ dims b = placed req (unnamed (dims a) req)) /\
  (req = [] -> exists b, transpose a req sizes mode = Ok b /\ dims b = rev (dims a)).
Proof.
  intros A a req sizes mode Hwf Hm. destruct (says_getitem _ _ Hm) as [z Ez].
  assert (HN := proj2 Hwf).
  assert (HT : transpose a req sizes mode = xr_transpose a req).
  { unfold transpose. rewrite Ez. reflexivity. }
  rewrite HT.
  assert (Hd : {In None req} + {~ In None req}).
  { clear. induction req as [|[x|] r IH]; [right; simpl; auto| |left; simpl; auto].
    destruct IH; [left; simpl; auto|right; simpl; intuition discriminate]. }
  assert (Hnone : req <> [] -> ~ (NoDup req /\ incl (names req) (dims a) /\ (In None req \/ incl (dims a) (names req))) ->
    xr_transpose a req = Raise ValueError).
  { intros Hne H. destruct Hd as [Hd|Hd].
    - apply (xr_transpose_ell a req HN Hd). tauto.
    - apply (xr_transpose_noell a req HN Hne Hd). tauto. }
  split; [|split; [|split; [|split]]].
  - intros d H1 H2. apply Hnone; [intros ->; destruct H1|]. intros (_ & H & _). apply H2, H, in_names, H1.
  - intro H. apply Hnone; [intros ->; apply H; constructor|tauto].
  - intros H1 H2 d H3 H4. apply Hnone; auto. intros (_ & _ & [H|H]); auto.
    apply H4, in_names, H, H3.
  - intros H1 H2 H3.
    assert (H4 : incl (names req) (dims a)) by (intros d H; apply H2, in_names, H).
    destruct Hd as [Hd|Hd].
    + destruct (proj1 (xr_transpose_ell a req HN Hd) H1 H4) as (H5 & _). eexists. split; [exact H5|reflexivity].
    + destruct H3 as [H3|[H3 H5]]; [contradiction|].
      assert (H6 : incl (dims a) (names req)) by (intros d H; apply in_names, H5, H).
      eexists. split; [apply (proj1 (xr_transpose_noell a req HN H3 Hd)); auto|].
      rewrite unnamed_nil, placed_none by auto. reflexivity.
  - intros ->. unfold xr_transpose. cbn [bind].
    replace (is_perm (rev (dims a)) (dims a)) with true; [eexists; split; reflexivity|].
    symmetry. apply is_perm_ok. split; [now apply NoDup_rev|]. split; [|apply rev_length].
    intros d H. now apply in_rev in H.
Qed.
Print Assumptions C23_classic.

(** Other modes are rejected. *)
Theorem C23_unknown_mode : forall A (a : da A) req sizes s,
  ~ In s ["classic"; "basic"; "xarray"; "compat"; "insert"; "resize"]%string ->
  transpose a req sizes (EName s) = Raise KeyError.
Proof.
  intros A a req sizes s H. unfold transpose. cbn [enum_getitem].
  replace (List.find (fun nv => String.eqb (fst nv) s) transpose_modes) with (@None (string * Z)); [reflexivity|].
  symmetry. unfold transpose_modes. cbn [List.find fst].
  repeat match goal with
  | |- (if String.eqb ?n s then _ else _) = None =>
    destruct (String.eqb_spec n s) as [<-|_]; [exfalso; apply H; simpl; tauto|]
  end. reflexivity.
Qed.
Print Assumptions C23_unknown_mode.

(** Example: an array of shape (2, 3, 4) along (y, x, t) *)
Definition ex_a : da nat := mkda ["y"; "x"; "t"]%string [2; 3; 4]
  (fun idx => match idx with [y; x; t] => 100 * y + 10 * x + t | _ => 999 end).
Example C23_ex : wf ex_a /\ says (EName "compat") Compat /\ says (ECode 2) Resize /\
  NoDup (known (dims ex_a) [Some "m"; Some "y"; Some "x"]%string) /\
  (exists b, transpose ex_a [Some "m"; Some "y"; Some "x"]%string None (EName "compat") = Ok b /\
     dims b = ["t"; "y"; "x"]%string /\ shape b = [4; 2; 3] /\ value b [3; 1; 2] = 123) /\
  (exists b, transpose ex_a [Some "m"; Some "y"; Some "x"]%string (Some [("m", 10)]%string) (ECode 2) = Ok b /\
     dims b = ["t"; "m"; "y"; "x"]%string /\ shape b = [4; 10; 2; 3] /\ value b [3; 7; 1; 2] = 123) /\
  transpose ex_a [Some "m"; Some "y"; Some "x"]%string None (EName "basic") = Raise ValueError.
Proof.
  split; [split; [reflexivity|]|].
  { repeat (constructor; [simpl; intuition discriminate|]). constructor. }
  split; [simpl; auto|]. split; [simpl; auto|]. split.
  { vm_compute. repeat (constructor; [simpl; intuition discriminate|]). constructor. }
  split; [eexists; split; [vm_compute; reflexivity|repeat split]|].
  split; [eexists; split; [vm_compute; reflexivity|repeat split]|]. reflexivity.
Qed.
