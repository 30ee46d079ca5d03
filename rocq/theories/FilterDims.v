(** Sums and counts over the positions of an array do not depend on the order of its dimensions (for C90) *)
From Coq Require Import Permutation Lqa.
From Verif Require Export FilterDimsSpec.
From Verif Require Import CoordsProofs TransposeProps FilterProps KernelProps ErodeProps.
Open Scope nat_scope.
Open Scope list_scope.

(** *** Positions by name *)
Lemma idx_named ds sz j : NoDup ds -> in_shape (map sz ds) j -> j = map (pos ds j) ds /\ forall d, In d ds -> pos ds j d < sz d.
Proof.
  intros Hn Hj. assert (L : List.length j = List.length ds) by (rewrite (shape_length _ _ Hj); apply map_length).
  split; [symmetry; now apply map_pos_id|]. intros d Hd.
  assert (W : wf (mkda ds (map sz ds) (fun _ => tt))) by (split; cbn; [now rewrite map_length|auto]).
  assert (X := sizes_in_shape (mkda ds (map sz ds) (fun _ => tt)) j d W Hj Hd). cbn [dims] in X. unfold size in X. cbn [dims shape] in X. rewrite ErodeProps.pos_map in X; auto.
Qed.
Lemma named_idx ds sz (e : string -> nat) : (forall d, In d ds -> e d < sz d) -> in_shape (map sz ds) (map e ds).
Proof. unfold in_shape. induction ds as [|d ds IH]; intro H; cbn; constructor; [apply H; now left|apply IH; intros; apply H; now right]. Qed.
Definition reorder (ds ds' : list string) (j : list nat) : list nat := map (pos ds j) ds'.
Section perm.
  Variables (ds ds' : list string) (sz : string -> nat).
  Hypothesis (N : NoDup ds) (N' : NoDup ds') (P : forall d, In d ds <-> In d ds').
  Lemma reorder_back j : in_shape (map sz ds) j -> reorder ds' ds (reorder ds ds' j) = j.
  Proof.
    intro Hj. destruct (idx_named ds sz j N Hj) as [E _]. rewrite E at 2. unfold reorder. apply map_ext_in. intros d Hd. apply ErodeProps.pos_map; auto. now apply P.
  Qed.
  Lemma indices_perm : Permutation (map (reorder ds ds') (indices (map sz ds))) (indices (map sz ds')).
  Proof.
    apply NoDup_Permutation; [|apply indices_nodup|].
    - assert (G : forall l, NoDup l -> (forall j, In j l -> in_shape (map sz ds) j) -> NoDup (map (reorder ds ds') l)).
      { induction l as [|j l IH]; intros Hn Hl; cbn; [constructor|]. inversion Hn; subst. constructor; [|apply IH; auto; intros; apply Hl; now right].
        intro H. apply in_map_iff in H as (j' & E & Hj'). assert (j' = j); [|subst; auto].
        rewrite <- (reorder_back j), <- (reorder_back j'); [now rewrite E|apply Hl; now right|apply Hl; now left]. }
      apply G; [apply indices_nodup|]. intros j Hj. now apply indices_in.
    - intro i. rewrite in_map_iff, indices_in. split.
      + intros (j & <- & Hj). apply indices_in in Hj. destruct (idx_named ds sz j N Hj) as [_ B]. apply named_idx. intros d Hd. apply B. now apply P.
      + intro Hi. destruct (idx_named ds' sz i N' Hi) as [E B]. exists (reorder ds' ds i). split.
        * rewrite E at 2. unfold reorder. apply map_ext_in. intros d Hd. apply ErodeProps.pos_map; auto. now apply P.
        * apply indices_in, named_idx. intros d Hd. apply B. now apply P.
  Qed.
  Lemma qsum_perm (l l' : list Q) : Permutation l l' -> (qsum l == qsum l')%Q.
  Proof. intro H. unfold qsum. induction H; cbn [fold_right]; [reflexivity|now rewrite IHPermutation|ring|now rewrite IHPermutation1]. Qed.
  (** Functions of named positions *)
  Lemma sum_perm (h h' : list nat -> Q) : (forall e, (forall d, In d ds -> (e d < sz d)%nat) -> h (map e ds) == h' (map e ds'))%Q ->
    (qsum (map h (indices (map sz ds))) == qsum (map h' (indices (map sz ds'))))%Q.
  Proof.
    intro H. rewrite <- (qsum_perm _ _ (Permutation_map h' indices_perm)). rewrite map_map. apply qsum_ext. intros j Hj. apply indices_in in Hj.
    destruct (idx_named ds sz j N Hj) as [E B]. rewrite E at 1. apply H. exact B.
  Qed.
  Lemma filter_len_perm {A} (f : A -> bool) l l' : Permutation l l' -> List.length (List.filter f l) = List.length (List.filter f l').
  Proof.
    intro H. induction H; cbn; auto.
    - destruct (f x); cbn; auto.
    - destruct (f x), (f y); reflexivity.
    - congruence.
  Qed.
  Lemma filter_len_map {A B} (f : B -> bool) (g : A -> B) l : List.length (List.filter f (map g l)) = List.length (List.filter (fun x => f (g x)) l).
  Proof. induction l as [|x l IH]; cbn; auto. destruct (f (g x)); cbn; auto. Qed.
  Lemma filter_len_ext {A} (f g : A -> bool) l : (forall x, In x l -> f x = g x) -> List.length (List.filter f l) = List.length (List.filter g l).
  Proof. intro H. induction l as [|x l IH]; cbn; auto. rewrite (H x) by now left. destruct (g x); cbn; rewrite IH; auto; intros; apply H; now right. Qed.
  Lemma count_perm (h h' : list nat -> bool) : (forall e, (forall d, In d ds -> e d < sz d) -> h (map e ds) = h' (map e ds')) ->
    List.length (List.filter h (indices (map sz ds))) = List.length (List.filter h' (indices (map sz ds'))).
  Proof.
    intro H. rewrite <- (filter_len_perm h' _ _ indices_perm). rewrite filter_len_map. apply filter_len_ext. intros j Hj. apply indices_in in Hj.
    destruct (idx_named ds sz j N Hj) as [E B]. rewrite E at 1. apply H. exact B.
  Qed.
  Lemma exists_perm (h h' : list nat -> bool) : (forall e, (forall d, In d ds -> e d < sz d) -> h (map e ds) = h' (map e ds')) ->
    existsb h (indices (map sz ds)) = existsb h' (indices (map sz ds')).
  Proof.
    intro H. assert (C := count_perm h h' H). assert (X : forall f l, existsb f l = (0 <? List.length (@List.filter (list nat) f l))).
    { intros f l. induction l as [|x l IH]; cbn; auto. destruct (f x); cbn; auto. }
    now rewrite !X, C.
  Qed.
End perm.

(** *** The convolution by name *)
Definition meet_at (na nk env e : string -> nat) (d : string) : nat := match axis (na d) (nk d) (env d) (e d) with Some p => p | None => 0 end.
Definition meets_at (na nk env e : string -> nat) (d : string) : bool := match axis (na d) (nk d) (env d) (e d) with Some p => true | None => false end.
Lemma position_named ds na nk env e : position (map na ds) (map nk ds) (map env ds) (map e ds) =
  if forallb (meets_at na nk env e) ds then Some (map (meet_at na nk env e) ds) else None.
Proof.
  induction ds as [|d ds IH]; cbn [map position forallb]; auto. rewrite IH. clear IH. generalize (forallb (meets_at na nk env e) ds) as B, (map (meet_at na nk env e) ds) as M. intros B M. unfold meets_at, meet_at. destruct (axis _ _ _ _); cbn [andb]; [|reflexivity].
  now destruct B.
Qed.
Lemma forallb_set (f : string -> bool) l l' : (forall d, In d l <-> In d l') -> forallb f l = forallb f l'.
Proof.
  intro H. destruct (forallb f l) eqn:E; symmetry.
  - rewrite forallb_forall in *. intros d Hd. apply E, H, Hd.
  - apply not_true_iff_false. intro X. rewrite <- not_true_iff_false in E. apply E. rewrite forallb_forall in *. intros d Hd. apply X, H, Hd.
Qed.
Lemma conv_perm (ds ds' : list string) (na nk : string -> nat) (F F' G G' : list nat -> Q) (env : string -> nat) : NoDup ds -> NoDup ds' -> (forall d, In d ds <-> In d ds') ->
  (forall e, (forall d, In d ds -> (e d < na d)%nat) -> F (map e ds) == F' (map e ds'))%Q ->
  (forall e, (forall d, In d ds -> (e d < nk d)%nat) -> G (map e ds) == G' (map e ds'))%Q ->
  (conv_same (map na ds) (map nk ds) F G (map env ds) == conv_same (map na ds') (map nk ds') F' G' (map env ds'))%Q.
Proof.
  intros N N' P HF HG. unfold conv_same. apply sum_perm; auto. intros e He. rewrite !position_named. rewrite <- (forallb_set _ _ _ P).
  destruct (forallb (meets_at na nk env e) ds) eqn:E; [|reflexivity]. rewrite HF, HG; auto; [reflexivity|].
  intros d Hd. rewrite forallb_forall in E. specialize (E d Hd). unfold meets_at in E. unfold meet_at. destruct (axis _ _ _ _) eqn:X; [|discriminate]. now apply axis_iff in X.
Qed.
