(** C65: the shipped configuration meets the hypotheses of C28. *)
From Verif Require Import CFShippedProofs CFInheritProps.
From Coq Require Import Lia.
Open Scope string_scope.

Fixpoint distb (l : list string) : bool :=
  match l with [] => true | x :: l' => negb (existsb (String.eqb x) l') && distb l' end.
Lemma distb_ok l : distb l = true -> NoDup l.
Proof.
  induction l as [|x l IH]; cbn; [constructor|]. intro H. apply andb_true_iff in H. destruct H as [H1 H2].
  constructor; auto. intro Hx. apply negb_true_iff in H1. rewrite <- not_true_iff_false in H1. apply H1.
  apply existsb_exists. exists x. split; auto. apply String.eqb_refl.
Qed.
Fixpoint wfb (v : pyval) : bool :=
  match v with
  | Misc.VDict d => distb (map fst d) && (fix go d := match d with [] => true | (_, x) :: d' => wfb x && go d' end) d
  | _ => true
  end.
Fixpoint depth (v : pyval) : nat :=
  match v with
  | Misc.VDict d => S ((fix go d := match d with [] => 0%nat | (_, x) :: d' => Nat.max (depth x) (go d') end) d)
  | _ => 0%nat
  end.
Lemma wfb_ok k : forall v, (depth v <= k)%nat -> wfb v = true -> wf v.
Proof.
  induction k as [|k IH]; intros v Hd H; destruct v; try exact I; cbn in Hd; [lia|].
  cbn in *. apply andb_true_iff in H. destruct H as [H1 H2]. split; [now apply distb_ok|].
  clear H1. induction d as [|[s x] d IHd]; [exact I|]. apply andb_true_iff in H2. destruct H2 as [H2 H3]. split.
  - apply IH; auto. lia.
  - apply IHd; auto. lia.
Qed.
Definition is_vstr (v : pyval) : bool := match v with Misc.VStr _ => true | _ => false end.
Definition entryb (v : pyval) : bool :=
  match v with
  | Misc.VDict own =>
    wfb v &&
    match dget own "attrs" with
    | Some (Misc.VDict a) =>
      match dget a "long_name", dget a "standard_name" with
      | Some (Misc.VList _), Some (Misc.VList sn) => forallb is_vstr sn
      | _, _ => false
      end
    | _ => false
    end &&
    match dget own "inherit" with None | Some Misc.VNone | Some (Misc.VStr _) => true | _ => false end
  | _ => false
  end.
Lemma entryb_ok v : entryb v = true -> exists own, v = Misc.VDict own /\ valid_entry own.
Proof.
  unfold entryb. destruct v as [ | | | | | |own| | ]; try discriminate. rewrite !andb_true_iff. intros [[H1 H2] H3].
  exists own. split; auto. split; [now apply (wfb_ok (depth (Misc.VDict own)))|]. split.
  - destruct (dget own "attrs") as [[ | | | | | |a| | ]|]; try discriminate.
    destruct (dget a "long_name") as [[ | | | |ln| | | | ]|] eqn:E1; try discriminate.
    destruct (dget a "standard_name") as [[ | | | |sn| | | | ]|] eqn:E2; try discriminate.
    exists a, ln, sn. repeat split; auto. rewrite forallb_forall in H2. intros v Hv. specialize (H2 v Hv). destruct v; try discriminate. eauto.
  - destruct (dget own "inherit") as [[]|]; auto; discriminate.
Qed.
Lemma shipped_valid_cfg : valid_cfg cfcfg.
Proof.
  assert (H : forall d, distb (dkeys d) = true -> forallb (fun kv => entryb (snd kv)) d = true -> valid_section d).
  { intros d H1 H2. split; [now apply distb_ok|]. intros name v Hin. rewrite forallb_forall in H2. apply entryb_ok. exact (H2 _ Hin). }
  split; apply H; vm_compute; reflexivity.
Qed.
Definition axisb (v : pyval) : bool :=
  match v with
  | Misc.VNone => true
  | Misc.VStr s => match dget (dims cfcfg) (lower s) with Some (Misc.VList _) => true | _ => false end
  | _ => false
  end.
Definition dimsb (is_coord : bool) (v : pyval) : bool :=
  match v with
  | Misc.VDict own =>
    match dget own "name" with Some (Misc.VList _) => true | _ => false end &&
    match dget own "attrs" with
    | Some (Misc.VDict a) => match dget a "axis" with Some v => axisb v | None => negb is_coord end
    | _ => true
    end
  | _ => true
  end.
Lemma config_in cat name own : config_of cfcfg cat name = Some own ->
  (cat = "data_vars" /\ In (name, Misc.VDict own) (data_vars cfcfg)) \/ (cat = "coords" /\ In (name, Misc.VDict own) (coords cfcfg)).
Proof.
  unfold config_of. destruct (String.eqb_spec cat "data_vars") as [->|N1].
  - destruct (dget (data_vars cfcfg) name) as [[]|] eqn:E; try discriminate. intro H. injection H as <-. left. split; auto. now apply dget_some_in.
  - destruct (String.eqb_spec cat "coords") as [->|N2]; [|discriminate].
    destruct (dget (coords cfcfg) name) as [[]|] eqn:E; try discriminate. intro H. injection H as <-. right. split; auto. now apply dget_some_in.
Qed.
Lemma shipped_valid_dims : valid_dims cfcfg.
Proof.
  split; [apply distb_ok; vm_compute; reflexivity|]. intros cat name own H.
  assert (B1 : forallb (fun kv => dimsb false (snd kv)) (data_vars cfcfg) = true) by (vm_compute; reflexivity).
  assert (B2 : forallb (fun kv => dimsb true (snd kv)) (coords cfcfg) = true) by (vm_compute; reflexivity).
  rewrite forallb_forall in B1, B2.
  assert (B : exists c, (cat = "coords" -> c = true) /\ dimsb c (Misc.VDict own) = true).
  { destruct (config_in _ _ _ H) as [[-> Hin]|[-> Hin]].
    - exists false. split; [discriminate|]. exact (B1 _ Hin).
    - exists true. split; [auto|]. exact (B2 _ Hin). }
  clear B1 B2. destruct B as (c & Hc & B). cbn in B. apply andb_true_iff in B. destruct B as [B1 B2]. split.
  - destruct (dget own "name") as [[]|]; try discriminate. eauto.
  - intros a Ea. rewrite Ea in B2. split.
    + intro Hk. destruct (dget a "axis"); [eauto|]. rewrite (Hc Hk) in B2. discriminate.
    + intros v Ev. rewrite Ev in B2. unfold valid_axis. destruct v; try discriminate; auto. right. eexists. split; [reflexivity|].
      intros _. cbn [axisb] in B2. destruct (dget (dims cfcfg) (lower s)) as [[]|]; try discriminate. eauto.
Qed.
(** Chains of inheritance *)
Fixpoint colon_split (s : string) : option (string * string) :=
  match s with
  | EmptyString => None
  | String c s' => if Ascii.eqb c ":" then Some ("", s')
                   else match colon_split s' with Some (a, b) => Some (String c a, b) | None => None end
  end.
Lemma colon_none s : colon_split s = None -> no_colon s.
Proof.
  induction s as [|c s IH]; cbn; auto. destruct (Ascii.eqb_spec c ":") as [->|N]; [discriminate|].
  destruct (colon_split s) as [[]|]; [discriminate|]. auto.
Qed.
Lemma colon_some s : forall a b, colon_split s = Some (a, b) -> s = a ++ ":" ++ b /\ no_colon a.
Proof.
  induction s as [|c s IH]; cbn; [discriminate|]. destruct (Ascii.eqb_spec c ":") as [->|N].
  - intros a b H. injection H as <- <-. cbn. auto.
  - destruct (colon_split s) as [[a b]|]; [|discriminate]. intros a' b' H. injection H as <- <-.
    destruct (IH a b eq_refl) as [-> H]. cbn. auto.
Qed.
Definition parent (cat s : string) : option (string * string) :=
  match colon_split s with
  | None => Some (cat, s)
  | Some (a, b) => match colon_split b with None => Some (a, b) | Some _ => None end
  end.
Lemma parent_ok cat s a b : parent cat s = Some (a, b) -> refers cat s a b.
Proof.
  unfold parent. destruct (colon_split s) as [[x y]|] eqn:E.
  - destruct (colon_split y) as [[]|] eqn:E2; [discriminate|]. intro H. injection H as <- <-.
    destruct (colon_some _ _ _ E) as [Es Hn]. apply refers_other; auto. now apply colon_none.
  - intro H. injection H as <- <-. constructor. now apply colon_none.
Qed.
Fixpoint chainb (fuel : nat) (cat name : string) : bool :=
  match fuel with
  | O => false
  | S f =>
    match config_of cfcfg cat name with
    | None => false
    | Some own =>
      match dget own "inherit" with
      | Some (Misc.VStr s) =>
        if nonempty s then
          match parent cat s with
          | Some (a, b) => if String.eqb a cat && String.eqb b name then false else chainb f a b
          | None => false
          end
        else true
      | Some v => negb (DictMerge.truthy v)
      | None => true
      end
    end
  end.
Lemma chainb_ok fuel : forall cat name, chainb fuel cat name = true -> exists n, chain (config_of cfcfg) cat name n /\ (n < fuel)%nat.
Proof.
  induction fuel as [|f IH]; cbn [chainb]; intros cat name; [discriminate|].
  destruct (config_of cfcfg cat name) as [own|] eqn:E; [|discriminate].
  destruct (dget own "inherit") as [v|] eqn:EI.
  2:{ intros _. exists 0%nat. split; [|lia]. constructor. exists own. split; auto. now rewrite EI. }
  assert (HR : DictMerge.truthy v = false -> exists n, chain (config_of cfcfg) cat name n /\ (n < S f)%nat).
  { intro H. exists 0%nat. split; [|lia]. constructor. exists own. split; auto. now rewrite EI. }
  assert (HS : forall s, v = Misc.VStr s -> (if nonempty s then
          match parent cat s with
          | Some (a, b) => if String.eqb a cat && String.eqb b name then false else chainb f a b
          | None => false
          end else true) = true -> exists n, chain (config_of cfcfg) cat name n /\ (n < S f)%nat).
  { intros s -> H. destruct (nonempty s) eqn:En; [|apply HR; destruct s; [reflexivity|discriminate]].
    destruct (parent cat s) as [[a b]|] eqn:EP; [|discriminate].
    destruct (String.eqb a cat && String.eqb b name) eqn:Eab; [discriminate|].
    destruct (IH a b H) as (n & Hn & Hlt). exists (S n). split; [|lia]. apply (chain_step _ cat name a b n); auto.
    - exists own, s. repeat split; auto; [intros ->; discriminate|]. now apply parent_ok.
    - intro X. injection X as -> ->. rewrite !String.eqb_refl in Eab. discriminate. }
  destruct v; try (intro H; apply HR; now apply negb_true_iff). intro H. exact (HS _ eq_refl H).
Qed.
(** Whatever the recursion limit (as soon as it is at least 3): the configuration loads, and every
    entry is what it resolves to according to C28. *)
Theorem C65_resolves fuel : (3 <= fuel)%nat -> exists st, post_process fuel cfcfg = Ok st /\
  (forall cat name own, config_of cfcfg cat name = Some own ->
     exists e, config_of st cat name = Some e /\ resolves (config_of cfcfg) cat name e) /\
  (forall t names, dget (dims cfcfg) t = Some (Misc.VList names) ->
     dget (dims st) t = Some (Misc.VList (names ++ flat_map (dims_of_coord t) (coords st)))).
Proof.
  intro Hf. destruct (C28_inheritance fuel cfcfg shipped_valid_cfg shipped_valid_dims) as (st & E & H & _ & D).
  - intros cat name own H.
    assert (B1 : forallb (fun kv => chainb 3 "data_vars" (fst kv)) (data_vars cfcfg) = true) by (vm_compute; reflexivity).
    assert (B2 : forallb (fun kv => chainb 3 "coords" (fst kv)) (coords cfcfg) = true) by (vm_compute; reflexivity).
    rewrite forallb_forall in B1, B2.
    assert (HC : chainb 3 cat name = true).
    { destruct (config_in _ _ _ H) as [[-> Hin]|[-> Hin]]; [exact (B1 _ Hin)|exact (B2 _ Hin)]. }
    destruct (chainb_ok 3 cat name HC) as (n & Hn & Hlt). exists n. split; auto. lia.
  - exists st. auto.
Qed.
