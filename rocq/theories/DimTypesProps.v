(** C60: types of all the dimensions of an array, and the functions built on them. *)
From Verif Require Import DimTypes CFSearchSpec CFSearchProps CFDimsProps.
From Verif Require Import PyDictFacts.
From Coq Require Import Lia.
Open Scope string_scope.

Lemma loop_spec sg cs dims a u : forall todo acc d, dict_wf acc -> NoDup todo -> (forall x, In x todo -> ~ In x (dkeys acc)) ->
  dim_types_loop sg cs dims a u todo acc = Ok d ->
  exists l, d = (acc ++ l)%list /\ map fst l = todo /\ Forall (fun dt => exists o, get_dim_type sg cs dims (fst dt) (Some a) = Ok o /\ snd dt = match o with None => u | o => o end) l.
Proof.
  induction todo as [|x todo IH]; intros acc d W N Hn H; cbn [dim_types_loop] in H.
  - injection H as <-. exists []. rewrite app_nil_r. auto.
  - destruct (get_dim_type sg cs dims x (Some a)) as [o|] eqn:E; cbn [bind] in H; [|discriminate]. inversion N as [|? ? N1 N2]; subst.
    assert (S : forall v, dset acc x v = (acc ++ [(x, v)])%list).
    { intro v. assert (X := Hn x (or_introl eq_refl)). clear - X. induction acc as [|[k w] acc IH]; [reflexivity|]. cbn [dset]. destruct (String.eqb_spec x k) as [->|Nk]; [exfalso; apply X; now left|].
      rewrite IH; [reflexivity|]. intro Z. apply X. now right. }
    apply IH in H; auto using dset_wf.
    + destruct H as (l & -> & E1 & F). exists ((x, match o with None => u | o => o end) :: l). rewrite S, <- app_assoc. split; [reflexivity|]. split; [cbn; congruence|]. constructor; eauto.
    + intros y Hy. rewrite S. unfold dkeys. rewrite map_app, in_app_iff. cbn. intros [Z|[Z|[]]]; [apply (Hn y); [now right|exact Z]|subst; contradiction].
Qed.
(** One type per dimension, in the order of the dimensions: its type, or [unknown] when it has none *)
Theorem C60_types sg cs dims a u d : dict_wf cs -> NoDup (x_dims a) -> get_dim_types_dict sg cs dims a u = Ok d ->
  dkeys d = x_dims a /\
  (forall x t, In x (x_dims a) -> has_type sg cs dims a x t -> dget d x = Some (Some t)) /\
  (forall x t, In x (x_dims a) -> dget d x = Some (Some t) -> t <> "" -> u <> Some t -> has_type sg cs dims a x t) /\
  (forall x, In x (x_dims a) -> (forall t, ~ has_type sg cs dims a x t) -> dget d x = Some u \/ dget d x = Some (Some "")).
Proof.
  intros W N H. destruct (loop_spec sg cs dims a u (x_dims a) [] d (NoDup_nil _) N (fun _ _ => @in_nil _ _) H) as (l & -> & K & F). cbn [List.app] in *.
  assert (Wl : dict_wf l) by (unfold dict_wf, dkeys; now rewrite K).
  assert (G : forall x, In x (x_dims a) -> exists o, get_dim_type sg cs dims x (Some a) = Ok o /\ dget l x = Some (match o with None => u | o => o end)).
  { intros x Hx. rewrite <- K in Hx. apply in_map_iff in Hx. destruct Hx as ([y v] & E & Hx). cbn in E. subst. rewrite Forall_forall in F. destruct (F _ Hx) as (o & Ho & Ev). cbn in *. exists o. split; auto. subst. now apply dget_in. }
  split; [exact K|]. split; [|split].
  - intros x t Hx Ht. destruct (G x Hx) as (o & Ho & ->). assert (Hne := proj1 Ht). apply (C30_get_dim_type _ _ _ _ _ _ W Ho t Hne) in Ht. now subst.
  - intros x t Hx Hg Hne Hu. destruct (G x Hx) as (o & Ho & E). rewrite Hg in E. apply (C30_get_dim_type _ _ _ _ _ _ W Ho t Hne). destruct o; congruence.
  - intros x Hx Hno. destruct (G x Hx) as (o & Ho & ->). destruct o as [t|]; auto. destruct t as [|c t]; auto. exfalso. apply (Hno (String c t)). apply (C30_get_dim_type _ _ _ _ _ _ W Ho); [discriminate|reflexivity].
Qed.
(** As a tuple: as many types as dimensions, in their order *)
Theorem C60_tuple sg cs dims a u d : NoDup (x_dims a) -> get_dim_types_dict sg cs dims a u = Ok d ->
  exists l, get_dim_types_tuple sg cs dims a u = Ok l /\ List.length l = List.length (x_dims a) /\ forall i x t, nth_error (x_dims a) i = Some x -> (nth_error l i = Some t <-> dget d x = Some t).
Proof.
  intros N H. unfold get_dim_types_tuple. rewrite H. cbn [bind]. eexists. split; [reflexivity|].
  destruct (loop_spec sg cs dims a u (x_dims a) [] d (NoDup_nil _) N (fun _ _ => @in_nil _ _) H) as (l & -> & K & _). cbn [List.app]. assert (Wl : dict_wf l) by (unfold dict_wf, dkeys; now rewrite K).
  rewrite <- K, !map_length. split; auto. intros i x t Hx. rewrite nth_error_map in Hx. destruct (nth_error l i) as [[y v]|] eqn:E; [|discriminate]. cbn in Hx. injection Hx as ->.
  rewrite nth_error_map, E. cbn. assert (G : dget l x = Some v) by (apply dget_in; auto; eapply nth_error_In; eauto). rewrite G. reflexivity.
Qed.
Theorem C60_total sg cs dims a u : (forall x, In x (x_dims a) -> dim_fair sg cs dims a x) -> exists d, get_dim_types_dict sg cs dims a u = Ok d.
Proof.
  unfold get_dim_types_dict. generalize (x_dims a) at 1 2 as todo. generalize (@nil (string * option string)). intros acc todo. revert acc. induction todo as [|x l IH]; intros acc H; cbn [dim_types_loop]; [eauto|].
  destruct (get_dim_type_total sg cs dims a x (H x (or_introl eq_refl))) as [o ->]. cbn [bind]. apply IH. intros; apply H; now right.
Qed.

(** ** False: the types of the dimensions can be got with xoa.coords.get_dim_types, and an array
    can be reordered.  Both always fail, because of a repeated argument. *)
Theorem C60_get_dim_types_refuted sg cs known x u asdict : coords_get_dim_types sg cs known x u asdict = Raise TypeError.
Proof. destruct x; reflexivity. Qed.
Theorem C60_reorder_refuted sg cs known transp a order : reorder sg cs known transp a order = Raise TypeError.
Proof. reflexivity. Qed.
(** False: data can be interpolated to locations. *)
Theorem C60_grid2loc_refuted sg da loc compat finish : exists e, grid2loc sg da loc compat finish = Raise e.
Proof.
  unfold grid2loc. destruct (get_lon sg (fst da) (snd da) ERaise); cbn [bind]; [|eauto]. destruct (get_lat sg (fst da) (snd da) ERaise); cbn [bind]; [|eauto].
  destruct (get_lon sg (fst loc) (snd loc) ERaise); cbn [bind]; [|eauto]. destruct (get_lat sg (fst loc) (snd loc) ERaise); cbn [bind]; [|eauto].
  destruct (get_vertical sg (fst loc) (snd loc) EIgnore) as [deps|]; cbn [bind]; [|eauto].
  destruct (match deps with Some _ => get_vertical sg (fst da) (snd da) compat | None => Ok None end); cbn [bind]; [|eauto].
  exists TypeError. reflexivity.
Qed.

(** ** Calls are bound exactly when they are well formed: not too many positional arguments, known
    keywords that are not given twice, and the parameters without default given; then each
    parameter has the argument given for it *)
Theorem C60_binding {V} (params : list (string * bool)) (pos : list V) (kw : dict V) : NoDup (map fst params) -> dict_wf kw ->
  let given_pos p := exists i x, nth_error (map fst params) i = Some p /\ nth_error pos i = Some x in
  ((exists b, bind_args params pos kw = Ok b) <->
   (List.length pos <= List.length params)%nat /\ (forall k, In k (dkeys kw) -> In k (map fst params) /\ ~ given_pos k) /\
   (forall p, In (p, false) params -> given_pos p \/ In p (dkeys kw))) /\
  (forall b, bind_args params pos kw = Ok b ->
    (forall i p x, nth_error (map fst params) i = Some p -> nth_error pos i = Some x -> dget b p = Some x) /\
    (forall k x, dget kw k = Some x -> dget b k = Some x) /\
    (forall p, dmem b p = true -> given_pos p \/ In p (dkeys kw))).
Proof.
  intros Np Wk given_pos. set (names := map fst params) in *. set (bound := combine names pos).
  assert (B : forall p x, In (p, x) bound <-> exists i, nth_error names i = Some p /\ nth_error pos i = Some x).
  { intros p x. unfold bound. clear. generalize names. intro ns. revert pos. induction ns as [|n ns IH]; intros [|y pos]; cbn [combine].
    - split; [intros []|intros (i & H & _); destruct i; discriminate].
    - split; [intros []|intros (i & H & _); destruct i; discriminate].
    - split; [intros []|intros (i & _ & H); destruct i; discriminate].
    - split.
      + intros [E|H]; [injection E as -> ->; exists 0%nat; auto|]. apply IH in H. destruct H as (i & H). now exists (S i).
      + intros (i & H1 & H2). destruct i; [cbn in *; left; congruence|]. right. apply IH. now exists i. }
  assert (Wb : dict_wf bound).
  { unfold dict_wf, dkeys, bound. clear - Np. revert pos. induction names as [|n ns IH]; intros [|x pos]; cbn; try constructor.
    - inversion Np; subst. intro H. apply in_map_iff in H. destruct H as ([a c] & E & H). cbn in E. subst. apply in_combine_l in H. contradiction.
    - inversion Np; auto. }
  assert (M : forall p, dmem bound p = true <-> given_pos p).
  { intro p. rewrite dmem_in. unfold dkeys. rewrite in_map_iff. split.
    - intros ([q x] & E & H). cbn in E. subst. apply B in H. destruct H as (i & H). now exists i, x.
    - intros (i & x & H). exists (p, x). split; auto. apply B. eauto. }
  unfold bind_args. fold names. fold bound.
  destruct (Nat.ltb_spec (List.length params) (List.length pos)) as [L|L].
  { split; [|discriminate]. split; [intros [b E]; discriminate|]. intros [X _]. lia. }
  match goal with |- context [if existsb ?f ?l then _ else _] => destruct (existsb f l) eqn:E1 end.
  { split; [|discriminate]. split; [intros [b E]; discriminate|]. intros (_ & X & _). apply existsb_exists in E1. destruct E1 as (k & Hk & E1). destruct (X k Hk) as [X1 X2].
    apply orb_true_iff in E1. destruct E1 as [E1|E1]; [|apply M in E1; contradiction].
    apply negb_true_iff in E1. assert (Y : existsb (String.eqb k) names = true); [|congruence]. apply existsb_exists. exists k. split; auto. apply String.eqb_refl. }
  assert (K : forall k, In k (dkeys kw) -> In k names /\ ~ given_pos k).
  { intros k Hk. assert (X := proj2 (Bool.not_true_iff_false _) E1). split.
    - destruct (existsb (String.eqb k) names) eqn:E2; [apply existsb_exists in E2; destruct E2 as (y & Hy & E2); apply String.eqb_eq in E2; now subst|].
      exfalso. apply X. apply existsb_exists. exists k. now rewrite E2.
    - intro H. apply M in H. apply X. apply existsb_exists. exists k. split; auto. rewrite H. apply orb_true_r. }
  match goal with |- context [if forallb ?f ?l then _ else _] => destruct (forallb f l) eqn:E2 end.
  - rewrite forallb_forall in E2. split.
    + split; [|eauto]. intros _. split; [lia|]. split; [exact K|]. intros p Hp. specialize (E2 _ Hp). cbn [fst snd] in E2. apply orb_true_iff in E2. destruct E2 as [E2|E2].
      * cbn in E2. apply M in E2. auto.
      * apply dmem_in in E2. auto.
    + intros b H. injection H as <-. assert (G : forall p, dget (bound ++ kw)%list p = match dget bound p with Some x => Some x | None => dget kw p end).
      { intro p. clear. induction bound as [|[k x] d IH]; [reflexivity|]. cbn. destruct (String.eqb p k); auto. }
      split; [|split].
      * intros i p x H1 H2. rewrite G. assert (X : dget bound p = Some x) by (apply dget_in; auto; apply B; eauto). now rewrite X.
      * intros k x Hk. rewrite G. assert (Ik : In k (dkeys kw)) by (apply dmem_in; unfold dmem; now rewrite Hk). destruct (K k Ik) as [_ Nk].
        destruct (dget bound k) eqn:E3; auto. exfalso. apply Nk. apply M. unfold dmem. now rewrite E3.
      * intros p Hp. unfold dmem in Hp. rewrite G in Hp. destruct (dget bound p) eqn:E3; [left; apply M; unfold dmem; now rewrite E3|]. right. apply dmem_in. exact Hp.
  - split; [|discriminate]. split; [intros [b E]; discriminate|]. intros (_ & _ & X). exfalso. apply (proj2 (Bool.not_true_iff_false _) E2). apply forallb_forall. intros [p d] Hp. cbn [fst snd].
    destruct d; [reflexivity|]. destruct (X p Hp) as [H|H]; [apply M in H; rewrite H; reflexivity|]. apply dmem_in in H. rewrite H. apply orb_true_r.
Qed.
Example ex_call : bind_args get_dim_types_params [1%nat] [("asdict", 2%nat)] = Ok [("da", 1%nat); ("asdict", 2%nat)].
Proof. reflexivity. Qed.
Example ex_types : get_dim_types_dict sg0 ex_specs [("y", ["lat"]); ("x", ["lon"])] (mkxda (item "temp" []) ["lat"; "foo"; "lon"] []) (Some "-") =
  Ok [("lat", Some "y"); ("foo", Some "-"); ("lon", Some "x")].
Proof. vm_compute. reflexivity. Qed.
