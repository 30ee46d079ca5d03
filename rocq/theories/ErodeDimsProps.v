(** Property C77: the horizontal dimensions of erode_mask. *)
From Verif Require Import CFSearchProofs CFSearchProps PyDictFacts PyBaseFacts CFSearchSpec CFDimsProps.
From Verif Require Import CoordsProofs ErodeProps ErodeDims.
From Coq Require Import Lia.
Open Scope nat_scope.

(** ** Specification *)
(** A dimension of the data for a type: the first one that has this type; without one, the one at
    position [k] from the end *)
Definition found (sg : sgloc) (cs : catspecs) (known : dict (list string)) (data : xda) (t : string) (d : string) : Prop :=
  exists before after, x_dims data = (before ++ d :: after)%list /\ has_type sg cs known data d t /\
    forall d', In d' before -> ~ has_type sg cs known data d' t.
Definition guessed (sg : sgloc) (cs : catspecs) (known : dict (list string)) (data : xda) (t : string) (k : nat) (d : string) : Prop :=
  (forall d', In d' (x_dims data) -> ~ has_type sg cs known data d' t) /\
  exists before after, x_dims data = (before ++ d :: after)%list /\ List.length after = k.
Definition x_of sg cs known data d : Prop := found sg cs known data "x" d \/ guessed sg cs known data "x" 0 d.
Definition y_of sg cs known data d : Prop := found sg cs known data "y" d \/ guessed sg cs known data "y" 1 d.

(** ** Proofs *)
Lemma nth_rev_split {A} (l : list A) k d : nth_error (rev l) k = Some d -> exists b c, l = (b ++ d :: c)%list /\ List.length c = k.
Proof.
  intro H. destruct (nth_error_split _ _ H) as (l1 & l2 & E & L). exists (rev l2), (rev l1).
  split; [|now rewrite rev_length]. rewrite <- (rev_involutive l), E, rev_app_distr. cbn [rev]. now rewrite <- app_assoc.
Qed.
Lemma split_nth_rev {A} (l b c : list A) d k : l = (b ++ d :: c)%list -> List.length c = k -> nth_error (rev l) k = Some d.
Proof.
  intros -> <-. rewrite rev_app_distr. cbn [rev]. rewrite <- app_assoc. rewrite nth_error_app2 by (rewrite rev_length; lia).
  rewrite rev_length, Nat.sub_diag. reflexivity.
Qed.
Section Props.
  Variable sg : sgloc.
  Variable cs : catspecs.
  Variable known : dict (list string).
  Hypothesis Hw : dict_wf cs.
  Lemma at_none d : at_loc sg None d.
  Proof. intros l p r H. discriminate. Qed.
  Lemma dim1 data t k d (Hk : nth_error (rev ["t"; "z"; "y"; "x"]%string) k = Some t) (Hu : forall k', nth_error (rev ["t"; "z"; "y"; "x"]%string) k' = Some t -> k' = k) (Hl : lower t = t) :
    get_dim1 sg cs known data t = Ok d -> exists n, d = Some n /\ (found sg cs known data t n \/ guessed sg cs known data t k n).
  Proof.
    unfold get_dim1. destruct (get_dims sg cs known data [t] true ["t"; "z"; "y"; "x"]%string ERaise) as [l|] eqn:E; [|discriminate]. cbn [bind].
    destruct (C30_positional sg cs known data [t] ["t"; "z"; "y"; "x"]%string ERaise l) as (L & H); auto.
    { repeat constructor; intros []. } { repeat constructor; cbn; intuition discriminate. }
    destruct l as [|d' l]; [discriminate|]. intro X. injection X as ->. destruct (H 0%nat t eq_refl) as (o & Hs & Ho). cbn [nth_error] in Ho.
    apply C30_search_dim in Hs; auto. rewrite Hl in Hs. destruct o as [n|].
    - injection Ho as ->. exists n. split; auto. left. destruct Hs as (b & a & E1 & E2 & _ & E3). exists b, a. split; auto. split; auto. intros d' Hd. apply E3; auto. apply at_none.
    - assert (N : forall d', In d' (x_dims data) -> ~ has_type sg cs known data d' t) by (intros; apply Hs; auto; apply at_none).
      destruct Ho as [(Ho & _)|(k' & n & Hk' & Hn & Hd)].
      + exfalso. apply Ho. apply in_rev. eapply nth_error_In; eauto.
      + injection Hd as ->. exists n. split; auto. right. split; auto. rewrite (Hu k' Hk') in Hn. now apply nth_rev_split.
  Qed.
  Lemma dim1_x data d : get_dim1 sg cs known data "x" = Ok d -> exists n, d = Some n /\ x_of sg cs known data n.
  Proof. apply dim1; auto. intros [|[|[|[|[|k]]]]]; cbn; try discriminate; auto. Qed.
  Lemma dim1_y data d : get_dim1 sg cs known data "y" = Ok d -> exists n, d = Some n /\ y_of sg cs known data n.
  Proof. apply dim1; auto. intros [|[|[|[|[|k]]]]]; cbn; try discriminate; auto. Qed.
  Lemma dim1_total data t : (t = "x" \/ t = "y")%string -> (forall d, In d (x_dims data) -> dim_fair sg cs known data d) -> 2 <= List.length (x_dims data) ->
    exists d, get_dim1 sg cs known data t = Ok d.
  Proof.
    intros Ht Hf H2. unfold get_dim1, get_dims. destruct (Nat.ltb_spec (List.length (x_dims data)) (List.length [t])) as [H|H]; [cbn in H; lia|].
    cbn [scan_types]. destruct (C30_search_dim_total sg cs known data t None Hf) as [o Eo]. rewrite Eo. cbn [bind dset].
    rewrite <- (rev_length) in H2. destruct (rev (x_dims data)) as [|d0 [|d1 r]] eqn:Er; cbn in H2; try lia.
    destruct o as [n|]; cbn; rewrite ?Er; destruct Ht as [-> | ->]; cbn; rewrite ?Er; cbn; eauto.
  Qed.
  (** What is inferred; what is given is kept. *)
  Theorem C77_dimensions data xdim ydim x y : get_xydims sg cs known data xdim ydim = Ok (x, y) ->
    exists x' y', x = Some x' /\ y = Some y' /\
      match xdim with Some n => x' = n | None => x_of sg cs known data x' end /\
      match ydim with Some n => y' = n | None => y_of sg cs known data y' end.
  Proof.
    unfold get_xydims. destruct xdim as [n|].
    - cbn [bind]. destruct ydim as [m|]; cbn [bind].
      + intro H. injection H as <- <-. eauto 10.
      + destruct (get_dim1 sg cs known data "y") as [d|] eqn:E; [|discriminate]. cbn [bind]. intro H. injection H as <- <-.
        apply dim1_y in E. destruct E as (m & -> & E). eauto 10.
    - destruct (get_dim1 sg cs known data "x") as [d|] eqn:Ex; [|discriminate]. cbn [bind]. apply dim1_x in Ex. destruct Ex as (n & -> & Ex).
      destruct ydim as [m|]; cbn [bind].
      + intro H. injection H as <- <-. eauto 10.
      + destruct (get_dim1 sg cs known data "y") as [d|] eqn:E; [|discriminate]. cbn [bind]. intro H. injection H as <- <-.
        apply dim1_y in E. destruct E as (m & -> & E). eauto 10.
  Qed.
  (** Two dimensions at least: they are always found. *)
  Theorem C77_total data xdim ydim : (forall d, In d (x_dims data) -> dim_fair sg cs known data d) -> 2 <= List.length (x_dims data) ->
    exists x y, get_xydims sg cs known data xdim ydim = Ok (Some x, Some y).
  Proof.
    intros Hf H2. assert (E : exists r, get_xydims sg cs known data xdim ydim = Ok r).
    { unfold get_xydims. destruct (dim1_total data "x" (or_introl eq_refl) Hf H2) as [dx Ex]. destruct (dim1_total data "y" (or_intror eq_refl) Hf H2) as [dy Ey].
      rewrite Ex, Ey. destruct xdim, ydim; cbn [bind]; eauto. }
    destruct E as [[x y] E]. destruct (C77_dimensions _ _ _ _ _ E) as (x' & y' & -> & -> & _). eauto.
  Qed.
  Lemma of_in data t k d : found sg cs known data t d \/ guessed sg cs known data t k d -> In d (x_dims data).
  Proof. intros [(b & a & -> & _)|(_ & b & a & -> & _)]; rewrite in_app_iff; simpl; auto. Qed.
  (** They are two dimensions of the data when both are found by their types, or none is. *)
  Theorem C77_distinct data x y : NoDup (x_dims data) ->
    (found sg cs known data "x" x /\ found sg cs known data "y" y) \/ (guessed sg cs known data "x" 0 x /\ guessed sg cs known data "y" 1 y) ->
    (forall d, In d (x_dims data) -> dim_fair sg cs known data d) -> x <> y /\ In x (x_dims data) /\ In y (x_dims data).
  Proof.
    intros Hn H Hf. assert (I : In x (x_dims data) /\ In y (x_dims data)).
    { destruct H as [[A B]|[A B]]; [exact (conj (of_in data "x" 0 x (or_introl A)) (of_in data "y" 1 y (or_introl B)))|exact (conj (of_in data "x" 0 x (or_intror A)) (of_in data "y" 1 y (or_intror B)))]. }
    split; auto. destruct H as [[(b & a & E & T & _) (b' & a' & E' & T' & _)]|[(_ & b & a & E & L) (_ & b' & a' & E' & L')]]; intro X; subst y.
    - destruct (get_dim_type_total sg cs known data x (Hf x (proj1 I))) as [o Eo].
      assert (Hx := proj2 (C30_get_dim_type sg cs known data x o Hw Eo "x" ltac:(discriminate)) T).
      assert (Hy := proj2 (C30_get_dim_type sg cs known data x o Hw Eo "y" ltac:(discriminate)) T'). congruence.
    - assert (A : nth_error (rev (x_dims data)) 0 = Some x) by exact (split_nth_rev _ b a x 0 E L).
      assert (B : nth_error (rev (x_dims data)) 1 = Some x) by exact (split_nth_rev _ b' a' x 1 E' L').
      assert (D : 0 = 1). { apply (proj1 (NoDup_nth_error (rev (x_dims data))) (NoDup_rev Hn)); [apply nth_error_Some; congruence|congruence]. }
      discriminate.
  Qed.

  Variable window : nat -> list Q.
  Variable fill : Q.
  Notation call := (erode_call sg cs known window fill).
  (** Erosion a number of times with inferred dimensions: valid data stay, and the missing values
      that are filled are those within [n] steps, in the plane of the two dimensions, of a datum. *)
  Theorem C77_erode fuel data a n x y : wf a -> x_dims data = dims a -> 2 <= List.length (dims a) ->
    (forall d, In d (dims a) -> dim_fair sg cs known data d) ->
    get_xydims sg cs known data None None = Ok (Some x, Some y) -> x <> y ->
    x_of sg cs known data x /\ y_of sg cs known data y /\
    exists b, call fuel true data a (ATimes n) None None None = Ok (Some b) /\ dims b = dims a /\ shape b = shape a /\
      (forall env, position_of a env -> (look b env <> None <->
        exists env', position_of a env' /\ within (dims a) x y (Z.to_nat n) env env' /\ look a env' <> None)) /\
      (forall i v, value a i = Some v -> value b i = Some v) /\
      call fuel true data a (ATimes n) None (Some x) (Some y) = Ok (Some b).
  Proof.
    intros Wa Ed H2 Hf E Hxy. destruct (C77_dimensions _ _ _ _ _ E) as (x' & y' & Ex & Ey & Hx & Hy). injection Ex as <-. injection Ey as <-.
    split; auto. split; auto. assert (Ix := of_in _ _ _ _ Hx). assert (Iy := of_in _ _ _ _ Hy). rewrite Ed in Ix, Iy.
    destruct (C39_default window fill fuel a n x y Wa Ix Iy Hxy) as (b & Eb & Db & Sb & Hv & Hk & _).
    exists b. unfold erode_call. destruct (Nat.ltb_spec (List.length (dims a)) 2); [lia|]. cbn [bind]. rewrite E. cbn [bind named fst snd get_xydims]. auto 10.
  Qed.
  (** A mask given as a numpy array: that of the two dimensions, in the order (y, x).  It must have
      two dimensions. *)
  Theorem C77_array fuel float data a b kernel xdim ydim x y : 2 <= List.length (dims a) ->
    get_xydims sg cs known data xdim ydim = Ok (Some x, Some y) ->
    (forall n m, bshape b = [n; m] -> call fuel float data a (AArray b) kernel xdim ydim =
       call fuel float data a (AMask (mkda [y; x] [n; m] (bvalue b))) kernel (Some x) (Some y)) /\
    (2 < List.length (bshape b) -> call fuel float data a (AArray b) kernel xdim ydim = Raise XoaError) /\
    (List.length (bshape b) < 2 -> call fuel float data a (AArray b) kernel xdim ydim = Raise ValueError).
  Proof.
    intros H2 E. unfold erode_call. destruct (Nat.ltb_spec (List.length (dims a)) 2); [lia|]. rewrite E. cbn [bind named fst snd]. split; [|split].
    - intros n m Eb. rewrite Eb. reflexivity.
    - intro L. destruct (Nat.ltb_spec 2 (List.length (bshape b))); [reflexivity|lia].
    - intro L. destruct (Nat.ltb_spec 2 (List.length (bshape b))); [lia|]. destruct (Nat.eqb_spec (List.length (bshape b)) 2); [lia|reflexivity].
  Qed.
  (** The order of the checks: the number of dimensions of the data, those of the mask, and only
      then the search of the dimensions; with a kernel, and no array, there is no search. *)
  Theorem C77_checks fuel float data a u kernel xdim ydim :
    (List.length (dims a) < 2 -> call fuel float data a u kernel xdim ydim = Raise XoaError) /\
    (2 <= List.length (dims a) -> forall m, ~ incl (dims m) (dims a) -> call fuel float data a (AMask m) kernel xdim ydim = Raise XoaError) /\
    (2 <= List.length (dims a) -> forall m k, incl (dims m) (dims a) ->
       call fuel float data a (AMask m) (Some k) xdim ydim = erode_mask window fill fuel float a (UMask m) (Some k) "" "") /\
    (2 <= List.length (dims a) -> forall m x y, incl (dims m) (dims a) ->
       call fuel float data a (AMask m) None (Some x) (Some y) = erode_mask window fill fuel float a (UMask m) None x y).
  Proof.
    unfold erode_call. split; [|split; [|split]]; intro H; destruct (Nat.ltb_spec (List.length (dims a)) 2); try lia; auto; intros m; cbn [bind].
    - intro Hm. destruct (forallb (fun d => mem d (dims a)) (dims m)) eqn:E; [|reflexivity]. exfalso. apply Hm. now apply forallb_incl.
    - intros k Hm. apply forallb_incl in Hm. rewrite Hm. reflexivity.
    - intros x y Hm. apply forallb_incl in Hm. rewrite Hm. reflexivity.
  Qed.
End Props.

(** ** Examples and refutations *)
(** Both by type, in any order; both by position; *)
Example ex_xydims : get_xydims sg0 ex_specs ex_dims (plain ["lon"; "time"; "lat"]) None None = Ok (Some "lon"%string, Some "lat"%string) /\
  get_xydims sg0 ex_specs [] (plain ["lon"; "time"; "lat"]) (Some "lon"%string) (Some "lat"%string) = Ok (Some "lon"%string, Some "lat"%string).
Proof. split; vm_compute; reflexivity. Qed.
(** one by type and one by position: the same dimension for x and y, although there is another one. *)
Theorem C77_same_refuted : get_xydims sg0 ex_specs ex_dims (plain ["i"; "lat"]) None None = Ok (Some "lat"%string, Some "lat"%string) /\
  found sg0 ex_specs ex_dims (plain ["i"; "lat"]) "y" "lat" /\ guessed sg0 ex_specs ex_dims (plain ["i"; "lat"]) "x" 0 "lat".
Proof.
  split; [vm_compute; reflexivity|].
  assert (W : dict_wf ex_specs) by (unfold dict_wf; vm_compute; repeat constructor; cbn; intuition discriminate).
  assert (G : forall d, In d ["i"; "lat"]%string -> exists o, get_dim_type sg0 ex_specs ex_dims d (Some (plain ["i"; "lat"]%string)) = Ok o /\ o <> Some "x"%string /\ (d = "lat"%string <-> o = Some "y"%string)).
  { intros d [<-|[<-|[]]]; eexists; (split; [vm_compute; reflexivity|]); split; try discriminate; split; congruence. }
  split.
  - exists ["i"%string], []. split; [reflexivity|]. destruct (G "lat"%string) as (o & E & _ & H); [cbn; auto|].
    split; [apply (C30_get_dim_type _ _ _ _ _ _ W E); [discriminate|now apply H]|].
    intros d [<-|[]] T. destruct (G "i"%string) as (o' & E' & _ & H'); [cbn; auto|]. apply (C30_get_dim_type _ _ _ _ _ _ W E') in T; [|discriminate]. apply H' in T. discriminate.
  - split; [|exists ["i"%string], []; auto]. intros d Hd T. destruct (G d Hd) as (o & E & N & _). apply (C30_get_dim_type _ _ _ _ _ _ W E) in T; [|discriminate]. contradiction.
Qed.
(** Data with dimensions y and x: the hypotheses of C77_erode hold, and a missing value is filled. *)
Example ex_erode_call w f : get_xydims sg0 ex_specs ex_dims (plain ["y"; "x"]%string) None None = Ok (Some "x"%string, Some "y"%string) /\
  dims ex_sea = ["y"; "x"]%string /\
  match erode_call sg0 ex_specs ex_dims w f 0 true (plain ["y"; "x"]%string) ex_sea (ATimes 2) None None None with
  | Ok (Some b) => map (fun i => match value b i with Some q => Some (Qred q) | None => None end) (indices [2; 3]) = [Some 4; Some 4; Some 4; Some 4; Some 4; None]%Q | _ => False end.
Proof. split; [vm_compute; reflexivity|]. split; [reflexivity|]. vm_compute. reflexivity. Qed.
