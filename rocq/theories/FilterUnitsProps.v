(** C89: filters commute with changes of units and combinations of data; only relative weights matter *)
From Verif Require Import FilterUnits InterpUnits InterpUnitsProps CoordsSpec FilterProps ErodeProps.
From Coq Require Import Lqa.
Open Scope nat_scope.
Open Scope list_scope.

Section windows.
  Variables (window : nat -> list Q) (fill : Q).
  Notation generate_kernel := (generate_kernel window fill).
  Notation convolve := (convolve window fill).
  Notation erode_mask := (erode_mask window fill).

  Lemma pos1 : (0 < 1)%Q. Proof. reflexivity. Qed.
  Lemma kr_refl w k : D3 (Kr 1 w) k k k.
  Proof. repeat split; auto. right. ring. Qed.
  Lemma gen_refl float w spec ds : rel3 (D3 (Kr 1 w)) (generate_kernel float spec ds) (generate_kernel float spec ds) (generate_kernel float spec ds).
  Proof. destruct (generate_kernel float spec ds); constructor. apply kr_refl. Qed.
  Lemma rf_self (u : fl) : feq u u.
  Proof. destruct u; cbn; auto. apply Qeq_refl. Qed.
  Lemma rf_comb a b g x y : same_layout x y -> same_nans x y -> D3 (Rf a b g) x y (dmap2 (lincomb a b g) x y).
  Proof.
    intros [E1 E2] N. unfold D3. cbn. split; [symmetry; exact E1|]. split; [reflexivity|]. split; [symmetry; exact E2|]. split; [reflexivity|]. intro i. specialize (N i). split; [|split].
    - apply rf_self.
    - symmetry. exact N.
    - cbn. unfold fl in *. revert N. destruct (value x i), (value y i); cbn; intro N; try discriminate; reflexivity.
  Qed.
  Lemma rf_unit a g x : D3 (Rf a 0 g) x x (dmap (rescale a g) x).
  Proof.
    unfold D3. cbn. do 4 (split; [reflexivity|]). intro i. split; [|split]; auto; unfold fl in *; destruct (value x i); cbn; auto. ring.
  Qed.
  Lemma rf_back a b g x y z : D3 (Rf a b g) x y z -> same_layout x y /\ deq z (dmap2 (lincomb a b g) x y).
  Proof. intros (E1 & E2 & E3 & E4 & H). split; [split; auto|]. split; [split; auto|]. intro i. apply H. Qed.
  Lemma rf_unit_back a g x z : D3 (Rf a 0 g) x x z -> deq z (dmap (rescale a g) x).
  Proof.
    intros (E1 & E2 & E3 & E4 & H). split; [split; auto|]. intro i. destruct (H i) as (F & _ & N). cbn. unfold fl in *. destruct (value x i), (value z i); cbn in *; try discriminate; auto.
    eapply Qeq_trans; [exact F|ring].
  Qed.

  (** convolve of [a x + b y + g] is the combination of the convolutions, for arrays with the same NaNs
      and any kernel; a constant term requires normalised weights, none being negative. *)
  Theorem C89_convolve a b g float x y spec norm : same_layout x y -> same_nans x y ->
    ((g == 0)%Q \/ (norm = true /\ forall k, generate_kernel float spec (dims x) = Ok k -> nonneg k)) ->
    dcombines (lincomb a b g) (convolve float x spec norm) (convolve float y spec norm) (convolve float (dmap2 (lincomb a b g) x y) spec norm).
  Proof.
    intros L N G. assert (H : rel3 (D3 (Rf a b g)) (convolve float x spec norm) (convolve float y spec norm) (convolve float (dmap2 (lincomb a b g) x y) spec norm)).
    { apply convolve3 with 1%Q; auto using pos1, rf_comb, gen_refl.
      - right. reflexivity.
      - destruct G as [G|[G1 G2]]; [now left|right; split; auto]. }
    destruct H; cbn; auto. now apply rf_back.
  Qed.
  Lemma regen_nonneg float x k k' : suited x k -> generate_kernel float (KDa k) (dims x) = Ok k' -> float = false \/ nonneg k'.
  Proof.
    intros (_ & Wk & D & Hn) E. destruct float; auto. right. destruct (regenerate window fill k (dims x) Wk D) as (k1 & E1 & S & V).
    rewrite E in E1. injection E1 as ->. destruct (same_kernel k k1 S V) as (_ & H & _). auto.
  Qed.
  (** The same for erode_mask, in all its modes: same number of passes, same filled points, and
      combined values. *)
  Theorem C89_erode a b g fuel float x y u kernel xdim ydim : same_layout x y -> same_nans x y ->
    ((g == 0)%Q \/ forall k, generate_kernel float (match kernel with None => KDa (shapiro_kernel [ydim; xdim]) | Some s => s end) (dims x) = Ok k -> suited x k) ->
    ocombines (lincomb a b g) (erode_mask fuel float x u kernel xdim ydim) (erode_mask fuel float y u kernel xdim ydim)
      (erode_mask fuel float (dmap2 (lincomb a b g) x y) u kernel xdim ydim).
  Proof.
    intros L N G. assert (H := erode3 window fill a b g 1 pos1 fuel float x y (dmap2 (lincomb a b g) x y) u kernel kernel xdim ydim (rf_comb a b g x y L N)
      (gen_refl float _ _ _)). cbv zeta in H.
    assert (X : rel3 (Ro a b g) (erode_mask fuel float x u kernel xdim ydim) (erode_mask fuel float y u kernel xdim ydim)
      (erode_mask fuel float (dmap2 (lincomb a b g) x y) u kernel xdim ydim)).
    { apply H. destruct G as [G|G]; [now left|right]. intros k k' Ek Ek'. eapply regen_nonneg; eauto. }
    clear H. destruct X as [[p|] [q|] [r|] Hr|e]; cbn in *; auto; try tauto. now apply rf_back.
  Qed.
  (** With the default kernel, in any units of the data. *)
  Theorem C89_erode_units a g fuel x u xdim ydim : wf x -> In xdim (dims x) -> In ydim (dims x) -> xdim <> ydim ->
    ofollows (rescale a g) (erode_mask fuel true x u None xdim ydim) (erode_mask fuel true (dmap (rescale a g) x) u None xdim ydim).
  Proof.
    intros W Hx Hy Hxy. destruct (shapiro_generated window fill (dims x) xdim ydim (proj2 W) Hx Hy Hxy) as (k & Ek & Wk & D & Hn & _).
    assert (H := erode3 window fill a 0 g 1 pos1 fuel true x x (dmap (rescale a g) x) u None None xdim ydim (rf_unit a g x) (gen_refl true _ _ _)). cbv zeta in H.
    assert (X : rel3 (Ro a 0 g) (erode_mask fuel true x u None xdim ydim) (erode_mask fuel true x u None xdim ydim)
      (erode_mask fuel true (dmap (rescale a g) x) u None xdim ydim)).
    { apply H. right. intros k1 k' Ek1 Ek'. rewrite Ek in Ek1. injection Ek1 as <-. apply (regen_nonneg true x k k'); auto. repeat split; auto; apply W || apply Wk. }
    clear H. revert X. generalize (erode_mask fuel true x u None xdim ydim) (erode_mask fuel true (dmap (rescale a g) x) u None xdim ydim). intros r r' X.
    inversion X as [p q w Hr E1 E2 E3|e E1 E2 E3]; cbn; auto. destruct p as [p|], w as [w|]; cbn in *; auto; try tauto.
    now apply rf_unit_back.
  Qed.
  (** Only the relative weights of the kernel matter. *)
  Lemma kr_scale c float k : D3 (Kr c (float = false /\ true = true)) k k (kscale c k).
  Proof. unfold D3. cbn. do 4 (split; [reflexivity|]). intro. split; auto. right. reflexivity. Qed.
  Theorem C89_relative_weights c x k : (0 < c)%Q ->
    same_result (convolve true x (KDa k) true) (convolve true x (KDa (kscale c k)) true) /\
    forall fuel u xdim ydim, same_oresult (erode_mask fuel true x u (Some (KDa k)) xdim ydim) (erode_mask fuel true x u (Some (KDa (kscale c k))) xdim ydim).
  Proof.
    intro C. assert (Hx : D3 (Rf 1 0 0) x x x).
    { unfold D3. do 4 (split; [reflexivity|]). intro i. split; [|split]; auto. unfold fl in *. destruct (value x i); cbn; auto. ring. }
    assert (B : forall p z, D3 (Rf 1 0 0) p p z -> deq z p).
    { intros p z (E1 & E2 & E3 & E4 & H). split; [split; auto|]. intro i. destruct (H i) as (F & _ & N). unfold fl in *. destruct (value p i), (value z i); cbn in *; try discriminate; auto. eapply Qeq_trans; [exact F|ring]. }
    split.
    - assert (X : rel3 (D3 (Rf 1 0 0)) (convolve true x (KDa k) true) (convolve true x (KDa k) true) (convolve true x (KDa (kscale c k)) true)).
      { apply convolve3 with c; auto.
        - apply gen3. apply kr_scale.
        - left. reflexivity. }
      revert X. generalize (convolve true x (KDa k) true) (convolve true x (KDa (kscale c k)) true). intros r r' X.
      inversion X as [p q w Hr E1 E2 E3|e E1 E2 E3]; cbn; auto.
    - intros fuel u xdim ydim.
      assert (X := erode3 window fill 1 0 0 c C fuel true x x x u (Some (KDa k)) (Some (KDa (kscale c k))) xdim ydim Hx (gen3 window fill c true k (kscale c k) (dims x) (kr_scale c true k)) (or_introl (Qeq_refl 0))).
      revert X. generalize (erode_mask fuel true x u (Some (KDa k)) xdim ydim) (erode_mask fuel true x u (Some (KDa (kscale c k))) xdim ydim). intros r r' X.
      inversion X as [p q w Hr E1 E2 E3|e E1 E2 E3]; cbn; auto. destruct p as [p|], w as [w|]; cbn in *; auto; tauto.
  Qed.
End windows.
Print Assumptions C89_convolve.
Print Assumptions C89_erode.
Print Assumptions C89_erode_units.
Print Assumptions C89_relative_weights.
(** Kernels with negative weights: a constant term does not commute, so that the condition of
    C89_convolve matters: adding 1 to the data adds 2 to the result near the border. *)
Theorem C89_negative_refuted w f : let x := vec "x" [Some 1; Some 1; Some 1; Some 1]%Q in let k := KList [-1; 3; -1]%Q in
  match convolve w f true x k true, convolve w f true (dmap (rescale 1 1) x) k true with
  | Ok r, Ok r' => eqv (value r [0]) (Some 2%Q) /\ eqv (value r' [0]) (Some 4%Q) /\ ~ deq r' (dmap (rescale 1 1) r)
  | _, _ => False end.
Proof.
  intros x k.
  assert (H : match convolve w f true x k true, convolve w f true (dmap (rescale 1 1) x) k true with
    | Ok r, Ok r' => eqv (value r [0]) (Some 2%Q) /\ eqv (value r' [0]) (Some 4%Q) | _, _ => False end) by (vm_compute; auto).
  destruct (convolve w f true x k true) as [r|], (convolve w f true (dmap (rescale 1 1) x) k true) as [r'|]; try contradiction.
  destruct H as [H1 H2]. split; [exact H1|]. split; [exact H2|]. intros [_ D]. specialize (D [0]). cbn in D. unfold fl in *.
  destruct (value r [0]) as [p|], (value r' [0]) as [q|]; cbn in *; try contradiction. lra.
Qed.
(** Non-trivial cases: degrees Celsius to kelvins with a hole to fill; a kernel and its double *)
Definition ex_celsius : da (option Q) := grid 2 3 [Some 10; Some 20; None; Some 10; None; None]%Q.
Example C89_case w f : wf ex_celsius /\
  match erode_mask w f 5 true (dmap (rescale 1 273) ex_celsius) (UTimes 1) None "x" "y" with
  | Ok (Some r) => eqv (value r [0; 1]) (Some 293%Q) /\ eqv (value r [0; 2]) (Some 293%Q) /\ eqv (value r [1; 1]) (Some 288%Q) /\ value r [1; 2] = None
  | _ => False end.
Proof.
  split; [split; [reflexivity|]; cbn; repeat constructor; cbn; intuition discriminate|]. vm_compute. auto.
Qed.
Lemma rescale_nans c d (x : da fl) i : PyBase.isnan (value x i) = PyBase.isnan (value (dmap (rescale c d) x) i).
Proof. cbn. unfold fl in *. destruct (value x i); reflexivity. Qed.
Example C89_convolve_case w f : same_layout ex_data (dmap (rescale 2 3) ex_data) /\ same_nans ex_data (dmap (rescale 2 3) ex_data) /\
  (exists k, generate_kernel w f true ex_kernel ["y"; "x"]%string = Ok k /\ nonneg k) /\
  match convolve w f true (dmap2 (lincomb 1 1 5) ex_data (dmap (rescale 2 3) ex_data)) ex_kernel true with
  | Ok r => eqv (value r [0; 0]) (Some (25 # 2)) | _ => False end.
Proof.
  split; [split; reflexivity|]. split; [intro i; apply rescale_nans|].
  split; [eexists; split; [reflexivity|]; apply nonneg_check; vm_compute; reflexivity|]. vm_compute. reflexivity.
Qed.
Print Assumptions C89_negative_refuted.
