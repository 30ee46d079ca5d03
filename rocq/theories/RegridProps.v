(** Property C10: dispatch of regrid1d, xoa/regrid.py. *)
From Verif Require Import Regrid GridProofs InterpProofs.
Open Scope nat_scope.
Local Notation "! q" := (Some q%Q) (at level 10, q at level 9).

(** The documented kernels.  Method names, aliases and codes. *)
Inductive kernel := Linear | Nearest | Cubic | Hermit | Cellave.
Definition names (k : kernel) : list string :=
  match k with
  | Linear => ["linear"; "interp"]
  | Nearest => ["nearest"]
  | Cubic => ["cubic"]
  | Hermit => ["hermit"; "hermitian"]
  | Cellave => ["cellave"] end%string.
Definition code (k : kernel) : Z :=
  match k with Linear => 1 | Nearest => 0 | Cubic => 2 | Hermit => 3 | Cellave => -1 end%Z.
Definition run (junk : nat -> nat -> fl) (k : kernel) (vari yi yo : arr) : res arr :=
  match k with
  | Linear => linear1d vari yi yo
  | Nearest => nearest1d vari yi yo
  | Cubic => cubic1d vari yi yo
  | Hermit => hermit1d vari yi yo f0 f0
  | Cellave =>
    let* yib := get_edges_rows store_float junk yi in
    let* yob := get_edges_rows store_float junk yo in
    cellave1d vari yib yob false "no"
  end.
Definition designates (a : enumarg) (k : kernel) : Prop :=
  match a with
  | ENone => k = Linear
  | EName s => In s (names k)
  | ECode z => z = code k
  end.
Definition known_extrap (e : enumarg) : Prop :=
  match e with
  | ENone => True
  | EName s => In s ["no"; "none"; "above"; "below"; "both"; "all"; "yes"]%string
  | ECode z => In z [0; 1; -1; 2]%Z
  end.

Lemma map_res_id {A} (f : A -> res A) l : (forall r, f r = Ok r) -> map_res f l = Ok l.
Proof. intro H. induction l as [|r l IH]; simpl; auto. now rewrite H, IH. Qed.
Lemma extrap_by_false vari eqs : (forall s, eqs s = false) -> extrap1d_by eqs vari = Ok vari.
Proof.
  intro H. unfold extrap1d_by. rewrite (H "no"%string), (H "both"%string), (H "bottom"%string), (H "top"%string).
  apply map_res_id. intro r.
  destruct (get_iminmax_ok r) as ([a b] & E & _). rewrite E. cbn [bind orb].
  destruct (a =? -1)%Z; auto.
Qed.

Lemma known_extrap_ok e : known_extrap e -> exists m, enum_getitem extrap_modes e = Ok m.
Proof.
  destruct e as [|s|z]; simpl; intro H.
  - eexists; reflexivity.
  - repeat (destruct H as [<-|H]; [eexists; reflexivity|]). destruct H.
  - repeat (destruct H as [<-|H]; [eexists; reflexivity|]). destruct H.
Qed.

(** The kernel designated by [method], called with the default values of all its
    options: [conserv], [extrap], [bias] and [tension] have no effect at all. *)
Theorem C10_regrid1d_dispatch : forall junk vari yi yo method k conserv extrap bias tension,
  designates method k -> known_extrap extrap ->
  regrid1d_data junk vari yi yo method conserv extrap bias tension = run junk k vari yi yo.
Proof.
  intros junk vari yi yo method k conserv extrap bias tension Hm He.
  destruct (known_extrap_ok extrap He) as [e Ee].
  assert (Hend : forall r : res arr,
    (let* varo := r in
     let* e := enum_getitem extrap_modes extrap in
     if (snd e =? 0)%Z then Ok varo else extrap1d_by (member_eq_str e) varo) = r).
  { intros [varo|x]; [|reflexivity]. cbn [bind]. rewrite Ee. cbn [bind].
    destruct (snd e =? 0)%Z; [reflexivity|]. now apply extrap_by_false. }
  unfold regrid1d_data.
  assert (Hg : exists m, enum_getitem regrid1d_methods method = Ok m /\
     m = (hd ""%string (names k), code k)).
  { destruct method as [|s|z]; simpl in Hm.
    - subst k. eexists; split; reflexivity.
    - destruct k; simpl in Hm; repeat (destruct Hm as [<-|Hm]; [eexists; split; reflexivity|]); destruct Hm.
    - subst z. destruct k; eexists; split; reflexivity. }
  destruct Hg as (m & -> & ->). cbn [bind].
  destruct k; cbn [code names hd fst snd Z.ltb Z.compare member_eq_str bind]; try apply Hend.
  - unfold run. destruct (get_edges_rows store_float junk yi) as [yib|x]; [|reflexivity]. cbn [bind].
    destruct (get_edges_rows store_float junk yo) as [yob|x]; [|reflexivity]. cbn [bind fst snd].
    apply Hend.
Qed.
Print Assumptions C10_regrid1d_dispatch.

(** Unknown names and codes are rejected. *)
Theorem C10_regrid1d_unknown_method : forall junk vari yi yo method conserv extrap bias tension,
  (forall k, ~ designates method k) ->
  regrid1d_data junk vari yi yo method conserv extrap bias tension =
  Raise (match method with EName _ => KeyError | _ => ValueError end).
Proof.
  intros junk vari yi yo [|s|z] conserv extrap bias tension H.
  - exfalso. now apply (H Linear).
  - unfold regrid1d_data. cbn [enum_getitem].
    replace (List.find (fun nv => String.eqb (fst nv) s) regrid1d_methods) with (@None (string * Z)); [reflexivity|].
    symmetry. unfold regrid1d_methods. cbn [List.find fst].
    repeat match goal with
    | |- (if String.eqb ?n s then _ else _) = None =>
      destruct (String.eqb_spec n s) as [<-|_];
        [exfalso; first [solve [apply (H Linear); simpl; tauto] | solve [apply (H Nearest); simpl; tauto]
           | solve [apply (H Cubic); simpl; tauto] | solve [apply (H Hermit); simpl; tauto]
           | solve [apply (H Cellave); simpl; tauto]]|]
    end. reflexivity.
  - unfold regrid1d_data. cbn [enum_getitem]. unfold enum_by_value.
    replace (List.find (fun nv => Z.eqb (snd nv) z) regrid1d_methods) with (@None (string * Z)); [reflexivity|].
    symmetry. unfold regrid1d_methods.
    pose proof (H Linear) as H1. pose proof (H Nearest) as H2. pose proof (H Cubic) as H3.
    pose proof (H Hermit) as H4. pose proof (H Cellave) as H5. simpl in H1, H2, H3, H4, H5.
    cbn [List.find snd].
    destruct (Z.eqb_spec 1 z); [congruence|]. destruct (Z.eqb_spec 0 z); [congruence|].
    destruct (Z.eqb_spec 2 z); [congruence|]. destruct (Z.eqb_spec 3 z); [congruence|].
    destruct (Z.eqb_spec (-1) z); [congruence|]. reflexivity.
Qed.
Print Assumptions C10_regrid1d_unknown_method.

(** The documented effect of the options does not hold. *)
Theorem C10_regrid1d_extrap_refuted : exists junk vari yi yo out,
  regrid1d_data junk vari yi yo (EName "linear") false (EName "both") f0 f0 = Ok out /\
  extrap1d out "both" <> Ok out.
Proof.
  exists (fun _ _ => nan), [[!1; !2]], [[!0; !1]], [[!(-1); !0; !1; !2]]. eexists.
  split; [vm_compute; reflexivity|]. vm_compute. discriminate.
Qed.
Print Assumptions C10_regrid1d_extrap_refuted.
Theorem C10_regrid1d_tension_refuted : exists junk vari yi yo t,
  regrid1d_data junk vari yi yo (EName "hermit") false ENone f0 t <> hermit1d vari yi yo f0 t.
Proof.
  exists (fun _ _ => nan), [[!0; !1; !0]], [[!0; !1; !2]], [[!(1#4)]], (!1).
  vm_compute. discriminate.
Qed.
Print Assumptions C10_regrid1d_tension_refuted.

Example C10_ex : designates (EName "interp") Linear /\ designates (ECode (-1)) Cellave /\
  known_extrap (EName "yes") /\ (forall k, ~ designates (EName "spline") k) /\
  exists out, regrid1d_data (fun _ _ => nan) [[!1; !3]] [[!0; !1]] [[!0; !1]] (ECode (-1)) true
     (EName "yes") f0 f0 = Ok out /\ List.Forall2 feql out [[!1; !3]].
Proof.
  split; [simpl; auto|]. split; [reflexivity|]. split; [simpl; tauto|]. split.
  - intros [] H; simpl in H; repeat (destruct H as [H|H]; [discriminate|]); destruct H.
  - eexists. split; [vm_compute; reflexivity|].
    apply Forall2_cons; [|apply Forall2_nil]. repeat split; vm_compute; reflexivity.
Qed.
