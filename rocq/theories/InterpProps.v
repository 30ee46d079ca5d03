(** Properties C01-C09: 1D interpolation kernels of xoa/interp.py.
    Only theorems; vocabulary in [InterpSpec], model in [Interp]. *)
From Verif Require Import Interp InterpSpec InterpDeps.
Open Scope nat_scope.

Local Notation "! q" := (Some q%Q) (at level 10, q at level 9).

(** ** C01 *)
Theorem C01_get_iminmax : forall d,
  (get_iminmax d = Ok (-1, -1)%Z /\ forall k, ~ valid d k) \/
  (exists a b, get_iminmax d = Ok (Z.of_nat a, Z.of_nat b) /\
     valid d a /\ valid d b /\ forall k, valid d k -> a <= k <= b).
Proof.
  intro d. destruct (get_iminmax_ok d) as (r & Hr & [[-> H]|(a & b & -> & H)]).
  - left. auto.
  - right. exists a, b. tauto.
Qed.
Print Assumptions C01_get_iminmax.
Example C01_ex : get_iminmax [nan; !1; nan; !3; nan; nan] = Ok (1, 3)%Z
  /\ get_iminmax [nan; nan] = Ok (-1, -1)%Z /\ get_iminmax [!5] = Ok (0, 0)%Z.
Proof. repeat split; reflexivity. Qed.

(** ** C02 *)
Theorem C02_linear1d : forall vari yi yo nxi nxiy nxo nyi nyo,
  shape vari nxi nyi -> shape yi nxiy nyi -> shape yo nxo nyo ->
  0 < nxi -> 0 < nxiy -> 0 < nxo -> 0 < nyo ->
  Forall increasing yi -> Forall nondecreasing yo ->
  exists out, linear1d vari yi yo = Ok out /\ shape out (Nat.max nxi nxo) nyo /\
    rows_ok (fun v y_in y_out r =>
      (forall j y i a b u w,
         val y_out j y -> val y_in i a -> val y_in (S i) b -> (a <= y <= b)%Q ->
         ~ in_cell y_in (S i) y ->
         nth_error v i = Some u -> nth_error v (S i) = Some w ->
         exists x, nth_error r j = Some x /\ feq x (lerp a b u w y)) /\
      (forall j, j < nyo ->
         ~ (exists y i, val y_out j y /\ in_cell y_in i y) -> nth_error r j = Some nan))
      vari yi yo out.
Proof.
  intros vari yi yo nxi nxiy nxo nyi nyo S1 S2 S3 P1 P2 P3 P4 Hi Ho.
  destruct (linear1d_correct vari yi yo nxi nxiy nxo nyi nyo) as (out & E & Hs & HR); auto.
  exists out. repeat split; auto; try apply Hs.
  - destruct (HR ix v ryi ryo r) as (_ & A & _); auto.
  - destruct (HR ix v ryi ryo r) as (_ & _ & B); auto.
    intros j Hj. apply B. now rewrite (shape_row _ _ _ _ _ S3 H1).
Qed.
Print Assumptions C02_linear1d.

Definition ex_v : arr := [[!10; !20; nan; !50]].
Definition ex_yi : arr := [[!0; !1; !2; !4]].
Definition ex_yo : arr := [[!(1#2); nan; !1; !3]; [!(-1); !(1#4); !4; !5]].

(** Enumerate the positions of a literal list. *)
Lemma nth_nil (i : nat) (x : fl) : nth_error (@nil fl) i = Some x -> False.
Proof. destruct i; discriminate. Qed.
Ltac enum H :=
  unfold val in H; simpl in H;
  lazymatch type of H with
  | nth_error [] _ = _ => exfalso; exact (nth_nil _ _ H)
  | nth_error (_ :: _) ?i = _ => destruct i as [|i]; enum H
  | Some nan = _ => discriminate H
  | Some None = _ => discriminate H
  | Some (Some _) = _ => injection H as <-
  end.
Ltac incr := repeat constructor; intros i j a b Hij Ha Hb; enum Ha; enum Hb;
  try lia; try reflexivity; try discriminate.
Ltac hole := repeat constructor; intros i j k Hk [a Ha] [b Hb]; enum Ha; enum Hb;
  try lia; repeat (destruct k as [|k]; try (eexists; reflexivity); try lia).

Lemma ex_inc : Forall increasing ex_yi.
Proof. incr. Qed.
Lemma ex_nd : Forall nondecreasing ex_yo.
Proof. incr. Qed.
Example C02_ex : shape ex_v 1 4 /\ shape ex_yi 1 4 /\ shape ex_yo 2 4 /\
  Forall increasing ex_yi /\ Forall nondecreasing ex_yo /\
  exists out, linear1d ex_v ex_yi ex_yo = Ok out /\
    Forall2 feql out [[!15; nan; nan; nan]; [nan; !(25#2); nan; nan]].
Proof.
  split; [repeat constructor|]. split; [repeat constructor|]. split; [repeat constructor|].
  split; [apply ex_inc|]. split; [apply ex_nd|].
  eexists. split; [vm_compute; reflexivity|].
  repeat (apply Forall2_cons || apply Forall2_nil || split); vm_compute; reflexivity || exact I.
Qed.

(** ** C03 *)
Theorem C03_linear1d_bounded_affine : forall vari yi yo nxi nxiy nxo nyi nyo,
  shape vari nxi nyi -> shape yi nxiy nyi -> shape yo nxo nyo ->
  0 < nxi -> 0 < nxiy -> 0 < nxo -> 0 < nyo ->
  Forall increasing yi -> Forall nondecreasing yo ->
  exists out, linear1d vari yi yo = Ok out /\
    rows_ok (fun v y_in y_out r =>
      (* maximum principle *)
      (forall j x, val r j x ->
        exists y i p q, val y_out j y /\ in_cell y_in i y /\ val v i p /\ val v (S i) q /\
          (Qmin p q <= x <= Qmax p q)%Q) /\
      (* exactness on affine data *)
      (forall al be,
        (forall i a, val y_in i a -> exists p, val v i p /\ (p == al * a + be)%Q) ->
        forall j y, val y_out j y -> (exists i, in_cell y_in i y) ->
          exists x, val r j x /\ (x == al * y + be)%Q))
      vari yi yo out.
Proof.
  intros vari yi yo nxi nxiy nxo nyi nyo S1 S2 S3 P1 P2 P3 P4 Hi Ho.
  destruct (linear1d_correct vari yi yo nxi nxiy nxo nyi nyo) as (out & E & Hs & HR); auto.
  exists out. split; auto. intros ix v ryi ryo r Ev Eyi Eyo Er.
  pose proof (HR ix v ryi ryo r Ev Eyi Eyo Er) as HS.
  rewrite Forall_forall in Hi. pose proof (Hi _ (nth_error_In _ _ Eyi)) as Hinc.
  assert (Hl : List.length v = List.length ryi).
  { rewrite (shape_row _ _ _ _ _ S1 Ev), (shape_row _ _ _ _ _ S2 Eyi). reflexivity. }
  split.
  - eapply linear_spec_bounded; eauto.
  - intros al be. eapply linear_spec_affine; eauto.
Qed.
Print Assumptions C03_linear1d_bounded_affine.

(** ** C04 *)
Theorem C04_nearest1d : forall vari yi yo nxi nxiy nxo nyi nyo,
  shape vari nxi nyi -> shape yi nxiy nyi -> shape yo nxo nyo ->
  0 < nxi -> 0 < nxiy -> 0 < nxo -> 0 < nyo ->
  Forall increasing yi -> Forall nondecreasing yo -> Forall no_hole yi -> Forall no_hole yo ->
  Forall (fun r => exists k, valid r k) yo ->
  exists out, nearest1d vari yi yo = Ok out /\ shape out (Nat.max nxi nxo) nyo /\
    rows_ok (fun v y_in y_out r =>
      (forall j y, val y_out j y -> (exists i, in_cell y_in i y) ->
         exists k, closest y_in y k /\ nth_error r j = nth_error v k) /\
      (forall j, j < nyo ->
         ~ (exists y i, val y_out j y /\ in_cell y_in i y) -> nth_error r j = Some nan))
      vari yi yo out.
Proof.
  intros vari yi yo nxi nxiy nxo nyi nyo S1 S2 S3 P1 P2 P3 P4 Hi Ho Hh1 Hh2 Hex.
  destruct (nearest1d_correct vari yi yo nxi nxiy nxo nyi nyo) as (out & E & Hs & HR); auto.
  exists out. repeat split; auto; try apply Hs.
  - destruct (HR ix v ryi ryo r) as (_ & A & _); auto.
  - destruct (HR ix v ryi ryo r) as (_ & _ & B); auto.
    intros j Hj. apply B. now rewrite (shape_row _ _ _ _ _ S3 H1).
Qed.
Print Assumptions C04_nearest1d.
Definition ex_yo2 : arr := [[nan; !(1#2); !1; !3]; [!(-1); !(1#4); !4; nan]].
Example C04_ex : shape ex_yo2 2 4 /\ Forall increasing ex_yi /\
  Forall nondecreasing ex_yo2 /\ Forall no_hole ex_yi /\ Forall no_hole ex_yo2 /\
  Forall (fun r => exists k, valid r k) ex_yo2 /\
  nearest1d ex_v ex_yi ex_yo2 = Ok [[nan; !10; !20; nan]; [nan; !10; !50; nan]].
Proof.
  split; [repeat constructor|]. split; [apply ex_inc|]. split; [|split; [|split; [|split]]].
  - incr.
  - hole.
  - hole.
  - repeat constructor; [exists 1|exists 0]; eexists; reflexivity.
  - vm_compute. reflexivity.
Qed.
(** A NaN output coordinate receives a value when the whole output row is NaN. *)
Theorem C04_nearest1d_nan_refuted : exists vari yi yo out r j,
  shape vari 1 3 /\ shape yi 1 3 /\ shape yo 1 2 /\
  Forall increasing yi /\ Forall nondecreasing yo /\ Forall no_hole yi /\ Forall no_hole yo /\
  nearest1d vari yi yo = Ok out /\ nth_error out 0 = Some r /\
  ~ (exists y, val (nth 0 yo []) j y) /\ exists x, val r j x.
Proof.
  exists [[!0; !10; !20]], [[!0; !1; !2]], [[nan; nan]].
  eexists. eexists. exists 1.
  split; [repeat constructor|]. split; [repeat constructor|]. split; [repeat constructor|].
  split; [|split; [|split; [|split; [|split; [vm_compute; reflexivity|]]]]].
  - incr.
  - incr.
  - hole.
  - hole.
  - split; [reflexivity|]. split.
    + intros [y Hy]. discriminate.
    + eexists. reflexivity.
Qed.
Print Assumptions C04_nearest1d_nan_refuted.

(** ** C05: no out-of-range access, whatever the contents and the schedule *)
Theorem C05_linear1d_safe : forall vari yi yo nxi nxiy nxo nyi nyo order,
  shape vari nxi nyi -> shape yi nxiy nyi -> shape yo nxo nyo ->
  0 < nxi -> 0 < nxiy -> 0 < nxo -> 0 < nyo ->
  (forall x, In x order -> (0 <= x < Z.of_nat (Nat.max nxi nxo))%Z) ->
  linear1d_sched vari yi yo order <> Raise IndexError.
Proof. intros. eapply linear1d_safe; eauto. Qed.
Print Assumptions C05_linear1d_safe.
Theorem C05_nearest1d_safe : forall vari yi yo nxi nxiy nxo nyi nyo order,
  shape vari nxi nyi -> shape yi nxiy nyi -> shape yo nxo nyo ->
  0 < nxi -> 0 < nxiy -> 0 < nxo -> 0 < nyo ->
  (forall x, In x order -> (0 <= x < Z.of_nat (Nat.max nxi nxo))%Z) ->
  nearest1d_sched vari yi yo order <> Raise IndexError.
Proof. intros. eapply nearest1d_safe; eauto. Qed.
Print Assumptions C05_nearest1d_safe.
(** Unordered coordinates: still a result. *)
Example C05_ex : shape [[!3; !0; !1]] 1 3 /\ shape [[!2; !0]; [nan; nan]] 2 2 /\
  (forall x, In x [0; 1]%Z -> (0 <= x < Z.of_nat (Nat.max 1 2))%Z) /\
  is_ok (linear1d_sched [[!1; !2; !3]] [[!3; !0; !1]] [[!2; !0]; [nan; nan]] [0; 1]%Z) = true /\
  is_ok (nearest1d_sched [[!1; !2; !3]] [[!3; !0; !1]] [[!2; !0]; [nan; nan]] [0; 1]%Z) = true.
Proof.
  split; [repeat constructor|]. split; [repeat constructor|].
  split; [|split; vm_compute; reflexivity].
  intros x [<-|[<-|[]]]; simpl; lia.
Qed.
(** With cubic1d the same guarantee fails when data rows are recycled. *)
Theorem C05_cubic1d_out_of_bounds_refuted : exists vari yi yo,
  shape vari 1 2 /\ shape yi 1 2 /\ shape yo 2 1 /\
  cubic1d vari yi yo = Raise IndexError /\
  hermit1d vari yi yo (!0) (!0) = Raise IndexError.
Proof.
  exists [[!0; !1]], [[!0; !1]], [[!(1#2)]; [!(1#2)]].
  split; [repeat constructor|]. split; [repeat constructor|]. split; [repeat constructor|].
  split; vm_compute; reflexivity.
Qed.
Print Assumptions C05_cubic1d_out_of_bounds_refuted.

(** ** C06: schedules *)
Theorem C06_schedule : forall vari yi yo bias tension order,
  Permutation order (seq_order vari yo) ->
  forall out,
  (linear1d_sched vari yi yo order = Ok out <-> linear1d vari yi yo = Ok out) /\
  (nearest1d_sched vari yi yo order = Ok out <-> nearest1d vari yi yo = Ok out) /\
  (cubic1d_sched vari yi yo order = Ok out <-> cubic1d vari yi yo = Ok out) /\
  (hermit1d_sched bias tension vari yi yo order = Ok out <->
   hermit1d vari yi yo bias tension = Ok out).
Proof.
  intros vari yi yo bias tension order HP out.
  split; [exact (rows_kernel_perm _ vari yi yo order HP out)|].
  split; [exact (rows_kernel_perm _ vari yi yo order HP out)|].
  split; exact (rows_kernel_perm _ vari yi yo order HP out).
Qed.
Print Assumptions C06_schedule.
Example C06_ex : Permutation [1; 0]%Z (seq_order ex_v ex_yo) /\
  linear1d_sched ex_v ex_yi ex_yo [1; 0]%Z = linear1d ex_v ex_yi ex_yo.
Proof. split; [apply perm_swap|vm_compute; reflexivity]. Qed.

(** Row dependence: two calls, possibly with different arrays, whose row [ix]
    (resp. [ix']) is made of the same argument rows give the same output row. *)
Theorem C06_row_dependence : forall vari yi yo vari' yi' yo' nxi nxiy nxo nyi nyo nxi' nxiy' nxo' nyi',
  shape vari nxi nyi -> shape yi nxiy nyi -> shape yo nxo nyo ->
  shape vari' nxi' nyi' -> shape yi' nxiy' nyi' -> shape yo' nxo' nyo ->
  0 < nxi -> 0 < nxiy -> 0 < nxo -> 0 < nxi' -> 0 < nxiy' -> 0 < nxo' ->
  forall ix ix', ix < Nat.max nxi nxo -> ix' < Nat.max nxi' nxo' ->
  nth_error yi (ix mod nxiy) = nth_error yi' (ix' mod nxiy') ->
  nth_error yo (ix mod nxo) = nth_error yo' (ix' mod nxo') ->
  nth_error vari (ix mod nxi) = nth_error vari' (ix' mod nxi') ->
  forall out out',
  (linear1d vari yi yo = Ok out -> linear1d vari' yi' yo' = Ok out' ->
     nth_error out ix = nth_error out' ix') /\
  (nearest1d vari yi yo = Ok out -> nearest1d vari' yi' yo' = Ok out' ->
     nth_error out ix = nth_error out' ix') /\
  (nxo <= nxi -> nxo' <= nxi' ->
     (cubic1d vari yi yo = Ok out -> cubic1d vari' yi' yo' = Ok out' ->
        nth_error out ix = nth_error out' ix') /\
     (forall bias tension,
        hermit1d vari yi yo bias tension = Ok out ->
        hermit1d vari' yi' yo' bias tension = Ok out' ->
        nth_error out ix = nth_error out' ix')).
Proof.
  intros. split; [|split].
  - eapply linear1d_dep with (nxi := nxi) (nxi' := nxi'); eauto.
  - eapply nearest1d_dep with (nxi := nxi) (nxi' := nxi'); eauto.
  - intros. split.
    + eapply cubic1d_dep with (nxi := nxi) (nxi' := nxi'); eauto.
    + intros b t. eapply hermit1d_dep with (nxi := nxi) (nxi' := nxi'); eauto.
Qed.
Print Assumptions C06_row_dependence.

(** ** C07 *)
Theorem C07_cubic1d : forall vari yi yo nxi nxiy nxo nyi nyo,
  shape vari nxi nyi -> shape yi nxiy nyi -> shape yo nxo nyo ->
  0 < nxi -> 0 < nxiy -> 0 < nxo -> 0 < nyo -> nxo <= nxi ->
  Forall increasing yi -> Forall increasing yo -> Forall all_valid vari ->
  exists out, cubic1d vari yi yo = Ok out /\ shape out nxi nyo /\
    rows_ok nodes_row_spec vari yi yo out.
Proof.
  intros vari yi yo nxi nxiy nxo nyi nyo S1 S2 S3 P1 P2 P3 P4 Hle.
  exact (poly1d_correct vari yi yo nxi nxiy nxo nyi nyo S1 S2 S3 P1 P2 P3 P4 Hle
           cubic_formula cubic_interpolating).
Qed.
Print Assumptions C07_cubic1d.
Theorem C07_hermit1d : forall vari yi yo nxi nxiy nxo nyi nyo bias tension,
  shape vari nxi nyi -> shape yi nxiy nyi -> shape yo nxo nyo ->
  0 < nxi -> 0 < nxiy -> 0 < nxo -> 0 < nyo -> nxo <= nxi ->
  Forall increasing yi -> Forall increasing yo -> Forall all_valid vari ->
  exists out, hermit1d vari yi yo (Some bias) (Some tension) = Ok out /\ shape out nxi nyo /\
    rows_ok nodes_row_spec vari yi yo out.
Proof.
  intros vari yi yo nxi nxiy nxo nyi nyo bias tension S1 S2 S3 P1 P2 P3 P4 Hle.
  exact (poly1d_correct vari yi yo nxi nxiy nxo nyi nyo S1 S2 S3 P1 P2 P3 P4 Hle
           _ (hermit_interpolating bias tension)).
Qed.
Print Assumptions C07_hermit1d.
Theorem C07_hermit1d_affine : forall vari yi yo nxi nxiy nxo nyi nyo bias,
  shape vari nxi nyi -> shape yi nxiy nyi -> shape yo nxo nyo ->
  0 < nxi -> 0 < nxiy -> 0 < nxo -> 0 < nyo -> nxo <= nxi ->
  Forall increasing yi -> Forall increasing yo -> Forall all_valid vari -> Forall all_valid yi ->
  exists out, hermit1d vari yi yo (Some bias) (!0) = Ok out /\ shape out nxi nyo /\
    rows_ok (fun v y_in y_out r => forall y0 h al be, regular y_in y0 h ->
      (forall i a p, val y_in i a -> val v i p -> (p == al * a + be)%Q) ->
      forall j y, val y_out j y -> (exists i, in_cell y_in i y) ->
        exists x, val r j x /\ (x == al * y + be)%Q) vari yi yo out.
Proof.
  intros vari yi yo nxi nxiy nxo nyi nyo bias S1 S2 S3 P1 P2 P3 P4 Hle.
  exact (poly1d_affine vari yi yo nxi nxiy nxo nyi nyo S1 S2 S3 P1 P2 P3 P4 Hle
           _ (hermit_interpolating bias 0) (hermit_affine bias)).
Qed.
Print Assumptions C07_hermit1d_affine.
Example C07_ex : Forall increasing ex_yi /\ Forall all_valid [[!0; !1; !2; !4]] /\
  exists a b c d, cubic1d [[!0; !1; !2; !4]] ex_yi [[!0; !1; !3; !5]] = Ok [[!a; !b; !c; d]] /\
    (a == 0)%Q /\ (b == 1)%Q /\ d = nan.
Proof.
  split; [apply ex_inc|]. split.
  - repeat constructor. intros i Hi. destruct i as [|[|[|[|i]]]]; simpl in Hi; try lia;
    eexists; reflexivity.
  - do 4 eexists. split; [vm_compute; reflexivity|]. repeat split; reflexivity.
Qed.
(** The cubic scheme does not reproduce the identity on a regular grid. *)
Theorem C07_cubic1d_affine_refuted : exists vari yi yo,
  shape vari 1 4 /\ shape yi 1 4 /\ vari = yi /\ yi = [[!0; !1; !2; !3]] /\
  yo = [[!(5#4)]] /\
  exists x, cubic1d vari yi yo = Ok [[!x]] /\ ~ (x == 5 # 4)%Q.
Proof.
  exists [[!0; !1; !2; !3]], [[!0; !1; !2; !3]], [[!(5#4)]].
  split; [repeat constructor|]. split; [repeat constructor|].
  split; [reflexivity|]. split; [reflexivity|]. split; [reflexivity|].
  eexists. split; [vm_compute; reflexivity|]. vm_compute. discriminate.
Qed.
Print Assumptions C07_cubic1d_affine_refuted.

(** ** C08 *)
Theorem C08_extrap1d : forall vari mode,
  exists out, extrap1d vari mode = Ok out /\ Forall2 (extrap_row_spec mode) vari out.
Proof. exact extrap1d_correct. Qed.
Print Assumptions C08_extrap1d.
Theorem C08_extrap1d_no : forall vari, extrap1d vari "no" = Ok vari.
Proof. reflexivity. Qed.
Theorem C08_extrap1d_idempotent : forall vari mode out,
  extrap1d vari mode = Ok out -> extrap1d out mode = Ok out.
Proof. exact extrap1d_idem. Qed.
Print Assumptions C08_extrap1d_idempotent.
Example C08_ex :
  extrap1d [[nan; !1; nan; !2; nan]] "both" = Ok [[!1; !1; nan; !2; !2]] /\
  extrap1d [[nan; !1; nan; !2; nan]] "top" = Ok [[nan; !1; nan; !2; !2]] /\
  extrap1d [[nan; !1; nan; !2; nan]] "above" = Ok [[nan; !1; nan; !2; nan]].
Proof. repeat apply conj; vm_compute; reflexivity. Qed.

(** ** C09 *)
Theorem C09_cellave1d : forall vari yib yob conserv nxi nxiy nxo nyi nyo,
  shape vari nxi nyi -> shape yib nxiy (S nyi) -> shape yob nxo (S nyo) ->
  0 < nxiy -> 0 < nxo -> nxo <= nxi ->
  Forall all_valid yib -> Forall all_valid yob ->
  Forall nondecreasing yib -> Forall increasing yob ->
  exists out, cellave1d vari yib yob conserv "no" = Ok out /\ shape out nxi nyo /\
    rows_ok (cellave_row_spec conserv) vari yib yob out.
Proof.
  intros vari yib yob conserv nxi nxiy nxo nyi nyo S1 S2 S3 P1 P2 P3 V1 V2 M1 M2.
  destruct (cellave1d_correct vari yib yob conserv nxi nxiy nxo nyi nyo)
    as (out & E & Hs & HR); auto.
  exists out. repeat split; auto; try apply Hs;
  (assert (Hix : ix < nxi) by
    (destruct Hs as [<- _]; apply nth_error_Some; congruence));
  destruct S1 as [L1 _], S2 as [L2 _], S3 as [L3 _]; rewrite L1 in H; rewrite L2 in H0;
  rewrite L3 in H1; rewrite Nat.mod_small in H by lia;
  now apply (HR ix v ryi ryo r).
Qed.
Print Assumptions C09_cellave1d.
Theorem C09_cellave1d_conserves : forall vari yib yob nxi nxiy nxo nyi nyo,
  shape vari nxi nyi -> shape yib nxiy (S nyi) -> shape yob nxo (S nyo) ->
  0 < nxiy -> 0 < nxo -> nxo <= nxi ->
  Forall all_valid vari -> Forall all_valid yib -> Forall all_valid yob ->
  Forall nondecreasing yib -> Forall increasing yob ->
  exists out, cellave1d vari yib yob true "no" = Ok out /\
    rows_ok (fun v yb ob r =>
      (numat ob 0 <= numat yb 0)%Q -> (numat yb nyi <= numat ob nyo)%Q ->
      (qsum nyo (fun j => numat r j * (numat ob (S j) - numat ob j)) ==
       qsum nyi (fun i => numat v i * (numat yb (S i) - numat yb i)))%Q) vari yib yob out.
Proof.
  intros vari yib yob nxi nxiy nxo nyi nyo S1 S2 S3 P1 P2 P3 V0 V1 V2 M1 M2.
  destruct (C09_cellave1d vari yib yob true nxi nxiy nxo nyi nyo)
    as (out & E & Hs & HR); auto.
  exists out. split; auto. intros ix v rb ro r Ev Eb Eo Er Hlo Hhi.
  pose proof (HR ix v rb ro r Ev Eb Eo Er) as HS.
  rewrite Forall_forall in V0, V1, V2, M1, M2.
  pose proof (nth_error_In _ _ Ev). pose proof (nth_error_In _ _ Eb).
  pose proof (nth_error_In _ _ Eo).
  pose proof (shape_row _ _ _ _ _ S1 Ev) as L1. pose proof (shape_row _ _ _ _ _ S2 Eb) as L2.
  pose proof (shape_row _ _ _ _ _ S3 Eo) as L3. pose proof (shape_row _ _ _ _ _ Hs Er) as L4.
  rewrite <- L1, <- L4. apply (cellave_conserves v rb ro r); auto; try lia.
  rewrite L3, L1. simpl. now rewrite Nat.sub_0_r.
Qed.
Print Assumptions C09_cellave1d_conserves.
Theorem C09_cellave1d_mean_bounded : forall vari yib yob nxi nxiy nxo nyi nyo,
  shape vari nxi nyi -> shape yib nxiy (S nyi) -> shape yob nxo (S nyo) ->
  0 < nxiy -> 0 < nxo -> nxo <= nxi ->
  Forall all_valid yib -> Forall all_valid yob ->
  Forall nondecreasing yib -> Forall increasing yob ->
  exists out, cellave1d vari yib yob false "no" = Ok out /\
    rows_ok (fun v yb ob r => forall lo hi,
      (forall i x, val v i x -> (lo <= x <= hi)%Q) ->
      forall j x, val r j x -> (lo <= x <= hi)%Q) vari yib yob out.
Proof.
  intros vari yib yob nxi nxiy nxo nyi nyo S1 S2 S3 P1 P2 P3 V1 V2 M1 M2.
  destruct (C09_cellave1d vari yib yob false nxi nxiy nxo nyi nyo)
    as (out & E & Hs & HR); auto.
  exists out. split; auto. intros ix v rb ro r Ev Eb Eo Er lo hi Hlh.
  eapply cellave_bounded; eauto.
Qed.
Print Assumptions C09_cellave1d_mean_bounded.
Definition ex_b : arr := [[!0; !1; !2; !4]].
Definition ex_ob : arr := [[!(-1); !(3#2); !5; !6]].
Example C09_ex : shape [[!4; !8; !2]] 1 3 /\ shape ex_b 1 4 /\ shape ex_ob 1 4 /\
  Forall nondecreasing ex_b /\ Forall increasing ex_ob /\
  exists out, cellave1d [[!4; !8; !2]] ex_b ex_ob true "no" = Ok out /\
    Forall2 feql out [[!(16#5); !(16#7); !0]].
Proof.
  split; [repeat constructor|]. split; [repeat constructor|]. split; [repeat constructor|].
  split; [incr|]. split; [incr|].
  eexists. split; [vm_compute; reflexivity|].
  repeat (apply Forall2_cons || apply Forall2_nil || split); vm_compute; reflexivity || exact I.
Qed.
Example C09_ex_mean :
  exists out, cellave1d [[!4; nan; !2]] ex_b ex_ob false "no" = Ok out /\
    Forall2 feql out [[!4; !2; nan]].
Proof. eexists. split; [vm_compute; reflexivity|].
  repeat (apply Forall2_cons || apply Forall2_nil || split); vm_compute; reflexivity || exact I. Qed.
