(** C78: regrid1d on labelled arrays of binary64 numbers. *)
From Verif Require Import GridGProofs RegridNDG RegridNDGProofs RegridNDProps FlushProofs2 FlushProps.
From Verif Require Export RegridND64Spec Float64Props Float64PolyProps Float64CellProps.
From Coq Require Import Reals Lra.
Open Scope nat_scope.

(** xoa/regrid.py:64-134 on float64 arrays *)
Definition regrid1d64 := regrid1d_g ops64 (get_edges_1d_g o64).

Definition run64 (junk : nat -> nat -> f64) (k : kernel) (vari yi yo : list (list f64)) : res (list (list f64)) :=
  match k with
  | Linear => linear1d64 vari yi yo
  | Nearest => nearest1d64 vari yi yo
  | Cubic => cubic1d64 vari yi yo
  | Hermit => hermit1d64 vari yi yo zero64 zero64
  | Cellave =>
    let* yib := get_edges_rows_g ops64 (get_edges_1d_g o64) junk yi in
    let* yob := get_edges_rows_g ops64 (get_edges_1d_g o64) junk yo in
    cellave1d64 vari yib yob false "no"
  end.
Lemma extrap_by_false64 (vari : list (list f64)) eqs : (forall s, eqs s = false) -> extrap1d_by_g ops64 eqs vari = Ok vari.
Proof.
  intro H. unfold extrap1d_by_g. rewrite (H "no"%string), (H "both"%string), (H "bottom"%string), (H "top"%string).
  apply map_res_id. intro r.
  destruct (iminmax64_ok r) as ([a b] & E & _). rewrite E. cbn [bind orb].
  destruct (a =? -1)%Z; auto.
Qed.
Lemma dispatch64 junk vari yi yo method k conserv extrap bias tension :
  designates method k -> known_extrap extrap ->
  regrid1d_data_g ops64 (get_edges_1d_g o64) junk vari yi yo method conserv extrap bias tension = run64 junk k vari yi yo.
Proof.
  intros Hm He. destruct (known_extrap_ok extrap He) as [e Ee].
  assert (Hend : forall r : res (list (list f64)),
    (let* varo := r in
     let* e := enum_getitem extrap_modes extrap in
     if (snd e =? 0)%Z then Ok varo else extrap1d_by_g ops64 (member_eq_str e) varo) = r).
  { intros [varo|x]; [|reflexivity]. cbn [bind]. rewrite Ee. cbn [bind].
    destruct (snd e =? 0)%Z; [reflexivity|]. now apply extrap_by_false64. }
  unfold regrid1d_data_g.
  assert (Hg : exists m, enum_getitem regrid1d_methods method = Ok m /\ m = (hd ""%string (names k), code k)).
  { destruct method as [|s|z]; simpl in Hm.
    - subst k. eexists; split; reflexivity.
    - destruct k; simpl in Hm; repeat (destruct Hm as [<-|Hm]; [eexists; split; reflexivity|]); destruct Hm.
    - subst z. destruct k; eexists; split; reflexivity. }
  destruct Hg as (m & -> & ->). cbn [bind].
  destruct k; cbn [code names hd fst snd Z.ltb Z.compare member_eq_str bind]; try apply Hend.
  - unfold run64. destruct (get_edges_rows_g ops64 (get_edges_1d_g o64) junk yi) as [yib|x]; [|reflexivity]. cbn [bind].
    destruct (get_edges_rows_g ops64 (get_edges_1d_g o64) junk yo) as [yob|x]; [|reflexivity]. cbn [bind fst snd].
    apply Hend.
Qed.

Lemma numbers_no_missing (l : list f64) : all_numbers l -> no_missing l.
Proof.
  intros H i x X. destruct (H i) as (r & t & Ht & R).
  - apply nth_error_Some. congruence.
  - exists r. rewrite X in Ht. injection Ht as <-. exact R.
Qed.
Lemma no_missing_nan (l : list f64) : no_missing l -> no_nan l.
Proof.
  intros H i Hi. destruct (nth_error l i) as [x|] eqn:E; [|apply nth_error_None in E; lia].
  destruct (H i x E) as (r & R). exists r, x. auto.
Qed.
(** Rows of edges *)
Lemma edges_rows64 strict junk (a : list (list f64)) : (forall r, In r a -> 2 <= List.length r /\ Forall (within 900) r /\ all_numbers r /\
    gnondecreasing real64 r /\ usable_edges strict r) ->
  exists e, get_edges_rows_g ops64 (get_edges_1d_g o64) junk a = Ok e /\ List.length e = List.length a /\
    forall i re, nth_error e i = Some re -> exists r, nth_error a i = Some r /\ edges64 r re /\
      gnondecreasing real64 re /\ no_nan re /\ Forall ordinary re /\ if strict then gincreasing real64 re else True.
Proof.
  intro H. unfold get_edges_rows_g.
  destruct (map_res_nth (fun ir => get_edges_1d_g o64 (junk (fst ir)) (snd ir))
    (combine (seq 0 (List.length a)) a) (fun x e => edges64 (snd x) e /\ gnondecreasing real64 e /\ no_nan e /\
      Forall ordinary e /\ if strict then gincreasing real64 e else True)) as (m & Em & Hl & Hm).
  - intros [i r] Hin. apply in_combine_r in Hin. destruct (H r Hin) as (H1 & H2 & H3 & H4 & H5).
    destruct (C71_edges (junk i) r H1 H2) as (e & Ee & Se). exists e. split; auto.
    destruct (C71_cells_hold_their_centres (junk i) r e H1 H2 (numbers_no_missing _ H3) Ee) as [U _].
    destruct (U H4) as (U1 & U2 & _). destruct (H5 _ _ Ee) as [O1 O2].
    split; auto. split; auto. split; [now apply no_missing_nan|]. split; auto.
  - exists m. split; auto. rewrite combine_length, seq_length, Nat.min_id in Hl. split; auto.
    intros i re Hi. destruct (Hm i re Hi) as ([k r] & Hx & _ & HR).
    destruct (combine_seq_nth a 0 i (k, r) Hx) as [_ Hr]. exists r. auto.
Qed.
Lemma grows_and {T} (R1 R2 : list T -> list T -> list T -> list T -> Prop) x y z out :
  grows_ok R1 x y z out -> grows_ok R2 x y z out -> grows_ok (fun v a b r => R1 v a b r /\ R2 v a b r) x y z out.
Proof. intros H1 H2 ix v a b r E1 E2 E3 E4. split; [eapply H1|eapply H2]; eauto. Qed.
Lemma gincreasing_nondecreasing (l : list f64) : gincreasing real64 l -> gnondecreasing real64 l.
Proof. intros H i j a b L A B. apply Rlt_le. eapply H; eauto. Qed.

Lemma kernel64 junk k n0 n1 : 0 < n1 -> kernel_ok (run64 junk k) (column_pre64 k) (column_spec64 k) n0 n1.
Proof.
  intros P1 x y z Sx Sy Sz Lx Ly Lz Lyx Lzx Hx Hy Hz.
  assert (Hmax : Nat.max (List.length x) (List.length z) = List.length x) by lia.
  assert (FX : forall Q : list f64 -> Prop, (forall v a b, column_pre64 k v a b -> Q v) -> Forall Q x).
  { intros Q HQ. apply Forall_forall. intros v Hv. destruct (Hx v Hv) as (a & b & H). eauto. }
  assert (FY : forall Q : list f64 -> Prop, (forall v a b, column_pre64 k v a b -> Q a) -> Forall Q y).
  { intros Q HQ. apply Forall_forall. intros v Hv. destruct (Hy v Hv) as (a & b & H). eauto. }
  assert (FZ : forall Q : list f64 -> Prop, (forall v a b, column_pre64 k v a b -> Q b) -> Forall Q z).
  { intros Q HQ. apply Forall_forall. intros v Hv. destruct (Hz v Hv) as (a & b & H). eauto. }
  destruct k; cbn [run64 column_pre64 column_spec64] in *.
  - rewrite <- Hmax. apply (C61_linear1d_binary64 x y z (List.length x) (List.length y) (List.length z) n0 n1); auto;
    first [apply FX|apply FY|apply FZ]; intros v a b H; apply H.
  - rewrite <- Hmax. apply (C62_nearest1d_binary64 x y z (List.length x) (List.length y) (List.length z) n0 n1); auto;
    first [apply FY|apply FZ]; intros v a b H; apply H.
  - assert (V : Forall (fun v => forall i, i < n0 -> gvalid real64 v i) x).
    { destruct Sx as [_ Sx]. rewrite Forall_forall in Sx. apply Forall_forall. intros v Hv i Hi. destruct (Hx v Hv) as (a & b & H). apply H. now rewrite (Sx v Hv). }
    destruct (C63_cubic1d_binary64 x y z (List.length x) (List.length y) (List.length z) n0 n1) as (out & E & S & R); auto;
      try (first [apply FX|apply FY|apply FZ]; intros v a b H; apply H).
    destruct (C63_cubic1d_error_binary64 x y z (List.length x) (List.length y) (List.length z) n0 n1) as (out' & E' & R'); auto;
      try (first [apply FX|apply FY|apply FZ]; intros v a b H; apply H).
    assert (out' = out) as -> by congruence. exists out. split; auto. split; auto. now apply grows_and.
  - assert (V : Forall (fun v => forall i, i < n0 -> gvalid real64 v i) x).
    { destruct Sx as [_ Sx]. rewrite Forall_forall in Sx. apply Forall_forall. intros v Hv i Hi. destruct (Hx v Hv) as (a & b & H). apply H. now rewrite (Sx v Hv). }
    assert (Z0 : real64 zero64 = Some 0%R) by reflexivity.
    assert (W0 : within 40 zero64).
    { right. exists 0%R. split; auto. rewrite Rabs_R0. apply Rlt_le. rewrite pow64. apply bpow_gt_0. }
    assert (N0 : ~ isNaN zero64) by (intro N; discriminate N).
    destruct (C63_hermit1d_binary64 x y z (List.length x) (List.length y) (List.length z) n0 n1 zero64 zero64) as (out & E & S & R); auto;
      try (first [apply FX|apply FY|apply FZ]; intros v a b H; apply H).
    destruct (C63_hermit1d_error_binary64 x y z (List.length x) (List.length y) (List.length z) n0 n1 zero64 zero64 0%R 0%R) as (out' & E' & R'); auto; try lra;
      try (first [apply FX|apply FY|apply FZ]; intros v a b H; apply H).
    assert (out' = out) as -> by congruence. exists out. split; auto. split; auto. now apply grows_and.
  - destruct (edges_rows64 false junk y) as (yb & Eyb & Lyb & Hyb).
    { intros l Hl. destruct (Hy l Hl) as (a & b & H). tauto. }
    destruct (edges_rows64 true junk z) as (zb & Ezb & Lzb & Hzb).
    { intros l Hl. destruct (Hz l Hl) as (a & b & H). split; [tauto|]. split; [tauto|]. split; [tauto|]. split; [apply gincreasing_nondecreasing; tauto|tauto]. }
    rewrite Eyb, Ezb. cbn [bind].
    assert (Fyb : forall Q : list f64 -> Prop, (forall r re, edges64 r re -> gnondecreasing real64 re -> no_nan re -> Forall ordinary re -> In r y -> Q re) -> Forall Q yb).
    { intros Q HQ. apply Forall_forall. intros l Hl. apply In_nth_error in Hl. destruct Hl as [i Hi].
      destruct (Hyb i l Hi) as (r & Hr & A & B & C & D & _). apply (HQ r); auto. eapply nth_error_In; eauto. }
    assert (Fzb : forall Q : list f64 -> Prop, (forall r re, edges64 r re -> gincreasing real64 re -> no_nan re -> Forall ordinary re -> In r z -> Q re) -> Forall Q zb).
    { intros Q HQ. apply Forall_forall. intros l Hl. apply In_nth_error in Hl. destruct Hl as [i Hi].
      destruct (Hzb i l Hi) as (r & Hr & A & B & C & D & E). apply (HQ r); auto. eapply nth_error_In; eauto. }
    assert (N40 : (Z.of_nat n0 <= 2 ^ 40)%Z).
    { destruct x as [|v x']; [cbn in Lx; lia|]. destruct (Hx v) as (a & b & H); [simpl; auto|].
      destruct Sx as [_ Sx]. inversion Sx; subst. tauto. }
    destruct Sy as [_ Sy], Sz as [_ Sz]. rewrite Forall_forall in Sy, Sz.
    destruct (C69_cellave1d_binary64 x yb zb false "no" (List.length x) (List.length y) (List.length z) n0 n1)
      as (out & Eo & So & Ro); auto;
      try (apply FX; intros v a b H; apply H); try (apply Fyb; now auto); try (apply Fzb; now auto).
    + split; auto. apply Fyb. intros r re S _ _ _ Hr. rewrite (proj1 S). f_equal. now apply Sy.
    + split; auto. apply Fzb. intros r re S _ _ _ Hr. rewrite (proj1 S). f_equal. now apply Sz.
    + exists out. split; auto. split; auto. intros ix v ryi ryo r Hv Hyi Hyo Hr.
      assert (Hib : exists eb, nth_error yb (ix mod List.length yb) = Some eb).
      { destruct (nth_error yb (ix mod List.length yb)) eqn:E; eauto. apply nth_error_None in E.
        assert (Hlt : ix mod List.length yb < List.length yb) by (apply Nat.mod_upper_bound; lia). lia. }
      assert (Hob : exists eb, nth_error zb (ix mod List.length zb) = Some eb).
      { destruct (nth_error zb (ix mod List.length zb)) eqn:E; eauto. apply nth_error_None in E.
        assert (Hlt : ix mod List.length zb < List.length zb) by (apply Nat.mod_upper_bound; lia). lia. }
      destruct Hib as [ei Hei], Hob as [eo Heo]. exists ei, eo.
      destruct (Hyb _ _ Hei) as (r1 & Hr1 & S1 & _). destruct (Hzb _ _ Heo) as (r2 & Hr2 & S2 & _).
      rewrite Lyb in Hr1. rewrite Lzb in Hr2.
      assert (r1 = ryi) as -> by congruence. assert (r2 = ryo) as -> by congruence.
      split; auto. split; auto. now apply (Ro ix v ei eo r).
Qed.

Theorem C78_regrid1d_binary64 : forall junk (a ci co : da f64) dim0 dim1 method k conserv extrap bias tension,
  problem a ci co dim0 dim1 -> compatible a ci co dim0 dim1 ->
  designates method k -> known_extrap extrap ->
  (forall env, in_range a env dim0 -> in_range co env dim1 ->
     column_pre64 k (column a env dim0) (column ci env dim0) (column co env dim1)) ->
  exists b, regrid1d64 junk a ci co dim0 dim1 method conserv extrap bias tension = Ok b /\
    wf b /\
    (* the dimensions of [a], with [dim1] in place of [dim0], after the other ones of [co] *)
    (exists extra, dims b = (extra ++ rename0 dim0 dim1 (dims a))%list) /\
    (forall d, In d (dims b) <-> (In d (dims a) /\ d <> dim0) \/ In d (dims co)) /\
    (forall d, In d (dims a) -> d <> dim0 -> size b d = size a d) /\
    (forall d, In d (dims co) -> size b d = size co d) /\
    forall env, in_range a env dim0 -> in_range co env dim1 ->
      column_spec64 k (column a env dim0) (column ci env dim0) (column co env dim1) (column b env dim1).
Proof.
  intros junk a ci co dim0 dim1 method k conserv extrap bias tension P Hc Hm He Hpre.
  destruct (through_ok B754_nan (run64 junk k) (column_pre64 k) (column_spec64 k) a ci co dim0 dim1 P Hc) as (b & Eb & Hb); auto.
  - apply kernel64. apply (pr_pos _ _ _ _ _ P), P.
  - exists b. split; [|exact Hb]. etransitivity; [|exact Eb]. unfold regrid1d64, regrid1d_g, through. change (fnum ops64) with f64.
    destruct (flush a ci co dim0 dim1) as [f|e]; [|reflexivity]. cbn [bind].
    destruct (flush_data f) as [[[x y] z]|e]; [|reflexivity]. cbn [bind].
    now rewrite (dispatch64 junk x y z method k conserv extrap bias tension Hm He).
Qed.
Print Assumptions C78_regrid1d_binary64.

(** ** Axes of integers *)
Lemma gval_unique (l : list f64) i x y : gval real64 l i x -> gval real64 l i y -> x = y.
Proof. intros (t & E & R) (u & F & S). rewrite E in F. injection F as <-. congruence. Qed.
Lemma gval_lt (l : list f64) i x : gval real64 l i x -> i < List.length l.
Proof. intros (t & E & _). apply nth_error_Some. congruence. Qed.
Lemma adjacent_increasing (e : list f64) : no_missing e ->
  (forall i a b, gval real64 e i a -> gval real64 e (S i) b -> (a < b)%R) -> gincreasing real64 e.
Proof.
  intros NM H i j a b L A B. revert b B. induction L as [|j L IH]; intros b B; [eapply H; eauto|].
  assert (j < List.length e) by (apply gval_lt in B; lia).
  destruct (nth_error e j) as [t|] eqn:E; [|apply nth_error_None in E; lia].
  destruct (NM j t E) as (c & C). assert (Hc : gval real64 e j c) by (exists t; auto).
  apply Rlt_trans with c; [now apply IH|eapply H; eauto].
Qed.
Lemma half_ordinary (x : f64) h : (Z.abs h <= 2 ^ 60)%Z -> real64 x = Some (IZR h / 2)%R -> ordinary x.
Proof.
  intros B R. right. exists (IZR h / 2)%R. split; auto. destruct (Z.eq_dec h 0) as [->|N]; [left; lra|right].
  assert (A1 : (1 <= Rabs (IZR h))%R) by (rewrite <- abs_IZR; apply IZR_le; lia).
  assert (A2 : (Rabs (IZR h) <= IZR (2 ^ 60))%R) by (rewrite <- abs_IZR; now apply IZR_le).
  assert (E : Rabs (IZR h / 2) = (Rabs (IZR h) / 2)%R) by (unfold Rdiv; rewrite Rabs_mult, (Rabs_pos_eq (/ 2)); lra). rewrite E.
  rewrite !pow64. split.
  - apply Rle_trans with (bpow radix2 (-1)); [apply bpow_le; lia|]. change (bpow radix2 (-1)) with (/ 2)%R. lra.
  - apply Rle_trans with (bpow radix2 60); [|apply bpow_le; lia]. change (bpow radix2 60) with (IZR (2 ^ 60)). lra.
Qed.
Theorem C78_integer_axes : forall l strict, 2 <= List.length l -> integer_axis l -> gincreasing real64 l -> usable_edges strict l.
Proof.
  intros l strict N I Inc junk e E.
  destruct (C71_integer_axis_exact junk l e N I E) as (Ein & E0 & En).
  destruct (get_edges_1d_g_ok o64 junk l N) as (e' & E' & Le & _). rewrite E in E'. injection E' as <-. change (num_ o64) with f64 in *.
  assert (V : forall i, i < List.length l -> exists z, (Z.abs z <= 2 ^ 50)%Z /\ gval real64 l i (IZR z)).
  { intros i Hi. destruct (nth_error l i) as [t|] eqn:T; [|apply nth_error_None in T; lia].
    destruct (I i t T) as (z & Hz & Vz). exists z. split; auto. exists t. auto. }
  assert (H : forall i, i < List.length e -> exists h, (Z.abs h <= 2 ^ 60)%Z /\ gval real64 e i (IZR h / 2)%R).
  { intros i Hi. rewrite Le in Hi. destruct i as [|i].
    - destruct (V 0) as (a & Ba & Va); [lia|]. destruct (V 1) as (b & Bb & Vb); [lia|]. exists (3 * a - b)%Z. split; [lia|].
      replace (IZR (3 * a - b) / 2)%R with (IZR a - (IZR b - IZR a) / 2)%R by (rewrite minus_IZR, mult_IZR; lra). auto.
    - destruct (Nat.eq_dec (S i) (List.length l)) as [HL|HL].
      + destruct i as [|m]; [lia|]. destruct (V m) as (a & Ba & Va); [lia|]. destruct (V (S m)) as (b & Bb & Vb); [lia|]. exists (3 * b - a)%Z. split; [lia|].
        replace (IZR (3 * b - a) / 2)%R with (IZR b + (IZR b - IZR a) / 2)%R by (rewrite minus_IZR, mult_IZR; lra). auto.
      + destruct (V i) as (a & Ba & Va); [lia|]. destruct (V (S i)) as (b & Bb & Vb); [lia|]. exists (a + b)%Z. split; [lia|].
        rewrite plus_IZR. auto. }
  assert (NM : no_missing e).
  { intros i x X. destruct (H i) as (h & _ & t & T & R); [apply nth_error_Some; congruence|]. rewrite X in T. injection T as <-. eexists. exact R. }
  split.
  - apply Forall_forall. intros x Hx. apply In_nth_error in Hx. destruct Hx as [i X].
    destruct (H i) as (h & Bh & t & T & R); [apply nth_error_Some; congruence|]. rewrite X in T. injection T as <-. eapply half_ordinary; eauto.
  - destruct strict; [|exact Logic.I]. apply adjacent_increasing; auto. intros i a b A B. pose proof (gval_lt _ _ _ B) as HB. rewrite Le in HB.
    destruct i as [|i].
    + destruct (V 0) as (p & _ & Vp); [lia|]. destruct (V 1) as (q & _ & Vq); [lia|].
      rewrite (gval_unique _ _ _ _ A (E0 _ _ Vp Vq)), (gval_unique _ _ _ _ B (Ein _ _ _ Vp Vq)).
      assert ((IZR p < IZR q)%R) by (eapply (Inc 0 1); eauto). lra.
    + destruct (V i) as (p & _ & Vp); [lia|]. destruct (V (S i)) as (q & _ & Vq); [lia|].
      assert ((IZR p < IZR q)%R) by (eapply (Inc i (S i)); eauto).
      rewrite (gval_unique _ _ _ _ A (Ein _ _ _ Vp Vq)).
      destruct (Nat.eq_dec (S (S i)) (List.length l)) as [HL|HL].
      * rewrite (gval_unique _ _ _ _ B (En _ _ _ HL Vp Vq)). lra.
      * destruct (V (S (S i))) as (r & _ & Vr); [lia|]. rewrite (gval_unique _ _ _ _ B (Ein _ _ _ Vq Vr)).
        assert ((IZR q < IZR r)%R) by (eapply (Inc (S i) (S (S i))); eauto). lra.
Qed.
Print Assumptions C78_integer_axes.

(** Data (t, z, y), coordinates varying in y only; levels 0, 1 or 0, 2 *)
Definition d_a : da f64 := mkda ["t"; "z"; "y"]%string [2; 2; 2]
  (fun idx => match idx with [t; z; y] => mk64 (Z.of_nat (100 * t + 10 * z + y)) 0 | _ => B754_nan end).
Definition d_ci : da f64 := mkda ["z"; "y"]%string [2; 2]
  (fun idx => match idx with [z; y] => mk64 (Z.of_nat ((y + 1) * z)) 0 | _ => B754_nan end).
Definition d_co : da f64 := mkda ["y"; "zo"]%string [2; 3]
  (fun idx => match idx with [y; z] => mk64 (Z.of_nat z) 0 | _ => B754_nan end).
Definition d_bits (r : res (da f64)) : option (list string * list SpecFloat.spec_float) :=
  match r with Ok b => Some (dims b, map (fun p => B2SF (Labelled.value b p)) [[0; 0; 0]; [1; 1; 1]; [1; 1; 0]; [1; 2; 0]]) | Raise _ => None end.
Lemma ints_numbers l : small l -> all_numbers (ints l).
Proof. intros S i Hi. apply ints_all_valid; auto. unfold ints in Hi. now rewrite map_length in Hi. Qed.
Lemma ints_axis l : Forall (fun z => (Z.abs z <= 2 ^ 50)%Z) l -> integer_axis (ints l).
Proof.
  intros S i x X. unfold ints in X. rewrite nth_error_map in X. destruct (nth_error l i) as [z|] eqn:Z; [|discriminate].
  injection X as <-. assert (B := Forall_row _ _ _ _ S Z). cbv beta in B. exists z. split; auto.
  destruct (mk64_int z) as [F V]; [lia|]. unfold value, real64. rewrite F. now rewrite V.
Qed.
Example C78_ex : problem d_a d_ci d_co "z" "zo" /\ compatible d_a d_ci d_co "z" "zo" /\
  (forall k env, In k [Linear; Cellave] -> in_range d_a env "z" -> in_range d_co env "zo" ->
     column_pre64 k (column d_a env "z") (column d_ci env "z") (column d_co env "zo")) /\
  d_bits (regrid1d64 (fun _ _ => B754_nan) d_a d_ci d_co "z" "zo" (EName "linear") false ENone zero64 zero64) =
    Some (["t"; "zo"; "y"]%string, map (fun x => B2SF x) [mk64 0 0; mk64 106 0; mk64 110 0; B754_nan]).
Proof.
  split; [|split; [|split]].
  - constructor.
    + split; [reflexivity|nodup_tac].
    + split; [reflexivity|nodup_tac].
    + split; [reflexivity|nodup_tac].
    + in_cases.
    + simpl; auto.
    + in_cases; reflexivity.
    + simpl; auto.
    + right. split; simpl; intuition discriminate.
    + right. in_cases.
    + intros d H1 H2. simpl in H1, H2. destruct H1 as [<-|[<-|[]]], H2 as [H2|[]]; [discriminate|reflexivity].
    + split; in_cases; cbv; lia.
  - left. intros d Hd Hne. simpl in Hd. destruct Hd as [<-|[<-|[]]]; [congruence|].
    split; [simpl; auto|discriminate].
  - intros k env Hk Ha Ho.
    assert (Ht : env "t"%string < 2) by (apply (Ha "t"%string); [simpl; auto|discriminate]).
    assert (Hy : env "y"%string < 2) by (apply (Ha "y"%string); [simpl; auto|discriminate]).
    assert (Ea : exists p q, column d_a env "z" = ints [p; q] /\ (0 <= p <= 1000)%Z /\ (0 <= q <= 1000)%Z).
    { eexists (Z.of_nat (100 * env "t"%string + 10 * 0 + env "y"%string)), (Z.of_nat (100 * env "t"%string + 10 * 1 + env "y"%string)).
      split; [reflexivity|]. lia. }
    assert (Ei : exists q, column d_ci env "z" = ints [0; q]%Z /\ (1 <= q <= 2)%Z).
    { exists (Z.of_nat ((env "y"%string + 1) * 1)). split; [|lia].
      change (ints [Z.of_nat ((env "y"%string + 1) * 0); Z.of_nat ((env "y"%string + 1) * 1)] = ints [0; Z.of_nat ((env "y"%string + 1) * 1)]%Z).
      now rewrite Nat.mul_0_r. }
    assert (Eo : column d_co env "zo" = ints [0; 1; 2]%Z) by reflexivity.
    destruct Ea as (p & q & -> & Hp & Hq), Ei as (r & -> & Hr). rewrite Eo.
    assert (S1 : small [p; q]) by (repeat constructor; lia).
    assert (S2 : small [0; r]%Z) by (repeat constructor; lia).
    assert (S3 : small [0; 1; 2]%Z) by (repeat constructor; lia).
    assert (I2 : gincreasing real64 (ints [0; r]%Z)).
    { apply ints_increasing; auto. cbn. assert (r = 1 \/ r = 2)%Z as [->| ->] by lia; reflexivity. }
    assert (I3 : gincreasing real64 (ints [0; 1; 2]%Z)) by (apply ints_increasing; auto).
    destruct Hk as [<-|[<-|[]]]; cbn [column_pre64].
    + repeat (split; [apply ints_within; [lia|auto]|]). split; auto. now apply gincreasing_nondecreasing.
    + split; [now apply ints_ordinary|]. split; [cbn; lia|]. split; [cbn; lia|]. split; [cbn; lia|].
      split; [apply ints_within; [lia|auto]|]. split; [apply ints_within; [lia|auto]|].
      split; [now apply ints_numbers|]. split; [now apply ints_numbers|].
      split; [now apply gincreasing_nondecreasing|]. split; [exact I3|].
      split; apply C78_integer_axes; auto; try (cbn; lia); apply ints_axis; repeat constructor; lia.
  - vm_compute. reflexivity.
Qed.
