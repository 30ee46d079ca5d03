(** C44: regrid1d on labelled arrays, end to end.  The result at every position is the
    1D interpolation of the data along the working dimension at this position, with the
    input and output coordinates at this position. *)
From Verif Require Import RegridND InterpDeps GridProofs GridSpec InterpProps GridProps FlushProps FlushProofs2 RegridProps.
Open Scope nat_scope.
Local Notation "! q" := (Some q%Q) (at level 10, q at level 9).

(** What each method does of a column of data [v], with input and output coordinates [yi],
    [yo]: vocabulary of InterpSpec.v (C02, C04, C07, C09, C14) *)
Definition column_spec (k : kernel) (v yi yo r : list fl) : Prop :=
  match k with
  | Linear => linear_row_spec v yi yo r
  | Nearest => nearest_row_spec v yi yo r
  | Cubic | Hermit => nodes_row_spec v yi yo r
  | Cellave => exists ei eo, edges_spec yi ei /\ edges_spec yo eo /\ cellave_row_spec false v ei eo r
  end.
(** Conditions on the columns *)
Definition column_pre (k : kernel) (v yi yo : list fl) : Prop :=
  match k with
  | Linear => increasing yi /\ nondecreasing yo
  | Nearest => increasing yi /\ nondecreasing yo /\ no_hole yi /\ no_hole yo /\ exists j, valid yo j
  | Cubic | Hermit => increasing yi /\ increasing yo /\ all_valid v
  | Cellave => increasing yi /\ increasing yo /\ all_valid yi /\ all_valid yo /\
               2 <= List.length yi /\ 2 <= List.length yo
  end.

Lemma map_res_nth {A B} (f : A -> res B) l (R : A -> B -> Prop) :
  (forall x, In x l -> exists y, f x = Ok y /\ R x y) ->
  exists m, map_res f l = Ok m /\ List.length m = List.length l /\
    forall i y, nth_error m i = Some y -> exists x, nth_error l i = Some x /\ f x = Ok y /\ R x y.
Proof.
  induction l as [|x l IH]; intro H; simpl.
  - exists []. repeat split; auto. intros [|i] y; discriminate.
  - destruct (H x) as (y & E & HR); [simpl; auto|]. destruct IH as (m & Em & Hl & Hm); [intros; apply H; simpl; auto|].
    exists (y :: m). rewrite E, Em. cbn [bind]. split; auto. split; [simpl; lia|].
    intros [|i] y' Hy; simpl in *; [injection Hy as <-; eauto|auto].
Qed.
Lemma combine_seq_nth {A} (l : list A) : forall k i x, nth_error (combine (seq k (List.length l)) l) i = Some x ->
  x = (k + i, snd x) /\ nth_error l i = Some (snd x).
Proof.
  induction l as [|y l IH]; intros k i x; simpl; [destruct i; discriminate|].
  destruct i as [|i]; simpl.
  - intro H. injection H as <-. now rewrite Nat.add_0_r.
  - intro H. apply IH in H. now replace (k + S i) with (S k + i) by lia.
Qed.
Lemma edges_rows_ok junk (a : arr) : (forall r, In r a -> 2 <= List.length r /\ all_valid r /\ increasing r) ->
  exists e, get_edges_rows store_float junk a = Ok e /\ List.length e = List.length a /\
    forall i re, nth_error e i = Some re -> exists r, nth_error a i = Some r /\ edges_spec r re /\
      increasing re /\ all_valid re.
Proof.
  intro H. unfold get_edges_rows.
  destruct (map_res_nth (fun ir => get_edges_1d store_float (junk (fst ir)) (snd ir))
    (combine (seq 0 (List.length a)) a) (fun x e => edges_spec (snd x) e /\ increasing e /\ all_valid e)) as (m & Em & Hl & Hm).
  - intros [i r] Hin. apply in_combine_r in Hin. destruct (H r Hin) as (H1 & H2 & H3).
    destruct (C14_edges_1d (junk i) r H1) as (e & Ee & Se). exists e. split; auto.
    destruct (C14_edges_increasing (junk i) r e H1 H2 H3 Ee) as (I1 & I2 & _). auto.
  - exists m. split; auto. rewrite combine_length, seq_length, Nat.min_id in Hl. split; auto.
    intros i re Hi. destruct (Hm i re Hi) as ([k r] & Hx & _ & HR).
    destruct (combine_seq_nth a 0 i (k, r) Hx) as [_ Hr]. exists r. auto.
Qed.

Theorem C44_regrid1d : forall junk (a ci co : da fl) dim0 dim1 method k conserv extrap bias tension,
  problem a ci co dim0 dim1 -> compatible a ci co dim0 dim1 ->
  designates method k -> known_extrap extrap ->
  (forall env, in_range a env dim0 -> in_range co env dim1 ->
     column_pre k (column a env dim0) (column ci env dim0) (column co env dim1)) ->
  exists b, regrid1d junk a ci co dim0 dim1 method conserv extrap bias tension = Ok b /\
    wf b /\
    (* the dimensions of [a], with [dim1] in place of [dim0], after the other ones of [co] *)
    (exists extra, dims b = (extra ++ rename0 dim0 dim1 (dims a))%list) /\
    (forall d, In d (dims b) <-> (In d (dims a) /\ d <> dim0) \/ In d (dims co)) /\
    (forall d, In d (dims a) -> d <> dim0 -> size b d = size a d) /\
    (forall d, In d (dims co) -> size b d = size co d) /\
    forall env, in_range a env dim0 -> in_range co env dim1 ->
      column_spec k (column a env dim0) (column ci env dim0) (column co env dim1) (column b env dim1).
Proof.
  intros junk a ci co dim0 dim1 method k conserv extrap bias tension P Hc Hm He Hpre.
  destruct (C24_flatten_and_back fl fl a ci co dim0 dim1 P Hc)
    as (f & x & y & z & ro & E1 & E2 & Px & Py & Pz & Fx & Fy & Fz & HR & HD & HS & HB & _).
  assert (P0 : 0 < size a dim0) by (apply P, P, P).
  assert (P1 : 0 < size co dim1) by (apply P, P).
  assert (Sx : InterpSpec.shape x (List.length x) (size a dim0)) by (split; auto).
  assert (Sy : InterpSpec.shape y (List.length y) (size a dim0)) by (split; auto).
  assert (Sz : InterpSpec.shape z (List.length z) (size co dim1)) by (split; auto).
  (* rows of the flattened arrays are columns *)
  assert (Hcols : forall ix, ix < List.length x -> exists env, in_range a env dim0 /\ in_range co env dim1 /\
     nth_error x ix = Some (column a env dim0) /\
     nth_error y (ix mod List.length y) = Some (column ci env dim0) /\
     nth_error z (ix mod List.length z) = Some (column co env dim1)).
  { intros ix Hix. destruct (HS ix Hix) as (env & Ha & Ho & Er). exists env.
    destruct (HR env Ha Ho) as (R1 & R2 & R3). rewrite Er in *. auto. }
  assert (Hcx : forall l, In l x -> exists env, in_range a env dim0 /\ in_range co env dim1 /\ l = column a env dim0).
  { intros l Hl. apply In_nth_error in Hl. destruct Hl as [i Hi].
    assert (Hlt : i < List.length x) by (apply nth_error_Some; congruence).
    destruct (Hcols i Hlt) as (env & H1 & H2 & H3 & _). exists env. repeat split; auto. congruence. }
  assert (Hcy : forall l, In l y -> exists env, in_range a env dim0 /\ in_range co env dim1 /\ l = column ci env dim0).
  { intros l Hl. apply In_nth_error in Hl. destruct Hl as [i Hi].
    assert (Hlt : i < List.length y) by (apply nth_error_Some; congruence).
    destruct (Hcols i) as (env & H1 & H2 & _ & H3 & _); [lia|]. rewrite Nat.mod_small in H3 by auto.
    exists env. repeat split; auto. congruence. }
  assert (Hcz : forall l, In l z -> exists env, in_range a env dim0 /\ in_range co env dim1 /\ l = column co env dim1).
  { intros l Hl. apply In_nth_error in Hl. destruct Hl as [i Hi].
    assert (Hlt : i < List.length z) by (apply nth_error_Some; congruence).
    destruct (Hcols i) as (env & H1 & H2 & _ & _ & H3); [lia|]. rewrite Nat.mod_small in H3 by auto.
    exists env. repeat split; auto. congruence. }
  (* the kernel *)
  assert (Hker : exists out, run junk k x y z = Ok out /\
    InterpSpec.shape out (List.length x) (size co dim1) /\ rows_ok (column_spec k) x y z out).
  { assert (Hmax : Nat.max (List.length x) (List.length z) = List.length x) by lia.
    destruct k; cbn [run column_pre column_spec] in *.
    - rewrite <- Hmax.
      apply (linear1d_correct x y z (List.length x) (List.length y) (List.length z) (size a dim0) (size co dim1)); auto; try lia.
      + apply Forall_forall. intros l Hl. destruct (Hcy l Hl) as (env & Ha & Ho & ->). now apply (Hpre env).
      + apply Forall_forall. intros l Hl. destruct (Hcz l Hl) as (env & Ha & Ho & ->). now apply (Hpre env).
    - rewrite <- Hmax.
      apply (nearest1d_correct x y z (List.length x) (List.length y) (List.length z) (size a dim0) (size co dim1)); auto; try lia;
      apply Forall_forall; intros l Hl;
      first [destruct (Hcy l Hl) as (env & Ha & Ho & ->); apply (Hpre env Ha Ho)
            |destruct (Hcz l Hl) as (env & Ha & Ho & ->); apply (Hpre env Ha Ho)].
    - apply (C07_cubic1d x y z (List.length x) (List.length y) (List.length z) (size a dim0) (size co dim1)); auto; try lia;
      apply Forall_forall; intros l Hl.
      + destruct (Hcy l Hl) as (env & Ha & Ho & ->); apply (Hpre env Ha Ho).
      + destruct (Hcz l Hl) as (env & Ha & Ho & ->); apply (Hpre env Ha Ho).
      + destruct (Hcx l Hl) as (env & Ha & Ho & ->); apply (Hpre env Ha Ho).
    - apply (C07_hermit1d x y z (List.length x) (List.length y) (List.length z) (size a dim0) (size co dim1)); auto; try lia;
      apply Forall_forall; intros l Hl.
      + destruct (Hcy l Hl) as (env & Ha & Ho & ->); apply (Hpre env Ha Ho).
      + destruct (Hcz l Hl) as (env & Ha & Ho & ->); apply (Hpre env Ha Ho).
      + destruct (Hcx l Hl) as (env & Ha & Ho & ->); apply (Hpre env Ha Ho).
    - destruct (edges_rows_ok junk y) as (yb & Eyb & Lyb & Hyb).
      { intros l Hl. destruct (Hcy l Hl) as (env & Ha & Ho & ->). destruct (Hpre env Ha Ho). tauto. }
      destruct (edges_rows_ok junk z) as (zb & Ezb & Lzb & Hzb).
      { intros l Hl. destruct (Hcz l Hl) as (env & Ha & Ho & ->). destruct (Hpre env Ha Ho). tauto. }
      rewrite Eyb, Ezb. cbn [bind].
      destruct (C09_cellave1d x yb zb false (List.length x) (List.length y) (List.length z) (size a dim0) (size co dim1))
        as (out & Eo & So & Ro); auto; try lia.
      + split; auto. apply Forall_forall. intros l Hl. apply In_nth_error in Hl. destruct Hl as [i Hi].
        destruct (Hyb i l Hi) as (r & Hr & Se & _). rewrite (proj1 Se). f_equal.
        rewrite Forall_forall in Fy. apply Fy. eapply nth_error_In; eauto.
      + split; auto. apply Forall_forall. intros l Hl. apply In_nth_error in Hl. destruct Hl as [i Hi].
        destruct (Hzb i l Hi) as (r & Hr & Se & _). rewrite (proj1 Se). f_equal.
        rewrite Forall_forall in Fz. apply Fz. eapply nth_error_In; eauto.
      + apply Forall_forall. intros l Hl. apply In_nth_error in Hl. destruct Hl as [i Hi].
        destruct (Hyb i l Hi) as (r & Hr & Se & _ & Hv). exact Hv.
      + apply Forall_forall. intros l Hl. apply In_nth_error in Hl. destruct Hl as [i Hi].
        destruct (Hzb i l Hi) as (r & Hr & Se & _ & Hv). exact Hv.
      + apply Forall_forall. intros l Hl. apply In_nth_error in Hl. destruct Hl as [i Hi].
        destruct (Hyb i l Hi) as (r & Hr & Se & Hi' & _). intros i1 i2 u w Hij Hu Hw.
        apply Qlt_le_weak. exact (Hi' i1 i2 u w Hij Hu Hw).
      + apply Forall_forall. intros l Hl. apply In_nth_error in Hl. destruct Hl as [i Hi].
        destruct (Hzb i l Hi) as (r & Hr & Se & Hi' & _). exact Hi'.
      + exists out. split; auto. split; auto. intros ix v ryi ryo r Hv Hyi Hyo Hr.
        assert (Hib : exists eb, nth_error yb (ix mod List.length yb) = Some eb).
        { destruct (nth_error yb (ix mod List.length yb)) eqn:E; eauto. apply nth_error_None in E.
          assert (Hlt : ix mod List.length yb < List.length yb) by (apply Nat.mod_upper_bound; lia). lia. }
        assert (Hob : exists eb, nth_error zb (ix mod List.length zb) = Some eb).
        { destruct (nth_error zb (ix mod List.length zb)) eqn:E; eauto. apply nth_error_None in E.
          assert (Hlt : ix mod List.length zb < List.length zb) by (apply Nat.mod_upper_bound; lia). lia. }
        destruct Hib as [ei Hei], Hob as [eo Heo]. exists ei, eo.
        destruct (Hyb _ _ Hei) as (r1 & Hr1 & S1 & _). destruct (Hzb _ _ Heo) as (r2 & Hr2 & S2 & _).
        rewrite Lyb in Hr1. rewrite Lzb in Hr2.
        assert (r1 = ryi) as -> by congruence. assert (r2 = ryo) as -> by congruence.
        split; auto. split; auto. now apply (Ro ix v ei eo r). }
  destruct Hker as (out & Eo & So & Ro).
  assert (Eout : regrid1d_data junk x y z method conserv extrap bias tension = Ok out).
  { rewrite <- Eo. now apply C10_regrid1d_dispatch. }
  destruct (HB fl nan out (proj1 So) (proj2 So)) as (b & Eb & Wb & Db & Ib & Sa & Sc & Lb).
  exists b. split.
  { unfold regrid1d. rewrite E1. cbn [bind]. rewrite E2. cbn [bind]. rewrite Eout. exact Eb. }
  split; auto. split; [eexists; exact Db|]. split; auto. split; auto. split; auto.
  intros env Ha Ho. destruct (HR env Ha Ho) as (R1 & R2 & R3).
  assert (Hlt : ro env < List.length x) by (apply nth_error_Some; congruence).
  destruct (nth_error out (ro env)) as [r|] eqn:Er.
  2: { apply nth_error_None in Er. rewrite (proj1 So) in Er. lia. }
  assert (Hcol : column b env dim1 = r).
  { unfold column. assert (Hs : size b dim1 = size co dim1) by (apply Sc, P). rewrite Hs.
    assert (Hlr : List.length r = size co dim1).
    { destruct So as [_ So]. rewrite Forall_forall in So. apply So. eapply nth_error_In; eauto. }
    rewrite <- Hlr. clear -Lb Ha Ho Er HD P Hlr.
    assert (HL : forall j, j < List.length r -> look b (setpos env dim1 j) = nth j r nan).
    { intros j Hj. 
      assert (Ha' : in_range a (setpos env dim1 j) dim0).
      { intros d Hd Hne. unfold setpos. destruct (String.eqb_spec d dim1) as [->|]; [|now apply Ha].
        exfalso. destruct (pr_names _ _ _ _ _ P) as [->|[H _]]; auto. }
      assert (Ho' : in_range co (setpos env dim1 j) dim1).
      { intros d Hd Hne. unfold setpos. destruct (String.eqb_spec d dim1) as [->|]; [congruence|now apply Ho]. }
      assert (H1' : setpos env dim1 j dim1 < size co dim1) by (unfold setpos; rewrite String.eqb_refl; lia).
      rewrite Lb by auto. unfold setpos at 1. rewrite String.eqb_refl. f_equal.
      replace (ro (setpos env dim1 j)) with (ro env); [exact (nth_error_nth _ _ [] Er)|].
      apply HD; intros d Hd Hne; unfold setpos; destruct (String.eqb_spec d dim1) as [->|]; auto; [|congruence].
      exfalso. destruct (pr_names _ _ _ _ _ P) as [->|[H _]]; auto. }
    apply nth_ext with (d := nan) (d' := nan); [now rewrite map_length, seq_length|].
    intros j Hj. rewrite map_length, seq_length in Hj. rewrite <- HL by auto.
    rewrite (nth_indep _ nan ((fun k => look b (setpos env dim1 k)) 0)) by now rewrite map_length, seq_length.
    rewrite (map_nth (fun k => look b (setpos env dim1 k))), seq_nth by auto. reflexivity. }
  rewrite Hcol. apply (Ro (ro env)); auto. now rewrite Nat.mod_small by auto.
Qed.
Print Assumptions C44_regrid1d.

(** Data (t, z, y), coordinates varying in y only: at t = 1, y = 1 *)
Definition g_env : string -> nat := r_env 1 1.
Definition g_a : da fl := mkda ["t"; "z"; "y"]%string [2; 2; 2]
  (fun idx => match idx with [t; z; y] => Some (inject_Z (Z.of_nat (100 * t + 10 * z + y))) | _ => nan end).
Definition g_ci : da fl := mkda ["z"; "y"]%string [2; 2]
  (fun idx => match idx with [z; y] => Some (inject_Z (Z.of_nat ((y + 1) * z))) | _ => nan end).
Definition g_co : da fl := mkda ["y"; "zo"]%string [2; 3]
  (fun idx => match idx with [y; z] => Some (inject_Z (Z.of_nat z)) | _ => nan end).
Lemma g_inc (l : list fl) c : (forall i x, val l i x -> (x == inject_Z (Z.of_nat (c * i)))%Q) -> 0 < c -> increasing l.
Proof.
  intros H Hc i j u w Hij Hu Hw. rewrite (H _ _ Hu), (H _ _ Hw). rewrite <- Zlt_Qlt. nia.
Qed.
Example C44_ex : problem g_a g_ci g_co "z" "zo" /\ compatible g_a g_ci g_co "z" "zo" /\
  (forall env, in_range g_a env "z" -> in_range g_co env "zo" ->
     column_pre Linear (column g_a env "z") (column g_ci env "z") (column g_co env "zo")) /\
  exists b, regrid1d (fun _ _ => nan) g_a g_ci g_co "z" "zo" (EName "linear") false ENone f0 f0 = Ok b /\
  dims b = ["t"; "zo"; "y"]%string /\ feq (value b [1; 1; 1]) (!106) /\ feq (value b [1; 1; 0]) (!110) /\
  value b [1; 2; 0] = nan.
Proof.
  split; [|split; [|split]].
  - constructor.
    + split; [reflexivity|nodup_tac].
    + split; [reflexivity|nodup_tac].
    + split; [reflexivity|nodup_tac].
    + in_cases.
    + simpl; auto.
    + in_cases; reflexivity.
    + simpl; auto.
    + right. split; simpl; intuition discriminate.
    + right. in_cases.
    + intros d H1 H2. simpl in H1, H2. destruct H1 as [<-|[<-|[]]], H2 as [H2|[]]; [discriminate|reflexivity].
    + split; in_cases; cbv; lia.
  - left. intros d Hd Hne. simpl in Hd. destruct Hd as [<-|[<-|[]]]; [congruence|].
    split; [simpl; auto|discriminate].
  - intros env Ha Ho. split.
    + apply (g_inc _ (env "y"%string + 1)); [|lia]. intros [|[|i]] x H; unfold val in H; cbn in H.
      * injection H as <-. rewrite !Nat.mul_0_r. reflexivity.
      * injection H as <-. reflexivity.
      * destruct i; discriminate.
    + intros i j u w Hij Hu Hw. apply Qlt_le_weak.
      apply (g_inc (column g_co env "zo") 1) with (i := i) (j := j); auto.
      intros [|[|[|k]]] x H; unfold val in H; cbn in H; try (injection H as <-; reflexivity).
      destruct k; discriminate.
  - eexists. split; [vm_compute; reflexivity|]. repeat split; vm_compute; reflexivity.
Qed.
