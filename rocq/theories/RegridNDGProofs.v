(** From a kernel that treats each row of 2D arrays to regrid1d on labelled arrays, for any type of numbers. *)
From Verif Require Import RegridNDG InterpGSpec InterpDeps FlushProps FlushProofs2 RegridProps RegridNDProps.
Open Scope nat_scope.

Lemma column_of_row {T} (nanv : T) (a co b : da T) dim0 dim1 (ro : (string -> nat) -> nat) out env r :
  (In dim0 (dims a)) -> (dim0 = dim1 \/ ~ In dim1 (dims a)) ->
  size b dim1 = size co dim1 ->
  (forall env env', (forall d, In d (dims a) -> d <> dim0 -> env d = env' d) ->
       (forall d, In d (dims co) -> d <> dim1 -> env d = env' d) -> ro env = ro env') ->
  (forall env, in_range a env dim0 -> in_range co env dim1 -> env dim1 < size co dim1 ->
     look b env = nth (env dim1) (nth (ro env) out []) nanv) ->
  in_range a env dim0 -> in_range co env dim1 -> nth_error out (ro env) = Some r -> List.length r = size co dim1 ->
  column b env dim1 = r.
Proof.
  intros I0 Hn Hs HD Lb Ha Ho Er Hlr. unfold column. rewrite Hs, <- Hlr.
  assert (HL : forall j, j < List.length r -> look b (setpos env dim1 j) = nth j r nanv).
  { intros j Hj.
    assert (Ha' : in_range a (setpos env dim1 j) dim0).
    { intros d Hd Hne. unfold setpos. destruct (String.eqb_spec d dim1) as [->|]; [|now apply Ha].
      exfalso. destruct Hn as [->|H]; auto. }
    assert (Ho' : in_range co (setpos env dim1 j) dim1).
    { intros d Hd Hne. unfold setpos. destruct (String.eqb_spec d dim1) as [->|]; [congruence|now apply Ho]. }
    assert (H1' : setpos env dim1 j dim1 < size co dim1) by (unfold setpos; rewrite String.eqb_refl; lia).
    rewrite Lb by auto. unfold setpos at 1. rewrite String.eqb_refl. f_equal.
    replace (ro (setpos env dim1 j)) with (ro env); [exact (nth_error_nth _ _ [] Er)|].
    apply HD; intros d Hd Hne; unfold setpos; destruct (String.eqb_spec d dim1) as [->|]; auto; [|congruence].
    exfalso. destruct Hn as [->|H]; auto. }
  apply nth_ext with (d := nanv) (d' := nanv); [now rewrite map_length, seq_length|].
  intros j Hj. rewrite map_length, seq_length in Hj. rewrite <- HL by auto.
  rewrite (nth_indep _ nanv ((fun k => look b (setpos env dim1 k)) 0)) by now rewrite map_length, seq_length.
  rewrite (map_nth (fun k => look b (setpos env dim1 k))), seq_nth by auto. reflexivity.
Qed.

(** What is left of [regrid1d_g] when its kernel is a parameter *)
Definition through {T} (nanv : T) (kern : list (list T) -> list (list T) -> list (list T) -> res (list (list T)))
    (a ci co : da T) (dim0 dim1 : string) : res (da T) :=
  let* f := flush a ci co dim0 dim1 in
  let* d := flush_data f in
  let '(x, y, z) := d in
  let* out := kern x y z in
  get_back nanv f out.

Section Rows.
  Context {T : Type} (nanv : T).
  Variable kern : list (list T) -> list (list T) -> list (list T) -> res (list (list T)).
  Variable pre : list T -> list T -> list T -> Prop.
  Variable spec : list T -> list T -> list T -> list T -> Prop.
  Variables (n0 n1 : nat).
  (** The kernel is right on the rows, whatever their number *)
  Definition kernel_ok : Prop := forall x y z,
    gshape x (List.length x) n0 -> gshape y (List.length y) n0 -> gshape z (List.length z) n1 ->
    0 < List.length x -> 0 < List.length y -> 0 < List.length z -> List.length y <= List.length x -> List.length z <= List.length x ->
    (forall v, In v x -> exists ry ro, pre v ry ro) ->
    (forall ry, In ry y -> exists v ro, pre v ry ro) ->
    (forall ro, In ro z -> exists v ry, pre v ry ro) ->
    exists out, kern x y z = Ok out /\ gshape out (List.length x) n1 /\ grows_ok spec x y z out.
End Rows.

Theorem through_ok {T} (nanv : T) kern pre spec (a ci co : da T) dim0 dim1 :
  problem a ci co dim0 dim1 -> compatible a ci co dim0 dim1 ->
  kernel_ok kern pre spec (size a dim0) (size co dim1) ->
  (forall env, in_range a env dim0 -> in_range co env dim1 ->
     pre (column a env dim0) (column ci env dim0) (column co env dim1)) ->
  exists b, through nanv kern a ci co dim0 dim1 = Ok b /\ wf b /\
    (exists extra, dims b = (extra ++ rename0 dim0 dim1 (dims a))%list) /\
    (forall d, In d (dims b) <-> (In d (dims a) /\ d <> dim0) \/ In d (dims co)) /\
    (forall d, In d (dims a) -> d <> dim0 -> size b d = size a d) /\
    (forall d, In d (dims co) -> size b d = size co d) /\
    forall env, in_range a env dim0 -> in_range co env dim1 ->
      spec (column a env dim0) (column ci env dim0) (column co env dim1) (column b env dim1).
Proof.
  intros P Hc HK Hpre.
  destruct (C24_flatten_and_back T T a ci co dim0 dim1 P Hc)
    as (f & x & y & z & ro & E1 & E2 & Px & Py & Pz & Fx & Fy & Fz & HR & HD & HS & HB & _).
  assert (Hcols : forall ix, ix < List.length x -> exists env, in_range a env dim0 /\ in_range co env dim1 /\
     nth_error x ix = Some (column a env dim0) /\
     nth_error y (ix mod List.length y) = Some (column ci env dim0) /\
     nth_error z (ix mod List.length z) = Some (column co env dim1)).
  { intros ix Hix. destruct (HS ix Hix) as (env & Ha & Ho & Er). exists env.
    destruct (HR env Ha Ho) as (R1 & R2 & R3). rewrite Er in *. auto. }
  destruct (HK x y z) as (out & Eo & So & Ro); try (split; auto); try tauto; try lia.
  { intros l Hl. apply In_nth_error in Hl. destruct Hl as [i Hi].
    assert (Hlt : i < List.length x) by (apply nth_error_Some; congruence).
    destruct (Hcols i Hlt) as (env & H1 & H2 & H3 & _). exists (column ci env dim0), (column co env dim1).
    assert (l = column a env dim0) as -> by congruence. auto. }
  { intros l Hl. apply In_nth_error in Hl. destruct Hl as [i Hi].
    assert (Hlt : i < List.length y) by (apply nth_error_Some; congruence).
    destruct (Hcols i) as (env & H1 & H2 & _ & H3 & _); [lia|]. rewrite Nat.mod_small in H3 by auto.
    exists (column a env dim0), (column co env dim1). assert (l = column ci env dim0) as -> by congruence. auto. }
  { intros l Hl. apply In_nth_error in Hl. destruct Hl as [i Hi].
    assert (Hlt : i < List.length z) by (apply nth_error_Some; congruence).
    destruct (Hcols i) as (env & H1 & H2 & _ & _ & H3); [lia|]. rewrite Nat.mod_small in H3 by auto.
    exists (column a env dim0), (column ci env dim0). assert (l = column co env dim1) as -> by congruence. auto. }
  destruct (HB T nanv out (proj1 So) (proj2 So)) as (b & Eb & Wb & Db & Ib & Sa & Sc & Lb).
  exists b. split.
  { unfold through. rewrite E1. cbn [bind]. rewrite E2. cbn [bind]. rewrite Eo. exact Eb. }
  split; auto. split; [eexists; exact Db|]. split; auto. split; auto. split; auto.
  intros env Ha Ho. destruct (HR env Ha Ho) as (R1 & R2 & R3).
  assert (Hlt : ro env < List.length x) by (apply nth_error_Some; congruence).
  destruct (nth_error out (ro env)) as [r|] eqn:Er.
  2: { apply nth_error_None in Er. rewrite (proj1 So) in Er. lia. }
  assert (Hlr : List.length r = size co dim1).
  { destruct So as [_ So]. rewrite Forall_forall in So. apply So. eapply nth_error_In; eauto. }
  assert (Hcol : column b env dim1 = r).
  { apply (column_of_row nanv a co b dim0 dim1 ro out env r); auto.
    - exact (pr_sub _ _ _ _ _ P _ (pr_dim0 _ _ _ _ _ P)).
    - destruct (pr_names _ _ _ _ _ P) as [->|[H _]]; auto.
    - apply Sc, P. }
  rewrite Hcol. apply (Ro (ro env)); auto. now rewrite Nat.mod_small by auto.
Qed.
