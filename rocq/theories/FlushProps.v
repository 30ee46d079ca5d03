(** C24: DimFlusher1D of xoa/coords.py. *)
From Verif Require Import FlushProofs2.
Open Scope nat_scope.

(** ** The inputs
    Data [a] worked along [dim0], its coordinate [ci], output coordinate [co] along [dim1]:
    [ci] is a sub-array of [a] having [dim0]; the other dimensions of [a] and [co] are
    nested and have the same sizes. *)
Definition without (d : string) (l : list string) : list string :=
  List.filter (fun x => negb (String.eqb x d)) l.
Record problem {A B} (a : da A) (ci co : da B) (dim0 dim1 : string) : Prop := {
  pr_a : wf a; pr_ci : wf ci; pr_co : wf co;
  pr_sub : incl (dims ci) (dims a);
  pr_dim0 : In dim0 (dims ci);
  pr_ci_sizes : forall d, In d (dims ci) -> size ci d = size a d;
  pr_dim1 : In dim1 (dims co);
  pr_names : dim0 = dim1 \/ (~ In dim1 (dims a) /\ ~ In dim0 (dims co));
  pr_nested : incl (without dim0 (dims a)) (without dim1 (dims co)) \/
              incl (without dim1 (dims co)) (without dim0 (dims a));
  pr_sizes : forall d, In d (without dim0 (dims a)) -> In d (without dim1 (dims co)) -> size a d = size co d;
  pr_pos : (forall d, In d (dims a) -> 0 < size a d) /\ (forall d, In d (dims co) -> 0 < size co d) }.
(** The input coordinate varies only along dimensions of the output coordinate, or the
    output coordinate has a single dimension and the input coordinate has the last other
    dimensions of the data. *)
Definition compatible {A B} (a : da A) (ci co : da B) (dim0 dim1 : string) : Prop :=
  (forall d, In d (dims ci) -> d <> dim0 -> In d (dims co) /\ d <> dim1) \/
  (dims co = [dim1] /\ exists p, without dim0 (dims a) =
     (p ++ List.filter (fun d => existsb (String.eqb d) (dims ci)) (without dim0 (dims a)))%list).

Lemma ravel_unravel s : forall r, r < prod s -> ravel s (unravel s r) = r /\ Forall2 lt (unravel s r) s.
Proof.
  induction s as [|n s IH]; intros r Hr; simpl in *.
  - split; [lia|constructor].
  - assert (Hp : prod s <> 0) by nia.
    destruct (IH (r mod prod s)) as [E F]; [now apply Nat.mod_upper_bound|]. rewrite E. split.
    + rewrite Nat.mul_comm. symmetry. now apply Nat.div_mod.
    + constructor; auto. apply Nat.div_lt_upper_bound; auto. nia.
Qed.
Lemma F2_length {A B} (R : A -> B -> Prop) l m : Forall2 R l m -> List.length l = List.length m.
Proof. induction 1; simpl; auto. Qed.
Lemma env_of {A} (b : da A) L r : NoDup L -> r < prod (map (size b) L) ->
  exists env, row b L env = r /\ (forall d, In d L -> env d < size b d) /\ (forall d, ~ In d L -> env d = 0).
Proof.
  intros HN Hr. destruct (ravel_unravel _ _ Hr) as [E F].
  exists (pos L (unravel (map (size b) L) r)).
  assert (Hm : map (pos L (unravel (map (size b) L) r)) L = unravel (map (size b) L) r).
  { apply pos_nth; auto. apply F2_length in F. now rewrite F, map_length. }
  split; [unfold row; now rewrite Hm|]. rewrite <- Hm in F. clear E Hm Hr. split.
  - generalize dependent (pos L (unravel (map (size b) L) r)). intros f F d Hd.
    clear HN. induction L as [|x L IH]; [destruct Hd|]. simpl in F. inversion F; subst.
    destruct Hd as [->|Hd]; auto.
  - intros d Hd. unfold pos. replace (dget _ d) with (@None nat); auto. symmetry. apply dget_none.
    intro H. apply Hd. unfold dkeys in H. apply in_map_iff in H. destruct H as ([k v] & <- & H).
    apply in_combine_l in H. exact H.
Qed.
Lemma prod_pos s : (forall n, In n s -> 0 < n) -> 0 < prod s.
Proof. induction s as [|n s IH]; simpl; intro H; [lia|]. specialize (IH (fun n' Hn => H n' (or_intror Hn))). assert (0 < n) by auto. nia. Qed.

(** The values of a 2D array *)
Lemma concat_length {A} n (rows : list (list A)) : Forall (fun r => List.length r = n) rows ->
  List.length (List.concat rows) = List.length rows * n.
Proof. induction 1; cbn; auto. rewrite app_length. lia. Qed.
Lemma concat_nth {A} n (junk : A) (rows : list (list A)) k : Forall (fun r => List.length r = n) rows -> k < n ->
  forall r, nth (r * n + k) (List.concat rows) junk = nth k (nth r rows []) junk.
Proof.
  intros F Hk. induction F as [|x rows Hx F IH]; intro r; cbn [List.concat].
  - destruct (r * n + k), r, k; reflexivity.
  - destruct r as [|r]; cbn [nth].
    + apply app_nth1. cbn. lia.
    + rewrite app_nth2 by (cbn; lia). replace (S r * n + k - List.length x) with (r * n + k) by (cbn; lia). apply IH.
Qed.

(** ** Flattening, and back
    [rowof env] is the row of the flattened data where the positions [env] are found.  The
    rows of the coordinates are found at the same index modulo their number of rows, as the
    interpolation kernels do.  [get_back] puts row [rowof env] back at [env]. *)
Theorem C24_flatten_and_back : forall A B (a : da A) (ci co : da B) dim0 dim1,
  problem a ci co dim0 dim1 -> compatible a ci co dim0 dim1 ->
  exists f x y z rowof,
    flush a ci co dim0 dim1 = Ok f /\ flush_data f = Ok (x, y, z) /\
    (* dimensions *)
    0 < List.length x /\ 0 < List.length y <= List.length x /\ 0 < List.length z <= List.length x /\
    Forall (fun r => List.length r = size a dim0) x /\
    Forall (fun r => List.length r = size a dim0) y /\
    Forall (fun r => List.length r = size co dim1) z /\
    (* each position has its row *)
    (forall env, in_range a env dim0 -> in_range co env dim1 ->
       nth_error x (rowof env) = Some (column a env dim0) /\
       nth_error y (rowof env mod List.length y) = Some (column ci env dim0) /\
       nth_error z (rowof env mod List.length z) = Some (column co env dim1)) /\
    (* that depends on the positions along the other dimensions only *)
    (forall env env', (forall d, In d (dims a) -> d <> dim0 -> env d = env' d) ->
       (forall d, In d (dims co) -> d <> dim1 -> env d = env' d) -> rowof env = rowof env') /\
    (* each row has its position *)
    (forall r, r < List.length x -> exists env, in_range a env dim0 /\ in_range co env dim1 /\ rowof env = r) /\
    (* and back *)
    (forall C (junk : C) rows, List.length rows = List.length x ->
       Forall (fun r => List.length r = size co dim1) rows ->
       exists b, get_back junk f rows = Ok b /\ wf b /\
         dims b = (List.filter (fun d => negb (existsb (String.eqb d) (rename0 dim0 dim1 (dims a)))) (dims b)
                   ++ rename0 dim0 dim1 (dims a))%list /\
         (forall d, In d (dims b) <-> (In d (dims a) /\ d <> dim0) \/ In d (dims co)) /\
         (forall d, In d (dims a) -> d <> dim0 -> size b d = size a d) /\
         (forall d, In d (dims co) -> size b d = size co d) /\
         forall env, in_range a env dim0 -> in_range co env dim1 -> env dim1 < size co dim1 ->
           look b env = nth (env dim1) (nth (rowof env) rows []) junk) /\
    (* another number of values is refused *)
    (forall C (junk : C) rows, List.length (List.concat rows) <> List.length x * size co dim1 -> get_back junk f rows = Raise ValueError).
Proof.
  intros A B a ci co dim0 dim1 P Hc. destruct P as [Wa Wci Wco Hsub H0 Hcis H1 H01 Hnest Hsz [Hpa Hpo]].
  assert (Hal : aligned a ci co dim0 dim1).
  { destruct Hc as [Hc|[Hc Hp]].
    - left. intros d Hd. apply filter_In in Hd. destruct Hd as [Hd1 Hd2]. apply mem_In in Hd2.
      apply in_others in Hd1. apply in_others. apply Hc; tauto.
    - right. split; [|exact Hp]. unfold others. rewrite Hc. simpl. now rewrite String.eqb_refl. }
  destruct (flush_ok a ci co dim0 dim1 Wa Wco Hsub H0 Hcis H1 H01 Hnest Hsz Hal)
    as (f & La & Li & Lo & Ef & Hf).
  destruct Hf as (W1 & D1 & L1 & W2 & D2 & L2 & W3 & D3 & L3 & [pi HLi] & [po HLo] & HLa & SA & SC & Si & So
                  & S0a & S0i & S1o & Wd & Ws & Fd & Ecrd).
  assert (P0 : 0 < size a dim0) by auto.
  assert (P1 : 0 < size co dim1) by auto.
  destruct (reshape2_ok (fa f) La dim0 W1 D1) as (x & Ex & Nx & Fx & Rx); [congruence|].
  destruct (reshape2_ok (fci f) Li dim0 W2 D2) as (y & Ey & Ny & Fy & Ry); [congruence|].
  destruct (reshape2_ok (fco f) Lo dim1 W3 D3) as (z & Ez & Nz & Fz & Rz); [congruence|].
  assert (NLa : NoDup La).
  { destruct W1 as [_ HN]. rewrite D1 in HN. apply NoDup_remove_1 in HN. now rewrite app_nil_r in HN. }
  assert (d0La : ~ In dim0 La).
  { destruct W1 as [_ HN]. rewrite D1 in HN. apply NoDup_remove_2 in HN. now rewrite app_nil_r in HN. }
  assert (d1La : ~ In dim1 La).
  { rewrite HLa, !in_others. intros [[H H']|[H H']]; [|tauto]. destruct H01 as [->|[H'' _]]; auto. }
  exists f, x, y, z, (row (fa f) La).
  (* ranges *)
  assert (Hpos : forall d, In d La -> 0 < size (fa f) d).
  { intros d Hd. apply HLa in Hd. destruct Hd as [Hd|Hd].
    - rewrite SA by auto. apply Hpa. now apply in_others in Hd.
    - rewrite SC by auto. apply Hpo. now apply in_others in Hd. }
  assert (Hrng : forall env, in_range a env dim0 -> in_range co env dim1 ->
     forall d, In d La -> env d < size (fa f) d).
  { intros env Ha Ho d Hd. apply HLa in Hd. destruct Hd as [Hd|Hd].
    - rewrite SA by auto. apply in_others in Hd. apply Ha; tauto.
    - rewrite SC by auto. apply in_others in Hd. apply Ho; tauto. }
  assert (iLi : incl Li La) by (rewrite HLi; intros d Hd; apply in_or_app; auto).
  assert (iLo : incl Lo La) by (rewrite HLo; intros d Hd; apply in_or_app; auto).
  assert (Mi : map (size (fci f)) Li = map (size (fa f)) Li) by (apply map_ext_in; auto).
  assert (Mo : map (size (fco f)) Lo = map (size (fa f)) Lo) by (apply map_ext_in; auto).
  assert (PLi : 0 < prod (map (size (fa f)) Li)).
  { apply prod_pos. intros n Hn. apply in_map_iff in Hn. destruct Hn as (d & <- & Hd). auto. }
  assert (PLo : 0 < prod (map (size (fa f)) Lo)).
  { apply prod_pos. intros n Hn. apply in_map_iff in Hn. destruct Hn as (d & <- & Hd). auto. }
  assert (PLa : 0 < prod (map (size (fa f)) La)).
  { apply prod_pos. intros n Hn. apply in_map_iff in Hn. destruct Hn as (d & <- & Hd). auto. }
  assert (Modi : forall env, in_range a env dim0 -> in_range co env dim1 ->
     row (fa f) La env mod List.length y = row (fci f) Li env).
  { intros env Ha Ho. rewrite Ny, Mi. unfold row. rewrite Mi. rewrite HLi at 1 2. rewrite !map_app.
    apply ravel_mod; [now rewrite !map_length|]. apply range_forall2. intros d Hd. apply Hrng; auto. }
  assert (Modo : forall env, in_range a env dim0 -> in_range co env dim1 ->
     row (fa f) La env mod List.length z = row (fco f) Lo env).
  { intros env Ha Ho. rewrite Nz, Mo. unfold row. rewrite Mo. rewrite HLo at 1 2. rewrite !map_app.
    apply ravel_mod; [now rewrite !map_length|]. apply range_forall2. intros d Hd. apply Hrng; auto. }
  assert (Hcol : forall T (u v : da T) env d, (forall e, look u e = look v e) -> size u d = size v d ->
     column u env d = column v env d).
  { intros T u v env d E1 E2. unfold column. rewrite E2. apply map_ext. intro. apply E1. }
  split; [exact Ef|]. split; [unfold flush_data; rewrite Ex, Ey, Ez; reflexivity|].
  split; [lia|].
  split; [|split].
  { rewrite Ny, Nx, Mi. split; auto. rewrite HLi at 1. rewrite map_app, prod_app.
    assert (0 < prod (map (size (fa f)) pi)); [|nia].
    apply prod_pos. intros n Hn. apply in_map_iff in Hn. destruct Hn as (d & <- & Hd). apply Hpos.
    rewrite HLi. apply in_or_app. auto. }
  { rewrite Nz, Nx, Mo. split; auto. rewrite HLo at 1. rewrite map_app, prod_app.
    assert (0 < prod (map (size (fa f)) po)); [|nia].
    apply prod_pos. intros n Hn. apply in_map_iff in Hn. destruct Hn as (d & <- & Hd). apply Hpos.
    rewrite HLo. apply in_or_app. auto. }
  split; [now rewrite S0a in Fx|]. split; [now rewrite S0i in Fy|]. split; [now rewrite S1o in Fz|].
  split; [|split; [|split; [|split]]].
  - intros env Ha Ho. rewrite Modi, Modo by auto. assert (Hr := Hrng env Ha Ho). split; [|split].
    + rewrite Rx.
      * f_equal. apply Hcol; auto.
      * intros d Hd Hne. rewrite D1 in Hd. apply in_app_or in Hd. destruct Hd as [Hd|[->|[]]]; [auto|congruence].
    + rewrite Ry.
      * f_equal. apply Hcol; auto. rewrite S0i. symmetry. auto.
      * intros d Hd Hne. rewrite D2 in Hd. apply in_app_or in Hd. destruct Hd as [Hd|[->|[]]]; [|congruence].
        rewrite Si; auto.
    + rewrite Rz.
      * f_equal. apply Hcol; auto.
      * intros d Hd Hne. rewrite D3 in Hd. apply in_app_or in Hd. destruct Hd as [Hd|[->|[]]]; [|congruence].
        rewrite So; auto.
  - intros env env' Ha Ho. unfold row. f_equal. apply map_ext_in. intros d Hd. apply HLa in Hd.
    destruct Hd as [Hd|Hd]; apply in_others in Hd; [apply Ha|apply Ho]; tauto.
  - intros r Hr. rewrite Nx in Hr. destruct (env_of (fa f) La r NLa Hr) as (env & E1 & E2 & _). exists env.
    split; [|split; auto].
    + intros d Hd Hne. assert (Hd' : In d (others a dim0)) by (apply in_others; auto).
      rewrite <- SA by auto. apply E2. apply HLa. auto.
    + intros d Hd Hne. assert (Hd' : In d (others co dim1)) by (apply in_others; auto).
      rewrite <- SC by auto. apply E2. apply HLa. auto.
  - intros C junk rows Hrows Hlen. unfold get_back, from_rows. rewrite Wd, Ws, Fd.
    assert (N1 : NoDup (La ++ [dim1])).
    { apply nodup_app_intro; auto; [repeat constructor; simpl; auto|]. intros d Hd [<-|[]]. contradiction. }
    rewrite (concat_length _ _ Hlen), prod_app. cbn [prod]. rewrite Nat.mul_1_r, Hrows, Nx, Nat.eqb_refl.
    rewrite !app_length, map_length, Nat.eqb_refl.
    rewrite (proj2 (nodupb_ok _) N1). cbn [andb bind]. set (o := mkda _ _ _).
    assert (Wo : wf o). { split; cbn [o dims Labelled.shape]; [now rewrite !app_length, map_length|auto]. }
    assert (Ha0 : In dim0 (dims a)) by auto.
    assert (H01' : dim0 = dim1 \/ ~ In dim1 (dims a)) by tauto.
    destruct (push_right o (rename0 dim0 dim1 (dims a)) Wo) as (b & Eb & Wb & Db & Lb & Sb).
    { apply rename0_nodup; [apply Wa|auto]. }
    { intros d Hd. apply rename0_in in Hd; auto. cbn [o dims]. apply in_or_app. simpl.
      destruct Hd as [->|Hd]; auto. left. apply HLa. left. now apply in_others. }
    exists b. split; [exact Eb|]. split; auto.
    assert (Hin : forall d, In d (dims b) <-> In d (La ++ [dim1])).
    { intro d. rewrite Db, in_app_iff, in_minus. cbn [o dims].
      destruct (mem_dec d (rename0 dim0 dim1 (dims a))) as [H|H]; [|tauto]. split; [|tauto]. intros _.
      apply rename0_in in H; auto. apply in_or_app. simpl. destruct H as [->|H]; auto.
      left. apply HLa. left. now apply in_others. }
    assert (So' : forall d, In d (La ++ [dim1]) -> size b d = if String.eqb d dim1 then size co dim1 else size (fa f) d).
    { intros d Hd. destruct (Sb d) as [_ ->]; [exact Hd|]. unfold size at 1, pos. cbn [o dims Labelled.shape].
      clear -Hd d1La. induction La as [|k l IH]; simpl in *.
      - destruct Hd as [->|[]]. now rewrite String.eqb_refl.
      - destruct (String.eqb_spec d k) as [->|Hne].
        + destruct (String.eqb_spec k dim1); [subst; tauto|reflexivity].
        + apply IH; [intro Hx; apply d1La; auto|]. destruct Hd; [congruence|auto]. }
    split; [|split; [|split; [|split]]].
    + rewrite Db at 1 2. f_equal. rewrite filter_app. unfold minus at 2.
      rewrite filter_all. 2: { intros d Hd. apply in_minus in Hd. apply negb_true_iff.
        rewrite <- (mem_nIn d) in Hd. tauto. }
      rewrite (filter_none _ (rename0 dim0 dim1 (dims a))); [now rewrite app_nil_r|].
      intros d Hd. apply negb_false_iff. now apply mem_In.
    + intro d. rewrite Hin, in_app_iff, HLa, !in_others. simpl.
      destruct (string_dec d dim1) as [->|Hne]; [tauto|]. intuition congruence.
    + intros d Hd Hne. rewrite So'.
      * destruct (String.eqb_spec d dim1) as [->|].
        { destruct H01' as [->|H]; contradiction. }
        apply SA, in_others. auto.
      * apply in_or_app. left. apply HLa. left. now apply in_others.
    + intros d Hd. rewrite So'.
      * destruct (String.eqb_spec d dim1) as [->|]; auto. apply SC, in_others. auto.
      * apply in_or_app. simpl. destruct (string_dec d dim1) as [->|Hne]; auto.
        left. apply HLa. right. now apply in_others.
    + intros env Ha Ho H1'. rewrite Lb. unfold look. cbn [o dims value]. rewrite map_app. cbn [map].
      rewrite ravel_app by now rewrite !map_length. cbn [ravel prod]. rewrite Nat.mul_1_r, Nat.add_0_r, Nat.mul_1_r.
      apply concat_nth; auto.
  - intros C junk rows Hn. unfold get_back, from_rows. rewrite Ws, prod_app. cbn [prod]. rewrite Nat.mul_1_r, <- Nx.
    destruct (Nat.eqb_spec (List.length (List.concat rows)) (List.length x * size co dim1)); [contradiction|reflexivity].
Qed.
Print Assumptions C24_flatten_and_back.

(** Restoring the flattened data itself (same working dimension, same length). *)
Theorem C24_round_trip : forall A B (a : da A) (ci co : da B) dim0,
  problem a ci co dim0 dim0 -> compatible a ci co dim0 dim0 -> size co dim0 = size a dim0 ->
  exists f x y z, flush a ci co dim0 dim0 = Ok f /\ flush_data f = Ok (x, y, z) /\
  forall junk, exists b, get_back junk f x = Ok b /\
    forall env, (forall d, In d (dims b) -> env d < size b d) -> look b env = look a env.
Proof.
  intros A B a ci co dim0 P Hc Hs.
  destruct (C24_flatten_and_back A B a ci co dim0 dim0 P Hc)
    as (f & x & y & z & ro & E1 & E2 & Px & Py & Pz & Fx & Fy & Fz & HR & _ & HS & HB & _).
  exists f, x, y, z. split; auto. split; auto. intro junk.
  destruct (HB A junk x eq_refl) as (b & Eb & Wb & Db & Ib & Sa & So & Lb).
  { rewrite Hs. exact Fx. }
  exists b. split; auto. intros env Hr.
  assert (Ha : in_range a env dim0).
  { intros d Hd Hne. rewrite <- Sa by auto. apply Hr. apply Ib. auto. }
  assert (Ho : in_range co env dim0).
  { intros d Hd Hne. rewrite <- So by auto. apply Hr. apply Ib. auto. }
  assert (H0 : env dim0 < size a dim0).
  { rewrite <- Hs, <- So by (apply P). apply Hr. apply Ib. right. apply P. }
  rewrite Lb by (auto; lia). destruct (HR env Ha Ho) as [H _].
  rewrite (nth_error_nth _ _ [] H). unfold column.
  rewrite (nth_indep _ junk ((fun k => look a (setpos env dim0 k)) 0)) by now rewrite map_length, seq_length.
  rewrite (map_nth (fun k => look a (setpos env dim0 k))), seq_nth by auto. cbn [plus].
  unfold look. f_equal. apply map_ext. intro d. unfold setpos.
  destruct (String.eqb_spec d dim0) as [->|]; auto.
Qed.
Print Assumptions C24_round_trip.

(** ** When the coordinates are not compatible the rows do not correspond.
    1. Data and input coordinate along (t, y, z), output coordinate along (y, zo): the
    coordinates are flattened along (y, t) while the data stay along (t, y). *)
Definition v3 (idx : list nat) : nat := match idx with [t; y; z] => 100 * t + 10 * y + z | _ => 999 end.
Definition v2 (idx : list nat) : nat := match idx with [y; z] => 10 * y + z | _ => 999 end.
Definition r_a : da nat := mkda ["t"; "y"; "z"]%string [2; 3; 2] v3.
Definition r_co : da nat := mkda ["y"; "zo"]%string [3; 4] v2.
Definition r_env (t y : nat) : string -> nat :=
  fun d => if String.eqb d "t" then t else if String.eqb d "y" then y else 0.
Ltac nodup_tac := repeat (constructor; [simpl; intuition discriminate|]); constructor.
Ltac in_cases := intros d Hd; simpl in Hd; repeat (destruct Hd as [<-|Hd]; [simpl; auto 10|]); try destruct Hd.

Theorem C24_narrow_output_coordinate_refuted : exists f x y z,
  problem r_a r_a r_co "z" "zo" /\
  flush r_a r_a r_co "z" "zo" = Ok f /\ flush_data f = Ok (x, y, z) /\
  exists r env, in_range r_a env "z" /\ in_range r_co env "zo" /\
    nth_error x r = Some (column r_a env "z") /\
    nth_error y (r mod List.length y) <> Some (column r_a env "z") /\
    nth_error z (r mod List.length z) <> Some (column r_co env "zo").
Proof.
  eexists _, _, _, _. split.
  { constructor.
    - split; [reflexivity|nodup_tac].
    - split; [reflexivity|nodup_tac].
    - split; [reflexivity|nodup_tac].
    - apply incl_refl.
    - simpl; auto.
    - reflexivity.
    - simpl; auto.
    - right. split; simpl; intuition discriminate.
    - right. in_cases.
    - intros d H1 H2. simpl in H1, H2. repeat (destruct H1 as [<-|H1]; [simpl in H2; repeat (destruct H2 as [H2|H2]; [try discriminate H2; reflexivity|]); destruct H2|]). destruct H1.
    - split; in_cases; cbv; lia. }
  split; [reflexivity|]. split; [vm_compute; reflexivity|].
  exists 1, (r_env 0 1). split; [|split; [|split; [|split]]].
  - intros d Hd Hne. simpl in Hd. repeat (destruct Hd as [<-|Hd]; [try congruence; cbv; lia|]). destruct Hd.
  - intros d Hd Hne. simpl in Hd. repeat (destruct Hd as [<-|Hd]; [try congruence; cbv; lia|]). destruct Hd.
  - reflexivity.
  - vm_compute. discriminate.
  - vm_compute. discriminate.
Qed.
Print Assumptions C24_narrow_output_coordinate_refuted.

(** 2. Output coordinate with one dimension, input coordinate along (t, z) for data along
    (t, y, z): row [r] of the data uses row [r mod nt] of the coordinate. *)
Definition r_ci2 : da nat := mkda ["t"; "z"]%string [2; 2] v2.
Definition r_co2 : da nat := mkda ["zo"]%string [4] (fun idx => hd 0 idx).
Theorem C24_narrow_input_coordinate_refuted : exists f x y z,
  problem r_a r_ci2 r_co2 "z" "zo" /\
  flush r_a r_ci2 r_co2 "z" "zo" = Ok f /\ flush_data f = Ok (x, y, z) /\
  exists r env, in_range r_a env "z" /\ in_range r_co2 env "zo" /\
    nth_error x r = Some (column r_a env "z") /\
    nth_error y (r mod List.length y) <> Some (column r_ci2 env "z").
Proof.
  eexists _, _, _, _. split.
  { constructor.
    - split; [reflexivity|nodup_tac].
    - split; [reflexivity|nodup_tac].
    - split; [reflexivity|nodup_tac].
    - in_cases.
    - simpl; auto.
    - in_cases; reflexivity.
    - simpl; auto.
    - right. split; simpl; intuition discriminate.
    - right. in_cases.
    - intros d H1 H2. simpl in H2. destruct H2.
    - split; in_cases; cbv; lia. }
  split; [reflexivity|]. split; [vm_compute; reflexivity|].
  exists 1, (r_env 0 1). split; [|split; [|split]].
  - intros d Hd Hne. simpl in Hd. repeat (destruct Hd as [<-|Hd]; [try congruence; cbv; lia|]). destruct Hd.
  - intros d Hd Hne. simpl in Hd. repeat (destruct Hd as [<-|Hd]; [try congruence; cbv; lia|]). destruct Hd.
  - reflexivity.
  - vm_compute. discriminate.
Qed.
Print Assumptions C24_narrow_input_coordinate_refuted.

(** Inputs that meet the hypotheses: data (t, z, y), input coordinate (z, y), output
    coordinate (y, zo). *)
Definition e_a : da nat := mkda ["t"; "z"; "y"]%string [2; 2; 3] v3.
Definition e_ci : da nat := mkda ["z"; "y"]%string [2; 3] v2.
Example C24_ex : problem e_a e_ci r_co "z" "zo" /\ compatible e_a e_ci r_co "z" "zo" /\
  exists f x y z, flush e_a e_ci r_co "z" "zo" = Ok f /\ flush_data f = Ok (x, y, z) /\
    nth_error x 4 = Some [101; 111] /\ nth_error y (4 mod List.length y) = Some [1; 11] /\
    nth_error z (4 mod List.length z) = Some [10; 11; 12; 13] /\
    exists b, get_back 0 f [[1;2;3;4];[1;2;3;4];[1;2;3;4];[1;2;3;4];[5;6;7;8];[1;2;3;4]] = Ok b /\
      dims b = ["t"; "zo"; "y"]%string /\ Labelled.shape b = [2; 4; 3] /\ value b [1; 2; 1] = 7.
Proof.
  split.
  { constructor.
    - split; [reflexivity|nodup_tac].
    - split; [reflexivity|nodup_tac].
    - split; [reflexivity|nodup_tac].
    - in_cases.
    - simpl; auto.
    - in_cases; reflexivity.
    - simpl; auto.
    - right. split; simpl; intuition discriminate.
    - right. in_cases.
    - intros d H1 H2. simpl in H1, H2. repeat (destruct H1 as [<-|H1]; [simpl in H2; repeat (destruct H2 as [H2|H2]; [try discriminate H2; reflexivity|]); destruct H2|]). destruct H1.
    - split; in_cases; cbv; lia. }
  split.
  { left. intros d Hd Hne. simpl in Hd. destruct Hd as [<-|[<-|[]]]; [congruence|].
    split; [simpl; auto|discriminate]. }
  eexists _, _, _, _. split; [reflexivity|]. split; [vm_compute; reflexivity|].
  split; [reflexivity|]. split; [reflexivity|]. split; [reflexivity|].
  eexists. split; [vm_compute; reflexivity|]. repeat split.
Qed.
