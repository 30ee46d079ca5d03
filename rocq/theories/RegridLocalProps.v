(** C91: a column of the result of regrid1d depends only on the corresponding columns of its arguments *)
From Verif Require Import RegridND GridProofs FlushProps FlushProofs2 RegridProps RegridNDProps CoordsProofs FilterDimsSpec RegridLocal.
Open Scope nat_scope.
Open Scope list_scope.

(** Everything known about one call that succeeds, and what the values of a column come from *)
Lemma two_calls junk junk' (a ci co b a' ci' co' b' : da fl) dim0 dim1 dim0' dim1' method method' k conserv conserv' extrap extrap' bias bias' tension tension' :
  problem a ci co dim0 dim1 -> compatible a ci co dim0 dim1 -> problem a' ci' co' dim0' dim1' -> compatible a' ci' co' dim0' dim1' ->
  designates method k -> designates method' k -> known_extrap extrap -> known_extrap extrap' ->
  regrid1d junk a ci co dim0 dim1 method conserv extrap bias tension = Ok b ->
  regrid1d junk' a' ci' co' dim0' dim1' method' conserv' extrap' bias' tension' = Ok b' ->
  (wf b /\ (forall d, In d (dims b) <-> (In d (dims a) /\ d <> dim0) \/ In d (dims co)) /\
     (forall d, In d (dims a) -> d <> dim0 -> size b d = size a d) /\ (forall d, In d (dims co) -> size b d = size co d)) /\
  (wf b' /\ (forall d, In d (dims b') <-> (In d (dims a') /\ d <> dim0') \/ In d (dims co')) /\
     (forall d, In d (dims a') -> d <> dim0' -> size b' d = size a' d) /\ (forall d, In d (dims co') -> size b' d = size co' d)) /\
  forall env env', in_range a env dim0 -> in_range co env dim1 -> in_range a' env' dim0' -> in_range co' env' dim1' ->
    column a env dim0 = column a' env' dim0' -> column ci env dim0 = column ci' env' dim0' -> column co env dim1 = column co' env' dim1' ->
    column b env dim1 = column b' env' dim1'.
Proof.
  intros P Hc P' Hc' Hm Hm' He He' Hb Hb'.
  destruct (regrid_rows junk a ci co b dim0 dim1 method k conserv extrap bias tension P Hc Hm He Hb) as (x & y & z & out & ro & Er & Px & Py & Pz & Sx & Sy & Sz & H).
  destruct (regrid_rows junk' a' ci' co' b' dim0' dim1' method' k conserv' extrap' bias' tension' P' Hc' Hm' He' Hb') as (x' & y' & z' & out' & ro' & Er' & Px' & Py' & Pz' & Sx' & Sy' & Sz' & H').
  specialize (H (run_shape _ _ _ _ _ _ _ _ Sx Sy Sz Px Py Pz Er)). specialize (H' (run_shape _ _ _ _ _ _ _ _ Sx' Sy' Sz' Px' Py' Pz' Er')).
  destruct H as (W & D & S1 & S2 & V), H' as (W' & D' & S1' & S2' & V').
  split; [auto|]. split; [auto|]. intros env env' R1 R2 R1' R2' E1 E2 E3.
  destruct (V env R1 R2) as (A1 & A2 & A3 & A4 & A5). destruct (V' env' R1' R2') as (A1' & A2' & A3' & A4' & A5').
  rewrite <- E1 in A2'. rewrite <- E2 in A3'. rewrite <- E3 in A4'.
  assert (G := run_dep _ _ _ _ _ _ _ _ _ _ _ _ _ _ _ _ _ _ _ _ Sx Sy Sz Px Py Pz Sx' Sy' Sz' Px' Py' Pz' Er Er' A1 A1' A2 A3 A4 A2' A3' A4').
  congruence.
Qed.

(** Two calls of regrid1d that succeed, on any arrays, with any coordinates (sorted or not, with or
    without missing values), the same kernel: where the columns of the arguments are the same, the
    column of the result is the same. Nothing else has an influence: not the values of the other
    columns, not the order, the sizes nor the names of the dimensions, not [conserv], [extrap], [bias]
    and [tension], not uninitialised memory. *)
Theorem C91_local : forall junk junk' (a ci co b a' ci' co' b' : da fl) dim0 dim1 dim0' dim1' method method' k
    conserv conserv' extrap extrap' bias bias' tension tension',
  problem a ci co dim0 dim1 -> compatible a ci co dim0 dim1 -> problem a' ci' co' dim0' dim1' -> compatible a' ci' co' dim0' dim1' ->
  designates method k -> designates method' k -> known_extrap extrap -> known_extrap extrap' ->
  regrid1d junk a ci co dim0 dim1 method conserv extrap bias tension = Ok b ->
  regrid1d junk' a' ci' co' dim0' dim1' method' conserv' extrap' bias' tension' = Ok b' ->
  forall env env', in_range a env dim0 -> in_range co env dim1 -> in_range a' env' dim0' -> in_range co' env' dim1' ->
    column a env dim0 = column a' env' dim0' -> column ci env dim0 = column ci' env' dim0' -> column co env dim1 = column co' env' dim1' ->
    column b env dim1 = column b' env' dim1'.
Proof.
  intros junk junk' a ci co b a' ci' co' b' dim0 dim1 dim0' dim1' method method' k conserv conserv' extrap extrap' bias bias' tension tension' P Hc P' Hc' Hm Hm' He He' Hb Hb'.
  exact (proj2 (proj2 (two_calls junk junk' a ci co b a' ci' co' b' dim0 dim1 dim0' dim1' method method' k conserv conserv' extrap extrap' bias bias' tension tension' P Hc P' Hc' Hm Hm' He He' Hb Hb'))).
Qed.
Print Assumptions C91_local.

Lemma column_same {A} (a a' : da A) env d : same_by_name eq a a' -> In d (dims a) -> in_range a env d -> column a env d = column a' env d.
Proof.
  intros (_ & _ & _ & S & V) Hd R. unfold column. rewrite (S d Hd). apply map_ext_in. intros k Hk. apply in_seq in Hk.
  apply V. intros e He. unfold setpos. destruct (String.eqb_spec e d) as [->|Hne]; [lia|now apply R].
Qed.
Lemma in_range_same {A} (a a' : da A) env d : same_by_name eq a a' -> in_range a env d -> in_range a' env d.
Proof. intros (_ & _ & D & S & _) R e He Hne. rewrite S by now apply D. apply R; auto. now apply D. Qed.
Lemma look_column {A} (b b' : da A) env d : column b env d = column b' env d -> size b' d = size b d -> env d < size b d -> look b env = look b' env.
Proof.
  intros E S H. unfold column in E. rewrite S in E.
  assert (X : nth_error (map (fun k => look b (setpos env d k)) (seq 0 (size b d))) (env d) = nth_error (map (fun k => look b' (setpos env d k)) (seq 0 (size b d))) (env d)) by now rewrite E.
  rewrite !nth_error_map in X. assert (Q : nth_error (seq 0 (size b d)) (env d) = Some (env d)).
  { rewrite (nth_error_nth' _ 0) by now rewrite seq_length. rewrite seq_nth by auto. reflexivity. }
  rewrite Q in X. cbn in X. injection X as X.
  assert (G : forall (c : da A), look c (setpos env d (env d)) = look c env).
  { intro c. unfold look. f_equal. apply map_ext. intro e. unfold setpos. destruct (String.eqb_spec e d); congruence. }
  now rewrite !G in X.
Qed.

(** The order of the dimensions of the three arguments does not matter: when both calls succeed the
    results have the same named dimensions and the same values at the same named positions. *)
Theorem C91_order : forall junk junk' (a ci co b a' ci' co' b' : da fl) dim0 dim1 method method' k
    conserv conserv' extrap extrap' bias bias' tension tension',
  problem a ci co dim0 dim1 -> compatible a ci co dim0 dim1 -> problem a' ci' co' dim0 dim1 -> compatible a' ci' co' dim0 dim1 ->
  same_by_name eq a a' -> same_by_name eq ci ci' -> same_by_name eq co co' ->
  designates method k -> designates method' k -> known_extrap extrap -> known_extrap extrap' ->
  regrid1d junk a ci co dim0 dim1 method conserv extrap bias tension = Ok b ->
  regrid1d junk' a' ci' co' dim0 dim1 method' conserv' extrap' bias' tension' = Ok b' ->
  same_by_name eq b b'.
Proof.
  intros junk junk' a ci co b a' ci' co' b' dim0 dim1 method method' k conserv conserv' extrap extrap' bias bias' tension tension' P Hc P' Hc' SA SI SO Hm Hm' He He' Hb Hb'.
  destruct (two_calls junk junk' a ci co b a' ci' co' b' dim0 dim1 dim0 dim1 method method' k conserv conserv' extrap extrap' bias bias' tension tension' P Hc P' Hc' Hm Hm' He He' Hb Hb') as ((W & D & S1 & S2) & (W' & D' & S1' & S2') & V).
  pose proof SA as (SA1 & SA2 & SA3 & SA4 & SA5). pose proof SO as (SO1 & SO2 & SO3 & SO4 & SO5).
  assert (SZ : forall d, In d (dims b) -> size b' d = size b d).
  { intros d Hd. apply D in Hd as [[Hd Hn]|Hd].
    - rewrite (S1 d Hd Hn), (S1' d) by (auto; now apply SA3). now apply SA4.
    - rewrite (S2 d Hd), (S2' d) by now apply SO3. now apply SO4. }
  split; [exact W|]. split; [exact W'|]. split; [|split].
  - intro d. rewrite D, D', SA3, SO3. reflexivity.
  - exact SZ.
  - intros env R.
    assert (D1 : In dim1 (dims b)) by (apply D; right; apply P).
    assert (R1 : in_range a env dim0) by (intros d Hd Hn; rewrite <- S1 by auto; apply R, D; auto).
    assert (R2 : in_range co env dim1) by (intros d Hd Hn; rewrite <- S2 by auto; apply R, D; auto).
    assert (R3 : in_range ci env dim0) by (intros d Hd Hn; rewrite (pr_ci_sizes _ _ _ _ _ P) by auto; apply R1; auto; now apply P).
    apply look_column with (d := dim1); [|now apply SZ|now apply R].
    apply V; auto.
    + exact (in_range_same a a' env dim0 SA R1).
    + exact (in_range_same co co' env dim1 SO R2).
    + apply column_same; auto. apply P. apply P.
    + apply column_same; auto. apply P.
    + apply column_same; auto. apply P.
Qed.
Print Assumptions C91_order.

(** [a'] is the part of [a] at position [k] of the dimension [d], like xarray's isel; [a] itself when
    it does not have this dimension. *)
Definition selected {A} (a : da A) (d : string) (k : nat) (a' : da A) : Prop :=
  wf a' /\ (forall e, In e (dims a') <-> In e (dims a) /\ e <> d) /\ (forall e, In e (dims a') -> size a' e = size a e) /\
  (In d (dims a) -> k < size a d) /\
  forall env, (forall e, In e (dims a') -> env e < size a' e) -> look a' env = look a (setpos env d k).

Lemma setpos_comm env d k e j x : d <> e -> setpos (setpos env d k) e j x = setpos (setpos env e j) d k x.
Proof. intro H. unfold setpos. destruct (String.eqb_spec x e), (String.eqb_spec x d); congruence. Qed.
Lemma look_ext {A} (a : da A) env env' : (forall e, env e = env' e) -> look a env = look a env'.
Proof. intro H. unfold look. f_equal. now apply map_ext. Qed.
Lemma column_selected {A} (a a' : da A) d k env e : selected a d k a' -> e <> d -> In e (dims a) -> in_range a' env e ->
  column a' env e = column a (setpos env d k) e.
Proof.
  intros (_ & D & S & _ & V) Hne He R. assert (He' : In e (dims a')) by now apply D. unfold column. rewrite (S e He').
  apply map_ext_in. intros j Hj. apply in_seq in Hj. rewrite V.
  - apply look_ext. intro x. symmetry. apply setpos_comm. congruence.
  - intros x Hx. unfold setpos. destruct (String.eqb_spec x e) as [->|Hxe]; [rewrite S by auto; lia|now apply R].
Qed.
Lemma in_range_selected {A} (a a' : da A) d k env e : selected a d k a' -> in_range a' env e -> in_range a (setpos env d k) e.
Proof.
  intros (_ & D & S & K & _) R x Hx Hxe. unfold setpos. destruct (String.eqb_spec x d) as [->|Hne]; [now apply K|].
  rewrite <- S by now apply D. apply R; auto. now apply D.
Qed.

(** Selecting a position along another dimension before or after regrid1d is the same. *)
Theorem C91_select : forall junk junk' (a ci co b a' ci' co' b' : da fl) dim0 dim1 d n method method' k
    conserv conserv' extrap extrap' bias bias' tension tension',
  problem a ci co dim0 dim1 -> compatible a ci co dim0 dim1 -> problem a' ci' co' dim0 dim1 -> compatible a' ci' co' dim0 dim1 ->
  d <> dim0 -> d <> dim1 -> selected a d n a' -> selected ci d n ci' -> selected co d n co' ->
  designates method k -> designates method' k -> known_extrap extrap -> known_extrap extrap' ->
  regrid1d junk a ci co dim0 dim1 method conserv extrap bias tension = Ok b ->
  regrid1d junk' a' ci' co' dim0 dim1 method' conserv' extrap' bias' tension' = Ok b' ->
  selected b d n b'.
Proof.
  intros junk junk' a ci co b a' ci' co' b' dim0 dim1 d n method method' k conserv conserv' extrap extrap' bias bias' tension tension' P Hc P' Hc' N0 N1 SA SI SO Hm Hm' He He' Hb Hb'.
  destruct (two_calls junk' junk a' ci' co' b' a ci co b dim0 dim1 dim0 dim1 method' method k conserv' conserv extrap' extrap bias' bias tension' tension P' Hc' P Hc Hm' Hm He' He Hb' Hb) as ((W' & D' & S1' & S2') & (W & D & S1 & S2) & V).
  pose proof SA as (SA1 & SA2 & SA3 & SA4 & SA5). pose proof SO as (SO1 & SO2 & SO3 & SO4 & SO5).
  assert (SZ : forall e, In e (dims b') -> size b' e = size b e).
  { intros e Hd. apply D' in Hd as [[Hd Hn]|Hd].
    - rewrite (S1' e Hd Hn), (S1 e) by (auto; now apply SA2). now apply SA3.
    - rewrite (S2' e Hd), (S2 e) by now apply SO2. now apply SO3. }
  split; [exact W'|]. split; [|split; [exact SZ|split]].
  - intro e. rewrite D', D, SA2, SO2. assert (e = d -> e <> dim0) by congruence. tauto.
  - intro H. apply D in H as [[H _]|H]; [rewrite S1 by auto|rewrite S2 by auto]; auto.
  - intros env R.
    assert (D1 : In dim1 (dims b')) by (apply D'; right; apply P').
    assert (R1 : in_range a' env dim0) by (intros e Hd Hn; rewrite <- S1' by auto; apply R, D'; auto).
    assert (R2 : in_range co' env dim1) by (intros e Hd Hn; rewrite <- S2' by auto; apply R, D'; auto).
    assert (R3 : in_range ci' env dim0) by (intros e Hd Hn; rewrite (pr_ci_sizes _ _ _ _ _ P') by auto; apply R1; auto; now apply P').
    assert (E : column b' env dim1 = column b (setpos env d n) dim1).
    { apply V; auto.
      - exact (in_range_selected a a' d n env dim0 SA R1).
      - exact (in_range_selected co co' d n env dim1 SO R2).
      - apply column_selected; auto. apply P, P.
      - apply column_selected; auto. apply P.
      - apply column_selected; auto. apply P. }
    assert (Hl : env dim1 < size b' dim1) by now apply R.
    unfold column in E. rewrite <- SZ in E by auto. apply (f_equal (fun l => nth_error l (env dim1))) in E.
    rewrite !nth_error_map in E. rewrite (nth_error_nth' _ 0) in E by now rewrite seq_length. rewrite seq_nth in E by auto. cbn in E. injection E as E.
    transitivity (look b' (setpos env dim1 (env dim1))); [|etransitivity; [exact E|]].
    + apply look_ext. intro x. unfold setpos. destruct (String.eqb_spec x dim1); congruence.
    + apply look_ext. intro x. unfold setpos. destruct (String.eqb_spec x dim1), (String.eqb_spec x d); congruence.
Qed.
Print Assumptions C91_select.

(** The data (t, z, y) of C44 and the same as (y, t, z); input coordinates z = y, z = 0 at y = 1, not
    sorted; the output coordinate given as (y, zo) *)
Definition o_a : da fl := mkda ["y"; "t"; "z"]%string [2; 2; 2]
  (fun idx => match idx with [y; t; z] => Some (inject_Z (Z.of_nat (100 * t + 10 * z + y))) | _ => nan end).
Definition o_ci : da fl := mkda ["z"; "y"]%string [2; 2]
  (fun idx => match idx with [z; y] => Some (inject_Z (Z.of_nat (y * (1 - z)))) | _ => nan end).
Definition o_ci' : da fl := mkda ["y"; "z"]%string [2; 2]
  (fun idx => match idx with [y; z] => Some (inject_Z (Z.of_nat (y * (1 - z)))) | _ => nan end).
Ltac same_cases := split; [split; [reflexivity|nodup_tac]|]; split; [split; [reflexivity|nodup_tac]|]; split; [simpl; tauto|]; split; [in_cases; reflexivity|].
Ltac prob_cases := constructor; [split; [reflexivity|nodup_tac]|split; [reflexivity|nodup_tac]|split; [reflexivity|nodup_tac]
  |in_cases|simpl; auto|in_cases; reflexivity|simpl; auto|right; split; simpl; intuition discriminate|right; in_cases
  |intros d H1 H2; simpl in H1, H2; destruct H1 as [<-|[<-|[]]], H2 as [H2|[]]; try discriminate; reflexivity
  |split; in_cases; cbv; lia].
Example C91_ex : problem g_a o_ci g_co "z" "zo" /\ compatible g_a o_ci g_co "z" "zo" /\
  problem o_a o_ci' g_co "z" "zo" /\ compatible o_a o_ci' g_co "z" "zo" /\
  same_by_name eq g_a o_a /\ same_by_name eq o_ci o_ci' /\ same_by_name eq g_co g_co /\
  match regrid1d (fun _ _ => nan) g_a o_ci g_co "z" "zo" (EName "nearest") false ENone f0 f0,
        regrid1d (fun _ _ => nan) o_a o_ci' g_co "z" "zo" (EName "nearest") false ENone f0 f0 with
  | Ok b, Ok b' => dims b = ["t"; "zo"; "y"]%string /\ dims b' = ["y"; "t"; "zo"]%string /\
                   value b [1; 0; 0] = Some 100%Q /\ value b' [0; 1; 0] = Some 100%Q
  | _, _ => False
  end.
Proof.
  split; [prob_cases|]. split.
  { left. intros d Hd Hne. simpl in Hd. destruct Hd as [<-|[<-|[]]]; [congruence|]. split; [simpl; auto|discriminate]. }
  split; [prob_cases|]. split.
  { left. intros d Hd Hne. simpl in Hd. destruct Hd as [<-|[<-|[]]]; [|congruence]. split; [simpl; auto|discriminate]. }
  split; [same_cases; intros env _; reflexivity|]. split; [same_cases; intros env _; reflexivity|].
  split; [same_cases; intros env _; reflexivity|].
  vm_compute. repeat split.
Qed.

(** The same data at y = 1 *)
Definition s_a : da fl := mkda ["t"; "z"]%string [2; 2]
  (fun idx => match idx with [t; z] => Some (inject_Z (Z.of_nat (100 * t + 10 * z + 1))) | _ => nan end).
Definition s_ci : da fl := mkda ["z"]%string [2] (fun idx => match idx with [z] => Some (inject_Z (Z.of_nat (1 * (1 - z)))) | _ => nan end).
Definition s_co : da fl := mkda ["zo"]%string [3] (fun idx => match idx with [z] => Some (inject_Z (Z.of_nat z)) | _ => nan end).
Ltac nd := repeat (apply NoDup_cons; [simpl; intuition discriminate|]); apply NoDup_nil.
Ltac sel_cases := split; [split; [reflexivity|nd]|]; split; [intro e; simpl; split; [intros He; split; [tauto|intuition (subst; discriminate)]|intuition congruence]|];
  split; [in_cases; reflexivity|]; split; [intros _; cbv; lia|intros env _; reflexivity].
Example C91_select_ex : problem g_a o_ci g_co "z" "zo" /\ compatible g_a o_ci g_co "z" "zo" /\
  problem s_a s_ci s_co "z" "zo" /\ compatible s_a s_ci s_co "z" "zo" /\
  selected g_a "y" 1 s_a /\ selected o_ci "y" 1 s_ci /\ selected g_co "y" 1 s_co /\
  match regrid1d (fun _ _ => nan) g_a o_ci g_co "z" "zo" (EName "cellave") false ENone f0 f0,
        regrid1d (fun _ _ => nan) s_a s_ci s_co "z" "zo" (EName "cellave") false ENone f0 f0 with
  | Ok b, Ok b' => dims b' = ["t"; "zo"]%string /\ selected b "y" 1 b'
  | _, _ => False
  end.
Proof.
  destruct C91_ex as (P1 & P2 & _). split; [exact P1|]. split; [exact P2|].
  assert (P3 : problem s_a s_ci s_co "z" "zo").
  { constructor.
    - split; [reflexivity|nodup_tac].
    - split; [reflexivity|repeat constructor; simpl; tauto].
    - split; [reflexivity|repeat constructor; simpl; tauto].
    - in_cases.
    - simpl; auto.
    - in_cases; reflexivity.
    - simpl; auto.
    - right. split; simpl; intuition discriminate.
    - right. in_cases.
    - intros d H1 H2. simpl in H2. destruct H2.
    - split; in_cases; cbv; lia. }
  split; [exact P3|]. assert (P4 : compatible s_a s_ci s_co "z" "zo").
  { left. intros d Hd Hne. simpl in Hd. destruct Hd as [<-|[]]. congruence. }
  split; [exact P4|].
  assert (SA : selected g_a "y" 1 s_a) by sel_cases. assert (SI : selected o_ci "y" 1 s_ci) by sel_cases. assert (SO : selected g_co "y" 1 s_co) by sel_cases.
  split; [exact SA|]. split; [exact SI|]. split; [exact SO|].
  assert (X : match regrid1d (fun _ _ => nan) g_a o_ci g_co "z" "zo" (EName "cellave") false ENone f0 f0 with Ok _ => True | _ => False end) by (vm_compute; exact Logic.I).
  assert (X' : match regrid1d (fun _ _ => nan) s_a s_ci s_co "z" "zo" (EName "cellave") false ENone f0 f0 with Ok b' => dims b' = ["t"; "zo"]%string | _ => False end) by (vm_compute; reflexivity).
  destruct (regrid1d (fun _ _ => nan) g_a o_ci g_co "z" "zo" (EName "cellave") false ENone f0 f0) as [b|e] eqn:E; [|destruct X].
  destruct (regrid1d (fun _ _ => nan) s_a s_ci s_co "z" "zo" (EName "cellave") false ENone f0 f0) as [b'|e] eqn:E'; [|destruct X'].
  split; [exact X'|]. clear X X'.
  refine (C91_select _ _ _ _ _ _ _ _ _ _ "z" "zo" "y" 1 (EName "cellave") (EName "cellave") Cellave false false ENone ENone f0 f0 f0 f0 P1 P2 P3 P4 _ _ SA SI SO _ _ _ _ E E'); clear; try discriminate; cbn; auto.
Qed.
