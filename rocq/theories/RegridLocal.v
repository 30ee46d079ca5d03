(** C91: a column of the result of regrid1d depends only on the corresponding columns of its arguments *)
From Verif Require Import RegridND CellaveDep GridProofs FlushProps FlushProofs2 RegridProps RegridNDProps CoordsProofs FilterDimsSpec.
Open Scope nat_scope.
Open Scope list_scope.

(** The rows behind a call of regrid1d *)
Lemma regrid_rows junk (a ci co b : da fl) dim0 dim1 method k conserv extrap bias tension :
  problem a ci co dim0 dim1 -> compatible a ci co dim0 dim1 -> designates method k -> known_extrap extrap ->
  regrid1d junk a ci co dim0 dim1 method conserv extrap bias tension = Ok b ->
  exists x y z out rowof, run junk k x y z = Ok out /\
    0 < List.length x /\ 0 < List.length y <= List.length x /\ 0 < List.length z <= List.length x /\
    InterpSpec.shape x (List.length x) (size a dim0) /\ InterpSpec.shape y (List.length y) (size a dim0) /\ InterpSpec.shape z (List.length z) (size co dim1) /\
    (InterpSpec.shape out (List.length x) (size co dim1) ->
     wf b /\ (forall d, In d (dims b) <-> (In d (dims a) /\ d <> dim0) \/ In d (dims co)) /\
     (forall d, In d (dims a) -> d <> dim0 -> size b d = size a d) /\ (forall d, In d (dims co) -> size b d = size co d) /\
     forall env, in_range a env dim0 -> in_range co env dim1 ->
       rowof env < List.length x /\
       nth_error x (rowof env) = Some (column a env dim0) /\
       nth_error y (rowof env mod List.length y) = Some (column ci env dim0) /\
       nth_error z (rowof env mod List.length z) = Some (column co env dim1) /\
       nth_error out (rowof env) = Some (column b env dim1)).
Proof.
  intros P Hc Hm He Hb.
  destruct (C24_flatten_and_back fl fl a ci co dim0 dim1 P Hc)
    as (f & x & y & z & ro & E1 & E2 & Px & Py & Pz & Fx & Fy & Fz & HR & HD & HS & HB & _).
  unfold regrid1d in Hb. rewrite E1 in Hb. cbn [bind] in Hb. rewrite E2 in Hb. cbn [bind] in Hb.
  rewrite (C10_regrid1d_dispatch junk x y z method k conserv extrap bias tension Hm He) in Hb.
  destruct (run junk k x y z) as [out|e] eqn:Er; [|discriminate]. cbn [bind] in Hb.
  exists x, y, z, out, ro. split; [exact Er|]. split; [exact Px|]. split; [exact Py|]. split; [exact Pz|].
  split; [split; auto|]. split; [split; auto|]. split; [split; auto|]. intro So.
  destruct (HB fl nan out (proj1 So) (proj2 So)) as (b' & Eb & Wb & Db & Ib & Sa & Sc & Lb).
  assert (b' = b) as -> by congruence. clear Eb. split; auto. split; auto. split; auto. split; auto.
  intros env Ha Ho. destruct (HR env Ha Ho) as (R1 & R2 & R3).
  assert (Hlt : ro env < List.length x) by (apply nth_error_Some; congruence).
  split; auto. split; auto. split; auto. split; auto.
  destruct (nth_error out (ro env)) as [r|] eqn:Er'.
  2: { apply nth_error_None in Er'. rewrite (proj1 So) in Er'. lia. }
  f_equal. symmetry.
  unfold column. assert (Hs : size b dim1 = size co dim1) by (apply Sc, P). rewrite Hs.
  assert (Hlr : List.length r = size co dim1).
  { destruct So as [_ So]. rewrite Forall_forall in So. apply So. eapply nth_error_In; eauto. }
  rewrite <- Hlr. clear -Lb Ha Ho Er' HD P Hlr.
  assert (HL : forall j, j < List.length r -> look b (setpos env dim1 j) = nth j r nan).
  { intros j Hj.
    assert (Ha' : in_range a (setpos env dim1 j) dim0).
    { intros d Hd Hne. unfold setpos. destruct (String.eqb_spec d dim1) as [->|]; [|now apply Ha].
      exfalso. destruct (pr_names _ _ _ _ _ P) as [->|[H _]]; auto. }
    assert (Ho' : in_range co (setpos env dim1 j) dim1).
    { intros d Hd Hne. unfold setpos. destruct (String.eqb_spec d dim1) as [->|]; [congruence|now apply Ho]. }
    assert (H1' : setpos env dim1 j dim1 < size co dim1) by (unfold setpos; rewrite String.eqb_refl; lia).
    rewrite Lb by auto. unfold setpos at 1. rewrite String.eqb_refl. f_equal.
    replace (ro (setpos env dim1 j)) with (ro env); [exact (nth_error_nth _ _ [] Er')|].
    apply HD; intros d Hd Hne; unfold setpos; destruct (String.eqb_spec d dim1) as [->|]; auto; [|congruence].
    exfalso. destruct (pr_names _ _ _ _ _ P) as [->|[H _]]; auto. }
  apply nth_ext with (d := nan) (d' := nan); [now rewrite map_length, seq_length|].
  intros j Hj. rewrite map_length, seq_length in Hj. rewrite <- HL by auto.
  rewrite (nth_indep _ nan ((fun k => look b (setpos env dim1 k)) 0)) by now rewrite map_length, seq_length.
  rewrite (map_nth (fun k => look b (setpos env dim1 k))), seq_nth by auto. reflexivity.
Qed.

(** Row lengths of the output, whenever there is one *)
Lemma pyset_len {A} (l l' : list A) i x : pyset l i x = Ok l' -> List.length l' = List.length l.
Proof. unfold pyset. destruct (pyidx _ _); [|discriminate]. intro H. injection H as <-. apply upd_length. Qed.
Lemma for_each_keep {A S} (Inv : S -> Prop) (l : list A) body s r : Inv s ->
  (forall x s, Inv s -> match body x s with Next s' | Break s' => Inv s' | Fail _ => True end) -> for_each l body s = Ok r -> Inv r.
Proof.
  intros Hs H. revert s Hs. induction l as [|x l IH]; cbn; intros s Hs E; [injection E as <-; auto|]. specialize (H x s Hs).
  destruct (body x s); [eauto|injection E as <-; auto|discriminate].
Qed.
Definition keeps n (st : Z * list fl) : Prop := List.length (snd st) = n.
Lemma interval_keep n (inner : Z -> Z -> Z * list fl -> ctl (Z * list fl)) yi yo iyomax stop iyi st :
  (forall iyi iyo st, keeps n st -> match inner iyi iyo st with Next s | Break s => keeps n s | Fail _ => True end) ->
  keeps n st -> match interval_step inner yi yo iyomax stop iyi st with Next s | Break s => keeps n s | Fail _ => True end.
Proof.
  intros H Hs. unfold interval_step.
  destruct (pyget yi (iyi + 1)); cbn [bindc]; auto. destruct (pyget yo (fst st)); cbn [bindc]; auto. destruct (fltb _ _); auto.
  destruct (pyget yi iyi); cbn [bindc]; auto. destruct (pyget yo iyomax); cbn [bindc]; auto. destruct (fltb _ _); auto.
  match goal with |- match next_of ?r with _ => _ end => destruct r as [s'|] eqn:E; cbn; auto end.
  revert E. apply for_each_keep; auto.
  intros x s. apply H.
Qed.

Lemma interval_row n inner yi yo iyomax stop l i0 out st :
  (forall iyi iyo st, keeps n st -> match inner iyi iyo st with Next s | Break s => keeps n s | Fail _ => True end) ->
  List.length out = n -> for_each l (interval_step inner yi yo iyomax stop) (i0, out) = Ok st -> List.length (snd st) = n.
Proof.
  intros H Ho E. change (keeps n st). revert E. apply for_each_keep; [exact Ho|]. intros x s Hs. now apply interval_keep.
Qed.
Ltac step_keep := intros iyi iyo [m o] Hk; unfold keeps in *; cbn [snd] in *;
  repeat (first [exact Logic.I | exact Hk |
    match goal with
    | |- match bindc (pyset ?l ?i ?x) _ with _ => _ end => let F := fresh in destruct (pyset l i x) eqn:F; cbn [bindc]; [apply pyset_len in F; cbn [snd]; congruence|]
    | |- match bindc ?r _ with _ => _ end => destruct r; cbn [bindc]
    | |- match (if ?c then _ else _) with _ => _ end => destruct c
    end]).
Lemma nearest_row_len v yi yo out r : nearest_row v yi yo out = Ok r -> List.length r = List.length out.
Proof.
  unfold nearest_row. destruct (get_iminmax yi) as [[a b]|]; cbn [bind]; [|discriminate]. destruct (get_iminmax yo) as [[c d]|]; cbn [bind]; [|discriminate].
  destruct (for_each _ _ _) as [st|] eqn:E; cbn [bind]; [|discriminate]. intro H. injection H as <-. revert E. apply interval_row; auto. unfold nearest_step. step_keep.
Qed.
Lemma linear_row_len v yi yo out r : linear_row v yi yo out = Ok r -> List.length r = List.length out.
Proof.
  unfold linear_row. destruct (get_iminmax yi) as [[a b]|]; cbn [bind]; [|discriminate]. destruct (get_iminmax yo) as [[c d]|]; cbn [bind]; [|discriminate].
  destruct (for_each _ _ _) as [st|] eqn:E; cbn [bind]; [|discriminate]. intro H. injection H as <-. revert E. apply interval_row; auto. unfold linear_step. step_keep.
Qed.
Lemma poly_row_len poly vari ix ixi yi yo out r : poly_row poly vari ix ixi yi yo out = Ok r -> List.length r = List.length out.
Proof.
  unfold poly_row. destruct (get_iminmax yi) as [[a b]|]; cbn [bind]; [|discriminate]. destruct (get_iminmax yo) as [[c d]|]; cbn [bind]; [|discriminate].
  destruct (for_each _ _ _) as [st|] eqn:E; cbn [bind]; [|discriminate]. intro H. injection H as <-. revert E. apply interval_row; auto. unfold poly_step. step_keep.
Qed.
Lemma rows_kernel_shape row vari yi yo nxi nxiy nxo nyi nyo out :
  (forall ix ixi ryi ryo ro r, row ix ixi ryi ryo ro = Ok r -> List.length r = List.length ro) ->
  InterpSpec.shape vari nxi nyi -> InterpSpec.shape yi nxiy nyi -> InterpSpec.shape yo nxo nyo -> 0 < nxi -> 0 < nxiy -> 0 < nxo -> nxo <= nxi ->
  rows_kernel row vari yi yo (seq_order vari yo) = Ok out -> InterpSpec.shape out nxi nyo.
Proof.
  intros HL S1 S2 S3 P1 P2 P3 Hle E. destruct (rows_kernel_row row vari yi yo nxi nxiy nxo nyi nyo out S1 S2 S3 P1 P2 P3 E) as [L V].
  replace (Nat.max nxi nxo) with nxi in * by lia. split; auto. apply Forall_forall. intros r Hr. apply In_nth_error in Hr as [i Hi].
  assert (Hlt : i < nxi) by (rewrite <- L; apply nth_error_Some; congruence).
  destruct (shape_get yi nxiy nyi (i mod nxiy)) as [ryi Ey]; [auto|apply Nat.mod_upper_bound; lia|]. destruct (shape_get yo nxo nyo (i mod nxo)) as [ryo Eo]; [auto|apply Nat.mod_upper_bound; lia|].
  destruct (V i ryi ryo Hlt Ey Eo) as (r' & Hr' & Er). apply HL in Er. rewrite repeat_length in Er. congruence.
Qed.

(** The output of the kernels: its shape, and what a row depends on *)
Lemma ok_bind {A B} (r : res A) (f : A -> res B) y : (let* x := r in f x) = Ok y -> exists x, r = Ok x /\ f x = Ok y.
Proof. destruct r as [x|]; [eauto|discriminate]. Qed.
Lemma edges_two junk (z : arr) e n : get_edges_rows store_float junk z = Ok e -> InterpSpec.shape z (List.length z) n -> 0 < List.length z -> 2 <= n.
Proof.
  intros E [_ F] P. destruct z as [|r z]; [cbn in P; lia|]. inversion F; subst. destruct (le_lt_dec 2 (List.length r)) as [H|H]; auto.
  unfold get_edges_rows in E. cbn in E. rewrite (get_edges_1d_short store_float (junk 0) r H) in E. discriminate.
Qed.
Lemma run_shape junk k (x y z out : arr) nyi nyo :
  InterpSpec.shape x (List.length x) nyi -> InterpSpec.shape y (List.length y) nyi -> InterpSpec.shape z (List.length z) nyo ->
  0 < List.length x -> 0 < List.length y <= List.length x -> 0 < List.length z <= List.length x ->
  run junk k x y z = Ok out -> InterpSpec.shape out (List.length x) nyo.
Proof.
  intros Sx Sy Sz Px Py Pz E. destruct k; cbn [run] in E.
  1-4: refine (rows_kernel_shape _ x y z (List.length x) (List.length y) (List.length z) nyi nyo out _ Sx Sy Sz Px (proj1 Py) (proj1 Pz) (proj2 Pz) E).
  - intros ix ixi ryi ryo ro r H. apply ok_bind in H as (v & _ & H). now apply linear_row_len in H.
  - intros ix ixi ryi ryo ro r H. apply ok_bind in H as (v & _ & H). now apply nearest_row_len in H.
  - intros ix ixi ryi ryo ro r H. now apply poly_row_len in H.
  - intros ix ixi ryi ryo ro r H. now apply poly_row_len in H.
  - apply ok_bind in E as (yb & Ey & E). apply ok_bind in E as (zb & Ez & E).
    assert (N1 := edges_two junk y yb nyi Ey Sy (proj1 Py)). assert (N2 := edges_two junk z zb nyo Ez Sz (proj1 Pz)).
    destruct (edges_rows_inv junk y yb nyi Ey (proj2 Sy) N1) as (L1 & F1 & V1). destruct (edges_rows_inv junk z zb nyo Ez (proj2 Sz) N2) as (L2 & F2 & V2).
    destruct (cellave1d_row x yb zb false "no" (List.length x) (List.length y) (List.length z) nyi nyo (S nyi) out) as [L V]; [exact Sx|split; [exact L1|exact F1]|split; [exact L2|exact F2]|auto..|]; try lia.
    split; auto. apply Forall_forall. intros r Hr. apply In_nth_error in Hr as [i Hi].
    assert (Hlt : i < List.length x) by (rewrite <- L; apply nth_error_Some; congruence).
    destruct (shape_get x (List.length x) nyi i) as [v Ev]; auto.
    destruct (shape_get yb (List.length y) (S nyi) (i mod List.length y)) as [ryi Ei]; [split; auto|apply Nat.mod_upper_bound; lia|].
    destruct (shape_get zb (List.length z) (S nyo) (i mod List.length z)) as [ryo Eo]; [split; auto|apply Nat.mod_upper_bound; lia|].
    destruct (V i v ryi ryo Hlt Ev Ei Eo) as (q & r' & H1 & H2 & _). congruence.
Qed.
Lemma run_dep junk junk' k (x y z out x' y' z' out' : arr) nyi nyo nyi' nyo' i i' v ryi ryo :
  InterpSpec.shape x (List.length x) nyi -> InterpSpec.shape y (List.length y) nyi -> InterpSpec.shape z (List.length z) nyo ->
  0 < List.length x -> 0 < List.length y <= List.length x -> 0 < List.length z <= List.length x ->
  InterpSpec.shape x' (List.length x') nyi' -> InterpSpec.shape y' (List.length y') nyi' -> InterpSpec.shape z' (List.length z') nyo' ->
  0 < List.length x' -> 0 < List.length y' <= List.length x' -> 0 < List.length z' <= List.length x' ->
  run junk k x y z = Ok out -> run junk' k x' y' z' = Ok out' -> i < List.length x -> i' < List.length x' ->
  nth_error x i = Some v -> nth_error y (i mod List.length y) = Some ryi -> nth_error z (i mod List.length z) = Some ryo ->
  nth_error x' i' = Some v -> nth_error y' (i' mod List.length y') = Some ryi -> nth_error z' (i' mod List.length z') = Some ryo ->
  nth_error out i = nth_error out' i'.
Proof.
  intros Sx Sy Sz Px Py Pz Sx' Sy' Sz' Px' Py' Pz' E E' Hi Hi' V Y Z V' Y' Z'.
  assert (nyi' = nyi) as -> by (rewrite <- (shape_row _ _ _ _ _ Sx V), <- (shape_row _ _ _ _ _ Sx' V'); reflexivity).
  assert (nyo' = nyo) as -> by (rewrite <- (shape_row _ _ _ _ _ Sz Z), <- (shape_row _ _ _ _ _ Sz' Z'); reflexivity).
  assert (EV : nth_error x (i mod List.length x) = nth_error x' (i' mod List.length x')) by (rewrite !Nat.mod_small by auto; congruence).
  assert (EY : nth_error y (i mod List.length y) = nth_error y' (i' mod List.length y')) by congruence.
  assert (EZ : nth_error z (i mod List.length z) = nth_error z' (i' mod List.length z')) by congruence.
  assert (M : i < Nat.max (List.length x) (List.length z)) by lia. assert (M' : i' < Nat.max (List.length x') (List.length z')) by lia.
  destruct Py as [Py Qy], Pz as [Pz Qz], Py' as [Py' Qy'], Pz' as [Pz' Qz'].
  destruct k; cbn [run] in E, E'.
  - exact (linear1d_dep x y z x' y' z' _ _ _ _ _ _ _ _ _ Sx Sy Sz Sx' Sy' Sz' Px Py Pz Px' Py' Pz' i i' M M' EY EZ EV _ _ E E').
  - exact (nearest1d_dep x y z x' y' z' _ _ _ _ _ _ _ _ _ Sx Sy Sz Sx' Sy' Sz' Px Py Pz Px' Py' Pz' i i' M M' EY EZ EV _ _ E E').
  - exact (cubic1d_dep x y z x' y' z' _ _ _ _ _ _ _ _ _ Sx Sy Sz Sx' Sy' Sz' Px Py Pz Px' Py' Pz' i i' M M' EY EZ EV Qz Qz' _ _ E E').
  - exact (hermit1d_dep x y z x' y' z' _ _ _ _ _ _ _ _ _ Sx Sy Sz Sx' Sy' Sz' Px Py Pz Px' Py' Pz' i i' M M' EY EZ EV Qz Qz' _ _ _ _ E E').
  - apply ok_bind in E as (yb & Ey & E). apply ok_bind in E as (zb & Ez & E).
    apply ok_bind in E' as (yb' & Ey' & E'). apply ok_bind in E' as (zb' & Ez' & E').
    assert (N1 := edges_two junk y yb nyi Ey Sy Py). assert (N2 := edges_two junk z zb nyo Ez Sz Pz).
    destruct (edges_rows_inv junk y yb nyi Ey (proj2 Sy) N1) as (L1 & F1 & V1). destruct (edges_rows_inv junk z zb nyo Ez (proj2 Sz) N2) as (L2 & F2 & V2).
    destruct (edges_rows_inv junk' y' yb' nyi Ey' (proj2 Sy') N1) as (L1' & F1' & V1'). destruct (edges_rows_inv junk' z' zb' nyo Ez' (proj2 Sz') N2) as (L2' & F2' & V2').
    destruct (cellave1d_row x yb zb false "no" (List.length x) (List.length y) (List.length z) nyi nyo (S nyi) out) as [_ W]; [exact Sx|split; [exact L1|exact F1]|split; [exact L2|exact F2]|auto..|].
    destruct (cellave1d_row x' yb' zb' false "no" (List.length x') (List.length y') (List.length z') nyi nyo (S nyi) out') as [_ W']; [exact Sx'|split; [exact L1'|exact F1']|split; [exact L2'|exact F2']|auto..|].
    destruct (V1 _ _ Y) as (e1 & A1 & B1). destruct (V2 _ _ Z) as (e2 & A2 & B2). destruct (V1' _ _ Y') as (e1' & A1' & B1'). destruct (V2' _ _ Z') as (e2' & A2' & B2').
    assert (e1' = e1) as -> by congruence. assert (e2' = e2) as -> by congruence.
    destruct (W i v e1 e2 Hi V A1 A2) as (q & r & H1 & _ & H3). destruct (W' i' v e1 e2 Hi' V' A1' A2') as (q' & r' & H1' & _ & H3'). congruence.
Qed.
