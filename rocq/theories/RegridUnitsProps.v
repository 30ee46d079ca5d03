(** C88: regrid1d of labelled arrays in other units, and of combinations of arrays *)
From Verif Require Import InterpUnits InterpUnitsProps InterpUnitsCell RegridProps GridProofs InterpDeps GridSpec InterpSpec InterpProps GridProps FlushProps FlushProofs2 RegridNDProps.
From Verif Require Import Labelled Coords CoordsSpec RegridUnits.
From Coq Require Import Lqa.
Open Scope nat_scope.
Open Scope list_scope.
Local Notation "! q" := (Some q%Q) (at level 10, q at level 9).

(** Regridding the combination [a x + b y + g] of two arrays, both coordinates being in other units
    ([c > 0]), gives the combination of the two regridded arrays, or the three calls fail with the
    same error: for all dimensions, sizes, NaNs, coordinates (sorted or not), methods and options.
    For "cellave", arrays must have the same NaNs and there is no constant term. *)
Theorem C88_regrid1d : forall (a b g c d : Q) junk x y ci co dim0 dim1 method conserv extrap bias tension,
  (0 < c)%Q -> same_layout x y ->
  (designates method Cellave -> (g == 0)%Q /\ same_nans x y) ->
  dcombines (lincomb a b g) (regrid1d junk x ci co dim0 dim1 method conserv extrap bias tension)
    (regrid1d junk y ci co dim0 dim1 method conserv extrap bias tension)
    (regrid1d junk (dmap2 (lincomb a b g) x y) (dmap (rescale c d) ci) (dmap (rescale c d) co) dim0 dim1 method conserv extrap bias tension).
Proof.
  intros a b g c d junk x y ci co dim0 dim1 method conserv extrap bias tension C [L1 L2] G.
  assert (Dy : forall u, D3 (Ry c d) u u (dmap (rescale c d) u)).
  { intro u. repeat split; auto. cbn. destruct (value u i); cbn; auto. reflexivity. }
  assert (H := regrid3 a b g c d junk x y (dmap2 (lincomb a b g) x y) ci ci (dmap (rescale c d) ci) co co (dmap (rescale c d) co)
    dim0 dim1 method conserv extrap bias tension C).
  assert (X : rel3 (D3 (Rc a b g)) (regrid1d junk x ci co dim0 dim1 method conserv extrap bias tension)
    (regrid1d junk y ci co dim0 dim1 method conserv extrap bias tension)
    (regrid1d junk (dmap2 (lincomb a b g) x y) (dmap (rescale c d) ci) (dmap (rescale c d) co) dim0 dim1 method conserv extrap bias tension)).
  { apply H; auto; [intro K; now apply G|]. repeat split; auto; cbn.
    - unfold Rc. destruct (lincomb a b g (value x i) (value y i)); cbn; auto. reflexivity.
    - unfold Rc. destruct (G H0) as [G0 N]. destruct (value x i), (value y i); cbn; auto. rewrite G0. reflexivity.
    - symmetry. now apply G.
    - destruct (G H0) as [G0 N]. specialize (N i). destruct (value x i), (value y i); cbn in *; congruence. }
  destruct X as [u v w (E1 & E2 & E3 & E4 & Hv)|e]; cbn; auto. split; [split; auto|]. split; [split; auto|]. exact Hv.
Qed.
Print Assumptions C88_regrid1d.

(** Data in other units ([a x + g]), coordinates in other units *)
Theorem C88_units : forall (a g c d : Q) junk x ci co dim0 dim1 method conserv extrap bias tension,
  (0 < c)%Q -> (designates method Cellave -> (g == 0)%Q) ->
  dfollows (rescale a g) (regrid1d junk x ci co dim0 dim1 method conserv extrap bias tension)
    (regrid1d junk (dmap (rescale a g) x) (dmap (rescale c d) ci) (dmap (rescale c d) co) dim0 dim1 method conserv extrap bias tension).
Proof.
  intros a g c d junk x ci co dim0 dim1 method conserv extrap bias tension C G.
  assert (Dy : forall u, D3 (Ry c d) u u (dmap (rescale c d) u)).
  { intro u. repeat split; auto. cbn. destruct (value u i); cbn; auto. reflexivity. }
  assert (X : rel3 (D3 (Rc a 0 g)) (regrid1d junk x ci co dim0 dim1 method conserv extrap bias tension)
    (regrid1d junk x ci co dim0 dim1 method conserv extrap bias tension)
    (regrid1d junk (dmap (rescale a g) x) (dmap (rescale c d) ci) (dmap (rescale c d) co) dim0 dim1 method conserv extrap bias tension)).
  { apply regrid3 with c d; auto. repeat split; auto; cbn.
    - unfold Rc. destruct (value x i); cbn; auto. ring.
    - unfold Rc. destruct (value x i); cbn; auto. rewrite (G H). ring.
    - destruct (value x i); reflexivity. }
  inversion X as [u v w Hd Eu Ev Ew|e Eu Ev Ew]; cbn; auto. assert (u = v) as <- by congruence.
  destruct Hd as (E1 & E2 & E3 & E4 & Hv). split; [split; auto|]. intro i. specialize (Hv i). unfold Rc in Hv. cbn.
  destruct (value u i), (value w i); cbn in *; try tauto. rewrite Hv. ring.
Qed.
Print Assumptions C88_units.

(** ** Cell averages and constant terms *)
Lemma qsum_ext n f h : (forall i, i < n -> (f i == h i)%Q) -> (qsum n f == qsum n h)%Q.
Proof. induction n as [|n IH]; intro H; cbn; [reflexivity|]. rewrite IH, H by (auto; lia). reflexivity. Qed.
Lemma qsum_lin n a g f h : (qsum n (fun i => a * f i + g * h i) == a * qsum n f + g * qsum n h)%Q.
Proof. induction n as [|n IH]; cbn; [ring|]. rewrite IH. ring. Qed.
Lemma edges_valid d e : 2 <= List.length d -> all_valid d -> edges_spec d e -> forall k, k <= List.length d -> exists x, val e k x.
Proof.
  intros Hn Hv (L & I & F & G) k Hk.
  assert (V : forall i, i < List.length d -> exists x, val d i x) by (intros i Hi; now apply Hv).
  destruct (Nat.eq_dec k 0) as [->|K0].
  - destruct (V 0) as [p Hp]; [lia|]. destruct (V 1) as [q Hq]; [lia|]. destruct (F p q Hp Hq) as (x & y & Hx & _). eauto.
  - destruct (Nat.eq_dec k (List.length d)) as [->|K1].
    + destruct (List.length d) as [|[|n]] eqn:E; [lia..|]. destruct (V n) as [p Hp]; [lia|]. destruct (V (S n)) as [q Hq]; [lia|].
      destruct (G n p q eq_refl Hp Hq) as (x & y & _ & Hy & _). eauto.
    + destruct k as [|k]; [lia|]. destruct (V k) as [p Hp]; [lia|]. destruct (V (S k)) as [q Hq]; [lia|].
      destruct (I k (Some p) (Some q) Hp Hq) as (x & Hx & Fx). destruct x as [x|]; cbn in Fx; [|tauto]. exists x. exact Hx.
Qed.
Lemma edges_numat d e e' k : 2 <= List.length d -> all_valid d -> edges_spec d e -> edges_spec d e' -> k <= List.length d -> (numat e k == numat e' k)%Q.
Proof.
  intros Hn Hv He He' Hk. destruct (edges_valid d e Hn Hv He k Hk) as [x Hx], (edges_valid d e' Hn Hv He' k Hk) as [y Hy].
  unfold numat. rewrite Hx, Hy. exact (edges_determined d e e' Hn Hv He He' k x y Hx Hy).
Qed.
Lemma overlap_ext a b c d a' b' c' d' : (a == a' -> b == b' -> c == c' -> d == d' -> overlap a b c d == overlap a' b' c' d')%Q.
Proof. intros H1 H2 H3 H4. unfold overlap. rewrite H1, H2, H3, H4. reflexivity. Qed.
Lemma offset_row a g v yi yo r r' : 
  2 <= List.length yi -> all_valid yi -> 2 <= List.length yo -> all_valid yo -> List.length v = List.length yi ->
  column_spec Cellave v yi yo r -> column_spec Cellave (map (rescale a g) v) yi yo r' -> feql r' (map (rescale a g) r).
Proof.
  intros N1 V1 N2 V2 Lv (ei & eo & Si & So & L & H) (ei' & eo' & Si' & So' & L' & H').
  assert (Lo : List.length eo = S (List.length yo)) by apply So. assert (Lo' : List.length eo' = S (List.length yo)) by apply So'.
  assert (OV : forall i j, i < List.length v -> j < List.length yo ->
    (overlap (numat ei' i) (numat ei' (S i)) (numat eo' j) (numat eo' (S j)) == overlap (numat ei i) (numat ei (S i)) (numat eo j) (numat eo (S j)))%Q).
  { intros i j Hi Hj. apply overlap_ext; [apply (edges_numat yi); auto; lia|apply (edges_numat yi); auto; lia|apply (edges_numat yo); auto; lia|apply (edges_numat yo); auto; lia]. }
  assert (W : forall j, j < List.length yo -> (cell_weight (map (rescale a g) v) ei' eo' j == cell_weight v ei eo j)%Q).
  { intros j Hj. unfold cell_weight. rewrite map_length. apply qsum_ext. intros i Hi. rewrite nth_error_map.
    destruct (nth_error v i) as [[x|]|]; cbn; try reflexivity. now apply OV. }
  assert (S : forall j, j < List.length yo -> (cell_sum (map (rescale a g) v) ei' eo' j == a * cell_sum v ei eo j + g * cell_weight v ei eo j)%Q).
  { intros j Hj. unfold cell_weight, cell_sum. rewrite <- qsum_lin, map_length. apply qsum_ext. intros i Hi. rewrite nth_error_map.
    destruct (nth_error v i) as [[x|]|]; cbn; try ring. rewrite (OV i j Hi Hj). ring. }
  assert (P : forall j, j < List.length yo -> exists x x', nth_error r j = Some x /\ nth_error r' j = Some x' /\ feq x' (rescale a g x)).
  { intros j Hj. destruct (H j) as (x & Ex & Hx); [lia|]. destruct (H' j) as (x' & Ex' & Hx'); [lia|]. exists x, x'. split; auto. split; auto.
    destruct Hx as [[Wz ->]|[Wn Fx]], Hx' as [[Wz' ->]|[Wn' Fx']]; cbn; auto.
    - destruct Wn'. now rewrite W.
    - destruct Wn. now rewrite <- W.
    - destruct x as [x|], x' as [x'|]; cbn in *; try tauto. rewrite Fx', Fx, S, W by exact Hj. field. exact Wn. }
  assert (Lr : List.length r = List.length yo) by lia. assert (Lr' : List.length r' = List.length yo) by lia.
  clear - P Lr Lr'. revert r r' P Lr Lr'. induction (List.length yo) as [|n IH]; intros [|x r] [|x' r'] P L1 L2; try discriminate; cbn; auto.
  destruct (P 0) as (y & y' & E1 & E2 & F); [lia|]. cbn in E1, E2. injection E1 as ->. injection E2 as ->. split; auto.
  apply IH; [|cbn in *; lia..]. intros j Hj. apply (P (S j)). lia.
Qed.
Lemma map_column a g (x : da fl) env d : column (dmap (rescale a g) x) env d = map (rescale a g) (column x env d).
Proof. unfold column. rewrite map_map. reflexivity. Qed.
(** Where "cellave" gives a result described by C44 (increasing coordinates without NaN), units with
    another origin ([a x + g], kelvins and degrees Celsius) commute too. *)
Theorem C88_cellave_origin : forall (a g : Q) junk x ci co dim0 dim1 method conserv extrap bias tension,
  problem x ci co dim0 dim1 -> compatible x ci co dim0 dim1 -> designates method Cellave -> known_extrap extrap ->
  (forall env, in_range x env dim0 -> in_range co env dim1 ->
     column_pre Cellave (column x env dim0) (column ci env dim0) (column co env dim1)) ->
  exists r r', regrid1d junk x ci co dim0 dim1 method conserv extrap bias tension = Ok r /\
    regrid1d junk (dmap (rescale a g) x) ci co dim0 dim1 method conserv extrap bias tension = Ok r' /\
    forall env, in_range x env dim0 -> in_range co env dim1 ->
      feql (column r' env dim1) (map (rescale a g) (column r env dim1)).
Proof.
  intros a g junk x ci co dim0 dim1 method conserv extrap bias tension P Cp M E H.
  destruct (C44_regrid1d junk x ci co dim0 dim1 method Cellave conserv extrap bias tension P Cp M E H) as (r & Er & _ & _ & _ & _ & _ & Hr).
  assert (P' : problem (dmap (rescale a g) x) ci co dim0 dim1) by (destruct P; constructor; assumption).
  assert (H' : forall env, in_range (dmap (rescale a g) x) env dim0 -> in_range co env dim1 ->
     column_pre Cellave (column (dmap (rescale a g) x) env dim0) (column ci env dim0) (column co env dim1)).
  { intros env H1 H2. rewrite map_column. exact (H env H1 H2). }
  destruct (C44_regrid1d junk (dmap (rescale a g) x) ci co dim0 dim1 method Cellave conserv extrap bias tension P' Cp M E H') as (r' & Er' & _ & _ & _ & _ & _ & Hr').
  exists r, r'. split; auto. split; auto. intros env H1 H2. specialize (Hr env H1 H2). specialize (Hr' env H1 H2).
  rewrite map_column in Hr'. destruct (H env H1 H2) as (_ & _ & A1 & A2 & A3 & A4).
  apply (offset_row a g (column x env dim0) (column ci env dim0) (column co env dim1)); auto. unfold column. rewrite !map_length, !seq_length. symmetry. apply P, P.
Qed.
Print Assumptions C88_cellave_origin.
(** Not in general: with a constant output coordinate, cells are empty and "cellave" gives zeros in
    all units. *)
Theorem C88_cellave_origin_refuted : exists x ci co r r',
  regrid1d (fun _ _ => nan) x ci co "z" "z" (EName "cellave") false ENone f0 f0 = Ok r /\
  regrid1d (fun _ _ => nan) (dmap (rescale 1 10) x) ci co "z" "z" (EName "cellave") false ENone f0 f0 = Ok r' /\
  ~ deq r' (dmap (rescale 1 10) r).
Proof.
  pose (z1 := fun l : list fl => mkda ["z"%string] [List.length l] (fun i => nth (hd 0 i) l nan)).
  exists (z1 [!5; !7]), (z1 [!0; !1]), (z1 [!0; !0]). eexists _, _.
  split; [vm_compute; reflexivity|]. split; [vm_compute; reflexivity|].
  intros [_ H]. specialize (H [0]). vm_compute in H. discriminate.
Qed.
(** Non-trivial case: data (t, z, y), coordinates that vary with y; meters to kilometers, and
    degrees Celsius to kelvins *)
Example C88_case : exists r,
  regrid1d (fun _ _ => nan) (dmap (rescale 1 (5463 # 20)) g_a) (dmap (rescale (1 # 1000) 2) g_ci) (dmap (rescale (1 # 1000) 2) g_co)
    "z" "zo" (EName "linear") false ENone f0 f0 = Ok r /\
  dims r = ["t"; "zo"; "y"]%string /\ feq (value r [1; 1; 1]) (!(7583 # 20)) /\ feq (value r [1; 1; 0]) (!(7663 # 20)) /\ value r [1; 2; 0] = nan.
Proof. eexists. split; [vm_compute; reflexivity|]. repeat split; vm_compute; reflexivity. Qed.
Example C88_cellave_case : exists r,
  same_nans g_a g_a /\
  regrid1d (fun _ _ => nan) g_a g_ci g_co "z" "zo" (EName "cellave") false ENone f0 f0 = Ok r /\ feq (value r [1; 1; 1]) (!(106)).
Proof. eexists. split; [intro; reflexivity|]. split; [vm_compute; reflexivity|]. vm_compute. reflexivity. Qed.
Example C88_cellave_origin_case : problem g_a g_ci g_co "z" "zo" /\ compatible g_a g_ci g_co "z" "zo" /\
  designates (EName "cellave") Cellave /\ known_extrap ENone /\
  (forall env, in_range g_a env "z" -> in_range g_co env "zo" ->
     column_pre Cellave (column g_a env "z") (column g_ci env "z") (column g_co env "zo")).
Proof.
  destruct C44_ex as (P & C & _ & _). split; [exact P|]. split; [exact C|]. split; [cbn; auto|]. split; [exact Logic.I|].
  intros env Ha Ho.
  assert (I1 : increasing (column g_ci env "z")).
  { apply (g_inc _ (env "y"%string + 1)); [|lia]. intros [|[|i]] x H; unfold val in H; cbn in H.
    - injection H as <-. rewrite !Nat.mul_0_r. reflexivity.
    - injection H as <-. reflexivity.
    - destruct i; discriminate. }
  assert (I2 : increasing (column g_co env "zo")).
  { apply (g_inc _ 1); [|lia]. intros [|[|[|k]]] x H; unfold val in H; cbn in H; try (injection H as <-; reflexivity). destruct k; discriminate. }
  split; [exact I1|]. split; [exact I2|]. split; [|split; [|split; cbn; lia]].
  - intros [|[|i]] Hi; cbn in Hi; [eexists; reflexivity|eexists; reflexivity|lia].
  - intros [|[|[|i]]] Hi; cbn in Hi; [eexists; reflexivity|eexists; reflexivity|eexists; reflexivity|lia].
Qed.
