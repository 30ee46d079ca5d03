(** Simulation of three runs of regrid1d, for C88 *)
From Verif Require Import InterpUnits InterpUnitsProps InterpUnitsCell RegridProps GridProofs.
From Verif Require Export Labelled Coords RegridUnitsSpec.
Open Scope nat_scope.
Open Scope list_scope.

(** ** Labelled arrays *)
Definition D3 {A B C} (R : A -> B -> C -> Prop) (x : da A) (y : da B) (z : da C) : Prop :=
  dims y = dims x /\ dims z = dims x /\ shape y = shape x /\ shape z = shape x /\
  forall i, R (value x i) (value y i) (value z i).
Lemma D3_dims {A B C} (R : A -> B -> C -> Prop) x y z : D3 R x y z -> dims y = dims x /\ dims z = dims x.
Proof. unfold D3. tauto. Qed.
Lemma D3_size {A B C} (R : A -> B -> C -> Prop) x y z d : D3 R x y z -> size y d = size x d /\ size z d = size x d.
Proof. intros (E1 & E2 & E3 & E4 & _). unfold size. now rewrite E1, E2, E3, E4. Qed.
Lemma permute3 {A B C} (R : A -> B -> C -> Prop) x y z nd : D3 R x y z -> D3 R (permute x nd) (permute y nd) (permute z nd).
Proof.
  intro H. assert (S := fun d => D3_size R x y z d H). destruct H as (E1 & E2 & E3 & E4 & H). repeat split; cbn.
  1,2: apply map_ext; apply S. intro i. rewrite E1, E2. apply H.
Qed.
Lemma xr_transpose3 {A B C} (R : A -> B -> C -> Prop) x y z req : D3 R x y z ->
  rel3 (D3 R) (xr_transpose x req) (xr_transpose y req) (xr_transpose z req).
Proof.
  intro H. unfold xr_transpose. destruct (D3_dims R x y z H) as [-> ->].
  destruct (match req with [] => Ok (rev (dims x)) | _ => infix_dims req (dims x) end) as [nd|e]; cbn [bind]; [|constructor].
  destruct (is_perm nd (dims x)); constructor. now apply permute3.
Qed.
Lemma expand3 {A B C} (R : A -> B -> C -> Prop) x y z new : D3 R x y z ->
  rel3 (D3 R) (xr_expand_dims x new) (xr_expand_dims y new) (xr_expand_dims z new).
Proof.
  intro H. unfold xr_expand_dims. destruct (D3_dims R x y z H) as [-> ->]. destruct (existsb _ _); constructor.
  destruct H as (E1 & E2 & E3 & E4 & H). repeat split; cbn; try congruence. intro i. apply H.
Qed.
Lemma transpose3 {A B C} (R : A -> B -> C -> Prop) x y z req sizes mode : D3 R x y z ->
  rel3 (D3 R) (transpose x req sizes mode) (transpose y req sizes mode) (transpose z req sizes mode).
Proof.
  intro H. unfold transpose. destruct (enum_getitem transpose_modes mode) as [m|e]; cbn [bind]; [|constructor].
  destruct (String.eqb (fst m) "classic"); [now apply xr_transpose3|].
  assert (F : forall l s, fold_left (fun s d => spec_step y (fst m) sizes d s) l s = fold_left (fun s d => spec_step x (fst m) sizes d s) l s /\
                          fold_left (fun s d => spec_step z (fst m) sizes d s) l s = fold_left (fun s d => spec_step x (fst m) sizes d s) l s).
  { destruct (D3_dims R x y z H) as [E1 E2]. induction l as [|d l IH]; intro s; cbn [fold_left]; [auto|].
    replace (spec_step y (fst m) sizes d s) with (spec_step x (fst m) sizes d s) by (unfold spec_step; now rewrite E1).
    replace (spec_step z (fst m) sizes d s) with (spec_step x (fst m) sizes d s) by (unfold spec_step; now rewrite E2). apply IH. }
  destruct (F req ([], [])) as [-> ->]. destruct (fold_left (fun s d => spec_step x (fst m) sizes d s) req ([], [])) as [odims expand].
  eapply rel3_bind with (R := D3 R).
  - destruct expand; [now constructor|now apply expand3].
  - intros x' y' z' H'. destruct (D3_dims R _ _ _ H') as [-> ->]. now apply xr_transpose3.
Qed.
Lemma broadcast3 {A B C A' B' C'} (R : A -> B -> C -> Prop) (R' : A' -> B' -> C' -> Prop) x y z x' y' z' ex : D3 R x y z -> D3 R' x' y' z' ->
  D3 R (broadcast_like x x' ex) (broadcast_like y y' ex) (broadcast_like z z' ex).
Proof.
  intros H H'. unfold broadcast_like, set_dims. assert (S1 := fun d => D3_size R x y z d H). assert (S2 := fun d => D3_size R' x' y' z' d H').
  destruct (D3_dims R _ _ _ H) as [E1 E2], (D3_dims R' _ _ _ H') as [E3 E4].
  rewrite E1, E2, E3, E4.
  assert (M : forall (f g : string -> nat) l, (forall d, f d = g d) -> map (fun d => (d, f d)) l = map (fun d => (d, g d)) l).
  { intros f g l E. apply map_ext. intro d. now rewrite E. }
  rewrite !(M (size y') (size x')), !(M (size z') (size x')), !(M (size y) (size x)), !(M (size z) (size x)) by (apply S1 || apply S2).
  repeat split; cbn. intro i. apply H.
Qed.
Lemma seq_map3 {A B C} (R : A -> B -> C -> Prop) f g h l : (forall k : nat, R (f k) (g k) (h k)) -> Forall3 R (map f l) (map g l) (map h l).
Proof. intro H. induction l; cbn; constructor; auto. Qed.
Lemma reshape23 {A B C} (R : A -> B -> C -> Prop) x y z : D3 R x y z ->
  rel3 (Forall3 (Forall3 R)) (reshape2 x) (reshape2 y) (reshape2 z).
Proof.
  intros (_ & _ & E3 & E4 & H). unfold reshape2. rewrite E3, E4. destruct (shape x) as [|n s]; [constructor|].
  destruct (List.last (n :: s) 0 =? 0); constructor. apply seq_map3. intro. apply seq_map3. intro. apply H.
Qed.
Lemma concat3 {A B C} (R : A -> B -> C -> Prop) x y z : Forall3 (Forall3 R) x y z -> Forall3 R (List.concat x) (List.concat y) (List.concat z).
Proof.
  induction 1 as [|r s t x y z Hr H IH]; cbn; [constructor|]. clear H. induction Hr; cbn; [exact IH|]. constructor; auto.
Qed.
Lemma nth3 {A B C} (R : A -> B -> C -> Prop) x y z a b c k : Forall3 R x y z -> R a b c -> R (nth k x a) (nth k y b) (nth k z c).
Proof. intros H Ha. revert k. induction H; intros [|k]; cbn; auto. Qed.
Lemma from_rows3 {A B C} (R : A -> B -> C -> Prop) a b c x y z ds s : Forall3 (Forall3 R) x y z -> R a b c ->
  rel3 (D3 R) (from_rows a x ds s) (from_rows b y ds s) (from_rows c z ds s).
Proof.
  intros H Ha. unfold from_rows. apply concat3 in H. destruct (F3_len _ _ _ _ H) as [E1 E2]. rewrite <- E2, <- E1.
  destruct (_ && _)%bool; constructor. repeat split; cbn. intro. now apply nth3.
Qed.

(** ** DimFlusher1D *)
Definition Fl3 {A B C A' B' C'} (R : A -> B -> C -> Prop) (S : A' -> B' -> C' -> Prop) (f : flushed A A') (g : flushed B B') (h : flushed C C') : Prop :=
  D3 R (fa f) (fa g) (fa h) /\ D3 S (fci f) (fci g) (fci h) /\ D3 S (fco f) (fco g) (fco h) /\
  work_dims g = work_dims f /\ work_dims h = work_dims f /\ work_shape g = work_shape f /\ work_shape h = work_shape f /\
  final_dims g = final_dims f /\ final_dims h = final_dims f.
Lemma if3 {A B C} (R : A -> B -> C -> Prop) (t : bool) x y z x' y' z' : R x y z -> R x' y' z' ->
  R (if t then x else x') (if t then y else y') (if t then z else z').
Proof. now destruct t. Qed.
Lemma flush3 {A B C A' B' C'} (R : A -> B -> C -> Prop) (S : A' -> B' -> C' -> Prop) a b c ci ci' ci'' co co' co'' dim0 dim1 :
  D3 R a b c -> D3 S ci ci' ci'' -> D3 S co co' co'' ->
  rel3 (Fl3 R S) (flush a ci co dim0 dim1) (flush b ci' co' dim0 dim1) (flush c ci'' co'' dim0 dim1).
Proof.
  intros Ha Hi Ho. unfold flush, others. destruct (D3_dims R _ _ _ Ha) as [-> ->], (D3_dims S _ _ _ Ho) as [-> ->].
  destruct (negb (mem dim0 (dims a) && mem dim1 (dims co))); [constructor|].
  destruct (negb _ && negb _)%bool; [constructor|].
  assert (Sz : forall l, forallb (fun d => size b d =? size co' d) l = forallb (fun d => size a d =? size co d) l /\
                         forallb (fun d => size c d =? size co'' d) l = forallb (fun d => size a d =? size co d) l).
  { induction l as [|d l [IH1 IH2]]; cbn; auto. rewrite IH1, IH2. destruct (D3_size R _ _ _ d Ha) as [-> ->], (D3_size S _ _ _ d Ho) as [-> ->]. auto. }
  match goal with |- context [forallb (fun d => size a d =? size co d) ?l] => destruct (Sz l) as [-> ->]; destruct (negb (forallb (fun d => size a d =? size co d) l)); [constructor|] end.
  eapply rel3_bind; [apply transpose3; exact Ho|]. intros k1 k2 k3 Hk.
  eapply rel3_bind; [apply xr_transpose3; exact Ha|]. intros a1 b1 c1 Ha1.
  eapply rel3_bind; [apply xr_transpose3; exact Ho|]. intros o1 o1' o1'' Ho1.
  destruct (D3_dims R _ _ _ Ha1) as [-> ->], (D3_dims S _ _ _ Hi) as [-> ->], (D3_dims S _ _ _ Ho1) as [-> ->].
  set (ci1 := permute ci _). set (ci1' := permute ci' _). set (ci1'' := permute ci'' _).
  assert (Hi1 : D3 S ci1 ci1' ci1'') by now apply permute3.
  set (ci2 := if 1 <? _ then broadcast_like ci1 _ _ else ci1). set (ci2' := if 1 <? _ then broadcast_like ci1' _ _ else ci1'). set (ci2'' := if 1 <? _ then broadcast_like ci1'' _ _ else ci1'').
  assert (Hi2 : D3 S ci2 ci2' ci2'') by (apply (if3 (D3 _)); [eapply broadcast3; eassumption|exact Hi1]).
  destruct (D3_dims S _ _ _ Hi2) as [-> ->].
  set (co2 := if (_ && _)%bool then broadcast_like o1 _ _ else o1). set (co2' := if (_ && _)%bool then broadcast_like o1' _ _ else o1'). set (co2'' := if (_ && _)%bool then broadcast_like o1'' _ _ else o1'').
  assert (Ho2 : D3 S co2 co2' co2'') by (apply (if3 (D3 _)); [eapply broadcast3; eassumption|exact Ho1]).
  set (a2 := if subset_strict _ _ then broadcast_like a1 _ _ else a1). set (b2 := if subset_strict _ _ then broadcast_like b1 _ _ else b1). set (c2 := if subset_strict _ _ then broadcast_like c1 _ _ else c1).
  assert (Ha2 : D3 R a2 b2 c2) by (apply (if3 (D3 _)); [eapply broadcast3; eassumption|exact Ha1]).
  constructor. unfold Fl3; cbn. split; [exact Ha2|]. split; [exact Hi2|]. split; [exact Ho2|].
  destruct (D3_size S _ _ _ dim1 Ho2) as [-> ->]. destruct Ha2 as (-> & -> & -> & -> & _). repeat split.
Qed.
Lemma flush_data3 {A B C A' B' C'} (R : A -> B -> C -> Prop) (S : A' -> B' -> C' -> Prop) f g h : Fl3 R S f g h ->
  rel3 (fun x y z => Forall3 (Forall3 R) (fst (fst x)) (fst (fst y)) (fst (fst z)) /\ Forall3 (Forall3 S) (snd (fst x)) (snd (fst y)) (snd (fst z)) /\
                     Forall3 (Forall3 S) (snd x) (snd y) (snd z)) (flush_data f) (flush_data g) (flush_data h).
Proof.
  intros (H1 & H2 & H3 & _). unfold flush_data. eapply rel3_bind; [apply reshape23; exact H1|]. intros x x' x'' Hx.
  eapply rel3_bind; [apply reshape23; exact H2|]. intros y y' y'' Hy. eapply rel3_bind; [apply reshape23; exact H3|]. intros z z' z'' Hz.
  constructor. cbn. auto.
Qed.
Lemma get_back3 {A B C A' B' C' A2 B2 C2} (R : A -> B -> C -> Prop) (S : A' -> B' -> C' -> Prop) (T : A2 -> B2 -> C2 -> Prop) f g h j j' j'' x y z :
  Fl3 R S f g h -> T j j' j'' -> Forall3 (Forall3 T) x y z -> rel3 (D3 T) (get_back j f x) (get_back j' g y) (get_back j'' h z).
Proof.
  intros (_ & _ & _ & E1 & E2 & E3 & E4 & E5 & E6) Hj Hx. unfold get_back. rewrite E1, E2, E3, E4, E5, E6.
  eapply rel3_bind; [apply from_rows3; eassumption|]. intros. now apply xr_transpose3.
Qed.

(** ** Edges *)
Section edges.
  Variables (c d : Q).
  Notation RY := (Ry c d).
  Lemma Ry_outer x y z x' y' z' : RY x y z -> RY x' y' z' -> RY (outer_edge x x') (outer_edge y y') (outer_edge z z').
  Proof.
    intros [<- H] [<- H']. split; auto. unfold outer_edge, half. destruct x, z, x', z'; cbn in *; try tauto. rewrite H, H'. ring.
  Qed.
  Lemma Ry_inner x y z x' y' z' : RY x y z -> RY x' y' z' -> RY (inner_edge x x') (inner_edge y y') (inner_edge z z').
  Proof.
    intros [<- H] [<- H']. split; auto. unfold inner_edge, half. destruct x, z, x', z'; cbn in *; try tauto. rewrite H, H'. field.
  Qed.
  Lemma F3_nth {A B C} (R : A -> B -> C -> Prop) l m n k x : Forall3 R l m n -> nth_error l k = Some x ->
    exists y z, nth_error m k = Some y /\ nth_error n k = Some z /\ R x y z.
  Proof.
    intro H. revert k. induction H as [|a b e l m n Ha H IH]; intros [|k] E; cbn in *; try discriminate; [|now apply IH].
    injection E as <-. eauto.
  Qed.
  Lemma F3_intro {A B C} (R : A -> B -> C -> Prop) l : forall m n, List.length m = List.length l -> List.length n = List.length l ->
    (forall k, k < List.length l -> exists x y z, nth_error l k = Some x /\ nth_error m k = Some y /\ nth_error n k = Some z /\ R x y z) -> Forall3 R l m n.
  Proof.
    induction l as [|a l IH]; intros [|b m] [|e n] E1 E2 H; try discriminate; constructor.
    - destruct (H 0) as (x & y & z & A1 & A2 & A3 & HR); [cbn; lia|]. cbn in *. congruence.
    - apply IH; [cbn in *; lia..|]. intros k Hk. apply (H (S k)). cbn. lia.
  Qed.
  Lemma edges3 j l m n : Forall3 RY l m n -> rel3 (Forall3 RY) (get_edges_1d store_float j l) (get_edges_1d store_float j m) (get_edges_1d store_float j n).
  Proof.
    intro H. destruct (F3_len _ _ _ _ H) as [L1 L2]. destruct (le_lt_dec 2 (List.length l)) as [Hl|Hl].
    - destruct (get_edges_1d_ok store_float j l Hl) as (e & -> & El & He).
      destruct (get_edges_1d_ok store_float j m ltac:(lia)) as (e' & -> & El' & He').
      destruct (get_edges_1d_ok store_float j n ltac:(lia)) as (e'' & -> & El'' & He'').
      constructor. apply F3_intro; [lia..|]. intros k Hk. rewrite He, He', He'' by lia.
      assert (X : forall i, i < List.length l -> exists x y z, nth_error l i = Some x /\ nth_error m i = Some y /\ nth_error n i = Some z /\ RY x y z).
      { intros i Hi. destruct (nth_some_lt l i Hi) as [x Ex]. destruct (F3_nth _ _ _ _ _ _ H Ex) as (y & z & Ey & Ez & HR). exists x, y, z. auto. }
      unfold edges_val, store_float. rewrite <- L2, <- L1. destruct (k =? 0) eqn:K0; [|destruct (k =? List.length l) eqn:K1].
      + destruct (X 0) as (x & y & z & -> & -> & -> & HR); [lia|]. destruct (X 1) as (x' & y' & z' & -> & -> & -> & HR'); [lia|].
        eexists _, _, _. repeat (split; [reflexivity|]). now apply Ry_outer.
      + destruct (X (List.length l - 1)) as (x & y & z & -> & -> & -> & HR); [lia|]. destruct (X (List.length l - 2)) as (x' & y' & z' & -> & -> & -> & HR'); [lia|].
        eexists _, _, _. repeat (split; [reflexivity|]). now apply Ry_outer.
      + apply Nat.eqb_neq in K0, K1. destruct (X (k - 1)) as (x & y & z & -> & -> & -> & HR); [lia|]. destruct (X k) as (x' & y' & z' & -> & -> & -> & HR'); [lia|].
        eexists _, _, _. repeat (split; [reflexivity|]). now apply Ry_inner.
    - rewrite !get_edges_1d_short by lia. constructor.
  Qed.
  Lemma edges_rows3 j x y z : Forall3 (Forall3 RY) x y z -> rel3 (Forall3 (Forall3 RY)) (get_edges_rows store_float j x) (get_edges_rows store_float j y) (get_edges_rows store_float j z).
  Proof.
    intro H. unfold get_edges_rows. generalize 0. induction H as [|l m n x y z Hl H IH]; intro k; cbn; [constructor; constructor|].
    eapply rel3_bind; [apply edges3; exact Hl|]. intros e e' e'' He. eapply rel3_bind; [apply IH|]. intros; constructor; constructor; auto.
  Qed.
End edges.

(** ** Dispatch *)
Lemma designates_dec m : (exists k, designates m k) \/ forall k, ~ designates m k.
Proof.
  assert (X : forall k, designates m k \/ ~ designates m k).
  { intro k. destruct m as [|s|z]; cbn.
    - destruct k; auto; right; discriminate.
    - destruct (in_dec string_dec s (RegridProps.names k)); auto.
    - destruct (Z.eq_dec z (code k)); auto. }
  destruct (X Linear) as [H1|H1]; [eauto|]. destruct (X Nearest) as [H2|H2]; [eauto|]. destruct (X Cubic) as [H3|H3]; [eauto|].
  destruct (X Hermit) as [H4|H4]; [eauto|]. destruct (X Cellave) as [H5|H5]; [eauto|]. right. intros []; auto.
Qed.
Lemma data_run junk v yi yo method k conserv extrap bias tension : designates method k ->
  regrid1d_data junk v yi yo method conserv extrap bias tension =
  let* varo := run junk k v yi yo in
  let* e := enum_getitem extrap_modes extrap in Ok varo.
Proof.
  intro Hm. unfold regrid1d_data.
  assert (Hg : exists m, enum_getitem regrid1d_methods method = Ok m /\ m = (hd ""%string (RegridProps.names k), code k)).
  { destruct method as [|s|z]; simpl in Hm.
    - subst k. eexists; split; reflexivity.
    - destruct k; simpl in Hm; repeat (destruct Hm as [<-|Hm]; [eexists; split; reflexivity|]); destruct Hm.
    - subst z. destruct k; eexists; split; reflexivity. }
  destruct Hg as (m & -> & ->). cbn [bind].
  assert (T : forall r : res arr, (let* varo := r in let* e := enum_getitem extrap_modes extrap in
     if (snd e =? 0)%Z then Ok varo else extrap1d_by (member_eq_str e) varo) = let* varo := r in let* e := enum_getitem extrap_modes extrap in Ok varo).
  { intros [varo|x]; [|reflexivity]. cbn [bind]. destruct (enum_getitem extrap_modes extrap) as [e|x]; [|reflexivity]. cbn [bind].
    destruct (snd e =? 0)%Z; [reflexivity|]. now apply extrap_by_false. }
  destruct k; cbn [code RegridProps.names hd fst snd Z.ltb Z.compare member_eq_str bind]; try apply T.
  unfold run. destruct (get_edges_rows store_float junk yi) as [yib|x]; [|reflexivity]. cbn [bind].
  destruct (get_edges_rows store_float junk yo) as [yob|x]; [|reflexivity]. cbn [bind fst snd]. apply T.
Qed.

(** Data relation used by the kernels: the combination, and the same NaNs for the cell averages *)
Definition Rv (a b g : Q) (cell : Prop) (x y z : fl) : Prop := Rc a b g x y z /\ (cell -> Rm a b x y z).
Lemma F3_map {A B C} (R T : A -> B -> C -> Prop) l m n : (forall x y z, R x y z -> T x y z) -> Forall3 R l m n -> Forall3 T l m n.
Proof. intro I. induction 1; constructor; auto. Qed.
Lemma F33_map {A B C} (R T : A -> B -> C -> Prop) l m n : (forall x y z, R x y z -> T x y z) -> Forall3 (Forall3 R) l m n -> Forall3 (Forall3 T) l m n.
Proof. intro I. apply F3_map. intros ? ? ?. now apply F3_map. Qed.
Lemma Rc_zero a b g x y z : (g == 0)%Q -> Rc a b 0 x y z -> Rc a b g x y z.
Proof. unfold Rc. intros G H. destruct x, y, z; cbn in *; try tauto. rewrite H, G. reflexivity. Qed.
Lemma seq_order3 (R S : fl -> fl -> fl -> Prop) v v' v'' y y' y'' : Forall3 (Forall3 R) v v' v'' -> Forall3 (Forall3 S) y y' y'' ->
  seq_order v' y' = seq_order v y /\ seq_order v'' y'' = seq_order v y.
Proof.
  intros H H'. destruct (F3_len _ _ _ _ H) as [E1 E2], (F3_len _ _ _ _ H') as [E3 E4]. unfold seq_order, nrows. now rewrite <- E2, <- E1, <- E4, <- E3.
Qed.
Lemma run3 a b g c d junk k v v' v'' yi yi' yi'' yo yo' yo'' : (0 < c)%Q -> (k = Cellave -> (g == 0)%Q) ->
  Forall3 (Forall3 (Rv a b g (k = Cellave))) v v' v'' -> Forall3 (Forall3 (Ry c d)) yi yi' yi'' -> Forall3 (Forall3 (Ry c d)) yo yo' yo'' ->
  rel3 (Forall3 (Forall3 (Rc a b g))) (run junk k v yi yo) (run junk k v' yi' yo') (run junk k v'' yi'' yo'').
Proof.
  intros C G Hv Hi Ho. assert (Hc : Forall3 (Forall3 (Rc a b g)) v v' v'') by (eapply F33_map; [|exact Hv]; intros ? ? ? [H _]; exact H).
  destruct (seq_order3 _ _ _ _ _ _ _ _ Hv Ho) as [O1 O2].
  destruct k; cbn [run]; unfold linear1d, nearest1d, cubic1d, hermit1d; rewrite ?O1, ?O2.
  - now apply (linear3 c d C a b g).
  - apply (nearest3 c d C (Rc a b g)); auto. exact Logic.I.
  - exact (poly3 c d C a b g cubic_formula _ _ _ _ _ _ _ _ _ _ (cubic_poly a b g) Hc Hi Ho).
  - exact (poly3 c d C a b g (hermit_formula f0 f0) _ _ _ _ _ _ _ _ _ _ (hermit_poly a b g f0 f0) Hc Hi Ho).
  - eapply rel3_bind; [apply edges_rows3; exact Hi|]. intros e e' e'' He. eapply rel3_bind; [apply edges_rows3; exact Ho|]. intros o o' o'' Hoo.
    assert (X : rel3 (Forall3 (Forall3 (Rc a b 0))) (cellave1d v e o false "no") (cellave1d v' e' o' false "no") (cellave1d v'' e'' o'' false "no")).
    { apply (mean3 c d a b C); auto. eapply F33_map; [|exact Hv]. intros ? ? ? [_ H]. now apply H. }
    destruct X; constructor. eapply F33_map; [|eassumption]. intros ? ? ?. apply Rc_zero. now apply G.
Qed.
Lemma data3 a b g c d junk v v' v'' yi yi' yi'' yo yo' yo'' method conserv extrap bias tension : (0 < c)%Q -> (designates method Cellave -> (g == 0)%Q) ->
  Forall3 (Forall3 (Rv a b g (designates method Cellave))) v v' v'' -> Forall3 (Forall3 (Ry c d)) yi yi' yi'' -> Forall3 (Forall3 (Ry c d)) yo yo' yo'' ->
  rel3 (Forall3 (Forall3 (Rc a b g))) (regrid1d_data junk v yi yo method conserv extrap bias tension)
    (regrid1d_data junk v' yi' yo' method conserv extrap bias tension) (regrid1d_data junk v'' yi'' yo'' method conserv extrap bias tension).
Proof.
  intros C G Hv Hi Ho. destruct (designates_dec method) as [[k Hk]|N].
  - rewrite !(data_run _ _ _ _ _ k) by exact Hk. eapply rel3_bind.
    + apply (run3 a b g c d junk k v v' v'' yi yi' yi'' yo yo' yo'' C); auto; [intros ->; auto|].
      eapply F33_map; [|exact Hv]. intros x y z [H1 H2]. split; auto. intros ->. auto.
    + intros x y z H. destruct (enum_getitem extrap_modes extrap); cbn [bind]; constructor; auto.
  - rewrite !(C10_regrid1d_unknown_method _ _ _ _ _ _ _ _ _ N). constructor.
Qed.
Lemma regrid3 a b g c d junk x y z ci ci' ci'' co co' co'' dim0 dim1 method conserv extrap bias tension : (0 < c)%Q -> (designates method Cellave -> (g == 0)%Q) ->
  D3 (Rv a b g (designates method Cellave)) x y z -> D3 (Ry c d) ci ci' ci'' -> D3 (Ry c d) co co' co'' ->
  rel3 (D3 (Rc a b g)) (regrid1d junk x ci co dim0 dim1 method conserv extrap bias tension) (regrid1d junk y ci' co' dim0 dim1 method conserv extrap bias tension)
    (regrid1d junk z ci'' co'' dim0 dim1 method conserv extrap bias tension).
Proof.
  intros C G Hx Hi Ho. unfold regrid1d. eapply rel3_bind; [apply flush3; eassumption|]. intros f f' f'' Hf.
  eapply rel3_bind; [apply flush_data3; exact Hf|]. intros [[v yi] yo] [[v' yi'] yo'] [[v'' yi''] yo''] (H1 & H2 & H3). cbn [fst snd] in *.
  eapply rel3_bind; [apply (data3 a b g c d); eassumption|]. intros r r' r'' Hr. eapply get_back3; [exact Hf| |exact Hr]. exact Logic.I.
Qed.
