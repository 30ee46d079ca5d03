From Verif Require Export Grid GridSpec MiscProofs PyBaseFacts.
Open Scope nat_scope.

Lemma map_res_pyget {A} (l : list A) ps : (forall p, In p ps -> p < List.length l) ->
  exists xs, map_res (fun p => pyget l (Z.of_nat p)) ps = Ok xs /\
    List.length xs = List.length ps /\
    forall j p, nth_error ps j = Some p -> nth_error xs j = nth_error l p.
Proof.
  induction ps as [|p ps IH]; intro H; simpl.
  - exists []. repeat split; auto. intros [|j] p; discriminate.
  - destruct (nth_error l p) as [x|] eqn:Ex.
    2:{ apply nth_error_None in Ex. specialize (H p (or_introl eq_refl)). lia. }
    rewrite (pyget_nat _ _ _ Ex). cbn [bind].
    destruct IH as (xs & E & Hl & Hn); [intros q Hq; apply H; simpl; auto|].
    rewrite E. cbn [bind]. exists (x :: xs). repeat split; simpl; auto.
    intros [|j] q Hq; simpl in *.
    + injection Hq as <-. auto.
    + now apply Hn.
Qed.

Lemma nth_seq a n j p : nth_error (seq a n) j = Some p <-> j < n /\ p = a + j.
Proof.
  split.
  - intro H. assert (Hj : j < n).
    { rewrite <- (seq_length n a). apply nth_error_Some. congruence. }
    split; auto. rewrite (nth_error_nth' _ 0) in H by (now rewrite seq_length).
    rewrite seq_nth in H by auto. congruence.
  - intros [Hj ->]. rewrite (nth_error_nth' _ 0) by (now rewrite seq_length).
    now rewrite seq_nth.
Qed.

Lemma read_seq {A} (l : list A) s a n : positions (List.length l) s = Ok (seq a n) ->
  a + n <= List.length l ->
  exists xs, read_sel l s = Ok xs /\ List.length xs = n /\
    forall j, j < n -> nth_error xs j = nth_error l (a + j).
Proof.
  intros Hp Hb. unfold read_sel. rewrite Hp. cbn [bind].
  destruct (map_res_pyget l (seq a n)) as (xs & E & Hl & Hn).
  { intros p Hq. apply in_seq in Hq. lia. }
  exists xs. rewrite seq_length in Hl. repeat split; auto.
  intros j Hj. apply Hn. now apply nth_seq.
Qed.

Lemma upds_length {A} ps : forall (l xs : list A), List.length (upds l ps xs) = List.length l.
Proof.
  induction ps as [|p ps IH]; intros l [|x xs]; simpl; auto. now rewrite IH, upd_length.
Qed.
Lemma upds_seq {A} n : forall a (l xs : list A) k, List.length xs = n -> a + n <= List.length l ->
  nth_error (upds l (seq a n) xs) k =
  if (a <=? k) && (k <? a + n) then nth_error xs (k - a) else nth_error l k.
Proof.
  induction n as [|n IH]; intros a l xs k Hl Hb.
  - simpl. destruct (Nat.leb_spec a k), (Nat.ltb_spec k (a + 0)); simpl; auto; lia.
  - destruct xs as [|x xs]; [discriminate|]. simpl in Hl. cbn [seq upds].
    rewrite IH by (rewrite ?upd_length; lia).
    rewrite nth_error_upd.
    destruct (Nat.leb_spec (S a) k), (Nat.ltb_spec k (S a + n)), (Nat.leb_spec a k),
      (Nat.ltb_spec k (a + S n)); simpl; try lia.
    all: try (replace (k - a) with (S (k - S a)) by lia; reflexivity).
    all: destruct (Nat.eqb_spec k a) as [->|]; try lia; auto.
    all: rewrite Nat.sub_diag; destruct (Nat.ltb_spec a (List.length l)); [reflexivity|lia].
Qed.
Lemma write_seq {A} (l xs : list A) s a n : positions (List.length l) s = Ok (seq a n) ->
  a + n <= List.length l -> List.length xs = n ->
  exists l', write_sel l s xs = Ok l' /\ List.length l' = List.length l /\
    forall k, nth_error l' k =
      if (a <=? k) && (k <? a + n) then nth_error xs (k - a) else nth_error l k.
Proof.
  intros Hp Hb Hx. unfold write_sel. rewrite Hp. cbn [bind].
  rewrite seq_length, Hx, Nat.eqb_refl. eexists. split; [reflexivity|].
  rewrite upds_length. split; auto. intro k. now apply upds_seq.
Qed.

Lemma zip_with_nth {A B C} (f : A -> B -> C) a b j x y :
  nth_error a j = Some x -> nth_error b j = Some y -> nth_error (zip_with f a b) j = Some (f x y).
Proof.
  revert b j; induction a as [|a0 a IH]; intros [|b0 b] [|j]; simpl; try discriminate; auto.
  congruence.
Qed.
Lemma zip_with_length {A B C} (f : A -> B -> C) a b : List.length a = List.length b ->
  List.length (zip_with f a b) = List.length a.
Proof. revert b; induction a as [|a0 a IH]; intros [|b0 b]; simpl; auto; lia. Qed.

(** Positions of the regions used *)
Lemma P_first n : 1 <= n -> positions n (Idx 0) = Ok (seq 0 1).
Proof. intro H. apply (pos_idx n 0). lia. Qed.
Lemma P_firstp1 n : 2 <= n -> positions n (Idx 1) = Ok (seq 1 1).
Proof. intro H. apply (pos_idx n 1). lia. Qed.
Lemma P_last n : 1 <= n -> positions n (Idx (-1)) = Ok (seq (n - 1) 1).
Proof. intro H. apply (pos_neg n 1). lia. Qed.
Lemma P_lastm1 n : 2 <= n -> positions n (Idx (-2)) = Ok (seq (n - 2) 1).
Proof. intro H. apply (pos_neg n 2). lia. Qed.
Lemma P_firsts n : positions n (Slice (Some 0%Z) (Some (-1)%Z)) = Ok (seq 0 (n - 1)).
Proof. etransitivity; [exact (pos_range n 0 1 ltac:(lia))|]. do 2 f_equal; lia. Qed.
Lemma P_lasts n : 1 <= n -> positions n (Slice (Some 1%Z) None) = Ok (seq 1 (n - 1)).
Proof. intro H. etransitivity; [exact (pos_from n 1)|]. do 2 f_equal; lia. Qed.
Lemma P_mid n : 1 <= n -> positions n (Slice (Some 1%Z) (Some (-1)%Z)) = Ok (seq 1 (n - 2)).
Proof. intro H. etransitivity; [exact (pos_range n 1 1 ltac:(lia))|]. do 2 f_equal; lia. Qed.

Definition edges_val (store : fl -> fl) (d : list fl) (k : nat) : option fl :=
  let n := List.length d in
  if k =? 0 then
    match nth_error d 0, nth_error d 1 with
    | Some a, Some b => Some (store (outer_edge a b)) | _, _ => None end
  else if k =? n then
    match nth_error d (n - 1), nth_error d (n - 2) with
    | Some a, Some b => Some (store (outer_edge a b)) | _, _ => None end
  else match nth_error d (k - 1), nth_error d k with
    | Some a, Some b => Some (store (inner_edge a b)) | _, _ => None end.

Lemma nth_some_lt {A} (l : list A) i : i < List.length l -> exists x, nth_error l i = Some x.
Proof.
  intro H. destruct (nth_error l i) eqn:E; eauto. apply nth_error_None in E. lia.
Qed.

Lemma list1 {A} (l : list A) x : List.length l = 1 -> nth_error l 0 = Some x -> l = [x].
Proof. destruct l as [|y [|z l]]; simpl; intros; try discriminate; congruence. Qed.

Lemma get_edges_1d_ok store junk d : 2 <= List.length d ->
  exists e, get_edges_1d store junk d = Ok e /\ List.length e = S (List.length d) /\
    forall k, k <= List.length d -> nth_error e k = edges_val store d k.
Proof.
  intro Hn. unfold get_edges_1d.
  replace (get_axis_slices 1 (-1) []) with
    (Ok ([("all"%string, ListSel [full_slice]);
            ("mid"%string, TupleSel [Slice (Some 1%Z) (Some (-1)%Z)]);
            ("lasts"%string, TupleSel [Slice (Some 1%Z) None]);
            ("firsts"%string, TupleSel [Slice (Some 0%Z) (Some (-1)%Z)]);
            ("lastsp1"%string, TupleSel [Slice (Some 2%Z) None]);
            ("firstsm1"%string, TupleSel [Slice (Some 0%Z) (Some (-2)%Z)]);
            ("last"%string, TupleSel [Idx (-1)%Z]); ("first"%string, TupleSel [Idx 0%Z]);
            ("lastm1"%string, TupleSel [Idx (-2)%Z]);
            ("firstp1"%string, TupleSel [Idx 1%Z]); ("lastm2"%string, TupleSel [Idx (-3)%Z]);
            ("firstp2"%string, TupleSel [Idx 2%Z])])) by reflexivity.
  cbn [bind]. unfold region. cbn [dget String.eqb Ascii.eqb Bool.eqb bind].
  set (e0 := map junk (seq 0 (S (List.length d)))).
  assert (L0 : List.length e0 = S (List.length d)) by (unfold e0; now rewrite map_length, seq_length).
  clearbody e0.
  destruct (nth_some_lt d 0) as [d0 H0]; [lia|].
  destruct (nth_some_lt d 1) as [d1 H1]; [lia|].
  destruct (nth_some_lt d (List.length d - 1)) as [dl Hl]; [lia|].
  destruct (nth_some_lt d (List.length d - 2)) as [dm Hm]; [lia|].
  destruct (read_seq d (Idx 0) 0 1) as (r0 & -> & R0 & N0); [apply P_first; lia|lia|].
  specialize (N0 0 ltac:(lia)). rewrite Nat.add_0_l, H0 in N0. rewrite (list1 _ _ R0 N0). clear R0 N0 r0.
  destruct (read_seq d (Idx 1) 1 1) as (r1 & -> & R1 & N1); [apply P_firstp1; lia|lia|].
  specialize (N1 0 ltac:(lia)). rewrite Nat.add_0_r, H1 in N1. rewrite (list1 _ _ R1 N1). clear R1 N1 r1.
  cbn [bind vec2 List.length Nat.eqb zip_with map].
  destruct (write_seq e0 [store (outer_edge d0 d1)] (Idx 0) 0 1) as (e1 & -> & L1 & W1);
    [apply P_first; lia|lia|reflexivity|].
  cbn [bind].
  destruct (read_seq d (Slice (Some 0%Z) (Some (-1)%Z)) 0 (List.length d - 1)) as (c & -> & Lc & Nc);
    [apply P_firsts|lia|].
  destruct (read_seq d (Slice (Some 1%Z) None) 1 (List.length d - 1)) as (f & -> & Lf & Nf);
    [apply P_lasts; lia|lia|].
  cbn [bind]. unfold vec2 at 1. rewrite Lc, Lf, Nat.eqb_refl. cbn [bind].
  destruct (write_seq e1 (map store (zip_with inner_edge c f)) (Slice (Some 1%Z) (Some (-1)%Z))
              1 (List.length d - 1)) as (e2 & -> & L2 & W2).
  { rewrite P_mid by lia. do 2 f_equal. lia. }
  { lia. }
  { rewrite map_length, zip_with_length; lia. }
  cbn [bind].
  destruct (read_seq d (Idx (-1)) (List.length d - 1) 1) as (r0 & -> & R0 & N0);
    [apply P_last; lia|lia|].
  specialize (N0 0 ltac:(lia)). rewrite Nat.add_0_r, Hl in N0. rewrite (list1 _ _ R0 N0). clear R0 N0 r0.
  destruct (read_seq d (Idx (-2)) (List.length d - 2) 1) as (r1 & -> & R1 & N1);
    [apply P_lastm1; lia|lia|].
  specialize (N1 0 ltac:(lia)). rewrite Nat.add_0_r, Hm in N1. rewrite (list1 _ _ R1 N1). clear R1 N1 r1.
  cbn [bind vec2 List.length Nat.eqb zip_with map].
  destruct (write_seq e2 [store (outer_edge dl dm)] (Idx (-1)) (List.length d) 1)
    as (e3 & -> & L3 & W3).
  { rewrite P_last by lia. do 2 f_equal. lia. }
  { lia. }
  { reflexivity. }
  exists e3. split; [reflexivity|]. split; [lia|].
  intros k Hk. rewrite W3, W2, W1. unfold edges_val. rewrite H0, H1, Hl, Hm.
  destruct (Nat.leb_spec (List.length d) k), (Nat.ltb_spec k (List.length d + 1)); cbn [andb]; try lia.
  - replace k with (List.length d) by lia. rewrite Nat.sub_diag.
    destruct (Nat.eqb_spec (List.length d) 0); [lia|]. now rewrite Nat.eqb_refl.
  - destruct (Nat.eqb_spec k 0) as [->|Hk0].
    + simpl. reflexivity.
    + destruct (Nat.eqb_spec k (List.length d)); [lia|].
      destruct (Nat.leb_spec 1 k), (Nat.ltb_spec k (1 + (List.length d - 1))); cbn [andb]; try lia.
      destruct (nth_some_lt d (k - 1)) as [x Hx]; [lia|].
      destruct (nth_some_lt d k) as [y Hy]; [lia|].
      rewrite Hx, Hy. rewrite nth_error_map.
      rewrite (zip_with_nth inner_edge c f (k - 1) x y); [reflexivity| |].
      * rewrite Nc by lia. exact Hx.
      * rewrite Nf by lia. replace (1 + (k - 1)) with k by lia. exact Hy.
Qed.

Lemma get_edges_1d_short store junk d : List.length d < 2 ->
  get_edges_1d store junk d = Raise IndexError.
Proof. destruct d as [|a [|b d]]; simpl; intro H; try lia; reflexivity. Qed.

Lemma edges_spec_ok junk d : 2 <= List.length d ->
  exists e, get_edges_1d store_float junk d = Ok e /\ edges_spec d e.
Proof.
  intro Hn. destruct (get_edges_1d_ok store_float junk d Hn) as (e & E & L & V).
  exists e. split; auto. split; auto.
  assert (Hin : forall i a b, nth_error d i = Some a -> nth_error d (S i) = Some b ->
     nth_error e (S i) = Some (inner_edge a b)).
  { intros i a b Ha Hb. assert (S i < List.length d) by (apply nth_error_Some; congruence).
    rewrite V by lia. unfold edges_val. simpl Nat.eqb at 1. cbv iota.
    destruct (Nat.eqb_spec (S i) (List.length d)); [lia|].
    replace (S i - 1) with i by lia. rewrite Ha, Hb. reflexivity. }
  split; [|split].
  - intros i a b Ha Hb. rewrite (Hin i a b) by auto. eexists. split; [reflexivity|].
    destruct a, b; simpl; auto. unfold half. field.
  - intros a b Ha Hb. unfold val in *.
    assert (E0 : nth_error e 0 = Some (outer_edge (Some a) (Some b))).
    { rewrite V by lia. unfold edges_val. simpl Nat.eqb. cbv iota. now rewrite Ha, Hb. }
    rewrite E0, (Hin 0 _ _ Ha Hb). simpl. do 2 eexists. split; [reflexivity|].
    split; [reflexivity|]. unfold half. field.
  - intros n a b Hd Ha Hb. unfold val in *.
    assert (E0 : nth_error e (S (S n)) = Some (outer_edge (Some b) (Some a))).
    { rewrite V by lia. unfold edges_val. simpl Nat.eqb at 1. cbv iota.
      rewrite Hd, Nat.eqb_refl. rewrite <- Hd.
      replace (S (S n) - 1) with (S n) by lia. replace (S (S n) - 2) with n by lia.
      now rewrite Ha, Hb. }
    rewrite E0, (Hin n _ _ Ha Hb). simpl. do 2 eexists. split; [reflexivity|].
    split; [reflexivity|]. unfold half. field.
Qed.

Lemma mean2 a x y : (a == (x + y) / 2 -> 2 * a == x + y)%Q.
Proof. intros ->. field. Qed.
Ltac lraq := repeat match goal with H : (_ == (_ + _) / 2)%Q |- _ => apply mean2 in H end; lra.

(** Consequences of the specification *)
Lemma edges_determined d e e' : 2 <= List.length d -> all_valid d ->
  edges_spec d e -> edges_spec d e' ->
  forall k x y, val e k x -> val e' k y -> (x == y)%Q.
Proof.
  intros Hn Hv (L & I & F & G) (L' & I' & F' & G') k x y Hx Hy.
  unfold val in *.
  assert (Hk : k < List.length e) by (apply nth_error_Some; congruence).
  assert (Hin : forall i x y, S i < List.length d -> nth_error e (S i) = Some (Some x) ->
     nth_error e' (S i) = Some (Some y) -> (x == y)%Q).
  { intros i u w Hi Hu Hw. destruct (Hv i) as [a Ha]; [lia|]. destruct (Hv (S i)) as [b Hb]; [lia|].
    unfold val in *. destruct (I i _ _ Ha Hb) as (p & Ep & Qp).
    destruct (I' i _ _ Ha Hb) as (q & Eq' & Qq).
    rewrite Hu in Ep. injection Ep as <-. rewrite Hw in Eq'. injection Eq' as <-.
    simpl in *. now rewrite Qp, Qq. }
  destruct k as [|k].
  - destruct (Hv 0) as [a Ha]; [lia|]. destruct (Hv 1) as [b Hb]; [lia|].
    destruct (F a b Ha Hb) as (x0 & x1 & E0 & E1 & Q1).
    destruct (F' a b Ha Hb) as (y0 & y1 & E0' & E1' & Q1').
    unfold val in *. rewrite Hx in E0. injection E0 as <-. rewrite Hy in E0'. injection E0' as <-.
    assert (Q2 := Hin 0 x1 y1 ltac:(lia) E1 E1'). lraq.
  - destruct (Nat.eq_dec (S k) (List.length d)) as [Ek|Ek].
    + destruct k as [|n]; [lia|]. destruct (Hv n) as [a Ha]; [lia|].
      destruct (Hv (S n)) as [b Hb]; [lia|].
      destruct (G n a b Ek Ha Hb) as (x0 & x1 & E0 & E1 & Q1).
      destruct (G' n a b Ek Ha Hb) as (y0 & y1 & E0' & E1' & Q1').
      unfold val in *. rewrite Hx in E1. injection E1 as <-. rewrite Hy in E1'. injection E1' as <-.
      assert (Q2 := Hin n x0 y0 ltac:(lia) E0 E0'). lraq.
    + apply (Hin k x y); auto. lia.
Qed.

(** Every value lies strictly between its edges, for a strictly monotonic axis;
    [sg] is 1 for an increasing axis and -1 for a decreasing one. *)
Lemma edges_enclose sg d e : (sg == 1 \/ sg == -1)%Q -> 2 <= List.length d -> all_valid d ->
  (forall i j a b, i < j -> val d i a -> val d j b -> (sg * a < sg * b)%Q) ->
  edges_spec d e ->
  (forall i x, val d i x -> exists a b, val e i a /\ val e (S i) b /\ (sg * a < sg * x < sg * b)%Q).
Proof.
  intros Hsg Hn Hv Hm (L & I & F & G) i x Hx.
  assert (Hi : i < List.length d) by (apply nth_error_Some; unfold val in Hx; congruence).
  assert (Hin : forall i a b, val d i a -> val d (S i) b -> exists m, val e (S i) m /\
     (m == (a + b) / 2)%Q).
  { intros j a b Ha Hb. destruct (I j _ _ Ha Hb) as (m & Em & Qm). unfold val.
    destruct m as [m|]; [|destruct Qm]. simpl in Qm. eauto. }
  assert (Hlow : exists a, val e i a /\ (sg * a < sg * x)%Q).
  { destruct i as [|i].
    - destruct (Hv 1) as [b Hb]; [lia|]. destruct (F x b Hx Hb) as (u & w & Eu & Ew & Q1).
      exists u. split; auto. destruct (Hin 0 x b Hx Hb) as (m & Em & Qm).
      unfold val in *. rewrite Ew in Em. injection Em as <-.
      assert (H := Hm 0 1 x b ltac:(lia) Hx Hb).
      assert (Hu : (u == 2 * x - w)%Q) by lraq. rewrite Hu. destruct Hsg as [Hs|Hs]; rewrite Hs in *; lraq.
    - destruct (Hv i) as [a Ha]; [lia|]. destruct (Hin i a x Ha Hx) as (m & Em & Qm).
      exists m. split; auto. assert (H := Hm i (S i) a x ltac:(lia) Ha Hx).
      destruct Hsg as [Hs|Hs]; rewrite Hs in *; lraq. }
  assert (Hup : exists b, val e (S i) b /\ (sg * x < sg * b)%Q).
  { destruct (Nat.eq_dec (S i) (List.length d)) as [Ei|Ei].
    - destruct i as [|n]; [lia|]. destruct (Hv n) as [a Ha]; [lia|].
      destruct (G n a x Ei Ha Hx) as (u & w & Eu & Ew & Q1).
      exists w. split; auto. destruct (Hin n a x Ha Hx) as (m & Em & Qm).
      unfold val in *. rewrite Eu in Em. injection Em as <-.
      assert (H := Hm n (S n) a x ltac:(lia) Ha Hx).
      assert (Hw : (w == 2 * x - u)%Q) by lraq. rewrite Hw. destruct Hsg as [Hs|Hs]; rewrite Hs in *; lraq.
    - destruct (Hv (S i)) as [b Hb]; [lia|]. destruct (Hin i x b Hx Hb) as (m & Em & Qm).
      exists m. split; auto. assert (H := Hm i (S i) x b ltac:(lia) Hx Hb).
      destruct Hsg as [Hs|Hs]; rewrite Hs in *; lraq. }
  destruct Hlow as (a & Ea & Ha). destruct Hup as (b & Eb & Hb). exists a, b. auto.
Qed.

(** [e] is then strictly monotonic too. *)
Lemma edges_monotonic sg d e : 
  (forall i x, val d i x -> exists a b, val e i a /\ val e (S i) b /\ (sg * a < sg * x < sg * b)%Q) ->
  all_valid d -> List.length e = S (List.length d) ->
  forall i j a b, i < j -> val e i a -> val e j b -> (sg * a < sg * b)%Q.
Proof.
  intros H Hv L i j a b Hij. revert b. induction Hij as [|j Hij IH]; intros b Ha Hb.
  - assert (Hi : S i < List.length e) by (apply nth_error_Some; unfold val in Hb; congruence).
    destruct (Hv i) as [x Hx]; [lia|]. destruct (H i x Hx) as (u & w & Eu & Ew & Q1).
    unfold val in *. rewrite Ha in Eu. injection Eu as <-. rewrite Hb in Ew. injection Ew as <-. lraq.
  - assert (Hi : S j < List.length e) by (apply nth_error_Some; unfold val in Hb; congruence).
    destruct (Hv j) as [x Hx]; [lia|]. destruct (H j x Hx) as (u & w & Eu & Ew & Q1).
    specialize (IH u Ha Eu).
    unfold val in *. rewrite Hb in Ew. injection Ew as <-. lraq.
Qed.

Lemma edges_regular y0 h d e : 2 <= List.length d -> all_valid d ->
  (forall i a, val d i a -> (a == y0 + inject_Z (Z.of_nat i) * h)%Q) ->
  edges_spec d e ->
  forall k x, val e k x -> (x == (y0 - h / 2) + inject_Z (Z.of_nat k) * h)%Q.
Proof.
  intros Hn Hv Hr (L & I & F & G) k x Hx. unfold val in Hx.
  assert (Hk : k < List.length e) by (apply nth_error_Some; congruence).
  assert (HZ : forall n, (inject_Z (Z.of_nat (S n)) == inject_Z (Z.of_nat n) + 1)%Q).
  { intro n. rewrite Nat2Z.inj_succ. unfold Z.succ. rewrite inject_Z_plus. reflexivity. }
  assert (Hin : forall i x, S i < List.length d -> nth_error e (S i) = Some (Some x) ->
     (x == (y0 - h / 2) + inject_Z (Z.of_nat (S i)) * h)%Q).
  { intros i u Hi Hu. destruct (Hv i) as [a Ha]; [lia|]. destruct (Hv (S i)) as [b Hb]; [lia|].
    destruct (I i _ _ Ha Hb) as (p & Ep & Qp). rewrite Hu in Ep. injection Ep as <-.
    simpl in Qp. rewrite Qp, (Hr i a Ha), (Hr (S i) b Hb), HZ. field. }
  destruct k as [|k].
  - destruct (Hv 0) as [a Ha]; [lia|]. destruct (Hv 1) as [b Hb]; [lia|].
    destruct (F a b Ha Hb) as (x0 & x1 & E0 & E1 & Q1). unfold val in *.
    rewrite Hx in E0. injection E0 as <-. apply Hin in E1; [|lia].
    assert (Q2 := Hr 0 a Ha). rewrite HZ in E1. change (inject_Z (Z.of_nat 0)) with 0%Q in *. apply mean2 in Q1.
    set (g := (h / 2)%Q) in *. assert (Hg : (h == 2 * g)%Q) by (unfold g; field). lra.
  - destruct (Nat.eq_dec (S k) (List.length d)) as [Ek|Ek].
    + destruct k as [|n]; [lia|]. destruct (Hv n) as [a Ha]; [lia|].
      destruct (Hv (S n)) as [b Hb]; [lia|].
      destruct (G n a b Ek Ha Hb) as (x0 & x1 & E0 & E1 & Q1). unfold val in *.
      rewrite Hx in E1. injection E1 as <-. apply Hin in E0; [|lia].
      assert (Q2 := Hr (S n) b Hb). rewrite (HZ (S n)).
      assert (Q3 : (x == 2 * b - x0)%Q) by lraq. rewrite Q3, E0, Q2. field.
    + apply Hin; auto. lia.
Qed.
