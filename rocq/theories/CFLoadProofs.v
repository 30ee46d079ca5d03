From Verif Require Import PyDictFacts CFLoad CFLoadSpec.
From Coq Require Import Lia.
Open Scope nat_scope.
Open Scope string_scope.

Lemma rd_wr h : forall a l c, a < List.length h -> rd (wr h a l) c = if Nat.eqb c a then l else rd h c.
Proof.
  unfold rd. induction h as [|x h IH]; intros a l c H; [cbn in H; lia|].
  destruct a as [|a]; cbn [wr].
  - destruct c; reflexivity.
  - destruct c; [reflexivity|]. cbn [nth Nat.eqb]. apply IH. cbn in H. lia.
Qed.
Lemma wr_len h : forall a l, List.length (wr h a l) = List.length h.
Proof. induction h as [|x h IH]; intros [|a] l; cbn; auto. Qed.
Lemma rd_app h h' c : c < List.length h -> rd (h ++ h')%list c = rd h c.
Proof. intro H. unfold rd. now rewrite app_nth1. Qed.

Lemma nd_app {B} (a b : list B) : NoDup (a ++ b) <-> NoDup a /\ NoDup b /\ (forall x, In x a -> ~ In x b).
Proof.
  induction a as [|y a IH]; cbn.
  - split; [intro H; repeat split; auto; constructor|tauto].
  - split.
    + intro H. inversion H as [|? ? Hi Hn]; subst. apply IH in Hn as (H1 & H2 & H3).
      split; [constructor; auto; intro G; apply Hi, in_or_app; auto|]. split; auto.
      intros x [->|Hx]; auto. intro G. apply Hi, in_or_app. auto.
    + intros (H1 & H2 & H3). inversion H1 as [|? ? Hi Hn]; subst. constructor.
      * intro G. apply in_app_or in G as [G|G]; [auto|]. apply (H3 y); auto.
      * apply IH. auto.
Qed.

Definition addrs {A} (d : dict (A * addr)) : list addr := map (fun e => snd (snd e)) d.
Definition rep {A} (h : lheap) (d : dict (A * addr)) (v : dict (A * list string)) : Prop :=
  Forall2 (fun p q => fst p = fst q /\ fst (snd p) = fst (snd q) /\ rd h (snd (snd p)) = snd (snd q)) d v.
Definition inb (h : lheap) (l : list addr) : Prop := forall a, In a l -> a < List.length h.

Section Sec.
  Context {A : Type} (join : A -> A -> A).
  Definition pm (v : dict (A * list string)) (e : string * (A * list string)) : dict (A * list string) :=
    let '(k, (x, l)) := e in
    match dget v k with
    | None => dset v k (x, l)
    | Some (x0, l0) => dset v k (join x0 x, l0 ++ l)%list
    end.

  Lemma dget_rep h (d : dict (A * addr)) v k : rep h d v ->
    match dget d k with Some (x, a) => dget v k = Some (x, rd h a) | None => dget v k = None end.
  Proof using.
    induction 1 as [|[k1 [x1 a1]] [k2 [x2 l2]] d v (E1 & E2 & E3) _ IH]; cbn; auto.
    cbn in E1, E2, E3. subst. destruct (String.eqb k k2); auto.
  Qed.
  Lemma rep_dset h (d : dict (A * addr)) v k x a : rep h d v -> rep h (dset d k (x, a)) (dset v k (x, rd h a)).
  Proof using.
    induction 1 as [|[k1 [x1 a1]] [k2 [x2 l2]] d v (E1 & E2 & E3) HF IH]; cbn [dset].
    - constructor; [cbn; auto|constructor].
    - cbn in E1, E2, E3. subst. destruct (String.eqb k k2); constructor; cbn; auto.
  Qed.
  Lemma rep_frame h h' (d : dict (A * addr)) v : rep h d v -> (forall a, In a (addrs d) -> rd h' a = rd h a) -> rep h' d v.
  Proof using.
    induction 1 as [|[k1 [x1 a1]] [k2 [x2 l2]] d v (E1 & E2 & E3) HF IH]; intro H; constructor.
    - cbn in *. split; [auto|split; [auto|]]. rewrite H; auto.
    - apply IH. intros a Ha. apply H. now right.
  Qed.
  Lemma dget_addr (d : dict (A * addr)) k x a : dget d k = Some (x, a) -> In a (addrs d).
  Proof using.
    intro H. apply dget_some_in in H. unfold addrs. change a with (snd (snd (k, (x, a)))).
    now apply (in_map (fun e => snd (snd e))).
  Qed.
  Lemma rep_update h (d : dict (A * addr)) v k x0 a y L : NoDup (addrs d) -> dget d k = Some (x0, a) -> a < List.length h ->
    rep h d v -> rep (wr h a L) (dset d k (y, a)) (dset v k (y, L)).
  Proof using.
    intros Hn Hd Ha H. revert Hn Hd.
    induction H as [|[k1 [x1 a1]] [k2 [x2 l2]] d v (E1 & E2 & E3) HF IH]; intros Hn Hd; [easy|].
    cbn in E1, E2, E3. subst. cbn in Hn, Hd |- *. inversion Hn as [|? ? Hi Hn']; subst.
    destruct (String.eqb k k2) eqn:Ek.
    - injection Hd as -> ->. constructor.
      + cbn. split; auto. split; auto. now rewrite rd_wr, Nat.eqb_refl.
      + apply (rep_frame h); auto. intros c Hc. rewrite rd_wr by auto.
        destruct (Nat.eqb_spec c a); [subst; contradiction|auto].
    - constructor; [|now apply IH].
      cbn. split; auto. split; auto. rewrite rd_wr by auto.
      destruct (Nat.eqb_spec a1 a); [subst|auto]. now apply dget_addr in Hd.
  Qed.
  Lemma addrs_dset (d : dict (A * addr)) k x a c : In c (addrs (dset d k (x, a))) -> c = a \/ In c (addrs d).
  Proof using.
    clear join. induction d as [|[k1 [x1 a1]] d IH]; cbn; [intuition|].
    destruct (String.eqb k k1); cbn; intuition.
  Qed.
  Lemma addrs_dset_nd (d : dict (A * addr)) k x a : NoDup (addrs d) -> ~ In a (addrs d) -> NoDup (addrs (dset d k (x, a))).
  Proof using.
    induction d as [|[k1 [x1 a1]] d IH]; cbn; intros Hn Hi; [repeat constructor; auto|].
    inversion Hn as [|? ? Hi1 Hn']; subst.
    destruct (String.eqb k k1); cbn; constructor; auto.
    - intro Hc. apply addrs_dset in Hc as [->|Hc]; auto.
  Qed.
  Lemma addrs_dset_same (d : dict (A * addr)) k x0 x a : dget d k = Some (x0, a) -> addrs (dset d k (x, a)) = addrs d.
  Proof using.
    induction d as [|[k1 [x1 a1]] d IH]; cbn; [easy|]. destruct (String.eqb k k1); cbn.
    - intro H. now injection H as -> ->.
    - intro H. f_equal. now apply IH.
  Qed.

  Lemma merge_entry_rep h out v k x b out' h' :
    rep h out v -> NoDup (addrs out) -> inb h (b :: addrs out) -> ~ In b (addrs out) ->
    merge_entry join (out, h) (k, (x, b)) = (out', h') ->
    rep h' out' (pm v (k, (x, rd h b))) /\ NoDup (addrs out') /\ incl (addrs out') (b :: addrs out) /\
    (forall c, ~ In c (addrs out) -> rd h' c = rd h c) /\ List.length h' = List.length h.
  Proof using.
    intros HR Hn Hb Hi E. cbn in E. assert (Hd := dget_rep h out v k HR). cbn [pm].
    destruct (dget out k) as [[x0 a]|] eqn:Ek.
    - rewrite Hd.
      destruct (rd h a) as [|s l] eqn:Ea; injection E as <- <-.
      + split; [now apply rep_dset|]. split; [now apply addrs_dset_nd|].
        split; [intros c Hc; apply addrs_dset in Hc; cbn; intuition|auto].
      + assert (Ha : a < List.length h) by (apply Hb; right; now apply dget_addr in Ek).
        split; [now apply (rep_update h out v k x0)|].
        rewrite (addrs_dset_same out k x0) by auto. split; auto.
        split; [intros c Hc; now right|]. split; [|apply wr_len].
        intros c Hc. rewrite rd_wr by auto. destruct (Nat.eqb_spec c a); [subst|auto].
        now apply dget_addr in Ek.
    - rewrite Hd. injection E as <- <-. split; [now apply rep_dset|]. split; [now apply addrs_dset_nd|].
      split; [intros c Hc; apply addrs_dset in Hc; cbn; intuition|auto].
  Qed.
  Lemma merge_sec_rep d : forall h out v w out' h',
    rep h out v -> rep h d w -> NoDup (addrs out ++ addrs d) -> inb h (addrs out ++ addrs d) ->
    merge_sec join out d h = (out', h') ->
    rep h' out' (fold_left pm w v) /\ NoDup (addrs out') /\ incl (addrs out') (addrs out ++ addrs d) /\
    (forall c, ~ In c (addrs out ++ addrs d) -> rd h' c = rd h c) /\ List.length h' = List.length h.
  Proof using.
    unfold merge_sec.
    induction d as [|[k [x b]] d IH]; intros h out v w out' h' HR HW Hn Hb E.
    - inversion HW; subst. cbn in E. injection E as <- <-. cbn in *. rewrite app_nil_r in *.
      split; auto. split; auto. split; [apply incl_refl|auto].
    - inversion HW as [|? [k2 [x2 l2]] ? w' (E1 & E2 & E3) HW']; subst. cbn in E1, E2, E3. subst k2 x2 l2.
      cbn [fold_left] in E |- *. cbn [addrs map snd] in *. fold (addrs d) in *.
      destruct (merge_entry join (out, h) (k, (x, b))) as [out1 h1] eqn:Em.
      assert (Hno : NoDup (addrs out)) by (apply nd_app in Hn; tauto).
      assert (Hbi : ~ In b (addrs out)).
      { apply NoDup_remove_2 in Hn. intro Hc. apply Hn. apply in_or_app. auto. }
      destruct (merge_entry_rep h out v k x b out1 h1 HR Hno) as (R1 & N1 & I1 & F1 & L1); auto.
      { intros a [<-|Ha]; apply Hb; apply in_or_app; [right; now left|now left]. }
      assert (Hdis : forall c, In c (addrs d) -> ~ In c (b :: addrs out)).
      { intros c Hc Hc'. apply NoDup_remove in Hn as [Hn Hn'].
        destruct Hc' as [<-|Hc'].
        - apply Hn'. apply in_or_app. auto.
        - clear - Hn Hc Hc'. induction (addrs out) as [|y l IHl]; [easy|]. cbn in Hn. inversion Hn; subst.
          destruct Hc' as [->|Hc']; auto. apply H1. apply in_or_app. auto. }
      assert (HW1 : rep h1 d w').
      { apply (rep_frame h); auto. intros a Ha. apply F1. intro Hc. apply (Hdis a Ha). now right. }
      destruct (IH h1 out1 _ w' out' h' R1 HW1) as (R2 & N2 & I2 & F2 & L2); auto.
      { apply nd_app. split; [exact N1|]. split.
        - apply NoDup_remove_1 in Hn. apply nd_app in Hn. tauto.
        - intros a Ha Hc. apply I1 in Ha. now apply (Hdis a Hc). }
      { intros a Ha. rewrite L1. apply in_app_or in Ha as [Ha|Ha].
        - apply I1 in Ha. apply Hb. apply in_or_app. destruct Ha as [<-|Ha]; [right; now left|now left].
        - apply Hb. apply in_or_app. right. now right. }
      split; auto. split; auto. split; [|split].
      + intros a Ha. apply I2 in Ha. apply in_app_or in Ha as [Ha|Ha].
        * apply I1 in Ha. apply in_or_app. destruct Ha as [<-|Ha]; [right; now left|now left].
        * apply in_or_app. right. now right.
      + intros c Hc. rewrite F2, F1; auto.
        * intro Hc'. apply Hc. apply in_or_app. auto.
        * intro Hc'. apply Hc. apply in_or_app. apply in_app_or in Hc' as [Hc'|Hc'].
          -- apply I1 in Hc'. destruct Hc' as [<-|Hc']; [right; now left|now left].
          -- right. now right.
      + congruence.
  Qed.

  Lemma alloc_sec_ok (l : dict (A * list string)) : forall h d h', alloc_sec l h = (d, h') ->
    h' = (h ++ map (fun e => snd (snd e)) l)%list /\ addrs d = seq (List.length h) (List.length l) /\ rep h' d l.
  Proof using.
    induction l as [|[k [x v]] l IH]; intros h d h' E; cbn in E.
    - injection E as <- <-. cbn. rewrite app_nil_r. split; auto. split; auto. constructor.
    - destruct (alloc_sec l (h ++ [v])%list) as [r h1] eqn:Er. injection E as <- <-.
      destruct (IH _ _ _ Er) as (-> & Ea & HR). rewrite app_length in Ea. cbn in Ea.
      split; [now rewrite <- app_assoc|]. split.
      + cbn. f_equal. unfold addrs in Ea. rewrite Ea. now rewrite Nat.add_1_r.
      + constructor; [|exact HR]. cbn. split; auto. split; auto.
        unfold rd. rewrite <- app_assoc. rewrite app_nth2 by lia. now rewrite Nat.sub_diag.
  Qed.

  (** Pure merging *)
  Lemma pm_get v k x l k' : dget (pm v (k, (x, l))) k' =
    if k' =? k then Some (match dget v k with Some (x0, l0) => (join x0 x, l0 ++ l)%list | None => (x, l) end)
    else dget v k'.
  Proof using.
    cbn. destruct (dget v k) as [[x0 l0]|] eqn:E; rewrite dget_dset; reflexivity.
  Qed.
  Lemma pm_wf v e : dict_wf v -> dict_wf (pm v e).
  Proof using. destruct e as [k [x l]]. cbn. intro H. destruct (dget v k) as [[? ?]|]; now apply dset_wf. Qed.
  Lemma fold_pm_wf w : forall v, dict_wf v -> dict_wf (fold_left pm w v).
  Proof using. induction w as [|e w IH]; intros v H; cbn; auto. apply IH. now apply pm_wf. Qed.
  Lemma fold_pm_get w : forall v k, dict_wf w -> dget (fold_left pm w v) k =
    match dget w k with
    | None => dget v k
    | Some (x, l) => Some (match dget v k with Some (x0, l0) => (join x0 x, l0 ++ l)%list | None => (x, l) end)
    end.
  Proof using.
    induction w as [|[k1 [x1 l1]] w IH]; intros v k Hw; auto.
    inversion Hw as [|? ? Hi Hw']; subst. cbn [fold_left]. rewrite IH by auto. rewrite pm_get.
    cbn [dget]. destruct (String.eqb_spec k k1) as [->|Ne]; auto.
    assert (E : dget w k1 = None) by now apply dget_none. now rewrite E.
  Qed.
  Lemma pm_keys v k x l : dkeys (pm v (k, (x, l))) = if existsb (String.eqb k) (dkeys v) then dkeys v else (dkeys v ++ [k])%list.
  Proof using.
    assert (E : existsb (String.eqb k) (dkeys v) = dmem v k).
    { apply Bool.eq_iff_eq_true. rewrite dmem_in, existsb_exists. split.
      - intros (y & Hy & E). apply String.eqb_eq in E as ->. auto.
      - intro H. exists k. split; auto. apply String.eqb_refl. }
    rewrite E. cbn [pm]. unfold dmem. destruct (dget v k) as [[x0 l0]|] eqn:Ek; rewrite dkeys_dset; unfold dmem; now rewrite Ek.
  Qed.
  Lemma fold_pm_keys w : forall v, dkeys (fold_left pm w v) = (dkeys v ++ firsts (dkeys v) (dkeys w))%list.
  Proof using.
    induction w as [|[k [x l]] w IH]; intros v; [cbn; now rewrite app_nil_r|].
    change (dkeys ((k, (x, l)) :: w)) with (k :: dkeys w). cbn [fold_left firsts]. rewrite IH, pm_keys. destruct (existsb (String.eqb k) (dkeys v)); auto.
    now rewrite <- app_assoc.
  Qed.
End Sec.

(** *** Whole configurations *)
Definition caddrs (c : cfg) : list addr := (addrs (c_dims c) ++ addrs (c_coords c))%list.
Definition crep (h : lheap) (c : cfg) (s : src) : Prop := rep h (c_dims c) (s_dims s) /\ rep h (c_coords c) (s_coords s).
Definition psm (s t : src) : src :=
  mksrc (fold_left (pm join_unit) (s_dims t) (s_dims s)) (fold_left (pm join_axis) (s_coords t) (s_coords s)).

Lemma crep_frame h h' c s : crep h c s -> (forall a, In a (caddrs c) -> rd h' a = rd h a) -> crep h' c s.
Proof.
  intros [H1 H2] H. split; [apply (rep_frame h)|apply (rep_frame h)]; auto; intros a Ha; apply H, in_or_app; auto.
Qed.
Lemma merge_cfg_rep h c s d t c' h' : crep h c s -> crep h d t -> NoDup (caddrs c ++ caddrs d) ->
  inb h (caddrs c ++ caddrs d) -> merge_cfg c d h = (c', h') ->
  crep h' c' (psm s t) /\ NoDup (caddrs c') /\ incl (caddrs c') (caddrs c ++ caddrs d) /\
  (forall a, ~ In a (caddrs c ++ caddrs d) -> rd h' a = rd h a) /\ List.length h' = List.length h.
Proof.
  intros [R1 R2] [W1 W2] Hn Hb E. unfold merge_cfg in E.
  destruct (merge_sec join_unit (c_dims c) (c_dims d) h) as [x h1] eqn:E1.
  destruct (merge_sec join_axis (c_coords c) (c_coords d) h1) as [y h2] eqn:E2. injection E as <- <-.
  unfold caddrs in *. apply nd_app in Hn as (N1 & N2 & N3). apply nd_app in N1 as (N4 & N5 & N6).
  apply nd_app in N2 as (N7 & N8 & N9).
  assert (D1 : forall a, In a (addrs (c_dims c)) -> ~ In a (addrs (c_dims d)) /\ ~ In a (addrs (c_coords d))).
  { intros a Ha. split; intro G; apply (N3 a); apply in_or_app; auto. }
  assert (D2 : forall a, In a (addrs (c_coords c)) -> ~ In a (addrs (c_dims d)) /\ ~ In a (addrs (c_coords d))).
  { intros a Ha. split; intro G; apply (N3 a); apply in_or_app; auto. }
  destruct (merge_sec_rep join_unit (c_dims d) h (c_dims c) (s_dims s) (s_dims t) x h1 R1 W1) as (R3 & N10 & I1 & F1 & L1).
  { apply nd_app. split; auto. split; auto. intros a Ha. now apply D1. }
  { intros a Ha. apply Hb. apply in_app_or in Ha as [Ha|Ha]; apply in_or_app; [left|right]; apply in_or_app; auto. }
  { exact E1. }
  destruct (merge_sec_rep join_axis (c_coords d) h1 (c_coords c) (s_coords s) (s_coords t) y h2) as (R4 & N11 & I2 & F2 & L2).
  { apply (rep_frame h); auto. intros a Ha. apply F1. intro G. apply in_app_or in G as [G|G].
    - now apply (N6 a).
    - destruct (D2 a Ha). contradiction. }
  { apply (rep_frame h); auto. intros a Ha. apply F1. intro G. apply in_app_or in G as [G|G].
    - destruct (D1 a G). contradiction.
    - now apply (N9 a). }
  { apply nd_app. split; auto. split; auto. intros a Ha. now apply D2. }
  { intros a Ha. rewrite L1. apply Hb. apply in_app_or in Ha as [Ha|Ha]; apply in_or_app; [left|right]; apply in_or_app; auto. }
  { exact E2. }
  assert (Dis : forall a, In a (addrs (c_dims c) ++ addrs (c_dims d)) -> ~ In a (addrs (c_coords c) ++ addrs (c_coords d))).
  { intros a Ha G. apply in_app_or in Ha as [Ha|Ha]; apply in_app_or in G as [G|G].
    - now apply (N6 a).
    - now destruct (D1 a Ha).
    - now destruct (D2 a G).
    - now apply (N9 a). }
  split; [split; cbn|split; [|split; [|split]]].
  - apply (rep_frame h1); [auto|]. intros a Ha. apply F2, Dis, I1, Ha.
  - exact R4.
  - cbn. apply nd_app. split; auto. split; auto. intros a Ha G. apply (Dis a); [now apply I1|now apply I2].
  - cbn. intros a Ha. apply in_app_or in Ha as [Ha|Ha].
    + apply I1 in Ha. apply in_app_or in Ha as [Ha|Ha]; apply in_or_app; [left|right]; apply in_or_app; auto.
    + apply I2 in Ha. apply in_app_or in Ha as [Ha|Ha]; apply in_or_app; [left|right]; apply in_or_app; auto.
  - intros a Ha. rewrite F2, F1; auto; intro G; apply Ha; apply in_app_or in G as [G|G]; apply in_or_app;
      [left|right|left|right]; apply in_or_app; auto.
  - congruence.
Qed.
Lemma merge_all_rep cs : forall ss h c s c' h', crep h c s -> Forall2 (crep h) cs ss ->
  NoDup (caddrs c ++ flat_map caddrs cs) -> inb h (caddrs c ++ flat_map caddrs cs) ->
  merge_all c cs h = (c', h') ->
  crep h' c' (fold_left psm ss s) /\ NoDup (caddrs c') /\ inb h' (caddrs c').
Proof.
  induction cs as [|d cs IH]; intros ss h c s c' h' R HF Hn Hb E; inversion HF as [|? t ? ss' Rd HF']; subst.
  - cbn in *. rewrite app_nil_r in *. injection E as <- <-. auto.
  - cbn [merge_all flat_map fold_left] in *. destruct (merge_cfg c d h) as [o h1] eqn:Em.
    rewrite app_assoc in Hn, Hb. apply nd_app in Hn as (N1 & N2 & N3).
    destruct (merge_cfg_rep h c s d t o h1 R Rd N1) as (R1 & N4 & I1 & F1 & L1).
    { intros a Ha. apply Hb, in_or_app. auto. }
    { exact Em. }
    apply (IH ss' h1 o (psm s t) c' h'); auto.
    + clear - HF' F1 N3.
      induction HF' as [|x y cs ss H _ IH]; constructor.
      * apply (crep_frame h); auto. intros a Ha. apply F1. intro G. apply (N3 a G). cbn. apply in_or_app. auto.
      * apply IH. intros a Ha G. apply (N3 a Ha). cbn. apply in_or_app. auto.
    + apply nd_app. split; [auto|]. split; [auto|]. intros a Ha. apply N3, I1, Ha.
    + intros a Ha. rewrite L1. apply Hb. apply in_app_or in Ha as [Ha|Ha]; apply in_or_app; auto.
Qed.

(** *** Loading without cache *)
Lemma alloc_src_ok s h c h' : alloc_src s h = (c, h') ->
  exists ext, h' = (h ++ ext)%list /\ caddrs c = seq (List.length h) (List.length ext) /\ crep h' c s.
Proof.
  unfold alloc_src. destruct (alloc_sec (s_dims s) h) as [d h1] eqn:E1.
  destruct (alloc_sec (s_coords s) h1) as [k h2] eqn:E2. intro E. injection E as <- <-.
  destruct (alloc_sec_ok _ _ _ _ E1) as (H1 & A1 & R1). destruct (alloc_sec_ok _ _ _ _ E2) as (H2 & A2 & R2).
  exists (map (fun e => snd (snd e)) (s_dims s) ++ map (fun e => snd (snd e)) (s_coords s))%list.
  split; [rewrite H2, H1; now rewrite app_assoc|]. split.
  - unfold caddrs. cbn [c_dims c_coords]. rewrite A1, A2, H1, !app_length, !map_length. now rewrite seq_app.
  - split; auto. cbn. apply (rep_frame h1); auto. intros a Ha. rewrite H2. apply rd_app.
    rewrite A1 in Ha. apply in_seq in Ha. rewrite H1, app_length, map_length. lia.
Qed.
Lemma load_all_ok disk refs ss : Forall2 (reads disk) refs ss -> forall st,
  exists cs st' ext, load_all false disk st refs = Ok (cs, st') /\ st_heap st' = (st_heap st ++ ext)%list /\
  st_cache st' = st_cache st /\
  flat_map caddrs cs = seq (List.length (st_heap st)) (List.length ext) /\ Forall2 (crep (st_heap st')) cs ss.
Proof.
  induction 1 as [|r s refs ss Hr _ IH]; intro st.
  - exists [], st, []. cbn. rewrite app_nil_r. auto 6.
  - assert (E : exists c st1, load_one false disk st r = Ok (c, st1) /\ alloc_src s (st_heap st) = (c, st_heap st1)
      /\ st_cache st1 = st_cache st).
    { destruct r as [n|k n|s']; cbn in Hr.
      - cbn. rewrite Hr. cbn. unfold store. destruct (alloc_src s (st_heap st)) as [c h].
        exists c. eexists. split; [reflexivity|]. auto.
      - easy.
      - subst s'. cbn. unfold store. destruct (alloc_src s (st_heap st)) as [c h].
        exists c. eexists. split; [reflexivity|]. auto. }
    destruct E as (c & st1 & E1 & E2 & E3). destruct (alloc_src_ok _ _ _ _ E2) as (ext & H1 & A1 & R1).
    destruct (IH st1) as (cs & st' & ext' & E4 & H4 & H5 & A4 & R4).
    exists (c :: cs), st', (ext ++ ext')%list. cbn [load_all]. rewrite E1. cbn [bind fst snd]. rewrite E4.
    split; [reflexivity|]. split; [rewrite H4, H1; now rewrite app_assoc|]. split; [congruence|]. split.
    + cbn. rewrite A1, A4, H1, !app_length. now rewrite seq_app.
    + constructor; auto. apply (crep_frame (st_heap st1)); auto. intros a Ha. rewrite H4. apply rd_app.
      rewrite A1 in Ha. apply in_seq in Ha. rewrite H1, app_length. lia.
Qed.

(** *** Update of the dimensions *)
Definition pup (vd : dict (unit * list string)) (e : string * (string * list string)) : dict (unit * list string) :=
  let '(name, (axis, l)) := e in
  if axis =? "" then vd
  else match dget vd (lower axis) with
       | Some (u, l0) => dset vd (lower axis) (u, l0 ++ name :: l)%list
       | None => vd
       end.
Lemma update_dims_rep dims coords : forall h vd vc, rep h dims vd -> rep h coords vc ->
  NoDup (addrs dims ++ addrs coords) -> inb h (addrs dims) ->
  (forall k x a, In (k, (x, a)) coords -> x <> "" -> In (lower x) (dkeys dims)) ->
  exists h', update_dims dims coords h = Ok h' /\ rep h' dims (fold_left pup vc vd) /\
    (forall a, ~ In a (addrs dims) -> rd h' a = rd h a) /\ List.length h' = List.length h.
Proof.
  induction coords as [|[k [x b]] coords IH]; intros h vd vc R1 R2 Hn Hb Hk.
  - inversion R2; subst. exists h. cbn. auto.
  - inversion R2 as [|? [k2 [x2 l2]] ? vc' (E1 & E2 & E3) R2']; subst. cbn in E1, E2, E3. subst k2 x2 l2.
    assert (Hn' : NoDup (addrs dims ++ addrs coords)) by (now apply NoDup_remove_1 in Hn).
    assert (Hd : forall a, In a (addrs dims) -> ~ In a (addrs coords) /\ a <> b).
    { intros a Ha. apply nd_app in Hn as (_ & _ & Hn). split.
      - intro G. apply (Hn a Ha). now right.
      - intros ->. apply (Hn b Ha). now left. }
    cbn [update_dims fold_left pup]. destruct (String.eqb_spec x "") as [->|Nx].
    + apply IH; auto. intros k' x' a' Hin. apply (Hk k' x' a'). now right.
    + assert (Hx := Hk k x b (or_introl eq_refl) Nx). apply dmem_in in Hx. unfold dmem in Hx.
      assert (Hg := dget_rep h dims vd (lower x) R1).
      destruct (dget dims (lower x)) as [[u a]|] eqn:Eg; [|easy]. rewrite Hg.
      assert (Ha : In a (addrs dims)) by now apply dget_addr in Eg.
      destruct (IH (wr h a (rd h a ++ k :: rd h b)%list)
                   (dset vd (lower x) (u, rd h a ++ k :: rd h b)%list) vc') as (h' & E & R & F & L); auto.
      * rewrite <- (dset_same dims (lower x) (u, a) Eg) at 1. apply nd_app in Hn' as (Hn1 & _).
        apply (rep_update h dims vd (lower x) u); auto.
      * apply (rep_frame h); auto. intros c Hc. rewrite rd_wr by auto.
        destruct (Nat.eqb_spec c a); [subst|auto]. now destruct (Hd a Ha).
      * intros c Hc. rewrite wr_len. auto.
      * intros k' x' a' Hin. apply (Hk k' x' a'). now right.
      * exists h'. split; auto. split; auto. rewrite wr_len in L. split; auto.
        intros c Hc. rewrite F by auto. rewrite rd_wr by auto.
        destruct (Nat.eqb_spec c a); [subst; contradiction|auto].
Qed.
Definition contrib (ax : string) (e : string * (string * list string)) : list string :=
  let '(name, (axis, l)) := e in
  if axis =? "" then [] else if lower axis =? ax then name :: l else [].
Lemma pup_fold_get vc : forall vd ax, (forall k x l, In (k, (x, l)) vc -> x <> "" -> In (lower x) (dkeys vd)) ->
  dget (fold_left pup vc vd) ax =
  match dget vd ax with Some (u, l) => Some (u, l ++ flat_map (contrib ax) vc)%list | None => None end.
Proof.
  induction vc as [|[k [x l]] vc IH]; intros vd ax Hk.
  - cbn. destruct (dget vd ax) as [[u l]|]; auto. now rewrite app_nil_r.
  - cbn [fold_left]. assert (Hk' := Hk k x l (or_introl eq_refl)).
    rewrite IH.
    + cbn [flat_map contrib pup]. destruct (String.eqb_spec x "") as [|Nx]; auto.
      specialize (Hk' Nx). apply dmem_in in Hk'. unfold dmem in Hk'.
      destruct (dget vd (lower x)) as [[u0 l0]|] eqn:Eg; [|easy].
      rewrite dget_dset. rewrite (String.eqb_sym (lower x) ax).
      destruct (String.eqb_spec ax (lower x)) as [->|Ne]; auto.
      rewrite Eg. rewrite <- app_assoc. reflexivity.
    + intros k0 x0 l0 Hin N0. assert (H0 := Hk k0 x0 l0 (or_intror Hin) N0).
      cbn [pup]. destruct (x =? ""); auto.
      destruct (dget vd (lower x)) as [[u1 l1]|]; auto. rewrite dkeys_dset.
      destruct (dmem vd (lower x)); auto. apply in_or_app. auto.
Qed.

(** *** Merged values *)
Lemma psm_wf ss : forall s, src_wf s -> src_wf (fold_left psm ss s).
Proof.
  induction ss as [|t ss IH]; intros s [H1 H2]; cbn; [split; auto|]. apply IH. split; now apply fold_pm_wf.
Qed.
Lemma firsts_app l1 : forall seen l2, firsts seen (l1 ++ l2) = (firsts seen l1 ++ firsts (seen ++ firsts seen l1) l2)%list.
Proof.
  induction l1 as [|x l1 IH]; intros seen l2; cbn; [now rewrite app_nil_r|].
  destruct (existsb (String.eqb x) seen); auto. cbn. rewrite IH. now rewrite <- app_assoc.
Qed.
Lemma psm_keys ss : forall s, dkeys (s_coords (fold_left psm ss s)) =
  (dkeys (s_coords s) ++ firsts (dkeys (s_coords s)) (flat_map (fun s => dkeys (s_coords s)) ss))%list.
Proof.
  induction ss as [|t ss IH]; intros s; cbn [fold_left flat_map]; [cbn; now rewrite app_nil_r|].
  rewrite IH. cbn [psm s_coords]. rewrite fold_pm_keys, firsts_app, <- app_assoc. reflexivity.
Qed.
Lemma join_axis_nil a : join_axis a "" = a.
Proof. unfold join_axis. destruct (String.eqb_spec a ""); auto. Qed.
Lemma join_axis_assoc a b c : join_axis (join_axis a b) c = join_axis a (join_axis b c).
Proof.
  unfold join_axis. destruct (a =? "") eqn:E; auto. now rewrite E.
Qed.
Lemma psm_coord ss : Forall src_wf ss -> forall s k,
  match dget (s_coords s) k with
  | Some (x, l) => dget (s_coords (fold_left psm ss s)) k = Some (join_axis x (first_axis k ss), l ++ all_names k ss)%list
  | None => has_coord k ss -> dget (s_coords (fold_left psm ss s)) k = Some (first_axis k ss, all_names k ss)
  end.
Proof.
  induction 1 as [|t ss Ht _ IH]; intros s k.
  - destruct (dget (s_coords s) k) as [[x l]|] eqn:E; cbn.
    + rewrite join_axis_nil, app_nil_r. auto.
    + intros (? & [] & _).
  - cbn [fold_left]. specialize (IH (psm s t) k). cbn [psm s_coords] in IH.
    rewrite (fold_pm_get join_axis _ _ k (proj2 Ht)) in IH.
    cbn [first_axis all_names flat_map]. fold (all_names k ss). unfold axis_of, names_of at 1 2.
    destruct (dget (s_coords t) k) as [[x1 l1]|] eqn:Et.
    + destruct (dget (s_coords s) k) as [[x l]|].
      * rewrite IH. rewrite join_axis_assoc, <- app_assoc. unfold join_axis at 2. reflexivity.
      * intros _. exact IH.
    + cbn. destruct (dget (s_coords s) k) as [[x l]|].
      * exact IH.
      * intros (s0 & [->|Hs] & Hk); [apply dget_none in Et; contradiction|]. apply IH. now exists s0.
Qed.
Lemma psm_dims ss : Forall src_wf ss -> forall s k,
  match dget (s_dims s) k with
  | Some (_, l) => dget (s_dims (fold_left psm ss s)) k = Some (tt, l ++ all_dims k ss)%list
  | None => (has_dims k ss -> dget (s_dims (fold_left psm ss s)) k = Some (tt, all_dims k ss)) /\
            (~ has_dims k ss -> dget (s_dims (fold_left psm ss s)) k = None)
  end.
Proof.
  induction 1 as [|t ss Ht _ IH]; intros s k.
  - destruct (dget (s_dims s) k) as [[[] l]|] eqn:E; cbn.
    + now rewrite app_nil_r.
    + split; [intros (? & [] & _)|auto].
  - cbn [fold_left]. specialize (IH (psm s t) k). cbn [psm s_dims] in IH.
    rewrite (fold_pm_get join_unit _ _ k (proj1 Ht)) in IH.
    cbn [all_dims flat_map]. fold (all_dims k ss). unfold dims_of at 1 2.
    destruct (dget (s_dims t) k) as [[x1 l1]|] eqn:Et.
    + destruct (dget (s_dims s) k) as [[x l]|].
      * rewrite IH. now rewrite <- app_assoc.
      * split; [intros _; exact IH|]. intro H. destruct H. exists t. split; [now left|].
        apply dmem_in. unfold dmem. now rewrite Et.
    + destruct (dget (s_dims s) k) as [[x l]|]; [exact IH|].
      assert (Hiff : has_dims k (t :: ss) <-> has_dims k ss).
      { split; [|intros (s0 & Hs & Hk); exists s0; split; [now right|auto]].
        intros (s0 & [->|Hs] & Hk); [apply dget_none in Et; contradiction|]. now exists s0. }
      rewrite Hiff. exact IH.
Qed.
