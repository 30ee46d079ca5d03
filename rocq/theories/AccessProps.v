(** C50: the accessors of arrays and datasets.  C51: similar arrays. *)
From Verif Require Import PyDictFacts CFSearchProofs CFSearchProps CFFormatProps AccessSpec.
Open Scope string_scope.

(** *** Category and CF name of an array *)
Theorem C50_category a : get_category a = Coords <-> own_coordinate a.
Proof.
  unfold get_category, own_coordinate. destruct (da_name (x_da a)) as [n|].
  - destruct (existsb (String.eqb n) (x_dims a) || dmem (x_coords a) n) eqn:E.
    + split; auto. intros _. exists n. split; auto. apply orb_true_iff in E. destruct E as [E|E].
      * left. apply existsb_exists in E. destruct E as (x & Hx & Ex). apply String.eqb_eq in Ex. now subst.
      * right. now apply dmem_in.
    + split; [discriminate|]. intros (m & Em & H). injection Em as <-. apply orb_false_iff in E. destruct E as [E1 E2].
      destruct H as [H|H].
      * rewrite <- not_true_iff_false in E1. exfalso. apply E1. apply existsb_exists. exists n. split; auto. apply String.eqb_refl.
      * apply dmem_in in H. congruence.
  - split; [discriminate|]. intros (m & Em & _). discriminate.
Qed.
(** The CF name: that of the first entry that matches, in the category of the array if there is
    one there, else in the other category. *)
Theorem C50_match s a loc r : no_empty_name s -> specs_match s a loc = Ok r ->
  match r with
  | Some (c, n) => first_entry s loc (x_da a) c n /\
      (c <> get_category a -> forall m, ~ entry_matches s loc (x_da a) (get_category a) m)
  | None => forall c m, ~ entry_matches s loc (x_da a) c m
  end.
Proof.
  intros Hne H. unfold specs_match in H.
  assert (HC : forall c m, match_any (sp_sg s) (sp_cat s c) (x_da a) loc = Ok m ->
            match m with
            | Some n => nonempty n = true /\ first_entry s loc (x_da a) c n
            | None => forall k, ~ entry_matches s loc (x_da a) c k
            end).
  { intros c m Hm. assert (HM := C29_match _ _ _ _ _ Hm). destruct m as [n|].
    - split; [|exact HM]. destruct HM as (b & sp & af & E & _). destruct n; auto. exfalso. apply (Hne c). rewrite E.
      unfold dkeys. rewrite map_app. cbn. apply in_or_app. right. now left.
    - intros k (sp & Hin & Hk). exact (HM k sp Hin Hk). }
  assert (HL : forall c, match_cats s (x_da a) loc [c; other c] = Ok r ->
            match r with
            | Some (c', n) => first_entry s loc (x_da a) c' n /\ (c' <> c -> forall m, ~ entry_matches s loc (x_da a) c m)
            | None => forall c' m, ~ entry_matches s loc (x_da a) c' m
            end).
  { intros c HH. cbn [match_cats] in HH.
    destruct (match_any (sp_sg s) (sp_cat s c) (x_da a) loc) as [m1|e] eqn:E1; cbn [bind] in HH; [|discriminate].
    assert (H1 := HC _ _ E1). destruct m1 as [n|].
    - destruct H1 as [N1 H1]. rewrite N1 in HH. injection HH as <-. split; [exact H1|intro X; now destruct X].
    - destruct (match_any (sp_sg s) (sp_cat s (other c)) (x_da a) loc) as [m2|e] eqn:E2; cbn [bind] in HH; [|discriminate].
      assert (H2 := HC _ _ E2). destruct m2 as [n|].
      + destruct H2 as [N2 H2]. rewrite N2 in HH. injection HH as <-. split; auto.
      + injection HH as <-. intros c' m. destruct c, c'; auto. }
  destruct (get_category a); apply (HL _ H).
Qed.
(** Without surprise in the attributes (C29), it does not fail. *)
Theorem C50_match_total s a loc : simple_loc loc -> (forall c, fair (sp_cat s c) (x_da a)) -> exists r, specs_match s a loc = Ok r.
Proof.
  intros Hl Hf. unfold specs_match.
  assert (HL : forall cats, exists r, match_cats s (x_da a) loc cats = Ok r).
  { induction cats as [|c cats IH]; cbn [match_cats]; [eauto|].
    destruct (C29_match_total (sp_sg s) (sp_cat s c) (x_da a) loc Hl (Hf c)) as [m ->]. cbn [bind].
    destruct m as [n|]; auto. destruct (nonempty n); eauto. }
  apply HL.
Qed.

(** *** Histories *)
Lemma keeps_match a o c m : ac_match c = Some m -> ac_match (snd (astep (a, c) o)) = Some m.
Proof.
  intro H. assert (HN : forall a, acc_match a c = (Ok m, c)) by (intro; unfold acc_match; now rewrite H).
  assert (HA : forall a r c', acc_attrs a c = (r, c') -> ac_match c' = Some m).
  { intros a0 r c'. unfold acc_attrs. destruct (ac_attrs c); [intro E; injection E as _ <-; exact H|].
    unfold mbind at 1. rewrite HN. unfold mbind, lift, modify, ret.
    match goal with |- context [match ?z with Ok _ => _ | Raise _ => _ end] => destruct z as [at_|e] end; intro E; injection E as _ <-; cbn; exact H. }
  destruct o as [s| |  | |n|k]; cbn [astep snd]; auto.
  - unfold acc_name, mbind. rewrite HN. exact H.
  - destruct (acc_attrs a c) as [r c'] eqn:E. cbn. now apply (HA a r).
  - unfold acc_getattr, acc_name, mbind. rewrite HN. cbn [ret].
    destruct (truthy (option_map snd m)).
    + destruct (acc_attrs a c) as [[at_|e] c'] eqn:E; cbn [snd]; [|now apply (HA a _ _ E)].
      assert (Hc' := HA a _ _ E). destruct (dget at_ n); [exact Hc'|]. unfold acc_search, lift. exact Hc'.
    + exact H.
  - unfold acc_sub_specs. destruct (ac_sub c k); auto.
Qed.
(** Once it was read, the CF name does not change any more, whatever happens to the array and to
    the specifications. *)
Theorem C50_name_sticky a c n c' : acc_name a c = (Ok n, c') ->
  forall ops a' c'', arun (a, c') ops = (a', c'') -> forall b, fst (acc_name b c'') = Ok n.
Proof.
  intros H ops.
  assert (Hm : exists m, ac_match c' = Some m /\ n = option_map snd m).
  { unfold acc_name, mbind in H. destruct (acc_match a c) as [[m|e] c1] eqn:E; cbn in H; [|discriminate].
    injection H as <- <-. exists m. split; auto. unfold acc_match in E. destruct (ac_match c) eqn:Ec.
    - injection E as <- <-. exact Ec.
    - destruct (prop _); [|discriminate]. injection E as <- <-. reflexivity. }
  clear H. destruct Hm as (m & Hm & ->). revert a c' Hm. induction ops as [|o ops IH]; intros a0 c0 Hm a' c'' E b.
  - cbn in E. injection E as <- <-. unfold acc_name, mbind, acc_match. rewrite Hm. reflexivity.
  - cbn [arun fold_left] in E. destruct (astep (a0, c0) o) as [a1 c1] eqn:E1.
    apply (IH a1 c1 ltac:(assert (X := keeps_match a0 o c0 m Hm); rewrite E1 in X; exact X) a' c'' E b).
Qed.
(** As long as it was not read, it is that of the array and of the specifications as they are now. *)
Theorem C50_name_fresh a s ops a' c' : forallb (fun o => negb (reads o)) ops = true ->
  arun (a, new_acc s) ops = (a', c') ->
  fst (acc_name (last_array a ops) c') = let* m := prop (specs_match (last_specs s ops) (last_array a ops) (MStr "any")) in Ok (option_map snd m).
Proof.
  intros Hr E.
  assert (HN : ac_match c' = None /\ ac_specs c' = last_specs s ops).
  { assert (X : forall ops a c, forallb (fun o => negb (reads o)) ops = true -> ac_match c = None ->
            forall a' c', arun (a, c) ops = (a', c') -> ac_match c' = None /\ ac_specs c' = last_specs (ac_specs c) ops).
    { clear. induction ops as [|o ops IH]; intros a c Hr Hc a' c' E.
      - cbn in E. injection E as <- <-. auto.
      - cbn [forallb] in Hr. apply andb_true_iff in Hr. destruct Hr as [H1 H2]. cbn [arun fold_left] in E.
        destruct (astep (a, c) o) as [a1 c1] eqn:E1. 
        assert (Y : ac_match c1 = None /\ ac_specs c1 = match o with SetSpecs s' => s' | _ => ac_specs c end).
        { destruct o; try discriminate; cbn [astep] in E1; injection E1 as <- <-; auto.
          unfold acc_sub_specs. destruct (ac_sub c c0); auto. }
        destruct Y as [Y1 Y2]. destruct (IH a1 c1 H2 Y1 _ _ E) as [Z1 Z2]. split; auto. rewrite Z2, Y2. reflexivity. }
    apply (X ops a (new_acc s) Hr eq_refl a' c' E). }
  destruct HN as [HN HS]. unfold acc_name, mbind, acc_match. rewrite HN, HS. destruct (prop _); reflexivity.
Qed.
(** The array is the current one. *)
Theorem C50_array a c ops : fst (arun (a, c) ops) = last_array a ops.
Proof.
  unfold arun, last_array. revert a c. induction ops as [|o ops IH]; intros a c; [reflexivity|]. cbn [fold_left].
  destruct o; cbn [astep]; apply IH.
Qed.
(** The same for the attributes. *)
Theorem C50_attrs_sticky a c at_ c' : acc_attrs a c = (Ok at_, c') ->
  forall ops a' c'', arun (a, c') ops = (a', c'') -> forall b, fst (acc_attrs b c'') = Ok at_.
Proof.
  intros H ops.
  assert (Hm : ac_attrs c' = Some at_).
  { unfold acc_attrs in H. destruct (ac_attrs c) eqn:Ec; [injection H as <- <-; exact Ec|].
    unfold mbind at 1 in H. destruct (acc_match a c) as [[m|e] c1]; [|discriminate].
    unfold mbind, lift, modify, ret in H.
    match type of H with context [match ?z with Ok _ => _ | Raise _ => _ end] => destruct z as [x|e] end; [|discriminate].
    injection H as <- <-. reflexivity. }
  clear H. revert a c' Hm. induction ops as [|o ops IH]; intros a0 c0 Hm a' c'' E b.
  - cbn in E. injection E as <- <-. unfold acc_attrs. rewrite Hm. reflexivity.
  - cbn [arun fold_left] in E. destruct (astep (a0, c0) o) as [a1 c1] eqn:E1.
    apply (IH a1 c1) with (2 := E).
    assert (HM : forall a, ac_attrs (snd (acc_match a c0)) = Some at_).
    { intro a2. unfold acc_match. destruct (ac_match c0); [exact Hm|]. destruct (prop _); exact Hm. }
    assert (HA : forall a, acc_attrs a c0 = (Ok at_, c0)) by (intro; unfold acc_attrs; now rewrite Hm).
    destruct o as [s| |  | |n|k]; cbn [astep] in E1; injection E1 as <- <-; auto.
    + unfold acc_name, mbind. specialize (HM a0). destruct (acc_match a0 c0) as [[m|e] c2]; exact HM.
    + now rewrite HA.
    + unfold acc_getattr, acc_name. unfold mbind at 1 2. specialize (HM a0). destruct (acc_match a0 c0) as [[m|e] c2]; [|exact HM].
      cbn [ret]. cbn in HM. destruct (truthy (option_map snd m)); [|exact HM].
      unfold mbind. unfold acc_attrs. rewrite HM. destruct (dget at_ n); exact HM.
    + unfold acc_sub_specs. destruct (ac_sub c0 k); auto.
Qed.
(** A sub-accessor keeps the specifications that the accessor had when it was first used. *)
Theorem C50_sub_sticky a c k : forall ops a' c'', arun (a, snd (acc_sub_specs c k)) ops = (a', c'') ->
  fst (acc_sub_specs c'' k) = fst (acc_sub_specs c k).
Proof.
  assert (Hm : ac_sub (snd (acc_sub_specs c k)) k = Some (fst (acc_sub_specs c k))).
  { unfold acc_sub_specs. destruct (ac_sub c k) eqn:E; [exact E|]. destruct k; reflexivity. }
  set (s := fst (acc_sub_specs c k)) in *. revert Hm. generalize (snd (acc_sub_specs c k)) as c0. intros c0 Hm ops. revert a c0 Hm.
  induction ops as [|o ops IH]; intros a0 c0 Hm a' c'' E.
  - cbn in E. injection E as <- <-. unfold acc_sub_specs. rewrite Hm. reflexivity.
  - cbn [arun fold_left] in E. destruct (astep (a0, c0) o) as [a1 c1] eqn:E1.
    apply (IH a1 c1) with (2 := E).
    assert (HM : forall a c0, ac_sub (snd (acc_match a c0)) = ac_sub c0).
    { intros a2 c2. unfold acc_match. destruct (ac_match c2); auto. destruct (prop _); auto. }
    assert (HA : forall a c0, ac_sub (snd (acc_attrs a c0)) = ac_sub c0).
    { intros a2 c2. unfold acc_attrs. destruct (ac_attrs c2); auto. unfold mbind at 1.
      assert (X := HM a2 c2). destruct (acc_match a2 c2) as [[m|e] c3]; [|exact X]. unfold mbind, lift, modify, ret.
      match goal with |- context [match ?z with Ok _ => _ | Raise _ => _ end] => destruct z as [x|e] end; exact X. }
    destruct o as [s'| |  | |n|k']; cbn [astep] in E1; injection E1 as <- <-; auto.
    + unfold acc_name, mbind. assert (X := HM a0 c0). destruct (acc_match a0 c0) as [[m|e] c2]; cbn in *; now rewrite X.
    + now rewrite HA.
    + unfold acc_getattr, acc_name. unfold mbind at 1 2. assert (X := HM a0 c0). destruct (acc_match a0 c0) as [[m|e] c2]; cbn [snd] in X; [|now rewrite <- X in Hm].
      cbn [ret]. destruct (truthy (option_map snd m)); [|cbn; now rewrite X].
      unfold mbind. assert (Y := HA a0 c2). destruct (acc_attrs a0 c2) as [[at_|e] c3]; cbn [snd] in Y; [|cbn; now rewrite Y, X].
      destruct (dget at_ n); cbn; now rewrite Y, X.
    + unfold acc_sub_specs. destruct (ac_sub c0 k') eqn:Ek; auto. cbn. destruct k, k'; auto; congruence.
Qed.

(** *** Attributes of the accessor *)
(** An attribute is one of the CF attributes of the array, if it is recognised and has it; else
    the coordinate that the specifications find under this name (C29_single), and None without
    coordinate. *)
Theorem C50_getattr a c attr v c' : acc_getattr a attr c = (Ok v, c') ->
  exists n c1, acc_name a c = (Ok n, c1) /\
    match (match n with Some m => if nonempty m then match acc_attrs a c1 with (Ok at_, _) => dget at_ attr | _ => None end else None | None => None end) with
    | Some x => v = GAttr x
    | None => exists r, search_single (sp_sg (ac_specs c)) (sp_cat (ac_specs c) Coords) (coord_items a) (name_arg attr) (MStr "any") EWarn = Ok r /\
                v = match r with Some (d, _) => GItem d | None => GNone end
    end.
Proof.
  intro H. unfold acc_getattr in H. unfold mbind at 1 in H. destruct (acc_name a c) as [[n|e] c1] eqn:EN; [|discriminate].
  exists n, c1. split; auto.
  assert (S1 : ac_specs c1 = ac_specs c).
  { unfold acc_name, mbind in EN. destruct (acc_match a c) as [[m|e] c2] eqn:E; cbn in EN; [|discriminate]. injection EN as _ <-.
    unfold acc_match in E. destruct (ac_match c); [now injection E as _ <-|]. destruct (prop _); [|discriminate]. now injection E as _ <-. }
  assert (HS : forall c2 r, ac_specs c2 = ac_specs c -> acc_search a attr c2 = (Ok v, r) ->
            exists r, search_single (sp_sg (ac_specs c)) (sp_cat (ac_specs c) Coords) (coord_items a) (name_arg attr) (MStr "any") EWarn = Ok r /\
                v = match r with Some (d, _) => GItem d | None => GNone end).
  { intros c2 r S2 HH. unfold acc_search, lift in HH. rewrite S2 in HH.
    destruct (search_single _ _ _ _ _ _) as [r0|e]; cbn [bind] in HH; [|discriminate]. injection HH as <- _. exists r0. split; auto. }
  destruct n as [m|]; cbn [truthy] in H; [|exact (HS _ _ S1 H)].
  destruct (nonempty m); [|exact (HS _ _ S1 H)].
  unfold mbind in H. destruct (acc_attrs a c1) as [[at_|e] c2] eqn:EA; [|discriminate].
  destruct (dget at_ attr) as [x|]; [unfold ret in H; now injection H as <- _|].
  apply (HS c2 c'); auto. rewrite <- S1. clear -EA. unfold acc_attrs in EA. destruct (ac_attrs c1); [now injection EA as _ <-|].
  unfold mbind at 1 in EA. assert (X : ac_specs (snd (acc_match a c1)) = ac_specs c1).
  { unfold acc_match. destruct (ac_match c1); auto. destruct (prop _); auto. }
  destruct (acc_match a c1) as [[m|e] c3]; [|discriminate]. unfold mbind, lift, modify, ret in EA.
  match type of EA with context [match ?z with Ok _ => _ | Raise _ => _ end] => destruct z as [y|e] end; [|discriminate].
  injection EA as _ <-. exact X.
Qed.
(** The CF attributes, when they are read first: those of the array (standard_name and long_name
    at most reformatted), completed with the first declared value of the missing ones. *)
Theorem C50_attrs a c at_ c' c1 cat n sp : ac_attrs c = None -> acc_match a c = (Ok (Some (cat, n)), c1) ->
  let s := ac_specs c in
  dget (sp_cat s cat) n = Some sp -> dict_wf (s_attrs sp) -> dict_wf (da_attrs (x_da a)) ->
  acc_attrs a c = (Ok at_, c') ->
  forall k,
    (forall v, dget (da_attrs (x_da a)) k = Some v -> exists v', dget at_ k = Some v' /\ formatted (sp_sg s) LNone true k v v') /\
    (dget (da_attrs (x_da a)) k = None -> k <> "name" ->
       match default_of sp k with
       | None => dget at_ k = None
       | Some t => (~ located_attr k -> dget at_ k = Some (VStr t)) /\
                   (located_attr k -> exists w1 w2, format_str (sp_sg s) k t LNone true = Ok w1 /\
                      format_str (sp_sg s) k w1 LNone true = Ok w2 /\ dget at_ k = Some (VStr w2))
       end).
Proof.
  intros Hna HM s Hs Hw Hwa H k. unfold acc_attrs in H. rewrite Hna in H. unfold mbind at 1 in H. rewrite HM in H.
  assert (S1 : ac_specs c1 = s).
  { unfold acc_match in HM. destruct (ac_match c); [now injection HM as _ <-|]. destruct (prop _); [|discriminate]. now injection HM as _ <-. }
  unfold mbind, lift, modify, ret in H. rewrite S1 in H.
  destruct (get_attrs (sp_sg s) (sp_cat s cat) n [] None EWarn LNone true true []) as [r|e] eqn:EA; cbn [bind prop] in H; [|destruct e; discriminate].
  destruct (patch_attrs (sp_sg s) (da_attrs (x_da a)) (fst r) LNone true false) as [a1|e] eqn:Ea; cbn [prop] in H; [|destruct e; discriminate].
  injection H as <- _.
  assert (Hwp : dict_wf (fst r)).
  { unfold get_attrs in EA. rewrite Hs in EA.
    destruct (format_attrs (sp_sg s) (dupdate (spec_attrs true (s_attrs sp)) []) LNone true) as [b|e] eqn:E; cbn [bind] in EA; [|discriminate].
    injection EA as <-. cbn [fst]. destruct (format_attrs_formatted _ _ _ _ _ E) as [HK _].
    apply (dict_wf_keys _ _ (eq_sym HK)). exact (proj1 (spec_attrs_get true sp Hw)). }
  destruct (C27_patch_fill _ _ _ _ _ _ Hwp Ea) as (a0 & Ef & Hk). specialize (Hk k). destruct Hk as [K1 K2].
  destruct (format_attrs_formatted _ _ _ _ _ Ef) as [_ HV]. specialize (HV k).
  assert (HG := C48_get_attrs _ _ _ _ _ _ _ _ _ _ _ _ Hs Hw (NoDup_nil _ : dict_wf (@nil (string * aval))) EA k).
  cbn [dget] in HG.
  split.
  - intros v Hv. rewrite Hv in HV. destruct HV as (v' & E & F). exists v'. auto.
  - intros Hn Hne. specialize (K2 Hn). assert (HVk := valid_located k Hne).
    assert (EVk : ~ located_attr k -> is_valid_attr k = false) by (rewrite <- not_true_iff_false; tauto).
    unfold offered, default_of in *. destruct (dget (s_attrs sp) k) as [[[|t l]|t|]|].
    + rewrite HG in K2. exact K2.
    + cbn [andb] in HG. destruct (located_dec k) as [L|L].
      * split; [contradiction|]. intros _.
        assert (EL : (String.eqb k "standard_name" || String.eqb k "long_name") = true).
        { destruct L as [->| ->]; reflexivity. }
        rewrite EL in HG. destruct HG as (v' & E & [_ F]). specialize (F L). cbn in F. destruct F as (l' & -> & F).
        inversion F as [|? w ? l2 Hw1 _]; subst. rewrite E in K2. rewrite (proj2 HVk L) in K2.
        destruct K2 as (s' & l'' & w2 & El & Hw2 & Hd). injection El as <- <-. exists w, w2. auto.
      * split; [|contradiction]. intros _.
        assert (EL : (String.eqb k "standard_name" || String.eqb k "long_name") = false).
        { unfold located_attr in L. apply orb_false_iff. split; apply String.eqb_neq; tauto. }
        rewrite EL in HG. destruct HG as (v' & E & [F _]). rewrite (F L) in E. rewrite E in K2.
        rewrite EVk in K2 by exact L. exact K2.
    + destruct HG as (v' & E & F1 & F2). destruct (located_dec k) as [L|L].
      * split; [contradiction|]. intros _. specialize (F2 L). cbn in F2. destruct F2 as (w & Hw1 & ->).
        rewrite E, (proj2 HVk L) in K2. destruct K2 as (w2 & Hw2 & Hd). exists w, w2. auto.
      * split; [|contradiction]. intros _. rewrite (F1 L) in E. rewrite E in K2.
        rewrite EVk in K2 by exact L. exact K2.
    + destruct HG as (v' & E & F1 & F2).
      assert (v' = VNone) by (destruct (located_dec k) as [L|L]; auto; specialize (F2 L); exact F2). subst v'.
      rewrite E in K2. exact K2.
    + rewrite HG in K2. exact K2.
Qed.

(** *** Dimensions and sub-accessors: [hasattr] is always true *)
Lemma prop_not_attr {A} (r : res A) : prop r <> Raise AttributeError.
Proof. destruct r as [x|[]]; discriminate. Qed.
Lemma match_not_attr a c : fst (acc_match a c) <> Raise AttributeError.
Proof.
  unfold acc_match. destruct (ac_match c); [discriminate|].
  assert (X := prop_not_attr (specs_match (ac_specs c) a (MStr "any"))). destruct (prop _); [discriminate|]. cbn. congruence.
Qed.
Lemma attrs_not_attr a c : fst (acc_attrs a c) <> Raise AttributeError.
Proof.
  unfold acc_attrs. destruct (ac_attrs c); [discriminate|]. unfold mbind at 1. assert (X := match_not_attr a c).
  destruct (acc_match a c) as [[m|e] c1]; cbn [fst] in *; [|congruence]. unfold mbind, lift, modify, ret.
  destruct m as [[cat n]|]; [|discriminate].
  match goal with |- context [prop ?z] => assert (Y := prop_not_attr z); destruct (prop z); [discriminate|cbn; congruence] end.
Qed.
Lemma search_unknown a attr c : nonempty attr = true -> dget (sp_cat (ac_specs c) Coords) attr = None ->
  acc_search a attr c = (Ok GNone, c).
Proof.
  intros Hn Hd. unfold acc_search, lift, name_arg. rewrite Hn.
  destruct (C29_unknown (sp_sg (ac_specs c)) _ (coord_items a) attr (MStr "any") Hd) as (_ & -> & _). reflexivity.
Qed.
Lemma match_specs_kept a c : ac_specs (snd (acc_match a c)) = ac_specs c.
Proof. unfold acc_match. destruct (ac_match c); auto. destruct (prop _); auto. Qed.
Lemma attrs_specs_kept a c : ac_specs (snd (acc_attrs a c)) = ac_specs c.
Proof.
  unfold acc_attrs. destruct (ac_attrs c); auto. unfold mbind at 1. assert (X := match_specs_kept a c).
  destruct (acc_match a c) as [[m|e] c1]; [|exact X]. unfold mbind, lift, modify, ret.
  match goal with |- context [match ?z with Ok _ => _ | Raise _ => _ end] => destruct z end; exact X.
Qed.
(** Any name that the specifications do not know is an attribute: of the array, or None. *)
Theorem C50_any_attribute a c attr : attr <> "" -> dget (sp_cat (ac_specs c) Coords) attr = None ->
  match fst (acc_getattr a attr c) with
  | Ok (GItem _) => False
  | Ok _ => True
  | Raise e => e <> AttributeError
  end.
Proof.
  intros Hn Hd. assert (En : nonempty attr = true) by (destruct attr; auto; congruence).
  unfold acc_getattr, acc_name. unfold mbind at 1 2. assert (X := match_not_attr a c). assert (S1 := match_specs_kept a c).
  destruct (acc_match a c) as [[m|e] c1]; cbn [fst snd] in *; [|congruence]. cbn [ret].
  rewrite <- S1 in Hd. destruct (truthy (option_map snd m)); [|now rewrite search_unknown].
  unfold mbind. assert (Y := attrs_not_attr a c1). assert (S2 := attrs_specs_kept a c1).
  destruct (acc_attrs a c1) as [[at_|e] c2]; cbn [fst snd] in *; [|congruence].
  destruct (dget at_ attr); [exact Logic.I|]. rewrite <- S2 in Hd. now rewrite search_unknown.
Qed.
Lemma getattr_specs_kept a c attr : ac_specs (snd (acc_getattr a attr c)) = ac_specs c.
Proof.
  unfold acc_getattr, acc_name. unfold mbind at 1 2. assert (S1 := match_specs_kept a c).
  destruct (acc_match a c) as [[m|e] c1]; cbn [snd] in *; [|exact S1]. cbn [ret].
  destruct (truthy (option_map snd m)); [|exact S1].
  unfold mbind. assert (S2 := attrs_specs_kept a c1). destruct (acc_attrs a c1) as [[at_|e] c2]; cbn [snd] in *; [|congruence].
  destruct (dget at_ attr); cbn; congruence.
Qed.
(** False: [xdim], [ydim]... are dimensions of the array.  They always fail, as soon as the
    specifications do not have a coordinate called _dims. *)
Theorem C50_get_dim_refuted item a c t : ac_dims c = None -> dget (sp_cat (ac_specs c) Coords) "_dims" = None ->
  exists e, fst (acc_get_dim item a t c) = Raise e.
Proof.
  intros Hn Hd. unfold acc_get_dim. rewrite Hn. unfold mbind at 1. unfold hasattr.
  assert (X := C50_any_attribute a c "_dims" ltac:(discriminate) Hd). assert (S1 := getattr_specs_kept a c "_dims").
  destruct (acc_getattr a "_dims" c) as [[v|e] c1]; cbn [fst snd] in *.
  - rewrite <- S1 in Hd. assert (Y := C50_any_attribute a c1 "_dims" ltac:(discriminate) Hd).
    unfold mbind. destruct (acc_getattr a "_dims" c1) as [[w|e] c2]; cbn [fst snd lift] in *; [|eauto].
    destruct w; [eexists; reflexivity|eexists; reflexivity|destruct Y].
  - destruct e; cbn; try (eexists; reflexivity); congruence.
Qed.
(** False: the attribute [cf] of the xoa accessor is the CF accessor.  It is None. *)
Theorem C50_xoa_cf_refuted a c : dget (sp_cat (ac_specs c) Coords) "_cf" = None ->
  match fst (xoa_cf a c) with
  | Ok NewAccessor | Ok (Val (GItem _)) => False
  | _ => True
  end.
Proof.
  intro Hd. unfold xoa_cf. unfold mbind at 1, hasattr.
  assert (X := C50_any_attribute a c "_cf" ltac:(discriminate) Hd). assert (S1 := getattr_specs_kept a c "_cf").
  destruct (acc_getattr a "_cf" c) as [[v|e] c1]; cbn [fst snd] in *.
  - rewrite <- S1 in Hd. assert (Y := C50_any_attribute a c1 "_cf" ltac:(discriminate) Hd).
    unfold mbind. destruct (acc_getattr a "_cf" c1) as [[w|e] c2]; cbn [fst ret] in *; auto.
  - destruct e; cbn; try exact Logic.I; congruence.
Qed.
(** An attribute of the accessor of a dataset: the best match in the data variables, else in the
    coordinates, else None. *)
Theorem C50_ds_attribute s items attr : attr <> "" ->
  (forall c o, In o (items c) -> fair (sp_cat s c) o) -> (forall c, distinct_names (items c)) ->
  let among c o := exists sp c1 k c2 o1 o2, dget (sp_cat s c) attr = Some sp /\ criteria attr sp = (c1 ++ k :: c2)%list /\
      items c = (o1 ++ o :: o2)%list /\ meets (sp_sg s) (MStr "any") o k /\
      (forall c' o', In c' c1 -> In o' (items c) -> ~ meets (sp_sg s) (MStr "any") o' c') /\ (forall o', In o' o1 -> ~ meets (sp_sg s) (MStr "any") o' k) in
  let none c := no_match (sp_sg s) (MStr "any") attr (sp_cat s c, items c) in
  (exists o, ds_getattr s items attr = Ok (GItem o) /\ (among DataVars o \/ none DataVars /\ among Coords o)) \/
  ds_getattr s items attr = Ok GNone /\ none DataVars /\ none Coords.
Proof.
  intros Hn Hf Hd among none. assert (En : nonempty attr = true) by (destruct attr; auto; congruence).
  unfold ds_getattr, name_arg. rewrite En. unfold specs_search. cbn [used_categories map].
  set (cats := [_; _]).
  destruct (C29_search_cats_total (sp_sg s) cats attr (MStr "any") EWarn) as [[r Hr]|[E _]]; [right; reflexivity| |  |discriminate].
  { intros c o [<-|[<-|[]]] Ho; cbn [fst snd] in *; now apply Hf. }
  rewrite Hr. cbn [bind]. assert (Hd' : forall c, In c cats -> distinct_names (snd c)) by (intros c [<-|[<-|[]]]; cbn [snd]; apply Hd).
  assert (HR := C29_search_cats _ _ _ _ _ _ Hd' Hr). destruct r as [[o m]|]; cbn [gitem].
  - left. exists o. split; [reflexivity|].
    destruct HR as (-> & b & cs & ob & a & sp & E & Hb & Es & c1 & c & c2 & o1 & o2 & E1 & E2 & Hm & H1 & H2).
    destruct b as [|b0 [|b1 b]].
    + left. injection E as E3 E4 _. subst cs ob. exists sp, c1, c, c2, o1, o2. auto 10.
    + right. injection E as E0 E3 E4 _. subst cs ob b0. split; [exact (Hb _ (or_introl eq_refl))|]. exists sp, c1, c, c2, o1, o2. auto 10.
    + exfalso. apply (f_equal (@List.length _)) in E. unfold cats in E. rewrite app_length in E. cbn in E. lia.
  - right. destruct HR as [_ HR]. split; [reflexivity|]. split; apply HR; [now left|right; now left].
Qed.
(** The same for datasets, and for [ds.xoa.decode_sigma]. *)
Theorem C50_ds_lazy_refuted s items attr : attr <> "" -> (forall c, dget (sp_cat s c) attr = None) ->
  ds_lazy s items attr = Ok (Val GNone).
Proof.
  intros Hn Hd. assert (En : nonempty attr = true) by (destruct attr; auto; congruence).
  unfold ds_lazy, ds_getattr, name_arg. rewrite En. unfold specs_search. cbn [used_categories map search_cats fst snd].
  destruct (C29_unknown (sp_sg s) _ (items DataVars) attr (MStr "any") (Hd DataVars)) as (_ & _ & ->). cbn [bind].
  destruct (C29_unknown (sp_sg s) _ (items Coords) attr (MStr "any") (Hd Coords)) as (_ & _ & ->). reflexivity.
Qed.

(** *** Registration *)
(** When [cf] is not a name, the accessors of arrays and datasets are available under their
    default names, and the name given to [xoa] is not used. *)
Theorem C50_register x cf sg r k : (forall s, cf <> BName s) ->
  let r' := register_accessors x cf sg r in
  let main before := if on cf && String.eqb k "cfd" then Some CFAcc else if on x && String.eqb k "xoa" then Some XoaAcc else before in
  dget (r_arrays r') k = main (dget (r_arrays r) k) /\
  dget (r_datasets r') k =
    if on sg && String.eqb k (match sg with BName s => s | _ => "decode_sigma" end) then Some SigmaAcc else main (dget (r_datasets r) k).
Proof.
  intros Hc r' main. assert (HN : forall d, named cf d = d) by (intro d; destruct cf; auto; destruct (Hc s); auto).
  unfold r', main, register_accessors. rewrite !HN.
  assert (HS : forall d, named sg d = match sg with BName s => s | _ => d end) by (destruct sg; reflexivity). rewrite HS.
  destruct (on cf), (on x), (on sg); cbn [r_arrays r_datasets andb]; rewrite ?dget_dset; auto.
Qed.
(** What a call asks for: True or a name that is not empty *)
Inductive asked : barg -> bool -> Prop :=
| asked_true : asked BTrue true
| asked_false : asked BFalse false
| asked_name s : s <> "" -> asked (BName s) true
| asked_empty : asked (BName "") false.
Theorem C50_register_asked x cf sg (bx bc bs : bool) r k : asked x bx -> asked cf bc -> asked sg bs -> (forall s, cf <> BName s) ->
  let r' := register_accessors x cf sg r in
  let main before := if bc && String.eqb k "cfd" then Some CFAcc else if bx && String.eqb k "xoa" then Some XoaAcc else before in
  dget (r_arrays r') k = main (dget (r_arrays r) k) /\
  dget (r_datasets r') k =
    if bs && String.eqb k (match sg with BName s => s | _ => "decode_sigma" end) then Some SigmaAcc else main (dget (r_datasets r) k).
Proof.
  intros Ax Ac As Hc. assert (O : forall b v, asked b v -> on b = v).
  { intros b v H. destruct H; try reflexivity. cbn. destruct s; [contradiction|reflexivity]. }
  rewrite <- (O _ _ Ax), <- (O _ _ Ac), <- (O _ _ As). now apply C50_register.
Qed.
Example ex_register : let r := register_accessors BTrue BFalse (BName "sigma") (mkreg [] []) in
  r_arrays r = [("xoa", XoaAcc)] /\ r_datasets r = [("xoa", XoaAcc); ("sigma", SigmaAcc)].
Proof. split; reflexivity. Qed.
(** False: with cf="cf", both accessors are registered, the main one as "xoa".  It is not
    registered at all. *)
Theorem C50_register_refuted s sg : s <> "" -> dget (r_arrays (register_accessors BTrue (BName s) sg (mkreg [] []))) s = Some CFAcc /\
  (s <> "xoa" -> dget (r_arrays (register_accessors BTrue (BName s) sg (mkreg [] []))) "xoa" = None) /\
  forall k, dget (r_arrays (register_accessors BTrue (BName s) sg (mkreg [] []))) k <> Some XoaAcc /\
    dget (r_datasets (register_accessors BTrue (BName s) sg (mkreg [] []))) k <> Some XoaAcc.
Proof.
  intro Hn. assert (En : nonempty s = true) by (destruct s; auto; congruence).
  assert (E : forall k, dget (r_arrays (register_accessors BTrue (BName s) sg (mkreg [] []))) k = if String.eqb k s then Some CFAcc else None).
  { intro k. unfold register_accessors. cbn [on named]. rewrite En. destruct (on sg); cbn [r_arrays]; rewrite !dget_dset; cbn; destruct (String.eqb k s); reflexivity. }
  split; [now rewrite E, String.eqb_refl|]. split.
  - intro H. rewrite E. destruct (String.eqb_spec "xoa" s); congruence.
  - intros k. split; [rewrite E; destruct (String.eqb k s); congruence|].
    unfold register_accessors. cbn [on named]. rewrite En. destruct (on sg); cbn [r_datasets]; rewrite !dget_dset; cbn;
      repeat match goal with |- context [String.eqb ?x ?y] => destruct (String.eqb x y) end; discriminate.
Qed.

(** *** Similar arrays *)
Lemma same_attr_iff d0 d1 k : text_attrs d0 -> text_attrs d1 -> exists b, same_attr d0 d1 k = Ok b /\ (b = true <-> same_text_attr d0 d1 k).
Proof.
  intros H0 H1. unfold same_attr, same_text_attr. destruct (dget (da_attrs d0) k) as [v0|] eqn:E0.
  - destruct (H0 k v0 E0) as [s0 ->]. destruct (dget (da_attrs d1) k) as [v1|] eqn:E1.
    + destruct (H1 k v1 E1) as [s1 ->]. eexists. split; [reflexivity|]. rewrite String.eqb_eq. split.
      * intro E. exists s0, s1. auto.
      * intros (a & b & Ea & Eb & E). congruence.
    + exists false. split; auto. split; [discriminate|]. intros (a & b & _ & Eb & _). discriminate.
  - exists false. split; [reflexivity|]. split; [discriminate|]. intros (a & b & Ea & _). discriminate.
Qed.
(** With an accessor called "cf" and attributes that are texts: the same standard_name, CF name,
    name or long_name. *)
Theorem C51_similar f d0 d1 : text_attrs d0 -> text_attrs d1 -> (forall d, exists n, f d = Ok n) ->
  exists b, are_similar (Some f) d0 d1 = Ok b /\
    (b = true <-> same_text_attr d0 d1 "standard_name" \/
       (exists n, n <> "" /\ f d0 = Ok (Some n) /\ f d1 = Ok (Some n)) \/
       (exists n, n <> "" /\ da_name d0 = Some n /\ da_name d1 = Some n) \/
       same_text_attr d0 d1 "long_name").
Proof.
  intros H0 H1 Hf. unfold are_similar. destruct (same_attr_iff d0 d1 "standard_name" H0 H1) as (b1 & -> & B1).
  destruct (same_attr_iff d0 d1 "long_name" H0 H1) as (b4 & E4 & B4). destruct (Hf d0) as [n0 E0]. destruct (Hf d1) as [n1 E1].
  cbn [bind cf_name_of]. destruct b1; [exists true; split; auto; split; auto; intros _; left; now apply B1|].
  assert (N1 : ~ same_text_attr d0 d1 "standard_name") by (intro X; apply B1 in X; discriminate).
  rewrite E0. cbn [bind].
  assert (HT : forall o o' : option string, truthy o && oeqb o o' = true <-> exists n, n <> "" /\ o = Some n /\ o' = Some n).
  { intros o o'. rewrite andb_true_iff, oeqb_iff. split.
    - intros [T ->]. destruct o' as [n|]; [|discriminate]. exists n. split; auto. intros ->. discriminate.
    - intros (n & Hn & -> & ->). split; auto. destruct n; auto; congruence. }
  assert (HF : (if truthy n0 then let* x := f d1 in Ok (truthy x && oeqb n0 x) else Ok false) = Ok (truthy n0 && oeqb n0 n1)).
  { rewrite E1. destruct n0 as [n|]; cbn [truthy bind andb]; auto. destruct (nonempty n) eqn:En; auto. cbn [andb]. f_equal.
    destruct n1 as [m|]; cbn [truthy]; auto. destruct (oeqb (Some n) (Some m)) eqn:E; [|apply andb_false_r].
    apply oeqb_iff in E. injection E as <-. now rewrite En. }
  rewrite HF. cbn [bind].
  destruct (truthy n0 && oeqb n0 n1) eqn:E2.
  { exists true. split; auto. split; auto. intros _. right. left. apply HT in E2. destruct E2 as (n & Hn & -> & ->). exists n. auto. }
  destruct (truthy (da_name d0) && oeqb (da_name d0) (da_name d1)) eqn:E3.
  { exists true. split; auto. split; auto. intros _. right. right. left. now apply HT. }
  exists b4. split; [exact E4|]. rewrite B4. split; [tauto|]. intros [X|[X|[X|X]]]; auto; exfalso.
  - contradiction.
  - rewrite <- not_true_iff_false in E2. apply E2, HT. destruct X as (n & Hn & Ea & Eb). exists n.
    split; auto. split; congruence.
  - rewrite <- not_true_iff_false in E3. now apply E3, HT.
Qed.
Theorem C51_symmetric f d0 d1 : text_attrs d0 -> text_attrs d1 -> (forall d, exists n, f d = Ok n) ->
  are_similar (Some f) d0 d1 = are_similar (Some f) d1 d0.
Proof.
  intros H0 H1 Hf. destruct (C51_similar f d0 d1 H0 H1 Hf) as (b & -> & B). destruct (C51_similar f d1 d0 H1 H0 Hf) as (b' & -> & B').
  f_equal. apply eq_true_iff_eq. rewrite B, B'. unfold same_text_attr.
  assert (HS : forall k, (exists s0 s1, dget (da_attrs d0) k = Some (VStr s0) /\ dget (da_attrs d1) k = Some (VStr s1) /\ lower s0 = lower s1) <->
                    (exists s0 s1, dget (da_attrs d1) k = Some (VStr s0) /\ dget (da_attrs d0) k = Some (VStr s1) /\ lower s0 = lower s1)).
  { intro k. split; intros (a & c & X & Y & Z); exists c, a; auto. }
  rewrite (HS "standard_name"), (HS "long_name").
  split; (intros [X|[(n & Hn & Ea & Eb)|[(n & Hn & Ea & Eb)|X]]]; [left; exact X|right; left; eauto|right; right; left; eauto|right; right; right; exact X]).
Qed.
(** Two arrays with a standard_name that is not a text can not be compared. *)
Theorem C51_not_text cfname d0 d1 v0 v1 : dget (da_attrs d0) "standard_name" = Some v0 -> dget (da_attrs d1) "standard_name" = Some v1 ->
  (forall s, v0 <> VStr s) \/ (forall s, v1 <> VStr s) -> are_similar cfname d0 d1 = Raise AttributeError.
Proof.
  intros H0 H1 H. unfold are_similar, same_attr. rewrite H0, H1. destruct v0 as [s| | |], v1 as [t| | |]; try reflexivity.
  destruct H as [H|H]; [now destruct (H s)|now destruct (H t)].
Qed.
(** False: two arrays can be compared without an accessor called "cf" (the default name is
    "cfd").  Only those with the same standard_name can. *)
Theorem C51_no_accessor_refuted d0 d1 : text_attrs d0 -> text_attrs d1 ->
  (same_text_attr d0 d1 "standard_name" -> are_similar None d0 d1 = Ok true) /\
  (~ same_text_attr d0 d1 "standard_name" -> are_similar None d0 d1 = Raise AttributeError).
Proof.
  intros H0 H1. unfold are_similar. destruct (same_attr_iff d0 d1 "standard_name" H0 H1) as (b1 & -> & B1).
  destruct b1; cbn; split; auto; intro X.
  - exfalso. apply X, B1. reflexivity.
  - apply B1 in X. discriminate.
Qed.
(** False: search_similar searches in the dataset.  It always fails with a dataset. *)
Theorem C51_search_dataset_refuted cfname items a : search_similar cfname true items a = Raise AttributeError.
Proof. reflexivity. Qed.
(** And with an array, the items that are scanned are the coordinates of the array that is
    searched for: the first one of them that is similar to the array. *)
Theorem C51_search_array f items a r : (forall d, In d (coord_items a) -> text_attrs d) -> text_attrs (x_da a) ->
  (forall d, exists n, f d = Ok n) -> search_similar (Some f) false items a = Ok r ->
  match r with
  | Some d => exists l1 l2, coord_items a = (l1 ++ d :: l2)%list /\ are_similar (Some f) d (x_da a) = Ok true /\
      forall d', In d' l1 -> are_similar (Some f) d' (x_da a) = Ok false
  | None => forall d', In d' (coord_items a) -> are_similar (Some f) d' (x_da a) = Ok false
  end.
Proof.
  intros Ht Ha Hf. unfold search_similar. induction (coord_items a) as [|x l IH]; cbn [first_similar]; intro H.
  - injection H as <-. intros d' [].
  - destruct (are_similar (Some f) x (x_da a)) as [b|e] eqn:E; cbn [bind] in H; [|discriminate]. destruct b.
    + injection H as <-. exists [], l. split; auto. split; auto. intros d' [].
    + specialize (IH (fun d Hd => Ht d (or_intror Hd)) H). destruct r as [d|].
      * destruct IH as (l1 & l2 & -> & H1 & H2). exists (x :: l1), l2. split; auto. split; auto. intros d' [<-|Hd]; auto.
      * intros d' [<-|Hd]; auto.
Qed.

(** *** Examples *)
Definition asp : specs := mkspecs fsg (fun c => match c with DataVars => fvars | Coords => fcoords end) [].
(** The same with a name for salinity instead *)
Definition asp2 : specs := mkspecs fsg (fun c => match c with DataVars => [("sal", mkspec "n" ["temperature"] [])] | Coords => fcoords end) [].
Definition ax : xda := mkxda (mkdarr (Some "temperature") [("long_name", VStr "ocean_temp"); ("units", VStr "K")]) ["y"; "x"]
  [("nav_lon", mkcda (mkdarr (Some "nav_lon") [("standard_name", VStr "longitude")]) ["y"; "x"]); ("nav_lat", mkcda (mkdarr (Some "nav_lat") [("standard_name", VStr "latitude")]) ["y"; "x"])].
Example ex_category : get_category ax = DataVars /\
  get_category (mkxda (mkdarr (Some "x") []) ["x"] []) = Coords /\ own_coordinate (mkxda (mkdarr (Some "x") []) ["x"] []).
Proof. repeat split. exists "x". split; [reflexivity|]. left. now left. Qed.
Example ex_name : fst (acc_name ax (new_acc asp)) = Ok (Some "temp") /\ no_empty_name asp.
Proof. split; [vm_compute; reflexivity|]. intros [] H; cbn in H; intuition discriminate. Qed.
(** A longitude is found in the coordinates, even when the array is one that has it as data *)
Example ex_other_category : specs_match asp (mkxda (mkdarr (Some "foo") [("standard_name", VStr "longitude")]) [] []) (MStr "any") = Ok (Some (Coords, "lon")).
Proof. vm_compute. reflexivity. Qed.
Example ex_attrs : exists c', acc_attrs ax (new_acc asp) =
  (Ok [("long_name", VStr "Ocean temp"); ("units", VStr "K"); ("standard_name", VStr "sea_water_temperature")], c').
Proof. eexists. vm_compute. reflexivity. Qed.
Example ex_attrs_hyps : exists c1 sp, ac_attrs (new_acc asp) = None /\ acc_match ax (new_acc asp) = (Ok (Some (DataVars, "temp")), c1) /\
  dget (sp_cat asp DataVars) "temp" = Some sp /\ dict_wf (s_attrs sp) /\ dict_wf (da_attrs (x_da ax)).
Proof.
  eexists. eexists. split; [reflexivity|]. split; [vm_compute; reflexivity|]. split; [reflexivity|].
  split; cbn; unfold dict_wf; cbn; repeat constructor; cbn; intuition discriminate.
Qed.
(** An attribute, a coordinate and nothing *)
Example ex_getattr : fst (acc_getattr ax "units" (new_acc asp)) = Ok (GAttr (VStr "K")) /\
  fst (acc_getattr ax "lon" (new_acc asp)) = Ok (GItem (mkdarr (Some "nav_lon") [("standard_name", VStr "longitude")])) /\
  fst (acc_getattr ax "foo" (new_acc asp)) = Ok GNone.
Proof. repeat split; vm_compute; reflexivity. Qed.
(** False: the name follows the specifications that are set.  It does only when the name was not
    read before. *)
Theorem C50_stale_refuted : exists w1 w2,
  w1 = arun (ax, new_acc asp) [SetSpecs asp2] /\ fst (acc_name (fst w1) (snd w1)) = Ok (Some "sal") /\
  w2 = arun (ax, new_acc asp) [Name; SetSpecs asp2] /\ fst (acc_name (fst w2) (snd w2)) = Ok (Some "temp") /\
  specs_match (ac_specs (snd w2)) (fst w2) (MStr "any") = Ok (Some (DataVars, "sal")).
Proof. eexists. eexists. split; [reflexivity|]. split; [vm_compute; reflexivity|]. split; [reflexivity|]. split; vm_compute; reflexivity. Qed.
Example ex_get_dim_hyps : ac_dims (new_acc asp) = None /\ dget (sp_cat asp Coords) "_dims" = None /\ dget (sp_cat asp Coords) "_cf" = None /\
  fst (acc_get_dim (fun _ _ => Ok GNone) ax "x" (new_acc asp)) = Raise TypeError /\ fst (xoa_cf ax (new_acc asp)) = Ok (Val GNone) /\
  (forall c, dget (sp_cat asp c) "_cf" = None).
Proof. repeat split; try (vm_compute; reflexivity). intros []; reflexivity. Qed.
(** An array whose standard_name is not a text: the name is read in an endless recursion *)
Theorem C50_recursion_refuted : fst (acc_name (mkxda (mkdarr (Some "foo") [("standard_name", VOther 1)]) [] []) (new_acc asp)) = Raise RecursionError.
Proof. vm_compute. reflexivity. Qed.

(** Similar arrays: being similar is not transitive *)
Definition sfun (d : darr) : res (option string) := let* m := specs_match asp (mkxda d [] []) (MStr "any") in Ok (option_map snd m).
Theorem C51_transitive_refuted : exists d0 d1 d2, (forall d, In d [d0; d1; d2] -> text_attrs d) /\
  are_similar (Some sfun) d0 d1 = Ok true /\ are_similar (Some sfun) d1 d2 = Ok true /\ are_similar (Some sfun) d0 d2 = Ok false.
Proof.
  exists (mkdarr (Some "a") [("long_name", VStr "foo")]), (mkdarr (Some "b") [("long_name", VStr "Foo")]), (mkdarr (Some "b") [("long_name", VStr "bar")]).
  split; [|repeat split; vm_compute; reflexivity].
  intros d Hd k v. destruct Hd as [<-|[<-|[<-|[]]]]; cbn; destruct (String.eqb k "long_name"); try discriminate; intro E; injection E as <-; eauto.
Qed.
Example ex_similar_cf : are_similar (Some sfun) (mkdarr (Some "temperature") []) (mkdarr None [("standard_name", VStr "sea_water_temperature")]) = Ok true.
Proof. vm_compute. reflexivity. Qed.
Example ex_search_array : search_similar (Some (fun _ => Ok None)) false []
    (mkxda (mkdarr (Some "x") []) ["x"] [("y", mkcda (mkdarr (Some "y") []) ["x"]); ("x", mkcda (mkdarr (Some "x") [("units", VStr "m")]) ["x"])]) =
  Ok (Some (mkdarr (Some "x") [("units", VStr "m")])).
Proof. vm_compute. reflexivity. Qed.
