(** C48: formatting of arrays and datasets with CF specifications. *)
From Verif Require Export CFFormatSpec SGLocProofs SGLocProps SGLocFmt PyDictFacts.
From Coq Require Import Lia.
Open Scope string_scope.

(** ** Option keys *)
Lemma oeqb_iff a b : oeqb a b = true <-> a = b.
Proof.
  unfold oeqb. destruct a, b; split; intro H; try discriminate; auto.
  - apply String.eqb_eq in H. congruence.
  - injection H as ->. apply String.eqb_refl.
Qed.
Lemma oeqb_false a b : oeqb a b = false <-> a <> b.
Proof. rewrite <- not_true_iff_false, oeqb_iff. reflexivity. Qed.
Lemma oget_set {V} (d : list (option string * V)) k v k' :
  oget (oset d k v) k' = if oeqb k' k then Some v else oget d k'.
Proof.
  induction d as [|[k0 v0] d IH]; cbn [oset oget].
  - destruct (oeqb k' k); reflexivity.
  - destruct (oeqb k k0) eqn:E; cbn [oget].
    + apply oeqb_iff in E. subst k0. destruct (oeqb k' k); reflexivity.
    + destruct (oeqb k' k0) eqn:E'; [|exact IH]. apply oeqb_iff in E'. subst k0.
      destruct (oeqb k' k) eqn:E2; [|reflexivity]. apply oeqb_iff in E2. subst. 
      apply oeqb_false in E. congruence.
Qed.
Lemma oexists_in x l : existsb (oeqb x) l = true <-> In x l.
Proof.
  rewrite existsb_exists. split.
  - intros (y & Hy & E). apply oeqb_iff in E. now subst.
  - intro H. exists x. split; auto. now apply oeqb_iff.
Qed.
Lemma odistinct_iff l : odistinct l = true <-> NoDup l.
Proof.
  induction l as [|x l IH]; cbn [odistinct]; [split; auto; constructor|].
  rewrite andb_true_iff, negb_true_iff, IH, <- not_true_iff_false, oexists_in.
  rewrite NoDup_cons_iff. tauto.
Qed.
Lemma oset_keys_in {V} (d : list (option string * V)) k v x : In x (map fst (oset d k v)) <-> x = k \/ In x (map fst d).
Proof.
  induction d as [|[k0 v0] d IH]; cbn [oset map fst In].
  - intuition.
  - destruct (oeqb k k0) eqn:E; cbn [map fst In].
    + apply oeqb_iff in E. subst. intuition.
    + rewrite IH. intuition.
Qed.

(** ** get_attrs *)
Lemma spec_attrs_gen multi d : forall a, dict_wf d -> (forall k, In k (dkeys d) -> ~ In k (dkeys a)) -> dict_wf a ->
  let r := fold_left (fun a kv => match declared_val multi (fst kv) (snd kv) with
                         | Some v => dset a (fst kv) v | None => a end) d a in
  dict_wf r /\ forall k, dget r k = match dget d k with
                      | Some v => declared_val multi k v
                      | None => dget a k end.
Proof.
  induction d as [|[k0 r0] d IH]; intros a Hw Hf Ha; cbn [fold_left fst snd dget].
  - split; auto.
  - assert (Hw' : dict_wf d) by (inversion Hw; auto). assert (Hn : ~ In k0 (dkeys d)) by (inversion Hw; auto).
    assert (Hk0 : ~ In k0 (dkeys a)) by (apply Hf; left; reflexivity).
    assert (Hf2 : forall k, In k (dkeys d) -> ~ In k (dkeys a)) by (intros k Hk; apply Hf; right; exact Hk).
    destruct (declared_val multi k0 r0) as [v|] eqn:E.
    + destruct (IH (dset a k0 v) Hw') as [I1 I2].
      { intros k Hk Hin. apply dmem_in in Hin. unfold dmem in Hin. rewrite dget_dset in Hin.
        destruct (String.eqb_spec k k0) as [->|Hne]; [contradiction|].
        apply (Hf2 k Hk). apply dmem_in. exact Hin. }
      { now apply dset_wf. }
      split; [exact I1|]. intro k. rewrite I2. destruct (String.eqb_spec k k0) as [->|Hne].
      * rewrite (proj2 (dget_none d k0) Hn), dget_dset, String.eqb_refl. congruence.
      * destruct (dget d k); auto. rewrite dget_dset. now rewrite (proj2 (String.eqb_neq _ _) Hne).
    + destruct (IH a Hw' Hf2 Ha) as [I1 I2]. split; [exact I1|]. intro k. rewrite I2.
      destruct (String.eqb_spec k k0) as [->|Hne]; auto.
      rewrite (proj2 (dget_none d k0) Hn), (proj2 (dget_none a k0) Hk0). congruence.
Qed.
Lemma spec_attrs_get multi sp : dict_wf (s_attrs sp) ->
  dict_wf (spec_attrs multi (s_attrs sp)) /\ forall k, dget (spec_attrs multi (s_attrs sp)) k = offered sp multi k.
Proof.
  intro Hw. destruct (spec_attrs_gen multi (s_attrs sp) [] Hw) as [H1 H2]; [intros k _ []|constructor|].
  split; [exact H1|]. intro k. unfold spec_attrs. rewrite H2. unfold offered.
  destruct (dget (s_attrs sp) k) as [[[|s l]|s|]|]; cbn [declared_val ref_val existsb]; auto.
  rewrite orb_false_r. destruct multi; cbn [negb orb andb]; auto.
  destruct (_ || _); reflexivity.
Qed.

Lemma located_dec k : located_attr k \/ ~ located_attr k.
Proof.
  unfold located_attr. destruct (String.eqb_spec k "standard_name"); auto.
  destruct (String.eqb_spec k "long_name"); auto. right. intuition.
Qed.
Lemma format_forall2 sg k loc std l : forall l', List.length l' = List.length l ->
  (forall i s, nth_error l i = Some s -> exists w, nth_error l' i = Some w /\ format_str sg k s loc std = Ok w) ->
  Forall2 (fun s w => format_str sg k s loc std = Ok w) l l'.
Proof.
  induction l as [|s l IH]; intros [|w l'] HL H; try discriminate; constructor.
  - destruct (H 0%nat s eq_refl) as (w' & E & F). cbn in E. congruence.
  - apply IH; [cbn in HL; lia|]. intros i s' Hs. exact (H (S i) s' Hs).
Qed.
Lemma format_attrs_formatted sg a loc std a' : format_attrs sg a loc std = Ok a' ->
  dkeys a' = dkeys a /\
  forall k, match dget a k with
            | None => dget a' k = None
            | Some v => exists v', dget a' k = Some v' /\ formatted sg loc std k v v'
            end.
Proof.
  intro H. destruct (C27_format_attrs sg a loc std a' H) as [HK HV]. split; auto. intro k.
  destruct (dget a k) as [v|] eqn:E.
  - destruct (HV k v E) as [H1 H2]. unfold formatted. destruct (located_dec k) as [L|L].
    + specialize (H2 L). destruct v as [s|l| |n].
      * destruct H2 as (w & F & G). exists (VStr w). split; auto. split; [contradiction|]. eauto.
      * destruct H2 as (l' & G & HL & F). exists (VList l'). split; auto. split; [contradiction|]. intros _.
        exists l'. split; auto. now apply format_forall2.
      * exists VNone. split; auto.
      * destruct H2.
    + exists v. unfold located_attr in L. split; [apply H1; tauto|]. split; auto. contradiction.
  - apply dget_none. rewrite HK. now apply dget_none.
Qed.
(** The attributes of an entry: every declared attribute (empty lists apart), the extra ones with
    priority, and nothing else; only standard_name and long_name are formatted. *)
Theorem C48_get_attrs sg cs n sp select exclude errors loc multi std extra r :
  dget cs n = Some sp -> dict_wf (s_attrs sp) -> dict_wf extra ->
  get_attrs sg cs n select exclude errors loc multi std extra = Ok r ->
  forall k, match (match dget extra k with Some v => Some v | None => offered sp multi k end) with
            | None => dget (fst r) k = None
            | Some v => exists v', dget (fst r) k = Some v' /\ formatted sg loc std k v v'
            end.
Proof.
  intros Hn Hw He H k. unfold get_attrs in H. rewrite Hn in H.
  destruct (format_attrs sg (dupdate (spec_attrs multi (s_attrs sp)) extra) loc std) as [a|e] eqn:E; cbn [bind] in H; [|discriminate].
  injection H as <-. cbn [fst]. destruct (format_attrs_formatted _ _ _ _ _ E) as [_ HF]. specialize (HF k).
  rewrite dget_dupdate, last_bound_wf in HF by auto. rewrite (proj2 (spec_attrs_get multi sp Hw)) in HF.
  destruct (dget extra k); exact HF.
Qed.
(** An unknown name: an error if [errors="raise"], otherwise no attribute, the extra ones
    included. *)
Theorem C48_get_attrs_unknown sg cs n select exclude errors loc multi std extra : dget cs n = None ->
  get_attrs sg cs n select exclude errors loc multi std extra =
  match errors with ERaise => Raise XoaCFError | _ => Ok ([], exclude) end.
Proof. intro H. unfold get_attrs. now rewrite H. Qed.
(** [select] and [exclude] have no effect on the result; a list given as [exclude] grows. *)
Theorem C48_select_ignored sg cs n select exclude errors loc multi std extra :
  match get_attrs sg cs n select exclude errors loc multi std extra, get_attrs sg cs n [] None errors loc multi std extra with
  | Ok (a, ex), Ok (a', ex') => a = a' /\ ex' = None /\
      (dget cs n <> None -> ex = match exclude with Some l => Some (l ++ dkeys extra)%list | None => None end)
  | Raise e, Raise e' => e = e'
  | _, _ => False
  end.
Proof.
  unfold get_attrs. destruct (dget cs n) as [sp|]; [|destruct errors; repeat split; congruence].
  destruct (format_attrs _ _ _ _) as [a|e]; cbn [bind]; [|reflexivity].
  repeat split. destruct exclude; auto.
Qed.

(** ** The core *)
Lemma patch_keep sg loc std replace patch : forall a a',
  fold_left (fun acc kv => let* a := acc in patch_entry sg loc std replace a kv) patch (Ok a) = Ok a' ->
  dict_wf a -> dict_wf a' /\ forall k, dget a' k = None -> dget a k = None.
Proof.
  induction patch as [|[k0 v0] patch IH]; intros a a' H Hw; cbn [fold_left] in H.
  - injection H as <-. split; auto.
  - cbn [bind] in H. destruct (patch_entry sg loc std replace a (k0, v0)) as [a1|e] eqn:E; [|rewrite patch_raise in H; discriminate].
    assert (H1 : dict_wf a1 /\ forall k, dget a1 k = None -> dget a k = None).
    { assert (HS : forall v, dict_wf (dset a k0 v) /\ forall k, dget (dset a k0 v) k = None -> dget a k = None).
      { intro v. split; [now apply dset_wf|]. intro k. rewrite dget_dset. destruct (String.eqb k k0); [discriminate|auto]. }
      unfold patch_entry in E. destruct v0 as [s|l| |m]; try (injection E as <-; now auto);
        destruct (dmem a k0 && negb replace); try (injection E as <-; now auto);
        destruct (is_valid_attr k0); try (injection E as <-; now apply HS);
        repeat match type of E with bind ?x _ = _ => destruct x as [?y|?y]; cbn [bind] in E; [|discriminate] end;
        injection E as <-; destruct y; try (now apply HS); try (split; now auto);
        destruct y0; try (now apply HS); (split; now auto). }
    destruct H1 as [W1 K1]. destruct (IH a1 a' H W1) as [W2 K2]. split; auto.
Qed.
Lemma dset_dkeys_same {V} (d : dict V) k v : In k (dkeys d) -> dkeys (dset d k v) = dkeys d.
Proof. intro H. rewrite dkeys_dset. apply dmem_in in H. now rewrite H. Qed.
Lemma dict_wf_keys {V} (d e : dict V) : dkeys d = dkeys e -> dict_wf d -> dict_wf e.
Proof. unfold dict_wf. now intros ->. Qed.
(** Attributes after SGLocator.format_dataarray *)
Lemma fda_attrs sg da loc std name patch rename replace da' : dict_wf (da_attrs da) ->
  format_dataarray sg da loc std name patch rename replace = Ok da' ->
  exists a, patch_attrs sg (da_attrs da) patch loc std replace = Ok a /\ forall k, dget (da_attrs da') k = dget a k.
Proof.
  intros Hw H. unfold format_dataarray in H.
  assert (EP : match patch with
            | [] => format_attrs sg (da_attrs da) loc std
            | _ => patch_attrs sg (da_attrs da) patch loc std replace
            end = patch_attrs sg (da_attrs da) patch loc std replace).
  { destruct patch; [|reflexivity]. unfold patch_attrs. rewrite patch_start. cbn [fold_left].
    destruct (format_attrs _ _ _ _); reflexivity. }
  rewrite EP in H. destruct (patch_attrs sg (da_attrs da) patch loc std replace) as [a|e] eqn:E; cbn [bind] in H; [|discriminate].
  exists a. split; auto. intro k.
  match type of H with bind ?x _ = _ => destruct x as [nn|e]; cbn [bind] in H; [|discriminate] end.
  injection H as <-. cbn [da_attrs]. rewrite dget_dupdate.
  unfold patch_attrs in E. rewrite patch_start in E.
  destruct (format_attrs sg (da_attrs da) loc std) as [a0|e] eqn:E0; cbn [bind] in E; [|discriminate].
  destruct (format_attrs_formatted _ _ _ _ _ E0) as [HK HV].
  destruct (patch_keep _ _ _ _ _ _ _ E (dict_wf_keys _ _ (eq_sym HK) Hw)) as [W N].
  rewrite last_bound_wf by exact W. destruct (dget a k) eqn:Ek; auto.
  specialize (N k Ek). apply dget_none. rewrite <- HK. now apply dget_none.
Qed.

Definition patch_of (sg : sgloc) (cs : catspecs) (n : string) (at_ : attrs_arg) : res attrs :=
  match at_ with
  | AttrsTrue => let* r := get_attrs sg cs n [] None EWarn LNone true false [] in Ok (fst r)
  | AttrsFalse => Ok []
  | AttrsDict a => Ok a
  end.
Lemma core_inv sg cs da name loc rename at_ std spe replace n sp r :
  cf_name_is sg cs da name n -> dget cs n = Some sp ->
  format_core sg cs da name loc rename at_ std spe replace = Ok r ->
  exists new patch da', r = Some (da', new) /\
    format_str sg "name" (short_name sp n spe) LNone true = Ok new /\
    patch_of sg cs n at_ = Ok patch /\
    format_dataarray sg da loc std (Some new) patch rename replace = Ok da'.
Proof.
  intros Hc Hs H. unfold format_core in H.
  assert (EN : match name with Some n => Ok (Some n) | None => match_any sg cs da (MStr "any") end = Ok (Some n)).
  { destruct Hc as [->|[-> Hm]]; auto. }
  rewrite EN in H. cbn [bind] in H. unfold dmem in H. rewrite Hs in H. cbn [negb] in H.
  fold (patch_of sg cs n at_) in H.
  assert (EG : get_name sg cs n spe LNone = format_str sg "name" (short_name sp n spe) LNone true).
  { unfold get_name, short_name. rewrite Hs. destruct spe; [|reflexivity]. destruct (s_names sp); reflexivity. }
  rewrite EG in H. destruct (format_str sg "name" (short_name sp n spe) LNone true) as [new|e]; cbn [bind] in H; [|discriminate].
  destruct (patch_of sg cs n at_) as [patch|e]; cbn [bind] in H; [|discriminate].
  destruct (format_dataarray sg da loc std (Some new) patch rename replace) as [da'|e] eqn:E; cbn [bind] in H; [|discriminate].
  injection H as <-. exists new, patch, da'. auto.
Qed.
(** Both ways of formatting an array of a category leave the same attributes. *)
Inductive produces (sg : sgloc) (cs : catspecs) (da : darr) (name : option string) (loc : larg)
    (at_ : attrs_arg) (std spe replace : bool) : darr -> Prop :=
| PRename x y rename_dim : f_da x = da -> cat_format sg cs x name loc at_ std spe rename_dim replace = Ok y ->
    produces sg cs da name loc at_ std spe replace (f_da y)
| PName da' o : format_name sg cs da name loc at_ std spe replace = Ok (da', o) ->
    produces sg cs da name loc at_ std spe replace da'.
Lemma rename_da d x y : xr_rename d x = Ok y -> f_da y = f_da x.
Proof.
  unfold xr_rename. destruct (negb _); [discriminate|]. destruct (odistinct _); [|discriminate].
  intro H. injection H as <-. reflexivity.
Qed.
Lemma produces_inv sg cs da name loc at_ std spe replace da' n sp :
  cf_name_is sg cs da name n -> dget cs n = Some sp -> produces sg cs da name loc at_ std spe replace da' ->
  exists rename new patch, format_str sg "name" (short_name sp n spe) LNone true = Ok new /\
    patch_of sg cs n at_ = Ok patch /\
    format_dataarray sg da loc std (Some new) patch rename replace = Ok da'.
Proof.
  intros Hc Hs HP. destruct HP as [x y rd Hx H|da' o H].
  - unfold cat_format in H. rewrite Hx in H.
    destruct (format_core sg cs da name loc true at_ std spe replace) as [r|e] eqn:E; cbn [bind] in H; [|discriminate].
    destruct (core_inv _ _ _ _ _ _ _ _ _ _ _ _ _ Hc Hs E) as (new & patch & d1 & -> & H1 & H2 & H3).
    exists true, new, patch. repeat split; auto.
    assert (EF : f_da y = d1).
    { destruct (da_name da); [|injection H as <-; reflexivity].
      destruct (f_dims x) as [|d [|]]; try (injection H as <-; reflexivity).
      destruct (rd && _); [|injection H as <-; reflexivity]. apply rename_da in H. exact H. }
    now rewrite EF.
  - unfold format_name in H.
    destruct (format_core sg cs da name loc false at_ std spe replace) as [r|e] eqn:E; cbn [bind] in H; [|discriminate].
    destruct (core_inv _ _ _ _ _ _ _ _ _ _ _ _ _ Hc Hs E) as (new & patch & d1 & -> & H1 & H2 & H3).
    exists false, new, patch. repeat split; auto.
    match type of H with bind ?z _ = _ => destruct z as [v|e]; cbn [bind] in H; [|discriminate] end.
    injection H as <- _. exact H3.
Qed.
Lemma get_attrs_wf sg cs n sp r : dget cs n = Some sp -> dict_wf (s_attrs sp) ->
  get_attrs sg cs n [] None EWarn LNone true false [] = Ok r -> dict_wf (fst r).
Proof.
  intros Hn Hw H. unfold get_attrs in H. rewrite Hn in H.
  destruct (format_attrs sg (dupdate (spec_attrs true (s_attrs sp)) []) LNone false) as [a|e] eqn:E; cbn [bind] in H; [|discriminate].
  injection H as <-. cbn [fst]. destruct (format_attrs_formatted _ _ _ _ _ E) as [HK _].
  apply (dict_wf_keys _ _ (eq_sym HK)). exact (proj1 (spec_attrs_get true sp Hw)).
Qed.
Lemma valid_located k : k <> "name" -> (is_valid_attr k = true <-> located_attr k).
Proof. intro Hk. rewrite valid_attr_iff. unfold known_attr, located_attr. intuition. Qed.

(** Formatting a recognised array without replacement: the attributes that it has stay (at most
    reformatted), the missing ones get the first declared value, and no other one appears. *)
Theorem C48_fill sg cs da name loc std spe da' n sp :
  cf_name_is sg cs da name n -> dget cs n = Some sp -> dict_wf (s_attrs sp) -> dict_wf (da_attrs da) ->
  produces sg cs da name loc AttrsTrue std spe false da' ->
  forall k,
    (forall v, dget (da_attrs da) k = Some v ->
       exists v', dget (da_attrs da') k = Some v' /\ formatted sg loc std k v v') /\
    (dget (da_attrs da) k = None -> k <> "name" ->
       match default_of sp k with
       | None => dget (da_attrs da') k = None
       | Some s => (~ located_attr k -> dget (da_attrs da') k = Some (VStr s)) /\
                   (located_attr k -> exists w1 w2, format_str sg k s LNone false = Ok w1 /\
                      format_str sg k w1 loc std = Ok w2 /\ dget (da_attrs da') k = Some (VStr w2))
       end).
Proof.
  intros Hc Hs Hw Hwa HP k.
  destruct (produces_inv _ _ _ _ _ _ _ _ _ _ _ _ Hc Hs HP) as (rename & new & patch & _ & Hp & HF).
  cbn [patch_of] in Hp. destruct (get_attrs sg cs n [] None EWarn LNone true false []) as [r|e] eqn:EA; cbn [bind] in Hp; [|discriminate].
  injection Hp as <-. assert (Hwp := get_attrs_wf _ _ _ _ _ Hs Hw EA).
  destruct (fda_attrs _ _ _ _ _ _ _ _ _ Hwa HF) as (a & Ea & Ha). rewrite !Ha. clear Ha.
  destruct (C27_patch_fill _ _ _ _ _ _ Hwp Ea) as (a0 & Ef & Hk). specialize (Hk k). destruct Hk as [K1 K2].
  destruct (format_attrs_formatted _ _ _ _ _ Ef) as [_ HV]. specialize (HV k).
  assert (HG := C48_get_attrs _ _ _ _ _ _ _ _ _ _ _ _ Hs Hw (NoDup_nil _ : dict_wf (@nil (string * aval))) EA k).
  cbn [dget] in HG.
  split.
  - intros v Hv. rewrite Hv in HV. destruct HV as (v' & E & F). exists v'. auto.
  - intros Hn Hne. specialize (K2 Hn). assert (HVk := valid_located k Hne).
    assert (EVk : ~ located_attr k -> is_valid_attr k = false) by (rewrite <- not_true_iff_false; tauto).
    unfold offered, default_of in *. destruct (dget (s_attrs sp) k) as [[[|s l]|s|]|].
    + rewrite HG in K2. exact K2.
    + cbn [andb] in HG. destruct (located_dec k) as [L|L].
      * split; [contradiction|]. intros _.
        assert (EL : (String.eqb k "standard_name" || String.eqb k "long_name") = true).
        { destruct L as [->| ->]; reflexivity. }
        rewrite EL in HG. destruct HG as (v' & E & [_ F]). specialize (F L). cbn in F. destruct F as (l' & -> & F).
        inversion F as [|? w ? l2 Hw1 _]; subst. rewrite E in K2. rewrite (proj2 HVk L) in K2.
        destruct K2 as (s' & l'' & w2 & El & Hw2 & Hd). injection El as <- <-. exists w, w2. auto.
      * split; [|contradiction]. intros _.
        assert (EL : (String.eqb k "standard_name" || String.eqb k "long_name") = false).
        { unfold located_attr in L. apply orb_false_iff. split; apply String.eqb_neq; tauto. }
        rewrite EL in HG. destruct HG as (v' & E & [F _]). rewrite (F L) in E. rewrite E in K2.
        rewrite EVk in K2 by exact L. exact K2.
    + destruct HG as (v' & E & F1 & F2). destruct (located_dec k) as [L|L].
      * split; [contradiction|]. intros _. specialize (F2 L). cbn in F2. destruct F2 as (w & Hw1 & ->).
        rewrite E, (proj2 HVk L) in K2. destruct K2 as (w2 & Hw2 & Hd). exists w, w2. auto.
      * split; [|contradiction]. intros _. rewrite (F1 L) in E. rewrite E in K2.
        rewrite EVk in K2 by exact L. exact K2.
    + destruct HG as (v' & E & F1 & F2).
      assert (v' = VNone) by (destruct (located_dec k) as [L|L]; auto; specialize (F2 L); exact F2). subst v'.
      rewrite E in K2. exact K2.
    + rewrite HG in K2. exact K2.
Qed.
(** With replacement, attributes without location get the first declared value. *)
Theorem C48_replace sg cs da name loc std spe da' n sp :
  cf_name_is sg cs da name n -> dget cs n = Some sp -> dict_wf (s_attrs sp) -> dict_wf (da_attrs da) ->
  produces sg cs da name loc AttrsTrue std spe true da' ->
  forall k, ~ located_attr k -> k <> "name" ->
    dget (da_attrs da') k = match default_of sp k with Some s => Some (VStr s) | None => dget (da_attrs da) k end.
Proof.
  intros Hc Hs Hw Hwa HP k L Hne.
  destruct (produces_inv _ _ _ _ _ _ _ _ _ _ _ _ Hc Hs HP) as (rename & new & patch & _ & Hp & HF).
  cbn [patch_of] in Hp. destruct (get_attrs sg cs n [] None EWarn LNone true false []) as [r|e] eqn:EA; cbn [bind] in Hp; [|discriminate].
  injection Hp as <-. assert (Hwp := get_attrs_wf _ _ _ _ _ Hs Hw EA).
  destruct (fda_attrs _ _ _ _ _ _ _ _ _ Hwa HF) as (a & Ea & Ha). rewrite !Ha. clear Ha.
  destruct (C27_patch_replace _ _ _ _ _ _ Hwp Ea) as (a0 & Ef & Hk). specialize (Hk k). destruct Hk as (K1 & K2 & _).
  destruct (format_attrs_formatted _ _ _ _ _ Ef) as [_ HV]. specialize (HV k).
  assert (E0 : dget a0 k = dget (da_attrs da) k).
  { destruct (dget (da_attrs da) k); [|exact HV]. destruct HV as (v' & E & F & _). now rewrite E, (F L). }
  assert (HG := C48_get_attrs _ _ _ _ _ _ _ _ _ _ _ _ Hs Hw (NoDup_nil _ : dict_wf (@nil (string * aval))) EA k).
  cbn [dget] in HG. assert (EV : is_valid_attr k = false).
  { destruct (is_valid_attr k) eqn:EV; auto. apply (valid_located k Hne) in EV. contradiction. }
  assert (EL : (String.eqb k "standard_name" || String.eqb k "long_name") = false).
  { unfold located_attr in L. apply orb_false_iff. split; apply String.eqb_neq; tauto. }
  unfold offered, default_of in *. rewrite EL in HG. rewrite andb_false_r in HG.
  destruct (dget (s_attrs sp) k) as [[[|s l]|s|]|].
  - rewrite K1 by auto. exact E0.
  - destruct HG as (v' & E & F & _). rewrite (F L) in E. now apply (K2 _ E).
  - destruct HG as (v' & E & F & _). rewrite (F L) in E. now apply (K2 _ E).
  - destruct HG as (v' & E & F & _). rewrite (F L) in E. rewrite K1 by auto. exact E0.
  - rewrite K1 by auto. exact E0.
Qed.
(** [attrs] given as a dictionary: these attributes only. *)
Theorem C48_given_attrs sg cs da name loc std spe da' n sp given :
  cf_name_is sg cs da name n -> dget cs n = Some sp -> dict_wf given -> dict_wf (da_attrs da) ->
  produces sg cs da name loc (AttrsDict given) std spe false da' ->
  forall k,
    (forall v, dget (da_attrs da) k = Some v ->
       exists v', dget (da_attrs da') k = Some v' /\ formatted sg loc std k v v') /\
    (dget (da_attrs da) k = None -> ~ located_attr k -> k <> "name" ->
       dget (da_attrs da') k = match dget given k with Some VNone => None | o => o end).
Proof.
  intros Hc Hs Hw Hwa HP k.
  destruct (produces_inv _ _ _ _ _ _ _ _ _ _ _ _ Hc Hs HP) as (rename & new & patch & _ & Hp & HF).
  cbn [patch_of] in Hp. injection Hp as <-.
  destruct (fda_attrs _ _ _ _ _ _ _ _ _ Hwa HF) as (a & Ea & Ha). rewrite !Ha. clear Ha.
  destruct (C27_patch_fill _ _ _ _ _ _ Hw Ea) as (a0 & Ef & Hk). specialize (Hk k). destruct Hk as [K1 K2].
  destruct (format_attrs_formatted _ _ _ _ _ Ef) as [_ HV]. specialize (HV k). split.
  - intros v Hv. rewrite Hv in HV. destruct HV as (v' & E & F). exists v'. auto.
  - intros Hn L Hne. specialize (K2 Hn).
    assert (EV : is_valid_attr k = false).
    { destruct (is_valid_attr k) eqn:EV; auto. apply (valid_located k Hne) in EV. contradiction. }
    rewrite EV in K2. destruct (dget given k) as [[]|]; exact K2.
Qed.

(** ** Names *)
(** An array that is not recognised is returned as it is, and the name is None. *)
Theorem C48_unmatched sg cs x loc at_ std spe rename_dim replace :
  match_any sg cs (f_da x) (MStr "any") = Ok None ->
  cat_format sg cs x None loc at_ std spe rename_dim replace = Ok x /\
  format_name sg cs (f_da x) None loc at_ std spe replace = Ok (f_da x, None).
Proof. intro H. unfold cat_format, format_name, format_core. rewrite H. split; reflexivity. Qed.
(** A name that is not in the specifications is refused. *)
Theorem C48_unknown sg cs x n loc at_ std spe rename_dim replace : dget cs n = None ->
  cat_format sg cs x (Some n) loc at_ std spe rename_dim replace = Raise AssertionError /\
  format_name sg cs (f_da x) (Some n) loc at_ std spe replace = Raise AssertionError.
Proof. intro H. unfold cat_format, format_name, format_core, dmem. cbn [bind]. rewrite H. split; reflexivity. Qed.
Lemma name_known : known_attr "name".
Proof. now left. Qed.
Lemma new_name_of sg old new loc v : merge_attr sg "name" (name_val old) (VStr new) loc true = Ok v ->
  exists w, v = VStr w.
Proof.
  unfold merge_attr. rewrite (proj2 (valid_attr_iff "name") name_known). cbn [negb].
  intro H. destruct old as [o|]; cbn [name_val] in H.
  - match type of H with bind ?z _ = _ => destruct z as [l|e]; cbn [bind] in H; [|discriminate] end.
    cbn [format_attr] in H. destruct (format_str sg "name" new l true) as [w|e]; cbn [bind] in H; [|discriminate].
    injection H as <-. eauto.
  - cbn [format_attr] in H. destruct (format_str sg "name" new loc true) as [w|e]; cbn [bind] in H; [|discriminate].
    injection H as <-. eauto.
Qed.
(** The name returned by the one is the name set by the other. *)
Theorem C48_same_name sg cs x name loc at_ std spe rename_dim replace n sp y da' o :
  cf_name_is sg cs (f_da x) name n -> dget cs n = Some sp ->
  cat_format sg cs x name loc at_ std spe rename_dim replace = Ok y ->
  format_name sg cs (f_da x) name loc at_ std spe replace = Ok (da', o) ->
  da_name (f_da y) = o /\ o <> None /\ da_attrs (f_da y) = da_attrs da'.
Proof.
  intros Hc Hs H1 H2. unfold cat_format in H1. unfold format_name in H2.
  destruct (format_core sg cs (f_da x) name loc true at_ std spe replace) as [r|e] eqn:E; cbn [bind] in H1; [|discriminate].
  destruct (core_inv _ _ _ _ _ _ _ _ _ _ _ _ _ Hc Hs E) as (new & patch & d1 & -> & N1 & N2 & N3).
  destruct (format_core sg cs (f_da x) name loc false at_ std spe replace) as [r|e] eqn:E'; cbn [bind] in H2; [|discriminate].
  destruct (core_inv _ _ _ _ _ _ _ _ _ _ _ _ _ Hc Hs E') as (new' & patch' & d2 & -> & N1' & N2' & N3').
  rewrite N1 in N1'. injection N1' as <-. rewrite N2 in N2'. injection N2' as <-.
  assert (EF : f_da y = d1).
  { destruct (da_name (f_da x)); [|injection H1 as <-; reflexivity].
    destruct (f_dims x) as [|d [|]]; try (injection H1 as <-; reflexivity).
    destruct (rename_dim && _); [|injection H1 as <-; reflexivity]. apply rename_da in H1. exact H1. }
  rewrite EF. clear E E' H1 EF.
  destruct (merge_attr sg "name" (name_val (da_name (f_da x))) (VStr new) loc true) as [v|e] eqn:EM; cbn [bind] in H2; [|discriminate].
  injection H2 as <- <-. destruct (new_name_of _ _ _ _ _ EM) as (w & ->).
  unfold format_dataarray in N3, N3'. cbn [name_val] in *.
  match type of N3 with bind ?z _ = _ => destruct z as [a|e]; cbn [bind] in N3, N3'; [|discriminate] end.
  cbn [orb] in N3. rewrite EM in N3. cbn [bind] in N3. injection N3 as <-.
  match type of N3' with bind ?z _ = _ => destruct z as [a'|e]; cbn [bind] in N3'; [|discriminate] end.
  injection N3' as <-. cbn. repeat split; congruence.
Qed.
Lemma word_std s : all_chars is_word s = true -> std_root "name" s = s.
Proof.
  intro H. cbn. induction s as [|c s IH]; cbn in *; auto. apply andb_true_iff in H. destruct H as [Hc H].
  rewrite IH by auto. f_equal. destruct (Ascii.eqb_spec c " ") as [->|]; auto. discriminate.
Qed.
Lemma format_plain sg s : is_root "name" s -> parse_attr sg "name" s = Ok (s, None) ->
  format_str sg "name" s LNone true = Ok s.
Proof.
  intros [_ Hr] Hp. unfold format_str. rewrite Hp. cbn [is_valid_attr negb bind]. cbn.
  f_equal. exact (word_std s Hr).
Qed.
Lemma format_name_inv sg cs da name loc at_ std spe replace n sp da' o :
  cf_name_is sg cs da name n -> dget cs n = Some sp ->
  format_name sg cs da name loc at_ std spe replace = Ok (da', o) ->
  exists new v, format_str sg "name" (short_name sp n spe) LNone true = Ok new /\
    merge_attr sg "name" (name_val (da_name da)) (VStr new) loc true = Ok (VStr v) /\ o = Some v /\
    da_name da' = match da_name da with Some x => Some x | None => o end.
Proof.
  intros Hc Hs H. unfold format_name in H.
  destruct (format_core sg cs da name loc false at_ std spe replace) as [r|e] eqn:E; cbn [bind] in H; [|discriminate].
  destruct (core_inv _ _ _ _ _ _ _ _ _ _ _ _ _ Hc Hs E) as (new & patch & d1 & -> & N1 & N2 & N3).
  destruct (merge_attr sg "name" (name_val (da_name da)) (VStr new) loc true) as [v|e] eqn:EM; cbn [bind] in H; [|discriminate].
  injection H as <- <-. destruct (new_name_of _ _ _ _ _ EM) as (w & ->). exists new, w. repeat split; auto.
  unfold format_dataarray in N3.
  match type of N3 with bind ?z _ = _ => destruct z as [a|e]; cbn [bind] in N3; [|discriminate] end.
  destruct (da_name da) as [old|]; cbn [orb] in N3.
  - injection N3 as <-. reflexivity.
  - cbn [name_val] in *. rewrite EM in N3. cbn [bind] in N3. injection N3 as <-. reflexivity.
Qed.
(** No location asked for: the new name is the CF name (the specialised one if asked for) at the
    location that the former name had. *)
Theorem C48_name sg cs da old at_ std spe replace n sp da' o name r l :
  cf_name_is sg cs da name n -> dget cs n = Some sp -> da_name da = Some old ->
  lower_case sg -> (forall l, good sg "name" l) ->
  let short := short_name sp n spe in
  is_root "name" short -> parse_attr sg "name" short = Ok (short, None) ->
  parse_attr sg "name" old = Ok (r, l) ->
  format_name sg cs da name LNone at_ std spe replace = Ok (da', o) ->
  exists w, o = Some w /\
    match l with
    | Some l => parse_attr sg "name" w = Ok (short, Some l)
    | None => w = short
    end.
Proof.
  intros Hc Hs Ho Hlc Hg short Hr Hp Hold H.
  destruct (format_name_inv _ _ _ _ _ _ _ _ _ _ _ _ _ Hc Hs H) as (new & v & N & M & -> & _).
  fold short in N. rewrite (format_plain sg short Hr Hp) in N. injection N as <-. rewrite Ho in M. cbn [name_val] in M.
  exists v. split; auto.
  assert (HM := C27_merge_keep sg "name" old short r l short None LNone name_known Hlc (or_introl eq_refl) Hold Hp
                  (is_root_wordsp _ _ Hr)).
  cbn zeta in HM. destruct l as [l|].
  - destruct (HM (Hg l)) as (w & Ew & Pw). rewrite M in Ew. injection Ew as <-. rewrite Pw. f_equal. f_equal. apply word_std. apply Hr.
  - specialize (HM eq_refl). rewrite M in HM. injection HM as ->. apply word_std. apply Hr.
Qed.
(** A location asked for: the CF name at this location, whatever the former name. *)
Theorem C48_name_at sg cs da loc at_ std spe replace n sp da' o name :
  cf_name_is sg cs da name n -> dget cs n = Some sp -> loc <> "any" ->
  letters loc -> accepted sg loc -> good sg "name" loc ->
  let short := short_name sp n spe in
  is_root "name" short -> parse_attr sg "name" short = Ok (short, None) ->
  format_name sg cs da name (LStr loc) at_ std spe replace = Ok (da', o) ->
  exists w, o = Some w /\ parse_attr sg "name" w = Ok (short, Some (lower loc)).
Proof.
  intros Hc Hs Hany Hl Ha Hg short Hr Hp H.
  destruct (format_name_inv _ _ _ _ _ _ _ _ _ _ _ _ _ Hc Hs H) as (new & v & N & M & -> & _).
  fold short in N. rewrite (format_plain sg short Hr Hp) in N. injection N as <-.
  exists v. split; auto.
  destruct (C27_set_location sg "name" short loc name_known (is_root_wordsp _ _ Hr) Hl Ha Hg) as (r & pl & w & P1 & F & P2 & _).
  rewrite Hp in P1. injection P1 as <- <-.
  assert (EM : merge_attr sg "name" (name_val (da_name da)) (VStr short) (LStr loc) true = Ok (VStr w)).
  { destruct (da_name da) as [old|]; cbn [name_val].
    - rewrite C27_merge_explicit by (try apply name_known; congruence). cbn [format_attr]. now rewrite F.
    - rewrite (proj1 (C27_merge_one sg "name" short (LStr loc) true name_known)). cbn [format_attr]. now rewrite F. }
  rewrite EM in M. injection M as <-. rewrite P2. f_equal. f_equal. apply word_std. apply Hr.
Qed.

(** get_name: the CF name, or the specialised one, at the location that is asked for. *)
Theorem C48_get_name sg cs n sp spe : dget cs n = Some sp ->
  let short := short_name sp n spe in
  is_root "name" short -> parse_attr sg "name" short = Ok (short, None) ->
  get_name sg cs n spe LNone = Ok short /\
  forall loc, letters loc -> accepted sg loc -> good sg "name" loc ->
    exists w, get_name sg cs n spe (LStr loc) = Ok w /\ parse_attr sg "name" w = Ok (short, Some (lower loc)).
Proof.
  intros Hs short Hr Hp.
  assert (EG : forall loc, get_name sg cs n spe loc = format_str sg "name" short loc true).
  { intro loc. unfold get_name, short, short_name. rewrite Hs. destruct spe; [|reflexivity]. destruct (s_names sp); reflexivity. }
  split.
  - rewrite EG. now apply format_plain.
  - intros loc Hl Ha Hg.
    destruct (C27_set_location sg "name" short loc name_known (is_root_wordsp _ _ Hr) Hl Ha Hg) as (r & pl & w & P1 & F & P2 & _).
    rewrite Hp in P1. injection P1 as <- <-. exists w. rewrite EG. split; auto. rewrite P2. f_equal. f_equal. apply word_std. apply Hr.
Qed.
Theorem C48_get_name_unknown sg cs n loc : dget cs n = None ->
  get_name sg cs n true loc = Raise TypeError /\ get_name sg cs n false loc = format_str sg "name" n loc true.
Proof. intro H. unfold get_name. rewrite H. split; reflexivity. Qed.
(** rename_dataarray sets the name as the formatting does and adds no attribute: the attributes
    are those of the array, with standard_name and long_name formatted. *)
Theorem C48_rename sg cs x name spe loc std rename_dim y n sp da' o :
  cf_name_is sg cs (f_da x) name n -> dget cs n = Some sp -> dict_wf (da_attrs (f_da x)) ->
  rename_dataarray sg cs x name spe loc std rename_dim = Ok y ->
  format_name sg cs (f_da x) name loc AttrsTrue std spe false = Ok (da', o) ->
  da_name (f_da y) = o /\
  forall k, match dget (da_attrs (f_da x)) k with
            | None => dget (da_attrs (f_da y)) k = None
            | Some v => exists v', dget (da_attrs (f_da y)) k = Some v' /\ formatted sg loc std k v v'
            end.
Proof.
  intros Hc Hs Hw H HN. unfold rename_dataarray in H. split.
  - assert (H0 := H). unfold cat_format in H.
    destruct (format_core sg cs (f_da x) name loc true AttrsFalse std spe false) as [r|e] eqn:E; cbn [bind] in H; [|discriminate].
    destruct (core_inv _ _ _ _ _ _ _ _ _ _ _ _ _ Hc Hs E) as (new & patch & d1 & -> & N1 & N2 & N3).
    destruct (format_name_inv _ _ _ _ _ _ _ _ _ _ _ _ _ Hc Hs HN) as (new' & v & N & M & -> & _).
    rewrite N1 in N. injection N as <-.
    assert (EF : f_da y = d1).
    { destruct (da_name (f_da x)); [|injection H as <-; reflexivity].
      destruct (f_dims x) as [|d [|]]; try (injection H as <-; reflexivity).
      destruct (rename_dim && _); [|injection H as <-; reflexivity]. apply rename_da in H. exact H. }
    rewrite EF. unfold format_dataarray in N3.
    match type of N3 with bind ?z _ = _ => destruct z as [a|e]; cbn [bind] in N3; [|discriminate] end.
    cbn [orb name_val] in N3. rewrite M in N3. cbn [bind] in N3. injection N3 as <-. reflexivity.
  - intro k. destruct (produces_inv _ _ _ _ _ _ _ _ _ _ _ _ Hc Hs (PRename _ _ _ _ _ _ _ _ _ x y rename_dim eq_refl H)) as (rename & new & patch & _ & Hp & HF).
    cbn [patch_of] in Hp. injection Hp as <-.
    destruct (fda_attrs _ _ _ _ _ _ _ _ _ Hw HF) as (a & Ea & Ha).
    unfold patch_attrs in Ea. rewrite patch_start in Ea. cbn [fold_left] in Ea.
    destruct (format_attrs sg (da_attrs (f_da x)) loc std) as [a0|e] eqn:E0; cbn [bind] in Ea; [|discriminate]. injection Ea as <-.
    destruct (format_attrs_formatted _ _ _ _ _ E0) as [_ HV]. specialize (HV k). rewrite <- Ha in HV. exact HV.
Qed.

(** ** Coordinates of an array *)
(** What [format_coord] makes of a coordinate *)
Definition coord_step (sg : sgloc) (ccs : catspecs) (loc : larg) (std replace : bool) (cmap : dict string)
    (c : option string * fvar) (out : (option string * fvar) * option string) : Prop :=
  exists da', format_name sg ccs (mkdarr (fst c) (v_attrs (snd c)))
                (match fst c with Some c => dget cmap c | None => None end) loc AttrsTrue std false replace = Ok (da', snd out) /\
    fst out = (fst c, mkfvar (da_attrs da') (v_dims (snd c))).
Lemma name_kept sg cs da name loc at_ std spe replace da' o x : da_name da = Some x ->
  format_name sg cs da name loc at_ std spe replace = Ok (da', o) -> da_name da' = Some x.
Proof.
  intros Hn H. unfold format_name in H.
  destruct (format_core sg cs da name loc false at_ std spe replace) as [r|e] eqn:E; cbn [bind] in H; [|discriminate].
  destruct r as [[d1 new]|]; [|injection H as <- _; exact Hn].
  match type of H with bind ?z _ = _ => destruct z as [v|e]; cbn [bind] in H; [|discriminate] end.
  injection H as <- _. unfold format_core in E.
  match type of E with bind ?z _ = _ => destruct z as [[nm|]|e]; cbn [bind] in E; [|discriminate|discriminate] end.
  destruct (negb (dmem cs nm)); [discriminate|].
  destruct (get_name sg cs nm spe LNone) as [nn|e]; cbn [bind] in E; [|discriminate].
  match type of E with bind ?z _ = _ => destruct z as [patch|e]; cbn [bind] in E; [|discriminate] end.
  destruct (format_dataarray sg da loc std (Some nn) patch false replace) as [d2|e] eqn:EF; cbn [bind] in E; [|discriminate].
  injection E as <- _. unfold format_dataarray in EF.
  match type of EF with bind ?z _ = _ => destruct z as [a|e]; cbn [bind] in EF; [|discriminate] end.
  rewrite Hn in EF. cbn [orb bind] in EF. injection EF as <-. reflexivity.
Qed.
Definition named (l : list (option string * fvar)) : Prop := forall c, In c l -> fst c <> None.
Lemma coords_loop_inv sg ccs loc std replace cmap : forall todo rargs cs ra, named todo -> NoDup (map fst todo) ->
  (forall c, In c todo -> ~ In (fst c) (map fst rargs)) ->
  coords_loop sg ccs loc std replace cmap todo rargs = Ok (cs, ra) ->
  exists outs, Forall2 (coord_step sg ccs loc std replace cmap) todo outs /\ cs = map fst outs /\
    ra = (rargs ++ map (fun o => (fst (fst o), snd o)) outs)%list.
Proof.
  induction todo as [|[n v] todo IH]; intros rargs cs ra Hn Hd Hr H; cbn [coords_loop] in H.
  - injection H as <- <-. exists []. cbn. rewrite app_nil_r. repeat split; constructor.
  - destruct n as [n|]; [|exfalso; apply (Hn (None, v)); [now left|reflexivity]].
    match type of H with bind ?z _ = _ => destruct z as [[da' o]|e] eqn:E; cbn [bind fst snd] in H; [|discriminate] end.
    assert (Hk := name_kept _ _ _ _ _ _ _ _ _ _ _ _ (eq_refl : da_name (mkdarr (Some n) (v_attrs v)) = Some n) E).
    rewrite Hk in H.
    destruct (coords_loop sg ccs loc std replace cmap todo (oset rargs (Some n) o)) as [[cs' ra']|e] eqn:EL; cbn [bind fst snd] in H; [|discriminate].
    injection H as <- <-. cbn [map fst] in Hd. apply NoDup_cons_iff in Hd. destruct Hd as [Hni Hd].
    assert (ES : oset rargs (Some n) o = (rargs ++ [(Some n, o)])%list).
    { assert (Hx : ~ In (Some n) (map fst rargs)) by (apply (Hr (Some n, v)); now left).
      clear -Hx. induction rargs as [|[k w] rargs IH]; cbn [oset app]; auto.
      destruct (oeqb (Some n) k) eqn:E; [apply oeqb_iff in E; subst; exfalso; apply Hx; now left|].
      rewrite IH; auto. intro; apply Hx; now right. }
    rewrite ES in EL. apply IH in EL; auto.
    + destruct EL as (outs & F & -> & ->). exists (((Some n, mkfvar (da_attrs da') (v_dims v)), o) :: outs). split.
      * constructor; auto. exists da'. split; auto.
      * split; auto. rewrite <- app_assoc. reflexivity.
    + intros c Hc. apply Hn. now right.
    + intros c Hc. rewrite map_app, in_app_iff. intros [Hin|[Hin|[]]]; [apply (Hr c); [now right|exact Hin]|].
      cbn in Hin. apply Hni. rewrite Hin. now apply in_map.
Qed.
Lemma coords_loop_run sg ccs loc std replace cmap : forall todo rargs outs, named todo -> NoDup (map fst todo) ->
  (forall c, In c todo -> ~ In (fst c) (map fst rargs)) ->
  Forall2 (coord_step sg ccs loc std replace cmap) todo outs ->
  coords_loop sg ccs loc std replace cmap todo rargs =
    Ok (map fst outs, (rargs ++ map (fun o => (fst (fst o), snd o)) outs)%list).
Proof.
  induction todo as [|[n v] todo IH]; intros rargs outs Hn Hd Hr F; inversion F as [|? [c' o] ? outs' St F']; subst; cbn [coords_loop].
  - cbn. now rewrite app_nil_r.
  - destruct n as [n|]; [|exfalso; apply (Hn (None, v)); [now left|reflexivity]].
    destruct St as (da' & E & Ec). cbn [fst snd] in E, Ec. subst c'. rewrite E. cbn [bind fst snd].
    assert (Hk := name_kept _ _ _ _ _ _ _ _ _ _ _ _ (eq_refl : da_name (mkdarr (Some n) (v_attrs v)) = Some n) E).
    rewrite Hk. cbn [map fst] in Hd. apply NoDup_cons_iff in Hd. destruct Hd as [Hni Hd].
    assert (ES : oset rargs (Some n) o = (rargs ++ [(Some n, o)])%list).
    { assert (Hx : ~ In (Some n) (map fst rargs)) by (apply (Hr (Some n, v)); now left).
      clear -Hx. induction rargs as [|[k w] rargs IH]; cbn [oset app]; auto.
      destruct (oeqb (Some n) k) eqn:E; [apply oeqb_iff in E; subst; exfalso; apply Hx; now left|].
      rewrite IH; auto. intro; apply Hx; now right. }
    rewrite ES. rewrite (IH _ outs'); auto.
    + cbn [bind fst snd map]. now rewrite <- app_assoc.
    + intros c Hc. apply Hn. now right.
    + intros c Hc. rewrite map_app, in_app_iff. intros [Hin|[Hin|[]]]; [apply (Hr c); [now right|exact Hin]|].
      cbn in Hin. apply Hni. rewrite Hin. now apply in_map.
Qed.
Definition ren_dict (outs : list ((option string * fvar) * option string)) : list (option string * option string) :=
  map (fun o => (fst (fst o), snd o)) outs.
Lemma new_of_renamed outs d : NoDup (map (fun o : (option string * fvar) * option string => fst (fst o)) outs) ->
  renamed (map (fun o => fst (fst o)) outs) (map snd outs) d (new_of (ren_dict outs) d).
Proof.
  unfold new_of, renamed. induction outs as [|[[n v] o] outs IH]; cbn [ren_dict map oget fst snd]; intro Hd.
  - right. split; auto.
  - apply NoDup_cons_iff in Hd. destruct Hd as [Hn Hd]. destruct (oeqb d n) eqn:E.
    + apply oeqb_iff in E. subst. left. exists 0%nat. auto.
    + apply oeqb_false in E. specialize (IH Hd). fold (ren_dict outs). destruct IH as [(i & I1 & I2)|[I1 I2]].
      * left. exists (S i). auto.
      * right. split; auto. cbn [In]. intros [H|H]; [congruence|contradiction].
Qed.
Lemma forall2_map {A B} (f : A -> B) (P : A -> B -> Prop) l : (forall x, In x l -> P x (f x)) -> Forall2 P l (map f l).
Proof. induction l; cbn; constructor; auto. Qed.
Lemma steps_names sg ccs loc std replace cmap l outs : Forall2 (coord_step sg ccs loc std replace cmap) l outs ->
  map (fun o : (option string * fvar) * option string => fst (fst o)) outs = map fst l.
Proof.
  induction 1 as [|c o l outs (da' & _ & E) _ IH]; cbn [map]; auto. rewrite E, IH. reflexivity.
Qed.
(** Formatting an array with its coordinates: it is an error if two coordinates get the same
    name; otherwise every coordinate gets its new name and attributes, and the dimensions, of
    the array and of the coordinates, are renamed like the coordinates. *)
Theorem C48_coords sg vcs ccs x name spe at_ replace cmap loc std da1 new outs :
  named (f_coords x) -> NoDup (map fst (f_coords x)) ->
  format_name sg vcs (f_da x) name loc at_ std spe replace = Ok (da1, new) ->
  Forall2 (coord_step sg ccs loc std replace cmap) (f_coords x) outs ->
  let news := map snd outs in
  let ren := renamed (map fst (f_coords x)) news in
  (NoDup news ->
   exists x1 y, format_data_var sg vcs ccs x name true spe at_ replace true cmap loc std = Ok (x1, RArr y) /\
     da_name (f_da y) = (if truthy new then new else da_name da1) /\ da_attrs (f_da y) = da_attrs da1 /\
     Forall2 ren (f_dims x) (f_dims y) /\
     map fst (f_coords y) = news /\
     Forall2 (fun o c => v_attrs (snd c) = v_attrs (snd (fst o)) /\ Forall2 ren (v_dims (snd (fst o))) (v_dims (snd c)))
       outs (f_coords y)) /\
  (~ NoDup news -> format_data_var sg vcs ccs x name true spe at_ replace true cmap loc std = Raise ValueError).
Proof.
  intros Hn Hd Hf HF news ren.
  assert (HL := coords_loop_run sg ccs loc std replace cmap (f_coords x) [] outs Hn Hd (fun c _ H => H) HF).
  cbn [app] in HL. fold (ren_dict outs) in HL.
  assert (HN := steps_names _ _ _ _ _ _ _ _ HF).
  assert (Hren : forall d, ren d (new_of (ren_dict outs) d)).
  { intro d. unfold ren, news. rewrite <- HN. apply new_of_renamed. now rewrite HN. }
  assert (EC : map fst (rename_vars (ren_dict outs) (map fst outs)) = news).
  { unfold rename_vars, news. rewrite map_map, map_map. cbn [fst]. clear -HN Hd. rewrite <- HN in Hd. clear HN.
    assert (G : forall l d, NoDup (map (fun o : (option string * fvar) * option string => fst (fst o)) (d ++ l)%list) ->
              map (fun x0 => new_of (ren_dict (d ++ l)%list) (fst (fst x0))) l = map snd l).
    { induction l as [|o l IH]; intros d Hd'; cbn [map]; auto. f_equal.
      - unfold new_of. replace (oget (ren_dict (d ++ o :: l)%list) (fst (fst o))) with (Some (snd o)); auto.
        rewrite map_app in Hd'. cbn [map] in Hd'. assert (Hni := NoDup_remove_2 _ _ _ Hd').
        clear -Hni. induction d as [|a d IHd]; cbn [ren_dict map app oget fst snd].
        + now rewrite (proj2 (oeqb_iff _ _) eq_refl).
        + destruct (oeqb (fst (fst o)) (fst (fst a))) eqn:E.
          * apply oeqb_iff in E. exfalso. apply Hni. rewrite E. now left.
          * apply IHd. intro Hin. apply Hni. now right.
      - replace (d ++ o :: l)%list with ((d ++ [o]) ++ l)%list in * by (rewrite <- app_assoc; reflexivity). apply IH. exact Hd'. }
    apply (G outs []). exact Hd. }
  assert (EK : forallb (fun kv : option string * option string => existsb (oeqb (fst kv)) (map fst (map fst outs) ++ f_dims x)%list) (ren_dict outs) = true).
  { apply forallb_forall. intros kv Hkv. apply oexists_in, in_or_app. left. unfold ren_dict in Hkv. apply in_map_iff in Hkv.
    destruct Hkv as (o & <- & Ho). cbn [fst]. now apply in_map, in_map. }
  unfold format_data_var. rewrite Hf. cbn [bind andb negb]. rewrite HL. cbn [bind fst snd].
  set (da2 := if truthy new then mkdarr new (da_attrs da1) else da1).
  assert (EX : forall w, (if match ren_dict outs with [] => false | _ => true end
              then xr_rename (ren_dict outs) (mkfarr da2 (f_dims x) (map fst outs)) else Ok (mkfarr da2 (f_dims x) (map fst outs))) = w ->
              w = if odistinct news then Ok (mkfarr da2 (map (new_of (ren_dict outs)) (f_dims x)) (rename_vars (ren_dict outs) (map fst outs)))
                  else Raise ValueError).
  { intros w <-. destruct outs as [|o outs]; cbn [ren_dict map].
    - cbn. f_equal. f_equal. unfold new_of. cbn. symmetry. apply map_id.
    - change (((fst (fst o), snd o) :: map (fun o0 => (fst (fst o0), snd o0)) outs)) with (ren_dict (o :: outs)).
      change (fst o :: map fst outs) with (map fst (o :: outs)).
      unfold xr_rename. cbn [f_coords f_dims f_da]. rewrite EK. cbn [negb]. rewrite EC. reflexivity. }
  specialize (EX _ eq_refl).
  split.
  - intro HD. rewrite (proj2 (odistinct_iff news) HD) in EX. rewrite EX. cbn [bind].
    eexists. eexists. split; [reflexivity|]. cbn [f_da f_dims f_coords]. repeat split.
    + unfold da2. destruct (truthy new); reflexivity.
    + unfold da2. destruct (truthy new); reflexivity.
    + apply forall2_map. intros d _. apply Hren.
    + exact EC.
    + unfold rename_vars. rewrite map_map. apply forall2_map. intros o Ho. cbn [snd fst rename_var v_attrs v_dims].
      split; auto. apply forall2_map. intros d _. apply Hren.
  - intro HD. destruct (odistinct news) eqn:E; [apply odistinct_iff in E; contradiction|]. now rewrite EX.
Qed.
(** A coordinate that is not recognised is renamed to None... *)
Theorem C48_none sg vcs ccs x name spe at_ replace cmap loc std x1 y i c v :
  named (f_coords x) -> NoDup (map fst (f_coords x)) ->
  nth_error (f_coords x) i = Some (Some c, v) -> dget cmap c = None ->
  match_any sg ccs (mkdarr (Some c) (v_attrs v)) (MStr "any") = Ok None ->
  format_data_var sg vcs ccs x name true spe at_ replace true cmap loc std = Ok (x1, RArr y) ->
  nth_error (map fst (f_coords y)) i = Some None.
Proof.
  intros Hn Hd Hi Hc Hm H.
  assert (H' := H). unfold format_data_var in H'.
  destruct (format_name sg vcs (f_da x) name loc at_ std spe replace) as [[da1 new]|e] eqn:EF; cbn [bind] in H'; [|discriminate].
  destruct (coords_loop sg ccs loc std replace cmap (f_coords x) []) as [[cs ra]|e] eqn:EL; cbn [bind] in H'; [|discriminate].
  destruct (coords_loop_inv _ _ _ _ _ _ _ [] _ _ Hn Hd (fun c _ H => H) EL) as (outs & F & _ & _). clear H' EL.
  destruct (C48_coords _ _ _ _ _ _ _ _ _ _ _ _ _ _ Hn Hd EF F) as [C1 C2].
  destruct (odistinct (map snd outs)) eqn:ED.
  - apply odistinct_iff in ED. destruct (C1 ED) as (x2 & y2 & E & _ & _ & _ & EN & _). rewrite H in E. injection E as <- <-.
    rewrite EN. clear -F Hi Hc Hm. revert i Hi. induction F as [|a b l l' St F IH]; intros [|i] Hi; try discriminate.
    + injection Hi as ->. destruct St as (da' & E & _). cbn [fst snd] in E. rewrite Hc in E.
      unfold format_name, format_core in E. rewrite Hm in E. cbn [bind] in E. injection E as _ E. cbn. now rewrite E.
    + cbn. apply IH. exact Hi.
  - rewrite C2 in H by (rewrite <- odistinct_iff; congruence). discriminate.
Qed.
(** ... and two of them make the formatting fail. *)
Theorem C48_two_unknown sg vcs ccs x name spe at_ replace cmap loc std i j c v c' v' r :
  named (f_coords x) -> NoDup (map fst (f_coords x)) -> i <> j ->
  nth_error (f_coords x) i = Some (Some c, v) -> dget cmap c = None ->
  match_any sg ccs (mkdarr (Some c) (v_attrs v)) (MStr "any") = Ok None ->
  nth_error (f_coords x) j = Some (Some c', v') -> dget cmap c' = None ->
  match_any sg ccs (mkdarr (Some c') (v_attrs v')) (MStr "any") = Ok None ->
  format_data_var sg vcs ccs x name true spe at_ replace true cmap loc std <> Ok r.
Proof.
  intros Hn Hd Hij Hi Hc Hm Hj Hc' Hm' H. destruct r as [x1 [y|o]].
  - assert (E1 := C48_none _ _ _ _ _ _ _ _ _ _ _ _ _ _ _ _ Hn Hd Hi Hc Hm H).
    assert (E2 := C48_none _ _ _ _ _ _ _ _ _ _ _ _ _ _ _ _ Hn Hd Hj Hc' Hm' H).
    assert (H' := H). unfold format_data_var in H'.
    destruct (format_name sg vcs (f_da x) name loc at_ std spe replace) as [[da1 new]|e] eqn:EF; cbn [bind] in H'; [|discriminate].
    destruct (coords_loop sg ccs loc std replace cmap (f_coords x) []) as [[cs ra]|e] eqn:EL; cbn [bind] in H'; [|discriminate].
    destruct (coords_loop_inv _ _ _ _ _ _ _ [] _ _ Hn Hd (fun c _ H => H) EL) as (outs & F & _ & _). clear H' EL.
    destruct (C48_coords _ _ _ _ _ _ _ _ _ _ _ _ _ _ Hn Hd EF F) as [C1 C2].
    destruct (odistinct (map snd outs)) eqn:ED.
    + apply odistinct_iff in ED. destruct (C1 ED) as (x2 & y2 & E & _ & _ & _ & EN & _). rewrite H in E. injection E as <- <-.
      apply Hij. rewrite <- EN in ED. apply (NoDup_nth_error (map fst (f_coords y))) with (i := i) (j := j); auto.
      * apply nth_error_Some. rewrite E1. discriminate.
      * congruence.
    + rewrite C2 in H by (rewrite <- odistinct_iff; congruence). discriminate.
  - unfold format_data_var in H.
    match type of H with bind ?z _ = _ => destruct z as [[da1 new]|e]; cbn [bind] in H; [|discriminate] end.
    match type of H with bind ?z _ = _ => destruct z as [c2|e]; cbn [bind] in H; [|discriminate] end.
    match type of H with bind ?z _ = _ => destruct z as [c3|e]; cbn [bind] in H; [|discriminate] end.
    discriminate.
Qed.

(** ** fill_attrs of an array *)
(** It returns the matching name, not an array, and by default nothing is filled in. *)
Theorem C48_fill_attrs_array sg vcs ccs x a r : fill_attrs_array sg vcs ccs x true = Ok (a, r) ->
  a = x /\ exists n, r = RName n.
Proof.
  unfold fill_attrs_array, format_data_var. cbn [andb negb]. intro H.
  match type of H with bind ?z _ = _ => destruct z as [[x1 r1]|e] eqn:E; cbn [bind] in H; [|discriminate] end.
  injection H as <- <-. split; auto. cbn [snd].
  match type of E with bind ?z _ = _ => destruct z as [[da1 new]|e]; cbn [bind] in E; [|discriminate] end.
  match type of E with bind ?z _ = _ => destruct z as [c2|e]; cbn [bind] in E; [|discriminate] end.
  injection E as _ <-. eauto.
Qed.
(** With [copy=False] the array itself and its coordinates are filled in; no name nor dimension
    changes (except the name of an array without name). *)
Theorem C48_fill_attrs_inplace sg vcs ccs x a r : named (f_coords x) -> NoDup (map fst (f_coords x)) ->
  fill_attrs_array sg vcs ccs x false = Ok (a, r) ->
  f_dims a = f_dims x /\ (da_name (f_da x) <> None -> da_name (f_da a) = da_name (f_da x)) /\
  (forall n, cf_name_is sg vcs (f_da x) None n -> produces sg vcs (f_da x) None LNone AttrsTrue true false false (f_da a)) /\
  Forall2 (fun c c' => fst c' = fst c /\ v_dims (snd c') = v_dims (snd c) /\
             exists da', produces sg ccs (mkdarr (fst c) (v_attrs (snd c))) None LNone AttrsTrue true false false da' /\
                         v_attrs (snd c') = da_attrs da') (f_coords x) (f_coords a).
Proof.
  intros Hn Hd. unfold fill_attrs_array, format_data_var. cbn [andb negb]. intro H.
  match type of H with bind ?z _ = _ => destruct z as [[x1 r1]|e] eqn:E; cbn [bind] in H; [|discriminate] end.
  injection H as <- <-. cbn [after fst snd].
  match type of E with bind ?z _ = _ => destruct z as [[da1 new]|e] eqn:EN; cbn [bind] in E; [|discriminate] end.
  match type of E with bind ?z _ = _ => destruct z as [[cs ra]|e] eqn:EL; cbn [bind] in E; [|discriminate] end.
  injection E as <- _. cbn [f_da f_dims f_coords fst]. repeat split.
  - intro Hna. destruct (da_name (f_da x)) as [o|] eqn:EO; [|congruence].
    apply (name_kept _ _ _ _ _ _ _ _ _ _ _ _ EO EN).
  - intros n _. apply (PName _ _ _ _ _ _ _ _ _ _ _ EN).
  - destruct (coords_loop_inv _ _ _ _ _ _ _ [] _ _ Hn Hd (fun c _ H => H) EL) as (outs & F & -> & _).
    clear -F. induction F as [|c o l outs (da' & E & Ec) F IH]; cbn [map]; constructor; auto.
    rewrite Ec. cbn [fst snd v_dims v_attrs]. repeat split; auto. exists da'. split; auto.
    assert (EC : match fst c with Some c0 => dget (@nil (string * string)) c0 | None => None end = None) by (destruct (fst c); reflexivity).
    rewrite EC in E. apply (PName _ _ _ _ _ _ _ _ _ _ _ E).
Qed.

(** ** Datasets *)
Definition ds_step (sg : sgloc) (cs : catspecs) (loc : larg) (replace : bool)
    (c : option string * fvar) (out : (option string * fvar) * option string) : Prop :=
  exists da', format_name sg cs (mkdarr (fst c) (v_attrs (snd c))) None loc AttrsTrue true false replace = Ok (da', snd out) /\
    fst out = (fst c, mkfvar (da_attrs da') (v_dims (snd c))).
Fixpoint gen_loop (sg : sgloc) (cs : catspecs) (loc : larg) (keep : option string -> bool) (replace_attrs : bool)
    (todo : list (option string * fvar)) (rargs : list (option string * option string))
    : res (list (option string * fvar) * list (option string * option string)) :=
  match todo with
  | [] => Ok ([], rargs)
  | (n, v) :: todo' =>
    let* r := format_name sg cs (mkdarr n (v_attrs v)) None loc AttrsTrue true false replace_attrs in
    let* s := gen_loop sg cs loc keep replace_attrs todo'
                (if keep (snd r) then oset rargs (da_name (fst r)) (snd r) else rargs) in
    Ok ((n, mkfvar (da_attrs (fst r)) (v_dims v)) :: fst s, snd s)
  end.
Lemma vars_gen sg cs loc rename replace todo : forall rargs,
  ds_vars_loop sg cs loc rename replace todo rargs = gen_loop sg cs loc (fun o => rename && truthy o) replace todo rargs.
Proof.
  induction todo as [|[n v] todo IH]; intro rargs; cbn [ds_vars_loop gen_loop]; auto.
  destruct (format_name _ _ _ _ _ _ _ _ _) as [r|e]; cbn [bind]; auto. now rewrite IH.
Qed.
Lemma coords_gen sg cs loc rename replace todo : forall rargs,
  ds_coords_loop sg cs loc rename replace todo rargs = gen_loop sg cs loc (fun o => rename) replace todo rargs.
Proof.
  induction todo as [|[n v] todo IH]; intro rargs; cbn [ds_coords_loop gen_loop]; auto.
  destruct (format_name _ _ _ _ _ _ _ _ _) as [r|e]; cbn [bind]; auto. now rewrite IH.
Qed.
Lemma oset_fresh {V} (rargs : list (option string * V)) n o : ~ In n (map fst rargs) -> oset rargs n o = (rargs ++ [(n, o)])%list.
Proof.
  intro Hx. induction rargs as [|[k w] rargs IH]; cbn [oset app]; auto.
  destruct (oeqb n k) eqn:E; [apply oeqb_iff in E; subst; exfalso; apply Hx; now left|].
  rewrite IH; auto. intro; apply Hx; now right.
Qed.
Definition kept (keep : option string -> bool) (outs : list ((option string * fvar) * option string)) :=
  ren_dict (List.filter (fun o => keep (snd o)) outs).
Lemma gen_loop_run sg cs loc keep replace : forall todo rargs outs, named todo -> NoDup (map fst todo) ->
  (forall c, In c todo -> ~ In (fst c) (map fst rargs)) ->
  Forall2 (ds_step sg cs loc replace) todo outs ->
  gen_loop sg cs loc keep replace todo rargs = Ok (map fst outs, (rargs ++ kept keep outs)%list).
Proof.
  induction todo as [|[n v] todo IH]; intros rargs outs Hn Hd Hr F; inversion F as [|? [c' o] ? outs' St F']; subst; cbn [gen_loop].
  - cbn. now rewrite app_nil_r.
  - destruct n as [n|]; [|exfalso; apply (Hn (None, v)); [now left|reflexivity]].
    destruct St as (da' & E & Ec). cbn [fst snd] in E, Ec. subst c'. rewrite E. cbn [bind fst snd].
    assert (Hk := name_kept _ _ _ _ _ _ _ _ _ _ _ _ (eq_refl : da_name (mkdarr (Some n) (v_attrs v)) = Some n) E).
    rewrite Hk. cbn [map fst] in Hd. apply NoDup_cons_iff in Hd. destruct Hd as [Hni Hd].
    assert (HR : forall c, In c todo -> ~ In (fst c) (map fst (rargs ++ [(Some n, o)]))%list).
    { intros c Hc. rewrite map_app, in_app_iff. intros [Hin|[Hin|[]]]; [apply (Hr c); [now right|exact Hin]|].
      cbn in Hin. apply Hni. rewrite Hin. now apply in_map. }
    assert (HR' : forall c, In c todo -> ~ In (fst c) (map fst rargs)) by (intros c Hc; apply Hr; now right).
    assert (Hn' : named todo) by (intros c Hc; apply Hn; now right).
    unfold kept. cbn [List.filter snd]. destruct (keep o).
    + rewrite oset_fresh by (apply (Hr (Some n, v)); now left). rewrite (IH _ outs'); auto.
      cbn [bind fst snd map ren_dict]. rewrite <- app_assoc. reflexivity.
    + rewrite (IH _ outs'); auto.
Qed.
Lemma gen_loop_steps sg cs loc keep replace : forall todo rargs vs ra,
  gen_loop sg cs loc keep replace todo rargs = Ok (vs, ra) ->
  exists outs, Forall2 (ds_step sg cs loc replace) todo outs /\ vs = map fst outs.
Proof.
  induction todo as [|[n v] todo IH]; intros rargs vs ra H; cbn [gen_loop] in H.
  - injection H as <- <-. exists []. split; constructor.
  - match type of H with bind ?z _ = _ => destruct z as [[da' o]|e] eqn:E; cbn [bind fst snd] in H; [|discriminate] end.
    match type of H with bind ?z _ = _ => destruct z as [[cs' ra']|e] eqn:EL; cbn [bind fst snd] in H; [|discriminate] end.
    injection H as <- <-. apply IH in EL. destruct EL as (outs & F & ->).
    exists (((n, mkfvar (da_attrs da') (v_dims v)), o) :: outs). split; auto. constructor; auto. exists da'. split; auto.
Qed.
(** Filling in the attributes of a dataset: names, dimensions and variables stay, and each
    variable and coordinate has the attributes that formatting it gives. *)
Theorem C48_fill_attrs_dataset sg vcs ccs x copy a y : fill_attrs_dataset sg vcs ccs x copy = Ok (a, y) ->
  let filled cs c c' := fst c' = fst c /\ v_dims (snd c') = v_dims (snd c) /\
     exists da', produces sg cs (mkdarr (fst c) (v_attrs (snd c))) None LNone AttrsTrue true false false da' /\
                 v_attrs (snd c') = da_attrs da' in
  Forall2 (filled vcs) (d_vars x) (d_vars y) /\ Forall2 (filled ccs) (d_coords x) (d_coords y) /\
  a = if copy then x else y.
Proof.
  intros H filled. unfold fill_attrs_dataset, format_dataset in H. cbn [andb] in H.
  match type of H with bind ?z _ = _ => destruct z as [[x1 y1]|e] eqn:E; cbn [bind fst snd] in H; [|discriminate] end.
  injection H as <- <-.
  match type of E with bind ?z _ = _ => destruct z as [[vs ra]|e] eqn:EV; cbn [bind fst snd] in E; [|discriminate] end.
  match type of E with bind ?z _ = _ => destruct z as [[cs rb]|e] eqn:EC; cbn [bind fst snd] in E; [|discriminate] end.
  injection E as <- <-. cbn [d_vars d_coords].
  rewrite vars_gen in EV. apply gen_loop_steps in EV. destruct EV as (ov & FV & ->).
  rewrite coords_gen in EC. apply gen_loop_steps in EC. destruct EC as (oc & FC & ->).
  assert (G : forall cs l outs, Forall2 (ds_step sg cs LNone false) l outs -> Forall2 (filled cs) l (map fst outs)).
  { intros cs l outs F. induction F as [|c o l outs (da' & E & Ec) F IH]; cbn [map]; constructor; auto.
    unfold filled. rewrite Ec. cbn [fst snd v_dims v_attrs]. repeat split; auto. exists da'. split; auto.
    apply (PName _ _ _ _ _ _ _ _ _ _ _ E). }
  repeat split; auto.
Qed.
Lemma new_of_spec P d : NoDup (map fst P) -> renamed (map fst P) (map snd P) d (new_of P d).
Proof.
  unfold new_of, renamed. induction P as [|[n o] P IH]; cbn [map oget fst snd]; intro Hd.
  - right. split; auto.
  - apply NoDup_cons_iff in Hd. destruct Hd as [Hn Hd]. destruct (oeqb d n) eqn:E.
    + apply oeqb_iff in E. subst. left. exists 0%nat. auto.
    + apply oeqb_false in E. destruct (IH Hd) as [(i & I1 & I2)|[I1 I2]].
      * left. exists (S i). auto.
      * right. split; auto. cbn [In]. intros [H|H]; [congruence|contradiction].
Qed.
Lemma oget_notin {V} (P : list (option string * V)) d : ~ In d (map fst P) -> oget P d = None.
Proof.
  induction P as [|[n o] P IH]; cbn [map oget fst In]; intro H; auto.
  destruct (oeqb d n) eqn:E; [apply oeqb_iff in E; subst; exfalso; auto|]. apply IH. tauto.
Qed.
Lemma oget_app {V} (P Q : list (option string * V)) d : oget (P ++ Q)%list d = match oget P d with Some v => Some v | None => oget Q d end.
Proof. induction P as [|[n o] P IH]; cbn [app oget]; auto. destruct (oeqb d n); auto. Qed.
Lemma new_of_map P : NoDup (map fst P) -> map (new_of P) (map fst P) = map snd P.
Proof.
  intro Hd. induction P as [|[n o] P IH]; cbn [map fst snd]; auto.
  cbn [map fst] in Hd. apply NoDup_cons_iff in Hd. destruct Hd as [Hn Hd]. f_equal.
  - unfold new_of. cbn [oget]. now rewrite (proj2 (oeqb_iff _ _) eq_refl).
  - rewrite <- (IH Hd). apply map_ext_in. intros d Hin. unfold new_of. cbn [oget].
    destruct (oeqb d n) eqn:E; auto. apply oeqb_iff in E. subst. contradiction.
Qed.
Lemma nodup_l {A} (l m : list A) : NoDup (l ++ m) -> NoDup l.
Proof. induction l as [|x l IH]; cbn; intro H; constructor; apply NoDup_cons_iff in H; [rewrite in_app_iff in H; tauto|apply IH, H]. Qed.
Lemma nodup_r {A} (l m : list A) : NoDup (l ++ m) -> NoDup m.
Proof. induction l as [|x l IH]; cbn; intro H; auto. apply NoDup_cons_iff in H. apply IH, H. Qed.
Lemma app_inj_1 {A} (a b c d : list A) : (a ++ b = c ++ d)%list -> List.length a = List.length c -> a = c /\ b = d.
Proof. revert c. induction a as [|x a IH]; intros [|y c] H HL; try discriminate; cbn in *; auto. injection H as -> H. destruct (IH c H); [lia|]. subst. auto. Qed.
Definition target (o : (option string * fvar) * option string) : option string :=
  if truthy (snd o) then snd o else fst (fst o).
Definition targets (outs : list ((option string * fvar) * option string)) : list (option string * option string) :=
  map (fun o => (fst (fst o), target o)) outs.
Lemma kept_target ov Q d : NoDup (map (fun o : (option string * fvar) * option string => fst (fst o)) ov ++ map fst Q) ->
  new_of (kept truthy ov ++ Q)%list d = new_of (targets ov ++ Q)%list d.
Proof.
  unfold new_of, kept. induction ov as [|o ov IH]; cbn [List.filter map targets ren_dict app]; intro Hd; auto.
  apply NoDup_cons_iff in Hd. destruct Hd as [Hn Hd]. specialize (IH Hd).
  unfold target at 1. destruct (truthy (snd o)) eqn:ET; cbn [map app oget]; fold (ren_dict (List.filter (fun o => truthy (snd o)) ov)); fold (targets ov).
  - destruct (oeqb d (fst (fst o))); [reflexivity|exact IH].
  - destruct (oeqb d (fst (fst o))) eqn:E; [|exact IH]. apply oeqb_iff in E. subst d.
    rewrite oget_notin; auto. intro Hin. apply Hn. rewrite map_app in Hin. apply in_app_or in Hin. apply in_or_app.
    destruct Hin as [Hin|Hin]; [left|now right]. unfold ren_dict in Hin. rewrite map_map in Hin. cbn [fst] in Hin.
    apply in_map_iff in Hin. destruct Hin as (o' & Eo & Ho'). apply filter_In in Ho'. apply in_map_iff. exists o'. tauto.
Qed.
Lemma ds_names sg cs loc replace l outs : Forall2 (ds_step sg cs loc replace) l outs ->
  map (fun o : (option string * fvar) * option string => fst (fst o)) outs = map fst l.
Proof. induction 1 as [|c o l outs (da' & _ & E) _ IH]; cbn [map]; auto. rewrite E, IH. reflexivity. Qed.
Lemma map_target_fst outs : map fst (targets outs) = map (fun o : (option string * fvar) * option string => fst (fst o)) outs.
Proof. unfold targets. now rewrite map_map. Qed.
(** Formatting a dataset: data variables that are not recognised keep their name, coordinates that
    are not recognised lose it; it is an error when two names become equal; dimensions follow
    the variables of the same name. *)
Theorem C48_dataset sg vcs ccs x loc std cmap replace ov oc :
  named (d_vars x ++ d_coords x) -> NoDup (map fst (d_vars x ++ d_coords x)) ->
  Forall2 (ds_step sg vcs loc replace) (d_vars x) ov -> Forall2 (ds_step sg ccs loc replace) (d_coords x) oc ->
  let news_v := map (fun o => if truthy (snd o) then snd o else fst (fst o)) ov in
  let news_c := map snd oc in
  let ren := renamed (map fst (d_vars x ++ d_coords x)) (news_v ++ news_c) in
  let like o c := v_attrs (snd c) = v_attrs (snd (fst o)) /\ Forall2 ren (v_dims (snd (fst o))) (v_dims (snd c)) in
  (NoDup (news_v ++ news_c) ->
   exists x1 y, format_dataset sg vcs ccs x loc true std true cmap replace = Ok (x1, y) /\
     map fst (d_vars y) = news_v /\ map fst (d_coords y) = news_c /\
     Forall2 like ov (d_vars y) /\ Forall2 like oc (d_coords y)) /\
  (~ NoDup (news_v ++ news_c) ->
   format_dataset sg vcs ccs x loc true std true cmap replace = Raise ValueError).
Proof.
  intros Hn Hd FV FC news_v news_c ren like.
  assert (NV := ds_names _ _ _ _ _ _ FV). assert (NC := ds_names _ _ _ _ _ _ FC).
  rewrite map_app in Hd.
  assert (HdV : NoDup (map fst (d_vars x))) by (exact (nodup_l _ _ Hd)).
  assert (HdC : NoDup (map fst (d_coords x))) by (exact (nodup_r _ _ Hd)).
  assert (HnV : named (d_vars x)) by (intros c Hc; apply Hn; apply in_or_app; now left).
  assert (HnC : named (d_coords x)) by (intros c Hc; apply Hn; apply in_or_app; now right).
  set (R := (kept truthy ov ++ ren_dict oc)%list). set (P := (targets ov ++ ren_dict oc)%list).
  assert (PF : map fst P = (map fst (d_vars x) ++ map fst (d_coords x))%list).
  { unfold P. rewrite map_app, map_target_fst, NV. f_equal. unfold ren_dict. rewrite map_map. exact NC. }
  assert (PS : map snd P = (news_v ++ news_c)%list).
  { unfold P. rewrite map_app. unfold targets, ren_dict. rewrite !map_map. reflexivity. }
  assert (HR : forall d, new_of R d = new_of P d).
  { intro d. apply kept_target. rewrite NV. unfold ren_dict. rewrite map_map. cbn [fst]. rewrite NC. exact Hd. }
  assert (Hren : forall d, ren d (new_of R d)).
  { intro d. rewrite HR. unfold ren. rewrite map_app, <- PF, <- PS. apply new_of_spec. rewrite PF. exact Hd. }
  assert (LV := gen_loop_run sg vcs loc (fun o => true && truthy o) replace (d_vars x) [] ov HnV HdV (fun c _ H => H) FV).
  cbn [app andb] in LV. change (kept (fun o => truthy o) ov) with (kept truthy ov) in LV.
  assert (LC : gen_loop sg ccs loc (fun o => true) replace (d_coords x) (kept truthy ov) = Ok (map fst oc, R)).
  { rewrite (gen_loop_run sg ccs loc (fun _ => true) replace (d_coords x) (kept truthy ov) oc HnC HdC); auto.
    - unfold R. f_equal. f_equal. f_equal. unfold kept. f_equal. clear. induction oc; cbn; auto. now rewrite IHoc.
    - intros c Hc Hin. unfold kept, ren_dict in Hin. rewrite map_map in Hin. cbn [fst] in Hin.
      apply in_map_iff in Hin. destruct Hin as (o & Eo & Ho). apply filter_In in Ho.
      assert (In (fst c) (map fst (d_vars x))).
      { rewrite <- NV. apply in_map_iff. exists o. tauto. }
      apply in_split in Hc. destruct Hc as (l1 & l2 & EC). rewrite EC, map_app in Hd. cbn [map] in Hd.
      rewrite app_assoc in Hd. apply NoDup_remove_2 in Hd. apply Hd. apply in_or_app. left. apply in_or_app. now left. }
  assert (NN : map fst (rename_vars R (map fst ov) ++ rename_vars R (map fst oc))%list = (news_v ++ news_c)%list).
  { rewrite <- PS, <- (new_of_map P) by (rewrite PF; exact Hd). rewrite PF, <- NV, <- NC, !map_app.
    unfold rename_vars. rewrite !map_map. cbn [fst]. f_equal; apply map_ext; intro; apply HR. }
  assert (NVc : map fst (rename_vars R (map fst ov)) = news_v /\ map fst (rename_vars R (map fst oc)) = news_c).
  { rewrite map_app in NN. apply app_inj_1 in NN; auto.
    unfold rename_vars, news_v. now rewrite !map_length. }
  assert (EK : forallb (fun kv : option string * option string => existsb (oeqb (fst kv))
            (map fst (map fst ov ++ map fst oc) ++ List.concat (map (fun kv => v_dims (snd kv)) (map fst ov ++ map fst oc)))%list) R = true).
  { apply forallb_forall. intros kv Hkv. apply oexists_in, in_or_app. left. unfold R, kept, ren_dict in Hkv.
    rewrite map_app. apply in_or_app. apply in_app_or in Hkv. destruct Hkv as [Hkv|Hkv]; [left|right]; apply in_map_iff in Hkv;
      destruct Hkv as (o & <- & Ho); cbn [fst]; apply in_map, in_map; auto. apply filter_In in Ho. tauto. }
  assert (EX : format_dataset sg vcs ccs x loc true std true cmap replace =
               let x1 := mkfds (map fst ov) (map fst oc) in
               if odistinct (news_v ++ news_c) then Ok (x1, mkfds (rename_vars R (map fst ov)) (rename_vars R (map fst oc)))
               else Raise ValueError).
  { unfold format_dataset. rewrite vars_gen. cbn [andb]. rewrite LV. cbn [bind fst snd]. rewrite coords_gen, LC. cbn [bind fst snd].
    assert (ED : ds_rename R (mkfds (map fst ov) (map fst oc)) =
      if odistinct (news_v ++ news_c) then Ok (mkfds (rename_vars R (map fst ov)) (rename_vars R (map fst oc))) else Raise ValueError).
    { unfold ds_rename. cbn [d_vars d_coords]. rewrite EK. cbn [negb]. rewrite NN. reflexivity. }
    cbn zeta. destruct R as [|r0 R'] eqn:ER.
    - assert (ND : odistinct (news_v ++ news_c) = true).
      { rewrite <- NN. apply odistinct_iff. unfold rename_vars, new_of. cbn [oget]. rewrite map_app, !map_map. cbn [fst].
        rewrite NV, NC. exact Hd. }
      rewrite ND. cbn [bind]. f_equal. f_equal.
      assert (ID : forall l, rename_vars [] l = l).
      { clear. intro l. unfold rename_vars. rewrite <- (map_id l) at 2. apply map_ext. intros [n [a ds]]. cbn. f_equal.
        unfold rename_var. cbn [v_attrs v_dims]. f_equal. unfold new_of. cbn. apply map_id. }
      now rewrite !ID.
    - rewrite ED. destruct (odistinct (news_v ++ news_c)); reflexivity. }
  split.
  - intro HD. rewrite (proj2 (odistinct_iff _) HD) in EX. eexists. eexists. split; [exact EX|]. cbn [d_vars d_coords].
    split; [apply NVc|]. split; [apply NVc|]. unfold rename_vars. rewrite !map_map. split; apply forall2_map; intros o Ho; split; auto;
      cbn [snd fst rename_var v_dims]; apply forall2_map; intros d _; apply Hren.
  - intro HD. rewrite EX. destruct (odistinct (news_v ++ news_c)) eqn:E; auto. apply odistinct_iff in E. contradiction.
Qed.
(** The arguments [standardize] and [coords] of format_dataset have no effect. *)
Theorem C48_dataset_ignored sg vcs ccs x loc rename std std' fc cmap cmap' replace :
  format_dataset sg vcs ccs x loc rename std fc cmap replace = format_dataset sg vcs ccs x loc rename std' fc cmap' replace.
Proof. reflexivity. Qed.

(** ** Examples and refuted claims *)
Definition fsg : sgloc := mksg default_name_format [].
Definition fvars : catspecs :=
  [("temp", mkspec "sn" ["temperature"] [("standard_name", RefList ["sea_water_temperature"]); ("long_name", RefList ["Temperature"]);
                                         ("units", RefList ["degrees_celsius"; "degC"])]);
   ("ssh", mkspec "sn" ["sea_level"] [("standard_name", RefList ["sea_surface_height"]); ("axis", RefNone)])].
Definition fcoords : catspecs :=
  [("lon", mkspec "sn" ["longitude"] [("standard_name", RefList ["longitude"]); ("units", RefList ["degrees_east"]); ("axis", RefStr "X")]);
   ("lat", mkspec "sn" ["latitude"] [("standard_name", RefList ["latitude"]); ("axis", RefStr "Y")])].
Definition fx : farr :=
  mkfarr (mkdarr (Some "temperature_u") [("long_name", VStr "ocean_temp"); ("units", VStr "K")]) [Some "latitude"; Some "longitude"]
    [(Some "longitude", mkfvar [] [Some "longitude"]); (Some "latitude", mkfvar [("axis", VStr "y")] [Some "latitude"])].
Example ex_format :
  format_data_var fsg fvars fcoords fx None true false AttrsTrue false true [] LNone true =
  Ok (mkfarr (mkdarr (Some "temp_u") [("long_name", VStr "Ocean temp"); ("units", VStr "K"); ("standard_name", VStr "sea_water_temperature")])
        [Some "latitude"; Some "longitude"]
        [(Some "longitude", mkfvar [("standard_name", VStr "longitude"); ("units", VStr "degrees_east"); ("axis", VStr "X")] [Some "longitude"]);
         (Some "latitude", mkfvar [("axis", VStr "y"); ("standard_name", VStr "latitude")] [Some "latitude"])],
      RArr (mkfarr (mkdarr (Some "temp_u") [("long_name", VStr "Ocean temp"); ("units", VStr "K"); ("standard_name", VStr "sea_water_temperature")])
        [Some "lat"; Some "lon"]
        [(Some "lon", mkfvar [("standard_name", VStr "longitude"); ("units", VStr "degrees_east"); ("axis", VStr "X")] [Some "lon"]);
         (Some "lat", mkfvar [("axis", VStr "y"); ("standard_name", VStr "latitude")] [Some "lat"])])).
Proof. vm_compute. reflexivity. Qed.
(** The hypotheses of C48_coords (hence of C48_fill and C48_name) for this array *)
Example ex_coords_hyps : named (f_coords fx) /\ NoDup (map fst (f_coords fx)) /\
  cf_name_is fsg fvars (f_da fx) None "temp" /\
  (exists da1 new, format_name fsg fvars (f_da fx) None LNone AttrsTrue true false false = Ok (da1, new)) /\
  exists outs, Forall2 (coord_step fsg fcoords LNone true false []) (f_coords fx) outs /\ NoDup (map snd outs).
Proof.
  split; [intros c [<-|[<-|[]]]; discriminate|]. split; [apply odistinct_iff; reflexivity|].
  split; [right; split; [reflexivity|vm_compute; reflexivity]|].
  split; [eexists; eexists; vm_compute; reflexivity|].
  eexists. split.
  - constructor; [|constructor; [|constructor]].
    + eexists. split; [vm_compute; instantiate (1 := (_, _)); reflexivity|cbn [fst]; reflexivity].
    + eexists. split; [vm_compute; instantiate (1 := (_, _)); reflexivity|cbn [fst]; reflexivity].
  - apply odistinct_iff. vm_compute. reflexivity.
Qed.
(** False: "select: include only these attributes", "exclude: exclude these attributes". *)
Theorem C48_select_refuted : exists r, get_attrs fsg fvars "temp" ["units"] (Some ["long_name"]) EWarn LNone false true [] = Ok r /\
  dget (fst r) "standard_name" = Some (VStr "sea_water_temperature") /\ dget (fst r) "long_name" = Some (VStr "Temperature").
Proof. eexists. split; [vm_compute; reflexivity|]. split; reflexivity. Qed.
(** False: "attrs: if False, does not change attributes at all". *)
Theorem C48_attrs_false_refuted : exists y,
  cat_format fsg fvars fx None LNone AttrsFalse true false true false = Ok y /\
  dget (da_attrs (f_da fx)) "long_name" = Some (VStr "ocean_temp") /\
  dget (da_attrs (f_da y)) "long_name" = Some (VStr "Ocean temp").
Proof. eexists. split; [vm_compute; reflexivity|]. split; reflexivity. Qed.
(** False: "fill_attrs fills in missing attributes" of an array: it returns a string. *)
Theorem C48_fill_attrs_refuted : fill_attrs_array fsg fvars fcoords fx true = Ok (fx, RName (Some "temp_u")).
Proof. vm_compute. reflexivity. Qed.
(** False: "coordinates that are not recognised are left as they are". *)
Theorem C48_none_refuted : exists x1 y,
  format_data_var fsg fvars fcoords (mkfarr (mkdarr (Some "temp") []) [Some "station"] [(Some "station", mkfvar [] [Some "station"])])
    None true false AttrsTrue false true [] LNone true = Ok (x1, RArr y) /\
  f_dims y = [None] /\ map fst (f_coords y) = [None].
Proof. eexists. eexists. split; [vm_compute; reflexivity|]. split; reflexivity. Qed.
Theorem C48_two_unknown_refuted :
  format_data_var fsg fvars fcoords (mkfarr (mkdarr (Some "temp") []) [Some "station"]
      [(Some "station", mkfvar [] [Some "station"]); (Some "ship", mkfvar [] [Some "station"])])
    None true false AttrsTrue false true [] LNone true = Raise ValueError.
Proof. vm_compute. reflexivity. Qed.
(** False: formatting twice is formatting once. *)
Theorem C48_twice_refuted : exists y z,
  let x := mkfarr (mkdarr (Some "temp") [("long_name", VStr "temp_at_T_location")]) [] [] in
  cat_format fsg fvars x None LNone AttrsTrue true false true false = Ok y /\
  cat_format fsg fvars y None LNone AttrsTrue true false true false = Ok z /\
  dget (da_attrs (f_da y)) "long_name" = Some (VStr "Temp at t location") /\
  dget (da_attrs (f_da z)) "long_name" = Some (VStr "Temp at T location").
Proof. eexists. eexists. cbn zeta. split; [vm_compute; reflexivity|]. split; [vm_compute; reflexivity|]. split; reflexivity. Qed.
(** False: the location of the former name is kept: a specialised name with an underscore is
    read as a name with a location. *)
Theorem C48_specialised_refuted : exists da',
  format_name fsg fvars (mkdarr (Some "ssh_u") []) None LNone AttrsTrue true true false = Ok (da', Some "sea_level") /\
  parse_attr fsg "name" "ssh_u" = Ok ("ssh", Some "u").
Proof. eexists. split; vm_compute; reflexivity. Qed.
Example ex_dataset : exists x1 y,
  format_dataset fsg fvars fcoords
    (mkfds [(Some "temperature", mkfvar [] [Some "longitude"]); (Some "foo", mkfvar [] [])] [(Some "longitude", mkfvar [] [Some "longitude"])])
    LNone true false true [] false = Ok (x1, y) /\
  map fst (d_vars y) = [Some "temp"; Some "foo"] /\ map fst (d_coords y) = [Some "lon"] /\
  map (fun kv => v_dims (snd kv)) (d_vars y) = [[Some "lon"]; []].
Proof. eexists. eexists. split; [vm_compute; reflexivity|]. repeat split. Qed.
