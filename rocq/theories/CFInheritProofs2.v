(** Lemmas for C28: one entry. *)
From Verif Require Export CFInheritProofs.
From Coq Require Import Lia.
Open Scope string_scope.

Definition ent (st : cfdict) (cat name : string) : option pyval :=
  if String.eqb cat "data_vars" then dget (data_vars st) name
  else if String.eqb cat "coords" then dget (coords st) name else None.
Lemma config_ent st cat name : config_of st cat name =
  match ent st cat name with Some (VDict e) => Some e | _ => None end.
Proof. reflexivity. Qed.

Lemma ent_get st cat name v : ent st cat name = Some v ->
  exists entries, cat_get st cat = Ok entries /\ dget entries name = Some v.
Proof.
  unfold ent, cat_get. destruct (String.eqb cat "data_vars"); [eauto|].
  destruct (String.eqb cat "coords"); [eauto|discriminate].
Qed.
Lemma ent_set st cat name entries v c n : cat_get st cat = Ok entries ->
  ent (cat_set st cat (dset entries name v)) c n =
  if String.eqb c cat && String.eqb n name then Some v else ent st c n.
Proof.
  unfold ent, cat_get, cat_set. destruct (String.eqb_spec cat "data_vars") as [->|N1].
  - intro E. injection E as <-. cbn [data_vars coords]. destruct (String.eqb_spec c "data_vars") as [->|N]; cbn [andb].
    + rewrite dget_dset. destruct (String.eqb n name); auto.
    + reflexivity.
  - destruct (String.eqb_spec cat "coords") as [->|N2]; [|discriminate].
    intro E. injection E as <-. cbn [data_vars coords]. destruct (String.eqb_spec c "data_vars") as [->|N].
    + destruct (String.eqb_spec "data_vars" "coords"); [congruence|]. reflexivity.
    + destruct (String.eqb_spec c "coords"); cbn [andb]; [|reflexivity].
      rewrite dget_dset. destruct (String.eqb n name); auto.
Qed.
Lemma cat_get_set st cat entries d : cat_get st cat = Ok entries -> cat_get (cat_set st cat d) cat = Ok d.
Proof.
  unfold cat_get, cat_set. destruct (String.eqb_spec cat "data_vars") as [->|N1]; [reflexivity|].
  destruct (String.eqb_spec cat "coords") as [->|N2]; [reflexivity|discriminate].
Qed.
Lemma cat_set_set st cat d e : cat_set (cat_set st cat d) cat e = cat_set st cat e.
Proof. unfold cat_set. destruct (String.eqb cat "data_vars"); [reflexivity|]. destruct (String.eqb cat "coords"); reflexivity. Qed.
(** Same keys, same dimensions *)
Definition same_keys (s t : cfdict) : Prop :=
  dkeys (data_vars s) = dkeys (data_vars t) /\ dkeys (coords s) = dkeys (coords t) /\ dims s = dims t.
Lemma same_keys_set st cat name entries v : cat_get st cat = Ok entries -> dmem entries name = true ->
  same_keys (cat_set st cat (dset entries name v)) st.
Proof.
  unfold cat_get, cat_set, same_keys. destruct (String.eqb cat "data_vars").
  - intros E H. injection E as <-. cbn [data_vars coords dims]. rewrite dkeys_dset, H. auto.
  - destruct (String.eqb cat "coords"); [|discriminate].
    intros E H. injection E as <-. cbn [data_vars coords dims]. rewrite dkeys_dset, H. auto.
Qed.
Lemma same_keys_trans a b c : same_keys a b -> same_keys b c -> same_keys a c.
Proof. unfold same_keys. intuition congruence. Qed.

(** ** Long names *)
Definition titled (e : dict pyval) : Prop := exists attrs ln,
  dget e "attrs" = Some (VDict attrs) /\ dget attrs "long_name" = Some (VList ln) /\ ln <> [].
Lemma fill_titled name e : titled e -> fill_long_name name e = Ok e.
Proof.
  intros (attrs & ln & E1 & E2 & N). unfold fill_long_name, getitem. rewrite E1. cbn [bind as_dict].
  rewrite E2. cbn [bind truthy]. destruct ln; [congruence|reflexivity].
Qed.
Lemma fill_ok name own : valid_entry own -> exists f, fill_long_name name own = Ok f /\
  named name own f /\ titled f /\ wf (VDict f) /\ dget f "inherit" = dget own "inherit".
Proof.
  intros (W & (attrs & ln & sn & E1 & E2 & E3 & Hs) & _).
  destruct ln as [|l0 ln].
  - unfold fill_long_name, getitem. rewrite E1. cbn [bind as_dict]. rewrite E2. cbn [bind truthy].
    rewrite E3. cbn [bind].
    assert (Hsrc : exists src, (if truthy (VList sn) then match VList sn with VList (VStr s :: _) => Ok s | VTuple (VStr s :: _) => Ok s
                 | VStr (String c _) => Ok (String c "") | _ => Raise TypeError end else Ok name) = Ok src /\
       ((dget attrs "standard_name" = Some (VList []) /\ src = name) \/
       (exists rest, dget attrs "standard_name" = Some (VList (VStr src :: rest))))).
    { destruct sn as [|v sn]; cbn [truthy].
      - exists name. auto.
      - destruct (Hs v) as [s ->]; [left; reflexivity|]. exists s. split; [reflexivity|]. right. eauto. }
    destruct Hsrc as (src & Es & Hsrc). rewrite Es. cbn [bind app].
    eexists. split; [reflexivity|].
    assert (Wa : wf (VDict attrs)). { apply wf_dict in W. destruct W as [_ W]. eapply W; eauto. }
    split; [|split; [|split]].
    + exists attrs, []. split; auto. split; auto. right. split; auto.
      exists (dset attrs "long_name" (VList [VStr (nice src)])), src. split; auto. split; [|split; [|split; [|split]]].
      * intros k Hk. rewrite dget_dset. destruct (String.eqb_spec k "attrs"); [congruence|reflexivity].
      * rewrite dget_dset. reflexivity.
      * intros k Hk. rewrite dget_dset. destruct (String.eqb_spec k "long_name"); [congruence|reflexivity].
      * rewrite dkeys_dset. unfold dmem. now rewrite E2.
      * rewrite dget_dset. reflexivity.
    + exists (dset attrs "long_name" (VList [VStr (nice src)])), [VStr (nice src)]. rewrite !dget_dset.
      repeat split. discriminate.
    + apply wf_dict. apply wf_dict in W. destruct W as [W1 W2]. split; [now apply dset_wf|].
      intros k v. rewrite dget_dset. destruct (String.eqb k "attrs").
      * intro E. injection E as <-. apply wf_dict. apply wf_dict in Wa. destruct Wa as [A1 A2].
        split; [now apply dset_wf|]. intros k' v'. rewrite dget_dset.
        destruct (String.eqb k' "long_name"); [intro E; injection E as <-; exact Logic.I|apply A2].
      * apply W2.
    + rewrite dget_dset. reflexivity.
  - exists own. assert (T : titled own). { exists attrs, (l0 :: ln). repeat split; auto. discriminate. }
    split; [now apply fill_titled|]. split; [|auto].
    exists attrs, (l0 :: ln). split; auto. split; auto. left. split; [discriminate|reflexivity].
Qed.

(** ** Final entries *)
Definition falsy (v : option pyval) : Prop := match v with Some v => truthy v = false | None => True end.
Definition final (cfg : config) (cat name : string) (e : dict pyval) : Prop :=
  resolves cfg cat name e /\ titled e /\ falsy (dget e "inherit") /\
  dget e "processed" = Some (VBool true) /\ wf (VDict e).

Definition inv (cfg : config) (st : cfdict) : Prop := forall cat name,
  match cfg cat name with
  | None => ent st cat name = None
  | Some own => valid_entry own /\ exists e, ent st cat name = Some (VDict e) /\
      (e = own \/ fill_long_name name own = Ok e \/ final cfg cat name e)
  end.

Lemma inherit_falsy cat e : falsy (dget e "inherit") -> inherit_of cat e = Ok None.
Proof. unfold falsy, inherit_of. destruct (dget e "inherit"); auto. intros ->. reflexivity. Qed.
Lemma inherit_str cat e s : dget e "inherit" = Some (VStr s) -> s <> "" ->
  inherit_of cat e = Ok (Some (parent_of cat s)).
Proof.
  unfold inherit_of. intros -> N. cbn [truthy]. destruct (String.eqb_spec s ""); [congruence|reflexivity].
Qed.

Lemma set_inv cfg st cat name entries e own : cfg cat name = Some own -> cat_get st cat = Ok entries ->
  inv cfg st -> (e = own \/ fill_long_name name own = Ok e \/ final cfg cat name e) ->
  inv cfg (cat_set st cat (dset entries name (VDict e))).
Proof.
  intros Hc Hg Hi He c n. specialize (Hi c n). rewrite (ent_set st cat name entries (VDict e) c n Hg).
  destruct (String.eqb_spec c cat) as [->|]; cbn [andb]; [|exact Hi].
  destruct (String.eqb_spec n name) as [->|]; [|exact Hi]. rewrite Hc in *. split; [apply Hi|]. eauto.
Qed.

Lemma wf_dset e k v : wf (VDict e) -> wf v -> wf (VDict (dset e k v)).
Proof.
  intros W Wv. apply wf_dict. apply wf_dict in W. destruct W as [W1 W2]. split; [now apply dset_wf|].
  intros k' v'. rewrite dget_dset. destruct (String.eqb k' k); [intro E; now injection E as <-|apply W2].
Qed.

Lemma own_key_mem cat k : str_mem k (cat_keys cat) = true <-> own_key cat k.
Proof.
  unfold str_mem, own_key, cat_keys. rewrite existsb_exists. split.
  - intros (x & Hx & E). apply String.eqb_eq in E. now subst.
  - intro H. exists k. split; auto. apply String.eqb_refl.
Qed.
Lemma drop_foreign_get cat pcat m k : dget (drop_foreign cat pcat m) k =
  if negb (String.eqb cat pcat) && negb (str_mem k (cat_keys cat)) && str_mem k (cat_keys pcat)
  then None else dget m k.
Proof.
  unfold drop_foreign. destruct (String.eqb cat pcat); cbn [negb andb]; [reflexivity|].
  rewrite (dget_filter (fun k => negb (negb (str_mem k (cat_keys cat)) && str_mem k (cat_keys pcat)))).
  destruct (negb (str_mem k (cat_keys cat)) && str_mem k (cat_keys pcat)); reflexivity.
Qed.
Lemma drop_foreign_spec cat pcat m k :
  (foreign cat pcat k -> dget (drop_foreign cat pcat m) k = None) /\
  (~ foreign cat pcat k -> dget (drop_foreign cat pcat m) k = dget m k).
Proof.
  rewrite drop_foreign_get. unfold foreign. rewrite <- !own_key_mem.
  destruct (String.eqb_spec cat pcat), (str_mem k (cat_keys cat)), (str_mem k (cat_keys pcat)); cbn [negb andb];
    split; intro H; try reflexivity; exfalso; intuition congruence.
Qed.
Lemma drop_foreign_wf cat pcat m : wf (VDict m) -> wf (VDict (drop_foreign cat pcat m)).
Proof.
  intro W. apply wf_dict in W. destruct W as [W1 W2]. apply wf_dict. split.
  - unfold drop_foreign. destruct (String.eqb cat pcat); auto. now apply filter_wf.
  - intros k v. rewrite drop_foreign_get. destruct (_ && _); [discriminate|apply W2].
Qed.
Lemma attrs_own cat : own_key cat "attrs".
Proof. unfold own_key. destruct (String.eqb cat "data_vars"); simpl; auto 10. Qed.

(** What a merge makes of an entry and of its final parent *)
Lemma child_final cfg cat name pcat pname own f p m :
  cfg cat name = Some own -> has_parent cfg cat name pcat pname -> (pcat, pname) <> (cat, name) ->
  named name own f -> titled f -> final cfg pcat pname p ->
  wf (VDict m) -> (forall k, over_opt (dget f k) (dget p k) (dget m k)) ->
  final cfg cat name (dset (dset (drop_foreign cat pcat m) "inherit" VNone) "processed" (VBool true)).
Proof.
  intros Hc Hp Hn Hf Tf Fp Wm Hm. destruct Fp as (Rp & Tp & Ip & Pp & Wp).
  assert (We : wf (VDict (dset (dset (drop_foreign cat pcat m) "inherit" VNone) "processed" (VBool true)))).
  { apply wf_dset; [apply wf_dset|]; try exact Logic.I. now apply drop_foreign_wf. }
  split; [|split; [|split; [|split]]]; auto.
  - apply (res_child cfg cat name pcat pname own f p m); auto.
    + rewrite !dget_dset. reflexivity.
    + rewrite !dget_dset. reflexivity.
    + intros k N1 N2 F. rewrite !dget_dset. destruct (String.eqb_spec k "processed"); [congruence|].
      destruct (String.eqb_spec k "inherit"); [congruence|]. now apply drop_foreign_spec.
    + intros k N1 N2 F. rewrite !dget_dset. destruct (String.eqb_spec k "processed"); [congruence|].
      destruct (String.eqb_spec k "inherit"); [congruence|]. now apply drop_foreign_spec.
    + now apply wf_dict in We.
  - destruct Tf as (fa & fl & F1 & F2 & F3), Tp as (pa & pl & P1 & P2 & P3).
    assert (Ha := Hm "attrs"). rewrite F1, P1 in Ha. inversion Ha as [| |? ? c Hov E1 E2 E3]. subst.
    assert (Tn : truthy (VDict fa) = true). { destruct fa; [discriminate F2|reflexivity]. }
    inversion Hov as [? ? H|? ? H|? ? H|? ? c' H Hk Hw|? ? H _ _ Hd]; subst; try congruence.
    2:{ exfalso. apply (Hd fa pa). auto. }
    specialize (Hk "long_name"). rewrite F2, P2 in Hk. inversion Hk as [| |? ? cl Hol E4 E5 E6]. subst.
    assert (Tl : truthy (VList fl) = true). { destruct fl; [congruence|reflexivity]. }
    inversion Hol as [? ? H'|? ? H'|? ? H'|? ? ? H'|? ? H' Hl]; subst; try congruence.
    2:{ exfalso. apply (Hl fl pl). auto. }
    exists c', (fl ++ pl)%list. split; [|split; auto].
    + rewrite !dget_dset. cbn [String.eqb Ascii.eqb Bool.eqb]. rewrite (proj2 (drop_foreign_spec cat pcat m "attrs")); auto.
      intros (_ & _ & Hx). apply Hx, attrs_own.
    + destruct fl; [congruence|discriminate].
  - rewrite !dget_dset. reflexivity.
  - rewrite !dget_dset. reflexivity.
Qed.
Lemma root_final cfg cat name own f : cfg cat name = Some own -> is_root cfg cat name ->
  named name own f -> titled f -> wf (VDict f) -> dget f "inherit" = dget own "inherit" ->
  final cfg cat name (dset f "processed" (VBool true)).
Proof.
  intros Hc Hr Hf Tf Wf Hi. assert (We := wf_dset f "processed" (VBool true) Wf Logic.I).
  split; [|split; [|split; [|split]]]; auto.
  - apply (res_root cfg cat name own f); auto.
    + rewrite dget_dset. reflexivity.
    + intros k N. rewrite dget_dset. destruct (String.eqb_spec k "processed"); [congruence|reflexivity].
    + now apply wf_dict in We.
  - destruct Tf as (fa & fl & F1 & F2 & F3). exists fa, fl. rewrite dget_dset. auto.
  - rewrite dget_dset. cbn [String.eqb Ascii.eqb Bool.eqb]. rewrite Hi. destruct Hr as (own' & E & H). rewrite Hc in E. injection E as <-. exact H.
  - rewrite dget_dset. reflexivity.
Qed.
