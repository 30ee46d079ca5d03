(** C46: a copy of specifications. *)
From Verif Require Import PyDictFacts CFLoad CFLoadSpec CFLoadProofs CFLoadProps CFCopy.
From Coq Require Import Lia.
Open Scope nat_scope.
Open Scope string_scope.

(** What a user can see of the specifications: the coordinates, in their order, with their axis and names *)
Definition coordinates (st : state) (c : cfg) : list (string * (string * list string)) :=
  map (fun e => (fst e, (fst (snd e), rd (st_heap st) (snd (snd e))))) (c_coords c).
(** The names that a coordinate brings to the dimensions of type [ax] *)
Definition brings (ax : string) (e : string * (string * list string)) : list string :=
  let '(name, (axis, names)) := e in
  if string_dec axis "" then [] else if string_dec (lower axis) ax then name :: names else [].
Record sound (st : state) (c : cfg) : Prop := {
  s_keys : NoDup (dkeys (c_dims c)) /\ NoDup (dkeys (c_coords c));
  s_live : forall a, In a (caddrs c) -> a < List.length (st_heap st);
  s_axes : forall n x a, In (n, (x, a)) (c_coords c) -> x <> "" -> In (lower x) (dkeys (c_dims c)) }.

Lemma read_keys {A} h (d : dict (A * addr)) : dkeys (read_sec h d) = dkeys d.
Proof. unfold read_sec, dkeys. rewrite map_map. now apply map_ext. Qed.
Lemma read_get {A} h (d : dict (A * addr)) k :
  dget (read_sec h d) k = match dget d k with Some (x, a) => Some (x, rd h a) | None => None end.
Proof.
  induction d as [|[j [x a]] d IH]; [reflexivity|]. cbn. destruct (String.eqb k j); auto.
Qed.
Lemma load_text cache disk s st : load_cfg cache disk [RText s] st = load_cfg false disk [RText s] st.
Proof. reflexivity. Qed.
Lemma merge_sec_nil {A} (join : A -> A -> A) d h : NoDup (dkeys d) -> merge_sec join [] d h = (d, h).
Proof.
  unfold merge_sec. intro H. enough (G : forall e out, NoDup (dkeys out ++ dkeys e) ->
    fold_left (merge_entry join) e (out, h) = ((out ++ e)%list, h)) by (apply (G d []); exact H).
  clear. induction e as [|[k [x b]] e IH]; intros out H; cbn; [now rewrite app_nil_r|].
  cbn in H. assert (Hk : dget out k = None).
  { destruct (dget out k) as [y|] eqn:E; [|reflexivity]. apply NoDup_remove_2 in H.
    destruct H. apply in_or_app. left. apply dmem_in. unfold dmem. now rewrite E. }
  rewrite Hk. assert (Hs : dset out k (x, b) = (out ++ [(k, (x, b))])%list).
  { clear -Hk. induction out as [|[j y] out IH]; [reflexivity|]. cbn in *. destruct (String.eqb k j); [discriminate|].
    now rewrite IH. }
  rewrite Hs, IH.
  - now rewrite <- app_assoc.
  - unfold dkeys in *. rewrite map_app, <- app_assoc. exact H.
Qed.
Lemma rep_dkeys {A} h (d : dict (A * addr)) v : rep h d v -> dkeys v = dkeys d.
Proof. unfold rep, dkeys. induction 1 as [|e f d' v' [E _] HF IH]; [reflexivity|]. cbn. now rewrite IH, E. Qed.
Lemma rep_read {A} h (d : dict (A * addr)) v : rep h d v -> read_sec h d = v.
Proof.
  unfold rep, read_sec. induction 1 as [|[k [x a]] [j [y l]] d' v' (E & F & G) HF IH]; [reflexivity|].
  cbn in *. rewrite IH. now subst.
Qed.
Lemma brings_contrib ax e : brings ax e = contrib ax e.
Proof.
  destruct e as [n [x l]]. cbn. destruct (string_dec x "") as [->|H]; [reflexivity|].
  apply String.eqb_neq in H. rewrite H. destruct (string_dec (lower x) ax) as [->|G]; [now rewrite String.eqb_refl|].
  apply String.eqb_neq in G. now rewrite G.
Qed.
Lemma read_frame {A} h h' (d : dict (A * addr)) : (forall a, In a (addrs d) -> rd h' a = rd h a) -> read_sec h' d = read_sec h d.
Proof.
  unfold read_sec, addrs. intro H. apply map_ext_in. intros [k [x a]] Hin. cbn. rewrite H; [reflexivity|].
  apply in_map_iff. now exists (k, (x, a)).
Qed.

(** A copy has the same coordinates, but their names come once more among the dimensions of their axis.  The
    copied specifications do not change, and the copy does not know the user and default configurations (so
    that set_specs forgets everything, see C46_set_specs_forgets_refuted). *)
Theorem C46_copy_refuted cache disk sp st : sound st (sp_cfg sp) ->
  exists sp' st', copy cache disk sp st = Ok (sp', st') /\
  sp_user sp' = None /\ sp_default sp' = false /\ st_cache st' = st_cache st /\ sound st' (sp_cfg sp') /\
  coordinates st' (sp_cfg sp') = coordinates st (sp_cfg sp) /\
  (forall ax, valid_dims st' (sp_cfg sp') ax =
     match valid_dims st (sp_cfg sp) ax with
     | Some l => Some (l ++ flat_map (brings ax) (coordinates st (sp_cfg sp)))%list
     | None => None
     end) /\
  coordinates st' (sp_cfg sp) = coordinates st (sp_cfg sp) /\
  (forall ax, valid_dims st' (sp_cfg sp) ax = valid_dims st (sp_cfg sp) ax).
Proof.
  intros [[Hkd Hkc] Hl Hx]. set (c := sp_cfg sp) in *. set (s := content st c).
  unfold copy. fold c s. change (to_load [RText s] None false) with [RText s]. rewrite load_text.
  unfold load_cfg, load_all, load_one, bind. unfold store.
  destruct (alloc_src s (st_heap st)) as [c1 h1] eqn:Ea. cbn [fst snd st_heap st_cache].
  destruct (alloc_src_ok _ _ _ _ Ea) as (ext & Hh & HA & HR).
  destruct HR as [Rd Rc].
  assert (K1 : dkeys (c_dims c1) = dkeys (c_dims c)).
  { rewrite <- (rep_dkeys _ _ _ Rd). apply read_keys. }
  assert (K2 : dkeys (c_coords c1) = dkeys (c_coords c)).
  { rewrite <- (rep_dkeys _ _ _ Rc). apply read_keys. }
  unfold merge_all, merge_cfg. cbn [c_dims c_coords]. rewrite !merge_sec_nil by congruence.
  assert (Hnew : forall a, In a (caddrs c1) -> List.length (st_heap st) <= a < List.length h1).
  { intros a Ha. rewrite HA in Ha. apply in_seq in Ha. rewrite Hh, app_length. exact Ha. }
  assert (Hnd : NoDup (addrs (c_dims c1) ++ addrs (c_coords c1))).
  { change (NoDup (caddrs c1)). rewrite HA. apply seq_NoDup. }
  destruct (update_dims_rep (c_dims c1) (c_coords c1) h1 (s_dims s) (s_coords s) Rd Rc Hnd) as (h2 & Eu & Ru & Fu & Lu).
  { intros a Ha. apply Hnew. unfold caddrs. apply in_or_app. now left. }
  { intros k x a Hin Nx. rewrite K1.
    assert (Hs : In (k, (x, rd h1 a)) (s_coords s)).
    { rewrite <- (rep_read _ _ _ Rc). unfold read_sec. apply in_map_iff. now exists (k, (x, a)). }
    unfold s, content in Hs. cbn [s_coords] in Hs. unfold read_sec in Hs. apply in_map_iff in Hs.
    destruct Hs as ([n [y b]] & E & Hs). cbn in E. injection E as <- <- _. now apply (Hx n y b). }
  cbn [c_dims c_coords]. rewrite Eu. eexists _, _. split; [reflexivity|]. cbn [sp_user sp_default st_cache sp_cfg fst snd].
  assert (Fc : forall a, In a (addrs (c_coords c1)) -> rd h2 a = rd h1 a).
  { intros a Ha. apply Fu. intro G. apply nd_app in Hnd as (_ & _ & D). now apply (D a). }
  assert (Fo : forall a, In a (caddrs c) -> rd h2 a = rd (st_heap st) a).
  { intros a Ha. rewrite Fu.
    - rewrite Hh. apply rd_app. now apply Hl.
    - intro G. assert (B : In a (caddrs c1)) by (unfold caddrs; apply in_or_app; now left).
      apply Hnew in B. apply Hl in Ha. lia. }
  assert (Cc : coordinates (mkst h2 (st_cache st)) c1 = coordinates st c).
  { unfold coordinates. cbn [st_heap]. fold (read_sec h2 (c_coords c1)). fold (read_sec (st_heap st) (c_coords c)).
    rewrite (read_frame h1) by exact Fc. now rewrite (rep_read _ _ _ Rc). }
  repeat split; auto.
  - cbn [c_dims]. rewrite K1. exact Hkd.
  - cbn [c_coords]. rewrite K2. exact Hkc.
  - cbn [st_heap]. intros a Ha. rewrite Lu. apply Hnew. exact Ha.
  - cbn [c_dims c_coords]. intros n x a Hin Nx. rewrite K1.
    assert (Hs : In (n, (x, rd h2 a)) (coordinates (mkst h2 (st_cache st)) c1)).
    { unfold coordinates. apply in_map_iff. now exists (n, (x, a)). }
    rewrite Cc in Hs. unfold coordinates in Hs. apply in_map_iff in Hs.
    destruct Hs as ([m [y b]] & E & Hs). cbn in E. injection E as <- <- _. now apply (Hx m y b).
  - intro ax. unfold valid_dims. cbn [st_heap c_dims].
    assert (G := dget_rep h2 _ _ ax Ru). rewrite pup_fold_get in G.
    + unfold s, content in G. cbn [s_dims s_coords] in G. rewrite read_get in G.
      rewrite (flat_map_ext (contrib ax) (brings ax)) in G by (intro; symmetry; apply brings_contrib).
      fold (read_sec (st_heap st) (c_coords c)). change (coordinates st c) with (read_sec (st_heap st) (c_coords c)).
      destruct (dget (c_dims c1) ax) as [[u a]|], (dget (c_dims c) ax) as [[u' a']|]; try discriminate G; [|reflexivity].
      injection G as _ G. now rewrite G.
    + intros k x l Hin Nx. unfold s, content in *. cbn [s_dims s_coords] in *. rewrite read_keys.
      unfold read_sec in Hin. apply in_map_iff in Hin. destruct Hin as ([m [y b]] & E & Hin).
      cbn in E. injection E as <- <- _. now apply (Hx m y b).
  - unfold coordinates. cbn [st_heap]. fold (read_sec h2 (c_coords c)). fold (read_sec (st_heap st) (c_coords c)).
    apply read_frame. intros a Ha. apply Fo. unfold caddrs. apply in_or_app. now right.
  - intro ax. unfold valid_dims. cbn [st_heap]. destruct (dget (c_dims c) ax) as [[u a]|] eqn:E; [|reflexivity].
    rewrite Fo; [reflexivity|]. unfold caddrs. apply in_or_app. left. now apply dget_addr in E.
Qed.
Print Assumptions C46_copy_refuted.

(** The specifications that were loaded are sound, so that they can be copied again and again *)
Fixpoint copies (n : nat) (cache : bool) disk (sp : specs) (st : state) : res (specs * state) :=
  match n with O => Ok (sp, st) | S n => let* r := copies n cache disk sp st in copy cache disk (fst r) (snd r) end.
Theorem C46_copies_refuted cache disk sp st n : sound st (sp_cfg sp) ->
  exists sp' st', copies n cache disk sp st = Ok (sp', st') /\ sound st' (sp_cfg sp') /\
  coordinates st' (sp_cfg sp') = coordinates st (sp_cfg sp) /\
  (forall ax, valid_dims st' (sp_cfg sp') ax =
     match valid_dims st (sp_cfg sp) ax with
     | Some l => Some (l ++ List.concat (repeat (flat_map (brings ax) (coordinates st (sp_cfg sp))) n))%list
     | None => None
     end).
Proof.
  intro H. induction n as [|n IH].
  - exists sp, st. split; [reflexivity|]. split; [exact H|]. split; [reflexivity|]. intro ax. cbn.
    destruct (valid_dims st (sp_cfg sp) ax); [|reflexivity]. now rewrite app_nil_r.
  - destruct IH as (sp1 & st1 & E & S1 & C1 & V1).
    destruct (C46_copy_refuted cache disk sp1 st1 S1) as (sp2 & st2 & E2 & _ & _ & _ & S2 & C2 & V2 & _).
    exists sp2, st2. cbn [copies]. rewrite E. cbn [bind fst snd]. split; [exact E2|]. split; [exact S2|].
    split; [congruence|]. intro ax. rewrite V2, V1, C1. destruct (valid_dims st (sp_cfg sp) ax) as [l|]; [|reflexivity].
    rewrite <- app_assoc. f_equal. f_equal. clear. induction n as [|n IH]; cbn; [now rewrite app_nil_r|].
    rewrite <- app_assoc. now f_equal.
Qed.
Print Assumptions C46_copies_refuted.

(** A copy of the small configuration *)
Example C46_copy_met : exists c st, load_cfg false disk0 [RName "cf.cfg"] (mkst [] []) = Ok (c, st) /\ sound st c /\
  exists sp' st', copy true disk0 (mkspecs c None true) st = Ok (sp', st') /\
  valid_dims st' c "x" = Some ["nx"; "ni"; "lon"; "longitude"] /\
  valid_dims st' (sp_cfg sp') "x" = Some ["nx"; "ni"; "lon"; "longitude"; "lon"; "longitude"].
Proof.
  eexists _, _. split; [vm_compute; reflexivity|]. split.
  - split.
    + split; repeat (constructor; [cbn; intuition discriminate|]); constructor.
    + cbn. intros a Ha. intuition lia.
    + cbn. intros n x a [E|[E|[]]] Nx; injection E as <- <- <-; [now left|congruence].
  - eexists _, _. split; [vm_compute; reflexivity|]. split; reflexivity.
Qed.
