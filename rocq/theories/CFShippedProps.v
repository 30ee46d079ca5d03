(** C65-C67: what the shipped CF configuration recognises. *)
From Verif Require Import CFShippedProofs.
From Verif Require Import CFSearchProofs PyReFacts SGLocProofs SGLocProps SGLocFmt CFFormatProps CFSearchProps.
From Verif Require Import SGLoc.
From Coq Require Import Lia.
Open Scope string_scope.

(** ** C65: recognition *)
(** The configuration loads, no entry is lost, and the searches see the processed entries: lists
    of names, lists of attribute values (or a string, or None for an axis). *)
Definition spec_value (v : pyval) : Prop :=
  match v with
  | Misc.VList l => forall x, In x l -> exists s, x = Misc.VStr s
  | Misc.VStr _ | Misc.VNone => True
  | _ => False
  end.
Definition spec_entry (v : pyval) : Prop :=
  exists d o l a, v = Misc.VDict d /\ dget d "search_order" = Some (Misc.VStr o) /\ dget d "name" = Some (Misc.VList l) /\
    dget d "attrs" = Some (Misc.VDict a) /\ spec_value (Misc.VList l) /\ forall k x, In (k, x) a -> spec_value x.
Definition spec_valueb (v : pyval) : bool :=
  match v with
  | Misc.VList l => forallb (fun x => match x with Misc.VStr _ => true | _ => false end) l
  | Misc.VStr _ | Misc.VNone => true
  | _ => false
  end.
Definition spec_entryb (v : pyval) : bool :=
  match v with
  | Misc.VDict d =>
    match dget d "search_order", dget d "name", dget d "attrs" with
    | Some (Misc.VStr _), Some (Misc.VList l), Some (Misc.VDict a) =>
      spec_valueb (Misc.VList l) && forallb (fun kv => spec_valueb (snd kv)) a
    | _, _, _ => false
    end
  | _ => false
  end.
Lemma spec_valueb_ok v : spec_valueb v = true -> spec_value v.
Proof.
  destruct v; cbn; try discriminate; auto. rewrite forallb_forall. intros H x Hx. specialize (H x Hx).
  destruct x; try discriminate. eauto.
Qed.
Lemma spec_entryb_ok v : spec_entryb v = true -> spec_entry v.
Proof.
  unfold spec_entryb. destruct v as [ | | | | | |d| | ]; try discriminate.
  destruct (dget d "search_order") as [[]|] eqn:E1; try discriminate.
  destruct (dget d "name") as [[]|] eqn:E2; try discriminate.
  destruct (dget d "attrs") as [[]|] eqn:E3; try discriminate.
  intro H. apply andb_true_iff in H. destruct H as [H1 H2]. rewrite forallb_forall in H2.
  do 4 eexists. repeat split; eauto.
  - now apply spec_valueb_ok.
  - intros k x Hx. apply spec_valueb_ok. apply (H2 _ Hx).
Qed.
Fixpoint distinctb (l : list string) : bool :=
  match l with [] => true | x :: l' => negb (existsb (String.eqb x) l') && distinctb l' end.
Lemma distinctb_ok l : distinctb l = true -> NoDup l.
Proof.
  induction l as [|x l IH]; cbn; [constructor|]. intro H. apply andb_true_iff in H. destruct H as [H1 H2].
  constructor; auto. intro Hx. apply existsb_in in Hx. rewrite Hx in H1. discriminate.
Qed.
Theorem C65_loads : exists c, post_process recursion_limit cfcfg = Ok c /\
  dkeys (data_vars c) = dkeys cfcfg_data_vars /\ dkeys (coords c) = dkeys cfcfg_coords /\
  NoDup (dkeys (data_vars c)) /\ NoDup (dkeys (coords c)) /\
  (forall n v, In (n, v) (data_vars c ++ coords c)%list -> spec_entry v) /\
  shipped_vars = specs_of (data_vars c) /\ shipped_coords = specs_of (coords c) /\
  List.length shipped_vars = 142%nat /\ List.length shipped_coords = 10%nat.
Proof.
  assert (H : exists c, shipped = Ok c).
  { destruct shipped as [c|e] eqn:E; [eauto|]. exfalso.
    assert (X : match shipped with Ok _ => true | Raise _ => false end = true) by (vm_compute; reflexivity). now rewrite E in X. }
  destruct H as (c & E). exists c. split; [exact E|].
  assert (EV : data_vars c = shipped_part data_vars) by (unfold shipped_part; now rewrite E).
  assert (EC : coords c = shipped_part coords) by (unfold shipped_part; now rewrite E).
  rewrite EV, EC. clear c E EV EC.
  split; [vm_compute; reflexivity|]. split; [vm_compute; reflexivity|].
  split; [apply distinctb_ok; vm_compute; reflexivity|]. split; [apply distinctb_ok; vm_compute; reflexivity|].
  split.
  { intros n v Hv. apply spec_entryb_ok.
    assert (HF : forallb (fun kv => spec_entryb (snd kv)) (shipped_part data_vars ++ shipped_part coords)%list = true) by (vm_compute; reflexivity).
    rewrite forallb_forall in HF. exact (HF _ Hv). }
  split; [vm_compute; reflexivity|]. split; vm_compute; auto.
Qed.

Lemma forall_specs (cs : catspecs) (f : string * spec -> bool) : forallb f cs = true -> forall n sp, In (n, sp) cs -> f (n, sp) = true.
Proof. intros H n sp Hin. rewrite forallb_forall in H. exact (H _ Hin). Qed.
(** Every entry has lists of long names, standard names and units, and every type of dimension a
    list of names. *)
Definition has_lists (cs : catspecs) : bool :=
  forallb (fun kv => forallb (fun k => match dget (CFSearch.s_attrs (snd kv)) k with Some (RefList _) => true | _ => false end) ["long_name"; "standard_name"; "units"]) cs.
Theorem C65_attributes : (forall n sp k, In (n, sp) shipped_vars \/ In (n, sp) shipped_coords -> In k ["long_name"; "standard_name"; "units"] ->
    exists l, dget (CFSearch.s_attrs sp) k = Some (RefList l)) /\
  map fst shipped_dims = ["x"; "y"; "z"; "t"; "f"].
Proof.
  split; [|reflexivity]. assert (G : forall cs, has_lists cs = true -> forall n sp k, In (n, sp) cs -> In k ["long_name"; "standard_name"; "units"] ->
    exists l, dget (CFSearch.s_attrs sp) k = Some (RefList l)).
  { intros cs H n sp k Hn Hk. unfold has_lists in H. rewrite forallb_forall in H. specialize (H _ Hn). cbn [snd] in H. rewrite forallb_forall in H. specialize (H _ Hk).
    destruct (dget (CFSearch.s_attrs sp) k) as [[l| |]|]; try discriminate. eauto. }
  assert (V : has_lists shipped_vars = true) by (vm_compute; reflexivity). assert (W : has_lists shipped_coords = true) by (vm_compute; reflexivity).
  intros n sp k [H|H]; [exact (G _ V n sp k H)|exact (G _ W n sp k H)].
Qed.
Definition rd_name (n : string) (others : list string) (attr : string) : reading :=
  if String.eqb attr "name" then ARoot n else if existsb (String.eqb attr) others then AAbs else AAny.
Lemma rd_name_reads cs da n others : plain_root "name" n = true -> called n da ->
  (forall k, In k others -> without k da) -> forall attr, reads cs da attr (rd_name n others attr).
Proof.
  intros Hp Hc Ho attr. unfold rd_name. destruct (String.eqb_spec attr "name") as [->|N]; [now apply called_reads|].
  destruct (existsb (String.eqb attr) others) eqn:E; [|exact I]. apply existsb_in in E. exact (Ho _ E).
Qed.
Definition is_owner (o : option (res (option string))) (m : string) : bool :=
  match o with Some (Ok (Some x)) => String.eqb x m | _ => false end.
Lemma is_owner_ok o m : is_owner o m = true -> o = Some (Ok (Some m)).
Proof. destruct o as [[[x|]|]|]; try discriminate. cbn. intro H. apply String.eqb_eq in H. now subst. Qed.
Definition is_type_error (o : option (res (option string))) : bool :=
  match o with Some (Raise TypeError) => true | _ => false end.
Lemma is_type_error_ok o : is_type_error o = true -> o = Some (Raise TypeError).
Proof. destruct o as [[|[]]|]; (discriminate || reflexivity). Qed.
Definition located (a : string) : bool := existsb (String.eqb a) located_names.
Definition names_check (P : prepared) (cs : catspecs) (others : list string) (taken : list (string * string * string)) : bool :=
  forallb (fun e => forallb (fun a => if located a then true
      else if plain_root "name" a then is_owner (eval_any (rd_name a others) P) (owner taken (fst e) a) else false)
    (fst e :: s_names (snd e))) cs.
Lemma vars_names : names_check prep_vars shipped_vars ["standard_name"] taken_var_names = true.
Proof. vm_compute. reflexivity. Qed.
Lemma coords_names : names_check prep_coords shipped_coords ["standard_name"; "axis"; "units"] taken_coord_names = true.
Proof. vm_compute. reflexivity. Qed.
Lemma names_check_ok P cs others taken n sp a da : P = prep cs -> names_check P cs others taken = true ->
  In (n, sp) cs -> In a (n :: s_names sp) -> ~ In a located_names -> called a da ->
  (forall k, In k others -> without k da) ->
  match_any shipped_sg cs da MAny = Ok (Some (owner taken n a)).
Proof.
  intros HP H Hin Ha Hl Hc Ho. apply (forall_specs _ _ H) in Hin. cbn [fst snd] in Hin. rewrite forallb_forall in Hin.
  specialize (Hin a Ha). destruct (located a) eqn:L.
  - exfalso. apply Hl. now apply existsb_in.
  - destruct (plain_root "name" a) eqn:L1; [|discriminate]. apply is_owner_ok in Hin.
    eapply eval_sound; [exact HP| |exact Hin]. now apply rd_name_reads.
Qed.
(** A data variable without a standard name, called by one of the names of an entry, at any
    location and in any case: the first entry, unless this name belongs to a previous one. *)
Theorem C65_vars_by_name n sp a da : In (n, sp) shipped_vars -> In a (n :: s_names sp) -> ~ In a located_names ->
  called a da -> without "standard_name" da ->
  match_any shipped_sg shipped_vars da MAny = Ok (Some (owner taken_var_names n a)).
Proof.
  intros Hin Ha Hl Hc Hs. eapply names_check_ok; eauto using vars_names, prep_vars_ok.
  intros k [<-|[]]. exact Hs.
Qed.
(** All the entries but five are recognised by their own name *)
Theorem C65_vars n sp da : In (n, sp) shipped_vars -> ~ In n ["sigma0"; "u3d"; "v3d"; "w3d"; "wlv"] ->
  called n da -> without "standard_name" da ->
  match_any shipped_sg shipped_vars da MAny = Ok (Some n).
Proof.
  intros Hin Hn Hc Hs.
  assert (HC : forallb (fun e => negb (located (fst e)) &&
      (existsb (String.eqb (fst e)) ["sigma0"; "u3d"; "v3d"; "w3d"; "wlv"] || String.eqb (owner taken_var_names (fst e) (fst e)) (fst e)))
      shipped_vars = true) by (vm_compute; reflexivity).
  assert (HN := forall_specs _ _ HC _ _ Hin). cbn [fst] in HN. apply andb_true_iff in HN. destruct HN as [H1 H2].
  rewrite (C65_vars_by_name n sp n da Hin (or_introl eq_refl)); auto.
  - apply orb_true_iff in H2. destruct H2 as [H2|H2]; [apply existsb_in in H2; contradiction|]. apply String.eqb_eq in H2. now rewrite H2.
  - intro HL. apply existsb_in in HL. unfold located in H1. rewrite HL in H1. discriminate.
Qed.
Theorem C65_coords_by_name n sp a da : In (n, sp) shipped_coords -> In a (n :: s_names sp) -> ~ In a located_names ->
  called a da -> without "standard_name" da -> without "axis" da -> without "units" da ->
  match_any shipped_sg shipped_coords da MAny = Ok (Some (owner taken_coord_names n a)).
Proof.
  intros Hin Ha Hl Hc Hs Hx Hu. eapply names_check_ok; eauto using coords_names, prep_coords_ok.
  intros k [<-|[<-|[<-|[]]]]; assumption.
Qed.

(** The names that read as a root at a location, written in full: that of their first entry *)
Definition rd_exact (n : string) (others : list string) : string -> reading :=
  let e := AExact n (root_of "name" n) in fun attr =>
  if String.eqb attr "name" then e else if existsb (String.eqb attr) others then AAbs else AAny.
Lemma exact_ok P cs others n m da v : P = prep cs -> eval_any (rd_exact n others) P = Some (Ok (Some m)) -> nonempty n && all_chars is_word n = true ->
  da_name da = Some v -> lower v = n -> (forall k, In k others -> without k da) ->
  match_any shipped_sg cs da MAny = Ok (Some m).
Proof.
  intros HP E Hw Hv Hn Ho. apply andb_true_iff in Hw. destruct Hw as [Hne Hw]. apply nonempty_iff in Hne.
  eapply eval_sound; [exact HP| |exact E]. intro attr. unfold rd_exact. cbv zeta.
  destruct (String.eqb_spec attr "name") as [->|N].
  - split; [now left|]. repeat (split; auto). exists v. split; auto. unfold da_get. cbn. now rewrite Hv.
  - destruct (existsb (String.eqb attr) others) eqn:Ex; [|exact I]. apply existsb_in in Ex. exact (Ho _ Ex).
Qed.
Theorem C65_located_names da v m : da_name da = Some v -> without "standard_name" da ->
  (In (lower v, m) [("niv_moy", "meanlev"); ("s_level", "sig"); ("sigma_level", "sig")] ->
     match_any shipped_sg shipped_vars da MAny = Ok (Some m)) /\
  (without "axis" da -> without "units" da ->
   In (lower v, m) [("nav_lon", "lon"); ("nav_lat", "lat"); ("s_level", "sig"); ("sigma_level", "sig"); ("model_level", "level")] ->
     match_any shipped_sg shipped_coords da MAny = Ok (Some m)).
Proof.
  intros Hv Hs. split.
  - intros H. assert (Ho : forall k, In k ["standard_name"] -> without k da) by (intros k [<-|[]]; exact Hs).
    destruct H as [H|[H|[H|[]]]]; injection H as H1 <-; (eapply (exact_ok prep_vars shipped_vars ["standard_name"]);
      [exact prep_vars_ok| | |exact Hv|symmetry; exact H1|exact Ho]); vm_compute; reflexivity.
  - intros Hx Hu H. assert (Ho : forall k, In k ["standard_name"; "axis"; "units"] -> without k da)
      by (intros k [<-|[<-|[<-|[]]]]; assumption).
    destruct H as [H|[H|[H|[H|[H|[]]]]]]; injection H as H1 <-; (eapply (exact_ok prep_coords shipped_coords ["standard_name"; "axis"; "units"]);
      [exact prep_coords_ok| | |exact Hv|symmetry; exact H1|exact Ho]); vm_compute; reflexivity.
Qed.

(** By standard name, when the name tells nothing *)
Definition rd_title (s : string) (others : list string) (attr : string) : reading :=
  if String.eqb attr "standard_name" then ARoot s else if String.eqb attr "name" then AUnlike
  else if existsb (String.eqb attr) others then AAbs else AAny.
Lemma criteria_name n sp r : In ("name", r) (criteria n sp) -> r = RefList (n :: s_names sp).
Proof.
  unfold criteria. rewrite in_flat_map. intros (a & _ & H). unfold attr_refs in H.
  destruct (String.eqb_spec a "name") as [Ea|N].
  - destruct H as [E|[]]. congruence.
  - destruct (dget (s_attrs sp) a); [|destruct H]. destruct H as [E|[]]. congruence.
Qed.
Lemma rd_title_reads cs da s others : plain_root "standard_name" (lower s) = true -> titled s da -> unnamed cs da ->
  (forall k, In k others -> without k da) -> forall attr, reads cs da attr (rd_title (lower s) others attr).
Proof.
  intros Hp Ht Hu Ho attr. unfold rd_title. destruct (String.eqb_spec attr "standard_name") as [->|N1]; [now apply titled_reads|].
  destruct (String.eqb_spec attr "name") as [->|N2].
  - cbn [reads]. unfold da_get. cbn [String.eqb Ascii.eqb Bool.eqb]. destruct (da_name da) as [v|] eqn:E; [right|now left].
    exists v. split; auto. intros n sp r ref Hin Hc Hi. apply (Hu v n sp ref); auto.
    apply criteria_name in Hc. subst r. exact Hi.
  - destruct (existsb (String.eqb attr) others) eqn:E; [|exact I]. apply existsb_in in E. exact (Ho _ E).
Qed.
Definition titles_check (P : prepared) (cs : catspecs) (others : list string) (taken : list (string * string * string)) : bool :=
  forallb (fun e => forallb (fun s => if existsb (String.eqb s) located_titles then true
      else if plain_root "standard_name" (lower s) then is_owner (eval_any (rd_title (lower s) others) P) (owner taken (fst e) s) else false)
    (titles (snd e))) cs.
Lemma vars_titles : titles_check prep_vars shipped_vars [] taken_var_titles = true.
Proof. vm_compute. reflexivity. Qed.
Lemma coords_titles : titles_check prep_coords shipped_coords ["axis"; "units"] taken_coord_titles = true.
Proof. vm_compute. reflexivity. Qed.
Lemma titles_check_ok P cs others taken n sp s da : P = prep cs -> titles_check P cs others taken = true ->
  In (n, sp) cs -> In s (titles sp) -> ~ In s located_titles -> titled s da -> unnamed cs da ->
  (forall k, In k others -> without k da) ->
  match_any shipped_sg cs da MAny = Ok (Some (owner taken n s)).
Proof.
  intros HP H Hin Ha Hl Hc Hu Ho. apply (forall_specs _ _ H) in Hin. cbn [fst snd] in Hin. rewrite forallb_forall in Hin.
  specialize (Hin s Ha). destruct (existsb (String.eqb s) located_titles) eqn:L.
  - exfalso. apply Hl. now apply existsb_in.
  - destruct (plain_root "standard_name" (lower s)) eqn:L1; [|discriminate]. apply is_owner_ok in Hin.
    eapply eval_sound; [exact HP| |exact Hin]. now apply rd_title_reads.
Qed.
Theorem C65_vars_by_title n sp s da : In (n, sp) shipped_vars -> In s (titles sp) -> ~ In s located_titles ->
  titled s da -> unnamed shipped_vars da ->
  match_any shipped_sg shipped_vars da MAny = Ok (Some (owner taken_var_titles n s)).
Proof. intros Hin Ha Hl Hc Hu. eapply titles_check_ok; eauto using vars_titles, prep_vars_ok. intros k []. Qed.
Theorem C65_coords_by_title n sp s da : In (n, sp) shipped_coords -> In s (titles sp) ->
  titled s da -> unnamed shipped_coords da -> without "axis" da -> without "units" da ->
  match_any shipped_sg shipped_coords da MAny = Ok (Some (owner taken_coord_titles n s)).
Proof.
  intros Hin Ha Hc Hu Hx Hun. eapply titles_check_ok; eauto using coords_titles, prep_coords_ok.
  - intro HL. assert (HC : forallb (fun e => forallb (fun s => negb (existsb (String.eqb s) located_titles)) (titles (snd e))) shipped_coords = true)
      by (vm_compute; reflexivity).
    assert (HN := forall_specs _ _ HC _ _ Hin). cbn [snd] in HN. rewrite forallb_forall in HN. specialize (HN s Ha).
    apply existsb_in in HL. rewrite HL in HN. discriminate.
  - intros k [<-|[<-|[]]]; assumption.
Qed.

(** An array with an [axis] attribute: only time, lon, lat and x can be recognised; otherwise the
    search fails, because the entries x and y have no axis to compare with. *)
Definition text_or_none (da : darr) (k : string) : Prop := da_get da k = VNone \/ exists s, da_get da k = VStr s.
Lemma match_specs_text da ms : (forall a r, In (a, r) ms -> text_or_none da a) -> (forall a r, In (a, r) ms -> r <> RefNone) ->
  exists b, match_specs shipped_sg da ms MAny = Ok b.
Proof.
  intros H1 H2. induction ms as [|[a r] ms IH]; [cbn; eauto|]. cbn [match_specs].
  assert (IH' : exists b, match_specs shipped_sg da ms MAny = Ok b).
  { apply IH; [intros; eapply H1|intros; eapply H2]; right; eauto. }
  destruct (H1 a r (or_introl eq_refl)) as [E|(s & E)]; rewrite E.
  - cbn [bind]. exact IH'.
  - rewrite iter_ref_list by (eapply H2; left; eauto). cbn [bind].
    destruct (chars_ok shipped_sg a s (ref_list r) MAny I) as (b & Eb). rewrite Eb. cbn [bind]. destruct b; eauto.
Qed.
Theorem C65_axis da s : da_get da "axis" = VStr s ->
  text_or_none da "name" -> text_or_none da "standard_name" -> text_or_none da "units" ->
  match_any shipped_sg shipped_coords da MAny = Raise TypeError \/
  exists n, In n ["time"; "lon"; "lat"; "x"] /\ match_any shipped_sg shipped_coords da MAny = Ok (Some n).
Proof.
  intros Hx Hn Hs Hu.
  assert (HT : forall a, In a ["name"; "standard_name"; "axis"; "units"] -> text_or_none da a).
  { intros a [<-|[<-|[<-|[<-|[]]]]]; auto. right. eauto. }
  assert (HC : forall n sp a r, In (n, sp) shipped_coords -> In (a, r) (criteria n sp) -> text_or_none da a).
  { intros n sp a r Hin Hc. apply HT.
    assert (B : forallb (fun e => forallb (fun c => existsb (String.eqb (fst c)) ["name"; "standard_name"; "axis"; "units"]) (criteria (fst e) (snd e))) shipped_coords = true)
      by (vm_compute; reflexivity).
    assert (B1 := forall_specs _ _ B _ _ Hin). cbn [fst snd] in B1. rewrite forallb_forall in B1. specialize (B1 _ Hc). now apply existsb_in. }
  assert (HR : forall e ms, In e shipped_coords -> ms = criteria (fst e) (snd e) -> forallb (fun c => match snd c with RefNone => false | _ => true end) ms = true ->
    exists b, match_specs shipped_sg da ms MAny = Ok b).
  { intros [n sp] ms Hin -> HF. rewrite forallb_forall in HF. apply match_specs_text.
    - intros a r Hc. exact (HC n sp a r Hin Hc).
    - intros a r Hc ->. specialize (HF _ Hc). discriminate. }
  unfold shipped_coords. cbn [match_any].
  do 3 (match goal with |- context [match_specs shipped_sg da (ordered_match_specs ?n ?sp) MAny] =>
     rewrite (ordered_criteria n sp); destruct (HR (n, sp) (criteria n sp)) as (b & Eb);
     [cbn; tauto|reflexivity|reflexivity|]; cbn [fst snd] in Eb; rewrite Eb; clear Eb; cbn [bind]; destruct b;
     [right; eexists; split; [|reflexivity]; cbn; tauto|] end).
  rewrite ordered_criteria.
  match goal with |- context [match_specs shipped_sg da (criteria ?n ?sp) MAny] =>
    change (criteria n sp) with [("name", RefList ["x"; "xi"]); ("standard_name", RefList ["x_grid_index"]); ("axis", RefNone)] end.
  match goal with |- context [match_specs shipped_sg da [?p; ?q; ?r] MAny] =>
    destruct (match_specs_text da [p; q]) as (b & Eb) end.
  { intros a r [E|[E|[]]]; injection E as <- _; auto. }
  { intros a r [E|[E|[]]]; injection E as _ <-; discriminate. }
  cbn [match_specs] in *.
  match type of Eb with bind ?z _ = _ => destruct z as [[|]|e]; cbn [bind] in *; [| |discriminate] end.
  { right. exists "x". cbn; tauto. }
  match type of Eb with bind ?z _ = _ => destruct z as [[|]|e]; cbn [bind] in *; [| |discriminate] end.
  { right. exists "x". cbn; tauto. }
  rewrite Hx. cbn [iter_refs bind]. now left.
Qed.
(** In particular an array with an axis X, Y, Z or F that is called by a name of y, depth, altitude,
    sig, level or forecast, or has no name *)
Definition rd_axis (n : option string) (x : string) (attr : string) : reading :=
  if String.eqb attr "axis" then AText x
  else if String.eqb attr "name" then match n with Some n => ARoot n | None => AAbs end
  else if existsb (String.eqb attr) ["standard_name"; "units"] then AAbs else AAny.
Definition axis_losers : list (option string) :=
  None :: map Some ["y"; "yi"; "depth"; "dep"; "altitude"; "altitudet"; "altitudeu"; "altitudev"; "sig"; "sigma"; "s"; "level"; "forecast"].
Theorem C65_axis_refuted da s n : da_get da "axis" = VStr s -> In (lower (strip s)) ["x"; "y"; "z"; "f"] ->
  In n axis_losers -> match n with Some n => called n da | None => da_name da = None end ->
  without "standard_name" da -> without "units" da ->
  match_any shipped_sg shipped_coords da MAny = Raise TypeError.
Proof.
  intros Hx Ht Hin Hn Hs Hu. remember (lower (strip s)) as x eqn:Ex.
  assert (HB : forallb (fun n => match n with Some n => plain_root "name" n | None => true end &&
       forallb (fun x => is_type_error (eval_any (rd_axis n x) prep_coords)) ["x"; "y"; "z"; "f"]) axis_losers = true)
    by (vm_compute; reflexivity).
  rewrite forallb_forall in HB. specialize (HB n Hin). apply andb_true_iff in HB. destruct HB as [HP HB].
  rewrite forallb_forall in HB. specialize (HB x Ht).
  eapply (eval_sound shipped_coords prep_coords da (rd_axis n x)).
  - exact prep_coords_ok.
  - intro attr. unfold rd_axis. destruct (String.eqb_spec attr "axis") as [->|N1].
    + split; [intros [H|[H|H]]; discriminate|]. exists s. split; auto. split; auto. intros ->. cbn in Ex. subst x. cbn in Ht.
      repeat (destruct Ht as [Ht|Ht]; [discriminate|]). destruct Ht.
    + destruct (String.eqb_spec attr "name") as [->|N2].
      * destruct n as [n|]; [now apply called_reads|]. cbn. unfold da_get. cbn. now rewrite Hn.
      * destruct (existsb _ _) eqn:E; [|exact I]. apply existsb_in in E. destruct E as [<-|[<-|[]]]; assumption.
  - now apply is_type_error_ok.
Qed.

(** ** C66: formatting, then recognising *)
Lemma any_is_any cs da : match_any shipped_sg cs da (MStr "any") = match_any shipped_sg cs da MAny.
Proof.
  assert (HV : forall attr v ref, match_value shipped_sg attr v ref (MStr "any") = match_value shipped_sg attr v ref MAny) by reflexivity.
  assert (HR : forall attr v l, match_refs shipped_sg attr v l (MStr "any") = match_refs shipped_sg attr v l MAny).
  { intros attr v l. induction l as [|r l IH]; [reflexivity|]. cbn [match_refs]. rewrite HV. now rewrite IH. }
  assert (HS : forall ms, match_specs shipped_sg da ms (MStr "any") = match_specs shipped_sg da ms MAny).
  { intro ms. induction ms as [|[a r] ms IH]; [reflexivity|]. cbn [match_specs]. rewrite IH.
    destruct (da_get da a); try reflexivity. destruct (iter_refs r); [|reflexivity]. cbn [bind]. now rewrite HR. }
  induction cs as [|[n sp] cs IH]; [reflexivity|]. cbn [match_any]. now rewrite HS, IH.
Qed.
Definition letters_opt (l : option string) : bool := match l with Some s => nonempty s && all_chars is_letter s | None => true end.
Lemma fmt_root attr v r pl loc std w : attr = "name" \/ attr = "standard_name" ->
  parse_attr shipped_sg attr v = Ok (r, pl) -> plain_root attr (lower r) = true -> letters_opt pl = true ->
  plain_loc loc -> format_str shipped_sg attr v loc std = Ok w ->
  w <> "" /\ strip w = w /\ root_of attr w = lower r.
Proof.
  intros Ha Hp Hr Hpl Hl H. apply plain_root_iff in Hr. destruct Hr as (R1 & R2 & _ & R4).
  assert (Hk : known_attr attr) by (unfold known_attr; tauto).
  unfold format_str in H. rewrite (proj2 (valid_attr_iff attr) Hk) in H. cbn [negb] in H. rewrite Hp in H. cbn [bind] in H.
  set (R := if std then std_root attr r else r) in *.
  assert (ER : lower R = lower r /\ all_chars is_word R = true).
  { rewrite word_lower in R2. unfold R. destruct std; [|auto].
    assert (EW : replace_char " " "_" r = r) by exact (word_std r R2).
    unfold std_root. destruct Ha as [-> | ->]; cbn [String.eqb Ascii.eqb Bool.eqb]; rewrite EW; [auto|].
    rewrite lower_idem, word_lower. auto. }
  destruct ER as [ER WR].
  assert (NR : R <> "") by (intros E; rewrite E in ER; cbn in ER; congruence).
  assert (HL : exists ol, (w = R /\ ol = None \/ exists l, ol = Some l /\ letters l /\
      w = apply_format (format_of shipped_sg attr) R (if std then std_loc attr l else l))).
  { destruct loc as [| | |s]; cbn [plain_loc valid_locations shipped_sg] in *; try contradiction.
    - cbn [bind] in H. destruct pl as [l|]; [|exists None; left; split; congruence].
      cbn in Hpl. apply andb_true_iff in Hpl. destruct Hpl as [L1 L2]. rewrite L1 in H. injection H as <-.
      exists (Some l). right. exists l. repeat split; auto. now apply nonempty_iff.
    - destruct Hl as [L1 L2]. apply nonempty_iff in L1. rewrite L1 in H. cbn [bind] in H. rewrite L1 in H. injection H as <-.
      exists (Some s). right. exists s. repeat split; auto. now apply nonempty_iff. }
  destruct HL as (ol & [[-> _]|(l & _ & Hll & ->)]).
  { split; auto. split; [now apply word_strip|]. rewrite <- R4. apply root_of_ci. now rewrite lower_idem. }
  set (L := if std then std_loc attr l else l) in *.
  assert (HLL : letters L).
  { unfold L. destruct std; [|auto]. unfold std_loc. destruct Ha as [-> | ->]; cbn [String.eqb Ascii.eqb Bool.eqb]; auto.
    destruct Hll as [L1 L2]. split; [destruct l; [congruence|discriminate]|]. now rewrite letters_lower. }
  assert (HLw : letters (lower L)).
  { destruct HLL as [L1 L2]. split; [destruct L; [congruence|discriminate]|]. now rewrite letters_lower. }
  assert (NL : lower R <> "") by (rewrite ER; exact R1).
  assert (WL : all_chars is_word (lower R) = true) by (rewrite word_lower; exact WR).
  destruct Ha as [-> | ->]; unfold apply_format;
    cbn [format_of String.eqb Ascii.eqb Bool.eqb name_format shipped_sg default_name_format standard_format root_first pre mid post append].
  - rewrite sapp_nil_r. split; [destruct R; [congruence|discriminate]|]. split.
    + apply word_strip. rewrite !all_chars_app, WR. cbn. apply letters_word. apply HLL.
    + rewrite <- ER. rewrite <- (root_name_loc (lower R) (lower L)); [|now split|apply lower_idem|auto].
      apply root_of_ci. rewrite !lower_app, !lower_idem. reflexivity.
  - split; [destruct R; [congruence|discriminate]|]. split.
    + apply word_strip. change (String "_" (String "a" (String "t" (String "_" (L ++ "_location"))))) with ("_at_" ++ L ++ "_location").
      rewrite !all_chars_app, WR, (letters_word L) by apply HLL. reflexivity.
    + rewrite <- ER. rewrite <- (root_title_loc (lower R) (lower L)); [|now split|apply lower_idem|auto].
      apply root_of_ci.
      change (String "_" (String "a" (String "t" (String "_" (L ++ "_location"))))) with ("_at_" ++ L ++ "_location").
      rewrite !lower_app, !lower_idem. reflexivity.
Qed.
Lemma cat_name sg cs x name loc at_ std spe rd replace n sp y :
  cf_name_is sg cs (f_da x) name n -> dget cs n = Some sp ->
  cat_format sg cs x name loc at_ std spe rd replace = Ok y ->
  exists new w, format_str sg "name" (short_name sp n spe) LNone true = Ok new /\
    merge_attr sg "name" (name_val (da_name (f_da x))) (VStr new) loc true = Ok (VStr w) /\ da_name (f_da y) = Some w.
Proof.
  intros Hc Hs H1. unfold cat_format in H1.
  destruct (format_core sg cs (f_da x) name loc true at_ std spe replace) as [r|e] eqn:E; cbn [bind] in H1; [|discriminate].
  destruct (core_inv _ _ _ _ _ _ _ _ _ _ _ _ _ Hc Hs E) as (new & patch & d1 & -> & N1 & N2 & N3).
  assert (EF : f_da y = d1).
  { destruct (da_name (f_da x)); [|injection H1 as <-; reflexivity].
    destruct (f_dims x) as [|d [|]]; try (injection H1 as <-; reflexivity).
    destruct (rd && _); [|injection H1 as <-; reflexivity]. apply rename_da in H1. exact H1. }
  rewrite EF. unfold format_dataarray in N3. cbn [orb name_val] in N3.
  match type of N3 with bind ?z _ = _ => destruct z as [a|e]; cbn [bind] in N3; [|discriminate] end.
  destruct (merge_attr sg "name" (name_val (da_name (f_da x))) (VStr new) loc true) as [v|e] eqn:EM; cbn [bind] in N3; [|discriminate].
  destruct (new_name_of _ _ _ _ _ EM) as (w & ->). injection N3 as <-. exists new, w. auto.
Qed.
Lemma plain_parse n : plain_root "name" n = true -> parse_attr shipped_sg "name" n = Ok (n, None).
Proof.
  intro Hp. apply plain_root_iff in Hp. destruct Hp as (P1 & P2 & P3 & P4).
  unfold root_of in P4. rewrite P3 in P4. destruct (C26_parse shipped_sg "name" n (or_introl eq_refl)) as (r & ol & E & C).
  rewrite E in P4. rewrite E. destruct ol as [l|]; [|destruct C as [-> _]; reflexivity].
  exfalso. destruct C as (l' & rest & _ & (_ & _ & C)). destruct C as (p & m & q & Ep & Em & Eq & Ev).
  cbn in Ep, Em, Eq. destruct p; [|discriminate]. destruct q; [|discriminate].
  cbn in Ev. assert (X : String.length n = String.length r) by (rewrite <- P4; apply lower_len).
  rewrite Ev in X. rewrite !slen_app in X. destruct m; [discriminate|]. cbn in X. lia.
Qed.
Lemma merge_root n old loc w : plain_root "name" n = true -> plain_loc loc ->
  merge_attr shipped_sg "name" (name_val old) (VStr n) loc true = Ok (VStr w) -> strip w = w /\ root_of "name" w = n.
Proof.
  intros Hp Hl H. assert (Hp' := Hp). apply plain_root_iff in Hp'. destruct Hp' as (P1 & P2 & P3 & P4).
  assert (EP := plain_parse n Hp).
  assert (HF : forall loc', plain_loc loc' -> format_str shipped_sg "name" n loc' true = Ok w -> strip w = w /\ root_of "name" w = n).
  { intros loc' Hl' HF. destruct (fmt_root "name" n n None loc' true w (or_introl eq_refl) EP) as (_ & A & B); auto.
    - now rewrite P3.
    - split; auto. congruence. }
  unfold merge_attr in H. rewrite (proj2 (valid_attr_iff "name") (or_introl eq_refl)) in H. cbn [negb] in H.
  destruct old as [o|]; cbn [name_val] in H.
  - match type of H with bind ?z _ = _ => destruct z as [l|e] eqn:EZ; cbn [bind] in H; [|discriminate] end.
    cbn [format_attr] in H. destruct (format_str shipped_sg "name" n l true) as [w'|e] eqn:EW; cbn [bind] in H; [|discriminate].
    injection H as ->. apply (HF l); auto. destruct (is_any loc).
    + cbn [parse_val] in EZ. rewrite EP in EZ.
      destruct (C26_parse shipped_sg "name" o (or_introl eq_refl)) as (r & ol & E & C). rewrite E in EZ. cbn [bind snd] in EZ.
      destruct ol as [l0|]; [|injection EZ as <-; exact Hl]. injection EZ as <-. destruct C as (l' & rest & -> & (_ & L & _)).
      cbn. unfold is_location in L. cbn in L. destruct L as [L1 L2]. split; [destruct l'; [congruence|discriminate]|]. now rewrite letters_lower.
    + injection EZ as <-. exact Hl.
  - cbn [format_attr] in H. destruct (format_str shipped_sg "name" n loc true) as [w'|e] eqn:EW; cbn [bind] in H; [|discriminate].
    injection H as ->. apply (HF loc); auto.
Qed.
Definition title_root (s : string) : option string :=
  match format_str shipped_sg "standard_name" s LNone false with
  | Ok w => match parse_attr shipped_sg "standard_name" w with
            | Ok (r, pl) => if plain_root "standard_name" (lower r) && letters_opt pl then Some (lower r) else None
            | Raise _ => None
            end
  | Raise _ => None
  end.
Definition title_reading (sp : spec) : reading :=
  match default_of sp "standard_name" with
  | None => AAbs
  | Some s => match title_root s with Some r => ARoot r | None => AAny end
  end.
Definition rd_fmt (e : string * spec) (others : list string) : string -> reading :=
  let t := title_reading (snd e) in
  fun attr =>
  if String.eqb attr "name" then ARoot (fst e)
  else if String.eqb attr "standard_name" then t
  else if existsb (String.eqb attr) others then
    match default_of (snd e) attr with Some s => if nonempty s then AText (lower (strip s)) else AAny | None => AAbs end
  else AAny.
Definition others_ok (others : list string) : Prop := forall k, In k others -> ~ known_attr k.
Lemma rd_fmt_reads cs x name loc std rd n sp y others : NoDup (dkeys cs) -> In (n, sp) cs -> dict_wf (s_attrs sp) ->
  plain_root "name" n = true -> others_ok others ->
  cf_name_is shipped_sg cs (f_da x) name n -> dict_wf (da_attrs (f_da x)) ->
  dget (da_attrs (f_da x)) "standard_name" = None -> (forall k, In k others -> dget (da_attrs (f_da x)) k = None) ->
  plain_loc loc -> cat_format shipped_sg cs x name loc AttrsTrue std false rd false = Ok y ->
  forall attr, reads cs (f_da y) attr (rd_fmt (n, sp) others attr).
Proof.
  intros Hnd Hin Hws Hp Hoth Hc Hwa Hsn Ho Hl H attr.
  assert (Hs : dget cs n = Some sp) by now apply dget_in.
  destruct (cat_name _ _ _ _ _ _ _ _ _ _ _ _ _ Hc Hs H) as (new & w & E1 & E2 & E3).
  assert (HF := C48_fill shipped_sg cs (f_da x) name loc std false (f_da y) n sp Hc Hs Hws Hwa
    (PRename _ _ _ _ _ _ _ _ _ x y rd eq_refl H)).
  unfold rd_fmt. cbv zeta. cbn [fst snd].
  destruct (String.eqb_spec attr "name") as [->|N1].
  { split; [now left|]. exists w. split; [unfold da_get; cbn; now rewrite E3|].
    assert (Hp' := Hp). apply plain_root_iff in Hp'. destruct Hp' as (P1 & P2 & _).
    cbn [short_name] in E1. rewrite (format_plain shipped_sg n) in E1 by (auto using plain_parse; now split). injection E1 as <-.
    now apply (merge_root n (da_name (f_da x)) loc). }
  assert (HG : forall k, k <> "name" -> da_get (f_da y) k = get_aval (da_attrs (f_da y)) k).
  { intros k Hk. unfold da_get. apply String.eqb_neq in Hk. now rewrite Hk. }
  destruct (String.eqb_spec attr "standard_name") as [->|N2].
  { destruct (HF "standard_name") as [_ HK]. specialize (HK Hsn N1). unfold title_reading.
    destruct (default_of sp "standard_name") as [s|].
    - destruct (title_root s) as [r|] eqn:ET; [|exact I]. unfold title_root in ET.
      destruct HK as [_ HK]. destruct (HK (or_introl eq_refl)) as (w1 & w2 & F1 & F2 & F3).
      rewrite F1 in ET. destruct (parse_attr shipped_sg "standard_name" w1) as [[r0 pl]|e] eqn:EP; [|discriminate].
      destruct (plain_root "standard_name" (lower r0) && letters_opt pl) eqn:EB; [|discriminate]. injection ET as <-.
      apply andb_true_iff in EB. destruct EB as [EB1 EB2].
      destruct (fmt_root "standard_name" w1 r0 pl loc std w2 (or_intror eq_refl) EP EB1 EB2 Hl F2) as (_ & S1 & S2).
      split; [right; now left|]. exists w2. rewrite HG by discriminate. unfold get_aval. rewrite F3. auto.
    - cbn [reads]. rewrite HG by discriminate. unfold get_aval. now rewrite HK. }
  destruct (existsb (String.eqb attr) others) eqn:EO; [|exact I]. apply existsb_in in EO.
  destruct (HF attr) as [_ HK]. specialize (HK (Ho _ EO) N1).
  assert (NL : ~ located_attr attr).
  { intro L. apply (Hoth _ EO). unfold known_attr. destruct L; tauto. }
  destruct (default_of sp attr) as [s|].
  - destruct (nonempty s) eqn:En; [|exact I]. split; [now apply Hoth|]. exists s. rewrite HG by exact N1. unfold get_aval.
    destruct HK as [HK _]. rewrite (HK NL). split; auto. split; auto. now apply nonempty_iff.
  - cbn [reads]. rewrite HG by exact N1. unfold get_aval. now rewrite HK.
Qed.
Definition wfb (cs : catspecs) : bool := distinctb (dkeys cs) && forallb (fun e => distinctb (dkeys (s_attrs (snd e)))) cs.
Lemma wfb_ok cs : wfb cs = true -> NoDup (dkeys cs) /\ forall n sp, In (n, sp) cs -> dict_wf (s_attrs sp).
Proof.
  unfold wfb. rewrite andb_true_iff. intros [H1 H2]. split; [now apply distinctb_ok|]. intros n sp Hin.
  assert (H := forall_specs _ _ H2 _ _ Hin). now apply distinctb_ok.
Qed.
(** A variable that has been formatted, and renamed, without a former standard name is recognised
    again, except those of the list *)
Theorem C66_vars n sp x name loc std rd y : In (n, sp) shipped_vars ->
  cf_name_is shipped_sg shipped_vars (f_da x) name n ->
  dict_wf (da_attrs (f_da x)) -> dget (da_attrs (f_da x)) "standard_name" = None -> plain_loc loc ->
  cat_format shipped_sg shipped_vars x name loc AttrsTrue std false rd false = Ok y ->
  match_any shipped_sg shipped_vars (f_da y) MAny = Ok (Some (formatted_owner n)).
Proof.
  intros Hin Hc Hwa Hsn Hl H.
  destruct (wfb_ok shipped_vars) as [W1 W2]; [vm_compute; reflexivity|].
  assert (HB : forallb (fun e => plain_root "name" (fst e) && is_owner (eval_any (rd_fmt e []) prep_vars) (formatted_owner (fst e))) shipped_vars = true)
    by (vm_compute; reflexivity).
  assert (HN := forall_specs _ _ HB _ _ Hin). cbn [fst] in HN. apply andb_true_iff in HN. destruct HN as [N1 N2]. apply is_owner_ok in N2.
  eapply eval_sound; [exact prep_vars_ok| |exact N2].
  eapply rd_fmt_reads; eauto.
  - intros k [].
  - intros k [].
Qed.
(** The coordinates: those that are recognised again, and those that make the search fail *)
Lemma coords_formatted n sp x name loc std rd y r : In (n, sp) shipped_coords ->
  cf_name_is shipped_sg shipped_coords (f_da x) name n ->
  dict_wf (da_attrs (f_da x)) -> (forall k, In k ["standard_name"; "axis"; "units"] -> dget (da_attrs (f_da x)) k = None) -> plain_loc loc ->
  cat_format shipped_sg shipped_coords x name loc AttrsTrue std false rd false = Ok y ->
  eval_any (rd_fmt (n, sp) ["axis"; "units"]) prep_coords = Some r ->
  match_any shipped_sg shipped_coords (f_da y) MAny = r.
Proof.
  intros Hin Hc Hwa Hk Hl H E.
  destruct (wfb_ok shipped_coords) as [W1 W2]; [vm_compute; reflexivity|].
  assert (HB : forallb (fun e => plain_root "name" (fst e)) shipped_coords = true) by (vm_compute; reflexivity).
  assert (HN := forall_specs _ _ HB _ _ Hin). cbn [fst] in HN.
  eapply eval_sound; [exact prep_coords_ok| |exact E]. eapply rd_fmt_reads; eauto.
  - intros k [<-|[<-|[]]] [X|[X|X]]; discriminate.
  - apply Hk. now left.
  - intros k Hi. apply Hk. now right.
Qed.
Theorem C66_coords n sp x name loc std rd y : In (n, sp) shipped_coords -> In n ["time"; "lon"; "lat"; "x"; "y"] ->
  cf_name_is shipped_sg shipped_coords (f_da x) name n ->
  dict_wf (da_attrs (f_da x)) -> (forall k, In k ["standard_name"; "axis"; "units"] -> dget (da_attrs (f_da x)) k = None) -> plain_loc loc ->
  cat_format shipped_sg shipped_coords x name loc AttrsTrue std false rd false = Ok y ->
  match_any shipped_sg shipped_coords (f_da y) MAny = Ok (Some n).
Proof.
  intros Hin Hn Hc Hwa Hk Hl H. eapply coords_formatted; eauto. apply is_owner_ok.
  assert (HB : forallb (fun e => negb (existsb (String.eqb (fst e)) ["time"; "lon"; "lat"; "x"; "y"]) ||
    is_owner (eval_any (rd_fmt e ["axis"; "units"]) prep_coords) (fst e)) shipped_coords = true) by (vm_compute; reflexivity).
  assert (HN := forall_specs _ _ HB _ _ Hin). cbn [fst] in HN. apply existsb_in in Hn. rewrite Hn in HN. exact HN.
Qed.
(** depth, altitude, sig, level and forecast get an axis, and then cannot be searched for, nor
    formatted again *)
Theorem C66_coords_refuted n sp x name loc std rd y : In (n, sp) shipped_coords -> ~ In n ["time"; "lon"; "lat"; "x"; "y"] ->
  cf_name_is shipped_sg shipped_coords (f_da x) name n ->
  dict_wf (da_attrs (f_da x)) -> (forall k, In k ["standard_name"; "axis"; "units"] -> dget (da_attrs (f_da x)) k = None) -> plain_loc loc ->
  cat_format shipped_sg shipped_coords x name loc AttrsTrue std false rd false = Ok y ->
  match_any shipped_sg shipped_coords (f_da y) MAny = Raise TypeError /\
  forall loc' at_ std' spe rd' replace, cat_format shipped_sg shipped_coords y None loc' at_ std' spe rd' replace = Raise TypeError.
Proof.
  intros Hin Hn Hc Hwa Hk Hl H.
  assert (HM : match_any shipped_sg shipped_coords (f_da y) MAny = Raise TypeError).
  { eapply coords_formatted; eauto.
    assert (HB : forallb (fun e => existsb (String.eqb (fst e)) ["time"; "lon"; "lat"; "x"; "y"] ||
      is_type_error (eval_any (rd_fmt e ["axis"; "units"]) prep_coords)) shipped_coords = true) by (vm_compute; reflexivity).
    assert (HN := forall_specs _ _ HB _ _ Hin). cbn [fst] in HN. apply orb_true_iff in HN. destruct HN as [HN|HN].
    - apply existsb_in in HN. contradiction.
    - now apply is_type_error_ok. }
  split; auto. intros. unfold cat_format, format_core. rewrite any_is_any, HM. reflexivity.
Qed.

(** ** C67: types of dimensions *)
Definition located_dims : list string := ["nav_lon"; "nav_lat"; "s_level"; "sigma_level"; "model_level"].
Lemma called_parse_loc d dim l : d <> "" -> all_chars is_word d = true -> letters l -> lower dim = d ++ "_" ++ l ->
  exists r ol, parse_attr shipped_sg "name" dim = Ok (r, ol) /\ lower r = d.
Proof.
  intros P1 P2 Hl H. assert (HK : known_attr "name") by now left.
  destruct (lower_split dim d ("_" ++ l) H) as (a & b & -> & Ha & Hb).
  destruct (lower_split b "_" l Hb) as (c & e & -> & Hc & He).
  assert (Ec : c = "_").
  { destruct c as [|c0 c]; [discriminate|]. cbn in Hc. injection Hc as Hc Hc'. destruct c; [|discriminate].
    f_equal. now apply (lower_not_letter "_"). }
  subst c. exists a, (Some (lower e)). split; [|exact Ha].
  assert (HL : letters e).
  { destruct Hl as [L1 L2]. split; [intros ->; cbn in He; congruence|]. rewrite <- letters_lower, He. exact L2. }
  assert (HR : is_root "name" a).
  { split; [intros ->; cbn in Ha; congruence|]. change (root_class "name") with is_word. rewrite <- word_lower, Ha. exact P2. }
  assert (HT := C26_roundtrip "name" a e HK HR HL). unfold apply_format in HT.
  cbn [format_of String.eqb Ascii.eqb Bool.eqb default_sg name_format default_name_format root_first pre mid post append] in HT.
  rewrite sapp_nil_r in HT. exact HT.
Qed.
Lemma called_parse d dim : plain_root "name" d = true -> is_called d dim ->
  exists r ol, parse_attr shipped_sg "name" dim = Ok (r, ol) /\ lower r = d.
Proof.
  intros Hp H. assert (HP := plain_parse d Hp). apply plain_root_iff in Hp. destruct Hp as (P1 & P2 & P3 & P4).
  assert (HK : known_attr "name") by now left. destruct H as [H|(l & Hl & H)].
  - destruct (C26_parse shipped_sg "name" dim HK) as (r & ol & E & C). exists r, ol. split; auto.
    destruct ol as [l|]; [|destruct C as [-> _]; exact H]. exfalso.
    destruct C as (l' & rest & _ & ((R1 & R2) & L & p & m & q & Ep & Em & Eq & Ev)). cbn in Ep, Em, Eq.
    destruct p; [|discriminate]. destruct q; [|discriminate].
    destruct (C26_parse shipped_sg "name" d HK) as (r2 & ol2 & E2 & C2). rewrite HP in E2. injection E2 as <- <-.
    destruct C2 as [_ C2]. apply (C2 (lower r) (lower l') (lower rest)). split; [|split].
    + split; [destruct r; [congruence|discriminate]|]. change (root_class "name") with is_word in *. now rewrite word_lower.
    + unfold is_location in *. cbn in *. destruct L as [L1 L2]. split; [destruct l'; [congruence|discriminate]|]. now rewrite letters_lower.
    + exists "", (lower m), "". cbn. rewrite lower_idem. repeat split; auto. cbn in Ev. rewrite <- H, Ev, !lower_app. reflexivity.
  - now apply (called_parse_loc d dim l).
Qed.
Lemma known_type_of r d : lower r = d -> known_type shipped_dims r = known_type shipped_dims d.
Proof.
  intros <-. unfold known_type. rewrite lower_idem. reflexivity.
Qed.
(** Every name of dimension of the configuration, in any case and at any location, gives the type
    it is listed for, with no need for the array *)
Theorem C67_dims t l d dim da cs : In (t, l) shipped_dims -> In d l -> ~ In d located_dims -> is_called d dim ->
  get_dim_type shipped_sg cs shipped_dims dim da = Ok (Some t).
Proof.
  intros Hin Hd Hn Hc.
  assert (HB : forallb (fun e => forallb (fun d => existsb (String.eqb d) located_dims ||
     (plain_root "name" d && match known_type shipped_dims d with Some t => String.eqb t (fst e) | None => false end)) (snd e)) shipped_dims = true)
    by (vm_compute; reflexivity).
  rewrite forallb_forall in HB. specialize (HB _ Hin). cbn [fst snd] in HB. rewrite forallb_forall in HB. specialize (HB d Hd).
  apply orb_true_iff in HB. destruct HB as [HB|HB]; [apply existsb_in in HB; contradiction|].
  apply andb_true_iff in HB. destruct HB as [H1 H2].
  destruct (called_parse d dim H1 Hc) as (r & ol & E & Er).
  unfold get_dim_type. rewrite E. cbn [bind fst]. rewrite (known_type_of r d Er).
  destruct (known_type shipped_dims d) as [t'|]; [|discriminate]. apply String.eqb_eq in H2. now subst.
Qed.
(** The names with an underscore: what follows it is taken for a location, so that three of them
    are not recognised... unless a location is added *)
Theorem C67_located_refuted d dim cs : lower dim = d ->
  (In d ["nav_lon"; "nav_lat"; "model_level"] -> get_dim_type shipped_sg cs shipped_dims dim None = Ok None) /\
  (In d ["s_level"; "sigma_level"] -> get_dim_type shipped_sg cs shipped_dims dim None = Ok (Some "z")).
Proof.
  intro H.
  assert (HG : forall a l, d = a ++ "_" ++ l -> letters l -> a <> "" -> all_chars is_word a = true ->
    get_dim_type shipped_sg cs shipped_dims dim None = Ok (known_type shipped_dims a)).
  { intros a l E Hl Ha Hw. destruct (called_parse_loc a dim l) as (r & ol & P & R); auto; [congruence|].
    unfold get_dim_type. rewrite P. cbn [bind fst]. rewrite (known_type_of r a R). destruct (known_type shipped_dims a); reflexivity. }
  assert (HL : forall l, all_chars is_letter l && nonempty l = true -> letters l).
  { intros l Hl. apply andb_true_iff in Hl. destruct Hl as [H1 H2]. split; auto. now apply nonempty_iff. }
  split; intros Hd.
  - destruct Hd as [<-|[<-|[<-|[]]]].
    + now rewrite (HG "nav" "lon" eq_refl (HL "lon" eq_refl) ltac:(discriminate) eq_refl).
    + now rewrite (HG "nav" "lat" eq_refl (HL "lat" eq_refl) ltac:(discriminate) eq_refl).
    + now rewrite (HG "model" "level" eq_refl (HL "level" eq_refl) ltac:(discriminate) eq_refl).
  - destruct Hd as [<-|[<-|[]]].
    + now rewrite (HG "s" "level" eq_refl (HL "level" eq_refl) ltac:(discriminate) eq_refl).
    + now rewrite (HG "sigma" "level" eq_refl (HL "level" eq_refl) ltac:(discriminate) eq_refl).
Qed.
Theorem C67_located t l d dim da cs lo : In (t, l) shipped_dims -> In d l -> letters lo -> lower dim = d ++ "_" ++ lo ->
  get_dim_type shipped_sg cs shipped_dims dim da = Ok (Some t).
Proof.
  intros Hin Hd Hl H.
  assert (HB : forallb (fun e => forallb (fun d => nonempty d && all_chars is_word d &&
     match known_type shipped_dims d with Some t => String.eqb t (fst e) | None => false end) (snd e)) shipped_dims = true)
    by (vm_compute; reflexivity).
  rewrite forallb_forall in HB. specialize (HB _ Hin). cbn [fst snd] in HB. rewrite forallb_forall in HB. specialize (HB d Hd).
  apply andb_true_iff in HB. destruct HB as [HB H3]. apply andb_true_iff in HB. destruct HB as [H1 H2]. apply nonempty_iff in H1.
  destruct (called_parse_loc d dim lo) as (r & ol & P & R); auto.
  unfold get_dim_type. rewrite P. cbn [bind fst]. rewrite (known_type_of r d R).
  destruct (known_type shipped_dims d) as [t'|]; [|discriminate]. apply String.eqb_eq in H3. now subst.
Qed.
(** The type is that of the only list that has the name *)
Theorem C67_unique t l t' l' d : In (t, l) shipped_dims -> In (t', l') shipped_dims -> In d l -> In d l' -> t = t'.
Proof.
  intros H1 H2 D1 D2.
  assert (HB : forallb (fun e => forallb (fun d => match known_type shipped_dims d with Some t => String.eqb t (fst e) | None => false end) (snd e)) shipped_dims = true)
    by (vm_compute; reflexivity).
  rewrite forallb_forall in HB. assert (A := HB _ H1). assert (B := HB _ H2). cbn [fst snd] in A, B. rewrite forallb_forall in A, B.
  specialize (A d D1). specialize (B d D2). destruct (known_type shipped_dims d) as [z|]; [|discriminate].
  apply String.eqb_eq in A, B. congruence.
Qed.
(** The names of a coordinate with an axis are dimensions of this type *)
Theorem C67_coord_dims n sp a s : In (n, sp) shipped_coords -> In a (n :: s_names sp) -> dget (s_attrs sp) "axis" = Some (RefStr s) ->
  exists l, In (lower s, l) shipped_dims /\ In a l.
Proof.
  intros Hin Ha Hx.
  assert (HB : forallb (fun e => match dget (s_attrs (snd e)) "axis" with
      | Some (RefStr s) => existsb (fun tl => String.eqb (fst tl) (lower s) && forallb (fun a => existsb (String.eqb a) (snd tl)) (fst e :: s_names (snd e))) shipped_dims
      | _ => true end) shipped_coords = true) by (vm_compute; reflexivity).
  assert (HN := forall_specs _ _ HB _ _ Hin). cbn [fst snd] in HN. rewrite Hx in HN. rewrite existsb_exists in HN.
  destruct HN as ([t l] & HI & HE). cbn [fst snd] in HE. apply andb_true_iff in HE. destruct HE as [E1 E2]. apply String.eqb_eq in E1. subst t.
  rewrite forallb_forall in E2. exists l. split; auto. apply existsb_in. auto.
Qed.

(** ** Cases that meet the hypotheses *)
Definition temp_da : darr := mkdarr (Some "Temperature_U") [("units", VStr "degC")].
Definition temp_arr : farr := mkfarr temp_da [Some "x"; Some "y"] [].
Definition depth_arr : farr := mkfarr (mkdarr (Some "dep_t") [("positive", VStr "up")]) [Some "z"] [].
Example ex65 :
  called "temperature" temp_da /\ without "standard_name" temp_da /\
  match_any shipped_sg shipped_vars temp_da MAny = Ok (Some "temp") /\
  titled "sea_surface_temperature" (mkdarr None [("standard_name", VStr "Sea_Surface_Temperature_at_rho_location")]) /\
  match_any shipped_sg shipped_vars (mkdarr None [("standard_name", VStr "Sea_Surface_Temperature_at_rho_location")]) MAny = Ok (Some "sst") /\
  (exists y, cat_format shipped_sg shipped_vars temp_arr None LNone AttrsTrue true false true false = Ok y /\
     f_da y = mkdarr (Some "temp_u") [("units", VStr "degC"); ("standard_name", VStr "sea_water_temperature"); ("long_name", VStr "Temperature")]) /\
  (exists y, cat_format shipped_sg shipped_coords depth_arr None (LStr "w") AttrsTrue true false true false = Ok y /\
     f_da y = mkdarr (Some "depth_w") [("positive", VStr "up"); ("axis", VStr "Z"); ("long_name", VStr "Depth at W location");
        ("standard_name", VStr "ocean_layer_depth_at_w_location"); ("units", VStr "m")]) /\
  get_dim_type shipped_sg shipped_coords shipped_dims "XI_rho" None = Ok (Some "x").
Proof.
  split; [exists "Temperature_U"; split; [reflexivity|right; exists "u"; split; [split; [discriminate|reflexivity]|reflexivity]]|].
  split; [reflexivity|]. split; [vm_compute; reflexivity|].
  split; [eexists; split; [reflexivity|right; exists "rho"; split; [split; [discriminate|reflexivity]|reflexivity]]|].
  split; [vm_compute; reflexivity|]. split; [eexists; split; vm_compute; reflexivity|]. split; [eexists; split; vm_compute; reflexivity|].
  vm_compute; reflexivity.
Qed.
(** A name that reads as a location is renamed in a strange way *)
Theorem C66_nav_refuted :
  (exists y, cat_format shipped_sg shipped_coords (mkfarr (mkdarr (Some "nav_lon") []) [Some "y"; Some "x"] []) None LNone AttrsTrue true false true false = Ok y /\
     da_name (f_da y) = Some "lon_lon") /\
  (exists y, cat_format shipped_sg shipped_coords (mkfarr (mkdarr (Some "nav_lat") []) [Some "y"; Some "x"] []) None LNone AttrsTrue true false true false = Ok y /\
     da_name (f_da y) = Some "lat_lat").
Proof. split; eexists; split; vm_compute; reflexivity. Qed.
