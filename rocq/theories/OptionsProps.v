(** C25: scoping of the options. *)
From Verif Require Import OptionsProofs.
Open Scope nat_scope.

(** Every keyword designates an option *)
Definition all_designated (section : option string) (opts : list (string * oval)) : Prop :=
  forall name v, In (name, v) opts -> designated section name <> None.
(** An option set has been loaded (get_option, load_options, ... were called) *)
Definition loaded (st : state) : Prop := cache st <> None.

Lemma seen_look user st s k :
  seen user st s k = Ok (answer_of (look (match cache st with Some i => content st i | None => validate user end) s k)).
Proof.
  unfold seen, get_option, get_options, current. cbn [snd bind fst].
  destruct (cache st) as [i|] eqn:E.
  - rewrite E. reflexivity.
  - unfold load_options. rewrite E. cbn [cache]. unfold content. cbn [objs].
    rewrite content_upd by (rewrite app_length; simpl; lia). rewrite Nat.eqb_refl.
    rewrite app_nth2 by lia. rewrite Nat.sub_diag. reflexivity.
Qed.
Lemma validate_default user s k : look (validate user) s k = session_default user s k.
Proof.
  rewrite validate_look. unfold session_default, converted. rewrite <- look_opt_of.
  destruct (look user s k), (documented s k); reflexivity.
Qed.
Lemma init_ok user section opts st : Inv st -> loaded st -> all_designated section opts ->
  exists old st1, cache st = Some old /\ old < List.length (objs st) /\
    set_init user section opts st = (st1, Ok old) /\ Inv st1 /\
    cache st1 = Some (List.length (objs st)) /\ List.length (objs st) <= List.length (objs st1) /\
    (forall j, j < List.length (objs st) -> content st1 j = content st j) /\
    forall s k, look (content st1 (List.length (objs st))) s k =
      match given section opts s k with
      | Some v => Some (converted s k v) | None => session_default user s k end.
Proof.
  intros HI Hl Hd. unfold loaded in Hl. destruct (cache st) as [old|] eqn:Ec; [|congruence].
  unfold set_init. rewrite Ec.
  assert (W0 : wf2 []) by (split; [constructor|intros s d H; discriminate H]).
  destruct (parse_ok section opts [] W0 Hd) as (cfg & E & W & L).
  change (parse_opts section opts = Ok cfg) in E. rewrite E.
  assert (HI' := Inv_none st HI).
  destruct (load_facts user cfg _ HI') as (L1 & L2 & L3 & L4 & L5). cbn [cache objs] in *.
  exists old, (load_options user cfg (mkst (objs st) None)).
  split; [reflexivity|]. split; [now apply HI|]. split; [reflexivity|]. split; [exact L1|].
  split; [exact L2|]. split; [exact L3|]. split; [intros j Hj; rewrite L5 by lia; reflexivity|].
  intros s k. rewrite L4. rewrite validate_look.
  assert (EL : look (match cfg with [] => user | _ => merge user cfg end) s k =
    match given section opts s k with Some v => Some v | None => look user s k end).
  { destruct cfg as [|p cfg'].
    - specialize (L s k). cbn in L. destruct (given section opts s k); [discriminate|reflexivity].
    - rewrite merge_look by exact W. rewrite L. destruct (given section opts s k); reflexivity. }
  rewrite EL. unfold session_default, converted. rewrite look_opt_of.
  destruct (given section opts s k); [destruct (documented s k); reflexivity|].
  destruct (opt_of user s k); destruct (documented s k); reflexivity.
Qed.

(** In a session where the options have been loaded, [with set_options(...)] ends as its body
    does, and every option has then the value it had before, whatever the body does: nested
    contexts, other calls, exceptions. *)
Theorem C25_with_restores user st section opts body :
  reachable user st -> loaded st -> all_designated section opts ->
  exists st1 st2 r,
    run user (With section opts body (fun r => match r with Ok _ => Stop | Raise e => Throw e end)) st = (st2, r) /\
    (* the body starts from [st1], and its outcome is the outcome *)
    snd (run user body st1) = r /\
    (* inside: the given values, and those of a new session for the other options *)
    (forall s k, seen user st1 s k = Ok (answer_of
       match given section opts s k with
       | Some v => Some (converted s k v) | None => session_default user s k end)) /\
    (* after: as before *)
    loaded st2 /\ forall s k, seen user st2 s k = seen user st s k.
Proof.
  intros Hr Hl Hd. assert (HI := reachable_Inv user st Hr).
  destruct (init_ok user section opts st HI Hl Hd) as (old & st1 & E1 & E2 & E3 & I1 & C1 & L1 & S1 & V1).
  cbn [run]. unfold with_options. rewrite E3.
  set (n := List.length (objs st)) in *.
  destruct (run_above user body n st1 I1) as (I2 & A2 & S2 & L2).
  { split; [lia|]. rewrite C1. lia. }
  cbn zeta in *.
  destruct (run user body st1) as [st2 r] eqn:Er. cbn [fst] in *.
  rewrite (exit_facts old st2 I2) by lia.
  exists st1, (mkst (objs st2) (Some old)), r.
  split; [destruct r as [[]|e]; reflexivity|]. split; [rewrite Er; reflexivity|]. split; [|split].
  - intros s k. rewrite seen_look, C1, V1. reflexivity.
  - unfold loaded. cbn [cache]. discriminate.
  - intros s k. rewrite !seen_look, E1. cbn [cache].
    change (content (mkst (objs st2) (Some old)) old) with (content st2 old).
    rewrite (S2 old E2), (S1 old E2). reflexivity.
Qed.

(** The same call for the session: the given options have their value, and *all* the other
    options have the value of a new session. *)
Theorem C25_set_options user st section opts : reachable user st -> loaded st -> all_designated section opts ->
  exists st1 n, set_init user section opts st = (st1, Ok n) /\ loaded st1 /\
    forall s k, seen user st1 s k = Ok (answer_of
       match given section opts s k with
       | Some v => Some (converted s k v) | None => session_default user s k end).
Proof.
  intros Hr Hl Hd. assert (HI := reachable_Inv user st Hr).
  destruct (init_ok user section opts st HI Hl Hd) as (old & st1 & E1 & E2 & E3 & I1 & C1 & L1 & S1 & V1).
  exists st1, old. split; [exact E3|]. split; [unfold loaded; rewrite C1; discriminate|].
  intros s k. rewrite seen_look, C1, V1. reflexivity.
Qed.
(** When no option was ever read, set_options and reset_options raise KeyError and change
    nothing. *)
Theorem C25_not_loaded user st section opts : ~ loaded st ->
  set_init user section opts st = (st, Raise KeyError) /\ reset_options st = (st, Raise KeyError).
Proof.
  unfold loaded, set_init, reset_options. intro H.
  destruct (cache st); [exfalso; apply H; discriminate|split; reflexivity].
Qed.
(** A keyword that designates no option: XoaConfigError, and the options of the session are
    lost. *)
Theorem C25_bad_keyword user st section opts name v : loaded st ->
  In (name, v) opts -> designated section name = None ->
  exists st1, set_init user section opts st = (st1, Raise XoaConfigError) /\
    forall s k, seen user st1 s k = Ok (answer_of (session_default user s k)).
Proof.
  unfold loaded, set_init. intros H Hin Hd. destruct (cache st) as [old|]; [|congruence].
  destruct (parse_bad section opts (Ok []) name v Hin Hd) as [E|[e E]]; [|discriminate].
  change (parse_opts section opts = Raise XoaConfigError) in E. rewrite E.
  eexists. split; [reflexivity|]. intros s k. rewrite seen_look. cbn [cache]. now rewrite validate_default.
Qed.
(** reset_options: every option is again as in a new session. *)
Theorem C25_reset user st : loaded st ->
  exists st1, reset_options st = (st1, Ok tt) /\
    forall s k, seen user st1 s k = Ok (answer_of (session_default user s k)).
Proof.
  unfold loaded, reset_options. intro H. destruct (cache st); [|congruence].
  eexists. split; [reflexivity|]. intros s k. rewrite seen_look. cbn [cache]. now rewrite validate_default.
Qed.
(** load_options(dict): the given options have their value, the others keep theirs. *)
Theorem C25_load user st cfg : reachable user st -> wf2 cfg ->
  let st1 := load_options user cfg st in loaded st1 /\
  forall s k, seen user st1 s k =
    match opt_of cfg s k with
    | Some v => Ok (Value (converted s k v))
    | None => match seen user st s k with
              | Ok (Value v) => Ok (Value (converted s k v)) | r => r end
    end.
Proof.
  intros Hr Hw. cbn zeta. assert (HI := reachable_Inv user st Hr).
  destruct (load_facts user cfg st HI) as (L1 & L2 & L3 & L4 & L5). cbn zeta in *.
  split; [unfold loaded; rewrite L2; discriminate|].
  intros s k. rewrite !seen_look, L2, L4, validate_look.
  set (o := match cache st with Some i => content st i | None => user end).
  assert (EL : look (match cfg with [] => o | _ => merge o cfg end) s k =
    match opt_of cfg s k with Some v => Some v | None => look o s k end).
  { destruct cfg as [|p cfg'].
    - cbn. reflexivity.
    - rewrite merge_look by exact Hw. rewrite look_opt_of. reflexivity. }
  rewrite EL. unfold converted. rewrite <- look_opt_of.
  destruct (look cfg s k) as [v|]; [destruct (documented s k); reflexivity|].
  (* the current content is validated *)
  assert (Ho : forall c, documented s k = Some c ->
     match cache st with Some _ => look o s k <> None | None => True end).
  { intros c Hc. unfold o. destruct (cache st) as [i|] eqn:Ec; [|exact Logic.I].
    destruct HI as [H1 H2]. destruct (H2 i (H1 i Ec)) as [o' Eo]. rewrite Eo, validate_look, Hc. discriminate. }
  destruct (cache st) as [i|].
  - unfold o in *. destruct (documented s k) as [c|].
    + specialize (Ho c eq_refl). destruct (look (content st i) s k) as [v|]; [reflexivity|congruence].
    + destruct (look (content st i) s k); reflexivity.
  - unfold o. rewrite validate_look. destruct (documented s k) as [c|].
    + destruct (look user s k) as [v|]; cbn [answer_of]; f_equal; f_equal.
      * destruct c; cbn; [destruct v as [s0|b|z|n]; cbn|destruct v; reflexivity]; try reflexivity.
        destruct (bool_of_string s0) eqn:E; cbn; [reflexivity|]. now rewrite E.
      * destruct c; reflexivity.
    + destruct (look user s k); reflexivity.
Qed.
(** Reading an option changes no option; in a new session it is the user's value, or the
    default value; an option that exists nowhere gives an exception object, not raised. *)
Theorem C25_get user st sec opt : reachable user st ->
  let st1 := fst (get_option user sec opt st) in
  loaded st1 /\ (forall s k, seen user st1 s k = seen user st s k) /\
  snd (get_option user sec opt st) =
    match opt with
    | Some o => seen user st sec o
    | None => match re_option sec with Some (s, o) => seen user st s o | None => Raise XoaConfigError end
    end.
Proof.
  intros Hr. cbn zeta. assert (HI := reachable_Inv user st Hr).
  assert (HL : loaded (fst (get_option user sec opt st)) /\
     forall s k, seen user (fst (get_option user sec opt st)) s k = seen user st s k).
  { unfold get_option, get_options. cbn [fst]. destruct (cache st) as [i|] eqn:E.
    - split; [unfold loaded; congruence|reflexivity].
    - destruct (load_facts user [] st HI) as (L1 & L2 & L3 & L4 & L5). cbn zeta in *.
      split; [unfold loaded; rewrite L2; discriminate|]. intros s k. rewrite !seen_look, L2, L4, E. reflexivity. }
  split; [apply HL|]. split; [apply HL|].
  unfold seen, get_option. cbn [snd]. destruct opt as [o|]; [reflexivity|].
  destruct (re_option sec) as [[s o]|]; reflexivity.
Qed.
Theorem C25_new_session user s k : seen user init s k = Ok (answer_of (session_default user s k)).
Proof. rewrite seen_look. cbn [cache init]. now rewrite validate_default. Qed.

(** "A session option lasts until the end of the session" is false: the next set_options
    forgets it. *)
Theorem C25_session_option_kept_refuted :
  exists user st opts1 opts2, reachable user st /\ loaded st /\
    all_designated (Some "plot"%string) opts1 /\ all_designated (Some "plot"%string) opts2 /\
    given (Some "plot"%string) opts2 "plot" "cmappos" = None /\
    let st1 := fst (set_init user (Some "plot"%string) opts1 st) in
    let st2 := fst (set_init user (Some "plot"%string) opts2 st1) in
    seen user st1 "plot" "cmappos" = Ok (Value (OStr "mycmap")) /\
    seen user st2 "plot" "cmappos" = Ok (Value (OStr "cmo.amp")).
Proof.
  exists [], (fst (get_option [] "plot" (Some "cmapdiv"%string) init)),
    [("cmappos", OStr "mycmap")]%string, [("cmapdiv", OStr "other")]%string.
  split; [exists (Get "plot" (Some "cmapdiv"%string) (fun _ => Stop)); reflexivity|].
  split; [unfold loaded; cbn; discriminate|].
  split; [intros name v [H|[]]; injection H as <- <-; vm_compute; discriminate|].
  split; [intros name v [H|[]]; injection H as <- <-; vm_compute; discriminate|].
  split; [reflexivity|]. split; vm_compute; reflexivity.
Qed.

(** Keywords: "section.option", any single non-word character as separator *)
Lemma span_word_app a c b : all_word a = true -> is_word c = false ->
  span_word (a ++ String c b) = (a, String c b).
Proof.
  induction a as [|x a IH]; simpl; intros Ha Hc; [now rewrite Hc|].
  apply andb_true_iff in Ha. destruct Ha as [H1 H2]. rewrite H1, IH by auto. reflexivity.
Qed.
Lemma span_word_all b : all_word b = true -> span_word b = (b, EmptyString).
Proof.
  induction b as [|x b IH]; simpl; intros Ha; [reflexivity|].
  apply andb_true_iff in Ha. destruct Ha as [H1 H2]. now rewrite H1, IH.
Qed.
Theorem C25_flat_name a b c : all_word a = true -> all_word b = true -> a <> EmptyString -> b <> EmptyString ->
  is_word c = false -> re_option (a ++ String c b) = Some (a, b).
Proof.
  intros Ha Hb Na Nb Hc. unfold re_option. rewrite span_word_app by auto. rewrite span_word_all by auto.
  destruct a; [congruence|]. destruct b; [congruence|]. reflexivity.
Qed.
Theorem C25_plain_name a : all_word a = true -> re_option a = None.
Proof. intro Ha. unfold re_option. now rewrite span_word_all. Qed.

(** And only those names: anything else is not a "section.option" (a final newline is ignored) *)
Lemma span_word_is s : let (a, r) := span_word s in s = (a ++ r)%string /\ all_word a = true /\
  match r with String c _ => is_word c = false | EmptyString => True end.
Proof.
  induction s as [|c s IH]; cbn; [auto|]. destruct (is_word c) eqn:E; [|cbn; auto].
  destruct (span_word s) as [a r]. destruct IH as (-> & Ha & Hr). cbn. rewrite E. auto.
Qed.
Theorem C25_flat_name_iff s a b : re_option s = Some (a, b) <->
  a <> EmptyString /\ b <> EmptyString /\ all_word a = true /\ all_word b = true /\
  exists c e, is_word c = false /\ (e = EmptyString \/ e = newline) /\ s = (a ++ String c (b ++ e))%string.
Proof.
  unfold re_option. split.
  - assert (X := span_word_is s). destruct (span_word s) as [a' [|c r']]; [discriminate|].
    assert (Y := span_word_is r'). destruct (span_word r') as [b' e]. destruct X as (-> & Ha & Hc), Y as (-> & Hb & He).
    destruct a' as [|x a']; cbn [nonempty andb]; [discriminate|]. destruct b' as [|y b']; cbn [nonempty andb]; [discriminate|].
    destruct (String.eqb_spec e "") as [->|N1]; cbn [orb].
    + intro H. injection H as <- <-. split; [discriminate|]. split; [discriminate|]. split; auto. split; auto. exists c, EmptyString. auto.
    + destruct (String.eqb_spec e newline) as [->|N2]; [|discriminate].
      intro H. injection H as <- <-. split; [discriminate|]. split; [discriminate|]. split; auto. split; auto. exists c, newline. auto.
  - intros (Na & Nb & Ha & Hb & c & e & Hc & He & ->). rewrite span_word_app by auto.
    assert (X : span_word (b ++ e) = (b, e)).
    { destruct He as [-> | ->]; [|now apply span_word_app].
      replace (b ++ "")%string with b by (clear; induction b; cbn; congruence). now apply span_word_all. }
    rewrite X. destruct a; [congruence|]. destruct b; [congruence|]. now destruct He as [-> | ->].
Qed.
Example C25_flat_name_ex : re_option "plot.cmapdiv" = Some ("plot", "cmapdiv")%string /\ re_option "plot." = None /\ re_option "plot..cmapdiv" = None
  /\ re_option ".cmapdiv" = None /\ re_option "plot.cmap.div" = None.
Proof. repeat split; reflexivity. Qed.

(** A nested context whose body raises: values inside, outcome, values after *)
Example ex25 :
  let st := fst (get_option [] "plot" (Some "cmapdiv"%string) init) in
  reachable [] st /\ loaded st /\
  let body := With (Some "plot"%string) [("cmappos", OStr "c2")]%string (Throw ValueError)
                (fun r => match r with Ok _ => Stop | Raise e => Throw e end) in
  let '(st2, r) := run [] (With None [("plot.cmapdiv", OStr "c1"); ("cf.cache", OStr "off")]%string body
                       (fun r => match r with Ok _ => Stop | Raise e => Throw e end)) st in
  r = Raise ValueError /\ seen [] st2 "plot" "cmapdiv" = Ok (Value (OStr "cmo.balance")).
Proof.
  cbn zeta. split; [exists (Get "plot" (Some "cmapdiv"%string) (fun _ => Stop)); reflexivity|].
  split; [unfold loaded; cbn; discriminate|]. vm_compute. auto.
Qed.
Example ex25_inside :
  let st := fst (get_option [] "plot" (Some "cmapdiv"%string) init) in
  let st1 := fst (set_init [] None [("plot.cmapdiv", OStr "c1"); ("cf.cache", OStr "off")]%string st) in
  seen [] st1 "plot" "cmapdiv" = Ok (Value (OStr "c1")) /\
  seen [] st1 "cf" "cache" = Ok (Value (OBool false)) /\
  seen [] st1 "cf" "accessors" = Ok (Value (OBool true)) /\
  seen [] st1 "cf" "nothing" = Ok ErrorObject /\
  designated None "cmapdiv" = None.
Proof. vm_compute. auto 6. Qed.
