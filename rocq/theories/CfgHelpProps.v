(** C58: the help of the command line options. *)
From Verif Require Import CfgHelp ValScalarProps PyReFacts.
From Coq Require Import Lia.
Open Scope string_scope.

(** ** Specification *)
Definition only (ok : ascii -> bool) (s : string) : Prop := all_chars ok s = true.
Definition bare (ok : ascii -> bool) (t : string) : Prop :=
  t = "" \/ ((exists c t', t = String c t' /\ ok c = false) /\ exists t' c, t = t' ++ String c "" /\ ok c = false).
(** [t] is [s] without the characters [ok] of both ends *)
Definition peeled (ok : ascii -> bool) (s t : string) : Prop := exists a b, s = a ++ t ++ b /\ only ok a /\ only ok b /\ bare ok t.
(** A comment: without blanks around, then without sharps, then without blanks *)
Definition cleaned (c t : string) : Prop := exists t1 t2, peeled is_space c t1 /\ peeled is_sharp t1 t2 /\ peeled is_space t2 t.
(** The comments that are used *)
Definition chosen (mode : hmode) (above : list string) (inline : option string) (l : list string) : Prop :=
  match mode, inline with
  | HInline, Some c => l = [c] | HInline, None => l = []
  | HAbove, _ => l = above
  | HMerge, Some c => l = (above ++ [c])%list | HMerge, None => l = above
  | HAuto, Some c => l = [c] | HAuto, None => l = above
  end.
(** A line of help *)
Definition line (c h : string) : Prop := exists t, cleaned c t /\ ((exists t', t = t' ++ "." /\ h = t) \/ ((forall t', t <> t' ++ ".") /\ h = t ++ ".")).
Definition no_percent (s : string) : Prop := all_chars (fun c => negb (Ascii.eqb c "%")) s = true.
Definition shown (v : hvalue) (d : string) : Prop :=
  match v with HList l => d = join_with "," l | HText s => peeled is_paren s d end.

(** ** Stripping *)
Lemma lstrip_set_spec ok s : exists a, s = a ++ lstrip_set ok s /\ only ok a /\ match lstrip_set ok s with "" => True | String c _ => ok c = false end.
Proof.
  unfold only. induction s as [|c s (a & E & Ha & Hl)]; cbn [lstrip_set]; [exists ""; auto|]. destruct (ok c) eqn:Ec.
  - exists (String c a). cbn. rewrite Ec, <- E. auto.
  - exists "". cbn. auto.
Qed.
Lemma rstrip_set_spec ok s : exists b, s = rstrip_set ok s ++ b /\ only ok b /\ (rstrip_set ok s = "" \/ exists t' c, rstrip_set ok s = t' ++ String c "" /\ ok c = false).
Proof.
  unfold only. induction s as [|c s (b & E & Hb & Hl)]; cbn [rstrip_set]; [exists ""; auto|].
  destruct (rstrip_set ok s) as [|c' r] eqn:Er.
  - cbn in E. subst b. destruct (ok c) eqn:Ec.
    + exists (String c s). cbn. rewrite Ec. auto.
    + exists s. split; [reflexivity|]. split; auto. right. exists "", c. auto.
  - exists b. split; [cbn in *; congruence|]. split; auto. right. destruct Hl as [Hl|(t' & d & Hl & Hd)]; [discriminate|]. exists (String c t'), d. cbn. rewrite <- Hl. auto.
Qed.
Lemma rstrip_set_head ok c s : ok c = false -> exists r, rstrip_set ok (String c s) = String c r.
Proof. intro H. cbn. destruct (rstrip_set ok s); [rewrite H|]; eauto. Qed.
Lemma strip_set_peeled ok s : peeled ok s (strip_set ok s).
Proof.
  unfold strip_set. destruct (lstrip_set_spec ok s) as (a & E & Ha & Hl). destruct (rstrip_set_spec ok (lstrip_set ok s)) as (b & E2 & Hb & Hr).
  exists a, b. rewrite <- E2. split; auto. split; auto. split; auto. destruct Hr as [Hr|Hr]; [now left|]. right. split; auto.
  destruct (lstrip_set ok s) as [|c t]; [destruct Hr as (t' & c & X & _); destruct t'; discriminate|]. destruct (rstrip_set_head ok c t Hl) as [r Hr']. exists c, r. auto.
Qed.
Lemma strip_is s : strip s = strip_set is_space s.
Proof. unfold strip, strip_set. now rewrite lstrip_is, rstrip_is. Qed.
Lemma clean_ok c : cleaned c (clean c).
Proof. unfold clean, cleaned. exists (strip c), (strip_set is_sharp (strip c)). rewrite !strip_is. repeat split; apply strip_set_peeled. Qed.

(** ** Escaping *)
Lemma expand_app a b s : expand a = Ok s -> expand (a ++ b) = let* r := expand b in Ok (s ++ r).
Proof.
  revert s. remember (String.length a) as n eqn:En. revert a En. induction n as [n IH] using (well_founded_induction lt_wf); intros a -> s.
  destruct a as [|c a]; cbn [expand append].
  - intro H. injection H as <-. now destruct (expand b).
  - destruct (Ascii.eqb c "%").
    + destruct a as [|d a]; [discriminate|]. cbn [append]. destruct (Ascii.eqb d "%"); [|discriminate].
      destruct (expand a) as [r|] eqn:E; [|discriminate]. cbn [bind]. intro H. injection H as <-.
      rewrite (IH (String.length a)) with (s := r); auto; try (cbn; lia). now destruct (expand b).
    + destruct (expand a) as [r|] eqn:E; [|discriminate]. cbn [bind]. intro H. injection H as <-.
      rewrite (IH (String.length a)) with (s := r); auto; try (cbn; lia). now destruct (expand b).
Qed.
Lemma expand_plain s : no_percent s -> expand s = Ok s.
Proof.
  unfold no_percent. induction s as [|c s IH]; cbn [all_chars expand]; auto. intro H. apply andb_true_iff in H. destruct H as [Hc H].
  destruct (Ascii.eqb c "%"); [discriminate|]. now rewrite IH.
Qed.
(** What is escaped is shown as it was *)
Lemma expand_escape s : expand (escape s) = Ok s.
Proof.
  induction s as [|c s IH]; cbn [escape]; auto. destruct (Ascii.eqb_spec c "%") as [->|N].
  - cbn [expand]. rewrite Ascii.eqb_refl. now rewrite IH.
  - cbn [expand]. destruct (Ascii.eqb_spec c "%"); [contradiction|]. now rewrite IH.
Qed.
Lemma escape_none s : escape s = "None" -> s = "None".
Proof. intro H. assert (X := expand_escape s). rewrite H in X. cbn in X. congruence. Qed.

Lemma ends_dot s : ends_with_char s "." = true <-> exists t, s = t ++ ".".
Proof.
  induction s as [|c s IH]; cbn [ends_with_char].
  - split; [discriminate|]. intros [t H]. destruct t; discriminate.
  - destruct s as [|d s].
    + rewrite Ascii.eqb_eq. split; [intros ->; exists ""; reflexivity|]. intros [t H]. destruct t as [|x t]; [now injection H|]. injection H as _ H. destruct t; discriminate.
    + rewrite IH. split.
      * intros [t E]. exists (String c t). cbn. now rewrite E.
      * intros [t E]. destruct t as [|x t]; [discriminate|]. injection E as _ E. eauto.
Qed.
Lemma line_ok c : line c (add_dot (clean c)).
Proof.
  exists (clean c). split; [apply clean_ok|]. unfold add_dot. destruct (ends_with_char (clean c) ".") eqn:E.
  - apply ends_dot in E. destruct E as [t' E]. left. eauto.
  - right. split; auto. intros t' E'. assert (X : ends_with_char (clean c) "." = true) by (apply ends_dot; eauto). congruence.
Qed.
Lemma used_chosen mode above inline : exists l, chosen mode above inline l /\ used mode above inline = map clean l.
Proof.
  unfold chosen, used. destruct mode, inline as [c|].
  - exists [c]. auto.
  - exists []. auto.
  - exists above. auto.
  - exists above. auto.
  - exists (above ++ [c])%list. rewrite map_app. auto.
  - exists above. rewrite app_nil_r. auto.
  - exists [c]. auto.
  - exists above. auto.
Qed.
Lemma join_nonempty sep l : l <> [] -> Forall (fun s => s <> "") l -> join_with sep l <> "".
Proof.
  destruct l as [|x l]; [contradiction|]. intros _ F. inversion F; subst. destruct l; cbn [join_with]; auto. destruct x; [contradiction|discriminate].
Qed.

(** ** The help that is shown: a line per comment, then the default value *)
Theorem C58_help mode above inline v : exists comments lines d,
  chosen mode above inline comments /\ Forall2 line comments lines /\ shown v d /\
  let text := match lines with [] => "Undocumented" | _ => join_with (String (ascii_of_nat 10) "") lines end in
  (no_percent text -> expand (shelp mode "Undocumented" true above inline v) = Ok (text ++ " [default: " ++ d ++ "]")).
Proof.
  destruct (used_chosen mode above inline) as (l & Hl & Eu). exists l, (map (fun c => add_dot (clean c)) l), (match v with HList l => join_with "," l | HText s => strip_set is_paren s end).
  split; auto. split; [|split].
  - clear. induction l as [|c l IH]; cbn; constructor; auto. apply line_ok.
  - destruct v; cbn; auto. apply strip_set_peeled.
  - change (String (ascii_of_nat 10) "") with eol. cbn zeta. intro Np. unfold shelp. rewrite Eu. cbv beta zeta iota. rewrite map_map.
    set (d := match v with HList l => join_with "," l | HText s => strip_set is_paren s end).
    assert (T : (if nonempty (join_with eol (map (fun c => add_dot (clean c)) l)) then join_with eol (map (fun c => add_dot (clean c)) l) else "Undocumented")
      = match map (fun c => add_dot (clean c)) l with [] => "Undocumented" | _ => join_with eol (map (fun c => add_dot (clean c)) l) end).
    { destruct l as [|c l]; [reflexivity|]. assert (N : join_with eol (map (fun c => add_dot (clean c)) (c :: l)) <> "").
      { apply join_nonempty; [discriminate|]. apply Forall_forall. intros s Hs. apply in_map_iff in Hs. destruct Hs as (x & <- & _). unfold add_dot.
        destruct (ends_with_char (clean x) ".") eqn:E; [apply ends_dot in E; destruct E as [t ->]; destruct t; discriminate|]. destruct (clean x); discriminate. }
      cbn [map] in N |- *. destruct (join_with eol (add_dot (clean c) :: map (fun c0 => add_dot (clean c0)) l)); [contradiction|reflexivity]. }
    rewrite T. rewrite (expand_app _ _ _ (expand_plain _ Np)).
    assert (D : expand (" [default: " ++ match sdefault v with Some d => d | None => "None" end ++ "]") = Ok (" [default: " ++ d ++ "]")).
    { assert (S : match sdefault v with Some d => d | None => "None" end = escape d).
      { unfold sdefault. fold d. destruct (String.eqb_spec (escape d) "None"); auto. }
      rewrite S, (expand_app " [default: " _ " [default: " eq_refl), (expand_app _ _ _ (expand_escape d)). reflexivity. }
    rewrite D. reflexivity.
Qed.
(** Without the final dots: the comments as they are, cleaned. *)
Theorem C58_help_plain mode undoc above inline v : exists comments lines d,
  chosen mode above inline comments /\ Forall2 cleaned comments lines /\ shown v d /\
  let text := if String.eqb (join_with (String (ascii_of_nat 10) "") lines) "" then undoc else join_with (String (ascii_of_nat 10) "") lines in
  (no_percent text -> expand (shelp mode undoc false above inline v) = Ok (text ++ " [default: " ++ d ++ "]")).
Proof.
  destruct (used_chosen mode above inline) as (l & Hl & Eu). exists l, (map clean l), (match v with HList l => join_with "," l | HText s => strip_set is_paren s end).
  split; auto. split; [|split].
  - clear. induction l as [|c l IH]; cbn; constructor; auto. apply clean_ok.
  - destruct v; cbn; auto. apply strip_set_peeled.
  - change (String (ascii_of_nat 10) "") with eol. cbn zeta. intro Np. unfold shelp. rewrite Eu. cbv beta zeta iota.
    set (d := match v with HList l => join_with "," l | HText s => strip_set is_paren s end).
    assert (T : (if nonempty (join_with eol (map clean l)) then join_with eol (map clean l) else undoc)
      = if String.eqb (join_with eol (map clean l)) "" then undoc else join_with eol (map clean l)).
    { destruct (join_with eol (map clean l)); reflexivity. }
    rewrite T. rewrite (expand_app _ _ _ (expand_plain _ Np)).
    assert (D : expand (" [default: " ++ match sdefault v with Some d => d | None => "None" end ++ "]") = Ok (" [default: " ++ d ++ "]")).
    { assert (S : match sdefault v with Some d => d | None => "None" end = escape d).
      { unfold sdefault. fold d. destruct (String.eqb_spec (escape d) "None"); auto. }
      rewrite S, (expand_app " [default: " _ " [default: " eq_refl), (expand_app _ _ _ (expand_escape d)). reflexivity. }
    rewrite D. reflexivity.
Qed.
Example ex_help_plain : expand (shelp HMerge "None yet" false ["# Time step" ; "## in s" ] (Some " # positive.") (HText "50 %")) =
  Ok ("Time step" ++ eol ++ "in s" ++ eol ++ "positive. [default: 50 %]").
Proof. reflexivity. Qed.
(** False: the help of a documented option can be shown.  A % in a comment is not escaped. *)
Theorem C58_percent_refuted v : shelp HAuto "Undocumented" true [] (Some " # Ice fraction (%)") v <> "" /\
  expand (shelp HAuto "Undocumented" true [] (Some " # Ice fraction (%)") v) = Raise ValueError.
Proof. split; [discriminate|]. vm_compute. reflexivity. Qed.
(** False: an option without comment is said to be undocumented.  A blank line above it is a comment. *)
Theorem C58_blank_refuted d : expand (shelp HAuto "Undocumented" true [""] None (HList [d])) = Ok (". [default: " ++ d ++ "]").
Proof.
  destruct (C58_help HAuto [""] None (HList [d])) as (cs & ls & d' & Hc & Hl & Hd & H). cbn in Hc, Hd. subst.
  assert (E : shelp HAuto "Undocumented" true [""] None (HList [d]) = ". [default: " ++ match sdefault (HList [d]) with Some d => d | None => "None" end ++ "]") by reflexivity.
  rewrite E, (expand_app ". [default: " _ _ eq_refl).
  assert (S : match sdefault (HList [d]) with Some d => d | None => "None" end = escape d).
  { unfold sdefault. cbn [join_with]. destruct (String.eqb_spec (escape d) "None"); auto. }
  rewrite S, (expand_app _ _ _ (expand_escape d)). reflexivity.
Qed.
(** False: the default value that is shown is that of the option.  A text loses its parentheses. *)
Theorem C58_paren_refuted : expand (shelp HAuto "Undocumented" true [] (Some "# Units") (HText "m (up)")) = Ok "Units. [default: m (up]".
Proof. vm_compute. reflexivity. Qed.

Example ex_help : expand (shelp HMerge "Undocumented" true ["# Time step" ; "## in %" ] (Some " # positive.") (HText "50 %")) = Raise ValueError /\
  expand (shelp HMerge "Undocumented" true ["# Time step" ; "## in s" ] (Some " # positive.") (HText "50 %")) =
  Ok ("Time step." ++ eol ++ "in s." ++ eol ++ "positive. [default: 50 %]").
Proof. vm_compute. auto. Qed.
