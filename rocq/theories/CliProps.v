(** C79: the command line and what it prints. *)
From Verif Require Import Cli.
From Coq Require Import String Ascii List Bool Arith Lia.
Import ListNotations.
Open Scope string_scope.

(** ** Arguments *)
Definition no_help (args : list string) : Prop := ~ In "-h" args /\ ~ In "--help" args.
(** What [xoa info], [xoa info <category>] print *)
Definition everything (w : world) : list string :=
  (["# VERSIONS"] ++ fst (show_versions w) ++ [(nl ++ "# FILES AND DIRECTORIES")%string] ++ fst (show_paths w) ++
   [(nl ++ "# OPTIONS")%string] ++ fst (show_options w true))%list.
Lemma no_help_is args : no_help args -> forall s, In s args -> is_help s = false.
Proof.
  intros [H1 H2] s Hs. unfold is_help. destruct (String.eqb_spec s "-h") as [->|]; [contradiction|].
  destruct (String.eqb_spec s "--help") as [->|]; [contradiction|]. reflexivity.
Qed.
Theorem C79_arguments : forall w args, no_help args ->
  (args = [] /\ main w args = Ran ([], Raise AttributeError)) \/
  ((args = ["info"] \/ args = ["info"; "all"]) /\ main w args = Ran (everything w, Ok tt)) \/
  (args = ["info"; "versions"] /\ main w args = Ran (show_versions w)) \/
  (args = ["info"; "paths"] /\ main w args = Ran (show_paths w)) \/
  (args = ["info"; "options"] /\ main w args = Ran (show_options w false)) \/
  ((args <> [] /\ args <> ["info"] /\ forall c, In c ["all"; "versions"; "paths"; "options"] -> args <> ["info"; c]) /\ main w args = Exits 2).
Proof.
  intros w args H. pose proof (no_help_is args H) as NH. unfold main, parse_args.
  assert (EV : main_info w "all" = (everything w, Ok tt)).
  { unfold main_info. cbn [String.eqb Ascii.eqb Bool.eqb]. unfold show_info, everything, then_, show_versions, show_options, say.
    destruct (show_paths w) as [l [[]|e]] eqn:E.
    - cbn [fst snd]. f_equal; rewrite ?app_assoc_reverse; reflexivity.
    - unfold show_paths in E. destruct (path_lines w false _) in E. discriminate. }
  destruct args as [|a r]; [left; auto|]. rewrite (NH a) by (simpl; auto).
  destruct (String.eqb_spec a "info") as [->|Na].
  2: { right. right. right. right. right. split; [|reflexivity]. split; [discriminate|]. split; [congruence|]. intros c _. congruence. }
  destruct r as [|c r]; [right; left; split; auto; cbn [parse_info]; now rewrite EV|].
  unfold parse_info. rewrite (NH c) by (simpl; auto). unfold CHOICES. cbn [existsb].
  assert (Hr : existsb is_help r = false).
  { apply not_true_iff_false. intro E. apply existsb_exists in E. destruct E as (s & Hs & E). rewrite (NH s) in E by (simpl; auto). discriminate. }
  assert (Bad : forall x : ending, (forall c', In c' ["all"; "versions"; "paths"; "options"] -> c :: r <> [c']) ->
    x = Exits 2 -> (("info" :: c :: r <> [] /\ "info" :: c :: r <> ["info"] /\ forall c', In c' ["all"; "versions"; "paths"; "options"] -> "info" :: c :: r <> ["info"; c']) /\ x = Exits 2)).
  { intros x Hc Hx. split; auto. split; [discriminate|]. split; [discriminate|]. intros c' Hc' E. injection E as E1 E2. apply (Hc c' Hc'). now rewrite E1, E2. }
  destruct r as [|d r].
  - cbn [existsb orb negb]. destruct (String.eqb_spec c "all") as [->|N1]; [right; left; split; auto; cbn [orb negb existsb]; now rewrite EV|].
    destruct (String.eqb_spec c "paths") as [->|N2]; [right; right; right; left; split; auto|].
    destruct (String.eqb_spec c "versions") as [->|N3]; [right; right; left; split; auto|].
    destruct (String.eqb_spec c "options") as [->|N4]; [right; right; right; right; left; split; auto|].
    cbn [orb negb]. right. right. right. right. right. apply Bad; [|reflexivity]. intros c' Hc' E. injection E as ->. simpl in Hc'. intuition congruence.
  - right. right. right. right. right. apply Bad; [intros c' _ E; discriminate|].
    rewrite Hr. destruct (negb _); reflexivity.
Qed.
Print Assumptions C79_arguments.

(** With -h or --help nothing of the information is printed: help (0) or, when a word before it is refused, usage (2) *)
Theorem C79_help : forall w args, ~ no_help args ->
  (main w args = Exits 0 <->
     (forall c r, args = c :: r -> In c ["-h"; "--help"; "info"]) /\
     (forall c r, args = "info" :: c :: r -> In c ["-h"; "--help"; "all"; "paths"; "versions"; "options"])) /\
  (main w args = Exits 0 \/ main w args = Exits 2).
Proof.
  intros w args H. unfold main, parse_args.
  assert (IH : forall s, is_help s = true <-> s = "-h" \/ s = "--help").
  { intro s. unfold is_help. rewrite orb_true_iff, !String.eqb_eq. tauto. }
  assert (HH : existsb is_help args = true).
  { destruct (existsb is_help args) eqn:E; auto. exfalso. apply H. split; intro I;
    (assert (X : existsb is_help args = true) by (apply existsb_exists; eexists; split; [exact I|reflexivity]); congruence). }
  destruct args as [|a r]; [discriminate|].
  destruct (is_help a) eqn:Ha.
  { split; [|auto]. split; [|reflexivity]. intros _. apply IH in Ha. split.
    - intros c r' E. injection E as -> <-. simpl. destruct Ha as [->| ->]; auto.
    - intros c r' E. injection E as -> _. destruct Ha; discriminate. }
  cbn [existsb] in HH. rewrite Ha in HH. cbn [orb] in HH.
  destruct (String.eqb_spec a "info") as [->|Na].
  2: { split; [|auto]. split; [discriminate|]. intros [H1 _]. exfalso. destruct (H1 a r eq_refl) as [E|[E|[E|[]]]]; try congruence; subst a; discriminate. }
  destruct r as [|c r]; [discriminate|]. unfold parse_info. cbn [existsb] in HH.
  destruct (is_help c) eqn:Hc.
  { split; [|auto]. split; [|reflexivity]. intros _. apply IH in Hc. split.
    - intros c' r' E. injection E as <- _. simpl. auto.
    - intros c' r' E. injection E as -> _. simpl. destruct Hc as [->| ->]; auto. }
  cbn [orb] in HH. rewrite HH.
  destruct (existsb (String.eqb c) CHOICES) eqn:HC; cbn [negb].
  - split; [|auto]. split; [|reflexivity]. intros _. split.
    + intros c' r' E. injection E as <- _. simpl. auto.
    + intros c' r' E. injection E as -> _. apply existsb_exists in HC. destruct HC as (x & Hx & E). apply String.eqb_eq in E. subst x. simpl in *. tauto.
  - split; [|auto]. split; [discriminate|]. intros [_ H2]. exfalso. specialize (H2 c r eq_refl).
    assert (X : existsb (String.eqb c) CHOICES = true); [|congruence].
    assert (NH : c <> "-h" /\ c <> "--help") by (split; intros ->; discriminate).
    apply existsb_exists. exists c. split; [|apply String.eqb_refl]. simpl in H2 |- *. intuition congruence.
Qed.
Print Assumptions C79_help.

(** [xoa info] never reads the configuration; [xoa info options] fails exactly when it cannot be loaded *)
Definition same_but_options (w w' : world) : Prop :=
  w_python w = w_python w' /\ w_dist w = w_dist w' /\ w_lib w = w_lib w' /\ w_samples w = w_samples w' /\
  w_exists w = w_exists w' /\ w_config w = w_config w' /\ w_cf w = w_cf w' /\ w_cache w = w_cache w'.
Theorem C79_configuration : forall w w', same_but_options w w' ->
  main w ["info"] = main w' ["info"] /\
  (forall e, w_options w = Raise e -> main w ["info"; "options"] = Ran ([], Raise e)) /\
  (forall l, w_options w = Ok l -> exists text, main w ["info"; "options"] = Ran ([text], Ok tt)).
Proof.
  intros w w' (H1 & H2 & H3 & H4 & H5 & H6 & H7 & H8). split; [|split].
  - destruct w, w'; cbn in *; subst. reflexivity.
  - intros e E. unfold main. cbn. unfold show_options. now rewrite E.
  - intros l E. eexists. unfold main. cbn. unfold show_options. rewrite E. reflexivity.
Qed.
Print Assumptions C79_configuration.

(** ** Files *)
Definition file_line (w : world) (label path : string) : string :=
  ("- " ++ label ++ ": " ++ path ++ (if w_exists w path then "" else " [*]"))%string.
Lemma sapp_nil (s : string) : (s ++ "")%string = s.
Proof. induction s as [|c s IH]; cbn; [reflexivity|now rewrite IH]. Qed.
(** A star for each missing file and only for those; the note if and only if there is a star *)
Theorem C79_paths : forall w, exists note,
  show_paths w = (["- xoa library dir: " ++ w_lib w;
    file_line w "user config file" (w_config w); file_line w "user CF specs file" (w_cf w); file_line w "user CF cache file" (w_cache w);
    "- data samples: " ++ String.concat " " (sample_names w)]%string ++ note, Ok tt)%list /\
  (note = [] /\ (forall p, In p [w_config w; w_cf w; w_cache w] -> w_exists w p = true) \/
   note = ["*: file not present"] /\ exists p, In p [w_config w; w_cf w; w_cache w] /\ w_exists w p = false).
Proof.
  intro w. unfold show_paths, path_lines, file_line, say.
  destruct (w_exists w (w_config w)) eqn:E1, (w_exists w (w_cf w)) eqn:E2, (w_exists w (w_cache w)) eqn:E3; eexists;
    rewrite ?sapp_nil; (split; [reflexivity|]);
    first [left; split; [reflexivity|]; intros p [<-|[<-|[<-|[]]]]; assumption
          |right; split; [reflexivity|]; first [now exists (w_config w); split; [simpl; tauto|] | now exists (w_cf w); split; [simpl; tauto|] | now exists (w_cache w); split; [simpl; tauto|]]].
Qed.
Print Assumptions C79_paths.

(** ** Samples *)
Theorem C79_samples : forall w s names, match w_samples w with Some l => names = l | None => names = [] end ->
  get_data_sample w FNone = Ok (SNames names) /\
  (In s names -> get_data_sample w (FStr s) = Ok (SPath (w_lib w ++ "/_samples/" ++ s))) /\
  (~ In s names -> get_data_sample w (FStr s) = Raise XoaError) /\
  get_data_sample w FOther = Raise TypeError /\
  show_data_samples w = ([String.concat " " names], Ok tt).
Proof.
  intros w s names H. assert (E : match w_samples w with None => [] | Some l => l end = names) by (destruct (w_samples w); auto).
  unfold show_data_samples, sample_names, get_data_sample. rewrite E. split; [reflexivity|]. split; [|split; [|split; reflexivity]].
  - intro I. replace (existsb (String.eqb s) names) with true; [reflexivity|]. symmetry. apply existsb_exists. exists s. split; auto. apply String.eqb_refl.
  - intro N. destruct (existsb (String.eqb s) names) eqn:X; [|reflexivity]. exfalso. apply existsb_exists in X. destruct X as (x & Hx & Ex).
    apply String.eqb_eq in Ex. now subst.
Qed.
Print Assumptions C79_samples.

(** ** Versions *)
Theorem C79_versions : forall w, exists l, show_versions w = (l, Ok tt) /\ List.length l = 12 /\
  nth_error l 0 = Some ("- python: " ++ w_python w)%string /\ nth_error l 1 = Some "- xoa: 0.1.0" /\
  (forall i p v, nth_error PACKAGES i = Some p -> w_dist w p = Some v -> nth_error l (S (S i)) = Some ("- " ++ p ++ ": " ++ v)%string) /\
  (forall i p, nth_error PACKAGES i = Some p -> w_dist w p = None -> nth_error l (S (S i)) = Some ("- " ++ p ++ ": NOT INSTALLED or UKNOWN")%string).
Proof.
  intro w. eexists. split; [reflexivity|]. split; [reflexivity|]. split; [reflexivity|]. split; [reflexivity|].
  split; intros i p; intros; cbn [nth_error]; rewrite nth_error_map, H; cbn [option_map]; rewrite H0; reflexivity.
Qed.
Print Assumptions C79_versions.

(** ** Options *)
Fixpoint newlines (n : nat) : string := match n with O => "" | S m => nl ++ newlines m end.
Fixpoint unspace (s : string) : string :=
  match s with
  | String c r => match r with
                  | String d t => if Ascii.eqb c " " && Ascii.eqb d "#" then String d (unspace t) else String c (unspace r)
                  | EmptyString => String c EmptyString
                  end
  | EmptyString => EmptyString end.
Definition has (c : ascii) (s : string) : Prop := exists a b, s = a ++ String c b.
Lemma lstrip_spec s : exists n, s = newlines n ++ lstrip_nl s /\ (forall r, lstrip_nl s <> nl ++ r).
Proof.
  induction s as [|c s (n & E & N)]; [exists 0; split; [reflexivity|discriminate]|]. cbn [lstrip_nl]. destruct (is_nl c) eqn:C.
  - apply Ascii.eqb_eq in C. subst c. exists (S n). split; [|exact N]. cbn. now rewrite E at 1.
  - exists 0. split; [reflexivity|]. intros r E'. injection E' as -> _. discriminate.
Qed.
Lemma newlines_snoc n : (newlines n ++ nl)%string = newlines (S n).
Proof. induction n as [|n IH]; [reflexivity|]. cbn [newlines]. cbn. f_equal. exact IH. Qed.
Lemma rstrip_spec s : exists n, s = rstrip_nl s ++ newlines n /\ (forall r, rstrip_nl s <> r ++ nl).
Proof.
  induction s as [|c s (n & E & N)].
  { exists 0. split; [reflexivity|]. intros [|d r]; discriminate. }
  cbn [rstrip_nl]. destruct (is_nl c) eqn:C.
  - apply Ascii.eqb_eq in C. subst c. destruct (rstrip_nl s) as [|d t] eqn:R.
    + exists (S n). split; [|intros [|d r]; discriminate]. cbn. now rewrite E.
    + exists n. split; [cbn in *; now rewrite E at 1|]. intros r E'. destruct r as [|x r]; [discriminate|]. injection E' as _ E'. now apply (N r).
  - exists n. split; [cbn; now rewrite E at 1|]. intros [|x r] E'; [injection E' as -> _; discriminate|]. injection E' as -> E'. now apply (N r).
Qed.
Lemma rstrip_first c r : is_nl c = false -> exists t, rstrip_nl (String c r) = String c t.
Proof. intro H. cbn. rewrite H. eauto. Qed.
Lemma sassoc (a b c : string) : (a ++ (b ++ c) = (a ++ b) ++ c)%string.
Proof. induction a as [|x a IH]; cbn; [reflexivity|now rewrite IH]. Qed.
(** The text of [show_options]: the lines written by the configuration, without the newlines around, with a space before each #.
    The latter can be undone; it is harmless only without #. *)
Theorem C79_options : forall w l, w_options w = Ok l -> exists text n m printed,
  show_options w false = ([printed], Ok tt) /\
  String.concat nl l = newlines n ++ text ++ newlines m /\
  (forall r, text <> nl ++ r) /\ (forall r, text <> r ++ nl) /\
  unspace printed = text /\ (printed = text <-> ~ has "#" text).
Proof.
  intros w l E. set (t := String.concat nl l). exists (strip_nl t).
  destruct (lstrip_spec t) as (n & En & Nn). destruct (rstrip_spec (lstrip_nl t)) as (m & Em & Nm).
  exists n, m, (hash_space (strip_nl t)). split; [unfold show_options; now rewrite E|].
  split; [unfold strip_nl; now rewrite <- Em|]. split.
  { unfold strip_nl. intros r X. destruct (lstrip_nl t) as [|c s] eqn:L; [discriminate|].
    destruct (is_nl c) eqn:C.
    - apply Ascii.eqb_eq in C. subst c. now apply (Nn s).
    - destruct (rstrip_first c s C) as [u U]. rewrite U in X. injection X as -> _. discriminate. }
  split; [exact Nm|]. generalize (strip_nl t). clear. intro s.
  assert (U : unspace (hash_space s) = s /\ forall x r, hash_space s = String x r -> x <> "#"%char).
  { induction s as [|c s [IH1 IH2]]; [split; [reflexivity|discriminate]|]. cbn [hash_space].
    destruct (Ascii.eqb_spec c "#") as [->|N].
    - split; [cbn [unspace Ascii.eqb Bool.eqb andb]; now rewrite IH1|]. intros x r X. injection X as <- _. discriminate.
    - split; [|intros x r X; injection X as <- _; exact N]. cbn [unspace]. destruct (hash_space s) as [|d u] eqn:H; [cbn in IH1; now subst s|].
      replace (Ascii.eqb d "#") with false; [rewrite andb_false_r; now rewrite IH1|]. symmetry. apply Ascii.eqb_neq. eapply IH2; eauto. }
  split; [apply U|]. clear U. induction s as [|c s IH].
  { split; [|reflexivity]. intros _ (a & b & X). destruct a; discriminate. }
  cbn [hash_space]. destruct (Ascii.eqb_spec c "#") as [->|N].
  - split; [discriminate|]. intro X. exfalso. apply X. now exists "", s.
  - split.
    + intros X. injection X as X. apply IH in X. intros (a & b & Y). destruct a as [|y a]; injection Y as -> Y; [now apply N|]. apply X. now exists a, b.
    + intro X. f_equal. apply IH. intros (a & b & ->). apply X. now exists (String c a), b.
Qed.
Print Assumptions C79_options.
(** So a value with a # is not shown as it is *)
Definition ex_world (l : list string) : world :=
  mkworld "3.8.5" (fun p => if String.eqb p "numpy" then Some "1.19" else None) "/lib/xoa" (Some ["a.nc"; "b.cfg"])
    (fun p => String.eqb p "/home/xoa.cfg") "/home/xoa.cfg" "/home/cf.cfg" "/home/cf.pyk" (Ok l).
Theorem C79_options_refuted : exists l, l = ["[plot]"; "cmapdiv = ""a#b"""] /\
  fst (show_options (ex_world l) false) = [String.concat nl ["[plot]"; "cmapdiv = ""a #b"""]].
Proof. eexists. split; reflexivity. Qed.
Print Assumptions C79_options_refuted.
Example C79_ex : no_help ["info"; "paths"] /\ ~ no_help ["info"; "paths"; "-h"] /\ same_but_options (ex_world []) (ex_world ["x = 1"]) /\
  main (ex_world []) ["info"; "paths"] = Ran (["- xoa library dir: /lib/xoa"; "- user config file: /home/xoa.cfg";
     "- user CF specs file: /home/cf.cfg [*]"; "- user CF cache file: /home/cf.pyk [*]"; "- data samples: a.nc b.cfg"; "*: file not present"], Ok tt) /\
  main (ex_world []) ["info"; "paths"; "-h"] = Exits 0 /\ main (ex_world []) ["info"; "path"; "-h"] = Exits 2 /\
  main (ex_world [""; "x = 1"; ""; ""]) ["info"; "options"] = Ran (["x = 1"], Ok tt) /\
  get_data_sample (ex_world []) (FStr "a.nc") = Ok (SPath "/lib/xoa/_samples/a.nc").
Proof.
  split; [split; simpl; intuition discriminate|]. split; [intros [H _]; apply H; simpl; auto|]. split; [repeat split|].
  repeat split; vm_compute; reflexivity.
Qed.
(** [show_options(specs=True)]: the specifications, from the first section to the last option *)
Theorem C79_specs : forall w, exists text, show_options w true = ([text], Ok tt) /\ CONFIG_SPECS = newlines 1 ++ text ++ newlines 2 /\
  (exists r, text = "[cf] # cf module" ++ r) /\ (exists r, text = r ++ "cmapcyc = string(default=""cmo.phase"")   # default cyclic colormap").
Proof.
  intro w. eexists. split; [reflexivity|]. split; [vm_compute; reflexivity|]. split.
  - eexists. vm_compute. reflexivity.
  - exists (substring 0 (String.length (strip_nl CONFIG_SPECS) - 65) (strip_nl CONFIG_SPECS)). vm_compute. reflexivity.
Qed.
Print Assumptions C79_specs.
