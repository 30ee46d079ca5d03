(** More about the validators of single values: what exactly is accepted as a time delta, a date
    and a dictionary, and which error is raised otherwise. *)
From Verif Require Import PyReFacts ValScalarSpec ValScalarProps.
From Coq Require Import Lia.
Open Scope string_scope.

(** *** The specification *)
(** float() of a value: texts as [tf] reads them, numbers, and booleans as 1 and 0 *)
Inductive reads_as (tf : string -> option fl) : yval -> fl -> Prop :=
| reads_text s f : tf s = Some f -> reads_as tf (YStr s) f
| reads_number f : reads_as tf (YNum f) f
| reads_true : reads_as tf (YBool true) (Some 1%Q)
| reads_false : reads_as tf (YBool false) (Some 0%Q).
Definition one_line (s : string) : Prop := forall a b, s <> a ++ String (ascii_of_nat 10) b.
(** The ways to write a dictionary, and the expression that is evaluated *)
Inductive written : string -> string -> Prop :=
| as_call w b : w <> "" -> all_word w = true -> one_line b -> written (w ++ "(" ++ b ++ ")") (w ++ "(" ++ b ++ ")")
| as_braces b : one_line b -> written ("{" ++ b ++ "}") ("{" ++ b ++ "}")
| as_settings k g1 g2 t : k <> "" -> all_word k = true -> gap g1 -> gap g2 -> t <> "" -> one_line t ->
    written (k ++ g1 ++ "=" ++ g2 ++ t) ("dict(" ++ (k ++ g1 ++ "=" ++ g2 ++ t) ++ ")").

(** *** Time deltas *)
Theorem C52_timedelta_iff tf pd x u r : is_timedelta tf pd (YList [x; u]) = Ok r <-> exists f, reads_as tf x f /\ pd f u = Some r.
Proof.
  unfold is_timedelta. cbn [prints_none].
  assert (F : forall f, float_of tf x = Ok f <-> reads_as tf x f).
  { intro f. split.
    - destruct x as [|s|q|[]| | |]; cbn; try discriminate; try (intro H; injection H as <-; constructor).
      destruct (tf s) eqn:E; [|discriminate]. intro H. injection H as <-. now constructor.
    - intros [s f' E| | |]; cbn; auto. now rewrite E. }
  destruct (float_of tf x) as [f|e] eqn:E; cbn [bind].
  - destruct (pd f u) eqn:Ep.
    + split; [intro H; injection H as <-; exists f; split; auto; now apply F|].
      intros (f' & Hf & Hp). apply F in Hf. congruence.
    + split; [discriminate|]. intros (f' & Hf & Hp). apply F in Hf. congruence.
  - split; [discriminate|]. intros (f' & Hf & Hp). apply F in Hf. discriminate.
Qed.
(** The errors: a validation error when it is not a list of two; a ValueError when the text or the
    unit can not be read; a TypeError when the first element is neither a text nor a number. *)
Theorem C52_timedelta_errors tf pd v e : is_timedelta tf pd v = Raise e ->
  match v with
  | YList [x; u] => match x with
                    | YStr s => e = ValueError
                    | YNum _ | YBool _ => e = ValueError
                    | _ => e = TypeError
                    end
  | _ => e = ValidateError
  end.
Proof.
  unfold is_timedelta. destruct (prints_none v); [discriminate|]. destruct v as [| | | |l| |]; try (cbn; congruence).
  destruct l as [|x [|u [|]]]; try (cbn; congruence).
  destruct x as [|s|q|b| | |]; cbn; try congruence.
  - destruct (tf s) as [f|]; cbn; [destruct (pd f u)|]; congruence.
  - destruct (pd q u); congruence.
  - destruct (pd _ u); congruence.
Qed.
(** *** Dates *)
(** A text is read with the format, the empty text as the default; None and "None" are None; what
    is not a text is a TypeError, which is not a validation error. *)
Theorem C52_pydatetime sp default fmt v : match is_pydatetime sp default fmt v with
  | Ok r => (v = YNone \/ v = YStr "None") /\ r = YNone \/
            exists s, (v = YStr s /\ s <> "" \/ v = YStr "" /\ default = YStr s) /\ sp s fmt = Some r
  | Raise e => exists w, (v = w /\ w <> YStr "" \/ v = YStr "" /\ default = w) /\
       match w with YStr s => e = ValidateError /\ sp s fmt = None | _ => e = TypeError end
  end.
Proof.
  unfold is_pydatetime. destruct (prints_none v) eqn:Ep.
  { left. split; auto. destruct v; try discriminate; auto. cbn in Ep. apply String.eqb_eq in Ep. subst. auto. }
  assert (E : exists w, match v with YStr "" => default | _ => v end = w /\ (v = w /\ w <> YStr "" \/ v = YStr "" /\ default = w)).
  { destruct v as [|[|c s]| | | | |]; eexists; (split; [reflexivity|]); try (left; split; [reflexivity|discriminate]). now right. }
  destruct E as (w & -> & Hw). cbn zeta. destruct w as [|s| | | | |]; try (exists (YNone); fail).
  all: try (eexists; split; [exact Hw|reflexivity]).
  destruct (sp s fmt) as [d|] eqn:Es.
  - right. exists s. split; auto. destruct Hw as [[-> Hn]|[-> ->]]; [left; split; auto; congruence|now right].
  - exists (YStr s). split; auto.
Qed.
(** *** Ranges of dates *)
(** Lists of three or four fail with something that is not a validation error. *)
Theorem C52_daterange_errors eval v e : is_daterange eval v = Raise e ->
  match v with
  | YList [_; _; _] => e = AttributeError
  | YList [_; _; _; YStr s] => e = match eval s with Some _ => AttributeError | None => NameError end
  | YList [_; _; _; _] => e = TypeError
  | _ => e = ValidateError
  end.
Proof.
  unfold is_daterange. destruct (prints_none v); [discriminate|]. destruct v as [| | | |l| |]; try (intro H; now injection H).
  destruct l as [|a [|b [|c [|d [|f l]]]]]; try (intro H; now injection H).
  - destruct d; try (intro H; now injection H). destruct (eval s); intro H; now injection H.
  - destruct d; intro H; now injection H.
Qed.
(** *** Dictionaries *)
Lemma ends_with_iff c r : ends_with c r = true <-> exists b, r = b ++ String c "".
Proof.
  unfold ends_with. split.
  - induction r as [|d r IH]; cbn [last_char]; [discriminate|]. destruct r as [|d' r'].
    + intro H. apply Ascii.eqb_eq in H. subst. now exists "".
    + intro H. destruct (IH H) as [b E]. exists (String d b). cbn. now rewrite E.
  - intros [b ->]. induction b as [|d b IH]; cbn [append last_char]; [apply Ascii.eqb_refl|].
    destruct (b ++ String c "") eqn:E; [destruct b; discriminate|]. exact IH.
Qed.
Lemma one_line_iff s : all_chars not_newline s = true <-> one_line s.
Proof.
  unfold one_line. induction s as [|c s IH]; cbn [all_chars].
  - split; auto. intros _ [|? a] b; discriminate.
  - rewrite andb_true_iff, IH. unfold not_newline. rewrite negb_true_iff, Ascii.eqb_neq. split.
    + intros [Hc H] [|d a] b E; cbn [append] in E; injection E as E1 E2; [now apply Hc|]. now apply (H a b).
    + intro H. split; [intros ->; now apply (H "" s)|]. intros a b E. apply (H (String c a) b). now rewrite E.
Qed.
Lemma all_chars_snoc p b c : all_chars p (b ++ String c "") = all_chars p b && p c.
Proof. induction b as [|d b IH]; cbn; [now rewrite andb_true_r|]. now rewrite IH, andb_assoc. Qed.
Lemma span_word_spec s : exists w r, span_word s = (w, r) /\ s = w ++ r /\ all_word w = true /\ (forall c t, r = String c t -> is_word c = false).
Proof.
  induction s as [|c s IH]; cbn [span_word]; [exists "", ""; repeat split; discriminate|].
  destruct (is_word c) eqn:E.
  - destruct IH as (w & r & -> & -> & Hw & Hr). exists (String c w), r. cbn. rewrite E, Hw. auto.
  - exists "", (String c s). repeat split; auto. intros d t H. injection H as <- _. auto.
Qed.
Lemma funccall_iff m : m_funccall m = true <-> exists w b, m = w ++ "(" ++ b ++ ")" /\ w <> "" /\ all_word w = true /\ one_line b.
Proof.
  unfold m_funccall. split.
  - destruct (span_word_spec m) as (w & r & -> & -> & Hw & Hr). intro H. apply andb_true_iff in H. destruct H as [Hn H].
    destruct r as [|c r]; [discriminate|]. apply andb_true_iff in H. destruct H as [H Hl]. apply andb_true_iff in H. destruct H as [Hc He].
    apply Ascii.eqb_eq in Hc. subst c. apply ends_with_iff in He. destruct He as [b ->]. exists w, b. rewrite all_chars_snoc in Hl.
    apply andb_true_iff in Hl. destruct Hl as [Hl _]. repeat split; auto; [now apply nonempty_iff|now apply one_line_iff].
  - intros (w & b & -> & Nw & Hw & Hb). rewrite span_word_app by (auto; intros c t E; cbn in E; injection E as <- _; reflexivity).
    apply nonempty_iff in Nw. rewrite Nw. cbn [append]. rewrite Ascii.eqb_refl. cbn [andb].
    rewrite (proj2 (ends_with_iff ")" (b ++ ")"))) by (now exists b). cbn [andb]. change (b ++ ")") with (b ++ String ")" "").
    rewrite all_chars_snoc. rewrite (proj2 (one_line_iff b) Hb). reflexivity.
Qed.
Lemma acc_iff m : m_acc m = true <-> exists b, m = "{" ++ b ++ "}" /\ one_line b.
Proof.
  unfold m_acc. split.
  - destruct m as [|c r]; [discriminate|]. intro H. apply andb_true_iff in H. destruct H as [H Hl]. apply andb_true_iff in H. destruct H as [Hc He].
    apply Ascii.eqb_eq in Hc. subst c. apply ends_with_iff in He. destruct He as [b ->]. exists b. rewrite all_chars_snoc in Hl.
    apply andb_true_iff in Hl. split; [reflexivity|]. now apply one_line_iff.
  - intros (b & -> & Hb). cbn [append]. rewrite Ascii.eqb_refl. cbn [andb].
    rewrite (proj2 (ends_with_iff "}" (b ++ "}"))) by (now exists b). cbn [andb]. change (b ++ "}") with (b ++ String "}" "").
    rewrite all_chars_snoc. rewrite (proj2 (one_line_iff b) Hb). reflexivity.
Qed.
Lemma lstrip_gap s : exists g, gap g /\ s = g ++ lstrip s.
Proof.
  induction s as [|c s IH]; cbn [lstrip]; [exists ""; split; reflexivity|]. destruct (is_space c) eqn:E.
  - destruct IH as (g & Hg & Eg). exists (String c g). unfold gap in *. cbn. rewrite E, Hg. split; [reflexivity|]. now rewrite <- Eg.
  - exists "". split; reflexivity.
Qed.
Lemma all_chars_app_r p a b : all_chars p (a ++ b) = true -> all_chars p b = true.
Proof. induction a as [|c a IH]; cbn; auto. intro H. apply andb_true_iff in H. now apply IH. Qed.
Lemma set_iff m : (forall c u, m = u ++ String c "" -> is_space c = false) ->
  m_set m = true <-> exists k g1 g2 t, m = k ++ g1 ++ "=" ++ g2 ++ t /\ k <> "" /\ all_word k = true /\ gap g1 /\ gap g2 /\ t <> "" /\ one_line t.
Proof.
  intro Hl. unfold m_set. split.
  - destruct (span_word_spec m) as (w & r & -> & -> & Hw & Hr). intro H. apply andb_true_iff in H. destruct H as [Hn H].
    destruct (lstrip_gap r) as (g1 & G1 & E1). destruct (lstrip r) as [|c r'] eqn:El; [discriminate|].
    apply andb_true_iff in H. destruct H as [Hc H]. apply Ascii.eqb_eq in Hc. subst c. cbn zeta in H. apply andb_true_iff in H. destruct H as [Ht Ho].
    destruct (lstrip_gap r') as (g2 & G2 & E2). exists w, g1, g2, (lstrip r'). rewrite E1. cbn [append]. rewrite <- E2.
    repeat split; auto; [now apply nonempty_iff|now apply nonempty_iff|now apply one_line_iff].
  - intros (k & g1 & g2 & t & -> & Nk & Hk & G1 & G2 & Nt & Ht).
    assert (SW : forall c, is_space c = true -> is_word c = false) by (intro c; destruct c as [[] [] [] [] [] [] [] []]; auto; discriminate).
    rewrite span_word_app; auto.
    2: { intros c u Er. destruct g1 as [|c0 g']; cbn in Er; injection Er as <- _; [reflexivity|]. unfold gap in G1. cbn in G1. apply andb_true_iff in G1. now apply SW. }
    apply nonempty_iff in Nk. rewrite Nk. cbn [andb]. rewrite lstrip_is, lstrip_set_app by exact G1.
    cbn [append lstrip_set]. replace (is_space "=") with false by reflexivity. cbv iota. rewrite Ascii.eqb_refl. cbn [andb]. cbn zeta.
    assert (X : lstrip (g2 ++ t) = lstrip t) by (rewrite !lstrip_is; now rewrite lstrip_set_app).
    rewrite X. destruct (lstrip_gap t) as (g3 & G3 & E3).
    assert (N : lstrip t <> "").
    { intro Z. rewrite Z, PyReFacts.sapp_nil_r in E3. destruct (last_cases t Nt) as (u & d & Ed).
      assert (is_space d = false). { apply (Hl d (k ++ g1 ++ "=" ++ g2 ++ u)). rewrite Ed. rewrite !sapp_assoc. reflexivity. }
      subst g3. unfold gap in G3. rewrite Ed, all_chars_snoc in G3. apply andb_true_iff in G3. destruct G3. congruence. }
    apply nonempty_iff in N. rewrite N. cbn [andb]. apply (all_chars_app_r _ g3). rewrite <- E3. now apply one_line_iff.
Qed.
(** A text is a dictionary when it is written in one of the three ways and what it stands for
    evaluates to a dictionary; it is a validation error in any other case. *)
Theorem C52_dict_text eval dictobj empty g1 m g2 : gap g1 -> gap g2 -> m <> "" -> g1 ++ m ++ g2 <> "None" ->
  (forall c u, m = String c u -> is_space c = false) -> (forall c u, m = u ++ String c "" -> is_space c = false) ->
  (forall d, is_dict eval dictobj empty (YStr (g1 ++ m ++ g2)) = Ok d <-> exists t, written m t /\ eval t = Some d /\ isdict dictobj d = true) /\
  ((forall d, is_dict eval dictobj empty (YStr (g1 ++ m ++ g2)) <> Ok d) -> is_dict eval dictobj empty (YStr (g1 ++ m ++ g2)) = Raise VdtTypeError).
Proof.
  intros G1 G2 Nm NN Hf Hl. unfold is_dict. cbn [prints_none]. destruct (String.eqb_spec (g1 ++ m ++ g2) "None"); [congruence|].
  cbn [isdict bind]. rewrite strip_gaps by auto. cbn zeta. destruct (String.eqb_spec m ""); [congruence|].
  assert (Wf : forall t, written m t -> if m_funccall m || m_acc m then t = m else m_set m = true /\ t = "dict(" ++ m ++ ")").
  { intros t W. destruct (m_funccall m || m_acc m) eqn:E.
    - inversion W as [w b H1 H2 H3 E1 E2|b H1 E1 E2|k a b s H1 H2 H3 H4 H5 H6 E1 E2]; subst; auto. exfalso.
      set (m := k ++ a ++ "=" ++ b ++ s) in *. apply orb_true_iff in E. destruct E as [E|E].
      + unfold m_funccall, m in E.
        assert (SW : forall c, is_space c = true -> is_word c = false) by (intro c; destruct c as [[] [] [] [] [] [] [] []]; auto; discriminate).
        rewrite span_word_app in E; auto.
        * apply andb_true_iff in E. destruct E as [_ E]. destruct a as [|c0 g']; cbn [append] in E; [discriminate|].
          unfold gap in H3. cbn in H3. apply andb_true_iff in H3. destruct H3 as [H3 _]. destruct (Ascii.eqb_spec c0 "(") as [->|]; discriminate.
        * intros c u Er. destruct a as [|c0 g']; cbn in Er; injection Er as <- _; [reflexivity|]. unfold gap in H3. cbn in H3. apply andb_true_iff in H3. now apply SW.
      + apply acc_iff in E. destruct E as (b' & E & _). unfold m in E. destruct k as [|c k]; [congruence|]. cbn in E. injection E as -> _. discriminate.
    - apply orb_false_iff in E. destruct E as [Ea Eb]. inversion W as [w b H1 H2 H3 E1 E2|b H1 E1 E2|k a b s H1 H2 H3 H4 H5 H6 E1 E2]; subst.
      + exfalso. rewrite (proj2 (funccall_iff _)) in Ea; [discriminate|]. exists w, b. auto.
      + exfalso. rewrite (proj2 (acc_iff _)) in Eb; [discriminate|]. exists b. auto.
      + split; auto. apply set_iff; auto. exists k, a, b, s. repeat split; auto. }
  assert (Wb : (if m_funccall m || m_acc m then written m m else m_set m = true -> written m ("dict(" ++ m ++ ")"))).
  { destruct (m_funccall m || m_acc m) eqn:E.
    - apply orb_true_iff in E. destruct E as [E|E].
      + apply funccall_iff in E. destruct E as (w & b & -> & H1 & H2 & H3). now constructor.
      + apply acc_iff in E. destruct E as (b & -> & H1). now constructor.
    - intro H. apply set_iff in H; auto. destruct H as (k & a & b & s & -> & H). constructor; tauto. }
  assert (EV : forall t, (forall d, match eval t with Some v => if isdict dictobj v then Ok v else Raise VdtTypeError | None => Raise VdtTypeError end = Ok d <->
      eval t = Some d /\ isdict dictobj d = true) /\
      ((forall d, match eval t with Some v => if isdict dictobj v then Ok v else Raise VdtTypeError | None => Raise VdtTypeError end <> Ok d) ->
        match eval t with Some v => if isdict dictobj v then Ok v else Raise VdtTypeError | None => Raise VdtTypeError end = Raise VdtTypeError)).
  { intro t. destruct (eval t) as [v|]; [|split; [split; [discriminate|intros [? _]; discriminate]|auto]].
    destruct (isdict dictobj v) eqn:Ev.
    - split; [|intro H; now destruct (H v)]. intro d. split; [intro H; injection H as <-; auto|]. intros [H _]. congruence.
    - split; auto. intro d. split; [discriminate|]. intros [H X]. injection H as ->. congruence. }
  destruct (m_funccall m || m_acc m).
  - destruct (EV m) as [H1 H2]. split; auto. intro d. rewrite H1. split; [eauto|]. intros (t & W & H). rewrite (Wf t W) in H. exact H.
  - destruct (m_set m) eqn:Es.
    + destruct (EV ("dict(" ++ m ++ ")")) as [H1 H2]. split; auto. intro d. rewrite H1. split; [eauto|]. intros (t & W & H). destruct (Wf t W) as [_ ->]. exact H.
    + split; auto. intro d. split; [discriminate|]. intros (t & W & _). destruct (Wf t W). discriminate.
Qed.
(** An empty text is the empty dictionary; a value that is neither a text, a dictionary nor a list
    is an AttributeError, and a list with something else than texts a TypeError: these are not
    validation errors. *)
Theorem C52_dict_others eval dictobj empty :
  (forall g, gap g -> is_dict eval dictobj empty (YStr g) = Ok empty) /\
  (forall x b l n, is_dict eval dictobj empty (YNum x) = Raise AttributeError /\ is_dict eval dictobj empty (YBool b) = Raise AttributeError /\
     is_dict eval dictobj empty (YTuple l) = Raise AttributeError /\
     (dictobj n = false -> is_dict eval dictobj empty (YOther n) = Raise AttributeError) /\
     (dictobj n = true -> is_dict eval dictobj empty (YOther n) = Ok (YOther n))) /\
  (forall l v, In v l -> (forall s, v <> YStr s) -> is_dict eval dictobj empty (YList l) = Raise TypeError).
Proof.
  repeat split.
  - intros g Hg. unfold is_dict. assert (S : strip g = ""). { unfold strip. rewrite lstrip_is. rewrite <- (PyReFacts.sapp_nil_r g), lstrip_set_app by exact Hg. reflexivity. }
    assert (g <> "None") by (intros ->; discriminate). cbn [prints_none]. destruct (String.eqb_spec g "None"); [congruence|]. cbn [isdict bind]. now rewrite S.
  - intro H. unfold is_dict. cbn [prints_none isdict]. now rewrite H.
  - intro H. unfold is_dict. cbn [prints_none isdict]. now rewrite H.
  - intros l v Hin Hv. unfold is_dict. cbn [prints_none isdict].
    assert (E : strings l = Raise TypeError).
    { induction l as [|x l IH]; [destruct Hin|]. destruct x; cbn; auto. destruct Hin as [<-|Hin]; [now destruct (Hv s)|]. now rewrite IH. }
    now rewrite E.
Qed.
Example ex_written : written "dict(a=2)" "dict(a=2)" /\ written "{1: 2}" "{1: 2}" /\ written "a = 2, b=3" "dict(a = 2, b=3)".
Proof.
  assert (O : forall s, all_chars not_newline s = true -> one_line s) by (intros; now apply one_line_iff).
  split; [|split].
  - apply (as_call "dict" "a=2"); try reflexivity; [discriminate|now apply O].
  - apply (as_braces "1: 2"). now apply O.
  - apply (as_settings "a" " " " " "2, b=3"); try reflexivity; try discriminate. now apply O.
Qed.
Print Assumptions C52_dict_text.
