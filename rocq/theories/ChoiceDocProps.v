(** C84: documentation of choices. *)
From Verif Require Import ChoiceDoc MiscProofs.
From Coq Require Import Lia Arith DecimalString.
Open Scope string_scope.

(** ** Vocabulary *)
(** How Python reads the inside of a quoted text *)
Definition hex_value (c : ascii) (n : nat) : Prop :=
  (n < 10 /\ nat_of_ascii c = 48 + n)%nat \/ (10 <= n < 16 /\ nat_of_ascii c = 97 + (n - 10))%nat.
Definition printable (c : ascii) : Prop := (32 <= nat_of_ascii c)%nat /\ nat_of_ascii c <> 127%nat.
Inductive literal (q : ascii) : string -> string -> Prop :=
| l_end : literal q "" ""
| l_plain c b t : c <> q -> c <> backslash -> printable c -> literal q b t -> literal q (String c b) (String c t)
| l_same c b t : c = q \/ c = backslash -> literal q b t -> literal q (String backslash (String c b)) (String c t)
| l_named e n b t : In (e, n) [("t", 9); ("n", 10); ("r", 13)]%char%nat -> literal q b t ->
    literal q (String backslash (String e b)) (String (ascii_of_nat n) t)
| l_hex h l i j b t : hex_value h i -> hex_value l j -> literal q b t ->
    literal q (String backslash (String "x" (String h (String l b)))) (String (ascii_of_nat (16 * i + j)) t).
Fixpoint occurs (c : ascii) (s : string) : Prop :=
  match s with EmptyString => False | String d r => c = d \/ occurs c r end.

(** A documentation: texts and places of the parameter; braces of texts are doubled *)
Inductive piece := Text (s : string) | Place.
Fixpoint doubled (s : string) : string :=
  match s with
  | EmptyString => ""
  | String c r => if (if ascii_dec c "{" then true else if ascii_dec c "}" then true else false)
                  then String c (String c (doubled r)) else String c (doubled r)
  end.
Definition written (parameter : string) (p : piece) : string :=
  match p with Text s => doubled s | Place => "{" ++ parameter ++ "}" end.
Definition filled (value : string) (p : piece) : string := match p with Text s => s | Place => value end.
Definition all_of (f : piece -> string) (ps : list piece) : string := String.concat "" (map f ps).
(** Names that are only names *)
Definition plain_char (c : ascii) : Prop := ~ In c ["{"; "}"; "["; "."; "!"; ":"]%char.
Definition plain (n : string) : Prop := forall c, occurs c n -> plain_char c.
Definition a_number (n : string) : Prop := forall c, occurs c n -> In c (list_ascii_of_string "0123456789").
Definition no_brace (s : string) : Prop := ~ occurs "{" s /\ ~ occurs "}" s.

(** ** Facts on texts *)
Lemma sapp_assoc (a b c : string) : (a ++ b) ++ c = a ++ b ++ c.
Proof. induction a as [|x a IH]; [reflexivity|]. cbn. now rewrite IH. Qed.
Lemma sapp_nil (a : string) : a ++ "" = a.
Proof. induction a as [|x a IH]; [reflexivity|]. cbn. now rewrite IH. Qed.
Lemma occurs_app c a b : occurs c (a ++ b) <-> occurs c a \/ occurs c b.
Proof. induction a as [|x a IH]; cbn [append occurs]; [tauto|]. rewrite IH. tauto. Qed.
Lemma has_iff c s : has c s = true <-> occurs c s.
Proof.
  induction s as [|d r IH]; cbn [has occurs]; [split; [discriminate|tauto]|].
  rewrite orb_true_iff, IH. split; intros [H|H]; auto; left; [now apply Ascii.eqb_eq in H|now apply Ascii.eqb_eq].
Qed.
Lemma concat_cons s l : String.concat "" (s :: l) = s ++ String.concat "" l.
Proof. destruct l as [|t l]; [cbn; now rewrite sapp_nil|reflexivity]. Qed.
Lemma all_of_cons f p ps : all_of f (p :: ps) = f p ++ all_of f ps.
Proof. unfold all_of. cbn [map]. apply concat_cons. Qed.
Lemma ascii_small n : (n < 256)%nat -> nat_of_ascii (ascii_of_nat n) = n.
Proof. apply nat_ascii_embedding. Qed.
Lemma ascii_lt c : (nat_of_ascii c < 256)%nat.
Proof. apply nat_ascii_bounded. Qed.

(** ** Quoting *)
Lemma hex_digit_value n : (n < 16)%nat -> hex_value (hex_digit n) n.
Proof.
  intro H. unfold hex_value, hex_digit. destruct (Nat.ltb_spec n 10).
  - left. rewrite ascii_small; lia.
  - right. rewrite ascii_small; lia.
Qed.
Lemma repr_char_literal q c b t : literal q b t -> literal q (repr_char q c ++ b) (String c t).
Proof.
  intro H. unfold repr_char. set (n := nat_of_ascii c).
  assert (Ec : c = ascii_of_nat n) by (unfold n; now rewrite ascii_nat_embedding).
  destruct (Ascii.eqb_spec c q) as [->|Hq]; [cbn; apply l_same; auto|].
  destruct (Ascii.eqb_spec c backslash) as [->|Hb]; [cbn; apply l_same; auto|]. cbn [orb].
  destruct (Nat.eqb_spec n 9) as [E|H9]; [cbn [append]; rewrite Ec, E; apply l_named; cbn; auto|].
  destruct (Nat.eqb_spec n 10) as [E|H10]; [cbn [append]; rewrite Ec, E; apply l_named; cbn; auto|].
  destruct (Nat.eqb_spec n 13) as [E|H13]; [cbn [append]; rewrite Ec, E; apply l_named; cbn; auto|].
  destruct ((n <? 32)%nat || (n =? 127)%nat) eqn:E.
  - cbn [append].
    replace c with (ascii_of_nat (16 * (n / 16) + n mod 16)) at 1
      by (rewrite <- Nat.div_mod by lia; now rewrite Ec at 1).
    assert (n < 256)%nat by apply ascii_lt.
    apply l_hex; auto; apply hex_digit_value; [apply Nat.div_lt_upper_bound; lia|apply Nat.mod_upper_bound; lia].
  - apply orb_false_iff in E. destruct E as [E1 E2]. apply Nat.ltb_ge in E1. apply Nat.eqb_neq in E2.
    cbn [append]. apply l_plain; auto. split; auto.
Qed.
Lemma repr_chars_literal q s : literal q (repr_chars q s) s.
Proof.
  induction s as [|c s IH]; [constructor|]. cbn [repr_chars]. now apply repr_char_literal.
Qed.
Lemma hex_unique c i j : hex_value c i -> hex_value c j -> i = j.
Proof. unfold hex_value. lia. Qed.
Lemma literal_unique q : q = squote \/ q = dquote -> forall b t, literal q b t -> forall t', literal q b t' -> t = t'.
Proof.
  intro Hq. assert (Hqb : q <> backslash) by (destruct Hq as [-> | ->]; discriminate).
  induction 1 as [|c b t H1 H2 H3 H IH|c b t H1 H IH|e n b t H1 H IH|h l i j b t H1 H2 H IH]; intros t' H'.
  - inversion H'. reflexivity.
  - inversion H'; subst; try congruence; f_equal; auto.
  - inversion H'; subst; try congruence.
    + f_equal; auto.
    + cbn in *. destruct H1 as [->|E1].
      * destruct Hq as [-> | ->]; repeat match goal with H : _ \/ _ |- _ => destruct H end; try contradiction; congruence.
      * repeat match goal with H : _ \/ _ |- _ => destruct H end; try contradiction; subst; congruence.
    + destruct H1 as [E1|E1]; [destruct Hq as [E2|E2]; rewrite E2 in E1|]; discriminate E1.
  - inversion H'; subst; try congruence.
    + cbn in H1. repeat match goal with H : _ \/ _ |- _ => destruct H end; try contradiction; subst;
        repeat match goal with E : (_, _) = (_, _) |- _ => injection E as <- <- end; try discriminate; congruence.
    + cbn in *. repeat match goal with H : _ \/ _ |- _ => destruct H end; try contradiction;
        repeat match goal with E : (_, _) = (_, _) |- _ => injection E; clear E; intros; subst end;
        try discriminate; f_equal; auto.
    + cbn in H1. repeat match goal with H : _ \/ _ |- _ => destruct H end; try contradiction;
        match goal with E : (_, _) = (_, _) |- _ => discriminate E end.
  - inversion H'; subst; try congruence.
    + match goal with E : "x"%char = _ \/ _ |- _ => destruct E as [E|E] end;
        [destruct Hq as [E2|E2]; rewrite E2 in *|]; discriminate.
    + cbn in *. repeat match goal with H : _ \/ _ |- _ => destruct H end; try contradiction;
        match goal with E : (_, _) = (_, _) |- _ => discriminate E end.
    + assert (i = i0) by (eapply hex_unique; eassumption). assert (j = j0) by (eapply hex_unique; eassumption).
      subst. f_equal. auto.
Qed.
Lemma quote_cases s : (quote_of s = dquote /\ occurs squote s /\ ~ occurs dquote s) \/
  (quote_of s = squote /\ (~ occurs squote s \/ occurs dquote s)).
Proof.
  unfold quote_of. destruct (has squote s) eqn:E1; cbn [andb].
  - destruct (has dquote s) eqn:E2; cbn [negb].
    + right. split; auto. right. now apply has_iff.
    + left. split; auto. split; [now apply has_iff|]. intro H. apply has_iff in H. congruence.
  - right. split; auto. left. intro H. apply has_iff in H. congruence.
Qed.
(** The text shown for a choice is a Python literal of this choice, in single quotes unless it
    contains single quotes only *)
Theorem C84_repr s : exists q b, repr_str s = String q (b ++ String q "") /\ literal q b s /\
  ((q = dquote /\ occurs squote s /\ ~ occurs dquote s) \/ (q = squote /\ (~ occurs squote s \/ occurs dquote s))).
Proof.
  exists (quote_of s), (repr_chars (quote_of s) s). split; [reflexivity|]. split; [apply repr_chars_literal|].
  apply quote_cases.
Qed.
Print Assumptions C84_repr.
Lemma sapp_inj_r a b x : a ++ String x "" = b ++ String x "" -> a = b.
Proof.
  revert b. induction a as [|c a IH]; intros [|d b] H; cbn in H; [reflexivity| | |].
  - injection H as _ H. destruct b; discriminate.
  - injection H as _ H. destruct a; discriminate.
  - injection H as -> H. f_equal. auto.
Qed.
Theorem C84_repr_distinct s t : repr_str s = repr_str t -> s = t.
Proof.
  intro E. unfold repr_str in E. injection E as Eq Eb. rewrite Eq in Eb. apply sapp_inj_r in Eb.
  apply (literal_unique (quote_of t)) with (b := repr_chars (quote_of t) s).
  - unfold quote_of. destruct (_ && _); auto.
  - apply repr_chars_literal.
  - rewrite Eb. apply repr_chars_literal.
Qed.
Print Assumptions C84_repr_distinct.

(** ** What is documented *)
Lemma cval_eqb_iff a b : cval_eqb a b = true <-> a = b.
Proof.
  destruct a, b; cbn; try (split; [discriminate|intro H; inversion H]); try tauto.
  - rewrite String.eqb_eq. split; congruence.
  - rewrite Z.eqb_eq. split; congruence.
Qed.
Lemma put_keys l v d : map fst (put l v d) = if existsb (cval_eqb v) (map fst l) then map fst l else (map fst l ++ [v])%list.
Proof.
  induction l as [|[w e] l IH]; [reflexivity|]. cbn [put map fst existsb].
  destruct (cval_eqb v w) eqn:E; cbn [orb map fst]; [reflexivity|]. rewrite IH.
  destruct (existsb _ _); reflexivity.
Qed.
Lemma put_in l v d w e : NoDup (map fst l) -> (In (w, e) (put l v d) <-> (w = v /\ e = d) \/ (w <> v /\ In (w, e) l)).
Proof.
  induction l as [|[x y] l IH]; intro N; cbn [put In].
  - split; [intros [E|[]]; injection E; auto|intros [[-> ->]|[_ []]]; auto].
  - inversion N as [|? ? Hx Hl]; subst. cbn [fst map] in *. destruct (cval_eqb v x) eqn:E; cbn [In].
    + apply cval_eqb_iff in E. subst. split.
      * intros [E|H]; [injection E as -> ->; auto|]. right. split; auto. intros ->. apply Hx.
        change x with (fst (x, e)). now apply in_map.
      * intros [[-> ->]|[Hn [E|H]]]; auto. congruence.
    + assert (Hvx : v <> x) by (intros ->; rewrite (proj2 (cval_eqb_iff x x) eq_refl) in E; discriminate).
      rewrite IH by auto. split.
      * intros [E'|[H|[H1 H2]]]; auto. injection E' as -> ->. right. split; auto.
      * intros [H|[H1 [E'|H2]]]; auto.
Qed.
Definition collected (ci : bool) (l : list (cval * string)) (acc : list cval * list (cval * string)) :=
  fold_left (fun '(cs, ds) '(v, d) => let v := reformat ci v in ((cs ++ [v])%list, put ds v d)) l acc.
Lemma collected_choices ci l : forall cs ds,
  fst (collected ci l (cs, ds)) = (cs ++ map (fun e => reformat ci (fst e)) l)%list.
Proof.
  unfold collected. induction l as [|[v d] l IH]; intros cs ds; cbn [fold_left map fst].
  - now rewrite app_nil_r.
  - rewrite IH, <- app_assoc. reflexivity.
Qed.
Lemma gunique_seen {A} (eqb : A -> A -> bool) s1 s2 l :
  (forall x, existsb (eqb x) s1 = existsb (eqb x) s2) -> gunique_loop eqb s1 l = gunique_loop eqb s2 l.
Proof.
  revert s1 s2; induction l as [|x l IH]; intros s1 s2 H; simpl; auto.
  rewrite (H x). destruct (existsb (eqb x) s2); [auto|]. f_equal. apply IH. intro y. simpl. now rewrite H.
Qed.
Lemma nodup_end {A} (l : list A) x : NoDup l -> ~ In x l -> NoDup (l ++ [x])%list.
Proof.
  induction 1 as [|y l Hy Hl IH]; intro H; cbn; constructor; auto; try constructor.
  - rewrite in_app_iff. cbn. cbn in H. intros [X|[X|[]]]; auto.
  - apply IH. intro X. apply H. now right.
Qed.
Lemma collected_docs ci l : forall cs ds, NoDup (map fst ds) ->
  let ds' := snd (collected ci l (cs, ds)) in
  NoDup (map fst ds') /\
  map fst ds' = (map fst ds ++ gunique_loop cval_eqb (map fst ds) (map (fun e => reformat ci (fst e)) l))%list /\
  forall w e, In (w, e) ds' <->
    (exists l1 v l2, l = (l1 ++ (v, e) :: l2)%list /\ reformat ci v = w /\ forall v' d', In (v', d') l2 -> reformat ci v' <> w) \/
    (In (w, e) ds /\ forall v' d', In (v', d') l -> reformat ci v' <> w).
Proof.
  unfold collected. induction l as [|[v d] l IH]; intros cs ds N; cbn [fold_left map fst snd].
  - split; [exact N|]. split; [cbn; now rewrite app_nil_r|]. intros w e. split.
    + intro H. right. auto.
    + intros [(l1 & v & l2 & E & _)|[H _]]; [destruct l1; discriminate|exact H].
  - set (x := reformat ci v). assert (Hk := put_keys ds x d).
    assert (N' : NoDup (map fst (put ds x d))).
    { rewrite Hk. destruct (existsb (cval_eqb x) (map fst ds)) eqn:E; [exact N|]. apply nodup_end; auto.
      intro H. assert (X : existsb (cval_eqb x) (map fst ds) = true).
      { apply existsb_exists. exists x. split; auto. now apply cval_eqb_iff. }
      congruence. }
    destruct (IH (cs ++ [x])%list (put ds x d) N') as (H1 & H2 & H3). cbn zeta in *.
    split; [exact H1|]. split.
    + rewrite H2, Hk. cbn [gunique_loop]. fold x.
      destruct (existsb (cval_eqb x) (map fst ds)) eqn:E; [reflexivity|]. rewrite <- app_assoc. cbn [app].
      do 2 f_equal. apply gunique_seen. intro y. rewrite existsb_app. cbn. rewrite orb_false_r. apply orb_comm.
    + intros w e. rewrite H3, put_in by auto. split.
      * intros [(l1 & v' & l2 & -> & E1 & E2)|[[[-> ->]|[Hn Hi]] Ha]].
        -- left. exists ((v, d) :: l1), v', l2. auto.
        -- left. exists [], v, l. auto.
        -- right. split; auto. intros v' d' [E|H]; [injection E as <- <-; auto|eauto].
      * intros [(l1 & v' & l2 & E & E1 & E2)|[Hi Ha]].
        -- destruct l1 as [|p l1]; cbn in E; injection E as E0 E; subst.
           ++ right. split; [left; auto|exact E2].
           ++ left. exists l1, v', l2. auto.
        -- right. split.
           ++ right. split; auto. intros ->. apply (Ha v d); [now left|reflexivity].
           ++ intros v' d' H. apply (Ha v' d'). now right.
Qed.
(** The choices in their order; each documented choice once, at its first place, with its last
    documentation *)
Theorem C84_documented g ci p desc cls : let c := init g ci p desc cls in
  (* the same as for C22 *)
  cd_choices c = choices_ (Choices_init (match g with GList l => l | GDict l => map fst l end) ci) /\
  cd_parameter c = match p with Some p => p | None => lower cls end /\
  cd_description c = desc /\
  match g with
  | GList _ => cd_docs c = []
  | GDict l =>
    map fst (cd_docs c) = gunique cval_eqb (cd_choices c) /\
    forall w e, In (w, e) (cd_docs c) <->
      exists l1 v l2, l = (l1 ++ (v, e) :: l2)%list /\ reformat ci v = w /\ forall v' d', In (v', d') l2 -> reformat ci v' <> w
  end.
Proof.
  destruct g as [l|l]; unfold init; cbn zeta.
  - cbn. auto.
  - change (fold_left _ l ([], [])) with (collected ci l ([], [])).
    assert (Hc := collected_choices ci l [] []). assert (Hd := collected_docs ci l [] [] (NoDup_nil _)).
    destruct (collected ci l ([], [])) as [cs ds]. cbn [fst snd app] in *. destruct Hd as (_ & Hk & Hd).
    cbn [cd_choices cd_parameter cd_description cd_docs Choices_init choices_]. rewrite map_map, Hc.
    split; [reflexivity|]. split; [reflexivity|]. split; [reflexivity|]. split; [exact Hk|].
    intros w e. rewrite Hd. split; [intros [H|[[] _]]; exact H|auto].
Qed.
Print Assumptions C84_documented.

(** ** The lines of the documentation *)
Definition one_line (s : string) : Prop := ~ occurs (ascii_of_nat 10) s.
Definition text_of (ls : list string) : string := String.concat "" (map (fun l => l ++ nl) ls).
Definition the_lines (c : cdoc) (indent : string) : list string :=
  (* the parameter and the choices *)
  ([indent ++ cd_parameter c ++ ": {" ++ join ", " (map repr (cd_choices c)) ++ "}"]%string
  (* its description, if any *)
  ++ (if string_dec (cd_description c) "" then [] else [indent ++ "    " ++ cd_description c]%string)
  (* the documented choices, if any, between two blank lines *)
  ++ (match cd_docs c with
      | [] => []
      | ds => [""%string] ++ map (fun e => indent ++ "    - ``" ++ str (fst e) ++ "``: " ++ snd e)%string ds ++ [""%string]
      end))%list.
Lemma text_of_app a b : text_of (a ++ b)%list = text_of a ++ text_of b.
Proof.
  unfold text_of. induction a as [|x a IH]; [reflexivity|]. cbn [app map].
  rewrite (concat_cons (x ++ nl) (map _ (a ++ b)%list)), (concat_cons (x ++ nl) (map _ a)), IH.
  now rewrite !sapp_assoc.
Qed.
Lemma text_of_one l : text_of [l] = l ++ nl.
Proof. reflexivity. Qed.
Lemma spaces_one_line n c : occurs c (spaces n) -> c = " "%char.
Proof. induction n as [|n IH]; cbn; [tauto|]. intros [H|H]; auto. Qed.
Lemma show_Z_one_line z : one_line (show_Z z).
Proof.
  unfold one_line, show_Z. assert (H : forall d, ~ occurs (ascii_of_nat 10) (NilEmpty.string_of_uint d)).
  { induction d; cbn; auto; intros [E|E]; auto; discriminate E. }
  destruct (Z.to_int z) as [d|d]; cbn [NilEmpty.string_of_int]; [apply H|]. cbn. intros [E|E]; [discriminate E|]. now apply (H d).
Qed.
Lemma repr_char_one_line q c : q = squote \/ q = dquote -> one_line (repr_char q c).
Proof.
  intro Hq. unfold one_line, repr_char. set (n := nat_of_ascii c). intro H.
  assert (Hn : ascii_of_nat 10 <> backslash) by discriminate.
  assert (Hc : forall m, (m < 16)%nat -> ascii_of_nat 10 <> hex_digit m).
  { intros m Hm E. apply (f_equal nat_of_ascii) in E. destruct (hex_digit_value m Hm) as [[_ X]|[_ X]];
      rewrite X in E; change (nat_of_ascii (ascii_of_nat 10)) with 10%nat in E; lia. }
  assert (Hc10 : ascii_of_nat 10 = c -> n = 10%nat) by (intros <-; reflexivity).
  destruct (Ascii.eqb_spec c q) as [->|Eq]; cbn [orb] in H.
  { cbn in H. destruct H as [H|[H|[]]]; [contradiction|]. destruct Hq as [-> | ->]; discriminate H. }
  destruct (Ascii.eqb_spec c backslash) as [->|Eb].
  { cbn in H. destruct H as [H|[H|[]]]; discriminate H. }
  destruct (Nat.eqb_spec n 9) as [E|H9]. { cbn in H. destruct H as [H|[H|[]]]; discriminate H. }
  destruct (Nat.eqb_spec n 10) as [E|H10]. { cbn in H. destruct H as [H|[H|[]]]; discriminate H. }
  destruct (Nat.eqb_spec n 13) as [E|H13]. { cbn in H. destruct H as [H|[H|[]]]; discriminate H. }
  destruct ((n <? 32)%nat || (n =? 127)%nat).
  - assert (n < 256)%nat by apply ascii_lt. cbn [occurs] in H.
    destruct H as [H|[H|[H|[H|[]]]]]; [discriminate H|discriminate H| |].
    + apply (Hc (n / 16)%nat) in H; auto. apply Nat.div_lt_upper_bound; lia.
    + apply (Hc (n mod 16)%nat) in H; auto. apply Nat.mod_upper_bound. lia.
  - cbn in H. destruct H as [H|[]]. apply H10. now apply Hc10.
Qed.
Lemma repr_one_line v : one_line (repr v).
Proof.
  destruct v as [s|z|]; [|apply show_Z_one_line|].
  - unfold repr, repr_str, one_line. assert (Hq : quote_of s = squote \/ quote_of s = dquote) by (unfold quote_of; destruct (_ && _); auto).
    set (q := quote_of s) in *. intro H. cbn [occurs] in H. rewrite occurs_app in H.
    destruct H as [H|[H|[H|[]]]]; try (destruct Hq as [Hq|Hq]; rewrite Hq in H; discriminate H).
    clearbody q. induction s as [|c s IH]; cbn [repr_chars] in H; [destruct H|]. rewrite occurs_app in H.
    destruct H as [H|H]; [now apply (repr_char_one_line q c Hq)|auto].
  - unfold one_line. cbn. intro H. repeat destruct H as [H|H]; try discriminate H; destruct H.
Qed.
Lemma join_one_line l : (forall s, In s l -> one_line s) -> one_line (join ", " l).
Proof.
  unfold one_line. induction l as [|x l IH]; intro H; [cbn; auto|]. destruct l as [|y l]; [apply H; now left|].
  cbn [join]. rewrite !occurs_app. intros [E|[E|E]].
  - now apply (H x (or_introl eq_refl)).
  - cbn in E. destruct E as [E|[E|[]]]; discriminate E.
  - apply IH; auto. intros s Hs. apply H. now right.
Qed.
(** The documentation is made of the lines above; they are single lines as soon as the texts given by
    the user are, and whatever the choices are for the first two *)
Theorem C84_lines c i : to_docstring c i = text_of (the_lines c (indent_of i)) /\
  (one_line (indent_of i) -> one_line (cd_parameter c) -> one_line (cd_description c) ->
   (forall v d, In (v, d) (cd_docs c) -> one_line (str v) /\ one_line d) ->
   forall l, In l (the_lines c (indent_of i)) -> one_line l).
Proof.
  split.
  - unfold to_docstring, the_lines. set (ind := indent_of i). rewrite !text_of_app, text_of_one.
    set (X := ind ++ cd_parameter c ++ ": " ++ ("{" ++ join ", " (map repr (cd_choices c)) ++ "}") ++ nl).
    assert (EX : (ind ++ cd_parameter c ++ ": {" ++ join ", " (map repr (cd_choices c)) ++ "}") ++ nl = X).
    { unfold X. rewrite !sapp_assoc. reflexivity. }
    rewrite EX. clearbody X. clear EX.
    set (Y := if String.eqb (cd_description c) "" then X else X ++ (ind ++ spaces 4) ++ cd_description c ++ nl).
    assert (EY : Y = X ++ text_of (if string_dec (cd_description c) "" then [] else [ind ++ "    " ++ cd_description c])).
    { unfold Y. destruct (string_dec (cd_description c) "") as [->|Hd].
      - cbn. now rewrite sapp_nil.
      - destruct (String.eqb_spec (cd_description c) ""); [contradiction|]. rewrite text_of_one.
        rewrite !sapp_assoc. reflexivity. }
    rewrite <- sapp_assoc, <- EY.
    destruct (cd_docs c) as [|e ds]; [cbn; now rewrite sapp_nil|].
    rewrite !text_of_app, !text_of_one, !sapp_assoc. f_equal. cbn [append]. f_equal. unfold nl at 2. cbn [append].
    f_equal. generalize (e :: ds). intro l. induction l as [|[v d] l IH]; [reflexivity|].
    cbn [map]. unfold text_of at 1. cbn [map]. rewrite !concat_cons. rewrite IH. unfold text_of.
    unfold doc_line. cbn [fst snd]. rewrite !sapp_assoc. cbn. now rewrite !sapp_assoc.
  - unfold one_line. intros Hi Hp Hd Hl l. unfold the_lines. rewrite !in_app_iff. intros [[<-|[]]|[H|H]].
    + rewrite !occurs_app. intros [H|[H|[H|[H|H]]]]; auto;
        try (cbn in H; repeat destruct H as [H|H]; try discriminate H; destruct H).
      apply (join_one_line (map repr (cd_choices c))) in H; auto. intros s Hs. apply in_map_iff in Hs.
      destruct Hs as (v & <- & _). apply repr_one_line.
    + destruct (string_dec _ _); [destruct H|]. destruct H as [<-|[]]. rewrite !occurs_app.
      intros [H|[H|H]]; auto. cbn in H. repeat destruct H as [H|H]; try discriminate H; destruct H.
    + destruct (cd_docs c) as [|e ds] eqn:E; [destruct H|]. rewrite !in_app_iff in H.
      destruct H as [[<-|[]]|[H|[<-|[]]]]; [cbn; auto| |cbn; auto].
      apply in_map_iff in H. destruct H as ([v d] & <- & Hv). destruct (Hl v d Hv) as [H1 H2].
      cbn [fst snd]. rewrite !occurs_app. intros [H|[H|[H|[H|H]]]]; auto;
        cbn in H; repeat destruct H as [H|H]; try discriminate H; destruct H.
Qed.
Print Assumptions C84_lines.
