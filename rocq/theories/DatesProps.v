(** C82: the validators of dates (xoa.cfgm). *)
From Verif Require Import PyReFacts Opt2RstProofs Opt2RstProps Dates DatesSpec.
From Coq Require Import Lia ZArith Znumtheory.
Open Scope string_scope.

(** ** Digits *)
Lemma ten a : (a < 10)%nat -> a = 0%nat \/ a = 1%nat \/ a = 2%nat \/ a = 3%nat \/ a = 4%nat \/ a = 5%nat \/ a = 6%nat \/ a = 7%nat \/ a = 8%nat \/ a = 9%nat.
Proof. lia. Qed.
Ltac each H := apply ten in H; repeat (destruct H as [->|H]); [..|subst].
Lemma digit_char lo hi c : (hi <= 9)%nat -> digit_in lo hi c = true -> exists n, (lo <= n <= hi)%nat /\ String c "" = digit n.
Proof.
  intros Hh H. unfold digit_in in H. apply andb_true_iff in H. destruct H as [H1 H2]. apply Nat.leb_le in H1, H2.
  exists (nat_of_ascii c - 48)%nat. split; [lia|]. unfold digit. f_equal. rewrite <- (ascii_nat_embedding c) at 1. f_equal. lia.
Qed.
Lemma L_digit lo hi x : (hi <= 9)%nat -> L (Cls (digit_in lo hi)) x -> exists n, (lo <= n <= hi)%nat /\ x = digit n.
Proof. intros Hh (c & Hc & ->). now apply digit_char. Qed.
Lemma L_one c x : L (one c) x -> x = String c "".
Proof. intros (d & Hd & ->). apply Ascii.eqb_eq in Hd. now subst. Qed.
Lemma int_step n a : (a < 10)%nat -> (if digit_in 0 9 (ascii_of_nat (48 + a)) then (10 * n + (Z.of_nat (nat_of_ascii (ascii_of_nat (48 + a))) - 48))%Z else n) = (10 * n + Z.of_nat a)%Z.
Proof.
  intro H. assert (D : digit_in 0 9 (ascii_of_nat (48 + a)) = true) by (each H; reflexivity). rewrite D, nat_ascii_embedding by lia. lia.
Qed.
Lemma int_one a : (a < 10)%nat -> int_of (digit a) = Z.of_nat a.
Proof. intro H. each H; reflexivity. Qed.
Lemma int_two a b : (a < 10)%nat -> (b < 10)%nat -> int_of (digit a ++ digit b) = (10 * Z.of_nat a + Z.of_nat b)%Z.
Proof. intros Ha Hb. unfold int_of, digit. cbn [append list_ascii_of_string fold_left]. rewrite !int_step by auto. lia. Qed.
Lemma int_four a b c d : (a < 10)%nat -> (b < 10)%nat -> (c < 10)%nat -> (d < 10)%nat ->
  int_of (digit a ++ digit b ++ digit c ++ digit d) = (1000 * Z.of_nat a + 100 * Z.of_nat b + 10 * Z.of_nat c + Z.of_nat d)%Z.
Proof. intros Ha Hb Hc Hd. unfold int_of, digit. cbn [append list_ascii_of_string fold_left]. rewrite !int_step by auto. lia. Qed.
Lemma two_numeral a b : (a < 10)%nat -> (b < 10)%nat -> numeral (digit a ++ digit b) (int_of (digit a ++ digit b)).
Proof. intros Ha Hb. rewrite int_two by auto. now constructor. Qed.
Lemma one_numeral a : (a < 10)%nat -> numeral (digit a) (int_of (digit a)).
Proof. intros Ha. rewrite int_one by auto. now constructor. Qed.
Lemma L_two lo hi lo' hi' x : (hi <= 9)%nat -> (hi' <= 9)%nat -> L (Cat (Cls (digit_in lo hi)) (Cls (digit_in lo' hi'))) x -> numeral x (int_of x).
Proof.
  intros H1 H2 (u & v & -> & Hu & Hv). apply L_digit in Hu, Hv; auto. destruct Hu as (a & Ha & ->), Hv as (b & Hb & ->). apply two_numeral; lia.
Qed.
Lemma L_one_two c lo hi x : (exists a, (a < 10)%nat /\ String c "" = digit a) -> (hi <= 9)%nat -> L (Cat (one c) (Cls (digit_in lo hi))) x -> numeral x (int_of x).
Proof.
  intros (a & Ha & E) H2 (u & v & -> & Hu & Hv). apply L_one in Hu. apply L_digit in Hv; auto. destruct Hv as (b & Hb & ->). rewrite Hu, E. apply two_numeral; lia.
Qed.
Lemma L_single lo hi x : (hi <= 9)%nat -> L (Cls (digit_in lo hi)) x -> numeral x (int_of x).
Proof. intros H1 Hu. apply L_digit in Hu; auto. destruct Hu as (a & Ha & ->). apply one_numeral; lia. Qed.
Ltac chr_digit n := exists n; split; [lia|reflexivity].
Lemma L_m x : L re_m x -> numeral x (int_of x).
Proof. intros [H|[H|H]]; [eapply L_one_two; [chr_digit 1%nat| |exact H]|eapply L_one_two; [chr_digit 0%nat| |exact H]|eapply L_single; [|exact H]]; lia. Qed.
Lemma L_H x : L re_H x -> numeral x (int_of x).
Proof. intros [H|[H|H]]; [eapply L_one_two; [chr_digit 2%nat| |exact H]|eapply L_two; [| |exact H]|eapply L_single; [|exact H]]; lia. Qed.
Lemma L_M x : L re_M x -> numeral x (int_of x).
Proof. intros [H|H]; [eapply L_two; [| |exact H]|eapply L_single; [|exact H]]; lia. Qed.
Lemma L_S x : L re_S x -> numeral x (int_of x).
Proof. intros [H|[H|H]]; [eapply L_one_two; [chr_digit 6%nat| |exact H]|eapply L_two; [| |exact H]|eapply L_single; [|exact H]]; lia. Qed.
Lemma L_d x : L re_d x -> numeral x (int_of x) \/ exists a, (a < 10)%nat /\ x = " " ++ digit a /\ int_of x = Z.of_nat a.
Proof.
  intros [H|[H|[H|[H|H]]]]; [left; eapply L_one_two; [chr_digit 3%nat| |exact H]; lia|left; eapply L_two; [| |exact H]; lia|left; eapply L_one_two; [chr_digit 0%nat| |exact H]; lia|left; eapply L_single; [|exact H]; lia|right].
  destruct H as (u & v & -> & Hu & Hv). apply L_one in Hu. apply L_digit in Hv; [|lia]. destruct Hv as (a & Ha & ->). subst u. exists a. split; [lia|]. split; [reflexivity|]. change (int_of (" " ++ digit a)) with (int_of (digit a)). apply int_one. lia.
Qed.
Lemma L_Y x : L re_Y x -> year_numeral x (int_of x).
Proof.
  intros (u1 & v1 & -> & H1 & u2 & v2 & -> & H2 & u3 & v3 & -> & H3 & H4). apply L_digit in H1, H2, H3, H4; auto.
  destruct H1 as (a & Ha & ->), H2 as (b & Hb & ->), H3 as (c & Hc & ->), H4 as (d & Hd & ->). rewrite int_four by lia. constructor; lia.
Qed.
(** ** Groups *)
Fixpoint G (l : list (rex * option ascii)) (gs : list string) (s r : string) : Prop :=
  match l, gs with
  | [], [] => s = r
  | (e, sep) :: l', g :: gs' => exists t, s = g ++ t /\ L e g /\
    match sep with Some c => exists x u, t = String x u /\ lower_ascii x = lower_ascii c /\ G l' gs' u r | None => G l' gs' t r end
  | _, _ => False
  end.
Lemma groups_G l : forall s gs r, In (gs, r) (groups l s) -> G l gs s r.
Proof.
  induction l as [|[e sep] l IH]; intros s gs r; cbn [groups G].
  - intros [E|[]]. injection E as <- <-. reflexivity.
  - intro H. apply in_flat_map in H. destruct H as ((g & t) & Hg & H). cbn [fst snd] in H. apply in_flat_map in H. destruct H as ((y & u) & Hy & H). cbn [snd] in H. apply in_map_iff in H. destruct H as ((gs' & r') & E & H). injection E as <- <-.
    apply ways_iff in Hg. destruct Hg as [-> Hg]. exists t. split; auto. split; auto. destruct sep as [c|].
    + apply ways_iff in Hy. destruct Hy as [-> (x & Hx & ->)]. apply Ascii.eqb_eq in Hx. exists x, u. repeat split; auto.
    + destruct Hy as [E|[]]. injection E as <- <-. now apply IH.
Qed.
Definition HG (l : list (rex * option ascii)) (s : string) (gs : list string) (r : string) : Prop := hd_error (groups l s) = Some (gs, r).
Lemma HG_sep e c l s g x u gs r : Hd e s g (String x u) -> lower_ascii x = lower_ascii c -> HG l u gs r -> HG ((e, Some c) :: l) s (g :: gs) r.
Proof.
  intros H1 H2 H3. unfold HG. cbn [groups]. eapply hd_flat; [exact H1|]. cbn [fst snd ways same_case]. rewrite H2, Ascii.eqb_refl. cbn [flat_map snd]. rewrite app_nil_r. unfold HG in H3.
  destruct (groups l u) as [|[gs' r'] rest]; [discriminate|]. cbn in *. now injection H3 as -> ->.
Qed.
Lemma HG_last e s g r : Hd e s g r -> HG [(e, None)] s [g] r.
Proof. intro H1. unfold HG. cbn [groups]. eapply hd_flat; [exact H1|]. reflexivity. Qed.
(** ** The calendar *)
Lemma leap_iff y : leap y = true <-> leap_year y.
Proof.
  unfold leap, leap_year. rewrite andb_true_iff, orb_true_iff, negb_true_iff, !Z.eqb_eq, Z.eqb_neq, <- !Z.mod_divide by lia. split; [tauto|]. intros [H|H]; [tauto|].
  split; [|tauto]. apply Z.mod_divide in H; [|lia]. destruct H as [k ->]. rewrite <- (Z.mul_assoc k 100 4) at 1 || idtac. apply Z.mod_divide; [lia|]. exists (k * 100)%Z. lia.
Qed.
Lemma last_day_iff y m n : last_day y m n <-> (1 <= m <= 12 /\ n = days_in_month y m)%Z.
Proof.
  unfold last_day, days_in_month. split.
  - intros [[H ->]|[[H ->]|[(-> & H & ->)|(-> & H & ->)]]].
    + cbn [In] in H. repeat (destruct H as [<-|H]; [split; [lia|reflexivity]|]). destruct H.
    + cbn [In] in H. repeat (destruct H as [<-|H]; [split; [lia|reflexivity]|]). destruct H.
    + split; [lia|]. cbn. apply leap_iff in H. now rewrite H.
    + split; [lia|]. cbn. destruct (leap y) eqn:E; auto. apply leap_iff in E. contradiction.
  - intros [Hm ->]. assert (C : (m = 1 \/ m = 2 \/ m = 3 \/ m = 4 \/ m = 5 \/ m = 6 \/ m = 7 \/ m = 8 \/ m = 9 \/ m = 10 \/ m = 11 \/ m = 12)%Z) by lia.
    destruct (leap y) eqn:E; [apply leap_iff in E|assert (~ leap_year y) by (intro X; apply leap_iff in X; congruence)];
    repeat (destruct C as [->|C]); try subst m; cbn; tauto.
Qed.
Lemma new_iff y mo d h mi s t : new_datetime y mo d h mi s = Ok t <-> t = mkdt y mo d h mi s /\ valid t.
Proof.
  unfold new_datetime, valid, within. split.
  - destruct (_ && _) eqn:E; [|discriminate]. intro H. injection H as <-. split; auto. cbn. rewrite !andb_true_iff, !Z.leb_le in E.
    split; [lia|]. split; [|lia]. exists (days_in_month y mo). split; [apply last_day_iff; lia|lia].
  - intros [-> (H1 & (n & Hn & Hd) & H3 & H4 & H5)]. cbn in *. apply last_day_iff in Hn. destruct Hn as [Hm ->].
    assert (E : (1 <=? y)%Z && (y <=? 9999)%Z && ((1 <=? mo)%Z && (mo <=? 12)%Z) && ((1 <=? d)%Z && (d <=? days_in_month y mo)%Z) && ((0 <=? h)%Z && (h <=? 23)%Z) && ((0 <=? mi)%Z && (mi <=? 59)%Z) && ((0 <=? s)%Z && (s <=? 59)%Z) = true)
      by (rewrite !andb_true_iff, !Z.leb_le; lia).
    now rewrite E.
Qed.
Lemma days_max y m : (days_in_month y m <= 31)%Z.
Proof. unfold days_in_month. destruct (m =? 2)%Z; [destruct (leap y); lia|]. destruct (_ || _); lia. Qed.
(** ** First matches *)
Lemma Hd_Y x n r : year_numeral x n -> Hd re_Y (x ++ r) x r.
Proof.
  intros [a b c d Ha Hb Hc Hd]. assert (D : forall a, (a < 10)%nat -> digit_in 0 9 (ascii_of_nat (48 + a)) = true) by (intros k Hk; each Hk; reflexivity).
  unfold re_Y, digit. repeat (eapply Hd_cat; [apply Hd_cls; now apply D|]). now apply Hd_cls, D.
Qed.
Ltac hd_enum := match goal with
  | H : numeral _ ?n |- _ => inversion H as [a Ha E1 E2|a b Ha Hb E1 E2]; subst; clear H; [each Ha; try lia; reflexivity|each Ha; try lia; each Hb; try lia; reflexivity] end.
Lemma Hd_m x n r : numeral x n -> (1 <= n <= 12)%Z -> Hd re_m (x ++ String "-" r) x (String "-" r).
Proof. intros H Hn. hd_enum. Qed.
Lemma Hd_H x n r : numeral x n -> (0 <= n < 24)%Z -> Hd re_H (x ++ String ":" r) x (String ":" r).
Proof. intros H Hn. hd_enum. Qed.
Lemma Hd_M x n r : numeral x n -> (0 <= n < 60)%Z -> Hd re_M (x ++ String ":" r) x (String ":" r).
Proof. intros H Hn. hd_enum. Qed.
Lemma Hd_S x n : numeral x n -> (0 <= n < 60)%Z -> Hd re_S x x "".
Proof. intros H Hn. hd_enum. Qed.
Lemma Hd_d x n c r : c = "T"%char \/ c = "t"%char -> numeral x n -> (1 <= n <= 31)%Z -> Hd re_d (x ++ String c r) x (String c r).
Proof. intros [->| ->] H Hn; hd_enum. Qed.
Lemma Hd_d_space a c r : c = "T"%char \/ c = "t"%char -> (a < 10)%nat -> (1 <= Z.of_nat a)%Z -> Hd re_d ((" " ++ digit a) ++ String c r) (" " ++ digit a) (String c r).
Proof. intros [->| ->] H Hn; each H; try lia; reflexivity. Qed.
Lemma numeral_int x n : numeral x n -> int_of x = n.
Proof. intros [a Ha|a b Ha Hb]; [now apply int_one|now apply int_two]. Qed.
(** A text is accepted exactly when it is written as a date of the calendar: this date. *)
Theorem C82_accepts s t : strptime s = Ok t <-> written s t /\ valid t.
Proof.
  split.
  - intro H. unfold strptime in H. destruct (groups iso s) as [|[gs r] rest] eqn:E; [discriminate|]. assert (I : In (gs, r) (groups iso s)) by (rewrite E; now left). apply groups_G in I.
    destruct gs as [|y [|mo [|d [|h [|mi [|sc [|z gs]]]]]]]; try discriminate. destruct r; [|discriminate]. apply new_iff in H. destruct H as [-> V]. split; auto.
    cbn [G iso] in I. destruct I as (t1 & -> & HY & x1 & u1 & -> & X1 & t2 & -> & Hm & x2 & u2 & -> & X2 & t3 & -> & Hd & x3 & u3 & -> & X3 & t4 & -> & HH & x4 & u4 & -> & X4 & t5 & -> & HM & x5 & u5 & -> & X5 & t6 & -> & HS & ->).
    exists y, mo, d, h, mi, sc, (String x3 ""). cbn [year month day hour minute second].
    assert (NL : forall c x, is_letter c = false -> lower_ascii x = lower_ascii c -> x = c) by (intros c x Hc Hx; apply (lower_not_letter c x Hc); now rewrite Hx, lower_ascii_not_letter).
    apply (NL "-"%char) in X1, X2; auto. apply (NL ":"%char) in X4, X5; auto. subst.
    split; [rewrite sapp_nil_r; cbn [append]; reflexivity|]. split.
    { clear -X3. assert (K : forall c, implb (Ascii.eqb (lower_ascii c) "t") (Ascii.eqb c "T" || Ascii.eqb c "t") = true) by (apply ascii_all; vm_compute; reflexivity).
      specialize (K x3). change (lower_ascii "T") with "t"%char in X3. rewrite X3 in K. cbn [implb Ascii.eqb Bool.eqb] in K. apply orb_true_iff in K. destruct K as [K|K]; apply Ascii.eqb_eq in K; subst; auto. }
    split; [now apply L_Y|]. split; [now apply L_m|]. split; [now apply L_d|]. split; [now apply L_H|]. split; [now apply L_M|now apply L_S].
  - intros [(y & mo & d & h & mi & sc & T & -> & HT & Hy & Hmo & Hd & Hh & Hmi & Hsc) V].
    assert (R : HG iso (y ++ "-" ++ mo ++ "-" ++ d ++ T ++ h ++ ":" ++ mi ++ ":" ++ sc) [y; mo; d; h; mi; sc] "").
    { destruct V as (V1 & (n & Vn & Vd) & V3 & V4 & V5). apply last_day_iff in Vn. destruct Vn as [Vm ->]. assert (DM := days_max (year t) (month t)).
      assert (HT' : exists c, T = String c "" /\ (c = "T"%char \/ c = "t"%char)) by (destruct HT as [->| ->]; eauto). destruct HT' as (c & -> & Hc).
      unfold iso. eapply HG_sep; [eapply Hd_Y; eauto|reflexivity|]. eapply HG_sep; [eapply Hd_m; eauto|reflexivity|].
      eapply HG_sep with (x := c); [|destruct Hc as [->| ->]; reflexivity|eapply HG_sep; [eapply Hd_H; eauto|reflexivity|]; eapply HG_sep; [eapply Hd_M; eauto|reflexivity|]; apply HG_last; eapply Hd_S; eauto].
      destruct Hd as [Hd|(a & Ha & -> & Ea)]; [eapply Hd_d; eauto; lia|apply Hd_d_space; auto; lia]. }
    unfold strptime. unfold HG in R. destruct (groups iso _) as [|[gs r] rest]; [discriminate|]. cbn in R. injection R as -> ->. apply new_iff.
    assert (Ed : int_of d = day t) by (destruct Hd as [Hd|(a & Ha & -> & Ea)]; [now apply numeral_int|rewrite Ea; change (int_of (" " ++ digit a)) with (int_of (digit a)); now apply int_one]).
    assert (Ey : int_of y = year t) by (destruct Hy; now apply int_four).
    rewrite Ey, Ed, (numeral_int _ _ Hmo), (numeral_int _ _ Hh), (numeral_int _ _ Hmi), (numeral_int _ _ Hsc). split; [destruct t; reflexivity|auto].
Qed.
Lemma pad2_numeral n : (0 <= n < 100)%Z -> numeral (pad2 n) n.
Proof.
  intro H. unfold pad2. assert (D := Z.div_mod n 10 ltac:(lia)). assert (B := Z.mod_pos_bound n 10 ltac:(lia)).
  assert (E : n = (10 * Z.of_nat (Z.to_nat (n / 10)) + Z.of_nat (Z.to_nat (n mod 10)))%Z) by (rewrite !Z2Nat.id; lia). rewrite E at 3. constructor; lia.
Qed.
Lemma iso_written t : valid t -> written (isoformat t) t.
Proof.
  intros (V1 & (n & Vn & Vd) & V3 & V4 & V5). apply last_day_iff in Vn. destruct Vn as [Vm ->]. assert (DM := days_max (year t) (month t)).
  exists (pad2 (year t / 100) ++ pad2 (year t mod 100)), (pad2 (month t)), (pad2 (day t)), (pad2 (hour t)), (pad2 (minute t)), (pad2 (second t)), "T".
  split; [unfold isoformat; now rewrite sapp_assoc|]. split; [now left|]. split.
  - unfold pad2. rewrite sapp_assoc. set (y := year t) in *.
    assert (D := Z.div_mod y 100 ltac:(lia)). assert (B := Z.mod_pos_bound y 100 ltac:(lia)).
    assert (D1 := Z.div_mod (y / 100) 10 ltac:(lia)). assert (B1 := Z.mod_pos_bound (y / 100) 10 ltac:(lia)).
    assert (D2 := Z.div_mod (y mod 100) 10 ltac:(lia)). assert (B2 := Z.mod_pos_bound (y mod 100) 10 ltac:(lia)).
    set (a := (y / 100 / 10)%Z) in *. set (b := ((y / 100) mod 10)%Z) in *. set (c := (y mod 100 / 10)%Z) in *. set (d := ((y mod 100) mod 10)%Z) in *.
    assert (E : y = (1000 * Z.of_nat (Z.to_nat a) + 100 * Z.of_nat (Z.to_nat b) + 10 * Z.of_nat (Z.to_nat c) + Z.of_nat (Z.to_nat d))%Z) by (rewrite !Z2Nat.id; lia).
    rewrite E. constructor; lia.
  - split; [apply pad2_numeral; lia|]. split; [left; apply pad2_numeral; lia|]. repeat split; apply pad2_numeral; lia.
Qed.
(** The validator on a text: the date that it writes, or a validation error. *)
Theorem C82_text s default : s <> "" -> s <> "None" ->
  (exists t, written s t /\ valid t /\ is_pydatetime (YStr s) default = Ok (Some t)) \/
  ((forall t, ~ (written s t /\ valid t)) /\ is_pydatetime (YStr s) default = Raise ValidateError).
Proof.
  intros N1 N2. unfold is_pydatetime. cbn [prints_none]. rewrite (proj2 (String.eqb_neq _ _) N2). destruct s as [|c s0]; [congruence|]. set (s := String c s0) in *.
  destruct (strptime s) as [t|e] eqn:E.
  - left. exists t. apply C82_accepts in E. tauto.
  - right. split; [intros t H; apply C82_accepts in H; congruence|].
    assert (Ev : e = ValueError).
    { clear -E. unfold strptime in E. destruct (groups iso s) as [|[gs r] l]; [congruence|]. destruct gs as [|y [|mo [|d [|h [|mi [|sc [|z gs]]]]]]]; try congruence. destruct r; [|congruence].
      unfold new_datetime in E. destruct (_ && _); congruence. }
    now rewrite Ev.
Qed.
Theorem C82_round_trip t default : valid t -> is_pydatetime (YStr (isoformat t)) default = Ok (Some t).
Proof.
  intro V. assert (W := iso_written t V). destruct (C82_text (isoformat t) default) as [(t' & W' & V' & E)|[H _]].
  - unfold isoformat, pad2, digit. discriminate.
  - intro X. assert (Y : exists a r, isoformat t = String (ascii_of_nat (48 + a)) r /\ (a < 10)%nat).
    { destruct V as (V1 & _). unfold isoformat, pad2 at 1, digit at 1. eexists _, _. split; [reflexivity|]. assert (year t / 100 / 10 < 10)%Z by (apply Z.div_lt_upper_bound; [lia|]; apply Z.div_lt_upper_bound; lia). lia. }
    destruct Y as (a & r & Y & Ha). rewrite X in Y. injection Y as Y _. each Ha; discriminate.
  - rewrite E. f_equal. f_equal. assert (A : strptime (isoformat t) = Ok t) by (apply C82_accepts; auto). assert (B : strptime (isoformat t) = Ok t') by (apply C82_accepts; auto). congruence.
  - now destruct (H t).
Qed.
(** None, and the default for an empty text.  False: an empty text without default is refused by a validation error. *)
Theorem C82_none_default default s : s <> "" ->
  is_pydatetime YNone default = Ok None /\ is_pydatetime (YStr "None") default = Ok None /\
  (s <> "None" -> is_pydatetime (YStr "") (YStr s) = is_pydatetime (YStr s) default).
Proof.
  intro N. split; [reflexivity|]. split; [reflexivity|]. intro N2. unfold is_pydatetime. cbn [prints_none]. rewrite (proj2 (String.eqb_neq _ _) N2). destruct s; [congruence|reflexivity].
Qed.
Theorem C82_empty_refuted : is_pydatetime (YStr "") YNone = Raise TypeError.
Proof. reflexivity. Qed.
(** False: the bounds of a date are checked.  They are compared with something else than the date: two dates are accepted alike. *)
Theorem C82_bounds_refuted T s2c below above g min max v1 v2 (t1 t2 : T) c1 c2 r1 r2 :
  strip v1 = String c1 r1 -> strip v2 = String c2 r2 -> digit_in 0 9 c1 = true -> digit_in 0 9 c2 = true -> s2c (strip v1) = Some t1 -> s2c (strip v2) = Some t2 ->
  (is_cdtime T s2c below above g v1 min max = Ok (CTime T t1) <-> is_cdtime T s2c below above g v2 min max = Ok (CTime T t2)).
Proof.
  intros E1 E2 D1 D2 S1 S2. unfold is_cdtime. rewrite E1, E2 in *. rewrite D1, D2, S1, S2. cbn [negb].
  destruct min as [m|]; [destruct (s2c m) as [b|]; [destruct (below g b) as [[]|]|]|]; cbn [bind]; try (split; discriminate);
  (destruct max as [m'|]; [destruct (s2c m') as [b'|]; [destruct (above g b') as [[]|]|]|]; cbn [bind]; try (split; discriminate); split; auto).
Qed.
(** False: a range of dates can be read. *)
Theorem C82_daterange_refuted T eval_ v (r : T) : is_daterange T eval_ v <> Ok (Some r).
Proof.
  unfold is_daterange. destruct (prints_none v); [discriminate|]. destruct v as [| | | |l| |]; try discriminate. destruct l as [|a [|b [|c [|d [|e l]]]]]; try discriminate. destruct (eval_ d); discriminate.
Qed.
(** A time step: a value and a unit, nothing else *)
Theorem C82_timedelta T to_float Timedelta v (t : T) : is_timedelta T to_float Timedelta v = Ok (Some t) <->
  exists x u q, v = YList [x; u] /\ to_float x = Ok q /\ Timedelta q u = Ok t.
Proof.
  unfold is_timedelta. split.
  - destruct (prints_none v); [discriminate|]. destruct v as [| | | |l| |]; try discriminate. destruct l as [|x [|u [|z l]]]; try discriminate. destruct (to_float x) as [q|] eqn:E; [|discriminate]. cbn [bind].
    destruct (Timedelta q u) as [t'|] eqn:E2; [|discriminate]. cbn [bind]. intro H. assert (t' = t) by congruence. subst. eauto 10.
  - intros (x & u & q & -> & E & E2). cbn. rewrite E. cbn. now rewrite E2.
Qed.
(** Time stamps, datetimes and datetime64: the same values are accepted, and give the same instant, in another type; None
    and "None" give None *)
Definition in_type {T U} (f : T -> U) (r : res (option T)) : res (option U) :=
  match r with Ok None => Ok None | Ok (Some t) => Ok (Some (f t)) | Raise e => Raise e end.
Theorem C82_timestamps T U V (Timestamp : yval -> res T) (to_py : T -> U) (to_64 : T -> V) v :
  is_datetime T Timestamp to_py v = in_type to_py (is_timestamp T Timestamp v) /\
  is_datetime64 T Timestamp to_64 v = in_type to_64 (is_timestamp T Timestamp v) /\
  (is_timestamp T Timestamp v = Ok None <-> v = YNone \/ v = YStr "None") /\
  (forall t, is_timestamp T Timestamp v = Ok (Some t) <-> Timestamp v = Ok t /\ v <> YNone /\ v <> YStr "None").
Proof.
  unfold is_datetime, is_datetime64, is_timestamp.
  assert (P : prints_none v = true <-> v = YNone \/ v = YStr "None").
  { destruct v; cbn; try (split; [discriminate|intros [H|H]; discriminate]); [split; auto|]. rewrite String.eqb_eq. split; [intros ->; auto|]. intros [H|H]; [discriminate|now injection H]. }
  destruct (prints_none v) eqn:E.
  - split; [reflexivity|]. split; [reflexivity|]. split; [split; auto; intros _; now apply P|]. intro t. split; [discriminate|]. intros (_ & N1 & N2). destruct (proj1 P eq_refl); tauto.
  - destruct (Timestamp v) as [t|e]; cbn [bind in_type]; repeat split; try discriminate; try (intro H; apply P in H; discriminate).
    + injection H as <-. reflexivity.
    + intros ->. discriminate.
    + intros ->. discriminate.
    + intros (H & _). injection H as <-. reflexivity.
    + intros (H & _). discriminate.
Qed.
(** False: a timedelta64 can be read *)
Theorem C82_timedelta64_refuted T to_float v : (is_timedelta64 T to_float v = Ok None <-> v = YNone \/ v = YStr "None") /\ forall r : T, is_timedelta64 T to_float v <> Ok (Some r).
Proof.
  unfold is_timedelta64. split.
  - destruct v as [| | |s|l| |]; cbn; try (split; [discriminate|intros [H|H]; discriminate]); [split; auto| |].
    + destruct (String.eqb_spec s "None") as [->|N]; [split; auto|]. split; [discriminate|]. intros [H|H]; [discriminate|]. now injection H.
    + destruct l as [|x [|u [|z l]]]; try (split; [discriminate|intros [H|H]; discriminate]). destruct (to_float x); split; try discriminate; intros [H|H]; discriminate.
  - intro r. destruct (prints_none v); [discriminate|]. destruct v as [| | | |l| |]; try discriminate. destruct l as [|x [|u [|z l]]]; try discriminate. destruct (to_float x); discriminate.
Qed.
(** A range of datetime64: two dates and a unit, which is not the step: all the dates of this unit *)
Theorem C82_daterange64 T arange v (r : T) : is_daterange64 T arange v = Ok (Some r) <-> exists a b u, v = YList [a; b; u] /\ arange a b u = Ok r.
Proof.
  unfold is_daterange64. split.
  - destruct (prints_none v); [discriminate|]. destruct v as [| | | |l| |]; try discriminate. destruct l as [|a [|b [|u [|z l]]]]; try discriminate.
    destruct (arange a b u) as [x|] eqn:E; [|discriminate]. cbn [bind]. intro H. assert (x = r) by congruence. subst. eauto 10.
  - intros (a & b & u & -> & E). cbn. now rewrite E.
Qed.
Print Assumptions C82_timestamps.
Print Assumptions C82_timedelta64_refuted.
Print Assumptions C82_daterange64.
Example ex_timestamps : let ts v := match v with YStr "2000" => Ok 2000%Z | _ => Raise ValueError end in
  is_datetime Z ts Z.succ (YStr "2000") = Ok (Some 2001%Z) /\ is_datetime64 Z ts Z.pred (YStr "2000") = Ok (Some 1999%Z) /\ is_datetime Z ts Z.succ (YStr "None") = Ok None /\
  is_datetime64 Z ts Z.pred (YStr "x") = Raise ValueError /\ is_daterange64 Z (fun _ _ _ => Ok 1%Z) (YList [YStr "a"; YStr "b"]) = Raise ValidateError.
Proof. repeat split. Qed.
Example ex_dates : valid (mkdt 2000 2 29 23 5 9) /\ isoformat (mkdt 2000 2 29 23 5 9) = "2000-02-29T23:05:09" /\
  is_pydatetime (YStr "2000-2-29t23:5:9") YNone = Ok (Some (mkdt 2000 2 29 23 5 9)) /\ is_pydatetime (YStr "1900-02-29T00:00:00") YNone = Raise ValidateError /\
  is_pydatetime (YStr "2000-02-29") YNone = Raise ValidateError.
Proof.
  split; [|split; [|split; [|split]]]; try (vm_compute; reflexivity). unfold valid. cbn. split; [lia|]. split; [|lia]. exists 29%Z. split; [apply last_day_iff; split; [lia|reflexivity]|lia].
Qed.
