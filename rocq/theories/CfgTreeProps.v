(** C35: patching a configuration.  C36: filtering a section. *)
From Verif Require Import PyDictFacts.
From Verif Require Export CfgTreeSpec.
From Coq Require Import QArith Lia Lra Lqa.
Open Scope string_scope.

Fixpoint wf_rec (P : node -> Prop)
  (H : forall sc ss it, NoDup (sc ++ ss)%list -> dict_wf it ->
    (forall k, In k sc -> exists v, dget it k = Some (Leaf v)) ->
    (forall k, In k ss -> exists n, dget it k = Some n /\ wf n /\ P n) ->
    (forall k, dmem it k = true -> In k sc \/ In k ss) -> P (Sec sc ss it)) n (W : wf n) {struct W} : P n.
Proof.
  destruct W as [sc ss it H1 H2 H3 H4 H5]. apply H; auto.
  intros k Hk. destruct (H4 k Hk) as (m & E & Wm). exists m. split; [exact E|]. split; [exact Wm|]. apply (wf_rec P H m Wm).
Qed.
Lemma mem_in k l : mem k l = true <-> In k l.
Proof.
  unfold mem. rewrite existsb_exists. split; [intros (x & Hx & E); apply String.eqb_eq in E; now subst|].
  intro H. exists k. split; auto. apply String.eqb_refl.
Qed.
Lemma mem_not k l : mem k l = false <-> ~ In k l.
Proof. rewrite <- mem_in. destruct (mem k l); split; auto; intuition; discriminate. Qed.
Lemma nodup_app_l {A} (a b : list A) : NoDup (a ++ b)%list -> NoDup a.
Proof. induction a as [|x a IH]; intro H; [constructor|]. cbn in H. inversion H; subst. constructor; auto. intro X. apply H2. apply in_or_app; auto. Qed.
Lemma nodup_app_not {A} (a b : list A) x : NoDup (a ++ b)%list -> In x a -> ~ In x b.
Proof.
  induction a as [|y a IH]; intros H Ha Hb; [destruct Ha|]. cbn in H. inversion H; subst. destruct Ha as [->|Ha]; [apply H2; apply in_or_app; auto|].
  eapply IH; eauto.
Qed.
(** A name is an option exactly when its content is a value. *)
Lemma wf_leaf sc ss it k v : wf (Sec sc ss it) -> dget it k = Some (Leaf v) -> In k sc /\ ~ In k ss.
Proof.
  intros W E. inversion W as [? ? ? H1 H2 H3 H4 H5]; subst. destruct (H5 k) as [H|H].
  - unfold dmem. now rewrite E.
  - split; auto. now apply (nodup_app_not sc ss).
  - destruct (H4 k H) as (n & E' & Wn). rewrite E in E'. injection E' as <-. inversion Wn.
Qed.
Lemma wf_sub sc ss it k a b c : wf (Sec sc ss it) -> dget it k = Some (Sec a b c) -> In k ss /\ ~ In k sc /\ wf (Sec a b c).
Proof.
  intros W E. inversion W as [? ? ? H1 H2 H3 H4 H5]; subst. destruct (H5 k) as [H|H].
  - unfold dmem. now rewrite E.
  - destruct (H3 k H) as (v & E'). congruence.
  - destruct (H4 k H) as (n & E' & Wn). split; auto. rewrite E in E'. injection E' as <-. split; auto.
    intro X. exact (nodup_app_not sc ss k H1 X H).
Qed.
Lemma wf_set_leaf sc ss it k v : wf (Sec sc ss it) -> (forall n, dget it k = Some n -> exists w, n = Leaf w) -> wf (setitem (Sec sc ss it) k (Leaf v)).
Proof.
  intros W Hk. inversion W as [? ? ? H1 H2 H3 H4 H5]; subst. cbn [setitem]. unfold dmem at 1.
  destruct (dget it k) as [n|] eqn:E; cbn [negb].
  - destruct (Hk n eq_refl) as [w ->]. destruct (wf_leaf sc ss it k w W E) as [Hs Hn].
    constructor; auto using dset_wf.
    + intros x Hx. rewrite dget_dset. destruct (String.eqb_spec x k); eauto.
    + intros x Hx. rewrite dget_dset. destruct (String.eqb_spec x k) as [->|]; [contradiction|auto].
    + intros x Hx. unfold dmem in Hx. rewrite dget_dset in Hx. destruct (String.eqb_spec x k) as [Exk|]; [subst x|]; auto.
  - assert (Nk : ~ In k (sc ++ ss)%list).
    { intro X. apply in_app_or in X. destruct X as [X|X]; [destruct (H3 k X)|destruct (H4 k X) as (? & ? & _)]; congruence. }
    constructor; auto using dset_wf.
    + rewrite <- app_assoc. apply NoDup_Add with (a := k) (l := (sc ++ ss)%list); [apply Add_app|]. auto.
    + intros x Hx. rewrite dget_dset. destruct (String.eqb_spec x k); eauto. apply H3. apply in_app_or in Hx. destruct Hx as [|[->|[]]]; auto. congruence.
    + intros x Hx. rewrite dget_dset. destruct (String.eqb_spec x k) as [->|]; auto. exfalso. apply Nk. apply in_or_app; auto.
    + intros x Hx. unfold dmem in Hx. rewrite dget_dset in Hx. destruct (String.eqb_spec x k) as [Exk|]; [subst x|].
      * left. apply in_or_app. right. now left.
      * destruct (H5 x Hx); auto. left. apply in_or_app; auto.
Qed.
Lemma wf_empty : wf (Sec [] [] []).
Proof. apply wf_sec; [constructor|constructor|intros k []|intros k []|discriminate]. Qed.
Lemma wf_add_empty sc ss it k : wf (Sec sc ss it) -> dget it k = None ->
  setitem (Sec sc ss it) k (Sec [] [] []) = Sec sc (ss ++ [k])%list (dset it k (Sec [] [] [])) /\ wf (Sec sc (ss ++ [k])%list (dset it k (Sec [] [] []))).
Proof.
  intros W E. cbn [setitem]. unfold dmem at 1. rewrite E. cbn [negb]. split; auto.
  inversion W as [? ? ? H1 H2 H3 H4 H5]; subst.
  assert (Nk : ~ In k (sc ++ ss)%list).
  { intro X. apply in_app_or in X. destruct X as [X|X]; [destruct (H3 k X)|destruct (H4 k X) as (? & ? & _)]; congruence. }
  constructor; auto using dset_wf.
  - rewrite app_assoc. now apply NoDup_snoc.
  - intros x Hx. rewrite dget_dset. destruct (String.eqb_spec x k) as [->|]; auto. exfalso. apply Nk. apply in_or_app; auto.
  - intros x Hx. rewrite dget_dset. destruct (String.eqb_spec x k) as [Exk|]; [subst x|].
    + exists (Sec [] [] []). split; auto using wf_empty.
    + apply in_app_or in Hx. destruct Hx as [|[->|[]]]; auto. congruence.
  - intros x Hx. unfold dmem in Hx. rewrite dget_dset in Hx. destruct (String.eqb_spec x k) as [Exk|]; [subst x|].
    + right. apply in_or_app. right. now left.
    + destruct (H5 x Hx); auto. right. apply in_or_app; auto.
Qed.
Lemma wf_put sc ss it k n : wf (Sec sc ss it) -> In k ss -> wf n -> wf (Sec sc ss (dset it k n)).
Proof.
  intros W Hk Wn. inversion W as [? ? ? H1 H2 H3 H4 H5]; subst. constructor; auto using dset_wf.
  - intros x Hx. rewrite dget_dset. destruct (String.eqb_spec x k) as [->|]; auto. exfalso. exact (nodup_app_not sc ss k H1 Hx Hk).
  - intros x Hx. rewrite dget_dset. destruct (String.eqb_spec x k); eauto.
  - intros x Hx. unfold dmem in Hx. rewrite dget_dset in Hx. destruct (String.eqb_spec x k) as [Exk|]; [subst x|]; auto.
Qed.

Lemma option_cons sc ss it x q : option_at (Sec sc ss it) (x :: q) = match dget it x with Some m => option_at m q | None => None end.
Proof. reflexivity. Qed.
Lemma section_cons sc ss it x q : section_at (Sec sc ss it) (x :: q) = match dget it x with Some m => section_at m q | None => false end.
Proof. reflexivity. Qed.
Lemma leaf_below v q : section_at (Leaf v) q = false /\ (q <> [] -> option_at (Leaf v) q = None).
Proof. destruct q; cbn; split; auto. congruence. Qed.
Lemma option_not_section n q : option_at n q <> None -> section_at n q = false.
Proof.
  revert n. induction q as [|x q IH]; intros [v|sc ss it]; cbn; auto; try congruence.
  destruct (dget it x); auto.
Qed.
Lemma compatible_sub sc ss it sc' ss' it' x a b : compatible (Sec sc ss it) (Sec sc' ss' it') ->
  dget it x = Some a -> dget it' x = Some b -> compatible a b.
Proof. intros H Ea Eb q. specialize (H (x :: q)). rewrite !option_cons, !section_cons, Ea, Eb in H. exact H. Qed.

Definition leq (a b : list string) : bool := if list_eq_dec string_dec a b then true else false.
Lemma leq_iff a b : leq a b = true <-> a = b.
Proof. unfold leq. destruct (list_eq_dec string_dec a b); split; congruence. Qed.
Lemma leq_refl a : leq a a = true.
Proof. now apply leq_iff. Qed.
Lemma leq_cons x a y b : leq (x :: a) (y :: b) = String.eqb x y && leq a b.
Proof.
  unfold leq. destruct (String.eqb_spec x y) as [->|N].
  - destruct (list_eq_dec string_dec a b), (list_eq_dec string_dec (y :: a) (y :: b)); cbn; auto; congruence.
  - destruct (list_eq_dec string_dec (x :: a) (y :: b)); cbn; auto. congruence.
Qed.

Section conv.
  Variable str_of : val -> string.
  Variable text_of_section : node -> string.
  Variable int_of : string -> option Z.
  Variable float_of : string -> option Q.
  Notation cast_value := (cast_value str_of int_of float_of).
  Notation cast_node := (cast_node str_of text_of_section int_of float_of).
  Notation walker := (walker str_of text_of_section int_of float_of).
  Notation apply_walk := (apply_walk str_of text_of_section int_of float_of).
  Notation patch := (patch str_of text_of_section int_of float_of).

  Lemma cast_same old new : type_of old = type_of new -> cast_value old new = new.
  Proof. destruct old, new; cbn; try discriminate; auto. Qed.
  Lemma cast_idem v : cast_value v v = v.
  Proof. now apply cast_same. Qed.
  Lemma cast_twice old new : cast_value (cast_value old new) new = cast_value old new.
  Proof.
    destruct old, new; try reflexivity; try (apply cast_idem); unfold CfgTree.cast_value; cbn [convert].
    - destruct (int_of s) as [z'|] eqn:E; cbn; rewrite ?E; reflexivity.
    - destruct (float_of s) as [z'|] eqn:E; cbn; rewrite ?E; reflexivity.
  Qed.
  (** The value given to an option by a patch *)
  Definition given (old : option val) (new : val) : val := match old with Some o => cast_value o new | None => new end.
  Lemma given_twice old new : cast_value (given old new) new = given old new.
  Proof. destruct old; cbn [given]; [apply cast_twice|apply cast_idem]. Qed.

  Lemma nonzero_truth v : nonzero v <-> truth v = true.
  Proof.
    split.
    - intros [ |z H|q H|s H|l H]; cbn; auto.
      + apply negb_true_iff. now apply Z.eqb_neq.
      + apply negb_true_iff. destruct (Qeq_bool q 0) eqn:E; auto. exfalso. apply H. now apply Qeq_bool_iff.
      + apply negb_true_iff. now apply String.eqb_neq.
      + now destruct l.
    - destruct v as [|b|z|q|s|l]; cbn; intro H; try discriminate.
      + subst. constructor.
      + constructor. apply negb_true_iff in H. now apply Z.eqb_neq.
      + constructor. apply negb_true_iff in H. intro E. apply Qeq_bool_iff in E. congruence.
      + constructor. apply negb_true_iff in H. now apply String.eqb_neq.
      + constructor. now destruct l.
  Qed.
  Lemma truncate_part q : integral_part q (truncate q).
  Proof.
    destruct q as [n d]. unfold integral_part, truncate. cbn [Qnum Qden].
    assert (E := Z.quot_rem' n (Zpos d)). assert (Hd : (Zpos d <> 0)%Z) by discriminate.
    exists (Qmake (Z.rem n (Zpos d)) d). split.
    - unfold Qeq, Qplus, inject_Z. cbn [Qnum Qden]. rewrite Pos.mul_1_l, Z.mul_1_r. f_equal. lia.
    - unfold Qle, Qlt. cbn [Qnum Qden Qopp]. destruct (Z.le_ge_cases 0 n) as [H|H].
      + left. assert (B := Z.rem_bound_pos n (Zpos d) H eq_refl). lia.
      + right. assert (B := Z.rem_bound_pos (- n) (Zpos d)). rewrite Z.rem_opp_l in B by exact Hd. lia.
  Qed.
  Lemma part_unique q z z' : integral_part q z -> integral_part q z' -> z = z'.
  Proof.
    assert (I : forall x : Z, (-(1) < inject_Z x < 1)%Q -> x = 0%Z).
    { intros x Y. unfold Qlt, inject_Z, Qopp in Y. cbn [Qnum Qden] in Y. lia. }
    intros (f & E & B) (f' & E' & B').
    assert (J : (z - z' = 0)%Z -> z = z') by lia.
    destruct B as [[]|[]], B' as [[]|[]].
    1, 4: apply J, I; unfold Zminus; rewrite inject_Z_plus, inject_Z_opp; lra.
    all: rewrite (I z), (I z') by lra; reflexivity.
  Qed.
  Lemma letters_chars s : map VStr (letters s) = chars s.
  Proof. induction s; cbn; congruence. Qed.
  Theorem C35_conversion old new v : becomes str_of int_of float_of old new v <-> v = cast_value old new.
  Proof.
    unfold CfgTree.cast_value. split.
    - intros [b w H|b w H|z b|z w|z q w H|z s w H|z s H|z b|z w|z w|z s w H|z s H|n H|n l H|s t|s w H|l m|l s|l w H H'|w]; cbn;
        try reflexivity; try (rewrite H; reflexivity); try (destruct b; reflexivity).
      + apply nonzero_truth in H. now rewrite H.
      + destruct (truth w) eqn:E; auto. exfalso. apply H. now apply nonzero_truth.
      + f_equal. apply (part_unique q); [exact H|apply truncate_part].
      + now destruct n, H.
      + now destruct n, H.
      + destruct w; try reflexivity. now destruct H.
      + now rewrite letters_chars.
      + destruct w; try reflexivity; now destruct H || now destruct H'.
    - intros ->. destruct old as [|b|z|q|s|l]; cbn [convert].
      + constructor.
      + destruct (truth new) eqn:E; constructor; [now apply nonzero_truth|]. intro H. apply nonzero_truth in H. congruence.
      + destruct new as [|b'|z'|q'|s'|l'].
        * now apply b_num_none; left.
        * destruct b'; [exact (b_int_bool _ _ _ z true)|exact (b_int_bool _ _ _ z false)].
        * apply b_int_int.
        * apply b_int_float, truncate_part.
        * cbn [option_map]. destruct (int_of s') eqn:E; cbn [option_map]; [now apply b_int_str|now apply b_int_not].
        * now apply b_num_list; left.
      + destruct new as [|b'|z'|q'|s'|l'].
        * now apply b_num_none; right.
        * destruct b'; [exact (b_float_bool _ _ _ q true)|exact (b_float_bool _ _ _ q false)].
        * apply b_float_int.
        * apply b_float_float.
        * cbn [option_map]. destruct (float_of s') eqn:E; cbn [option_map]; [now apply b_float_str|now apply b_float_not].
        * now apply b_num_list; right.
      + destruct new; constructor; discriminate.
      + destruct new; try (constructor; discriminate); try constructor. rewrite <- letters_chars. constructor.
  Qed.

  Lemma walk_put pre sc ss it k n n' : dget it k = Some n -> (forall pre, walk pre n' = walk pre n) ->
    walk pre (Sec sc ss (dset it k n')) = walk pre (Sec sc ss it).
  Proof.
    intros E H. cbn [walk].
    assert (X : forall x, dget (map (fun kn => (fst kn, walk (pre ++ [strip_under (fst kn)])%list (snd kn))) (dset it k n')) x
                        = dget (map (fun kn => (fst kn, walk (pre ++ [strip_under (fst kn)])%list (snd kn))) it) x).
    { intro x. clear ss sc. induction it as [|[y m] it IH]; [discriminate|]. cbn [dset dget] in *.
      destruct (String.eqb_spec k y) as [->|N].
      - injection E as ->. cbn [map fst snd dget]. now rewrite H.
      - cbn [map fst snd dget]. destruct (String.eqb x y); auto. }
    f_equal. induction ss as [|y ss IH]; auto. rewrite X. now rewrite IH.
  Qed.

  Lemma walker_spec ps k c p : wf c -> wf p -> compatible c p -> section_at p (ps ++ [k])%list = false ->
    exists c' p', walker ps k c p = Ok (c', p') /\ wf c' /\ wf p' /\
      (forall q, option_at c' q = if leq q (ps ++ [k])%list then match option_at p q with Some new => Some (given (option_at c q) new) | None => option_at c q end else option_at c q) /\
      (forall q, option_at p' q = if leq q (ps ++ [k])%list then option_map (given (option_at c q)) (option_at p q) else option_at p q) /\
      (forall q, section_at p' q = section_at p q) /\
      (forall q, section_at c q = true -> section_at c' q = true) /\
      (forall q, section_at c' q = true -> section_at c q = true \/ section_at p q = true) /\
      (forall pre, walk pre p' = walk pre p).
  Proof.
    revert c p. induction ps as [|name ps IH]; intros c p Wc Wp Hc Hk.
    - destruct c as [|csc css cit]; [inversion Wc|]. destruct p as [|psc pss pit]; [inversion Wp|].
      cbn [CfgTree.walker app]. cbn [app] in Hk. rewrite section_cons in Hk.
      destruct (dget pit k) as [new|] eqn:Ep.
      2:{ exists (Sec csc css cit), (Sec psc pss pit). split; auto. split; auto. split; auto.
          split; [|split; [|auto]].
          - intro q. destruct (leq q [k]) eqn:El; auto. apply leq_iff in El. subst q. now rewrite (option_cons psc), Ep.
          - intro q. destruct (leq q [k]) eqn:El; auto. apply leq_iff in El. subst q. now rewrite (option_cons psc), Ep. }
      destruct new as [new|]; [|discriminate Hk].
      assert (Op : option_at (Sec psc pss pit) [k] = Some new) by (rewrite option_cons, Ep; reflexivity).
      assert (Hold : forall n, dget cit k = Some n -> exists w, n = Leaf w).
      { intros [w|a b d] E; eauto. destruct (Hc [k]) as [_ X]. rewrite section_cons, E, Op in X. specialize (X eq_refl). discriminate. }
      set (new' := match dget cit k with Some old => cast_node old (Leaf new) | None => Leaf new end).
      assert (En : new' = Leaf (given (option_at (Sec csc css cit) [k]) new)).
      { unfold new'. rewrite option_cons. destruct (dget cit k) as [n|] eqn:E; auto. destruct (Hold n eq_refl) as [w ->]. reflexivity. }
      clearbody new'. subst new'. set (g := given (option_at (Sec csc css cit) [k]) new).
      assert (Sc : exists sc', setitem (Sec csc css cit) k (Leaf g) = Sec sc' css (dset cit k (Leaf g))) by (cbn [setitem]; eauto).
      assert (Wc' := wf_set_leaf csc css cit k g Wc Hold).
      assert (Wp' : wf (setitem (Sec psc pss pit) k (Leaf g))).
      { apply wf_set_leaf; auto. intros n E. rewrite Ep in E. injection E as <-. eauto. }
      assert (Sp : setitem (Sec psc pss pit) k (Leaf g) = Sec psc pss (dset pit k (Leaf g))).
      { cbn [setitem]. unfold dmem. now rewrite Ep. }
      destruct Sc as [sc' Sc]. rewrite Sc in *.
      set (p' := if dmem cit k then setitem (Sec psc pss pit) k (Leaf g) else Sec psc pss pit).
      assert (Hp' : p' = Sec psc pss (dset pit k (Leaf g))).
      { unfold p'. rewrite Sp. destruct (dmem cit k) eqn:E; auto. f_equal. symmetry. apply dset_same. rewrite Ep. f_equal. f_equal.
        unfold g. rewrite option_cons. unfold dmem in E. destruct (dget cit k); [discriminate|reflexivity]. }
      exists (Sec sc' css (dset cit k (Leaf g))), p'. split; auto. split; auto. split; [rewrite Hp', <- Sp; auto|]. clearbody p'. subst p'.
      split; [|split; [|split; [|split; [|split]]]].
      + intros [|x q]; [reflexivity|]. rewrite leq_cons. rewrite !option_cons, dget_dset. destruct (String.eqb_spec x k) as [->|N]; cbn [andb]; auto.
        destruct q as [|y q].
        * cbn [leq]. rewrite Ep. cbn [option_at]. unfold leq. cbn. unfold g. now rewrite option_cons.
        * assert (leq (y :: q) [] = false) as -> by reflexivity.
          destruct (dget cit k) as [n|] eqn:E; auto. destruct (Hold n eq_refl) as [w ->]. reflexivity.
      + intros [|x q]; [reflexivity|]. rewrite leq_cons. rewrite !option_cons, dget_dset. destruct (String.eqb_spec x k) as [->|N]; cbn [andb]; auto.
        rewrite Ep. destruct q as [|y q]; auto.
      + intros [|x q]; [reflexivity|]. rewrite !section_cons, dget_dset. destruct (String.eqb_spec x k) as [->|N]; auto. rewrite Ep.
        now rewrite (proj1 (leaf_below g q)), (proj1 (leaf_below new q)).
      + intros [|x q]; [reflexivity|]. rewrite !section_cons, dget_dset. destruct (String.eqb_spec x k) as [->|N]; auto.
        destruct (dget cit k) as [n|] eqn:E; [|discriminate]. destruct (Hold n eq_refl) as [w ->]. now rewrite (proj1 (leaf_below w q)).
      + intros [|x q]; auto. rewrite !section_cons, dget_dset. destruct (String.eqb_spec x k) as [->|N]; auto. now rewrite (proj1 (leaf_below g q)).
      + intro pre. apply walk_put with (n := Leaf new); auto.
    - destruct c as [|csc css cit]; [inversion Wc|]. destruct p as [|psc pss pit]; [inversion Wp|].
      cbn [CfgTree.walker app]. cbn [app] in Hk. rewrite section_cons in Hk.
      destruct (mem name pss) eqn:Em; cbn [negb].
      2:{ apply mem_not in Em. exists (Sec csc css cit), (Sec psc pss pit). split; auto. split; auto. split; auto.
          assert (X : option_at (Sec psc pss pit) (name :: ps ++ [k])%list = None).
          { rewrite option_cons. destruct (dget pit name) as [[w|a b d]|] eqn:E; auto.
            - apply leaf_below. destruct ps; discriminate.
            - exfalso. apply Em. eapply wf_sub; eauto. }
          split; [|split; [|auto]]; intro q; destruct (leq q (name :: ps ++ [k])%list) eqn:El; auto; apply leq_iff in El; subst q; now rewrite X. }
      apply mem_in in Em.
      assert (exists pn, dget pit name = Some pn /\ wf pn) as (pn & Epn & Wpn) by (inversion Wp; auto). rewrite Epn in *.
      assert (Hsec : section_at (Sec psc pss pit) [name] = true) by (rewrite section_cons, Epn; destruct pn; [inversion Wpn|reflexivity]).
      set (c1 := if negb (mem name css) then setitem (Sec csc css cit) name (Sec [] [] []) else Sec csc css cit).
      assert (H1 : exists css1 cit1 cn, c1 = Sec csc css1 cit1 /\ wf c1 /\ In name css1 /\ dget cit1 name = Some cn /\ wf cn /\
                 (forall q, option_at c1 q = option_at (Sec csc css cit) q) /\
                 (forall q, section_at (Sec csc css cit) q = true -> section_at c1 q = true) /\
                 (forall q, section_at c1 q = true -> section_at (Sec csc css cit) q = true \/ section_at (Sec psc pss pit) q = true)).
      { unfold c1. destruct (mem name css) eqn:Ec; cbn [negb].
        - apply mem_in in Ec. assert (exists cn, dget cit name = Some cn /\ wf cn) as (cn & E & Wn) by (inversion Wc; auto).
          exists css, cit, cn. auto 10.
        - assert (E : dget cit name = None).
          { destruct (dget cit name) as [[w|a b d]|] eqn:E; auto.
            - destruct (Hc [name]) as [X _]. rewrite option_cons, E in X. rewrite X in Hsec by (cbn; congruence). discriminate.
            - apply mem_not in Ec. exfalso. apply Ec. eapply wf_sub; eauto. }
          destruct (wf_add_empty csc css cit name Wc E) as [-> W1].
          exists (css ++ [name])%list, (dset cit name (Sec [] [] [])), (Sec [] [] []).
          split; auto. split; auto. split; [apply in_or_app; right; now left|]. split; [now rewrite dget_dset, String.eqb_refl|]. split; [apply wf_empty|].
          split; [|split].
          + intros [|x q]; auto. rewrite !option_cons, dget_dset. destruct (String.eqb_spec x name) as [->|]; auto. rewrite E. destruct q; auto.
          + intros [|x q]; auto. rewrite !section_cons, dget_dset. destruct (String.eqb_spec x name) as [->|]; auto. rewrite E. discriminate.
          + intros [|x q]; auto. rewrite !section_cons, dget_dset. destruct (String.eqb_spec x name) as [->|]; auto. intro X. right.
            destruct q; [|discriminate]. rewrite section_cons in Hsec. exact Hsec. }
      clearbody c1. destruct H1 as (css1 & cit1 & cn & -> & W1 & Hin & Ecn & Wcn & O1 & S1 & S1'). cbn [items]. rewrite Ecn.
      assert (Hcn : compatible cn pn).
      { intro q. split; intro X.
        - destruct (Hc (name :: q)) as [Y _]. rewrite <- O1, option_cons, Ecn, section_cons, Epn in Y. auto.
        - destruct (section_at (Sec csc css cit) (name :: q)) eqn:E.
          + destruct (Hc (name :: q)) as [_ Y]. rewrite option_cons, Epn in Y. auto.
          + destruct (S1' (name :: q)) as [Y|Y]; [rewrite section_cons, Ecn; auto|congruence|].
            rewrite section_cons, Epn in Y. destruct (option_at pn q) eqn:Eo; auto.
            rewrite (option_not_section pn q) in Y by congruence. discriminate. }
      destruct (IH cn pn Wcn Wpn Hcn Hk) as (cn' & pn' & -> & Wcn' & Wpn' & Oc & Op & Sp & Sc & Sc' & Wk).
      cbn [bind put]. exists (Sec csc css1 (dset cit1 name cn')), (Sec psc pss (dset pit name pn')). split; auto.
      split; [now apply wf_put|]. split; [now apply wf_put|]. split; [|split; [|split; [|split; [|split]]]].
      + intros [|x q]; auto. rewrite leq_cons, <- O1. rewrite !option_cons, dget_dset. destruct (String.eqb_spec x name) as [->|]; auto. cbn [andb].
        rewrite Ecn, Epn. apply Oc.
      + intros [|x q]; auto. rewrite leq_cons, <- O1. rewrite !option_cons, dget_dset. destruct (String.eqb_spec x name) as [->|]; auto. cbn [andb].
        rewrite Ecn, Epn. apply Op.
      + intros [|x q]; auto. rewrite !section_cons, dget_dset. destruct (String.eqb_spec x name) as [->|]; auto. now rewrite Epn.
      + intros q Hq. apply S1 in Hq. revert Hq. destruct q as [|x q]; auto. rewrite !section_cons, dget_dset. destruct (String.eqb_spec x name) as [->|]; auto. rewrite Ecn. apply Sc.
      + intros q Hq. destruct q as [|x q]; auto. rewrite !section_cons, dget_dset in Hq. destruct (String.eqb_spec x name) as [->|].
        * apply Sc' in Hq. destruct Hq as [Hq|Hq]; [apply S1'; now rewrite section_cons, Ecn|right; now rewrite section_cons, Epn].
        * apply S1'. rewrite section_cons. auto.
      + intro pre. apply walk_put with (n := pn); auto.
  Qed.

  Lemma dget_map_snd (f : string -> node -> res (list (list string * string))) it k :
    dget (map (fun kn => (fst kn, f (fst kn) (snd kn))) it) k = match dget it k with Some n => Some (f k n) | None => None end.
  Proof.
    induction it as [|[x n] it IH]; auto. cbn [map fst snd dget]. destruct (String.eqb_spec k x) as [->|]; auto.
  Qed.
  Lemma walk_in n : wf n -> forall pre, exists l, walk pre n = Ok l /\
    forall a k, In (a, k) l <-> exists ps, a = (pre ++ map strip_under ps)%list /\ option_at n (ps ++ [k])%list <> None.
  Proof.
    intro W. induction W as [sc ss it H1 H2 H3 H4 H5] using wf_rec. intro pre. cbn [walk].
    set (ws := map _ it). set (all := fix all (l : list string) := _).
    assert (Hall : forall l, (forall x, In x l -> In x ss) -> exists subs, all l = Ok subs /\
      forall a k, In (a, k) subs <-> exists x ps, In x l /\ a = (pre ++ map strip_under (x :: ps))%list /\ option_at (Sec sc ss it) (x :: ps ++ [k])%list <> None).
    { induction l as [|x l IH]; intro Hl.
      - exists []. split; auto. intros a k. split; [intros []|intros (x & ps & [] & _)].
      - destruct (IH (fun y Hy => Hl y (or_intror Hy))) as (subs & Es & Hs).
        destruct (H4 x (Hl x (or_introl eq_refl))) as (m & Em & Wm & Hm). destruct (Hm (pre ++ [strip_under x])%list) as (lm & Elm & Hlm).
        exists (lm ++ subs)%list. split.
        + cbn. unfold ws. rewrite (dget_map_snd (fun k n => walk (pre ++ [strip_under k])%list n)), Em. fold all. rewrite Elm. cbn [bind]. fold ws. rewrite Es. reflexivity.
        + intros a k. rewrite in_app_iff, Hlm, Hs. split.
          * intros [(ps & -> & Ho)|(y & ps & Hy & -> & Ho)].
            -- exists x, ps. split; [now left|]. split; [now rewrite <- app_assoc|]. now rewrite option_cons, Em.
            -- exists y, ps. split; [now right|]. auto.
          * intros (y & ps & Hy & -> & Ho). destruct Hy as [->|Hy].
            -- left. exists ps. split; [now rewrite <- app_assoc|]. now rewrite option_cons, Em in Ho.
            -- right. eauto. }
    destruct (Hall ss (fun x H => H)) as (subs & -> & Hs). cbn [bind]. eexists. split; [reflexivity|].
    intros a k. rewrite in_app_iff, in_map_iff, Hs. split.
    - intros [(x & E & Hx)|(x & ps & Hx & -> & Ho)].
      + injection E as <- <-. exists []. split; [now rewrite app_nil_r|]. cbn [app]. rewrite option_cons. destruct (H3 _ Hx) as [v ->]. cbn. congruence.
      + exists (x :: ps). auto.
    - intros (ps & -> & Ho). destruct ps as [|x ps].
      + left. exists k. split; [now rewrite app_nil_r|]. cbn [app] in Ho. rewrite option_cons in Ho.
        destruct (H5 k) as [H|H]; auto; [unfold dmem; destruct (dget it k); congruence|]. destruct (H4 k H) as (m & Em & Wm & _). rewrite Em in Ho.
        destruct m; [inversion Wm|]. cbn in Ho. congruence.
      + right. exists x, ps. split; auto. cbn [app] in Ho. rewrite option_cons in Ho.
        destruct (H5 x) as [H|H]; auto; [unfold dmem; destruct (dget it x); congruence|]. destruct (H3 x H) as (v & Ev). rewrite Ev in Ho.
        rewrite (proj2 (leaf_below v (ps ++ [k])%list)) in Ho by (destruct ps; discriminate). congruence.
  Qed.

  (** Invariant of the walks: [todo q] options not yet visited *)
  Definition inv (c0 p0 c p : node) (done : list string -> Prop) : Prop :=
    wf c /\ wf p /\
    (forall q, option_at p0 q = None -> option_at p q = None /\ option_at c q = option_at c0 q) /\
    (forall q new, option_at p0 q = Some new ->
       (option_at c q = Some (given (option_at c0 q) new) /\ option_at p q = Some (given (option_at c0 q) new)) \/
       (~ done q /\ option_at c q = option_at c0 q /\ option_at p q = Some new)) /\
    (forall q, section_at p q = section_at p0 q) /\
    (forall q, section_at c0 q = true -> section_at c q = true) /\
    (forall q, section_at c q = true -> section_at c0 q = true \/ section_at p0 q = true) /\
    (forall pre, walk pre p = walk pre p0).
  Lemma inv_compatible c0 p0 c p done : compatible c0 p0 -> inv c0 p0 c p done -> compatible c p.
  Proof.
    intros Hc (Wc & Wp & Hn & Hs & Sp & Sc & Sc' & _) q. split; intro H.
    - rewrite Sp. destruct (option_at p0 q) as [new|] eqn:E; [apply option_not_section; congruence|].
      destruct (Hn q E) as [_ X]. rewrite X in H. now apply Hc.
    - destruct (option_at p0 q) as [new|] eqn:E; [|now apply Hn]. exfalso. destruct (Sc' q H) as [X|X].
      + destruct (Hc q) as [_ Y]. rewrite (Y X) in E. discriminate.
      + rewrite (option_not_section p0 q) in X by congruence. discriminate.
  Qed.
  Lemma inv_step c0 p0 c p done ps k : compatible c0 p0 -> inv c0 p0 c p done -> section_at p0 (ps ++ [k])%list = false ->
    exists c' p', walker ps k c p = Ok (c', p') /\ inv c0 p0 c' p' (fun q => done q \/ q = (ps ++ [k])%list).
  Proof.
    intros Hc Hi Hk. assert (Hcp := inv_compatible _ _ _ _ _ Hc Hi). destruct Hi as (Wc & Wp & Hn & Hs & Sp & Sc & Sc' & Wk).
    destruct (walker_spec ps k c p Wc Wp Hcp) as (c' & p' & E & Wc' & Wp' & Oc & Op & Sp1 & Sc1 & Sc1' & Wk1); [now rewrite Sp|].
    exists c', p'. split; auto. split; auto. split; auto. split; [|split; [|split; [|split; [|split]]]].
    - intros q E0. destruct (Hn q E0) as [X Y]. rewrite Oc, Op, X. cbn [option_map]. destruct (leq q (ps ++ [k])%list); auto.
    - intros q new E0. rewrite Oc, Op. destruct (Hs q new E0) as [[X Y]|(N & X & Y)].
      + left. rewrite X, Y. cbn [option_map given]. rewrite cast_idem. destruct (leq q (ps ++ [k])%list); auto.
      + destruct (leq q (ps ++ [k])%list) eqn:El.
        * left. rewrite X, Y. auto.
        * right. split; auto. intros [Z|Z]; [auto|]. subst q. rewrite leq_refl in El. discriminate.
    - intro q. now rewrite Sp1.
    - intros q Hq. auto.
    - intros q Hq. apply Sc1' in Hq. destruct Hq as [Hq|Hq]; auto. rewrite Sp in Hq. auto.
    - intro pre. now rewrite Wk1.
  Qed.
  Lemma inv_weaken c0 p0 c p (d1 d2 : list string -> Prop) : (forall q, d2 q -> d1 q) -> inv c0 p0 c p d1 -> inv c0 p0 c p d2.
  Proof.
    intros Hd (Wc & Wp & Hn & Hs & H). split; auto. split; auto. split; auto. split; auto.
    intros q new E. destruct (Hs q new E) as [X|(N & X)]; [auto|]. right. split; auto.
  Qed.
  Lemma inv_walk c0 p0 l : compatible c0 p0 -> (forall ps k, In (ps, k) l -> section_at p0 (ps ++ [k])%list = false) ->
    forall c p done, inv c0 p0 c p done ->
    exists c' p', apply_walk l c p = Ok (c', p') /\ inv c0 p0 c' p' (fun q => done q \/ exists ps k, In (ps, k) l /\ q = (ps ++ [k])%list).
  Proof.
    intros Hc. induction l as [|[ps k] l IH]; intros Hl c p done Hi; cbn [CfgTree.apply_walk].
    - exists c, p. split; auto. apply inv_weaken with (d1 := done); auto. intros q [H|(? & ? & [] & _)]; auto.
    - destruct (inv_step c0 p0 c p done ps k Hc Hi) as (c1 & p1 & -> & Hi1); [apply Hl; now left|]. cbn [bind].
      destruct (IH (fun ps' k' H => Hl ps' k' (or_intror H)) c1 p1 _ Hi1) as (c2 & p2 & -> & Hi2).
      exists c2, p2. split; auto. eapply inv_weaken; [|exact Hi2]. cbn beta. intros q [H|(ps' & k' & [H|H] & E)]; eauto 6.
      injection H as <- <-. auto.
  Qed.

  (** What a configuration contains after a patch: each option of the patch has its value, converted
      to the type of the previous value when possible; every other option is unchanged. *)
  Theorem C35_patch specs cfg p : wf specs -> wf cfg -> wf p -> compatible cfg p -> specs_fit specs p -> plain_sections p ->
    exists cfg' p', patch specs cfg p = Ok (cfg', p') /\ wf cfg' /\ compatible cfg' p /\
      (forall q, option_at cfg' q = match option_at p q with
                                    | Some new => Some match option_at cfg q with Some old => cast_value old new | None => new end
                                    | None => option_at cfg q
                                    end) /\
      (forall q, section_at cfg q = true -> section_at cfg' q = true) /\
      (forall q, section_at cfg' q = true -> section_at cfg q = true \/ section_at p q = true).
  Proof.
    intros Ws Wc Wp Hc Hf Hplain. unfold CfgTree.patch.
    destruct (walk_in specs Ws []) as (l1 & -> & Hl1). cbn [bind].
    assert (I0 : inv cfg p cfg p (fun _ => False)).
    { split; auto. split; auto. split; auto. split; [|auto]. intros q new E. right. auto. }
    destruct (inv_walk cfg p l1 Hc) with (c := cfg) (p := p) (done := fun _ : list string => False) as (c1 & p1 & -> & I1); auto.
    { intros ps k H. apply Hl1 in H. destruct H as (ps0 & -> & Ho). apply Hf. exact Ho. }
    cbn [bind]. destruct (walk_in p Wp []) as (l2 & E2 & Hl2).
    assert (E2' : walk [] p1 = Ok l2) by (destruct I1 as (_ & _ & _ & _ & _ & _ & _ & X); now rewrite X). rewrite E2'. cbn [bind].
    assert (Hps : forall ps k, option_at p (ps ++ [k])%list <> None -> map strip_under ps = ps).
    { intros ps k Ho. assert (X : forall x r1 r2, ps = (r1 ++ x :: r2)%list -> strip_under x = x).
      { intros x r1 r2 E. apply (Hplain r1 x). clear - Ho E. assert (Y : exists y t, (ps ++ [k])%list = ((r1 ++ [x]) ++ y :: t)%list).
        { subst ps. destruct r2 as [|y t]; [exists k, []|exists y, (t ++ [k])%list]; rewrite <- !app_assoc; reflexivity. }
        destruct Y as (y & t & E'). rewrite E' in Ho. revert Ho. generalize (r1 ++ [x])%list. intro a. clear. revert p. induction a as [|z a IH]; intros [v|sc ss it]; cbn; auto; try congruence.
        destruct (dget it z); auto. }
      clear - X. assert (forall r1 r2, ps = (r1 ++ r2)%list -> map strip_under r2 = r2).
      { intros r1 r2. revert r1. induction r2 as [|x r2 IH]; intros r1 E; auto. cbn [map]. rewrite (X x r1 r2 E). f_equal. apply (IH (r1 ++ [x])%list). now rewrite <- app_assoc. }
      apply (H []). reflexivity. }
    destruct (inv_walk cfg p l2 Hc) with (c := c1) (p := p1) (done := fun q => False \/ exists ps k, In (ps, k) l1 /\ q = (ps ++ [k])%list) as (c2 & p2 & E3 & I2); auto.
    { intros ps k H. apply Hl2 in H. destruct H as (ps0 & -> & Ho). cbn [app]. rewrite (Hps ps0 k Ho). now apply option_not_section. }
    exists c2, p2. split; auto. destruct I2 as (Wc2 & Wp2 & Hn & Hs & Sp & Sc & Sc' & _).
    assert (Key : forall q, option_at c2 q = match option_at p q with
                                    | Some new => Some match option_at cfg q with Some old => cast_value old new | None => new end
                                    | None => option_at cfg q
                                    end).
    { intro q. destruct (option_at p q) as [new|] eqn:E; [|now apply Hn].
      destruct (Hs q new E) as [[X _]|(N & _)]; [exact X|]. exfalso. apply N. right.
      destruct q as [|x q] using rev_ind; [destruct p; [inversion Wp|discriminate]|]. clear IHq.
      exists q, x. split; auto. apply Hl2. exists q. split; [|congruence]. cbn [app]. symmetry. apply (Hps q x). congruence. }
    split; auto. split; [|split; auto].
    intro q. split; intro H.
    - rewrite Key in H. destruct (option_at p q) eqn:E; [apply option_not_section; congruence|]. now apply Hc.
    - destruct (Sc' q H) as [X|X]; [now apply Hc|]. destruct (option_at p q) eqn:E; auto. rewrite (option_not_section p q) in X by congruence. discriminate.
  Qed.
  (** Patching twice is the same as once. *)
  Theorem C35_idempotent specs cfg p : wf specs -> wf cfg -> wf p -> compatible cfg p -> specs_fit specs p -> plain_sections p ->
    exists c1 p1 c2 p2, patch specs cfg p = Ok (c1, p1) /\ patch specs c1 p = Ok (c2, p2) /\ forall q, option_at c2 q = option_at c1 q.
  Proof.
    intros Ws Wc Wp Hc Hf Hplain. destruct (C35_patch specs cfg p) as (c1 & p1 & E1 & W1 & Hc1 & O1 & _); auto.
    destruct (C35_patch specs c1 p) as (c2 & p2 & E2 & W2 & Hc2 & O2 & _); auto.
    exists c1, p1, c2, p2. split; auto. split; auto. intro q. rewrite O2, O1. destruct (option_at p q) as [new|]; auto.
    f_equal. apply given_twice.
  Qed.
  (** In terms of the specification of conversions: *)
  Theorem C35_patched specs cfg p q new : wf specs -> wf cfg -> wf p -> compatible cfg p -> specs_fit specs p -> plain_sections p ->
    option_at p q = Some new ->
    exists cfg' p' v, patch specs cfg p = Ok (cfg', p') /\ option_at cfg' q = Some v /\
      match option_at cfg q with Some old => becomes str_of int_of float_of old new v | None => v = new end.
  Proof.
    intros Ws Wc Wp Hc Hf Hplain E. destruct (C35_patch specs cfg p) as (c1 & p1 & E1 & W1 & Hc1 & O1 & _); auto.
    exists c1, p1. specialize (O1 q). rewrite E in O1. eexists. split; [exact E1|]. split; [exact O1|].
    destruct (option_at cfg q) as [old|]; auto. now apply C35_conversion.
  Qed.
  (** A value of the same type as the previous one is not altered. *)
  Theorem C35_same_type old new : type_of old = type_of new -> cast_value old new = new.
  Proof. apply cast_same. Qed.
End conv.

(** *** Where the claim is false *)
Definition one (k : string) (v : val) : node := Sec [k] [] [(k, Leaf v)].
Definition sect1 (k : string) (n : node) : node := Sec [] [k] [(k, n)].
Definition nospecs : node := Sec [] [] [].
(** A boolean that is patched with a text, as read from a file, becomes or stays True. *)
Theorem C35_boolean_refuted so ts io fo :
  match patch so ts io fo nospecs (one "debug" (VBool true)) (one "debug" (VStr "False")) with
  | Ok (c, _) => option_at c ["debug"] = Some (VBool true) | Raise _ => False end.
Proof. reflexivity. Qed.
(** A list that is patched with a text becomes the list of its letters. *)
Theorem C35_list_refuted so ts io fo :
  match patch so ts io fo nospecs (one "vars" (VList [VStr "u"; VStr "v"])) (one "vars" (VStr "temp")) with
  | Ok (c, _) => option_at c ["vars"] = Some (VList [VStr "t"; VStr "e"; VStr "m"; VStr "p"]) | Raise _ => False end.
Proof. reflexivity. Qed.
(** A section whose name starts or ends with an underscore is never patched. *)
Theorem C35_underscore_refuted so ts io fo :
  match patch so ts io fo nospecs (sect1 "_out_" (one "x" (VStr "1"))) (sect1 "_out_" (one "x" (VStr "2"))) with
  | Ok (c, _) => option_at c ["_out_"; "x"] = Some (VStr "1") | Raise _ => False end.
Proof. reflexivity. Qed.
(** Patching an option with a section keeps only the last option of the section. *)
Theorem C35_section_refuted so ts io fo :
  match patch so ts io fo nospecs (one "a" (VStr "1")) (sect1 "a" (Sec ["x"; "y"] [] [("x", Leaf (VStr "2")); ("y", Leaf (VStr "3"))])) with
  | Ok (c, _) => option_at c ["a"; "x"] = None /\ option_at c ["a"; "y"] = Some (VStr "3") /\ ~ wf c | Raise _ => False end.
Proof.
  cbn. split; auto. split; auto. intro W. inversion W as [? ? ? H1 H2 H3 H4 H5]; subst. destruct (H3 "a") as [v E]; [now left|]. discriminate.
Qed.
(** When it is a text in the configuration and an option in the specifications, patching fails. *)
Theorem C35_specs_refuted so ts io fo :
  patch so ts io fo (one "a" (VStr "string")) (one "a" (VStr "1")) (sect1 "a" (one "x" (VStr "2"))) = Raise AttributeError.
Proof. reflexivity. Qed.
(** Replacing a section by an option leaves a broken tree. *)
Theorem C35_option_refuted so ts io fo :
  match patch so ts io fo nospecs (sect1 "a" (one "x" (VStr "1"))) (one "a" (VStr "2")) with
  | Ok (c, _) => option_at c ["a"] = Some (VStr "2") /\ ~ wf c /\ walk [] c = Raise AttributeError | Raise _ => False end.
Proof.
  cbn. split; auto. split; auto. intro W. inversion W as [? ? ? H1 H2 H3 H4 H5]; subst. destruct (H4 "a") as (n & E & Wn); [now left|].
  cbn in E. injection E as <-. inversion Wn.
Qed.

(** *** Examples *)
Definition ex_cfg : node :=
  Sec ["verbose"] ["run"] [("verbose", Leaf (VBool false)); ("run", Sec ["file"; "steps"] ["io"] [("file", Leaf (VStr "a.nc")); ("steps", Leaf (VInt 5)); ("io", Sec [] [] [])])].
Definition ex_patch : node :=
  Sec [] ["run"; "new"] [("run", Sec ["steps"] ["io"] [("steps", Leaf (VFloat (15 # 2))); ("io", one "fmt" (VStr "nc"))]); ("new", one "x" (VInt 1))].
Definition ex_specs : node := Sec ["verbose"] ["run"] [("verbose", Leaf (VStr "boolean")); ("run", one "steps" (VStr "integer"))].
Ltac wf_tac := repeat match goal with
  | |- wf _ => apply wf_sec; cbn
  | |- NoDup _ => repeat constructor; simpl; intuition discriminate
  | |- dict_wf _ => repeat constructor; simpl; intuition discriminate
  | |- forall k, _ => intros k H
  | H : False |- _ => destruct H
  | H : false = true |- _ => discriminate H
  | H : _ \/ _ |- _ => destruct H as [H|H]
  | H : _ = ?k |- exists v, _ => subst k; eexists; cbn
  | |- _ /\ _ => split; [reflexivity|]
  | |- Some _ = Some _ => reflexivity
  | H : dmem _ ?k = true |- _ => apply dmem_in in H; cbn in H; tauto
  end.
Example ex_wf : wf ex_cfg /\ wf ex_patch /\ wf ex_specs.
Proof. unfold ex_cfg, ex_patch, ex_specs, one. split; [|split]; wf_tac. Qed.
Example ex_patched so ts io fo :
  match patch so ts io fo ex_specs ex_cfg ex_patch with
  | Ok (c, _) => option_at c ["run"; "steps"] = Some (VInt 7) /\ option_at c ["run"; "file"] = Some (VStr "a.nc") /\
                 option_at c ["run"; "io"; "fmt"] = Some (VStr "nc") /\ option_at c ["new"; "x"] = Some (VInt 1) /\ option_at c ["verbose"] = Some (VBool false)
  | Raise _ => False end.
Proof. cbn. auto 6. Qed.
Ltac names_tac := repeat (cbn; match goal with
  | |- context [String.eqb ?a ?b] => let E := fresh in destruct (String.eqb_spec a b) as [E|E]; [try subst a|]; try congruence
  end).
Example ex_fits : compatible ex_cfg ex_patch /\ specs_fit ex_specs ex_patch /\ plain_sections ex_patch.
Proof.
  split; [|split].
  - intros [|x [|y [|z [|t q]]]]; unfold ex_cfg, ex_patch, one; split; names_tac; cbn; try congruence.
  - intros [|x [|y [|z q]]] k; unfold ex_specs, ex_patch, one; names_tac; cbn; try congruence.
  - intros [|x [|y [|z [|t q]]]] k; unfold ex_patch, one; names_tac; cbn; try congruence; intros; reflexivity.
Qed.
