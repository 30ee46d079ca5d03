(** C75: managers and default configurations that share a specification object. *)
From Verif Require Import PyDictFacts.
From Verif Require Import BoolSpec BoolSpecProps.
From Verif Require Import CfgSpecsProofs.
From Coq Require Import Lia.
Open Scope string_scope.

(** ** What the claims are about *)
(** The options of the specifications are texts that can be parsed; booleans without default value
    are written "boolean" or "boolean(...)" with parameters *)
Definition readable_text (s : string) : Prop :=
  exists c, parse_check s = Ok c /\ (c_name c = "boolean" -> c_default c = None -> boolean_spec s).
Definition readable (t : node) : Prop := forall q v, option_at t q = Some v -> exists s, v = VStr s /\ readable_text s.
(** A boolean without default value gets False; nothing else changes *)
Inductive completed : string -> string -> Prop :=
| as_it_is s c : parse_check s = Ok c -> c_name c <> "boolean" \/ c_default c <> None -> completed s s
| with_false s s' c : parse_check s = Ok c -> c_name c = "boolean" -> c_default c = None ->
    parse_check s' = Ok (mkcheck "boolean" (c_args c) (c_kwargs c) (Some "False")) -> completed s s'.
(** Is the option or section at this path kept by this argument cfgfilter (None: not a dictionary)? *)
Definition kept_by (flt : option (list (string * fval) * bool)) (q : list string) : Prop :=
  match flt with None => True | Some (d, g) => kept d g q end.
(** The specifications of a manager: a tree [t] where each name of the top level has a comment *)
Record holds (st : state) (a : nat) (t : node) : Prop := {
  h_spec : exists sp, nth_error (st_specs st) a = Some sp /\ sp_tree sp = t /\ (sp_inline sp < List.length (st_dicts st))%nat /\
                      forall k, In k (scalars t ++ sections t)%list -> dmem (the_dict st (sp_inline sp)) k = true;
  h_wf : wf t }.

Lemma set_false_completed s : readable_text s -> exists s', set_false s = Ok s'.
Proof.
  intros (c & Hc & Hb). destruct (String.eqb_spec (c_name c) "boolean") as [E|N].
  - destruct (c_default c) eqn:D.
    + exists s. apply (C59_other s c); auto. right. rewrite D. discriminate.
    + destruct (C59_default s c (Hb E eq_refl) Hc D) as (s' & H & _). eauto.
  - exists s. apply (C59_other s c); auto.
Qed.
Lemma completed_of s s' : readable_text s -> set_false s = Ok s' -> completed s s' /\ readable_text s'.
Proof.
  intros (c & Hc & Hb) Hs. destruct (String.eqb_spec (c_name c) "boolean") as [E|N].
  - destruct (c_default c) eqn:D.
    + assert (X : set_false s = Ok s) by (apply (C59_other s c); auto; right; rewrite D; discriminate). rewrite X in Hs. injection Hs as <-.
      split; [apply (as_it_is s c); auto; right; rewrite D; discriminate|]. exists c. split; auto. intros _ Y. congruence.
    + destruct (C59_default s c (Hb E eq_refl) Hc D) as (s2 & H & Hp). rewrite Hs in H. injection H as <-.
      split; [now apply (with_false s s' c)|]. eexists. split; [exact Hp|]. cbn. discriminate.
  - assert (X : set_false s = Ok s) by (apply (C59_other s c); auto). rewrite X in Hs. injection Hs as <-.
    split; [apply (as_it_is s c); auto|]. exists c. split; [exact Hc|]. intro. contradiction.
Qed.
Lemma completed_trans a b c : completed a b -> completed b c -> completed a c.
Proof.
  intros H1 H2. destruct H1 as [s k|s s' k Hk Hn Hd Hp]; [exact H2|]. inversion H2 as [x k' Hk' Ho|x y k' Hk' Hn' Hd' Hp']; subst.
  - now apply (with_false s c k).
  - rewrite Hp in Hk'. injection Hk' as <-. discriminate.
Qed.
Lemma completed_text s s' : completed s s' -> readable_text s'.
Proof.
  intro H. destruct H as [s c Hc Ho|s s' c Hc Hn Hd Hp].
  - exists c. split; [auto|]. intros. destruct Ho; contradiction.
  - eexists. split; [exact Hp|]. cbn. discriminate.
Qed.

Lemma missing_none l : forall (d : dict string), NoDup l -> (forall k, In k l -> dmem d k = true) -> missing l d = None.
Proof.
  induction l as [|k l IH]; intros d N H; auto. cbn [missing]. rewrite (H k) by now left. inversion N; subst. rewrite IH; auto.
  intros y Hy. specialize (H y (or_intror Hy)). unfold dmem in *. unfold ddel. rewrite (dget_filter (fun x => negb (String.eqb k x))).
  destruct (String.eqb_spec k y) as [->|]; [contradiction|]. exact H.
Qed.
Lemma dmem_fold_del r : forall (i : dict string) k, dmem (fold_left (fun i k => ddel i k) r i) k = dmem i k && negb (mem k r).
Proof.
  induction r as [|x r IH]; intros i k; cbn [fold_left mem existsb]; [now rewrite andb_true_r|]. rewrite IH. unfold dmem, ddel.
  rewrite (dget_filter (fun y => negb (String.eqb x y))). rewrite (String.eqb_sym k x). unfold mem.
  destruct (String.eqb x k); cbn [negb orb]; [now rewrite andb_false_r|reflexivity].
Qed.
Lemma removed_in t d g k : In k (removed t d g) <-> In k (scalars t ++ sections t)%list /\ f_keep d g k = false.
Proof. unfold removed. rewrite filter_In. now rewrite negb_true_iff. Qed.
Lemma wf_names t : wf t -> NoDup (scalars t ++ sections t)%list.
Proof. intro W. inversion W; subst. auto. Qed.
Lemma filter_names t d g : wf t -> (scalars (filter_section t d g) ++ sections (filter_section t d g))%list = List.filter (f_keep d g) (scalars t ++ sections t)%list.
Proof. intro W. destruct t as [|sc ss it]; [inversion W|]. destruct (wf_parts _ _ _ W) as (N & _ & Hk). rewrite filter_level by auto. cbn [scalars sections]. now rewrite List.filter_app. Qed.
Lemma empty_nothing t : wf t -> is_empty t = true -> t = Sec [] [] [].
Proof.
  intros W H. inversion W as [sc ss it H1 H2 H3 H4 H5]; subst. unfold is_empty in H. cbn [items] in H. destruct it; [|discriminate].
  destruct sc as [|k sc]; [|destruct (H3 k (or_introl eq_refl)); discriminate]. destruct ss as [|k ss]; [|destruct (H4 k (or_introl eq_refl)) as (? & ? & _); discriminate]. reflexivity.
Qed.
Lemma set_tree_spec st a t sp : nth_error (st_specs st) a = Some sp ->
  nth_error (st_specs (set_tree st a t)) a = Some (mkspec t (sp_inline sp)) /\
  (forall b, b <> a -> nth_error (st_specs (set_tree st a t)) b = nth_error (st_specs st) b) /\
  st_dicts (set_tree st a t) = st_dicts st /\ st_configs (set_tree st a t) = st_configs st.
Proof.
  intro H. unfold set_tree. rewrite H. cbn [st_specs st_dicts st_configs]. repeat split; auto.
  - eapply put_nth_same; eauto.
  - intros b Hb. apply put_nth_other. auto.
Qed.

(** The filtering of an object *)
Definition filtered (flt : option (list (string * fval) * bool)) (t : node) : node := match flt with Some (d, g) => filter_section t d g | None => t end.
Lemma filtered_wf flt t : wf t -> wf (filtered flt t).
Proof. destruct flt as [[d g]|]; cbn [filtered]; auto using C36_wf. Qed.
Lemma filtered_at flt t q : wf t ->
  (kept_by flt q -> option_at (filtered flt t) q = option_at t q /\ section_at (filtered flt t) q = section_at t q) /\
  (~ kept_by flt q -> option_at (filtered flt t) q = None /\ section_at (filtered flt t) q = false).
Proof. destruct flt as [[d g]|]; cbn [filtered kept_by]; [apply C36_filter|tauto]. Qed.
(** The state after the first part of __init__ *)
Lemma first_part st a t flt : holds st a t -> exists st1,
  (forall bf, new_manager (Object a) flt bf st =
     if bf then let '(t', e) := walk_false (filtered flt t) in
                match e with Some e => (Raise e, set_tree st1 a t') | None => (Ok a, set_tree st1 a t') end
     else (Ok a, st1)) /\
  holds st1 a (filtered flt t) /\ (forall b, b <> a -> nth_error (st_specs st1) b = nth_error (st_specs st) b) /\
  List.length (st_dicts st1) = List.length (st_dicts st) /\
  (forall sp, nth_error (st_specs st) a = Some sp -> forall x, x <> sp_inline sp -> the_dict st1 x = the_dict st x) /\
  st_configs st1 = st_configs st /\ map sp_inline (st_specs st1) = map sp_inline (st_specs st).
Proof.
  intros [(sp & Hsp & Ht & Hi & Hc) W]. unfold new_manager. rewrite Hsp. destruct flt as [[d g]|]; cbn [filtered].
  - rewrite Ht. destruct (is_empty t) eqn:Em.
    + assert (E := empty_nothing t W Em). rewrite E in *. exists st. split.
      { intros [|]; reflexivity. }
      split; [|auto 10]. split; [|apply C36_wf; exact W]. exists sp. auto.
    + unfold filter_top. rewrite missing_none.
      2:{ unfold removed. apply NoDup_filter, wf_names, W. }
      2:{ intros k Hk. apply removed_in in Hk. apply Hc, Hk. }
      set (t1 := filter_section t d g). set (i1 := fold_left _ _ _).
      destruct (set_tree_spec st a t1 sp Hsp) as (A & B & C & D).
      exists (set_dict (set_tree st a t1) (sp_inline sp) i1). split.
      { intros [|]; auto. }
      split; [|split; [|split; [|split; [|split]]]].
      * split; [|now apply C36_wf]. exists (mkspec t1 (sp_inline sp)). unfold set_dict. cbn [st_specs sp_tree sp_inline st_dicts].
        split; [exact A|]. split; [reflexivity|]. split; [rewrite put_nth_length, C; exact Hi|].
        intros k Hk. unfold the_dict. cbn [st_dicts]. rewrite nth_put_same by (rewrite C; exact Hi). unfold i1. rewrite dmem_fold_del.
        unfold t1 in Hk. rewrite filter_names in Hk by exact W. apply filter_In in Hk. destruct Hk as [Hk Kp]. rewrite Hc by exact Hk. cbn [andb].
        apply negb_true_iff, mem_not. rewrite removed_in. intros [_ X]. congruence.
      * intros b Hb. unfold set_dict. cbn [st_specs]. now apply B.
      * unfold set_dict. cbn [st_dicts]. rewrite put_nth_length. now rewrite C.
      * intros sp' Hsp' x Hx. injection Hsp' as <-. unfold the_dict, set_dict. cbn [st_dicts]. rewrite nth_put_other by auto. now rewrite C.
      * unfold set_dict. cbn [st_configs]. exact D.
      * unfold set_dict. cbn [st_specs]. unfold set_tree. rewrite Hsp. cbn [st_specs]. eapply put_nth_map; eauto.
  - exists st. rewrite Ht. split; [intros [|]; auto|]. split; [|auto 10]. split; [|exact W]. exists sp. auto.
Qed.

(** ** A manager on a specification object *)
(** When the specifications are readable the manager is made; it works on the object itself, whose
    options and sections are those the filter keeps, as they were, with False as default value of
    the booleans (if requested); the other objects are not changed. *)
Theorem C75_manager st a t flt bf : holds st a t -> readable t -> exists st' t',
  new_manager (Object a) flt bf st = (Ok a, st') /\ holds st' a t' /\ readable t' /\
  (forall q, kept_by flt q ->
     section_at t' q = section_at t q /\
     match option_at t q with
     | Some (VStr s) => exists s', option_at t' q = Some (VStr s') /\ (bf = true -> completed s s') /\ (bf = false -> s' = s)
     | _ => option_at t' q = None
     end) /\
  (forall q, ~ kept_by flt q -> section_at t' q = false /\ option_at t' q = None) /\
  (forall b, b <> a -> nth_error (st_specs st') b = nth_error (st_specs st) b).
Proof.
  intros H R. destruct (first_part st a t flt H) as (st1 & Hm & H1 & Ho & _). rewrite (Hm bf). clear Hm.
  assert (W := h_wf _ _ _ H). assert (Rf : readable (filtered flt t)).
  { assert (D : forall q, option_at (filtered flt t) q = option_at t q \/ option_at (filtered flt t) q = None).
    { destruct flt as [[d g]|]; [|now left]. cbn [filtered]. clear -W. intro q. revert t d g W. induction q as [|x q IH]; intros t d g W.
      - right. destruct t as [|sc ss it]; [inversion W|]. destruct (wf_parts _ _ _ W) as (N & _ & Hk). now rewrite filter_level by auto.
      - destruct t as [|sc ss it]; [inversion W|]. destruct (wf_parts _ _ _ W) as (N & _ & Hk). rewrite filter_level by auto. rewrite !option_cons, dget_level.
        destruct (f_keep d g x); [|now right]. destruct (dget it x) as [m|] eqn:Em; [|now left]. unfold sub_filter. destruct (mem x ss) eqn:Ms; [|now left].
        destruct (dget d x) as [[|d'|]|]; try now left. apply IH. apply mem_in in Ms. inversion W as [? ? ? A1 A2 A3 A4 A5]; subst. destruct (A4 x Ms) as (m' & E & Wm). congruence. }
    intros q v Hv. destruct (D q) as [E|E]; rewrite E in Hv; [|discriminate]. now apply R in Hv. }
  destruct bf.
  - destruct (walk_false (filtered flt t)) as [t2 e] eqn:Ew. assert (Wk := walk_walked _ _ (filtered_wf flt t W) _ _ Ew).
    destruct e as [x|].
    { exfalso. destruct (w_err _ _ _ _ Wk x eq_refl) as (q & v & Hv & Hf). destruct (Rf q v Hv) as (s & -> & Hs). destruct (set_false_completed s Hs) as [s' E]. cbn in Hf. congruence. }
    assert (Opt : forall q v, option_at (filtered flt t) q = Some v -> exists s s', v = VStr s /\ option_at t2 q = Some (VStr s') /\ completed s s').
    { intros q v Hv. destruct (w_opt _ _ _ _ Wk q v Hv) as (v' & Ev & [(s & s' & -> & Es & ->)|[X _]]); [|congruence]. exists s, s'. split; auto. split; auto.
      destruct (Rf q _ Hv) as (s0 & E & Hs). injection E as <-. now apply completed_of. }
    destruct H1 as [(sp & Hsp & Ht & Hi & Hc) W1]. destruct (set_tree_spec st1 a t2 sp Hsp) as (A & B & C & D).
    exists (set_tree st1 a t2), t2. split; [reflexivity|]. split; [|split; [|split; [|split]]].
    + split; [|apply Wk]. exists (mkspec t2 (sp_inline sp)). split; [exact A|]. split; [reflexivity|]. cbn [sp_inline]. rewrite C. split; [exact Hi|].
      intros k Hk. rewrite (w_sc _ _ _ _ Wk), (w_ss _ _ _ _ Wk) in Hk. unfold the_dict. rewrite C. now apply Hc.
    + intros q v Hv. destruct (option_at (filtered flt t) q) as [w|] eqn:E; [|rewrite (w_none _ _ _ _ Wk q E) in Hv; discriminate].
      destruct (Opt q w E) as (s & s' & -> & Es & Hcp). rewrite Es in Hv. injection Hv as <-. exists s'. split; auto. eapply completed_text; eauto.
    + intros q Hq. destruct (proj1 (filtered_at flt t q W) Hq) as [E1 E2]. rewrite (w_sec _ _ _ _ Wk). split; [exact E2|].
      destruct (option_at t q) as [v|] eqn:Ev; [|apply (w_none _ _ _ _ Wk); congruence].
      destruct (Opt q v E1) as (s & s' & -> & Es & Hcp). exists s'. split; auto. split; auto. discriminate.
    + intros q Hq. destruct (proj2 (filtered_at flt t q W) Hq) as [E1 E2]. rewrite (w_sec _ _ _ _ Wk). split; [exact E2|]. now apply (w_none _ _ _ _ Wk).
    + intros b Hb. rewrite B by exact Hb. now apply Ho.
  - exists st1, (filtered flt t). split; [reflexivity|]. split; [exact H1|]. split; [exact Rf|]. split; [|split; [|exact Ho]].
    + intros q Hq. destruct (proj1 (filtered_at flt t q W) Hq) as [E1 E2]. split; [exact E2|].
      destruct (option_at t q) as [v|] eqn:Ev; [|exact E1]. destruct (R q v Ev) as (s & -> & _). exists s. split; auto. split; [discriminate|auto].
    + intros q Hq. destruct (proj2 (filtered_at flt t q W) Hq) as [E1 E2]. auto.
Qed.

(** ** Any number of managers on the same object: all of them see what all the filters keep *)
Fixpoint managers (a : nat) (l : list (option (list (string * fval) * bool) * bool)) (st : state) : list (res nat) * state :=
  match l with
  | [] => ([], st)
  | (flt, bf) :: l' => let '(r, st1) := new_manager (Object a) flt bf st in let '(rs, st2) := managers a l' st1 in (r :: rs, st2)
  end.
Theorem C75_history l : forall st a t, holds st a t -> readable t -> exists st' t',
  managers a l st = (map (fun _ => Ok a) l, st') /\ holds st' a t' /\ readable t' /\
  (forall q, Forall (fun m => kept_by (fst m) q) l ->
     section_at t' q = section_at t q /\
     match option_at t q with
     | Some (VStr s) => exists s', option_at t' q = Some (VStr s') /\
                        (Exists (fun m => snd m = true) l -> completed s s') /\ (Forall (fun m => snd m = false) l -> s' = s)
     | _ => option_at t' q = None
     end) /\
  (forall q, Exists (fun m => ~ kept_by (fst m) q) l -> section_at t' q = false /\ option_at t' q = None) /\
  (forall b, b <> a -> nth_error (st_specs st') b = nth_error (st_specs st) b).
Proof.
  induction l as [|[flt bf] l IH]; intros st a t H R.
  - exists st, t. split; [reflexivity|]. split; [exact H|]. split; [exact R|]. split; [|split; [|auto]].
    + intros q _. split; [auto|]. destruct (option_at t q) as [v|] eqn:E; [|reflexivity]. destruct (R q v E) as (s & -> & _). exists s. split; auto. split; [|auto]. intro X. inversion X.
    + intros q X. inversion X.
  - destruct (C75_manager st a t flt bf H R) as (st1 & t1 & Hm & H1 & R1 & K1 & N1 & F1). destruct (IH st1 a t1 H1 R1) as (st2 & t2 & Hl & H2 & R2 & K2 & N2 & F2).
    exists st2, t2. split; [cbn [managers map]; rewrite Hm, Hl; reflexivity|]. split; [exact H2|]. split; [exact R2|]. split; [|split].
    + intros q Hq. inversion Hq as [|? ? Hk Hl']; subst. cbn [fst] in Hk. destruct (K1 q Hk) as [S1 O1]. destruct (K2 q Hl') as [S2 O2]. split; [congruence|].
      destruct (option_at t q) as [v|] eqn:E.
      2:{ rewrite O1 in O2. exact O2. }
      destruct (R q v E) as (s & -> & Hs). destruct O1 as (s1 & E1 & C1 & D1). rewrite E1 in O2. destruct O2 as (s2 & E2 & C2 & D2). exists s2. split; [exact E2|]. split.
      * intro X. destruct bf.
        { specialize (C1 eq_refl). assert (Y : Exists (fun m => snd m = true) l \/ Forall (fun m => snd m = false) l).
          { clear. induction l as [|[f []] l IHl]; [now right|left; now left|]. destruct IHl; [left; now right|right; constructor; auto]. }
          destruct Y as [Y|Y]; [eapply completed_trans; eauto|]. now rewrite (D2 Y). }
        { rewrite (D1 eq_refl) in *. apply C2. inversion X; subst; auto. discriminate. }
      * intro X. inversion X as [|? ? X1 X2]; subst. cbn [snd] in X1. rewrite (D2 X2). now apply D1.
    + intros q Hq. inversion Hq as [? ? Hk|? ? Hl']; subst.
      * cbn [fst] in Hk. destruct (N1 q Hk) as [S1 O1].
        assert (G : forall l st t st' t', holds st a t -> readable t -> section_at t q = false -> option_at t q = None -> managers a l st = (map (fun _ => Ok a) l, st') -> holds st' a t' -> section_at t' q = false /\ option_at t' q = None).
        { clear. induction l as [|[f b] l IHl]; intros st t st' t' H R S O Hm H'.
          - cbn in Hm. injection Hm as <-. destruct H as [(sp & A & B & _) _], H' as [(sp' & A' & B' & _) _]. rewrite A in A'. injection A' as <-. subst. auto.
          - destruct (C75_manager st a t f b H R) as (st1 & t1 & Hn & H1 & R1 & K1 & N1 & _). cbn [managers map] in Hm. rewrite Hn in Hm. destruct (managers a l st1) as [rs st2] eqn:E. injection Hm as -> <-.
            apply (IHl st1 t1 st2 t'); auto.
            + destruct t1 as [v1|sc1 ss1 it1]; [destruct H1 as [_ W1]; inversion W1|].
              assert (Dec : kept_by f q \/ ~ kept_by f q).
              { destruct f as [[d g]|]; [|now left]. cbn [kept_by]. clear. revert d g. induction q as [|x q' IHq]; intros d g; [now left|]. cbn [kept].
                assert (A : allowed d g x \/ ~ allowed d g x) by (rewrite <- keep_allowed; destruct (f_keep d g x); [now left|right; discriminate]).
                destruct A as [A|A]; [|right; tauto]. destruct (dget d x) as [[|d'|]|]; try (left; tauto). destruct q'; [left; tauto|]. destruct (IHq d' false); [left|right]; tauto. }
              destruct Dec as [D|D]; [destruct (K1 q D) as [X _]; congruence|apply (N1 q D)].
            + assert (Dec : kept_by f q \/ ~ kept_by f q).
              { destruct f as [[d g]|]; [|now left]. cbn [kept_by]. clear. revert d g. induction q as [|x q' IHq]; intros d g; [now left|]. cbn [kept].
                assert (A : allowed d g x \/ ~ allowed d g x) by (rewrite <- keep_allowed; destruct (f_keep d g x); [now left|right; discriminate]).
                destruct A as [A|A]; [|right; tauto]. destruct (dget d x) as [[|d'|]|]; try (left; tauto). destruct q'; [left; tauto|]. destruct (IHq d' false); [left|right]; tauto. }
              destruct Dec as [D|D]; [destruct (K1 q D) as [_ X]; now rewrite O in X|apply (N1 q D)]. }
        eapply G; [exact H1|exact R1|exact S1|exact O1|exact Hl|exact H2].
      * now apply N2.
    + intros b Hb. rewrite F2, F1; auto.
Qed.
