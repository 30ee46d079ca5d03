(** Auxiliary facts for C75 *)
From Verif Require Import PyDictFacts.
From Verif Require Export CfgSpecs CfgFilterProps.
From Coq Require Import Lia.
Open Scope string_scope.

Lemma put_nth_same {A} (l : list A) i x y : nth_error l i = Some y -> nth_error (put_nth l i x) i = Some x.
Proof. revert i. induction l as [|z l IH]; intros [|i] H; cbn in *; try discriminate; auto. Qed.
Lemma put_nth_other {A} (l : list A) i j x : i <> j -> nth_error (put_nth l i x) j = nth_error l j.
Proof. revert i j. induction l as [|z l IH]; intros [|i] [|j] H; cbn; auto; try congruence. Qed.
Lemma put_nth_length {A} (l : list A) i x : List.length (put_nth l i x) = List.length l.
Proof. revert i. induction l as [|z l IH]; intros [|i]; cbn; auto. Qed.
Lemma put_nth_map {A B} (f : A -> B) (l : list A) i x y : nth_error l i = Some y -> f x = f y -> map f (put_nth l i x) = map f l.
Proof. revert i. induction l as [|z l IH]; intros [|i] H E; cbn in *; try discriminate; f_equal; auto. injection H as <-. auto. Qed.
Lemma nth_put_other {A} (l : list A) i j x d : i <> j -> nth j (put_nth l i x) d = nth j l d.
Proof. revert i j. induction l as [|z l IH]; intros [|i] [|j] H; cbn; auto; try congruence. Qed.
Lemma nth_put_same {A} (l : list A) i x d : (i < List.length l)%nat -> nth i (put_nth l i x) d = x.
Proof. revert i. induction l as [|z l IH]; intros [|i] H; cbn in *; auto; try lia. apply IH. lia. Qed.

Section walks.
  Variable change : string -> res string.
  Definition fails (v : val) (x : exn) : Prop := match v with VStr s => change s = Raise x | _ => x = TypeError end.
  Definition changed (v v' : val) : Prop := exists s s', v = VStr s /\ change s = Ok s' /\ v' = VStr s'.
  Lemma walk_options_spec l : forall it it' e, NoDup l -> dict_wf it -> (forall k, In k l -> exists v, dget it k = Some (Leaf v)) ->
    walk_options change l it = (it', e) ->
    dict_wf it' /\ dkeys it' = dkeys it /\ (forall k, ~ In k l -> dget it' k = dget it k) /\
    (forall k v, In k l -> dget it k = Some (Leaf v) -> exists v', dget it' k = Some (Leaf v') /\ (changed v v' \/ e <> None /\ v' = v)) /\
    (forall x, e = Some x -> exists k v, In k l /\ dget it k = Some (Leaf v) /\ fails v x).
  Proof.
    induction l as [|k l IH]; intros it it' e N W H Hw; cbn [walk_options] in Hw.
    - injection Hw as <- <-. repeat split; auto. intros k v []. discriminate.
    - destruct (H k (or_introl eq_refl)) as [v Ev]. rewrite Ev in Hw. inversion N as [|? ? Nk Nl]; subst.
      assert (Stop : forall x, fails v x -> (it, Some x) = (it', e) ->
        dict_wf it' /\ dkeys it' = dkeys it /\ (forall y, ~ In y (k :: l) -> dget it' y = dget it y) /\
        (forall y w, In y (k :: l) -> dget it y = Some (Leaf w) -> exists w', dget it' y = Some (Leaf w') /\ (changed w w' \/ e <> None /\ w' = w)) /\
        (forall x, e = Some x -> exists y w, In y (k :: l) /\ dget it y = Some (Leaf w) /\ fails w x)).
      { intros x Hx E. injection E as <- <-. repeat split; auto.
        - intros y w _ Hy. exists w. split; auto. right. split; [discriminate|reflexivity].
        - intros y E. injection E as <-. exists k, v. split; [now left|auto]. }
      destruct v as [| | | |s|]; try (eapply Stop; [reflexivity|exact Hw]).
      destruct (change s) as [s'|x] eqn:Es; [|eapply Stop; [exact Es|exact Hw]]. clear Stop.
      apply IH in Hw; [|exact Nl|now apply dset_wf|].
      2:{ intros y Hy. rewrite dget_dset. destruct (String.eqb_spec y k) as [->|]; [contradiction|]. apply H. now right. }
      destruct Hw as (A & B & C & D & F). split; [exact A|]. split; [|split; [|split]].
      + rewrite B. rewrite dkeys_dset. unfold dmem. now rewrite Ev.
      + intros y Hy. rewrite C by (intro; apply Hy; now right). rewrite dget_dset. destruct (String.eqb_spec y k) as [->|]; auto. exfalso. apply Hy. now left.
      + intros y w [<-|Hy] Ew.
        * rewrite Ev in Ew. injection Ew as <-. exists (VStr s'). split; [|left; exists s, s'; auto].
          rewrite C by exact Nk. now rewrite dget_dset, String.eqb_refl.
        * apply D; auto. rewrite dget_dset. destruct (String.eqb_spec y k) as [->|]; [contradiction|auto].
      + intros x Hx. destruct (F x Hx) as (y & w & Hy & Ew & Hf). rewrite dget_dset in Ew. destruct (String.eqb_spec y k) as [->|]; [contradiction|].
        exists y, w. split; [now right|auto].
  Qed.
  (** What a walk does to a tree *)
  Record walked (n n' : node) (e : option exn) : Prop := {
    w_wf : wf n';
    w_sc : scalars n' = scalars n;
    w_ss : sections n' = sections n;
    w_keys : dkeys (items n') = dkeys (items n);
    w_sec : forall q, section_at n' q = section_at n q;
    w_none : forall q, option_at n q = None -> option_at n' q = None;
    w_opt : forall q v, option_at n q = Some v -> exists v', option_at n' q = Some v' /\ (changed v v' \/ e <> None /\ v' = v);
    w_err : forall x, e = Some x -> exists q v, option_at n q = Some v /\ fails v x }.
  Lemma walk_sections_spec subs l : forall it it' e, NoDup l -> dict_wf it ->
    (forall k, In k l -> exists n n' w, dget it k = Some n /\ dget subs k = Some (n', w) /\ walked n n' w) ->
    walk_sections subs l it = (it', e) ->
    dict_wf it' /\ dkeys it' = dkeys it /\ (forall k, ~ In k l -> dget it' k = dget it k) /\
    (forall k n, In k l -> dget it k = Some n -> (e <> None /\ dget it' k = Some n) \/ exists n' w, dget it' k = Some n' /\ walked n n' w /\ (w <> None -> e <> None)) /\
    (forall x, e = Some x -> exists k n n', In k l /\ dget it k = Some n /\ walked n n' (Some x)).
  Proof.
    induction l as [|k l IH]; intros it it' e N W H Hw; cbn [walk_sections] in Hw.
    - injection Hw as <- <-. split; [auto|]. split; [auto|]. split; [auto|]. split; [intros k n []|discriminate].
    - inversion N as [|? ? Nk Nl]; subst. destruct (H k (or_introl eq_refl)) as (n & n' & w & En & Es & Hk). rewrite Es in Hw.
      assert (Kd : dkeys (dset it k n') = dkeys it) by (rewrite dkeys_dset; unfold dmem; now rewrite En).
      destruct w as [x|].
      + injection Hw as <- <-. split; [now apply dset_wf|]. split; [exact Kd|]. split; [|split].
        * intros y Hy. rewrite dget_dset. destruct (String.eqb_spec y k) as [->|]; auto. exfalso. apply Hy. now left.
        * intros y m [<-|Hy] Em.
          { rewrite En in Em. injection Em as <-. right. exists n', (Some x). split; [now rewrite dget_dset, String.eqb_refl|]. split; [exact Hk|discriminate]. }
          { left. split; [discriminate|]. rewrite dget_dset. destruct (String.eqb_spec y k) as [->|]; [contradiction|auto]. }
        * intros y E. injection E as <-. exists k, n, n'. split; [now left|]. auto.
      + apply IH in Hw; [|exact Nl|now apply dset_wf|].
        2:{ intros y Hy. destruct (H y (or_intror Hy)) as (m & m' & w & Em & Es' & Hm). exists m, m', w. split; [|auto]. rewrite dget_dset. destruct (String.eqb_spec y k) as [->|]; [contradiction|auto]. }
        destruct Hw as (A & B & C & D & F). split; [exact A|]. split; [congruence|]. split; [|split].
        * intros y Hy. rewrite C by (intro; apply Hy; now right). rewrite dget_dset. destruct (String.eqb_spec y k) as [->|]; auto. exfalso. apply Hy. now left.
        * intros y m [<-|Hy] Em.
          { rewrite En in Em. injection Em as <-. right. exists n', None. split; [|split; [exact Hk|congruence]]. rewrite C by exact Nk. now rewrite dget_dset, String.eqb_refl. }
          { apply D; auto. rewrite dget_dset. destruct (String.eqb_spec y k) as [->|]; [contradiction|auto]. }
        * intros x Hx. destruct (F x Hx) as (y & m & m' & Hy & Em & Hm). rewrite dget_dset in Em. destruct (String.eqb_spec y k) as [->|]; [contradiction|].
          exists y, m, m'. split; [now right|auto].
  Qed.
  Lemma dget_map_snd {B} (f : node -> B) it k : dget (map (fun kn => (fst kn, f (snd kn))) it) k = option_map f (dget it k).
  Proof. induction it as [|[y n] it IH]; auto. cbn [map dget fst snd]. destruct (String.eqb k y); auto. Qed.
  Lemma walk_walked n : wf n -> forall n' e, walk_texts change n = (n', e) -> walked n n' e.
  Proof.
    intro W. induction W as [sc ss it H1 H2 H3 H4 H5] using wf_rec. intros n' e Hw. cbn [walk_texts] in Hw.
    destruct (walk_options change sc it) as [it1 e1] eqn:E1. apply walk_options_spec in E1; auto.
    2: now apply nodup_app_l in H1.
    destruct E1 as (W1 & K1 & N1 & O1 & F1).
    assert (Sec1 : forall k, In k ss -> dget it1 k = dget it k).
    { intros k Hk. apply N1. intro X. exact (nodup_app_not sc ss k H1 X Hk). }
    assert (W0 : wf (Sec sc ss it)).
    { constructor; auto. intros k Hk. destruct (H4 k Hk) as (m & Em & Wm & _). eauto. }
    assert (Wf1 : wf (Sec sc ss it1)).
    { constructor; auto.
      - intros k Hk. destruct (H3 k Hk) as [v Ev]. destruct (O1 k v Hk Ev) as (v' & Ev' & _). eauto.
      - intros k Hk. rewrite Sec1 by auto. destruct (H4 k Hk) as (m & Em & Wm & _). eauto.
      - intros k Hk. apply H5. apply dmem_in. rewrite <- K1. now apply dmem_in. }
    assert (Cases : forall k, dget it k = None \/ (exists v, In k sc /\ dget it k = Some (Leaf v)) \/ (exists m, In k ss /\ dget it k = Some m /\ wf m)).
    { intro k. destruct (dget it k) as [m|] eqn:Em; [right|now left]. destruct (H5 k) as [Hk|Hk]; [unfold dmem; now rewrite Em| |].
      - left. destruct (H3 k Hk) as [v Ev]. exists v. split; auto. congruence.
      - right. destruct (H4 k Hk) as (m' & Em' & Wm & _). exists m. split; auto. split; auto. congruence. }
    destruct e1 as [x|].
    - injection Hw as <- <-. constructor; auto.
      + intros [|k q]; [reflexivity|]. rewrite !section_cons. destruct (Cases k) as [Ek|[(v & Hk & Ev)|(m & Hk & Em & Wm)]].
        * assert (X : dget it1 k = None) by (apply dget_none; rewrite K1; now apply dget_none). now rewrite X, Ek.
        * destruct (O1 k v Hk Ev) as (v' & Ev' & _). rewrite Ev, Ev'. now destruct q.
        * now rewrite Sec1.
      + intros [|k q]; [reflexivity|]. rewrite !option_cons. destruct (Cases k) as [Ek|[(v & Hk & Ev)|(m & Hk & Em & Wm)]].
        * assert (X : dget it1 k = None) by (apply dget_none; rewrite K1; now apply dget_none). now rewrite X.
        * destruct (O1 k v Hk Ev) as (v' & Ev' & _). rewrite Ev, Ev'. destruct q; [discriminate|reflexivity].
        * now rewrite Sec1.
      + intros [|k q] v; [discriminate|]. rewrite !option_cons. destruct (Cases k) as [Ek|[(w & Hk & Ev)|(m & Hk & Em & Wm)]].
        * rewrite Ek. discriminate.
        * destruct (O1 k w Hk Ev) as (v' & Ev' & Hc). rewrite Ev, Ev'. destruct q; [|discriminate]. cbn [option_at]. intro E. injection E as <-. exists v'. split; auto.
        * rewrite Sec1 by auto. rewrite Em. intro E. exists v. split; [auto|]. right. split; [discriminate|auto].
      + intros y Ey. destruct (F1 y Ey) as (k & v & Hk & Ev & Hf). exists [k], v. split; [now rewrite option_cons, Ev|exact Hf].
    - destruct (walk_sections _ ss it1) as [it2 e2] eqn:E2. injection Hw as <- <-.
      apply walk_sections_spec in E2; [|clear -H1; induction sc; auto; apply IHsc; now inversion H1|exact W1|].
      2:{ intros k Hk. destruct (H4 k Hk) as (m & Em & Wm & IH). exists m. destruct (walk_texts change m) as [m' w] eqn:Ew. exists m', w.
          split; [now rewrite Sec1|]. split; [|now apply IH]. rewrite (dget_map_snd (walk_texts change)), Em. cbn [option_map]. now rewrite Ew. }
      destruct E2 as (W2 & K2 & N2 & O2 & F2).
      assert (S2 : forall k, In k sc -> dget it2 k = dget it1 k).
      { intros k Hk. apply N2. now apply (nodup_app_not sc ss). }
      assert (O2' : forall k m, In k ss -> dget it k = Some m -> (e2 <> None /\ dget it2 k = Some m) \/ exists n' w, dget it2 k = Some n' /\ walked m n' w /\ (w <> None -> e2 <> None)).
      { intros k m Hk Em. apply O2; auto. now rewrite Sec1. }
      constructor; auto.
      + constructor; auto.
        * intros k Hk. rewrite S2 by auto. destruct (H3 k Hk) as [v Ev]. destruct (O1 k v Hk Ev) as (v' & Ev' & _). eauto.
        * intros k Hk. destruct (H4 k Hk) as (m & Em & Wm & _). destruct (O2' k m Hk Em) as [[_ X]|(n' & w & X & Hn & _)]; [eauto|]. exists n'. split; auto. apply Hn.
        * intros k Hk. apply H5. apply dmem_in. rewrite <- K1, <- K2. now apply dmem_in.
      + cbn [items]. congruence.
      + intros [|k q]; [reflexivity|]. rewrite !section_cons. destruct (Cases k) as [Ek|[(v & Hk & Ev)|(m & Hk & Em & Wm)]].
        * assert (X : dget it2 k = None) by (apply dget_none; rewrite K2, K1; now apply dget_none). now rewrite X, Ek.
        * destruct (O1 k v Hk Ev) as (v' & Ev' & _). rewrite S2, Ev, Ev' by auto. now destruct q.
        * destruct (O2' k m Hk Em) as [[_ X]|(n' & w & X & Hn & _)]; rewrite X, Em; [reflexivity|]. apply Hn.
      + intros [|k q]; [reflexivity|]. rewrite !option_cons. destruct (Cases k) as [Ek|[(v & Hk & Ev)|(m & Hk & Em & Wm)]].
        * assert (X : dget it2 k = None) by (apply dget_none; rewrite K2, K1; now apply dget_none). now rewrite X.
        * destruct (O1 k v Hk Ev) as (v' & Ev' & _). rewrite S2, Ev, Ev' by auto. destruct q; [discriminate|reflexivity].
        * destruct (O2' k m Hk Em) as [[_ X]|(n' & w & X & Hn & _)]; rewrite X, Em; [auto|]. apply Hn.
      + intros [|k q] v; [discriminate|]. rewrite !option_cons. destruct (Cases k) as [Ek|[(w & Hk & Ev)|(m & Hk & Em & Wm)]].
        * rewrite Ek. discriminate.
        * destruct (O1 k w Hk Ev) as (v' & Ev' & Hc). rewrite S2, Ev, Ev' by auto. destruct q; [|discriminate]. cbn [option_at]. intro E. injection E as <-. exists v'. split; auto.
          destruct Hc as [Hc|[X _]]; [now left|congruence].
        * rewrite Em. intro E. destruct (O2' k m Hk Em) as [[He X]|(n' & w & X & Hn & He)]; rewrite X.
          { exists v. auto. }
          { destruct (w_opt _ _ _ Hn q v E) as (v' & Ev' & Hc). exists v'. split; auto. destruct Hc as [|[]]; auto. }
      + intros y Ey. destruct (F2 y Ey) as (k & m & m' & Hk & Em & Hm). rewrite Sec1 in Em by auto. destruct (w_err _ _ _ Hm y eq_refl) as (q & v & Eq & Hf).
        exists (k :: q), v. split; [now rewrite option_cons, Em|exact Hf].
  Qed.
End walks.
