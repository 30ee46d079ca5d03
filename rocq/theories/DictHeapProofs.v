From Verif Require Export DictHeapSpec PyDictFacts.
Open Scope nat_scope.

(** ** Frame *)
Lemma hupd_length h a o : List.length (hupd h a o) = List.length h.
Proof. revert a; induction h as [|x h IH]; intros [|a]; simpl; auto. Qed.
Lemma hupd_other h a b o : a <> b -> nth_error (hupd h a o) b = nth_error h b.
Proof.
  revert a b; induction h as [|x h IH]; intros [|a] [|b] H; simpl; auto; try congruence.
Qed.
Lemma hupd_same h a o : a < List.length h -> nth_error (hupd h a o) a = Some o.
Proof.
  revert a; induction h as [|x h IH]; intros [|a] H; simpl in *; auto; try lia. apply IH. lia.
Qed.
Lemma nth_app_some (h : heap) k a x : nth_error h a = Some x -> nth_error (h ++ k) a = Some x.
Proof.
  intro H. rewrite nth_error_app1; auto. apply nth_error_Some. congruence.
Qed.

Definition ext1 (o : mopts) (x : hobj) (y : option hobj) : Prop :=
  match x with
  | OList l => exists l', y = Some (OList (l ++ l')) /\ (mergelists o = false -> l' = [])
  | _ => y = Some x
  end.
(** Everything is kept, except what is at the addresses [X] *)
Definition frame (o : mopts) (X : addr -> Prop) (h h' : heap) : Prop :=
  List.length h <= List.length h' /\
  forall a x, ~ X a -> nth_error h a = Some x -> ext1 o x (nth_error h' a).
Lemma ext1_refl o x : ext1 o x (Some x).
Proof. destruct x; simpl; try reflexivity. exists []. now rewrite app_nil_r. Qed.
Lemma frame_refl o X h : frame o X h h.
Proof. split; auto. intros a x _ H. rewrite H. apply ext1_refl. Qed.
Lemma frame_trans o X h1 h2 h3 : frame o X h1 h2 -> frame o X h2 h3 -> frame o X h1 h3.
Proof.
  intros [L1 F1] [L2 F2]. split; [lia|]. intros a x Ha Hx. specialize (F1 a x Ha Hx).
  destruct x; simpl in *.
  - apply (F2 a (ODict d)) in F1; auto.
  - destruct F1 as (l1 & E1 & N1). apply (F2 a (OList (l ++ l1)) Ha) in E1. simpl in E1.
    destruct E1 as (l2 & E2 & N2). exists (l1 ++ l2). rewrite app_assoc. split; auto.
    intro Hm. rewrite N1, N2 by auto. reflexivity.
  - apply (F2 a (OGen l)) in F1; auto.
Qed.
Lemma frame_weaken o (X Y : addr -> Prop) h h' : (forall a, X a -> Y a) -> frame o X h h' -> frame o Y h h'.
Proof. intros H [L F]. split; [exact L|]. intros a x Ha. apply F. auto. Qed.
Lemma frame_write o h a x : frame o (eq a) h (hupd h a x).
Proof.
  split; [now rewrite hupd_length|]. intros b y Hb Hy. rewrite hupd_other, Hy by auto. apply ext1_refl.
Qed.
Lemma frame_alloc o X h x : frame o X h (h ++ [x]).
Proof.
  split; [rewrite app_length; lia|]. intros b y _ Hy. rewrite (nth_app_some _ _ _ _ Hy). apply ext1_refl.
Qed.

Definition rec_frame (o : mopts) (rec : list hval -> hm hval) : Prop :=
  forall l h, frame o (fun _ => False) h (snd (rec l h)).

Lemma hmerge_item_frame o rec outa kv h : rec_frame o rec ->
  frame o (eq outa) h (snd (hmerge_item o rec outa kv h)).
Proof.
  intro Hr. destruct kv as [key val]. unfold hmerge_item.
  set (outd := dict_at h outa).
  destruct (skipnones o && none_h val); [apply frame_refl|].
  destruct (dget outd key) as [old|]; [|apply frame_write].
  destruct (overwriteempty o && _); [apply frame_write|].
  assert (Htup : frame o (eq outa) h (snd (match old, val with
          | HVal (VTuple a), HVal (VTuple b) =>
            if mergetuples o then
              if uniquify o then
                if forallb hashable (a ++ b) then hwrite outa (ODict (dset outd key (HVal (VTuple (gunique py_eqb (a ++ b)))))) h
                else 
                  hbind (hwrite outa (ODict (dset outd key (HVal (VTuple (a ++ b)))))) (fun _ => hraise TypeError) h
              else hwrite outa (ODict (dset outd key (HVal (VTuple (a ++ b))))) h
            else hret tt h
          | _, _ => hret tt h
          end))).
  { destruct old as [[]|]; try apply frame_refl. destruct val as [[]|]; try apply frame_refl.
    destruct (mergetuples o); [|apply frame_refl].
    destruct (uniquify o); [destruct (forallb _ _)|]; apply frame_write. }
  destruct (deref h old) as [x|] eqn:Eo; [|exact Htup].
  destruct x as [d|l|l]; [| |exact Htup]; (destruct (deref h val) as [y|] eqn:Ev; [|exact Htup]);
    destruct y as [d0|l0|l0]; try exact Htup.
  - destruct (mergesubdicts o); [|apply frame_refl]. unfold hbind.
    specialize (Hr [old; val] h). destruct (rec [old; val] h) as [[r|e] h']; cbn [snd] in *.
    + eapply frame_trans; [|apply frame_write].
      eapply frame_weaken; [|exact Hr]. intros a [].
    + eapply frame_weaken; [|exact Hr]. intros a [].
  - destruct (mergelists o) eqn:Em; [|apply frame_refl].
    destruct old as [|la]; [apply frame_refl|]. cbn [deref] in Eo.
    assert (Hw : frame o (eq outa) h (hupd h la (OList (l ++ l0)))).
    { split; [now rewrite hupd_length|]. intros b x _ Hb. destruct (Nat.eq_dec la b) as [<-|Hne].
      - rewrite Eo in Hb. injection Hb as <-. simpl. exists l0. split; [|congruence].
        apply hupd_same. apply nth_error_Some. congruence.
      - rewrite hupd_other, Hb by auto. apply ext1_refl. }
    unfold hbind, hwrite at 1. destruct (uniquify o).
    + unfold halloc. cbn [snd]. eapply frame_trans; [exact Hw|].
      eapply frame_trans; [apply frame_alloc|]. apply frame_write.
    + exact Hw.
Qed.
Lemma hfor_frame {A} o X (f : A -> hm unit) l h :
  (forall x h, frame o X h (snd (f x h))) -> frame o X h (snd (hfor l f h)).
Proof.
  intro Hf. revert h; induction l as [|x l IH]; intro h; [apply frame_refl|].
  cbn [hfor]. unfold hbind. specialize (Hf x h) as Hx.
  destruct (f x h) as [[u|e] h']; cbn [snd] in *; auto. eapply frame_trans; eauto.
Qed.
Lemma hmerge_dict_frame o rec outa d h : rec_frame o rec ->
  frame o (eq outa) h (snd (hmerge_dict o rec outa d h)).
Proof.
  intro Hr. unfold hmerge_dict. destruct (deref h d) as [[items| |]|]; try apply frame_refl.
  apply hfor_frame. intros. now apply hmerge_item_frame.
Qed.
Lemma hdict_merge_frame fuel : forall o, rec_frame o (hdict_merge fuel o).
Proof.
  induction fuel as [|fuel IH]; intros o dd h; [apply frame_refl|]. cbn [hdict_merge].
  destruct (forallb (is_dict_h h) _).
  - unfold hbind, halloc.
    assert (Hf := hfor_frame o (eq (List.length h)) (hmerge_dict o (hdict_merge fuel o) (List.length h))
       (List.filter (truthy_h h) dd) (h ++ [ODict []])
       (fun x h' => hmerge_dict_frame o _ _ x h' (IH o))).
    destruct (hfor _ _ (h ++ [ODict []])) as [u h'] eqn:E. cbn [snd] in Hf.
    assert (H : frame o (fun _ => False) h h').
    { destruct Hf as [L F]. rewrite app_length in L. simpl in L. split; [lia|]. intros a x _ Hx.
      apply F; [|now apply nth_app_some].
      assert (a < List.length h) by (apply nth_error_Some; congruence). lia. }
    destruct u; exact H.
  - destruct (forallb _ _); apply frame_refl.
Qed.
Lemma hfor_ok_length {A} o X (f : A -> hm unit) l h :
  (forall x h, frame o X h (snd (f x h))) -> List.length h <= List.length (snd (hfor l f h)).
Proof. intro Hf. exact (proj1 (hfor_frame o X f l h Hf)). Qed.

(** The result is a new object. *)
Lemma hdict_merge_fresh fuel o dd h r h' : hdict_merge fuel o dd h = (Ok r, h') ->
  r = HVal VNone \/ r = HRef (List.length h).
Proof.
  destruct fuel as [|fuel]; [discriminate|]. cbn [hdict_merge].
  destruct (forallb (is_dict_h h) _).
  - unfold hbind, halloc. destruct (hfor _ _ (h ++ [ODict []])) as [[u|e] h1]; [|discriminate].
    unfold hret. intro E. injection E as <- _. auto.
  - destruct (forallb _ _); intro E; [injection E as <- _|discriminate]; auto.
Qed.

(** ** Refinement of the value model *)
Inductive repx (X : addr -> Prop) (h : heap) : hval -> pyval -> Prop :=
| repx_val p : immutable p -> repx X h (HVal p) p
| repx_dict a d d' : ~ X a -> nth_error h a = Some (ODict d) ->
    Forall2 (fun kv kp => fst kv = fst kp /\ repx X h (snd kv) (snd kp)) d d' ->
    repx X h (HRef a) (VDict d')
| repx_list a l l' : ~ X a -> nth_error h a = Some (OList l) -> Forall2 (repx X h) l l' ->
    repx X h (HRef a) (VList l').
Lemma repx_mono (X Y : addr -> Prop) h h' :
  (forall a, ~ X a -> ~ Y a) ->
  (forall a x, ~ X a -> nth_error h a = Some x -> nth_error h' a = Some x) ->
  forall v p, repx X h v p -> repx Y h' v p.
Proof.
  intros HXY Hk. fix IH 3. intros v p H. destruct H as [p Hp|a d d' Ha Hd HF|a l l' Ha Hl HF].
  - now constructor.
  - apply repx_dict with d; auto. clear Hd. induction HF as [|? ? ? ? [E R] HF IHF]; constructor; auto.
  - apply repx_list with l; auto. clear Hl. induction HF as [|? ? ? ? R HF IHF]; constructor; auto.
Qed.
Lemma rep_repx h v p : rep h v p -> repx (fun _ => False) h v p.
Proof.
  revert v p. fix IH 3. intros v p H. destruct H as [p Hp|a d d' Hd HF|a l l' Hl HF].
  - now constructor.
  - apply repx_dict with d; auto. clear Hd. induction HF as [|? ? ? ? [E R] HF IHF]; constructor; auto.
  - apply repx_list with l; auto. clear Hl. induction HF as [|? ? ? ? R HF IHF]; constructor; auto.
Qed.
Lemma repx_rep h v p : repx (fun _ => False) h v p -> rep h v p.
Proof.
  revert v p. fix IH 3. intros v p H. destruct H as [p Hp|a d d' _ Hd HF|a l l' _ Hl HF].
  - now constructor.
  - apply rep_dict with d; auto. clear Hd. induction HF as [|? ? ? ? [E R] HF IHF]; constructor; auto.
  - apply rep_list with l; auto. clear Hl. induction HF as [|? ? ? ? R HF IHF]; constructor; auto.
Qed.

Lemma repx_truthy X h v p : repx X h v p -> truthy_h h v = truthy p.
Proof.
  intros [q Hq|a d d' Ha Hd HF|a l l' Ha Hl HF]; simpl; auto.
  - rewrite Hd. destruct HF; reflexivity.
  - rewrite Hl. destruct HF; reflexivity.
Qed.
Lemma repx_is_dict X h v p : repx X h v p -> is_dict_h h v = is_dict p.
Proof.
  intros [q Hq|a d d' Ha Hd HF|a l l' Ha Hl HF]; unfold is_dict_h; simpl.
  - destruct q; try reflexivity. destruct Hq.
  - now rewrite Hd.
  - now rewrite Hl.
Qed.
Lemma repx_none X h v p : repx X h v p -> none_h v = is_none p.
Proof. intros [q Hq|a d d' Ha Hd HF|a l l' Ha Hl HF]; simpl; reflexivity. Qed.

Definition reps X h (d : dict hval) (d' : dict pyval) : Prop :=
  Forall2 (fun kv kp => fst kv = fst kp /\ repx X h (snd kv) (snd kp)) d d'.
Lemma reps_get X h d d' k : reps X h d d' ->
  match dget d k, dget d' k with
  | Some v, Some p => repx X h v p
  | None, None => True
  | _, _ => False
  end.
Proof.
  intro H. induction H as [|[k1 v] [k2 p] d d' [E R] HF IH]; cbn [dget]; auto.
  cbn [fst snd] in *. rewrite <- E. destruct (String.eqb k k1); auto.
Qed.
Lemma reps_set X h d d' k v p : reps X h d d' -> repx X h v p -> reps X h (dset d k v) (dset d' k p).
Proof.
  intros H Hv. induction H as [|[k1 w] [k2 q] d d' [E R] HF IH]; cbn [dset].
  - apply Forall2_cons; [simpl; auto|apply Forall2_nil].
  - cbn [fst snd] in *. rewrite <- E. destruct (String.eqb k k1).
    + apply Forall2_cons; [simpl; auto|exact HF].
    + apply Forall2_cons; [simpl; auto|exact IH].
Qed.
Lemma Forall2_filter {A B} (R : A -> B -> Prop) f g l l' :
  (forall x y, R x y -> f x = g y) -> Forall2 R l l' -> Forall2 R (List.filter f l) (List.filter g l').
Proof.
  intros Hfg H. induction H as [|x y l l' Hxy HF IH]; simpl; auto.
  rewrite (Hfg x y Hxy). destruct (g y); auto.
Qed.
Lemma Forall2_forallb {A B} (R : A -> B -> Prop) f g l l' :
  (forall x y, R x y -> f x = g y) -> Forall2 R l l' -> forallb f l = forallb g l'.
Proof.
  intros Hfg H. induction H as [|x y l l' Hxy HF IH]; simpl; auto.
  now rewrite (Hfg x y Hxy), IH.
Qed.

Definition simr (X : addr -> Prop) (a : res hval * heap) (b : res pyval) : Prop :=
  match a, b with
  | (Ok r, h'), Ok p => repx X h' r p
  | (Raise e, _), Raise e' => e = e'
  | _, _ => False
  end.
Definition simd (X : addr -> Prop) (outa : addr) (a : res unit * heap) (b : res (dict pyval)) : Prop :=
  match a, b with
  | (Ok _, h'), Ok d' => outa < List.length h' /\ exists d, nth_error h' outa = Some (ODict d) /\ reps X h' d d'
  | (Raise e, _), Raise e' => e = e'
  | _, _ => False
  end.

Section Sim.
  Variable o : mopts.
  Hypothesis Hml : mergelists o = false.
  Variables (rec : list hval -> hm hval) (prec : list pyval -> res pyval).
  Variable X : addr -> Prop.
  Hypothesis Hrec_frame : rec_frame o rec.
  Hypothesis Hrec : forall h l l', (forall a, X a -> a < List.length h) ->
    Forall2 (repx X h) l l' -> simr X (rec l h) (prec l').
  Variable outa : addr.
  Hypothesis Hout : X outa.

  Lemma frame_eq Y h h' a x : frame o Y h h' -> ~ Y a -> nth_error h a = Some x -> nth_error h' a = Some x.
  Proof.
    intros [_ F] Ha Hx. specialize (F a x Ha Hx). destruct x; simpl in F; auto.
    destruct F as (l' & E & N). rewrite N, app_nil_r in E; auto.
  Qed.
  Lemma repx_frame h h' v p : frame o (eq outa) h h' -> repx X h v p -> repx X h' v p.
  Proof.
    intro F. apply repx_mono; auto. intros a x Ha. apply frame_eq with (Y := eq outa); auto.
    intros <-. auto.
  Qed.
  Lemma reps_frame h h' d d' : frame o (eq outa) h h' -> reps X h d d' -> reps X h' d d'.
  Proof.
    intros F H. induction H as [|? ? ? ? [E R] HF IH]; constructor; auto. split; auto.
    now apply repx_frame with h.
  Qed.

  Lemma sim_write h v p d d' k : outa < List.length h -> reps X h d d' -> repx X h v p ->
    simd X outa (hwrite outa (ODict (dset d k v)) h) (Ok (dset d' k p)).
  Proof.
    intros Hl Hd Hv. unfold hwrite. cbn [simd]. rewrite hupd_length. split; auto.
    exists (dset d k v). split; [now apply hupd_same|].
    apply reps_frame with h; [apply frame_write|]. now apply reps_set.
  Qed.

  Lemma sim_item h kv kp d d' :
    (forall a, X a -> a < List.length h) ->
    nth_error h outa = Some (ODict d) -> reps X h d d' ->
    fst kv = fst kp -> repx X h (snd kv) (snd kp) ->
    simd X outa (hmerge_item o rec outa kv h) (merge_item o prec (fst kp) (snd kp) d').
  Proof.
    intros HX Hd HR Ek Hv. destruct kv as [key v], kp as [key' p]. cbn [fst snd] in *. subst key'.
    assert (Hl : outa < List.length h) by (apply nth_error_Some; congruence).
    unfold hmerge_item, merge_item. unfold dict_at. rewrite Hd. rewrite (repx_none _ _ _ _ Hv).
    assert (Hid : simd X outa (hret tt h) (Ok d')). { split; eauto. }
    destruct (skipnones o && is_none p); [exact Hid|].
    assert (Hg := reps_get X h d d' key HR).
    destruct (dget d key) as [old|], (dget d' key) as [pold|]; try contradiction.
    2:{ now apply sim_write. }
    rewrite (repx_truthy _ _ _ _ Hg). unfold is_empty.
    destruct (overwriteempty o && negb (truthy pold)); [now apply sim_write|].
    rewrite Hml.
    assert (Hg' := Hg). assert (Hv' := Hv).
    destruct Hg as [q Hq|a da da' Ha Hda HFa|a la la' Ha Hla HFa];
      destruct Hv as [q2 Hq2|a2 da2 da2' Ha2 Hda2 HFa2|a2 la2 la2' Ha2 Hla2 HFa2];
      cbn [deref]; rewrite ?Hda, ?Hla, ?Hda2, ?Hla2.
    - destruct q; try contradiction; try exact Hid;
        destruct q2; try contradiction; try exact Hid.
      destruct (mergetuples o); [|exact Hid]. destruct (uniquify o).
      + destruct (forallb hashable (l ++ l0)); [|reflexivity].
        apply sim_write; auto. constructor. exact I.
      + apply sim_write; auto. constructor. exact I.
    - destruct q; try contradiction; exact Hid.
    - destruct q; try contradiction; exact Hid.
    - destruct q2; try contradiction; exact Hid.
    - destruct (mergesubdicts o); [|exact Hid]. unfold hbind.
      assert (Hs := Hrec h [HRef a; HRef a2] [VDict da'; VDict da2'] HX).
      assert (HF2 : Forall2 (repx X h) [HRef a; HRef a2] [VDict da'; VDict da2']).
      { apply Forall2_cons; [exact Hg'|apply Forall2_cons; [exact Hv'|apply Forall2_nil]]. }
      specialize (Hs HF2). assert (Hf := Hrec_frame [HRef a; HRef a2] h).
      destruct (rec [HRef a; HRef a2] h) as [[r|e] h'], (prec [VDict da'; VDict da2']) as [pr|e'];
        cbn [simr] in Hs; try contradiction.
      + cbn [bind]. cbn [snd] in Hf. destruct Hf as [L F] eqn:Ef.
        apply sim_write; auto; [lia|].
        apply reps_frame with h; auto. apply (frame_weaken o (fun _ => False)); [intros ? []|]. split; auto.
      + subst. reflexivity.
    - destruct (mergesubdicts o); exact Hid.
    - destruct q2; try contradiction; exact Hid.
    - exact Hid.
    - exact Hid.
  Qed.

  Lemma sim_items items pitems : forall h d d',
    (forall a, X a -> a < List.length h) ->
    nth_error h outa = Some (ODict d) -> reps X h d d' -> reps X h items pitems ->
    simd X outa (hfor items (hmerge_item o rec outa) h) (merge_items o prec pitems d').
  Proof.
    unfold merge_items.
    revert pitems. induction items as [|kv items IH]; intros pitems h d d' HX Hd HR HI;
      inversion HI as [|? kp ? pitems' [E R] HI']; subst; cbn [hfor for_each].
    - unfold hret. cbn [simd]. split; [apply nth_error_Some; congruence|eauto].
    - unfold hbind, next_of. assert (Hs := sim_item h kv kp d d' HX Hd HR E R).
      assert (Hf := hmerge_item_frame o rec outa kv h Hrec_frame).
      destruct (hmerge_item o rec outa kv h) as [[u|e] h1];
        destruct (merge_item o prec (fst kp) (snd kp) d') as [d1'|e']; cbn [simd] in Hs; try contradiction.
      + cbn [snd bind] in *. destruct Hs as (L & d1 & Hd1 & HR1).
        apply IH with d1; auto.
        * intros a Ha. apply HX in Ha. destruct Hf as [Hf _]. lia.
        * apply reps_frame with h; auto.
      + subst. reflexivity.
  Qed.

  Lemma sim_dicts dd : forall pdd h d d',
    (forall a, X a -> a < List.length h) ->
    nth_error h outa = Some (ODict d) -> reps X h d d' ->
    Forall2 (repx X h) dd (map VDict pdd) ->
    simd X outa (hfor dd (hmerge_dict o rec outa) h) (merge_dicts o prec pdd d').
  Proof.
    unfold merge_dicts. induction dd as [|v dd IH]; intros pdd h d d' HX Hd HR HI.
    - inversion HI as [E0|]; subst. destruct pdd; [|discriminate].
      cbn [hfor for_each]. split; [apply nth_error_Some; congruence|eauto].
    - destruct pdd as [|pd pdd]; [inversion HI|]. cbn [map] in HI.
      inversion HI as [|? ? ? ? R HI']; subst. cbn [hfor for_each].
      unfold hbind, next_of. inversion R as [? Hp|a da da' Ha Hda HFa|]; subst; [destruct Hp|].
      unfold hmerge_dict at 1. cbn [deref]. rewrite Hda.
      assert (Hs := sim_items da pd h d d' HX Hd HR HFa).
      assert (Hf := hfor_frame o (eq outa) (hmerge_item o rec outa) da h
         (fun kv h => hmerge_item_frame o rec outa kv h Hrec_frame)).
      destruct (hfor da (hmerge_item o rec outa) h) as [[u|e] h1];
        destruct (merge_items o prec pd d') as [d1'|e']; cbn [simd] in Hs; try contradiction.
      + cbn [snd bind] in *. destruct Hs as (L & d1 & Hd1 & HR1).
        apply IH with d1; auto.
        * intros b Hb. apply HX in Hb. destruct Hf as [Hf _]. lia.
        * clear -HI' Hf Hml Hout. induction HI'; constructor; auto. now apply repx_frame with h.
      + subst. reflexivity.
  Qed.
End Sim.

Lemma dicts_of_all l : forallb is_dict l = true -> l = map VDict (dicts_of l).
Proof.
  induction l as [|v l IH]; [reflexivity|]. cbn [forallb]. intro H. apply andb_true_iff in H.
  destruct H as [H1 H2]. destruct v; try discriminate. cbn [dicts_of map]. now rewrite <- IH.
Qed.
Lemma sim_merge o : mergelists o = false -> forall fuel (X : addr -> Prop) h dd pdd,
  (forall a, X a -> a < List.length h) -> Forall2 (repx X h) dd pdd ->
  simr X (hdict_merge fuel o dd h) (dict_merge fuel o pdd).
Proof.
  intro Hml. induction fuel as [|fuel IH]; intros X h dd pdd HX HF; [reflexivity|].
  cbn [hdict_merge dict_merge].
  assert (HF' := Forall2_filter _ (truthy_h h) truthy _ _ (repx_truthy X h) HF).
  set (dd1 := List.filter (truthy_h h) dd) in *. set (pdd1 := List.filter truthy pdd) in *.
  rewrite (Forall2_forallb _ (is_dict_h h) is_dict _ _ (repx_is_dict X h) HF').
  destruct (forallb is_dict pdd1) eqn:Ed.
  - unfold hbind, halloc. set (outa := List.length h).
    set (Y := fun a => X a \/ a = outa).
    assert (HY : forall a, ~ X a -> a < outa -> ~ Y a).
    { intros a H1 H2 [H|H]; [auto|lia]. }
    assert (Hlt : forall a x, nth_error h a = Some x -> a < outa).
    { intros a x Hx. apply nth_error_Some. congruence. }
    rewrite (dicts_of_all pdd1 Ed) in HF'.
    assert (HFY : Forall2 (repx Y (h ++ [ODict []])) dd1 (map VDict (dicts_of pdd1))).
    { assert (Hm : forall v p, repx X h v p -> repx Y (h ++ [ODict []]) v p).
      { (* first hide in h, then extend *)
        fix IHr 3. intros v p H. destruct H as [p Hp|a d d' Ha Hd HFr|a l l' Ha Hl HFr].
        - now constructor.
        - apply repx_dict with d; [eauto|now apply nth_app_some|].
          clear Hd. induction HFr as [|? ? ? ? [E R] HFr IHF]; constructor; auto.
        - apply repx_list with l; [eauto|now apply nth_app_some|].
          clear Hl. induction HFr as [|? ? ? ? R HFr IHF]; constructor; auto. }
      clear -HF' Hm. induction HF'; constructor; auto. }
    assert (Hs := sim_dicts o Hml (hdict_merge fuel o) (dict_merge fuel o) Y
       (hdict_merge_frame fuel o)
       (fun h0 l l' => IH Y h0 l l') outa (or_intror eq_refl)
       dd1 (dicts_of pdd1) (h ++ [ODict []]) [] []).
    assert (Hs' : simd Y outa (hfor dd1 (hmerge_dict o (hdict_merge fuel o) outa) (h ++ [ODict []]))
       (merge_dicts o (dict_merge fuel o) (dicts_of pdd1) [])).
    { apply Hs; auto.
      - intros a [Ha|Ha]; rewrite app_length; simpl; [apply HX in Ha; lia|unfold outa in Ha; lia].
      - unfold outa. rewrite nth_error_app2, Nat.sub_diag by lia. reflexivity.
      - apply Forall2_nil. }
    clear Hs.
    destruct (hfor dd1 _ _) as [[u|e] h1], (merge_dicts _ _ _ _) as [d'|e'];
      cbn [simd bind] in *; try contradiction.
    + destruct Hs' as (L & d & Hd & HR). unfold hret. cbn [simr].
      apply repx_dict with d.
      * intro Ha. apply HX in Ha. unfold outa in Ha. lia.
      * exact Hd.
      * clear -HR HX. induction HR as [|? ? ? ? [E R] HF IH]; constructor; auto. split; auto.
        apply (repx_mono Y X h1 h1); auto. intros a Ha Hx. apply Ha. now left.
    + exact Hs'.
  - set (f := fun v => _). set (g := fun d : dict pyval => forallb (fun kv => skipnones o && is_none (snd kv)) d).
    assert (Hfg : forallb f dd1 = forallb g (dicts_of pdd1)).
    { clear Ed. induction HF' as [|v p l l' R HF' IHF]; [reflexivity|]. cbn [forallb]. rewrite IHF.
      destruct R as [q Hq|a d d' Ha Hd HFr|a l0 l0' Ha Hl HFr]; unfold f at 1; cbn [deref].
      - destruct q; try contradiction; reflexivity.
      - rewrite Hd. cbn [dicts_of forallb]. f_equal. unfold g.
        apply (Forall2_forallb (fun kv kp => fst kv = fst kp /\ repx X h (snd kv) (snd kp))); auto.
        intros x y [_ Hxy]. now rewrite (repx_none _ _ _ _ Hxy).
      - rewrite Hl. reflexivity. }
    destruct (forallb f dd1);
      match goal with |- context [if ?b then Ok VNone else Raise TypeError] =>
        assert (Hb : b = forallb g (dicts_of pdd1)) by reflexivity; rewrite <- Hfg in Hb; destruct b;
        try discriminate Hb end; cbn [simr]; [apply repx_val; exact I|reflexivity].
Qed.
