(** Row dependence of cellave1d and get_edges_1d, for C91 (the analogue of InterpDeps.v) *)
From Verif Require Export InterpDeps.
From Verif Require Import Grid GridProofs.
Open Scope nat_scope.

(** *** Loops that only touch one row *)
Definition liftc {S T} (L : S -> T) (c : ctl S) : ctl T := match c with Next s => Next (L s) | Break s => Break (L s) | Fail e => Fail e end.
Definition liftr {S T} (L : S -> T) (r : res S) : res T := match r with Ok s => Ok (L s) | Raise e => Raise e end.
Lemma for_each_lift {A S T} (L : S -> T) (ok : S -> Prop) (body : A -> T -> ctl T) (rbody : A -> S -> ctl S) l s :
  ok s -> (forall x s, ok s -> body x (L s) = liftc L (rbody x s) /\ match rbody x s with Next s' | Break s' => ok s' | Fail _ => True end) ->
  for_each l body (L s) = liftr L (for_each l rbody s) /\ match for_each l rbody s with Ok s' => ok s' | Raise _ => True end.
Proof.
  intros Hs H. revert s Hs. induction l as [|x l IH]; intros s Hs; cbn; auto. destruct (H x s Hs) as [E O]. rewrite E.
  destruct (rbody x s) as [s'|s'|e]; cbn; auto.
Qed.
Lemma get2_row (a : arr) i r z : nth_error a i = Some r -> get2 a (Z.of_nat i) z = pyget r z.
Proof. intro H. unfold get2. now rewrite (pyget_nat a i r H). Qed.
Lemma upd_upd {A} (l : list A) k x y : upd (upd l k x) k y = upd l k y.
Proof. revert k. induction l as [|z l IH]; intros [|k]; cbn; auto. now rewrite IH. Qed.
Lemma set2_row (a : arr) i r z x : i < List.length a -> set2 (upd a i r) (Z.of_nat i) z x = (let* r' := pyset r z x in Ok (upd a i r')).
Proof.
  intro H. unfold set2. rewrite (pyget_nat (upd a i r) i r) by now apply nth_error_upd_eq. cbn [bind]. destruct (pyset r z x) as [r'|e]; cbn [bind]; auto.
  rewrite pyset_nat by now rewrite upd_length. now rewrite upd_upd.
Qed.

Section row.
  Variables (v yb ob : list fl) (conserv : bool) (extrap : string) (nyi : Z).
  (** The steps of cellave1d on one row *)
  Definition row_in_step (iyo iyi : Z) (st : Z * fl * list fl) : ctl (Z * fl * list fl) :=
    let '(iyi0, wo, r) := st in
    get* yib0 := pyget yb iyi in
    get* yib1 := pyget yb (iyi + 1)%Z in
    get* o0 := pyget ob iyo in
    get* o1 := pyget ob (iyo + 1)%Z in
    let yib0 := if ((String.eqb extrap "bellow" || String.eqb extrap "both") && (iyi =? 0)%Z && fltb o0 yib0)%bool then o0 else yib0 in
    let yib1 := if ((String.eqb extrap "above" || String.eqb extrap "both") && (iyi =? nyi - 1)%Z && fltb yib1 o1)%bool then o1 else yib1 in
    if fltb o1 yib0 then Break st
    else if fltb yib1 o0 then Next ((iyi + 1)%Z, wo, r)
    else
      let dyio := fsub (fmin yib1 o1) (fmax yib0 o0) in
      get* dyio := if (conserv && negb (feqb yib0 yib1))%bool then fdiv dyio (fsub o1 o0) else Ok dyio in
      get* x := pyget v iyi in
      get* wv :=
        (if isnan x then Ok (wo, r)
         else
           let* a := pyget r iyo in
           let* b := pyget v iyi in
           let* r' := pyset r iyo (fadd a (fmul b dyio)) in
           Ok (fadd wo dyio, r')) in
      let st' := (iyi0, fst wv, snd wv) in
      if fleb o1 yib1 then Break st' else Next st'.
  Definition row_out_step (iyo : Z) (st : Z * list fl) : ctl (Z * list fl) :=
    let '(iyi0, r) := st in
    get* o0 := pyget ob iyo in
    get* o1 := pyget ob (iyo + 1)%Z in
    if feqb o0 o1 then Next st
    else
      get* st2 := for_each (pyrange iyi0 nyi) (row_in_step iyo) (iyi0, f0, r) in
      let '(iyi0, wo, r) := st2 in
      if conserv then Next (iyi0, r)
      else if negb (feqb wo f0) then
        get* a := pyget r iyo in
        get* q := fdiv a wo in
        get* r' := pyset r iyo q in Next (iyi0, r')
      else
        get* r' := pyset r iyo nan in Next (iyi0, r').

  Variables (vari yib yob : arr) (ix ixiy ixoy : nat).
  Hypotheses (Hv : nth_error vari ix = Some v) (Hy : nth_error yib ixiy = Some yb) (Ho : nth_error yob ixoy = Some ob).
  Variable varo : arr.
  Hypothesis Hix : ix < List.length varo.
  Definition L3 (st : Z * fl * list fl) : Z * fl * arr := (fst st, upd varo ix (snd st)).
  Definition L2 (st : Z * list fl) : Z * arr := (fst st, upd varo ix (snd st)).
  Definition ok3 n (st : Z * fl * list fl) := List.length (snd st) = n.
  Definition ok2 n (st : Z * list fl) := List.length (snd st) = n.
  Lemma upd_row r : nth_error (upd varo ix r) ix = Some r. Proof. now apply nth_error_upd_eq. Qed.
  Lemma pyset_length (r r' : list fl) z x : pyset r z x = Ok r' -> List.length r' = List.length r.
  Proof. unfold pyset. destruct (pyidx _ _); [|discriminate]. intro H. injection H as <-. apply upd_length. Qed.
  Lemma in_step_lift n iyo iyi st : ok3 n st ->
    cellave_in_step vari yib yob conserv extrap (Z.of_nat ix) (Z.of_nat ix) (Z.of_nat ixiy) (Z.of_nat ixoy) nyi iyo iyi (L3 st) = liftc L3 (row_in_step iyo iyi st) /\
    match row_in_step iyo iyi st with Next s' | Break s' => ok3 n s' | Fail _ => True end.
  Proof.
    destruct st as [[i0 wo] r]. unfold ok3, L3. cbn [fst snd]. intro Hr. unfold cellave_in_step, row_in_step.
    rewrite !(get2_row yib ixiy yb) by auto. rewrite !(get2_row yob ixoy ob) by auto. rewrite (get2_row vari ix v) by auto. rewrite (get2_row (upd varo ix r) ix r) by apply upd_row.
    destruct (pyget yb iyi) as [y0|]; cbn [bindc liftc]; auto. destruct (pyget yb (iyi + 1)) as [y1|]; cbn [bindc liftc]; auto.
    destruct (pyget ob iyo) as [o0|]; cbn [bindc liftc]; auto. destruct (pyget ob (iyo + 1)) as [o1|]; cbn [bindc liftc]; auto.
    cbv zeta. set (c0 := if (_ && _)%bool then o0 else y0). set (c1 := if (_ && _)%bool then o1 else y1).
    destruct (fltb o1 c0); cbn [liftc fst snd]; auto. destruct (fltb c1 o0); cbn [liftc fst snd]; auto.
    destruct (if (conserv && negb (feqb c0 c1))%bool then _ else _) as [dy|]; cbn [bindc liftc]; auto.
    destruct (pyget v iyi) as [x|]; cbn [bindc liftc]; auto. destruct (isnan x); cbn [bindc fst snd].
    - destruct (fleb o1 c1); cbn [liftc fst snd]; auto.
    - destruct (pyget r iyo) as [a|]; cbn [bind bindc liftc]; auto. rewrite set2_row by auto. destruct (pyset r iyo _) as [r'|] eqn:E; cbn [bind bindc liftc]; auto.
      apply pyset_length in E. destruct (fleb o1 c1); cbn [liftc fst snd]; split; auto; congruence.
  Qed.
  Lemma out_step_lift n iyo st : ok2 n st ->
    cellave_out_step vari yib yob conserv extrap (Z.of_nat ix) (Z.of_nat ix) (Z.of_nat ixiy) (Z.of_nat ixoy) nyi iyo (L2 st) = liftc L2 (row_out_step iyo st) /\
    match row_out_step iyo st with Next s' | Break s' => ok2 n s' | Fail _ => True end.
  Proof.
    destruct st as [i0 r]. unfold ok2, L2. cbn [fst snd]. intro Hr. unfold cellave_out_step, row_out_step.
    rewrite !(get2_row yob ixoy ob) by auto.
    destruct (pyget ob iyo) as [o0|]; cbn [bindc liftc]; auto. destruct (pyget ob (iyo + 1)) as [o1|]; cbn [bindc liftc]; auto.
    destruct (feqb o0 o1); cbn [liftc fst snd]; auto.
    destruct (for_each_lift L3 (ok3 n) (cellave_in_step vari yib yob conserv extrap (Z.of_nat ix) (Z.of_nat ix) (Z.of_nat ixiy) (Z.of_nat ixoy) nyi iyo) (row_in_step iyo)
      (pyrange i0 nyi) (i0, f0, r) Hr (fun x s => in_step_lift n iyo x s)) as [E O].
    match type of E with ?X = _ => match goal with |- context [@for_each Z (Z * fl * arr) ?l ?b ?s] => change (@for_each Z (Z * fl * arr) l b s) with X end end.
    rewrite E. destruct (for_each _ (row_in_step iyo) _) as [[[i1 wo] r1]|]; cbn [liftr bindc liftc L3 fst snd] in *; auto. unfold ok3 in O. cbn [snd] in O.
    destruct conserv; cbn [liftc fst snd]; auto. rewrite (get2_row (upd varo ix r1) ix r1) by apply upd_row. rewrite !set2_row by auto.
    destruct (negb (feqb wo f0)).
    - destruct (pyget r1 iyo) as [a|]; cbn [bindc liftc]; auto. destruct (fdiv a wo) as [q|]; cbn [bindc liftc]; auto. rewrite set2_row by auto.
      destruct (pyset r1 iyo q) as [r2|] eqn:F; cbn [bind bindc liftc]; auto. apply pyset_length in F. cbn. split; auto. congruence.
    - destruct (pyset r1 iyo nan) as [r2|] eqn:F; cbn [bind bindc liftc]; auto. apply pyset_length in F. cbn. split; auto. congruence.
  Qed.
End row.
(** One row of cellave1d *)
Definition cell_row (v yb ob : list fl) conserv extrap (nyi nyo : nat) : res (Z * list fl) :=
  for_each (pyrange 0 (Z.of_nat nyo)) (row_out_step v yb ob conserv extrap (Z.of_nat nyi)) (0%Z, List.repeat f0 nyo).
Lemma cellave1d_row vari yib yob conserv extrap nxi nxiy nxo nyi nyo m out :
  shape vari nxi nyi -> shape yib nxiy m -> shape yob nxo (S nyo) -> 0 < nxi -> 0 < nxiy -> 0 < nxo -> nxo <= nxi ->
  cellave1d vari yib yob conserv extrap = Ok out ->
  List.length out = nxi /\
  forall ix v yb ob, ix < nxi -> nth_error vari ix = Some v -> nth_error yib (ix mod nxiy) = Some yb -> nth_error yob (ix mod nxo) = Some ob ->
    exists i r, nth_error out ix = Some r /\ List.length r = nyo /\ cell_row v yb ob conserv extrap nyi nyo = Ok (i, r).
Proof.
  intros Hv Hyi Hyo Hnxi Hnxiy Hnxo Hle Hout. unfold cellave1d in Hout.
  rewrite (shape_ncols yob nxo (S nyo)) in Hout by auto. rewrite (shape_ncols vari nxi nyi) in Hout by auto.
  rewrite (nrows_shape _ _ _ Hv), (nrows_shape _ _ _ Hyi), (nrows_shape _ _ _ Hyo) in Hout.
  replace (Z.max (Z.of_nat nxi) (Z.of_nat nxo)) with (Z.of_nat nxi) in Hout by lia.
  replace (Z.of_nat (S nyo) - 1)%Z with (Z.of_nat nyo) in Hout by lia.
  change 0%Z with (Z.of_nat 0) in Hout at 1. rewrite pyrange_nat, Nat.sub_0_r, for_each_map in Hout.
  apply for_each_seq_inv with (I := fun k varo =>
     List.length varo = nxi /\
     forall ix, ix < nxi ->
       if ix <? k then forall v yb ob, nth_error vari ix = Some v -> nth_error yib (ix mod nxiy) = Some yb -> nth_error yob (ix mod nxo) = Some ob ->
         exists i r, nth_error varo ix = Some r /\ List.length r = nyo /\ cell_row v yb ob conserv extrap nyi nyo = Ok (i, r)
       else nth_error varo ix = Some (List.repeat f0 nyo)) in Hout.
  - destruct Hout as [Hl Hr]. split; auto. intros ix v yb ob Hix. specialize (Hr ix Hix). replace (ix <? 0 + nxi) with true in Hr by (symmetry; apply Nat.ltb_lt; lia). apply Hr.
  - split; [apply length_full2|]. intros ix Hix. now apply nth_error_full2.
  - intros k varo Hk [Hl Hinv]. rewrite !row_index_ok by auto. cbn [bindc]. rewrite (Nat.mod_small k nxi) by lia.
    destruct (shape_get vari nxi nyi k) as [v Ev]; [auto|lia|].
    destruct (shape_get yib nxiy m (k mod nxiy)) as [yb Ey]; [auto|apply Nat.mod_upper_bound; lia|].
    destruct (shape_get yob nxo (S nyo) (k mod nxo)) as [ob Eo]; [auto|apply Nat.mod_upper_bound; lia|].
    pose proof (Hinv k ltac:(lia)) as Hk0. rewrite Nat.ltb_irrefl in Hk0.
    assert (Eu : varo = upd varo k (List.repeat f0 nyo)).
    { apply nth_error_ext. intro j. rewrite nth_error_upd by lia. destruct (Nat.eqb_spec j k) as [->|]; auto. }
    destruct (for_each_lift (L2 k varo) (ok2 nyo)
      (cellave_out_step vari yib yob conserv extrap (Z.of_nat k) (Z.of_nat k) (Z.of_nat (k mod nxiy)) (Z.of_nat (k mod nxo)) (Z.of_nat nyi))
      (row_out_step v yb ob conserv extrap (Z.of_nat nyi)) (pyrange 0 (Z.of_nat nyo)) (0%Z, List.repeat f0 nyo) (repeat_length f0 nyo)
      (fun x s => out_step_lift v yb ob conserv extrap (Z.of_nat nyi) vari yib yob k (k mod nxiy) (k mod nxo) Ev Ey Eo varo ltac:(lia) nyo x s)) as [E O].
    unfold L2 at 1 in E. cbn [fst snd] in E. rewrite <- Eu in E. change (Z.of_nat 0) with 0%Z.
    match type of E with ?X = _ => match goal with |- context [@for_each Z (Z * arr) ?l ?b ?s] => change (@for_each Z (Z * arr) l b s) with X end end.
    rewrite E. fold (cell_row v yb ob conserv extrap nyi nyo) in *.
    destruct (cell_row v yb ob conserv extrap nyi nyo) as [[i r]|e] eqn:Er; cbn [liftr bindc]; [|exact Logic.I]. unfold L2, ok2 in *. cbn [fst snd] in *.
    split; [now rewrite upd_length|]. intros ix Hix. rewrite nth_error_upd by lia. destruct (Nat.eqb_spec ix k) as [->|Hne].
    + replace (k <? 1 + k) with true by (symmetry; apply Nat.ltb_lt; lia). intros v' yb' ob' E1 E2 E3. exists i, r. split; auto. split; auto. congruence.
    + replace (ix <? 1 + k) with (ix <? k) by (destruct (Nat.ltb_spec ix k), (Nat.ltb_spec ix (1 + k)); auto; lia). now apply Hinv.
Qed.

(** The edges of a row do not depend on uninitialised memory nor on the other rows. *)
Lemma edges_same j j' d e e' : 2 <= List.length d -> get_edges_1d store_float j d = Ok e -> get_edges_1d store_float j' d = Ok e' -> e = e'.
Proof.
  intros Hn E E'. destruct (get_edges_1d_ok store_float j d Hn) as (x & Ex & Lx & Vx). destruct (get_edges_1d_ok store_float j' d Hn) as (y & Ey & Ly & Vy).
  assert (x = e) as <- by congruence. assert (y = e') as <- by congruence. apply nth_error_ext. intro k. destruct (le_lt_dec k (List.length d)) as [H|H].
  - now rewrite Vx, Vy.
  - rewrite !(proj2 (nth_error_None _ _)); auto; lia.
Qed.
Lemma map_res_inv {A B} (f : A -> res B) l m : map_res f l = Ok m -> List.length m = List.length l /\
  forall i x, nth_error l i = Some x -> exists y, nth_error m i = Some y /\ f x = Ok y.
Proof.
  revert m. induction l as [|x l IH]; cbn; intros m H; [injection H as <-; split; auto; intros [|i]; discriminate|].
  destruct (f x) as [y|] eqn:E; [|discriminate]. cbn [bind] in H. destruct (map_res f l) as [m'|]; [|discriminate]. cbn [bind] in H. injection H as <-.
  destruct (IH m' eq_refl) as [L I]. split; [cbn; lia|]. intros [|i] z Hz; cbn in *; [injection Hz as <-; eauto|auto].
Qed.
Lemma edges_rows_inv junk (a e : arr) n : get_edges_rows store_float junk a = Ok e -> Forall (fun r => List.length r = n) a -> 2 <= n ->
  List.length e = List.length a /\ Forall (fun r => List.length r = S n) e /\
  forall i r, nth_error a i = Some r -> exists x, nth_error e i = Some x /\ get_edges_1d store_float (fun _ => nan) r = Ok x.
Proof.
  intros E F Hn. unfold get_edges_rows in E. apply map_res_inv in E as [L V]. rewrite combine_length, seq_length, Nat.min_id in L.
  assert (V' : forall i r, nth_error a i = Some r -> exists x, nth_error e i = Some x /\ get_edges_1d store_float (fun _ => nan) r = Ok x /\ List.length x = S n).
  { intros i r Hr. assert (Hc : nth_error (combine (seq 0 (List.length a)) a) i = Some (i, r)).
    { clear -Hr. assert (G : forall (l : arr) k i, nth_error l i = Some r -> nth_error (combine (seq k (List.length l)) l) i = Some (k + i, r)).
      { induction l as [|y l IH]; intros k [|i0] H; cbn in *; try discriminate; [injection H as ->; now rewrite Nat.add_0_r|]. rewrite (IH (S k) i0 H). now rewrite Nat.add_succ_r. }
      apply (G a 0 i Hr). }
    destruct (V i (i, r) Hc) as (x & Hx & Ex). cbn [fst snd] in Ex. exists x. split; auto.
    assert (Hl : List.length r = n) by (rewrite Forall_forall in F; apply F; eapply nth_error_In; eauto).
    destruct (get_edges_1d_ok store_float (fun _ => nan) r ltac:(lia)) as (y & Ey & Ly & _). rewrite (edges_same _ _ r x y ltac:(lia) Ex Ey). split; auto. lia. }
  split; auto. split; [|intros i r Hr; destruct (V' i r Hr) as (x & H1 & H2 & _); eauto].
  apply Forall_forall. intros x Hx. apply In_nth_error in Hx as [i Hi]. destruct (nth_error a i) as [r|] eqn:Er.
  - destruct (V' i r Er) as (x' & H1 & _ & H3). congruence.
  - apply nth_error_None in Er. assert (i < List.length e) by (apply nth_error_Some; congruence). lia.
Qed.
