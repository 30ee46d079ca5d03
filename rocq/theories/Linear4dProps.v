(** Property C76: interpolation of a gridded variable to points (linear4dto1dxx).

    The function is documented to return the value at the points.  It never does: it has no
    result, it writes in a local array only, and it never even writes there. *)
From Coq Require Import ZArith QArith List Bool Lia.
From Verif Require Import PyBase Linear4d.
Import ListNotations.
Open Scope Z_scope.

(** ** Specification *)
(** The sizes and the arguments that the documentation describes *)
Record sizes := mksizes { s_ex : nat; s_exz : nat; s_t : nat; s_tz : nat; s_z : nat; s_zz : nat;
  s_y : nat; s_yz : nat; s_x : nat; s_xz : nat; s_nyx : nat; s_nxx : nat; s_nyy : nat; s_nxy : nat }.
Definition curvilinear (s : sizes) : Prop := s_nyx s <> 1%nat.
Record regular (o : arith) (s : sizes) (xxi yyi zzi : arr (F o)) (ti : list (F o)) (vi : arr (F o)) (xo yo zo to : list (F o)) : Prop := mkregular {
  r_x : a_shape xxi = [s_nyx s; s_nxx s]; r_y : a_shape yyi = [s_nyy s; s_nxy s];
  r_z : a_shape zzi = [s_exz s; s_tz s; s_zz s; s_yz s; s_xz s];
  r_v : a_shape vi = [s_ex s; s_t s; s_z s; s_y s; s_x s];
  r_ti : ti <> [];
  r_pos : Forall (fun n => (1 <= n)%nat) [s_ex s; s_exz s; s_t s; s_tz s; s_z s; s_zz s; s_y s; s_yz s; s_x s; s_xz s; s_nyx s; s_nxx s; s_nyy s; s_nxy s];
  r_ex : (s_exz s <= s_ex s)%nat;
  r_curved : curvilinear s -> s_x s = s_nxy s /\ s_y s = s_nyx s;
  r_xz : s_xz s = 1%nat \/ s_xz s = s_x s; r_yz : s_yz s = 1%nat \/ s_yz s = s_y s; r_tz : s_tz s = 1%nat \/ s_tz s = s_t s;
  r_yo : List.length yo = List.length xo; r_zo : List.length zo = List.length xo; r_to : List.length to = List.length xo }.

(** Along one dimension: a single value, or between the bounds *)
Definition within (o : arith) (n : nat) (l : list (F o)) (io : nat) (lo hi : F o) : Prop :=
  n = 1%nat \/ exists x, nth_error l io = Some x /\ ge o x lo = true /\ le o x hi = true.
(** The box of the code: along x, from the least DATUM to the greatest longitude *)
Definition in_box (o : arith) (s : sizes) (xxi yyi zzi : arr (F o)) (ti : list (F o)) (vi : arr (F o)) (xo yo zo to : list (F o)) (io : nat) : Prop :=
  within o (s_x s) xo io (amin o (elements o vi)) (amax o (elements o xxi)) /\
  within o (s_y s) yo io (amin o (elements o yyi)) (amax o (elements o yyi)) /\
  within o (s_z s) zo io (amin o (elements o zzi)) (amax o (elements o zzi)) /\
  within o (s_t s) to io (amin o (elements o (vec o ti))) (amax o (elements o (vec o ti))).
(** grid2relloc finds the point out of the curvilinear grid *)
Definition off_grid (o : arith) (s : sizes) (xxi yyi : arr (F o)) (xo yo : list (F o)) (io : nat) : Prop :=
  curvilinear s /\ exists x y, nth_error xo io = Some x /\ nth_error yo io = Some y /\
  let '(p, q) := relloc o xxi yyi x y in
  ltZ o p 1 = true \/ gtZ o p (Z.of_nat (s_x s)) = true \/ ltZ o q 1 = true \/ gtZ o q (Z.of_nat (s_y s)) = true.

(** ** Proofs *)
Definition errs : list exn := [IndexError; TypeError; ValueError].
Definition fails {A} (r : res A) : Prop := exists e, r = Raise e /\ In e errs.
Definition tame {A} (r : res A) : Prop := match r with Ok _ => True | Raise e => In e errs end.
Lemma tame_bind {A B} (r : res A) (f : A -> res B) : tame r -> (forall a, r = Ok a -> tame (f a)) -> tame (bind r f).
Proof. destruct r; cbn; auto. Qed.
Lemma fails_bind {A B} (r : res A) (f : A -> res B) : tame r -> (forall a, r = Ok a -> fails (f a)) -> fails (bind r f).
Proof. destruct r; cbn; auto. intros. exists e. auto. Qed.
Lemma tame_for {S} l (f : nat -> S -> res S) : (forall i s, tame (f i s)) -> forall s, tame (for_ l f s).
Proof. intro H. induction l as [|i l IH]; cbn; intro s; [exact Logic.I|]. apply tame_bind; auto. Qed.

Section Proofs.
Context (o : arith).
Lemma wrap_tame n i : tame (wrap n i).
Proof. unfold wrap. destruct (_ || _); cbn; auto. Qed.
Lemma wraps_tame sh : forall ix, tame (wraps sh ix).
Proof.
  induction sh as [|n sh IH]; intros [|i ix]; cbn; auto. apply tame_bind; [apply wrap_tame|]. intros j _. apply tame_bind; auto. intros; exact Logic.I.
Qed.
Lemma item_tame (a : arr (F o)) ix : tame (item o a ix).
Proof. unfold item. apply tame_bind; [apply wraps_tame|]. intros; exact Logic.I. Qed.
Lemma subscript_fails {A} (v : scalar o) : fails (subscript o (A := A) v).
Proof. destruct v; eexists; split; try reflexivity; cbn; auto. Qed.
Lemma item1_nth l io : item1 o l (Z.of_nat io) = match nth_error l io with Some x => Ok x | None => Raise IndexError end.
Proof.
  unfold item1, item, vec. cbn [a_shape wraps]. unfold wrap. destruct (nth_error l io) as [x|] eqn:E.
  - assert (L : (io < List.length l)%nat) by (apply nth_error_Some; congruence).
    replace ((Z.of_nat io <? - Z.of_nat (List.length l)) || (Z.of_nat (List.length l) <=? Z.of_nat io)) with false.
    2: { symmetry. apply orb_false_intro; [apply Z.ltb_ge|apply Z.leb_gt]; lia. }
    replace (Z.of_nat io <? 0) with false by (symmetry; apply Z.ltb_ge; lia). cbn [bind hd a_at]. rewrite Nat2Z.id. f_equal. now apply nth_error_nth.
  - apply nth_error_None in E. replace ((Z.of_nat io <? - Z.of_nat (List.length l)) || (Z.of_nat (List.length l) <=? Z.of_nat io)) with true; [reflexivity|].
    symmetry. apply orb_true_intro. right. apply Z.leb_le. lia.
Qed.
Lemma elements_nonempty (a : arr (F o)) : Forall (fun n => (1 <= n)%nat) (a_shape a) -> exists x l, elements o a = x :: l.
Proof.
  unfold elements. intro H. assert (N : indices (a_shape a) <> []).
  { induction H as [|n sh Hn H IH]; cbn; [discriminate|]. destruct n as [|n]; [lia|]. cbn. destruct (indices sh); [contradiction|]. discriminate. }
  destruct (indices (a_shape a)); [contradiction|]. cbn. eauto.
Qed.
Lemma reduce_ok f (a : arr (F o)) : Forall (fun n => (1 <= n)%nat) (a_shape a) -> reduce o f a = Ok (f (elements o a)).
Proof. intro H. unfold reduce. destruct (elements_nonempty a H) as (x & l & ->). reflexivity. Qed.

Lemma vertical_cases zo zzi nzi nex ntiz nyiz nxiz io xc yc tc r : (1 <= nex)%nat ->
  vertical o zzi zo ntiz nzi nyiz nxiz nex io xc yc tc = Ok r -> fst (fst r) = Some (SInt o 0).
Proof.
  intros Hn. unfold vertical. destruct (nzi =? 1)%nat; [intro X; injection X as <-; reflexivity|].
  destruct (local_zi o _ _ _ _ _ _ _ _ _) as [zi|]; [|discriminate]. cbn [bind]. destruct nex as [|nex]; [lia|]. cbn [range seq for_].
  destruct zi; discriminate.
Qed.
Lemma local_zi_tame zzi nzi nex ntiz nyiz nxiz xc yc tc : tame (local_zi o zzi ntiz nzi nyiz nxiz nex xc yc tc).
Proof.
  unfold local_zi. destruct (if (nxiz =? 1)%nat then _ else _) as [[iz npiz] az]. destruct (if (nyiz =? 1)%nat then _ else _) as [[jz npjz] bz].
  destruct (if (ntiz =? 1)%nat then _ else _) as [[lz nplz] dz].
  apply tame_for. intros ie s1. apply tame_for. intros ll s2. apply tame_for. intros kk s3. apply tame_for. intros jj s4. apply tame_for. intros ii s5.
  apply tame_bind; [apply item_tame|]. intros; exact Logic.I.
Qed.
Lemma vertical_tame zo zzi nzi nex ntiz nyiz nxiz io xc yc tc : tame (vertical o zzi zo ntiz nzi nyiz nxiz nex io xc yc tc).
Proof.
  unfold vertical. destruct (nzi =? 1)%nat; [exact Logic.I|]. apply tame_bind; [apply local_zi_tame|]. intros zi _.
  destruct nex as [|nex]; [exact Logic.I|]. cbn [range seq for_]. destruct zi; cbn; auto.
Qed.
Lemma interpolate_fails vi nexz nex io xc yc tc c npk vo : (1 <= nexz <= nex)%nat ->
  interpolate o vi nexz nex io xc yc tc (Some (SInt o 0)) c npk vo = Raise TypeError.
Proof.
  intros H. unfold interpolate. destruct xc as [[i npi] a], yc as [[j npj] b], tc as [[l npl] d].
  assert (N : (1 <= nex / nexz)%nat) by (apply Nat.div_le_lower_bound; lia). destruct (nex / nexz)%nat; [lia|].
  destruct nexz; [lia|]. reflexivity.
Qed.
Lemma interpolate_same vi nexz nex io xc yc tc k c npk vo vo' : (forall v, k = Some v -> exists i, v = SInt o i) ->
  interpolate o vi nexz nex io xc yc tc k c npk vo = Ok vo' -> vo' = vo.
Proof.
  intros Hk. unfold interpolate. destruct xc as [[i npi] a], yc as [[j npj] b], tc as [[l npl] d].
  destruct nexz as [|nexz]; [intro E; apply (f_equal (fun r => match r with Ok v => v | Raise _ => vo end)) in E; symmetry; exact E|].
  destruct (nex / S nexz)%nat; [intro E; apply (f_equal (fun r => match r with Ok v => v | Raise _ => vo end)) in E; symmetry; exact E|].
  cbn [range seq for_]. destruct k as [v|]; [|discriminate]. destruct (Hk v eq_refl) as [z ->]. discriminate.
Qed.

Section One.
Context (s : sizes) (xxi yyi zzi : arr (F o)) (ti : list (F o)) (vi : arr (F o)) (xo yo zo to : list (F o)).
Context (x0 x1 y0 y1 z0 z1 t0 t1 : F o).
Let pt := point o xxi yyi zzi ti vi xo yo zo to (s_nyx s) (s_exz s) (s_tz s) (s_z s) (s_yz s) (s_xz s) (s_ex s) (s_t s) (s_y s) (s_x s) x0 x1 y0 y1 z0 z1 t0 t1.
Let box io := within o (s_x s) xo io x0 x1 /\ within o (s_y s) yo io y0 y1 /\ within o (s_z s) zo io z0 z1 /\ within o (s_t s) to io t0 t1.

Lemma in_range_ok n l io lo hi : (io < List.length l)%nat -> exists b, in_range o n l io lo hi = Ok b /\ (b = true <-> within o n l io lo hi).
Proof.
  intro L. unfold in_range, within. destruct (Nat.eqb_spec n 1) as [->|Hn].
  - exists true. split; auto. split; auto.
  - rewrite item1_nth. destruct (nth_error l io) as [x|] eqn:E; [|apply nth_error_None in E; lia]. cbn [bind].
    destruct (ge o x lo) eqn:G.
    + exists (le o x hi). split; auto. split; [intro H; right; eauto|]. intros [H|(y & Hy & _ & H)]; [congruence|]. congruence.
    + exists false. split; auto. split; [discriminate|]. intros [H|(y & Hy & H & _)]; [congruence|]. congruence.
Qed.
Lemma skipped_ok io : (io < List.length xo)%nat -> List.length yo = List.length xo -> List.length zo = List.length xo -> List.length to = List.length xo ->
  exists b, skipped o xo yo zo to (s_z s) (s_t s) (s_y s) (s_x s) x0 x1 y0 y1 z0 z1 t0 t1 io = Ok b /\ (b = true <-> box io).
Proof.
  intros L Ly Lz Lt. unfold skipped, box.
  destruct (in_range_ok (s_x s) xo io x0 x1 L) as (b1 & -> & H1). cbn [bind]. destruct b1; cbn [negb].
  2: { exists false. split; auto. split; [discriminate|]. intros (H & _). apply H1 in H. discriminate. }
  destruct (in_range_ok (s_y s) yo io y0 y1) as (b2 & -> & H2); [lia|]. cbn [bind]. destruct b2; cbn [negb].
  2: { exists false. split; auto. split; [discriminate|]. intros (_ & H & _). apply H2 in H. discriminate. }
  destruct (in_range_ok (s_z s) zo io z0 z1) as (b3 & -> & H3); [lia|]. cbn [bind]. destruct b3; cbn [negb].
  2: { exists false. split; auto. split; [discriminate|]. intros (_ & _ & H & _). apply H3 in H. discriminate. }
  destruct (in_range_ok (s_t s) to io t0 t1) as (b4 & -> & H4); [lia|]. exists b4. split; auto. rewrite H4. tauto.
Qed.
Lemma cell_tame io : tame (x_cell o xxi xo (s_x s) io) /\ tame (y_cell o yyi yo (s_y s) io) /\ tame (t_cell o ti to (s_t s) io).
Proof.
  split; [|split].
  - unfold x_cell. destruct (_ =? 1)%nat; [exact Logic.I|]. apply tame_bind; [apply item_tame|]. intros. apply tame_bind; [apply item_tame|]. intros.
    destruct (same o _ _); [exact Logic.I|]. apply tame_bind; [apply item_tame|]. intros. apply tame_bind; [apply item_tame|]. intros. exact Logic.I.
  - unfold y_cell. destruct (_ =? 1)%nat; [exact Logic.I|]. apply tame_bind; [apply item_tame|]. intros. apply tame_bind; [apply item_tame|]. intros.
    destruct (same o _ _); [exact Logic.I|]. apply tame_bind; [apply item_tame|]. intros. apply tame_bind; [apply item_tame|]. intros. exact Logic.I.
  - unfold t_cell. destruct (_ =? 1)%nat; [exact Logic.I|]. apply tame_bind; [apply item_tame|]. intros. apply tame_bind; [apply item_tame|]. intros.
    destruct (same o _ _); [exact Logic.I|]. apply tame_bind; [apply item_tame|]. intros. apply tame_bind; [apply item_tame|]. intros. destruct (same o _ _); exact Logic.I.
Qed.
Lemma point_cases io vo : (io < List.length xo)%nat -> List.length yo = List.length xo -> List.length zo = List.length xo -> List.length to = List.length xo ->
  (1 <= s_exz s <= s_ex s)%nat ->
  (pt io vo = Ok vo /\ (box io \/ off_grid o s xxi yyi xo yo io)) \/ (fails (pt io vo) /\ ~ (box io \/ off_grid o s xxi yyi xo yo io)).
Proof.
  intros L Ly Lz Lt Hex. unfold pt, point. destruct (skipped_ok io L Ly Lz Lt) as (b & -> & Hb). cbn [bind]. destruct b.
  { left. split; auto. left. now apply Hb. }
  assert (NB : ~ box io) by (intro H; apply Hb in H; discriminate). destruct (cell_tame io) as (Tx & Ty & Tt).
  assert (Rest : forall xc yc, fails (let* tc := t_cell o ti to (s_t s) io in
     let* v := vertical o zzi zo (s_tz s) (s_z s) (s_yz s) (s_xz s) (s_ex s) io xc yc tc in
     let '(k, c, npk) := v in interpolate o vi (s_exz s) (s_ex s) io xc yc tc k c npk vo)).
  { intros xc yc. apply fails_bind; auto. intros tc _. apply fails_bind; [apply vertical_tame|]. intros v Ev.
    apply vertical_cases in Ev; [|lia]. destruct v as [[k c] npk]. cbn in Ev. subst k. rewrite interpolate_fails by auto.
    exists TypeError. split; auto. cbn; auto. }
  unfold off_grid, curvilinear. destruct (Nat.eqb_spec (s_nyx s) 1) as [E|E]; cbn [negb].
  - right. split; [|intros [H|(H & _)]; auto]. destruct (x_cell o xxi xo (s_x s) io) as [xc|e] eqn:Ex; cbn [bind]; [|exists e; rewrite ?Ex in *; auto].
    destruct (y_cell o yyi yo (s_y s) io) as [yc|e] eqn:Ey; cbn [bind]; [|exists e; auto]. apply Rest.
  - unfold curved_cells. rewrite !item1_nth. destruct (nth_error xo io) as [x|] eqn:Ex; [|apply nth_error_None in Ex; lia]. cbn [bind].
    destruct (nth_error yo io) as [y|] eqn:Ey; [|apply nth_error_None in Ey; lia]. cbn [bind]. destruct (relloc o xxi yyi x y) as [p q] eqn:Er.
    destruct (ltZ o p 1 || gtZ o p (Z.of_nat (s_x s)) || ltZ o q 1 || gtZ o q (Z.of_nat (s_y s))) eqn:Eo.
    + left. split; [reflexivity|]. right. split; auto. exists x, y. rewrite Er. split; auto. split; auto. rewrite !orb_true_iff in Eo. tauto.
    + right. split.
      * destruct (trunc o p); [|exists ValueError; cbn; auto]. destruct (trunc o q); [|exists ValueError; cbn; auto]. cbn [bind]. apply Rest.
      * intros [H|(_ & x' & y' & Hx & Hy & H)]; auto. assert (x' = x) by congruence. assert (y' = y) by congruence. subst x' y'. rewrite Er in H.
        rewrite !orb_false_iff in Eo. destruct Eo as (((-> & ->) & ->) & ->) in H. intuition congruence.
Qed.
Lemma loop_cases no vo : (no <= List.length xo)%nat -> List.length yo = List.length xo -> List.length zo = List.length xo -> List.length to = List.length xo ->
  (1 <= s_exz s <= s_ex s)%nat ->
  forall a, (a + no <= List.length xo)%nat ->
  (for_ (seq a no) pt vo = Ok vo /\ forall io, (a <= io < a + no)%nat -> box io \/ off_grid o s xxi yyi xo yo io) \/
  (fails (for_ (seq a no) pt vo) /\ exists io, (a <= io < a + no)%nat /\ ~ (box io \/ off_grid o s xxi yyi xo yo io)).
Proof.
  intros Hn Ly Lz Lt Hex. induction no as [|no IH]; intros a Ha; cbn [seq for_].
  - left. split; auto. lia.
  - destruct (point_cases a vo) as [(E & H)|(E & H)]; auto; [lia| |].
    + rewrite E. cbn [bind]. destruct (IH ltac:(lia) (S a)) as [(E' & H')|(E' & io & Hio & H')]; [lia| |].
      * left. split; auto. intros io Hio. destruct (Nat.eq_dec io a) as [->|]; auto. apply H'. lia.
      * right. split; auto. exists io. split; auto. lia.
    + right. split; [destruct E as (e & -> & He); exists e; auto|]. exists a. split; auto. lia.
Qed.
Lemma point_never io vo vo' : pt io vo = Ok vo' -> vo' = vo.
Proof.
  unfold pt, point. destruct (skipped o _ _ _ _ _ _ _ _ _ _ _ _ _ _ _ _ _) as [b|]; [|discriminate]. cbn [bind]. destruct b; [congruence|].
  assert (Rest : forall xc yc, (let* tc := t_cell o ti to (s_t s) io in
     let* v := vertical o zzi zo (s_tz s) (s_z s) (s_yz s) (s_xz s) (s_ex s) io xc yc tc in
     let '(k, c, npk) := v in interpolate o vi (s_exz s) (s_ex s) io xc yc tc k c npk vo) = Ok vo' -> vo' = vo).
  { intros xc yc. destruct (t_cell o ti to (s_t s) io) as [tc|]; [|discriminate]. cbn [bind].
    destruct (vertical o _ _ _ _ _ _ _ _ _ _ _) as [[[k c] npk]|] eqn:Ev; [|discriminate]. cbn [bind].
    destruct (Nat.eq_dec (s_ex s) 0) as [E0|E0].
    - rewrite E0 in *. unfold interpolate. destruct xc as [[i npi] a], yc as [[j npj] b], tc as [[l npl] d].
      assert (D : (0 / s_exz s)%nat = 0%nat) by (destruct (s_exz s); [reflexivity|apply Nat.div_small; lia]). rewrite D. cbn. congruence.
    - apply vertical_cases in Ev; [|lia]. cbn in Ev. subst k. apply interpolate_same. intros v X. injection X as <-. eauto. }
  destruct (negb (s_nyx s =? 1)%nat).
  - destruct (curved_cells o _ _ _ _ _ _ _) as [[[xc yc]|]|]; cbn [bind]; [apply Rest|congruence|discriminate].
  - destruct (x_cell o _ _ _ _); cbn [bind]; [|discriminate]. destruct (y_cell o _ _ _ _); cbn [bind]; [|discriminate]. apply Rest.
Qed.
End One.
End Proofs.

(** ** C76 *)
Section C76.
Context (o : arith).
Lemma for_never {S} l (f : nat -> S -> res S) : (forall i s s', f i s = Ok s' -> s' = s) -> forall s s', for_ l f s = Ok s' -> s' = s.
Proof.
  intro H. induction l as [|i l IH]; cbn; intros s s'; [congruence|]. destruct (f i s) as [s1|] eqn:E; [|discriminate]. cbn. apply H in E. subst. apply IH.
Qed.
(** Whatever the arguments, the local array still holds NaNs only at the end of the loop. *)
Theorem C76_never_writes xxi yyi zzi ti vi xo yo zo to vo : body o xxi yyi zzi ti vi xo yo zo to = Ok vo -> forall e io, vo e io = nan o.
Proof.
  unfold body. destruct (shape2 o xxi) as [[nyix nx]|]; [|discriminate]. cbn [bind]. destruct (shape2 o yyi) as [[ny nxiy]|]; [|discriminate]. cbn [bind].
  destruct (shape5 o zzi) as [[[[[nexz ntiz] nzz] nyiz] nxiz]|]; [|discriminate]. cbn [bind].
  destruct (shape5 o vi) as [[[[[nex nti] nzi] nyi] nxi]|]; [|discriminate]. cbn [bind].
  do 8 (destruct (reduce o _ _); [|discriminate]; cbn [bind]). do 4 (destruct (assert_ _); [|discriminate]; cbn [bind]).
  intro E. apply for_never in E; [rewrite E; reflexivity|]. intros i v v'.
  exact (point_never o (mksizes nex nexz nti ntiz nzi nzz nyi nyiz nxi nxiz nyix nx ny nxiy) xxi yyi zzi ti vi xo yo zo to _ _ _ _ _ _ _ _ i v v').
Qed.
(** Whatever the arguments, a call that ends gives no result and leaves the argument [vo] as it is. *)
Theorem C76_no_result xxi yyi zzi ti vi xo yo zo to vo r vo' : linear4dto1dxx o xxi yyi zzi ti vi xo yo zo to vo = Ok (r, vo') -> r = None /\ vo' = vo.
Proof. unfold linear4dto1dxx. destruct (body o xxi yyi zzi ti vi xo yo zo to); [|discriminate]. cbn [bind]. intro E. now injection E as <- <-. Qed.

(** With arguments as documented: the call ends when each point is in the box (then it is skipped)
    or off a curvilinear grid; with any other point, it fails. *)
Theorem C76_ends s xxi yyi zzi ti vi xo yo zo to vo : regular o s xxi yyi zzi ti vi xo yo zo to ->
  (linear4dto1dxx o xxi yyi zzi ti vi xo yo zo to vo = Ok (None, vo) <->
   forall io, (io < List.length xo)%nat -> in_box o s xxi yyi zzi ti vi xo yo zo to io \/ off_grid o s xxi yyi xo yo io) /\
  ((exists io, (io < List.length xo)%nat /\ ~ (in_box o s xxi yyi zzi ti vi xo yo zo to io \/ off_grid o s xxi yyi xo yo io)) ->
   exists e, linear4dto1dxx o xxi yyi zzi ti vi xo yo zo to vo = Raise e /\ In e [IndexError; TypeError; ValueError]).
Proof.
  intros [Hx Hy Hz Hv Ht P Hex Hc Hxz Hyz Htz Ly Lz Lt]. rewrite !Forall_cons_iff in P.
  destruct P as (P1 & P2 & P3 & P4 & P5 & P6 & P7 & P8 & P9 & P10 & P11 & P12 & P13 & P14 & _).
  unfold linear4dto1dxx, body, shape2, shape5. rewrite Hx, Hy, Hz, Hv. cbn [bind].
  assert (Vt : Forall (fun n => (1 <= n)%nat) (a_shape (vec o ti))) by (destruct ti; [contradiction|]; cbn [vec a_shape List.length]; apply Forall_cons; [lia|apply Forall_nil]).
  rewrite !reduce_ok by (first [exact Vt|first [rewrite Hx|rewrite Hy|rewrite Hz|rewrite Hv]; repeat (apply Forall_cons; [assumption|]); apply Forall_nil]).
  cbn [bind].
  assert (A1 : assert_ (negb (negb (s_nyx s =? 1)%nat) || ((s_x s =? s_nxy s)%nat && (s_y s =? s_nyx s)%nat)) = Ok tt).
  { unfold assert_, curvilinear in *. destruct (Nat.eqb_spec (s_nyx s) 1) as [|N]; [reflexivity|]. destruct (Hc N) as [-> ->]. now rewrite !Nat.eqb_refl. }
  assert (A : forall n m, n = 1%nat \/ n = m -> assert_ ((n =? 1)%nat || (n =? m)%nat) = Ok tt).
  { intros n m [-> | ->]; [reflexivity|]. unfold assert_. rewrite Nat.eqb_refl, orb_true_r. reflexivity. }
  rewrite A1, (A _ _ Hxz), (A _ _ Hyz), (A _ _ Htz). cbn [bind].
  destruct (loop_cases o s xxi yyi zzi ti vi xo yo zo to (amin o (elements o vi)) (amax o (elements o xxi)) (amin o (elements o yyi)) (amax o (elements o yyi))
     (amin o (elements o zzi)) (amax o (elements o zzi)) (amin o (elements o (vec o ti))) (amax o (elements o (vec o ti))) (List.length xo) (fun _ _ => nan o)
     (le_n _) Ly Lz Lt (conj P2 Hex) 0%nat (le_n _)) as [(E & H)|((e & E & He) & io & Hio & H)]; unfold range; rewrite E; cbn [bind]; split.
  - split; auto. intros _ io Hio. apply H. lia.
  - intros (io & Hio & N). exfalso. apply N. apply H. lia.
  - split; [discriminate|]. intro G. exfalso. apply H. apply G. lia.
  - intros _. exists e. auto.
Qed.
End C76.

(** ** Examples: rationals with a NaN *)
Definition q_ar : arith := mkarith fl (fun x y => fleb y x) fleb feqb fadd fsub fmul (fun x y => match fdiv x y with Ok z => z | Raise _ => None end)
  (fun z => Some (inject_Z z)) None PyBase.isnan (fun _ => false)
  (fun l => fold_left (fun m x => if fltb x m then x else m) l (hd None l)) (fun l => fold_left (fun m x => if fltb m x then x else m) l (hd None l))
  (fun l x => List.length (filter (fun y => fleb y x) l)) (fun _ _ _ _ => (Some (-1)%Q, Some (-1)%Q))
  (fun p z => fltb p (Some (inject_Z z))) (fun p z => fltb (Some (inject_Z z)) p) (fun p => match p with Some q => Some (Qnum q / Zpos (Qden q)) | None => None end).
Definition mat (sh : list nat) (f : list Z -> Z) : arr (F q_ar) := mkarr4 sh (fun ix => Some (inject_Z (f ix))).
Definition ex_s : sizes := mksizes 1 1 1 1 1 1 2 1 3 1 1 3 2 1.
Definition ex_x : arr (F q_ar) := mat [1; 3]%nat (fun ix => 10 * nth 1 ix 0).
Definition ex_y : arr (F q_ar) := mat [2; 1]%nat (fun ix => 40 + nth 0 ix 0).
Definition ex_z : arr (F q_ar) := mat [1; 1; 1; 1; 1]%nat (fun _ => 0).
Definition ex_v : arr (F q_ar) := mat [1; 1; 1; 2; 3]%nat (fun ix => 2 + nth 4 ix 0).
Definition ex_pt (z : Z) : list (F q_ar) := [Some (inject_Z z)].
(** A rectangular grid, longitudes 0, 10 and 20, latitudes 40 and 41.  At a node: no result.  Out of
    the grid: an error.  In the grid, but with a longitude less than all the data (2 to 4): an
    error. *)
Example ex_linear4d : let t := ex_pt 0 in
  regular q_ar ex_s ex_x ex_y ex_z t ex_v (ex_pt 10) (ex_pt 40) t t /\
  linear4dto1dxx q_ar ex_x ex_y ex_z t ex_v (ex_pt 10) (ex_pt 40) t t ex_z = Ok (None, ex_z) /\
  linear4dto1dxx q_ar ex_x ex_y ex_z t ex_v (ex_pt 30) (ex_pt 40) t t ex_z = Raise IndexError /\
  linear4dto1dxx q_ar ex_x ex_y ex_z t ex_v (ex_pt 1) (ex_pt 40) t t ex_z = Raise TypeError.
Proof.
  cbn zeta. split; [|vm_compute; auto]. constructor; try reflexivity; try discriminate; cbn; auto. repeat constructor. intro H. exfalso. now apply H.
Qed.
(** A curvilinear grid, a point that grid2relloc finds out of it: skipped, although it is out of the box. *)
Definition ex_sc : sizes := mksizes 1 1 1 1 1 1 2 1 3 1 2 3 2 3.
Definition ex_xc : arr (F q_ar) := mat [2; 3]%nat (fun ix => 10 * nth 1 ix 0 + nth 0 ix 0).
Definition ex_yc : arr (F q_ar) := mat [2; 3]%nat (fun ix => 40 + nth 0 ix 0 + nth 1 ix 0).
Example ex_linear4d_curved : let t := ex_pt 0 in
  regular q_ar ex_sc ex_xc ex_yc ex_z t ex_v (ex_pt 30) (ex_pt 40) t t /\
  off_grid q_ar ex_sc ex_xc ex_yc (ex_pt 30) (ex_pt 40) 0 /\
  linear4dto1dxx q_ar ex_xc ex_yc ex_z t ex_v (ex_pt 30) (ex_pt 40) t t ex_z = Ok (None, ex_z).
Proof.
  cbn zeta. split; [|split].
  - constructor; try reflexivity; try discriminate; cbn; auto. repeat constructor.
  - split; [discriminate|]. do 2 eexists. repeat split; try reflexivity. now left.
  - vm_compute. reflexivity.
Qed.
