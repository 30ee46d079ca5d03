(** Simulation of three runs of convolve and erode_mask, for C89: data x, y and a x + b y + g, the
    kernel of the third run being multiplied by c. *)
From Verif Require Export RegridUnits.
From Verif Require Export FilterUnitsSpec.
From Verif Require Import FilterProps ErodeProps InterpUnits.
From Coq Require Import Lqa.
Open Scope nat_scope.
Open Scope list_scope.

Section units.
  Variables (window : nat -> list Q) (fill : Q).
  Notation generate_kernel := (generate_kernel window fill).
  Notation convolve := (convolve window fill).
  Notation convolve_and_fill := (convolve_and_fill window fill).
  Notation iterate := (iterate window fill).
  Notation erode_loop := (erode_loop window fill).
  Notation erode_mask := (erode_mask window fill).
  Variables (a b g c : Q).
  Hypothesis c_pos : (0 < c)%Q.
  Local Notation isnan := Filter.isnan.
  Definition Rf (x y z : option Q) : Prop := feq z (lincomb a b g x y) /\ isnan y = isnan x /\ isnan z = isnan x.
  (** [weak]: the values of the kernels are not used *)
  Definition Kr (weak : Prop) (x y z : Q) : Prop := y = x /\ (weak \/ (z == c * x)%Q).

  Lemma conv_lin s ks (f f' f'' m k k'' : list nat -> Q) i :
    (forall j, k'' j == c * k j)%Q -> (forall p, f'' p == a * f p + b * f' p + g * m p)%Q ->
    (conv_same s ks f'' k'' i == c * (a * conv_same s ks f k i + b * conv_same s ks f' k i + g * conv_same s ks m k i))%Q.
  Proof.
    intros Hk Hf. unfold conv_same. induction (indices ks) as [|j l IH]; cbn [map]; [unfold qsum; cbn; ring|].
    unfold qsum in *. cbn [fold_right]. rewrite IH. destruct (position s ks i j) as [p|]; [rewrite Hk, Hf|]; ring.
  Qed.
  Lemma conv_scale s ks (m k k'' : list nat -> Q) i : (forall j, k'' j == c * k j)%Q -> (conv_same s ks m k'' i == c * conv_same s ks m k i)%Q.
  Proof.
    intros Hk. unfold conv_same. induction (indices ks) as [|j l IH]; cbn [map]; [unfold qsum; cbn; ring|].
    unfold qsum in *. cbn [fold_right]. rewrite IH. destruct (position s ks i j) as [p|]; [rewrite Hk|]; ring.
  Qed.
  Lemma conv_mask_ext s ks (f f' : list nat -> Q) k i : (forall p, f' p = f p) -> conv_same s ks f' k i = conv_same s ks f k i.
  Proof. intro H. unfold conv_same. f_equal. apply map_ext. intro j. destruct (position s ks i j); now rewrite ?H. Qed.
  Lemma conv_bounds s k (m : list nat -> bool) i : nonneg k ->
    (0 <= conv_same s (shape k) (fun p => if m p then 0 else 1) (value k) i <= total k)%Q.
  Proof.
    intro Hn. unfold conv_same, total. split.
    - apply qsum_nonneg. intros j Hj. apply indices_in in Hj. assert (H := Hn j Hj). destruct (position _ _ i j) as [p|]; [|lra]. destruct (m p); lra.
    - apply qsum_le. intros j Hj. apply indices_in in Hj. assert (H := Hn j Hj). destruct (position _ _ i j) as [p|]; [|lra]. destruct (m p); lra.
  Qed.
  Lemma qle_scale p q p' q' : (p' == c * p)%Q -> (q' == c * q)%Q -> Qle_bool p' q' = Qle_bool p q.
  Proof.
    intros H H'. destruct (qle_cases p q) as [[-> E]|[-> E]]; destruct (qle_cases p' q') as [[-> E']|[-> E']]; auto; exfalso; rewrite H, H' in E'; nra.
  Qed.
  Lemma clip_scale x x' h h' : (x' == c * x)%Q -> (h' == c * h)%Q -> (clip x' 0 h' == c * clip x 0 h)%Q.
  Proof.
    intros Hx Hh. unfold clip, qmin, qmax. rewrite (qle_scale x 0 x' 0 Hx) by ring.
    assert (E : ((if Qle_bool x 0 then 0 else x') == c * (if Qle_bool x 0 then 0 else x))%Q) by (destruct (Qle_bool x 0); [ring|auto]).
    rewrite (qle_scale _ _ _ _ E Hh). destruct (Qle_bool _ h); auto.
  Qed.
  Lemma total_scale k k'' : shape k'' = shape k -> (forall j, value k'' j == c * value k j)%Q -> (total k'' == c * total k)%Q.
  Proof. intros E H. unfold total. rewrite E. induction (indices (shape k)) as [|j l IH]; cbn; [ring|]. unfold qsum in *. rewrite IH, H. ring. Qed.

  Lemma conv3 float norm x y z k k'' : D3 Rf x y z -> D3 (Kr (float = false /\ norm = true)) k k k'' ->
    (norm = true \/ (c == 1)%Q) -> ((g == 0)%Q \/ (norm = true /\ (float = false \/ nonneg k))) ->
    rel3 (fun u v w => forall i, Rf (u i) (v i) (w i)) (convolve_ float x k norm) (convolve_ float y k norm) (convolve_ float z k'' norm).
  Proof using c_pos.
    intros Hd (Dk & Dk'' & _ & Sk'' & Hk) HN HG. unfold convolve_. destruct Hd as (_ & _ & Sy & Sz & Hd). rewrite Sy, Sz, Sk''.
    destruct (negb (List.length (shape x) =? List.length (shape k))); [constructor|].
    destruct (norm && negb float)%bool eqn:EN; [constructor|]. constructor. intro i.
    assert (Hk' : forall j, (value k'' j == c * value k j)%Q).
    { intro j. destruct (Hk j) as [_ [[-> ->]|H]]; [discriminate|exact H]. }
    assert (N1 : forall p, isnan (value y p) = isnan (value x p)) by (intro p; apply Hd).
    assert (N2 : forall p, isnan (value z p) = isnan (value x p)) by (intro p; apply Hd).
    assert (M : existsb (fun i => isnan (value y i)) (indices (shape x)) = existsb (fun i => isnan (value x i)) (indices (shape x)) /\
                existsb (fun i => isnan (value z i)) (indices (shape x)) = existsb (fun i => isnan (value x i)) (indices (shape x))).
    { induction (indices (shape x)) as [|p l [IH1 IH2]]; cbn; auto. now rewrite IH1, IH2, N1, N2. }
    destruct M as [-> ->]. set (mask := existsb _ _).
    rewrite (conv_mask_ext _ _ (fun p => if isnan (value x p) then 0%Q else 1%Q) (fun p => if isnan (value y p) then 0%Q else 1%Q)) by (intro; now rewrite N1).
    rewrite (conv_mask_ext _ _ (fun p => if isnan (value x p) then 0%Q else 1%Q) (fun p => if isnan (value z p) then 0%Q else 1%Q)) by (intro; now rewrite N2).
    set (m := fun p => if isnan (value x p) then 0%Q else 1%Q).
    assert (EV := conv_scale (shape x) (shape k) m (value k) (value k'') i Hk').
    assert (ET := total_scale k k'' Sk'' Hk').
    assert (EW := clip_scale _ _ _ _ EV ET).
    assert (EC := conv_lin (shape x) (shape k) (fun p => filled (value x p)) (fun p => filled (value y p)) (fun p => filled (value z p)) m (value k) (value k'') i Hk').
    assert (HV : (g == 0 \/ (norm = true /\ clip (conv_same (shape x) (shape k) m (value k) i) 0 (total k) == conv_same (shape x) (shape k) m (value k) i))%Q).
    { destruct HG as [G|[E [->|Hn]]]; [auto| |].
      - rewrite E in EN. discriminate.
      - right. split; auto. apply clip_id. apply (conv_bounds (shape x) k (fun p => isnan (value x p)) i Hn). }
    specialize (EC ltac:(intro p; destruct (Hd p) as (F & E1 & E2); unfold m; destruct (value x p), (value y p), (value z p); cbn in *; try discriminate; [rewrite F; ring|ring])).
    revert EV EW EC HV.
    generalize (conv_same (shape x) (shape k) (fun p => filled (value x p)) (value k) i) (conv_same (shape x) (shape k) (fun p => filled (value y p)) (value k) i)
      (conv_same (shape x) (shape k) (fun p => filled (value z p)) (value k'') i).
    intros cx cy cz. set (V := conv_same _ _ m (value k) i). set (V'' := conv_same _ _ m (value k'') i). set (W := clip V 0 (total k)). set (W'' := clip V'' 0 (total k'')).
    intros EV EW EC HV.
    assert (B : Qle_bool (Qabs W'') ((1 # 1000000) * total k'') = Qle_bool (Qabs W) ((1 # 1000000) * total k)).
    { apply qle_scale; [|rewrite ET; ring]. rewrite EW, Qabs_Qmult. rewrite (Qabs_pos c) by lra. reflexivity. }
    rewrite B. destruct (mask && Qle_bool (Qabs W) ((1 # 1000000) * total k))%bool; [repeat split; cbn; auto|].
    destruct norm.
    - unfold qdiv. assert (Z : Qeq_bool W'' 0 = Qeq_bool W 0).
      { destruct (Qeq_bool W 0) eqn:E; [apply Qeq_bool_iff in E; apply Qeq_bool_iff; rewrite EW, E; ring|].
        destruct (Qeq_bool W'' 0) eqn:E'; auto. apply Qeq_bool_iff in E'. rewrite EW in E'. apply Qmult_integral in E'. destruct E' as [E'|E']; [lra|].
        apply Qeq_bool_iff in E'. congruence. }
      rewrite Z. destruct (Qeq_bool W 0) eqn:E; [repeat split; cbn; auto|]. split; [|split; reflexivity]. cbn. rewrite EC, EW.
      apply Qeq_bool_neq in E. destruct HV as [G|[_ HV]]; [rewrite G|rewrite <- HV]; fold W; field; split; auto; lra.
    - destruct HN as [|C1]; [discriminate|]. split; [|split; reflexivity]. cbn. rewrite EC, C1. destruct HV as [G|[E _]]; [rewrite G; ring|discriminate].
  Qed.

  (** Generated kernels *)
  Notation KR float := (D3 (Kr (float = false /\ true = true))).
  Lemma astype3 float k1 k2 k3 : D3 (Kr (float = false /\ true = true)) k1 k2 k3 -> D3 (Kr (float = false /\ true = true)) (astype float k1) (astype float k2) (astype float k3).
  Proof.
    intros (E1 & E2 & E3 & E4 & H). destruct float; [now repeat split; auto; apply H|]. unfold D3. cbn. do 4 (split; [assumption|]). intro i. destruct (H i) as [-> _].
    split; [reflexivity|left; auto].
  Qed.
  Lemma gen3 float k k'' ds : KR float k k k'' ->
    rel3 (KR float) (generate_kernel float (KDa k) ds) (generate_kernel float (KDa k) ds) (generate_kernel float (KDa k'') ds).
  Proof.
    intro H. unfold Filter.generate_kernel. destruct (D3_dims _ _ _ _ H) as [_ ->]. destruct (forallb _ (dims k)); [|constructor]. cbn [bind].
    unfold insert_into. eapply rel3_bind; [apply transpose3; exact H|]. intros. constructor. now apply astype3.
  Qed.
  Lemma convolve3 float norm x y z spec spec'' : D3 Rf x y z ->
    rel3 (D3 (Kr (float = false /\ norm = true))) (generate_kernel float spec (dims x)) (generate_kernel float spec (dims x)) (generate_kernel float spec'' (dims x)) ->
    (norm = true \/ (c == 1)%Q) -> ((g == 0)%Q \/ (norm = true /\ forall k, generate_kernel float spec (dims x) = Ok k -> float = false \/ nonneg k)) ->
    rel3 (D3 Rf) (convolve float x spec norm) (convolve float y spec norm) (convolve float z spec'' norm).
  Proof using c_pos.
    intros Hd Hk HN HG. unfold Filter.convolve. destruct (D3_dims _ _ _ _ Hd) as [-> ->].
    inversion Hk as [u v w Hu E1 E2 E3|e E1 E2 E3]; [|constructor]. assert (u = v) as <- by congruence. clear E2. cbn [bind].
    eapply rel3_bind; [apply conv3; try eassumption|].
    - destruct HG as [G|[G1 G2]]; [now left|right; split; auto].
    - intros f f' f'' Hf. constructor. destruct Hd as (E2 & E4 & E5 & E6 & _). repeat split; cbn; auto; apply Hf.
  Qed.
  Lemma fill3 float x y z k k'' : D3 Rf x y z -> KR float k k k'' -> ((g == 0)%Q \/ forall k', generate_kernel float (KDa k) (dims x) = Ok k' -> float = false \/ nonneg k') ->
    rel3 (fun u v w => D3 Rf u v w /\ dims u = dims x /\ shape u = shape x) (convolve_and_fill float x k) (convolve_and_fill float y k) (convolve_and_fill float z k'').
  Proof using c_pos.
    intros Hd Hk HG. unfold Filter.convolve_and_fill. eapply rel3_bind; [apply convolve3 with (1 := Hd); auto|].
    - now apply gen3.
    - destruct HG; auto.
    - intros u v w Hu. constructor. destruct Hd as (E1 & E2 & E3 & E4 & Hd), Hu as (_ & _ & _ & _ & Hu). cbn. split; [|auto].
      repeat split; cbn; auto.
      all: destruct (Hd i) as (F & N1 & N2), (Hu i) as (F' & N1' & N2'); destruct (value x i), (value y i), (value z i); cbn in *; try discriminate; auto.
  Qed.
  Lemma iterate3 n float k k'' : KR float k k k'' -> forall x y z, D3 Rf x y z ->
    ((g == 0)%Q \/ forall k', generate_kernel float (KDa k) (dims x) = Ok k' -> float = false \/ nonneg k') ->
    rel3 (D3 Rf) (iterate n float x k) (iterate n float y k) (iterate n float z k'').
  Proof using c_pos.
    intro Hk. induction n as [|n IH]; intros x y z Hd HG; cbn; [now constructor|].
    eapply rel3_bind; [apply fill3; eassumption|]. intros u v w (Hu & E & _). apply IH; auto. now rewrite E.
  Qed.
  Lemma count3 x y z m kd : D3 Rf x y z -> count_masked y m kd = count_masked x m kd /\ count_masked z m kd = count_masked x m kd.
  Proof.
    intro Hd. assert (X : forall u, dims u = dims x -> shape u = shape x -> (forall i, isnan (value u i) = isnan (value x i)) -> count_masked u m kd = count_masked x m kd).
    { intros u E1 E2 N. assert (S : forall d, size u d = size x d) by (intro d; unfold size; now rewrite E1, E2).
      unfold count_masked. rewrite E1.
      match goal with |- context [indices (map (fun d => if mem d (dims m) then size m d else size u d) ?l)] =>
        replace (map (fun d => if mem d (dims m) then size m d else size u d) l) with (map (fun d => if mem d (dims m) then size m d else size x d) l) by (apply map_ext; intro; now rewrite S) end.
      f_equal. apply filter_ext. intro idx. f_equal. unfold reduced_mask. rewrite E1.
      rewrite (map_ext (size u) (size x)) by exact S. set (l := indices _). clearbody l. induction l as [|o l IH]; cbn; auto. now rewrite IH, N. }
    destruct Hd as (E1 & E2 & E3 & E4 & Hd). split; apply X; auto; intro; apply Hd.
  Qed.
  Definition Ro (u v w : option (da (option Q))) : Prop :=
    match u, v, w with Some x, Some y, Some z => D3 Rf x y z | None, None, None => True | _, _, _ => False end.
  Lemma loop3 fuel float k k'' m kd : KR float k k k'' -> forall x y z, D3 Rf x y z ->
    ((g == 0)%Q \/ forall k', generate_kernel float (KDa k) (dims x) = Ok k' -> float = false \/ nonneg k') ->
    rel3 Ro (erode_loop fuel float x k m kd) (erode_loop fuel float y k m kd) (erode_loop fuel float z k'' m kd).
  Proof using c_pos.
    intro Hk. induction fuel as [|n IH]; intros x y z Hd HG; cbn [Filter.erode_loop]; [now constructor|].
    eapply rel3_bind; [apply fill3; eassumption|]. intros u v w (Hu & E & _). destruct (count3 _ _ _ m kd Hu) as [-> ->].
    destruct (count_mask m <? count_masked u m kd); [apply IH; auto; now rewrite E|]. constructor. exact Hu.
  Qed.
  Lemma erode3 fuel float x y z u spec spec'' xdim ydim : D3 Rf x y z ->
    let kern s := match s with None => KDa (shapiro_kernel [ydim; xdim]) | Some k => k end in
    rel3 (KR float) (generate_kernel float (kern spec) (dims x)) (generate_kernel float (kern spec) (dims x)) (generate_kernel float (kern spec'') (dims x)) ->
    ((g == 0)%Q \/ forall k k', generate_kernel float (kern spec) (dims x) = Ok k -> generate_kernel float (KDa k) (dims x) = Ok k' -> float = false \/ nonneg k') ->
    rel3 Ro (erode_mask fuel float x u spec xdim ydim) (erode_mask fuel float y u spec xdim ydim) (erode_mask fuel float z u spec'' xdim ydim).
  Proof using c_pos.
    intros Hd kern Hk HG. unfold Filter.erode_mask. destruct (D3_dims _ _ _ _ Hd) as [-> ->]. destruct (List.length (dims x) <? 2); [constructor|].
    match goal with |- rel3 _ (bind ?r _) (bind ?r _) (bind ?r _) => destruct r as [u'|e]; [|constructor] end. cbn [bind].
    fold (kern spec). fold (kern spec''). inversion Hk as [k1 k2 k'' Hu E1 E2 E3|e E1 E2 E3]; [|constructor]. assert (k1 = k2) as <- by congruence. clear E2. cbn [bind].
    assert (D := D3_dims _ _ _ _ Hu). destruct D as [_ ->].
    assert (S : forall l, List.filter (fun d => negb (size k'' d =? 1)) l = List.filter (fun d => negb (size k1 d =? 1)) l).
    { intro l. apply filter_ext. intro d. destruct (D3_size _ _ _ _ d Hu) as [_ ->]. reflexivity. }
    rewrite S. destruct (2 <? _); [constructor|].
    assert (HG' : (g == 0)%Q \/ forall k', generate_kernel float (KDa k1) (dims x) = Ok k' -> float = false \/ nonneg k') by (destruct HG; eauto).
    destruct u' as [n|m].
    - eapply rel3_bind; [apply iterate3; eassumption|]. intros. now constructor.
    - now apply loop3.
  Qed.
End units.
