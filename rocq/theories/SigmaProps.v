(** C40, C41: sigma coordinates *)
From Verif Require Export SigmaSpec.
From Verif Require Import PyDictFacts.
From Coq Require Import Lra Lia.
Open Scope R_scope.

(** *** Broadcasting *)
Lemma has_in d l : has_dim d l = true <-> In d l.
Proof. unfold has_dim. rewrite existsb_exists. split; [intros (x & H & E); apply String.eqb_eq in E; now subst|]. intro H. exists d. split; auto. apply String.eqb_refl. Qed.
Lemma bcast_in d a b : In d (bcast a b) <-> In d a \/ In d b.
Proof.
  unfold bcast. rewrite in_app_iff, filter_In, negb_true_iff. split; [tauto|]. intros [H|H]; auto.
  destruct (has_dim d a) eqn:E; [left; now apply has_in|right; auto].
Qed.
Lemma inplace_ok f a b : incl (adims b) (adims a) -> inplace f a b = Ok (mkarr (adims a) (fun e => f (at_ a e) (at_ b e))).
Proof. intro H. unfold inplace. replace (forallb _ (adims b)) with true; auto. symmetry. apply forallb_forall. intros d Hd. apply has_in. auto. Qed.
Lemma inplace_bad f a b d : In d (adims b) -> ~ In d (adims a) -> inplace f a b = Raise ValueError.
Proof.
  intros H1 H2. unfold inplace. destruct (forallb _ (adims b)) eqn:E; auto. rewrite forallb_forall in E. exfalso. apply H2, has_in. now apply E.
Qed.
Ltac dims := unfold aadd, asub, amul, adiv, binop, unop in *; cbn [adims] in *; intros ?d ?Hd; rewrite ?bcast_in in *; tauto.

(** *** Hyperbolic functions *)
Lemma cosh_pos x : 0 < cosh x.
Proof. unfold cosh. assert (A := exp_pos x). assert (B := exp_pos (- x)). lra. Qed.
Lemma sinh_pos x : 0 < x -> 0 < sinh x.
Proof. intro H. rewrite <- sinh_0. now apply sinh_lt. Qed.
Lemma sinh_odd x : sinh (- x) = - sinh x.
Proof. unfold sinh. rewrite Ropp_involutive. lra. Qed.
Lemma cosh_even x : cosh (- x) = cosh x.
Proof. unfold cosh. rewrite Ropp_involutive. lra. Qed.
Lemma tanh_odd x : tanh (- x) = - tanh x.
Proof. unfold tanh. rewrite sinh_odd, cosh_even. field. assert (H := cosh_pos x). lra. Qed.
Lemma sinh_sub x y : sinh (x - y) = sinh x * cosh y - cosh x * sinh y.
Proof.
  unfold sinh, cosh. replace (- (x - y)) with (- x + y) by lra. replace (x - y) with (x + - y) by lra. rewrite !exp_plus. field.
Qed.
Lemma tanh_lt x y : x < y -> tanh x < tanh y.
Proof.
  intro H. assert (A := cosh_pos x). assert (B := cosh_pos y). assert (C := sinh_pos (y - x) ltac:(lra)). rewrite sinh_sub in C.
  unfold tanh. apply Rmult_lt_reg_r with (cosh x * cosh y); [now apply Rmult_lt_0_compat|]. field_simplify; lra.
Qed.
Lemma tanh_0 : tanh 0 = 0.
Proof. unfold tanh. rewrite sinh_0. unfold Rdiv. ring. Qed.
Lemma sinh_neq a : a <> 0 -> sinh a <> 0.
Proof. intro H. destruct (Rlt_le_dec 0 a); [assert (X := sinh_pos a r); lra|]. assert (X := sinh_pos (- a) ltac:(lra)). rewrite sinh_odd in X. lra. Qed.
Lemma tanh_neq a : a <> 0 -> tanh a <> 0.
Proof. intro H. unfold tanh. intro E. apply Rmult_integral in E. destruct E as [E|E]; [now apply (sinh_neq a)|]. apply (Rinv_neq_0_compat (cosh a)); [assert (X := cosh_pos a); lra|exact E]. Qed.

(** *** The stretching curve goes from -1 at s = -1 to 0 at s = 0, and is increasing *)
Theorem C40_stretch a b : a <> 0 -> cf_stretch 0 a b = 0 /\ cf_stretch (-1) a b = -1 /\ (0 < a -> 0 <= b <= 1 -> increasing (fun s => cf_stretch s a b)).
Proof.
  intro Ha. assert (Hs := sinh_neq a Ha). assert (Ht := tanh_neq (1 / 2 * a) ltac:(lra)). unfold cf_stretch. split; [|split].
  - rewrite Rmult_0_r, sinh_0. replace (a * (0 + 1 / 2)) with (1 / 2 * a) by lra. field. auto.
  - replace (a * -1) with (- a) by lra. replace (a * (-1 + 1 / 2)) with (- (1 / 2 * a)) by lra. rewrite sinh_odd, tanh_odd. field. auto.
  - intros Hp Hb s t _ Hst _. assert (Sa := sinh_pos a Hp). assert (Ta : 0 < tanh (1 / 2 * a)) by (rewrite <- tanh_0; apply tanh_lt; lra).
    assert (S1 : sinh (a * s) < sinh (a * t)) by (apply sinh_lt; nra). assert (T1 : tanh (a * (s + 1 / 2)) < tanh (a * (t + 1 / 2))) by (apply tanh_lt; nra).
    set (u := sinh (a * s)) in *. set (v := sinh (a * t)) in *. set (w := tanh (a * (s + 1 / 2))) in *. set (z := tanh (a * (t + 1 / 2))) in *. set (T := tanh (1 / 2 * a)) in *. set (S := sinh a) in *.
    assert (U : u / S < v / S) by (apply Rmult_lt_compat_r; [now apply Rinv_0_lt_compat|auto]).
    assert (W : w / (2 * T) < z / (2 * T)) by (apply Rmult_lt_compat_r; [apply Rinv_0_lt_compat; lra|auto]).
    replace ((1 - b) * u / S) with ((1 - b) * (u / S)) by (field; auto). replace ((1 - b) * v / S) with ((1 - b) * (v / S)) by (field; auto).
    destruct (Rlt_le_dec b 1) as [L|L]; nra.
Qed.

(** *** The CF formulas: surface, bottom, order of the levels *)
Theorem C40_atmosphere ps ptop : cf_atmosphere 1 ps ptop = ps /\ cf_atmosphere 0 ps ptop = ptop /\
  (ptop < ps -> forall s t, s < t -> cf_atmosphere s ps ptop < cf_atmosphere t ps ptop).
Proof. unfold cf_atmosphere. split; [lra|]. split; [lra|]. intros. nra. Qed.
Theorem C40_sigma eta depth : cf_sigma 0 eta depth = eta /\ cf_sigma (-1) eta depth = - depth /\
  (0 < depth + eta -> increasing (fun s => cf_sigma s eta depth)).
Proof. unfold cf_sigma, increasing. split; [lra|]. split; [lra|]. intros. nra. Qed.
(** For any stretching curve C from -1 to 0 *)
Theorem C40_s C eta depth hc : C 0 = 0 -> C (-1) = -1 -> cf_s 0 (C 0) eta depth hc = eta /\ cf_s (-1) (C (-1)) eta depth hc = - depth /\
  (increasing C -> 0 < hc + eta -> hc <= depth -> increasing (fun s => cf_s s (C s) eta depth hc)).
Proof.
  intros H0 H1. unfold cf_s. rewrite H0, H1. split; [lra|]. split; [lra|]. intros HC Hp Hd s t A B D. assert (X := HC s t A B D). nra.
Qed.
Theorem C40_g1 C eta depth hc : C 0 = 0 -> C (-1) = -1 -> depth <> 0 -> cf_g1 0 (C 0) eta depth hc = eta /\ cf_g1 (-1) (C (-1)) eta depth hc = - depth /\
  (increasing C -> 0 < depth + eta -> 0 < hc <= depth -> increasing (fun s => cf_g1 s (C s) eta depth hc)).
Proof.
  intros H0 H1 Hz. unfold cf_g1. rewrite H0, H1. split; [field; auto|]. split; [field; auto|]. intros HC Hp [Hd1 Hd2] s t A B D. assert (X := HC s t A B D).
  assert (E : forall x, x + eta * (1 + x / depth) = eta + x * ((depth + eta) / depth)) by (intro x; field; auto). rewrite !E.
  assert (K : 0 < (depth + eta) / depth) by (apply Rdiv_lt_0_compat; lra). set (K' := (depth + eta) / depth) in *.
  assert (Y : hc * s + (depth - hc) * C s < hc * t + (depth - hc) * C t) by nra. nra.
Qed.
Theorem C40_g2 C eta depth hc : C 0 = 0 -> C (-1) = -1 -> hc + depth <> 0 -> cf_g2 0 (C 0) eta depth hc = eta /\ cf_g2 (-1) (C (-1)) eta depth hc = - depth /\
  (increasing C -> 0 < depth + eta -> 0 <= hc -> 0 < depth -> increasing (fun s => cf_g2 s (C s) eta depth hc)).
Proof.
  intros H0 H1 Hz. unfold cf_g2. rewrite H0, H1. split; [field; auto|]. split; [field; auto|]. intros HC Hp Hc Hd s t A B D. assert (X := HC s t A B D).
  assert (Y : hc * s + depth * C s < hc * t + depth * C t) by nra.
  assert (Z : (hc * s + depth * C s) / (hc + depth) < (hc * t + depth * C t) / (hc + depth)) by (apply Rmult_lt_compat_r; [apply Rinv_0_lt_compat; lra|auto]). nra.
Qed.

(** *** The functions compute the CF formulas *)
Lemma get_cs_ok s a b : exists c, get_cs s a b = Ok c /\ has_values c (fun e => cf_stretch (at_ s e) (at_ a e) (at_ b e)) /\
  forall d, In d (adims c) <-> In d (adims s) \/ In d (adims a) \/ In d (adims b).
Proof.
  unfold get_cs. rewrite inplace_ok by dims. eexists. split; [reflexivity|]. split.
  - intro e. cbn [at_ amul aadd asub adiv binop unop]. unfold cf_stretch. rewrite (Rmult_comm (at_ s e)), (Rmult_comm (sinh (at_ a e * at_ s e))). reflexivity.
  - intro d. cbn [adims amul aadd asub adiv binop unop]. rewrite !bcast_in. tauto.
Qed.
Theorem C40_formula_atmosphere sig ps ptop : exists p, atmosphere_sigma_coordinate sig ps ptop = Ok p /\
  has_values p (fun e => cf_atmosphere (at_ sig e) (at_ ps e) (at_ ptop e)) /\ (forall d, In d (adims p) <-> In d (adims sig) \/ In d (adims ps) \/ In d (adims ptop)).
Proof.
  unfold atmosphere_sigma_coordinate. rewrite inplace_ok by dims. eexists. split; [reflexivity|]. split.
  - intro e. cbn [at_ amul aadd asub adiv binop unop]. unfold cf_atmosphere. ring.
  - intro d. cbn [adims amul aadd asub adiv binop unop]. rewrite !bcast_in. tauto.
Qed.
Theorem C40_formula_sigma sig ssh bathy : exists z, ocean_sigma_coordinate sig ssh bathy = Ok z /\
  has_values z (fun e => cf_sigma (at_ sig e) (at_ ssh e) (at_ bathy e)) /\ (forall d, In d (adims z) <-> In d (adims sig) \/ In d (adims ssh) \/ In d (adims bathy)).
Proof.
  unfold ocean_sigma_coordinate. rewrite inplace_ok by dims. eexists. split; [reflexivity|]. split.
  - intro e. cbn [at_ amul aadd asub adiv binop unop]. unfold cf_sigma. ring.
  - intro d. cbn [adims amul aadd asub adiv binop unop]. rewrite !bcast_in. tauto.
Qed.
(** The stretching curve that is used: the given one or the formula *)
Definition stretched (sig thetas thetab : arr) (cs : option arr) (e : string -> nat) : R :=
  match cs with Some c => at_ c e | None => cf_stretch (at_ sig e) (at_ thetas e) (at_ thetab e) end.
Definition stretched_dims (sig thetas thetab : arr) (cs : option arr) (d : string) : Prop :=
  match cs with Some c => In d (adims c) | None => In d (adims sig) \/ In d (adims thetas) \/ In d (adims thetab) end.
(** ocean_s_coordinate: the formula, but only when the bathymetry and the stretching curve have no other dimension than sig and hc;
    otherwise an error: for instance as soon as the bathymetry varies horizontally and hc does not. *)
Theorem C40_formula_s sig ssh bathy hc thetas thetab cs :
  ((forall d, In d (adims bathy) \/ stretched_dims sig thetas thetab cs d -> In d (adims sig) \/ In d (adims hc)) ->
    exists z, ocean_s_coordinate sig ssh bathy hc thetas thetab cs None = Ok (z, None) /\
    has_values z (fun e => cf_s (at_ sig e) (stretched sig thetas thetab cs e) (at_ ssh e) (at_ bathy e) (at_ hc e))) /\
  (forall d, In d (adims bathy) \/ stretched_dims sig thetas thetab cs d -> ~ In d (adims sig) -> ~ In d (adims hc) ->
    forall c, filled_cache c = None -> ocean_s_coordinate sig ssh bathy hc thetas thetab cs c = Raise ValueError).
Proof.
  assert (HC : exists c, match cs with Some a => Ok a | None => get_cs sig thetas thetab end = Ok c /\ has_values c (stretched sig thetas thetab cs) /\ forall d, In d (adims c) <-> stretched_dims sig thetas thetab cs d).
  { destruct cs as [c|]; [exists c; split; auto; split; [intro; reflexivity|intro; reflexivity]|]. exact (get_cs_ok sig thetas thetab). }
  destruct HC as (c & Ec & Vc & Dc). split.
  - intro H. unfold ocean_s_coordinate. cbn [filled_cache]. rewrite Ec. cbn [bind]. rewrite inplace_ok.
    + cbn [bind store fst snd]. eexists. split; [reflexivity|]. intro e. cbn [at_ amul aadd asub adiv binop unop]. rewrite Vc. unfold cf_s. ring.
    + intros d Hd. cbn [adims amul aadd asub adiv binop unop] in *. rewrite !bcast_in in *. rewrite Dc in Hd. destruct Hd as [Hd|[Hd|Hd]]; auto.
  - intros d Hd H1 H2 ch Hch. unfold ocean_s_coordinate. rewrite Hch, Ec. cbn [bind]. rewrite (inplace_bad _ _ _ d); [reflexivity| |].
    + cbn [adims amul aadd asub adiv binop unop]. rewrite !bcast_in, Dc. tauto.
    + cbn [adims amul aadd asub adiv binop unop]. rewrite !bcast_in. tauto.
Qed.
Lemma stretching_ok sig thetas thetab cs : (cs = None -> exists a b, thetas = Some a /\ thetab = Some b /\ adims a = [] /\ adims b = []) ->
  exists c, stretching sig thetas thetab cs = Ok c /\ has_values c (fun e => match cs, thetas, thetab with Some c, _, _ => at_ c e | None, Some a, Some b => cf_stretch (at_ sig e) (at_ a e) (at_ b e) | _, _, _ => 0 end).
Proof.
  intro H. destruct cs as [c|]; [exists c; split; [reflexivity|intro; reflexivity]|]. destruct (H eq_refl) as (a & b & -> & -> & Ha & Hb). cbn [stretching].
  rewrite Ha, Hb. destruct (get_cs_ok sig a b) as (c & E & V & _). eauto.
Qed.
(** Form 1, form 2: the CF formulas, with scalar parameters or with the stretching curve; without both, or with array parameters, an error *)
Theorem C40_formula_g1 s ssh h hc thetas thetab cs :
  (cs = None -> exists a b, thetas = Some a /\ thetab = Some b /\ adims a = [] /\ adims b = []) ->
  exists z, ocean_s_coordinate_g1 s ssh h hc thetas thetab cs None = Ok (z, None) /\
    has_values z (fun e => cf_g1 (at_ s e) (match cs, thetas, thetab with Some c, _, _ => at_ c e | None, Some a, Some b => cf_stretch (at_ s e) (at_ a e) (at_ b e) | _, _, _ => 0 end) (at_ ssh e) (at_ h e) (at_ hc e)).
Proof.
  intro H. destruct (stretching_ok s thetas thetab cs H) as (c & E & V). unfold ocean_s_coordinate_g1. cbn [filled_cache]. rewrite E. cbn [bind store]. eexists. split; [reflexivity|].
  intro e. cbn [at_ amul aadd asub adiv binop unop]. rewrite V. unfold cf_g1. unfold Rdiv. ring.
Qed.
Theorem C40_formula_g2 s ssh h hc thetas thetab cs :
  (cs = None -> exists a b, thetas = Some a /\ thetab = Some b /\ adims a = [] /\ adims b = []) ->
  exists z, ocean_s_coordinate_g2 s ssh h hc thetas thetab cs None = Ok (z, None) /\
    has_values z (fun e => cf_g2 (at_ s e) (match cs, thetas, thetab with Some c, _, _ => at_ c e | None, Some a, Some b => cf_stretch (at_ s e) (at_ a e) (at_ b e) | _, _, _ => 0 end) (at_ ssh e) (at_ h e) (at_ hc e)).
Proof.
  intro H. destruct (stretching_ok s thetas thetab cs H) as (c & E & V). unfold ocean_s_coordinate_g2. cbn [filled_cache]. rewrite E. cbn [bind].
  rewrite inplace_ok by dims. cbn [bind store]. eexists. split; [reflexivity|].
  intro e. cbn [at_ amul aadd asub adiv binop unop]. rewrite V. unfold cf_g2. unfold Rdiv. ring.
Qed.
Theorem C40_missing s ssh h hc thetas thetab : (thetas = None \/ (exists a, thetas = Some a /\ adims a = [] /\ thetab = None) ->
    ocean_s_coordinate_g1 s ssh h hc thetas thetab None None = Raise XoaSigmaError /\ ocean_s_coordinate_g2 s ssh h hc thetas thetab None None = Raise XoaSigmaError) /\
  (forall a, thetas = Some a -> adims a <> [] ->
    ocean_s_coordinate_g1 s ssh h hc thetas thetab None None = Raise ValueError /\ ocean_s_coordinate_g2 s ssh h hc thetas thetab None None = Raise ValueError).
Proof.
  unfold ocean_s_coordinate_g1, ocean_s_coordinate_g2, stretching. cbn [filled_cache]. split.
  - intros [-> | (a & -> & Ha & ->)]; [auto|]. rewrite Ha. auto.
  - intros a -> Ha. destruct (adims a); [congruence|]. auto.
Qed.

(** *** C41: histories of calls that share a cache *)
Definition call := cache -> result.
(** The results of the calls, and the cache at the end *)
Fixpoint run (cs : list call) (c : cache) : list (res arr) * cache :=
  match cs with
  | [] => ([], c)
  | f :: r => match f c with
              | Ok (a, c') => let '(l, d) := run r c' in (Ok a :: l, d)
              | Raise e => let '(l, d) := run r c in (Raise e :: l, d)
              end
  end.
Definition plain (f : call) : res arr := match f None with Ok (a, _) => Ok a | Raise e => Raise e end.
(** A formula whose static part is stored: [f elevation cache] *)
Definition cached (f : arr -> call) : Prop :=
  forall ssh, plain (f ssh) = match f ssh (Some []) with Ok (a, _) => Ok a | Raise e => Raise e end /\
  (forall a d, f ssh (Some []) = Ok (a, d) -> exists x r, d = Some (x :: r) /\ forall ssh', exists b, f ssh' d = Ok (b, d) /\ plain (f ssh') = Ok b).
Lemma cached_run f : cached f -> forall sshs c, (c = Some [] \/ exists ssh a x r, f ssh (Some []) = Ok (a, c) /\ c = Some (x :: r)) ->
  fst (run (map f sshs) c) = map (fun s => plain (f s)) sshs.
Proof.
  intros Hf. induction sshs as [|s sshs IH]; intros c Hc; [reflexivity|]. cbn [map run]. destruct Hc as [-> | (s0 & a & x & r & E & ->)].
  - destruct (Hf s) as [P K]. rewrite P. destruct (f s (Some [])) as [[b d]|e] eqn:E.
    + destruct (K b d eq_refl) as (x & r & -> & _). assert (X := IH (Some (x :: r))). destruct (run (map f sshs) (Some (x :: r))) as [l d']. cbn [fst] in *. rewrite X by (right; exists s, b, x, r; auto). reflexivity.
    + assert (X := IH (Some [])). destruct (run (map f sshs) (Some [])) as [l d']. cbn [fst] in *. rewrite X by auto. reflexivity.
  - destruct (Hf s0) as [_ K]. destruct (K a _ E) as (x' & r' & _ & Y). destruct (Y s) as (b & E2 & P). rewrite E2, P.
    assert (X := IH (Some (x :: r))). destruct (run (map f sshs) (Some (x :: r))) as [l d']. cbn [fst] in *. rewrite X by (right; exists s0, a, x, r; auto). reflexivity.
Qed.
Lemma cached_s sig bathy hc thetas thetab cs : cached (fun ssh => ocean_s_coordinate sig ssh bathy hc thetas thetab cs).
Proof.
  intro ssh. unfold plain, ocean_s_coordinate. cbn [filled_cache].
  set (cr := match cs with Some a => Ok a | None => get_cs sig thetas thetab end). destruct cr as [c|e]; cbn [bind]; [|split; [reflexivity|discriminate]].
  destruct (inplace Rplus (amul sig hc) (amul c (asub bathy hc))) as [z|e]; cbn [bind]; [|split; [reflexivity|discriminate]].
  cbn [store fst snd]. split; [reflexivity|]. intros a d H. injection H as _ <-. eexists _, _. split; [reflexivity|]. intro ssh'. cbn [filled_cache getc dget bind fst snd]. eexists. split; reflexivity.
Qed.
Lemma cached_g1 s h hc thetas thetab cs : cached (fun ssh => ocean_s_coordinate_g1 s ssh h hc thetas thetab cs).
Proof.
  intro ssh. unfold plain, ocean_s_coordinate_g1. cbn [filled_cache].
  destruct (stretching s thetas thetab cs) as [c|e]; cbn [bind]; [|split; [reflexivity|discriminate]].
  cbn [store]. split; [reflexivity|]. intros a d H. injection H as _ <-. eexists _, _. split; [reflexivity|]. intro ssh'. cbn. eexists. split; reflexivity.
Qed.
Lemma cached_g2 s h hc thetas thetab cs : cached (fun ssh => ocean_s_coordinate_g2 s ssh h hc thetas thetab cs).
Proof.
  intro ssh. unfold plain, ocean_s_coordinate_g2. cbn [filled_cache].
  destruct (stretching s thetas thetab cs) as [c|e]; cbn [bind]; [|split; [reflexivity|discriminate]].
  destruct (inplace Rdiv (aadd (amul s hc) (amul c h)) (aadd hc h)) as [z|e]; cbn [bind]; [|split; [reflexivity|discriminate]].
  cbn [store]. split; [reflexivity|]. intros a d H. injection H as _ <-. eexists _, _. split; [reflexivity|]. intro ssh'. cbn. eexists. split; reflexivity.
Qed.
(** Any number of calls with the same static terms and one cache, initially empty: the same results as without cache *)
Theorem C41_transparent sshs sig bathy hc thetas thetab othetas othetab cs :
  fst (run (map (fun ssh => ocean_s_coordinate sig ssh bathy hc thetas thetab cs) sshs) (Some [])) =
    map (fun ssh => plain (ocean_s_coordinate sig ssh bathy hc thetas thetab cs)) sshs /\
  fst (run (map (fun ssh => ocean_s_coordinate_g1 sig ssh bathy hc othetas othetab cs) sshs) (Some [])) =
    map (fun ssh => plain (ocean_s_coordinate_g1 sig ssh bathy hc othetas othetab cs)) sshs /\
  fst (run (map (fun ssh => ocean_s_coordinate_g2 sig ssh bathy hc othetas othetab cs) sshs) (Some [])) =
    map (fun ssh => plain (ocean_s_coordinate_g2 sig ssh bathy hc othetas othetab cs)) sshs.
Proof.
  split; [|split].
  - apply (cached_run _ (cached_s sig bathy hc thetas thetab cs)). auto.
  - apply (cached_run _ (cached_g1 sig bathy hc othetas othetab cs)). auto.
  - apply (cached_run _ (cached_g2 sig bathy hc othetas othetab cs)). auto.
Qed.
(** With other static terms, the stored ones are used; with the cache of another formula, an error. *)
Definition sca (r : R) : arr := mkarr [] (fun _ => r).
Theorem C41_stale_refuted : exists sig1 sig2 ssh bathy hc cs,
  let f s := ocean_s_coordinate_g2 s ssh bathy hc None None (Some cs) in
  exists a b, fst (run [f sig1; f sig2] (Some [])) = [Ok a; Ok a] /\ plain (f sig2) = Ok b /\ at_ a (fun _ => 0%nat) <> at_ b (fun _ => 0%nat).
Proof.
  exists (sca 0), (sca (-1)), (sca 0), (sca 1), (sca 1), (sca 0). cbn zeta. eexists _, _. split; [reflexivity|]. split; [reflexivity|]. cbn. lra.
Qed.
Theorem C41_other_formula_refuted sig ssh bathy hc thetas thetab cs x : forall a c, ocean_s_coordinate_g1 sig ssh bathy hc thetas thetab cs (Some []) = Ok (a, c) ->
  ocean_s_coordinate_g2 sig ssh bathy hc thetas thetab cs c = Raise KeyError /\ ocean_s_coordinate sig ssh bathy hc x x cs c = Raise KeyError.
Proof.
  intros a c. unfold ocean_s_coordinate_g1. cbn [filled_cache]. destruct (stretching sig thetas thetab cs) as [k|e]; [|discriminate]. cbn [bind store]. intro H.
  injection H as _ <-. split; reflexivity.
Qed.
(** The formulas without static part have no cache: nothing to say. *)
Example ex_g2 : exists z, ocean_s_coordinate_g2 (mkarr ["s"%string] (fun e => - INR (e "s"%string))) (sca 1) (sca 100) (sca 10) (Some (sca 5)) (Some (sca (1 / 2))) None None = Ok (z, None) /\
  at_ z (fun _ => 0%nat) = 1 /\ at_ z (fun _ => 1%nat) = -100.
Proof.
  destruct (C40_formula_g2 (mkarr ["s"%string] (fun e => - INR (e "s"%string))) (sca 1) (sca 100) (sca 10) (Some (sca 5)) (Some (sca (1 / 2))) None) as (z & E & V).
  - intros _. eexists _, _. repeat split; reflexivity.
  - exists z. split; [exact E|]. rewrite !V. cbn. rewrite Ropp_0. replace (- (1)) with (-1) by lra. destruct (C40_stretch 5 (1 / 2) ltac:(lra)) as (S0 & S1 & _). unfold cf_g2. rewrite S0, S1. split; lra.
Qed.
Example ex_s_refuted : let bathy := mkarr ["y"; "x"]%string (fun _ => 100) in
  ocean_s_coordinate (mkarr ["s"%string] (fun _ => 0)) (sca 0) bathy (sca 10) (sca 5) (sca 0) None None = Raise ValueError.
Proof. apply (proj2 (C40_formula_s _ _ _ _ _ _ _) "y"%string); cbn; auto; intuition discriminate. Qed.
Print Assumptions C40_stretch.
