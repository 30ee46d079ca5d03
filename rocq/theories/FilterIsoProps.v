(** C38: window functions and isotropic kernels. *)
From Verif Require Import PyDictFacts CoordsProofs TransposeProps KernelProps.
From Verif Require Import FilterIso.
From Coq Require Import Lqa Lia.
Open Scope nat_scope.

(** ** Vocabulary *)
(** Equal up to the tolerance of numpy.allclose, for [x] near [y] *)
Definition near (x y : Q) : Prop := (Qabs (x - y) <= (1 # 100000000) + (1 # 100000) * Qabs y)%Q.
(** A size or values that count: not zero, not empty *)
Definition usable (s : spec1) : Prop :=
  match s with One (KSize z) => z <> 0%Z | One (KFloat q) => ~ (q == 0)%Q | One (KVals l) => l <> [] | Arr l => exists q, l = [q] /\ ~ (q == 0)%Q end.
(** The size of a dictionary of dimensions along a dimension: one for the others *)
Definition size_in (d : dict nat) (x : string) : nat := match dget d x with Some n => n | None => 1 end.
(** The largest size *)
Definition largest (l : list nat) : nat := fold_right Nat.max 0 l.

(** ** Facts *)
Lemma close_iff x y : close x y = true <-> near x y.
Proof. apply Qle_bool_iff. Qed.
Lemma truth_usable s : usable s -> truth s = Ok true.
Proof.
  destruct s as [[z|q|l]|l]; cbn; intro H.
  - now rewrite (proj2 (Z.eqb_neq z 0) H).
  - destruct (Qeq_bool q 0) eqn:E; [now apply Qeq_bool_eq in E|reflexivity].
  - now destruct l.
  - destruct H as (q & -> & H). cbn. destruct (Qeq_bool q 0) eqn:E; [now apply Qeq_bool_eq in E|reflexivity].
Qed.
Lemma insert_o (k : da (option Q)) ds : CoordsSpec.wf k -> NoDup ds -> incl (dims k) ds -> exists b, transpose k (map Some ds) None (EName "insert") = Ok b /\ dims b = ds /\
  (forall d, In d (dims k) -> size b d = size k d) /\ (forall d, In d ds -> ~ In d (dims k) -> size b d = 1) /\ forall env, look b env = look k env.
Proof.
  intros Hw Hn Hi.
  destruct (C23_insert_resize (option Q) k (map Some ds) None (EName "insert") Insert Hw (or_introl eq_refl) (or_introl eq_refl)) as [H _].
  assert (Hs : NoDup (map Some ds)) by (apply FinFun.Injective_map_NoDup; auto; intros x y E; now injection E).
  destruct (H Hs) as (b & E & D & S). destruct (C23_no_element_lost (option Q) k b _ _ _ Hw E) as (W & L & P). exists b. split; auto.
  assert (D' : dims b = ds).
  { rewrite D. assert (Hf : flush_left (map Some ds) = None :: map Some ds).
    { unfold flush_left. replace (existsb _ (map Some ds)) with false; auto. clear. induction ds; auto. }
    rewrite Hf. cbn [placed]. assert (U : unnamed (dims k) (map Some ds) = []).
    { assert (U : forall d, In d (unnamed (dims k) (map Some ds)) -> False); [|destruct (unnamed (dims k) (map Some ds)) as [|x l]; auto; destruct (U x); now left].
      intros d Hd. apply in_unnamed in Hd. destruct Hd as [H1 H2]. apply H2. apply in_map. auto. }
    rewrite U. cbn [app]. clear. induction ds as [|d ds IH]; auto. cbn [map placed]. now rewrite IH. }
  split; auto. split; [intros d Hd; apply P; auto|]. split; [|exact L]. intros d H1 H2. rewrite S; auto. now rewrite D'.
Qed.

Section Props.
Variable arg : Type.
Variables np_attr sw_attr : string -> option (wfun arg).
Variable fill : Q.
Variable at_ : list Q -> Q -> Q.
Notation get_window_func := (get_window_func arg np_attr sw_attr).
Notation generate := (generate arg np_attr sw_attr fill at_).

(** ** Window functions *)
(** A name is one of numpy, then one of scipy.signal.windows, else an error; the arguments come after the size; values are
    interpolated, whatever the arguments *)
Theorem C38_window_func args kw s (f : wfun arg) l size :
  (np_attr s = Some f -> exists g, get_window_func (WName arg s) args kw = Ok g /\ g size = f size args kw) /\
  (np_attr s = None -> sw_attr s = Some f -> exists g, get_window_func (WName arg s) args kw = Ok g /\ g size = f size args kw) /\
  (np_attr s = None -> sw_attr s = None -> get_window_func (WName arg s) args kw = Raise XoaError) /\
  (exists g, get_window_func (WFunc arg f) args kw = Ok g /\ g size = f size args kw) /\
  (l <> [] -> exists g, get_window_func (WVals arg l) args kw = Ok g /\ ((0 <= size)%Z -> g size = Ok (window_values l (Z.to_nat size)))).
Proof.
  unfold FilterIso.get_window_func. split; [intros ->; eauto|]. split; [intros -> ->; eauto|]. split; [now intros -> ->|]. split; [eauto|].
  intro Hl. eexists. split; [reflexivity|]. intro Hs. unfold window_of. destruct (Z.ltb_spec size 0); [lia|]. now destruct l.
Qed.

(** ** Splitting *)
(** Consistent with the first isotropic kernel *)
Definition consistent (i kn : spec1) : Prop :=
  scalar kn = scalar i /\ (scalar i = false -> allclose (vals kn) (vals i) = Ok true).
Lemma dset_new {A} (d : dict A) k v : ~ In k (dkeys d) -> dset d k v = (d ++ [(k, v)])%list.
Proof.
  induction d as [|[k' v'] d IH]; cbn; intro H; [reflexivity|]. destruct (String.eqb_spec k k') as [->|]; [destruct H; now left|].
  rewrite IH; auto.
Qed.
Lemma split_consistent iso i st d : isok st = Some i -> usable i -> (forall kv, In kv d -> In (fst kv) iso /\ consistent i (snd kv)) ->
  NoDup (dkeys (sizes st) ++ dkeys d) ->
  split_all iso st d = Ok (mksplit (Some i) (sizes st ++ map (fun kv => (fst kv, size_of (snd kv))) d) (ortho st)).
Proof.
  revert st. induction d as [|[x kn] d IH]; intros st Hi Ui Hd Hn; cbn [split_all map].
  - rewrite app_nil_r. destruct st. cbn in *. now subst.
  - destruct (Hd (x, kn) (or_introl eq_refl)) as [Hx [Hs Hc]]. cbn [fst snd] in *. unfold split_step.
    assert (mem x iso = true) as -> by now apply mem_In. cbn [negb]. rewrite Hi. cbn [truth_opt]. rewrite (truth_usable i Ui). cbn [bind].
    rewrite Hs, xorb_nilpotent. 
    assert (E : (if scalar i then Ok i else let* c := allclose (vals kn) (vals i) in if c then Ok i else Raise XoaError) = Ok i).
    { destruct (scalar i); [reflexivity|]. now rewrite Hc. }
    rewrite E. cbn [bind]. rewrite IH; cbn [isok sizes ortho]; auto.
    + assert (N : ~ In x (dkeys (sizes st))).
      { cbn [dkeys map fst] in Hn. intro H. apply NoDup_remove in Hn. apply (proj2 Hn). apply in_or_app. now left. }
      rewrite (dset_new _ _ _ N), <- app_assoc. reflexivity.
    + intros kv H. apply Hd. now right.
    + assert (N : ~ In x (dkeys (sizes st))).
      { cbn [dkeys map fst] in Hn. intro H. apply NoDup_remove in Hn. apply (proj2 Hn). apply in_or_app. now left. }
      rewrite (dset_new _ _ _ N). unfold dkeys in *. rewrite map_app, <- app_assoc. exact Hn.
Qed.
Lemma split_iso iso x0 i d : usable i -> In x0 iso -> (forall kv, In kv d -> In (fst kv) iso /\ consistent i (snd kv)) -> NoDup (x0 :: dkeys d) ->
  split_all iso (mksplit None [] []) ((x0, i) :: d) = Ok (mksplit (Some i) (map (fun kv => (fst kv, size_of (snd kv))) ((x0, i) :: d)) []).
Proof.
  intros Ui Hx Hd Hn. cbn [split_all]. unfold split_step. assert (mem x0 iso = true) as -> by now apply mem_In. cbn.
  rewrite (split_consistent iso i); cbn [isok sizes ortho]; auto.
Qed.

Lemma int_sizes_ok ns : int_sizes (map (fun n => SInt (Z.of_nat n)) ns) = Ok (map Z.of_nat ns).
Proof. induction ns as [|n ns IH]; [reflexivity|]. cbn. now rewrite IH. Qed.
Lemma largest_Z ns : fold_right Z.max 0%Z (map Z.of_nat ns) = Z.of_nat (largest ns).
Proof. unfold largest. induction ns as [|n ns IH]; [reflexivity|]. cbn [map fold_right]. rewrite IH. lia. Qed.
Lemma isotropic_ok ns f fp : f (2 * Z.of_nat (largest ns))%Z = Ok fp -> List.length fp = 2 * largest ns -> 0 < largest ns ->
  isotropic_nd fill at_ (map (fun n => SInt (Z.of_nat n)) ns) f = Ok (mkndo ns (isotropic_kernel ns (at_ fp) fill)).
Proof.
  intros Hf Hl Hp. unfold isotropic_nd. rewrite int_sizes_ok. cbn [bind].
  assert (existsb (fun z => (z <? 0)%Z) (map Z.of_nat ns) = false) as ->.
  { clear. induction ns as [|n ns IH]; [reflexivity|]. cbn [map existsb]. destruct (Z.ltb_spec (Z.of_nat n) 0); [lia|]. auto. }
  cbn [bind]. rewrite largest_Z, Hf. cbn [bind]. destruct (Z.eqb_spec (2 * Z.of_nat (largest ns)) 0); [lia|]. cbn [orb].
  replace (Z.to_nat (2 * Z.of_nat (largest ns))) with (2 * largest ns) by lia. rewrite Hl, Nat.eqb_refl. cbn [negb].
  assert (E : map Z.to_nat (map Z.of_nat ns) = ns) by (rewrite map_map; rewrite <- (map_id ns) at 2; apply map_ext; intro; apply Nat2Z.id).
  now rewrite E.
Qed.
(** The end of generate_kernel *)
Lemma finish (ns : dict nat) (v : list nat -> option Q) ds : NoDup (dkeys ns) -> NoDup ds -> incl (dkeys ns) ds ->
  exists k, (let* a := label_o (mkndo (map snd ns) v) (dkeys ns) in transpose a (map Some ds) None (EName "insert")) = Ok k /\ dims k = ds /\
    (forall x, In x ds -> size k x = size_in ns x) /\ forall env, look k env = v (map env (dkeys ns)).
Proof.
  intros Hn Hd Hi. unfold label_o. cbn [oshape ovalue]. unfold dkeys at 1. rewrite !map_length, Nat.eqb_refl, (proj2 (nodupb_ok _) Hn). cbn [andb bind].
  set (a := mkda (dkeys ns) (map snd ns) v).
  assert (Wa : CoordsSpec.wf a) by (split; cbn [a dims shape]; [unfold dkeys; now rewrite !map_length|exact Hn]).
  destruct (insert_o a ds Wa Hd Hi) as (b & -> & D & S1 & S2 & L). exists b. split; [reflexivity|]. split; [exact D|]. split.
  - intros x Hx. destruct (in_dec string_dec x (dkeys ns)) as [H|H].
    + rewrite S1 by exact H. unfold size, size_in. cbn [a dims shape]. unfold pos. clear - H. unfold dkeys in *. induction ns as [|[k n] ns IH]; [destruct H|]. cbn [map fst snd combine dget] in *.
      destruct (String.eqb_spec x k); [reflexivity|]. apply IH. destruct H; [congruence|auto].
    + rewrite S2 by auto. unfold size_in. rewrite (proj2 (dget_none ns x) H). reflexivity.
  - intro env. rewrite L. reflexivity.
Qed.
(** ** Isotropic kernels *)
Lemma generate_iso x0 i d iso w args kw ds ns f fp :
  usable i -> (forall kv, In kv ((x0, i) :: d) -> In (fst kv) iso) -> (forall kv, In kv d -> consistent i (snd kv)) -> NoDup (x0 :: dkeys d) -> incl iso ds -> NoDup ds ->
  map (fun kv => (fst kv, size_of (snd kv))) ((x0, i) :: d) = map (fun xn => (fst xn, SInt (Z.of_nat (snd xn)))) ns ->
  get_window_func (if scalar i then w else WVals arg (vals i)) [] [] = Ok f ->
  f (2 * Z.of_nat (largest (map snd ns)))%Z = Ok fp -> List.length fp = 2 * largest (map snd ns) -> 0 < largest (map snd ns) ->
  exists k, generate (GDict ((x0, i) :: d)) iso w args kw ds = Ok k /\ dims k = ds /\ (forall x, In x ds -> size k x = size_in ns x) /\
    forall env, look k env = isotropic_kernel (map snd ns) (at_ fp) fill (map env (dkeys ns)).
Proof.
  intros Ui Hi Hc Hn Hs Hd E Hf Hfp Hl Hp. unfold FilterIso.generate. cbn [to_dict bind]. rewrite (proj2 (forallb_incl iso ds) Hs). cbn [negb].
  rewrite (split_iso iso x0 i d Ui); [|apply (Hi (x0, i)); now left|intros kv H; split; [apply Hi; now right|auto]|exact Hn].
  rewrite E. cbn [bind ortho sizes isok truth_opt]. rewrite (truth_usable i Ui). cbn [bind]. rewrite Hf. cbn [bind].
  assert (M : map snd (map (fun xn : string * nat => (fst xn, SInt (Z.of_nat (snd xn)))) ns) = map (fun n => SInt (Z.of_nat n)) (map snd ns)) by now rewrite !map_map.
  rewrite M, (isotropic_ok _ f fp Hfp Hl Hp). cbn [bind].
  assert (K : dkeys (map (fun xn : string * nat => (fst xn, SInt (Z.of_nat (snd xn)))) ns) = dkeys ns) by (unfold dkeys; now rewrite map_map).
  cbn [dkeys map app]. fold (dkeys (map (fun xn : string * nat => (fst xn, SInt (Z.of_nat (snd xn)))) ns)). rewrite K.
  assert (K0 : x0 :: dkeys d = dkeys ns).
  { rewrite <- K, <- E. unfold dkeys. cbn [map fst]. now rewrite map_map. }
  apply finish; [now rewrite <- K0|exact Hd|]. rewrite <- K0. intros x Hx. apply Hs. destruct Hx as [<-|Hx]; [apply (Hi (x0, i)); now left|].
  unfold dkeys in Hx. apply in_map_iff in Hx. destruct Hx as (kv & <- & Hk). apply Hi. now right.
Qed.

(** Sizes along dimensions that are all isotropic: the dimensions of the data, these sizes (one elsewhere), and the values of
    the isotropic kernel of this shape with the window function, without its arguments, at twice the largest size *)
Theorem C38_iso_sizes ns iso w args kw ds f fp :
  ns <> [] -> NoDup (dkeys ns) -> (forall x n, In (x, n) ns -> 0 < n) -> incl (dkeys ns) iso -> incl iso ds -> NoDup ds ->
  get_window_func w [] [] = Ok f -> f (2 * Z.of_nat (largest (map snd ns)))%Z = Ok fp -> List.length fp = 2 * largest (map snd ns) ->
  exists k, generate (GDict (map (fun xn => (fst xn, One (KSize (Z.of_nat (snd xn))))) ns)) iso w args kw ds = Ok k /\ dims k = ds /\
    (forall x, In x ds -> size k x = size_in ns x) /\
    forall env, look k env = isotropic_kernel (map snd ns) (at_ fp) fill (map env (dkeys ns)).
Proof.
  intros Hne Hn Hp Hi Hs Hd Hf Hfp Hl. destruct ns as [|[x0 n0] ns]; [congruence|]. cbn [map fst snd].
  apply (generate_iso x0 (One (KSize (Z.of_nat n0))) _ iso w args kw ds ((x0, n0) :: ns) f fp); auto.
  - cbn. assert (X := Hp x0 n0 (or_introl eq_refl)). lia.
  - intros kv H. apply Hi. destruct H as [<-|H]; [now left|]. right. apply in_map_iff in H. destruct H as ([x n] & <- & H). cbn [fst]. unfold dkeys. apply in_map_iff. exists (x, n). auto.
  - intros kv H. apply in_map_iff in H. destruct H as ([x n] & <- & H). split; [reflexivity|]. discriminate.
  - unfold dkeys in *. rewrite map_map. exact Hn.
  - cbn [map fst snd size_of]. f_equal. rewrite map_map. reflexivity.
  - cbn [map snd largest fold_right]. assert (X := Hp x0 n0 (or_introl eq_refl)). lia.
Qed.
(** The same values (up to rounding) along dimensions that are all isotropic: the interpolated values of the first are the
    window function *)
Theorem C38_iso_values x0 l0 rest iso w args kw ds :
  l0 <> [] -> NoDup (x0 :: dkeys rest) -> incl (x0 :: dkeys rest) iso -> incl iso ds -> NoDup ds ->
  (forall x l, In (x, l) rest -> Forall2 near l l0) ->
  let n := List.length l0 in let ns := (x0, n) :: map (fun xl => (fst xl, n)) rest in
  exists k, generate (GDict (map (fun xl => (fst xl, One (KVals (snd xl)))) ((x0, l0) :: rest))) iso w args kw ds = Ok k /\ dims k = ds /\
    (forall x, In x ds -> size k x = size_in ns x) /\
    forall env, look k env = isotropic_kernel (map snd ns) (at_ (window_values l0 (2 * n))) fill (map env (x0 :: dkeys rest)).
Proof.
  intros Hl Hn Hi Hs Hd Hc n ns.
  change (map (fun xl : string * list Q => (fst xl, One (KVals (snd xl)))) ((x0, l0) :: rest)) with ((x0, One (KVals l0)) :: map (fun xl : string * list Q => (fst xl, One (KVals (snd xl)))) rest).
  assert (Np : 0 < n) by (unfold n; destruct l0; [congruence|cbn; lia]).
  assert (Lg : largest (map snd ns) = n).
  { unfold ns. cbn [map snd]. rewrite map_map. cbn [snd]. unfold largest. cbn [fold_right]. clear - Np. assert (H : fold_right Nat.max 0 (map (fun _ : string * list Q => n) rest) <= n); [|lia].
    induction rest as [|x r IH]; cbn [map fold_right]; lia. }
  assert (K : dkeys ns = x0 :: dkeys rest) by (unfold ns, dkeys; cbn [map fst]; now rewrite map_map).
  rewrite <- K.
  assert (Wl : List.length (window_values l0 (2 * n)) = 2 * n) by (unfold window_values; now rewrite map_length, seq_length).
  assert (Ls : forall x l, In (x, l) rest -> List.length l = n).
  { intros x l H. unfold n. specialize (Hc x l H). clear - Hc. induction Hc; cbn; lia. }
  apply (generate_iso x0 (One (KVals l0)) _ iso w args kw ds ns (window_of l0) (window_values l0 (2 * n))); auto.
  - intros kv H. apply Hi. destruct H as [<-|H]; [now left|]. right. apply in_map_iff in H. destruct H as ([x l] & <- & H). cbn [fst]. unfold dkeys. apply in_map_iff. exists (x, l). auto.
  - intros kv H. apply in_map_iff in H. destruct H as ([x l] & <- & H). split; [reflexivity|]. intros _. cbn [snd vals]. unfold allclose.
    rewrite (Ls x l H). fold n. rewrite Nat.eqb_refl. f_equal. apply forallb_forall. specialize (Hc x l H). clear - Hc. intros p Hp.
    induction Hc as [|a b l1 l2 Hab Hc IH]; [destruct Hp|]. cbn [combine] in Hp. destruct Hp as [<-|Hp]; [now apply close_iff|auto].
  - unfold dkeys in *. rewrite map_map. exact Hn.
  - unfold ns. cbn [map fst snd size_of vals]. f_equal. rewrite !map_map. apply map_ext_in. intros [x l] H. cbn. now rewrite (Ls x l H).
  - rewrite Lg. unfold window_of. destruct (Z.ltb_spec (2 * Z.of_nat n) 0); [lia|]. destruct l0; [congruence|]. f_equal. f_equal. lia.
  - now rewrite Lg.
  - now rewrite Lg.
Qed.
(** The other specifications *)
Theorem C38_iso_specs z l vs iso w args kw ds : 
  (ds <> [] -> generate (GInt z) iso w args kw ds = generate (GDict (map (fun d => (d, One (KSize z))) ds)) iso w args kw ds) /\
  (l <> [] -> List.length l <= List.length ds ->
     generate (GTuple l) iso w args kw ds = generate (GDict (combine (skipn (List.length ds - List.length l) ds) l)) iso w args kw ds) /\
  (List.length ds < List.length l -> generate (GTuple l) iso w args kw ds = Raise XoaError) /\
  generate (GList vs) iso w args kw ds = generate (GDict (map (fun d => (d, One (KVals vs))) ds)) iso w args kw ds.
Proof.
  unfold FilterIso.generate. cbn [to_dict]. split; [|split; [|split; [|reflexivity]]].
  - intro H. rewrite repeat_length, Nat.ltb_irrefl. cbn [bind]. unfold last_dims. destruct (Nat.eqb_spec (List.length ds) 0) as [E|E]; [destruct ds; [congruence|discriminate]|].
    rewrite Nat.sub_diag. cbn [skipn]. assert (X : combine ds (repeat (One (KSize z)) (List.length ds)) = map (fun d => (d, One (KSize z))) ds).
    { clear. induction ds as [|d ds IH]; [reflexivity|]. cbn. now rewrite IH. }
    now rewrite X.
  - intros H1 H2. destruct (Nat.ltb_spec (List.length ds) (List.length l)); [lia|]. cbn [bind]. unfold last_dims.
    destruct (Nat.eqb_spec (List.length l) 0) as [E|E]; [destruct l; [congruence|discriminate]|]. reflexivity.
  - intro H. destruct (Nat.ltb_spec (List.length ds) (List.length l)); [reflexivity|lia].
Qed.

(** ** What cannot be done *)
(** Invariant of the splitting: what has been seen *)
Lemma split_inv iso st d st' : split_all iso st d = Ok st' -> (forall kv, In kv d -> In (fst kv) iso -> usable (snd kv)) ->
  (forall i, isok st = Some i -> usable i) ->
  (forall i, isok st' = Some i -> usable i) /\
  (isok st <> None \/ (exists kv, In kv d /\ In (fst kv) iso) -> isok st' <> None /\ (isok st = None -> sizes st' <> [])) /\
  (ortho st <> [] \/ (exists kv, In kv d /\ ~ In (fst kv) iso) -> ortho st' <> []) /\
  (sizes st <> [] -> sizes st' <> []) /\
  (forall i, isok st = Some i -> isok st' = Some i).
Proof.
  revert st. induction d as [|[x kn] d IH]; intros st E Hu Hi.
  - cbn in E. injection E as <-. split; [exact Hi|]. split; [|split; [|auto]].
    + intros [H|(kv & [] & _)]. split; [exact H|]. intro H'. now destruct H.
    + intros [H|(kv & [] & _)]. exact H.
  - cbn [split_all] in E. destruct (split_step iso st (x, kn)) as [st1|] eqn:E1; [|discriminate]. cbn [bind] in E.
    assert (Hu' : forall kv, In kv d -> In (fst kv) iso -> usable (snd kv)) by (intros kv H; apply Hu; now right).
    specialize (IH st1 E Hu'). unfold split_step in E1. destruct (mem x iso) eqn:Em; cbn [negb] in E1.
    + assert (Ui : forall i, isok st = Some i -> truth i = Ok true) by (intros i H; apply truth_usable; auto).
      assert (X : exists i, st1 = mksplit (Some i) (dset (sizes st) x (size_of kn)) (ortho st) /\ (isok st = Some i \/ (isok st = None /\ i = kn))).
      { destruct (isok st) as [i|]; cbn [truth_opt bind] in E1.
        - rewrite (Ui i eq_refl) in E1. cbn [bind] in E1. destruct (xorb (scalar i) (scalar kn)); [discriminate|]. destruct (scalar kn).
          + cbn [bind] in E1. injection E1 as <-. eauto.
          + destruct (allclose (vals kn) (vals i)) as [[]|]; try discriminate. cbn [bind] in E1. injection E1 as <-. eauto.
        - injection E1 as <-. eauto. }
      destruct X as (i & -> & Xi). cbn [isok sizes ortho] in IH.
      assert (Uk : forall j, Some i = Some j -> usable j).
      { intros j H. injection H as <-. destruct Xi as [Xi|[_ ->]]; [auto|]. apply (Hu (x, kn)); [now left|]. now apply mem_In. }
      destruct (IH Uk) as (I1 & I2 & I3 & I4 & I5). assert (NS : sizes st' <> []) by (apply I4; destruct (sizes st) as [|[a b] r]; cbn; [discriminate|]; destruct (String.eqb x a); discriminate).
      split; [exact I1|]. split; [intros _; split; [apply I2; left; discriminate|auto]|]. split; [|split; [auto|]].
      * intros [H|(kv & [<-|H] & Hk)]; apply I3; auto; [|right; eauto]. exfalso. apply Hk. now apply mem_In.
      * intros j H. apply I5. destruct Xi as [Xi|[Xi _]]; congruence.
    + injection E1 as <-. cbn [isok sizes ortho] in IH. destruct (IH Hi) as (I1 & I2 & I3 & I4 & I5).
      assert (NO : ortho st' <> []) by (apply I3; left; destruct (ortho st) as [|[a b] r]; cbn; [discriminate|]; destruct (String.eqb x a); discriminate).
      split; [exact I1|]. split; [|split; [auto|split; [exact I4|exact I5]]].
      intros [H|(kv & [<-|H] & Hk)]; apply I2; auto; [|right; eauto]. exfalso. apply mem_In in Hk. cbn [fst] in Hk. congruence.
Qed.
Lemma merge_rank a l b : merge a l = Ok b -> List.length (nshape b) = S (List.length (nshape a)).
Proof.
  unfold merge. destruct (nshape a) as [|n [|m s]] eqn:E; [discriminate| |]; intro H.
  - injection H as <-. reflexivity.
  - destruct (List.last (m :: s) 0 =? 1); [|discriminate]. injection H as <-. cbn [nshape]. change (S (S (List.length (removelast (m :: s) ++ [List.length l]))) = S (S (S (List.length s)))). rewrite app_length.
    assert (R : forall (s : list nat) m, List.length (removelast (m :: s)) = List.length s).
    { clear. induction s as [|x s IH]; intro m; [reflexivity|]. cbn [removelast List.length]. f_equal. apply IH. }
    rewrite R. cbn [List.length]. lia.
Qed.
Lemma ortho_rank f ks a o : orthogonal_w fill f ks (Some a) = Ok o -> exists b, o = Some b /\ List.length (nshape b) = List.length (nshape a) + List.length ks.
Proof.
  revert a. induction ks as [|k ks IH]; intros a H; cbn [orthogonal_w] in H.
  - injection H as <-. exists a. cbn. split; [reflexivity|lia].
  - destruct (one_kernel_w fill f k) as [l|]; [|discriminate]. cbn [bind] in H. destruct (merge a l) as [b|] eqn:E; [|discriminate]. cbn [bind] in H.
    destruct (IH b H) as (c & -> & L). exists c. split; [reflexivity|]. rewrite (merge_rank a l b E) in L. cbn [List.length]. lia.
Qed.
Lemma ortho_rank0 f k ks o : orthogonal_w fill f (k :: ks) None = Ok o -> exists b, o = Some b /\ List.length (nshape b) = S (List.length ks).
Proof.
  cbn [orthogonal_w]. destruct (one_kernel_w fill f k) as [l|]; [|discriminate]. cbn [bind]. intro H. destruct (ortho_rank _ _ _ _ H) as (b & -> & L). exists b. split; [reflexivity|]. cbn in L. lia.
Qed.
Lemma iso_rank ss f b : isotropic_nd fill at_ ss f = Ok b -> List.length (oshape b) = List.length ss.
Proof.
  unfold isotropic_nd. destruct (int_sizes ss) as [zs|] eqn:E; [|discriminate]. cbn [bind].
  assert (L : List.length zs = List.length ss).
  { clear - E. revert zs E. induction ss as [|s ss IH]; intros zs E; cbn in E; [now injection E as <-|]. destruct (int_size s); [|discriminate]. cbn in E.
    destruct (int_sizes ss) as [r|]; [|discriminate]. injection E as <-. cbn. f_equal. now apply IH. }
  destruct (existsb (fun z => (z <? 0)%Z) zs); [discriminate|]. destruct (f _) as [fp|]; [|discriminate]. cbn [bind].
  destruct ((_ =? 0)%Z || _); [discriminate|]. intro H. injection H as <-. cbn [oshape]. rewrite map_length. exact L.
Qed.
(** False: a kernel can be isotropic along some of its dimensions only.  It always fails *)
Theorem C38_mixed_refuted d iso w args kw ds r : (forall kv, In kv d -> In (fst kv) iso -> usable (snd kv)) ->
  (exists kv, In kv d /\ In (fst kv) iso) -> (exists kv, In kv d /\ ~ In (fst kv) iso) ->
  generate (GDict d) iso w args kw ds <> Ok r.
Proof.
  intros Hu H1 H2 E. unfold FilterIso.generate in E. cbn [to_dict bind] in E. destruct (negb (forallb (fun x => mem x ds) iso)); [discriminate|].
  destruct (split_all iso (mksplit None [] []) d) as [st|] eqn:Es; [|discriminate]. cbn [bind] in E.
  destruct (split_inv iso (mksplit None [] []) d st Es Hu) as (I1 & I2 & I3 & _); [discriminate|]. cbn [isok sizes ortho] in *.
  destruct I2 as [Ni Ns]; [now right|]. specialize (Ns eq_refl). specialize (I3 (or_intror H2)).
  destruct (isok st) as [i|] eqn:Ei; [|congruence]. cbn [truth_opt] in E. rewrite (truth_usable i (I1 i eq_refl)) in E.
  destruct (ortho st) as [|[x0 k0] o] eqn:Eo; [congruence|].
  destruct (get_window_func w args kw) as [f|]; [|discriminate]. cbn [bind map snd] in E.
  destruct (orthogonal_w fill f (k0 :: map snd o) None) as [a|] eqn:Ea; [|discriminate]. cbn [bind] in E.
  destruct (ortho_rank0 _ _ _ _ Ea) as (b & -> & La). destruct (get_window_func (if scalar i then as_func arg f else WVals arg (vals i)) [] []) as [g|]; [|discriminate].
  cbn [bind] in E. destruct (isotropic_nd fill at_ (map snd (sizes st)) g) as [c|] eqn:Ec; [|discriminate]. cbn [bind] in E.
  assert (Lc := iso_rank _ _ _ Ec). rewrite map_length in Lc.
  unfold tensordot2 in E. destruct (List.last (nshape b) 0) as [|[|n]]; try discriminate. destruct (oshape c) as [|[|[|m]] s] eqn:Es'; try discriminate.
  cbn [bind] in E. unfold label_o in E. cbn [oshape] in E.
  assert (R : forall l : list nat, List.length (removelast l) = List.length l - 1).
  { clear. induction l as [|x [|y l] IH]; [reflexivity|reflexivity|]. change (removelast (x :: y :: l)) with (x :: removelast (y :: l)). cbn [List.length] in *. lia. }
  assert (X : (List.length (dkeys ((x0, k0) :: o) ++ dkeys (sizes st)) =? List.length (removelast (nshape b) ++ s)) = false).
  { apply Nat.eqb_neq. rewrite !app_length, R, La. unfold dkeys. rewrite !map_length in *. cbn [List.length] in *. lia. }
  rewrite X in E. discriminate.
Qed.
(** False: the arguments of the window function are used.  They are not for isotropic kernels *)
Lemma split_all_iso iso st d st' : split_all iso st d = Ok st' -> ortho st = [] -> incl (dkeys d) iso -> ortho st' = [].
Proof.
  revert st. induction d as [|[x kn] d IH]; intros st E Ho Hi; cbn [split_all] in E; [injection E as <-; exact Ho|].
  destruct (split_step iso st (x, kn)) as [st1|] eqn:E1; [|discriminate]. cbn [bind] in E. apply (IH st1 E).
  - unfold split_step in E1. assert (Em : mem x iso = true) by (apply mem_In, Hi; now left). rewrite Em in E1. cbn [negb] in E1.
    destruct (truth_opt (isok st)); [|discriminate]. cbn [bind] in E1. destruct (match isok st with Some i => _ | None => _ end) as [i|]; [|discriminate].
    cbn [bind] in E1. injection E1 as <-. exact Ho.
  - intros y Hy. apply Hi. now right.
Qed.
Theorem C38_iso_args_refuted d iso w args kw ds : incl (dkeys d) iso ->
  generate (GDict d) iso w args kw ds = generate (GDict d) iso w [] [] ds.
Proof.
  intro Hi. unfold FilterIso.generate. cbn [to_dict bind]. destruct (negb (forallb (fun x => mem x ds) iso)); [reflexivity|].
  destruct (split_all iso (mksplit None [] []) d) as [st|] eqn:Es; [|reflexivity]. cbn [bind].
  rewrite (split_all_iso _ _ _ _ Es eq_refl Hi). reflexivity.
Qed.
(** False: a numpy array can be the kernel of an isotropic dimension.  It is an error if it is the first *)
Theorem C38_iso_array_refuted x l d iso w args kw ds : In x iso -> incl iso ds -> 2 <= List.length l -> incl (dkeys d) iso ->
  generate (GDict ((x, Arr l) :: d)) iso w args kw ds = Raise ValueError.
Proof.
  intros Hx Hs Hl Hd. unfold FilterIso.generate. cbn [to_dict bind]. rewrite (proj2 (forallb_incl iso ds) Hs). cbn [negb split_all].
  assert (T : truth (Arr l) = Raise ValueError) by (destruct l as [|a [|b l]]; cbn in Hl; [lia|lia|reflexivity]).
  unfold split_step at 1. assert (mem x iso = true) as -> by now apply mem_In. cbn [negb truth_opt isok bind].
  destruct d as [|[y kn] d].
  - cbn [split_all bind ortho isok truth_opt]. now rewrite T.
  - cbn [split_all]. unfold split_step at 1. assert (mem y iso = true) as -> by (apply mem_In, Hd; now left). cbn [negb isok truth_opt]. rewrite T. reflexivity.
Qed.
(** What is accepted is consistent: sizes only, or values that are near those of the first.  A list
    of one value is compared with all the values of the other. *)
Definition matching (l li : list Q) : Prop :=
  Forall2 near l li \/ (exists x, l = [x] /\ Forall (near x) li) \/ (exists y, li = [y] /\ Forall (fun x => near x y) l).
Theorem C38_iso_consistent d iso w args kw ds r : (forall kv, In kv d -> In (fst kv) iso -> usable (snd kv)) ->
  generate (GDict d) iso w args kw ds = Ok r ->
  forall d1 x i d2 y kn, d = (d1 ++ (x, i) :: d2)%list -> (forall kv, In kv d1 -> ~ In (fst kv) iso) -> In x iso -> In (y, kn) d2 -> In y iso ->
  match i, kn with
  | One (KSize _ | KFloat _), One (KSize _ | KFloat _) => True
  | (One (KVals li) | Arr li), (One (KVals l) | Arr l) => matching l li
  | _, _ => False
  end.
Proof.
  intros Hu E d1 x i d2 y kn -> H1 Hx Hy Hyi. unfold FilterIso.generate in E. cbn [to_dict bind] in E. destruct (negb (forallb (fun x => mem x ds) iso)); [discriminate|].
  destruct (split_all iso (mksplit None [] []) (d1 ++ (x, i) :: d2)) as [st|] eqn:Es; [|discriminate]. clear E.
  assert (Ui : usable i) by (apply (Hu (x, i)); [apply in_or_app; right; now left|exact Hx]).
  assert (Sp : forall l1 l2 s, split_all iso s (l1 ++ l2) = let* t := split_all iso s l1 in split_all iso t l2).
  { clear. induction l1 as [|a l1 IH]; intros l2 s; [reflexivity|]. cbn [app split_all]. destruct (split_step iso s a); [apply IH|reflexivity]. }
  rewrite Sp in Es. destruct (split_all iso (mksplit None [] []) d1) as [st1|] eqn:E1; [|discriminate]. cbn [bind] in Es.
  assert (N1 : isok st1 = None).
  { clear - E1 H1. assert (G : forall s, isok s = None -> split_all iso s d1 = Ok st1 -> isok st1 = None); [|now apply (G (mksplit None [] []))]. revert H1. clear.
    induction d1 as [|[x k] d1 IH]; intros H1 s Hs E; cbn [split_all] in E; [now injection E as <-|]. unfold split_step in E.
    destruct (mem x iso) eqn:Em; [exfalso; apply (H1 (x, k)); [now left|now apply mem_In]|]. cbn [negb bind] in E.
    refine (IH _ _ _ E); [intros kv H; apply H1; now right|exact Hs]. }
  cbn [split_all] in Es. destruct (split_step iso st1 (x, i)) as [st2|] eqn:E2; [|discriminate]. cbn [bind] in Es.
  assert (N2 : isok st2 = Some i).
  { unfold split_step in E2. rewrite (proj2 (mem_In x iso) Hx) in E2. cbn [negb] in E2. rewrite N1 in E2. cbn in E2. now injection E2 as <-. }
  apply in_split in Hy. destruct Hy as (a & b & ->). rewrite Sp in Es. destruct (split_all iso st2 a) as [st3|] eqn:E3; [|discriminate]. cbn [bind] in Es.
  assert (N3 : isok st3 = Some i).
  { apply (split_inv iso st2 a st3 E3); [|intros j H; congruence|exact N2]. intros kv H. apply Hu. apply in_or_app. right. right. apply in_or_app. now left. }
  cbn [split_all] in Es. destruct (split_step iso st3 (y, kn)) as [st4|] eqn:E4; [|discriminate]. clear Es.
  unfold split_step in E4. rewrite (proj2 (mem_In y iso) Hyi) in E4. cbn [negb] in E4. rewrite N3 in E4. cbn [truth_opt] in E4. rewrite (truth_usable i Ui) in E4. cbn [bind] in E4.
  destruct (xorb (scalar i) (scalar kn)) eqn:Ex; [discriminate|].
  assert (C : forall li l, (exists z, (let* c := allclose l li in if c then Ok i else Raise XoaError) = Ok z) -> matching l li).
  { clear. intros li l (z & H). destruct (allclose l li) as [[|]|] eqn:E; cbn [bind] in H; try discriminate. clear H. unfold allclose in E.
    assert (A : forall (p : Q -> bool) (P : Q -> Prop) m, (forall q, p q = true -> P q) -> forallb p m = true -> Forall P m).
    { intros p P m Hp Hm. apply Forall_forall. intros q Hq. apply Hp. now apply (proj1 (forallb_forall p m) Hm). }
    destruct (Nat.eqb_spec (List.length l) (List.length li)) as [HL|HL].
    - left. injection E as F. revert l HL F. induction li as [|y li IH]; intros [|a l] HL F; try discriminate; constructor.
      + cbn [combine forallb fst snd] in F. apply andb_true_iff in F. now apply close_iff.
      + cbn [combine forallb] in F. apply andb_true_iff in F. apply IH; [now injection HL|apply F].
    - right. destruct l as [|x [|x' l]].
      + destruct li as [|y [|y' li]]; try discriminate; cbn in HL; try congruence. right. exists y. split; [reflexivity|constructor].
      + left. exists x. split; [reflexivity|]. injection E as F. apply (A (close x) _ li (fun q H => proj1 (close_iff x q) H) F).
      + destruct li as [|y [|y' li]]; try discriminate. right. exists y. split; [reflexivity|]. injection E as F. apply (A (fun q => close q y) _ (x :: x' :: l) (fun q H => proj1 (close_iff q y) H) F). }
  destruct i as [[zi|qi|li]|li], kn as [[z|q|l]|l]; cbn [scalar xorb] in Ex; try discriminate; try exact I; cbn [scalar vals] in E4;
    (destruct (let* c := allclose l li in if c then _ else Raise XoaError) as [z|e] eqn:Ez; [|discriminate]; apply C; rewrite Ez; eauto).
Qed.
End Props.

(** ** Without isotropic dimensions: the kernels of Filter *)
Definition wrapped (a : da Q) : da (option Q) := mkda (dims a) (shape a) (fun i => Some (value a i)).
Definition map_ok {A B} (f : A -> B) (r : res A) : res B := match r with Ok a => Ok (f a) | Raise e => Raise e end.
Lemma transpose_wrapped a req sz m : transpose (wrapped a) req sz m = map_ok wrapped (transpose a req sz m).
Proof.
  unfold transpose. destruct (enum_getitem transpose_modes m) as [[md v]|]; [|reflexivity]. cbn [bind fst].
  assert (T : forall b r, xr_transpose (wrapped b) r = map_ok wrapped (xr_transpose b r)).
  { intros b r. unfold xr_transpose. cbn [wrapped dims]. destruct (match r with [] => _ | _ => _ end) as [nd|]; [|reflexivity]. cbn [bind]. destruct (is_perm nd (dims b)); reflexivity. }
  destruct (String.eqb md "classic"); [apply T|].
  assert (F : forall s, fold_left (fun s d => spec_step (wrapped a) md sz d s) req s = fold_left (fun s d => spec_step a md sz d s) req s) by reflexivity.
  rewrite F. destruct (fold_left (fun s d => spec_step a md sz d s) req ([], [])) as [od ex].
  assert (X : match ex with [] => Ok (wrapped a) | _ => xr_expand_dims (wrapped a) ex end = map_ok wrapped (match ex with [] => Ok a | _ => xr_expand_dims a ex end)).
  { destruct ex; [reflexivity|]. unfold xr_expand_dims. cbn [wrapped dims]. destruct (existsb _ _); reflexivity. }
  rewrite X. destruct (match ex with [] => Ok a | _ => xr_expand_dims a ex end) as [b|]; [|reflexivity]. cbn [map_ok bind]. apply T.
Qed.
Section Same.
Variables (arg : Type) (np_attr sw_attr : string -> option (wfun arg)) (fill : Q) (at_ : list Q -> Q -> Q) (window : nat -> list Q).
Hypothesis Hw : forall n, List.length (window n) = n.
Lemma one_same f k : (forall z, f z = call_window window z) -> one_kernel_w fill f k = one_kernel window fill k.
Proof.
  intro Hf. destruct k as [z|q|l]; cbn [one_kernel_w one_kernel]; [apply Hf| |reflexivity].
  set (n := if Qeq_bool _ q then _ else _). destruct (Z.ltb_spec n 0); [reflexivity|]. rewrite Hf. unfold call_window. destruct (Z.ltb_spec (n - 2) 0); [reflexivity|]. cbn [bind].
  rewrite Hw. replace (Z.to_nat (n - 2)) with (Z.to_nat n - 2) by lia. rewrite Nat.eqb_refl. reflexivity.
Qed.
Lemma ortho_same f ks acc : (forall z, f z = call_window window z) -> orthogonal_w fill f ks acc = orthogonal window fill ks acc.
Proof.
  intro Hf. revert acc. induction ks as [|k ks IH]; intro acc; [reflexivity|]. cbn [orthogonal_w orthogonal]. unfold ortho_step. rewrite (one_same f k Hf).
  destruct (one_kernel window fill k) as [l|]; [|reflexivity]. cbn [bind]. destruct acc as [a|]; [|apply IH]. destruct (merge a l); [apply IH|reflexivity].
Qed.
Theorem C38_not_isotropic d w args kw ds f : d <> [] -> NoDup (dkeys d) -> get_window_func arg np_attr sw_attr w args kw = Ok f ->
  (forall z, f z = call_window window z) ->
  generate arg np_attr sw_attr fill at_ (GDict (map (fun kv => (fst kv, One (snd kv))) d)) [] w args kw ds = map_ok wrapped (generate_kernel window fill true (KDict d) ds).
Proof.
  intros Hd Hn Hf Hz. unfold generate, generate_kernel. cbn [to_dict bind forallb negb].
  assert (S : forall d0 d, NoDup (dkeys d0 ++ dkeys d) -> split_all [] (mksplit None [] d0) (map (fun kv => (fst kv, One (snd kv))) d) = Ok (mksplit None [] (d0 ++ d))).
  { clear. intros d0 d. revert d0. induction d as [|[x k] d IH]; intros d0 Hn; cbn [map split_all]; [now rewrite app_nil_r|]. unfold split_step. cbn [mem existsb negb bind fst snd isok sizes ortho plain].
    assert (N : ~ In x (dkeys d0)) by (cbn [dkeys map fst] in Hn; intro H; apply NoDup_remove in Hn; apply (proj2 Hn); apply in_or_app; now left).
    rewrite (dset_new _ _ _ N), IH.
    - now rewrite <- app_assoc.
    - unfold dkeys in *. rewrite map_app, <- app_assoc. exact Hn. }
  rewrite (S [] d Hn). cbn [bind ortho app isok truth_opt]. destruct d as [|kv d]; [congruence|]. rewrite Hf. cbn [bind]. unfold from_dict. rewrite (ortho_same f _ None Hz).
  destruct (orthogonal window fill (map snd (kv :: d)) None) as [o|]; [|reflexivity]. cbn [bind]. destruct o as [a|]; [|reflexivity].
  unfold label_o, label. cbn [some_nd oshape ovalue]. destruct ((_ =? _) && nodupb _); [|reflexivity]. cbn [bind]. unfold insert_into.
  change (mkda (dkeys (kv :: d)) (nshape a) (fun i => Some (nvalue a i))) with (wrapped (mkda (dkeys (kv :: d)) (nshape a) (nvalue a))). rewrite transpose_wrapped.
  destruct (transpose _ _ None (EName "insert")); reflexivity.
Qed.
End Same.

(** ** Cases that meet the hypotheses *)
Definition np_ex (s : string) : option (wfun Z) :=
  if String.eqb s "ones" then Some (fun n _ _ => if (n <? 0)%Z then Raise ValueError else Ok (repeat 1%Q (Z.to_nat n))) else None.
Definition sw_ex (s : string) : option (wfun Z) :=
  if String.eqb s "gaussian" then Some (fun n args _ => match args with [std] => Ok (repeat (inject_Z std) (Z.to_nat n)) | _ => Raise TypeError end) else None.
Definition at_ex (fp : list Q) (r2 : Q) : Q := (nth 0 fp 0 - r2)%Q.
Notation gen_ex := (generate Z np_ex sw_ex 0%Q at_ex).
Example ex_iso : match gen_ex (GTuple [One (KSize 3); One (KSize 3)]) ["y"; "x"]%string (WName Z "ones") [] [] ["t"; "y"; "x"]%string with
  | Ok k => dims k = ["t"; "y"; "x"]%string /\ shape k = [1; 3; 3] /\ eqv (value k [0; 1; 1]) (Some 1%Q) /\ eqv (value k [0; 0; 1]) (Some (3 # 4)%Q) /\ eqv (value k [0; 0; 0]) (Some 0%Q)
  | Raise _ => False end.
Proof. vm_compute. auto 10. Qed.
Example ex_iso_hyps : let ns := [("y", 3); ("x", 3)]%string in ns <> [] /\ NoDup (dkeys ns) /\ incl (dkeys ns) ["y"; "x"]%string /\ incl ["y"; "x"]%string ["t"; "y"; "x"]%string /\
  exists f fp, get_window_func Z np_ex sw_ex (WName Z "ones") [] [] = Ok f /\ f (2 * Z.of_nat (largest (map snd ns)))%Z = Ok fp /\ List.length fp = 2 * largest (map snd ns).
Proof.
  cbn zeta. split; [discriminate|]. split; [repeat constructor; cbn; intuition discriminate|]. split; [intros x H; exact H|]. split; [intros x H; now right|].
  eexists _, _. split; [reflexivity|]. split; [vm_compute; reflexivity|reflexivity].
Qed.
Example ex_iso_values : match gen_ex (GDict [("x", One (KVals [1; 2; 1]%Q)); ("y", One (KVals [1; 2; 1 + (1 # 1000000)]%Q))]%string) ["y"; "x"]%string (WName Z "none") [] [] ["y"; "x"]%string with
  | Ok k => shape k = [3; 3] /\ eqv (value k [1; 1]) (Some 1%Q) | Raise _ => False end /\ Forall2 near [1; 2; 1 + (1 # 1000000)]%Q [1; 2; 1]%Q.
Proof. split; [vm_compute; auto|]. repeat constructor; unfold near; vm_compute; discriminate. Qed.
Example ex_iso_errors :
  gen_ex (GTuple [One (KSize 3); One (KSize 3)]) ["x"]%string (WName Z "ones") [] [] ["y"; "x"]%string = Raise ValueError /\
  gen_ex (GInt 3) ["y"; "x"]%string (WName Z "gaussian") [2%Z] [] ["y"; "x"]%string = Raise TypeError /\
  gen_ex (GDict [("x", One (KVals [1; 2; 1]%Q)); ("y", One (KSize 3))]%string) ["y"; "x"]%string (WName Z "ones") [] [] ["y"; "x"]%string = Raise XoaError /\
  gen_ex (GDict [("x", Arr [1; 2; 1]%Q)]%string) ["x"]%string (WName Z "ones") [] [] ["y"; "x"]%string = Raise ValueError /\
  gen_ex (GInt 3) [] (WName Z "none") [] [] ["y"; "x"]%string = Raise XoaError /\
  gen_ex (GInt 3) ["z"]%string (WName Z "ones") [] [] ["y"; "x"]%string = Raise XoaError.
Proof. repeat split; vm_compute; reflexivity. Qed.
Example ex_not_iso : exists f, get_window_func Z np_ex sw_ex (WName Z "ones") [] [] = Ok f /\ (forall z, f z = call_window (repeat 1%Q) z) /\ forall n, List.length (repeat 1%Q n) = n.
Proof. eexists. split; [reflexivity|]. split; [intro z; unfold call_window; destruct (z <? 0)%Z; reflexivity|apply repeat_length]. Qed.

Print Assumptions C38_window_func.
Print Assumptions C38_iso_sizes.
Print Assumptions C38_iso_values.
Print Assumptions C38_iso_specs.
Print Assumptions C38_iso_consistent.
Print Assumptions C38_mixed_refuted.
Print Assumptions C38_iso_args_refuted.
Print Assumptions C38_iso_array_refuted.
Print Assumptions C38_not_isotropic.
