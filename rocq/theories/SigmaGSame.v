(** The generic formulas, with the real numbers, are those of Sigma.v. *)
From Verif Require Export SigmaG Sigma.
Open Scope R_scope.
Definition rops : nops := mknops R Rplus Rminus Rmult Rdiv (1 / 2) 1 2 sinh tanh.
(** The arrays of Sigma.v *)
Definition toR (a : garr rops) : Sigma.arr := Sigma.mkarr (gdims a) (gat_ a).
Definition toRc (c : gcache rops) : Sigma.cache := option_map (map (fun kv => (fst kv, toR (snd kv)))) c.
Definition toRr {A B} (f : A -> B) (r : res A) : res B := match r with Ok a => Ok (f a) | Raise e => Raise e end.
Lemma same_atmosphere sig ps ptop : toRr toR (atmosphere_sigma_coordinate_g rops sig ps ptop) = Sigma.atmosphere_sigma_coordinate (toR sig) (toR ps) (toR ptop).
Proof. unfold atmosphere_sigma_coordinate_g, Sigma.atmosphere_sigma_coordinate, ginplace, Sigma.inplace. cbn. now destruct (forallb _ _). Qed.
Lemma same_ocean_sigma sig ssh bathy : toRr toR (ocean_sigma_coordinate_g rops sig ssh bathy) = Sigma.ocean_sigma_coordinate (toR sig) (toR ssh) (toR bathy).
Proof. unfold ocean_sigma_coordinate_g, Sigma.ocean_sigma_coordinate, ginplace, Sigma.inplace. cbn. now destruct (forallb _ _). Qed.
Lemma same_get_cs s a b : toRr toR (get_cs_g rops s a b) = Sigma.get_cs (toR s) (toR a) (toR b).
Proof. unfold get_cs_g, Sigma.get_cs, ginplace, Sigma.inplace. cbn. now destruct (forallb _ _). Qed.
Lemma toR_dget (d : dict (garr rops)) k : dget (map (fun kv => (fst kv, toR (snd kv))) d) k = option_map toR (dget d k).
Proof. induction d as [|[k' v] d IH]; cbn; auto. destruct (String.eqb _ _); auto. Qed.
Lemma toR_dset (d : dict (garr rops)) k v : map (fun kv => (fst kv, toR (snd kv))) (dset d k v) = dset (map (fun kv => (fst kv, toR (snd kv))) d) k (toR v).
Proof. induction d as [|[k' v'] d IH]; cbn; auto. destruct (String.eqb _ _); cbn; auto. now rewrite IH. Qed.
Lemma toR_dupdate (kv d : dict (garr rops)) : map (fun kv => (fst kv, toR (snd kv))) (dupdate d kv) = dupdate (map (fun kv => (fst kv, toR (snd kv))) d) (map (fun kv => (fst kv, toR (snd kv))) kv).
Proof. unfold dupdate. revert d. induction kv as [|[k v] kv IH]; intro d; cbn; auto. rewrite IH. now rewrite toR_dset. Qed.
Lemma toR_filled c : Sigma.filled_cache (toRc c) = option_map (map (fun kv => (fst kv, toR (snd kv)))) (gfilled_cache rops c).
Proof. destruct c as [[|x d]|]; reflexivity. Qed.
Lemma toR_store c kv : toRc (gstore rops c kv) = Sigma.store (toRc c) (map (fun kv => (fst kv, toR (snd kv))) kv).
Proof. destruct c as [d|]; cbn; auto. now rewrite toR_dupdate. Qed.
Lemma toR_getc d k : Sigma.getc (map (fun kv => (fst kv, toR (snd kv))) d) k = toRr toR (ggetc rops d k).
Proof. unfold Sigma.getc, ggetc. rewrite toR_dget. now destruct (dget d k). Qed.
Lemma same_inplace f a b : toRr toR (ginplace rops f a b) = Sigma.inplace f (toR a) (toR b).
Proof. unfold ginplace, Sigma.inplace. cbn. now destruct (forallb _ _). Qed.
Lemma toR_bind {A B C D} (f : A -> B) (g : C -> D) (x : res A) (k : A -> res C) (k' : B -> res D) :
  (forall a, toRr g (k a) = k' (f a)) -> toRr g (bind x k) = bind (toRr f x) k'.
Proof. intro H. destruct x; cbn; auto. Qed.
Lemma toR_bind' {A B C D} (f : A -> B) (g : C -> D) (x : res A) (x' : res B) (k : A -> res C) (k' : B -> res D) :
  toRr f x = x' -> (forall a, toRr g (k a) = k' (f a)) -> toRr g (bind x k) = bind x' k'.
Proof. intros <- H. now apply toR_bind. Qed.
Definition toRp (p : garr rops * gcache rops) : Sigma.arr * Sigma.cache := (toR (fst p), toRc (snd p)).
Theorem same_ocean_s sig ssh bathy hc a b cs c :
  toRr toRp (ocean_s_coordinate_gen rops sig ssh bathy hc a b cs c) =
  Sigma.ocean_s_coordinate (toR sig) (toR ssh) (toR bathy) (toR hc) (toR a) (toR b) (option_map toR cs) (toRc c).
Proof.
  unfold ocean_s_coordinate_gen, Sigma.ocean_s_coordinate. rewrite (toR_bind toRp toRp _ _ (fun zc => Ok (Sigma.aadd (Sigma.amul (Sigma.unop (fun v => v + 1) (toR sig)) (toR ssh)) (fst zc), snd zc))) by reflexivity.
  f_equal. rewrite toR_filled. destruct (gfilled_cache rops c) as [d|]; cbn [option_map].
  - rewrite toR_getc. apply toR_bind. reflexivity.
  - apply toR_bind' with (f := toR).
    + destruct cs; [reflexivity|]. apply same_get_cs.
    + intro cs'. cbv beta zeta. apply toR_bind' with (f := toR); [apply same_inplace|].
      intro z. cbn [toRr]. unfold toRp. cbn [fst snd]. now rewrite toR_store.
Qed.
Lemma same_stretching s a b cs : toRr toR (stretching_g rops s a b cs) = Sigma.stretching (toR s) (option_map toR a) (option_map toR b) (option_map toR cs).
Proof.
  destruct cs; [reflexivity|]. destruct a as [a|]; [|reflexivity]. cbn. destruct (gdims a); [|reflexivity].
  destruct b as [b|]; [|reflexivity]. cbn. destruct (gdims b); [|reflexivity]. apply same_get_cs.
Qed.
Definition toR3 (p : garr rops * garr rops * gcache rops) : Sigma.arr * Sigma.arr * Sigma.cache := (toR (fst (fst p)), toR (snd (fst p)), toRc (snd p)).
Theorem same_ocean_s_g1 s ssh h hc a b cs c :
  toRr toRp (ocean_s_coordinate_g1_g rops s ssh h hc a b cs c) =
  Sigma.ocean_s_coordinate_g1 (toR s) (toR ssh) (toR h) (toR hc) (option_map toR a) (option_map toR b) (option_map toR cs) (toRc c).
Proof.
  unfold ocean_s_coordinate_g1_g, Sigma.ocean_s_coordinate_g1.
  rewrite (toR_bind toR3 toRp _ _ (fun r => let '(S_, Sh1, c') := r in Ok (Sigma.aadd S_ (Sigma.amul Sh1 (toR ssh)), c'))) by (intros [[? ?] ?]; reflexivity).
  f_equal. rewrite toR_filled. destruct (gfilled_cache rops c) as [d|]; cbn [option_map].
  - rewrite toR_getc. apply toR_bind. intro S_. cbv beta. rewrite toR_getc. apply toR_bind. reflexivity.
  - rewrite <- same_stretching. apply toR_bind. intro cs'. cbn [toRr]. unfold toR3. cbn [fst snd]. now rewrite toR_store.
Qed.
Theorem same_ocean_s_g2 s ssh h hc a b cs c :
  toRr toRp (ocean_s_coordinate_g2_g rops s ssh h hc a b cs c) =
  Sigma.ocean_s_coordinate_g2 (toR s) (toR ssh) (toR h) (toR hc) (option_map toR a) (option_map toR b) (option_map toR cs) (toRc c).
Proof.
  unfold ocean_s_coordinate_g2_g, Sigma.ocean_s_coordinate_g2.
  rewrite (toR_bind toR3 toRp _ _ (fun r => let '(S_, hS, c') := r in Ok (Sigma.aadd hS (Sigma.amul (Sigma.unop (fun v => v + 1) S_) (toR ssh)), c'))) by (intros [[? ?] ?]; reflexivity).
  f_equal. rewrite toR_filled. destruct (gfilled_cache rops c) as [d|]; cbn [option_map].
  - rewrite toR_getc. apply toR_bind. intro S_. cbv beta. rewrite toR_getc. apply toR_bind. reflexivity.
  - rewrite <- same_stretching. apply toR_bind. intro cs'. cbv beta zeta. apply toR_bind' with (f := toR); [apply same_inplace|].
    intro z. cbn [toRr]. unfold toR3. cbn [fst snd]. now rewrite toR_store.
Qed.
