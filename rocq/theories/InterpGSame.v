(** The generic kernels, with the rationals, are those of Interp.v. *)
From Verif Require Export InterpG.
(** The arithmetic of PyBase, and the kernels of Interp.v *)
Definition qops : fops := mkops fl nan isnan fadd fsub fmul fdiv fltb fleb feqb Some.
Lemma same_get_iminmax : get_iminmax_g qops = get_iminmax.
Proof. reflexivity. Qed.
Lemma same_nearest1d : nearest1d_g qops = nearest1d.
Proof. reflexivity. Qed.
Lemma same_linear1d : linear1d_g qops = linear1d.
Proof. reflexivity. Qed.
Lemma same_cubic1d : cubic1d_g qops = cubic1d.
Proof. reflexivity. Qed.
Lemma same_hermit1d : hermit1d_g qops = hermit1d.
Proof. reflexivity. Qed.
Lemma same_extrap1d : extrap1d_g qops = extrap1d.
Proof. reflexivity. Qed.
Lemma same_cellave1d : cellave1d_g qops = cellave1d.
Proof. reflexivity. Qed.
