(** With the rationals, regrid1d for any arithmetic is regrid1d of RegridND.v. *)
From Verif Require Import InterpGSame RegridNDG.
Lemma same_regrid1d : regrid1d_g qops (get_edges_1d store_float) = regrid1d.
Proof. reflexivity. Qed.
