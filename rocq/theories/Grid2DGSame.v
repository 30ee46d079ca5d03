(** Grid2DG.v with rationals and NaN: the model of Grid2D.v *)
From Verif Require Import GridGSame Grid2D Grid2DG.
Open Scope nat_scope.
Theorem same_get_edges_2d : forall junk junk1 suffix a,
  get_edges_2d_g flops (Some (1 # 4)%Q) (Some (3 # 2)%Q) None junk junk1 suffix a = get_edges_2d true true junk junk1 suffix a.
Proof.
  intros junk junk1 suffix a. unfold get_edges_2d_g, get_edges_2d. change (num_ flops) with fl in *. destruct (shape a) as [|ny s]; [reflexivity|]. destruct s as [|nx s]; [reflexivity|]. destruct s as [|z s]; [|reflexivity].
  destruct (ny <? 2); [reflexivity|]. rewrite !same_get_edges_1d. reflexivity.
Qed.
