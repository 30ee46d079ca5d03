(** GridG.v with rationals and NaN: the model of Grid.v *)
From Verif Require Import GridGProofs.
Open Scope nat_scope.
Definition flops : nops := mknops fl fadd fsub fmul fsub (Some half) (Some 1%Q) (Some 2%Q) (fun x => x) (fun x => x).
Lemma list_ext {A} (l m : list A) : List.length l = List.length m -> (forall k, k < List.length l -> nth_error l k = nth_error m k) -> l = m.
Proof.
  revert m. induction l as [|a l IH]; intros [|b m] E H; try discriminate; auto. f_equal.
  - specialize (H 0 ltac:(simpl; lia)). now injection H.
  - apply IH; [now injection E|]. intros k Hk. apply (H (S k)). simpl. lia.
Qed.
Theorem same_get_edges_1d : forall junk d, get_edges_1d_g flops junk d = get_edges_1d store_float junk d.
Proof.
  intros junk d. destruct (Nat.lt_ge_cases (List.length d) 2) as [H|H].
  - rewrite get_edges_1d_g_short, get_edges_1d_short by auto. reflexivity.
  - destruct (get_edges_1d_g_ok flops junk d H) as (e & -> & L & V). destruct (get_edges_1d_ok store_float junk d H) as (e' & -> & L' & V').
    change (num_ flops) with fl in *. f_equal. apply list_ext; [congruence|]. intros k Hk. rewrite L in Hk. rewrite V, V' by lia. reflexivity.
Qed.
