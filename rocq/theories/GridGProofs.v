(** The edges, whatever the arithmetic *)
From Verif Require Export GridG.
Open Scope nat_scope.
Section Edges.
Variable o : nops.
Local Notation T := (num_ o).
Definition edges_val_g (d : list T) (k : nat) : option T :=
  let n := List.length d in
  if k =? 0 then match nth_error d 0, nth_error d 1 with Some a, Some b => Some (outer_edge_g o a b) | _, _ => None end
  else if k =? n then match nth_error d (n - 1), nth_error d (n - 2) with Some a, Some b => Some (outer_edge_g o a b) | _, _ => None end
  else match nth_error d (k - 1), nth_error d k with Some a, Some b => Some (inner_edge_g o a b) | _, _ => None end.
Lemma get_edges_1d_g_ok junk d : 2 <= List.length d ->
  exists e, get_edges_1d_g o junk d = Ok e /\ List.length e = S (List.length d) /\
    forall k, k <= List.length d -> nth_error e k = edges_val_g d k.
Proof.
  intro Hn. unfold get_edges_1d_g.
  replace (get_axis_slices 1 (-1) []) with
    (Ok ([("all"%string, ListSel [full_slice]);
            ("mid"%string, TupleSel [Slice (Some 1%Z) (Some (-1)%Z)]);
            ("lasts"%string, TupleSel [Slice (Some 1%Z) None]);
            ("firsts"%string, TupleSel [Slice (Some 0%Z) (Some (-1)%Z)]);
            ("lastsp1"%string, TupleSel [Slice (Some 2%Z) None]);
            ("firstsm1"%string, TupleSel [Slice (Some 0%Z) (Some (-2)%Z)]);
            ("last"%string, TupleSel [Idx (-1)%Z]); ("first"%string, TupleSel [Idx 0%Z]);
            ("lastm1"%string, TupleSel [Idx (-2)%Z]);
            ("firstp1"%string, TupleSel [Idx 1%Z]); ("lastm2"%string, TupleSel [Idx (-3)%Z]);
            ("firstp2"%string, TupleSel [Idx 2%Z])])) by reflexivity.
  cbn [bind]. unfold region. cbn [dget String.eqb Ascii.eqb Bool.eqb bind].
  set (e0 := map junk (seq 0 (S (List.length d)))).
  assert (L0 : List.length e0 = S (List.length d)) by (unfold e0; now rewrite map_length, seq_length).
  clearbody e0.
  destruct (nth_some_lt d 0) as [d0 H0]; [lia|].
  destruct (nth_some_lt d 1) as [d1 H1]; [lia|].
  destruct (nth_some_lt d (List.length d - 1)) as [dl Hl]; [lia|].
  destruct (nth_some_lt d (List.length d - 2)) as [dm Hm]; [lia|].
  destruct (read_seq d (Idx 0) 0 1) as (r0 & -> & R0 & N0); [apply P_first; lia|lia|].
  specialize (N0 0 ltac:(lia)). rewrite Nat.add_0_l, H0 in N0. rewrite (list1 _ _ R0 N0). clear R0 N0 r0.
  destruct (read_seq d (Idx 1) 1 1) as (r1 & -> & R1 & N1); [apply P_firstp1; lia|lia|].
  specialize (N1 0 ltac:(lia)). rewrite Nat.add_0_r, H1 in N1. rewrite (list1 _ _ R1 N1). clear R1 N1 r1.
  cbn [bind vec2_g List.length Nat.eqb zip_with].
  destruct (write_seq e0 [outer_edge_g o d0 d1] (Idx 0) 0 1) as (e1 & -> & L1 & W1);
    [apply P_first; lia|lia|reflexivity|].
  cbn [bind].
  destruct (read_seq d (Slice (Some 0%Z) (Some (-1)%Z)) 0 (List.length d - 1)) as (c & -> & Lc & Nc);
    [apply P_firsts|lia|].
  destruct (read_seq d (Slice (Some 1%Z) None) 1 (List.length d - 1)) as (f & -> & Lf & Nf);
    [apply P_lasts; lia|lia|].
  cbn [bind]. unfold vec2_g at 1. rewrite Lc, Lf, Nat.eqb_refl. cbn [bind].
  destruct (write_seq e1 (zip_with (inner_edge_g o) c f) (Slice (Some 1%Z) (Some (-1)%Z))
              1 (List.length d - 1)) as (e2 & -> & L2 & W2).
  { rewrite P_mid by lia. do 2 f_equal. lia. }
  { lia. }
  { rewrite zip_with_length; lia. }
  cbn [bind].
  destruct (read_seq d (Idx (-1)) (List.length d - 1) 1) as (r0 & -> & R0 & N0);
    [apply P_last; lia|lia|].
  specialize (N0 0 ltac:(lia)). rewrite Nat.add_0_r, Hl in N0. rewrite (list1 _ _ R0 N0). clear R0 N0 r0.
  destruct (read_seq d (Idx (-2)) (List.length d - 2) 1) as (r1 & -> & R1 & N1);
    [apply P_lastm1; lia|lia|].
  specialize (N1 0 ltac:(lia)). rewrite Nat.add_0_r, Hm in N1. rewrite (list1 _ _ R1 N1). clear R1 N1 r1.
  cbn [bind vec2_g List.length Nat.eqb zip_with].
  destruct (write_seq e2 [outer_edge_g o dl dm] (Idx (-1)) (List.length d) 1)
    as (e3 & -> & L3 & W3).
  { rewrite P_last by lia. do 2 f_equal. lia. }
  { lia. }
  { reflexivity. }
  exists e3. split; [reflexivity|]. split; [lia|].
  intros k Hk. rewrite W3, W2, W1. unfold edges_val_g. rewrite H0, H1, Hl, Hm.
  destruct (Nat.leb_spec (List.length d) k), (Nat.ltb_spec k (List.length d + 1)); cbn [andb]; try lia.
  - replace k with (List.length d) by lia. rewrite Nat.sub_diag.
    destruct (Nat.eqb_spec (List.length d) 0); [lia|]. now rewrite Nat.eqb_refl.
  - destruct (Nat.eqb_spec k 0) as [->|Hk0].
    + simpl. reflexivity.
    + destruct (Nat.eqb_spec k (List.length d)); [lia|].
      destruct (Nat.leb_spec 1 k), (Nat.ltb_spec k (1 + (List.length d - 1))); cbn [andb]; try lia.
      destruct (nth_some_lt d (k - 1)) as [x Hx]; [lia|].
      destruct (nth_some_lt d k) as [y Hy]; [lia|].
      rewrite Hx, Hy.
      rewrite (zip_with_nth (inner_edge_g o) c f (k - 1) x y); [reflexivity| |].
      * rewrite Nc by lia. exact Hx.
      * rewrite Nf by lia. replace (1 + (k - 1)) with k by lia. exact Hy.
Qed.


Lemma get_edges_1d_g_short junk d : List.length d < 2 -> get_edges_1d_g o junk d = Raise IndexError.
Proof. destruct d as [|a [|b d]]; simpl; intro H; try lia; reflexivity. Qed.
End Edges.
