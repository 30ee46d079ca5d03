(** C17: dict_merge and its arguments, on a heap with arbitrary sharing. *)
From Verif Require Import DictHeapProofs.
Open Scope nat_scope.

(** Without list merging, nothing that exists before the call is modified, whatever the
    sharing (even cyclic), the options and the outcome (value or exception). *)
Theorem C17_arguments_unchanged : forall fuel o dd h,
  mergelists o = false -> unchanged h (snd (hdict_merge fuel o dd h)).
Proof.
  intros fuel o dd h Hm a x Hx.
  exact (frame_eq o Hm _ h _ a x (hdict_merge_frame fuel o dd h) (fun H => H) Hx).
Qed.
Print Assumptions C17_arguments_unchanged.
(** With it, dictionaries are still not modified; lists can only be extended. *)
Theorem C17_only_lists_extended : forall fuel o dd h,
  only_extended h (snd (hdict_merge fuel o dd h)).
Proof.
  intros fuel o dd h a x Hx.
  assert (F := proj2 (hdict_merge_frame fuel o dd h) a x (fun H => H) Hx).
  destruct x; simpl in F; auto. destruct F as (l' & E & _). eauto.
Qed.
Print Assumptions C17_only_lists_extended.
(** The result is a new dictionary, so storing in it does not modify an argument. *)
Theorem C17_result_fresh : forall fuel o dd h r h',
  hdict_merge fuel o dd h = (Ok r, h') ->
  r = HVal VNone \/ exists a, r = HRef a /\ nth_error h a = None.
Proof.
  intros fuel o dd h r h' E. apply hdict_merge_fresh in E. destruct E as [E|E]; auto.
  right. exists (List.length h). split; auto. apply nth_error_None. auto.
Qed.
Print Assumptions C17_result_fresh.
(** Sharing does not change the result: it is the one of C16 on deep copies. *)
Theorem C17_same_result_as_copies : forall fuel o dd h pdd,
  mergelists o = false -> Forall2 (rep h) dd pdd ->
  match hdict_merge fuel o dd h, dict_merge fuel o pdd with
  | (Ok r, h'), Ok p => rep h' r p
  | (Raise e, _), Raise e' => e = e'
  | _, _ => False
  end.
Proof.
  intros fuel o dd h pdd Hm HF.
  assert (H := sim_merge o Hm fuel (fun _ => False) h dd pdd (fun a F => match F with end)).
  assert (HF' : Forall2 (repx (fun _ => False) h) dd pdd).
  { clear -HF. induction HF; constructor; [now apply rep_repx|assumption]. }
  specialize (H HF'). unfold simr in H.
  destruct (hdict_merge fuel o dd h) as [[r|e] h'], (dict_merge fuel o pdd) as [p|e']; auto.
  now apply repx_rep.
Qed.
Print Assumptions C17_same_result_as_copies.

(** A heap with sharing: the same sub-dictionary twice, in two arguments, and a shared list. *)
Local Open Scope string_scope.
Definition vi (z : Z) : hval := HVal (VInt z).
Definition hex : heap :=
  [ ODict [("a", vi 1); ("s", HRef 1); ("l", HRef 3)];
    ODict [("x", vi 1)];
    ODict [("s", HRef 1); ("t", HRef 1); ("b", vi 2); ("l", HRef 4)];
    OList [vi 1; vi 2]; OList [vi 3] ].
Example C17_ex :
  hdict_merge 3 default_opts [HRef 0; HRef 2] hex =
  (Ok (HRef 5), (hex ++ [ODict [("a", vi 1); ("s", HRef 6); ("l", HRef 3); ("t", HRef 1); ("b", vi 2)];
                        ODict [("x", vi 1)]])%list).
Proof. vm_compute. reflexivity. Qed.
Example C17_ex_rep : Forall2 (rep hex) [HRef 0; HRef 2]
  [VDict [("a", VInt 1); ("s", VDict [("x", VInt 1)]); ("l", VList [VInt 1; VInt 2])];
   VDict [("s", VDict [("x", VInt 1)]); ("t", VDict [("x", VInt 1)]); ("b", VInt 2); ("l", VList [VInt 3])]].
Proof.
  repeat (apply Forall2_cons; [eapply rep_dict; [reflexivity|]|]); try apply Forall2_nil.
  - repeat (apply Forall2_cons; [split; [reflexivity|]|]); try apply Forall2_nil; cbn [snd].
    + apply rep_val. exact I.
    + eapply rep_dict; [reflexivity|]. repeat (apply Forall2_cons; [split; [reflexivity|]|]); try apply Forall2_nil.
      apply rep_val. exact I.
    + eapply rep_list; [reflexivity|]. repeat (apply Forall2_cons; [apply rep_val; exact I|]). apply Forall2_nil.
  - repeat (apply Forall2_cons; [split; [reflexivity|]|]); try apply Forall2_nil; cbn [snd].
    + eapply rep_dict; [reflexivity|]. repeat (apply Forall2_cons; [split; [reflexivity|]|]); try apply Forall2_nil.
      apply rep_val. exact I.
    + eapply rep_dict; [reflexivity|]. repeat (apply Forall2_cons; [split; [reflexivity|]|]); try apply Forall2_nil.
      apply rep_val. exact I.
    + apply rep_val. exact I.
    + eapply rep_list; [reflexivity|]. repeat (apply Forall2_cons; [apply rep_val; exact I|]). apply Forall2_nil.
Qed.

(** mergelists=True modifies the first argument: its list gets the items of the second. *)
Theorem C17_mergelists_refuted : exists h dd o a,
  mergelists o = true /\ In (HRef a) dd /\
  ~ unchanged h (snd (hdict_merge 3 o dd h)) /\
  nth_error h 3 = Some (OList [vi 1; vi 2]) /\
  nth_error (snd (hdict_merge 3 o dd h)) 3 = Some (OList [vi 1; vi 2; vi 3]).
Proof.
  exists hex, [HRef 0; HRef 2], (mkopts true true false false true false), 0.
  split; [reflexivity|]. split; [left; reflexivity|]. split; [|split; reflexivity].
  intro H. specialize (H 3 _ eq_refl). vm_compute in H. discriminate.
Qed.
Print Assumptions C17_mergelists_refuted.
(** and calling it twice with the same arguments does not give the same result. *)
Theorem C17_mergelists_twice_refuted : exists h dd o r1 h1 r2 h2 p1 p2,
  hdict_merge 3 o dd h = (Ok r1, h1) /\ hdict_merge 3 o dd h1 = (Ok r2, h2) /\
  rep h1 r1 p1 /\ rep h2 r2 p2 /\ p1 <> p2.
Proof.
  exists [ODict [("l", HRef 2)]; ODict [("l", HRef 3)]; OList [vi 1]; OList [vi 2]],
    [HRef 0; HRef 1], (mkopts true true false false true false).
  do 4 eexists. exists (VDict [("l", VList [VInt 1; VInt 2])]), (VDict [("l", VList [VInt 1; VInt 2; VInt 2])]).
  split; [vm_compute; reflexivity|]. split; [vm_compute; reflexivity|].
  split; [|split; [|discriminate]].
  - eapply rep_dict; [reflexivity|]. apply Forall2_cons; [split; [reflexivity|]|apply Forall2_nil].
    eapply rep_list; [reflexivity|]. repeat (apply Forall2_cons; [apply rep_val; exact I|]). apply Forall2_nil.
  - eapply rep_dict; [reflexivity|]. apply Forall2_cons; [split; [reflexivity|]|apply Forall2_nil].
    eapply rep_list; [reflexivity|]. repeat (apply Forall2_cons; [apply rep_val; exact I|]). apply Forall2_nil.
Qed.
Print Assumptions C17_mergelists_twice_refuted.
