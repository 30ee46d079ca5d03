(** C43: limits and colormap of a CmapAdapter after any sequence of calls. *)
From Verif Require Import PyDictFacts Color.
Open Scope string_scope.

(** The last limits given by the user *)
Fixpoint last_limits (cs : list call) : option (Q * Q) :=
  match cs with
  | [] => None
  | c :: cs' => match last_limits cs', c with
                | Some l, _ => Some l
                | None, CSet lo hi => Some (lo, hi)
                | None, _ => None
                end
  end.

Section P.
  Context {C : Type} (crop : C -> Q -> Q -> Q -> C) (pyfloat : string -> option Q).
  Notation init := (init pyfloat).
  Notation run := (run crop).
  Notation get_dict := (get_dict crop).

  Lemma run_piv cs : forall cm p (lo hi : option Q), exists a, run (mkad cm (Some (Pivot, p)) lo hi) cs = Ok a /\
    a = match last_limits cs with
        | Some (x, y) => mkad cm (Some (Pivot, p)) (Some x) (Some y)
        | None => mkad cm (Some (Pivot, p)) lo hi
        end.
  Proof using.
    induction cs as [|c cs IH]; intros cm p lo hi; [eexists; split; reflexivity|].
    destruct c as [x y| |]; cbn.
    - destruct (IH cm p (Some x) (Some y)) as (a & -> & ->). eexists. split; [reflexivity|].
      now destruct (last_limits cs) as [[? ?]|].
    - destruct (IH cm p lo hi) as (a & -> & ->). eexists. split; [reflexivity|].
      now destruct (last_limits cs) as [[? ?]|].
    - destruct (IH cm p lo hi) as (a & -> & ->). eexists. split; [reflexivity|].
      now destruct (last_limits cs) as [[? ?]|].
  Qed.
  Lemma run_cyc cs : forall cm p (lo hi : option Q), exists a, run (mkad cm (Some (Cycle, p)) lo hi) cs = Ok a /\
    a = match last_limits cs with
        | Some _ => mkad cm (Some (Cycle, p)) (Some 0) (Some 360)
        | None => mkad cm (Some (Cycle, p)) lo hi
        end.
  Proof using.
    induction cs as [|c cs IH]; intros cm p lo hi; [eexists; split; reflexivity|].
    destruct c as [x y| |]; cbn.
    - destruct (IH cm p (Some 0) (Some 360)) as (a & -> & ->). eexists. split; [reflexivity|].
      now destruct (last_limits cs) as [[? ?]|].
    - destruct (IH cm p lo hi) as (a & -> & ->). eexists. split; [reflexivity|].
      now destruct (last_limits cs) as [[? ?]|].
    - destruct (IH cm p lo hi) as (a & -> & ->). eexists. split; [reflexivity|].
      now destruct (last_limits cs) as [[? ?]|].
  Qed.

  Lemma startswith_not s p q : s = p ++ q -> startswith s p = true.
  Proof using. intros ->. apply startswith_app. eauto. Qed.

  (** "piv<value>": no limits and the given colormap until [set_vlim] is called; then the
      limits are the last ones, and the colormap is cropped around the value. *)
  Theorem C43_pivot cm s v cs : pyfloat s = Some v ->
    exists a b, init cm (Some ("piv" ++ s)) = Ok a /\ run a cs = Ok b /\
    get_dict b = match last_limits cs with
                 | Some (lo, hi) => Ok (Some (crop cm lo hi v), Some lo, Some hi)
                 | None => Ok (Some cm, None, None)
                 end.
  Proof using.
    intro H. exists (mkad cm (Some (Pivot, v)) None None).
    destruct (run_piv cs cm v None None) as (b & Hr & Hb). exists b.
    split; [|split; [exact Hr|]].
    - unfold Color.init. rewrite (startswith_not ("piv" ++ s) "piv" s eq_refl).
      change 3%nat with (String.length "piv"). now rewrite sdrop_app, H.
    - rewrite Hb. now destruct (last_limits cs) as [[? ?]|].
  Qed.

  (** "cyc<value>": limits (0, value) until [set_vlim] is called, then (0, 360) whatever the
      value and the limits that are asked for; no colormap is ever returned. *)
  Theorem C43_cycle cm s v cs : pyfloat s = Some v ->
    exists a b, init cm (Some ("cyc" ++ s)) = Ok a /\ run a cs = Ok b /\
    get_dict b = match last_limits cs with
                 | Some _ => Ok (None, Some 0, Some 360)
                 | None => Ok (None, Some 0, Some v)
                 end.
  Proof using.
    intro H. exists (mkad cm (Some (Cycle, v)) (Some 0) (Some v)).
    destruct (run_cyc cs cm v (Some 0) (Some v)) as (b & Hr & Hb). exists b.
    split; [|split; [exact Hr|]].
    - unfold Color.init. rewrite (startswith_not ("cyc" ++ s) "cyc" s eq_refl).
      change 3%nat with (String.length "cyc"). rewrite sdrop_app, H.
      change (startswith ("cyc" ++ s) "piv") with false. reflexivity.
    - rewrite Hb. now destruct (last_limits cs) as [[? ?]|].
  Qed.

  (** The limits that [set_vlim] returns are the ones that [get_dict] gives afterwards *)
  Theorem C43_returned (a b : adapter C) lo hi p : set_vlim a lo hi = Ok (b, p) ->
    exists m, get_dict b = Ok (m, Some (fst p), Some (snd p)) /\
    (p = (lo, hi) \/ p = (0, 360)).
  Proof using.
    unfold set_vlim, get_dict. destruct a as [cm [[[|] v]|] l h]; cbn; intro E; [| |discriminate]; injection E as <- <-; eexists; (split; [reflexivity|]); auto.
  Qed.

  (** The other specifications: the default fails, a bad number fails, and any other prefix
      gives an adapter on which every call fails. *)
  Theorem C43_other cm :
    init cm None = Raise AttributeError /\
    (forall s, pyfloat s = None -> init cm (Some ("piv" ++ s)) = Raise ValueError /\
                                   init cm (Some ("cyc" ++ s)) = Raise ValueError) /\
    (forall s, (forall r, s <> "piv" ++ r) -> (forall r, s <> "cyc" ++ r) ->
       exists a, init cm (Some s) = Ok a /\
       forall c cs, run a (c :: cs) = Raise AttributeError).
  Proof using.
    split; [reflexivity|]. split.
    - intros s H. unfold Color.init.
      rewrite (startswith_not ("piv" ++ s) "piv" s eq_refl), (startswith_not ("cyc" ++ s) "cyc" s eq_refl).
      change 3%nat with (String.length "piv") at 1. rewrite (sdrop_app "piv" s), H.
      change (startswith ("cyc" ++ s) "piv") with false.
      change 3%nat with (String.length "cyc"). now rewrite (sdrop_app "cyc" s), H.
    - intros s Hp Hc. exists (mkad cm None None None). split.
      + unfold Color.init. destruct (startswith s "piv") eqn:E1.
        { apply startswith_app in E1 as (r & ->). now destruct (Hp r). }
        destruct (startswith s "cyc") eqn:E2; auto.
        apply startswith_app in E2 as (r & ->). now destruct (Hc r).
      + intros [| |] cs; reflexivity.
  Qed.

  (** The validator of colormaps accepts exactly what Python prints "None", for which it gives
      None; it never gives a colormap adapter, for any value and any set of colormaps: a list
      fails on an import, a known colormap on the missing specifications, and an unknown one
      in matplotlib. *)
  Theorem C43_validator_refuted strlist (lookup : cvalue -> option C) v :
    (forall a, is_cmap pyfloat strlist lookup v <> CAdapter a) /\
    (is_cmap pyfloat strlist lookup v = CNone <->
       match v with VText s => s | VItems l => strlist l | VObject r => r end = "None") /\
    (forall c, lookup v = Some c ->
       match v with VText s => s <> "None" | VItems _ => False | VObject r => r <> "None" end ->
       is_cmap pyfloat strlist lookup v = CRaise AttributeError) /\
    (forall l, v = VItems l -> strlist l <> "None" -> is_cmap pyfloat strlist lookup v = NoImport).
  Proof using.
    unfold Color.is_cmap, Color.init. repeat split.
    - intros a. destruct (String.eqb _ _); [discriminate|]. destruct v; try discriminate; now destruct (lookup _).
    - destruct (String.eqb_spec (match v with VText s => s | VItems l => strlist l | VObject r => r end) "None") as [->|N]; auto.
      destruct v; try discriminate; now destruct (lookup _).
    - intros ->. reflexivity.
    - intros c -> H. destruct (String.eqb_spec (match v with VText s => s | VItems l => strlist l | VObject r => r end) "None") as [E|N].
      + now destruct v.
      + now destruct v.
    - intros l -> H. now apply String.eqb_neq in H as ->.
  Qed.
End P.
Print Assumptions C43_validator_refuted.
Print Assumptions C43_pivot.
Print Assumptions C43_cycle.
Print Assumptions C43_other.

(** A float parser for small integers, for the examples *)
Definition tiny (s : string) : option Q :=
  if s =? "0" then Some 0 else if s =? "24" then Some 24 else None.
Definition label (c : string) (lo hi p : Q) : string := "cropped " ++ c.
Example C43_piv_case : exists a b, init tiny "cmo.balance" (Some "piv0") = Ok a /\
  run label a [CSet 1 2; CGetDict; CSet (-20) 79] = Ok b /\
  get_dict label b = Ok (Some "cropped cmo.balance", Some (-20), Some 79).
Proof. eexists _, _. vm_compute. auto. Qed.
(** The documentation says 0..value: not after a call of [set_vlim] *)
Theorem C43_cycle_refuted : exists a b, init tiny "cmo.phase" (Some "cyc24") = Ok a /\
  run label a [CSet 0 24] = Ok b /\ get_dict label b = Ok (None, Some 0, Some 360).
Proof. eexists _, _. vm_compute. auto. Qed.

Example C43_validator_case :
  is_cmap tiny (fun _ => "['r', 'b']") (fun _ => Some "viridis") (VText "viridis") = CRaise AttributeError /\
  is_cmap tiny (fun _ => "['r', 'b']") (fun _ => @None string) (VItems ["r"; "b"]) = NoImport /\
  is_cmap tiny (fun _ => "['r', 'b']") (fun _ => @None string) (VText "None") = CNone.
Proof. repeat split. Qed.
