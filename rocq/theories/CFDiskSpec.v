(** Specification vocabulary for C68. *)
From Verif Require Export CFDisk.
From Coq Require Import List Arith.
Import ListNotations.
Open Scope nat_scope.

Section Spec.
Context {D U X : Type}.
Variable compute : D -> U -> X.
Variable enc : X -> list nat.
Variable dec : list nat -> option X.
(** What is known of pickle: it reads what it wrote, and nothing if the end is missing *)
Definition codec : Prop :=
  (forall x, dec (enc x) = Some x) /\ (forall x n, n < List.length (enc x) -> dec (firstn n (enc x)) = None).
(** No cache file, and no process has specifications in memory *)
Definition first_world (w : world D U X) : Prop :=
  link w = None /\ inodes w = [] /\ dtime w <= now w /\ forall p, procs w p = mkproc None Idle.
(** The same with any cache file *)
Definition new_processes (w : world D U X) : Prop := forall p, procs w p = mkproc None Idle.
(** The specifications that the configuration files define *)
Definition current (w : world D U X) : X := compute (dflt w) (user w).
Definition once_current (vis : list (world D U X)) (x : X) : Prop := exists v, In v vis /\ x = current v.
Definition returns (w : world D U X) (p : nat) (x : X) : Prop := p_at (procs w p) = AtReturn (Returned x).
Definition fails (w : world D U X) (p : nat) : Prop := p_at (procs w p) = AtReturn NotFound.
Definition writing (w : world D U X) (p : nat) : Prop := exists i rest off x, p_at (procs w p) = AtWrite i rest off x.
Definition in_call (w : world D U X) (p : nat) : Prop := p_at (procs w p) <> Idle.

(** Conditions on histories *)
Definition anything (w : world D U X) (e : event D U) : Prop := True.
(** The cache file is not opened for writing while a process writes it *)
Definition one_writer (w : world D U X) (e : event D U) : Prop :=
  forall p x, e = Go p -> p_at (procs w p) = AtOpen x -> forall q, ~ writing w q.
(** The user file is not edited; the default one only is when no call is in progress, and gets the
    date of the edit *)
Definition calm (w : world D U X) (e : event D U) : Prop :=
  match e with Edit _ t => t = now w /\ (forall p, ~ in_call w p) | EditUser _ => False | _ => True end.
Definition no_read (w : world D U X) (e : event D U) : Prop := forall p, e <> Call p MRead.
Definition no_clean (w : world D U X) (e : event D U) : Prop := forall p, e <> Call p MClean.
(** Neither edits, nor crashes, nor input/output errors *)
Definition smooth (w : world D U X) (e : event D U) : Prop :=
  match e with Edit _ _ | EditUser _ | Crash _ | Fail _ => False | _ => True end.
Definition both (f g : world D U X -> event D U -> Prop) (w : world D U X) (e : event D U) : Prop := f w e /\ g w e.
End Spec.
