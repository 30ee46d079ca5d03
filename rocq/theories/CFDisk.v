(** Model of the disk cache of the CF specifications as several processes share it:
    get_cf_specs and reset_cache, xoa/cf.py:2342-2359 and 2398-2435, in atomic steps, with
    crashes, input/output errors and edits of the configuration files.
    [D], [U]: contents of the default configuration file (_CFGFILE) and of the user's one
    (USER_CF_FILE); [X]: CFSpecs objects; [compute]: CFSpecs() (line 2420; see C28, C46, C65);
    [enc], [dec]: pickle.dump, and pickle.load followed by the test of set_cf_specs (None: an
    exception).
    Simplifications: reading the cache file is atomic, and so are the two [os.stat] of
    lines 2405-2408; only the search for all the specifications (no name, no category) is
    represented; a byte is a number. *)
From Coq Require Import List Arith Bool String.
Import ListNotations.
Open Scope nat_scope.

(** lines 2390-2396; the modes "write" and "rw" only differ in the documentation, see C31 *)
Inductive mode := MIgnore | MRead | MWrite | MClean.
(** A file: its modification time and its bytes.  A file that is removed while it is open still
    exists for the process that writes it. *)
Record inode := mkino { i_time : nat; i_bytes : list nat }.
(** f.write of [chunk] at position [off]: a hole is filled with zeros *)
Definition write_at (off : nat) (chunk bytes : list nat) : list nat :=
  firstn off (bytes ++ repeat 0 (off - List.length bytes)) ++ chunk ++ skipn (off + List.length chunk) bytes.
Fixpoint set_nth {A} (i : nat) (a : A) (l : list A) : list A :=
  match l, i with
  | [], _ => []
  | _ :: r, O => a :: r
  | x :: r, S i' => x :: set_nth i' a r
  end.

Section Cache.
Variables D U X : Type.
Variable compute : D -> U -> X.
Variable enc : X -> list nat.
Variable dec : list nat -> option X.

(** A call returns specifications, or raises FileNotFoundError *)
Inductive outcome := Returned (x : X) | NotFound.
(** Where a process is: between two calls; before the line of the same number; returning *)
Inductive phase :=
| Idle
| AtExists                                    (* 2404: os.path.exists *)
| AtStat                                      (* 2405-2408: os.stat *)
| AtLoad                                      (* 2410-2412: open, pickle.load, set_cf_specs *)
| AtCompute (m : mode)                        (* 2416-2420: CFSpecs() *)
| AtOpen (x : X)                              (* 2424-2428: open(..., "wb") *)
| AtWrite (i : nat) (rest : list nat) (off : nat) (x : X)  (* 2428: pickle.dump *)
| AtCleanExists (x : X)                       (* 2434, 2355: reset_cache *)
| AtCleanRemove (x : X)                       (* 2356: os.remove *)
| AtReturn (r : outcome).
(** [p_mem]: [_CACHE["specs"]] *)
Record proc := mkproc { p_mem : option X; p_at : phase }.
Record world := mkworld {
  dflt : D; dtime : nat;       (* the default configuration file and its modification time *)
  user : U;
  link : option nat;           (* USER_CF_CACHE_FILE *)
  inodes : list inode;
  now : nat;
  procs : nat -> proc }.
Definition pset (f : nat -> proc) (p : nat) (v : proc) : nat -> proc := fun q => if q =? p then v else f q.
Definition set_proc (w : world) (p : nat) (mem : option X) (ph : phase) : world :=
  mkworld (dflt w) (dtime w) (user w) (link w) (inodes w) (now w) (pset (procs w) p (mkproc mem ph)).
Definition set_file (w : world) (l : option nat) (is : list inode) : world :=
  mkworld (dflt w) (dtime w) (user w) l is (now w) (procs w).
Definition file_of (w : world) : option inode :=
  match link w with Some i => nth_error (inodes w) i | None => None end.

(** End of a call (lines 2433-2437) *)
Definition finish (m : mode) (x : X) : phase := match m with MClean => AtCleanExists x | _ => AtReturn (Returned x) end.
(** What can happen.  [Put p n]: the next [n] bytes go to the file.  [Fail p]: an input/output
    error.  [Crash p]: the process is killed, and another one is started. *)
Inductive event :=
| Call (p : nat) (m : mode) | Go (p : nat) | Put (p n : nat) | Fail (p : nat) | Crash (p : nat)
| Edit (d : D) (t : nat) | EditUser (u : U) | Tick.
(** One atomic action of process [p] *)
Definition go (w : world) (p : nat) : option world :=
  let mem := p_mem (procs w p) in
  match p_at (procs w p) with
  | Idle => None
  | AtExists => Some (set_proc w p mem (match file_of w with Some _ => AtStat | None => AtCompute MRead end))
  | AtStat =>
    Some (set_proc w p mem
      match file_of w with
      | None => AtReturn NotFound                    (* not in the try *)
      | Some f => if dtime w <? i_time f then AtLoad else AtCompute MRead
      end)
  | AtLoad =>
    Some match match file_of w with None => None | Some f => dec (i_bytes f) end with
         | Some x => set_proc w p (Some x) (AtReturn (Returned x))
         | None => set_proc w p mem (AtCompute MRead)       (* 2413-2416: a warning *)
         end
  | AtCompute m =>
    let x := compute (dflt w) (user w) in
    Some (set_proc w p (Some x) (match m with MWrite => AtOpen x | _ => finish m x end))
  | AtOpen x =>
    Some match link w with
         | Some i => set_proc (set_file w (Some i) (set_nth i (mkino (now w) []) (inodes w))) p mem (AtWrite i (enc x) 0 x)
         | None => set_proc (set_file w (Some (List.length (inodes w))) (inodes w ++ [mkino (now w) []])) p mem
                     (AtWrite (List.length (inodes w)) (enc x) 0 x)
         end
  | AtWrite i rest off x => match rest with [] => Some (set_proc w p mem (AtReturn (Returned x))) | _ => None end
  | AtCleanExists x => Some (set_proc w p mem (match file_of w with Some _ => AtCleanRemove x | None => AtReturn (Returned x) end))
  | AtCleanRemove x =>
    Some match file_of w with
         | Some _ => set_proc (set_file w None (inodes w)) p mem (AtReturn (Returned x))
         | None => set_proc w p mem (AtReturn NotFound)
         end
  | AtReturn r => Some (set_proc w p mem Idle)
  end.
Definition step (w : world) (e : event) : option world :=
  match e with
  | Call p m =>
    match p_at (procs w p) with
    | Idle =>
      Some (set_proc w p (p_mem (procs w p))
        match p_mem (procs w p) with
        | Some x => finish m x
        | None => match m with MRead => AtExists | _ => AtCompute m end
        end)
    | _ => None
    end
  | Go p => go w p
  | Put p n =>
    match p_at (procs w p) with
    | AtWrite i rest off x =>
      match nth_error (inodes w) i with
      | Some f =>
        let chunk := firstn n rest in
        Some (set_proc (set_file w (link w) (set_nth i (mkino (now w) (write_at off chunk (i_bytes f))) (inodes w)))
          p (p_mem (procs w p)) (AtWrite i (skipn n rest) (off + List.length chunk) x))
      | None => None
      end
    | _ => None
    end
  | Fail p =>
    let mem := p_mem (procs w p) in
    match p_at (procs w p) with
    | AtLoad => Some (set_proc w p mem (AtCompute MRead))
    | AtOpen x | AtWrite _ _ _ x => Some (set_proc w p mem (AtReturn (Returned x)))     (* 2429-2430: a warning *)
    | _ => None
    end
  | Crash p => Some (set_proc w p None Idle)
  | Edit d t => Some (mkworld d t (user w) (link w) (inodes w) (now w) (procs w))
  | EditUser u => Some (mkworld (dflt w) (dtime w) u (link w) (inodes w) (now w) (procs w))
  | Tick => Some (mkworld (dflt w) (dtime w) (user w) (link w) (inodes w) (S (now w)) (procs w))
  end.
(** Histories whose events satisfy [ok], with the worlds that were visited (the last one first) *)
Inductive history (ok : world -> event -> Prop) (w0 : world) : list world -> world -> Prop :=
| h_start : history ok w0 [w0] w0
| h_step vis w e w' : history ok w0 vis w -> ok w e -> step w e = Some w' -> history ok w0 (w' :: vis) w'.
(** The same, as a function *)
Fixpoint play (w : world) (es : list event) : option world :=
  match es with
  | [] => Some w
  | e :: es' => match step w e with Some w' => play w' es' | None => None end
  end.
End Cache.
Arguments Idle {X}. Arguments AtExists {X}. Arguments AtStat {X}. Arguments AtLoad {X}. Arguments AtCompute {X} m.
Arguments AtOpen {X} x. Arguments AtWrite {X} i rest off x. Arguments AtCleanExists {X} x. Arguments AtCleanRemove {X} x.
Arguments AtReturn {X} r. Arguments Returned {X} x. Arguments NotFound {X}.
Arguments mkproc {X} p_mem p_at. Arguments p_mem {X} p. Arguments p_at {X} p.
Arguments mkworld {D U X}. Arguments dflt {D U X} w. Arguments dtime {D U X} w. Arguments user {D U X} w.
Arguments link {D U X} w. Arguments inodes {D U X} w. Arguments now {D U X} w. Arguments procs {D U X} w p.
Arguments Call {D U} p m. Arguments Go {D U} p. Arguments Put {D U} p n. Arguments Fail {D U} p. Arguments Crash {D U} p.
Arguments Edit {D U} d t. Arguments EditUser {D U} u. Arguments Tick {D U}.
Arguments pset {X}. Arguments set_proc {D U X}. Arguments set_file {D U X}. Arguments file_of {D U X} w. Arguments finish {X} m x.
Arguments go {D U X}. Arguments step {D U X}. Arguments history {D U X}. Arguments play {D U X}.
