(** Model of the formulas of xoa/sigma.py:57-405.  Arrays are functions of named positions with a list of
    dimensions, broadcast as xarray does; the numbers are real.
    Not modelled: sizes and indexes (equal on common dimensions), NaN, rounding, the names and attributes that
    format_data_var sets at the end of each formula.  A division by zero has no meaning here (numpy gives
    NaN or an infinity): theorems exclude it. *)
From Verif Require Export PyBase PyDict.
From Coq Require Export Reals Lra.
Open Scope R_scope.

(** ** xarray *)
Record arr := mkarr { adims : list string; at_ : (string -> nat) -> R }.
Definition has_dim (d : string) (l : list string) : bool := existsb (String.eqb d) l.
Definition bcast (a b : list string) : list string := (a ++ List.filter (fun d => negb (has_dim d a)) b)%list.
Definition binop (f : R -> R -> R) (a b : arr) : arr := mkarr (bcast (adims a) (adims b)) (fun e => f (at_ a e) (at_ b e)).
Definition unop (f : R -> R) (a : arr) : arr := mkarr (adims a) (fun e => f (at_ a e)).
(** xarray.core.variable.Variable._inplace_binary_op: the dimensions cannot change *)
Definition inplace (f : R -> R -> R) (a b : arr) : res arr :=
  if forallb (fun d => has_dim d (adims a)) (adims b) then Ok (mkarr (adims a) (fun e => f (at_ a e) (at_ b e))) else Raise ValueError.
Definition aadd := binop Rplus.
Definition asub := binop Rminus.
Definition amul := binop Rmult.
Definition adiv := binop Rdiv.

(** ** xoa/sigma.py:57-91 *)
Definition atmosphere_sigma_coordinate (sig ps ptop : arr) : res arr :=
  let p := amul sig (asub ps ptop) in
  inplace Rplus p ptop.
(** ** xoa/sigma.py:94-130 *)
Definition ocean_sigma_coordinate (sig ssh bathy : arr) : res arr :=
  let z := amul sig (aadd bathy ssh) in
  inplace Rplus z ssh.
(** ** xoa/sigma.py:133-162: get_cs (cs_type is not used) *)
Definition get_cs (s a b : arr) : res arr :=
  let cs := adiv (amul (unop sinh (amul s a)) (unop (fun v => 1 - v) b)) (unop sinh a) in
  let t := unop (fun v => v - 1 / 2)
             (adiv (unop tanh (amul a (unop (fun v => v + 1 / 2) s))) (unop (fun v => 2 * tanh (1 / 2 * v)) a)) in
  inplace Rplus cs (amul b t).
(** A cache: None, or a dictionary; a result: the array and the cache after the call *)
Definition cache := option (dict arr).
Definition result := res (arr * cache).
(** [if cache:] *)
Definition filled_cache (c : cache) : option (dict arr) := match c with Some (x :: d) => Some (x :: d) | _ => None end.
Definition getc (d : dict arr) (k : string) : res arr := match dget d k with Some a => Ok a | None => Raise KeyError end.
Definition store (c : cache) (kv : dict arr) : cache := match c with Some d => Some (dupdate d kv) | None => None end.
(** ** xoa/sigma.py:165-234 *)
Definition ocean_s_coordinate (sig ssh bathy hc thetas thetab : arr) (cs : option arr) (c : cache) : result :=
  let* zc := match filled_cache c with
             | Some d => let* z := getc d "zconst" in Ok (z, c)
             | None =>
               let* cs := match cs with Some a => Ok a | None => get_cs sig thetas thetab end in
               let zconst := amul sig hc in
               let* zconst := inplace Rplus zconst (amul cs (asub bathy hc)) in
               Ok (zconst, store c [("zconst"%string, zconst)])
             end in
  Ok (aadd (amul (unop (fun v => v + 1) sig) ssh) (fst zc), snd zc).
(** Lines 299-303, 381-385: the stretching curve.  [None in (thetas, thetab)] compares arrays with None, which has
    no truth value for arrays (simplification: also for arrays of one element with dimensions) *)
Definition stretching (sig : arr) (thetas thetab cs : option arr) : res arr :=
  match cs with
  | Some a => Ok a
  | None =>
    match thetas with
    | None => Raise XoaSigmaError
    | Some a =>
      match adims a with
      | [] => match thetab with
              | None => Raise XoaSigmaError
              | Some b => match adims b with [] => get_cs sig a b | _ => Raise ValueError end
              end
      | _ => Raise ValueError
      end
    end
  end.
(** ** xoa/sigma.py:237-319 *)
Definition ocean_s_coordinate_g1 (s ssh h hc : arr) (thetas thetab cs : option arr) (c : cache) : result :=
  let* r := match filled_cache c with
            | Some d => let* S_ := getc d "S" in let* Sh1 := getc d "Sh1" in Ok (S_, Sh1, c)
            | None =>
              let* cs := stretching s thetas thetab cs in
              let S_ := aadd (amul s hc) (amul cs (asub h hc)) in
              let Sh1 := adiv S_ h in
              let Sh1 := unop (fun v => v + 1) Sh1 in
              Ok (S_, Sh1, store c [("S"%string, S_); ("Sh1"%string, Sh1)])
            end in
  let '(S_, Sh1, c') := r in
  Ok (aadd S_ (amul Sh1 ssh), c').
(** ** xoa/sigma.py:322-405 *)
Definition ocean_s_coordinate_g2 (s ssh h hc : arr) (thetas thetab cs : option arr) (c : cache) : result :=
  let* r := match filled_cache c with
            | Some d => let* S_ := getc d "S" in let* hS := getc d "hS" in Ok (S_, hS, c)
            | None =>
              let* cs := stretching s thetas thetab cs in
              let S_ := aadd (amul s hc) (amul cs h) in
              let* S_ := inplace Rdiv S_ (aadd hc h) in
              let hS := amul S_ h in
              Ok (S_, hS, store c [("S"%string, S_); ("hS"%string, hS)])
            end in
  let '(S_, hS, c') := r in
  Ok (aadd hS (amul (unop (fun v => v + 1) S_) ssh), c').
