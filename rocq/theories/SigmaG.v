(** The formulas of xoa/sigma.py:57-405 once more, for any arithmetic: the numbers and their operations are a
    parameter.  With the real numbers they are those of Sigma.v (SigmaGSame.v); with the binary64 numbers of
    IEEE 754 (Sigma64.v) they are what numpy computes, operation by operation, in the order of the code.
    Not modelled: see Sigma.v. *)
From Verif Require Export PyBase PyDict.
Open Scope list_scope.

Record nops := mknops {
  num_ : Type; o_add : num_ -> num_ -> num_; o_sub : num_ -> num_ -> num_; o_mul : num_ -> num_ -> num_; o_div : num_ -> num_ -> num_;
  o_half : num_; o_one : num_; o_two : num_; o_sinh : num_ -> num_; o_tanh : num_ -> num_ }.

Section Formulas.
Variable o : nops.
Local Notation T := (num_ o).

(** An array: dimensions, and values at named positions; xarray's broadcasting *)
Record garr := mkgarr { gdims : list string; gat_ : (string -> nat) -> T }.
Definition ghas_dim (d : string) (l : list string) : bool := existsb (String.eqb d) l.
Definition gbcast (a b : list string) : list string := a ++ List.filter (fun d => negb (ghas_dim d a)) b.
Definition gbinop (f : T -> T -> T) (a b : garr) : garr := mkgarr (gbcast (gdims a) (gdims b)) (fun e => f (gat_ a e) (gat_ b e)).
Definition gunop (f : T -> T) (a : garr) : garr := mkgarr (gdims a) (fun e => f (gat_ a e)).
(** xarray.core.variable.Variable._inplace_binary_op: the dimensions cannot change *)
Definition ginplace (f : T -> T -> T) (a b : garr) : res garr :=
  if forallb (fun d => ghas_dim d (gdims a)) (gdims b) then Ok (mkgarr (gdims a) (fun e => f (gat_ a e) (gat_ b e))) else Raise ValueError.
Definition gadd := gbinop (o_add o).
Definition gsub := gbinop (o_sub o).
Definition gmul := gbinop (o_mul o).
Definition gdiv := gbinop (o_div o).

(** ** xoa/sigma.py:57-91 *)
Definition atmosphere_sigma_coordinate_g (sig ps ptop : garr) : res garr :=
  let p := gmul sig (gsub ps ptop) in
  ginplace (o_add o) p ptop.
(** ** xoa/sigma.py:94-130 *)
Definition ocean_sigma_coordinate_g (sig ssh bathy : garr) : res garr :=
  let z := gmul sig (gadd bathy ssh) in
  ginplace (o_add o) z ssh.
(** ** xoa/sigma.py:133-162: get_cs (cs_type is not used) *)
Definition get_cs_g (s a b : garr) : res garr :=
  let cs := gdiv (gmul (gunop (o_sinh o) (gmul s a)) (gunop (fun v => o_sub o (o_one o) v) b)) (gunop (o_sinh o) a) in
  let t := gunop (fun v => o_sub o v (o_half o))
             (gdiv (gunop (o_tanh o) (gmul a (gunop (fun v => o_add o v (o_half o)) s)))
                   (gunop (fun v => o_mul o (o_two o) (o_tanh o (o_mul o (o_half o) v))) a)) in
  ginplace (o_add o) cs (gmul b t).
(** A cache: None, or a dictionary; a result: the array and the cache after the call *)
Definition gcache := option (dict garr).
Definition gresult := res (garr * gcache).
(** [if cache:] *)
Definition gfilled_cache (c : gcache) : option (dict garr) := match c with Some (x :: d) => Some (x :: d) | _ => None end.
Definition ggetc (d : dict garr) (k : string) : res garr := match dget d k with Some a => Ok a | None => Raise KeyError end.
Definition gstore (c : gcache) (kv : dict garr) : gcache := match c with Some d => Some (dupdate d kv) | None => None end.
(** ** xoa/sigma.py:165-234 *)
Definition ocean_s_coordinate_gen (sig ssh bathy hc thetas thetab : garr) (cs : option garr) (c : gcache) : gresult :=
  let* zc := match gfilled_cache c with
             | Some d => let* z := ggetc d "zconst" in Ok (z, c)
             | None =>
               let* cs := match cs with Some a => Ok a | None => get_cs_g sig thetas thetab end in
               let zconst := gmul sig hc in
               let* zconst := ginplace (o_add o) zconst (gmul cs (gsub bathy hc)) in
               Ok (zconst, gstore c [("zconst"%string, zconst)])
             end in
  Ok (gadd (gmul (gunop (fun v => o_add o v (o_one o)) sig) ssh) (fst zc), snd zc).
(** Lines 299-303, 381-385: the stretching curve (as in Sigma.v) *)
Definition stretching_g (sig : garr) (thetas thetab cs : option garr) : res garr :=
  match cs with
  | Some a => Ok a
  | None =>
    match thetas with
    | None => Raise XoaSigmaError
    | Some a =>
      match gdims a with
      | [] => match thetab with
              | None => Raise XoaSigmaError
              | Some b => match gdims b with [] => get_cs_g sig a b | _ => Raise ValueError end
              end
      | _ => Raise ValueError
      end
    end
  end.
(** ** xoa/sigma.py:237-319 *)
Definition ocean_s_coordinate_g1_g (s ssh h hc : garr) (thetas thetab cs : option garr) (c : gcache) : gresult :=
  let* r := match gfilled_cache c with
            | Some d => let* S_ := ggetc d "S" in let* Sh1 := ggetc d "Sh1" in Ok (S_, Sh1, c)
            | None =>
              let* cs := stretching_g s thetas thetab cs in
              let S_ := gadd (gmul s hc) (gmul cs (gsub h hc)) in
              let Sh1 := gdiv S_ h in
              let Sh1 := gunop (fun v => o_add o v (o_one o)) Sh1 in
              Ok (S_, Sh1, gstore c [("S"%string, S_); ("Sh1"%string, Sh1)])
            end in
  let '(S_, Sh1, c') := r in
  Ok (gadd S_ (gmul Sh1 ssh), c').
(** ** xoa/sigma.py:322-405 *)
Definition ocean_s_coordinate_g2_g (s ssh h hc : garr) (thetas thetab cs : option garr) (c : gcache) : gresult :=
  let* r := match gfilled_cache c with
            | Some d => let* S_ := ggetc d "S" in let* hS := ggetc d "hS" in Ok (S_, hS, c)
            | None =>
              let* cs := stretching_g s thetas thetab cs in
              let S_ := gadd (gmul s hc) (gmul cs h) in
              let* S_ := ginplace (o_div o) S_ (gadd hc h) in
              let hS := gmul S_ h in
              Ok (S_, hS, gstore c [("S"%string, S_); ("hS"%string, hS)])
            end in
  let '(S_, hS, c') := r in
  Ok (gadd hS (gmul (gunop (fun v => o_add o v (o_one o)) S_) ssh), c').
End Formulas.
Arguments mkgarr {o}. Arguments gdims {o}. Arguments gat_ {o}.
