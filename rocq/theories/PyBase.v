(** Python / numpy primitives shared by all the models.

    Nothing here models xoa itself: these are the semantics of the Python and
    numpy operations the xoa code is written with. *)
From Coq Require Export List Arith ZArith QArith Lia Bool String Ascii.
From Coq Require Export Lqa.
Export ListNotations.
Open Scope nat_scope.

(** ** Exceptions as values *)

Inductive exn :=
| IndexError | KeyError | TypeError | ValueError | ZeroDivisionError
| AttributeError | UnboundLocalError | AssertionError | NameError
| XoaError | XoaCFError | XoaConfigError | XoaCoordsError | XoaRegridError
| XoaSigmaError | ValidateError | RecursionError | VdtTypeError
| VdtValueError | VdtSizeError.

Inductive res (A : Type) :=
| Ok (a : A)
| Raise (e : exn).
Arguments Ok {A} a.
Arguments Raise {A} e.

Definition bind {A B} (x : res A) (f : A -> res B) : res B :=
  match x with Ok a => f a | Raise e => Raise e end.

Declare Scope res_scope.
Delimit Scope res_scope with res.
Notation "'let*' x ':=' e 'in' f" := (bind e (fun x => f))
  (at level 200, x pattern, e at level 100, f at level 200, right associativity).

Definition is_ok {A} (x : res A) : bool :=
  match x with Ok _ => true | Raise _ => false end.

(** ** [for x in l: body] with [continue] (= [Next] of the state), [break] and
    exceptions *)

Inductive ctl (S : Type) :=
| Next (s : S)
| Break (s : S)
| Fail (e : exn).
Arguments Next {S} s.
Arguments Break {S} s.
Arguments Fail {S} e.

Fixpoint for_each {A S} (l : list A) (body : A -> S -> ctl S) (s : S) : res S :=
  match l with
  | [] => Ok s
  | x :: l' =>
    match body x s with
    | Next s' => for_each l' body s'
    | Break s' => Ok s'
    | Fail e => Raise e
    end
  end.

(** Turn a computation that may raise into a loop step. *)
Definition next_of {S} (r : res S) : ctl S :=
  match r with Ok s => Next s | Raise e => Fail e end.

Definition bindc {A S} (x : res A) (f : A -> ctl S) : ctl S :=
  match x with Ok a => f a | Raise e => Fail e end.
Notation "'get*' x ':=' e 'in' f" := (bindc e (fun x => f))
  (at level 200, x pattern, e at level 100, f at level 200, right associativity).

(** [range(a, b)] *)
Definition pyrange (a b : Z) : list Z :=
  map (fun k => (a + Z.of_nat k)%Z) (seq 0 (Z.to_nat (b - a))).

(** ** Indexing with one negative wrap-around *)

Definition pyidx (n : nat) (i : Z) : option nat :=
  if ((0 <=? i) && (i <? Z.of_nat n))%Z then Some (Z.to_nat i)
  else if ((- Z.of_nat n <=? i) && (i <? 0))%Z then Some (Z.to_nat (i + Z.of_nat n))
  else None.

Definition pyget {A} (l : list A) (i : Z) : res A :=
  match pyidx (List.length l) i with
  | Some k => match nth_error l k with Some x => Ok x | None => Raise IndexError end
  | None => Raise IndexError
  end.

Fixpoint upd {A} (l : list A) (k : nat) (x : A) : list A :=
  match l, k with
  | [], _ => []
  | _ :: l', O => x :: l'
  | y :: l', S k' => y :: upd l' k' x
  end.

Definition pyset {A} (l : list A) (i : Z) (x : A) : res (list A) :=
  match pyidx (List.length l) i with
  | Some k => Ok (upd l k x)
  | None => Raise IndexError
  end.

(** ** Floats: exact rationals, or NaN *)

Definition fl := option Q.
Definition nan : fl := None.
Definition isnan (x : fl) : bool := match x with None => true | Some _ => false end.

Definition f2 (op : Q -> Q -> Q) (x y : fl) : fl :=
  match x, y with Some a, Some b => Some (op a b) | _, _ => None end.
Definition fadd := f2 Qplus.
Definition fsub := f2 Qminus.
Definition fmul := f2 Qmult.

(** numba's default error model raises ZeroDivisionError on [x / 0.]. *)
Definition fdiv (x y : fl) : res fl :=
  match y with
  | Some b => if Qeq_bool b 0 then Raise ZeroDivisionError
              else Ok (match x with Some a => Some (a / b)%Q | None => None end)
  | None => Ok None
  end.

(** Comparisons involving a NaN are false ([!=] excepted). *)
Definition Qltb (a b : Q) : bool := negb (Qle_bool b a).
Definition fltb (x y : fl) : bool :=
  match x, y with Some a, Some b => Qltb a b | _, _ => false end.
Definition fleb (x y : fl) : bool :=
  match x, y with Some a, Some b => Qle_bool a b | _, _ => false end.
Definition feqb (x y : fl) : bool :=
  match x, y with Some a, Some b => Qeq_bool a b | _, _ => false end.
Definition f0 : fl := Some 0%Q.

(** Equality of floats up to the representation of rationals; NaN is the same
    as NaN (this is a relation for specifications, not Python's [==]). *)
Definition feq (x y : fl) : Prop :=
  match x, y with
  | Some a, Some b => (a == b)%Q
  | None, None => True
  | _, _ => False
  end.

Fixpoint feql (x y : list fl) : Prop :=
  match x, y with
  | [], [] => True
  | a :: x', b :: y' => feq a b /\ feql x' y'
  | _, _ => False
  end.
