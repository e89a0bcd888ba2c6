(** Python run-time notions used by the model: exceptions as values, slices,
    indexing, ranges, int/int true division and int(float).

    These model CPython 3 semantics that the code in /repo relies on, not a file
    of /repo; each definition says which expressions of /repo use it. *)
From Coq Require Import ZArith List Bool Ascii Lia.
From Coq Require Import Floats.SpecFloat.
Import ListNotations.
Open Scope Z_scope.

(** Exception classes that the modelled code can raise. *)
Inductive exn :=
| EStruct          (* struct.error *)
| EType            (* TypeError *)
| EValue           (* ValueError *)
| EIndex           (* IndexError *)
| EAttribute       (* AttributeError *)
| EZeroDiv         (* ZeroDivisionError *)
| EOverflow        (* OverflowError *)
| EUnboundLocal    (* UnboundLocalError *)
| EFileNotFound    (* FileNotFoundError *)
| EFileExists      (* FileExistsError *)
| ENotADirectory   (* NotADirectoryError *)
| EIsADirectory    (* IsADirectoryError *)
| EKey             (* KeyError *)
| ENotImplemented  (* NotImplementedError *)
| EName.           (* NameError *)

(** Result of a computation that returns a value or raises. *)
Inductive res (A : Type) :=
| Ok (a : A)
| Raise (e : exn).
Arguments Ok {A} a.
Arguments Raise {A} e.

Definition bind {A B} (x : res A) (f : A -> res B) : res B :=
  match x with Ok a => f a | Raise e => Raise e end.
Definition rmap {A B} (f : A -> B) (x : res A) : res B :=
  match x with Ok a => Ok (f a) | Raise e => Raise e end.

Declare Scope res_scope.
Delimit Scope res_scope with res.
Notation "'do' x <- e1 ; e2" := (bind e1 (fun x => e2))
  (at level 200, x pattern, e1 at level 100, e2 at level 200, right associativity) : res_scope.
Open Scope res_scope.

(** Python [len(l)] as an int. *)
Definition zlen {A} (l : list A) : Z := Z.of_nat (length l).

(** Normalisation of a slice bound by [slice.indices] (step 1): used by every
    [x[a:b]] of bf2mesh/visiblemesh.py. *)
Definition norm_bound (n i : Z) : Z :=
  if i <? 0 then Z.max 0 (i + n) else Z.min i n.

(** [l[a:b]]. *)
Definition py_slice {A} (l : list A) (a b : Z) : list A :=
  let n := zlen l in
  let a' := norm_bound n a in
  let b' := norm_bound n b in
  firstn (Z.to_nat (b' - a')) (skipn (Z.to_nat a') l).

(** [l[a:b] = new] on a list. *)
Definition py_slice_assign {A} (l : list A) (a b : Z) (new : list A) : list A :=
  let n := zlen l in
  let a' := norm_bound n a in
  let b' := Z.max a' (norm_bound n b) in
  firstn (Z.to_nat a') l ++ new ++ skipn (Z.to_nat b') l.

(** Index normalisation for [l[i]]: negative indices count from the end. *)
Definition norm_index (n i : Z) : option nat :=
  let j := if i <? 0 then i + n else i in
  if (0 <=? j) && (j <? n) then Some (Z.to_nat j) else None.

(** [l[i]]. *)
Definition py_get {A} (l : list A) (i : Z) : res A :=
  match norm_index (zlen l) i with
  | Some k => match nth_error l k with Some a => Ok a | None => Raise EIndex end
  | None => Raise EIndex
  end.

Fixpoint set_nth {A} (l : list A) (k : nat) (v : A) : list A :=
  match l, k with
  | [], _ => []
  | _ :: t, O => v :: t
  | x :: t, S k' => x :: set_nth t k' v
  end.

(** [l[i] = v] on a list. *)
Definition py_set {A} (l : list A) (i : Z) (v : A) : res (list A) :=
  match norm_index (zlen l) i with
  | Some k => Ok (set_nth l k v)
  | None => Raise EIndex
  end.

(** [range(0, stop, step)] for a length [stop] and a non-negative [step]
    (visiblemesh.py:296 and :379); a zero step raises ValueError. *)
Definition py_range_step (stop step : nat) : res (list Z) :=
  match step with
  | O => Raise EValue
  | _ => Ok (map (fun k => Z.of_nat (k * step)) (seq 0 ((stop + step - 1) / step)))
  end.

(** [range(n)] for an int [n] that may be negative. *)
Definition zrange (n : Z) : list Z := map Z.of_nat (seq 0 (Z.to_nat n)).

(** Loops [for x in l: ...] whose body may raise, threading a state [S]. *)
Fixpoint fold_res {A S} (f : S -> A -> res S) (s : S) (l : list A) : res S :=
  match l with
  | [] => Ok s
  | x :: t => do s' <- f s x; fold_res f s' t
  end.
(** [[f(x) for x in l]]. *)
Fixpoint map_res {A B} (f : A -> res B) (l : list A) : res (list B) :=
  match l with
  | [] => Ok []
  | x :: t => do y <- f x; do r <- map_res f t; Ok (y :: r)
  end.

(** Loops over a list of *mutable* objects: the body may mutate the element, the
    threaded state, or raise. On an exception the remaining elements are left as
    they were, and the mutations made so far (including those of the failing
    body) remain visible. The first argument of the body is the loop index
    (Python's [enumerate]). *)
Fixpoint fold_mut_from {A S} (f : nat -> S -> A -> S * A * option exn)
         (i : nat) (s : S) (l : list A) : S * list A * option exn :=
  match l with
  | [] => (s, [], None)
  | x :: t =>
      match f i s x with
      | (s', x', None) =>
          let '(s'', t', o) := fold_mut_from f (Datatypes.S i) s' t in (s'', x' :: t', o)
      | (s', x', Some e) => (s', x' :: t, Some e)
      end
  end.
Definition fold_mut {A S} (f : nat -> S -> A -> S * A * option exn) s l :=
  fold_mut_from f 0 s l.

(** ** int / int true division and int(float).
    Python's [a / b] on ints is the correctly rounded binary64 quotient of the exact
    integers ([long_true_divide]); floats here are SpecFloat values (standard library)
    at precision 53, emax 1024. Used by visiblemesh.py:165, 271, 303, 387, 570. *)
Definition sf_exact (z : Z) : spec_float :=
  match z with
  | Z0 => S754_zero false
  | Zpos p => S754_finite false p 0
  | Zneg p => S754_finite true p 0
  end.

Definition py_truediv (a b : Z) : res spec_float :=
  if b =? 0 then Raise EZeroDiv
  else match SFdiv 53 1024 (sf_exact a) (sf_exact b) with
       | S754_infinity _ => Raise EOverflow
       | q => Ok q
       end.

(** Conversion int -> float performed by [float * int]. *)
Definition py_float_of_int (z : Z) : res spec_float :=
  match binary_normalize 53 1024 z 0 false with
  | S754_infinity _ => Raise EOverflow
  | q => Ok q
  end.

Definition py_fmul_int (x : spec_float) (z : Z) : res spec_float :=
  do y <- py_float_of_int z; Ok (SFmul 53 1024 x y).

(** [int(x)] for a float: truncation toward zero. *)
Definition py_int (x : spec_float) : res Z :=
  match x with
  | S754_zero _ => Ok 0
  | S754_infinity _ => Raise EOverflow
  | S754_nan => Raise EValue
  | S754_finite s m e =>
      let a := if e <? 0 then Zpos m / 2 ^ (- e) else Zpos m * 2 ^ e in
      Ok (if s then - a else a)
  end.

(** [int(a / b)]. *)
Definition py_int_div (a b : Z) : res Z := do q <- py_truediv a b; py_int q.
