(** Exact real arithmetic (Coq's reals, standard library), the second instance of
    [arith]: what the editing code computes if no rounding happened. *)
From Coq Require Import Reals Bool.
From Verif Require Import Arith.
Open Scope R_scope.

Definition Rltb (x y : R) : bool := if Rlt_dec x y then true else false.
Definition Reqb (x y : R) : bool := if Req_EM_T x y then true else false.

Definition exact : arith R :=
  {| f_zero := 0; f_two := 2;
     f_add := Rplus; f_sub := Rminus; f_mul := Rmult; f_div := Rdiv;
     f_lt := Rltb; f_eq := Reqb; f_finite := fun _ => true; f_trig := fun _ => true;
     f_sin := sin; f_cos := cos; f_radians := fun x => x * PI / 180 |}.
