(** Specification vocabulary about floats: rounding to single precision, stated with
    real numbers. *)
From Coq Require Import ZArith Reals Bool.
From Flocq Require Import Core IEEE754.Binary IEEE754.Bits.
Open Scope Z_scope.

(** Nearest real of IEEE single format, ties to even, ignoring overflow. *)
Definition nearest_single (r : R) : R := round radix2 (FLT_exp (-149) 24) ZnearestE r.

(** [y] is [x] rounded to single precision (as a double again). *)
Definition rounds_to_single (x y : binary64) : Prop :=
  if is_nan 53 1024 x then is_nan 53 1024 y = true
  else if is_finite 53 1024 x then
    ((Rabs (nearest_single (B2R 53 1024 x)) < bpow radix2 128)%R ->
       B2R 53 1024 y = nearest_single (B2R 53 1024 x) /\
       is_finite 53 1024 y = true /\ Bsign 53 1024 y = Bsign 53 1024 x) /\
    ((bpow radix2 128 <= Rabs (nearest_single (B2R 53 1024 x)))%R ->
       y = B754_infinity 53 1024 (Bsign 53 1024 x))
  else y = x.

(** [x] is an infinity or a number of single precision. *)
Definition is_single (x : binary64) : Prop :=
  is_nan 53 1024 x = false /\
  (is_finite 53 1024 x = true ->
   generic_format radix2 (FLT_exp (-149) 24) (B2R 53 1024 x) /\
   (Rabs (B2R 53 1024 x) < bpow radix2 128)%R).
