(** Specification vocabulary for the accuracy of double arithmetic. *)
From Coq Require Import ZArith Reals List.
From Flocq Require Import Core IEEE754.Binary IEEE754.Bits.
From Verif Require Import PyBase Struct Mesh Arith F64 RArith SpecEdit.
Import ListNotations.
Open Scope R_scope.

Definition finite (x : binary64) : Prop := is_finite 53 1024 x = true.
(** The real number a finite double stands for. *)
Definition val (x : binary64) : R := B2R 53 1024 x.
Definition val3 (q : vec3 binary64) : R * R * R := let '(x, y, z) := q in (val x, val y, val z).
Definition finite3 (q : vec3 binary64) : Prop := let '(x, y, z) := q in finite x /\ finite y /\ finite z.

(** Half the distance from 1 to the next double: 2^-53. *)
Definition half_ulp : R := bpow radix2 (-53).

(** Componentwise distance at most [e]. *)
Definition within (e : R) (u v : R * R * R) : Prop :=
  let '(a, b, c) := u in let '(x, y, z) := v in Rabs (a - x) <= e /\ Rabs (b - y) <= e /\ Rabs (c - z) <= e.
Definition norm (v : R * R * R) : R := let '(x, y, z) := v in sqrt (x * x + y * y + z * z).

(** The C library's cosine and sine of a finite double are finite and off by at most [e]. *)
Definition libm_within (e : R) (L : libm) : Prop := forall x, finite x ->
  finite (lm_cos L x) /\ finite (lm_sin L x) /\
  Rabs (val (lm_cos L x) - cos (val x)) <= e /\ Rabs (val (lm_sin L x) - sin (val x)) <= e.
(** A finite angle (in degrees) of at most [D]. *)
Definition angle_upto (D : R) (a : binary64) : Prop := finite a /\ Rabs (val a) <= D.

(** [x] is a multiple of 2^e. *)
Definition on_grid (e : Z) (x : binary64) : Prop := exists k : Z, val x = IZR k * bpow radix2 e.

(** Off the exact value [r] by at most half a unit in the last place, relatively. *)
Definition rounded (x : binary64) (r : R) : Prop := Rabs (val x - r) <= half_ulp * Rabs r.

(** Components that translate moves, and by what. *)
Definition moved_at (m : mesh binary64) (off : list binary64) (c : nat) (d : binary64) : Prop :=
  (position_start m <= c)%nat /\ nth_error off (c - position_start m) = Some d.

(** What the 32 bits of a file keep of the number [r]. *)
Definition single_error (r : R) : R := bpow radix2 (-24) * Rabs r + bpow radix2 (-150).
