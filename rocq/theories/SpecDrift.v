(** How far sequences of moves in doubles end from where they should. *)
From Coq Require Import ZArith Reals List Bool.
From Flocq Require Import Core IEEE754.Binary IEEE754.Bits.
From Verif Require Import PyBase Struct Mesh Arith F64 RArith Edit SpecEdit SpecAcc SpecSurface.
Import ListNotations.
Open Scope R_scope.

(** Calls of translate with three numbers and of rotate. *)
Inductive motion := Shift (x y z : binary64) | Turn (yaw pitch roll : binary64).
Definition do_motion (L : libm) (m : mesh binary64) (s : motion) : mesh binary64 * option exn :=
  match s with
  | Shift x y z => translate (f64 L) m [x; y; z]
  | Turn yaw pitch roll => rotate (f64 L) m [yaw; pitch; roll]
  end.
Fixpoint do_motions (L : libm) (m : mesh binary64) (ss : list motion) : mesh binary64 * option exn :=
  match ss with
  | [] => (m, None)
  | s :: t => match do_motion L m s with (m', None) => do_motions L m' t | r => r end
  end.

(** Where they should take a point, or a direction. *)
Definition point_by (s : motion) (v : vec3 R) : vec3 R :=
  match s with
  | Shift x y z => plus v (val x, val y, val z)
  | Turn yaw pitch roll => turn exact (val yaw) (val pitch) (val roll) v
  end.
Definition direction_by (s : motion) (v : vec3 R) : vec3 R :=
  match s with Shift _ _ _ => v | Turn yaw pitch roll => turn exact (val yaw) (val pitch) (val roll) v end.
Definition goal (positions : bool) (ss : list motion) (v : vec3 R) : vec3 R :=
  fold_left (fun v s => if positions then point_by s v else direction_by s v) ss v.
(** Finite offsets, and angles up to [D] degrees. *)
Definition motion_upto (D : R) (s : motion) : Prop :=
  match s with
  | Shift x y z => finite x /\ finite y /\ finite z
  | Turn yaw pitch roll => angle_upto D yaw /\ angle_upto D pitch /\ angle_upto D roll
  end.
(** The length of the way. *)
Definition way (ss : list motion) : R :=
  fold_right (fun s r => match s with Shift x y z => norm (val x, val y, val z) + r | Turn _ _ _ => r end) 0 ss.
(** The relative error of one call, for a C library with errors up to [e]. *)
Definition per_call (e D : R) : R := 18 * (2 * (e + D * bpow radix2 (-58)) + 6 * half_ulp).
(** The error of [n] calls on points up to [r] from the origin. *)
Definition drift_upto (e D : R) (n : nat) (r : R) : R := ((1 + per_call e D) ^ n - 1) * (r + bpow radix2 (-1000)).

(** A packed mesh whose positions, normals and tangents can be moved. *)
Record movable (vs : nat) (m : mesh binary64) : Prop := {
  mv_size : vertex_size m = Ok (Z.of_nat vs); mv_pos : (0 < vs)%nat; mv_tiled : tiled_vertices vs m;
  mv_ready : rotate_ready vs m; mv_position : exists a, position_attrib m = Some a }.
(** The attribute that translate moves. *)
Definition at_position (m : mesh binary64) (a : vertattrib) : bool := (attrib_start m a =? position_start m)%nat.
