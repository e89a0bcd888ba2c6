(** Specification vocabulary for the bounds of moved meshes. *)
From Coq Require Import ZArith List Bool Reals.
From Verif Require Import PyBase Mesh Arith RArith SpecEdit SpecBounds.
Import ListNotations.

(** A point moved by an offset, in whatever arithmetic. *)
Definition plus3 {F} (A : arith F) (d q : vec3 F) : vec3 F :=
  let '(dx, dy, dz) := d in let '(x, y, z) := q in (f_add A x dx, f_add A y dy, f_add A z dz).
(** The box [lo2], [hi2] goes no further than the box [lo], [hi] moved by [d] and the origin; on a side where one of
    the points [l] was on the old box it goes as far as the moved box. *)
Definition box_carried {F} (A : arith F) (d : vec3 F) (l : list (vec3 F)) (lo hi lo2 hi2 : vec3 F) : Prop :=
  forall i, In i axes ->
    (axis i lo2 = f_zero A \/ fle A (f_add A (axis i lo) (axis i d)) (axis i lo2)) /\
    (axis i hi2 = f_zero A \/ fle A (axis i hi2) (f_add A (axis i hi) (axis i d))) /\
    ((exists q, In q l /\ axis i q = axis i lo) -> fle A (axis i lo2) (f_add A (axis i lo) (axis i d))) /\
    ((exists q, In q l /\ axis i q = axis i hi) -> fle A (f_add A (axis i hi) (axis i d)) (axis i hi2)).
(** How far from the origin the box goes along an axis, and the distance of its furthest corner. *)
Definition reach (i : nat) (lo hi : vec3 R) : R := Rmax (- axis i lo) (axis i hi).
Definition far_corner (lo hi : vec3 R) : R :=
  sqrt (reach 0 lo hi * reach 0 lo hi + reach 1 lo hi * reach 1 lo hi + reach 2 lo hi * reach 2 lo hi).
(** The box of a lod of a mesh. *)
Definition has_box {F} (m : mesh F) (gi li : Z) (lo hi : vec3 F) : Prop :=
  exists l, lod_at m gi li l /\ lod_min l = Some lo /\ lod_max l = Some hi.
