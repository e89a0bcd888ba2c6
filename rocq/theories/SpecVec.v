(** Vector algebra over the reals. *)
From Coq Require Import Reals List.
From Verif Require Import Mesh SpecBounds.
Import ListNotations.
Open Scope R_scope.

(** Each component of [w] is [f] of those of [u] and [v]. *)
Definition by_axis {F} (f : F -> F -> F) (u v w : vec3 F) : Prop :=
  forall i, In i axes -> axis i w = f (axis i u) (axis i v).
Definition scalar_product (u v : vec3 R) : R := axis 0 u * axis 0 v + axis 1 u * axis 1 v + axis 2 u * axis 2 v.
Definition vector_product (u v : vec3 R) : vec3 R :=
  (axis 1 u * axis 2 v - axis 2 u * axis 1 v,
   axis 2 u * axis 0 v - axis 0 u * axis 2 v,
   axis 0 u * axis 1 v - axis 1 u * axis 0 v).
