(** The lesser and the greater of two numbers as Python compares them. *)
From Coq Require Import ZArith List Bool.
From Verif Require Import PyBase Mesh Arith SpecBounds.

Section SpecMin.
Context {F : Type} (A : arith F).
Definition lesser (x y z : F) : Prop := fle A z x /\ fle A z y /\ (f_eq A z x = true \/ f_eq A z y = true).
Definition greater (x y z : F) : Prop := fle A x z /\ fle A y z /\ (f_eq A z x = true \/ f_eq A z y = true).
(** [lo, hi] is the box spanned by two boxes. *)
Definition spans (lo1 hi1 lo2 hi2 lo hi : vec3 F) : Prop :=
  forall i, In i axes -> lesser (axis i lo1) (axis i lo2) (axis i lo) /\ greater (axis i hi1) (axis i hi2) (axis i hi).
End SpecMin.
