(** The vectors of deprecated/modVec3.py. The class of the same name in modmesh.py:65-103
    has the same arithmetic. Negation is a parameter beside the operations of [arith]:
    [b64_opp] on doubles, [Ropp] on reals. *)
From Coq Require Import ZArith List Bool.
From Verif Require Import PyBase Struct Mesh Arith Col.
Open Scope res_scope.

Section Vec.
Context {F : Type} (A : arith F) (neg : F -> F).
(** Vec3.dot, modVec3.py:19-20. *)
Definition vec_dot (u v : vec3 F) : F :=
  let '(x, y, z) := u in let '(a, b, c) := v in
  f_add A (f_add A (f_mul A x a) (f_mul A y b)) (f_mul A z c).
(** Vec3.cross, modVec3.py:22-26. *)
Definition vec_cross (u v : vec3 F) : vec3 F :=
  let '(x1, y1, z1) := u in let '(x2, y2, z2) := v in
  (f_sub A (f_mul A y1 z2) (f_mul A z1 y2),
   f_sub A (f_mul A x1 x2) (f_mul A x1 z2),
   f_sub A (f_mul A z1 y2) (f_mul A y1 x2)).
(** Vec3.__neg__, modVec3.py:31-32. *)
Definition vec_neg (u : vec3 F) : vec3 F := let '(x, y, z) := u in (neg x, neg y, neg z).
(** Vec3.__sub__, modVec3.py:34-35. *)
Definition vec_sub (u v : vec3 F) : vec3 F := vec_add A u (vec_neg v).
(** [x / y] on floats: ZeroDivisionError for either zero. *)
Definition py_fdiv (x y : F) : res F := if f_eq A y (f_zero A) then Raise EZeroDiv else Ok (f_div A x y).
(** Vec3.__truediv__ by a vector, modVec3.py:39-40. *)
Definition vec_divv (u v : vec3 F) : res (vec3 F) :=
  let '(x, y, z) := u in let '(a, b, c) := v in
  do q <- py_fdiv x a; do r <- py_fdiv y b; do s <- py_fdiv z c; Ok (q, r, s).
(** Vec3.__truediv__ by a number, modVec3.py:42. *)
Definition vec_divn (u : vec3 F) (n : F) : res (vec3 F) :=
  let '(x, y, z) := u in
  do q <- py_fdiv x n; do r <- py_fdiv y n; do s <- py_fdiv z n; Ok (q, r, s).
End Vec.
