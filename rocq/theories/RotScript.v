(** deprecated/rotate.py. The module prints the result for one vertex when it is run. *)
From Coq Require Import ZArith List.
From Verif Require Import PyBase Mesh Arith Edit.
Import ListNotations.
Open Scope res_scope.

Section Rot.
Context {F : Type} (A : arith F).
Local Notation "x + y" := (f_add A x y). Local Notation "x - y" := (f_sub A x y). Local Notation "x * y" := (f_mul A x y).
(** Rx, lines 10-19. *)
Definition Rx (p : vec3 F) (angle : F) : vec3 F :=
  let '(x, y, z) := p in (x, y * f_cos A angle - z * f_sin A angle, y * f_sin A angle + z * f_cos A angle).
(** Ry, lines 24-33. *)
Definition Ry (p : vec3 F) (angle : F) : vec3 F :=
  let '(x, y, z) := p in (x * f_cos A angle + z * f_sin A angle, y, z * f_cos A angle - x * f_sin A angle).
(** Rz, lines 37-46. *)
Definition Rz (p : vec3 F) (angle : F) : vec3 F :=
  let '(x, y, z) := p in (x * f_cos A angle - y * f_sin A angle, x * f_sin A angle + y * f_cos A angle, z).
(** rotate_X, lines 49-57: what it prints. It returns None. [pitch] and [roll] are
    read (an IndexError if missing) and not used. *)
Definition rotate_X (position rotation : list F) : res (vec3 F) :=
  do r <- first3 rotation;
  let '(yaw, pitch, roll) := r in
  let angle := f_radians A yaw in
  do p <- first3 position;
  if f_trig A angle then Ok (Rx (Ry (Rz p angle) angle) angle) else Raise EValue.
End Rot.
