(** What equality of mesh parts should mean. *)
From Coq Require Import ZArith List Bool Ascii.
From Verif Require Import PyBase Struct Mesh Arith.
Import ListNotations.
Open Scope Z_scope.

Section Alike.
Context {F : Type} (R : F -> F -> Prop).
Definition vec3_alike (a b : vec3 F) : Prop :=
  let '(ax, ay, az) := a in let '(bx, by_, bz) := b in R ax bx /\ R ay by_ /\ R az bz.
Definition opt_alike {A} (Q : A -> A -> Prop) (a b : option A) : Prop :=
  match a, b with Some x, Some y => Q x y | None, None => True | _, _ => False end.
Definition matrix_alike : matrix4 F -> matrix4 F -> Prop := Forall2 (Forall2 R).
Definition bone_alike (a b : bone F) : Prop := bone_id a = bone_id b /\ matrix_alike (bone_matrix a) (bone_matrix b).
Definition rig_alike (a b : rig F) : Prop := bonenum a = bonenum b /\ Forall2 bone_alike (bones a) (bones b).
(** All fields but [mmax]. *)
Definition mat_alike (a b : mat F) : Prop :=
  alphamode a = alphamode b /\ fxfile a = fxfile b /\ technique a = technique b /\
  mapnum a = mapnum b /\ maps a = maps b /\ vstart a = vstart b /\ istart a = istart b /\
  inum a = inum b /\ vnum a = vnum b /\ mat_u4 a = mat_u4 b /\ mat_u5 a = mat_u5 b /\
  opt_alike vec3_alike (mmin a) (mmin b).
Definition lod_alike (a b : lod F) : Prop :=
  opt_alike vec3_alike (lod_min a) (lod_min b) /\ opt_alike vec3_alike (lod_max a) (lod_max b) /\
  opt_alike vec3_alike (pivot a) (pivot b) /\
  rignum a = rignum b /\ Forall2 rig_alike (rigs a) (rigs b) /\
  nodenum a = nodenum b /\ Forall2 matrix_alike (nodes a) (nodes b) /\
  matnum a = matnum b /\ Forall2 mat_alike (materials a) (materials b).
End Alike.
