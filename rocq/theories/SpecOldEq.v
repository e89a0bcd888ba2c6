(** What equality of the parts of an old mesh object should mean. *)
From Coq Require Import ZArith List.
From Verif Require Import PyBase Struct Mesh Arith SpecEq OldEq.
Import ListNotations.
Open Scope Z_scope.

Section Alike.
Context {F : Type} (R : F -> F -> Prop).
(** All fields, [mmax] too. *)
Definition mat_same (a b : mat F) : Prop := mat_alike R a b /\ opt_alike (vec3_alike R) (mmax a) (mmax b).
(** All fields of a lod but its rigs; [rignum] is there in skinned meshes only, [nodenum]
    in the others only. *)
Definition lod_same (sk : bool) (a b : lod F) : Prop :=
  opt_alike (vec3_alike R) (lod_min a) (lod_min b) /\ opt_alike (vec3_alike R) (lod_max a) (lod_max b) /\
  opt_alike (vec3_alike R) (pivot a) (pivot b) /\
  (if sk then rignum a = rignum b else nodenum a = nodenum b) /\ Forall2 (matrix_alike R) (nodes a) (nodes b) /\
  matnum a = matnum b /\ Forall2 mat_same (materials a) (materials b).
Definition geom_same (sk : bool) (a b : geom F) : Prop := lodnum a = lodnum b /\ Forall2 (lod_same sk) (lods a) (lods b).
End Alike.

(** [gs] and [os] describe the same geoms of a mesh that is skinned or not. Its rig
    objects have any numbers at all. *)
Definition lod_object {F} (sk : bool) (l : lod F) (o : olod F) : Prop :=
  ol_skinned o = sk /\ ol_lod o = l /\ length (ol_rigs o) = length (rigs l).
Definition geom_objects {F} (sk : bool) (gs : list (geom F)) (os : list (ogeom F)) : Prop :=
  Forall2 (fun g o => og_lodnum o = lodnum g /\ Forall2 (lod_object sk) (lods g) (og_lods o)) gs os.
(** The rig objects of a mesh. *)
Definition rig_objects {F} (os : list (ogeom F)) : list nat := flat_map (fun o => flat_map ol_rigs (og_lods o)) os.
(** No object in common, as for the results of two loads. *)
Definition unshared {F} (a b : list (ogeom F)) : Prop := forall i, In i (rig_objects a) -> In i (rig_objects b) -> False.
