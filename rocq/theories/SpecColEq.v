(** What equality of collision mesh parts should mean. *)
From Coq Require Import ZArith List.
From Verif Require Import PyBase Struct Mesh Arith Col SpecEq.
Import ListNotations.
Open Scope Z_scope.

(** The same vertices and the same material as read; [cf_material], which is the one that
    is saved, does not matter. *)
Definition face_alike (a b : colface) : Prop :=
  cf_v1 a = cf_v1 b /\ cf_v2 a = cf_v2 b /\ cf_v3 a = cf_v3 b /\ exists n, cf_m a = Some n /\ cf_m b = Some n.
(** Faces that cannot be compared. *)
Definition face_stuck (a b : colface) : Prop :=
  cf_v1 a = cf_v1 b /\ cf_v2 a = cf_v2 b /\ cf_v3 a = cf_v3 b /\ (cf_m a = None \/ cf_m b = None).

Section Alike.
Context {F : Type} (R : F -> F -> Prop).
Definition ystruct_alike (a b : ystruct F) : Prop :=
  R (y_u1 a) (y_u1 b) /\ y_u2 a = y_u2 b /\ y_u3 a = y_u3 b /\ y_u4 a = y_u4 b /\ y_u5 a = y_u5 b.
Definition collod_alike (a b : collod F colface) : Prop :=
  cl_type a = cl_type b /\ cl_facenum a = cl_facenum b /\ Forall2 face_alike (cl_faces a) (cl_faces b) /\
  cl_vertnum a = cl_vertnum b /\ Forall2 (vec3_alike R) (cl_vertices a) (cl_vertices b) /\ cl_vertids a = cl_vertids b /\
  vec3_alike R (cl_min a) (cl_min b) /\ vec3_alike R (cl_max a) (cl_max b) /\ cl_u7 a = cl_u7 b /\
  vec3_alike R (cl_bmin a) (cl_bmin b) /\ vec3_alike R (cl_bmax a) (cl_bmax b) /\
  cl_ynum a = cl_ynum b /\ Forall2 ystruct_alike (cl_ydata a) (cl_ydata b) /\
  cl_znum a = cl_znum b /\ cl_zdata a = cl_zdata b /\ cl_anum a = cl_anum b /\ cl_adata a = cl_adata b.
Definition colsub_alike (a b : colsub F colface) : Prop :=
  cs_lodnum a = cs_lodnum b /\ Forall2 collod_alike (cs_lods a) (cs_lods b).
Definition colgeom_alike (a b : colgeom F colface) : Prop :=
  cg_subnum a = cg_subnum b /\ Forall2 colsub_alike (cg_subs a) (cg_subs b).
End Alike.

(** A face that has been read from a file. *)
Definition has_m (f : colface) : Prop := cf_m f <> None.
