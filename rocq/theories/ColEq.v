(** The equality methods of deprecated/modcolmesh.py. ColMesh itself has none, so two
    meshes are compared part by part. Objects compared here are distinct ones: the
    shortcut by which Python's list comparison skips items that are the same object is
    not modelled (it matters for a NaN and for a face without [m] that both lists
    share). The printing of differences cannot fail and is left out. *)
From Coq Require Import ZArith List Bool.
From Verif Require Import PyBase Struct Mesh Arith Edit Col.
Import ListNotations.
Open Scope Z_scope.
Open Scope res_scope.

Section Eq.
Context {F : Type} (A : arith F).

(** bf2colface.__eq__, modcolmesh.py:77-81: AttributeError when the vertices are the same
    and one of the faces has no attribute [m]. *)
Definition face_eq (a b : colface) : res bool :=
  if negb (cf_v1 a =? cf_v1 b) then Ok false
  else if negb (cf_v2 a =? cf_v2 b) then Ok false
  else if negb (cf_v3 a =? cf_v3 b) then Ok false
  else match cf_m a, cf_m b with
       | Some x, Some y => Ok (x =? y)
       | _, _ => Raise EAttribute
       end.

(** [l == l'] for lists: lengths first, then the items up to the first difference. *)
Fixpoint items_eq {B} (eq : B -> B -> res bool) (l l' : list B) : res bool :=
  match l, l' with
  | x :: t, y :: t' => do r <- eq x y; if r then items_eq eq t t' else Ok false
  | _, _ => Ok true
  end.
Definition list_eq {B} (eq : B -> B -> res bool) (l l' : list B) : res bool :=
  if Nat.eqb (length l) (length l') then items_eq eq l l' else Ok false.

(** ystruct.__eq__, modcolmesh.py:53-58. *)
Definition ystruct_eqb (a b : ystruct F) : bool :=
  f_eq A (y_u1 a) (y_u1 b) && (y_u2 a =? y_u2 b) && (y_u3 a =? y_u3 b) && (y_u4 a =? y_u4 b) && (y_u5 a =? y_u5 b).

(** bf2collod.__eq__, modcolmesh.py:175-235 (Vec3.__eq__, modVec3.py:9-10): every pair of
    attributes is compared, also after a difference. *)
Definition collod_eq (a b : collod F colface) : res bool :=
  do fs <- list_eq face_eq (cl_faces a) (cl_faces b);
  Ok ((cl_type a =? cl_type b) && (cl_facenum a =? cl_facenum b) && fs &&
      (cl_vertnum a =? cl_vertnum b) && list_eqb (vec3_eqb A) (cl_vertices a) (cl_vertices b) &&
      list_eqb Z.eqb (cl_vertids a) (cl_vertids b) &&
      vec3_eqb A (cl_min a) (cl_min b) && vec3_eqb A (cl_max a) (cl_max b) && (cl_u7 a =? cl_u7 b) &&
      vec3_eqb A (cl_bmin a) (cl_bmin b) && vec3_eqb A (cl_bmax a) (cl_bmax b) &&
      (cl_ynum a =? cl_ynum b) && list_eqb ystruct_eqb (cl_ydata a) (cl_ydata b) &&
      (cl_znum a =? cl_znum b) && list_eqb Z.eqb (cl_zdata a) (cl_zdata b) &&
      (cl_anum a =? cl_anum b) && list_eqb Z.eqb (cl_adata a) (cl_adata b)).

(** bf2colsubgeom.__eq__, modcolmesh.py:365-372. *)
Definition colsub_eq (a b : colsub F colface) : res bool :=
  do ls <- list_eq collod_eq (cs_lods a) (cs_lods b);
  Ok ((cs_lodnum a =? cs_lodnum b) && ls).
(** bf2colgeom.__eq__, modcolmesh.py:397-404. *)
Definition colgeom_eq (a b : colgeom F colface) : res bool :=
  do ss <- list_eq colsub_eq (cg_subs a) (cg_subs b);
  Ok ((cg_subnum a =? cg_subnum b) && ss).
End Eq.
