(** The layout of a collision mesh file, with the fields of SpecFormat.v. Floats are
    32-bit patterns. *)
From Coq Require Import ZArith List Bool.
From Verif Require Import PyBase Struct Mesh Col SpecFormat.
Import ListNotations.
Open Scope Z_scope.

Definition vec_fields (v : vec3 Z) : list field := let '(x, y, z) := v in [FFloat x; FFloat y; FFloat z].
Definition face_fields (f : colface) : list field :=
  [FSShort (cf_v1 f); FSShort (cf_v2 f); FSShort (cf_v3 f); FSShort (cf_material f)].
Definition y_fields (y : ystruct Z) : list field :=
  [FFloat (y_u1 y); FSShort (y_u2 y); FSShort (y_u3 y); FLong (y_u4 y); FLong (y_u5 y)].

(** The type from version 9, the last table from version 10. *)
Definition collod_fields (version : Z) (l : collod Z colface) : list field :=
  (if version <? 9 then [] else [FLong (cl_type l)]) ++
  FLong (cl_facenum l) :: flat_map face_fields (cl_faces l) ++
  FLong (cl_vertnum l) :: flat_map vec_fields (cl_vertices l) ++ map FSShort (cl_vertids l) ++
  vec_fields (cl_min l) ++ vec_fields (cl_max l) ++ FChar (cl_u7 l) ::
  vec_fields (cl_bmin l) ++ vec_fields (cl_bmax l) ++
  FLong (cl_ynum l) :: flat_map y_fields (cl_ydata l) ++
  FLong (cl_znum l) :: map FSShort (cl_zdata l) ++
  (if version <? 10 then [] else FLong (cl_anum l) :: map FLong (cl_adata l)).

Definition col_fields (m : colmesh Z colface) : list field :=
  FLong (cm_u1 m) :: FLong (cm_version m) :: FLong (cm_geomnum m) ::
  flat_map (fun g => FLong (cg_subnum g) ::
    flat_map (fun s => FLong (cs_lodnum s) :: flat_map (collod_fields (cm_version m)) (cs_lods s)) (cg_subs g))
    (cm_geoms m).
