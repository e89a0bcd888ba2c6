(** Specification vocabulary for duplicating a collision mesh. *)
From Coq Require Import ZArith List Bool Reals.
From Verif Require Import PyBase Struct Mesh Arith RArith Spec SpecBounds Col SpecCol.
Import ListNotations.

(** The faces of a mesh in a heap are objects of their own. *)
Definition own_faces {F} (h : list colface) (m : colmesh F nat) : Prop :=
  NoDup (col_faces m) /\ Forall (fun a => (a < length h)%nat) (col_faces m).

(** The same triangle with every corner moved by [f]. *)
Definition tri_map {F} (f : vec3 F -> vec3 F) (t : option (vec3 F) * option (vec3 F) * option (vec3 F)) :=
  let '(p, q, r) := t in (option_map f p, option_map f q, option_map f r).

(** [l'] is [l] and [l] again, the first moved by [f] and the second by [g]: vertices,
    triangles and materials of the faces are there twice, all counts are doubled. *)
Definition lod_twice {F} (f g : vec3 F -> vec3 F) (l l' : collod F colface) : Prop :=
  cl_vertices l' = map f (cl_vertices l) ++ map g (cl_vertices l) /\
  triangles l' = map (tri_map f) (triangles l) ++ map (tri_map g) (triangles l) /\
  map cf_material (cl_faces l') = map cf_material (cl_faces l) ++ map cf_material (cl_faces l) /\
  cl_type l' = cl_type l /\ cl_u7 l' = cl_u7 l /\
  cl_facenum l' = (2 * cl_facenum l)%Z /\ cl_vertnum l' = (2 * cl_vertnum l)%Z /\
  cl_ynum l' = (2 * cl_ynum l)%Z /\ cl_znum l' = (2 * cl_znum l)%Z /\ cl_anum l' = (2 * cl_anum l)%Z /\
  cl_vertids l' = cl_vertids l ++ cl_vertids l /\ cl_ydata l' = cl_ydata l ++ cl_ydata l /\
  cl_zdata l' = cl_zdata l ++ cl_zdata l /\ cl_adata l' = cl_adata l ++ cl_adata l.

(** A box on reals that has the origin in its middle. *)
Definition centred (lo hi : vec3 R) : Prop := forall i, In i axes -> (axis i lo + axis i hi = 0)%R.

(** The same header, stored counts and shape, and each lod related to the one in its place. *)
Definition mesh_rel {F} (P : collod F colface -> collod F colface -> Prop) (m m' : colmesh F colface) : Prop :=
  cm_u1 m' = cm_u1 m /\ cm_version m' = cm_version m /\ cm_geomnum m' = cm_geomnum m /\
  Forall2 (fun g g' => cg_subnum g' = cg_subnum g /\
    Forall2 (fun s s' => cs_lodnum s' = cs_lodnum s /\ Forall2 P (cs_lods s) (cs_lods s')) (cg_subs g) (cg_subs g'))
  (cm_geoms m) (cm_geoms m').

(** The first lod of a mesh. *)
Definition first_lod {F R} (m : colmesh F R) (l : collod F R) : Prop :=
  exists g gs s ss ls, cm_geoms m = g :: gs /\ cg_subs g = s :: ss /\ cs_lods s = l :: ls.

(** What a lod of the result looks like: [l] twice, its boxes stretched around both
    before the final move and not moved. *)
Definition lod_duplicated {F} (A : arith F) (d c : vec3 F) (l l' : collod F colface) : Prop :=
  lod_twice (fun v => vec_add A v c) (fun v => vec_add A (vec_add A v d) c) l l' /\
  grown A (cl_vertices l ++ map (fun v => vec_add A v d) (cl_vertices l)) (cl_min l) (cl_max l) (cl_min l') (cl_max l') /\
  grown A (cl_vertices l ++ map (fun v => vec_add A v d) (cl_vertices l)) (cl_bmin l) (cl_bmax l) (cl_bmin l') (cl_bmax l').
