(** Specification vocabulary for collision meshes. *)
From Coq Require Import ZArith List Bool.
From Verif Require Import PyBase Struct Mesh Arith Spec SpecBounds Col.
Import ListNotations.
Open Scope Z_scope.

(** ** Applying functions to every float and to every face *)
Section Map.
Context {F G R S : Type} (f : F -> G) (g : R -> S).
Definition ystruct_map (y : ystruct F) : ystruct G :=
  {| y_u1 := f (y_u1 y); y_u2 := y_u2 y; y_u3 := y_u3 y; y_u4 := y_u4 y; y_u5 := y_u5 y |}.
Definition collod_map (l : collod F R) : collod G S :=
  {| cl_type := cl_type l; cl_facenum := cl_facenum l; cl_faces := map g (cl_faces l);
     cl_vertnum := cl_vertnum l; cl_vertices := map (vec3_map f) (cl_vertices l); cl_vertids := cl_vertids l;
     cl_min := vec3_map f (cl_min l); cl_max := vec3_map f (cl_max l); cl_u7 := cl_u7 l;
     cl_bmin := vec3_map f (cl_bmin l); cl_bmax := vec3_map f (cl_bmax l);
     cl_ynum := cl_ynum l; cl_ydata := map ystruct_map (cl_ydata l);
     cl_znum := cl_znum l; cl_zdata := cl_zdata l; cl_anum := cl_anum l; cl_adata := cl_adata l |}.
Definition colsub_map (s : colsub F R) : colsub G S :=
  {| cs_lodnum := cs_lodnum s; cs_lods := map collod_map (cs_lods s) |}.
Definition colgeom_map (s : colgeom F R) : colgeom G S :=
  {| cg_subnum := cg_subnum s; cg_subs := map colsub_map (cg_subs s) |}.
Definition colmesh_map (m : colmesh F R) : colmesh G S :=
  {| cm_u1 := cm_u1 m; cm_version := cm_version m; cm_geomnum := cm_geomnum m;
     cm_geoms := map colgeom_map (cm_geoms m) |}.
End Map.
(** Changing the faces only. *)
Definition faces_map {F R S} (g : R -> S) : colmesh F R -> colmesh F S := colmesh_map (fun x => x) g.

(** ** Everything in a mesh *)
Definition geom_lods {F R} (g : colgeom F R) : list (collod F R) := flat_map cs_lods (cg_subs g).
Definition col_lods {F R} (m : colmesh F R) : list (collod F R) := flat_map geom_lods (cm_geoms m).
Definition col_faces {F R} (m : colmesh F R) : list R := flat_map cl_faces (col_lods m).
(** Every float of the mesh satisfies [P]. *)
Definition collod_all {F R} (P : F -> Prop) (l : collod F R) : Prop :=
  Forall (vec3_all P) (cl_vertices l) /\
  vec3_all P (cl_min l) /\ vec3_all P (cl_max l) /\ vec3_all P (cl_bmin l) /\ vec3_all P (cl_bmax l) /\
  Forall (fun y => P (y_u1 y)) (cl_ydata l).
Definition col_all {F R} (P : F -> Prop) (m : colmesh F R) : Prop := Forall (collod_all P) (col_lods m).

(** ** Consistency: what the file format can represent *)
Definition is_sshort (z : Z) : Prop := -32768 <= z < 32768.
Section Wf.
Context {F : Type} (p : plat).
(** A negative count in a file is accepted and means none. *)
Definition counted0 {A} (n : Z) (l : list A) : Prop := is_long p n /\ length l = Z.to_nat n.
Definition wf_face (f : colface) : Prop :=
  is_sshort (cf_v1 f) /\ is_sshort (cf_v2 f) /\ is_sshort (cf_v3 f) /\ is_sshort (cf_material f).
Definition wf_ystruct (y : ystruct F) : Prop :=
  is_sshort (y_u2 y) /\ is_sshort (y_u3 y) /\ is_long p (y_u4 y) /\ is_long p (y_u5 y).
Definition wf_collod (version : Z) (l : collod F colface) : Prop :=
  (if 9 <=? version then 0 <= cl_type l <= 4 else cl_type l = 0) /\
  counted0 (cl_facenum l) (cl_faces l) /\ Forall wf_face (cl_faces l) /\
  counted0 (cl_vertnum l) (cl_vertices l) /\
  length (cl_vertids l) = Z.to_nat (cl_vertnum l) /\ Forall is_sshort (cl_vertids l) /\
  -128 <= cl_u7 l < 128 /\
  counted0 (cl_ynum l) (cl_ydata l) /\ Forall wf_ystruct (cl_ydata l) /\
  counted0 (cl_znum l) (cl_zdata l) /\ Forall is_sshort (cl_zdata l) /\
  (if 10 <=? version then counted0 (cl_anum l) (cl_adata l) /\ Forall (is_long p) (cl_adata l)
   else cl_anum l = 0 /\ cl_adata l = []).
Definition wf_colsub (version : Z) (s : colsub F colface) : Prop :=
  counted0 (cs_lodnum s) (cs_lods s) /\ Forall (wf_collod version) (cs_lods s).
Definition wf_colgeom (version : Z) (g : colgeom F colface) : Prop :=
  counted0 (cg_subnum g) (cg_subs g) /\ Forall (wf_colsub version) (cg_subs g).
Definition wf_col (m : colmesh F colface) : Prop :=
  is_long p (cm_u1 m) /\ is_long p (cm_version m) /\
  counted0 (cm_geomnum m) (cm_geoms m) /\ Forall (wf_colgeom (cm_version m)) (cm_geoms m).
End Wf.

(** ** Faces *)
(** A face just read with material [n]. *)
Definition read_with (n : Z) (f : colface) : Prop := cf_material f = 0 /\ cf_m f = Some n.
(** The face that [f] becomes when it is saved and read back. *)
Definition reread (f : colface) : colface :=
  {| cf_v1 := cf_v1 f; cf_v2 := cf_v2 f; cf_v3 := cf_v3 f; cf_material := 0; cf_m := Some (cf_material f) |}.
(** The same with the material of the file kept, which the code does not do. *)
Definition restored (f : colface) : colface :=
  {| cf_v1 := cf_v1 f; cf_v2 := cf_v2 f; cf_v3 := cf_v3 f;
     cf_material := match cf_m f with Some n => n | None => cf_material f end; cf_m := cf_m f |}.

(** ** Merging *)
(** The face with its three vertex numbers increased. *)
Definition shifted (n : Z) (f : colface) : colface :=
  {| cf_v1 := cf_v1 f + n; cf_v2 := cf_v2 f + n; cf_v3 := cf_v3 f + n;
     cf_material := cf_material f; cf_m := cf_m f |}.
Definition lod_shifted {F} (l : collod F colface) : collod F colface :=
  collod_map (fun x => x) (shifted (cl_vertnum l)) l.

(** What a mesh looks like in a heap of faces, and where its faces are. *)
Definition deref (h : list colface) (a : nat) : colface := nth a h face0.
Definition view {F} (h : list colface) (m : colmesh F nat) : colmesh F colface := faces_map (deref h) m.
Definition lod_view {F} (h : list colface) (l : collod F nat) : collod F colface := collod_map (fun x => x) (deref h) l.
(** [b]'s faces are distinct objects of the heap, and none of them is one of [a]'s. *)
Definition apart (h : list colface) (a b : list nat) : Prop :=
  NoDup b /\ Forall (fun x => (x < length h)%nat) b /\ Forall (fun x => ~ In x b) a.

(** [c] is [a] with the contents of [b] appended, the faces of [b] shifted by [b]'s own
    vertex count (which is what the code does). *)
Definition lod_merged {F} (a b c : collod F colface) : Prop :=
  cl_type c = cl_type a /\ cl_u7 c = cl_u7 a /\
  cl_facenum c = cl_facenum a + cl_facenum b /\
  cl_faces c = cl_faces a ++ map (shifted (cl_vertnum b)) (cl_faces b) /\
  cl_vertnum c = cl_vertnum a + cl_vertnum b /\
  cl_vertices c = cl_vertices a ++ cl_vertices b /\ cl_vertids c = cl_vertids a ++ cl_vertids b /\
  cl_ynum c = cl_ynum a + cl_ynum b /\ cl_ydata c = cl_ydata a ++ cl_ydata b /\
  cl_znum c = cl_znum a + cl_znum b /\ cl_zdata c = cl_zdata a ++ cl_zdata b /\
  cl_anum c = cl_anum a + cl_anum b /\ cl_adata c = cl_adata a ++ cl_adata b.
(** Position by position; what [a] has beyond [b] stays. *)
Inductive each_merged {X} (M : X -> X -> X -> Prop) : list X -> list X -> list X -> Prop :=
| each_rest xs : each_merged M xs [] xs
| each_one x y z xs ys zs : M x y z -> each_merged M xs ys zs -> each_merged M (x :: xs) (y :: ys) (z :: zs).
Definition sub_merged {F} (a b c : colsub F colface) : Prop :=
  cs_lodnum c = cs_lodnum a /\ each_merged lod_merged (cs_lods a) (cs_lods b) (cs_lods c).
Definition geom_merged {F} (a b c : colgeom F colface) : Prop :=
  cg_subnum c = cg_subnum a /\ each_merged sub_merged (cg_subs a) (cg_subs b) (cg_subs c).
Definition col_merged {F} (a b c : colmesh F colface) : Prop :=
  cm_u1 c = cm_u1 a /\ cm_version c = cm_version a /\ cm_geomnum c = cm_geomnum a /\
  each_merged geom_merged (cm_geoms a) (cm_geoms b) (cm_geoms c).
(** [b] has nowhere more parts than [a]. *)
Inductive each_within {X} (M : X -> X -> Prop) : list X -> list X -> Prop :=
| within_rest xs : each_within M xs []
| within_one x y xs ys : M x y -> each_within M xs ys -> each_within M (x :: xs) (y :: ys).
Definition sub_within {F R} (a b : colsub F R) : Prop := each_within (fun _ _ => True) (cs_lods a) (cs_lods b).
Definition geom_within {F R} (a b : colgeom F R) : Prop := each_within sub_within (cg_subs a) (cg_subs b).
Definition within {F R} (a b : colmesh F R) : Prop := each_within geom_within (cm_geoms a) (cm_geoms b).
(** Every face of the mesh shifted by the vertex count of its lod. *)
Definition mesh_shifted {F} (m : colmesh F colface) : colmesh F colface :=
  {| cm_u1 := cm_u1 m; cm_version := cm_version m; cm_geomnum := cm_geomnum m;
     cm_geoms := map (fun g => {| cg_subnum := cg_subnum g;
       cg_subs := map (fun s => {| cs_lodnum := cs_lodnum s;
         cs_lods := map lod_shifted (cs_lods s) |}) (cg_subs g) |}) (cm_geoms m) |}.

(** The three corners of a face in the vertices of its lod. *)
Definition corner {F} (vs : list (vec3 F)) (n : Z) : option (vec3 F) :=
  if n <? 0 then None else nth_error vs (Z.to_nat n).
Definition corners {F} (l : collod F colface) (f : colface) : option (vec3 F) * option (vec3 F) * option (vec3 F) :=
  (corner (cl_vertices l) (cf_v1 f), corner (cl_vertices l) (cf_v2 f), corner (cl_vertices l) (cf_v3 f)).
Definition triangles {F} (l : collod F colface) := map (corners l) (cl_faces l).
Definition faces_ok {F} (l : collod F colface) : Prop :=
  cl_vertnum l = zlen (cl_vertices l) /\
  Forall (fun f => 0 <= cf_v1 f < cl_vertnum l /\ 0 <= cf_v2 f < cl_vertnum l /\ 0 <= cf_v3 f < cl_vertnum l) (cl_faces l).

(** [lo'], [hi'] is the smallest box that contains [lo], [hi] and the points. *)
Definition grown {F} (A : arith F) (pts : list (vec3 F)) (lo hi lo' hi' : vec3 F) : Prop :=
  forall i, In i axes ->
    fle A (axis i lo') (axis i lo) /\ fle A (axis i hi) (axis i hi') /\
    (forall q, In q pts -> fle A (axis i lo') (axis i q) /\ fle A (axis i q) (axis i hi')) /\
    (axis i lo' = axis i lo \/ exists q, In q pts /\ axis i q = axis i lo') /\
    (axis i hi' = axis i hi \/ exists q, In q pts /\ axis i q = axis i hi').

(** Stored counts that are the lengths of the lists. *)
Definition exact_lod {F R} (l : collod F R) : Prop :=
  cl_facenum l = zlen (cl_faces l) /\ cl_vertnum l = zlen (cl_vertices l) /\
  cl_ynum l = zlen (cl_ydata l) /\ cl_znum l = zlen (cl_zdata l) /\ cl_anum l = zlen (cl_adata l).
(** Counts and vertex numbers that the file format has room for. *)
Definition lod_fits {F} (p : plat) (l : collod F colface) : Prop :=
  is_long p (cl_facenum l) /\ is_long p (cl_vertnum l) /\ is_long p (cl_ynum l) /\
  is_long p (cl_znum l) /\ is_long p (cl_anum l) /\ Forall wf_face (cl_faces l).
(** [v'] is [v] moved by [o]. *)
Definition moved {F} (A : arith F) (o v v' : vec3 F) : Prop :=
  forall i, In i axes -> axis i v' = f_add A (axis i v) (axis i o).
(** [l'] is [l] with its vertices moved and nothing else changed, bounds included. *)
Definition lod_moved {F R} (A : arith F) (o : vec3 F) (l l' : collod F R) : Prop :=
  Forall2 (moved A o) (cl_vertices l) (cl_vertices l') /\
  cl_type l' = cl_type l /\ cl_facenum l' = cl_facenum l /\ cl_faces l' = cl_faces l /\
  cl_vertnum l' = cl_vertnum l /\ cl_vertids l' = cl_vertids l /\
  cl_min l' = cl_min l /\ cl_max l' = cl_max l /\ cl_u7 l' = cl_u7 l /\ cl_bmin l' = cl_bmin l /\ cl_bmax l' = cl_bmax l /\
  cl_ynum l' = cl_ynum l /\ cl_ydata l' = cl_ydata l /\ cl_znum l' = cl_znum l /\ cl_zdata l' = cl_zdata l /\
  cl_anum l' = cl_anum l /\ cl_adata l' = cl_adata l.
(** The stored box contains the vertices. *)
Definition collod_boxed {F R} (A : arith F) (l : collod F R) : Prop :=
  forall q, In q (cl_vertices l) -> between A (cl_min l) q (cl_max l).
