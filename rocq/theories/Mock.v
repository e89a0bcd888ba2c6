(** deprecated/mock_mesh.py: the two meshes that the old tests build in memory.

    The float literals are multiples of one half or negative zero: [lit] keeps them and
    [num] gives them a value in the type of floats. The enum members of the attribute
    table are IntEnums and stand for their numbers (modmesh.py:13-57). *)
From Coq Require Import ZArith List Bool Ascii String.
From Verif Require Import PyBase Struct Mesh Arith Edit OldEdit Old Obj Col.
Import ListNotations.
Open Scope Z_scope.
Open Scope res_scope.

(** [Hf n]: the literal n/2; [Nz]: -0.0. *)
Inductive lit := Hf (n : Z) | Nz.

(** Box._create_vertattrib_table, lines 206-213: the loop; [stride] is vertstride so far.
    An entry of the table is (flag, type, usage). *)
Fixpoint mock_attribs (format stride : Z) (table : list (Z * Z * Z)) : res (list vertattrib) :=
  match table with
  | [] => Ok []
  | (f, t, u) :: rest =>
      do n <- old_type_len t;
      do l <- mock_attribs format (stride + n * format) rest;
      Ok ({| flag := f; offset := stride; vartype := t; usage := u |} :: l)
  end.
(** Box._create_vertstride, lines 215-216. *)
Definition mock_stride (format : Z) (l : list vertattrib) : res Z :=
  do ns <- map_res (fun a => if old_known_type (vartype a) then do n <- old_type_len (vartype a); Ok (n * format)
                             else Raise EValue) l;
  Ok (fold_left Z.add ns 0).
(** The loop at the end of Box._create_vertices, lines 391-398: the numbers of vertex i
    are row i of every table. *)
Definition mock_vertices {F} (positions : list (list F)) (others : list (list (list F))) : res (list F) :=
  do l <- map_res (fun i => do rows <- map_res (fun t => py_get t i) (positions :: others); Ok (List.concat rows))
                  (zrange (zlen positions));
  Ok (List.concat l).

Section Box.
Context {F : Type} (num : lit -> F).
Local Notation rows l := (map (map num) l).

(** Box._create_vertattrib_table, lines 193-203. *)
Definition box_table : list (Z * Z * Z) := [(0, 2, 0); (0, 2, 3); (0, 4, 2); (0, 1, 5); (0, 2, 6)].

(** Box._create_vertices, lines 221-390: positions, normals, blend_indices, uv1 and tangents. *)
Definition box_positions : list (list lit) :=
  [ [Hf 1; Hf 2; Hf (-1)]; [Hf 1; Hf 0; Hf (-1)]; [Hf (-1); Hf 0; Hf (-1)];
    [Hf (-1); Hf 2; Hf (-1)]; [Hf 1; Hf 2; Hf 1]; [Hf (-1); Hf 2; Hf 1];
    [Hf (-1); Nz; Hf 1]; [Hf 1; Nz; Hf 1]; [Hf 1; Hf 2; Hf (-1)];
    [Hf 1; Hf 2; Hf 1]; [Hf 1; Nz; Hf 1]; [Hf 1; Nz; Hf (-1)];
    [Hf 1; Nz; Hf (-1)]; [Hf 1; Nz; Hf 1]; [Hf (-1); Nz; Hf 1];
    [Hf (-1); Nz; Hf (-1)]; [Hf (-1); Nz; Hf (-1)]; [Hf (-1); Nz; Hf 1];
    [Hf (-1); Hf 2; Hf 1]; [Hf (-1); Hf 2; Hf (-1)]; [Hf 1; Hf 2; Hf 1];
    [Hf 1; Hf 2; Hf (-1)]; [Hf (-1); Hf 2; Hf (-1)]; [Hf (-1); Hf 2; Hf 1] ].
Definition box_normals : list (list lit) :=
  [ [Hf 0; Hf 0; Hf (-2)]; [Hf 0; Hf 0; Hf (-2)]; [Hf 0; Hf 0; Hf (-2)];
    [Hf 0; Hf 0; Hf (-2)]; [Hf 0; Nz; Hf 2]; [Hf 0; Nz; Hf 2];
    [Hf 0; Nz; Hf 2]; [Hf 0; Nz; Hf 2]; [Hf 2; Nz; Hf 0];
    [Hf 2; Nz; Hf 0]; [Hf 2; Nz; Hf 0]; [Hf 2; Nz; Hf 0];
    [Nz; Hf (-2); Nz]; [Nz; Hf (-2); Nz]; [Nz; Hf (-2); Nz];
    [Nz; Hf (-2); Nz]; [Hf (-2); Hf 0; Nz]; [Hf (-2); Hf 0; Nz];
    [Hf (-2); Hf 0; Nz]; [Hf (-2); Hf 0; Nz]; [Hf 0; Hf 2; Hf 0];
    [Hf 0; Hf 2; Hf 0]; [Hf 0; Hf 2; Hf 0]; [Hf 0; Hf 2; Hf 0] ].
(** 27 rows for 24 vertices. *)
Definition box_blend_indices : list (list lit) := repeat [Hf 0] 27.
Definition box_uv1 : list (list lit) :=
  [ [Hf 0; Hf 2]; [Hf 2; Hf 2]; [Hf 2; Hf 0];
    [Hf 0; Hf 0]; [Hf 0; Hf 1]; [Hf 2; Hf 1];
    [Hf 2; Hf 3]; [Hf 0; Hf 3]; [Hf 1; Hf 1];
    [Hf 1; Hf 2]; [Hf 0; Hf 2]; [Hf 0; Hf 1];
    [Hf 1; Hf 0]; [Hf 1; Hf 1]; [Hf 0; Hf 1];
    [Hf 0; Hf 0]; [Hf 2; Hf 1]; [Hf 2; Hf 0];
    [Hf 1; Hf 0]; [Hf 1; Hf 1]; [Hf 1; Hf 2];
    [Hf 1; Hf 1]; [Hf 2; Hf 1]; [Hf 2; Hf 2] ].
Definition box_tangents : list (list lit) :=
  [ [Hf 2; Hf 0; Hf 0]; [Hf 2; Hf 0; Hf 0]; [Hf 0; Hf 0; Hf 0];
    [Hf 0; Hf 0; Hf 0]; [Hf 1; Hf 0; Hf 0]; [Hf 1; Hf 0; Hf 0];
    [Hf 3; Hf 0; Hf 0]; [Hf 3; Hf 0; Hf 0]; [Hf 1; Hf 0; Hf 0];
    [Hf 2; Hf 0; Hf 0]; [Hf 2; Hf 0; Hf 0]; [Hf 1; Hf 0; Hf 0];
    [Hf 0; Hf 0; Hf 0]; [Hf 1; Hf 0; Hf 0]; [Hf 1; Hf 0; Hf 0];
    [Hf 0; Hf 0; Hf 0]; [Hf 1; Hf 0; Hf 0]; [Hf 0; Hf 0; Hf 0];
    [Hf 0; Hf 0; Hf 0]; [Hf 1; Hf 0; Hf 0]; [Hf 2; Hf 0; Hf 0];
    [Hf 1; Hf 0; Hf 0]; [Hf 1; Hf 0; Hf 0]; [Hf 2; Hf 0; Hf 0] ].
(** Box._create_index, lines 400-443. *)
Definition box_index : list Z :=
  [22; 23; 20; 20; 21; 22; 18; 19; 16; 16; 17; 18; 14; 15; 12; 12; 13; 14; 10; 11; 8; 8; 9; 10; 6; 7; 4; 4; 5; 6; 2; 3; 0; 0; 1; 2].

Definition box_vec (a b c : lit) : vec3 F := (num a, num b, num c).
(** Box._create_materials, lines 464-489. *)
Definition box_mat : mat F :=
  {| alphamode := Some 0; fxfile := of_string "StaticMesh.fx"; technique := of_string "Base";
     mapnum := 1; maps := [of_string "default.dds"]; vstart := 0; istart := 0; inum := 36; vnum := 24;
     mat_u4 := 0; mat_u5 := 0;
     mmin := Some (box_vec (Hf (-2)) (Hf (-2)) (Hf (-2))); mmax := Some (box_vec (Hf 2) (Hf 2) (Hf 2)) |}.
(** Box._create_nodes, lines 449-462: bf2lod.__init__ gives no pivot and no rigs (rignum is None, see Old.v). *)
Definition box_lod : lod F :=
  {| lod_min := Some (box_vec (Hf (-2)) (Hf (-2)) (Hf (-2))); lod_max := Some (box_vec (Hf 2) (Hf 2) (Hf 2)); pivot := None;
     rignum := 0; rigs := []; nodenum := 1;
     nodes := [[map num [Hf 2; Hf 0; Hf 0; Hf 0]; map num [Hf 0; Hf 2; Hf 0; Hf 0];
                map num [Hf 0; Hf 0; Hf 2; Hf 0]; map num [Hf 0; Hf 0; Hf 0; Hf 2]]];
     matnum := 1; materials := [box_mat] |}.
(** Box(), lines 153-190 and 446-447. The flags of VisMesh keep their defaults. *)
Definition box : res (mesh F) :=
  do attribs <- mock_attribs 4 0 box_table;
  do stride <- mock_stride 4 attribs;
  do verts <- mock_vertices (rows box_positions)
                [rows box_normals; rows box_blend_indices; rows box_uv1; rows box_tangents];
  Ok {| m_kind := {| isSkinnedMesh := false; isBundledMesh := false; isStaticMesh := false; isCollisionMesh := false |};
        m_head := {| h_u1 := 0; h_version := 11; h_u3 := 0; h_u4 := 0; h_u5 := 0 |}; m_u1 := 0;
        geomnum := 1; geoms := [{| lodnum := 1; lods := [box_lod] |}];
        vertattribnum := zlen box_table; vertex_attributes := attribs; vertformat := 4; vertstride := stride;
        vertnum := zlen box_positions; vertices := verts;
        indexnum := zlen box_index; index := Tuple box_index; m_u2 := 8 |}.

(** ** ColBox *)
(** ColBox.__create_faces, lines 48-81; bf2colface.__init__ stores the fourth number as [material]. *)
Definition colbox_faces : list (Z * Z * Z) :=
  [(0, 1, 2); (2, 3, 0); (1, 4, 5); (5, 2, 1); (4, 6, 7); (7, 5, 4); (6, 0, 3); (3, 7, 6); (4, 1, 0); (0, 6, 4); (5, 7, 3); (3, 2, 5); (8, 9, 10); (10, 11, 8); (9, 12, 13); (13, 10, 9); (12, 14, 15); (15, 13, 12); (14, 8, 11); (11, 15, 14); (12, 9, 8); (8, 14, 12); (13, 15, 11); (11, 10, 13)].
(** ColBox.__create_vertices, lines 102-125. *)
Definition colbox_vertices : list (lit * lit * lit) :=
  [ (Hf (-1), Hf 2, Hf (-1)); (Hf (-1), Hf 2, Hf 1); (Hf (-1), Hf 0, Hf 1); (Hf (-1), Hf 0, Hf (-1));
    (Hf 1, Hf 2, Hf 1); (Hf 1, Hf 0, Hf 1); (Hf 1, Hf 2, Hf (-1)); (Hf 1, Hf 0, Hf (-1));
    (Hf (-5), Hf 2, Hf (-1)); (Hf (-5), Hf 2, Hf 1); (Hf (-5), Hf 0, Hf 1); (Hf (-5), Hf 0, Hf (-1));
    (Hf (-3), Hf 2, Hf 1); (Hf (-3), Hf 0, Hf 1); (Hf (-3), Hf 2, Hf (-1)); (Hf (-3), Hf 0, Hf (-1)) ].
Definition vec_of (v : lit * lit * lit) : vec3 F := let '(a, b, c) := v in box_vec a b c.
(** ColBox.__create_lod, __create_bounds and __create_unknowns, lines 36-46, 89-100 and 127-146. *)
Definition colbox_lod (ct : Z) : collod F colface :=
  {| cl_type := ct; cl_facenum := zlen colbox_faces;
     cl_faces := map (fun f => let '(a, b, c) := f in {| cf_v1 := a; cf_v2 := b; cf_v3 := c; cf_material := 0; cf_m := None |}) colbox_faces;
     cl_vertnum := zlen colbox_vertices; cl_vertices := map vec_of colbox_vertices;
     cl_vertids := map (fun _ => 0) colbox_vertices;
     cl_min := box_vec (Hf (-1)) (Hf 0) (Hf (-1)); cl_max := box_vec (Hf 1) (Hf 2) (Hf 1); cl_u7 := 49;
     cl_bmin := box_vec (Hf (-1)) (Hf 0) (Hf (-1)); cl_bmax := box_vec (Hf 1) (Hf 2) (Hf 1);
     cl_ynum := 3; cl_ydata := map (fun u => {| y_u1 := num u; y_u2 := 0; y_u3 := 0; y_u4 := 0; y_u5 := 0 |}) [Hf (-1); Hf 1; Hf 0];
     cl_znum := 0; cl_zdata := []; cl_anum := 0; cl_adata := [] |}.
(** ColBox(), lines 10-34: one lod for each of the five collision types. *)
Definition colbox : colmesh F colface :=
  {| cm_u1 := 0; cm_version := 10; cm_geomnum := 1;
     cm_geoms := [{| cg_subnum := 1; cg_subs := [{| cs_lodnum := 5; cs_lods := map colbox_lod [0; 1; 2; 3; 4] |}] |}] |}.
End Box.
