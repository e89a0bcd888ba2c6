(** The mesh classes of bf2mesh/visiblemesh.py as records, the loader
    (VisibleMesh.__load) and the serialiser (VisibleMesh.__export).

    [F] is the type of Python floats. Attributes that are [None] before loading
    and may stay [None] afterwards are options; attributes that every load sets
    are plain values (objects exist only after a successful load, see Obj.v).
    Tuples and lists are both Coq lists: the code only iterates, slices and
    indexes them. [_bf2lod.sample] (visiblemesh.py:811) is never assigned and is
    left out. logging calls are left out except where evaluating their arguments
    can raise (those are modelled). *)
From Coq Require Import ZArith List Bool Ascii.
From Verif Require Import PyBase Struct.
Import ListNotations.
Open Scope Z_scope.
Open Scope res_scope.

(** The four flags of BF2Mesh, mesh.py:12-20. *)
Record kind := { isSkinnedMesh : bool; isBundledMesh : bool;
                 isStaticMesh : bool; isCollisionMesh : bool }.

(** _bf2head, visiblemesh.py:597-607. *)
Record head := { h_u1 : Z; h_version : Z; h_u3 : Z; h_u4 : Z; h_u5 : Z }.

(** _bf2vertattrib, visiblemesh.py:951-961. *)
Record vertattrib := { flag : Z; offset : Z; vartype : Z; usage : Z }.

Section Types.
Context (F : Type).
Definition vec3 : Type := F * F * F.
Definition matrix4 : Type := list (list F).

(** _bf2bone, visiblemesh.py:936-940. *)
Record bone := { bone_id : Z; bone_matrix : matrix4 }.
(** _bf2rig, visiblemesh.py:906-909. *)
Record rig := { bonenum : Z; bones : list bone }.
(** _bf2mat, visiblemesh.py:645-667. *)
Record mat := { alphamode : option Z; fxfile : bytes; technique : bytes;
                mapnum : Z; maps : list bytes;
                vstart : Z; istart : Z; inum : Z; vnum : Z;
                mat_u4 : Z; mat_u5 : Z;
                mmin : option vec3; mmax : option vec3 }.
(** _bf2lod, visiblemesh.py:789-811. *)
Record lod := { lod_min : option vec3; lod_max : option vec3; pivot : option vec3;
                rignum : Z; rigs : list rig;
                nodenum : Z; nodes : list matrix4;
                matnum : Z; materials : list mat }.
(** _bf2geom, visiblemesh.py:766-773. *)
Record geom := { lodnum : Z; lods : list lod }.

(** VisibleMesh's mesh data and flags, visiblemesh.py:38-66. [index] is a bare int
    when the file has exactly one index (see [pyseq]). *)
Record mesh := { m_kind : kind;
                 m_head : head; m_u1 : Z;
                 geomnum : Z; geoms : list geom;
                 vertattribnum : Z; vertex_attributes : list vertattrib;
                 vertformat : Z; vertstride : Z;
                 vertnum : Z; vertices : list F;
                 indexnum : Z; index : pyseq Z;
                 m_u2 : Z }.
End Types.
Arguments bone_id {F}. Arguments bone_matrix {F}.
Arguments bonenum {F}. Arguments bones {F}.
Arguments alphamode {F}. Arguments fxfile {F}. Arguments technique {F}.
Arguments mapnum {F}. Arguments maps {F}.
Arguments vstart {F}. Arguments istart {F}. Arguments inum {F}. Arguments vnum {F}.
Arguments mat_u4 {F}. Arguments mat_u5 {F}. Arguments mmin {F}. Arguments mmax {F}.
Arguments lod_min {F}. Arguments lod_max {F}. Arguments pivot {F}.
Arguments rignum {F}. Arguments rigs {F}. Arguments nodenum {F}. Arguments nodes {F}.
Arguments matnum {F}. Arguments materials {F}.
Arguments lodnum {F}. Arguments lods {F}.
Arguments m_kind {F}. Arguments m_head {F}. Arguments m_u1 {F}.
Arguments geomnum {F}. Arguments geoms {F}.
Arguments vertattribnum {F}. Arguments vertex_attributes {F}.
Arguments vertformat {F}. Arguments vertstride {F}. Arguments vertnum {F}.
Arguments vertices {F}. Arguments indexnum {F}. Arguments index {F}. Arguments m_u2 {F}.

(** [int(self.vertstride / self.vertformat * self.vertnum)], visiblemesh.py:165. *)
Definition data_num (stride format num : Z) : res Z :=
  do q <- py_truediv stride format;
  do x <- py_fmul_int q num;
  py_int x.

Section Load.
Context {F : Type} (p : plat) (unpackf : Z -> F).
Notation read_long := (read_long p).
Notation read_float3 := (read_float3 p unpackf).
Notation read_matrix4 := (read_matrix4 p unpackf).
Notation read_string := (read_string p).

(** _bf2head.load, visiblemesh.py:609-614. *)
Definition load_head : reader head :=
  get u1 <- read_long; get v <- read_long; get u3 <- read_long;
  get u4 <- read_long; get u5 <- read_long;
  rret {| h_u1 := u1; h_version := v; h_u3 := u3; h_u4 := u4; h_u5 := u5 |}.

(** _bf2lod.__init__, visiblemesh.py:791-811. *)
Definition new_lod : lod F :=
  {| lod_min := None; lod_max := None; pivot := None; rignum := 0; rigs := [];
     nodenum := 0; nodes := []; matnum := 0; materials := [] |}.

(** _bf2geom.load, visiblemesh.py:775-777. [range(negative)] is empty. *)
Definition load_geom : reader (geom F) :=
  get n <- read_long;
  rret {| lodnum := n; lods := repeat new_lod (Z.to_nat n) |}.

(** _bf2vertattrib.load, visiblemesh.py:963-967. *)
Definition load_vertattrib : reader vertattrib :=
  get f <- read_short1 p; get o <- read_short1 p;
  get v <- read_short1 p; get u <- read_short1 p;
  rret {| flag := f; offset := o; vartype := v; usage := u |}.

(** __read_vertices, visiblemesh.py:163-168. With exactly one number read_float
    returns a bare float and the [len(self.vertices)] of the log line raises
    TypeError. *)
Definition load_vertices (stride format num : Z) : reader (list F) :=
  get n <- rlift (data_num stride format num);
  get vs <- read_float p unpackf n;
  match vs with
  | Scalar _ => rraise EType
  | Tuple l => rret l
  end.

(** _bf2rig.load, visiblemesh.py:922-928. *)
Definition load_bone : reader (bone F) :=
  get i <- read_long; get m <- read_matrix4;
  rret {| bone_id := i; bone_matrix := m |}.
Definition load_rig : reader (rig F) :=
  get n <- read_long;
  get bs <- read_n load_bone (Z.to_nat n);
  rret {| bonenum := n; bones := bs |}.

(** _bf2lod.load_nodes_rigs, visiblemesh.py:852-874, on a fresh lod object.
    [Z.to_nat] of a non-positive count is 0, which covers both the [> 0] tests and
    [range(negative)]. *)
Definition load_nodes_rigs (version : Z) (bundled skinned : bool) (l : lod F) : reader (lod F) :=
  get mn <- read_float3;
  get mx <- read_float3;
  get pv <- (if version <=? 6 then get v <- read_float3; rret (Some v) else rret (pivot l));
  if skinned then
    get n <- read_long;
    get rs <- read_n load_rig (Z.to_nat n);
    rret {| lod_min := Some mn; lod_max := Some mx; pivot := pv;
            rignum := n; rigs := rs; nodenum := nodenum l; nodes := nodes l;
            matnum := matnum l; materials := materials l |}
  else
    get n <- read_long;
    get ns <- (if bundled then rret [] else read_n read_matrix4 (Z.to_nat n));
    rret {| lod_min := Some mn; lod_max := Some mx; pivot := pv;
            rignum := rignum l; rigs := rigs l; nodenum := n; nodes := nodes l ++ ns;
            matnum := matnum l; materials := materials l |}.

(** _bf2mat.load, visiblemesh.py:708-741. *)
Definition load_mat (version : Z) (skinned : bool) : reader (mat F) :=
  get am <- (if skinned then rret None else get a <- read_long; rret (Some a));
  get fx <- read_string;
  get te <- read_string;
  get mn <- read_long;
  get ms <- read_n read_string (Z.to_nat mn);
  get vs <- read_long; get is <- read_long; get inn <- read_long; get vn <- read_long;
  get u4 <- read_long; get u5 <- read_long;
  get mm <- (if negb skinned && (version =? 11)
             then get a <- read_float3; get b <- read_float3; rret (Some a, Some b)
             else rret (None, None));
  rret {| alphamode := am; fxfile := fx; technique := te; mapnum := mn; maps := ms;
          vstart := vs; istart := is; inum := inn; vnum := vn; mat_u4 := u4; mat_u5 := u5;
          mmin := fst mm; mmax := snd mm |}.

(** _bf2lod.load_materials, visiblemesh.py:893-899. *)
Definition load_materials (version : Z) (skinned : bool) (l : lod F) : reader (lod F) :=
  get n <- read_long;
  get ms <- read_n (load_mat version skinned) (Z.to_nat n);
  rret {| lod_min := lod_min l; lod_max := lod_max l; pivot := pivot l;
          rignum := rignum l; rigs := rigs l; nodenum := nodenum l; nodes := nodes l;
          matnum := n; materials := ms |}.

(** [for geom in self.geoms: for lod in geom.lods: ...], visiblemesh.py:184-200. *)
Definition each_lod (r : lod F -> reader (lod F)) (gs : list (geom F)) : reader (list (geom F)) :=
  read_each (fun g => get ls <- read_each r (lods g);
                      rret {| lodnum := lodnum g; lods := ls |}) gs.

(** VisibleMesh.__load, visiblemesh.py:95-110 (without the final size check). *)
Definition load_body (k : kind) : reader (mesh F) :=
  get h <- load_head;
  get u1 <- read_byte p;
  get gn <- read_long;
  get gs0 <- read_n load_geom (Z.to_nat gn);
  get van <- read_long;
  get vas <- read_n load_vertattrib (Z.to_nat van);
  get vf <- read_long;
  get vst <- read_long;
  get vn <- read_long;
  get verts <- load_vertices vst vf vn;
  get inn <- read_long;
  get idx <- read_short p inn;
  get u2 <- (if isSkinnedMesh k then rret 0 else read_long);
  get gs1 <- each_lod (load_nodes_rigs (h_version h) (isBundledMesh k) (isSkinnedMesh k)) gs0;
  get gs2 <- each_lod (load_materials (h_version h) (isSkinnedMesh k)) gs1;
  rret {| m_kind := k; m_head := h; m_u1 := u1; geomnum := gn; geoms := gs2;
          vertattribnum := van; vertex_attributes := vas;
          vertformat := vf; vertstride := vst; vertnum := vn; vertices := verts;
          indexnum := inn; index := idx; m_u2 := u2 |}.

(** VisibleMesh.__load with the size check of visiblemesh.py:112-117:
    [tell() == st_size] iff nothing remains. *)
Definition load (k : kind) (file : bytes) : res (mesh F) :=
  do (m, rest) <- load_body k file;
  match rest with
  | [] => Ok m
  | _ => Raise EAttribute
  end.
End Load.

Section Export.
Context {F : Type} (p : plat) (packf : F -> Z).
Notation write_long := (write_long p).
Notation write_float3_opt := (write_float3_opt p packf).
Notation write_matrix4 := (write_matrix4 p packf).
Notation write_string := (write_string p).

(** _bf2head.export, visiblemesh.py:621-626. *)
Definition export_head (h : head) : writer :=
  write_long (h_u1 h) ;; write_long (h_version h) ;; write_long (h_u3 h) ;;
  write_long (h_u4 h) ;; write_long (h_u5 h).

(** _bf2geom.export, visiblemesh.py:780-781. *)
Definition export_geom (g : geom F) : writer := write_long (lodnum g).

(** _bf2vertattrib.export, visiblemesh.py:969-973. *)
Definition export_vertattrib (a : vertattrib) : writer :=
  write_short p (flag a) ;; write_short p (offset a) ;;
  write_short p (vartype a) ;; write_short p (usage a).

(** _bf2rig.export, visiblemesh.py:930-934. *)
Definition export_bone (b : bone F) : writer :=
  write_long (bone_id b) ;; write_matrix4 (bone_matrix b).
Definition export_rig (r : rig F) : writer :=
  write_long (bonenum r) ;; wall export_bone (bones r).

(** _bf2lod.export_nodes, visiblemesh.py:876-891. *)
Definition export_nodes (version : Z) (bundled skinned : bool) (l : lod F) : writer :=
  write_float3_opt (lod_min l) ;;
  write_float3_opt (lod_max l) ;;
  (if version <=? 6 then write_float3_opt (pivot l) else wnil) ;;
  (if skinned then
     write_long (rignum l) ;; wall export_rig (rigs l)
   else
     write_long (nodenum l) ;;
     (if bundled then wnil else wall write_matrix4 (nodes l))).

(** _bf2mat.export, visiblemesh.py:743-764. *)
Definition export_mat (version : Z) (skinned : bool) (m : mat F) : writer :=
  (if skinned then wnil else write_long_opt p (alphamode m)) ;;
  write_string (fxfile m) ;;
  write_string (technique m) ;;
  write_long (mapnum m) ;;
  wall write_string (maps m) ;;
  write_long (vstart m) ;; write_long (istart m) ;; write_long (inum m) ;; write_long (vnum m) ;;
  write_long (mat_u4 m) ;; write_long (mat_u5 m) ;;
  (if negb skinned && (version =? 11)
   then write_float3_opt (mmin m) ;; write_float3_opt (mmax m) else wnil).

(** _bf2lod.export_materials, visiblemesh.py:901-904. *)
Definition export_materials (version : Z) (skinned : bool) (l : lod F) : writer :=
  write_long (matnum l) ;; wall (export_mat version skinned) (materials l).

(** [for value in self.index: write_short(fo, value)], visiblemesh.py:238-239; a
    bare int is not iterable. *)
Definition export_index (i : pyseq Z) : writer :=
  match i with
  | Scalar _ => wraise EType
  | Tuple l => wall (write_short p) l
  end.

(** VisibleMesh.__export, visiblemesh.py:217-248. *)
Definition export (m : mesh F) : writer :=
  export_head (m_head m) ;;
  write_byte p (m_u1 m) ;;
  write_long (geomnum m) ;;
  wall export_geom (geoms m) ;;
  write_long (vertattribnum m) ;;
  wall export_vertattrib (vertex_attributes m) ;;
  write_long (vertformat m) ;;
  write_long (vertstride m) ;;
  write_long (vertnum m) ;;
  wall (write_float p packf) (vertices m) ;;
  write_long (indexnum m) ;;
  export_index (index m) ;;
  (if isSkinnedMesh (m_kind m) then wnil else write_long (m_u2 m)) ;;
  wall (fun g => wall (export_nodes (h_version (m_head m)) (isBundledMesh (m_kind m))
                                    (isSkinnedMesh (m_kind m))) (lods g)) (geoms m) ;;
  wall (fun g => wall (export_materials (h_version (m_head m)) (isSkinnedMesh (m_kind m)))
                      (lods g)) (geoms m).
End Export.
