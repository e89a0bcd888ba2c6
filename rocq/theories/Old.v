(** deprecated/modmesh.py: the first version of the mesh class, [VisMesh]: its loader
    (lines 797-930), its serialiser (lines 935-1095) and LoadBF2Mesh without samples.

    The records of Mesh.v hold a VisMesh too; the differences are representation only:
    - [vertex_attributes] is the attribute [vertattrib];
    - [index] and [vertices] are always tuples, so [index] is never a [Scalar];
    - [lod.nodes] is one flat tuple of 16 floats, or the empty list when no matrix was
      read: here a list of at most one matrix, kept as four rows. [bone.matrix] is also
      a flat tuple of 16 floats, kept as four rows;
    - [rignum]/[nodenum] is None when the other one is read: here 0, as in Mesh.v; the
      serialiser reads only the one that was loaded;
    - [lod.version], [lod.polycount], [lod.sample] and [bone.skinmat] are not read by
      any method modelled here and are left out. *)
From Coq Require Import ZArith Bool Ascii String List.
From Verif Require Import PyBase Struct Mesh Arith Obj Col.
Import ListNotations.
Open Scope Z_scope.
Open Scope res_scope.

Section OldLoad.
Context {F : Type} (p : plat) (unpackf : Z -> F).

(** vertattrib.read_vertattrib, modmesh.py:471-477, with the signed read_short of
    lines 171-174 (format 'h', as in modIO.py). *)
Definition old_load_vertattrib : reader vertattrib :=
  get f <- read_sshort p; get o <- read_sshort p;
  get v <- read_sshort p; get u <- read_sshort p;
  rret {| flag := f; offset := o; vartype := v; usage := u |}.

(** read_matrix4, modmesh.py:189-192: one '16f'. *)
Definition old_read_matrix4 : reader (matrix4 F) :=
  get bs <- read_raw 64;
  rret (map (fun row => map (fun b => unpackf (dec_uint p b)) (pieces 4 4 row)) (pieces 16 4 bs)).

(** _read_vertex_block, modmesh.py:851-863: always a tuple. *)
Definition old_load_vertices (stride format num : Z) : reader (list F) :=
  get n <- rlift (data_num stride format num);
  get l <- read_items 4 n;
  rret (map (fun b => unpackf (dec_uint p b)) l).

(** _read_index_block, modmesh.py:873-881: always a tuple. *)
Definition old_load_index (n : Z) : reader (list Z) :=
  get l <- read_items 2 n; rret (map (dec_uint p) l).

(** The rigs of one lod, modmesh.py:905-916. *)
Definition old_load_bone : reader (bone F) :=
  get i <- read_long p; get m <- old_read_matrix4;
  rret {| bone_id := i; bone_matrix := m |}.
Definition old_load_rig : reader (rig F) :=
  get n <- read_long p;
  get bs <- read_n old_load_bone (Z.to_nat n);
  rret {| bonenum := n; bones := bs |}.

(** [for i in range(n): lod.nodes = read_matrix4(fo)], modmesh.py:903-904: every
    matrix replaces the one before. *)
Fixpoint old_load_node (n : nat) (cur : list (matrix4 F)) : reader (list (matrix4 F)) :=
  match n with
  | O => rret cur
  | S k => get m <- old_read_matrix4; old_load_node k [m]
  end.

(** _read_nodes for one lod, modmesh.py:892-916. *)
Definition old_load_nodes (version : Z) (bundled skinned : bool) (l : lod F) : reader (lod F) :=
  get mn <- read_float3 p unpackf;
  get mx <- read_float3 p unpackf;
  get pv <- (if version <=? 6 then get v <- read_float3 p unpackf; rret (Some v) else rret (pivot l));
  if skinned then
    get n <- read_long p;
    get rs <- read_n old_load_rig (Z.to_nat n);
    rret {| lod_min := Some mn; lod_max := Some mx; pivot := pv;
            rignum := n; rigs := rs; nodenum := nodenum l; nodes := nodes l;
            matnum := matnum l; materials := materials l |}
  else
    get n <- read_long p;
    get ns <- (if bundled then rret (nodes l) else old_load_node (Z.to_nat n) (nodes l));
    rret {| lod_min := Some mn; lod_max := Some mx; pivot := pv;
            rignum := rignum l; rigs := rigs l; nodenum := n; nodes := ns;
            matnum := matnum l; materials := materials l |}.

(** _read_materials for one lod, modmesh.py:923-927. bf2mat.read (lines 384-411) reads
    what _bf2mat.load of Mesh.v reads, in the same order. [bound] is whether the local
    variable [material] has a value: line 927 reads it after the inner loop, so it is
    the last material of the last non-empty lod so far. *)
Definition old_load_materials (version : Z) (skinned : bool) (bound : bool) (l : lod F)
  : reader (bool * lod F) :=
  get n <- read_long p;
  get ms <- read_n (load_mat p unpackf version skinned) (Z.to_nat n);
  let bound' := match ms with [] => bound | _ => true end in
  if bound' then
    rret (bound', {| lod_min := lod_min l; lod_max := lod_max l; pivot := pivot l;
                     rignum := rignum l; rigs := rigs l; nodenum := nodenum l; nodes := nodes l;
                     matnum := n; materials := ms |})
  else rraise EUnboundLocal.

(** [for geom in self.geoms: for lod in geom.lods: ...] with a local variable that
    lives across the iterations, modmesh.py:921-927. *)
Fixpoint read_each_st {S A B} (r : S -> A -> reader (S * B)) (s : S) (l : list A)
  : reader (S * list B) :=
  match l with
  | [] => rret (s, [])
  | a :: t => get (s1, b) <- r s a; get (s2, t') <- read_each_st r s1 t; rret (s2, b :: t')
  end.
Definition each_lod_st {S} (r : S -> lod F -> reader (S * lod F)) (s : S) (gs : list (geom F))
  : reader (S * list (geom F)) :=
  read_each_st (fun s g => get (s', ls) <- read_each_st r s (lods g);
                           rret (s', {| lodnum := lodnum g; lods := ls |})) s gs.

(** VisMesh.open, modmesh.py:589-590 (_read_filedata calls the _read_* methods, each of
    which calls its predecessor first). Nothing checks that the file ends here. *)
Definition old_load_body (k : kind) : reader (mesh F) :=
  get h <- load_head p;
  get u1 <- read_byte p;
  get gn <- read_long p;
  get gs0 <- read_n (load_geom p) (Z.to_nat gn);
  get van <- read_long p;
  get vas <- read_n old_load_vertattrib (Z.to_nat van);
  get vf <- read_long p;
  get vst <- read_long p;
  get vn <- read_long p;
  get verts <- old_load_vertices vst vf vn;
  get inn <- read_long p;
  get idx <- old_load_index inn;
  get u2 <- (if isSkinnedMesh k then rret 0 else read_long p);
  get gs1 <- each_lod (old_load_nodes (h_version h) (isBundledMesh k) (isSkinnedMesh k)) gs0;
  get (_, gs2) <- each_lod_st (old_load_materials (h_version h) (isSkinnedMesh k)) false gs1;
  rret {| m_kind := k; m_head := h; m_u1 := u1; geomnum := gn; geoms := gs2;
          vertattribnum := van; vertex_attributes := vas;
          vertformat := vf; vertstride := vst; vertnum := vn; vertices := verts;
          indexnum := inn; index := Tuple idx; m_u2 := u2 |}.
Definition old_load (k : kind) (file : bytes) : res (mesh F) :=
  do (m, _) <- old_load_body k file; Ok m.
End OldLoad.

Section OldSave.
Context {F : Type} (p : plat) (packf : F -> Z).

(** [struct.Struct('{}l').pack( * vs)]: one pack of several items either writes all of
    them or raises. *)
Definition pack_longs (vs : list Z) : writer :=
  if forallb (fits_long p) vs
  then wput (flat_map (fun v => enc_uint p (long_bytes p) (of_signed (long_bytes p) v)) vs)
  else wraise EStruct.
Definition pack_sshorts (vs : list Z) : writer :=
  if forallb (in_signed 2) vs
  then wput (flat_map (fun v => enc_uint p 2 (of_signed 2 v)) vs)
  else wraise EStruct.
Definition pack_ushorts (vs : list Z) : writer :=
  if forallb fits_ushort vs then wput (flat_map (enc_uint p 2) vs) else wraise EStruct.
(** ['16f'].pack( *m): struct.error unless there are 16 numbers. *)
Definition pack_matrix (m : matrix4 F) : writer :=
  if Nat.eqb (length (concat m)) 16 then wput (flat_map (enc_float p packf) (concat m))
  else wraise EStruct.

(** _write_nodes for one lod, modmesh.py:1043-1064. *)
Definition old_write_bone (b : bone F) : writer :=
  write_long p (bone_id b) ;; pack_matrix (bone_matrix b).
Definition old_write_rig (r : rig F) : writer :=
  write_long p (bonenum r) ;; wall old_write_bone (bones r).
Definition old_write_nodes (version : Z) (bundled skinned : bool) (l : lod F) : writer :=
  write_float3_opt p packf (lod_min l) ;;
  write_float3_opt p packf (lod_max l) ;;
  (if version <=? 6 then write_float3_opt p packf (pivot l) else wnil) ;;
  (if skinned then
     write_long p (rignum l) ;; wall old_write_rig (rigs l)
   else
     write_long p (nodenum l) ;;
     (if bundled then wnil
      else wall (fun _ => match nodes l with [] => wraise EStruct | m :: _ => pack_matrix m end)
                (seq 0 (Z.to_nat (nodenum l))))).

(** VisMesh.save, modmesh.py:592-593: what is written to the file. The tables are
    written with [range(self.geomnum)] and [range(self.vertattribnum)]. The materials
    (lines 1066-1095) are written as _bf2mat.export writes them. *)
Definition old_save (m : mesh F) : writer :=
  pack_longs [h_u1 (m_head m); h_version (m_head m); h_u3 (m_head m); h_u4 (m_head m); h_u5 (m_head m)] ;;
  write_byte p (m_u1 m) ;;
  write_long p (geomnum m) ;;
  wall (fun i => match nth_error (geoms m) i with
                 | Some g => write_long p (lodnum g)
                 | None => wraise EIndex
                 end) (seq 0 (Z.to_nat (geomnum m))) ;;
  write_long p (vertattribnum m) ;;
  wall (fun i => match nth_error (vertex_attributes m) i with
                 | Some a => pack_sshorts [flag a; offset a; vartype a; usage a]
                 | None => wraise EIndex
                 end) (seq 0 (Z.to_nat (vertattribnum m))) ;;
  write_long p (vertformat m) ;;
  write_long p (vertstride m) ;;
  write_long p (vertnum m) ;;
  wput (flat_map (enc_float p packf) (vertices m)) ;;
  write_long p (indexnum m) ;;
  match index m with
  | Scalar _ => wraise EType
  | Tuple l => pack_ushorts l
  end ;;
  (if isSkinnedMesh (m_kind m) then wnil else write_long p (m_u2 m)) ;;
  wall (fun g => wall (old_write_nodes (h_version (m_head m)) (isBundledMesh (m_kind m))
                                       (isSkinnedMesh (m_kind m))) (lods g)) (geoms m) ;;
  wall (fun g => wall (export_materials p packf (h_version (m_head m)) (isSkinnedMesh (m_kind m)))
                      (lods g)) (geoms m).
End OldSave.

Section OldFiles.
Context {F : Type} (p : plat) (unpackf : Z -> F) (packf : F -> Z).

(** LoadBF2Mesh(filepath), modmesh.py:105-118, 137. With loadSamples=True: Samples.v. *)
Definition old_load_mesh (f : fs) (fn : bytes) : res (mesh F) :=
  do file <- open_rb f fn;
  old_load p unpackf {| isSkinnedMesh := ext_is fn ".skinnedmesh";
                        isBundledMesh := ext_is fn ".bundledmesh";
                        isStaticMesh := ext_is fn ".staticmesh";
                        isCollisionMesh := false |} file.

(** VisMesh.save(filepath): _write_header (modmesh.py:935-946) makes the directory and
    truncates the file; the other _write_* methods reopen it to append ('ab+'), which
    cannot fail once the first open has succeeded. *)
Definition old_save_mesh (f : fs) (m : mesh F) (fn : bytes) : fs * option exn :=
  let '(f1, r1) := if exists_ f (dirname fn) then (f, None) else makedirs f (dirname fn) in
  match r1 with
  | Some e => (f1, Some e)
  | None =>
      match open_wb f1 fn with
      | Raise e => (f1, Some e)
      | Ok f2 => let '(bs, r) := old_save p packf m in
                 (update f2 (resolve fn) (File bs), r)
      end
  end.
End OldFiles.
