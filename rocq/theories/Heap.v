(** VisibleMesh.merge executed on a store of objects, visiblemesh.py:443-532.

    Edit.v describes merge on mesh trees, where [self] and [other] cannot share
    anything. Here the mesh objects and the material objects, which are what merge
    mutates, live in a store and every statement reads and writes the store, so that
    the operands may be one object or have materials in common. Geoms and lods are not
    mutated by merge and are values that refer to materials by address. *)
From Coq Require Import ZArith List Bool.
From Verif Require Import PyBase Struct Mesh Arith Edit.
Import ListNotations.
Open Scope Z_scope.
Open Scope res_scope.

Section Heap.
Context {F : Type}.

(** _bf2lod, _bf2geom and VisibleMesh objects: [hl_lod] gives the attributes of the lod
    other than [materials] and [hm_mesh] those of the mesh other than [geoms]. *)
Record hlod := { hl_lod : lod F; hl_mats : list nat }.
Record hgeom := { hg_geom : geom F; hg_lods : list hlod }.
Record hmesh := { hm_mesh : mesh F; hm_geoms : list hgeom }.
Record store := { s_mats : list (mat F); s_meshes : list hmesh }.

Definition mat_none : mat F :=
  {| alphamode := None; fxfile := []; technique := []; mapnum := 0; maps := []; vstart := 0; istart := 0;
     inum := 0; vnum := 0; mat_u4 := 0; mat_u5 := 0; mmin := None; mmax := None |}.
Definition mesh_none : hmesh :=
  {| hm_mesh := {| m_kind := {| isSkinnedMesh := false; isBundledMesh := false; isStaticMesh := false; isCollisionMesh := false |};
                   m_head := {| h_u1 := 0; h_version := 0; h_u3 := 0; h_u4 := 0; h_u5 := 0 |};
                   m_u1 := 0; geomnum := 0; geoms := []; vertattribnum := 0; vertex_attributes := [];
                   vertformat := 0; vertstride := 0; vertnum := 0; vertices := []; indexnum := 0; index := Tuple []; m_u2 := 0 |};
     hm_geoms := [] |}.
Definition mat_at (st : store) (a : nat) : mat F := nth a (s_mats st) mat_none.
Definition mesh_at (st : store) (i : nat) : hmesh := nth i (s_meshes st) mesh_none.
Definition put_mat (st : store) (a : nat) (m : mat F) : store :=
  {| s_mats := set_nth (s_mats st) a m; s_meshes := s_meshes st |}.
Definition put_mesh (st : store) (i : nat) (m : mesh F) : store :=
  {| s_mats := s_mats st; s_meshes := set_nth (s_meshes st) i {| hm_mesh := m; hm_geoms := hm_geoms (mesh_at st i) |} |}.

(** The mesh tree that an object stands for. *)
Definition lod_tree (st : store) (l : hlod) : lod F := set_materials (hl_lod l) (map (mat_at st) (hl_mats l)).
Definition geom_tree (st : store) (g : hgeom) : geom F := set_lods (hg_geom g) (map (lod_tree st) (hg_lods g)).
Definition tree_of (st : store) (i : nat) : mesh F :=
  set_geoms (hm_mesh (mesh_at st i)) (map (geom_tree st) (hm_geoms (mesh_at st i))).

(** The nested enumerate loops of lines 459-461: geomId, lodId, materialId and the
    material object. The lists iterated over are not changed by the loop. *)
Fixpoint lods_items (li : nat) (ls : list hlod) : list ((nat * nat) * nat) :=
  match ls with
  | [] => []
  | l :: t => map (fun p => ((li, fst p), snd p)) (combine (seq 0 (length (hl_mats l))) (hl_mats l)) ++ lods_items (S li) t
  end.
Fixpoint items (gi : nat) (gs : list hgeom) : list ((nat * nat * nat) * nat) :=
  match gs with
  | [] => []
  | g :: t => map (fun p => ((gi, fst (fst p), snd (fst p)), snd p)) (lods_items 0 (hg_lods g)) ++ items (S gi) t
  end.

(** Line 472. *)
Definition item_at (gs : list hgeom) (k : nat * nat * nat) : res nat :=
  let '(gi, li, mi) := k in
  do g <- nth_res gs gi;
  do l <- nth_res (hg_lods g) li;
  nth_res (hl_mats l) mi.

(** Assignments to attributes of a material. *)
Definition set_vnum (m : mat F) (v : Z) : mat F := set_mat_layout m (vstart m) (istart m) (inum m) v.
Definition set_inum (m : mat F) (v : Z) : mat F := set_mat_layout m (vstart m) (istart m) v (vnum m).
Definition set_vstart (m : mat F) (v : Z) : mat F := set_mat_layout m v (istart m) (inum m) (vnum m).
Definition set_istart (m : mat F) (v : Z) : mat F := set_mat_layout m (vstart m) v (inum m) (vnum m).

(** Loop body, lines 463-522, statement by statement. *)
Definition merge_item (self other : nat) (k : nat * nat * nat) (a : nat) (st : store) (s : merge_state)
  : store * merge_state * option exn :=
  let me := hm_mesh (mesh_at st self) in
  let it := hm_mesh (mesh_at st other) in
  let r :=
    do vs <- vertex_size me;                                             (* 464 *)
    let b := vstart (mat_at st a) * vs in
    let nv1 := ms_verts s ++ py_slice (vertices me) b (b + vs * vnum (mat_at st a)) in
    do sl <- index_slice (index me) (istart (mat_at st a)) (istart (mat_at st a) + inum (mat_at st a));
    let ni1 := ms_index s ++ sl in
    do o <- item_at (hm_geoms (mesh_at st other)) k;                     (* 472 *)
    do ovs <- vertex_size it;
    let c := vstart (mat_at st o) * ovs in
    let nv2 := nv1 ++ py_slice (vertices it) c (c + ovs * vnum (mat_at st o)) in
    do ni2 <- merge_indices (index it) (istart (mat_at st o)) (vnum (mat_at st a)) (zrange (inum (mat_at st o))) ni1;
    let st1 := put_mat st a (set_vnum (mat_at st a) (vnum (mat_at st a) + vnum (mat_at st o))) in        (* 495 *)
    let st2 := put_mat st1 a (set_inum (mat_at st1 a) (inum (mat_at st1 a) + inum (mat_at st1 o))) in    (* 496 *)
    let st3 := put_mat st2 a (set_vstart (mat_at st2 a) (ms_vstart s)) in                                (* 509 *)
    let st4 := put_mat st3 a (set_istart (mat_at st3 a) (ms_istart s)) in                                (* 510 *)
    Ok (st4, {| ms_verts := nv2; ms_index := ni2;
                ms_vstart := ms_vstart s + vnum (mat_at st4 a); ms_istart := ms_istart s + inum (mat_at st4 a);
                ms_vertnum := ms_vertnum s + vnum (mat_at st4 a); ms_indexnum := ms_indexnum s + inum (mat_at st4 a) |}) in
  match r with
  | Ok (st', s') => (st', s', None)
  | Raise e => (st, s, Some e)
  end.

Fixpoint merge_items (self other : nat) (l : list ((nat * nat * nat) * nat)) (st : store) (s : merge_state)
  : store * merge_state * option exn :=
  match l with
  | [] => (st, s, None)
  | (k, a) :: t =>
      match merge_item self other k a st s with
      | (st', s', Some e) => (st', s', Some e)
      | (st', s', None) => merge_items self other t st' s'
      end
  end.

(** merge: canMerge (line 448) only reads. *)
Definition heap_merge (st : store) (self other : nat) : store * merge_result :=
  match canMerge (tree_of st self) (tree_of st other) with
  | Raise e => (st, MergeRaised e)
  | Ok false => (st, ReturnedNotImplementedError)
  | Ok true =>
      let '(st1, s, o) := merge_items self other (items 0 (hm_geoms (mesh_at st self))) st merge_state0 in
      match o with
      | Some e => (st1, MergeRaised e)
      | None =>
          let st2 := put_mesh st1 self (set_vertices (hm_mesh (mesh_at st1 self)) (ms_verts s)) in        (* 526 *)
          match index (hm_mesh (mesh_at st2 self)) with
          | Scalar _ => (st2, MergeRaised EType)                                                          (* 527 *)
          | Tuple _ =>
              let st3 := put_mesh st2 self (set_index (hm_mesh (mesh_at st2 self)) (Tuple (ms_index s))) in
              let st4 := put_mesh st3 self (set_counts (hm_mesh (mesh_at st3 self)) (ms_vertnum s) (ms_indexnum s)) in
              (st4, Merged)
          end
      end
  end.
End Heap.
Arguments hlod : clear implicits. Arguments hgeom : clear implicits. Arguments hmesh : clear implicits. Arguments store : clear implicits.

(** ** Vocabulary *)
(** The addresses of the materials of a mesh object. *)
Definition mats_addrs {F} (st : store F) (i : nat) : list nat :=
  flat_map (fun g => flat_map hl_mats (hg_lods g)) (hm_geoms (mesh_at st i)).
(** A mesh object of the store all of whose materials are different objects. *)
Definition own {F} (st : store F) (i : nat) : Prop :=
  (i < length (s_meshes st))%nat /\ NoDup (mats_addrs st i) /\ Forall (fun a => (a < length (s_mats st))%nat) (mats_addrs st i).
Definition disjoint {F} (st : store F) (i j : nat) : Prop := forall a, In a (mats_addrs st i) -> ~ In a (mats_addrs st j).
(** What a merge into [i] may change: only the mesh object [i] and its materials, and no
    object starts referring to other ones. *)
Definition only_changes {F} (st st' : store F) (i : nat) : Prop :=
  length (s_mats st') = length (s_mats st) /\ length (s_meshes st') = length (s_meshes st) /\
  (forall a, ~ In a (mats_addrs st i) -> mat_at st' a = mat_at st a) /\
  (forall j, j <> i -> mesh_at st' j = mesh_at st j) /\
  hm_geoms (mesh_at st' i) = hm_geoms (mesh_at st i).
