(** Vocabulary for meshes whose attributes were assigned by hand. *)
From Coq Require Import ZArith List Bool.
From Verif Require Import PyBase Struct Mesh Spec.
Import ListNotations.
Open Scope Z_scope.

(** What can be written. The stored counts are numbers like any other; nothing
    relates them to the lists. *)
Section Writable.
Context {F : Type} (p : plat).
(** Rows after the fourth are ignored. *)
Definition writable_matrix (m : matrix4 F) : Prop := (4 <= length m)%nat /\ Forall (fun r => length r = 4%nat) (firstn 4 m).
Definition writable_bone (b : bone F) : Prop := is_long p (bone_id b) /\ writable_matrix (bone_matrix b).
Definition writable_rig (r : rig F) : Prop := is_long p (bonenum r) /\ Forall writable_bone (bones r).
Definition writable_mat (version : Z) (skinned : bool) (m : mat F) : Prop :=
  (skinned = false -> exists a, alphamode m = Some a /\ is_long p a) /\
  wf_string p (fxfile m) /\ wf_string p (technique m) /\
  is_long p (mapnum m) /\ Forall (wf_string p) (maps m) /\
  is_long p (vstart m) /\ is_long p (istart m) /\ is_long p (inum m) /\ is_long p (vnum m) /\
  is_long p (mat_u4 m) /\ is_long p (mat_u5 m) /\
  (skinned = false -> version = 11 -> mmin m <> None /\ mmax m <> None).
Definition writable_lod (version : Z) (bundled skinned : bool) (l : lod F) : Prop :=
  lod_min l <> None /\ lod_max l <> None /\ (version <= 6 -> pivot l <> None) /\
  (skinned = true -> is_long p (rignum l) /\ Forall writable_rig (rigs l)) /\
  (skinned = false -> is_long p (nodenum l) /\ (bundled = false -> Forall writable_matrix (nodes l))) /\
  is_long p (matnum l) /\ Forall (writable_mat version skinned) (materials l).
Definition writable (m : mesh F) : Prop :=
  let v := h_version (m_head m) in
  let bundled := isBundledMesh (m_kind m) in
  let skinned := isSkinnedMesh (m_kind m) in
  wf_head p (m_head m) /\ -128 <= m_u1 m < 128 /\
  is_long p (geomnum m) /\
  Forall (fun g => is_long p (lodnum g) /\ Forall (writable_lod v bundled skinned) (lods g)) (geoms m) /\
  is_long p (vertattribnum m) /\ Forall wf_vertattrib (vertex_attributes m) /\
  is_long p (vertformat m) /\ is_long p (vertstride m) /\ is_long p (vertnum m) /\
  is_long p (indexnum m) /\ (exists l, index m = Tuple l /\ Forall is_ushort l) /\
  (skinned = false -> is_long p (m_u2 m)).
End Writable.

(** ** Edits by hand *)
Definition set_geomnum {F} (m : mesh F) (n : Z) : mesh F :=
  {| m_kind := m_kind m; m_head := m_head m; m_u1 := m_u1 m; geomnum := n; geoms := geoms m;
     vertattribnum := vertattribnum m; vertex_attributes := vertex_attributes m;
     vertformat := vertformat m; vertstride := vertstride m; vertnum := vertnum m;
     vertices := vertices m; indexnum := indexnum m; index := index m; m_u2 := m_u2 m |}.
Definition set_geoms' {F} (m : mesh F) (gs : list (geom F)) : mesh F :=
  {| m_kind := m_kind m; m_head := m_head m; m_u1 := m_u1 m; geomnum := geomnum m; geoms := gs;
     vertattribnum := vertattribnum m; vertex_attributes := vertex_attributes m;
     vertformat := vertformat m; vertstride := vertstride m; vertnum := vertnum m;
     vertices := vertices m; indexnum := indexnum m; index := index m; m_u2 := m_u2 m |}.
(** Every shader, technique and texture name [s] becomes [f s]. *)
Definition rename_mat {F} (f : bytes -> bytes) (m : mat F) : mat F :=
  {| alphamode := alphamode m; fxfile := f (fxfile m); technique := f (technique m);
     mapnum := mapnum m; maps := map f (maps m);
     vstart := vstart m; istart := istart m; inum := inum m; vnum := vnum m;
     mat_u4 := mat_u4 m; mat_u5 := mat_u5 m; mmin := mmin m; mmax := mmax m |}.
Definition rename_lod {F} (f : bytes -> bytes) (l : lod F) : lod F :=
  {| lod_min := lod_min l; lod_max := lod_max l; pivot := pivot l; rignum := rignum l; rigs := rigs l;
     nodenum := nodenum l; nodes := nodes l; matnum := matnum l; materials := map (rename_mat f) (materials l) |}.
Definition rename_names {F} (f : bytes -> bytes) (m : mesh F) : mesh F :=
  set_geoms' m (map (fun g => {| lodnum := lodnum g; lods := map (rename_lod f) (lods g) |}) (geoms m)).
