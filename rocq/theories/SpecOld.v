(** Specification vocabulary for the old mesh class (deprecated/modmesh.py): how the
    object it holds relates to the one that bf2mesh holds for the same file. *)
From Coq Require Import ZArith List Bool.
From Verif Require Import PyBase Struct Mesh Spec.
Import ListNotations.
Open Scope Z_scope.

(** A 16-bit number read as signed. *)
Definition signed16 (z : Z) : Z := if z <? 32768 then z else z - 65536.
Definition signed_attrib (a : vertattrib) : vertattrib :=
  {| flag := signed16 (flag a); offset := signed16 (offset a);
     vartype := signed16 (vartype a); usage := signed16 (usage a) |}.

(** The last element only. *)
Definition last_only {A} (l : list A) : list A :=
  match l with [] => [] | x :: t => [last t x] end.
(** Every element replaced by the last one. *)
Definition all_last {A} (l : list A) : list A :=
  match l with [] => [] | x :: t => repeat (last t x) (length l) end.

Definition index_numbers (i : pyseq Z) : list Z := match i with Scalar v => [v] | Tuple l => l end.

Section S.
Context {F : Type}.

Definition lods_of (m : mesh F) : list (lod F) := flat_map lods (geoms m).

Definition with_nodes (f : list (matrix4 F) -> list (matrix4 F)) (l : lod F) : lod F :=
  {| lod_min := lod_min l; lod_max := lod_max l; pivot := pivot l;
     rignum := rignum l; rigs := rigs l; nodenum := nodenum l; nodes := f (nodes l);
     matnum := matnum l; materials := materials l |}.
Definition on_lods (f : lod F -> lod F) (gs : list (geom F)) : list (geom F) :=
  map (fun g => {| lodnum := lodnum g; lods := map f (lods g) |}) gs.

(** The object that LoadBF2Mesh returns where bf2mesh would hold [m]. *)
Definition old_of (m : mesh F) : mesh F :=
  {| m_kind := m_kind m; m_head := m_head m; m_u1 := m_u1 m; geomnum := geomnum m;
     geoms := on_lods (with_nodes last_only) (geoms m);
     vertattribnum := vertattribnum m;
     vertex_attributes := map signed_attrib (vertex_attributes m);
     vertformat := vertformat m; vertstride := vertstride m; vertnum := vertnum m;
     vertices := vertices m; indexnum := indexnum m; index := Tuple (index_numbers (index m));
     m_u2 := m_u2 m |}.

(** [m] with all node matrices of a lod replaced by its last one. *)
Definition nodes_flattened (m : mesh F) : mesh F :=
  {| m_kind := m_kind m; m_head := m_head m; m_u1 := m_u1 m; geomnum := geomnum m;
     geoms := on_lods (with_nodes all_last) (geoms m);
     vertattribnum := vertattribnum m; vertex_attributes := vertex_attributes m;
     vertformat := vertformat m; vertstride := vertstride m; vertnum := vertnum m;
     vertices := vertices m; indexnum := indexnum m; index := index m; m_u2 := m_u2 m |}.

(** All node matrices of each lod are the same. *)
Definition nodes_alike (m : mesh F) : Prop :=
  Forall (fun l => forall a b, In a (nodes l) -> In b (nodes l) -> a = b) (lods_of m).

(** The first lod of the file has a material (or there is no lod at all). *)
Definition starts_with_material (m : mesh F) : Prop :=
  match lods_of m with [] => True | l :: _ => materials l <> [] end.
End S.
