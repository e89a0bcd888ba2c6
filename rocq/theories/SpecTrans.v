(** Specification vocabulary for VisMeshTransform. *)
From Coq Require Import ZArith List Bool.
From Verif Require Import PyBase Struct Mesh Spec SpecEdit.
Import ListNotations.
Open Scope Z_scope.

Section SpecTrans.
Context {F : Type}.

(** Everything but the geom table. *)
Definition same_but_geoms (m m' : mesh F) : Prop :=
  m_kind m' = m_kind m /\ m_head m' = m_head m /\ m_u1 m' = m_u1 m /\
  vertattribnum m' = vertattribnum m /\ vertex_attributes m' = vertex_attributes m /\
  vertformat m' = vertformat m /\ vertstride m' = vertstride m /\ m_u2 m' = m_u2 m /\
  vertnum m' = vertnum m /\ vertices m' = vertices m /\ indexnum m' = indexnum m /\ index m' = index m.

(** [l'] is [l] with [x] inserted at [k]; [l] without item [k]. *)
Definition inserted {B} (k : nat) (x : B) (l l' : list B) : Prop :=
  exists a b, l = a ++ b /\ length a = k /\ l' = a ++ x :: b.
Definition without {B} (k : nat) (l l' : list B) : Prop := exists x, inserted k x l' l.

(** The name of texture [k] of material [mt] of lod [l] of geom [g]. *)
Definition lod_nth (m : mesh F) (g l : nat) : option (lod F) :=
  match nth_error (geoms m) g with Some ge => nth_error (lods ge) l | None => None end.
Definition material_at (m : mesh F) (g l mt : nat) : option (mat F) :=
  match lod_nth m g l with Some lo => nth_error (materials lo) mt | None => None end.
Definition map_at (m : mesh F) (g l mt k : nat) : option bytes :=
  match material_at m g l mt with Some ma => nth_error (maps ma) k | None => None end.
(** A material without texture names. *)
Definition unmapped (mt : mat F) : mat F :=
  {| alphamode := alphamode mt; fxfile := fxfile mt; technique := technique mt;
     mapnum := mapnum mt; maps := []; vstart := vstart mt; istart := istart mt;
     inum := inum mt; vnum := vnum mt; mat_u4 := mat_u4 mt; mat_u5 := mat_u5 mt;
     mmin := mmin mt; mmax := mmax mt |}.

(** Number of vertices and of indices of a geom. *)
Definition geom_vnum (g : geom F) : Z := sumZ vnum (flat_map materials (lods g)).
Definition geom_inum (g : geom F) : Z := sumZ inum (flat_map materials (lods g)).

(** The vertices and indices of each material of a geom. *)
Definition geom_data (vs : nat) (m : mesh F) (g : geom F) : list (list (list F) * list Z) :=
  map (fun mt => (mat_vertices vs m mt, mat_indices m mt)) (flat_map materials (lods g)).
(** What is not the geom table, the arrays or a count of them. *)
Definition same_rest (m m' : mesh F) : Prop :=
  m_kind m' = m_kind m /\ m_head m' = m_head m /\ m_u1 m' = m_u1 m /\
  vertattribnum m' = vertattribnum m /\ vertex_attributes m' = vertex_attributes m /\
  vertformat m' = vertformat m /\ vertstride m' = vertstride m /\ m_u2 m' = m_u2 m.

(** Component [c] of vertex [j]. *)
Definition number_at (vs : nat) (m : mesh F) (j c : nat) : option F := nth_error (vertices m) (j * vs + c).
End SpecTrans.
