(** Threads that call translate, rotate or export on the same mesh object.
    translate and rotate (visiblemesh.py:279-314, 316-398) build the new vertices in a
    local list, material by material. Each material reads the attribute [self.vertices]
    once (lines 292, 375); the other attributes they read are not assigned by either
    method. The only assignment is the last statement (lines 314, 398). The arrays that
    are read are tuples or lists that nobody changes in place, so a call is a sequence of
    steps, one per material and one for the assignment, and an execution of several
    calls is any interleaving of their steps. export (lines 217-249) reads each attribute
    once, the loop [for value in self.vertices] included.

    Not modelled: interleavings with merge and change_geoms_order, and free-threaded
    interpreters in which one attribute access is not atomic. *)
From Coq Require Import ZArith List Bool Arith.
From Verif Require Import PyBase Struct Mesh Arith Edit.
Import ListNotations.
Open Scope nat_scope.
Open Scope res_scope.

Section Thread.
Context {F : Type} (A : arith F).

Inductive move_call := CTranslate (off : list F) | CRotate (rotation : list F).

(** The update of one vertex: lines 297-308 and 380-391. rotate with fewer than three
    angles raises before its loop (lines 359-362), see [thread_start]. *)
Definition call_vertex (m : mesh F) (c : move_call) : list F -> res (list F) :=
  match c with
  | CTranslate off => translate_vertex A m off
  | CRotate (r0 :: r1 :: r2 :: _) => rotate_vertex A m (f_radians A r0) (f_radians A r1) (f_radians A r2)
  | CRotate _ => fun _ => Raise EIndex
  end.

(** A thread in its call: the materials to do and the local list new_vertices. *)
Inductive tstate := TRun (todo : list (mat F)) (new : list F) | TDone | TRaised (e : exn).

(** The materials are those of the geoms when the loop starts; neither method assigns
    [self.geoms] or the lists below it. *)
Definition thread_start (m : mesh F) (c : move_call) : tstate :=
  match c with
  | CRotate (_ :: _ :: _ :: _) | CTranslate _ => TRun (all_mats (geoms m)) []
  | CRotate _ => TRaised EIndex
  end.

Definition thread_step (c : move_call) (m : mesh F) (t : tstate) : mesh F * tstate :=
  match t with
  | TRun (mt :: todo) new =>
      match map_mat_vertices m (call_vertex m c) mt with
      | Ok l => (m, TRun todo (new ++ l))
      | Raise e => (m, TRaised e)
      end
  | TRun [] new => (set_vertices m new, TDone)
  | _ => (m, t)
  end.

(** Thread [i] runs call [cs i]. A schedule says which thread makes the next step. *)
Definition threads_step (cs : nat -> move_call) (s : mesh F * (nat -> tstate)) (i : nat) : mesh F * (nat -> tstate) :=
  let '(m, ts) := s in
  let '(m', t) := thread_step (cs i) m (ts i) in
  (m', fun j => if j =? i then t else ts j).
Definition threads_run (cs : nat -> move_call) (m : mesh F) (schedule : list nat) : mesh F * (nat -> tstate) :=
  fold_left (threads_step cs) schedule (m, fun i => thread_start m (cs i)).
End Thread.
Arguments move_call : clear implicits.
Arguments tstate : clear implicits.

(** VisibleMesh.__export, visiblemesh.py:217-249, when the object may change between two
    accesses: access number [i] sees the mesh [at_ i]. The version and the kind, which are
    read again for every lod, count as one access per loop. *)
Definition export_during {F} (p : plat) (pk : F -> Z) (at_ : nat -> mesh F) : writer :=
  export_head p (m_head (at_ 0)) ;;
  write_byte p (m_u1 (at_ 1)) ;;
  write_long p (geomnum (at_ 2)) ;;
  wall (export_geom p) (geoms (at_ 3)) ;;
  write_long p (vertattribnum (at_ 4)) ;;
  wall (export_vertattrib p) (vertex_attributes (at_ 5)) ;;
  write_long p (vertformat (at_ 6)) ;;
  write_long p (vertstride (at_ 7)) ;;
  write_long p (vertnum (at_ 8)) ;;
  wall (write_float p pk) (vertices (at_ 9)) ;;
  write_long p (indexnum (at_ 10)) ;;
  export_index p (index (at_ 11)) ;;
  (if isSkinnedMesh (m_kind (at_ 12)) then wnil else write_long p (m_u2 (at_ 13))) ;;
  wall (fun g => wall (export_nodes p pk (h_version (m_head (at_ 14))) (isBundledMesh (m_kind (at_ 15)))
                                    (isSkinnedMesh (m_kind (at_ 16)))) (lods g)) (geoms (at_ 17)) ;;
  wall (fun g => wall (export_materials p pk (h_version (m_head (at_ 18))) (isSkinnedMesh (m_kind (at_ 19))))
                      (lods g)) (geoms (at_ 20)).
