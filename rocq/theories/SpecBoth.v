(** Programs over several meshes, run with the methods of the old mesh class. *)
From Coq Require Import ZArith List Bool Reals.
From Flocq Require Import IEEE754.Binary IEEE754.Bits.
From Verif Require Import PyBase Struct Mesh Arith RArith Edit Old OldEdit HeapEdit SpecEdit SpecBounds SpecProg SpecOldEdit.
Import ListNotations.
Open Scope Z_scope.

Section Both.
Context {F : Type} (A : arith F).
(** As [value_call] (SpecProg.v). The old class has no counterpart of change_geoms_order
    and get_lod_center_offset. *)
Definition old_call (ms : list (mesh F)) (c : call F) : list (mesh F) * outcome F :=
  match c with
  | CMerge i j => let '(m, o) := old_merge A (value ms i) (value ms j) in (set_nth ms i m, of_exn o)
  | CTranslate i off => let '(m, o) := old_translate A (value ms i) off in (set_nth ms i m, of_exn o)
  | CRotate i rot => let '(m, o) := old_rotate A (value ms i) rot in (set_nth ms i m, of_exn o)
  | CBounds i => let '(m, o) := old_update_boundaries A (value ms i) in (set_nth ms i m, of_exn o)
  | COrder _ _ | CCenter _ _ _ _ => (ms, ORaised EAttribute)
  end.
Fixpoint old_run (ms : list (mesh F)) (cs : list (call F)) : list (mesh F) * list (outcome F) :=
  match cs with
  | [] => (ms, [])
  | c :: t => let '(m1, o) := old_call ms c in let '(m2, os) := old_run m1 t in (m2, o :: os)
  end.

(** Calls of methods that both classes have, with three numbers and finite angles. *)
Definition in_both (n : nat) (c : call F) : Prop :=
  match c with
  | CMerge i j => (i < n /\ j < n)%nat /\ i <> j
  | CTranslate i off => (i < n)%nat /\ length off = 3%nat
  | CRotate i rot => (i < n)%nat /\ exists a b c more, rot = a :: b :: c :: more /\ can_turn A a b c
  | CBounds i => (i < n)%nat
  | COrder _ _ | CCenter _ _ _ _ => False
  end.

(** Static meshes whose vertices have positions, normals and tangents and whose lods and
    materials have bounds. *)
Record old_editable (vs : nat) (m : mesh F) : Prop := {
  oe_canonical : canonical vs m;
  oe_packed : packed vs m;
  oe_size : vertex_size m = Ok (Z.of_nat vs);
  oe_static : isStaticMesh (m_kind m) = true;
  oe_position : float3 m 0;
  oe_normal : float3 m 3;
  oe_tangent : float3 m 6;
  oe_bounded : every_lod lod_bounded m }.

(** The same apart from bounds, with vertex numbers related by [E]. *)
Definition same_up_to (E : F -> F -> Prop) (m m' : mesh F) : Prop :=
  same_but_vertices_bounds m m' /\ Forall2 E (vertices m) (vertices m').
End Both.

(** The same double, or two zeros. *)
Definition equal_or_zeros (x y : binary64) : Prop := x = y \/ (zero64 x /\ zero64 y).

(** One call of an editing method of the old class that moves a mesh. *)
Inductive old_move : mesh R -> mesh R -> Prop :=
| old_by_translate m dx dy dz m' o : old_translate exact m [dx; dy; dz] = (m', o) -> old_move m m'
| old_by_rotate m a b c more m' o : old_rotate exact m (a :: b :: c :: more) = (m', o) -> old_move m m'
| old_by_bounds m m' o : old_update_boundaries exact m = (m', o) -> old_move m m'.
