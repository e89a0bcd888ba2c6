(** Rearranging: edits that compute no new numbers. *)
From Coq Require Import ZArith List Bool Relations.
From Flocq Require Import IEEE754.Bits.
From Verif Require Import PyBase Struct Mesh Arith F64 Edit Spec SpecEdit SpecHist.
Import ListNotations.
Open Scope Z_scope.

(** [x] is the float with some 32-bit pattern. *)
Definition stored (x : binary64) : Prop := exists b, 0 <= b < 2 ^ 32 /\ x = unpack_f b.

Section Arrange.
Context {F : Type} (A : arith F).
(** One call of merge, change_geoms_order, update_boundaries or get_lod_center_offset,
    whatever its outcome; [Q] holds for the meshes merged in. *)
Inductive arrange (Q : mesh F -> Prop) : mesh F -> mesh F -> Prop :=
| arr_bounds m m' o : update_boundaries A m = (m', o) -> arrange Q m m'
| arr_center m gi li u m' r : get_lod_center_offset A m gi li u = (m', r) -> arrange Q m m'
| arr_merge m other m' r : Q other -> merge m other = (m', r) -> arrange Q m m'
| arr_self m m' r : merge_self m = (m', r) -> arrange Q m m'
| arr_order m order m' o : change_geoms_order m order = (m', o) -> arrange Q m m'.
End Arrange.
