(** Edit histories. *)
From Coq Require Import ZArith List Bool Relations.
From Verif Require Import PyBase Struct Mesh Arith Edit Spec SpecEdit.
Import ListNotations.
Open Scope Z_scope.

Section Hist.
Context {F : Type} (A : arith F) (p : plat) (vs : nat).

(** A consistent mesh with [vs] numbers per vertex, stored without gaps, in which
    rotate does not meet a 4-component position, normal or tangent. *)
Definition savable (m : mesh F) : Prop :=
  wf p m /\ packed vs m /\ vertex_size m = Ok (Z.of_nat vs) /\ (0 < vs)%nat /\ Z.of_nat vs <= 2 ^ 53 /\
  0 < vertformat m /\ vertstride m = Z.of_nat vs * vertformat m /\
  zlen (vertices m) = vertnum m * Z.of_nat vs /\
  Forall (fun a => oriented a = true -> vartype a <> 3) (vertex_attributes m).

(** One call. translate, rotate, update_boundaries and get_lod_center_offset may also
    raise; merge may refuse. *)
Inductive edit : mesh F -> mesh F -> Prop :=
| by_translate m off m' o : translate A m off = (m', o) -> edit m m'
| by_rotate m rot m' o : rotate A m rot = (m', o) -> edit m m'
| by_bounds m m' o : update_boundaries A m = (m', o) -> edit m m'
| by_center m gi li u m' r : get_lod_center_offset A m gi li u = (m', r) -> edit m m'
| by_merge m other m' : savable other -> merge m other = (m', Merged) -> edit m m'
| by_self_merge m m' : merge_self m = (m', Merged) -> edit m m'
| by_refused_merge m other m' : merge m other = (m', ReturnedNotImplementedError) -> edit m m'
| by_reorder m order ks m' : permutes (length (geoms m)) order ks -> vertnum m <= 2 ^ 53 ->
    change_geoms_order m order = (m', None) -> edit m m'.
Definition history : mesh F -> mesh F -> Prop := clos_refl_trans_1n _ edit.
End Hist.
