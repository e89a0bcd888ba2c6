(** Specification vocabulary for the length of the file of an edited mesh. *)
From Coq Require Import ZArith List Bool.
From Verif Require Import PyBase Struct Mesh Arith Edit Spec SpecEdit SpecHist.
Import ListNotations.
Open Scope Z_scope.

Section SpecEditSize.
Context {F : Type} (A : arith F) (p : plat) (vs : nat).
(** The bytes of a mesh's vertices and indices in its file. *)
Definition array_bytes (m : mesh F) : Z := 4 * zlen (vertices m) + 2 * zlen (index_list m).
(** Calls that merge nothing; all but the reordering may also raise. *)
Inductive move : mesh F -> mesh F -> Prop :=
| mv_translate m off m' o : translate A m off = (m', o) -> move m m'
| mv_rotate m rot m' o : rotate A m rot = (m', o) -> move m m'
| mv_bounds m m' o : update_boundaries A m = (m', o) -> move m m'
| mv_center m gi li u m' r : get_lod_center_offset A m gi li u = (m', r) -> move m m'
| mv_refused m other m' : merge m other = (m', ReturnedNotImplementedError) -> move m m'
| mv_reorder m order ks m' : permutes (length (geoms m)) order ks -> vertnum m <= 2 ^ 53 ->
    change_geoms_order m order = (m', None) -> move m m'.
(** Any calls, with the meshes that were merged in, the last first. *)
Inductive journey (m0 : mesh F) : list (mesh F) -> mesh F -> Prop :=
| jn_start : journey m0 [] m0
| jn_move ms m m' : journey m0 ms m -> move m m' -> journey m0 ms m'
| jn_merge ms m other m' : journey m0 ms m -> savable p vs other -> merge m other = (m', Merged) -> journey m0 (other :: ms) m'
| jn_self ms m m' : journey m0 ms m -> merge_self m = (m', Merged) -> journey m0 (m :: ms) m'.
End SpecEditSize.
