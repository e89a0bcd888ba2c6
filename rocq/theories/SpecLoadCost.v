(** Specification vocabulary for the number of objects that loading makes. *)
From Coq Require Import ZArith List Bool.
From Verif Require Import PyBase Struct Mesh Spec.
Import ListNotations.
Open Scope Z_scope.

(** The objects of a mesh: geoms, lods, vertex attributes, rigs, bones and materials. *)
Definition rig_objects {F} (r : rig F) : Z := 1 + zlen (bones r).
Definition lod_objects {F} (l : lod F) : Z := 1 + sumZ rig_objects (rigs l) + zlen (materials l).
Definition geom_objects {F} (g : geom F) : Z := 1 + sumZ lod_objects (lods g).
Definition mesh_objects {F} (m : mesh F) : Z := zlen (vertex_attributes m) + sumZ geom_objects (geoms m).
(** One more than the largest C long. *)
Definition long_limit (p : plat) : Z := 2 ^ (8 * Z.of_nat (long_bytes p) - 1).
