(** Concrete stores. *)
From Coq Require Import ZArith List Bool.
From Verif Require Import PyBase Struct Mesh Arith Edit SpecEdit Witness WitnessEdit Heap HeapFacts.
Import ListNotations.
Open Scope Z_scope.

(** Two mesh objects with the same materials, as copy.copy makes them. *)
Definition shallow {F} (f : Z -> F) : store F :=
  {| s_mats := all_mats (geoms (exm f));
     s_meshes := let m := {| hm_mesh := exm f; hm_geoms := alloc_geoms 0 (geoms (exm f)) |} in [m; m] |}.
Lemma shared_changed {F} (f : Z -> F) : exists st', own (shallow f) 0 /\ own (shallow f) 1 /\ tree_of (shallow f) 1 = exm f /\
  heap_merge (shallow f) 0 1 = (st', Merged) /\ mesh_at st' 1 = mesh_at (shallow f) 1 /\ tree_of st' 1 <> tree_of (shallow f) 1.
Proof.
  eexists. split; [|split; [|split; [|split; [|split]]]].
  - split; [cbn; auto|]. split; vm_compute; repeat constructor; cbn; intuition discriminate.
  - split; [cbn; auto|]. split; vm_compute; repeat constructor; cbn; intuition discriminate.
  - reflexivity.
  - vm_compute. reflexivity.
  - reflexivity.
  - intros E. apply (f_equal (fun m => map vnum (all_mats (geoms m)))) in E. vm_compute in E. discriminate.
Qed.
