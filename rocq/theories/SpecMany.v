(** Specification vocabulary for merging several meshes into one. *)
From Coq Require Import ZArith List.
From Verif Require Import PyBase Mesh Edit Spec SpecEdit.
Import ListNotations.
Open Scope Z_scope.

(** The program [for b in bs: m.merge(b)].  The value that merge returns is not looked
    at, so that the loop goes on after a mesh that cannot be merged. *)
Fixpoint merge_each {F} (m : mesh F) (bs : list (mesh F)) : mesh F * option exn :=
  match bs with
  | [] => (m, None)
  | b :: t => match merge m b with (m', MergeRaised e) => (m', Some e) | (m', _) => merge_each m' t end
  end.

(** The [k]-th materials of the meshes. *)
Definition kth_mats {F} (k : nat) (bs : list (mesh F)) (ys : list (mat F)) : Prop :=
  Forall2 (fun b y => nth_error (mats b) k = Some y) bs ys.
