(** A sequence of calls for the theorems about the length of the file. *)
From Coq Require Import ZArith List Bool Lia.
From Flocq Require Import IEEE754.Bits.
From Verif Require Import PyBase Struct Mesh Arith F64 Edit Spec SpecF SpecEdit SpecBounds SpecHist Witness WitnessEdit WitnessMerge WitnessReorder WitnessHist SpecEditSize.
Import ListNotations.
Open Scope Z_scope.

Lemma duo_journey L : journey (f64 L) p64 7 (fl duo_mesh) [fl duo_mesh] (step5 (f64 L) unpack_f).
Proof.
  eapply jn_move; [|exact (mv_bounds _ _ _ _ (step5_eq (f64 L) unpack_f))].
  eapply jn_move; [|exact (mv_rotate _ _ _ _ _ (step4_eq (f64 L) unpack_f (duo_turns L)))].
  eapply jn_move; [|exact (mv_translate _ _ _ _ _ (step3_eq (f64 L) unpack_f))].
  eapply jn_move; [|refine (mv_reorder _ _ _ _ _ _ _ (step2_eq unpack_f)); [exact duo_swap|vm_compute; discriminate]].
  exact (jn_merge _ _ _ _ _ _ _ _ (jn_start _ _ _ _) duo_savable (step1_eq unpack_f)).
Qed.
Lemma duo_bytes : array_bytes (fl duo_mesh) = 180. Proof. vm_compute. reflexivity. Qed.
