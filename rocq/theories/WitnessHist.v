(** A concrete edit history. *)
From Coq Require Import ZArith List Bool Ascii String Lia Relations.
From Flocq Require Import IEEE754.Binary IEEE754.Bits.
From Verif Require Import PyBase Struct Mesh Arith F64 Edit Obj Spec CodecBase CodecRaw CodecParam
  CodecFacts SpecEdit SpecBounds SpecHist TravFacts VertFacts LayoutFacts MergeFacts ReorderFacts BoundFacts HistFacts Witness WitnessEdit WitnessMerge WitnessReorder.
Import ListNotations.
Open Scope Z_scope.

Lemma duo_savable : savable p64 7 (fl duo_mesh).
Proof.
  destruct (loaded_wf p64 _ _ _ _ duo_loads) as (W & _). split; [exact W|]. split; [apply duo_packed|]. split; [reflexivity|].
  split; [lia|]. split; [lia|]. split; [reflexivity|]. split; [reflexivity|]. split; [reflexivity|].
  repeat constructor; vm_compute; discriminate.
Qed.

Section Steps.
Context {F : Type} (A : arith F) (f : Z -> F).
Definition step1 : mesh F := fst (merge (mesh_map f duo_mesh) (mesh_map f duo_mesh)).
Definition step2 : mesh F := fst (change_geoms_order step1 [1; -2]).
Definition step3 : mesh F := fst (translate A step2 [f 0; f 1; f 2]).
Definition step4 : mesh F := fst (rotate A step3 [f 3; f 4; f 5]).
Definition step5 : mesh F := fst (update_boundaries A step4).
Lemma step1_eq : merge (mesh_map f duo_mesh) (mesh_map f duo_mesh) = (step1, Merged).
Proof. vm_compute. reflexivity. Qed.
Lemma step2_eq : change_geoms_order step1 [1; -2] = (step2, None).
Proof. apply ok_pair. vm_compute. reflexivity. Qed.
Lemma step3_eq : translate A step2 [f 0; f 1; f 2] = (step3, None).
Proof. apply ok_pair. vm_compute. reflexivity. Qed.
Lemma step4_eq : can_turn A (f 3) (f 4) (f 5) -> rotate A step3 [f 3; f 4; f 5] = (step4, None).
Proof.
  intros (H1 & H2 & H3). apply ok_pair. destruct A. cbn in H1, H2, H3.
  vm_compute. rewrite H1, H2, H3. reflexivity.
Qed.
Lemma step5_eq : update_boundaries A step4 = (step5, snd (update_boundaries A step4)).
Proof. apply surjective_pairing. Qed.
Lemma rotate_counts (m : mesh F) r : vertnum (fst (rotate A m r)) = vertnum m /\ indexnum (fst (rotate A m r)) = indexnum m.
Proof.
  unfold rotate, assign_vertices. destruct r as [|a [|b [|c r]]]; try (split; reflexivity).
  destruct (map_vertices _ _); split; reflexivity.
Qed.
Lemma step5_counts : vertnum step5 = 12 /\ indexnum step5 = 12.
Proof. destruct (update_frame A _ _ _ step5_eq) as (_ & (-> & ->) & _). unfold step4. destruct (rotate_counts step3 [f 3; f 4; f 5]) as (-> & ->). vm_compute. split; reflexivity. Qed.
End Steps.

Lemma duo_turns L : can_turn (f64 L) (unpack_f 3) (unpack_f 4) (unpack_f 5).
Proof. repeat split; vm_compute; reflexivity. Qed.
Lemma duo_history L : let m := step5 (f64 L) unpack_f in
  history (f64 L) p64 7 (fl duo_mesh) m /\ is_long p64 (vertnum m) /\ is_long p64 (indexnum m) /\ vertnum m * Z.of_nat 7 <= 2 ^ 53 /\
  vertnum m = 2 * vertnum (fl duo_mesh).
Proof.
  intros m. pose proof (duo_turns L) as Ht. destruct (step5_counts (f64 L) unpack_f) as (E1 & E2). fold m in E1, E2.
  split; [|rewrite E1, E2; split; [apply long64; lia|]; split; [apply long64; lia|]; split; [lia|reflexivity]].
  unfold history.
  eapply Relation_Operators.rt1n_trans; [exact (by_merge _ _ _ _ _ _ duo_savable (step1_eq unpack_f))|].
  eapply Relation_Operators.rt1n_trans; [refine (by_reorder _ _ _ _ _ _ _ _ _ (step2_eq unpack_f)); [exact duo_swap|vm_compute; discriminate]|].
  eapply Relation_Operators.rt1n_trans; [exact (by_translate _ _ _ _ _ _ _ (step3_eq (f64 L) unpack_f))|].
  eapply Relation_Operators.rt1n_trans; [exact (by_rotate _ _ _ _ _ _ _ (step4_eq (f64 L) unpack_f Ht))|].
  eapply Relation_Operators.rt1n_trans; [exact (by_bounds _ _ _ _ _ _ (step5_eq (f64 L) unpack_f))|]. constructor.
Qed.
