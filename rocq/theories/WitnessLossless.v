(** Concrete files for the theorems about rearranging. *)
From Coq Require Import ZArith List Bool Ascii String Lia Relations.
From Flocq Require Import IEEE754.Binary IEEE754.Bits.
From Verif Require Import PyBase Struct Mesh Arith F64 Edit Obj Spec SpecObj CodecBase CodecRaw CodecParam CodecFacts SpecEdit SpecBounds SpecHist SpecLossless LosslessFacts
  TravFacts VertFacts LayoutFacts MergeFacts ReorderFacts BoundFacts HistFacts ObjFacts Witness WitnessEdit WitnessMerge WitnessReorder WitnessHist WitnessObj.
Import ListNotations.
Open Scope Z_scope.

Lemma exm_savable : savable p64 7 (exm unpack_f).
Proof.
  split; [apply objA_wf|]. split; [apply ex_packed|]. split; [reflexivity|].
  split; [lia|]. split; [lia|]. split; [reflexivity|]. split; [reflexivity|]. split; [reflexivity|].
  repeat constructor; vm_compute; discriminate.
Qed.
(** Merge, reorder and update the bounds. *)
Definition arranged L : mesh binary64 := fst (update_boundaries (f64 L) (step2 unpack_f)).
Lemma arranged_history L : mesh_all stored (fl duo_mesh) /\ savable p64 7 (fl duo_mesh) /\
  clos_refl_trans_1n _ (fun x y => edit (f64 L) p64 7 x y /\ arrange (f64 L) (mesh_all stored) x y) (fl duo_mesh) (arranged L) /\
  is_long p64 (vertnum (arranged L)) /\ is_long p64 (indexnum (arranged L)) /\ vertnum (arranged L) * Z.of_nat 7 <= 2 ^ 53 /\
  vertnum (arranged L) = 2 * vertnum (fl duo_mesh).
Proof.
  pose proof (loaded_stored _ _ _ _ duo_loads) as ST. split; [exact ST|]. split; [apply duo_savable|].
  destruct (update_boundaries (f64 L) (step2 unpack_f)) as (m, o) eqn:E.
  assert (vertnum (arranged L) = 12 /\ indexnum (arranged L) = 12) as (E1 & E2).
  { unfold arranged. rewrite E. destruct (update_frame _ _ _ _ E) as (_ & (H1 & H2) & _). cbn [fst]. rewrite H1, H2. vm_compute. split; reflexivity. }
  split; [|rewrite E1, E2; split; [apply long64; lia|]; split; [apply long64; lia|]; split; [lia|reflexivity]].
  eapply Relation_Operators.rt1n_trans; [split; [exact (by_merge _ _ _ _ _ _ duo_savable (step1_eq unpack_f))|exact (arr_merge _ _ _ _ _ _ ST (step1_eq unpack_f))]|].
  eapply Relation_Operators.rt1n_trans; [split; [refine (by_reorder _ _ _ _ _ _ _ _ _ (step2_eq unpack_f)); [exact duo_swap|vm_compute; discriminate]|exact (arr_order _ _ _ _ _ _ (step2_eq unpack_f))]|].
  eapply Relation_Operators.rt1n_trans; [|constructor]. unfold arranged. rewrite E. split; [exact (by_bounds _ _ _ _ _ _ E)|exact (arr_bounds _ _ _ _ _ E)].
Qed.
(** The file a.StaticMesh merged with itself and saved as b.staticmesh. *)
Definition doubled : mesh binary64 := fst (merge (exm unpack_f) (exm unpack_f)).
Lemma doubled_files L : exists f' o',
  new_visible_mesh p64 unpack_f fsA (Some fnA) kw0 = Ok objA /\ savable p64 7 (o_mesh objA) /\ merge (o_mesh objA) (o_mesh objA) = (doubled, Merged) /\
  is_long p64 (vertnum doubled) /\ is_long p64 (indexnum doubled) /\ vertnum doubled * Z.of_nat 7 <= 2 ^ 53 /\ kind_named (m_kind doubled) fnB /\ fnB <> [] /\
  export_obj (f64 L) p64 pack_f fsA {| o_mesh := doubled; o_filename := o_filename objA; o_loaded := true |} (Some fnB) false = (f', o', None).
Proof.
  assert (vertnum doubled = 12 /\ indexnum doubled = 12) as (E1 & E2) by (split; vm_compute; reflexivity).
  assert (savable p64 7 doubled) as SV.
  { apply (history_savable (f64 L) p64 7 (exm unpack_f)); rewrite ?E1, ?E2; try (apply long64; lia); try lia; [apply exm_savable|].
    eapply Relation_Operators.rt1n_trans; [exact (by_merge _ _ _ _ _ _ exm_savable (ex_merges unpack_f unpack_f))|constructor]. }
  destruct fnB_ok as (P1 & P2 & P3 & P4).
  destruct (export_reload p64 doubled) as (bs & EX & _); [apply SV|rewrite E2; discriminate|].
  destruct (export_succeeds' (f64 L) p64 pack_f fsA {| o_mesh := doubled; o_filename := o_filename objA; o_loaded := true |} (Some fnB) fnB false doubled bs (one_tree _ _) eq_refl P1 P2 P3 P4 (conj eq_refl eq_refl) EX) as (f' & E & _).
  exists f'. eexists. split; [apply openA|]. split; [apply exm_savable|]. split; [apply ex_merges|].
  rewrite E1, E2. split; [apply long64; lia|]. split; [apply long64; lia|]. split; [lia|]. split; [|split; [discriminate|exact E]].
  assert (m_kind doubled = kind_of_name fnB) as -> by (vm_compute; reflexivity). apply kind_of_name_spec.
Qed.
(** Translating by 2^-30 gives numbers that a file cannot hold. *)
Definition b_2_m30 : binary64 := unpack_f 813694976.
Lemma translate_lossy L : exists bs m m1 bs1 m2, load p64 unpack_f k_static_ bs = Ok m /\ stored b_2_m30 /\
  translate (f64 L) m [b_2_m30; b_2_m30; b_2_m30] = (m1, None) /\
  export p64 pack_f m1 = (bs1, None) /\ load p64 unpack_f (m_kind m1) bs1 = Ok m2 /\ m2 <> m1.
Proof.
  set (m1 := fst (translate (f64 L) (exm unpack_f) [b_2_m30; b_2_m30; b_2_m30])).
  assert (translate (f64 L) (exm unpack_f) [b_2_m30; b_2_m30; b_2_m30] = (m1, None)) as T by (apply ok_pair; vm_compute; reflexivity).
  assert (vertnum m1 = 6 /\ indexnum m1 = 6) as (E1 & E2) by (split; vm_compute; reflexivity).
  assert (savable p64 7 m1) as SV.
  { apply (history_savable (f64 L) p64 7 (exm unpack_f)); rewrite ?E1, ?E2; try (apply long64; lia); try lia; [apply exm_savable|].
    eapply Relation_Operators.rt1n_trans; [exact (by_translate _ _ _ _ _ _ _ T)|constructor]. }
  destruct (export_reload p64 m1) as (bs1 & EX & LD); [apply SV|rewrite E2; discriminate|].
  exists (ex_file p64 11 k_static_), (exm unpack_f), m1, bs1, (mesh_map (fun x => unpack_f (pack_f x)) m1).
  split; [apply (ex_load_fl p64 11 k_static_ ex_load_static)|]. split; [exists 813694976; split; [lia|reflexivity]|]. split; [exact T|]. split; [exact EX|]. split; [exact LD|].
  intros H. apply (f_equal (fun m => map bits_of_b64 (vertices m))) in H. vm_compute in H. discriminate.
Qed.
