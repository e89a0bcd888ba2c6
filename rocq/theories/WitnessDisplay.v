(** Concrete meshes for the output of deprecated/mesh_read.py. *)
From Coq Require Import ZArith Bool Ascii String List Lia.
From Flocq Require Import IEEE754.Binary IEEE754.Bits.
From Verif Require Import PyBase Struct Mesh Arith F64 Edit OldEdit Spec SpecEdit SpecBounds SpecOldEdit CodecBase CodecRaw CodecParam F64Facts
  CodecFacts Old SpecOld OldFacts TravFacts VertFacts LayoutFacts OldEditFacts OldEditThms
  Witness WitnessEdit WitnessMerge WitnessBounds WitnessOld WitnessOldEdit WitnessTrans Display SpecDisplay DisplayFacts.
Import ListNotations.
Open Scope Z_scope.

Lemma b0_neq_b1 : unpack_f b0 <> unpack_f b1.
Proof.
  intros X. apply (f_equal pack_f) in X. rewrite !pack_unpack in X; [discriminate X| | | |].
  all: unfold is_bits32, snan, b0, b1; cbn; lia.
Qed.
Definition many_mesh : mesh Z :=
  let m := ex_mesh 11 k_skinned_ in
  {| m_kind := m_kind m; m_head := m_head m; m_u1 := m_u1 m; geomnum := 19;
     geoms := repeat {| lodnum := 1; lods := [ex_lod 11 k_skinned_ [ex_mat 11 true 0 0 6 6]] |} 19;
     vertattribnum := vertattribnum m; vertex_attributes := vertex_attributes m;
     vertformat := vertformat m; vertstride := vertstride m; vertnum := vertnum m;
     vertices := vertices m; indexnum := indexnum m; index := index m; m_u2 := m_u2 m |}.
Lemma many_load : old_load p64 unpack_f skinned_kind (file_of many_mesh) = Ok (fl many_mesh).
Proof. change skinned_kind with k_skinned_. loads. Qed.
Lemma many_mats : exists a b, mat_at (fl many_mesh) 17 0 0 a /\ mat_at (fl many_mesh) 18 0 0 b.
Proof. eexists _, _. split; apply material_of_at; reflexivity. Qed.
Lemma few_load : old_load p64 unpack_f skinned_kind (file_of (ex_mesh 11 k_skinned_)) = Ok (fl (ex_mesh 11 k_skinned_)).
Proof. change skinned_kind with k_skinned_. loads. Qed.
Lemma few_mats a b : ~ (mat_at (fl (ex_mesh 11 k_skinned_)) 17 0 0 a /\ mat_at (fl (ex_mesh 11 k_skinned_)) 18 0 0 b).
Proof. intros (H & _). apply material_of_at in H. discriminate. Qed.

(** With normals first, the corner lines show normals. *)
Lemma corners_normals : exists bs m ls v q, old_load p64 unpack_f k_static_ bs = Ok m /\ canonical 7 m /\
  display_mesh_data m = (ls, None) /\ In (CornerLine v q) ls /\ 0 <= v < vertnum m /\
  field_of 7 m (Z.to_nat v) 3 (Some q) /\ ~ field_of 7 m (Z.to_nat v) 0 (Some q).
Proof.
  destruct (display_ok 7 (fl nf_mesh) (nf_canonical _) [0; 1; 2]) as (ls & E & S); [|reflexivity|].
  { change (vertex_attributes (fl nf_mesh)) with nf_attribs. unfold nf_attribs. repeat constructor; discriminate. }
  exists (file_of nf_mesh), (fl nf_mesh), ls, 0, [unpack_f b0; unpack_f b1; unpack_f b0].
  split; [exact nf_load|]. split; [apply nf_canonical|]. split; [exact E|]. split; [|split; [cbn; lia|split]].
  - assert (0 <= 0 < vertnum (fl nf_mesh)) as B by (cbn; lia).
    exact (nth_error_In _ _ (shown_corner _ _ _ _ S 0%nat 0 eq_refl B ltac:(lia))).
  - left. exists {| flag := 0; offset := 0; vartype := 2; usage := 3 |}, 3%nat. repeat split; cbn; tauto.
  - intros [(a & w & (H1 & H2 & H3) & Hw & H)|(_ & H)]; [|discriminate].
    change (vertex_attributes (fl nf_mesh)) with nf_attribs in H1. cbn [nf_attribs In] in H1.
    repeat match goal with H : _ \/ _ |- _ => destruct H as [H|H] end; subst; try contradiction; try discriminate.
    cbn in Hw. repeat match goal with H : _ \/ _ |- _ => destruct H as [H|H] end; try contradiction; try discriminate.
    injection Hw as <-. apply b0_neq_b1. apply (f_equal (fun o => match o with Some (_ :: y :: _) => y | _ => unpack_f b0 end)) in H.
    symmetry. exact H.
Qed.
