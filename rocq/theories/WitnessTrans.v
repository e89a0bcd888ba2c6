(** Concrete meshes for VisMeshTransform. *)
From Coq Require Import ZArith Bool Ascii String List Lia.
From Verif Require Import PyBase Struct Mesh Arith F64 Edit Obj OldEdit Trans Spec SpecEdit SpecOldEdit SpecTrans CodecBase CodecRaw CodecParam
  CodecFacts Old SpecOld OldFacts VertFacts LayoutFacts OldEditFacts TransFacts DeleteFacts EditVFacts Witness WitnessEdit WitnessOld WitnessOldEdit.
Import ListNotations.
Open Scope Z_scope.

(** A table longer than geomnum: the file cannot be loaded. *)
Lemma long_order : exists bs m' ids', old_load p64 unpack_f k_static_ bs = Ok (exm unpack_f) /\
  order_geoms_by (exm unpack_f) (fresh (exm unpack_f)) [0; 1; 0] = (m', ids', None) /\
  exists bs' e, old_save p64 pack_f m' = (bs', None) /\ old_load p64 unpack_f k_static_ bs' = Raise e.
Proof.
  exists (ex_file p64 11 k_static_), (fst (fst (order_geoms_by (exm unpack_f) (fresh (exm unpack_f)) [0; 1; 0]))), [0%nat; 1%nat; 0%nat].
  split; [apply ex_old_load|]. split; [reflexivity|].
  set (m' := fst (fst _)).
  assert (match old_save p64 pack_f m' with (bs, None) => match old_load p64 unpack_f k_static_ bs with Raise _ => true | Ok _ => false end | _ => false end = true) as H.
  { vm_compute. reflexivity. }
  destruct (old_save p64 pack_f m') as (bs, [e|]); [discriminate|]. destruct (old_load p64 unpack_f k_static_ bs) eqn:E; [discriminate|]. eauto.
Qed.

(** Renaming a texture of a geom renames it in the copy. *)
Lemma copies_share F (f : Z -> F) : exists m1 ids1 m2, copy_geom_id (exm f) (fresh (exm f)) 0 2 = (m1, ids1, None) /\
  rename_texture m1 ids1 0 0 0 0 (of_string "b.dds") = (m2, None) /\
  map_at m1 2 0 0 0 = Some (of_string "a.dds") /\ map_at m2 2 0 0 0 = Some (of_string "b.dds") /\ map_at m2 1 0 0 0 = Some (of_string "a.dds").
Proof.
  exists (fst (fst (copy_geom_id (exm f) (fresh (exm f)) 0 2))), [0%nat; 1%nat; 0%nat].
  exists (fst (rename_texture (fst (fst (copy_geom_id (exm f) (fresh (exm f)) 0 2))) [0%nat; 1%nat; 0%nat] 0 0 0 0 (of_string "b.dds"))).
  repeat split.
Qed.

(** A negative geom number, a shared geom, an index tuple. *)
Lemma delete_negative F (f : Z -> F) : exists m' ids', delete_geom_id true true (exm f) (fresh (exm f)) (-1) = (m', ids', None) /\
  exists mt, In mt (mats m') /\ vstart mt = -3.
Proof.
  exists (fst (fst (delete_geom_id true true (exm f) (fresh (exm f)) (-1)))), [0%nat]. split; [vm_compute; reflexivity|].
  eexists. split; [vm_compute; left; reflexivity|]. reflexivity.
Qed.
Lemma delete_shared F (f : Z -> F) : exists m1 ids1 m' ids', copy_geom_id (exm f) (fresh (exm f)) 0 2 = (m1, ids1, None) /\
  delete_geom_id true true m1 ids1 0 = (m', ids', None) /\ exists mt, In mt (mats m') /\ vstart mt = -3.
Proof.
  exists (fst (fst (copy_geom_id (exm f) (fresh (exm f)) 0 2))), [0%nat; 1%nat; 0%nat].
  exists (fst (fst (delete_geom_id true true (fst (fst (copy_geom_id (exm f) (fresh (exm f)) 0 2))) [0%nat; 1%nat; 0%nat] 0))), [1%nat; 0%nat].
  split; [reflexivity|]. split; [vm_compute; reflexivity|].
  eexists. split; [vm_compute; right; left; reflexivity|]. reflexivity.
Qed.
Lemma delete_half F (f : Z -> F) : exists m', delete_geom_id true false (exm f) (fresh (exm f)) 0 = (m', fresh (exm f), Some EType) /\
  zlen (vertices m') = 21 /\ vertnum m' = 3 /\ geoms m' = geoms (exm f) /\ index m' = index (exm f).
Proof.
  exists (fst (fst (delete_geom_id true false (exm f) (fresh (exm f)) 0))). split; [vm_compute; reflexivity|]. repeat split.
Qed.

Lemma ex_deletes {F} (f : Z -> F) : exists g l0 m0 lt mtl, nth_error (geoms (exm f)) 0 = Some g /\ lods g = l0 :: lt /\ materials l0 = m0 :: mtl /\ indexnum (exm f) - geom_inum g <> 1.
Proof. do 5 eexists. split; [reflexivity|]. split; [reflexivity|]. split; [reflexivity|discriminate]. Qed.
Lemma b_dds_wf : wf_string p64 (of_string "b.dds").
Proof. apply fits_long_iff. reflexivity. Qed.
Lemma ex_wf_map {F} (f : Z -> F) : wf p64 (exm f).
Proof. apply wf_map. apply (ex_wf p64 11 k_static_), ex_load_static. Qed.
Lemma ex_no_float4 {F} (f : Z -> F) : Forall (fun a => vartype a <> 3) (vertex_attributes (exm f)).
Proof. change (vertex_attributes (exm f)) with ex_attribs. unfold ex_attribs. repeat constructor; discriminate. Qed.
Lemma ex_start {F} (f : Z -> F) a : In a (vertex_attributes (exm f)) -> usage a = 0 -> attrib_start (exm f) a = 0%nat.
Proof.
  change (vertex_attributes (exm f)) with ex_attribs. unfold ex_attribs. cbn [In]. intros H Hu.
  repeat match goal with H : _ \/ _ |- _ => destruct H as [H|H] end; subst; try contradiction; try discriminate; reflexivity.
Qed.

(** Positions after the normals: the terminator has usage 0 and offset 0. *)
Definition nf_attribs : list vertattrib :=
  [ {| flag := 0; offset := 0; vartype := 2; usage := 3 |};
    {| flag := 0; offset := 12; vartype := 2; usage := 0 |};
    {| flag := 0; offset := 24; vartype := 4; usage := 2 |};
    {| flag := 255; offset := 0; vartype := 17; usage := 0 |} ].
Definition nf_mesh : mesh Z :=
  {| m_kind := k_static_; m_head := ex_head 11; m_u1 := 0; geomnum := 1;
     geoms := [ {| lodnum := 1; lods := [ex_lod 11 k_static_ [ex_mat 11 false 0 0 3 3]] |} ];
     vertattribnum := 4; vertex_attributes := nf_attribs;
     vertformat := 4; vertstride := 28; vertnum := 3;
     vertices := [b0; b1; b0; b0; b0; b0; b0;  b0; b1; b0; b1; b0; b0; b0;  b0; b1; b0; b0; b0; b1; b0];
     indexnum := 3; index := Tuple [0; 1; 2]; m_u2 := 8 |}.
Lemma nf_load : old_load p64 unpack_f k_static_ (file_of nf_mesh) = Ok (fl nf_mesh).
Proof. loads. Qed.
Lemma nf_canonical {F} (f : Z -> F) : canonical 7 (mesh_map f nf_mesh).
Proof.
  constructor.
  - lia.
  - split; [reflexivity|]. cbn [vertex_attributes mesh_map nf_mesh]. unfold nf_attribs. repeat constructor; cbn; lia.
  - cbn [vertex_attributes mesh_map nf_mesh]. unfold nf_attribs. repeat apply Forall_cons; try apply Forall_nil; split; cbn; tauto.
  - change (filter in_use (vertex_attributes (mesh_map f nf_mesh))) with (firstn 3 nf_attribs). cbn [nf_attribs firstn].
    apply (declared_cons _ 0 _ 3); [cbn; tauto|reflexivity|]. apply (declared_cons _ 3 _ 3); [cbn; tauto|reflexivity|].
    apply (declared_cons _ 6 _ 1); [cbn; tauto|reflexivity|]. apply (declared_nil _ 7).
  - change (map usage _) with [3; 0; 2]. repeat constructor; cbn; lia.
  - reflexivity.
  - reflexivity.
  - discriminate.
Qed.
Lemma edits_normal F (f : Z -> F) x y z : exists a m', let m := mesh_map f nf_mesh in
  canonical 7 m /\ has_attrib m 3 a /\ attrib_start m a = 0%nat /\ edit_vertex true m 0 0 [x; y; z] = (m', None) /\
  map (number_at 7 m' 0) [0; 1; 2]%nat = [Some x; Some y; Some z].
Proof.
  exists {| flag := 0; offset := 0; vartype := 2; usage := 3 |}, (fst (edit_vertex true (mesh_map f nf_mesh) 0 0 [x; y; z])). cbv zeta.
  split; [apply nf_canonical|]. split; [repeat split; now left|]. split; [reflexivity|]. split; vm_compute; reflexivity.
Qed.
