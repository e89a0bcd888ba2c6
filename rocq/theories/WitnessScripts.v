(** Concrete meshes for the scripts. *)
From Coq Require Import ZArith Bool Ascii String List Lia.
From Verif Require Import PyBase Struct Mesh Arith F64 Edit Obj OldEdit Trans Scripts Spec SpecEdit SpecOldEdit SpecTrans CodecBase CodecRaw CodecParam
  CodecFacts Old SpecOld OldFacts VertFacts LayoutFacts OldEditFacts TransFacts DeleteFacts ScriptFacts CopyFacts Witness WitnessEdit WitnessOld WitnessOldEdit WitnessTrans.
Import ListNotations.
Open Scope Z_scope.

(** 26 vertices; vertex [j] holds the number [j] seven times. *)
Definition many : mesh Z :=
  {| m_kind := k_static_; m_head := ex_head 11; m_u1 := 0; geomnum := 1;
     geoms := [ {| lodnum := 1; lods := [ex_lod 11 k_static_ [ex_mat 11 false 0 0 3 26]] |} ];
     vertattribnum := 4; vertex_attributes := ex_attribs;
     vertformat := 4; vertstride := 28; vertnum := 26;
     vertices := flat_map (fun j => repeat (Z.of_nat j) 7) (seq 0 26);
     indexnum := 3; index := Tuple [0; 24; 25]; m_u2 := 8 |}.
Lemma many_packed : packed 7 many.
Proof.
  split.
  - exists 26. split; [reflexivity|]. cbn. lia.
  - exists [0; 24; 25]. split; [reflexivity|]. cbn. lia.
Qed.
Lemma remove_3 : exists m', remove_vertice_id many 3 = (m', None) /\
  block 7 (vertices m') 3 = block 7 (vertices many) 3 /\ block 7 (vertices many) 3 = repeat 3 7 /\
  (forall j, block 7 (vertices m') j <> repeat 24 7) /\ block 7 (vertices many) 24 = repeat 24 7.
Proof.
  exists (fst (remove_vertice_id many 3)). split; [vm_compute; reflexivity|]. split; [vm_compute; reflexivity|]. split; [reflexivity|].
  split; [|reflexivity]. intros j. destruct (Nat.ltb_spec j 25) as [H|H].
  - do 25 (destruct j as [|j]; [vm_compute; discriminate|]). lia.
  - intros E. apply (f_equal (@length Z)) in E. unfold block in E. rewrite firstn_length, skipn_length, repeat_length in E.
    assert (length (vertices (fst (remove_vertice_id many 3))) = 175)%nat as L by (vm_compute; reflexivity). rewrite L in E. lia.
Qed.
Lemma replace_0_5 : exists m', replace_index_id many 0 5 = (m', None) /\ index m' = Tuple [0; 14; 25].
Proof. eexists. split; reflexivity. Qed.

(** The normals of the example file. *)
Lemma ex_table {F} (f : Z -> F) : vertex_attributes (exm f) =
  firstn 1 ex_attribs ++ {| flag := 0; offset := 12; vartype := 2; usage := 3 |} :: skipn 2 ex_attribs.
Proof. reflexivity. Qed.
Lemma ex_others : Forall (fun b => usage b <> 3) (firstn 1 ex_attribs ++ skipn 2 ex_attribs).
Proof. cbn [ex_attribs firstn skipn app]. repeat constructor; discriminate. Qed.
Lemma ex_unused : Forall (fun b => in_use b = false -> offset b = 0) (skipn 2 ex_attribs).
Proof. cbn [ex_attribs skipn]. repeat constructor; discriminate || reflexivity. Qed.
(** Its positions: the terminator has usage 0 as well. *)
Lemma remove_positions {F} (f : Z -> F) : exists m', remove_attribute true (exm f) 0 = (m', None) /\
  map usage (vertex_attributes m') = [0; 3; 2] /\ vertstride m' = vertstride (exm f) /\ zlen (vertices m') = zlen (vertices (exm f)) - 3 * vertnum (exm f) /\
  map offset (vertex_attributes m') = [0; 0; 12].
Proof.
  exists (fst (remove_attribute true (exm f) 0)). split; [vm_compute; reflexivity|]. split; [vm_compute; reflexivity|].
  split; [vm_compute; reflexivity|]. split; vm_compute; reflexivity.
Qed.
(** The normals of a file that has them first. *)
Lemma nf_others : Forall (fun b => usage b <> 3) (skipn 1 nf_attribs).
Proof. cbn [nf_attribs skipn]. repeat constructor; discriminate. Qed.
Lemma nf_no_float4 {F} (f : Z -> F) : Forall (fun a => vartype a <> 3) (vertex_attributes (mesh_map f nf_mesh)).
Proof. change (vertex_attributes (mesh_map f nf_mesh)) with nf_attribs. unfold nf_attribs. repeat constructor; discriminate. Qed.

(** A mesh as loaded: the tables disagree afterwards. *)
Lemma copy_tuple {F} (f : Z -> F) : exists m1 m2, copy_geom_table false false (exm f) (exm f) = (m1, m2, Some EAttribute) /\
  zlen (geoms m1) = geomnum m1 + 1 /\ vertices m1 = vertices (exm f).
Proof.
  exists (fst (fst (copy_geom_table false false (exm f) (exm f)))), (snd (fst (copy_geom_table false false (exm f) (exm f)))).
  split; [vm_compute; reflexivity|]. split; vm_compute; reflexivity.
Qed.
Lemma ex_in_range {F} (f : Z -> F) : in_range 7 (exm f).
Proof.
  split; [eexists; reflexivity|]. change (mats (exm f)) with (mats (exm f)). apply Forall_forall. intros mt H.
  assert (In (vstart mt, vnum mt, istart mt, inum mt) [(0, 3, 0, 3); (3, 3, 3, 3)]) as HI.
  { change [(0, 3, 0, 3); (3, 3, 3, 3)] with (map (fun mt => (vstart mt, vnum mt, istart mt, inum mt)) (mats (exm f))). now apply (in_map (fun mt => (vstart mt, vnum mt, istart mt, inum mt))). }
  assert (zlen (vertices (exm f)) = 42) as L1 by reflexivity. assert (zlen (index_list (exm f)) = 6) as L2 by reflexivity.
  unfold mat_in. rewrite L1, L2. destruct HI as [E|[E|[]]]; injection E as <- <- <- <-; lia.
Qed.
