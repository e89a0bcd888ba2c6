(** Concrete meshes for change_geoms_order. *)
From Coq Require Import ZArith List Bool Ascii String Lia Permutation.
From Flocq Require Import IEEE754.Binary IEEE754.Bits.
From Verif Require Import PyBase Struct Mesh Arith F64 Edit Obj Spec CodecBase CodecRaw CodecParam
  CodecFacts SpecEdit TravFacts VertFacts LayoutFacts MergeFacts ReorderFacts Witness WitnessEdit WitnessMerge.
Import ListNotations.
Open Scope Z_scope.

(** Two geoms, packed. *)
Definition duo_mesh : mesh Z := two_geoms (ex_mat 11 false 0 0 3 3) (ex_mat 11 false 3 3 3 3) swapped_verts.
Lemma duo_loads : load p64 unpack_f k_static_ (file_of duo_mesh) = Ok (fl duo_mesh).
Proof. rewrite load_via. replace (load p64 raw k_static_ (file_of duo_mesh)) with (Ok duo_mesh) by (vm_compute; reflexivity). reflexivity. Qed.
Lemma duo_packed {F} (f : Z -> F) : packed 7 (mesh_map f duo_mesh).
Proof.
  split; [exists 6|eexists]; (split; [reflexivity|]); cbn; repeat split; lia.
Qed.
Lemma duo_closed {F} (f : Z -> F) : closed (mesh_map f duo_mesh).
Proof. apply closed_check. vm_compute. reflexivity. Qed.
Lemma duo_swap : permutes 2 [1; -2] [1%nat; 0%nat].
Proof.
  split; [|apply perm_swap]. repeat constructor; cbn; lia.
Qed.

(** An order that names geom 1 twice: both end up with what geom 0 had. *)
Lemma duplicates_wrong : exists bs m m' g, load p64 unpack_f k_static_ bs = Ok m /\
  vertex_size m = Ok (Z.of_nat 7) /\ packed 7 m /\ closed m /\ nth_error (geoms m) 1 = Some g /\
  change_geoms_order m [1; 1] = (m', None) /\ List.length (geoms m') = 2%nat /\
  Forall (fun g' => map (mat_vertices 7 m') (mats_of [g']) <> map (mat_vertices 7 m) (mats_of [g])) (geoms m').
Proof.
  exists (file_of duo_mesh), (fl duo_mesh), (fst (change_geoms_order (fl duo_mesh) [1; 1])). eexists.
  split; [apply duo_loads|]. split; [reflexivity|]. split; [apply duo_packed|]. split; [apply duo_closed|].
  split; [reflexivity|]. split; [apply ok_pair; vm_compute; reflexivity|]. split; [reflexivity|].
  repeat constructor; intros H; apply (f_equal (map (map (map pack_f)))) in H; vm_compute in H; discriminate.
Qed.

(** An out-of-range entry after a valid one: the mesh is left with other offsets. *)
Lemma bad_order_not_atomic : exists bs m m', load p64 unpack_f k_static_ bs = Ok m /\
  packed 7 m /\ change_geoms_order m [1; 2] = (m', Some EIndex) /\ m' <> m /\
  exists x y, nth_error (mats m) 1 = Some x /\ nth_error (mats m') 1 = Some y /\
    mat_vertices 7 m' y <> mat_vertices 7 m x.
Proof.
  exists (file_of duo_mesh), (fl duo_mesh), (fst (change_geoms_order (fl duo_mesh) [1; 2])).
  split; [apply duo_loads|]. split; [apply duo_packed|].
  split; [rewrite (surjective_pairing (change_geoms_order _ _)) at 1; f_equal; vm_compute; reflexivity|].
  split. { intros H. apply (f_equal (fun m => map vstart (mats m))) in H. vm_compute in H. discriminate. }
  eexists. eexists. split; [reflexivity|]. split; [reflexivity|].
  intros H; apply (f_equal (map (map pack_f))) in H; vm_compute in H; discriminate.
Qed.

(** A loadable mesh that skips vertices: after the identity order the saved file
    does not load. *)
Lemma reorder_unloadable : exists bs m m' bs', load p64 unpack_f k_static_ bs = Ok m /\
  vertex_size m = Ok (Z.of_nat 7) /\ in_range 7 m /\
  change_geoms_order m [0; 1] = (m', None) /\ export p64 pack_f m' = (bs', None) /\
  forall m2, load p64 unpack_f k_static_ bs' <> Ok m2.
Proof.
  exists (file_of gap_mesh), (fl gap_mesh), (fst (change_geoms_order (fl gap_mesh) [0; 1])).
  exists (fst (export p64 pack_f (fst (change_geoms_order (fl gap_mesh) [0; 1])))).
  split; [apply gap_loads|]. split; [reflexivity|]. split; [unfold fl, gap_mesh; rewrite mesh_map_map; apply two_in_range; cbn; lia|].
  split; [apply ok_pair; vm_compute; reflexivity|]. split; [apply ok_pair; vm_compute; reflexivity|].
  intros m2 H. rewrite load_via in H.
  assert (match load p64 raw k_static_ (fst (export p64 pack_f (fst (change_geoms_order (fl gap_mesh) [0; 1])))) with
          | Ok _ => false | Raise _ => true end = true) as E by (vm_compute; reflexivity).
  destruct (load p64 raw k_static_ _); [discriminate|]. discriminate.
Qed.
