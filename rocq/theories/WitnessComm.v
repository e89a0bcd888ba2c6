(** Concrete meshes for the laws between editing methods. *)
From Coq Require Import ZArith Bool Ascii String List Lia Permutation Reals.
From Flocq Require Import IEEE754.Binary IEEE754.Bits.
From Verif Require Import PyBase Struct Mesh Arith F64 RArith Edit Obj Spec CodecBase CodecRaw CodecParam
  CodecFacts SpecEdit TravFacts VertFacts LayoutFacts MergeFacts ReorderFacts RFacts MoveFacts SpecBounds BoundFacts Witness WitnessEdit WitnessBounds WitnessMerge WitnessReorder WitnessTrans.
Import ListNotations.
Open Scope Z_scope.

(** The same attribute table with 12 bytes per number. *)
Definition nf_wide : mesh Z :=
  {| m_kind := m_kind nf_mesh; m_head := m_head nf_mesh; m_u1 := m_u1 nf_mesh; geomnum := geomnum nf_mesh; geoms := geoms nf_mesh;
     vertattribnum := vertattribnum nf_mesh; vertex_attributes := vertex_attributes nf_mesh; vertformat := 12; vertstride := 84;
     vertnum := vertnum nf_mesh; vertices := vertices nf_mesh; indexnum := indexnum nf_mesh; index := index nf_mesh; m_u2 := m_u2 nf_mesh |}.
Lemma nf_loads' : load p64 unpack_f k_static_ (file_of nf_mesh) = Ok (fl nf_mesh).
Proof. rewrite load_via. replace (load p64 raw k_static_ (file_of nf_mesh)) with (Ok nf_mesh) by (vm_compute; reflexivity). reflexivity. Qed.
Lemma nf_wide_loads : load p64 unpack_f k_static_ (file_of nf_wide) = Ok (fl nf_wide).
Proof. rewrite load_via. replace (load p64 raw k_static_ (file_of nf_wide)) with (Ok nf_wide) by (vm_compute; reflexivity). reflexivity. Qed.
Lemma nf_packed {F} (f : Z -> F) : packed 7 (mesh_map f nf_mesh) /\ packed 7 (mesh_map f nf_wide).
Proof. split; (split; [exists 3|eexists]; (split; [reflexivity|]); cbn; repeat split; lia). Qed.
Lemma nf_short {F} (f : Z -> F) : short_offsets (mesh_map f nf_mesh) /\ short_offsets (mesh_map f nf_wide).
Proof.
  split; (split; [reflexivity|]; cbn [vertex_attributes mesh_map nf_mesh nf_wide]; unfold nf_attribs; repeat constructor; cbn; lia).
Qed.

Lemma merged_pair {B} (x : B * merge_result) : snd x = Merged -> x = (fst x, Merged).
Proof. destruct x. cbn. now intros ->. Qed.

Theorem formats_matter L : exists bs bs' a b a' b' r r' s, load p64 unpack_f k_static_ bs = Ok a /\ load p64 unpack_f k_static_ bs' = Ok b /\
  vertex_size a = Ok (Z.of_nat 7) /\ short_offsets a /\ short_offsets b /\ packed 7 a /\ packed 7 b /\
  translate (f64 L) a one3 = (a', None) /\ translate (f64 L) b one3 = (b', None) /\ merge a' b' = (r', Merged) /\
  merge a b = (r, Merged) /\ translate (f64 L) r one3 = (s, None) /\ s <> r'.
Proof.
  exists (file_of nf_mesh), (file_of nf_wide), (fl nf_mesh), (fl nf_wide).
  exists (fst (translate (f64 L) (fl nf_mesh) one3)), (fst (translate (f64 L) (fl nf_wide) one3)).
  exists (fst (merge (fl nf_mesh) (fl nf_wide))).
  exists (fst (merge (fst (translate (f64 L) (fl nf_mesh) one3)) (fst (translate (f64 L) (fl nf_wide) one3)))).
  exists (fst (translate (f64 L) (fst (merge (fl nf_mesh) (fl nf_wide))) one3)).
  split; [exact nf_loads'|]. split; [exact nf_wide_loads|]. split; [reflexivity|].
  split; [apply nf_short|]. split; [apply nf_short|]. split; [apply nf_packed|]. split; [apply nf_packed|].
  split; [apply ok_pair; vm_compute; reflexivity|]. split; [apply ok_pair; vm_compute; reflexivity|].
  split; [apply merged_pair; vm_compute; reflexivity|]. split; [apply merged_pair; vm_compute; reflexivity|]. split; [apply ok_pair; vm_compute; reflexivity|].
  intros H. apply (f_equal (fun m => map pack_f (vertices m))) in H. vm_compute in H. discriminate.
Qed.

(** The hypotheses of the laws are met. *)
Lemma comm_example L : let m := fl duo_mesh in vertex_size m = Ok (Z.of_nat 7) /\ short_offsets m /\ rotate_ready 7 m /\ packed 7 m /\
  sumZ vnum (mats m) = 6 /\ permutes (List.length (geoms m)) [1; -2] [1%nat; 0%nat] /\
  (exists m', translate (f64 L) m one3 = (m', None) /\ exists r, merge m m = (r, Merged) /\ exists r', merge m' m' = (r', Merged)) /\
  exists a, position_attrib m = Some a.
Proof.
  cbv zeta. split; [reflexivity|].
  assert (short_offsets (fl duo_mesh)) as S.
  { split; [reflexivity|]. cbn [vertex_attributes fl mesh_map duo_mesh two_geoms]. unfold ex_attribs. repeat constructor; cbn; lia. }
  split; [exact S|]. split; [split; [exact S|split]|].
  - change (oriented_attribs (fl duo_mesh)) with (firstn 2 ex_attribs). repeat constructor; cbn; lia.
  - change (oriented_attribs (fl duo_mesh)) with (firstn 2 ex_attribs). repeat constructor; cbn; lia.
  - split; [apply duo_packed|]. split; [reflexivity|]. split; [apply duo_swap|]. split; [|eexists; reflexivity].
    exists (fst (translate (f64 L) (fl duo_mesh) one3)). split; [apply ok_pair; vm_compute; reflexivity|].
    exists (fst (merge (fl duo_mesh) (fl duo_mesh))). split; [apply merged_pair; vm_compute; reflexivity|].
    exists (fst (merge (fst (translate (f64 L) (fl duo_mesh) one3)) (fst (translate (f64 L) (fl duo_mesh) one3)))). apply merged_pair; vm_compute; reflexivity.
Qed.

(** Bounds of a merged mesh. *)
Lemma bounds_example L : let m := exm unpack_f in vertex_size m = Ok (Z.of_nat 7) /\ short_offsets m /\ bounded_kind m /\ in_range 7 m /\
  Forall (fun mt => Forall (fun q => forall i, In i axes -> is_nan 53 1024 (axis i q) = false) (positions 7 m mt)) (mats m) /\
  exists r m' r', merge m m = (r, Merged) /\ update_boundaries (f64 L) m = (m', None) /\ update_boundaries (f64 L) r = (r', None).
Proof.
  cbv zeta. split; [apply ex_size|]. split; [apply ex_short|]. split; [apply ex_bounded|]. split; [apply packed_in_range, ex_packed|].
  split; [apply ex_numbers|]. exists (fst (merge (exm unpack_f) (exm unpack_f))). destruct (ex_updates (f64 L) unpack_f) as (m' & E).
  exists m', (fst (update_boundaries (f64 L) (fst (merge (exm unpack_f) (exm unpack_f))))).
  split; [apply ex_merges|]. split; [exact E|]. apply ok_pair. vm_compute. reflexivity.
Qed.

Lemma move_example : vertex_size (exm zr) = Ok (Z.of_nat 7) /\ tiled_vertices 7 (exm zr) /\ rotate_ready 7 (exm zr) /\
  (exists a, position_attrib (exm zr) = Some a) /\ exists m', translate exact (exm zr) [1; 2; 3]%R = (m', None).
Proof.
  split; [apply ex_size|]. split; [apply ex_tiled|]. split; [apply ex_ready|].
  destruct (ex_position zr) as (a & E & H). split; [now exists a|].
  apply (translate_succeeds exact 7 (exm zr) [1; 2; 3]%R (ex_size zr)); [lia|apply ex_tiled|apply ex_short|].
  intros _. exists a. split; [exact E|exact H].
Qed.
