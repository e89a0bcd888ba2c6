(** The property theorems. Proofs live in the other files; the examples beside the
    theorems are concrete cases that meet their hypotheses. *)
From Coq Require Import ZArith List Bool Ascii String.
From Flocq Require Import IEEE754.Binary IEEE754.Bits.
From Verif Require Import PyBase Struct Mesh Arith F64 Edit Obj Spec SpecF.
From Coq Require Import Reals.
From Verif Require Import RArith SpecEdit.
From Verif Require Import Heap HeapFacts WitnessHeap CodecRaw CodecFacts F64Facts SpecFormat FormatFacts Witness VertFacts RFacts LayoutFacts MergeFacts ReorderFacts WitnessEdit WitnessMerge WitnessReorder
  BoundFacts CenterFacts RecentreFacts WitnessBounds SpecBounds.
Import ListNotations.
Open Scope Z_scope.

(** * The file codec *)

(** C01. [load p (fun b => b)] is the loader that keeps floats as 32-bit patterns. *)
Theorem C01_lossless_reexport : forall p k bs m,
  load p unpack_f k bs = Ok m ->
  (forall mr, load p (fun b => b) k bs = Ok mr -> mesh_all (fun b => ~ snan b) mr) ->
  indexnum m <> 1 ->
  export p pack_f m = (bs, None).
Proof. exact reexport_exact. Qed.
Print Assumptions C01_lossless_reexport.
Example C01_example : exists m,
  load p64 unpack_f k_static_ (ex_file p64 11 k_static_) = Ok m /\
  (forall mr, load p64 (fun b => b) k_static_ (ex_file p64 11 k_static_) = Ok mr ->
     mesh_all (fun b => ~ snan b) mr) /\ indexnum m <> 1.
Proof.
  exists (fl (ex_mesh 11 k_static_)). split; [apply ex_load_fl, ex_load_static|].
  split; [|discriminate]. intros mr H. pose proof ex_load_static as E. unfold check_load in E.
  change (fun b => b) with raw in H. rewrite E in H. injection H as <-. apply ex_no_snan.
Qed.

(** C02 *)
Theorem C02_save_reload : forall p m,
  wf p m -> indexnum m <> 1 ->
  exists bs round, (forall x, rounds_to_single x (round x)) /\ (forall x, is_single x -> round x = x) /\
    export p pack_f m = (bs, None) /\
    load p unpack_f (m_kind m) bs = Ok (mesh_map round m).
Proof. exact export_reload_round. Qed.
Print Assumptions C02_save_reload.
Theorem C02_save_reload_exact : forall p m,
  wf p m -> indexnum m <> 1 -> mesh_all is_single m ->
  exists bs, export p pack_f m = (bs, None) /\ load p unpack_f (m_kind m) bs = Ok m.
Proof. exact export_reload_exact. Qed.
Print Assumptions C02_save_reload_exact.
Example C02_example : wf p64 (fl (ex_mesh 11 k_static_)) /\ indexnum (fl (ex_mesh 11 k_static_)) <> 1 /\
  mesh_all is_single (fl (ex_mesh 11 k_static_)).
Proof. exact ex_wf_single. Qed.

(** C03 *)
Theorem C03_loaded_consistent : forall p k bs (m : mesh binary64),
  load p unpack_f k bs = Ok m -> wf p m /\ m_kind m = k.
Proof. exact (fun p => loaded_wf p unpack_f). Qed.
Print Assumptions C03_loaded_consistent.
Example C03_example : exists m, load p32 unpack_f k_skinned_ (ex_file p32 11 k_skinned_) = Ok m.
Proof. eexists. apply ex_load_fl, ex_load_skinned. Qed.

(** C04 *)
Theorem C04_trailing_data_rejected : forall p k bs (m : mesh binary64) extra,
  load p unpack_f k bs = Ok m -> extra <> [] -> load p unpack_f k (bs ++ extra) = Raise EAttribute.
Proof. exact (fun p => trailing_rejected p unpack_f). Qed.
Print Assumptions C04_trailing_data_rejected.
Example C04_example : exists m, load p64 unpack_f k_bundled_ (ex_file p64 6 k_bundled_) = Ok m.
Proof. eexists. apply ex_load_fl, ex_load_bundled. Qed.

(** C05 *)
Theorem C05_truncated_file_rejected : forall p k bs (m : mesh binary64) n,
  load p unpack_f k bs = Ok m -> (n < List.length bs)%nat ->
  load p unpack_f k (firstn n bs) = Raise EStruct.
Proof. exact (fun p => truncated_rejected p unpack_f). Qed.
Print Assumptions C05_truncated_file_rejected.
Example C05_example : exists m, load p64 unpack_f k_bundled_ (ex_file p64 6 k_bundled_) = Ok m /\
  (500 < List.length (ex_file p64 6 k_bundled_))%nat.
Proof.
  eexists. split; [apply ex_load_fl, ex_load_bundled|]. apply Nat.ltb_lt. vm_compute. reflexivity.
Qed.

(** C06 *)
Theorem C06_load_injective : forall p k bs1 bs2 m,
  load p unpack_f k bs1 = Ok m -> load p unpack_f k bs2 = Ok m ->
  (forall mr, load p (fun b => b) k bs1 = Ok mr -> mesh_all (fun b => ~ snan b) mr) ->
  (forall mr, load p (fun b => b) k bs2 = Ok mr -> mesh_all (fun b => ~ snan b) mr) ->
  indexnum m <> 1 -> bs1 = bs2.
Proof. exact load_injective. Qed.
Print Assumptions C06_load_injective.
(** Without the NaN hypothesis it is false. *)
Theorem C06_without_nan_hypothesis_refuted : exists bs1 bs2 m,
  load p64 unpack_f k_static_ bs1 = Ok m /\ load p64 unpack_f k_static_ bs2 = Ok m /\
  indexnum m <> 1 /\ bs1 <> bs2.
Proof. exact snan_not_injective. Qed.
Print Assumptions C06_without_nan_hypothesis_refuted.

(** C07 *)
Theorem C07_reexport_stable : forall p k bs m,
  load p unpack_f k bs = Ok m -> indexnum m <> 1 ->
  exists bs', export p pack_f m = (bs', None) /\ List.length bs' = List.length bs /\
    load p unpack_f k bs' = Ok m.
Proof. exact reexport_stable. Qed.
Print Assumptions C07_reexport_stable.
Theorem C07_byte_exactness_refuted : exists bs m,
  load p64 unpack_f k_static_ bs = Ok m /\ indexnum m <> 1 /\ export p64 pack_f m <> (bs, None).
Proof. exact snan_not_exact. Qed.
Print Assumptions C07_byte_exactness_refuted.

(** C08 *)
Theorem C08_single_index : forall p k bs m,
  load p unpack_f k bs = Ok m -> indexnum m = 1 ->
  exists pre, export p pack_f m = (pre, Some EType) /\
    zlen pre = head_size (Z.of_nat (long_bytes p)) m /\ (List.length pre < List.length bs)%nat /\
    ((forall mr, load p (fun b => b) k bs = Ok mr -> mesh_all (fun b => ~ snan b) mr) ->
     exists post, bs = pre ++ post).
Proof. exact single_index_export. Qed.
Print Assumptions C08_single_index.
(** Whatever happened to the mesh in between: with a bare index no export succeeds. *)
Theorem C08_single_index_never_exports : forall p (m : mesh binary64) v,
  index m = Scalar v -> snd (export p pack_f m) = Some EStruct \/ snd (export p pack_f m) = Some EType.
Proof. exact scalar_never_exports. Qed.
Print Assumptions C08_single_index_never_exports.
Example C08_example : exists m, load p64 unpack_f k_static_ one_file = Ok m /\ indexnum m = 1.
Proof. eexists. split; [apply one_file_loads_fl|reflexivity]. Qed.

(** C09 *)
Theorem C09_single_vertex_number_rejected : forall p k (m : mesh binary64) bs x t,
  export p pack_f m = (bs, None) ->
  List.length (geoms m) = Z.to_nat (geomnum m) ->
  List.length (vertex_attributes m) = Z.to_nat (vertattribnum m) ->
  data_num (vertstride m) (vertformat m) (vertnum m) = Ok 1 ->
  vertices m = x :: t ->
  load p unpack_f k bs = Raise EType.
Proof. exact (fun p => single_vertex_number_rejected p pack_f unpack_f). Qed.
Print Assumptions C09_single_vertex_number_rejected.
Theorem C09_never_one_vertex_number : forall p k bs (m : mesh binary64),
  load p unpack_f k bs = Ok m -> List.length (vertices m) <> 1%nat.
Proof. exact loaded_not_one_vertex. Qed.
Print Assumptions C09_never_one_vertex_number.
Example C09_example : exists bs, export p64 pack_f (fl scalar_vertex_mesh) = (bs, None) /\
  data_num (vertstride scalar_vertex_mesh) (vertformat scalar_vertex_mesh) (vertnum scalar_vertex_mesh) = Ok 1.
Proof. exact scalar_vertex_ok_fl. Qed.

(** C10 *)
Theorem C10_not_portable : forall p4 p8 k bs (m : mesh binary64),
  long_sz p4 = Long4 -> long_sz p8 = Long8 ->
  ~ (load p4 unpack_f k bs = Ok m /\ load p8 unpack_f k bs = Ok m).
Proof. exact not_portable_same. Qed.
Print Assumptions C10_not_portable.
Example C10_example : exists m,
  load p32 unpack_f k_static_ (ex_file p32 11 k_static_) = Ok m /\
  load p64 unpack_f k_static_ (ex_file p64 11 k_static_) = Ok m.
Proof.
  eexists. split; [apply ex_load_fl, ex_load_static32|apply ex_load_fl, ex_load_static].
Qed.

(** C13 *)
Theorem C13_skinned_extension_loses : forall p k k' bs (m : mesh binary64),
  isSkinnedMesh k <> isSkinnedMesh k' ->
  load p unpack_f k bs = Ok m -> load p unpack_f k' bs <> Ok (with_kind k' m).
Proof. exact (fun p => wrong_kind_skinned p unpack_f). Qed.
Print Assumptions C13_skinned_extension_loses.
Theorem C13_static_bundled_extension : forall p m k' bs,
  isSkinnedMesh (m_kind m) = false -> isSkinnedMesh k' = false ->
  wf p m -> indexnum m <> 1 -> export p pack_f m = (bs, None) ->
  (load p unpack_f k' bs = Ok (with_kind k' (mesh_map (fun x => unpack_f (pack_f x)) m)) <->
   isBundledMesh (m_kind m) = isBundledMesh k' \/ no_nodes m).
Proof. exact wrong_kind_nodes. Qed.
Print Assumptions C13_static_bundled_extension.
Example C13_example : exists bs m, load p64 unpack_f k_static_ bs = Ok m /\ ~ no_nodes m /\
  wf p64 m /\ export p64 pack_f m = (bs, None).
Proof. exact ex_kinds. Qed.

(** C47 *)
Theorem C47_loadable_files_are_serialisations : forall p k bs,
  (exists m, load p unpack_f k bs = Ok m /\ indexnum m <> 1) <->
  (exists mr : mesh Z, wf p mr /\ mesh_all is_bits32 mr /\ m_kind mr = k /\ indexnum mr <> 1 /\
     export p (fun b => b) mr = (bs, None)).
Proof. exact loadable_iff. Qed.
Print Assumptions C47_loadable_files_are_serialisations.

(** C48 *)
Theorem C48_file_length : forall p k bs (m : mesh binary64),
  load p unpack_f k bs = Ok m -> zlen bs = file_size (Z.of_nat (long_bytes p)) m.
Proof. exact loaded_file_size. Qed.
Print Assumptions C48_file_length.

(** C52. [mesh_fields] lists the typed fields of a mesh in file order and [laid_out]
    says which bytes hold them (SpecFormat.v). *)
Theorem C52_load_layout : forall p k bs m, indexnum m <> 1 ->
  (load p unpack_f k bs = Ok m <->
   exists mr : mesh Z, m = mesh_map unpack_f mr /\ wf p mr /\ mesh_all is_bits32 mr /\ m_kind mr = k /\
     laid_out p (mesh_fields mr) bs).
Proof. exact load_layout. Qed.
Print Assumptions C52_load_layout.
Theorem C52_export_layout : forall p (m : mesh binary64) bs, wf p m -> indexnum m <> 1 ->
  (export p pack_f m = (bs, None) <-> laid_out p (mesh_fields (mesh_map pack_f m)) bs).
Proof. exact export_layout. Qed.
Print Assumptions C52_export_layout.
Theorem C52_single_value : forall b, is_bits32 b -> single_value b (unpack_f b).
Proof. exact unpack_value. Qed.
Print Assumptions C52_single_value.
Example C52_example : indexnum (fl (ex_mesh 11 k_static_)) <> 1 /\
  load p64 unpack_f k_static_ (ex_file p64 11 k_static_) = Ok (fl (ex_mesh 11 k_static_)).
Proof. split; [discriminate|apply ex_load_fl, ex_load_static]. Qed.

(** * Moving vertices. [vs] is the number of numbers per vertex. *)

(** C18 *)
Theorem C18_translate : forall F (A : arith F) vs m off m',
  vertex_size m = Ok (Z.of_nat vs) -> (0 < vs)%nat -> tiled_vertices vs m -> short_offsets m ->
  translate A m off = (m', None) ->
  same_but_vertices m m' /\ List.length (vertices m') = List.length (vertices m) /\
  forall j c x, (c < vs)%nat -> nth_error (vertices m) (j * vs + c) = Some x ->
    nth_error (vertices m') (j * vs + c) = Some (moved A (position_start m) off c x).
Proof. exact @translate_packed. Qed.
Print Assumptions C18_translate.
Theorem C18_translate_succeeds : forall F (A : arith F) vs m off,
  vertex_size m = Ok (Z.of_nat vs) -> (0 < vs)%nat -> tiled_vertices vs m -> short_offsets m ->
  (off <> [] -> exists a, position_attrib m = Some a /\ (attrib_start m a + List.length off <= vs)%nat) ->
  exists m', translate A m off = (m', None).
Proof. exact @translate_succeeds. Qed.
Print Assumptions C18_translate_succeeds.
Example C18_example : forall F (f : Z -> F), vertex_size (exm f) = Ok (Z.of_nat 7) /\
  tiled_vertices 7 (exm f) /\ short_offsets (exm f) /\
  exists a, position_attrib (exm f) = Some a /\ (attrib_start (exm f) a + 3 <= 7)%nat.
Proof. intros. auto using ex_size, ex_tiled, ex_short, ex_position. Qed.

(** C19 *)
Theorem C19_all_or_nothing : forall F (A : arith F) m arg m' e,
  translate A m arg = (m', Some e) \/ rotate A m arg = (m', Some e) -> m' = m.
Proof. exact @move_atomic. Qed.
Print Assumptions C19_all_or_nothing.
Example C19_example : forall F (A : arith F) f x, exists e,
  translate A (exm f) (repeat x 8) = (exm f, Some e) /\ rotate A (exm f) [x; x] = (exm f, Some e).
Proof. intros. exists EIndex. split; [apply ex_translate_raises|reflexivity]. Qed.

(** C20 *)
Theorem C20_translate_unpacked : forall F (A : arith F) vs m off m',
  vertex_size m = Ok (Z.of_nat vs) -> (0 < vs)%nat -> Forall (mat_vin vs m) (mats m) -> short_offsets m ->
  translate A m off = (m', None) ->
  same_but_vertices m m' /\
  vertices m' = List.concat (map (moved_vertex A (position_start m) off) (flat_map (mat_vertices vs m) (mats m))).
Proof. exact @translate_in_range. Qed.
Print Assumptions C20_translate_unpacked.
(** Without the packing hypothesis of C18: a loadable file whose materials end up with
    other vertices than their own moved ones. *)
Theorem C20_own_vertices_refuted : forall L, exists bs m m', load p64 unpack_f k_static_ bs = Ok m /\
  vertex_size m = Ok (Z.of_nat 7) /\ in_range 7 m /\ short_offsets m /\
  translate (f64 L) m one3 = (m', None) /\
  exists mt, In mt (mats m') /\
    mat_vertices 7 m' mt <> map (moved_vertex (f64 L) (position_start m) one3) (mat_vertices 7 m mt).
Proof. exact swapped_wrong. Qed.
Print Assumptions C20_own_vertices_refuted.
(** ... and one that can no longer be loaded after being translated and saved. *)
Theorem C20_still_loadable_refuted : forall L, exists bs m m' bs', load p64 unpack_f k_static_ bs = Ok m /\
  vertex_size m = Ok (Z.of_nat 7) /\ in_range 7 m /\ short_offsets m /\
  translate (f64 L) m zero3_ = (m', None) /\ export p64 pack_f m' = (bs', None) /\
  forall m2, load p64 unpack_f k_static_ bs' <> Ok m2.
Proof. exact gap_unloadable. Qed.
Print Assumptions C20_still_loadable_refuted.

(** C21. [vadd] adds offsets componentwise. *)
Theorem C21_translate_compose : forall vs m a b m1,
  vertex_size m = Ok (Z.of_nat vs) -> (0 < vs)%nat -> tiled_vertices vs m -> short_offsets m ->
  List.length b = List.length a -> translate exact m a = (m1, None) ->
  exists m2, translate exact m1 b = (m2, None) /\ translate exact m (vadd a b) = (m2, None).
Proof. exact translate_compose. Qed.
Print Assumptions C21_translate_compose.
Theorem C21_translate_undo : forall vs m a m1,
  vertex_size m = Ok (Z.of_nat vs) -> (0 < vs)%nat -> tiled_vertices vs m -> short_offsets m ->
  translate exact m a = (m1, None) -> translate exact m1 (map Ropp a) = (m, None).
Proof. exact translate_undo. Qed.
Print Assumptions C21_translate_undo.
Theorem C21_undo_in_doubles_refuted : forall L, exists bs m m1 m2,
  load p64 unpack_f k_static_ bs = Ok m /\
  translate (f64 L) m [b_2_60; b_2_60; b_2_60] = (m1, None) /\
  translate (f64 L) m1 [b_m2_60; b_m2_60; b_m2_60] = (m2, None) /\
  f_add (f64 L) b_2_60 b_m2_60 = f_zero (f64 L) /\ m2 <> m.
Proof. exact undo_inexact. Qed.
Print Assumptions C21_undo_in_doubles_refuted.
Example C21_example : exists m1, translate exact (exm IZR) [1%R; 2%R; 3%R] = (m1, None) /\
  vertex_size (exm IZR) = Ok (Z.of_nat 7) /\ tiled_vertices 7 (exm IZR) /\ short_offsets (exm IZR).
Proof.
  destruct (translate_succeeds exact 7 (exm IZR) [1%R; 2%R; 3%R]) as (m1 & H);
    auto using ex_size, ex_tiled, ex_short, ex_position, Nat.lt_0_succ.
  exists m1. auto using ex_size, ex_tiled, ex_short.
Qed.

(** C22 *)
Theorem C22_rotate : forall F (A : arith F) vs m yaw pitch roll more,
  vertex_size m = Ok (Z.of_nat vs) -> (0 < vs)%nat -> tiled_vertices vs m -> rotate_ready vs m ->
  can_turn A yaw pitch roll ->
  exists m', rotate A m (yaw :: pitch :: roll :: more) = (m', None) /\
  same_but_vertices m m' /\ List.length (vertices m') = List.length (vertices m) /\
  (forall j c, (c < vs)%nat -> Forall (outside m c) (oriented_attribs m) ->
     nth_error (vertices m') (j * vs + c) = nth_error (vertices m) (j * vs + c)) /\
  (forall j a q, In a (oriented_attribs m) -> triple (vertices m) (j * vs + attrib_start m a) q ->
     triple (vertices m') (j * vs + attrib_start m a) (turn A yaw pitch roll q)).
Proof. exact @rotate_packed. Qed.
Print Assumptions C22_rotate.
(** By an infinite angle nothing is turned: math.cos raises ValueError. *)
Theorem C22_infinite_angle : forall F (A : arith F) vs m yaw pitch roll more a t n,
  vertex_size m = Ok (Z.of_nat vs) -> (0 < vs)%nat -> tiled_vertices vs m -> vertices m <> [] -> short_offsets m ->
  oriented_attribs m = a :: t -> decltype_len (vartype a) = Ok n -> 3 <= n -> (attrib_start m a + 3 <= vs)%nat ->
  ~ can_turn A yaw pitch roll ->
  rotate A m (yaw :: pitch :: roll :: more) = (m, Some EValue).
Proof. exact @rotate_infinite. Qed.
Print Assumptions C22_infinite_angle.
Example C22_example : forall F (f : Z -> F), vertex_size (exm f) = Ok (Z.of_nat 7) /\
  tiled_vertices 7 (exm f) /\ rotate_ready 7 (exm f) /\ List.length (oriented_attribs (exm f)) = 2%nat.
Proof. intros. auto using ex_size, ex_tiled, ex_ready. Qed.
Example C22_angles_example : forall L a b, can_turn (f64 L) (unpack_f 3) (unpack_f 4) (unpack_f 5) /\ ~ can_turn (f64 L) a inf64 b /\
  rotate (f64 L) (exm unpack_f) [a; inf64; b] = (exm unpack_f, Some EValue).
Proof. intros L a b. split; [repeat split; vm_compute; reflexivity|]. split; [apply inf_cannot|apply ex_infinite]. Qed.

(** C23 *)
Theorem C23_rotate_rigid : forall vs m y p r more m',
  vertex_size m = Ok (Z.of_nat vs) -> (0 < vs)%nat -> tiled_vertices vs m -> rotate_ready vs m ->
  rotate exact m (y :: p :: r :: more) = (m', None) ->
  exists f : vec -> vec,
    (forall u v, dist3 (f u) (f v) = dist3 u v) /\
    (forall u v, dot (f u) (f v) = dot u v) /\
    (forall u v w, det (f u) (f v) (f w) = det u v w) /\
    f (0, 0, 0)%R = (0, 0, 0)%R /\
    forall j a q, In a (oriented_attribs m) ->
      triple (vertices m) (j * vs + attrib_start m a) q ->
      triple (vertices m') (j * vs + attrib_start m a) (f q).
Proof. exact rotate_rigid. Qed.
Print Assumptions C23_rotate_rigid.
Theorem C23_rotate_zero : forall vs m more,
  vertex_size m = Ok (Z.of_nat vs) -> (0 < vs)%nat -> tiled_vertices vs m -> rotate_ready vs m ->
  rotate exact m (0%R :: 0%R :: 0%R :: more) = (m, None).
Proof. exact rotate_zero. Qed.
Print Assumptions C23_rotate_zero.
Theorem C23_rotate_axis_add : forall vs m x s t m1,
  vertex_size m = Ok (Z.of_nat vs) -> (0 < vs)%nat -> tiled_vertices vs m -> rotate_ready vs m ->
  rotate exact m (about x t) = (m1, None) ->
  exists m2, rotate exact m1 (about x s) = (m2, None) /\ rotate exact m (about x (s + t)%R) = (m2, None).
Proof. exact rotate_axis_add. Qed.
Print Assumptions C23_rotate_axis_add.
Theorem C23_rotate_axis_undo : forall vs m x t m1,
  vertex_size m = Ok (Z.of_nat vs) -> (0 < vs)%nat -> tiled_vertices vs m -> rotate_ready vs m ->
  rotate exact m (about x t) = (m1, None) -> rotate exact m1 (about x (- t)%R) = (m, None).
Proof. exact rotate_axis_undo. Qed.
Print Assumptions C23_rotate_axis_undo.
Theorem C23_rotate_undo : forall vs m y p r more m1,
  vertex_size m = Ok (Z.of_nat vs) -> (0 < vs)%nat -> tiled_vertices vs m -> rotate_ready vs m ->
  rotate exact m (y :: p :: r :: more) = (m1, None) ->
  exists m2 m3, rotate exact m1 [(- y)%R; 0%R; 0%R] = (m2, None) /\
                rotate exact m2 [0%R; (- p)%R; 0%R] = (m3, None) /\
                rotate exact m3 [0%R; 0%R; (- r)%R] = (m, None).
Proof. exact rotate_undo. Qed.
Print Assumptions C23_rotate_undo.

(** C24 *)
Theorem C24_rotate_shrinks : forall F (A : arith F) p u vs (m : mesh F) yaw pitch roll more n,
  wf p m ->
  vertex_size m = Ok (Z.of_nat vs) -> (0 < vs)%nat -> tiled_vertices vs m -> short_offsets m ->
  List.length (vertices m) = (n * vs)%nat -> (0 < n)%nat -> can_turn A yaw pitch roll ->
  let q := List.length (filter (fun a => vartype a =? 3) (oriented_attribs m)) in
  (0 < q)%nat ->
  Forall (fun a => (vartype a = 2 \/ vartype a = 3) /\ (attrib_start m a + 3 + q <= vs)%nat) (oriented_attribs m) ->
  exists m', rotate A m (yaw :: pitch :: roll :: more) = (m', None) /\
    same_but_vertices m m' /\ List.length (vertices m') = (n * (vs - q))%nat /\
    forall (g : F -> F) k bs, load p u k bs <> Ok (mesh_map g m').
Proof. exact @rotate_unsavable. Qed.
Print Assumptions C24_rotate_shrinks.
Theorem C24_rotate_narrow : forall F (A : arith F) vs m yaw pitch roll more a t,
  vertex_size m = Ok (Z.of_nat vs) -> (0 < vs)%nat -> tiled_vertices vs m -> vertices m <> [] -> short_offsets m ->
  oriented_attribs m = a :: t -> (vartype a = 0 \/ vartype a = 1 \/ vartype a = 4 \/ vartype a = 17) ->
  rotate A m (yaw :: pitch :: roll :: more) = (m, Some EIndex).
Proof. exact @rotate_narrow. Qed.
Print Assumptions C24_rotate_narrow.
Example C24_example : exists bs m, load p64 unpack_f k_static_ bs = Ok m /\ wf p64 m /\
  vertex_size m = Ok (Z.of_nat 4) /\ tiled_vertices 4 m /\ short_offsets m /\
  List.length (vertices m) = (3 * 4)%nat /\
  List.length (filter (fun a => vartype a =? 3) (oriented_attribs m)) = 1%nat /\
  Forall (fun a => (vartype a = 2 \/ vartype a = 3) /\ (attrib_start m a + 3 + 1 <= 4)%nat) (oriented_attribs m).
Proof.
  exists (file_of (wide_mesh 3 4)), (fl (wide_mesh 3 4)). split; [apply wide_loads|].
  split; [apply (loaded_wf p64 unpack_f _ _ _ wide_loads)|]. split; [reflexivity|]. split; [apply wide_tiled|].
  split; [apply wide_short|]. split; [reflexivity|]. split; [reflexivity|].
  constructor; [|constructor]. split; [now right|]. cbn. apply le_n.
Qed.
Example C24_example_narrow : exists bs m a, load p64 unpack_f k_static_ bs = Ok m /\
  vertex_size m = Ok (Z.of_nat 2) /\ tiled_vertices 2 m /\ vertices m <> [] /\ short_offsets m /\
  oriented_attribs m = [a] /\ vartype a = 1.
Proof.
  exists (file_of (wide_mesh 1 2)), (fl (wide_mesh 1 2)). eexists. split; [apply narrow_loads|].
  split; [reflexivity|]. split; [apply narrow_tiled|]. split; [discriminate|]. split; [apply wide_short|].
  split; reflexivity.
Qed.

(** * Merging *)

(** C25 *)
Theorem C25_compatible : forall F (a b : mesh F), canMerge a b = Ok true <-> compatible a b.
Proof. exact @canMerge_true. Qed.
Print Assumptions C25_compatible.
Theorem C25_equivalence : forall F (a b c : mesh F),
  canMerge a a = Ok true /\
  (canMerge a b = Ok true -> canMerge b a = Ok true) /\
  (canMerge a b = Ok true -> canMerge b c = Ok true -> canMerge a c = Ok true).
Proof.
  intros F a b c. rewrite !canMerge_true.
  exact (conj (compatible_refl a) (conj (compatible_sym a b) (compatible_trans a b c))).
Qed.
Print Assumptions C25_equivalence.
Theorem C25_total : forall F p (a b : mesh F), wf p a -> wf p b ->
  isSkinnedMesh (m_kind a) = isSkinnedMesh (m_kind b) -> Forall known_attrib (vertex_attributes a) ->
  exists r, canMerge a b = Ok r.
Proof. exact @canMerge_total. Qed.
Print Assumptions C25_total.
Theorem C25_kinds_refuted : exists bs bs' a b,
  load p32 unpack_f k_skinned_ bs = Ok a /\ load p32 unpack_f k_static_ bs' = Ok b /\
  canMerge a b = Raise EType /\ canMerge b a = Ok false.
Proof. exact skinned_static. Qed.
Print Assumptions C25_kinds_refuted.
Theorem C25_unknown_type_refuted : exists bs bs' a b,
  load p64 unpack_f k_static_ bs = Ok a /\ load p64 unpack_f k_static_ bs' = Ok b /\
  canMerge a b = Raise EValue /\ canMerge b a = Ok false.
Proof. exact odd_static. Qed.
Print Assumptions C25_unknown_type_refuted.
Example C25_example : wf p64 (exm unpack_f) /\ Forall known_attrib (vertex_attributes (exm unpack_f)).
Proof.
  split; [apply ex_wf_single|]. change (vertex_attributes (exm unpack_f)) with ex_attribs. apply ex_known.
Qed.

(** C26. The [k]-th material of the result against those of the operands. *)
Theorem C26_union : forall F vs (self other m' : mesh F),
  vertex_size self = Ok (Z.of_nat vs) -> in_range vs self -> in_range vs other ->
  closed self -> Forall (fun y => Forall (fun i => 0 <= i) (mat_indices other y)) (mats other) ->
  merge self other = (m', Merged) ->
  List.length (mats other) = List.length (mats self) /\ List.length (mats m') = List.length (mats self) /\
  forall k x y z, nth_error (mats self) k = Some x -> nth_error (mats other) k = Some y -> nth_error (mats m') k = Some z ->
    corners vs m' z = corners vs self x ++ corners vs other y.
Proof. exact @merge_corners. Qed.
Print Assumptions C26_union.
Example C26_example : forall F (f g : Z -> F), vertex_size (exm f) = Ok (Z.of_nat 7) /\ in_range 7 (exm f) /\ in_range 7 (exm g) /\
  closed (exm f) /\ Forall (fun y => Forall (fun i => 0 <= i) (mat_indices (exm g) y)) (mats (exm g)) /\
  merge (exm f) (exm g) = (fst (merge (exm f) (exm g)), Merged) /\ List.length (mats (exm f)) = 2%nat.
Proof.
  intros. split; [apply ex_size|]. split; [apply ex_in_range|]. split; [apply ex_in_range|]. split; [apply ex_closed|].
  split; [|split; [apply ex_merges|reflexivity]]. repeat constructor; discriminate.
Qed.

(** C27 *)
Theorem C27_sums : forall F vs (self other m' : mesh F),
  vertex_size self = Ok (Z.of_nat vs) -> in_range vs self -> in_range vs other ->
  merge self other = (m', Merged) ->
  List.length (mats other) = List.length (mats self) /\ List.length (mats m') = List.length (mats self) /\
  forall k x y z, nth_error (mats self) k = Some x -> nth_error (mats other) k = Some y -> nth_error (mats m') k = Some z ->
    vnum z = vnum x + vnum y /\ inum z = inum x + inum y /\
    mat_vertices vs m' z = mat_vertices vs self x ++ mat_vertices vs other y /\
    mat_indices m' z = mat_indices self x ++ map (fun i => i + vnum x) (mat_indices other y).
Proof. exact @merged_nth. Qed.
Print Assumptions C27_sums.
Theorem C27_tables : forall F vs (self other m' : mesh F),
  vertex_size self = Ok (Z.of_nat vs) -> in_range vs self -> in_range vs other ->
  merge self other = (m', Merged) ->
  packed vs m' /\ same_header self m' /\ map (geom_mats uncounted) (geoms m') = map (geom_mats uncounted) (geoms self) /\
  zlen (vertices m') = vertnum m' * Z.of_nat vs /\ indexnum m' = zlen (index_list m') /\
  vertnum m' = sumZ vnum (mats m') /\ indexnum m' = sumZ inum (mats m') /\
  (closed self -> closed other -> closed m') /\
  (forall lo, Forall (fun i => lo <= i <= 65535) (index_list self) ->
              Forall (fun i => lo <= i) (index_list other) -> Forall (fun i => lo <= i <= 65535) (index_list m')).
Proof. exact @merge_tables. Qed.
Print Assumptions C27_tables.
Example C27_example : forall F (f g : Z -> F), vertex_size (exm f) = Ok (Z.of_nat 7) /\ in_range 7 (exm f) /\ in_range 7 (exm g) /\
  merge (exm f) (exm g) = (fst (merge (exm f) (exm g)), Merged) /\ closed (exm f) /\
  Forall (fun i => 0 <= i <= 65535) (index_list (exm f)).
Proof.
  intros. split; [apply ex_size|]. split; [apply ex_in_range|]. split; [apply ex_in_range|]. split; [apply ex_merges|].
  split; [apply ex_closed|]. repeat constructor; discriminate.
Qed.

(** C28 *)
Theorem C28_overflow : forall F vs (self other : mesh F), compatible self other ->
  vertex_size self = Ok (Z.of_nat vs) -> in_range vs self -> in_range vs other ->
  let over := exists k x y i, nth_error (mats self) k = Some x /\ nth_error (mats other) k = Some y /\
                In i (mat_indices other y) /\ 65535 < i + vnum x in
  (over -> exists m', merge self other = (m', MergeRaised EOverflow) /\ same_header self m' /\ same_counts self m' /\
       vertices m' = vertices self /\ index m' = index self /\
       map (geom_mats uncounted) (geoms m') = map (geom_mats uncounted) (geoms self)) /\
  (~ over -> exists m', merge self other = (m', Merged)).
Proof. exact @merge_overflow. Qed.
Print Assumptions C28_overflow.
(** Two loadable, closed, compatible meshes: the failed merge leaves self with a
    material whose vertices lie outside the vertex array. *)
Theorem C28_atomic_refuted : exists bs bs' a b m',
  load p64 unpack_f k_static_ bs = Ok a /\ load p64 unpack_f k_static_ bs' = Ok b /\
  in_range 1 a /\ in_range 1 b /\ closed a /\ closed b /\ compatible a b /\
  merge a b = (m', MergeRaised EOverflow) /\ ~ in_range 1 m'.
Proof. exact overflow_not_atomic. Qed.
Print Assumptions C28_atomic_refuted.

(** C29 *)
Theorem C29_incompatible : forall F (self other : mesh F), canMerge self other = Ok false ->
  merge self other = (self, ReturnedNotImplementedError).
Proof. exact @merge_incompatible. Qed.
Print Assumptions C29_incompatible.
Example C29_example : exists a b, canMerge (F:=Z) a b = Ok false.
Proof. exists (wide_mesh 3 4), odd_mesh. reflexivity. Qed.

(** C30. Objects in a store: merge executed statement by statement does what the merge
    of trees does, to the mesh object self and its materials only. *)
Theorem C30_other_alone : forall F (st : store F) self other st' r, own st self -> disjoint st self other -> heap_merge st self other = (st', r) ->
  only_changes st st' self /\ (tree_of st' self, r) = merge (tree_of st self) (tree_of st other) /\
  (self <> other -> tree_of st' other = tree_of st other).
Proof. exact @heap_merge_tree. Qed.
Print Assumptions C30_other_alone.
Theorem C30_bystanders : forall F (st st' : store F) i j, only_changes st st' i ->
  (own st j -> own st' j) /\ (j <> i -> disjoint st j i -> tree_of st' j = tree_of st j).
Proof. intros F st st' i j H. exact (conj (only_changes_own st st' i j H) (only_changes_tree st st' i j H)). Qed.
Print Assumptions C30_bystanders.
Theorem C30_itself : forall F (st : store F) self st' r, own st self -> heap_merge st self self = (st', r) ->
  only_changes st st' self /\ (tree_of st' self, r) = merge (tree_of st self) (tree_of st self).
Proof. exact @heap_merge_same. Qed.
Print Assumptions C30_itself.
Theorem C30_self_merge : forall F (m : mesh F), merge_self m = merge m m.
Proof. exact @merge_self_copy. Qed.
Print Assumptions C30_self_merge.
(** Any meshes can be objects of a store. *)
Theorem C30_stores : forall F (ms : list (mesh F)), exists st,
  (forall i m, nth_error ms i = Some m -> own st i /\ tree_of st i = m) /\ (forall i j, i <> j -> disjoint st i j).
Proof. intros F ms. exact (ex_intro _ (store_of ms) (store_of_ok ms)). Qed.
Print Assumptions C30_stores.
(** Without the disjointness: the other mesh object is a shallow copy. *)
Theorem C30_shared_refuted : forall F (f : Z -> F), exists st st', own st 0 /\ own st 1 /\ tree_of st 1 = exm f /\
  heap_merge st 0 1 = (st', Merged) /\ mesh_at st' 1 = mesh_at st 1 /\ tree_of st' 1 <> tree_of st 1.
Proof. intros F f. exact (ex_intro _ (shallow f) (shared_changed f)). Qed.
Print Assumptions C30_shared_refuted.

(** C31 *)
Theorem C31_associative : forall F vs (a b c r : mesh F),
  vertex_size a = Ok (Z.of_nat vs) -> in_range vs a -> in_range vs b -> in_range vs c ->
  (exists ab, merge a b = (ab, Merged) /\ merge ab c = (r, Merged)) <->
  (exists bc, merge b c = (bc, Merged) /\ merge a bc = (r, Merged)).
Proof. exact @merge_assoc. Qed.
Print Assumptions C31_associative.
Example C31_example : forall F (f g h : Z -> F), exists ab r,
  merge (exm f) (exm g) = (ab, Merged) /\ merge ab (exm h) = (r, Merged).
Proof. intros. eexists. eexists. split; [apply ex_merges|]. vm_compute. reflexivity. Qed.

(** * Reordering geoms *)

(** C32. The [j]-th geom of the result against geom [order[j]] of the argument. *)
Theorem C32_content : forall F vs (m : mesh F) order ks,
  vertex_size m = Ok (Z.of_nat vs) -> (0 < vs)%nat -> in_range vs m -> sumZ vnum (mats m) <= 2 ^ 53 ->
  permutes (List.length (geoms m)) order ks ->
  exists m', change_geoms_order m order = (m', None) /\ packed vs m' /\ same_header m m' /\ same_counts m m' /\
    List.length (geoms m') = List.length (geoms m) /\
    forall j k g g', nth_error ks j = Some k -> nth_error (geoms m) k = Some g -> nth_error (geoms m') j = Some g' ->
      geom_mats unplaced g' = geom_mats unplaced g /\
      Forall2 (same_content vs m' m) (mats_of [g']) (mats_of [g]).
Proof. exact @reorder_content. Qed.
Print Assumptions C32_content.
Example C32_example : forall F (f : Z -> F), let m := mesh_map f duo_mesh in
  vertex_size m = Ok (Z.of_nat 7) /\ in_range 7 m /\ sumZ vnum (mats m) <= 2 ^ 53 /\
  permutes (List.length (geoms m)) [1; -2] [1%nat; 0%nat].
Proof.
  intros F f m. split; [reflexivity|]. split; [apply packed_in_range, duo_packed|]. split; [discriminate|apply duo_swap].
Qed.

(** C33 *)
Theorem C33_wrong_length : forall F (m : mesh F) order, List.length order <> List.length (geoms m) ->
  change_geoms_order m order = (m, Some EAttribute).
Proof. exact @reorder_wrong_length. Qed.
Print Assumptions C33_wrong_length.
Theorem C33_outcome : forall F vs (m : mesh F) order,
  vertex_size m = Ok vs -> 0 < vs -> has_tuple m -> List.length order = List.length (geoms m) ->
  zlen order * (zlen (mats m) * zlen (vertices m)) <= 2 ^ 64 ->
  let valid i := exists k, picks (List.length (geoms m)) i k in
  (Forall valid order -> exists m', change_geoms_order m order = (m', None)) /\
  (Exists (fun i => ~ valid i) order -> exists m', change_geoms_order m order = (m', Some EIndex)).
Proof. exact @reorder_outcome. Qed.
Print Assumptions C33_outcome.
Theorem C33_error_keeps : forall F (m : mesh F) order m' e, change_geoms_order m order = (m', Some e) ->
  same_header m m' /\ same_counts m m' /\ vertices m' = vertices m /\ index m' = index m /\
  map (geom_mats unplaced) (geoms m') = map (geom_mats unplaced) (geoms m).
Proof. exact @reorder_error_keeps. Qed.
Print Assumptions C33_error_keeps.
Theorem C33_atomic_refuted : exists bs m m', load p64 unpack_f k_static_ bs = Ok m /\
  packed 7 m /\ change_geoms_order m [1; 2] = (m', Some EIndex) /\ m' <> m /\
  exists x y, nth_error (mats m) 1 = Some x /\ nth_error (mats m') 1 = Some y /\
    mat_vertices 7 m' y <> mat_vertices 7 m x.
Proof. exact bad_order_not_atomic. Qed.
Print Assumptions C33_atomic_refuted.
Example C33_example : forall F (f : Z -> F), let m := mesh_map f duo_mesh in
  vertex_size m = Ok 7 /\ has_tuple m /\ zlen [1; 2] * (zlen (mats m) * zlen (vertices m)) <= 2 ^ 64 /\
  Exists (fun i => ~ exists k, picks (List.length (geoms m)) i k) [1; 2].
Proof.
  intros F f m. split; [reflexivity|]. split; [eexists; reflexivity|]. split; [discriminate|].
  apply Exists_cons_tl, Exists_cons_hd. intros (k & H). unfold picks in H. cbn in H. Lia.lia.
Qed.

(** C34 *)
Theorem C34_duplicates : exists bs m m' g, load p64 unpack_f k_static_ bs = Ok m /\
  vertex_size m = Ok (Z.of_nat 7) /\ packed 7 m /\ closed m /\ nth_error (geoms m) 1 = Some g /\
  change_geoms_order m [1; 1] = (m', None) /\ List.length (geoms m') = 2%nat /\
  Forall (fun g' => map (mat_vertices 7 m') (mats_of [g']) <> map (mat_vertices 7 m) (mats_of [g])) (geoms m').
Proof. exact duplicates_wrong. Qed.
Print Assumptions C34_duplicates.

(** C35 *)
Theorem C35_compose : forall F vs (m : mesh F) o1 k1 o2 k2 o3 m1 m2,
  vertex_size m = Ok (Z.of_nat vs) -> (0 < vs)%nat -> in_range vs m -> sumZ vnum (mats m) <= 2 ^ 53 ->
  let n := List.length (geoms m) in
  permutes n o1 k1 -> permutes n o2 k2 -> permutes n o3 (map (fun k => nth k k1 0%nat) k2) ->
  change_geoms_order m o1 = (m1, None) -> change_geoms_order m1 o2 = (m2, None) -> change_geoms_order m o3 = (m2, None).
Proof. exact @reorder_compose. Qed.
Print Assumptions C35_compose.
Theorem C35_identity : forall F vs (m : mesh F) order,
  vertex_size m = Ok (Z.of_nat vs) -> (0 < vs)%nat -> packed vs m -> sumZ vnum (mats m) <= 2 ^ 53 ->
  permutes (List.length (geoms m)) order (seq 0 (List.length (geoms m))) ->
  change_geoms_order m order = (m, None).
Proof. exact @reorder_identity. Qed.
Print Assumptions C35_identity.
Theorem C35_inverse : forall F vs (m : mesh F) o1 k1 o2 k2,
  vertex_size m = Ok (Z.of_nat vs) -> (0 < vs)%nat -> packed vs m -> sumZ vnum (mats m) <= 2 ^ 53 ->
  let n := List.length (geoms m) in
  permutes n o1 k1 -> permutes n o2 k2 -> map (fun k => nth k k1 0%nat) k2 = seq 0 n ->
  exists m1, change_geoms_order m o1 = (m1, None) /\ change_geoms_order m1 o2 = (m, None).
Proof. exact @reorder_inverse. Qed.
Print Assumptions C35_inverse.
Example C35_example : forall F (f : Z -> F), let m := mesh_map f duo_mesh in
  vertex_size m = Ok (Z.of_nat 7) /\ packed 7 m /\ permutes (List.length (geoms m)) [1; -2] [1%nat; 0%nat] /\
  map (fun k => nth k [1%nat; 0%nat] 0%nat) [1%nat; 0%nat] = seq 0 (List.length (geoms m)).
Proof. intros. split; [reflexivity|]. split; [apply duo_packed|]. split; [apply duo_swap|reflexivity]. Qed.

(** C36 *)
Theorem C36_counts : forall F (m m' : mesh F) order r, change_geoms_order m order = (m', r) -> same_counts m m'.
Proof. exact @reorder_counts. Qed.
Print Assumptions C36_counts.
Theorem C36_packed_lengths : forall F vs (m : mesh F) order ks m',
  vertex_size m = Ok (Z.of_nat vs) -> (0 < vs)%nat -> packed vs m -> sumZ vnum (mats m) <= 2 ^ 53 ->
  permutes (List.length (geoms m)) order ks -> change_geoms_order m order = (m', None) ->
  zlen (vertices m') = zlen (vertices m) /\ zlen (index_list m') = zlen (index_list m) /\ has_tuple m'.
Proof. exact @reorder_lengths. Qed.
Print Assumptions C36_packed_lengths.
Theorem C36_unloadable_refuted : exists bs m m' bs', load p64 unpack_f k_static_ bs = Ok m /\
  vertex_size m = Ok (Z.of_nat 7) /\ in_range 7 m /\
  change_geoms_order m [0; 1] = (m', None) /\ export p64 pack_f m' = (bs', None) /\
  forall m2, load p64 unpack_f k_static_ bs' <> Ok m2.
Proof. exact reorder_unloadable. Qed.
Print Assumptions C36_unloadable_refuted.

(** * Bounding boxes. [lod_boxed] (SpecBounds.v): the bounds of the lod and of each of
    its materials are the smallest box of the origin and of their vertex positions, and
    the lod's box is that of its materials' boxes. *)

(** C37, for Python's floats and for exact arithmetic *)
Theorem C37_bounds : forall L vs m m',
  vertex_size m = Ok (Z.of_nat vs) -> short_offsets m -> bounded_kind m -> Forall (mat_vin vs m) (mats m) ->
  Forall (fun mt => Forall (fun q => forall i, In i axes -> is_nan 53 1024 (axis i q) = false) (positions vs m mt)) (mats m) ->
  update_boundaries (f64 L) m = (m', None) -> every_lod (lod_boxed (f64 L) vs m') m'.
Proof. exact (fun L => update_box (f64 L) number ord (f64_ordered L)). Qed.
Print Assumptions C37_bounds.
Theorem C37_bounds_exact : forall vs m m',
  vertex_size m = Ok (Z.of_nat vs) -> short_offsets m -> bounded_kind m -> Forall (mat_vin vs m) (mats m) ->
  update_boundaries exact m = (m', None) -> every_lod (lod_boxed exact vs m') m'.
Proof. exact update_box_exact. Qed.
Print Assumptions C37_bounds_exact.
Theorem C37_succeeds : forall F (A : arith F) vs m a,
  vertex_size m = Ok (Z.of_nat vs) -> short_offsets m -> Forall (mat_vin vs m) (mats m) ->
  Forall (fun a => in_use a = true -> known_attrib a) (vertex_attributes m) ->
  bounding_attrib m = Some a -> vartype a = 2 \/ vartype a = 3 -> (attrib_start m a + 3 <= vs)%nat ->
  exists m', update_boundaries A m = (m', None).
Proof. exact @update_total. Qed.
Print Assumptions C37_succeeds.
Example C37_example : forall L, let m := exm unpack_f in vertex_size m = Ok (Z.of_nat 7) /\ short_offsets m /\ bounded_kind m /\
  Forall (mat_vin 7 m) (mats m) /\
  Forall (fun mt => Forall (fun q => forall i, In i axes -> is_nan 53 1024 (axis i q) = false) (positions 7 m mt)) (mats m) /\
  exists m', update_boundaries (f64 L) m = (m', None).
Proof. exact (fun L => conj (ex_size _) (conj (ex_short _) (conj (ex_bounded _) (conj (ex_vin _) (conj ex_numbers (ex_updates _ _)))))). Qed.

(** C38 *)
Theorem C38_erased : forall F (A : arith F) m m', ~ bounded_kind m -> update_boundaries A m = (m', None) ->
  every_lod (fun l => lod_min l = Some (origin A) /\ lod_max l = Some (origin A)) m' /\ mats m' = mats m.
Proof. exact @update_erased. Qed.
Print Assumptions C38_erased.
Theorem C38_contain_refuted : forall L, exists bs m m' l lo hi q, load p32 unpack_f k_skinned_ bs = Ok m /\
  update_boundaries (f64 L) m = (m', None) /\ lod_at m' 1 0 l /\ lod_min l = Some lo /\ lod_max l = Some hi /\
  In q (lod_positions 7 m' l) /\ ~ between (f64 L) lo q hi.
Proof. exact skinned_unbounded. Qed.
Print Assumptions C38_contain_refuted.

(** C39: whatever the vertices (NaN included), the origin lies inside all bounds. *)
Theorem C39_origin_inside : forall L m m', update_boundaries (f64 L) m = (m', None) -> every_lod (fun l =>
  (exists lo hi, lod_min l = Some lo /\ lod_max l = Some hi /\ between (f64 L) lo (origin (f64 L)) hi) /\
  (bounded_kind m -> Forall (fun mt => exists a b, mmin mt = Some a /\ mmax mt = Some b /\
                                       between (f64 L) a (origin (f64 L)) b) (materials l))) m'.
Proof. exact origin_inside_f64. Qed.
Print Assumptions C39_origin_inside.
Theorem C39_origin_inside_exact : forall m m', update_boundaries exact m = (m', None) -> every_lod (fun l =>
  (exists lo hi, lod_min l = Some lo /\ lod_max l = Some hi /\ between exact lo (origin exact) hi) /\
  (bounded_kind m -> Forall (fun mt => exists a b, mmin mt = Some a /\ mmax mt = Some b /\
                                       between exact a (origin exact) b) (materials l))) m'.
Proof. exact origin_inside_exact. Qed.
Print Assumptions C39_origin_inside_exact.
Theorem C39_tight_refuted : forall L, exists bs m m' l lo hi, load p64 unpack_f k_static_ bs = Ok m /\
  update_boundaries (f64 L) m = (m', None) /\ lod_at m' 0 0 l /\ lod_min l = Some lo /\ lod_max l = Some hi /\
  lod_positions 7 m' l <> [] /\ forall q, In q (lod_positions 7 m' l) -> f_lt (f64 L) (axis 0 lo) (axis 0 q) = true.
Proof. exact far_not_tight. Qed.
Print Assumptions C39_tight_refuted.

(** C40: only bounds change, even when it raises; doing it again does the same. *)
Theorem C40_frame : forall F (A : arith F) m m' o, update_boundaries A m = (m', o) -> same_but_bounds m m'.
Proof. exact @update_frame. Qed.
Print Assumptions C40_frame.
Theorem C40_idempotent : forall F (A : arith F) m m' o, update_boundaries A m = (m', o) -> update_boundaries A m' = (m', o).
Proof. exact @update_again. Qed.
Print Assumptions C40_idempotent.

(** C41 *)
Theorem C41_bounds_survive : forall p L vs m m', wf p m -> indexnum m <> 1 ->
  vertex_size m = Ok (Z.of_nat vs) -> short_offsets m -> bounded_kind m -> Forall (mat_vin vs m) (mats m) ->
  Forall (fun mt => Forall (fun q => forall i, In i axes -> is_nan 53 1024 (axis i q) = false) (positions vs m mt)) (mats m) ->
  update_boundaries (f64 L) m = (m', None) ->
  exists bs m2, export p pack_f m' = (bs, None) /\ load p unpack_f (m_kind m) bs = Ok m2 /\
    every_lod (lod_boxed (f64 L) vs m2) m2.
Proof. exact bounds_survive. Qed.
Print Assumptions C41_bounds_survive.
Example C41_example : exists m, load p64 unpack_f k_static_ (ex_file p64 11 k_static_) = Ok m /\ wf p64 m /\ indexnum m <> 1 /\
  m = exm unpack_f.
Proof.
  exists (exm unpack_f). pose proof (ex_load_fl p64 11 k_static_ ex_load_static) as H. split; [exact H|].
  split; [exact (proj1 (loaded_wf _ _ _ _ _ H))|]. split; [discriminate|reflexivity].
Qed.

(** C42. [lod_at m gi li l]: the lod that [geoms[gi].lods[li]] means. *)
Theorem C42_center : forall F (A : arith F) m gi li ub m' c, get_lod_center_offset A m gi li ub = (m', Ok c) ->
  (if ub then update_boundaries A m = (m', None) else m' = m) /\
  exists l lo hi, lod_at m' gi li l /\ lod_min l = Some lo /\ lod_max l = Some hi /\ midpoint A lo hi c.
Proof. exact @center_result. Qed.
Print Assumptions C42_center.
Theorem C42_succeeds : forall F (A : arith F) m gi li l m1, lod_at m gi li l -> update_boundaries A m = (m1, None) ->
  exists c, get_lod_center_offset A m gi li true = (m1, Ok c).
Proof. exact @center_ok. Qed.
Print Assumptions C42_succeeds.
Theorem C42_bad_number : forall F (A : arith F) m gi li ub, (~ exists l, lod_at m gi li l) ->
  get_lod_center_offset A m gi li ub = (m, Raise EIndex).
Proof. exact @center_bad. Qed.
Print Assumptions C42_bad_number.
Theorem C42_exact_center : forall lo hi c, midpoint exact lo hi c ->
  (forall i, In i axes -> 2 * axis i c = axis i lo + axis i hi)%R /\ (between exact lo hi hi -> between exact lo c hi).
Proof. exact (fun lo hi c H => conj (exact_center lo hi c H) (fun B => exact_center_between lo hi c B H)). Qed.
Print Assumptions C42_exact_center.
(** In doubles, with finite positions: the centre of fresh bounds is finite and inside. *)
Theorem C42_double_center : forall L vs m m' gi li c,
  vertex_size m = Ok (Z.of_nat vs) -> short_offsets m -> bounded_kind m -> Forall (mat_vin vs m) (mats m) ->
  Forall (fun mt => Forall (fun q => forall i, In i axes -> is_finite 53 1024 (axis i q) = true) (positions vs m mt)) (mats m) ->
  get_lod_center_offset (f64 L) m gi li true = (m', Ok c) ->
  exists l lo hi, lod_at m' gi li l /\ lod_min l = Some lo /\ lod_max l = Some hi /\
    midpoint (f64 L) lo hi c /\ (forall i, In i axes -> is_finite 53 1024 (axis i c) = true) /\ between (f64 L) lo c hi.
Proof. exact double_center. Qed.
Print Assumptions C42_double_center.
(** Moving the mesh by the negative centre centres a lod that has vertices on both sides
    of the origin on each axis ... *)
Theorem C42_recentre : forall vs m m1 m2 m3 gi li l cx cy cz c,
  vertex_size m = Ok (Z.of_nat vs) -> (0 < vs)%nat -> tiled_vertices vs m -> short_offsets m -> bounded_kind m ->
  bounding_attrib m = position_attrib m -> lod_at m gi li l ->
  (forall i, In i axes -> (exists q, In q (lod_positions vs m l) /\ (axis i q <= 0)%R) /\
                          (exists q, In q (lod_positions vs m l) /\ (0 <= axis i q)%R)) ->
  get_lod_center_offset exact m gi li true = (m1, Ok (cx, cy, cz)) ->
  translate exact m1 [- cx; - cy; - cz]%R = (m2, None) ->
  get_lod_center_offset exact m2 gi li true = (m3, Ok c) -> c = (0, 0, 0)%R.
Proof. exact recentre. Qed.
Print Assumptions C42_recentre.
(** ... but not one away from it. *)
Theorem C42_recentre_refuted : forall L, exists bs m m1 c m2 m3 c', load p64 unpack_f k_static_ bs = Ok m /\
  get_lod_center_offset (f64 L) m 0 0 true = (m1, Ok c) /\
  translate (f64 L) m1 (neg3 c) = (m2, None) /\
  get_lod_center_offset (f64 L) m2 0 0 true = (m3, Ok c') /\
  f_lt (f64 L) (f_zero (f64 L)) (axis 0 c') = true.
Proof. exact not_recentred. Qed.
Print Assumptions C42_recentre_refuted.
Example C42_example :
  (exists l, lod_at (exm zr) 1 0 l /\ forall i, In i axes ->
    (exists q, In q (lod_positions 7 (exm zr) l) /\ (axis i q <= 0)%R) /\
    (exists q, In q (lod_positions 7 (exm zr) l) /\ (0 <= axis i q)%R)) /\
  exists m1 cx cy cz m2 m3, get_lod_center_offset exact (exm zr) 1 0 true = (m1, Ok (cx, cy, cz)) /\
  translate exact m1 [- cx; - cy; - cz]%R = (m2, None) /\
  get_lod_center_offset exact m2 1 0 true = (m3, Ok (0, 0, 0)%R).
Proof. exact (conj ex_straddles ex_recentres). Qed.
Example C42_double_example : let m := exm unpack_f in
  Forall (fun mt => Forall (fun q => forall i, In i axes -> is_finite 53 1024 (axis i q) = true) (positions 7 m mt)) (mats m) /\
  exists l, lod_at m 1 (-1) l.
Proof. exact (conj ex_finite (ex_intro _ _ (ex_lod_at _))). Qed.

(** * Objects and files *)
From Verif Require Import PathFacts FileFacts ObjFacts WitnessObj SpecObj.

(** C11 *)
Theorem C11_kind_from_extension : forall F p (unpackf : Z -> F) f fn kw o,
  new_visible_mesh p unpackf f (Some fn) kw = Ok o -> kind_named (m_kind (o_mesh o)) fn.
Proof. exact @opened_kind. Qed.
Print Assumptions C11_kind_from_extension.
Theorem C11_one_extension : forall fn e e', has_extension fn e -> has_extension fn e' -> e = e'.
Proof. exact ext_unique. Qed.
Print Assumptions C11_one_extension.
Theorem C11_flags_ignored : forall F p (unpackf : Z -> F) f fn kw kw', fn <> [] ->
  new_visible_mesh p unpackf f (Some fn) kw = new_visible_mesh p unpackf f (Some fn) kw' /\
  new_bundled_mesh p unpackf f (Some fn) = new_visible_mesh p unpackf f (Some fn) kw.
Proof. exact @flags_ignored. Qed.
Print Assumptions C11_flags_ignored.
Example C11_example : fnA <> [] /\ new_visible_mesh p64 unpack_f fsA (Some fnA) kw0 = Ok objA /\ k_skinned kw0 = true /\
  isStaticMesh (m_kind (o_mesh objA)) = true /\ isSkinnedMesh (m_kind (o_mesh objA)) = false.
Proof. split; [discriminate|]. split; [apply openA|]. repeat split. Qed.

(** C12 *)
Theorem C12_no_file : forall F p (unpackf : Z -> F) f kw, new_visible_mesh p unpackf f None kw = Raise EAttribute /\
  new_visible_mesh p unpackf f (Some []) kw = Raise EAttribute /\ new_bundled_mesh p unpackf f None = Raise EAttribute.
Proof. exact @no_filename. Qed.
Print Assumptions C12_no_file.

(** C13: a static mesh saved under another kind's extension. *)
Theorem C13_wrong_extension : forall L, exists f fn fn' (o : obj) f' o', (forall kw, new_visible_mesh p64 unpack_f f (Some fn) kw = Ok o) /\
  wf p64 (o_mesh o) /\ indexnum (o_mesh o) <> 1 /\
  export_obj (f64 L) p64 pack_f f o (Some fn') false = (f', o', None) /\
  (forall kw, new_visible_mesh p64 unpack_f f' (Some fn') kw = Raise EAttribute).
Proof. exact wrong_extension. Qed.
Print Assumptions C13_wrong_extension.

(** C14 *)
Theorem C14_bare_name : forall F (A : arith F) p packf o filename fn, writes_to o filename fn -> ~ In slash fn -> forall stop f ub,
  export_until A p packf stop f o filename ub = (f, o, Some EFileNotFound).
Proof. exact @bare_name. Qed.
Print Assumptions C14_bare_name.
Theorem C14_directory_created : forall F (A : arith F) p packf f o filename fn ub m bs,
  tree f -> writes_to o filename fn -> proper_name fn -> In slash fn ->
  (forall q c, q <> resolve fn -> above q (resolve fn) -> lookup f q <> Some (File c)) ->
  lookup f (resolve fn) <> Some Dir ->
  prepared_mesh A ub (o_mesh o) m None -> export p packf m = (bs, None) ->
  exists f', export_obj A p packf f o filename ub = (f', {| o_mesh := m; o_filename := fn; o_loaded := o_loaded o |}, None) /\
    f' (resolve fn) = Some (File bs) /\ (forall q, q <> resolve fn -> above q (resolve fn) -> lookup f' q = Some Dir).
Proof. exact @export_succeeds'. Qed.
Print Assumptions C14_directory_created.
Example C14_bare_example : let fn := of_string "new.staticmesh" in writes_to objA (Some fn) fn /\ ~ In slash fn.
Proof. split; [reflexivity|]. intros H. vm_compute in H. decompose [or] H; try discriminate; easy. Qed.
Example C14_example : forall L, tree fsA /\ writes_to objA (Some fnB) fnB /\ proper_name fnB /\ In slash fnB /\
  (forall q c, q <> resolve fnB -> above q (resolve fnB) -> lookup fsA q <> Some (File c)) /\ lookup fsA (resolve fnB) <> Some Dir /\
  (exists m, prepared_mesh (f64 L) true (o_mesh objA) m None) /\ lookup fsA (resolve (of_string "objects/new")) = None.
Proof.
  intros L. split; [apply one_tree|]. split; [reflexivity|]. destruct fnB_ok as (H1 & H2 & H3 & H4).
  split; [exact H1|]. split; [exact H2|]. split; [exact H3|]. split; [exact H4|]. split; [apply objA_updates|]. vm_compute. reflexivity.
Qed.

(** C15. [stop = Some n] is a process that dies after [n] bytes reached the disk. *)
Theorem C15_prefix_written : forall F (A : arith F) p packf o filename fn ub, writes_to o filename fn ->
  exists m r, prepared_mesh A ub (o_mesh o) m r /\
  forall stop f f' o' e, export_until A p packf stop f o filename ub = (f', o', e) ->
  (forall q, q <> resolve fn -> f' q = f q \/ (f q = None /\ f' q = Some Dir /\ above q (resolve fn))) /\
  (f' (resolve fn) = f (resolve fn) \/ (f (resolve fn) = None /\ f' (resolve fn) = Some Dir) \/
   exists n, f' (resolve fn) = Some (File (firstn n (fst (export p packf m))))).
Proof. exact @export_effect'. Qed.
Print Assumptions C15_prefix_written.
Theorem C15_failed_export_object : forall F (A : arith F) p packf o filename f ub f' o' e, export_obj A p packf f o filename ub = (f', o', Some e) ->
  o_filename o' = o_filename o /\ o_loaded o' = o_loaded o /\ (o_mesh o' = o_mesh o \/ exists r, prepared_mesh A ub (o_mesh o) (o_mesh o') r).
Proof. exact @export_failed. Qed.
Print Assumptions C15_failed_export_object.
Theorem C15_atomic_refuted : forall L, exists f fn (o : obj) stop f' o' e, tree f /\ (forall kw, new_visible_mesh p64 unpack_f f (Some fn) kw = Ok o) /\
  export_until (f64 L) p64 pack_f stop f o None false = (f', o', e) /\
  f' (resolve fn) <> f (resolve fn) /\ f' (resolve fn) <> Some (File (fst (export p64 pack_f (o_mesh o)))) /\
  (forall kw, new_visible_mesh p64 unpack_f f' (Some fn) kw = Raise EStruct).
Proof. exact not_atomic. Qed.
Print Assumptions C15_atomic_refuted.
(** No crash is needed when the file has a single index. *)
Theorem C15_single_index_destroyed : forall L p f fn kw o file, tree f -> In slash fn -> new_visible_mesh p unpack_f f (Some fn) kw = Ok o ->
  lookup f (resolve fn) = Some (File file) -> indexnum (o_mesh o) = 1 ->
  exists f' cut, export_obj (f64 L) p pack_f f o None false = (f', o, Some EType) /\ f' (resolve fn) = Some (File cut) /\
    zlen cut = head_size (Z.of_nat (long_bytes p)) (o_mesh o) /\ (List.length cut < List.length file)%nat.
Proof. exact single_index_destroyed. Qed.
Print Assumptions C15_single_index_destroyed.
Example C15_single_index_example : tree fs1 /\ In slash fnA /\ new_visible_mesh p64 unpack_f fs1 (Some fnA) kw0 = Ok obj1 /\
  lookup fs1 (resolve fnA) = Some (File one_file) /\ indexnum (o_mesh obj1) = 1.
Proof. split; [apply one_tree|]. split; [vm_compute; tauto|]. split; [apply open1|]. split; [apply lookup_one|reflexivity]. Qed.

(** C16 *)
Theorem C16_export_frame : forall F (A : arith F) p packf o filename fn f ub f' o', writes_to o filename fn ->
  export_obj A p packf f o filename ub = (f', o', None) -> exists m bs,
  prepared_mesh A ub (o_mesh o) m None /\ export p packf m = (bs, None) /\
  o' = {| o_mesh := m; o_filename := fn; o_loaded := o_loaded o |} /\ f' (resolve fn) = Some (File bs) /\
  (forall q, q <> resolve fn -> f' q = f q \/ (f q = None /\ f' q = Some Dir /\ above q (resolve fn))).
Proof. exact @export_success'. Qed.
Print Assumptions C16_export_frame.
Example C16_example : forall L ub, writes_to objA (Some fnB) fnB /\
  exists f' o', export_obj (f64 L) p64 pack_f fsA objA (Some fnB) ub = (f', o', None).
Proof. intros L ub. exact (conj eq_refl (exportB L ub)). Qed.

(** C17 *)
Theorem C17_loaded_once : forall F p (unpackf : Z -> F) f fn kw o, new_visible_mesh p unpackf f fn kw = Ok o ->
  forall f', enter p unpackf f' o = Ok o.
Proof. exact @entered_once. Qed.
Print Assumptions C17_loaded_once.
Example C17_example : new_visible_mesh p64 unpack_f fsA (Some fnA) kw0 = Ok objA.
Proof. apply openA. Qed.

(** C40: two default exports in a row. *)
Theorem C40_second_export : forall F (A : arith F) p packf o filename f f1 o1, export_obj A p packf f o filename true = (f1, o1, None) ->
  exists f2, export_obj A p packf f1 o1 None true = (f2, o1, None) /\ same_files f1 f2.
Proof. exact @export_twice. Qed.
Print Assumptions C40_second_export.
Example C40_second_example : forall L, exists f' o', export_obj (f64 L) p64 pack_f fsA objA (Some fnB) true = (f', o', None).
Proof. intros L. apply exportB. Qed.

(** C49: what was saved can be opened again. *)
Theorem C49_save_reopen : forall L p f (o : obj) filename fn ub f' o', writes_to o filename fn ->
  wf p (o_mesh o) -> indexnum (o_mesh o) <> 1 -> kind_named (m_kind (o_mesh o)) fn ->
  export_obj (f64 L) p pack_f f o filename ub = (f', o', None) ->
  exists round, (forall x, rounds_to_single x (round x)) /\ (forall x, is_single x -> round x = x) /\
  forall kw, new_visible_mesh p unpack_f f' (Some fn) kw = Ok {| o_mesh := mesh_map round (o_mesh o'); o_filename := fn; o_loaded := true |}.
Proof. exact save_reopen. Qed.
Print Assumptions C49_save_reopen.
Theorem C49_open_save : forall L p f fn kw o file, tree f -> In slash fn -> new_visible_mesh p unpack_f f (Some fn) kw = Ok o ->
  lookup f (resolve fn) = Some (File file) ->
  (forall mr, load p (fun b => b) (m_kind (o_mesh o)) file = Ok mr -> mesh_all (fun b => ~ snan b) mr) -> indexnum (o_mesh o) <> 1 ->
  exists f', export_obj (f64 L) p pack_f f o None false = (f', o, None) /\ same_files f f'.
Proof. exact open_export. Qed.
Print Assumptions C49_open_save.
Example C49_example : wf p64 (o_mesh objA) /\ indexnum (o_mesh objA) <> 1 /\ kind_named (m_kind (o_mesh objA)) fnA /\
  writes_to objA None fnA /\ tree fsA /\ In slash fnA /\ lookup fsA (resolve fnA) = Some (File fileA).
Proof.
  destruct objA_wf as (H1 & H2 & H3). split; [exact H1|]. split; [exact H2|]. split; [exact H3|]. split; [reflexivity|]. split; [apply one_tree|].
  split; [vm_compute; tauto|apply lookup_one].
Qed.

(** * Equality *)
From Verif Require Import EqFacts WitnessEq SpecEq.

(** C43 *)
Theorem C43_header_attribute_geom : forall F,
  (forall a b, head_eqb a b = true <-> a = b) /\ (forall a b, vertattrib_eqb a b = true <-> a = b) /\
  (forall a b : geom F, geom_eqb a b = true <-> lodnum a = lodnum b /\ List.length (lods a) = List.length (lods b)).
Proof. intros F. exact (conj head_eqb_eq (conj vertattrib_eqb_eq geom_eqb_eq)). Qed.
Print Assumptions C43_header_attribute_geom.
(** [==] is true exactly for alike parts: numbers compare with float [==] and the
    [mmax] of materials is not looked at. *)
Theorem C43_material : forall F (A : arith F) a b, mat_eq A a b = Ok true <-> mat_alike (fun x y => f_eq A x y = true) a b.
Proof. exact @mat_eq_iff. Qed.
Print Assumptions C43_material.
Theorem C43_lod : forall F (A : arith F) p v bu sk a b, wf_lod p v bu sk a -> wf_lod p v bu sk b ->
  lod_eq A a b = Ok true <-> lod_alike (fun x y => f_eq A x y = true) a b.
Proof. exact @lod_eq_iff. Qed.
Print Assumptions C43_lod.
Theorem C43_lod_no_error : forall F (A : arith F) p v bu sk a b, wf_lod p v bu sk a -> wf_lod p v bu sk b ->
  Forall (fun m => opt_all (vec3_all (fun x => f_finite A x = true)) (mmin m)) (materials a) ->
  Forall (fun m => opt_all (vec3_all (fun x => f_finite A x = true)) (mmin m)) (materials b) -> exists r, lod_eq A a b = Ok r.
Proof. exact @lod_eq_total. Qed.
Print Assumptions C43_lod_no_error.
Theorem C43_lod_equivalence : forall L p v bu sk,
  (forall a, wf_lod p v bu sk a -> lod_all number a -> lod_eq (f64 L) a a = Ok true) /\
  (forall a b, wf_lod p v bu sk a -> wf_lod p v bu sk b -> lod_eq (f64 L) a b = Ok true -> lod_eq (f64 L) b a = Ok true) /\
  (forall a b c, wf_lod p v bu sk a -> wf_lod p v bu sk b -> wf_lod p v bu sk c ->
     lod_eq (f64 L) a b = Ok true -> lod_eq (f64 L) b c = Ok true -> lod_eq (f64 L) a c = Ok true).
Proof. intros L p v bu sk. exact (conj (lod_eq_refl L p v bu sk) (conj (lod_eq_sym L p v bu sk) (lod_eq_trans L p v bu sk))). Qed.
Print Assumptions C43_lod_equivalence.
Theorem C43_material_equivalence : forall L,
  (forall a, mat_all number a -> mat_eq (f64 L) a a = Ok true) /\
  (forall a b, mat_eq (f64 L) a b = Ok true -> mat_eq (f64 L) b a = Ok true) /\
  (forall a b c, mat_eq (f64 L) a b = Ok true -> mat_eq (f64 L) b c = Ok true -> mat_eq (f64 L) a c = Ok true).
Proof. intros L. exact (conj (mat_eq_refl L) (conj (mat_eq_sym L) (mat_eq_trans L))). Qed.
Print Assumptions C43_material_equivalence.
(** Lods of meshes of version up to 6 and of later versions. *)
Theorem C43_pivot_error : forall F (A : arith F) a b v v' p bu sk bu' sk', wf_lod p v bu sk a -> wf_lod p v' bu' sk' b -> (v <=? 6) <> (v' <=? 6) ->
  opt_alike (vec3_alike (fun x y => f_eq A x y = true)) (lod_min a) (lod_min b) ->
  opt_alike (vec3_alike (fun x y => f_eq A x y = true)) (lod_max a) (lod_max b) -> lod_eq A a b = Raise EType.
Proof. exact @pivot_error. Qed.
Print Assumptions C43_pivot_error.
(** Files whose parts all compare equal need not be the same; two copies of one file
    need not compare at all. *)
Theorem C43_equal_parts_refuted : forall L, exists bs1 bs2 m1 m2, load p64 unpack_f k_static_ bs1 = Ok m1 /\ load p64 unpack_f k_static_ bs2 = Ok m2 /\
  bs1 <> bs2 /\ parts_equal L m1 m2.
Proof. exact mmax_ignored. Qed.
Print Assumptions C43_equal_parts_refuted.
Theorem C43_zero_sign_refuted : forall L, exists bs1 bs2 m1 m2, load p64 unpack_f k_static_ bs1 = Ok m1 /\ load p64 unpack_f k_static_ bs2 = Ok m2 /\
  bs1 <> bs2 /\ parts_equal L m1 m2 /\ map mmax (List.concat (map (fun g => List.concat (map materials (lods g))) (geoms m1))) =
    map mmax (List.concat (map (fun g => List.concat (map materials (lods g))) (geoms m2))).
Proof. exact zero_sign_ignored. Qed.
Print Assumptions C43_zero_sign_refuted.
Theorem C43_nan_refuted : forall L, exists bs m g l mt, load p64 unpack_f k_static_ bs = Ok m /\ In g (geoms m) /\ In l (lods g) /\ In mt (materials l) /\
  mat_eq (f64 L) mt mt = Raise EValue /\ lod_eq (f64 L) l l = Raise EValue.
Proof. exact nan_compare. Qed.
Print Assumptions C43_nan_refuted.
Example C43_example : exists g l, In g (geoms (fl (ex_mesh 11 k_static_))) /\ In l (lods g) /\ wf_lod p64 11 false false l /\ lod_all number l /\
  materials l <> [] /\ Forall (fun m => opt_all (vec3_all (fun x => is_finite 53 1024 x = true)) (mmin m)) (materials l).
Proof. exact ex_good_lod. Qed.
Example C43_pivot_example : exists a b : lod binary64, wf_lod p64 6 true false a /\ wf_lod p64 11 false false b /\ (6 <=? 6) <> (11 <=? 6) /\
  lod_min a = lod_min b /\ lod_max a = lod_max b.
Proof. exact ex_pivots. Qed.

(** ** Edit histories *)
From Verif Require Import SpecHist HistFacts WitnessHist.

(** C44: whatever the arithmetic. *)
Theorem C44_history : forall F (A : arith F) p vs (m0 m : mesh F), savable p vs m0 -> history A p vs m0 m ->
  is_long p (vertnum m) -> is_long p (indexnum m) -> vertnum m * Z.of_nat vs <= 2 ^ 53 -> savable p vs m.
Proof. exact @history_savable. Qed.
Print Assumptions C44_history.
Theorem C44_history_export : forall L p vs (m0 m : mesh binary64), savable p vs m0 -> history (f64 L) p vs m0 m ->
  is_long p (vertnum m) -> is_long p (indexnum m) -> vertnum m * Z.of_nat vs <= 2 ^ 53 ->
  savable p vs m /\
  exists bs round, (forall x, rounds_to_single x (round x)) /\ (forall x, is_single x -> round x = x) /\
    export p pack_f m = (bs, None) /\ load p unpack_f (m_kind m) bs = Ok (mesh_map round m).
Proof. exact history_exports. Qed.
Print Assumptions C44_history_export.
Example C44_example : forall L, savable p64 7 (fl duo_mesh) /\ exists m, history (f64 L) p64 7 (fl duo_mesh) m /\
  is_long p64 (vertnum m) /\ is_long p64 (indexnum m) /\ vertnum m * Z.of_nat 7 <= 2 ^ 53 /\ vertnum m = 2 * vertnum (fl duo_mesh).
Proof. intros L. exact (conj duo_savable (ex_intro _ _ (duo_history L))). Qed.

(** ** Collision meshes *)
From Coq Require Import Relations.
From Verif Require Import CodecLocal Col ColFacts ColMergeFacts WitnessCol SpecBounds SpecCol SpecColFormat ColFormatFacts.

(** C45 *)
Theorem C45_load : forall p F (u : Z -> F) bs m, col_load p u bs = Ok m ->
  wf_col p m /\ Forall (fun f => exists n, is_sshort n /\ read_with n f) (col_faces m).
Proof. exact @col_loaded. Qed.
Print Assumptions C45_load.
Theorem C45_truncated : forall p F (u : Z -> F) bs m, col_load p u bs = Ok m ->
  exists used rest, bs = used ++ rest /\ (forall x, col_load p u (used ++ x) = Ok m) /\
    (forall pre, strict_prefix pre used -> col_load p u pre = Raise EStruct).
Proof. exact @col_used. Qed.
Print Assumptions C45_truncated.
Theorem C45_save_reload : forall p (m : colmesh binary64 colface), wf_col p m ->
  exists bs round, (forall x, rounds_to_single x (round x)) /\ (forall x, is_single x -> round x = x) /\
    write_colmesh p pack_f m = (bs, None) /\ forall rest, col_load p unpack_f (bs ++ rest) = Ok (colmesh_map round reread m).
Proof. exact col_save_reload. Qed.
Print Assumptions C45_save_reload.
Theorem C45_resave : forall p bs m, col_load p unpack_f bs = Ok m ->
  exists used rest out, bs = used ++ rest /\
    (forall x, col_load p unpack_f (used ++ x) = Ok m) /\ (forall pre, strict_prefix pre used -> col_load p unpack_f pre = Raise EStruct) /\
    write_colmesh p pack_f m = (out, None) /\ List.length out = List.length used /\
    (forall x, col_load p unpack_f (out ++ x) = Ok (faces_map reread m)) /\
    ((forall mr, col_load p (fun b => b) bs = Ok mr -> col_all (fun b => ~ snan b) mr) ->
     (out = used <-> Forall (fun f => cf_m f = Some 0) (col_faces m))).
Proof. exact col_resave. Qed.
Print Assumptions C45_resave.
Theorem C45_files : forall p f (m : colmesh binary64 colface) fn f', wf_col p m -> col_save p pack_f f m fn = (f', None) ->
  exists round, (forall x, rounds_to_single x (round x)) /\ (forall x, is_single x -> round x = x) /\
    new_colmesh p unpack_f f' (Some fn) = Ok (colmesh_map round reread m).
Proof. exact col_file_reload. Qed.
Print Assumptions C45_files.
Theorem C45_open_save : forall p f m fn, tree f -> In slash fn -> new_colmesh p unpack_f f (Some fn) = Ok m ->
  exists f', col_save p pack_f f m fn = (f', None) /\ new_colmesh p unpack_f f' (Some fn) = Ok (faces_map reread m).
Proof. exact col_open_save. Qed.
Print Assumptions C45_open_save.
Theorem C45_bare_name : forall p F (pk : F -> Z) f m fn, ~ In slash fn -> col_save p pk f m fn = (f, Some EFileNotFound).
Proof. exact @col_bare_name. Qed.
Print Assumptions C45_bare_name.
Theorem C45_identity_refuted : exists bs m out, col_load p64 unpack_f bs = Ok m /\ write_colmesh p64 pack_f m = (out, None) /\
  out <> bs /\ List.length out = List.length bs /\
  exists m', col_load p64 unpack_f out = Ok m' /\ map cf_m (col_faces m') <> map cf_m (col_faces m).
Proof. exact material_lost. Qed.
Print Assumptions C45_identity_refuted.
Theorem C45_material_refuted : exists m bs m', wf_col p64 m /\ write_colmesh p64 pack_f m = (bs, None) /\ col_load p64 unpack_f bs = Ok m' /\
  map cf_material (col_faces m') <> map cf_material (col_faces m).
Proof. exact material_elsewhere. Qed.
Print Assumptions C45_material_refuted.
Example C45_example : forall v n, In v [8; 9; 10] -> In n [0; 5] -> col_load p64 unpack_f (ex_cfile v n) = Ok (flc (ex_col v n)) /\
  (forall mr, col_load p64 (fun b => b) (ex_cfile v n) = Ok mr -> col_all (fun b => ~ snan b) mr).
Proof. intros v n Hv Hn. exact (conj (ex_cload v n Hv Hn) (fun mr H => ex_clean v n mr H Hv Hn)). Qed.

(** C46 *)
Theorem C46_merge : forall F (A : arith F) h (a b : colmesh F nat) h' c r, apart h (col_faces a) (col_faces b) -> col_merge A h a b = (h', c, r) ->
  (r = None \/ r = Some EIndex) /\ (r = None <-> within a b) /\ List.length h' = List.length h /\
  (forall x, ~ In x (col_faces b) -> deref h' x = deref h x) /\
  (r = None -> col_merged (view h a) (view h b) (view h' c) /\ view h' b = mesh_shifted (view h b) /\ incl (col_faces c) (col_faces a ++ col_faces b)).
Proof. exact @col_merge_run. Qed.
Print Assumptions C46_merge.
Theorem C46_triangles : forall F (a b c : collod F colface), faces_ok a -> faces_ok b -> lod_merged a b c ->
  firstn (List.length (cl_faces a)) (triangles c) = triangles a /\
  (cl_vertnum a = cl_vertnum b -> triangles c = triangles a ++ triangles b).
Proof. intros F a b c Ha Hb M. exact (conj (merged_triangles_mine a b c Ha M) (merged_triangles a b c Ha Hb M)). Qed.
Print Assumptions C46_triangles.
Theorem C46_dangling : forall F (a b c : collod F colface), faces_ok a -> faces_ok b -> lod_merged a b c -> forall k f,
  nth_error (cl_faces b) k = Some f -> cl_vertnum a <= cf_v1 f ->
  exists f', nth_error (cl_faces c) (List.length (cl_faces a) + k) = Some f' /\ corner (cl_vertices c) (cf_v1 f') = None.
Proof. exact @merged_dangling. Qed.
Print Assumptions C46_dangling.
Theorem C46_bounds : forall L h (a b : collod binary64 nat) h' c, merge_collod (f64 L) h a b = (h', c) ->
  Forall (vec3_all number) (cl_vertices a ++ cl_vertices b) -> vec3_all number (cl_min a) -> vec3_all number (cl_max a) ->
  vec3_all number (cl_bmin a) -> vec3_all number (cl_bmax a) ->
  grown (f64 L) (cl_vertices a ++ cl_vertices b) (cl_min a) (cl_max a) (cl_min c) (cl_max c) /\
  grown (f64 L) (cl_vertices a ++ cl_vertices b) (cl_bmin a) (cl_bmax a) (cl_bmin c) (cl_bmax c).
Proof. intros L. exact (merged_bounds (f64 L) number ord (f64_ordered L)). Qed.
Print Assumptions C46_bounds.
Theorem C46_savable : forall F p (a b c : colmesh F colface), wf_col p a -> wf_col p b -> Forall exact_lod (col_lods a) -> Forall exact_lod (col_lods b) ->
  cm_version a = cm_version b -> col_merged a b c -> Forall (lod_fits p) (col_lods c) -> wf_col p c.
Proof. exact @merged_wf. Qed.
Print Assumptions C46_savable.
Theorem C46_saved_faces : forall F p (packf : F -> Z) (m : colmesh F colface), snd (write_colmesh p packf m) = None -> Forall wf_face (col_faces m).
Proof. exact @saved_faces. Qed.
Print Assumptions C46_saved_faces.
Theorem C46_triangles_refuted : forall F (A : arith F) (x y : F), x <> y -> exists h (a b : colmesh F nat) h' c, apart h (col_faces a) (col_faces b) /\
  Forall faces_ok (col_lods (view h a)) /\ Forall faces_ok (col_lods (view h b)) /\ col_merge A h a b = (h', c, None) /\
  flat_map triangles (col_lods (view h' c)) <> flat_map triangles (col_lods (view h a)) ++ flat_map triangles (col_lods (view h b)).
Proof. exact @wrong_corners. Qed.
Print Assumptions C46_triangles_refuted.
Theorem C46_other_refuted : forall F (A : arith F) (x y : F), exists h (a b : colmesh F nat) h' c, apart h (col_faces a) (col_faces b) /\
  col_merge A h a b = (h', c, None) /\ view h' b <> view h b.
Proof. exact @other_changed. Qed.
Print Assumptions C46_other_refuted.
Theorem C46_atomic_refuted : forall F (A : arith F) (x y : F), exists h (a b : colmesh F nat) h' c, apart h (col_faces a) (col_faces b) /\
  col_merge A h a b = (h', c, Some EIndex) /\ view h' c <> view h a /\ view h' b <> view h b.
Proof. exact @half_merged. Qed.
Print Assumptions C46_atomic_refuted.
Theorem C46_savable_refuted : forall F (A : arith F) (x : F) p (packf : F -> Z), exists h (a b : colmesh F nat) h' c, apart h (col_faces a) (col_faces b) /\
  wf_col p (view h a) /\ wf_col p (view h b) /\ col_merge A h a b = (h', c, None) /\ snd (write_colmesh p packf (view h' c)) <> None.
Proof. exact @unsavable. Qed.
Print Assumptions C46_savable_refuted.
Example C46_example : forall F (A : arith F) (x y : F), apart two_heap [0%nat] [1%nat] /\
  faces_ok (lod_view two_heap (mk x 0 (tri x x) [0%nat])) /\ faces_ok (lod_view two_heap (mk x 0 (tri x y) [1%nat])) /\
  cl_vertnum (mk x 0 (tri x x) [0%nat]) = cl_vertnum (mk x 0 (tri x y) [1%nat]) /\
  exists h' c, merge_collod A two_heap (mk x 0 (tri x x) [0%nat]) (mk x 0 (tri x y) [1%nat]) = (h', c).
Proof. intros F A x y. exact (conj ex_apart (ex_same_size A x y)). Qed.
Example C46_savable_example : forall F (A : arith F) (x y : F), exists h' c, col_merge A two_heap (one 10 (mk x 0 (tri x x) [0%nat])) (one 10 (mk x 0 (tri x y) [1%nat])) = (h', c, None) /\
  wf_col p64 (view two_heap (one 10 (mk x 0 (tri x x) [0%nat]))) /\ wf_col p64 (view two_heap (one 10 (mk x 0 (tri x y) [1%nat]))) /\
  Forall exact_lod (col_lods (view two_heap (one 10 (mk x 0 (tri x x) [0%nat])))) /\ Forall exact_lod (col_lods (view two_heap (one 10 (mk x 0 (tri x y) [1%nat])))) /\
  Forall (lod_fits p64) (col_lods (view h' c)).
Proof. exact @ex_merged_fits. Qed.

(** C50 *)
Theorem C50_merged_twice : forall F (A : arith F) h (a b c a' c' : collod F nat) h1 h2,
  apart h (cl_faces a) (cl_faces b) -> apart h (cl_faces c) (cl_faces b) ->
  merge_collod A h a b = (h1, a') -> merge_collod A h1 c b = (h2, c') ->
  let n := cl_vertnum b in
  cl_faces (lod_view h1 a') = cl_faces (lod_view h a) ++ map (shifted n) (cl_faces (lod_view h b)) /\
  cl_faces (lod_view h2 a') = cl_faces (lod_view h a) ++ map (shifted (n + n)) (cl_faces (lod_view h b)) /\
  cl_faces (lod_view h2 c') = cl_faces (lod_view h c) ++ map (shifted (n + n)) (cl_faces (lod_view h b)).
Proof. exact @merged_twice. Qed.
Print Assumptions C50_merged_twice.
Theorem C50_independence_refuted : forall F (A : arith F) (x y : F), exists h (a b c : collod F nat) h1 a' h2 c',
  apart h (cl_faces a) (cl_faces b) /\ apart h (cl_faces c) (cl_faces b) /\
  cl_vertnum a = cl_vertnum b /\ faces_ok (lod_view h a) /\ faces_ok (lod_view h b) /\
  merge_collod A h a b = (h1, a') /\ merge_collod A h1 c b = (h2, c') /\
  triangles (lod_view h1 a') = triangles (lod_view h a) ++ triangles (lod_view h b) /\ triangles (lod_view h2 a') <> triangles (lod_view h1 a').
Proof. exact @first_broken. Qed.
Print Assumptions C50_independence_refuted.
Theorem C50_self_merge : forall n (l : list nat) h, l <> [] ->
  (forall s, clos_refl_trans_1n _ (self_step n) (0%nat, l, h) s -> exists s', self_step n s s') /\
  (forall k, exists l' h', clos_refl_trans_1n _ (self_step n) (0%nat, l, h) (k, l', h') /\ List.length l' = (List.length l + k)%nat).
Proof. intros n l h N. exact (conj (self_merge_never_ends n l h N) (self_merge_grows n l h N)). Qed.
Print Assumptions C50_self_merge.

(** C51 *)
Theorem C51_translate : forall F (A : arith F) R o (m : colmesh F R), Forall2 (lod_moved A o) (col_lods m) (col_lods (col_translate A o m)) /\
  cm_u1 (col_translate A o m) = cm_u1 m /\ cm_version (col_translate A o m) = cm_version m /\ cm_geomnum (col_translate A o m) = cm_geomnum m /\
  Forall2 (fun g g' => cg_subnum g' = cg_subnum g /\ Forall2 (fun s s' => cs_lodnum s' = cs_lodnum s /\ List.length (cs_lods s') = List.length (cs_lods s)) (cg_subs g) (cg_subs g'))
    (cm_geoms m) (cm_geoms (col_translate A o m)).
Proof. exact @translated. Qed.
Print Assumptions C51_translate.
Theorem C51_bounds_refuted : forall L, exists (m : colmesh binary64 nat) o, Forall (collod_boxed (f64 L)) (col_lods m) /\
  ~ Forall (collod_boxed (f64 L)) (col_lods (col_translate (f64 L) o m)).
Proof. exact stale_box. Qed.
Print Assumptions C51_bounds_refuted.

(** C53. [col_fields] lists the typed fields of a collision mesh (SpecColFormat.v). *)
Theorem C53_load_layout : forall p bs m, col_load p unpack_f bs = Ok m <->
  exists (mr : colmesh Z colface) used rest, bs = used ++ rest /\ wf_col p mr /\ col_all is_bits32 mr /\
    laid_out p (col_fields mr) used /\ m = colmesh_map unpack_f reread mr.
Proof. exact col_load_layout. Qed.
Print Assumptions C53_load_layout.
Theorem C53_save_layout : forall p (m : colmesh binary64 colface) bs,
  write_colmesh p pack_f m = (bs, None) <-> laid_out p (col_fields (colmesh_map pack_f (fun x => x) m)) bs.
Proof. exact col_save_layout. Qed.
Print Assumptions C53_save_layout.
Example C53_example : col_load p64 unpack_f (ex_cfile 10 5) = Ok (flc (ex_col 10 5)).
Proof. apply ex_cload; cbn; auto. Qed.

(** * Accuracy in doubles *)
From Verif Require Import SpecAcc AccFacts PiFacts WitnessAcc.
From Flocq Require Import Core.Raux Core.Zaux.
Open Scope R_scope.

(** C54 *)
Theorem C54_translate_accuracy : forall L vs m off m',
  vertex_size m = Ok (Z.of_nat vs) -> (0 < vs)%nat -> tiled_vertices vs m -> short_offsets m ->
  translate (f64 L) m off = (m', None) ->
  forall j c x d, (c < vs)%nat -> nth_error (vertices m) (j * vs + c) = Some x -> moved_at m off c d ->
  exists x', nth_error (vertices m') (j * vs + c) = Some x' /\
    (finite x' -> finite x /\ finite d /\ rounded x' (val x + val d)) /\
    (finite x -> finite d -> Rabs (val x + val d) <= bpow radix2 1023 -> finite x').
Proof. exact translate_accuracy. Qed.
Print Assumptions C54_translate_accuracy.
Theorem C54_undo_accuracy : forall L vs m off m1,
  vertex_size m = Ok (Z.of_nat vs) -> (0 < vs)%nat -> tiled_vertices vs m -> short_offsets m ->
  translate (f64 L) m off = (m1, None) ->
  exists m2, translate (f64 L) m1 (map b64_opp off) = (m2, None) /\ same_but_vertices m m2 /\
  forall j c x, (c < vs)%nat -> nth_error (vertices m) (j * vs + c) = Some x ->
  exists x', nth_error (vertices m2) (j * vs + c) = Some x' /\
    ((forall d, ~ moved_at m off c d) -> x' = x) /\
    forall d, moved_at m off c d -> finite x' ->
      finite x /\ finite d /\
      Rabs (val x' - val x) <= half_ulp * (Rabs (val x) + (1 + half_ulp) * Rabs (val x + val d)).
Proof. exact translate_undo_accuracy. Qed.
Print Assumptions C54_undo_accuracy.
Theorem C54_grid_exact : forall L vs m off m1 e,
  vertex_size m = Ok (Z.of_nat vs) -> (0 < vs)%nat -> tiled_vertices vs m -> short_offsets m ->
  (-1074 <= e <= 970)%Z -> translate (f64 L) m off = (m1, None) ->
  exists m2, translate (f64 L) m1 (map b64_opp off) = (m2, None) /\
  forall j c x d, (c < vs)%nat -> nth_error (vertices m) (j * vs + c) = Some x -> moved_at m off c d ->
    finite x -> finite d -> on_grid e x -> on_grid e d ->
    Rabs (val x) < bpow radix2 (e + 53) -> Rabs (val x + val d) < bpow radix2 (e + 53) ->
    exists x1 x2, nth_error (vertices m1) (j * vs + c) = Some x1 /\ val x1 = val x + val d /\
                  nth_error (vertices m2) (j * vs + c) = Some x2 /\ val x2 = val x.
Proof. exact translate_grid. Qed.
Print Assumptions C54_grid_exact.
Example C54_example : (vertex_size (exm unpack_f) = Ok (Z.of_nat 7) /\ tiled_vertices 7 (exm unpack_f) /\ short_offsets (exm unpack_f)) /\
  moved_at (exm unpack_f) one3 0 (unpack_f b1) /\
  nth_error (vertices (exm unpack_f)) (1 * 7 + 0) = Some (unpack_f b1) /\
  finite (unpack_f b1) /\ on_grid 0 (unpack_f b1) /\
  Rabs (val (unpack_f b1)) < bpow radix2 (0 + 53) /\ Rabs (val (unpack_f b1) + val (unpack_f b1)) < bpow radix2 (0 + 53).
Proof. split; [auto using ex_size, ex_tiled, ex_short|exact ex_moved]. Qed.

(** C55 *)
Theorem C55_rotate_accuracy : forall L vs m yaw pitch roll more e D,
  vertex_size m = Ok (Z.of_nat vs) -> (0 < vs)%nat -> tiled_vertices vs m -> rotate_ready vs m ->
  0 <= e -> libm_within e L -> angle_upto D yaw -> angle_upto D pitch -> angle_upto D roll ->
  e + D * bpow radix2 (-58) <= / 16 ->
  exists m', rotate (f64 L) m (yaw :: pitch :: roll :: more) = (m', None) /\
  forall j a q, In a (oriented_attribs m) -> triple (vertices m) (j * vs + attrib_start m a) q ->
    finite3 q -> norm (val3 q) <= bpow radix2 1000 ->
  exists q', triple (vertices m') (j * vs + attrib_start m a) q' /\ finite3 q' /\
    within (9 * (2 * (e + D * bpow radix2 (-58)) + 6 * half_ulp) * norm (val3 q) + bpow radix2 (-1069)) (val3 q')
           (turn exact (val yaw) (val pitch) (val roll) (val3 q)).
Proof. exact rotate_accuracy. Qed.
Print Assumptions C55_rotate_accuracy.
Example C55_example : libm_within (2 * half_ulp) lib_rounded /\ angle_upto 90 b90_ /\ 2 * half_ulp + 90 * bpow radix2 (-58) <= / 16 /\
  (vertex_size (exm unpack_f) = Ok (Z.of_nat 7) /\ tiled_vertices 7 (exm unpack_f) /\ rotate_ready 7 (exm unpack_f)) /\
  exists a q, In a (oriented_attribs (exm unpack_f)) /\
    triple (vertices (exm unpack_f)) (1 * 7 + attrib_start (exm unpack_f) a) q /\ finite3 q /\ norm (val3 q) = 1.
Proof. split; [exact lib_rounded_right|]. split; [exact b90_upto|]. split; [exact acc_small|]. split; [auto using ex_size, ex_tiled, ex_ready|exact ex_oriented]. Qed.

(** C56 *)
Theorem C56_save_accuracy : forall p m, wf p m -> indexnum m <> 1%Z ->
  exists bs m', export p pack_f m = (bs, None) /\ load p unpack_f (m_kind m) bs = Ok m' /\
  List.length (vertices m') = List.length (vertices m) /\
  forall i x, nth_error (vertices m) i = Some x -> exists y, nth_error (vertices m') i = Some y /\
    (finite x -> Rabs (val x) <= bpow radix2 127 -> finite y /\ Rabs (val y - val x) <= single_error (val x)).
Proof. exact save_accuracy. Qed.
Print Assumptions C56_save_accuracy.
Theorem C56_translate_save_accuracy : forall L p vs m off m', wf p m -> indexnum m <> 1%Z ->
  vertex_size m = Ok (Z.of_nat vs) -> (0 < vs)%nat -> tiled_vertices vs m -> short_offsets m ->
  translate (f64 L) m off = (m', None) ->
  exists bs m2, export p pack_f m' = (bs, None) /\ load p unpack_f (m_kind m) bs = Ok m2 /\
  forall j c x d, (c < vs)%nat -> nth_error (vertices m) (j * vs + c) = Some x -> moved_at m off c d ->
    finite x -> finite d -> Rabs (val x + val d) <= bpow radix2 126 ->
    exists y, nth_error (vertices m2) (j * vs + c) = Some y /\ finite y /\
      Rabs (val y - (val x + val d)) <=
        (bpow radix2 (-24) + 2 * half_ulp) * Rabs (val x + val d) + bpow radix2 (-150).
Proof. exact translate_save_accuracy. Qed.
Print Assumptions C56_translate_save_accuracy.
Theorem C56_rotate_save_accuracy : forall L p vs m yaw pitch roll more e D, wf p m -> indexnum m <> 1%Z ->
  vertex_size m = Ok (Z.of_nat vs) -> (0 < vs)%nat -> tiled_vertices vs m -> rotate_ready vs m ->
  0 <= e -> libm_within e L -> angle_upto D yaw -> angle_upto D pitch -> angle_upto D roll ->
  e + D * bpow radix2 (-58) <= / 16 ->
  exists m' bs m2, rotate (f64 L) m (yaw :: pitch :: roll :: more) = (m', None) /\
  export p pack_f m' = (bs, None) /\ load p unpack_f (m_kind m) bs = Ok m2 /\
  forall j a q, In a (oriented_attribs m) -> triple (vertices m) (j * vs + attrib_start m a) q ->
    finite3 q -> norm (val3 q) <= bpow radix2 125 ->
  exists q2, triple (vertices m2) (j * vs + attrib_start m a) q2 /\ finite3 q2 /\
    within ((bpow radix2 (-24) + 18 * (2 * (e + D * bpow radix2 (-58)) + 6 * half_ulp)) * norm (val3 q) + bpow radix2 (-149)) (val3 q2)
           (turn exact (val yaw) (val pitch) (val roll) (val3 q)).
Proof. exact rotate_save_accuracy. Qed.
Print Assumptions C56_rotate_save_accuracy.
Example C56_example : wf p64 (exm unpack_f) /\ indexnum (exm unpack_f) <> 1%Z /\
  (vertex_size (exm unpack_f) = Ok (Z.of_nat 7) /\ tiled_vertices 7 (exm unpack_f) /\ short_offsets (exm unpack_f)) /\
  moved_at (exm unpack_f) one3 0 (unpack_f b1) /\ finite (unpack_f b1) /\ val (unpack_f b1) = 1.
Proof.
  destruct ex_wf_single as (H1 & H2 & _). split; [exact H1|]. split; [exact H2|].
  split; [auto using ex_size, ex_tiled, ex_short|]. split; [apply ex_moved|exact b1_val].
Qed.

Close Scope R_scope.

(** * Numbers per vertex *)
From Verif Require Import SpecSize SizeFacts WitnessSize.

(** C57. [widths l n] (SpecSize.v) sums a table of widths by declared type. *)
Theorem C57_size : forall F (m : mesh F) n, vertex_size m = Ok n <-> widths (used (vertex_attributes m)) n.
Proof. exact @vertex_size_ok. Qed.
Print Assumptions C57_size.
Theorem C57_unknown_type : forall F (m : mesh F),
  (forall n, ~ widths (used (vertex_attributes m)) n) -> vertex_size m = Raise EValue.
Proof. exact @vertex_size_raise. Qed.
Print Assumptions C57_unknown_type.
(** An attribute flagged neither used (0) nor unused (255) is moved but not counted: a
    loaded mesh loses vertices by a translation. *)
Theorem C57_all_in_use_refuted : forall L x y z, exists bs m a m', load p64 unpack_f k_static_ bs = Ok m /\
  position_attrib m = Some a /\ vertex_size m = Ok 4 /\ vertstride m = 7 * vertformat m /\
  translate (f64 L) m [x; y; z] = (m', None) /\
  List.length (vertices m) = 42%nat /\ List.length (vertices m') = 24%nat.
Proof. exact odd_flag. Qed.
Print Assumptions C57_all_in_use_refuted.
Example C57_example : widths (used (vertex_attributes (ex_mesh 11 k_static_))) 7 /\
  forall n, ~ widths (used [{| flag := 0; offset := 0; vartype := 5; usage := 0 |}]) n.
Proof. split; [exact ex_widths|exact no_width]. Qed.

(** * The old mesh class *)
From Verif Require Import Old SpecOld OldFacts WitnessOld.

(** C58. [old_of] (SpecOld.v) is the mesh with only the last node of each lod, signed
    attribute fields and the indices in a tuple. *)
Theorem C58_agrees : forall F p (unpackf : Z -> F) k bs extra m, load p unpackf k bs = Ok m ->
  (starts_with_material m -> old_load p unpackf k (bs ++ extra) = Ok (old_of m)) /\
  (~ starts_with_material m -> old_load p unpackf k (bs ++ extra) = Raise EUnboundLocal).
Proof. exact @old_agrees. Qed.
Print Assumptions C58_agrees.
Theorem C58_nothing_else : forall F p (unpackf : Z -> F) k bs mo, old_load p unpackf k bs = Ok mo ->
  List.length (vertices mo) <> 1%nat ->
  exists used extra m, bs = used ++ extra /\ load p unpackf k used = Ok m /\ mo = old_of m /\ starts_with_material m.
Proof. exact @old_agrees_conv. Qed.
Print Assumptions C58_nothing_else.
Theorem C58_files : forall p f fn kw o, new_visible_mesh p unpack_f f (Some fn) kw = Ok o ->
  isCollisionMesh (m_kind (o_mesh o)) = false ->
  (starts_with_material (o_mesh o) -> old_load_mesh p unpack_f f fn = Ok (old_of (o_mesh o))) /\
  (~ starts_with_material (o_mesh o) -> old_load_mesh p unpack_f f fn = Raise EUnboundLocal).
Proof. exact old_open. Qed.
Print Assumptions C58_files.
Theorem C58_same_files_refuted : exists bs m,
  load p64 unpack_f k_static_ bs = Ok m /\ old_load p64 unpack_f k_static_ bs = Raise EUnboundLocal.
Proof. exact old_fails. Qed.
Print Assumptions C58_same_files_refuted.
Example C58_example : load p64 unpack_f k_static_ (ex_file p64 11 k_static_) = Ok (fl (ex_mesh 11 k_static_)) /\
  starts_with_material (fl (ex_mesh 11 k_static_)) /\
  new_visible_mesh p64 unpack_f fsA (Some fnA) kw0 = Ok objA /\ isCollisionMesh (m_kind (o_mesh objA)) = false.
Proof. split; [apply ex_load_fl, ex_load_static|]. split; [apply ex_starts|]. split; [apply openA|reflexivity]. Qed.

(** C59 *)
Theorem C59_resave : forall p k bs m, load p unpack_f k bs = Ok m ->
  exists cs, old_save p pack_f (old_of m) = (cs, None) /\ List.length cs = List.length bs /\
    load p unpack_f k cs = Ok (nodes_flattened m).
Proof. exact old_resave. Qed.
Print Assumptions C59_resave.
Theorem C59_same_bytes : forall p k bs m, load p unpack_f k bs = Ok m ->
  (forall mr, load p (fun b => b) k bs = Ok mr -> mesh_all (fun b => ~ snan b) mr) ->
  old_save p pack_f (old_of m) = (bs, None) <-> nodes_alike m.
Proof. exact old_resave_exact. Qed.
Print Assumptions C59_same_bytes.
Theorem C59_open_save : forall p f fn kw o, tree f -> In slash fn -> new_visible_mesh p unpack_f f (Some fn) kw = Ok o ->
  isCollisionMesh (m_kind (o_mesh o)) = false -> starts_with_material (o_mesh o) ->
  exists mo f' o', old_load_mesh p unpack_f f fn = Ok mo /\ old_save_mesh p pack_f f mo fn = (f', None) /\
    new_visible_mesh p unpack_f f' (Some fn) kw = Ok o' /\ o_mesh o' = nodes_flattened (o_mesh o) /\
    (forall q, path_eqb q (resolve fn) = false -> f' q = f q).
Proof. exact old_open_save. Qed.
Print Assumptions C59_open_save.
Theorem C59_bare_name : forall F p (packf : F -> Z) f m fn, ~ In slash fn ->
  old_save_mesh p packf f m fn = (f, Some EFileNotFound).
Proof. exact (fun F p => @old_bare_name p F). Qed.
Print Assumptions C59_bare_name.
Theorem C59_lossless_refuted : exists bs m cs m', load p64 unpack_f k_static_ bs = Ok m /\ starts_with_material m /\
  old_save p64 pack_f (old_of m) = (cs, None) /\ cs <> bs /\ load p64 unpack_f k_static_ cs = Ok m' /\
  map nodes (lods_of m') <> map nodes (lods_of m).
Proof. exact old_damages. Qed.
Print Assumptions C59_lossless_refuted.
Example C59_example : nodes_alike (fl (ex_mesh 11 k_static_)) /\ tree fsA /\ In slash fnA /\
  new_visible_mesh p64 unpack_f fsA (Some fnA) kw0 = Ok objA /\ isCollisionMesh (m_kind (o_mesh objA)) = false /\
  starts_with_material (o_mesh objA).
Proof.
  split; [apply ex_alike|]. split; [apply one_tree|]. split; [vm_compute; tauto|].
  split; [apply openA|]. split; [reflexivity|apply ex_starts].
Qed.

(** * Editing with the old mesh class *)
From Verif Require Import OldEdit SpecOldEdit OldEditFacts OldEditThms WitnessOldEdit.

(** C60. [canonical vs m] (SpecOldEdit.v): attributes declared in order without gaps. *)
Theorem C60_get : forall F vs (m : mesh F), canonical vs m -> exists objs, get_vertices m = Ok objs /\
  zlen objs = vertnum m /\ forall j v, nth_error objs j = Some v -> forall u, field_of vs m j u (v u).
Proof. exact @get_vertices_fields. Qed.
Print Assumptions C60_get.
Theorem C60_read_write : forall F (A : arith F) vs m objs m' o, canonical vs m ->
  get_vertices m = Ok objs -> update_vertices A m objs = (m', o) -> same_but_bounds m m'.
Proof. exact @read_write. Qed.
Print Assumptions C60_read_write.
Theorem C60_read_write_ok : forall F (A : arith F) vs m, canonical vs m ->
  Forall (mat_vin vs m) (mats m) -> has_positions m -> every_lod lod_bounded m ->
  exists objs m', get_vertices m = Ok objs /\ update_vertices A m objs = (m', None) /\ same_but_bounds m m'.
Proof. exact @read_write_ok. Qed.
Print Assumptions C60_read_write_ok.
Theorem C60_write_read : forall F (A : arith F) vs m objs m' o, canonical vs m ->
  Forall (complete m) objs -> zlen objs * Z.of_nat vs <= 2 ^ 53 -> update_vertices A m objs = (m', o) ->
  same_header m m' /\ vertnum m' = zlen objs /\ zlen (vertices m') = zlen objs * Z.of_nat vs /\
  index m' = index m /\ indexnum m' = indexnum m /\ map geom_unbound (geoms m') = map geom_unbound (geoms m) /\
  exists objs', get_vertices m' = Ok objs' /\ Forall2 (trimmed m) objs objs'.
Proof. exact @write_read. Qed.
Print Assumptions C60_write_read.
(** With normals declared before positions, writing back what was read scrambles the
    vertices. *)
Theorem C60_any_order_refuted : forall L, exists bs m objs m', old_load p64 unpack_f k_static_ bs = Ok m /\ packed 7 m /\
  get_vertices m = Ok objs /\ update_vertices (f64 L) m objs = (m', None) /\ vertices m' <> vertices m.
Proof. exact read_write_scrambles. Qed.
Print Assumptions C60_any_order_refuted.
Example C60_example : forall F (f : Z -> F), canonical 7 (exm f) /\ Forall (mat_vin 7 (exm f)) (mats (exm f)) /\
  has_positions (exm f) /\ every_lod lod_bounded (exm f) /\
  exists objs, Forall (complete (exm f)) objs /\ zlen objs = 6.
Proof.
  intros F f. split; [apply ex_canonical|]. split; [apply ex_vin|]. split; [apply ex_has_positions|].
  split; [apply ex_lods_bounded|apply ex_complete].
Qed.

(** C61. [sum2 A x d] is 0 + x + d. *)
Theorem C61_moves : forall F (A : arith F) vs m off, canonical vs m -> tiled_vertices vs m ->
  has_positions m -> every_lod lod_bounded m -> (3 <= List.length off)%nat ->
  exists m', old_translate A m off = (m', None) /\ same_but_vertices_bounds m m' /\
    List.length (vertices m') = List.length (vertices m) /\
    forall j c x, (c < vs)%nat -> nth_error (vertices m) (j * vs + c) = Some x ->
      nth_error (vertices m') (j * vs + c) = Some (shifted A (position_start m) off c x).
Proof. exact @old_translate_packed. Qed.
Print Assumptions C61_moves.
Theorem C61_agrees_exactly : forall vs (m : mesh R) off m1, canonical vs m -> tiled_vertices vs m ->
  vertex_size m = Ok (Z.of_nat vs) -> has_positions m -> every_lod lod_bounded m -> List.length off = 3%nat ->
  translate exact m off = (m1, None) ->
  exists m', old_translate exact m off = (m', None) /\ same_but_bounds m1 m'.
Proof. exact old_translate_exact. Qed.
Print Assumptions C61_agrees_exactly.
Theorem C61_agrees_doubles : forall L vs m off m1, canonical vs m -> tiled_vertices vs m ->
  vertex_size m = Ok (Z.of_nat vs) -> has_positions m -> every_lod lod_bounded m -> List.length off = 3%nat ->
  translate (f64 L) m off = (m1, None) ->
  exists m', old_translate (f64 L) m off = (m', None) /\ same_but_vertices_bounds m1 m' /\
    Forall2 (fun x y => x = y \/ (zero64 x /\ zero64 y)) (vertices m1) (vertices m').
Proof. exact old_translate_doubles. Qed.
Print Assumptions C61_agrees_doubles.
Theorem C61_same_zeros_refuted : forall L, exists bs m m1 m' off, old_load p64 unpack_f k_static_ bs = Ok m /\ packed 7 m /\
  canonical 7 m /\ List.length off = 3%nat /\ translate (f64 L) m off = (m1, None) /\
  old_translate (f64 L) m off = (m', None) /\ vertices m1 <> vertices m'.
Proof. exact zeros_differ. Qed.
Print Assumptions C61_same_zeros_refuted.
Theorem C61_short_offset_refuted : forall L, exists bs m m', old_load p64 unpack_f k_static_ bs = Ok m /\ packed 7 m /\
  canonical 7 m /\ old_translate (f64 L) m [unpack_f b1; unpack_f b1] = (m', None) /\
  zlen (vertices m) = 42 /\ zlen (vertices m') = 36 /\ vertnum m' = 5.
Proof. exact short_offset_breaks. Qed.
Print Assumptions C61_short_offset_refuted.
Theorem C61_shared_vertices_refuted : forall L, exists bs m m' x y, old_load p64 unpack_f k_static_ bs = Ok m /\
  in_range 7 m /\ canonical 7 m /\ old_translate (f64 L) m one3 = (m', None) /\
  nth_error (vertices m) 0 = Some x /\ nth_error (vertices m') 0 = Some y /\
  y <> shifted (f64 L) (position_start m) one3 0 x /\ zlen (vertices m') = 2 * zlen (vertices m).
Proof. exact shared_moves_twice. Qed.
Print Assumptions C61_shared_vertices_refuted.
Theorem C61_skinned_refuted : forall L, exists bs m m', old_load p32 unpack_f k_skinned_ bs = Ok m /\ packed 7 m /\
  canonical 7 m /\ old_translate (f64 L) m one3 = (m', Some EType) /\ vertices m' <> vertices m.
Proof. exact skinned_half_done. Qed.
Print Assumptions C61_skinned_refuted.
Example C61_example : forall F (A : arith F) (f : Z -> F) x y z, canonical 7 (exm f) /\ tiled_vertices 7 (exm f) /\
  vertex_size (exm f) = Ok (Z.of_nat 7) /\ has_positions (exm f) /\ every_lod lod_bounded (exm f) /\
  exists m1, translate A (exm f) [x; y; z] = (m1, None).
Proof.
  intros F A f x y z. split; [apply ex_canonical|]. split; [apply ex_tiled|]. split; [apply ex_size|].
  split; [apply ex_has_positions|]. split; [apply ex_lods_bounded|apply ex_translates].
Qed.

(** C62. [turn A yaw pitch roll] (SpecEdit.v). *)
Theorem C62_turns : forall F (A : arith F) vs m r0 r1 r2 more, canonical vs m -> tiled_vertices vs m ->
  float3 m 0 -> float3 m 3 -> float3 m 6 -> every_lod lod_bounded m -> can_turn A r0 r1 r2 ->
  exists m', old_rotate A m (r0 :: r1 :: r2 :: more) = (m', None) /\ same_but_vertices_bounds m m' /\
    List.length (vertices m') = List.length (vertices m) /\
    (forall j c, (c < vs)%nat -> Forall (outside m c) (oriented_attribs m) ->
       nth_error (vertices m') (j * vs + c) = nth_error (vertices m) (j * vs + c)) /\
    (forall j a q, In a (oriented_attribs m) -> triple (vertices m) (j * vs + attrib_start m a) q ->
       triple (vertices m') (j * vs + attrib_start m a) (turn A r0 r1 r2 q)).
Proof. exact @old_rotate_packed. Qed.
Print Assumptions C62_turns.
Theorem C62_agrees : forall F (A : arith F) vs m r0 r1 r2 more m1, canonical vs m -> tiled_vertices vs m ->
  vertex_size m = Ok (Z.of_nat vs) -> float3 m 0 -> float3 m 3 -> float3 m 6 -> every_lod lod_bounded m ->
  can_turn A r0 r1 r2 -> rotate A m (r0 :: r1 :: r2 :: more) = (m1, None) ->
  exists m', old_rotate A m (r0 :: r1 :: r2 :: more) = (m', None) /\ same_but_bounds m1 m'.
Proof. exact @old_rotate_agrees. Qed.
Print Assumptions C62_agrees.
Theorem C62_infinite_angle : forall F (A : arith F) vs m r0 r1 r2 more, canonical vs m -> tiled_vertices vs m -> vertices m <> [] ->
  float3 m 0 -> (exists b, has_attrib m 3 b) -> (exists c, has_attrib m 6 c) -> ~ can_turn A r0 r1 r2 ->
  old_rotate A m (r0 :: r1 :: r2 :: more) = (m, Some EValue).
Proof. exact @old_rotate_infinite. Qed.
Print Assumptions C62_infinite_angle.
Theorem C62_no_tangent_refuted : forall F (A : arith F) (f : Z -> F) a b c, can_turn A a b c ->
  old_rotate A (exm f) [a; b; c] = (exm f, Some EAttribute) /\ exists m1, rotate A (exm f) [a; b; c] = (m1, None).
Proof. exact @no_tangent. Qed.
Print Assumptions C62_no_tangent_refuted.
Example C62_example : forall F (A : arith F) (f : Z -> F) a b c, can_turn A a b c -> let m := mesh_map f tan_mesh in
  canonical 9 m /\ tiled_vertices 9 m /\ vertex_size m = Ok (Z.of_nat 9) /\ float3 m 0 /\ float3 m 3 /\ float3 m 6 /\
  every_lod lod_bounded m /\ exists m1, rotate A m [a; b; c] = (m1, None).
Proof.
  intros F A f a b c Ht. cbv zeta. split; [apply tan_canonical|]. split; [apply tan_tiled|]. split; [reflexivity|].
  split; [apply tan_float3; simpl; tauto|]. split; [apply tan_float3; simpl; tauto|]. split; [apply tan_float3; simpl; tauto|].
  split; [apply tan_bounded|now apply tan_rotates].
Qed.

(** C63 *)
Theorem C63_enlarges : forall L vs m, canonical vs m -> has_positions m -> Forall (mat_vin vs m) (mats m) ->
  every_lod lod_bounded m -> every_lod (lod_coords (fun x => is_nan 53 1024 x = false) vs m) m ->
  exists m', old_update_boundaries (f64 L) m = (m', None) /\ same_but_bounds m m' /\ bounds_enlarged (f64 L) vs m m'.
Proof. exact old_bounds_f64. Qed.
Print Assumptions C63_enlarges.
Theorem C63_enlarges_exact : forall vs m, canonical vs m -> has_positions m -> Forall (mat_vin vs m) (mats m) ->
  every_lod lod_bounded m ->
  exists m', old_update_boundaries exact m = (m', None) /\ same_but_bounds m m' /\ bounds_enlarged exact vs m m'.
Proof. exact old_bounds_exact. Qed.
Print Assumptions C63_enlarges_exact.
Theorem C63_after_translate : forall vs m off m', canonical vs m -> tiled_vertices vs m -> has_positions m ->
  every_lod lod_bounded m -> (3 <= List.length off)%nat -> old_translate exact m off = (m', None) ->
  bounds_enlarged exact vs m m'.
Proof. exact old_translate_bounds. Qed.
Print Assumptions C63_after_translate.
Theorem C63_after_rotate : forall vs m r0 r1 r2 more m', canonical vs m -> tiled_vertices vs m ->
  float3 m 0 -> float3 m 3 -> float3 m 6 -> every_lod lod_bounded m ->
  old_rotate exact m (r0 :: r1 :: r2 :: more) = (m', None) -> bounds_enlarged exact vs m m'.
Proof. exact old_rotate_bounds. Qed.
Print Assumptions C63_after_rotate.
(** The old bounds are never given up. *)
Theorem C63_tight_refuted : forall L, exists bs m m' l lo, old_load p64 unpack_f k_static_ bs = Ok m /\ packed 7 m /\
  canonical 7 m /\ old_translate (f64 L) m one3 = (m', None) /\ lod_at m' 0 0 l /\ lod_min l = Some lo /\
  lod_positions 7 m' l <> [] /\
  forall q, In q (lod_positions 7 m' l) -> f_lt (f64 L) (axis 0 lo) (axis 0 q) = true.
Proof. exact old_not_tight. Qed.
Print Assumptions C63_tight_refuted.
Example C63_example : canonical 7 (exm unpack_f) /\ has_positions (exm unpack_f) /\
  Forall (mat_vin 7 (exm unpack_f)) (mats (exm unpack_f)) /\ every_lod lod_bounded (exm unpack_f) /\
  every_lod (lod_coords (fun x => is_nan 53 1024 x = false) 7 (exm unpack_f)) (exm unpack_f).
Proof.
  split; [apply ex_canonical|]. split; [apply ex_has_positions|]. split; [apply ex_vin|].
  split; [apply ex_lods_bounded|exact ex_coords].
Qed.

(** C64 *)
Theorem C64_joins : forall F (A : arith F) vs self other, canonical vs self -> canonical vs other ->
  packed vs self -> packed vs other -> same_nesting self other -> vertex_attributes self = vertex_attributes other ->
  isStaticMesh (m_kind self) = true \/ isStaticMesh (m_kind other) = true ->
  has_positions self -> every_lod lod_bounded self -> zlen (vertices self) + zlen (vertices other) <= 2 ^ 53 ->
  exists m', old_merge A self other = (m', None) /\ same_header self m' /\ packed vs m' /\ mats_joined vs self other m'.
Proof. exact @old_merge_joined. Qed.
Print Assumptions C64_joins.
Theorem C64_agrees : forall F (A : arith F) vs self other m2, canonical vs self -> canonical vs other ->
  packed vs self -> packed vs other -> vertex_size self = Ok (Z.of_nat vs) ->
  isStaticMesh (m_kind self) = true \/ isStaticMesh (m_kind other) = true ->
  has_positions self -> every_lod lod_bounded self -> zlen (vertices self) + zlen (vertices other) <= 2 ^ 53 ->
  merge self other = (m2, Merged) ->
  exists m', old_merge A self other = (m', None) /\ same_but_bounds m2 m'.
Proof. exact @old_merge_agrees. Qed.
Print Assumptions C64_agrees.
Theorem C64_textures_refuted : forall L, exists bs bs' a b m',
  old_load p64 unpack_f k_static_ bs = Ok a /\ old_load p64 unpack_f k_static_ bs' = Ok b /\
  merge a b = (a, ReturnedNotImplementedError) /\ old_merge (f64 L) a b = (m', None) /\
  map maps (mats m') = map maps (mats a) /\ map maps (mats b) <> map maps (mats a) /\ vertnum m' = vertnum a + vertnum b.
Proof. exact textures_lost. Qed.
Print Assumptions C64_textures_refuted.
Theorem C64_savable_refuted : forall L, exists bs bs' a b m' am bytes e,
  old_load p64 unpack_f k_static_ bs = Ok a /\ old_load p64 unpack_f k_static_ bs' = Ok b /\
  packed 7 a /\ packed 7 b /\ merge a b = (am, MergeRaised EOverflow) /\
  old_merge (f64 L) a b = (m', None) /\ Exists (fun i => 65535 < i) (index_list m') /\
  old_save p64 pack_f m' = (bytes, Some e).
Proof. exact old_merge_unsavable. Qed.
Print Assumptions C64_savable_refuted.
Theorem C64_all_or_nothing_refuted : forall L, exists bs bs' a b m',
  old_load p64 unpack_f k_static_ bs = Ok a /\ old_load p64 unpack_f k_static_ bs' = Ok b /\
  packed 7 a /\ canonical 7 a /\ canonical 7 b /\ old_merge (f64 L) a b = (m', Some EIndex) /\
  vertices m' = vertices a /\ exists mt, In mt (mats m') /\ vnum mt = 6.
Proof. exact merge_half_done. Qed.
Print Assumptions C64_all_or_nothing_refuted.
Example C64_example : forall F (f g : Z -> F), canonical 7 (exm f) /\ canonical 7 (exm g) /\
  packed 7 (exm f) /\ packed 7 (exm g) /\ vertex_size (exm f) = Ok (Z.of_nat 7) /\ same_nesting (exm f) (exm g) /\
  vertex_attributes (exm f) = vertex_attributes (exm g) /\
  isStaticMesh (m_kind (exm f)) = true /\ has_positions (exm f) /\ every_lod lod_bounded (exm f) /\
  zlen (vertices (exm f)) + zlen (vertices (exm g)) <= 2 ^ 53 /\
  merge (exm f) (exm g) = (fst (merge (exm f) (exm g)), Merged).
Proof.
  intros F f g. split; [apply ex_canonical|]. split; [apply ex_canonical|]. split; [apply ex_packed|]. split; [apply ex_packed|].
  split; [apply ex_size|]. split; [apply ex_nesting|]. split; [reflexivity|]. split; [reflexivity|].
  split; [apply ex_has_positions|]. split; [apply ex_lods_bounded|]. split; [discriminate|apply ex_merges].
Qed.

(** * VisMeshTransform *)
From Verif Require Import Trans SpecTrans TransFacts DeleteFacts EditVFacts WitnessTrans.

(** C65. [fresh m]: no geom object is in the table twice (Trans.v). *)
Theorem C65_copy : forall F (m : mesh F) i j g, 0 <= i -> nth_error (geoms m) (Z.to_nat i) = Some g -> 0 <= j <= zlen (geoms m) ->
  exists m' ids', copy_geom_id m (fresh m) i j = (m', ids', None) /\ same_but_geoms m m' /\ geomnum m' = geomnum m + 1 /\
    inserted (Z.to_nat j) g (geoms m) (geoms m') /\ forall p, wf p m -> is_long p (geomnum m + 1) -> wf p m'.
Proof. exact @copy_fresh. Qed.
Print Assumptions C65_copy.
Theorem C65_copy_range : forall F p (pk : F -> Z) m ids i j, wf p m -> 0 <= geomnum m -> is_long p (geomnum m + 1) ->
  ~ (- zlen (geoms m) <= i < zlen (geoms m)) ->
  exists m' bs, copy_geom_id m ids i j = (m', ids, Some EIndex) /\ same_but_geoms m m' /\ geoms m' = geoms m /\
    old_save p pk m' = (bs, Some EIndex).
Proof. exact @copy_bad_save. Qed.
Print Assumptions C65_copy_range.
(** The copy is the geom itself: whatever is renamed, both are equal afterwards. *)
Theorem C65_copy_shared : forall F (m : mesh F) i j m1 ids1 g l mt k path m2 o, 0 <= i < zlen (geoms m) -> 0 <= j <= zlen (geoms m) ->
  copy_geom_id m (fresh m) i j = (m1, ids1, None) -> rename_texture m1 ids1 g l mt k path = (m2, o) ->
  let a := (if i <? j then i else i + 1)%Z in
  nth_error (geoms m2) (Z.to_nat a) = nth_error (geoms m2) (Z.to_nat j).
Proof. exact @copies_same. Qed.
Print Assumptions C65_copy_shared.
Theorem C65_independent_refuted : forall F (f : Z -> F), exists m1 ids1 m2,
  copy_geom_id (exm f) (fresh (exm f)) 0 2 = (m1, ids1, None) /\
  rename_texture m1 ids1 0 0 0 0 (of_string "b.dds") = (m2, None) /\
  map_at m1 2 0 0 0 = Some (of_string "a.dds") /\ map_at m2 2 0 0 0 = Some (of_string "b.dds") /\
  map_at m2 1 0 0 0 = Some (of_string "a.dds").
Proof. exact copies_share. Qed.
Print Assumptions C65_independent_refuted.
Theorem C65_order : forall F (m : mesh F) order, Forall (fun i => 0 <= i < zlen (geoms m)) order ->
  exists m' ids', order_geoms_by m (fresh m) order = (m', ids', None) /\ same_but_geoms m m' /\ geomnum m' = geomnum m /\
    Forall2 (fun i g => nth_error (geoms m) (Z.to_nat i) = Some g) order (geoms m') /\
    forall p, wf p m -> List.length order = List.length (geoms m) -> wf p m'.
Proof. exact @order_fresh. Qed.
Print Assumptions C65_order.
Theorem C65_order_range : forall F (m : mesh F) ids order,
  Exists (fun i => ~ (- zlen (geoms m) <= i < zlen (geoms m))) order ->
  order_geoms_by m ids order = (m, ids, Some EIndex).
Proof. exact @order_bad. Qed.
Print Assumptions C65_order_range.
Theorem C65_order_short : forall F p (pk : F -> Z) m ids order, wf p m -> List.length ids = List.length (geoms m) ->
  Forall (fun i => 0 <= i < zlen (geoms m)) order -> (List.length order < List.length (geoms m))%nat ->
  exists m' ids' bs, order_geoms_by m ids order = (m', ids', None) /\ old_save p pk m' = (bs, Some EIndex).
Proof. exact @short_order_save. Qed.
Print Assumptions C65_order_short.
Theorem C65_order_long_refuted : exists bs m' ids', old_load p64 unpack_f k_static_ bs = Ok (exm unpack_f) /\
  order_geoms_by (exm unpack_f) (fresh (exm unpack_f)) [0; 1; 0] = (m', ids', None) /\
  exists bs' e, old_save p64 pack_f m' = (bs', None) /\ old_load p64 unpack_f k_static_ bs' = Raise e.
Proof. exact long_order. Qed.
Print Assumptions C65_order_long_refuted.
Example C65_example : forall F (f : Z -> F), wf p64 (exm f) /\ List.length (geoms (exm f)) = 2%nat /\
  is_long p64 (geomnum (exm f) + 1) /\ List.length (fresh (exm f)) = List.length (geoms (exm f)).
Proof. intros F f. split; [apply ex_wf_map|]. split; [reflexivity|]. split; [apply CodecBase.fits_long_iff; reflexivity|reflexivity]. Qed.

(** C66 *)
Theorem C66_renames : forall F (m : mesh F) g l mt k path x, map_at m g l mt k = Some x -> exists m',
  rename_texture m (fresh m) (Z.of_nat g) (Z.of_nat l) (Z.of_nat mt) (Z.of_nat k) path = (m', None) /\
  map_at m' g l mt k = Some path /\
  (forall g' l' mt' k', (g', l', mt', k') <> (g, l, mt, k) -> map_at m' g' l' mt' k' = map_at m g' l' mt' k') /\
  same_but_geoms m m' /\ geomnum m' = geomnum m /\
  map (geom_mats unmapped) (geoms m') = map (geom_mats unmapped) (geoms m).
Proof. exact @rename_ok. Qed.
Print Assumptions C66_renames.
Theorem C66_savable : forall F (m : mesh F) g l mt k path p x, map_at m g l mt k = Some x -> wf p m -> wf_string p path ->
  forall m', rename_texture m (fresh m) (Z.of_nat g) (Z.of_nat l) (Z.of_nat mt) (Z.of_nat k) path = (m', None) -> wf p m'.
Proof. exact @rename_wf. Qed.
Print Assumptions C66_savable.
Theorem C66_range : forall F (m : mesh F) g l mt k path ids, map_at m g l mt k = None ->
  rename_texture m ids (Z.of_nat g) (Z.of_nat l) (Z.of_nat mt) (Z.of_nat k) path = (m, Some EIndex).
Proof. exact @rename_bad. Qed.
Print Assumptions C66_range.
Example C66_example : forall F (f : Z -> F), map_at (exm f) 1 0 0 0 = Some (of_string "a.dds") /\ map_at (exm f) 1 0 0 1 = None /\
  wf p64 (exm f) /\ wf_string p64 (of_string "b.dds").
Proof. intros F f. split; [reflexivity|]. split; [reflexivity|]. split; [apply ex_wf_map|apply b_dds_wf]. Qed.

(** C67. The first flag says that the vertices are a list, the second that the indices are. *)
Theorem C67_tuple_refused : forall F ilist (m : mesh F) ids id, exists e, delete_geom_id false ilist m ids id = (m, ids, Some e).
Proof. exact @delete_tuple. Qed.
Print Assumptions C67_tuple_refused.
Theorem C67_deletes : forall F vs (m : mesh F) k g l0 m0 lt mtl, packed vs m -> (0 < vs)%nat -> vertformat m <> 0 ->
  vertstride m = Z.of_nat vs * vertformat m -> nth_error (geoms m) k = Some g -> lods g = l0 :: lt -> materials l0 = m0 :: mtl ->
  zlen (vertices m) <= 2 ^ 53 -> Z.of_nat vs <= 2 ^ 53 ->
  exists m' ids', delete_geom_id true true m (fresh m) (Z.of_nat k) = (m', ids', None) /\ same_rest m m' /\
    geomnum m' = geomnum m - 1 /\ vertnum m' = vertnum m - geom_vnum g /\ indexnum m' = indexnum m - geom_inum g /\
    zlen (vertices m') = zlen (vertices m) - geom_vnum g * Z.of_nat vs /\
    zlen (index_list m') = zlen (index_list m) - geom_inum g /\
    without k (map (geom_mats unplaced) (geoms m)) (map (geom_mats unplaced) (geoms m')) /\
    without k (map (geom_data vs m) (geoms m)) (map (geom_data vs m') (geoms m')) /\ packed vs m'.
Proof. exact @delete_ok. Qed.
Print Assumptions C67_deletes.
Theorem C67_savable : forall F vs (m : mesh F) k g l0 m0 lt mtl, packed vs m -> (0 < vs)%nat -> vertformat m <> 0 ->
  vertstride m = Z.of_nat vs * vertformat m -> nth_error (geoms m) k = Some g -> lods g = l0 :: lt -> materials l0 = m0 :: mtl ->
  zlen (vertices m) <= 2 ^ 53 -> Z.of_nat vs <= 2 ^ 53 ->
  forall p, wf p m -> zlen (vertices m) = vertnum m * Z.of_nat vs -> (2 <= vs)%nat -> indexnum m - geom_inum g <> 1 ->
  forall m' ids', delete_geom_id true true m (fresh m) (Z.of_nat k) = (m', ids', None) -> wf p m'.
Proof. exact @delete_wf. Qed.
Print Assumptions C67_savable.
Theorem C67_negative_refuted : forall F (f : Z -> F), exists m' ids',
  delete_geom_id true true (exm f) (fresh (exm f)) (-1) = (m', ids', None) /\ exists mt, In mt (mats m') /\ vstart mt = -3.
Proof. exact delete_negative. Qed.
Print Assumptions C67_negative_refuted.
Theorem C67_copied_refuted : forall F (f : Z -> F), exists m1 ids1 m' ids',
  copy_geom_id (exm f) (fresh (exm f)) 0 2 = (m1, ids1, None) /\
  delete_geom_id true true m1 ids1 0 = (m', ids', None) /\ exists mt, In mt (mats m') /\ vstart mt = -3.
Proof. exact delete_shared. Qed.
Print Assumptions C67_copied_refuted.
Theorem C67_all_or_nothing_refuted : forall F (f : Z -> F), exists m',
  delete_geom_id true false (exm f) (fresh (exm f)) 0 = (m', fresh (exm f), Some EType) /\
  zlen (vertices m') = 21 /\ vertnum m' = 3 /\ geoms m' = geoms (exm f) /\ index m' = index (exm f).
Proof. exact delete_half. Qed.
Print Assumptions C67_all_or_nothing_refuted.
Example C67_example : forall F (f : Z -> F), packed 7 (exm f) /\ vertformat (exm f) <> 0 /\
  vertstride (exm f) = Z.of_nat 7 * vertformat (exm f) /\
  (exists g l0 m0 lt mtl, nth_error (geoms (exm f)) 0 = Some g /\ lods g = l0 :: lt /\ materials l0 = m0 :: mtl /\ indexnum (exm f) - geom_inum g <> 1) /\
  zlen (vertices (exm f)) = vertnum (exm f) * Z.of_nat 7 /\ wf p64 (exm f).
Proof.
  intros F f. split; [apply ex_packed|]. split; [discriminate|]. split; [reflexivity|]. split; [apply ex_deletes|].
  split; [reflexivity|apply ex_wf_map].
Qed.

(** C68. [u]: the number of the usage; the flag says that the vertices are a list. *)
Theorem C68_tuple_refused : forall F (m : mesh F) id u d, exists o, edit_vertex false m id u d = (m, o).
Proof. exact @edit_vertex_tuple. Qed.
Print Assumptions C68_tuple_refused.
Theorem C68_tuple_raises : forall F vs (m : mesh F) u j d, canonical vs m ->
  Forall (fun a => vartype a <> 3) (vertex_attributes m) -> d <> [] -> Z.of_nat j < vertnum m ->
  (exists a, In a (vertex_attributes m) /\ usage a = u) -> edit_vertex false m (Z.of_nat j) u d = (m, Some EType).
Proof. exact @edit_vertex_tuple_raises. Qed.
Print Assumptions C68_tuple_raises.
Theorem C68_edits : forall F vs (m : mesh F) u o j d, canonical vs m ->
  Forall (fun a => vartype a <> 3) (vertex_attributes m) ->
  (forall a, In a (vertex_attributes m) -> usage a = u -> attrib_start m a = o) ->
  (o + List.length d <= vs)%nat -> Z.of_nat j < vertnum m -> (exists a, In a (vertex_attributes m) /\ usage a = u) ->
  exists m', edit_vertex true m (Z.of_nat j) u d = (m', None) /\ same_but_vertices m m' /\
    List.length (vertices m') = List.length (vertices m) /\
    (forall c, (c < List.length d)%nat -> number_at vs m' j (o + c) = nth_error d c) /\
    (forall i c, (c < vs)%nat -> ~ (i = j /\ o <= c < o + List.length d)%nat -> number_at vs m' i c = number_at vs m i c).
Proof. exact @edit_vertex_ok. Qed.
Print Assumptions C68_edits.
(** Editing the position overwrites the normal. *)
Theorem C68_attribute_refuted : forall F (f : Z -> F) x y z, exists a m', let m := mesh_map f nf_mesh in
  canonical 7 m /\ has_attrib m 3 a /\ attrib_start m a = 0%nat /\ edit_vertex true m 0 0 [x; y; z] = (m', None) /\
  map (number_at 7 m' 0) [0; 1; 2]%nat = [Some x; Some y; Some z].
Proof. exact edits_normal. Qed.
Print Assumptions C68_attribute_refuted.
Example C68_example : forall F (f : Z -> F), canonical 7 (exm f) /\ Forall (fun a => vartype a <> 3) (vertex_attributes (exm f)) /\
  (forall a, In a (vertex_attributes (exm f)) -> usage a = 0 -> attrib_start (exm f) a = 0%nat) /\
  (exists a, In a (vertex_attributes (exm f)) /\ usage a = 0) /\ vertnum (exm f) = 6.
Proof.
  intros F f. split; [apply ex_canonical|]. split; [apply ex_no_float4|]. split; [apply ex_start|].
  split; [|reflexivity]. exists {| flag := 0; offset := 0; vartype := 2; usage := 0 |}. split; [now left|reflexivity].
Qed.

From Verif Require Import Scripts ScriptFacts CopyFacts WitnessScripts.

(** C69. box_modify.py ignores the numbers it is given. *)
Theorem C69_few_vertices : forall F vs (m : mesh F), (0 < vs)%nat -> vertformat m <> 0 ->
  vertstride m = Z.of_nat vs * vertformat m -> zlen (vertices m) = vertnum m * Z.of_nat vs ->
  zlen (vertices m) <= 2 ^ 53 -> Z.of_nat vs <= 2 ^ 53 -> forall id, vertnum m <= 24 -> remove_vertice_id m id = (m, None).
Proof. exact @remove_few. Qed.
Print Assumptions C69_few_vertices.
Theorem C69_removes_24 : forall F vs (m : mesh F), (0 < vs)%nat -> vertformat m <> 0 ->
  vertstride m = Z.of_nat vs * vertformat m -> zlen (vertices m) = vertnum m * Z.of_nat vs ->
  zlen (vertices m) <= 2 ^ 53 -> Z.of_nat vs <= 2 ^ 53 -> forall id, 24 < vertnum m ->
  exists m', remove_vertice_id m id = (m', None) /\
    same_header m m' /\ geoms m' = geoms m /\ index m' = index m /\ indexnum m' = indexnum m /\
    vertnum m' = vertnum m - 1 /\ zlen (vertices m') = vertnum m' * Z.of_nat vs /\
    forall j, block vs (vertices m') j = block vs (vertices m) (if (j <? 24)%nat then j else S j).
Proof. exact @remove_24. Qed.
Print Assumptions C69_removes_24.
Theorem C69_ranges_break : forall F vs (m : mesh F), (0 < vs)%nat -> vertformat m <> 0 ->
  vertstride m = Z.of_nat vs * vertformat m -> zlen (vertices m) = vertnum m * Z.of_nat vs ->
  zlen (vertices m) <= 2 ^ 53 -> Z.of_nat vs <= 2 ^ 53 -> forall id m', packed vs m -> 24 < vertnum m ->
  remove_vertice_id m id = (m', None) -> ~ in_range vs m'.
Proof. exact @remove_not_in_range. Qed.
Print Assumptions C69_ranges_break.
Theorem C69_given_vertex_refuted : exists m', remove_vertice_id many 3 = (m', None) /\
  block 7 (vertices m') 3 = block 7 (vertices many) 3 /\ block 7 (vertices many) 3 = repeat 3 7 /\
  (forall j, block 7 (vertices m') j <> repeat 24 7) /\ block 7 (vertices many) 24 = repeat 24 7.
Proof. exact remove_3. Qed.
Print Assumptions C69_given_vertex_refuted.
Theorem C69_replaces_24 : forall F (m : mesh F) a b l, index m = Tuple l ->
  exists m' l', replace_index_id m a b = (m', None) /\
    same_header m m' /\ same_counts m m' /\ geoms m' = geoms m /\ vertices m' = vertices m /\ index m' = Tuple l' /\
    List.length l' = List.length l /\ forall k i, nth_error l k = Some i -> nth_error l' k = Some (if i =? 24 then 14 else i).
Proof. exact @replace_index_ok. Qed.
Print Assumptions C69_replaces_24.
Theorem C69_given_index_refuted : exists m', replace_index_id many 0 5 = (m', None) /\ index m' = Tuple [0; 14; 25].
Proof. exact replace_0_5. Qed.
Print Assumptions C69_given_index_refuted.
Example C69_example : packed 7 many /\ vertformat many <> 0 /\ vertstride many = Z.of_nat 7 * vertformat many /\
  zlen (vertices many) = vertnum many * Z.of_nat 7 /\ 24 < vertnum many.
Proof. split; [exact many_packed|]. split; [discriminate|]. split; [reflexivity|]. split; reflexivity. Qed.

(** C70. [A], [B]: the attributes before and after the one of usage [u]. *)
Theorem C70_removes : forall F vs (m : mesh F) u A B a w, canonical vs m ->
  Forall (fun b => vartype b <> 3) (vertex_attributes m) ->
  vertex_attributes m = A ++ a :: B -> A <> [] -> in_use a = true -> usage a = u -> In (vartype a, w) old_widths ->
  Forall (fun b => usage b <> u) (A ++ B) -> Forall (fun b => in_use b = false -> offset b = 0) B -> (w < vs)%nat ->
  exists m', remove_attribute true m u = (m', None) /\ canonical (vs - w) m' /\
    map usage (vertex_attributes m') = map usage (A ++ B) /\ map vartype (vertex_attributes m') = map vartype (A ++ B) /\
    map flag (vertex_attributes m') = map flag (A ++ B) /\ vertattribnum m' = zlen (vertex_attributes m') /\
    vertnum m' = vertnum m /\ vertformat m' = vertformat m /\ m_kind m' = m_kind m /\ m_head m' = m_head m /\
    m_u1 m' = m_u1 m /\ geomnum m' = geomnum m /\
    geoms m' = geoms m /\ indexnum m' = indexnum m /\ index m' = index m /\ m_u2 m' = m_u2 m /\
    (forall j u' x, (j < Z.to_nat (vertnum m))%nat -> u' <> u -> field_of vs m j u' x -> field_of (vs - w) m' j u' x) /\
    (forall j, field_of (vs - w) m' j u None) /\
    (forall p, wf p m -> vertnum m * Z.of_nat (vs - w) <> 1 -> wf p m').
Proof. exact @remove_attribute_ok. Qed.
Print Assumptions C70_removes.
Theorem C70_tuple_refused : forall F vs (m : mesh F) u A B a w, canonical vs m ->
  Forall (fun b => vartype b <> 3) (vertex_attributes m) ->
  vertex_attributes m = A ++ a :: B -> usage a = u -> In (vartype a, w) old_widths ->
  Forall (fun b => usage b <> u) (A ++ B) -> 0 < vertnum m -> remove_attribute false m u = (m, Some EType).
Proof. intros F vs m u A B a w H1 H2 H3 H4 H5 H6. eapply remove_tuple; eassumption. Qed.
Print Assumptions C70_tuple_refused.
Theorem C70_first_refuted : forall F vs (m : mesh F) u B a w, canonical vs m ->
  Forall (fun b => vartype b <> 3) (vertex_attributes m) ->
  vertex_attributes m = a :: B -> in_use a = true -> usage a = u -> In (vartype a, w) old_widths ->
  Forall (fun b => usage b <> u) B -> 0 < vertnum m ->
  exists m', remove_attribute true m u = (m', None) /\ vertstride m' = vertstride m /\
    map usage (vertex_attributes m') = map usage (vertex_attributes m) /\
    vertattribnum m' = vertattribnum m /\ vertnum m' = vertnum m /\
    zlen (vertices m') = zlen (vertices m) - vertnum m * Z.of_nat w /\ forall vs', ~ canonical vs' m'.
Proof. exact @remove_attribute_first. Qed.
Print Assumptions C70_first_refuted.
(** The loaded example: the positions' numbers and the terminator go, the attribute stays. *)
Theorem C70_positions_refuted : forall F (f : Z -> F), exists m', remove_attribute true (exm f) 0 = (m', None) /\
  map usage (vertex_attributes m') = [0; 3; 2] /\ vertstride m' = vertstride (exm f) /\
  zlen (vertices m') = zlen (vertices (exm f)) - 3 * vertnum (exm f) /\ map offset (vertex_attributes m') = [0; 0; 12].
Proof. exact @remove_positions. Qed.
Print Assumptions C70_positions_refuted.
Example C70_example : forall F (f : Z -> F), canonical 7 (exm f) /\ Forall (fun a => vartype a <> 3) (vertex_attributes (exm f)) /\
  vertex_attributes (exm f) = firstn 1 ex_attribs ++ {| flag := 0; offset := 12; vartype := 2; usage := 3 |} :: skipn 2 ex_attribs /\
  Forall (fun b => usage b <> 3) (firstn 1 ex_attribs ++ skipn 2 ex_attribs) /\
  Forall (fun b => in_use b = false -> offset b = 0) (skipn 2 ex_attribs) /\ vertnum (exm f) = 6 /\
  canonical 7 (mesh_map f nf_mesh) /\ Forall (fun a => vartype a <> 3) (vertex_attributes (mesh_map f nf_mesh)) /\
  Forall (fun b => usage b <> 3) (skipn 1 nf_attribs) /\ vertnum (mesh_map f nf_mesh) = 3.
Proof.
  intros F f. split; [apply ex_canonical|]. split; [apply ex_no_float4|]. split; [apply ex_table|]. split; [apply ex_others|]. split; [apply ex_unused|].
  split; [reflexivity|]. split; [apply nf_canonical|]. split; [apply nf_no_float4|]. split; [apply nf_others|reflexivity].
Qed.

(** C71. The results: the mesh copied to, the mesh copied from. *)
Theorem C71_copies : forall F vs (m1 m2 : mesh F), (0 < vs)%nat -> 0 < vertformat m1 -> vertstride m1 = Z.of_nat vs * vertformat m1 ->
  zlen (vertices m2) <= 2 ^ 53 -> Z.of_nat vs <= 2 ^ 53 -> in_range vs m2 -> geomnum m1 = zlen (geoms m1) ->
  zlen (vertices m1) = vertnum m1 * Z.of_nat vs -> zlen (vertices m1) + sumZ vnum (mats m2) * Z.of_nat vs <= 2 ^ 53 ->
  packed vs m1 -> packed vs m2 -> indexnum m1 = zlen (index_list m1) ->
  exists m1' m2', copy_geom_table true true m1 m2 = (m1', m2', None) /\ same_rest m1 m1' /\ packed vs m1' /\
    geomnum m1' = zlen (geoms m1') /\ vertnum m1' = vertnum m1 + sumZ vnum (mats m2) /\ zlen (vertices m1') = vertnum m1' * Z.of_nat vs /\
    indexnum m1' = zlen (index_list m1') /\
    map (geom_mats unplaced) (geoms m1') = map (geom_mats unplaced) (geoms m1) ++ map (geom_mats unplaced) (geoms m2) /\
    map (geom_data vs m1') (geoms m1') = map (geom_data vs m1) (geoms m1) ++ map (geom_data vs m2) (geoms m2) /\
    (forall p, wf p m1 -> wf p m2 -> m_kind m2 = m_kind m1 -> h_version (m_head m2) = h_version (m_head m1) -> (2 <= vs)%nat ->
       is_long p (geomnum m1') -> is_long p (vertnum m1') -> is_long p (indexnum m1') -> indexnum m1' <> 1 -> wf p m1') /\
    geoms m1' = geoms m1 ++ geoms m2' /\ vertices m2' = vertices m2 /\ index m2' = index m2 /\
    (vertnum m1 <> 0 -> mats m2 <> [] -> ~ packed vs m2').
Proof. exact @copy_table_ok. Qed.
Print Assumptions C71_copies.
(** Two meshes as loaded. *)
Theorem C71_loaded_refuted : forall F (f : Z -> F), exists m1 m2,
  copy_geom_table false false (exm f) (exm f) = (m1, m2, Some EAttribute) /\
  zlen (geoms m1) = geomnum m1 + 1 /\ vertices m1 = vertices (exm f).
Proof. exact @copy_tuple. Qed.
Print Assumptions C71_loaded_refuted.
Example C71_example : forall F (f : Z -> F), in_range 7 (exm f) /\ packed 7 (exm f) /\ 0 < vertformat (exm f) /\
  vertstride (exm f) = Z.of_nat 7 * vertformat (exm f) /\ geomnum (exm f) = zlen (geoms (exm f)) /\
  zlen (vertices (exm f)) = vertnum (exm f) * Z.of_nat 7 /\ indexnum (exm f) = zlen (index_list (exm f)) /\ vertnum (exm f) = 6 /\ wf p64 (exm f).
Proof.
  intros F f. split; [apply ex_in_range|]. split; [apply ex_packed|]. do 6 (split; [reflexivity|]). apply ex_wf_map.
Qed.

From Verif Require Import SpecAcc Col SpecCol WitnessCol ColEq SpecColEq ColEqFacts Vec SpecVec VecFacts Recipe SpecRecipe RecipeFacts WitnessRecipe.
Open Scope Z_scope.
(** C72. [Ok true]: the comparison says equal. [face_alike] looks at the material as read. *)
Theorem C72_lods : forall F (A : arith F) a b, collod_eq A a b = Ok true <-> collod_alike (fun x y => f_eq A x y = true) a b.
Proof. exact @collod_eq_iff. Qed.
Print Assumptions C72_lods.
Theorem C72_geoms : forall F (A : arith F) a b, colgeom_eq A a b = Ok true <-> colgeom_alike (fun x y => f_eq A x y = true) a b.
Proof. exact @colgeom_eq_iff. Qed.
Print Assumptions C72_geoms.
Theorem C72_fails : forall F (A : arith F) a b e, collod_eq A a b = Raise e <->
  e = EAttribute /\ List.length (cl_faces a) = List.length (cl_faces b) /\
  exists k x y, nth_error (cl_faces a) k = Some x /\ nth_error (cl_faces b) k = Some y /\
    Forall2 face_alike (firstn k (cl_faces a)) (firstn k (cl_faces b)) /\ face_stuck x y.
Proof. exact @collod_eq_raise. Qed.
Print Assumptions C72_fails.
Theorem C72_equivalence : forall L,
  (forall g, Forall (collod_all number) (geom_lods g) -> Forall has_m (flat_map cl_faces (geom_lods g)) -> colgeom_eq (f64 L) g g = Ok true) /\
  (forall a b, colgeom_eq (f64 L) a b = Ok true -> colgeom_eq (f64 L) b a = Ok true) /\
  (forall a b c, colgeom_eq (f64 L) a b = Ok true -> colgeom_eq (f64 L) b c = Ok true -> colgeom_eq (f64 L) a c = Ok true).
Proof. exact colgeom_equivalence. Qed.
Print Assumptions C72_equivalence.
Theorem C72_loaded : forall F (A : arith F) p (u : Z -> F) bs bs' m m', col_load p u bs = Ok m -> col_load p u bs' = Ok m' ->
  exists r, list_eq (colgeom_eq A) (cm_geoms m) (cm_geoms m') = Ok r.
Proof. exact @loaded_compare. Qed.
Print Assumptions C72_loaded.
Theorem C72_saved : forall L p bs m, col_load p unpack_f bs = Ok m -> col_all number m ->
  exists out m', write_colmesh p pack_f m = (out, None) /\ col_load p unpack_f out = Ok m' /\
    (list_eq (colgeom_eq (f64 L)) (cm_geoms m) (cm_geoms m') = Ok true <-> Forall (fun f => cf_m f = Some 0) (col_faces m)).
Proof. exact saved_equal. Qed.
Print Assumptions C72_saved.
(** A lod built from fresh faces cannot be compared with another one just like it. *)
Theorem C72_constructed_refuted : forall F (A : arith F) (x : F), exists l : collod F colface, collod_eq A l l = Raise EAttribute /\
  l = hand_lod x /\ face_eq face0 face0 = Raise EAttribute.
Proof. exact @hand_raises. Qed.
Print Assumptions C72_constructed_refuted.
Example C72_example : forall L n, In n [0; 5] -> exists m out m', col_load p64 unpack_f (ex_cfile 10 n) = Ok m /\
  write_colmesh p64 pack_f m = (out, None) /\ col_load p64 unpack_f out = Ok m' /\
  list_eq (colgeom_eq (f64 L)) (cm_geoms m) (cm_geoms m') = Ok (n =? 0).
Proof. exact ex_saved. Qed.

(** C73 *)
Theorem C73_sums : forall u v, by_axis Rplus u v (vec_add exact u v) /\ by_axis Rminus u v (vec_sub exact Ropp u v) /\
  (forall i, In i axes -> axis i (vec_neg Ropp u) = (- axis i u)%R).
Proof. exact exact_add_sub_neg. Qed.
Print Assumptions C73_sums.
Theorem C73_dot : forall u v, vec_dot exact u v = scalar_product u v.
Proof. exact exact_dot. Qed.
Print Assumptions C73_dot.
Theorem C73_cross : forall u v, vec_cross exact u v = vector_product u v <->
  (axis 0 u = axis 2 u \/ (axis 0 v = 0%R /\ axis 1 v = 0%R)).
Proof. exact exact_cross. Qed.
Print Assumptions C73_cross.
Theorem C73_division : forall u n, (n = 0%R -> vec_divn exact u n = Raise EZeroDiv) /\
  (n <> 0%R -> exists w, vec_divn exact u n = Ok w /\ forall i, In i axes -> (axis i w * n = axis i u)%R).
Proof. exact exact_divn. Qed.
Print Assumptions C73_division.
Theorem C73_division_by_vector : forall u v, ((exists i, In i axes /\ axis i v = 0%R) -> vec_divv exact u v = Raise EZeroDiv) /\
  ((forall i, In i axes -> axis i v <> 0%R) -> exists w, vec_divv exact u v = Ok w /\ forall i, In i axes -> (axis i w * axis i v = axis i u)%R).
Proof. exact exact_divv. Qed.
Print Assumptions C73_division_by_vector.
Theorem C73_subtraction_double : forall L u v i, finite3 u -> finite3 v -> In i axes ->
  (Rabs (SpecAcc.val (axis i u) - SpecAcc.val (axis i v)) <= Flocq.Core.Raux.bpow Flocq.Core.Zaux.radix2 1023)%R ->
  finite (axis i (vec_sub (f64 L) b64_opp u v)) /\
  rounded (axis i (vec_sub (f64 L) b64_opp u v)) (SpecAcc.val (axis i u) - SpecAcc.val (axis i v)).
Proof. exact double_sub_accuracy. Qed.
Print Assumptions C73_subtraction_double.
Theorem C73_cross_refuted : exists u : vec3 R, vector_product u u = (0, 0, 0)%R /\ vec_cross exact u u <> (0, 0, 0)%R /\
  scalar_product u (vec_cross exact u u) <> 0%R.
Proof. exact cross_itself. Qed.
Print Assumptions C73_cross_refuted.
Theorem C73_cross_double_refuted : forall L, exists u : vec3 binary64, finite3 u /\
  f_eq (f64 L) (axis 1 (vec_cross (f64 L) u u)) (f_zero (f64 L)) = false /\
  f_eq (f64 L) (vec_dot (f64 L) u (vec_cross (f64 L) u u)) (f_zero (f64 L)) = false.
Proof. exact cross_itself_f64. Qed.
Print Assumptions C73_cross_double_refuted.
Example C73_example : exists u v : vec3 R, vec_cross exact u v = vector_product u v /\ vector_product u v <> (0, 0, 0)%R.
Proof. exact cross_sometimes. Qed.

(** C74. [good] are the numbers that can be compared ([number] on doubles). *)
Theorem C74_duplicate : forall F (A : arith F) neg good val h (m : colmesh F nat) d l0,
  ordered A good val -> f_eq A (f_two A) (f_zero A) = false ->
  own_faces h m -> first_lod m l0 -> Forall faces_ok (col_lods (view h m)) ->
  col_all good (view h m) -> col_all good (view h (col_translate A d m)) ->
  exists h' m' l' c, duplicate A neg h m d = (h', m', None) /\
    (forall a, In a (col_faces m) -> deref h' a = deref h a) /\
    first_lod (view h' m') l' /\
    (forall i, In i axes -> axis i c = neg (f_div A (f_add A (axis i (cl_min l')) (axis i (cl_max l'))) (f_two A))) /\
    mesh_rel (lod_duplicated A d c) (view h m) (view h' m').
Proof. exact @duplicate_ok. Qed.
Print Assumptions C74_duplicate.
Theorem C74_centred : forall h (m : colmesh R nat) d l0, own_faces h m -> first_lod m l0 -> Forall faces_ok (col_lods (view h m)) ->
  box exact (cl_vertices l0) (cl_min l0) (cl_max l0) ->
  exists h' m' l' lo hi, duplicate exact Ropp h m d = (h', m', None) /\ first_lod (view h' m') l' /\
    box exact (cl_vertices l') lo hi /\ centred lo hi /\
    (forall i, In i axes -> axis i hi - axis i lo = axis i (cl_max l') - axis i (cl_min l'))%R /\
    (collod_boxed exact l' <-> centred (cl_min l') (cl_max l')).
Proof. exact duplicate_centred. Qed.
Print Assumptions C74_centred.
Theorem C74_fails : forall F (A : arith F) neg h (m : colmesh F nat) d, f_eq A (f_two A) (f_zero A) = false -> own_faces h m ->
  (exists h' m', duplicate A neg h m d = (h', m', None)) \/
  ((exists h' m', duplicate A neg h m d = (h', m', Some EIndex)) /\ ~ exists l, first_lod m l).
Proof. exact @duplicate_fails. Qed.
Print Assumptions C74_fails.
Theorem C74_bounds_refuted : exists h (m : colmesh R nat) d l0 h' m' l', own_faces h m /\ first_lod m l0 /\ collod_boxed exact l0 /\
  duplicate exact Ropp h m d = (h', m', None) /\ first_lod (view h' m') l' /\ ~ collod_boxed exact l'.
Proof. exact duplicate_stale. Qed.
Print Assumptions C74_bounds_refuted.
Example C74_example : own_faces tile_heap tile /\ first_lod tile tile_lod /\ Forall faces_ok (col_lods (view tile_heap tile)) /\
  box exact (cl_vertices tile_lod) (cl_min tile_lod) (cl_max tile_lod).
Proof. exact tile_ok. Qed.

(** C75. Objects stand for themselves: a rig object is equal only to itself. *)
From Verif Require Import OldEq SpecOldEq OldEqFacts WitnessOldEq.
Open Scope Z_scope.
Theorem C75_head : forall a b, old_head_eqb a b = true <-> a = b.
Proof. exact old_head_iff. Qed.
Print Assumptions C75_head.
Theorem C75_attrib : forall a b, (forall t, attrib_tuple_eqb a t = true <-> t = [flag a; offset a; vartype a; usage a]) /\
  (attrib_attrib_eqb a b = true <-> a = b).
Proof. intros a b. exact (conj (attrib_tuple_iff a) (attrib_attrib_iff a b)). Qed.
Print Assumptions C75_attrib.
Theorem C75_material : forall F (A : arith F) a b, old_mat_eqb A a b = true <-> mat_same (fun x y => f_eq A x y = true) a b.
Proof. exact @old_mat_iff. Qed.
Print Assumptions C75_material.
Theorem C75_lod : forall F (A : arith F) a b, old_lod_eqb A a b = true <->
  ol_skinned a = ol_skinned b /\ lod_same (fun x y => f_eq A x y = true) (ol_skinned a) (ol_lod a) (ol_lod b) /\ ol_rigs a = ol_rigs b.
Proof. exact @old_lod_iff. Qed.
Print Assumptions C75_lod.
Theorem C75_geom : forall F (A : arith F) a b, old_geom_eqb A a b = true <->
  og_lodnum a = og_lodnum b /\ Forall2 (fun x y => old_lod_eqb A x y = true) (og_lods a) (og_lods b).
Proof. exact @old_geom_iff. Qed.
Print Assumptions C75_geom.
Theorem C75_two_meshes : forall F (A : arith F) sk gs gs' os os', geom_objects sk gs os -> geom_objects sk gs' os' -> unshared os os' ->
  list_eqb (old_geom_eqb A) os os' = true <->
  Forall2 (geom_same (fun x y => f_eq A x y = true) sk) gs gs' /\
  Forall (fun l => rigs l = []) (flat_map lods gs) /\ Forall (fun l => rigs l = []) (flat_map lods gs').
Proof. exact @unshared_equal. Qed.
Print Assumptions C75_two_meshes.
Theorem C75_same_file : forall L sk (m : mesh binary64) a b, mesh_all number m ->
  geom_objects sk (geoms m) a -> geom_objects sk (geoms m) b -> unshared a b ->
  list_eqb (old_geom_eqb (f64 L)) a b = true <-> Forall (fun l => rigs l = []) (lods_of m).
Proof. exact same_mesh_equal. Qed.
Print Assumptions C75_same_file.
Theorem C75_objects : forall F sk sk' (gs gs' : list (geom F)), exists os os',
  geom_objects sk gs os /\ geom_objects sk' gs' os' /\ unshared os os'.
Proof. exact @objects_exist. Qed.
Print Assumptions C75_objects.
Theorem C75_then_new : forall F (A : arith F) p v bu a b oa ob, wf_lod p v bu false a -> wf_lod p v bu false b -> (List.length (nodes a) <= 1)%nat ->
  lod_object false (with_nodes last_only a) oa -> lod_object false (with_nodes last_only b) ob ->
  old_lod_eqb A oa ob = true -> lod_eq A a b = Ok true.
Proof. exact @old_then_new. Qed.
Print Assumptions C75_then_new.
Theorem C75_skinned_refuted : forall L, exists bs m, old_load p32 unpack_f k_skinned_ bs = Ok m /\ mesh_all number m /\
  (exists a b, geom_objects true (geoms m) a /\ geom_objects true (geoms m) b /\ unshared a b) /\
  forall a b, geom_objects true (geoms m) a -> geom_objects true (geoms m) b -> unshared a b -> list_eqb (old_geom_eqb (f64 L)) a b = false.
Proof. exact skinned_differs. Qed.
Print Assumptions C75_skinned_refuted.
Theorem C75_nodes_refuted : forall L, exists bs bs' m m', load p64 unpack_f k_static_ bs = Ok m /\ load p64 unpack_f k_static_ bs' = Ok m' /\
  (exists l l', hd_error (lods_of m) = Some l /\ hd_error (lods_of m') = Some l' /\ lod_eq (f64 L) l l' = Ok false) /\
  exists mo mo', old_load p64 unpack_f k_static_ bs = Ok mo /\ old_load p64 unpack_f k_static_ bs' = Ok mo' /\
  forall a b, geom_objects false (geoms mo) a -> geom_objects false (geoms mo') b -> unshared a b -> list_eqb (old_geom_eqb (f64 L)) a b = true.
Proof. exact nodes_missed. Qed.
Print Assumptions C75_nodes_refuted.
Theorem C75_mmax_refuted : forall L, exists bs bs' m m', load p64 unpack_f k_static_ bs = Ok m /\ load p64 unpack_f k_static_ bs' = Ok m' /\ parts_equal L m m' /\
  exists mo mo', old_load p64 unpack_f k_static_ bs = Ok mo /\ old_load p64 unpack_f k_static_ bs' = Ok mo' /\
  forall a b, geom_objects false (geoms mo) a -> geom_objects false (geoms mo') b -> unshared a b -> list_eqb (old_geom_eqb (f64 L)) a b = false.
Proof. exact mmax_seen. Qed.
Print Assumptions C75_mmax_refuted.
Example C75_example : exists l : lod binary64, In l (lods_of (fl (ex_mesh 11 k_static_))) /\ wf_lod p64 11 false false l /\ List.length (nodes l) = 1%nat /\
  materials l <> [] /\ lod_all number l.
Proof. exact ex_one_node. Qed.

(** C76: moving or turning two meshes and merging them is merging them and moving or
    turning the result, whatever the arithmetic ... *)
From Verif Require Import VMapFacts CommFacts MergeOrderFacts MoveFacts WitnessComm.
Open Scope Z_scope.
Theorem C76_translate : forall F (A : arith F) vs a b off a' b' r', vertex_size a = Ok (Z.of_nat vs) -> (0 < vs)%nat -> short_offsets a ->
  vertformat b = vertformat a -> packed vs a -> packed vs b ->
  translate A a off = (a', None) -> translate A b off = (b', None) ->
  merge a' b' = (r', Merged) <-> exists r, merge a b = (r, Merged) /\ translate A r off = (r', None).
Proof. exact @translate_merge. Qed.
Print Assumptions C76_translate.
Theorem C76_rotate : forall F (A : arith F) vs a b rot a' b' r', vertex_size a = Ok (Z.of_nat vs) -> (0 < vs)%nat -> rotate_ready vs a ->
  vertformat b = vertformat a -> packed vs a -> packed vs b ->
  rotate A a rot = (a', None) -> rotate A b rot = (b', None) ->
  merge a' b' = (r', Merged) <-> exists r, merge a b = (r, Merged) /\ rotate A r rot = (r', None).
Proof. exact @rotate_merge. Qed.
Print Assumptions C76_rotate.
(** ... but merge accepts meshes of different vertformat, and then it is not. *)
Theorem C76_formats_refuted : forall L, exists bs bs' a b a' b' r r' s,
  load p64 unpack_f k_static_ bs = Ok a /\ load p64 unpack_f k_static_ bs' = Ok b /\
  vertex_size a = Ok (Z.of_nat 7) /\ short_offsets a /\ short_offsets b /\ packed 7 a /\ packed 7 b /\
  translate (f64 L) a one3 = (a', None) /\ translate (f64 L) b one3 = (b', None) /\ merge a' b' = (r', Merged) /\
  merge a b = (r, Merged) /\ translate (f64 L) r one3 = (s, None) /\ s <> r'.
Proof. exact formats_matter. Qed.
Print Assumptions C76_formats_refuted.
Example C76_example : forall L, let m := fl duo_mesh in vertex_size m = Ok (Z.of_nat 7) /\ short_offsets m /\ rotate_ready 7 m /\ packed 7 m /\
  sumZ vnum (mats m) = 6 /\ permutes (List.length (geoms m)) [1; -2] [1%nat; 0%nat] /\
  (exists m', translate (f64 L) m one3 = (m', None) /\ exists r, merge m m = (r, Merged) /\ exists r', merge m' m' = (r', Merged)) /\
  exists a, position_attrib m = Some a.
Proof. exact comm_example. Qed.

(** C77: the same for change_geoms_order. *)
Theorem C77_translate : forall F (A : arith F) vs m off order ks m', vertex_size m = Ok (Z.of_nat vs) -> (0 < vs)%nat -> short_offsets m -> packed vs m ->
  sumZ vnum (mats m) <= 2 ^ 53 -> permutes (List.length (geoms m)) order ks -> translate A m off = (m', None) ->
  exists m1 r, change_geoms_order m order = (m1, None) /\ translate A m1 off = (r, None) /\ change_geoms_order m' order = (r, None).
Proof. exact @translate_reorder. Qed.
Print Assumptions C77_translate.
Theorem C77_rotate : forall F (A : arith F) vs m rot order ks m', vertex_size m = Ok (Z.of_nat vs) -> (0 < vs)%nat -> rotate_ready vs m -> packed vs m ->
  sumZ vnum (mats m) <= 2 ^ 53 -> permutes (List.length (geoms m)) order ks -> rotate A m rot = (m', None) ->
  exists m1 r, change_geoms_order m order = (m1, None) /\ rotate A m1 rot = (r, None) /\ change_geoms_order m' order = (r, None).
Proof. exact @rotate_reorder. Qed.
Print Assumptions C77_rotate.

(** C78 *)
Theorem C78_merge_order : forall F vs (a b : mesh F) order ks a1 b1 r1, vertex_size a = Ok (Z.of_nat vs) -> (0 < vs)%nat -> in_range vs a -> in_range vs b ->
  sumZ vnum (mats a) + sumZ vnum (mats b) <= 2 ^ 53 -> permutes (List.length (geoms a)) order ks ->
  change_geoms_order a order = (a1, None) -> change_geoms_order b order = (b1, None) ->
  merge a1 b1 = (r1, Merged) <-> exists r, merge a b = (r, Merged) /\ change_geoms_order r order = (r1, None).
Proof. exact @merge_reorder. Qed.
Print Assumptions C78_merge_order.

(** C79 *)
Theorem C79_turn_moved : forall vs m a dx dy dz yaw pitch roll more m1 ex ey ez,
  vertex_size m = Ok (Z.of_nat vs) -> (0 < vs)%nat -> tiled_vertices vs m -> rotate_ready vs m ->
  position_attrib m = Some a -> translate exact m [dx; dy; dz] = (m1, None) ->
  turn exact yaw pitch roll (dx, dy, dz) = (ex, ey, ez) ->
  exists m2 m3, rotate exact m1 (yaw :: pitch :: roll :: more) = (m2, None) /\
    rotate exact m (yaw :: pitch :: roll :: more) = (m3, None) /\
    translate exact m3 [ex; ey; ez] = (m2, None).
Proof. exact rotate_translate_coords. Qed.
Print Assumptions C79_turn_moved.
Example C79_example : vertex_size (exm zr) = Ok (Z.of_nat 7) /\ tiled_vertices 7 (exm zr) /\ rotate_ready 7 (exm zr) /\
  (exists a, position_attrib (exm zr) = Some a) /\ exists m', translate exact (exm zr) [1; 2; 3]%R = (m', None).
Proof. exact move_example. Qed.

(** C80: the bounds of a merged mesh span those of the two meshes. *)
From Verif Require Import SpecMin BoundMergeFacts.
Open Scope Z_scope.
Theorem C80_double : forall L vs (a b r a' b' r' : mesh binary64),
  vertex_size a = Ok (Z.of_nat vs) -> short_offsets a -> vertformat b = vertformat a -> bounded_kind a -> bounded_kind b ->
  in_range vs a -> in_range vs b ->
  Forall (fun mt => Forall (fun q => forall i, In i axes -> is_nan 53 1024 (axis i q) = false) (positions vs a mt)) (mats a) ->
  Forall (fun mt => Forall (fun q => forall i, In i axes -> is_nan 53 1024 (axis i q) = false) (positions vs b mt)) (mats b) ->
  merge a b = (r, Merged) -> update_boundaries (f64 L) a = (a', None) -> update_boundaries (f64 L) b = (b', None) -> update_boundaries (f64 L) r = (r', None) ->
  forall j k ga gb gr la lb lr, nth_error (geoms a') j = Some ga -> nth_error (geoms b') j = Some gb -> nth_error (geoms r') j = Some gr ->
  nth_error (lods ga) k = Some la -> nth_error (lods gb) k = Some lb -> nth_error (lods gr) k = Some lr ->
  (exists lo1 hi1 lo2 hi2 lo hi, lod_min la = Some lo1 /\ lod_max la = Some hi1 /\ lod_min lb = Some lo2 /\ lod_max lb = Some hi2 /\
     lod_min lr = Some lo /\ lod_max lr = Some hi /\ spans (f64 L) lo1 hi1 lo2 hi2 lo hi) /\
  (List.length (materials la) = List.length (materials lr) /\ List.length (materials lb) = List.length (materials lr)) /\
  forall t x y z, nth_error (materials la) t = Some x -> nth_error (materials lb) t = Some y -> nth_error (materials lr) t = Some z ->
   exists lo1 hi1 lo2 hi2 lo hi, mmin x = Some lo1 /\ mmax x = Some hi1 /\ mmin y = Some lo2 /\ mmax y = Some hi2 /\
     mmin z = Some lo /\ mmax z = Some hi /\ spans (f64 L) lo1 hi1 lo2 hi2 lo hi.
Proof. exact (fun L vs => merge_bounds (f64 L) number ord (f64_ordered L) vs). Qed.
Print Assumptions C80_double.
Theorem C80_exact : forall vs (a b r a' b' r' : mesh R),
  vertex_size a = Ok (Z.of_nat vs) -> short_offsets a -> vertformat b = vertformat a -> bounded_kind a -> bounded_kind b ->
  in_range vs a -> in_range vs b ->
  merge a b = (r, Merged) -> update_boundaries exact a = (a', None) -> update_boundaries exact b = (b', None) -> update_boundaries exact r = (r', None) ->
  forall j k ga gb gr la lb lr, nth_error (geoms a') j = Some ga -> nth_error (geoms b') j = Some gb -> nth_error (geoms r') j = Some gr ->
  nth_error (lods ga) k = Some la -> nth_error (lods gb) k = Some lb -> nth_error (lods gr) k = Some lr ->
  (exists lo1 hi1 lo2 hi2 lo hi, lod_min la = Some lo1 /\ lod_max la = Some hi1 /\ lod_min lb = Some lo2 /\ lod_max lb = Some hi2 /\
     lod_min lr = Some lo /\ lod_max lr = Some hi /\ spans exact lo1 hi1 lo2 hi2 lo hi) /\
  (List.length (materials la) = List.length (materials lr) /\ List.length (materials lb) = List.length (materials lr)) /\
  forall t x y z, nth_error (materials la) t = Some x -> nth_error (materials lb) t = Some y -> nth_error (materials lr) t = Some z ->
   exists lo1 hi1 lo2 hi2 lo hi, mmin x = Some lo1 /\ mmax x = Some hi1 /\ mmin y = Some lo2 /\ mmax y = Some hi2 /\
     mmin z = Some lo /\ mmax z = Some hi /\ spans exact lo1 hi1 lo2 hi2 lo hi.
Proof. exact merge_bounds_exact. Qed.
Print Assumptions C80_exact.
Example C80_example : forall L, let m := exm unpack_f in vertex_size m = Ok (Z.of_nat 7) /\ short_offsets m /\ bounded_kind m /\ in_range 7 m /\
  Forall (fun mt => Forall (fun q => forall i, In i axes -> is_nan 53 1024 (axis i q) = false) (positions 7 m mt)) (mats m) /\
  exists r m' r', merge m m = (r, Merged) /\ update_boundaries (f64 L) m = (m', None) /\ update_boundaries (f64 L) r = (r', None).
Proof. exact bounds_example. Qed.

(** C81: TemplateParser.get_root. *)
From Coq Require Import Ascii String.
From Verif Require Import Bf2 SpecBf2 Bf2Dirs Bf2Mod Bf2Cells WitnessBf2.
Open Scope Z_scope.
Theorem C81_root : forall f path bs, open_rb f path = Ok bs -> exists ls, text_lines bs ls /\
  forall r, get_root f path = Ok r <->
    ((exists a b, r = Some (a, b) /\ root_is ls a b) \/ (r = None /\ Forall (fun l => ~ some_suffix is_decl l) ls)).
Proof. exact get_root_spec. Qed.
Print Assumptions C81_root.
Theorem C81_lines : forall bs ls ls', text_lines bs ls -> text_lines bs ls' -> ls = ls'.
Proof. exact lines_determined. Qed.
Print Assumptions C81_lines.
Theorem C81_total : forall f path bs, open_rb f path = Ok bs -> exists r, get_root f path = Ok r.
Proof. exact get_root_total. Qed.
Print Assumptions C81_total.
(** The two types that are not separated by a comma are unknown. *)
Theorem C81_types_refuted : get_root (one_file "evil_box.con" evil_box) (chars "evil_box.con") = Ok None /\
  forall sep name, ~ is_decl (chars "ObjectTemplate" ++ sep :: chars "create Engine " ++ name) /\ ~ is_decl (chars "ObjectTemplate" ++ sep :: chars "create SimpleObject " ++ name).
Proof. exact engine_unknown. Qed.
Print Assumptions C81_types_refuted.
(** Any character stands for the dot, and with a space there the words are off by one;
    a declaration in a comment counts. *)
Theorem C81_comment_refuted : get_root (one_file "a.con" (lns ["ObjectTemplate create Wing left"%string])) (chars "a.con") = Ok (Some (chars "create", chars "Wing")) /\
  get_root jet_fs (chars "o/jet.con") = Ok (Some (chars "Wing", chars "old")).
Proof. exact (conj spaced_root jet_root). Qed.
Print Assumptions C81_comment_refuted.
Example C81_example : open_rb jet_fs (chars "o/jet.con") = Ok jet.
Proof. exact jet_open. Qed.

(** C82: get_child_list and loadFromCon. *)
Theorem C82_children : forall f path bs r, open_rb f path = Ok bs -> get_child_list f path = Ok r <->
  exists ls rs, text_lines bs ls /\ Forall2 (line_children f (dirname path)) ls rs /\ r = List.concat rs.
Proof. exact child_list. Qed.
Print Assumptions C82_children.
Theorem C82_own : forall f path a b l, load_from_con f path = Ok (a, b, l) ->
  exists sep ty name, In (decl_text sep ty name) l /\ reads_as sep ty name a b.
Proof. exact own_child. Qed.
Print Assumptions C82_own.
Theorem C82_no_root : forall f path, get_root f path = Ok None -> load_from_con f path = Raise EType.
Proof. exact load_without_root. Qed.
Print Assumptions C82_no_root.
Theorem C82_include_refuted : get_child_list (one_file "a.con" (lns ["include footweak"%string])) (chars "a.con") = Raise EFileNotFound /\
  get_child_list (two_files "a.con" (lns ["include foo tweak"%string]) "foo" (lns ["ObjectTemplate.create Wing x"%string])) (chars "a.con") = Ok [chars "ObjectTemplate.create Wing x"].
Proof. exact loose_include. Qed.
Print Assumptions C82_include_refuted.
Example C82_example : get_child_list jet_fs (chars "o/jet.con") = Ok [chars "ObjectTemplate.create Wing old"; chars "ObjectTemplate.create PlayerControlObject jet";
  chars "ObjectTemplate.create Wheel gear"; chars "ObjectTemplate.create Wing left"].
Proof. exact jet_children. Qed.

(** C83: Mod.find_mod_root. *)
Theorem C83_root : forall cwd parts r, comps cwd parts -> find_mod_root cwd = Ok r <->
  exists pre post, parts = pre ++ chars "mods" :: post /\ ~ In (chars "mods") pre /\ comps r (pre ++ chars "mods" :: firstn 1 post).
Proof. exact mod_root. Qed.
Print Assumptions C83_root.
Theorem C83_raises : forall cwd parts e, comps cwd parts -> find_mod_root cwd = Raise e <-> e = EValue /\ ~ In (chars "mods") parts.
Proof. exact mod_root_raises. Qed.
Print Assumptions C83_raises.
Theorem C83_comps : forall s, exists l, comps s l /\ forall l', comps s l' -> l' = l.
Proof. exact comps_total. Qed.
Print Assumptions C83_comps.
Theorem C83_nested_refuted : find_mod_root (chars "/home/mods/bf2/mods/pr/objects") = Ok (chars "/home/mods/bf2") /\ find_mod_root (chars "/games/bf2/mods") = Ok (chars "/games/bf2/mods").
Proof. exact nested_mods. Qed.
Print Assumptions C83_nested_refuted.
Example C83_example : find_mod_root (chars "/games/bf2/mods/pr/objects") = Ok (chars "/games/bf2/mods/pr") /\
  comps (chars "/games/bf2/mods/pr/objects") [[]; chars "games"; chars "bf2"; chars "mods"; chars "pr"; chars "objects"].
Proof. exact mod_root_example. Qed.

(** C84: Mod.get_object_path. *)
Theorem C84_path : forall root objects name, (exists t, root = "/"%char :: t) -> (forall e, root <> e ++ ["/"%char]) -> named objects ->
  exists r, get_object_path root objects name = Ok r /\
    match r with
    | Some q => exists p s, file_at objects p s /\ con_file (last p []) /\ names_object name s /\ q = full_name root p /\
        forall p' s', file_at objects p' s' -> con_file (last p' []) -> names_object name s' -> (p', s') = (p, s) \/ earlier objects p p'
    | None => forall p s, file_at objects p s -> con_file (last p []) -> ~ names_object name s
    end.
Proof. exact object_path. Qed.
Print Assumptions C84_path.
Example C84_example : named objects /\ get_object_path (chars "/bf2/mods/pr") objects (chars "wing") = Ok (Some (chars "/bf2/mods/pr/objects/air/wing.con")) /\
  get_object_path (chars "/bf2/mods/pr") objects (chars "box") = Ok None.
Proof. exact (conj objects_named object_found). Qed.

(** C85: Materials.parse_settings. *)
Theorem C85_cells : forall F (float_of : list ascii -> F) f path bs ls, open_rb f path = Ok bs -> text_lines bs ls ->
  exists c, parse_settings float_of f path = Ok c /\ distinct_keys c /\
    (forall a t v, entry c a t v <-> exists s n, first_suffix (fun s => exists n, cell_at s a t n) (List.concat ls) s /\ cell_at s a t n /\ v = float_of n) /\
    (forall a, In a (map fst c) <-> exists t n, some_suffix (fun s => cell_at s a t n) (List.concat ls)).
Proof. exact @settings_cells. Qed.
Print Assumptions C85_cells.
Theorem C85_unique : forall s a b n a' b' n', cell_at s a b n -> cell_at s a' b' n' -> a = a' /\ b = b' /\ n = n'.
Proof. exact cell_unique. Qed.
Print Assumptions C85_unique.
(** "1e-3" is read as 1, and the cell with the modifier -1 is skipped. *)
Theorem C85_notation_refuted : parse_settings (fun s => s) (one_file "m.con" materials_con) (chars "m.con") =
  Ok [(1, [(18, chars "0.5"); (2, chars "3")]); (9, [(9, chars "1")])].
Proof. exact materials_example. Qed.
Print Assumptions C85_notation_refuted.

(** C86: rotate.py. *)
From Verif Require Import RotScript RotScriptFacts.
Theorem C86_printed : forall F (A : arith F) x y z p a b c r, f_trig A (f_radians A a) = true ->
  rotate_X A (x :: y :: z :: p) (a :: b :: c :: r) =
  Ok (pitch_by A (f_radians A a) (yaw_by A (f_radians A a) (roll_by A (f_radians A a) (x, y, z)))).
Proof. exact @printed. Qed.
Print Assumptions C86_printed.
Theorem C86_raises : forall F (A : arith F) position rotation e,
  rotate_X A position rotation = Raise e <->
    (e = EIndex /\ (List.length position < 3 \/ List.length rotation < 3)%nat) \/
    (e = EValue /\ (3 <= List.length position)%nat /\ exists a b c r, rotation = a :: b :: c :: r /\ f_trig A (f_radians A a) = false).
Proof. exact @printed_raises. Qed.
Print Assumptions C86_raises.
Theorem C86_rigid : forall x y z p u v w q a b c r v1 v2,
  rotate_X exact (x :: y :: z :: p) (a :: b :: c :: r) = Ok v1 -> rotate_X exact (u :: v :: w :: q) (a :: b :: c :: r) = Ok v2 ->
  RFacts.dot v1 v2 = RFacts.dot (x, y, z) (u, v, w).
Proof. exact printed_dot. Qed.
Print Assumptions C86_rigid.
Theorem C86_yaw_refuted : rotate_X exact [5; 0; 5]%R [90; 0; 0]%R = Ok (5, 0, 5)%R /\ turn exact 90 0 0 (5, 0, 5)%R = (5, 0, -5)%R.
Proof. exact not_a_yaw. Qed.
Print Assumptions C86_yaw_refuted.

(** C87: lightmap samples of deprecated/modmesh.py. *)
From Verif Require Import Samples SpecSamples SamplesFacts WitnessSamples.
Open Scope Z_scope.
Theorem C87_sample : forall F p (unpackf : Z -> F) bs s rest, read_sample p unpackf bs = Ok (s, rest) <->
  exists raw used, bs = used ++ rest /\ laid_out p (sample_fields raw) used /\ sample_as unpackf raw s.
Proof. exact @sample_reads. Qed.
Print Assumptions C87_sample.
Theorem C87_face : forall F p (unpackf : Z -> F) bs s rest, read_face p unpackf bs = Ok (s, rest) <->
  exists raw used, bs = used ++ rest /\ laid_out p (smp_face_fields raw) used /\ smp_face_as unpackf raw s.
Proof. exact @face_reads. Qed.
Print Assumptions C87_face.
Theorem C87_short : forall F p (unpackf : Z -> F) bs e,
  (read_sample p unpackf bs = Raise e <-> e = EStruct /\ (List.length bs < match long_sz p with Long4 => 28 | Long8 => 32 end)%nat) /\
  (read_face p unpackf bs = Raise e <-> e = EStruct /\ (List.length bs < 72)%nat).
Proof. exact @samples_short. Qed.
Print Assumptions C87_short.
Example C87_example_read : exists s rest, read_sample p64 unpack_f (repeat "A"%char 40) = Ok (s, rest) /\ List.length rest = 8%nat.
Proof. exact ex_sample_read. Qed.
(** [names] is what os.listdir gives. *)
Theorem C87_loads : forall F p (unpackf : Z -> F) f fn names m, (forall n, In n names -> ~ In slash n) ->
  load_with_samples p unpackf f fn names = Ok m <->
  old_load_mesh p unpackf f fn = Ok m /\ In slash fn /\ forall n rest, In n names -> ~ sample_name n rest.
Proof. exact @samples_ok. Qed.
Print Assumptions C87_loads.
Theorem C87_samples_refuted : forall F p (unpackf : Z -> F) f fn before name after rest m,
  (forall n, In n (before ++ name :: after) -> ~ In slash n) ->
  old_load_mesh p unpackf f fn = Ok m -> In slash fn -> (forall n r, In n before -> ~ sample_name n r) -> sample_name name rest ->
  exists e, load_with_samples p unpackf f fn (before ++ name :: after) = Raise e /\
    (names_lod rest -> Raise e = bind (open_rb f (path_join (dirname fn) name)) (fun _ => @Raise unit EName)) /\
    (~ names_lod rest -> e = EIndex \/ e = EValue).
Proof. exact @samples_raise. Qed.
Print Assumptions C87_samples_refuted.
Theorem C87_no_directory_refuted : forall F p (unpackf : Z -> F) f fn names m,
  old_load_mesh p unpackf f fn = Ok m -> ~ In slash fn -> load_with_samples p unpackf f fn names = Raise EFileNotFound.
Proof. exact @samples_no_dir. Qed.
Print Assumptions C87_no_directory_refuted.
Example C87_example : (exists m, old_load_mesh p64 unpack_f fsA fnA = Ok m) /\ In slash fnA /\
  (forall n, In n ex_names -> ~ In slash n) /\ (forall rest, ~ sample_name (of_string "readme.txt") rest) /\
  sample_name (of_string "box.samp_00") (of_string "_00") /\ names_lod (of_string "_00") /\
  sample_name (of_string "box.samp") [] /\ ~ names_lod [].
Proof. exact (conj ex_old_load (conj fnA_slash ex_names_ok)). Qed.

From Verif Require Import Display SpecDisplay DisplayFacts WitnessDisplay.
Open Scope Z_scope.

(** C88. [mesh_shown] and [material_shown] (SpecDisplay.v) give every printed line. *)
Theorem C88_mesh : forall F vs (m : mesh F), canonical vs m -> forall ix,
  Forall (fun a => vartype a <> 3) (vertex_attributes m) -> Mesh.index m = Tuple ix ->
  exists ls, display_mesh_data m = (ls, None) /\ mesh_shown vs m ix ls.
Proof. exact @display_ok. Qed.
Print Assumptions C88_mesh.
Theorem C88_float4_stops : forall F vs (m : mesh F) A a B, canonical vs m -> vertex_attributes m = A ++ a :: B ->
  vartype a = 3 -> Forall (fun b => vartype b <> 3) A ->
  exists ls, display_mesh_data m = (ls, Some EKey) /\ List.length ls = (List.length A * S (Z.to_nat (vertnum m)))%nat.
Proof. exact @display_float4. Qed.
Print Assumptions C88_float4_stops.
Theorem C88_corners : forall F vs (m : mesh F), canonical vs m -> forall ix ls a k v,
  display_mesh_data m = (ls, None) -> Mesh.index m = Tuple ix -> has_attrib m 0 a -> vartype a = 2 -> attrib_start m a = 0%nat ->
  nth_error ix k = Some v -> 0 <= v < vertnum m ->
  exists q, field_of vs m (Z.to_nat v) 0 (Some q) /\ In (CornerLine v q) ls.
Proof. exact @corners_positions. Qed.
Print Assumptions C88_corners.
(** With normals before positions the lines of the corners show normals. *)
Theorem C88_any_layout_refuted : exists bs m ls v q, old_load p64 unpack_f k_static_ bs = Ok m /\ canonical 7 m /\
  display_mesh_data m = (ls, None) /\ In (CornerLine v q) ls /\ 0 <= v < vertnum m /\
  field_of 7 m (Z.to_nat v) 3 (Some q) /\ ~ field_of 7 m (Z.to_nat v) 0 (Some q).
Proof. exact corners_normals. Qed.
Print Assumptions C88_any_layout_refuted.
Theorem C88_material : forall F (m : mesh F) g l k,
  (forall mt, mat_at m g l k mt -> exists ls, display_material_data m g l k = (ls, None) /\ material_shown g mt ls) /\
  ((forall mt, ~ mat_at m g l k mt) -> display_material_data m g l k = ([MGeom g], Some EIndex)).
Proof. exact (fun F m g l k => conj (material_ok m g l k) (material_missing m g l k)). Qed.
Print Assumptions C88_material.
Theorem C88_script : forall F p (uf : Z -> F) file m, old_load p uf skinned_kind file = Ok m ->
  (forall a b, mat_at m 17 0 0 a -> mat_at m 18 0 0 b -> exists la lb, mesh_read_main p uf file = Ok (la ++ lb, None) /\
     material_shown 17 a la /\ material_shown 18 b lb) /\
  ((forall a b, ~ (mat_at m 17 0 0 a /\ mat_at m 18 0 0 b)) -> exists ls, mesh_read_main p uf file = Ok (ls, Some EIndex)).
Proof. exact @main_ok. Qed.
Print Assumptions C88_script.
Example C88_example : forall F (f : Z -> F), canonical 7 (exm f) /\
  Forall (fun a => vartype a <> 3) (vertex_attributes (exm f)) /\ Mesh.index (exm f) = Tuple [0; 1; 2; 2; 1; 0] /\
  old_load p64 unpack_f skinned_kind (file_of many_mesh) = Ok (fl many_mesh) /\
  (exists a b, mat_at (fl many_mesh) 17 0 0 a /\ mat_at (fl many_mesh) 18 0 0 b).
Proof.
  intros F f. split; [apply ex_canonical|]. split; [apply ex_no_float4|]. split; [reflexivity|].
  split; [apply many_load|apply many_mats].
Qed.

From Verif Require Import SpecSurface Mock SpecMock MockFacts.
Open Scope Z_scope.

(** C89. The attribute table and the vertex rows of a mock mesh, for any table. *)
Theorem C89_table : forall format table, 0 < format ->
  Forall (fun e => exists w, In (snd (fst e), w) old_widths) table ->
  exists l vs, mock_attribs format 0 table = Ok l /\ map (fun a => (flag a, vartype a, usage a)) l = table /\
    declared format 0 l vs /\ mock_stride format l = Ok (format * Z.of_nat vs).
Proof. exact table_laid. Qed.
Print Assumptions C89_table.
Theorem C89_vertices : forall F (tables : list (list (list F))) widths n positions others vs,
  tables = positions :: others -> List.length positions = n ->
  Forall2 (fun t w => (n <= List.length t)%nat /\ Forall (fun r => List.length r = w) t) tables widths ->
  vs = fold_right Nat.add 0%nat widths ->
  exists l, mock_vertices positions others = Ok l /\ List.length l = (n * vs)%nat /\
    forall i, (i < n)%nat -> exists rows, Forall2 (fun t r => nth_error t i = Some r) tables rows /\ block vs l i = List.concat rows.
Proof. exact @vertices_laid. Qed.
Print Assumptions C89_vertices.
(** Box() for every way to read the float literals of the file. *)
Theorem C89_box : forall F (num : lit -> F), exists m, box num = Ok m /\ canonical 12 m /\ packed 12 m /\
  float3 m 0 /\ float3 m 3 /\ float3 m 6 /\ every_lod lod_bounded m /\
  Forall (fun v => 0 <= v < vertnum m) (index_numbers (Mesh.index m)) /\ forall p, wf p m.
Proof. exact (fun F num => ex_intro _ (the_box num) (conj (box_is num) (box_fit num))). Qed.
Print Assumptions C89_box.
(** [num64] gives every literal of the file its value. *)
Theorem C89_literals : forall x, used x -> is_single (num64 x) /\ B2R 53 1024 (num64 x) = lit_real x.
Proof. exact (fun x U => conj (used_single x U) (used_value x U)). Qed.
Print Assumptions C89_literals.
Theorem C89_box_saved : forall p, exists m bs, box num64 = Ok m /\ old_save p pack_f m = (bs, None) /\
  load p unpack_f (m_kind (as_static m)) bs = Ok (as_static m) /\
  forall extra, old_load p unpack_f (m_kind (as_static m)) (bs ++ extra) = Ok (as_static m).
Proof.
  exact (fun p => match box_saved p with ex_intro _ bs H => ex_intro _ (the_box num64) (ex_intro _ bs (conj (box_is num64) H)) end).
Qed.
Print Assumptions C89_box_saved.
(** The surface of Box is closed, and its normals are the unit vectors that its triangles face. *)
Theorem C89_box_surface : exists m, box lit_real = Ok m /\
  closed_surface (triples (map (three 0%R 12 m 0) (index_numbers (Mesh.index m)))) /\
  forall a b c, In (a, b, c) (triples (index_numbers (Mesh.index m))) ->
    three 0%R 12 m 3 a = three 0%R 12 m 3 b /\ three 0%R 12 m 3 b = three 0%R 12 m 3 c /\
    three 0%R 12 m 3 a = vector_product (minus (three 0%R 12 m 0 b) (three 0%R 12 m 0 a)) (minus (three 0%R 12 m 0 c) (three 0%R 12 m 0 a)) /\
    scalar_product (three 0%R 12 m 3 a) (three 0%R 12 m 3 a) = 1%R.
Proof. exact (ex_intro _ _ (conj (box_is lit_real) (conj box_closed box_facing))). Qed.
Print Assumptions C89_box_surface.
Theorem C89_colbox_saved : forall p, exists bs, write_colmesh p pack_f (colbox num64) = (bs, None) /\
  forall rest, exists m, col_load p unpack_f (bs ++ rest) = Ok m /\ m = colmesh_map (fun x => x) reread (colbox num64) /\
    map cf_material (col_faces m) = map cf_material (col_faces (colbox num64)).
Proof. exact colbox_saved. Qed.
Print Assumptions C89_colbox_saved.
Theorem C89_colbox_surface : forall l, In l (col_lods (colbox lit_real)) ->
  closed_surface (map (fun f => (col_corner l (cf_v1 f), col_corner l (cf_v2 f), col_corner l (cf_v3 f))) (cl_faces l)).
Proof. exact colbox_closed. Qed.
Print Assumptions C89_colbox_surface.
(** The stored bounds contain the first of the two boxes and no vertex of the second. *)
Theorem C89_colbox_bounds_refuted : forall l, In l (col_lods (colbox lit_real)) ->
  (forall v, In v (firstn 8 (cl_vertices l)) -> between exact (cl_min l) v (cl_max l)) /\
  (forall v, In v (skipn 8 (cl_vertices l)) -> ~ between exact (cl_min l) v (cl_max l)) /\
  List.length (cl_vertices l) = 16%nat /\ ~ collod_boxed exact l.
Proof. exact colbox_bounds. Qed.
Print Assumptions C89_colbox_bounds_refuted.
(** Its faces have no attribute m: comparing its geoms with those that were loaded raises. *)
Theorem C89_colbox_compare : forall F (A : arith F) (num : lit -> F) g, In g (cm_geoms (colbox num)) ->
  colgeom_eq A g (colgeom_map (fun x => x) reread g) = Raise EAttribute.
Proof. exact @colbox_compare. Qed.
Print Assumptions C89_colbox_compare.

(** ** Surfaces under editing *)
From Coq Require Import Permutation Relations.
From Verif Require Import SurfaceFacts WitnessSurface.
Open Scope Z_scope.

(** C90. Calls of translate, rotate, update_boundaries, get_lod_center_offset and change_geoms_order
    in exact arithmetic act on the triangles of a mesh as one rigid motion. *)
Theorem C90_rigid : forall vs m m', drawable vs m -> clos_refl_trans _ move m m' ->
  drawable vs m' /\ same_header m m' /\
  exists g d h, rotation g /\ rigid vs m g d h /\ Permutation (faces vs m') (map (on3 h) (faces vs m)).
Proof. exact moves_carried. Qed.
Print Assumptions C90_rigid.
(** They keep the area, whether the surface is closed, the volume inside a closed surface and the
    angles between normals or tangents and triangles. *)
Theorem C90_measures : forall vs m m', drawable vs m -> clos_refl_trans _ move m m' ->
  area (surface vs m') = area (surface vs m) /\
  (closed_surface (surface vs m') <-> closed_surface (surface vs m)) /\
  (closed_surface (surface vs m) -> volume (surface vs m') = volume (surface vs m)) /\
  forall a, In a (oriented_attribs m) -> attrib_start m a <> position_start m ->
    Permutation (shading vs m' a) (shading vs m a).
Proof. exact moves_measures. Qed.
Print Assumptions C90_measures.
(** merge puts the surfaces together. *)
Theorem C90_merge : forall vs a b m', drawable vs a -> drawable vs b -> whole a -> vertformat b = vertformat a ->
  merge a b = (m', Merged) ->
  drawable vs m' /\ Permutation (surface vs m') (surface vs a ++ surface vs b) /\
  area (surface vs m') = (area (surface vs a) + area (surface vs b))%R /\
  volume (surface vs m') = (volume (surface vs a) + volume (surface vs b))%R /\
  (closed_surface (surface vs a) -> closed_surface (surface vs b) ->
   (forall e, In e (edges (surface vs a)) -> ~ In e (edges (surface vs b))) -> closed_surface (surface vs m')).
Proof. exact merge_measures. Qed.
Print Assumptions C90_merge.
(** Which triangles there are after translate, in any arithmetic. *)
Theorem C90_triangles : forall F (A : arith F) vs m off m', vertex_size m = Ok (Z.of_nat vs) -> (0 < vs)%nat ->
  tiled_vertices vs m -> closed m -> short_offsets m -> translate A m off = (m', None) ->
  faces vs m' = map (on3 (moved_vertex A (position_start m) off)) (faces vs m).
Proof. exact (fun F A vs m off m' H1 H2 H3 H4 H5 H6 => proj1 (faces_translate vs A m off m' H1 H2 H3 H4 H5 H6)). Qed.
Print Assumptions C90_triangles.
(** For a surface that is not closed the volume formula is not kept. *)
Theorem C90_open_refuted : ~ (forall vs m m', drawable vs m -> clos_refl_trans _ move m m' ->
  volume (surface vs m') = volume (surface vs m)).
Proof. exact open_refuted. Qed.
Print Assumptions C90_open_refuted.
Example C90_example : drawable 12 (the_box lit_real) /\ closed_surface (surface 12 (the_box lit_real)) /\
  area (surface 12 (the_box lit_real)) = 6%R /\ volume (surface 12 (the_box lit_real)) = 1%R.
Proof. exact (conj box_drawable (conj box_surface_closed (conj box_area box_volume))). Qed.
Example C90_example_moves : exists m1 m2 m3, translate exact (the_box lit_real) [1; 2; 3]%R = (m1, None) /\
  rotate exact m1 [90; 0; 45]%R = (m2, None) /\ change_geoms_order m2 [-1] = (m3, None) /\
  clos_refl_trans _ move (the_box lit_real) m3.
Proof. exact box_tour. Qed.
Example C90_example_merge : exists b r, translate exact (the_box lit_real) [10; 0; 0]%R = (b, None) /\
  merge (the_box lit_real) b = (r, Merged) /\ drawable 12 b /\ whole (the_box lit_real) /\
  vertformat b = vertformat (the_box lit_real) /\
  forall e, In e (edges (surface 12 (the_box lit_real))) -> ~ In e (edges (surface 12 b)).
Proof. exact box_pair. Qed.

(** C91: TemplateParser.get_wings and Jet.loadFromCon. *)
From Verif Require Import Bf2Wings SpecWings WingsFacts WitnessWings.
Open Scope Z_scope.
Theorem C91_printed : forall f path bs ls out e, open_rb f path = Ok bs -> text_lines bs ls -> get_wings f path = (out, e) <->
  match e with
  | None => exists rs, Forall2 (line_prints f (dirname path)) ls rs /\ out = List.concat rs
  | Some x => exists before l after rs p, ls = before ++ l :: after /\ Forall2 (line_prints f (dirname path)) before rs /\ out = List.concat rs /\
      includes (dirname path) l p /\ open_rb f p = Raise x
  end.
Proof. exact wings_printed. Qed.
Print Assumptions C91_printed.
Theorem C91_unopened : forall f path e, open_rb f path = Raise e -> get_wings f path = ([], Some e).
Proof. exact wings_unopened. Qed.
Print Assumptions C91_unopened.
Theorem C91_raises : forall f path e, snd (get_wings f path) = Some e <-> get_child_list f path = Raise e.
Proof. exact wings_raise. Qed.
Print Assumptions C91_raises.
Theorem C91_unique : (forall s m m', wing_at s m -> wing_at s m' -> m = m') /\ (forall folder l p p', includes folder l p -> includes folder l p' -> p = p').
Proof. exact (conj wing_unique includes_unique). Qed.
Print Assumptions C91_unique.
Theorem C91_jet : forall f path j, match get_root f path with
  | Ok (Some (a, b)) => forall out e, get_wings f path = (out, e) ->
      exists w, jet_load f path j = (MkJet (Some b) (Some a) w, out, e) /\ w = match e with None => None | Some _ => jet_wings j end
  | Ok None => jet_load f path j = (j, [], Some EType)
  | Raise e => jet_load f path j = (j, [], Some e) /\ open_rb f path = Raise e
  end.
Proof. exact jet_loads. Qed.
Print Assumptions C91_jet.
(** A jet that was loaded has no list of wings. *)
Theorem C91_wings_refuted : forall f path j j' out, jet_load f path j = (j', out, None) -> jet_wings j' = None.
Proof. exact jet_no_wings. Qed.
Print Assumptions C91_wings_refuted.
(** A negative integer lift is not printed, nor is a wing of the file itself. *)
Theorem C91_negative_refuted : forall sep what w, In what [chars "setWingLift "; chars "setFlapLift "] -> Forall (fun c => In c digit_chars) w ->
  ~ is_wing (chars "ObjectTemplate" ++ sep :: what ++ "-"%char :: w ++ [nl]).
Proof. exact negative_lift. Qed.
Print Assumptions C91_negative_refuted.
Theorem C91_own_refuted : In (chars "ObjectTemplate.create Wing own" ++ [nl]) (lines plane_ok) /\ wing_at (chars "ObjectTemplate.create Wing own" ++ [nl]) (chars "ObjectTemplate.create Wing own") /\
  get_wings (two_files "o/plane.con" plane_ok "o/plane.tweak" plane_tweak) (chars "o/plane.con") = (plane_out, None) /\ ~ In (chars "ObjectTemplate.create Wing own") plane_out.
Proof. exact (conj (proj1 plane_own) (conj (proj1 (proj2 plane_own)) (conj (proj1 plane_wings) (proj2 (proj2 plane_own))))). Qed.
Print Assumptions C91_own_refuted.
Example C91_example :
  jet_load (two_files "o/plane.con" plane_ok "o/plane.tweak" plane_tweak) (chars "o/plane.con") new_jet =
    (MkJet (Some (chars "plane")) (Some (chars "PlayerControlObject")) None, plane_out, None) /\
  jet_load (two_files "o/plane.con" plane "o/plane.tweak" plane_tweak) (chars "o/plane.con") new_jet =
    (MkJet (Some (chars "plane")) (Some (chars "PlayerControlObject")) (Some []), plane_out, Some EFileNotFound).
Proof. exact plane_loads. Qed.

(** C92: rearranging is lossless. *)
From Coq Require Import Relations.
From Verif Require Import SpecHist SpecObj SpecLossless LosslessFacts WitnessHist WitnessObj WitnessLossless.
Open Scope Z_scope.
(** Every number of the result is one that was there before, or zero. *)
Theorem C92_numbers : forall F (A : arith F) (P : F -> Prop), P (f_zero A) -> forall m m', mesh_all P m ->
  clos_refl_trans_1n _ (arrange A (mesh_all P)) m m' -> mesh_all P m'.
Proof. exact (@arrange_all). Qed.
Print Assumptions C92_numbers.
Theorem C92_loaded : forall p k bs m, load p unpack_f k bs = Ok m -> mesh_all stored m.
Proof. exact loaded_stored. Qed.
Print Assumptions C92_loaded.
Theorem C92_lossless : forall L p vs m0 m, savable p vs m0 -> mesh_all stored m0 ->
  clos_refl_trans_1n _ (fun x y => edit (f64 L) p vs x y /\ arrange (f64 L) (mesh_all stored) x y) m0 m ->
  is_long p (vertnum m) -> is_long p (indexnum m) -> vertnum m * Z.of_nat vs <= 2 ^ 53 ->
  exists bs, export p pack_f m = (bs, None) /\ load p unpack_f (m_kind m) bs = Ok m.
Proof. exact arranged_exact. Qed.
Print Assumptions C92_lossless.
Theorem C92_reopen : forall L p f o filename fn ub f' o', writes_to o filename fn -> wf p (o_mesh o) -> indexnum (o_mesh o) <> 1 ->
  kind_named (m_kind (o_mesh o)) fn -> mesh_all stored (o_mesh o) ->
  export_obj (f64 L) p pack_f f o filename ub = (f', o', None) ->
  forall kw, new_visible_mesh p unpack_f f' (Some fn) kw = Ok {| o_mesh := o_mesh o'; o_filename := fn; o_loaded := true |}.
Proof. exact stored_reopen. Qed.
Print Assumptions C92_reopen.
Theorem C92_merged_files : forall L p vs f fn1 fn2 fn kw1 kw2 o1 o2 r ub f' o',
  new_visible_mesh p unpack_f f fn1 kw1 = Ok o1 -> new_visible_mesh p unpack_f f fn2 kw2 = Ok o2 ->
  savable p vs (o_mesh o1) -> savable p vs (o_mesh o2) -> merge (o_mesh o1) (o_mesh o2) = (r, Merged) ->
  is_long p (vertnum r) -> is_long p (indexnum r) -> vertnum r * Z.of_nat vs <= 2 ^ 53 -> kind_named (m_kind r) fn -> fn <> [] ->
  export_obj (f64 L) p pack_f f {| o_mesh := r; o_filename := o_filename o1; o_loaded := true |} (Some fn) ub = (f', o', None) ->
  o_mesh o' = (if ub then fst (update_boundaries (f64 L) r) else r) /\
  forall kw, new_visible_mesh p unpack_f f' (Some fn) kw = Ok {| o_mesh := o_mesh o'; o_filename := fn; o_loaded := true |}.
Proof. exact merged_files. Qed.
Print Assumptions C92_merged_files.
Theorem C92_reordered_file : forall L p vs f fn1 fn kw1 o1 order ks r ub f' o',
  new_visible_mesh p unpack_f f fn1 kw1 = Ok o1 -> savable p vs (o_mesh o1) -> permutes (List.length (geoms (o_mesh o1))) order ks ->
  vertnum (o_mesh o1) * Z.of_nat vs <= 2 ^ 53 -> change_geoms_order (o_mesh o1) order = (r, None) ->
  kind_named (m_kind r) fn -> fn <> [] ->
  export_obj (f64 L) p pack_f f {| o_mesh := r; o_filename := o_filename o1; o_loaded := true |} (Some fn) ub = (f', o', None) ->
  o_mesh o' = (if ub then fst (update_boundaries (f64 L) r) else r) /\
  forall kw, new_visible_mesh p unpack_f f' (Some fn) kw = Ok {| o_mesh := o_mesh o'; o_filename := fn; o_loaded := true |}.
Proof. exact reordered_file. Qed.
Print Assumptions C92_reordered_file.
(** Moving is not: here by 2^-30, a number that a file can hold. *)
Theorem C92_translate_refuted : forall L, exists bs m m1 bs1 m2, load p64 unpack_f k_static_ bs = Ok m /\ stored b_2_m30 /\
  translate (f64 L) m [b_2_m30; b_2_m30; b_2_m30] = (m1, None) /\
  export p64 pack_f m1 = (bs1, None) /\ load p64 unpack_f (m_kind m1) bs1 = Ok m2 /\ m2 <> m1.
Proof. exact translate_lossy. Qed.
Print Assumptions C92_translate_refuted.
Example C92_example : forall L, mesh_all stored (fl duo_mesh) /\ savable p64 7 (fl duo_mesh) /\
  clos_refl_trans_1n _ (fun x y => edit (f64 L) p64 7 x y /\ arrange (f64 L) (mesh_all stored) x y) (fl duo_mesh) (arranged L) /\
  is_long p64 (vertnum (arranged L)) /\ is_long p64 (indexnum (arranged L)) /\ vertnum (arranged L) * Z.of_nat 7 <= 2 ^ 53 /\
  vertnum (arranged L) = 2 * vertnum (fl duo_mesh).
Proof. exact arranged_history. Qed.
Example C92_example_files : forall L, exists f' o',
  new_visible_mesh p64 unpack_f fsA (Some fnA) kw0 = Ok objA /\ savable p64 7 (o_mesh objA) /\ merge (o_mesh objA) (o_mesh objA) = (doubled, Merged) /\
  is_long p64 (vertnum doubled) /\ is_long p64 (indexnum doubled) /\ vertnum doubled * Z.of_nat 7 <= 2 ^ 53 /\ kind_named (m_kind doubled) fnB /\ fnB <> [] /\
  export_obj (f64 L) p64 pack_f fsA {| o_mesh := doubled; o_filename := o_filename objA; o_loaded := true |} (Some fnB) false = (f', o', None).
Proof. exact doubled_files. Qed.

(** C93: programs over several mesh objects. *)
From Verif Require Import HeapEdit SpecProg ProgFacts WitnessProg.
Open Scope Z_scope.
Theorem C93_programs : forall F (A : arith F) cs st ms, separate st ms -> Forall (call_ok ms) cs ->
  separate (fst (run A st cs)) (fst (value_run A ms cs)) /\ snd (run A st cs) = snd (value_run A ms cs).
Proof. exact @run_values. Qed.
Print Assumptions C93_programs.
Theorem C93_start : forall F (ms : list (mesh F)), exists st, separate st ms.
Proof. intros F ms. exact (ex_intro _ (store_of ms) (stores_separate ms)). Qed.
Print Assumptions C93_start.
(** With an order that names a geom twice: a mesh of 6 vertices merged with another one
    has 15. *)
Theorem C93_repeated_refuted : forall F (A : arith F) (f : Z -> F),
  let r := run A (store_of (duos f)) [COrder 0 [0; 0]; CMerge 0 1] in
  let v := value_run A (duos f) [COrder 0 [0; 0]; CMerge 0 1] in
  Forall (fun m => vertnum m = 6) (duos f) /\ snd r = [ONone; ONone] /\ snd v = [ONone; ONone] /\
  vertnum (tree_of (fst r) 0) = 15 /\ vertnum (value (fst v) 0) = 12.
Proof. exact @shared_geoms. Qed.
Print Assumptions C93_repeated_refuted.
Example C93_example : forall F (A : arith F) f, separate (store_of (duos f)) (duos f) /\ Forall (call_ok (duos f)) (tour f) /\
  exists o1 o2, snd (value_run A (duos f) (tour f)) = [ONone; ONone; ONone; ONone; o1; o2; ORaised EAttribute].
Proof. exact @tour_ok. Qed.

(** C94: file handles and the with statement. [new_h], [export_h] are the constructor and
    export with the calls of open and close written down. *)
From Verif Require Import Handle SpecHandle HandleFacts WitnessHandle.
Open Scope Z_scope.
Theorem C94_constructor : forall F p (unpackf : Z -> F) f fn kw, new_visible_mesh p unpackf f fn kw =
  match fst (new_h p unpackf f fn kw) with Ok o => Ok (h_obj o) | Raise e => Raise e end.
Proof. exact @new_h_obj. Qed.
Print Assumptions C94_constructor.
Theorem C94_export : forall F (A : arith F) p packf f o fn ub, export_obj A p packf f (h_obj o) fn ub =
  let '(f', o', _, r) := export_h A p packf f o fn ub in (f', h_obj o', r).
Proof. exact @export_h_obj. Qed.
Print Assumptions C94_export.
(** Opening a mesh and running any statements about it, whatever their outcome. *)
Theorem C94_tidy : forall F (A : arith F) p unpackf packf f fn kw o ev c f' o' ev' r,
  new_h p unpackf f fn kw = (Ok o, ev) -> exec A p unpackf packf c f o = (f', o', ev', r) -> tidy (ev ++ ev').
Proof. exact @program_tidy. Qed.
Print Assumptions C94_tidy.
Theorem C94_with : forall F (A : arith F) p unpackf packf f fn kw o ev c, new_h p unpackf f fn kw = (Ok o, ev) ->
  forall f1, exec A p unpackf packf c f1 o = exec A p unpackf packf (unwrapped c) f1 o.
Proof. exact @program_unwrapped. Qed.
Print Assumptions C94_with.
Theorem C94_failed_open : forall F p (unpackf : Z -> F) f fn kw e ev, new_h p unpackf f fn kw = (Raise e, ev) ->
  match fn with
  | None | Some [] => e = EAttribute /\ ev = []
  | Some n => match open_rb f n with
              | Raise e' => e = e' /\ ev = []
              | Ok file => load p unpackf (kind_of_name n) file = Raise e /\ ev = [Opened n false]
              end
  end.
Proof. exact @new_h_raise. Qed.
Print Assumptions C94_failed_open.
Theorem C94_failed_load_refuted : exists f fn kw e ev, new_h p64 unpack_f f (Some fn) kw = (Raise e, ev) /\ ~ tidy ev.
Proof. exact leaks. Qed.
Print Assumptions C94_failed_load_refuted.
Example C94_example : forall L, new_h p64 unpack_f fsA (Some fnA) kw0 = (Ok hA, [Opened fnA false; Closed fnA false]) /\
  exists f' o', exec (f64 L) p64 unpack_f pack_f (With (With (Export (Some fnB) true Done) (Fail EValue)) Done) fsA hA =
    (f', o', [Opened fnB true; Closed fnB true], Some EValue).
Proof. intro L. exact (conj (openA_h kw0) (busy_runs L)). Qed.

(** C95: exceptions. The lists are in SpecExn.v. *)
From Verif Require Import SpecExn ExnFacts ExnEdit WitnessExn.
Open Scope Z_scope.
Theorem C95_load : forall F p (u : Z -> F) k bs e, load p u k bs = Raise e -> In e load_exns.
Proof. exact @load_raises. Qed.
Print Assumptions C95_load.
Theorem C95_trailing : forall F p (u : Z -> F) k bs, load p u k bs = Raise EAttribute <->
  exists file extra m, bs = (file ++ extra)%list /\ extra <> [] /\ load p u k file = Ok m.
Proof. exact @load_trailing. Qed.
Print Assumptions C95_trailing.
Theorem C95_loaded : forall F p (u : Z -> F) k bs m, load p u k bs = Ok m -> formatted m.
Proof. exact @loaded_formatted. Qed.
Print Assumptions C95_loaded.
Theorem C95_kept : forall F (A : arith F) m o off r order gi li b, formatted m ->
  formatted (fst (translate A m off)) /\ formatted (fst (rotate A m r)) /\ formatted (fst (update_boundaries A m)) /\
  formatted (fst (merge m o)) /\ formatted (fst (merge_self m)) /\ formatted (fst (change_geoms_order m order)) /\
  formatted (fst (get_lod_center_offset A m gi li b)).
Proof. exact @formatted_kept. Qed.
Print Assumptions C95_kept.
Theorem C95_edits : forall F (A : arith F) m o off r order gi li b m' e, formatted m ->
  (translate A m off = (m', Some e) -> In e translate_exns) /\
  (rotate A m r = (m', Some e) -> In e rotate_exns) /\
  (update_boundaries A m = (m', Some e) -> In e bounds_exns) /\
  (get_lod_center_offset A m gi li b = (m', Raise e) -> In e center_exns) /\
  (change_geoms_order m order = (m', Some e) -> In e order_exns) /\
  (merge m o = (m', MergeRaised e) -> In e merge_exns) /\
  (merge_self m = (m', MergeRaised e) -> In e merge_exns).
Proof. exact @edits_raise. Qed.
Print Assumptions C95_edits.
Theorem C95_export : forall F p (pk : F -> Z) m bs e, export p pk m = (bs, Some e) -> In e export_exns.
Proof. exact @export_raises. Qed.
Print Assumptions C95_export.
(** Every listed exception occurs, except the OverflowError of change_geoms_order. *)
Theorem C95_attained : forall L e,
  (In e load_exns -> exists bs, load p64 unpack_f k_static_ bs = Raise e) /\
  (In e translate_exns -> exists bs m off, load p64 unpack_f k_static_ bs = Ok m /\ snd (translate (f64 L) m off) = Some e) /\
  (In e rotate_exns -> exists bs m, load p64 unpack_f k_static_ bs = Ok m /\ snd (rotate (f64 L) m [f_zero (f64 L); f_zero (f64 L); f_zero (f64 L)]) = Some e) /\
  (In e bounds_exns -> exists bs m, load p64 unpack_f k_static_ bs = Ok m /\ snd (update_boundaries (f64 L) m) = Some e) /\
  (In e center_exns -> exists bs m, load p64 unpack_f k_static_ bs = Ok m /\ snd (get_lod_center_offset (f64 L) m 0 0 true) = Raise e) /\
  (In e order_exns -> e <> EOverflow -> exists bs m order, load p64 unpack_f k_static_ bs = Ok m /\ snd (change_geoms_order m order) = Some e) /\
  (In e merge_exns -> exists bs m bs2 m2, load p64 unpack_f k_static_ bs = Ok m /\ load p64 unpack_f k_static_ bs2 = Ok m2 /\
    snd (merge m m2) = MergeRaised e) /\
  (In e export_exns -> exists m, snd (export p64 pack_f m) = Some e).
Proof. exact exns_attained. Qed.
Print Assumptions C95_attained.
Example C95_example : forall L, formatted (fl (ex_mesh 11 k_static_)) /\
  snd (update_boundaries (f64 L) (fl no_position)) = Some EAttribute.
Proof. intro L. split; [ eapply loaded_formatted, (ex_load_fl p64 11 k_static_ ex_load_static) | reflexivity ]. Qed.

(** C96: several meshes merged into one, one after another. *)
From Verif Require Import SpecMany ManyFacts WitnessMany.
Open Scope Z_scope.
(** All succeed unless an index would pass 65535 when its turn comes. *)
Theorem C96_fit : forall F vs (a : mesh F) bs, vertex_size a = Ok (Z.of_nat vs) -> in_range vs a -> Forall (in_range vs) bs -> Forall (compatible a) bs ->
  let over := exists before b after k x ys y i, bs = before ++ b :: after /\ nth_error (mats a) k = Some x /\ kth_mats k before ys /\
    nth_error (mats b) k = Some y /\ In i (mat_indices b y) /\ 65535 < i + vnum x + sumZ vnum ys in
  (over -> exists m, merge_each a bs = (m, Some EOverflow)) /\ (~ over -> exists m, merge_each a bs = (m, None)).
Proof. exact (fun F vs a bs => @each_fits F vs bs a). Qed.
Print Assumptions C96_fit.
Theorem C96_result : forall F vs (a : mesh F) bs r, vertex_size a = Ok (Z.of_nat vs) -> in_range vs a -> Forall (in_range vs) bs -> Forall (compatible a) bs ->
  merge_each a bs = (r, None) ->
  in_range vs r /\ vertex_size r = Ok (Z.of_nat vs) /\ same_header a r /\ map (geom_mats uncounted) (geoms r) = map (geom_mats uncounted) (geoms a) /\
  List.length (mats r) = List.length (mats a) /\ Forall (fun b => List.length (mats b) = List.length (mats a)) bs /\
  (bs <> [] -> packed vs r /\ vertnum r = sumZ vnum (mats r) /\ indexnum r = sumZ inum (mats r)) /\
  forall k x ys z, nth_error (mats a) k = Some x -> kth_mats k bs ys -> nth_error (mats r) k = Some z ->
    vnum z = vnum x + sumZ vnum ys /\ inum z = inum x + sumZ inum ys /\
    mat_vertices vs r z = mat_vertices vs a x ++ flat_map (fun p => mat_vertices vs (fst p) (snd p)) (combine bs ys) /\
    (closed a -> Forall closed bs -> closed r /\
     SpecEdit.corners vs r z = SpecEdit.corners vs a x ++ flat_map (fun p => SpecEdit.corners vs (fst p) (snd p)) (combine bs ys)).
Proof. exact (fun F vs a bs => @each_result F vs bs a). Qed.
Print Assumptions C96_result.
(** How many copies of a mesh can be merged in. *)
Theorem C96_copies : forall F vs (a b : mesh F) n, vertex_size a = Ok (Z.of_nat vs) -> in_range vs a -> in_range vs b -> compatible a b ->
  let over := exists k x y i, nth_error (mats a) k = Some x /\ nth_error (mats b) k = Some y /\ In i (mat_indices b y) /\
    (0 < n)%nat /\ 65535 < i + vnum x + (Z.of_nat n - 1) * vnum y in
  (over -> exists m, merge_each a (repeat b n) = (m, Some EOverflow)) /\ (~ over -> exists m, merge_each a (repeat b n) = (m, None)).
Proof. exact @copies_fit. Qed.
Print Assumptions C96_copies.
(** A mesh that cannot be merged has no effect on the rest. *)
Theorem C96_passes_over : forall F vs before b after (a : mesh F), vertex_size a = Ok (Z.of_nat vs) -> in_range vs a -> Forall (in_range vs) before ->
  canMerge a b = Ok false -> merge_each a (before ++ b :: after) = merge_each a (before ++ after).
Proof. exact @each_passes_over. Qed.
Print Assumptions C96_passes_over.
(** In another order the same triangles come out, if that order succeeds too. *)
Theorem C96_order : forall F vs bs bs' (a r r' : mesh F), vertex_size a = Ok (Z.of_nat vs) -> in_range vs a -> Forall (in_range vs) bs -> Forall (compatible a) bs ->
  closed a -> Forall closed bs -> Permutation bs bs' -> merge_each a bs = (r, None) -> merge_each a bs' = (r', None) ->
  List.length (mats r) = List.length (mats r') /\
  forall k z z', nth_error (mats r) k = Some z -> nth_error (mats r') k = Some z' -> Permutation (SpecEdit.corners vs r z) (SpecEdit.corners vs r' z').
Proof. exact @each_order. Qed.
Print Assumptions C96_order.
Theorem C96_order_refuted : ~ (forall F vs (a : mesh F) bs bs' r, vertex_size a = Ok (Z.of_nat vs) -> in_range vs a -> Forall (in_range vs) bs ->
  Forall (compatible a) bs -> closed a -> Forall closed bs -> Permutation bs bs' -> merge_each a bs = (r, None) ->
  exists r', merge_each a bs' = (r', None)).
Proof. exact order_refuted. Qed.
Print Assumptions C96_order_refuted.
Example C96_example : forall F (f g h : Z -> F), exists r, merge_each (exm f) [exm g; exm h] = (r, None) /\
  vertex_size (exm f) = Ok (Z.of_nat 7) /\ in_range 7 (exm f) /\ Forall (in_range 7) [exm g; exm h] /\
  Forall (compatible (exm f)) [exm g; exm h] /\ closed (exm f) /\ Forall closed [exm g; exm h].
Proof. exact @three_merged. Qed.
Example C96_example_overflow : forall F (f : Z -> F), exists m,
  merge_each (mesh_map f thin_small) [mesh_map f thin_spare; mesh_map f thin_used] = (m, Some EOverflow).
Proof. exact @spare_first. Qed.
Example C96_example_passed : exists b, canMerge (exm (fun z => z)) b = Ok false.
Proof. exact passed_over. Qed.
(** The merged mesh draws the triangles of all of them. *)
From Verif Require Import ManySurface.
Theorem C96_surface : forall vs bs a r, drawable vs a -> Forall (drawable vs) bs -> whole a -> Forall whole bs ->
  Forall (fun b => vertformat b = vertformat a) bs -> Forall (compatible a) bs -> SpecMany.merge_each a bs = (r, None) ->
  drawable vs r /\ whole r /\ Permutation (surface vs r) (surface vs a ++ flat_map (surface vs) bs) /\
  area (surface vs r) = (area (surface vs a) + sumR (map (fun b => area (surface vs b)) bs))%R /\
  volume (surface vs r) = (volume (surface vs a) + sumR (map (fun b => volume (surface vs b)) bs))%R.
Proof. exact each_measures. Qed.
Print Assumptions C96_surface.

(** C97: the sample meshes of the repository. [samples] and [col_samples] (WitnessSample.v)
    pair the bytes of the files with what loading them gives, floats as bit patterns. *)
From Verif Require Import Sample WitnessSample.
Import SpecEdit SpecMany.
Open Scope Z_scope.
(** Where longs have 4 bytes both classes load them, and saving writes the same bytes. *)
Theorem C97_loads : forall file m, In (file, m) samples ->
  load p32 unpack_f k_static_ file = Ok (fl m) /\ old_load p32 unpack_f k_static_ file = Ok (old_of (fl m)) /\ export p32 pack_f (fl m) = (file, None).
Proof. exact (fun file m H => conj (sample_loads unpack_f file m H) (conj (sample_old unpack_f file m H) (sample_resaved file m H))). Qed.
Print Assumptions C97_loads.
(** Where they have 8 bytes no file of the sort loads as anything. *)
Theorem C97_long8 : forall file m k m', In (file, m) samples -> load p64 unpack_f k file <> Ok m'.
Proof. exact (@sample_long8 binary64 unpack_f). Qed.
Print Assumptions C97_long8.
(** However they are edited, they can be saved. *)
Theorem C97_history : forall L file m m', In (file, m) samples -> history (f64 L) p32 20 (fl m) m' ->
  is_long p32 (vertnum m') -> is_long p32 (indexnum m') -> vertnum m' * Z.of_nat 20 <= 2 ^ 53 ->
  exists bs round, (forall x, rounds_to_single x (round x)) /\ (forall x, is_single x -> round x = x) /\
    export p32 pack_f m' = (bs, None) /\ load p32 unpack_f (m_kind m') bs = Ok (mesh_map round m').
Proof. exact (fun L file m m' H E L1 L2 B => proj2 (history_exports L p32 20 (fl m) m' (sample_savable unpack_f file m H) E L1 L2 B)). Qed.
Print Assumptions C97_history.
(** The box keeps its shape and size, however it is moved and turned. *)
Theorem C97_moves : forall m, clos_refl_trans _ move (mesh_map real_of evil_box) m ->
  drawable 20 m /\ closed_surface (surface 20 m) /\ area (surface 20 m) = 6%R /\ volume (surface 20 m) = 1%R.
Proof. exact sample_moves. Qed.
Print Assumptions C97_moves.
(** Up to 2620 further boxes fit into its mesh, and no more. *)
Theorem C97_copies : forall F (f : Z -> F) n,
  (Z.of_nat n <= 2620 -> exists r, merge_each (mesh_map f evil_box) (repeat (mesh_map f evil_box) n) = (r, None) /\
     vertnum r = 25 * (Z.of_nat n + 1) /\ indexnum r = 36 * (Z.of_nat n + 1)) /\
  (2620 < Z.of_nat n -> exists m, merge_each (mesh_map f evil_box) (repeat (mesh_map f evil_box) n) = (m, Some EOverflow)).
Proof. exact (fun F f n => conj (box_copies f n) (box_too_many f n)). Qed.
Print Assumptions C97_copies.
Theorem C97_copies_surface : forall n r, merge_each (mesh_map real_of evil_box) (repeat (mesh_map real_of evil_box) n) = (r, None) ->
  drawable 20 r /\ area (surface 20 r) = (6 * (INR n + 1))%R /\ volume (surface 20 r) = (INR n + 1)%R.
Proof. exact box_copies_surface. Qed.
Print Assumptions C97_copies_surface.
(** Moving a sample by multiples of one half and back restores every coordinate. *)
Theorem C97_translate : forall L file m dx dy dz, In (file, m) samples ->
  Forall (fun d => finite d /\ on_grid (-1) d /\ (Rabs (val d) <= bpow radix2 51)%R) [dx; dy; dz] ->
  exists m1 m2, translate (f64 L) (fl m) [dx; dy; dz] = (m1, None) /\ translate (f64 L) m1 (map b64_opp [dx; dy; dz]) = (m2, None) /\
  forall j c x d, nth_error (vertices (fl m)) (j * 20 + c) = Some x -> nth_error [dx; dy; dz] c = Some d ->
    exists x1 x2, nth_error (vertices m1) (j * 20 + c) = Some x1 /\ val x1 = (val x + val d)%R /\
                  nth_error (vertices m2) (j * 20 + c) = Some x2 /\ val x2 = val x.
Proof. exact sample_translate. Qed.
Print Assumptions C97_translate.
Theorem C97_col : forall file m, In (file, m) col_samples ->
  col_load p32 unpack_f file = Ok (colmesh_map unpack_f (fun x => x) m) /\ write_colmesh p32 pack_f (colmesh_map unpack_f (fun x => x) m) = (file, None).
Proof. exact (fun file m H => conj (col_sample_loads unpack_f file m H) (col_sample_saved_f file m H)). Qed.
Print Assumptions C97_col.
Example C97_example : List.length samples = 3%nat /\ List.length col_samples = 2%nat /\ vertnum evil_box = 25 /\ indexnum evil_box = 36 /\
  In (evil_box_file, evil_box) samples.
Proof. split; [reflexivity|]. split; [reflexivity|]. split; [reflexivity|]. split; [reflexivity|]. exact box_in. Qed.

(** ** Programs over several meshes in both mesh classes *)
From Verif Require Import SpecBoth BothFacts BothSurface.
Open Scope Z_scope.

(** C98. A program of translate, rotate, update_boundaries and merge calls on several meshes that runs through with
    the new class runs through with the old class and gives the same meshes apart from bounds. *)
Theorem C98_exact : forall vs ms cs ms1 os, Forall (old_editable vs) ms -> Forall (in_both exact (List.length ms)) cs ->
  value_run exact ms cs = (ms1, os) -> Forall (eq ONone) os -> Forall (fun m => zlen (vertices m) <= 2 ^ 53) ms1 ->
  exists ms2, old_run exact ms cs = (ms2, os) /\ Forall2 same_but_bounds ms1 ms2 /\ Forall (old_editable vs) ms2.
Proof. exact both_exact. Qed.
Print Assumptions C98_exact.
(** In doubles the vertex numbers are the same up to the signs of zeros: errors do not build up. *)
Theorem C98_doubles : forall L vs ms cs ms1 os, Forall (old_editable vs) ms -> Forall (in_both (f64 L) (List.length ms)) cs ->
  value_run (f64 L) ms cs = (ms1, os) -> Forall (eq ONone) os -> Forall (fun m => zlen (vertices m) <= 2 ^ 53) ms1 ->
  exists ms2, old_run (f64 L) ms cs = (ms2, os) /\ Forall2 (same_up_to equal_or_zeros) ms1 ms2 /\ Forall (old_editable vs) ms2.
Proof. exact both_doubles. Qed.
Print Assumptions C98_doubles.
(** Any sequence of translate, rotate and update_boundaries of the old class is a rigid motion of the surface. *)
Theorem C98_surface : forall vs m m', old_editable vs m -> closed m -> clos_refl_trans _ old_move m m' ->
  old_editable vs m' /\ closed m' /\
  (exists g d h, rotation g /\ rigid vs m g d h /\ Permutation (faces vs m') (map (on3 h) (faces vs m))) /\
  area (surface vs m') = area (surface vs m) /\
  (closed_surface (surface vs m') <-> closed_surface (surface vs m)) /\
  (closed_surface (surface vs m) -> volume (surface vs m') = volume (surface vs m)) /\
  forall a, In a (oriented_attribs m) -> attrib_start m a <> position_start m ->
    Permutation (shading vs m' a) (shading vs m a).
Proof. exact old_moves_measures. Qed.
Print Assumptions C98_surface.
Theorem C98_succeeds : forall vs m, old_editable vs m ->
  (forall dx dy dz, exists m', old_translate exact m [dx; dy; dz] = (m', None)) /\
  (forall a b c more, exists m', old_rotate exact m (a :: b :: c :: more) = (m', None)) /\
  (exists m', old_update_boundaries exact m = (m', None)).
Proof. exact old_moves_succeed. Qed.
Print Assumptions C98_succeeds.
(** merge of the old class puts surfaces together. *)
Theorem C98_merge : forall vs a b m1, old_editable vs a -> old_editable vs b -> closed a -> closed b -> whole a ->
  vertformat b = vertformat a -> merge a b = (m1, Merged) -> zlen (vertices a) + zlen (vertices b) <= 2 ^ 53 ->
  exists m', old_merge exact a b = (m', None) /\ old_editable vs m' /\ closed m' /\
    Permutation (surface vs m') (surface vs a ++ surface vs b) /\
    area (surface vs m') = (area (surface vs a) + area (surface vs b))%R /\
    volume (surface vs m') = (volume (surface vs a) + volume (surface vs b))%R.
Proof. exact old_merge_surface. Qed.
Print Assumptions C98_merge.
Example C98_example : forall F (num : lit -> F), old_editable 12 (sbox num) /\ closed (sbox num).
Proof. exact (fun F num => conj (box_editable num) (box_closed num)). Qed.
Example C98_example_program : forall F (A : arith F) (num : lit -> F) dx dy dz a b c, can_turn A a b c -> exists ms1,
  value_run A [sbox num; sbox num] [CTranslate 1 [dx; dy; dz]; CMerge 0 1; CRotate 0 [a; b; c]; CBounds 0] =
    (ms1, [ONone; ONone; ONone; ONone]) /\
  Forall (fun m => zlen (vertices m) <= 2 ^ 53) ms1.
Proof. exact @box_program. Qed.

(** ** Errors of sequences of moves in doubles *)
From Verif Require Import SpecDrift DriftFacts WitnessDrift.
Open Scope Z_scope.
(** C99. After any sequence of translate and rotate calls each position, normal and tangent is within [drift_upto] of
    where exact arithmetic takes it; other numbers are unchanged. *)
Theorem C99_drift (L : libm) (e D : R) : (0 <= e)%R -> libm_within e L -> (e + D * bpow radix2 (-58) <= / 16)%R -> (0 <= D)%R ->
  forall vs m ss, movable vs m -> Forall (motion_upto D) ss -> exists m', do_motions L m ss = (m', None) /\
  same_but_vertices m m' /\ List.length (vertices m') = List.length (vertices m) /\
  (forall j c v, (c < vs)%nat -> Forall (outside m c) (oriented_attribs m) -> nth_error (vertices m) (j * vs + c) = Some v ->
     nth_error (vertices m') (j * vs + c) = Some v) /\
  (forall j a q, In a (oriented_attribs m) -> triple (vertices m) (j * vs + attrib_start m a) q -> SpecAcc.finite3 q ->
     ((1 + per_call e D) ^ List.length ss * (norm (val3 q) + way ss + bpow radix2 (-1000)) <= bpow radix2 1000)%R ->
   exists q', triple (vertices m') (j * vs + attrib_start m a) q' /\ SpecAcc.finite3 q' /\
     (norm (minus (val3 q') (goal (at_position m a) ss (val3 q))) <= drift_upto e D (List.length ss) (norm (val3 q) + way ss))%R).
Proof. exact (drift_bound L e D). Qed.
Print Assumptions C99_drift.
(** Distances between two vertices, and between the normals of two vertices, change by no more than twice that. *)
Theorem C99_distances (L : libm) (e D : R) : (0 <= e)%R -> libm_within e L -> (e + D * bpow radix2 (-58) <= / 16)%R -> (0 <= D)%R ->
  forall vs m ss m', movable vs m -> Forall (motion_upto D) ss -> do_motions L m ss = (m', None) ->
  forall i j a p q p' q', In a (oriented_attribs m) ->
    triple (vertices m) (i * vs + attrib_start m a) p -> triple (vertices m) (j * vs + attrib_start m a) q ->
    triple (vertices m') (i * vs + attrib_start m a) p' -> triple (vertices m') (j * vs + attrib_start m a) q' ->
    SpecAcc.finite3 p -> SpecAcc.finite3 q ->
    ((1 + per_call e D) ^ List.length ss * (norm (val3 p) + way ss + bpow radix2 (-1000)) <= bpow radix2 1000)%R ->
    ((1 + per_call e D) ^ List.length ss * (norm (val3 q) + way ss + bpow radix2 (-1000)) <= bpow radix2 1000)%R ->
    (Rabs (norm (minus (val3 p') (val3 q')) - norm (minus (val3 p) (val3 q))) <=
      drift_upto e D (List.length ss) (norm (val3 p) + way ss) + drift_upto e D (List.length ss) (norm (val3 q) + way ss))%R.
Proof. exact (distances_kept L e D). Qed.
Print Assumptions C99_distances.
(** The bound grows linearly with the number of calls. *)
Theorem C99_linear : forall e D, (0 <= e)%R -> (0 <= D)%R -> forall n r, (0 <= r)%R -> (2 * INR n * per_call e D <= 1)%R ->
  (drift_upto e D n r <= 2 * INR n * per_call e D * (r + bpow radix2 (-1000)))%R.
Proof. exact drift_linear. Qed.
Print Assumptions C99_linear.
(** The same when the mesh is saved and loaded afterwards, which rounds to 24 bits once. *)
Theorem C99_saved (L : libm) (e D : R) : (0 <= e)%R -> libm_within e L -> (e + D * bpow radix2 (-58) <= / 16)%R -> (0 <= D)%R ->
  forall p vs m ss, wf p m -> indexnum m <> 1 -> movable vs m -> Forall (motion_upto D) ss ->
  exists m1 bs m2, do_motions L m ss = (m1, None) /\ export p pack_f m1 = (bs, None) /\ load p unpack_f (m_kind m) bs = Ok m2 /\
  forall j a q, In a (oriented_attribs m) -> triple (vertices m) (j * vs + attrib_start m a) q -> SpecAcc.finite3 q ->
    ((1 + per_call e D) ^ List.length ss * (norm (val3 q) + way ss + bpow radix2 (-1000)) <= bpow radix2 126)%R ->
  exists q', triple (vertices m2) (j * vs + attrib_start m a) q' /\ SpecAcc.finite3 q' /\
    (norm (minus (val3 q') (goal (at_position m a) ss (val3 q))) <=
      (1 + bpow radix2 (-23)) * drift_upto e D (List.length ss) (norm (val3 q) + way ss) +
      bpow radix2 (-23) * (norm (val3 q) + way ss) + bpow radix2 (-149))%R.
Proof. exact (drift_saved L e D). Qed.
Print Assumptions C99_saved.
(** A case: up to 125000 walks around a square, on the example mesh, with a C library that rounds correctly. *)
Theorem C99_example : forall k, (INR (4 * k) <= 500000)%R ->
  wf p64 (exm unpack_f) /\ indexnum (exm unpack_f) <> 1 /\ movable 7 (exm unpack_f) /\ Forall (motion_upto 90) (steps (4 * k)) /\
  (exists a q, In a (oriented_attribs (exm unpack_f)) /\
    triple (vertices (exm unpack_f)) (1 * 7 + attrib_start (exm unpack_f) a) q /\ SpecAcc.finite3 q /\ norm (val3 q) = 1%R) /\
  exists m', do_motions lib_rounded (exm unpack_f) (steps (4 * k)) = (m', None) /\
  forall j a q, In a (oriented_attribs (exm unpack_f)) -> triple (vertices (exm unpack_f)) (j * 7 + attrib_start (exm unpack_f) a) q ->
    SpecAcc.finite3 q -> (norm (val3 q) <= 1000)%R ->
  exists q', triple (vertices m') (j * 7 + attrib_start (exm unpack_f) a) q' /\
    (norm (minus (val3 q') (val3 q)) <= INR (16 * k) * / 10000000000000 * (norm (val3 q) + INR (4 * k) + 1))%R.
Proof. exact square_example. Qed.
Print Assumptions C99_example.
