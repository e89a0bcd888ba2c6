(** Concrete meshes for the editing properties. *)
From Coq Require Import ZArith List Bool Ascii String Lia.
From Flocq Require Import IEEE754.Binary IEEE754.Bits.
From Verif Require Import PyBase Struct Mesh Arith F64 Edit Obj Spec CodecBase CodecRaw CodecParam
  CodecFacts SpecEdit TravFacts VertFacts Witness.
Import ListNotations.
Open Scope Z_scope.

Definition exm {F} (f : Z -> F) : mesh F := mesh_map f (ex_mesh 11 k_static_).

Lemma ex_size {F} (f : Z -> F) : vertex_size (exm f) = Ok (Z.of_nat 7).
Proof. reflexivity. Qed.
Lemma ex_packed {F} (f : Z -> F) : packed 7 (exm f).
Proof.
  split; [exists 6|exists ex_index]; (split; [reflexivity|]); cbn; lia.
Qed.
Lemma ex_tiled {F} (f : Z -> F) : tiled_vertices 7 (exm f).
Proof. apply ex_packed. Qed.
Lemma ex_short {F} (f : Z -> F) : short_offsets (exm f).
Proof. split; [reflexivity|]. cbn [vertex_attributes exm mesh_map ex_mesh]. unfold ex_attribs. repeat constructor; cbn; lia. Qed.
Lemma ex_ready {F} (f : Z -> F) : rotate_ready 7 (exm f).
Proof.
  split; [apply ex_short|]. change (oriented_attribs (exm f)) with (firstn 2 ex_attribs).
  split; repeat constructor; cbn; lia.
Qed.
Lemma ex_position {F} (f : Z -> F) : exists a, position_attrib (exm f) = Some a /\ (attrib_start (exm f) a + 3 <= 7)%nat.
Proof. eexists. split; [reflexivity|]. cbn. lia. Qed.

(** translate raises on an offset of eight numbers. *)
Lemma ex_translate_raises {F} (A : arith F) (f : Z -> F) (x : F) :
  translate A (exm f) (repeat x 8) = (exm f, Some EIndex).
Proof. reflexivity. Qed.

(** Undoing a translation by 2^60 in doubles. *)
Definition b_2_60 : binary64 := unpack_f 1568669696.
Definition b_m2_60 : binary64 := unpack_f 3716153344.
Lemma ok_pair {B} (p : B * option exn) : snd p = None -> p = (fst p, None).
Proof. destruct p. simpl. congruence. Qed.

Lemma undo_inexact L : exists bs m m1 m2,
  load p64 unpack_f k_static_ bs = Ok m /\
  translate (f64 L) m [b_2_60; b_2_60; b_2_60] = (m1, None) /\
  translate (f64 L) m1 [b_m2_60; b_m2_60; b_m2_60] = (m2, None) /\
  f_add (f64 L) b_2_60 b_m2_60 = f_zero (f64 L) /\ m2 <> m.
Proof.
  exists (ex_file p64 11 k_static_), (exm unpack_f).
  exists (fst (translate (f64 L) (exm unpack_f) [b_2_60; b_2_60; b_2_60])).
  exists (fst (translate (f64 L) (fst (translate (f64 L) (exm unpack_f) [b_2_60; b_2_60; b_2_60])) [b_m2_60; b_m2_60; b_m2_60])).
  split; [apply (ex_load_fl p64 11 k_static_ ex_load_static)|].
  split; [apply ok_pair; vm_compute; reflexivity|]. split; [apply ok_pair; vm_compute; reflexivity|]. split; [vm_compute; reflexivity|].
  intros H. apply (f_equal (fun m => map pack_f (vertices m))) in H. vm_compute in H. discriminate.
Qed.

(** Materials in the opposite order of their vertices, and a mesh with an unused vertex. *)
Definition swapped_verts : list Z :=
  [ b0; b0; b0; b0; b1; b0; b0;   b1; b0; b0; b0; b1; b0; b0;   b0; b0; b1; b0; b1; b0; b0;
    b2; b0; b0; b0; b1; b0; b3;   b3; b0; b0; b0; b1; b0; b3;   bm1; b0; b1; b0; b1; b0; b3 ].
Definition two_geoms (m1 m2 : mat Z) (vs : list Z) : mesh Z :=
  let k := k_static_ in
  {| m_kind := k; m_head := ex_head 11; m_u1 := 0; geomnum := 2;
     geoms := [ {| lodnum := 1; lods := [ex_lod 11 k [m1]] |};
                {| lodnum := 1; lods := [ex_lod 11 k [m2]] |} ];
     vertattribnum := 4; vertex_attributes := ex_attribs;
     vertformat := 4; vertstride := 28; vertnum := 6; vertices := vs;
     indexnum := 6; index := Tuple ex_index; m_u2 := 8 |}.
Definition swapped_mesh : mesh Z :=
  two_geoms (ex_mat 11 false 3 0 3 3) (ex_mat 11 false 0 3 3 3) swapped_verts.
Definition gap_mesh : mesh Z :=
  mesh_map (fun _ => b0) (two_geoms (ex_mat 11 false 0 0 2 2) (ex_mat 11 false 3 3 3 3) swapped_verts).
Definition file_of (m : mesh Z) : bytes := fst (export p64 raw m).
Lemma swapped_loads : load p64 unpack_f k_static_ (file_of swapped_mesh) = Ok (fl swapped_mesh).
Proof. rewrite load_via. replace (load p64 raw k_static_ (file_of swapped_mesh)) with (Ok swapped_mesh) by (vm_compute; reflexivity). reflexivity. Qed.
Lemma gap_loads : load p64 unpack_f k_static_ (file_of gap_mesh) = Ok (fl gap_mesh).
Proof. rewrite load_via. replace (load p64 raw k_static_ (file_of gap_mesh)) with (Ok gap_mesh) by (vm_compute; reflexivity). reflexivity. Qed.

Definition one3 : list binary64 := [unpack_f b1; unpack_f b1; unpack_f b1].

Lemma two_in_range m1 m2 (f : Z -> binary64) vs : List.length vs = 42%nat ->
  0 <= vstart m1 -> 0 <= vnum m1 -> vstart m1 + vnum m1 <= 6 -> 0 <= istart m1 -> 0 <= inum m1 -> istart m1 + inum m1 <= 6 ->
  0 <= vstart m2 -> 0 <= vnum m2 -> vstart m2 + vnum m2 <= 6 -> 0 <= istart m2 -> 0 <= inum m2 -> istart m2 + inum m2 <= 6 ->
  in_range 7 (mesh_map f (two_geoms m1 m2 vs)).
Proof.
  intros. split; [eexists; reflexivity|].
  cbn [two_geoms mesh_map mats mats_of geoms map flat_map lods materials geom_map lod_map ex_lod app].
  assert (zlen (vertices (mesh_map f (two_geoms m1 m2 vs))) = 42) as EL.
  { unfold zlen. cbn [two_geoms mesh_map vertices]. rewrite map_length. lia. }
  assert (zlen (index_list (mesh_map f (two_geoms m1 m2 vs))) = 6) as EI by reflexivity.
  repeat constructor; rewrite ?EL, ?EI; cbn; lia.
Qed.

Lemma swapped_wrong L : exists bs m m', load p64 unpack_f k_static_ bs = Ok m /\
  vertex_size m = Ok (Z.of_nat 7) /\ in_range 7 m /\ short_offsets m /\
  translate (f64 L) m one3 = (m', None) /\
  exists mt, In mt (mats m') /\
    mat_vertices 7 m' mt <> map (moved_vertex (f64 L) (position_start m) one3) (mat_vertices 7 m mt).
Proof.
  exists (file_of swapped_mesh), (fl swapped_mesh), (fst (translate (f64 L) (fl swapped_mesh) one3)).
  split; [apply swapped_loads|]. split; [reflexivity|]. split; [apply two_in_range; cbn; lia|].
  split; [split; [reflexivity|]; cbn [vertex_attributes fl mesh_map swapped_mesh two_geoms]; unfold ex_attribs; repeat constructor; cbn; lia|].
  split; [apply ok_pair; vm_compute; reflexivity|].
  exists (mat_map unpack_f (ex_mat 11 false 3 0 3 3)). split; [now left|].
  intros H. apply (f_equal (map (map pack_f))) in H. vm_compute in H. discriminate.
Qed.

Definition zero3_ : list binary64 := [unpack_f b0; unpack_f b0; unpack_f b0].

Lemma gap_unloadable L : exists bs m m' bs', load p64 unpack_f k_static_ bs = Ok m /\
  vertex_size m = Ok (Z.of_nat 7) /\ in_range 7 m /\ short_offsets m /\
  translate (f64 L) m zero3_ = (m', None) /\ export p64 pack_f m' = (bs', None) /\
  forall m2, load p64 unpack_f k_static_ bs' <> Ok m2.
Proof.
  exists (file_of gap_mesh), (fl gap_mesh), (fst (translate (f64 L) (fl gap_mesh) zero3_)).
  exists (fst (export p64 pack_f (fst (translate (f64 L) (fl gap_mesh) zero3_)))).
  split; [apply gap_loads|]. split; [reflexivity|]. split; [unfold fl, gap_mesh; rewrite mesh_map_map; apply two_in_range; cbn; lia|].
  split; [split; [reflexivity|]; cbn [vertex_attributes fl mesh_map gap_mesh two_geoms]; unfold ex_attribs; repeat constructor; cbn; lia|].
  split; [apply ok_pair; vm_compute; reflexivity|]. split; [apply ok_pair; vm_compute; reflexivity|].
  intros m2 H. rewrite load_via in H.
  assert (match load p64 raw k_static_ (fst (export p64 pack_f (fst (translate (f64 L) (fl gap_mesh) zero3_)))) with
          | Ok _ => false | Raise _ => true end = true) as E by (vm_compute; reflexivity).
  destruct (load p64 raw k_static_ _); [discriminate|]. discriminate.
Qed.

(** A four-component position; and a two-component one. *)
Definition wide_attribs (t : Z) : list vertattrib :=
  [ {| flag := 0; offset := 0; vartype := t; usage := 0 |};
    {| flag := 255; offset := 0; vartype := 17; usage := 0 |} ].
Definition wide_mesh (t n : Z) : mesh Z :=
  {| m_kind := k_static_; m_head := ex_head 11; m_u1 := 0; geomnum := 1;
     geoms := [ {| lodnum := 1; lods := [ex_lod 11 k_static_ [ex_mat 11 false 0 0 3 3]] |} ];
     vertattribnum := 2; vertex_attributes := wide_attribs t;
     vertformat := 4; vertstride := 4 * n; vertnum := 3; vertices := firstn (Z.to_nat (3 * n)) ex_verts;
     indexnum := 3; index := Tuple [0; 1; 2]; m_u2 := 8 |}.
Lemma wide_loads : load p64 unpack_f k_static_ (file_of (wide_mesh 3 4)) = Ok (fl (wide_mesh 3 4)).
Proof. rewrite load_via. replace (load p64 raw k_static_ (file_of (wide_mesh 3 4))) with (Ok (wide_mesh 3 4)) by (vm_compute; reflexivity). reflexivity. Qed.
Lemma narrow_loads : load p64 unpack_f k_static_ (file_of (wide_mesh 1 2)) = Ok (fl (wide_mesh 1 2)).
Proof. rewrite load_via. replace (load p64 raw k_static_ (file_of (wide_mesh 1 2))) with (Ok (wide_mesh 1 2)) by (vm_compute; reflexivity). reflexivity. Qed.
Lemma wide_tiled {F} (f : Z -> F) : tiled_vertices 4 (mesh_map f (wide_mesh 3 4)).
Proof. exists 3. split; [reflexivity|]. cbn. lia. Qed.
Lemma narrow_tiled {F} (f : Z -> F) : tiled_vertices 2 (mesh_map f (wide_mesh 1 2)).
Proof. exists 3. split; [reflexivity|]. cbn. lia. Qed.
Lemma wide_short {F} (f : Z -> F) t n : short_offsets (mesh_map f (wide_mesh t n)).
Proof. split; [reflexivity|]. cbn [vertex_attributes mesh_map wide_mesh]. unfold wide_attribs. repeat constructor; cbn; lia. Qed.

(** A mesh whose vertex count was changed by rotate is not what any file holds. *)
Theorem rotate_unsavable {F} (A : arith F) p u vs (m : mesh F) yaw pitch roll more n :
  wf p m ->
  vertex_size m = Ok (Z.of_nat vs) -> (0 < vs)%nat -> tiled_vertices vs m -> short_offsets m ->
  List.length (vertices m) = (n * vs)%nat -> (0 < n)%nat -> can_turn A yaw pitch roll ->
  let q := List.length (filter (fun a => vartype a =? 3) (oriented_attribs m)) in
  (0 < q)%nat ->
  Forall (fun a => (vartype a = 2 \/ vartype a = 3) /\ (attrib_start m a + 3 + q <= vs)%nat) (oriented_attribs m) ->
  exists m', rotate A m (yaw :: pitch :: roll :: more) = (m', None) /\
    same_but_vertices m m' /\ List.length (vertices m') = (n * (vs - q))%nat /\
    forall (g : F -> F) k bs, load p u k bs <> Ok (mesh_map g m').
Proof.
  intros W Hs Hv T Ho Ln Hn Ht q Hq HA.
  destruct (rotate_shrinks A vs m yaw pitch roll more n Hs Hv T Ho Ln Ht HA) as (m' & E & S & L). fold q in L.
  exists m'. split; [exact E|]. split; [exact S|]. split; [exact L|]. intros g k bs H.
  apply loaded_wf in H. destruct H as (H & _). unfold wf in H, W. cbn [mesh_map vertstride vertformat vertnum vertices] in H.
  destruct H as (_ & _ & _ & _ & _ & _ & _ & _ & _ & H & _). destruct W as (_ & _ & _ & _ & _ & _ & _ & _ & _ & W & _).
  destruct S as ((_ & _ & _ & _ & _ & _ & S1 & S2 & _) & (S3 & _) & _). rewrite S1, S2, S3, W in H.
  injection H as H. unfold zlen in H. rewrite map_length in H.
  assert (vs - q < vs)%nat by (clearbody q; lia). clearbody q. nia.
Qed.

(** An infinite angle, +inf degrees. *)
Definition inf64 : binary64 := B754_infinity 53 1024 false.
Lemma inf_cannot L a b : ~ can_turn (f64 L) inf64 a b /\ ~ can_turn (f64 L) a inf64 b /\ ~ can_turn (f64 L) a b inf64.
Proof.
  assert (f_trig (f64 L) (f_radians (f64 L) inf64) = false) as E by (vm_compute; reflexivity).
  repeat split; intros (H1 & H2 & H3); congruence.
Qed.
Lemma ex_infinite L a b : rotate (f64 L) (exm unpack_f) [a; inf64; b] = (exm unpack_f, Some EValue).
Proof.
  apply (rotate_infinite (f64 L) 7 _ a inf64 b [] {| flag := 0; offset := 0; vartype := 2; usage := 0 |}
           [{| flag := 0; offset := 12; vartype := 2; usage := 3 |}] 3).
  - apply ex_size.
  - lia.
  - apply ex_tiled.
  - discriminate.
  - apply ex_short.
  - reflexivity.
  - reflexivity.
  - lia.
  - vm_compute. lia.
  - apply inf_cannot.
Qed.
