(** Files on which the methods raise each of the listed exceptions. *)
From Coq Require Import ZArith List Bool Lia.
From Flocq Require Import IEEE754.Binary IEEE754.Bits.
From Verif Require Import PyBase Struct Mesh Arith F64 Edit Obj Spec CodecBase CodecRaw CodecParam CodecFacts
  SpecEdit Witness WitnessEdit WitnessMerge SpecExn.
Import ListNotations.
Open Scope Z_scope.

(** The example mesh with other attributes. *)
Definition with_attribs (l : list vertattrib) : mesh Z :=
  let m := ex_mesh 11 k_static_ in
  {| m_kind := m_kind m; m_head := m_head m; m_u1 := m_u1 m; geomnum := geomnum m; geoms := geoms m;
     vertattribnum := zlen l; vertex_attributes := l; vertformat := vertformat m; vertstride := vertstride m;
     vertnum := vertnum m; vertices := vertices m; indexnum := indexnum m; index := index m; m_u2 := m_u2 m |}.
(** The example mesh with other indices. *)
Definition with_index (n : Z) (ix : pyseq Z) : mesh Z :=
  let m := ex_mesh 11 k_static_ in
  {| m_kind := m_kind m; m_head := m_head m; m_u1 := m_u1 m; geomnum := geomnum m; geoms := geoms m;
     vertattribnum := vertattribnum m; vertex_attributes := vertex_attributes m; vertformat := vertformat m; vertstride := vertstride m;
     vertnum := vertnum m; vertices := vertices m; indexnum := n; index := ix; m_u2 := m_u2 m |}.
(** The example mesh with another vertex buffer. *)
Definition with_buffer (fmt n : Z) (vs : list Z) : mesh Z :=
  let m := ex_mesh 11 k_static_ in
  {| m_kind := m_kind m; m_head := m_head m; m_u1 := m_u1 m; geomnum := geomnum m; geoms := geoms m;
     vertattribnum := vertattribnum m; vertex_attributes := vertex_attributes m; vertformat := fmt; vertstride := 4;
     vertnum := n; vertices := vs; indexnum := indexnum m; index := index m; m_u2 := m_u2 m |}.
Definition unknown_type : mesh Z := with_attribs [{| flag := 0; offset := 0; vartype := 77; usage := 0 |}].
Definition unknown_other : mesh Z := with_attribs [{| flag := 0; offset := 0; vartype := 78; usage := 0 |}].
Definition no_position : mesh Z := with_attribs [{| flag := 0; offset := 0; vartype := 2; usage := 3 |}].
Definition short_position : mesh Z := with_attribs [{| flag := 0; offset := 0; vartype := 1; usage := 0 |}].
Definition no_attribs : mesh Z := with_attribs [].
Definition no_index : mesh Z := with_index 0 (Tuple []).

Lemma via_file m : load p64 raw k_static_ (file_of m) = Ok m -> load p64 unpack_f k_static_ (file_of m) = Ok (fl m).
Proof. intro H. rewrite load_via, H. reflexivity. Qed.

Lemma load_attained e : In e load_exns -> exists bs, load p64 unpack_f k_static_ bs = Raise e.
Proof.
  intros [<- | [<- | [<- | [<- | []]]]].
  - exists []. rewrite load_via. vm_compute. reflexivity.
  - exists (file_of (with_buffer 4 1 [b0])). rewrite load_via. vm_compute. reflexivity.
  - exists (file_of (with_buffer 0 1 [b0])). rewrite load_via. vm_compute. reflexivity.
  - exists (ex_file p64 11 k_static_ ++ firstn 1 (ex_file p64 11 k_static_))%list. rewrite load_via. vm_compute. reflexivity.
Qed.

(** A geom that lists more lods than a long counts; a lone index; a node of no rows. *)
Definition bad_count : mesh Z := set_geoms (ex_mesh 11 k_static_) [{| lodnum := 2 ^ 70; lods := [] |}].
Definition bad_node : mesh Z :=
  set_geoms (ex_mesh 11 k_static_) [{| lodnum := 1; lods := [ {| lod_min := Some (b0, b0, b0); lod_max := Some (b0, b0, b0); pivot := None;
    rignum := 0; rigs := []; nodenum := 1; nodes := [[]]; matnum := 0; materials := [] |} ] |}].
Lemma export_attained e : In e export_exns -> exists m, snd (export p64 pack_f m) = Some e.
Proof.
  intros [<- | [<- | [<- | []]]]; [ exists (fl bad_count) | exists (fl one_mesh) | exists (fl bad_node) ]; vm_compute; reflexivity.
Qed.

Section A.
Variable L : libm.
Notation A := (f64 L).
Ltac file m := exists (file_of m), (fl m); split; [ apply via_file; vm_compute; reflexivity |].

Lemma translate_attained e : In e translate_exns -> exists bs m off,
  load p64 unpack_f k_static_ bs = Ok m /\ snd (translate A m off) = Some e.
Proof.
  intros [<- | [<- | [<- | []]]].
  - exists (file_of no_attribs), (fl no_attribs), one3. split; [ apply via_file; vm_compute; reflexivity | reflexivity ].
  - exists (ex_file p64 11 k_static_), (exm unpack_f), (repeat (unpack_f b1) 8).
    split; [ apply (ex_load_fl p64 11 k_static_ ex_load_static) | now rewrite ex_translate_raises ].
  - exists (file_of no_position), (fl no_position), one3. split; [ apply via_file; vm_compute; reflexivity | reflexivity ].
Qed.
Lemma rotate_attained e : In e rotate_exns -> exists bs m,
  load p64 unpack_f k_static_ bs = Ok m /\ snd (rotate A m [f_zero A; f_zero A; f_zero A]) = Some e.
Proof.
  intros [<- | [<- | []]].
  - file unknown_type. reflexivity.
  - file short_position. reflexivity.
Qed.
Lemma bounds_attained e : In e bounds_exns -> exists bs m,
  load p64 unpack_f k_static_ bs = Ok m /\ snd (update_boundaries A m) = Some e.
Proof.
  intros [<- | [<- | [<- | []]]].
  - file unknown_type. reflexivity.
  - file short_position. reflexivity.
  - file no_position. reflexivity.
Qed.
Lemma center_attained e : In e center_exns -> exists bs m,
  load p64 unpack_f k_static_ bs = Ok m /\ snd (get_lod_center_offset A m 0 0 true) = Raise e.
Proof.
  intros [<- | [<- | [<- | []]]].
  - file unknown_type. reflexivity.
  - file short_position. reflexivity.
  - file no_position. reflexivity.
Qed.
Lemma order_attained e : In e order_exns -> e <> EOverflow -> exists bs m order,
  load p64 unpack_f k_static_ bs = Ok m /\ snd (change_geoms_order m order) = Some e.
Proof.
  intros [<- | [<- | [<- | [<- | [<- | [<- | []]]]]]] Ho; [.. | contradiction ].
  - exists (file_of unknown_type), (fl unknown_type), [0; 1]. split; [ apply via_file; vm_compute; reflexivity | reflexivity ].
  - exists (file_of no_position), (fl no_position), [0; 2]. split; [ apply via_file; vm_compute; reflexivity | reflexivity ].
  - exists one_file, (fl one_mesh), [0; 1]. split; [ exact one_file_loads_fl | reflexivity ].
  - exists one_file, (fl one_mesh), [0]. split; [ exact one_file_loads_fl | reflexivity ].
  - exists (file_of no_attribs), (fl no_attribs), [0; 1]. split; [ apply via_file; vm_compute; reflexivity | reflexivity ].
Qed.
Lemma merge_attained e : In e merge_exns -> exists bs m bs2 m2,
  load p64 unpack_f k_static_ bs = Ok m /\ load p64 unpack_f k_static_ bs2 = Ok m2 /\ snd (merge m m2) = MergeRaised e.
Proof.
  intros [<- | [<- | [<- | [<- | []]]]].
  - exists (file_of unknown_type), (fl unknown_type), (file_of unknown_other), (fl unknown_other).
    split; [ apply via_file; vm_compute; reflexivity |]. split; [ apply via_file; vm_compute; reflexivity | reflexivity ].
  - exists (file_of no_index), (fl no_index), (file_of no_index), (fl no_index).
    split; [ apply via_file; vm_compute; reflexivity |]. split; [ apply via_file; vm_compute; reflexivity | reflexivity ].
  - exists one_file, (fl one_mesh), one_file, (fl one_mesh). split; [ exact one_file_loads_fl |]. split; [ exact one_file_loads_fl | reflexivity ].
  - destruct big_loads as (bs2 & H2). exists (file_of thin_small), (fl thin_small), bs2, (fl thin_big).
    split; [ apply small_loads |]. split; [ exact H2 | unfold fl; now rewrite thin_merge ].
Qed.
Theorem exns_attained e :
  (In e load_exns -> exists bs, load p64 unpack_f k_static_ bs = Raise e) /\
  (In e translate_exns -> exists bs m off, load p64 unpack_f k_static_ bs = Ok m /\ snd (translate A m off) = Some e) /\
  (In e rotate_exns -> exists bs m, load p64 unpack_f k_static_ bs = Ok m /\ snd (rotate A m [f_zero A; f_zero A; f_zero A]) = Some e) /\
  (In e bounds_exns -> exists bs m, load p64 unpack_f k_static_ bs = Ok m /\ snd (update_boundaries A m) = Some e) /\
  (In e center_exns -> exists bs m, load p64 unpack_f k_static_ bs = Ok m /\ snd (get_lod_center_offset A m 0 0 true) = Raise e) /\
  (In e order_exns -> e <> EOverflow -> exists bs m order, load p64 unpack_f k_static_ bs = Ok m /\ snd (change_geoms_order m order) = Some e) /\
  (In e merge_exns -> exists bs m bs2 m2, load p64 unpack_f k_static_ bs = Ok m /\ load p64 unpack_f k_static_ bs2 = Ok m2 /\
    snd (merge m m2) = MergeRaised e) /\
  (In e export_exns -> exists m, snd (export p64 pack_f m) = Some e).
Proof.
  split; [ apply load_attained |]. split; [ apply translate_attained |]. split; [ apply rotate_attained |]. split; [ apply bounds_attained |].
  split; [ apply center_attained |]. split; [ apply order_attained |]. split; [ apply merge_attained | apply export_attained ].
Qed.
End A.
