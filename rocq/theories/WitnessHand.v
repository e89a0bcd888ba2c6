(** A mesh whose only wrong count is the number of geoms: it can be saved, and the file loads as another mesh. *)
From Coq Require Import ZArith List Bool Lia.
From Flocq Require Import IEEE754.Binary IEEE754.Bits.
From Verif Require Import PyBase Struct Mesh Arith F64 Spec SpecHand CodecBase CodecRaw CodecParam CodecFacts HandFacts Witness.
Import ListNotations.
Open Scope Z_scope.
Definition hand_mesh : mesh Z :=
  {| m_kind := k_static_; m_head := {| h_u1 := 0; h_version := 11; h_u3 := 0; h_u4 := 0; h_u5 := 0 |}; m_u1 := 0;
     geomnum := 1; geoms := [{| lodnum := 0; lods := [] |}];
     vertattribnum := 1; vertex_attributes := [{| flag := 0; offset := 0; vartype := 0; usage := 0 |}];
     vertformat := 4; vertstride := 8; vertnum := 0; vertices := []; indexnum := 0; index := Tuple []; m_u2 := 0 |}.
Lemma long_check z : fits_long p64 z = true -> is_long p64 z.
Proof. apply fits_long_iff. Qed.
Lemma hand_wf : wf p64 (fl hand_mesh).
Proof.
  unfold wf. cbn. unfold wf_head, counts, wf_geom, counts, wf_vertattrib, is_ushort, wf_index. cbn.
  repeat first [split | constructor | apply long_check; reflexivity | reflexivity | lia | discriminate].
Qed.
Theorem wrong_count : exists m bs m', wf p64 m /\ export p64 pack_f (set_geomnum m 0) = (bs, None) /\ load p64 unpack_f (m_kind m) bs = Ok m' /\
  geoms m <> [] /\ geoms m' = [] /\ index m = Tuple [] /\ index m' = Tuple (repeat 0 8).
Proof.
  exists (fl hand_mesh). eexists. eexists. split; [exact hand_wf|]. split; [vm_compute; reflexivity|]. split; [vm_compute; reflexivity|].
  split; [discriminate|]. repeat split; reflexivity.
Qed.
