(** Properties C01-C10 and C13: the file codec with IEEE doubles. *)
From Coq Require Import ZArith List Bool Ascii Lia.
From Flocq Require Import IEEE754.Binary IEEE754.Bits.
From Verif Require Import PyBase Struct Mesh Spec SpecF CodecBase CodecRaw CodecParam CodecLocal
  Arith F64 F64Facts.
Import ListNotations.
Open Scope Z_scope.
Open Scope res_scope.

Section Load.
Context (p : plat).

Lemma load_raw_ok k bs m :
  load p raw k bs = Ok m ->
  raw_wf p m /\ m_kind m = k /\
  (forall l, index m = Tuple l -> export p raw m = (bs, None)) /\
  (forall v, index m = Scalar v ->
     exists pre post, export p raw m = (pre, Some EType) /\ bs = pre ++ post).
Proof.
  unfold load. intros H. apply bind_ok in H. destruct H as ([m' rest] & H1 & H2).
  destruct rest; [|discriminate]. injection H2 as ->.
  apply load_body_raw_ok in H1. destruct H1 as (W & K & T & S).
  split; [exact W|]. split; [exact K|]. split.
  - intros l Hl. destruct (T l Hl) as (cs & E & ->). rewrite app_nil_r. exact E.
  - intros v Hv. destruct (S v Hv) as (pre & post & E & -> & _). exists pre, (post ++ []). auto.
Qed.

Lemma load_inv {F} (u : Z -> F) k bs m :
  load p u k bs = Ok m -> exists mr, load p raw k bs = Ok mr /\ m = mesh_map u mr.
Proof.
  rewrite load_via. destruct (load p raw k bs) as [mr|e]; simpl; [|discriminate].
  intros [= <-]. eauto.
Qed.

Lemma wf_index_of {F} (m : mesh F) : wf p m -> indexnum m <> 1 -> exists l, index m = Tuple l.
Proof.
  intros W H. destruct W as (_ & _ & _ & _ & _ & _ & _ & _ & _ & _ & _ & (_ & WI) & _).
  destruct (index m); [|eauto]. destruct WI as (WI & _). contradiction.
Qed.
Lemma wf_index_one {F} (m : mesh F) : wf p m -> indexnum m = 1 -> exists v, index m = Scalar v.
Proof.
  intros W H. destruct W as (_ & _ & _ & _ & _ & _ & _ & _ & _ & _ & _ & (_ & WI) & _).
  destruct (index m); [eauto|]. destruct WI as (_ & WI & _). contradiction.
Qed.

(** ** C03 *)
Theorem loaded_wf {F} (u : Z -> F) k bs m :
  load p u k bs = Ok m -> wf p m /\ m_kind m = k.
Proof.
  intros H. apply load_inv in H. destruct H as (mr & H & ->).
  apply load_raw_ok in H. destruct H as ((W & _) & K & _). rewrite wf_map. auto.
Qed.

(** ** C01 *)
Theorem reexport_exact k bs m :
  load p unpack_f k bs = Ok m ->
  (forall mr, load p raw k bs = Ok mr -> mesh_all (fun b => ~ snan b) mr) ->
  indexnum m <> 1 ->
  export p pack_f m = (bs, None).
Proof.
  intros H HS HN. apply load_inv in H. destruct H as (mr & H & ->).
  specialize (HS _ H). apply load_raw_ok in H. destruct H as ((W & WB) & K & T & _).
  destruct (wf_index_of mr W HN) as (l & Hl).
  rewrite export_via, mesh_map_map.
  rewrite (mesh_map_ext (fun b => is_bits32 b /\ ~ snan b) _ (fun x => x)).
  - rewrite mesh_map_id. eauto.
  - intros x (Hx & Hx'). apply pack_unpack; assumption.
  - apply mesh_all_and; auto.
Qed.

(** ** C02 *)
Theorem export_reload m :
  wf p m -> indexnum m <> 1 ->
  exists bs, export p pack_f m = (bs, None) /\
    load p unpack_f (m_kind m) bs = Ok (mesh_map (fun x => unpack_f (pack_f x)) m).
Proof.
  intros W HN. destruct (wf_index_of m W HN) as (l & Hl).
  destruct (export_load_raw_ok p (m_kind m) (mesh_map pack_f m) l) as (cs & E & R).
  - split; [rewrite wf_map; exact W|]. rewrite mesh_all_map. apply mesh_all_true. apply pack_range.
  - reflexivity.
  - exact Hl.
  - exists cs. rewrite export_via. split; [exact E|].
    rewrite load_via. specialize (R []). rewrite app_nil_r in R. unfold load. rewrite R. simpl.
    rewrite mesh_map_map. reflexivity.
Qed.
End Load.

(** ** C04, C05 *)
Theorem trailing_rejected {F} p (u : Z -> F) k bs m extra :
  load p u k bs = Ok m -> extra <> [] -> load p u k (bs ++ extra) = Raise EAttribute.
Proof.
  unfold load. intros H Hx. apply bind_ok in H. destruct H as ([m' rest] & H1 & H2).
  destruct rest; [|discriminate].
  destruct (local_load_body p u k _ _ _ H1) as (used & -> & R & _).
  rewrite app_nil_r, R. simpl. destruct extra; [contradiction|reflexivity].
Qed.

Theorem truncated_rejected {F} p (u : Z -> F) k bs m n :
  load p u k bs = Ok m -> (n < length bs)%nat -> load p u k (firstn n bs) = Raise EStruct.
Proof.
  unfold load. intros H Hx. apply bind_ok in H. destruct H as ([m' rest] & H1 & H2).
  destruct rest; [|discriminate].
  destruct (local_load_body p u k _ _ _ H1) as (used & -> & _ & P).
  rewrite app_nil_r in *. rewrite P; [reflexivity|].
  exists (skipn n used). split; [|symmetry; apply firstn_skipn].
  intros E. apply (f_equal (@length byte)) in E. rewrite skipn_length in E. simpl in E. lia.
Qed.

(** ** C06 *)
Theorem load_injective p k bs1 bs2 m :
  load p unpack_f k bs1 = Ok m -> load p unpack_f k bs2 = Ok m ->
  (forall mr, load p raw k bs1 = Ok mr -> mesh_all (fun b => ~ snan b) mr) ->
  (forall mr, load p raw k bs2 = Ok mr -> mesh_all (fun b => ~ snan b) mr) ->
  indexnum m <> 1 -> bs1 = bs2.
Proof.
  intros H1 H2 S1 S2 HN.
  pose proof (reexport_exact p k bs1 m H1 S1 HN) as E1.
  pose proof (reexport_exact p k bs2 m H2 S2 HN) as E2. congruence.
Qed.

(** ** Sizes do not depend on the floats *)
Lemma sumZ_map {A B} (f : A -> B) g l : sumZ g (map f l) = sumZ (fun x => g (f x)) l.
Proof. induction l; simpl; congruence. Qed.
Lemma zlen_map {A B} (f : A -> B) l : zlen (map f l) = zlen l.
Proof. unfold zlen. rewrite map_length. reflexivity. Qed.

Lemma file_size_map {F G} (f : F -> G) L m : file_size L (mesh_map f m) = file_size L m.
Proof.
  assert (forall v b s, sumZ (fun g => sumZ (nodes_size L v b s) (lods g)) (map (geom_map f) (geoms m)) =
                        sumZ (fun g => sumZ (nodes_size L v b s) (lods g)) (geoms m)) as E1.
  { intros. rewrite sumZ_map. apply sumZ_ext. intros g _. cbn [geom_map lods]. rewrite sumZ_map.
    apply sumZ_ext. intros l _. unfold nodes_size. cbn [lod_map rigs nodes]. rewrite sumZ_map.
    cbn [rig_map bones]. rewrite zlen_map.
    rewrite (sumZ_ext (fun x => L + zlen (map (bone_map f) (bones x)) * (L + 64))
                      (fun x => L + zlen (bones x) * (L + 64))); [reflexivity|].
    intros r _. rewrite zlen_map. reflexivity. }
  assert (forall v s, sumZ (fun g => sumZ (mats_size L v s) (lods g)) (map (geom_map f) (geoms m)) =
                      sumZ (fun g => sumZ (mats_size L v s) (lods g)) (geoms m)) as E2.
  { intros. rewrite sumZ_map. apply sumZ_ext. intros g _. cbn [geom_map lods]. rewrite sumZ_map.
    apply sumZ_ext. intros l _. unfold mats_size. cbn [lod_map materials]. rewrite sumZ_map. reflexivity. }
  unfold file_size, head_size. cbn [mesh_map m_kind m_head geoms vertex_attributes vertices index].
  rewrite E1, E2, !zlen_map. reflexivity.
Qed.

Lemma head_size_map {F G} (f : F -> G) L m : head_size L (mesh_map f m) = head_size L m.
Proof. unfold head_size. cbn [mesh_map geoms vertex_attributes vertices]. rewrite !zlen_map. reflexivity. Qed.

(** ** C07 *)
Theorem reexport_stable p k bs m :
  load p unpack_f k bs = Ok m -> indexnum m <> 1 ->
  exists bs', export p pack_f m = (bs', None) /\ length bs' = length bs /\
    load p unpack_f k bs' = Ok m.
Proof.
  intros H HN. pose proof (loaded_wf p _ _ _ _ H) as (W & K).
  destruct (export_reload p m W HN) as (bs' & E & R). exists bs'. split; [exact E|].
  assert (mesh_map (fun x => unpack_f (pack_f x)) m = m) as EM.
  { apply load_inv in H. destruct H as (mr & H & ->). apply load_raw_ok in H.
    destruct H as ((_ & WB) & _). rewrite mesh_map_map. 
    apply (mesh_map_ext is_bits32); [|exact WB]. intros x Hx. apply unpack_pack_unpack. exact Hx. }
  rewrite EM, K in R. split; [|exact R].
  apply load_size in R. apply load_size in H. unfold zlen in *. lia.
Qed.

(** ** C10 *)
Lemma file_size_long {F} (m : mesh F) : file_size 4 m < file_size 8 m.
Proof.
  unfold file_size, head_size.
  assert (forall s, sumZ (fun g => sumZ (mats_size 4 (h_version (m_head m)) s) (lods g)) (geoms m) <=
                    sumZ (fun g => sumZ (mats_size 8 (h_version (m_head m)) s) (lods g)) (geoms m)) as E2.
  { intros. apply sumZ_le. intros g _. apply sumZ_le. intros l _. unfold mats_size.
    enough (sumZ (mat_size 4 (h_version (m_head m)) s) (materials l) <= sumZ (mat_size 8 (h_version (m_head m)) s) (materials l)) by lia.
    apply sumZ_le. intros mt _. unfold mat_size.
    assert (forall t, string_size 4 t <= string_size 8 t) as Es by (intros; unfold string_size; lia).
    assert (sumZ (string_size 4) (maps mt) <= sumZ (string_size 8) (maps mt)) by (apply sumZ_le; auto).
    pose proof (Es (fxfile mt)). pose proof (Es (technique mt)).
    destruct (negb s && _); destruct s; lia. }
  assert (forall b s, sumZ (fun g => sumZ (nodes_size 4 (h_version (m_head m)) b s) (lods g)) (geoms m) <=
                    sumZ (fun g => sumZ (nodes_size 8 (h_version (m_head m)) b s) (lods g)) (geoms m)) as E1.
  { intros. apply sumZ_le. intros g _. apply sumZ_le. intros l _. unfold nodes_size.
    assert (sumZ (fun r => 4 + zlen (bones r) * (4 + 64)) (rigs l) <= sumZ (fun r => 8 + zlen (bones r) * (8 + 64)) (rigs l)).
    { apply sumZ_le. intros r _. unfold zlen. lia. }
    destruct s; lia. }
  specialize (E1 (isBundledMesh (m_kind m)) (isSkinnedMesh (m_kind m))).
  specialize (E2 (isSkinnedMesh (m_kind m))).
  destruct (isSkinnedMesh (m_kind m)); unfold zlen; lia.
Qed.

Theorem not_portable {F G} p4 p8 (u : Z -> F) (u' : Z -> G) (f : F -> G) k bs m :
  long_sz p4 = Long4 -> long_sz p8 = Long8 ->
  load p4 u k bs = Ok m -> load p8 u' k bs <> Ok (mesh_map f m).
Proof.
  intros H4 H8 L4 L8. apply load_size in L4. apply load_size in L8. rewrite file_size_map in L8.
  unfold long_bytes in *. rewrite H4 in L4. rewrite H8 in L8.
  pose proof (file_size_long m). change (Z.of_nat 4) with 4 in *. change (Z.of_nat 8) with 8 in *. lia.
Qed.

(** ** C08 *)
(** A writer that can only raise struct.error and writes [n] bytes otherwise. *)
Definition plain (w : writer) (n : Z) : Prop :=
  (forall cs, w = (cs, None) -> zlen cs = n) /\ (forall cs e, w = (cs, Some e) -> e = EStruct).

Lemma plain_seq a b n k : plain a n -> plain b k -> plain (a ;; b) (n + k).
Proof.
  intros (A1 & A2) (B1 & B2). destruct a as [ca [e|]]; destruct b as [cb ob]; simpl; split.
  - discriminate.
  - intros cs e' [= <- <-]. eauto.
  - intros cs [= <- ->]. rewrite zlen_app, (A1 ca), (B1 cb) by reflexivity. reflexivity.
  - intros cs e' [= <- ->]. eauto.
Qed.
Lemma plain_all {A} (w : A -> writer) n l : (forall a, plain (w a) n) -> plain (wall w l) (n * zlen l).
Proof.
  intros H. induction l as [|a l IH]; simpl.
  - split; [intros cs [= <-]; unfold zlen; simpl; lia|discriminate].
  - replace (n * zlen (a :: l)) with (n + n * zlen l) by (unfold zlen; cbn [length]; lia).
    apply plain_seq; auto.
Qed.
Lemma plain_put cs n : zlen cs = n -> plain (wput cs) n.
Proof. intros H. split; [intros c [= <-]; exact H|discriminate]. Qed.
Lemma plain_raise n : plain (wraise EStruct) n.
Proof. split; [discriminate|intros ? ? [= <- <-]; reflexivity]. Qed.
Lemma zlen_enc p n v : zlen (enc_uint p n v) = Z.of_nat n.
Proof. unfold zlen. rewrite enc_uint_length. reflexivity. Qed.
Lemma plain_long p v : plain (write_long p v) (Z.of_nat (long_bytes p)).
Proof. unfold write_long. destruct (fits_long p v); [apply plain_put, zlen_enc|apply plain_raise]. Qed.
Lemma plain_short p v : plain (write_short p v) 2.
Proof. unfold write_short. destruct (fits_ushort v); [apply plain_put, zlen_enc|apply plain_raise]. Qed.
Lemma plain_byte p v : plain (write_byte p v) 1.
Proof. unfold write_byte. destruct (fits_schar v); [apply plain_put, zlen_enc|apply plain_raise]. Qed.

Lemma wseq_assoc a b c : ((a ;; b) ;; c) = (a ;; (b ;; c)).
Proof. destruct a as [ca [|]], b as [cb [|]], c as [cc oc]; simpl; rewrite ?app_assoc; reflexivity. Qed.

(** Export up to and including the index count. *)
Definition export_front {F} p (pk : F -> Z) (m : mesh F) : writer :=
  export_head p (m_head m) ;;
  write_byte p (m_u1 m) ;;
  write_long p (geomnum m) ;;
  wall (export_geom p) (geoms m) ;;
  write_long p (vertattribnum m) ;;
  wall (export_vertattrib p) (vertex_attributes m) ;;
  write_long p (vertformat m) ;;
  write_long p (vertstride m) ;;
  write_long p (vertnum m) ;;
  wall (write_float p pk) (vertices m) ;;
  write_long p (indexnum m).

Lemma plain_front {F} p (pk : F -> Z) m :
  plain (export_front p pk m) (head_size (Z.of_nat (long_bytes p)) m).
Proof.
  unfold export_front, export_head, head_size.
  evar (n : Z). replace (11 * _ + _ + _ + _ + _) with n; unfold n; clear n.
  - repeat (apply plain_seq; [try apply plain_long; try apply plain_byte;
      try (apply plain_all; intros; unfold export_geom, export_vertattrib; 
           repeat first [apply plain_long|apply plain_short|apply plain_put, zlen_enc|apply plain_seq])|]);
    try apply plain_long.
  - lia.
Qed.

Lemma export_front_eq {F} p (pk : F -> Z) m : exists tl,
  export p pk m = (export_front p pk m ;; (export_index p (index m) ;; tl)).
Proof.
  unfold export, export_front. eexists. rewrite !wseq_assoc. reflexivity.
Qed.

Theorem scalar_index_export {F} p (pk : F -> Z) (m : mesh F) v :
  index m = Scalar v ->
  exists pre e, export p pk m = (pre, Some e) /\
    (e = EStruct \/ e = EType /\ export_front p pk m = (pre, None)).
Proof.
  intros H. destruct (export_front_eq p pk m) as (tl & ->). rewrite H. cbn [export_index].
  destruct (plain_front p pk m) as (_ & PE).
  destruct (export_front p pk m) as [cs [e|]]; simpl.
  - exists cs, e. split; [reflexivity|]. left. eauto.
  - exists cs, EType. rewrite app_nil_r. auto.
Qed.

Lemma front_map {F} p (pk : F -> Z) m : export_front p pk m = export_front p raw (mesh_map pk m).
Proof.
  unfold export_front. cbn [mesh_map m_head m_u1 geomnum geoms vertattribnum vertex_attributes
    vertformat vertstride vertnum vertices indexnum].
  rewrite !wall_map. reflexivity.
Qed.

(** The same mesh without its index. *)
Definition set_index1 {F} (m : mesh F) : mesh F :=
  {| m_kind := m_kind m; m_head := m_head m; m_u1 := m_u1 m; geomnum := geomnum m;
     geoms := geoms m; vertattribnum := vertattribnum m;
     vertex_attributes := vertex_attributes m;
     vertformat := vertformat m; vertstride := vertstride m; vertnum := vertnum m;
     vertices := vertices m; indexnum := 0; index := Tuple []; m_u2 := m_u2 m |}.

Lemma wf_set_index1 {F} p (m : mesh F) : wf p m -> wf p (set_index1 m).
Proof.
  unfold wf. cbn [set_index1 m_kind m_head m_u1 geomnum geoms vertattribnum vertex_attributes
    vertformat vertstride vertnum vertices indexnum index m_u2].
  intros (H1 & H2 & H3 & H4 & H5 & H6 & H7 & H8 & H9 & H10 & H11 & H12 & H13).
  repeat (split; [assumption|]). split; [|assumption].
  split; [|cbn; repeat split; [discriminate|constructor]].
  unfold is_long, long_bytes. destruct (long_sz p); simpl; lia.
Qed.

Lemma long_ok p v : is_long p v -> exists cs, write_long p v = (cs, None).
Proof. intros H. unfold write_long. apply fits_long_iff in H. rewrite H. eexists. reflexivity. Qed.

(** The front fails for [m] only if it fails for [set_index1 m] (when the index count fits). *)
Lemma front_index1 {F} p (pk : F -> Z) (m : mesh F) : is_long p (indexnum m) -> forall cs e,
  export_front p pk m = (cs, Some e) -> exists cs' e', export_front p pk (set_index1 m) = (cs', Some e').
Proof.
  intros HL cs e. destruct (long_ok p _ HL) as (ci & Ei).
  unfold export_front. cbn [set_index1 m_kind m_head m_u1 geomnum geoms vertattribnum vertex_attributes
    vertformat vertstride vertnum vertices indexnum index m_u2]. rewrite Ei. rewrite <- !wseq_assoc.
  match goal with |- (?a ;; _) = _ -> _ => destruct a as [ca [ea|]] end; simpl.
  - intros _. eauto.
  - discriminate.
Qed.

Theorem single_index_export p k bs m :
  load p unpack_f k bs = Ok m -> indexnum m = 1 ->
  exists pre, export p pack_f m = (pre, Some EType) /\
    zlen pre = head_size (Z.of_nat (long_bytes p)) m /\ (length pre < length bs)%nat /\
    ((forall mr, load p raw k bs = Ok mr -> mesh_all (fun b => ~ snan b) mr) ->
     exists post, bs = pre ++ post).
Proof.
  intros H HN. pose proof (load_size _ _ _ _ _ H) as HZ.
  pose proof (loaded_wf p _ _ _ _ H) as (W & K).
  destruct (wf_index_one p m W HN) as (v & Hv).
  assert (exists pre, export p pack_f m = (pre, Some EType) /\ export_front p pack_f m = (pre, None)) as (pre & E & EF).
  { destruct (scalar_index_export p pack_f m v Hv) as (pre & e & E & He).
    destruct (export_reload p (set_index1 m) (wf_set_index1 p m W)) as (bs' & E' & _); [discriminate|].
    destruct (export_front_eq p pack_f (set_index1 m)) as (tl & E2). rewrite E' in E2.
    assert (is_long p (indexnum m)) as HL
      by (destruct W as (_ & _ & _ & _ & _ & _ & _ & _ & _ & _ & _ & (HL & _) & _); exact HL).
    pose proof (front_index1 p pack_f m HL) as FI.
    destruct He as [->|(-> & He)]; [|eauto]. exfalso.
    destruct (export_front_eq p pack_f m) as (tl' & E3). rewrite E in E3.
    assert (forall cs e, export_front p pack_f m <> (cs, Some e)) as NF.
    { intros cs e C. destruct (FI _ _ C) as (cs' & e' & C'). rewrite C' in E2. discriminate. }
    destruct (export_front p pack_f m) as [cs [e|]] eqn:EF; [eapply NF; reflexivity|].
    rewrite Hv in E3. cbn in E3. discriminate. }
  exists pre. split; [exact E|].
  destruct (plain_front p pack_f m) as (PS & _). specialize (PS _ EF). split; [exact PS|].
  split.
  - unfold file_size in HZ. rewrite Hv in HZ. cbn [seq_len] in HZ.
    assert (forall v b s, 0 <= sumZ (fun g => sumZ (nodes_size (Z.of_nat (long_bytes p)) v b s) (lods g)) (geoms m)) as N1.
    { intros. apply sumZ_nonneg. intros g. apply sumZ_nonneg. intros l. unfold nodes_size.
      assert (0 <= sumZ (fun r => Z.of_nat (long_bytes p) + zlen (bones r) * (Z.of_nat (long_bytes p) + 64)) (rigs l))
        by (apply sumZ_nonneg; intros; unfold zlen; lia).
      pose proof (zlen_nonneg (nodes l)). destruct (v0 <=? 6), s, b; lia. }
    assert (forall v s, 0 <= sumZ (fun g => sumZ (mats_size (Z.of_nat (long_bytes p)) v s) (lods g)) (geoms m)) as N2.
    { intros. apply sumZ_nonneg. intros g. apply sumZ_nonneg. intros l. unfold mats_size.
      assert (0 <= sumZ (mat_size (Z.of_nat (long_bytes p)) v0 s) (materials l)); [|lia].
      apply sumZ_nonneg. intros mt. unfold mat_size.
      assert (0 <= sumZ (string_size (Z.of_nat (long_bytes p))) (maps mt))
        by (apply sumZ_nonneg; intros; unfold string_size, zlen; lia).
      assert (forall t, 0 <= string_size (Z.of_nat (long_bytes p)) t) as Es
        by (intros; unfold string_size, zlen; lia).
      pose proof (Es (fxfile mt)). pose proof (Es (technique mt)).
      destruct (negb s && _); destruct s; lia. }
    specialize (N1 (h_version (m_head m)) (isBundledMesh (m_kind m)) (isSkinnedMesh (m_kind m))).
    specialize (N2 (h_version (m_head m)) (isSkinnedMesh (m_kind m))).
    unfold zlen in *. destruct (isSkinnedMesh (m_kind m)); lia.
  - intros HS. apply load_inv in H. destruct H as (mr & H & ->).
    specialize (HS _ H). apply load_raw_ok in H. destruct H as ((_ & WB) & _ & _ & S).
    destruct (S v Hv) as (pre' & post & E' & ->).
    rewrite export_via, mesh_map_map in E.
    rewrite (mesh_map_ext (fun b => is_bits32 b /\ ~ snan b) _ (fun x => x)) in E.
    + rewrite mesh_map_id, E' in E. injection E as ->. eauto.
    + intros x (Hx & Hx'). apply pack_unpack; assumption.
    + apply mesh_all_and; auto.
Qed.

(** ** C09 *)
Lemma wseq_inv a b cs : (a ;; b) = (cs, None) ->
  exists ca cb, a = (ca, None) /\ b = (cb, None) /\ cs = ca ++ cb.
Proof.
  destruct a as [ca [e|]]; simpl; [discriminate|]. destruct b as [cb ob]. intros [= <- ->]. eauto.
Qed.
Lemma wall_inv {A} (w : A -> writer) l cs : wall w l = (cs, None) ->
  Forall (fun a => exists c, w a = (c, None)) l.
Proof.
  revert cs. induction l as [|a l IH]; intros cs H; constructor.
  - apply wseq_inv in H. destruct H as (ca & cb & H & _). eauto.
  - apply wseq_inv in H. destruct H as (ca & cb & _ & H & _). eauto.
Qed.
Lemma long_inv p v cs : write_long p v = (cs, None) -> is_long p v.
Proof.
  unfold write_long. intros H. apply fits_long_iff. destruct (fits_long p v); [reflexivity|discriminate].
Qed.
Lemma short_inv p v cs : write_short p v = (cs, None) -> is_ushort v.
Proof.
  unfold write_short. intros H. apply fits_ushort_iff. destruct (fits_ushort v); [reflexivity|discriminate].
Qed.
Lemma byte_inv p v cs : write_byte p v = (cs, None) -> -128 <= v < 128.
Proof.
  unfold write_byte. intros H. apply fits_schar_iff. destruct (fits_schar v); [reflexivity|discriminate].
Qed.
Ltac winv H :=
  let c := fresh "c" in let d := fresh "d" in let W := fresh "W" in
  apply wseq_inv in H; destruct H as (c & d & W & H & ->).
(** Turn a successful write into a reader run. *)
Ltac run R Q W :=
  let c := fresh "c" in let W' := fresh "W" in let RR := fresh "RR" in
  destruct (R _ Q) as (c & W' & RR); rewrite W' in W; injection W as ->.

Lemma head_inv p h cs : export_head p h = (cs, None) -> wf_head p h.
Proof. unfold export_head. intros H. repeat winv H. repeat split; eapply long_inv; eauto. Qed.
Lemma vertattrib_inv p a cs : export_vertattrib p a = (cs, None) -> wf_vertattrib a.
Proof. unfold export_vertattrib. intros H. repeat winv H. repeat split; eapply short_inv; eauto. Qed.

Lemma geoms_run p (gs : list (geom Z)) cs : wall (export_geom p) gs = (cs, None) ->
  exists gs', forall rest, read_n (load_geom (F := Z) p) (length gs) (cs ++ rest) = Ok (gs', rest).
Proof.
  revert cs. induction gs as [|g gs IH]; intros cs H; cbn [wall] in H.
  - injection H as <-. exists []. reflexivity.
  - winv H. destruct (IH _ H) as (gs' & R). unfold export_geom in W.
    pose proof (long_inv _ _ _ W) as Q. run (rt2_long p) Q W.
    eexists. intros rest. cbn [length read_n]. rewrite <- app_assoc.
    unfold load_geom at 1. erewrite rbind_run; [|erewrite rbind_run by apply RR; reflexivity].
    erewrite rbind_run by apply R. reflexivity.
Qed.

Theorem single_vertex_number_rejected {F G} p (pk : F -> Z) (u : Z -> G) k m bs x t :
  export p pk m = (bs, None) ->
  length (geoms m) = Z.to_nat (geomnum m) ->
  length (vertex_attributes m) = Z.to_nat (vertattribnum m) ->
  data_num (vertstride m) (vertformat m) (vertnum m) = Ok 1 ->
  vertices m = x :: t ->
  load p u k bs = Raise EType.
Proof.
  intros H Hg Ha Hd Hv. rewrite load_via.
  enough (load p raw k bs = Raise EType) as -> by reflexivity.
  rewrite export_via in H. set (mz := mesh_map pk m) in *.
  assert (length (geoms mz) = Z.to_nat (geomnum mz)) as Hg' by (subst mz; cbn [mesh_map geoms geomnum]; rewrite map_length; exact Hg).
  assert (length (vertex_attributes mz) = Z.to_nat (vertattribnum mz)) as Ha' by exact Ha.
  assert (data_num (vertstride mz) (vertformat mz) (vertnum mz) = Ok 1) as Hd' by exact Hd.
  assert (vertices mz = pk x :: map pk t) as Hv' by (subst mz; cbn [mesh_map vertices]; rewrite Hv; reflexivity).
  clearbody mz. clear Hg Ha Hd Hv. 
  unfold export in H. do 14 winv H.
  pose proof (head_inv _ _ _ W) as Q. run (rt2_head p) Q W.
  pose proof (byte_inv _ _ _ W0) as Q0. run (rt2_byte p) Q0 W0.
  pose proof (long_inv _ _ _ W1) as Q1. run (rt2_long p) Q1 W1.
  destruct (geoms_run _ _ _ W2) as (gs' & RG0). rewrite Hg' in RG0.
  pose proof (long_inv _ _ _ W3) as Q3. run (rt2_long p) Q3 W3.
  assert (Forall wf_vertattrib (vertex_attributes mz)) as QA.
  { apply wall_inv in W4. eapply Forall_impl; [|exact W4]. intros a (ca & Ea).
    apply vertattrib_inv in Ea. exact Ea. }
  destruct (rt2_n _ _ _ _ (rt2_vertattrib p) _ (conj Ha' QA)) as (cva & WVA & RVA).
  rewrite WVA in W4. injection W4 as ->.
  pose proof (long_inv _ _ _ W5) as Q5. run (rt2_long p) Q5 W5.
  pose proof (long_inv _ _ _ W6) as Q6. run (rt2_long p) Q6 W6.
  pose proof (long_inv _ _ _ W7) as Q7. run (rt2_long p) Q7 W7.
  rewrite Hv' in W8. simpl in W8. apply (wseq_inv (write_float p raw (pk x))) in W8.
  destruct W8 as (cx & ct & EX & _ & ->). injection EX as <-.
  unfold load, load_body. rewrite <- !app_assoc.
  do 9 (erewrite rbind_run by eauto). unfold load_vertices, rlift. rewrite Hd'.
  unfold rbind at 1 2. cbn [bind]. unfold read_float.
  set (R := get vs <- _; _).
  match goal with |- context [R ?b] => replace (R b) with (@Raise (list Z * bytes) EType) end.
  - reflexivity.
  - unfold R, rbind at 1, read_items. cbn [Z.ltb Z.compare]. unfold rbind at 1 2.
    change (Z.of_nat 4 * 1) with 4. 
    rewrite (read_raw_run 4 (enc_float p raw (pk x))) by (unfold enc_float; rewrite enc_uint_length; reflexivity).
    reflexivity.
Qed.

(** ** C13 *)
Lemma wf_kind_size {F} p (m : mesh F) k' :
  isSkinnedMesh (m_kind m) = false -> isSkinnedMesh k' = true ->
  wf p m -> wf p (with_kind k' m) ->
  file_size (Z.of_nat (long_bytes p)) (with_kind k' m) < file_size (Z.of_nat (long_bytes p)) m.
Proof.
  intros K K' W W'. set (L := Z.of_nat (long_bytes p)).
  assert (0 < L) as HL by (pose proof (long_bytes_pos p); lia).
  unfold wf in W, W'. cbn [with_kind m_kind m_head geoms] in W'. rewrite K in W. rewrite K' in W'.
  destruct W as (_ & _ & _ & W & _). destruct W' as (_ & _ & _ & W' & _).
  unfold file_size, head_size.
  cbn [with_kind m_kind m_head geoms vertex_attributes vertices index]. rewrite K, K'.
  set (v := h_version (m_head m)) in *.
  rewrite (sumZ_ext (fun g => sumZ (nodes_size L v (isBundledMesh k') true) (lods g))
                    (fun g => sumZ (nodes_size L v (isBundledMesh (m_kind m)) false) (lods g))).
  2:{ intros g Hg. rewrite Forall_forall in W, W'. specialize (W _ Hg). specialize (W' _ Hg).
      apply sumZ_ext. intros l Hl. destruct W as (_ & W). destruct W' as (_ & W').
      rewrite Forall_forall in W, W'. specialize (W _ Hl). specialize (W' _ Hl).
      destruct W as (_ & _ & _ & (_ & R & _) & _). destruct W' as (_ & _ & _ & (_ & _ & _ & N) & _).
      unfold nodes_size. rewrite R, N. simpl. destruct (isBundledMesh (m_kind m)); reflexivity. }
  rewrite (sumZ_ext (fun g => sumZ (mats_size L v true) (lods g))
                    (fun g => sumZ (mats_size L v false) (lods g))).
  2:{ intros g Hg. rewrite Forall_forall in W, W'. specialize (W _ Hg). specialize (W' _ Hg).
      apply sumZ_ext. intros l Hl. destruct W as (_ & W). destruct W' as (_ & W').
      rewrite Forall_forall in W, W'. specialize (W _ Hl). specialize (W' _ Hl).
      destruct W as (_ & _ & _ & _ & _ & W). destruct W' as (_ & _ & _ & _ & _ & W').
      unfold mats_size. destruct (materials l) as [|mt ms]; [reflexivity|]. exfalso.
      inversion W as [|? ? (A & _)]; subst. inversion W' as [|? ? (A' & _)]; subst.
      destruct A as (a & A). cbn in A'. congruence. }
  lia.
Qed.

Theorem wrong_kind_skinned {F} p (u : Z -> F) k k' bs m :
  isSkinnedMesh k <> isSkinnedMesh k' ->
  load p u k bs = Ok m -> load p u k' bs <> Ok (with_kind k' m).
Proof.
  intros NK H H'.
  pose proof (loaded_wf p _ _ _ _ H) as (W & K). pose proof (loaded_wf p _ _ _ _ H') as (W' & _).
  pose proof (load_size _ _ _ _ _ H) as S. pose proof (load_size _ _ _ _ _ H') as S'.
  destruct (isSkinnedMesh k) eqn:E, (isSkinnedMesh k') eqn:E'; try congruence.
  - pose proof (wf_kind_size p (with_kind k' m) k) as D. cbn in D.
    replace (with_kind k (with_kind k' m)) with m in D by (subst k; destruct m; reflexivity).
    specialize (D E' E W' W). lia.
  - pose proof (wf_kind_size p m k') as D. rewrite K in D. specialize (D E E' W W'). lia.
Qed.

Lemma counts_nil p n {A} : is_long p n -> counts p n (@nil A) <-> n <= 0.
Proof. intros H. unfold counts. simpl. split; intros; [|split]; auto; lia. Qed.

Lemma wf_with_kind {F} p (m : mesh F) k' :
  isSkinnedMesh (m_kind m) = false -> isSkinnedMesh k' = false ->
  isBundledMesh (m_kind m) <> isBundledMesh k' -> wf p m ->
  (wf p (with_kind k' m) <-> no_nodes m).
Proof.
  intros K K' NB W. pose proof W as W0. unfold wf in *. 
  cbn [with_kind m_kind m_head m_u1 geomnum geoms vertattribnum vertex_attributes
    vertformat vertstride vertnum vertices indexnum index m_u2]. rewrite K in W. rewrite K'.
  destruct W as (H1 & H2 & H3 & H4 & H5 & H6 & H7 & H8 & H9 & H10 & H11 & H12 & H13).
  assert (Forall (wf_geom p (h_version (m_head m)) (isBundledMesh k') false) (geoms m) <-> no_nodes m) as E.
  2:{ split; [|tauto]. intros W. apply E. tauto. }
  clear - NB H4. unfold no_nodes. rewrite !Forall_forall in *. split.
  - intros W g Hg. specialize (W _ Hg). specialize (H4 _ Hg). destruct W as (_ & W). destruct H4 as (_ & H4).
    rewrite Forall_forall in *. intros l Hl. specialize (W _ Hl). specialize (H4 _ Hl).
    destruct W as (_ & _ & _ & (_ & _ & L & W) & _). destruct H4 as (_ & _ & _ & (_ & _ & _ & H4) & _).
    destruct (isBundledMesh (m_kind m)), (isBundledMesh k'); try congruence.
    + rewrite H4 in W. destruct W as (W & _). apply counts_nil in W; auto.
    + rewrite W in H4. destruct H4 as (H4 & _). apply counts_nil in H4; auto.
  - intros W g Hg. specialize (W _ Hg). specialize (H4 _ Hg). destruct H4 as (C & H4). split; [exact C|].
    rewrite Forall_forall in *. intros l Hl. specialize (W _ Hl). specialize (H4 _ Hl).
    destruct H4 as (A1 & A2 & A3 & (A4 & A5 & A6 & A7) & A8 & A9).
    repeat (split; [assumption|]). split; [|split; assumption].
    split; [assumption|]. split; [assumption|]. split; [assumption|].
    destruct (isBundledMesh (m_kind m)), (isBundledMesh k'); try congruence.
    + rewrite A7. split; [apply counts_nil; auto|constructor].
    + destruct A7 as ((_ & A7) & _). destruct (nodes l); [reflexivity|simpl in A7; lia].
Qed.

Lemma export_with_kind {F} p (pk : F -> Z) (m : mesh F) k' :
  isSkinnedMesh (m_kind m) = false -> isSkinnedMesh k' = false ->
  (isBundledMesh (m_kind m) = isBundledMesh k' \/
   Forall (fun g => Forall (fun l => nodes l = []) (lods g)) (geoms m)) ->
  export p pk (with_kind k' m) = export p pk m.
Proof.
  intros K K' HB. unfold export. cbn [with_kind m_kind m_head m_u1 geomnum geoms vertattribnum vertex_attributes
    vertformat vertstride vertnum vertices indexnum index m_u2]. rewrite K, K'.
  destruct HB as [->|HN]; [reflexivity|].
  assert (wall (fun g => wall (export_nodes p pk (h_version (m_head m)) (isBundledMesh k') false) (lods g)) (geoms m) =
          wall (fun g => wall (export_nodes p pk (h_version (m_head m)) (isBundledMesh (m_kind m)) false) (lods g)) (geoms m)) as ->;
    [|reflexivity].
  induction HN as [|g gs Hg Hgs IH]; simpl; [reflexivity|]. f_equal; [|exact IH].
  clear IH Hgs. induction Hg as [|l ls Hl Hls IH]; simpl; [reflexivity|]. f_equal; [|exact IH].
  unfold export_nodes. rewrite Hl. destruct (isBundledMesh k'), (isBundledMesh (m_kind m)); reflexivity.
Qed.

Lemma wf_nodes_nil {F} p (m : mesh F) : isSkinnedMesh (m_kind m) = false -> wf p m -> no_nodes m ->
  Forall (fun g => Forall (fun l => nodes l = []) (lods g)) (geoms m).
Proof.
  intros K W N. unfold wf in W. rewrite K in W. destruct W as (_ & _ & _ & W & _).
  unfold no_nodes in N. rewrite Forall_forall in *. intros g Hg. specialize (W _ Hg). specialize (N _ Hg).
  destruct W as (_ & W). rewrite Forall_forall in *. intros l Hl. specialize (W _ Hl). specialize (N _ Hl).
  destruct W as (_ & _ & _ & (_ & _ & _ & W) & _). destruct (isBundledMesh (m_kind m)); [exact W|].
  destruct W as ((_ & W) & _). cbv beta in N. destruct (nodes l); [reflexivity|simpl in W; lia].
Qed.

(** Exporting a non-skinned mesh under the extension of another non-skinned kind. *)
Theorem wrong_kind_nodes p m k' bs :
  isSkinnedMesh (m_kind m) = false -> isSkinnedMesh k' = false ->
  wf p m -> indexnum m <> 1 -> export p pack_f m = (bs, None) ->
  (load p unpack_f k' bs = Ok (with_kind k' (mesh_map (fun x => unpack_f (pack_f x)) m)) <->
   isBundledMesh (m_kind m) = isBundledMesh k' \/ no_nodes m).
Proof.
  intros K K' W HN E. split.
  - intros H. destruct (bool_dec (isBundledMesh (m_kind m)) (isBundledMesh k')) as [B|B]; [auto|right].
    apply loaded_wf in H. destruct H as (H & _).
    rewrite <- (wf_map (fun x => unpack_f (pack_f x)) p) in W.
    apply (wf_with_kind p (mesh_map (fun x => unpack_f (pack_f x)) m) k' K K' B W) in H.
    clear - H. unfold no_nodes in *. cbn [mesh_map geoms] in H. rewrite Forall_map in H.
    eapply Forall_impl; [|exact H]. intros g Hg. cbn [geom_map lods] in Hg. rewrite Forall_map in Hg. exact Hg.
  - intros HB.
    assert (wf p (with_kind k' m)) as W'.
    { destruct (bool_dec (isBundledMesh (m_kind m)) (isBundledMesh k')) as [B|B].
      - unfold wf in *. cbn [with_kind m_kind m_head m_u1 geomnum geoms vertattribnum vertex_attributes
          vertformat vertstride vertnum vertices indexnum index m_u2]. rewrite K, B in W. rewrite K'. exact W.
      - destruct HB as [HB|HB]; [contradiction|]. apply wf_with_kind; auto. }
    destruct (export_reload p (with_kind k' m) W' HN) as (bs' & E' & R).
    rewrite export_with_kind in E'; [|exact K|exact K'|].
    2:{ destruct HB as [HB|HB]; [left; exact HB|right]. eapply wf_nodes_nil; eauto. }
    assert (bs' = bs) as -> by congruence. exact R.
Qed.

(** ** C47 *)
Theorem loadable_iff p k bs :
  (exists m, load p unpack_f k bs = Ok m /\ indexnum m <> 1) <->
  (exists mr : mesh Z, wf p mr /\ mesh_all is_bits32 mr /\ m_kind mr = k /\ indexnum mr <> 1 /\
     export p raw mr = (bs, None)).
Proof.
  split.
  - intros (m & H & HN). apply load_inv in H. destruct H as (mr & H & ->).
    apply load_raw_ok in H. destruct H as ((W & WB) & K & T & _). exists mr.
    destruct (wf_index_of p mr W HN) as (l & Hl). eauto 10.
  - intros (mr & W & WB & K & HN & E). destruct (wf_index_of p mr W HN) as (l & Hl).
    destruct (export_load_raw_ok p k mr l (conj W WB) K Hl) as (cs & E' & R).
    assert (cs = bs) as -> by congruence. specialize (R []). rewrite app_nil_r in R.
    exists (mesh_map unpack_f mr). split; [|exact HN].
    rewrite load_via. unfold load. rewrite R. reflexivity.
Qed.

(** ** Final forms *)
Theorem export_reload_round p m :
  wf p m -> indexnum m <> 1 ->
  exists bs round, (forall x, rounds_to_single x (round x)) /\ (forall x, is_single x -> round x = x) /\
    export p pack_f m = (bs, None) /\
    load p unpack_f (m_kind m) bs = Ok (mesh_map round m).
Proof.
  intros W H. destruct (export_reload p m W H) as (bs & E & R). exists bs, (fun x => unpack_f (pack_f x)).
  split; [apply unpack_pack_rounds|]. split; [apply unpack_pack_single|]. auto.
Qed.

Theorem export_reload_exact p m :
  wf p m -> indexnum m <> 1 -> mesh_all is_single m ->
  exists bs, export p pack_f m = (bs, None) /\ load p unpack_f (m_kind m) bs = Ok m.
Proof.
  intros W H HS. destruct (export_reload p m W H) as (bs & E & R). exists bs. split; [exact E|].
  rewrite (mesh_map_ext is_single _ (fun x => x)), mesh_map_id in R by (auto using unpack_pack_single).
  exact R.
Qed.

Theorem scalar_never_exports p (m : mesh binary64) v :
  index m = Scalar v -> snd (export p pack_f m) = Some EStruct \/ snd (export p pack_f m) = Some EType.
Proof.
  intros H. destruct (scalar_index_export p pack_f m v H) as (pre & e & E & He). rewrite E. simpl.
  destruct He as [->|(-> & _)]; auto.
Qed.

Theorem loaded_not_one_vertex p k bs (m : mesh binary64) :
  load p unpack_f k bs = Ok m -> length (vertices m) <> 1%nat.
Proof. intros H. apply loaded_wf in H. destruct H as (H & _). red in H. tauto. Qed.

Theorem not_portable_same p4 p8 k bs (m : mesh binary64) :
  long_sz p4 = Long4 -> long_sz p8 = Long8 ->
  ~ (load p4 unpack_f k bs = Ok m /\ load p8 unpack_f k bs = Ok m).
Proof.
  intros H4 H8 (L4 & L8). apply (not_portable p4 p8 unpack_f unpack_f (fun x => x) k bs m H4 H8 L4).
  rewrite mesh_map_id. exact L8.
Qed.

Theorem loaded_file_size p k bs (m : mesh binary64) :
  load p unpack_f k bs = Ok m -> zlen bs = file_size (Z.of_nat (long_bytes p)) m.
Proof. apply load_size. Qed.
