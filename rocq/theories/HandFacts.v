(** Facts about meshes whose attributes were assigned by hand. *)
From Coq Require Import ZArith List Bool Lia.
From Flocq Require Import IEEE754.Binary IEEE754.Bits.
From Verif Require Import PyBase Struct Mesh Arith F64 Spec SpecF SpecHand CodecBase CodecRaw CodecParam CodecFacts.
Import ListNotations.
Open Scope Z_scope.
Open Scope res_scope.

Definition fine (w : writer) : Prop := snd w = None.
Lemma fine_seq a b : fine (a ;; b) <-> fine a /\ fine b.
Proof. destruct a as [x [e|]], b as [y [e'|]]; unfold fine; unfold fine; cbn; intuition discriminate. Qed.
Lemma fine_nil : fine wnil <-> True.
Proof. unfold fine; cbn; tauto. Qed.
Lemma fine_all {A} (w : A -> writer) l : fine (wall w l) <-> Forall (fun a => fine (w a)) l.
Proof.
  induction l as [|a l IH]; cbn [wall]; [split; [constructor|reflexivity]|]. rewrite fine_seq, IH. split.
  - intros (H & H'). now constructor.
  - intros H. inversion H. auto.
Qed.
Lemma Forall_iff {A} (P Q : A -> Prop) l : (forall a, P a <-> Q a) -> Forall P l <-> Forall Q l.
Proof. intros H. rewrite !Forall_forall. split; intros K a I; apply H, K, I. Qed.

Section Writers.
Context {F : Type} (p : plat) (packf : F -> Z).
Lemma fine_long v : fine (write_long p v) <-> is_long p v.
Proof. unfold write_long. rewrite <- fits_long_iff. destruct (fits_long p v); unfold fine; cbn; intuition discriminate. Qed.
Lemma fine_short v : fine (write_short p v) <-> is_ushort v.
Proof. unfold write_short. rewrite <- fits_ushort_iff. destruct (fits_ushort v); unfold fine; cbn; intuition discriminate. Qed.
Lemma fine_byte v : fine (write_byte p v) <-> -128 <= v < 128.
Proof. unfold write_byte. rewrite <- fits_schar_iff. destruct (fits_schar v); unfold fine; cbn; intuition discriminate. Qed.
Lemma fine_long_opt v : fine (write_long_opt p v) <-> exists a, v = Some a /\ is_long p a.
Proof.
  destruct v as [z|]; cbn.
  - rewrite fine_long. split; [eauto|]. now intros (a & [= <-] & H).
  - split; [discriminate|]. now intros (a & H & _).
Qed.
Lemma fine_float3 v : fine (write_float3_opt p packf v) <-> v <> None.
Proof. destruct v as [((x & y) & z)|]; unfold fine; cbn; split; try discriminate; try reflexivity. now intros H; destruct H. Qed.
Lemma fine_string s : fine (write_string p s) <-> wf_string p s.
Proof. unfold write_string. rewrite fine_seq, fine_long. unfold wf_string, fine. cbn. tauto. Qed.
Lemma fine_row m r : fine (write_row4 p packf m r) <-> exists l, nth_error m r = Some l /\ length l = 4%nat.
Proof.
  unfold write_row4. destruct (nth_error m r) as [l|].
  - destruct (Nat.eqb_spec (length l) 4) as [E|E]; cbn; split; try discriminate; eauto; try reflexivity.
    intros (l' & [= <-] & H). contradiction.
  - cbn. split; [discriminate|]. now intros (l & H & _).
Qed.
Lemma fine_matrix m : fine (write_matrix4 p packf m) <-> writable_matrix m.
Proof.
  unfold write_matrix4. rewrite fine_all. unfold writable_matrix. cbn [seq]. split.
  - intros H. inversion H as [|? ? H0 H']; subst. inversion H' as [|? ? H1 H'']; subst. inversion H'' as [|? ? H2 H3']; subst. inversion H3' as [|? ? H3 _]; subst.
    apply fine_row in H0, H1, H2, H3. destruct H0 as (r0 & N0 & L0), H1 as (r1 & N1 & L1), H2 as (r2 & N2 & L2), H3 as (r3 & N3 & L3).
    destruct m as [|? [|? [|? [|? m]]]]; try discriminate. cbn in *. split; [lia|]. injection N0 as ->. injection N1 as ->. injection N2 as ->. injection N3 as ->.
    repeat constructor; auto.
  - intros (L & H). destruct m as [|r0 [|r1 [|r2 [|r3 m]]]]; try (cbn in L; lia). cbn [firstn] in H.
    inversion H as [|? ? H0 H']; subst. inversion H' as [|? ? H1 H'']; subst. inversion H'' as [|? ? H2 H3']; subst. inversion H3' as [|? ? H3 _]; subst.
    repeat constructor; apply fine_row; cbn; eauto.
Qed.
Lemma fine_if (b : bool) (x y : writer) : fine (if b then x else y) <-> (b = true -> fine x) /\ (b = false -> fine y).
Proof. destruct b; intuition discriminate. Qed.

Lemma fine_bone b : fine (export_bone p packf b) <-> writable_bone p b.
Proof. unfold export_bone. now rewrite fine_seq, fine_long, fine_matrix. Qed.
Lemma fine_rig r : fine (export_rig p packf r) <-> writable_rig p r.
Proof. unfold export_rig. rewrite fine_seq, fine_long, fine_all. now rewrite (Forall_iff _ _ _ fine_bone). Qed.
Lemma fine_mat v s m : fine (export_mat p packf v s m) <-> writable_mat p v s m.
Proof.
  unfold export_mat, writable_mat. rewrite !fine_seq, !fine_string, !fine_long, fine_all, !fine_if, !fine_seq, !fine_float3, fine_long_opt, fine_nil.
  rewrite (Forall_iff _ _ _ fine_string). rewrite andb_true_iff, negb_true_iff, Z.eqb_eq. tauto.
Qed.
Lemma fine_nodes_mats v b s l : fine (export_nodes p packf v b s l) /\ fine (export_materials p packf v s l) <-> writable_lod p v b s l.
Proof.
  unfold export_nodes, export_materials, writable_lod.
  rewrite !fine_seq, !fine_float3, !fine_if, !fine_seq, !fine_long, !fine_float3, !fine_if, !fine_nil, !fine_all.
  rewrite (Forall_iff _ _ _ fine_rig), (Forall_iff _ _ _ fine_matrix), (Forall_iff _ _ _ (fine_mat v s)). rewrite Z.leb_le. tauto.
Qed.
Lemma fine_attrib a : fine (export_vertattrib p a) <-> wf_vertattrib a.
Proof. unfold export_vertattrib. now rewrite !fine_seq, !fine_short. Qed.
Lemma fine_index i : fine (export_index p i) <-> exists l, i = Tuple l /\ Forall is_ushort l.
Proof.
  destruct i as [v|l]; cbn.
  - split; [discriminate|]. now intros (l & H & _).
  - rewrite fine_all, (Forall_iff _ _ _ fine_short). split; [eauto|]. now intros (l' & [= <-] & H).
Qed.
Lemma Forall_and_iff {A} (P Q : A -> Prop) l : Forall (fun a => P a /\ Q a) l <-> Forall P l /\ Forall Q l.
Proof. rewrite !Forall_forall. firstorder. Qed.

(** ** Saving succeeds exactly for these *)
Theorem writable_iff m : snd (export p packf m) = None <-> writable p m.
Proof.
  change (snd (export p packf m) = None) with (fine (export p packf m)). unfold export, writable.
  rewrite !fine_seq, fine_byte, !fine_long, !fine_all, fine_index, !fine_if, fine_nil, fine_long.
  assert (EG : Forall (fun a => fine (export_geom p a)) (geoms m) <-> Forall (fun a => is_long p (lodnum a)) (geoms m)) by (apply Forall_iff; intros; apply fine_long).
  assert (EV : Forall (fun a => fine (write_float p packf a)) (vertices m) <-> True) by (split; [auto|]; intros _; apply Forall_forall; reflexivity).
  set (v := h_version (m_head m)). set (b := isBundledMesh (m_kind m)). set (s := isSkinnedMesh (m_kind m)).
  assert (EL : Forall (fun g => is_long p (lodnum g) /\ Forall (writable_lod p v b s) (lods g)) (geoms m) <->
    Forall (fun a => is_long p (lodnum a)) (geoms m) /\
    Forall (fun a => fine (wall (export_nodes p packf v b s) (lods a))) (geoms m) /\ Forall (fun a => fine (wall (export_materials p packf v s) (lods a))) (geoms m)).
  { rewrite <- !Forall_and_iff. apply Forall_iff. intros g. rewrite !fine_all. rewrite <- Forall_and_iff. rewrite (Forall_iff _ _ _ (fine_nodes_mats v b s)). tauto. }
  rewrite EL, EG, EV, (Forall_iff _ _ _ fine_attrib).
  assert (EH : fine (export_head p (m_head m)) <-> wf_head p (m_head m)) by (unfold export_head; now rewrite !fine_seq, !fine_long).
  rewrite EH. tauto.
Qed.
End Writers.

(** ** The file holds the mesh exactly when it is consistent *)
Theorem reload_iff p m bs : export p pack_f m = (bs, None) ->
  (wf p m <-> exists round, (forall x, rounds_to_single x (round x)) /\ (forall x, is_single x -> round x = x) /\ load p unpack_f (m_kind m) bs = Ok (mesh_map round m)).
Proof.
  intros E. split.
  - intros W. destruct (Z.eq_dec (indexnum m) 1) as [N|N].
    + exfalso. destruct (wf_index_one p m W N) as (v & V). assert (H : snd (export p pack_f m) = None) by now rewrite E.
      apply writable_iff in H. destruct H as (_ & _ & _ & _ & _ & _ & _ & _ & _ & _ & (l & H & _) & _). congruence.
    + destruct (export_reload_round p m W N) as (bs' & rd & H1 & H2 & E' & L). replace bs' with bs in L by congruence. eauto.
  - intros (rd & _ & _ & L). apply loaded_wf in L. destruct L as (W & _). now apply wf_map in W.
Qed.
(** Whatever function is applied to the numbers: a mesh that is not consistent never comes back. *)
Theorem inconsistent_lost p m bs : export p pack_f m = (bs, None) -> ~ wf p m -> forall g m', load p unpack_f (m_kind m) bs = Ok m' -> mesh_map (F:=binary64) g m <> m'.
Proof. intros E N g m' L <-. apply loaded_wf in L. destruct L as (W & _). now apply wf_map in W. Qed.

(** ** Renaming *)
Section Rename.
Context {F : Type} (p : plat) (f : bytes -> bytes) (Hf : forall s, wf_string p s -> wf_string p (f s)).
Lemma rename_mat_wf v s (m : mat F) : wf_mat p v s m -> wf_mat p v s (rename_mat f m).
Proof.
  intros (H1 & H2 & H3 & H4 & (H5 & H5') & H6 & H7). unfold wf_mat. cbn. split; [exact H1|]. split; [exact H2|]. split; [auto|]. split; [auto|].
  split; [split; [exact H5|now rewrite map_length]|]. split; [|exact H7]. rewrite Forall_map. eapply Forall_impl; [|exact H6]. auto.
Qed.
Lemma rename_lod_wf v b s (l : lod F) : wf_lod p v b s l -> wf_lod p v b s (rename_lod f l).
Proof.
  intros (H1 & H2 & H3 & H4 & (H5 & H5') & H6). unfold wf_lod. cbn. split; [exact H1|]. split; [exact H2|]. split; [exact H3|]. split; [exact H4|].
  split; [split; [exact H5|now rewrite map_length]|]. rewrite Forall_map. eapply Forall_impl; [|exact H6]. intros a. apply rename_mat_wf.
Qed.
Lemma rename_wf (m : mesh F) : wf p m -> wf p (rename_names f m).
Proof.
  intros (H1 & H2 & (H3 & H3') & H4 & H5). unfold wf. cbn. split; [exact H1|]. split; [exact H2|]. split; [split; [exact H3|now rewrite map_length]|]. split; [|exact H5].
  rewrite Forall_map. eapply Forall_impl; [|exact H4]. intros g ((G1 & G2) & G3). split; [split; [exact G1|cbn; now rewrite map_length]|]. cbn.
  rewrite Forall_map. eapply Forall_impl; [|exact G3]. intros l. apply rename_lod_wf.
Qed.
End Rename.
Theorem rename_saved p f m : wf p m -> indexnum m <> 1 -> (forall s, wf_string p s -> wf_string p (f s)) ->
  exists bs round, (forall x, rounds_to_single x (round x)) /\ (forall x, is_single x -> round x = x) /\
    export p pack_f (rename_names f m) = (bs, None) /\ load p unpack_f (m_kind m) bs = Ok (mesh_map round (rename_names f m)).
Proof. intros W N H. exact (export_reload_round p _ (rename_wf p f H m W) N). Qed.
