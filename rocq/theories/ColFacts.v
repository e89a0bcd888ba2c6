(** Property C45: the collision mesh codec. *)
From Coq Require Import ZArith List Bool Ascii Lia.
From Flocq Require Import IEEE754.Binary IEEE754.Bits.
From Verif Require Import PyBase Struct Mesh Arith Obj Spec SpecF CodecBase CodecRaw CodecParam CodecLocal
  F64 F64Facts SpecObj PathFacts FileFacts ObjFacts SpecObj Col SpecCol.
Import ListNotations.
Open Scope Z_scope.
Open Scope res_scope.

(** ** Signed shorts and single floats *)
Lemma in_signed2_iff v : in_signed 2 v = true <-> is_sshort v.
Proof.
  unfold in_signed, is_sshort. rewrite andb_true_iff, Z.leb_le, Z.ltb_lt.
  change (2 ^ (8 * Z.of_nat 2 - 1)) with 32768. lia.
Qed.

Section Raw.
Context (p : plat).

Lemma rt1_sshort : rt1 (read_sshort p) (write_sshort p) is_sshort.
Proof.
  intros bs a rest H. unfold read_sshort in H. split_get H. ret H.
  apply read_raw_ok in G. destruct G as (_ & -> & Hlen). change (Z.to_nat 2) with 2%nat in Hlen.
  pose proof (dec_uint_range p a0) as Hr. rewrite Hlen in Hr.
  assert (is_sshort (to_signed 2 (dec_uint p a0))) as Hl by (apply (to_signed_range 2); auto; lia).
  split; [exact Hl|]. exists a0. split; [|reflexivity].
  unfold write_sshort. apply in_signed2_iff in Hl. rewrite Hl.
  rewrite of_to_signed by (auto; lia). rewrite <- Hlen, enc_dec. reflexivity.
Qed.

Lemma rt2_sshort : rt2 (read_sshort p) (write_sshort p) is_sshort.
Proof.
  intros a Ha. exists (enc_uint p 2 (of_signed 2 a)). split.
  - unfold write_sshort. pose proof Ha as Hb. apply in_signed2_iff in Hb. rewrite Hb. reflexivity.
  - intros rest. unfold read_sshort.
    erewrite rbind_run; [|apply read_raw_run; rewrite enc_uint_length; reflexivity].
    unfold rret. rewrite dec_enc by apply of_signed_range. rewrite to_of_signed; [reflexivity|lia|].
    exact Ha.
Qed.

Lemma rt1_float1 : rt1 (read_float1 p raw) (write_float p raw) is_bits32.
Proof.
  intros bs a rest H. unfold read_float1 in H. split_get H. ret H.
  apply read_raw_ok in G. destruct G as (_ & -> & Hlen). change (Z.to_nat 4) with 4%nat in Hlen.
  pose proof (dec_uint_range p a0) as Hr. rewrite Hlen in Hr. split; [exact Hr|].
  exists a0. split; [|reflexivity]. unfold write_float, wput, enc_float, raw. rewrite <- Hlen, enc_dec. reflexivity.
Qed.

Lemma rt2_float1 : rt2 (read_float1 p raw) (write_float p raw) is_bits32.
Proof.
  intros a Ha. eexists. split; [reflexivity|]. intros rest. unfold read_float1, enc_float, raw.
  erewrite rbind_run; [|apply read_raw_run; rewrite enc_uint_length; reflexivity].
  unfold rret. rewrite dec_enc by exact Ha. reflexivity.
Qed.

(** Writing, then reading something else. *)
Definition rtf {A B} (r : reader B) (w : A -> writer) (post : A -> B) (P : A -> Prop) : Prop :=
  forall a, P a -> exists cs, w a = (cs, None) /\ forall rest, r (cs ++ rest) = Ok (post a, rest).
Lemma rtf_n {A B} (r : reader B) (w : A -> writer) post P n :
  rtf r w post P -> rtf (read_n r n) (wall w) (map post) (fun l => length l = n /\ Forall P l).
Proof.
  intros Hr l (<- & Hf). induction Hf as [|a t Ha Ht (ds & Hw2 & Hr2)].
  - exists []. split; reflexivity.
  - destruct (Hr a Ha) as (cs & Hw & Hr1).
    exists (cs ++ ds). simpl. rewrite Hw, Hw2. split; [reflexivity|].
    intros rest. rewrite <- app_assoc.
    erewrite rbind_run by apply Hr1. erewrite rbind_run by apply Hr2. reflexivity.
Qed.

Ltac wr L Hyp :=
  let cs := fresh "cs" in let W := fresh "W" in let R := fresh "R" in
  destruct (L _ Hyp) as (cs & W & R).

(** ** Faces and the small structures *)
Definition raw_face (f : colface) : Prop :=
  wf_face f /\ cf_material f = 0 /\ exists n, cf_m f = Some n /\ is_sshort n.

Lemma rt1_face : rt1 (read_face p) (fun f => write_face p (restored f)) raw_face.
Proof.
  intros bs a rest H. unfold read_face in H. do 4 split_get H. ret H.
  rd G rt1_sshort. rd G0 rt1_sshort. rd G1 rt1_sshort. rd G2 rt1_sshort. split.
  - split; [|split; [reflexivity|]].
    + unfold wf_face. cbn [cf_v1 cf_v2 cf_v3 cf_material]. unfold is_sshort in *. lia.
    + exists a3. auto.
  - eexists. split; [unfold write_face; cbn [restored cf_v1 cf_v2 cf_v3 cf_material cf_m]; wdone|].
    rewrite <- !app_assoc. reflexivity.
Qed.

Lemma rtf_face : rtf (read_face p) (write_face p) reread wf_face.
Proof.
  intros f (H1 & H2 & H3 & H4).
  wr rt2_sshort H1. wr rt2_sshort H2. wr rt2_sshort H3. wr rt2_sshort H4.
  eexists. split; [unfold write_face; wdone|].
  intros rest. rewrite <- !app_assoc. unfold read_face.
  do 4 (erewrite rbind_run by eauto). reflexivity.
Qed.

Definition raw_ystruct (y : ystruct Z) : Prop := wf_ystruct p y /\ is_bits32 (y_u1 y).
Lemma rt1_ystruct : rt1 (read_ystruct p raw) (write_ystruct p raw) raw_ystruct.
Proof.
  intros bs a rest H. unfold read_ystruct in H. do 5 split_get H. ret H.
  rd G rt1_float1. rd G0 rt1_sshort. rd G1 rt1_sshort. rd G2 (rt1_long p). rd G3 (rt1_long p). split.
  - split; [red; cbn; auto|exact Q].
  - eexists. split; [unfold write_ystruct; cbn [y_u1 y_u2 y_u3 y_u4 y_u5]; wdone|].
    rewrite <- !app_assoc. reflexivity.
Qed.
Lemma rt2_ystruct : rt2 (read_ystruct p raw) (write_ystruct p raw) raw_ystruct.
Proof.
  intros [a b c d e] ((H1 & H2 & H3 & H4) & H0). cbn [y_u1 y_u2 y_u3 y_u4 y_u5] in *.
  wr rt2_float1 H0. wr rt2_sshort H1. wr rt2_sshort H2. wr (rt2_long p) H3. wr (rt2_long p) H4.
  eexists. split; [unfold write_ystruct; cbn [y_u1 y_u2 y_u3 y_u4 y_u5]; wdone|].
  intros rest. rewrite <- !app_assoc. unfold read_ystruct.
  do 5 (erewrite rbind_run by eauto). reflexivity.
Qed.

(** ** Lods *)
Definition raw_collod (v : Z) (l : collod Z colface) : Prop := wf_collod p v l /\ collod_all is_bits32 l.
Definition fresh_lod (l : collod Z colface) : Prop := Forall raw_face (cl_faces l).
Notation lod_restored := (collod_map (fun x : Z => x) restored).

Lemma to_coltype_ok z c : to_coltype z = Ok c -> z = c /\ 0 <= c <= 4.
Proof. unfold to_coltype. destruct ((0 <=? z) && (z <=? 4)) eqn:E; [|discriminate]. intros [= <-]. lia. Qed.
Lemma small_long z : 0 <= z <= 4 -> is_long p z.
Proof. unfold is_long, long_bytes. destruct (long_sz p); cbn; lia. Qed.

Lemma Forall_wf_raw_face l : Forall raw_face l -> Forall wf_face l.
Proof. apply Forall_impl. intros f (H & _). exact H. Qed.
Lemma vec3_map_id (v : vec3 Z) : vec3_map (fun x => x) v = v.
Proof. now destruct v as ((?, ?), ?). Qed.
Lemma map_vec3_id (l : list (vec3 Z)) : map (vec3_map (fun x => x)) l = l.
Proof. rewrite <- (map_id l) at 2. apply map_ext. apply vec3_map_id. Qed.
Lemma map_y_id (l : list (ystruct Z)) : map (ystruct_map (fun x => x)) l = l.
Proof. rewrite <- (map_id l) at 2. apply map_ext. now intros []. Qed.

Lemma rt1_coltype v : rt1 (if 9 <=? v then (get z <- read_long p; rlift (to_coltype z)) else rret 0)
  (fun z => if 9 <=? v then write_long p z else wnil) (fun z => if 9 <=? v then 0 <= z <= 4 else z = 0).
Proof.
  intros bs a rest H. destruct (9 <=? v).
  - split_get H. rd G (rt1_long p). unfold rlift in H. apply bind_ok in H. destruct H as (c & Hc & [= -> ->]).
    apply to_coltype_ok in Hc. destruct Hc as (-> & Hc). split; [exact Hc|]. eauto.
  - ret H. split; [reflexivity|]. exists []. auto.
Qed.
Lemma rt2_coltype v : rt2 (if 9 <=? v then (get z <- read_long p; rlift (to_coltype z)) else rret 0)
  (fun z => if 9 <=? v then write_long p z else wnil) (fun z => if 9 <=? v then 0 <= z <= 4 else z = 0).
Proof.
  intros z H. destruct (9 <=? v).
  - wr (rt2_long p) (small_long _ H). exists cs. split; [exact W|]. intros rest.
    erewrite rbind_run by apply R. unfold rlift, to_coltype.
    replace ((0 <=? z) && (z <=? 4)) with true by lia. reflexivity.
  - exists []. subst. auto.
Qed.
Lemma rt1_adata v : rt1
  (if 10 <=? v then (get anum <- read_long p; get adata <- read_n (read_long p) (Z.to_nat anum); rret (anum, adata)) else rret (0, []))
  (fun x => if 10 <=? v then write_long p (fst x) ;; wall (write_long p) (snd x) else wnil)
  (fun x => if 10 <=? v then counted0 p (fst x) (snd x) /\ Forall (is_long p) (snd x) else fst x = 0 /\ snd x = []).
Proof.
  intros bs a rest H. destruct (10 <=? v).
  - do 2 split_get H. ret H. rd G (rt1_long p). rd G0 (rt1_n _ _ _ (Z.to_nat a0) (rt1_long p)).
    destruct Q0 as (L & Q0). split; [cbn; unfold counted0; auto|]. eexists. split; [cbn [fst snd]; wdone|].
    rewrite <- !app_assoc. reflexivity.
  - ret H. split; [auto|]. exists []. auto.
Qed.
Lemma rt2_adata v : rt2
  (if 10 <=? v then (get anum <- read_long p; get adata <- read_n (read_long p) (Z.to_nat anum); rret (anum, adata)) else rret (0, []))
  (fun x => if 10 <=? v then write_long p (fst x) ;; wall (write_long p) (snd x) else wnil)
  (fun x => if 10 <=? v then counted0 p (fst x) (snd x) /\ Forall (is_long p) (snd x) else fst x = 0 /\ snd x = []).
Proof.
  intros [n l] H. cbn [fst snd] in *. destruct (10 <=? v).
  - destruct H as ((H1 & H2) & H3). wr (rt2_long p) H1. wr (rt2_n _ _ _ (Z.to_nat n) (rt2_long p)) (conj H2 H3).
    eexists. split; [wdone|]. intros rest. rewrite <- !app_assoc.
    do 2 (erewrite rbind_run by eauto). reflexivity.
  - destruct H as (-> & ->). exists []. auto.
Qed.

Lemma rt1_collod v : rt1 (read_collod p raw v) (fun l => write_collod p raw v (lod_restored l))
  (fun l => raw_collod v l /\ fresh_lod l).
Proof.
  intros bs a rest H. unfold read_collod in H. do 16 split_get H. ret H.
  rd G (rt1_coltype v).
  rd G0 (rt1_long p). rd G1 (rt1_n _ _ _ (Z.to_nat a1) rt1_face). destruct Q1 as (L1 & Q1).
  rd G2 (rt1_long p). rd G3 (rt1_n _ _ _ (Z.to_nat a3) (rt1_float3 p)). destruct Q3 as (L3 & Q3).
  rd G4 (rt1_n _ _ _ (Z.to_nat a3) rt1_sshort). destruct Q4 as (L4 & Q4).
  rd G5 (rt1_float3 p). rd G6 (rt1_float3 p). rd G7 (rt1_byte p). rd G8 (rt1_float3 p). rd G9 (rt1_float3 p).
  rd G10 (rt1_long p). rd G11 (rt1_n _ _ _ (Z.to_nat a11) rt1_ystruct). destruct Q11 as (L11 & Q11).
  rd G12 (rt1_long p). rd G13 (rt1_n _ _ _ (Z.to_nat a13) rt1_sshort). destruct Q13 as (L13 & Q13).
  rd G14 (rt1_adata v).
  unfold raw_ystruct in Q11. apply Forall_and in Q11. destruct Q11 as (Q11 & Q11b).
  split.
  - split; [split|exact Q1].
    + unfold wf_collod, counted0. cbn. pose proof (Forall_wf_raw_face _ Q1). intuition.
    + unfold collod_all. cbn [cl_vertices cl_min cl_max cl_bmin cl_bmax cl_ydata]. auto 10.
  - eexists. split.
    + unfold write_collod. cbn [collod_map cl_type cl_facenum cl_faces cl_vertnum cl_vertices cl_vertids
        cl_min cl_max cl_u7 cl_bmin cl_bmax cl_ynum cl_ydata cl_znum cl_zdata cl_anum cl_adata].
      rewrite map_vec3_id, map_y_id, !vec3_map_id, wall_map. wdone.
    + rewrite <- !app_assoc. reflexivity.
Qed.

Lemma rtf_collod v : rtf (read_collod p raw v) (write_collod p raw v) (collod_map (fun x => x) reread) (raw_collod v).
Proof.
  intros l ((H1 & (H2 & H3) & H4 & (H5 & H6) & H7 & H8 & H9 & (H10 & H11) & H12 & (H13 & H14) & H15 & H16) &
            B1 & B2 & B3 & B4 & B5 & B6).
  wr (rt2_coltype v) H1. wr (rt2_long p) H2.
  destruct (rtf_n _ _ _ _ (Z.to_nat (cl_facenum l)) rtf_face _ (conj H3 H4)) as (csf & Wf & Rf).
  wr (rt2_long p) H5. wr (rt2_n _ _ _ (Z.to_nat (cl_vertnum l)) (rt2_float3 p)) (conj H6 B1).
  wr (rt2_n _ _ _ (Z.to_nat (cl_vertnum l)) rt2_sshort) (conj H7 H8).
  wr (rt2_float3 p) B2. wr (rt2_float3 p) B3. wr (rt2_byte p) H9. wr (rt2_float3 p) B4. wr (rt2_float3 p) B5.
  wr (rt2_long p) H10.
  assert (Forall raw_ystruct (cl_ydata l)) as HY by (apply Forall_and; auto).
  wr (rt2_n _ _ _ (Z.to_nat (cl_ynum l)) rt2_ystruct) (conj H11 HY).
  wr (rt2_long p) H13. wr (rt2_n _ _ _ (Z.to_nat (cl_znum l)) rt2_sshort) (conj H14 H15).
  destruct (rt2_adata v (cl_anum l, cl_adata l) H16) as (csa & Wa & Ra). cbn [fst snd] in Wa.
  eexists. split; [unfold write_collod; wdone|].
  intros rest. rewrite <- !app_assoc. unfold read_collod.
  do 16 (erewrite rbind_run by eauto). unfold rret. cbn [fst snd]. unfold collod_map.
  rewrite map_vec3_id, map_y_id, !vec3_map_id. reflexivity.
Qed.

(** ** Subgeoms, geoms, meshes *)
Definition raw_col (m : colmesh Z colface) : Prop := wf_col p m /\ col_all is_bits32 m.
Definition raw_colsub v (s : colsub Z colface) := wf_colsub p v s /\ Forall (collod_all is_bits32) (cs_lods s).
Definition raw_colgeom v (g : colgeom Z colface) := wf_colgeom p v g /\ Forall (collod_all is_bits32) (geom_lods g).

Lemma Forall_flat_map {A B} (f : A -> list B) (P : B -> Prop) l :
  Forall P (flat_map f l) <-> Forall (fun a => Forall P (f a)) l.
Proof.
  induction l as [|a t IH]; cbn; [split; constructor|]. rewrite Forall_app, IH. split.
  - intros (? & ?). now constructor.
  - inversion 1; auto.
Qed.

Lemma rt1_colsub v : rt1 (read_colsub p raw v) (fun s => write_colsub p raw v (colsub_map (fun x => x) restored s))
  (fun s => raw_colsub v s /\ Forall fresh_lod (cs_lods s)).
Proof.
  intros bs a rest H. unfold read_colsub in H. do 2 split_get H. ret H.
  rd G (rt1_long p). rd G0 (rt1_n _ _ _ (Z.to_nat a0) (rt1_collod v)). destruct Q0 as (L & Q0).
  apply Forall_and in Q0. destruct Q0 as (Q0 & Q1). unfold raw_collod in Q0. apply Forall_and in Q0. destruct Q0 as (Q0 & Q2).
  split.
  - split; [split; [split; [split|]|]|]; auto.
  - eexists. split; [unfold write_colsub; cbn [colsub_map cs_lodnum cs_lods]; rewrite wall_map; wdone|].
    rewrite <- !app_assoc. reflexivity.
Qed.
Lemma rtf_colsub v : rtf (read_colsub p raw v) (write_colsub p raw v) (colsub_map (fun x => x) reread) (raw_colsub v).
Proof.
  intros s (((H1 & H2) & H3) & H4).
  assert (Forall (raw_collod v) (cs_lods s)) as H by (apply Forall_and; auto).
  wr (rt2_long p) H1. destruct (rtf_n _ _ _ _ (Z.to_nat (cs_lodnum s)) (rtf_collod v) _ (conj H2 H)) as (csf & Wf & Rf).
  eexists. split; [unfold write_colsub; wdone|]. intros rest. rewrite <- !app_assoc. unfold read_colsub.
  do 2 (erewrite rbind_run by eauto). reflexivity.
Qed.

Lemma rt1_colgeom v : rt1 (read_colgeom p raw v) (fun s => write_colgeom p raw v (colgeom_map (fun x => x) restored s))
  (fun s => raw_colgeom v s /\ Forall fresh_lod (geom_lods s)).
Proof.
  intros bs a rest H. unfold read_colgeom in H. do 2 split_get H. ret H.
  rd G (rt1_long p). rd G0 (rt1_n _ _ _ (Z.to_nat a0) (rt1_colsub v)). destruct Q0 as (L & Q0).
  apply Forall_and in Q0. destruct Q0 as (Q0 & Q1). unfold raw_colsub in Q0. apply Forall_and in Q0. destruct Q0 as (Q0 & Q2).
  split.
  - unfold raw_colgeom, geom_lods. cbn [cg_subs]. rewrite !Forall_flat_map.
    split; [split; [split; [split|]|]|]; auto.
  - eexists. split; [unfold write_colgeom; cbn [colgeom_map cg_subnum cg_subs]; rewrite wall_map; wdone|].
    rewrite <- !app_assoc. reflexivity.
Qed.
Lemma rtf_colgeom v : rtf (read_colgeom p raw v) (write_colgeom p raw v) (colgeom_map (fun x => x) reread) (raw_colgeom v).
Proof.
  intros s (((H1 & H2) & H3) & H4). unfold geom_lods in H4. apply Forall_flat_map in H4.
  assert (Forall (raw_colsub v) (cg_subs s)) as H by (apply Forall_and; auto).
  wr (rt2_long p) H1. destruct (rtf_n _ _ _ _ (Z.to_nat (cg_subnum s)) (rtf_colsub v) _ (conj H2 H)) as (csf & Wf & Rf).
  eexists. split; [unfold write_colgeom; wdone|]. intros rest. rewrite <- !app_assoc. unfold read_colgeom.
  do 2 (erewrite rbind_run by eauto). reflexivity.
Qed.

Lemma rt1_colmesh : rt1 (read_colmesh p raw) (fun m => write_colmesh p raw (faces_map restored m))
  (fun m => raw_col m /\ Forall fresh_lod (col_lods m)).
Proof.
  intros bs a rest H. unfold read_colmesh in H. do 4 split_get H. ret H.
  rd G (rt1_long p). rd G0 (rt1_long p). rd G1 (rt1_long p). rd G2 (rt1_n _ _ _ (Z.to_nat a2) (rt1_colgeom a1)).
  destruct Q2 as (L & Q2).
  apply Forall_and in Q2. destruct Q2 as (Q2 & Q3). unfold raw_colgeom in Q2. apply Forall_and in Q2. destruct Q2 as (Q2 & Q4).
  split.
  - unfold raw_col, col_all, col_lods. cbn [cm_geoms]. rewrite !Forall_flat_map.
    split; [split; [|auto]|auto]. split; [exact Q|]. split; [exact Q0|]. split; [split; [exact Q1|exact L]|exact Q2].
  - eexists. split; [unfold write_colmesh; cbn [faces_map colmesh_map cm_u1 cm_version cm_geomnum cm_geoms]; rewrite wall_map; wdone|].
    rewrite <- !app_assoc. reflexivity.
Qed.
Lemma rtf_colmesh : rtf (read_colmesh p raw) (write_colmesh p raw) (faces_map reread) raw_col.
Proof.
  intros s ((H1 & H2 & (H3 & H4) & H5) & H6). unfold col_all, col_lods in H6. apply Forall_flat_map in H6.
  assert (Forall (raw_colgeom (cm_version s)) (cm_geoms s)) as H by (apply Forall_and; auto).
  wr (rt2_long p) H1. wr (rt2_long p) H2. wr (rt2_long p) H3.
  destruct (rtf_n _ _ _ _ (Z.to_nat (cm_geomnum s)) (rtf_colgeom _) _ (conj H4 H)) as (csf & Wf & Rf).
  eexists. split; [unfold write_colmesh; wdone|]. intros rest. rewrite <- !app_assoc. unfold read_colmesh.
  do 4 (erewrite rbind_run by eauto). reflexivity.
Qed.
End Raw.

(** ** Floats are opaque *)
Section Via.
Context {F : Type} (p : plat) (u : Z -> F) (pk : F -> Z).
Ltac vs := apply via_bind_same; intros.

Lemma via_float1 : via u (read_float1 p raw) (read_float1 p u).
Proof. unfold read_float1. vs. now apply via_ret. Qed.
Lemma via_ystruct : via (ystruct_map u) (read_ystruct p raw) (read_ystruct p u).
Proof. unfold read_ystruct. eapply via_bind; [apply via_float1|intros]. do 4 vs. now apply via_ret. Qed.
Lemma via_collod v : via (collod_map u (fun x => x)) (read_collod p raw v) (read_collod p u v).
Proof.
  unfold read_collod. do 4 vs. eapply via_bind; [apply via_n, via_float3|intros]. vs.
  eapply via_bind; [apply via_float3|intros]. eapply via_bind; [apply via_float3|intros]. vs.
  eapply via_bind; [apply via_float3|intros]. eapply via_bind; [apply via_float3|intros]. vs.
  eapply via_bind; [apply via_n, via_ystruct|intros]. do 3 vs. apply via_ret.
  unfold collod_map. cbn. now rewrite map_id.
Qed.
Lemma via_colmesh : via (colmesh_map u (fun x => x)) (read_colmesh p raw) (read_colmesh p u).
Proof.
  unfold read_colmesh, read_colgeom, read_colsub. do 3 vs. eapply via_bind; [apply via_n|intros; now apply via_ret].
  vs. eapply via_bind; [apply via_n|intros; now apply via_ret].
  vs. eapply via_bind; [apply via_n, via_collod|intros; now apply via_ret].
Qed.
Lemma col_load_via bs : col_load p u bs = rmap (colmesh_map u (fun x => x)) (col_load p raw bs).
Proof. unfold col_load. rewrite via_colmesh. now destruct (read_colmesh p raw bs) as [[m rest]|e]. Qed.

Lemma write_float3_via v : write_float3 p pk v = write_float3 p raw (vec3_map pk v).
Proof. now destruct v as ((?, ?), ?). Qed.
Lemma write_collod_via v l : write_collod p pk v l = write_collod p raw v (collod_map pk (fun x => x) l).
Proof.
  unfold write_collod. cbn [collod_map cl_type cl_facenum cl_faces cl_vertnum cl_vertices cl_vertids
        cl_min cl_max cl_u7 cl_bmin cl_bmax cl_ynum cl_ydata cl_znum cl_zdata cl_anum cl_adata].
  rewrite map_id, !wall_map, !write_float3_via.
  replace (wall (write_float3 p pk) (cl_vertices l)) with (wall (fun a => write_float3 p raw (vec3_map pk a)) (cl_vertices l)); [reflexivity|].
  apply wall_ext'. intros. symmetry. apply write_float3_via.
Qed.
Lemma write_col_via m : write_colmesh p pk m = write_colmesh p raw (colmesh_map pk (fun x => x) m).
Proof.
  unfold write_colmesh. cbn [colmesh_map cm_u1 cm_version cm_geomnum cm_geoms]. rewrite wall_map. do 3 f_equal.
  apply wall_ext'. intros g. unfold write_colgeom. cbn [colgeom_map cg_subnum cg_subs]. rewrite wall_map. f_equal.
  apply wall_ext'. intros s. unfold write_colsub. cbn [colsub_map cs_lodnum cs_lods]. rewrite wall_map. f_equal.
  apply wall_ext'. apply write_collod_via.
Qed.

Lemma local_collod v : local (read_collod p u v).
Proof. unfold read_collod, read_face, read_ystruct, read_sshort, read_float1, read_float3, read_byte, read_long. loc. Qed.
Lemma local_colmesh : local (read_colmesh p u).
Proof. unfold read_colmesh, read_colgeom, read_colsub. pose proof local_collod. unfold read_long. loc. Qed.
End Via.

(** ** Maps *)
Section Maps.
Lemma collod_map_map {F G H R S T} (f : F -> G) (f' : G -> H) (g : R -> S) (g' : S -> T) l :
  collod_map f' g' (collod_map f g l) = collod_map (fun x => f' (f x)) (fun x => g' (g x)) l.
Proof.
  unfold collod_map. cbn. rewrite !map_map, !vec3_map_map. f_equal.
  - apply map_ext. intros. apply vec3_map_map.
Qed.
Lemma colmesh_map_map {F G H R S T} (f : F -> G) (f' : G -> H) (g : R -> S) (g' : S -> T) m :
  colmesh_map f' g' (colmesh_map f g m) = colmesh_map (fun x => f' (f x)) (fun x => g' (g x)) m.
Proof.
  unfold colmesh_map. cbn. f_equal. rewrite map_map. apply map_ext. intros a.
  unfold colgeom_map. cbn. f_equal. rewrite map_map. apply map_ext. intros b.
  unfold colsub_map. cbn. f_equal. rewrite map_map. apply map_ext. intros c. apply collod_map_map.
Qed.
Lemma col_lods_map {F G R S} (f : F -> G) (g : R -> S) m : col_lods (colmesh_map f g m) = map (collod_map f g) (col_lods m).
Proof.
  unfold col_lods. cbn. induction (cm_geoms m) as [|x t IH]; [reflexivity|]. cbn. rewrite map_app, IH. f_equal.
  unfold geom_lods. cbn. induction (cg_subs x) as [|y s IH2]; [reflexivity|]. cbn. now rewrite map_app, IH2.
Qed.
Lemma col_faces_map {F G R S} (f : F -> G) (g : R -> S) m : col_faces (colmesh_map f g m) = map g (col_faces m).
Proof.
  unfold col_faces. rewrite col_lods_map. induction (col_lods m) as [|x t IH]; [reflexivity|]. cbn. now rewrite map_app, IH.
Qed.
Lemma map_Forall_ext {A B} (P : A -> Prop) (f g : A -> B) l : (forall a, P a -> f a = g a) -> Forall P l -> map f l = map g l.
Proof. intros H. induction 1; cbn; f_equal; auto. Qed.
Lemma vec3_ext {F G} (P : F -> Prop) (f f' : F -> G) v : (forall x, P x -> f x = f' x) -> vec3_all P v -> vec3_map f v = vec3_map f' v.
Proof. intros H. destruct v as ((x, y), z). cbn. intros (? & ? & ?). now rewrite !H. Qed.
Lemma collod_map_ext {F G R S} (P : F -> Prop) (Q : R -> Prop) (f f' : F -> G) (g g' : R -> S) l :
  (forall x, P x -> f x = f' x) -> (forall x, Q x -> g x = g' x) -> collod_all P l -> Forall Q (cl_faces l) ->
  collod_map f g l = collod_map f' g' l.
Proof.
  intros Hf Hg (A1 & A2 & A3 & A4 & A5 & A6) HQ. unfold collod_map.
  rewrite (map_Forall_ext Q g g') by auto.
  rewrite (map_Forall_ext (vec3_all P) (vec3_map f) (vec3_map f')) by (intros; try eapply vec3_ext; eauto).
  rewrite (map_Forall_ext (fun y => P (y_u1 y)) (ystruct_map f) (ystruct_map f')) by (auto; intros y Hy; unfold ystruct_map; now rewrite Hf).
  now rewrite !(vec3_ext P f f') by auto.
Qed.
Lemma colmesh_map_ext {F G R S} (P : F -> Prop) (Q : R -> Prop) (f f' : F -> G) (g g' : R -> S) m :
  (forall x, P x -> f x = f' x) -> (forall x, Q x -> g x = g' x) -> col_all P m -> Forall Q (col_faces m) ->
  colmesh_map f g m = colmesh_map f' g' m.
Proof.
  intros Hf Hg HP HQ. unfold col_all, col_faces, col_lods, geom_lods in *.
  rewrite Forall_flat_map in HP. rewrite !Forall_flat_map in HQ.
  unfold colmesh_map. f_equal. apply (map_Forall_ext (fun g => (Forall (collod_all P) (flat_map cs_lods (cg_subs g))) /\
     Forall (fun l => Forall Q (cl_faces l)) (flat_map cs_lods (cg_subs g)))); [|apply Forall_and; split; assumption].
  intros x (H1 & H2). rewrite Forall_flat_map in H1. rewrite Forall_flat_map in H2. unfold colgeom_map. f_equal.
  apply (map_Forall_ext (fun s => Forall (collod_all P) (cs_lods s) /\ Forall (fun l => Forall Q (cl_faces l)) (cs_lods s)));
    [|apply Forall_and; split; assumption].
  intros s (H3 & H4). unfold colsub_map. f_equal.
  apply (map_Forall_ext (fun l => collod_all P l /\ Forall Q (cl_faces l))); [|apply Forall_and; split; assumption].
  intros l (H5 & H6). eapply collod_map_ext; eauto.
Qed.
Lemma collod_all_true {F R} (P : F -> Prop) (l : collod F R) : (forall x, P x) -> collod_all P l.
Proof.
  intros H. assert (forall v, vec3_all P v) as V by (intros ((x, y), z); cbn; auto).
  unfold collod_all. split; [apply Forall_forall; auto|]. do 4 (split; [apply V|]). apply Forall_forall. auto.
Qed.
Lemma col_all_true {F R} (P : F -> Prop) (m : colmesh F R) : (forall x, P x) -> col_all P m.
Proof. intros H. apply Forall_forall. intros. now apply collod_all_true. Qed.
Lemma collod_all_map {F G R S} (P : G -> Prop) (f : F -> G) (g : R -> S) l : collod_all P (collod_map f g l) <-> collod_all (fun x => P (f x)) l.
Proof.
  assert (forall v, vec3_all P (vec3_map f v) <-> vec3_all (fun x => P (f x)) v) as V by (now intros ((x, y), z)).
  unfold collod_all. cbn. rewrite !V. 
  assert (Forall (vec3_all P) (map (vec3_map f) (cl_vertices l)) <-> Forall (vec3_all (fun x => P (f x))) (cl_vertices l)) as ->.
  { rewrite Forall_map. split; apply Forall_impl; intros; now apply V. }
  assert (Forall (fun y => P (y_u1 y)) (map (ystruct_map f) (cl_ydata l)) <-> Forall (fun y => P (f (y_u1 y))) (cl_ydata l)) as -> by apply Forall_map.
  reflexivity.
Qed.
Lemma col_all_map {F G R S} (P : G -> Prop) (f : F -> G) (g : R -> S) m : col_all P (colmesh_map f g m) <-> col_all (fun x => P (f x)) m.
Proof.
  unfold col_all. rewrite col_lods_map, Forall_map. split; apply Forall_impl; intros l; apply collod_all_map.
Qed.
Lemma col_map_same {F R} (m : colmesh F R) : colmesh_map (fun x => x) (fun x => x) m = m.
Proof.
  assert (forall v : vec3 F, vec3_map (fun x => x) v = v) as V by (now intros ((x, y), z)).
  destruct m as [a b c d]. unfold colmesh_map. cbn. f_equal. rewrite <- (map_id d) at 2. apply map_ext.
  intros [n s]. unfold colgeom_map. cbn. f_equal. rewrite <- (map_id s) at 2. apply map_ext.
  intros [k l]. unfold colsub_map. cbn. f_equal. rewrite <- (map_id l) at 2. apply map_ext.
  intros []. unfold collod_map. cbn. rewrite map_id, !V. f_equal.
  - rewrite <- (map_id cl_vertices) at 2. now apply map_ext.
  - rewrite <- (map_id cl_ydata) at 2. apply map_ext. now intros [].
Qed.
Lemma counted0_map {A B} p (f : A -> B) n l : counted0 p n (map f l) <-> counted0 p n l.
Proof. unfold counted0. now rewrite map_length. Qed.
Lemma wf_col_map {F G} p (f : F -> G) (g : colface -> colface) m : (forall x, In x (col_faces m) -> wf_face x -> wf_face (g x)) ->
  wf_col p m -> wf_col p (colmesh_map f g m).
Proof.
  intros Hg (W1 & W2 & W3 & W4). unfold wf_col. cbn [colmesh_map cm_u1 cm_version cm_geomnum cm_geoms].
  rewrite counted0_map. split; [exact W1|]. split; [exact W2|]. split; [exact W3|].
  rewrite Forall_forall in *. intros y Hy. apply in_map_iff in Hy. destruct Hy as (ge & <- & Hge).
  destruct (W4 _ Hge) as (V1 & V2). split; cbn [colgeom_map cg_subnum cg_subs]; [now rewrite counted0_map|].
  rewrite Forall_forall in *. intros y Hy. apply in_map_iff in Hy. destruct Hy as (su & <- & Hsu).
  destruct (V2 _ Hsu) as (U1 & U2). split; cbn [colsub_map cs_lodnum cs_lods]; [now rewrite counted0_map|].
  rewrite Forall_forall in *. intros y Hy. apply in_map_iff in Hy. destruct Hy as (l & <- & Hl).
  destruct (U2 _ Hl) as (T1 & T2 & T3 & T4 & T5 & T6 & T7 & T8 & T9 & T10). unfold wf_collod. cbn.
  rewrite !counted0_map. split; [exact T1|]. split; [exact T2|]. split.
  { rewrite Forall_forall in *. intros y Hy. apply in_map_iff in Hy. destruct Hy as (x & <- & Hx). apply Hg; [|auto].
    unfold col_faces, col_lods, geom_lods. apply in_flat_map. exists l. split; [|exact Hx].
    apply in_flat_map. exists ge. split; [exact Hge|]. apply in_flat_map. eauto. }
  do 5 (split; [assumption|]). split; [|assumption]. rewrite Forall_map. exact T9.
Qed.
End Maps.

(** ** The properties *)
Section Main.
Context (p : plat).

Lemma col_load_inv {F} (u : Z -> F) bs m : col_load p u bs = Ok m ->
  exists mr, col_load p raw bs = Ok mr /\ m = colmesh_map u (fun x => x) mr.
Proof.
  rewrite col_load_via. destruct (col_load p raw bs) as [mr|e]; simpl; [|discriminate]. intros [= <-]. eauto.
Qed.
Lemma fresh_faces {R} (P : R -> Prop) (ls : list (collod Z R)) : Forall (fun l => Forall P (cl_faces l)) ls -> Forall P (flat_map cl_faces ls).
Proof. apply Forall_flat_map. Qed.
Lemma col_load_raw_ok bs m : col_load p raw bs = Ok m ->
  raw_col p m /\ Forall raw_face (col_faces m) /\
  exists used rest, bs = used ++ rest /\ write_colmesh p raw (faces_map restored m) = (used, None) /\
    (forall x, col_load p raw (used ++ x) = Ok m) /\ (forall pre, strict_prefix pre used -> col_load p raw pre = Raise EStruct).
Proof.
  unfold col_load. intros H. apply bind_ok in H. destruct H as ([m' rest] & H1 & [= <-]). cbn [fst].
  destruct (local_colmesh p raw _ _ _ H1) as (used & -> & L1 & L2).
  destruct (rt1_colmesh p _ _ _ H1) as ((Q1 & Q2) & cs & W & E). apply app_inv_tail in E. subst cs.
  split; [exact Q1|]. split; [apply fresh_faces; exact Q2|]. exists used, rest. split; [reflexivity|]. split; [exact W|].
  split; [intros x; now rewrite L1|intros pre Hp; now rewrite L2].
Qed.

Theorem col_loaded {F} (u : Z -> F) bs m : col_load p u bs = Ok m ->
  wf_col p m /\ Forall (fun f => exists n, is_sshort n /\ read_with n f) (col_faces m).
Proof.
  intros H. apply col_load_inv in H. destruct H as (mr & H & ->). apply col_load_raw_ok in H. destruct H as ((W & _) & Q & _).
  split; [now apply wf_col_map|]. rewrite col_faces_map, map_id. revert Q. apply Forall_impl.
  intros f (_ & H0 & n & Hn & Hs). exists n. easy.
Qed.

(** The loader looks only at a first part of the file, and any shorter part fails. *)
Theorem col_used {F} (u : Z -> F) bs m : col_load p u bs = Ok m ->
  exists used rest, bs = used ++ rest /\ (forall x, col_load p u (used ++ x) = Ok m) /\
    (forall pre, strict_prefix pre used -> col_load p u pre = Raise EStruct).
Proof.
  intros H. apply col_load_inv in H. destruct H as (mr & H & ->). apply col_load_raw_ok in H.
  destruct H as (_ & _ & used & rest & -> & _ & L1 & L2). exists used, rest. split; [reflexivity|].
  split; intros; rewrite col_load_via; [rewrite L1|rewrite L2 by assumption]; reflexivity.
Qed.

Lemma col_save_reload_f m : wf_col p m -> exists bs, write_colmesh p pack_f m = (bs, None) /\
  forall rest, col_load p unpack_f (bs ++ rest) = Ok (colmesh_map (fun x => unpack_f (pack_f x)) reread m).
Proof.
  intros W. destruct (rtf_colmesh p (colmesh_map pack_f (fun x => x) m)) as (bs & E & R).
  - split; [now apply wf_col_map|]. rewrite col_all_map. apply col_all_true. apply pack_range.
  - exists bs. rewrite write_col_via. split; [exact E|]. intros rest. rewrite col_load_via. unfold col_load. rewrite R.
    cbn [bind rmap fst]. unfold faces_map. now rewrite !colmesh_map_map.
Qed.
Theorem col_save_reload m : wf_col p m ->
  exists bs round, (forall x, rounds_to_single x (round x)) /\ (forall x, is_single x -> round x = x) /\
    write_colmesh p pack_f m = (bs, None) /\ forall rest, col_load p unpack_f (bs ++ rest) = Ok (colmesh_map round reread m).
Proof.
  intros W. destruct (col_save_reload_f m W) as (bs & H1 & H2). exists bs, (fun x => unpack_f (pack_f x)).
  split; [apply unpack_pack_rounds|]. split; [apply unpack_pack_single|]. auto.
Qed.

(** Lengths. *)
Definition alike (a b : writer) : Prop := length (fst a) = length (fst b) /\ snd a = snd b.
Lemma alike_refl a : alike a a. Proof. easy. Qed.
Lemma alike_seq a b c d : alike a c -> alike b d -> alike (a ;; b) (c ;; d).
Proof.
  destruct a as [xa oa], b as [xb ob], c as [xc oc], d as [xd od]. intros (H1 & H2) (H3 & H4). cbn in *. subst.
  destruct oc; split; cbn; rewrite ?app_length; auto.
Qed.
Lemma alike_all {A B} (w : A -> writer) (w' : B -> writer) (g : A -> B) l : Forall (fun a => alike (w a) (w' (g a))) l ->
  alike (wall w l) (wall w' (map g l)).
Proof. induction 1; cbn; [apply alike_refl|now apply alike_seq]. Qed.
Lemma alike_sshort v w : is_sshort v -> is_sshort w -> alike (write_sshort p v) (write_sshort p w).
Proof.
  intros H1 H2. apply in_signed2_iff in H1, H2. unfold write_sshort. rewrite H1, H2. split; cbn [wput fst snd]; [|reflexivity]. now rewrite !enc_uint_length.
Qed.
Lemma alike_face f : raw_face f -> alike (write_face p f) (write_face p (restored f)).
Proof.
  intros ((_ & _ & _ & H4) & H0 & n & Hn & Hs). unfold write_face. cbn [restored cf_v1 cf_v2 cf_v3 cf_material cf_m]. rewrite Hn.
  do 3 (apply alike_seq; [apply alike_refl|]). now apply alike_sshort.
Qed.
Lemma alike_mesh m : Forall raw_face (col_faces m) -> alike (write_colmesh p raw m) (write_colmesh p raw (faces_map restored m)).
Proof.
  intros H. unfold col_faces, col_lods, geom_lods in H. rewrite !Forall_flat_map in H.
  unfold write_colmesh. cbn [faces_map colmesh_map cm_u1 cm_version cm_geomnum cm_geoms].
  do 3 (apply alike_seq; [apply alike_refl|]). apply alike_all. revert H. apply Forall_impl. intros g H. rewrite Forall_flat_map in H.
  unfold write_colgeom. cbn [colgeom_map cg_subnum cg_subs]. apply alike_seq; [apply alike_refl|]. apply alike_all.
  revert H. apply Forall_impl. intros s H.
  unfold write_colsub. cbn [colsub_map cs_lodnum cs_lods]. apply alike_seq; [apply alike_refl|]. apply alike_all.
  revert H. apply Forall_impl. intros l H.
  unfold write_collod. cbn [collod_map cl_type cl_facenum cl_faces cl_vertnum cl_vertices cl_vertids
        cl_min cl_max cl_u7 cl_bmin cl_bmax cl_ynum cl_ydata cl_znum cl_zdata cl_anum cl_adata].
  rewrite map_vec3_id, map_y_id, !vec3_map_id. do 2 (apply alike_seq; [apply alike_refl|]). apply alike_seq; [|apply alike_refl].
  apply alike_all. revert H. apply Forall_impl. apply alike_face.
Qed.

Lemma restored_wf m : Forall raw_face (col_faces m) -> raw_col p m -> raw_col p (faces_map restored m).
Proof.
  intros HF (W & B). split; [|now apply col_all_map]. apply wf_col_map; [|exact W].
  intros x Hx (V1 & V2 & V3 & V4). rewrite Forall_forall in HF. destruct (HF x Hx) as (_ & _ & n & Hn & Hs).
  unfold wf_face. cbn. rewrite Hn. auto.
Qed.
Lemma no_material f n : cf_material f = 0 -> cf_m f = Some n -> (reread f = f <-> n = 0).
Proof. destruct f as [a b c d e]. cbn. intros -> ->. unfold reread. cbn. split; [now intros [= <-]|now intros ->]. Qed.

(** Loading a file and saving the mesh. *)
Theorem col_resave bs m : col_load p unpack_f bs = Ok m ->
  exists used rest out, bs = used ++ rest /\
    (forall x, col_load p unpack_f (used ++ x) = Ok m) /\ (forall pre, strict_prefix pre used -> col_load p unpack_f pre = Raise EStruct) /\
    write_colmesh p pack_f m = (out, None) /\ length out = length used /\
    (forall x, col_load p unpack_f (out ++ x) = Ok (faces_map reread m)) /\
    ((forall mr, col_load p (fun b => b) bs = Ok mr -> col_all (fun b => ~ snan b) mr) ->
     (out = used <-> Forall (fun f => cf_m f = Some 0) (col_faces m))).
Proof.
  intros H. pose proof (col_loaded _ _ _ H) as (W & _).
  destruct (col_save_reload_f m W) as (out & WO & RO). apply col_load_inv in H. destruct H as (mr & H & ->).
  pose proof H as H'. apply col_load_raw_ok in H'. destruct H' as ((Wr & Br) & FR & used & rest & Eb & WU & L1' & L2').
  assert (forall x, col_load p unpack_f (used ++ x) = Ok (colmesh_map unpack_f (fun x => x) mr)) as L1 by (intros; now rewrite col_load_via, L1').
  assert (forall pre, strict_prefix pre used -> col_load p unpack_f pre = Raise EStruct) as L2 by (intros; now rewrite col_load_via, L2').
  assert (forall T (g : colface -> T), colmesh_map (fun x => unpack_f (pack_f (unpack_f x))) g mr = colmesh_map unpack_f g mr) as STAB.
  { intros T g. apply (colmesh_map_ext is_bits32 (fun _ => True)); auto using unpack_pack_unpack. apply Forall_forall. auto. }
  exists used, rest, out. split; [exact Eb|]. split; [exact L1|]. split; [exact L2|]. split; [exact WO|]. split; [|split].
  - rewrite write_col_via, colmesh_map_map in WO.
    pose proof (alike_mesh (colmesh_map (fun x => pack_f (unpack_f x)) (fun x => x) mr)) as AL. rewrite col_faces_map, map_id in AL.
    specialize (AL FR). rewrite WO in AL. unfold faces_map in AL. rewrite colmesh_map_map in AL. destruct AL as (AL & AN). cbn [fst] in AL. rewrite AL.
    (* the size does not depend on the floats *)
    change used with (fst (used, @None exn)). rewrite <- WU. unfold faces_map.
    generalize restored. intros g. clear. unfold write_colmesh. cbn [colmesh_map cm_u1 cm_version cm_geomnum cm_geoms].
    match goal with |- length (fst ?a) = length (fst ?b) => enough (alike a b) as (X & _) by exact X end.
    assert (forall v w, alike (write_float3 p raw v) (write_float3 p raw w)) as A3.
    { intros ((?, ?), ?) ((?, ?), ?). split; [|reflexivity]. cbn. unfold enc_float. rewrite !app_length, !enc_uint_length. reflexivity. }
    assert (forall X Y (w : X -> writer) (w' : Y -> writer) A (h : A -> X) (h' : A -> Y) l, (forall a, alike (w (h a)) (w' (h' a))) ->
       alike (wall w (map h l)) (wall w' (map h' l))) as AA.
    { intros X Y w w' A h h' l HH. rewrite !wall_map. rewrite <- (map_id l) at 2. apply alike_all. apply Forall_forall. auto. }
    do 3 (apply alike_seq; [apply alike_refl|]). apply AA. intros ge.
    unfold write_colgeom. cbn [colgeom_map cg_subnum cg_subs]. apply alike_seq; [apply alike_refl|]. apply AA. intros s.
    unfold write_colsub. cbn [colsub_map cs_lodnum cs_lods]. apply alike_seq; [apply alike_refl|]. apply AA. intros l.
    unfold write_collod. cbn [collod_map cl_type cl_facenum cl_faces cl_vertnum cl_vertices cl_vertids
        cl_min cl_max cl_u7 cl_bmin cl_bmax cl_ynum cl_ydata cl_znum cl_zdata cl_anum cl_adata].
    repeat (apply alike_seq; [first [apply alike_refl|apply A3|apply AA; intros; apply A3
      |apply AA; intros; unfold write_ystruct; cbn [ystruct_map y_u1 y_u2 y_u3 y_u4 y_u5];
         apply alike_seq; [split; [cbn [write_float wput fst]; unfold enc_float; now rewrite !enc_uint_length|reflexivity]|apply alike_refl]]|]).
    apply alike_refl.
  - intros x. rewrite RO. unfold faces_map. rewrite !colmesh_map_map. f_equal. apply STAB.
  - intros SN. specialize (SN _ H). rewrite write_col_via, colmesh_map_map in WO.
    rewrite (colmesh_map_ext (fun b => is_bits32 b /\ ~ snan b) (fun _ => True) _ (fun x => x) _ (fun x => x)) in WO; auto.
    2:{ intros x (? & ?). now apply pack_unpack. }
    2:{ unfold col_all in *. clear - Br SN. rewrite Forall_forall in *. intros l Hl. specialize (Br l Hl). specialize (SN l Hl).
        assert (forall v, vec3_all is_bits32 v -> vec3_all (fun b => ~ snan b) v -> vec3_all (fun b => is_bits32 b /\ ~ snan b) v) as V3
          by (intros ((?, ?), ?); cbn; tauto).
        destruct Br as (B1 & B2 & B3 & B4 & B5 & B6), SN as (C1 & C2 & C3 & C4 & C5 & C6). unfold collod_all.
        split; [rewrite Forall_forall in *; auto|]. do 4 (split; [auto|]). rewrite Forall_forall in *; auto. }
    2:{ apply Forall_forall. auto. }
    rewrite col_map_same in WO. rewrite col_faces_map, map_id. split.
    + intros ->. destruct (rtf_colmesh p mr (conj Wr Br)) as (c1 & W1 & R1). rewrite WO in W1. injection W1 as <-.
      destruct (rtf_colmesh p _ (restored_wf mr FR (conj Wr Br))) as (c2 & W2 & R2). rewrite WU in W2. injection W2 as <-.
      specialize (R1 []). specialize (R2 []). rewrite R1 in R2.
      apply (f_equal (fun x => match x with Ok (y, _) => col_faces y | Raise _ => [] end)) in R2. cbn beta match in R2. unfold faces_map in R2. rewrite !col_faces_map, map_map in R2.
      clear - FR R2. induction (col_faces mr) as [|f t IH]; [constructor|]. cbn in R2. injection R2 as E R2. inversion FR as [|? ? (_ & F0 & n & Fn & _) FT]; subst.
      constructor; [|auto]. rewrite Fn in *. rewrite F0 in E. now rewrite E.
    + intros HZ. unfold faces_map in WU. rewrite (colmesh_map_ext (fun _ => True) (fun f => raw_face f /\ cf_m f = Some 0) _ (fun x => x) _ (fun x => x)) in WU; auto.
      2:{ intros [a b c d e] ((_ & F0 & _) & FZ). cbn in *. subst. reflexivity. }
      2:{ apply col_all_true. auto. }
      2:{ apply Forall_and. auto. }
      rewrite col_map_same in WU. congruence.
Qed.

(** Through the file system. *)
Lemma col_save_ok f (m : colmesh binary64 colface) fn f' : col_save p pack_f f m fn = (f', None) ->
  exists bs, write_colmesh p pack_f m = (bs, None) /\ open_rb f' fn = Ok bs.
Proof.
  unfold col_save. change (if exists_ f (dirname fn) then (f, None) else makedirs f (dirname fn)) with (prepared f fn).
  destruct (prepared f fn) as (f1, [e|]); [discriminate|]. destruct (open_wb f1 fn) as [f2|e] eqn:EO; [|discriminate].
  destruct (write_colmesh p pack_f m) as (bs, r). intros H. injection H as <- ->. exists bs. split; [reflexivity|].
  destruct (open_wb_ok _ _ _ EO) as (_ & N & NS & NR & _). apply open_rb_file; auto. rewrite lookup_in by exact NR. apply update_same.
Qed.
Theorem col_file_reload f m fn f' : wf_col p m -> col_save p pack_f f m fn = (f', None) ->
  exists round, (forall x, rounds_to_single x (round x)) /\ (forall x, is_single x -> round x = x) /\
    new_colmesh p unpack_f f' (Some fn) = Ok (colmesh_map round reread m).
Proof.
  intros W H. destruct (col_save_ok _ _ _ _ H) as (bs & E & O). destruct (col_save_reload m W) as (bs' & rd & R1 & R2 & E' & R).
  exists rd. split; [exact R1|]. split; [exact R2|]. replace bs' with bs in R by congruence. specialize (R []). rewrite app_nil_r in R.
  pose proof (open_rb_ok _ _ _ O) as (N & _). unfold new_colmesh. destruct fn; [easy|]. rewrite O. exact R.
Qed.
(** Opening a collision mesh and saving it under its name erases its face materials. *)
Theorem col_open_save f m fn : tree f -> In slash fn -> new_colmesh p unpack_f f (Some fn) = Ok m ->
  exists f', col_save p pack_f f m fn = (f', None) /\ new_colmesh p unpack_f f' (Some fn) = Ok (faces_map reread m).
Proof.
  intros T HS H. assert (exists file, open_rb f fn = Ok file /\ col_load p unpack_f file = Ok m) as (file & O & LD).
  { unfold new_colmesh in H. destruct fn; [easy|]. apply bind_ok in H. exact H. }
  pose proof (open_rb_ok _ _ _ O) as (N & NS & LF).
  assert (exists_ f (dirname fn) = true) as ED.
  { apply exists_spec. split.
    + intros X. unfold dirname in X. destruct (path_split fn) as (hd, tl) eqn:E. destruct (path_split_spec _ _ _ E) as (P1 & _ & _ & P4 & _). apply P1. rewrite <- (P4 X). exact HS.
    + destruct (lookup_above_cases _ _ (dirname_above fn)) as [X|(NR & X)]; [rewrite X; eauto|]. exists Dir.
      apply (tree_above f T (parent (resolve fn))); [|exact X]. eapply T; [exact NR|exact LF]. }
  destruct (col_resave _ _ LD) as (used & rest & out & _ & _ & _ & WO & _ & RO & _). specialize (RO []). rewrite app_nil_r in RO.
  assert (snd (resolve fn) <> []) as NR by (intros X; unfold lookup in LF; rewrite X in LF; discriminate).
  eexists. split; [unfold col_save; rewrite ED, (open_wb_file _ _ _ N NS LF), WO; reflexivity|].
  unfold new_colmesh. destruct fn as [|c t] eqn:E; [easy|]. rewrite <- E in *. clear E.
  erewrite open_rb_file; [|exact N|exact NS|rewrite lookup_in by exact NR; apply update_same]. exact RO.
Qed.
Theorem col_bare_name {F} (pk : F -> Z) f m fn : ~ In slash fn -> col_save p pk f m fn = (f, Some EFileNotFound).
Proof. intros H. unfold col_save, dirname. rewrite (path_split_bare _ H). reflexivity. Qed.
End Main.
