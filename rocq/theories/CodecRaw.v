(** Round trips for the codec on raw 32-bit patterns (F := Z, conversion := identity). *)
From Coq Require Import ZArith NArith List Bool Ascii Lia.
From Verif Require Import PyBase Struct Mesh Spec CodecBase.
Import ListNotations.
Open Scope Z_scope.
Open Scope res_scope.

Definition raw (z : Z) : Z := z.

Ltac rd H L :=
  let cs := fresh "cs" in let W := fresh "W" in let Q := fresh "Q" in
  apply L in H; destruct H as (Q & cs & W & ->).
Ltac split_get H :=
  let a := fresh "a" in let mid := fresh "mid" in let H1 := fresh "G" in
  apply rbind_ok in H; destruct H as (a & mid & H1 & H).
Ltac ret H := apply rret_ok in H; destruct H as (<- & <-).
Ltac wdone :=
  repeat match goal with W : _ = (_, None) |- _ => rewrite W end; cbn [wseq]; reflexivity.

Section Raw.
Context (p : plat).

Lemma rt1_float3 : rt1 (read_float3 p raw) (write_float3 p raw) (vec3_all is_bits32).
Proof.
  intros bs a rest H. unfold read_float3 in H. split_get H.
  ret H. apply read_raw_ok in G. destruct G as (_ & -> & Hlen).
  change (Z.to_nat 12) with 12%nat in Hlen.
  assert (forall c : bytes, length c = 4%nat -> is_bits32 (raw (dec_uint p c))) as Hb.
  { intros c Hc. pose proof (dec_uint_range p c). rewrite Hc in H. exact H. }
  assert (length (firstn 4 a0) = 4%nat) as L1 by (rewrite firstn_length; lia).
  assert (length (firstn 4 (skipn 4 a0)) = 4%nat) as L2
    by (rewrite firstn_length, skipn_length; lia).
  assert (length (firstn 4 (skipn 8 a0)) = 4%nat) as L3
    by (rewrite firstn_length, skipn_length; lia).
  split; [simpl; auto|].
  exists a0. split; [|reflexivity].
  unfold write_float3, wput, enc_float, raw. f_equal.
  assert (forall c : bytes, length c = 4%nat -> enc_uint p 4 (dec_uint p c) = c) as He.
  { intros c Hc. rewrite <- Hc. apply enc_dec. }
  rewrite !He by assumption.
  assert (firstn 4 (skipn 8 a0) = skipn 8 a0) as -> by (apply firstn_all2; rewrite skipn_length; lia).
  change 8%nat with (4 + 4)%nat. rewrite <- skipn_skipn, !firstn_skipn. reflexivity.
Qed.

Lemma rt2_float3 : rt2 (read_float3 p raw) (write_float3 p raw) (vec3_all is_bits32).
Proof.
  intros [[x y] z] (Hx & Hy & Hz).
  eexists. split; [reflexivity|]. intros rest. unfold read_float3.
  erewrite rbind_run.
  2:{ apply read_raw_run. rewrite !app_length. unfold enc_float.
      rewrite !enc_uint_length. reflexivity. }
  unfold rret, enc_float, raw.
  assert (forall z, length (enc_uint p 4 z) = 4%nat) as L by (intros; apply enc_uint_length).
  assert (forall (a b : bytes), length a = 4%nat -> firstn 4 (a ++ b) = a) as Hf.
  { intros a b Ha. rewrite <- Ha, firstn_app, Nat.sub_diag, firstn_all. simpl. apply app_nil_r. }
  assert (forall (a b : bytes), length a = 4%nat -> skipn 4 (a ++ b) = b) as Hs.
  { intros a b Ha. rewrite <- Ha, skipn_app, Nat.sub_diag, skipn_all. reflexivity. }
  change 8%nat with (4 + 4)%nat. rewrite <- skipn_skipn, !Hs, !Hf by auto.
  rewrite (firstn_all2 (enc_uint p 4 z)) by (rewrite L; lia).
  rewrite !dec_enc by assumption. reflexivity.
Qed.

Definition raw_row (r : list Z) : Prop := length r = 4%nat /\ Forall is_bits32 r.

Lemma dec_bits32 (l : list bytes) : Forall (fun c => length c = 4%nat) l ->
  Forall is_bits32 (map (fun b => raw (dec_uint p b)) l).
Proof.
  induction 1 as [|c t Hc Ht IH]; simpl; constructor; auto.
  pose proof (dec_uint_range p c) as H. rewrite Hc in H. exact H.
Qed.

Lemma read_row4_ok bs a rest : read_row4 p raw bs = Ok (a, rest) ->
  raw_row a /\ bs = flat_map (enc_uint p 4) a ++ rest.
Proof.
  unfold read_row4. intros H. split_get H. ret H.
  apply read_raw_ok in G. destruct G as (_ & -> & Hlen).
  destruct (pieces_concat 4 4 a0) as (E1 & E2 & E3); [exact Hlen|].
  split.
  - split; [reflexivity|]. apply dec_bits32; auto.
  - f_equal. unfold raw. rewrite (flat_map_enc_dec p 4) by auto. auto.
Qed.

Lemma read_row4_run a rest : raw_row a ->
  read_row4 p raw (flat_map (enc_uint p 4) a ++ rest) = Ok (a, rest).
Proof.
  intros (Hl & Hf). unfold read_row4.
  assert (Forall (fun c : bytes => length c = 4%nat) (map (enc_uint p 4) a)) as Hm.
  { apply Forall_map. apply Forall_forall. intros; apply enc_uint_length. }
  assert (flat_map (enc_uint p 4) a = flat_map (fun x => x) (map (enc_uint p 4) a)) as E.
  { clear. induction a; simpl; congruence. }
  erewrite rbind_run.
  2:{ apply read_raw_run.
      assert (length (flat_map (enc_uint p 4) a) = (4 * length a)%nat) as ->.
      { clear. induction a; simpl; [reflexivity|]. rewrite app_length, enc_uint_length, IHa. lia. }
      rewrite Hl. reflexivity. }
  unfold rret. rewrite E. replace (pieces 4 4) with (pieces 4 (length (map (enc_uint p 4) a)))
    by (rewrite map_length, Hl; reflexivity).
  rewrite pieces_of_concat by auto. unfold raw. rewrite map_dec_enc; auto.
Qed.

Definition raw_matrix (m : matrix4 Z) : Prop := wf_matrix m /\ matrix_all is_bits32 m.

Lemma write_matrix4_ok r0 r1 r2 r3 : length r0 = 4%nat -> length r1 = 4%nat ->
  length r2 = 4%nat -> length r3 = 4%nat ->
  write_matrix4 p raw [r0; r1; r2; r3] =
  (flat_map (enc_uint p 4) r0 ++ flat_map (enc_uint p 4) r1 ++
   flat_map (enc_uint p 4) r2 ++ flat_map (enc_uint p 4) r3, None).
Proof.
  intros H0 H1 H2 H3. unfold write_matrix4. simpl. unfold write_row4. simpl.
  rewrite H0, H1, H2, H3. simpl. rewrite app_nil_r. reflexivity.
Qed.

Lemma rt1_matrix4 : rt1 (read_matrix4 p raw) (write_matrix4 p raw) raw_matrix.
Proof.
  intros bs a rest H. unfold read_matrix4 in H. do 4 split_get H. ret H.
  apply read_row4_ok in G. destruct G as ((L0 & F0) & ->).
  apply read_row4_ok in G0. destruct G0 as ((L1 & F1) & ->).
  apply read_row4_ok in G1. destruct G1 as ((L2 & F2) & ->).
  apply read_row4_ok in G2. destruct G2 as ((L3 & F3) & ->).
  split.
  - split; [split; [reflexivity|repeat (constructor; auto)]|repeat (constructor; auto)].
  - eexists. split; [apply write_matrix4_ok; auto|]. rewrite <- !app_assoc. reflexivity.
Qed.

Lemma rt2_matrix4 : rt2 (read_matrix4 p raw) (write_matrix4 p raw) raw_matrix.
Proof.
  intros m ((Hl & Hr) & Ha).
  destruct m as [|r0 [|r1 [|r2 [|r3 [|]]]]]; try discriminate Hl.
  inversion Hr as [|? ? L0 Hr1]; subst. inversion Hr1 as [|? ? L1 Hr2]; subst.
  inversion Hr2 as [|? ? L2 Hr3]; subst. inversion Hr3 as [|? ? L3 _]; subst.
  inversion Ha as [|? ? F0 Ha1]; subst. inversion Ha1 as [|? ? F1 Ha2]; subst.
  inversion Ha2 as [|? ? F2 Ha3]; subst. inversion Ha3 as [|? ? F3 _]; subst.
  eexists. split; [apply write_matrix4_ok; auto|].
  intros rest. rewrite <- !app_assoc. unfold read_matrix4.
  do 4 (erewrite rbind_run by (apply read_row4_run; split; auto)). reflexivity.
Qed.

(** ** Head, attributes, bones, rigs *)
Lemma rt1_head : rt1 (load_head p) (export_head p) (wf_head p).
Proof.
  intros bs a rest H. unfold load_head in H. do 5 split_get H. ret H.
  rd G (rt1_long p). rd G0 (rt1_long p). rd G1 (rt1_long p). rd G2 (rt1_long p). rd G3 (rt1_long p).
  split; [red; cbn; auto|].
  eexists. split; [unfold export_head; cbn; wdone|]. rewrite <- !app_assoc. reflexivity.
Qed.

Ltac wr L Hyp :=
  let cs := fresh "cs" in let W := fresh "W" in let R := fresh "R" in
  destruct (L _ Hyp) as (cs & W & R).
Ltac rdone :=
  repeat (match goal with R : forall rest, _ = Ok (_, rest) |- _ =>
            erewrite rbind_run by apply R end); try reflexivity.

Lemma rt2_head : rt2 (load_head p) (export_head p) (wf_head p).
Proof.
  intros [u1 v u3 u4 u5] (H1 & H2 & H3 & H4 & H5). cbn in *.
  wr (rt2_long p) H1. wr (rt2_long p) H2. wr (rt2_long p) H3. wr (rt2_long p) H4. wr (rt2_long p) H5.
  eexists. split; [unfold export_head; cbn; wdone|].
  intros rest. rewrite <- !app_assoc. unfold load_head.
  do 5 (erewrite rbind_run by eauto). reflexivity.
Qed.

Lemma rt1_vertattrib : rt1 (load_vertattrib p) (export_vertattrib p) wf_vertattrib.
Proof.
  intros bs a rest H. unfold load_vertattrib in H. do 4 split_get H. ret H.
  rd G (rt1_short1 p). rd G0 (rt1_short1 p). rd G1 (rt1_short1 p). rd G2 (rt1_short1 p).
  split; [red; cbn; auto|].
  eexists. split; [unfold export_vertattrib; cbn; wdone|]. rewrite <- !app_assoc. reflexivity.
Qed.

Lemma rt2_vertattrib : rt2 (load_vertattrib p) (export_vertattrib p) wf_vertattrib.
Proof.
  intros [f o v u] (H1 & H2 & H3 & H4). cbn in *.
  wr (rt2_short1 p) H1. wr (rt2_short1 p) H2. wr (rt2_short1 p) H3. wr (rt2_short1 p) H4.
  eexists. split; [unfold export_vertattrib; cbn; wdone|].
  intros rest. rewrite <- !app_assoc. unfold load_vertattrib.
  do 4 (erewrite rbind_run by eauto). reflexivity.
Qed.

Definition raw_bone (b : bone Z) : Prop := wf_bone p b /\ matrix_all is_bits32 (bone_matrix b).
Lemma rt1_bone : rt1 (load_bone p raw) (export_bone p raw) raw_bone.
Proof.
  intros bs a rest H. unfold load_bone in H. do 2 split_get H. ret H.
  rd G (rt1_long p). rd G0 rt1_matrix4. destruct Q0 as (Q0 & Q1).
  split; [split; [split|]; auto|].
  eexists. split; [unfold export_bone; cbn [bone_id bone_matrix]; wdone|]. rewrite <- !app_assoc. reflexivity.
Qed.
Lemma rt2_bone : rt2 (load_bone p raw) (export_bone p raw) raw_bone.
Proof.
  intros [i m] ((H1 & H2) & H3). cbn in *.
  wr (rt2_long p) H1. wr rt2_matrix4 (conj H2 H3).
  eexists. split; [unfold export_bone; cbn [bone_id bone_matrix]; wdone|].
  intros rest. rewrite <- !app_assoc. unfold load_bone.
  do 2 (erewrite rbind_run by eauto). reflexivity.
Qed.

Definition raw_rig (r : rig Z) : Prop :=
  wf_rig p r /\ Forall (fun b => matrix_all is_bits32 (bone_matrix b)) (bones r).

Lemma Forall_and {A} (P Q : A -> Prop) l : Forall (fun x => P x /\ Q x) l <-> Forall P l /\ Forall Q l.
Proof.
  split.
  - induction 1 as [|x t (Hp & Hq) Ht (IH1 & IH2)]; split; constructor; auto.
  - intros (H1 & H2). induction H1; inversion H2; subst; constructor; auto.
Qed.

Lemma Forall_iff {A} (P Q : A -> Prop) l : (forall x, P x <-> Q x) -> Forall P l <-> Forall Q l.
Proof.
  intros H. split; intros HF; eapply Forall_impl; try exact HF; intros; apply H; auto.
Qed.

Lemma rt1_rig : rt1 (load_rig p raw) (export_rig p raw) raw_rig.
Proof.
  intros bs a rest H. unfold load_rig in H. do 2 split_get H. ret H.
  rd G (rt1_long p). rd G0 (rt1_n _ _ _ (Z.to_nat a0) rt1_bone). destruct Q0 as (Q0 & Q1).
  apply Forall_and in Q1. destruct Q1 as (Q1 & Q2).
  split; [split; [split; [split|]|]; auto|].
  eexists. split; [unfold export_rig; cbn [bonenum bones]; wdone|]. rewrite <- !app_assoc. reflexivity.
Qed.
Lemma rt2_rig : rt2 (load_rig p raw) (export_rig p raw) raw_rig.
Proof.
  intros [n b] (((H1 & H1') & H2) & H3). cbn in *.
  wr (rt2_long p) H1.
  assert (Forall raw_bone b) as Hb by (apply Forall_and; auto).
  destruct (rt2_n _ _ _ (Z.to_nat n) rt2_bone b (conj H1' Hb)) as (ds & W2 & R2).
  eexists. split; [unfold export_rig; cbn [bonenum bones]; wdone|].
  intros rest. rewrite <- !app_assoc. unfold load_rig.
  erewrite rbind_run by eauto. erewrite rbind_run by eauto. reflexivity.
Qed.

(** ** Materials *)
Definition raw_mat (version : Z) (skinned : bool) (m : mat Z) : Prop :=
  wf_mat p version skinned m /\ mat_all is_bits32 m.

Lemma rt1_mat version skinned :
  rt1 (load_mat p raw version skinned) (export_mat p raw version skinned) (raw_mat version skinned).
Proof.
  intros bs a rest H. unfold load_mat in H. do 12 split_get H. ret H.
  assert (present (negb skinned) a0 /\ opt_all (is_long p) a0 /\
          exists cs, (if skinned then wnil else write_long_opt p a0) = (cs, None) /\ bs = cs ++ mid) as HA.
  { destruct skinned.
    - ret G. simpl. split; [reflexivity|]. split; [auto|]. exists []. split; reflexivity.
    - split_get G. ret G. rd G11 (rt1_long p). simpl.
      split; [eauto|]. split; [auto|]. eexists. split; [eauto|reflexivity]. }
  destruct HA as (A1 & A2 & ca & WA & ->).
  rd G0 (rt1_string p). rd G1 (rt1_string p). rd G2 (rt1_long p).
  rd G3 (rt1_n _ _ _ (Z.to_nat a3) (rt1_string p)).
  rd G4 (rt1_long p). rd G5 (rt1_long p). rd G6 (rt1_long p). rd G7 (rt1_long p).
  rd G8 (rt1_long p). rd G9 (rt1_long p). destruct Q2 as (Q2 & Q2').
  assert (present (negb skinned && (version =? 11)) (fst a11) /\
          present (negb skinned && (version =? 11)) (snd a11) /\
          opt_all (vec3_all is_bits32) (fst a11) /\ opt_all (vec3_all is_bits32) (snd a11) /\
          exists cs, (if negb skinned && (version =? 11)
             then write_float3_opt p raw (fst a11) ;; write_float3_opt p raw (snd a11) else wnil)
               = (cs, None) /\ mid9 = cs ++ mid10) as HB.
  { destruct (negb skinned && (version =? 11)).
    - do 2 split_get G10. ret G10. rd G0 rt1_float3. rd G1 rt1_float3.
      simpl fst. simpl snd. simpl present. simpl opt_all. do 4 (split; [eauto|]).
      eexists. split; [cbn [write_float3_opt]; wdone|]. rewrite <- app_assoc. reflexivity.
    - ret G10. simpl. do 4 (split; [auto|]). exists []. split; reflexivity. }
  destruct HB as (B1 & B2 & B3 & B4 & cb & WB & ->).
  split.
  - split; [|split; cbn; auto]. red; cbn -[is_long]. unfold counts. tauto.
  - eexists. split.
    + unfold export_mat. cbn [alphamode fxfile technique mapnum maps vstart istart inum vnum mat_u4 mat_u5 mmin mmax].
      rewrite WA, WB. wdone.
    + rewrite <- !app_assoc. reflexivity.
Qed.

Lemma rt2_mat version skinned :
  rt2 (load_mat p raw version skinned) (export_mat p raw version skinned) (raw_mat version skinned).
Proof.
  intros m (Hw & Ha). destruct m as [am fx te mn ms vs is inn vn u4 u5 mm mx].
  red in Hw. cbn -[is_long] in Hw.
  destruct Hw as (A1 & A2 & H1 & H2 & (H3 & H3') & H4 & H5 & H6 & H7 & H8 & H9 & H10 & B1 & B2).
  destruct Ha as (B3 & B4). cbn in B3, B4.
  wr (rt2_string p) H1. wr (rt2_string p) H2. wr (rt2_long p) H3.
  destruct (rt2_n _ _ _ (Z.to_nat mn) (rt2_string p) ms (conj H3' H4)) as (ds & W2 & R2).
  wr (rt2_long p) H5. wr (rt2_long p) H6. wr (rt2_long p) H7. wr (rt2_long p) H8.
  wr (rt2_long p) H9. wr (rt2_long p) H10.
  assert (exists cs, (if skinned then wnil else write_long_opt p am) = (cs, None) /\
    forall rest, (if skinned then rret None else get a <- read_long p; rret (Some a)) (cs ++ rest) = Ok (am, rest)) as HA.
  { destruct skinned; simpl in A1.
    - subst am. exists []. split; reflexivity.
    - destruct A1 as (z & ->). simpl in A2. wr (rt2_long p) A2. exists cs8. split; [exact W9|].
      intros rest. erewrite rbind_run by eauto. reflexivity. }
  destruct HA as (ca & WA & RA).
  assert (exists cs, (if negb skinned && (version =? 11)
             then write_float3_opt p raw mm ;; write_float3_opt p raw mx else wnil) = (cs, None) /\
    forall rest, (if negb skinned && (version =? 11)
             then get a <- read_float3 p raw; get b <- read_float3 p raw; rret (Some a, Some b)
             else rret (None, None)) (cs ++ rest) = Ok ((mm, mx), rest)) as HB.
  { destruct (negb skinned && (version =? 11)); simpl in B1, B2.
    - destruct B1 as (a & ->). destruct B2 as (b & ->). simpl in B3, B4.
      wr rt2_float3 B3. wr rt2_float3 B4.
      eexists. split; [cbn [write_float3_opt]; wdone|].
      intros rest. rewrite <- app_assoc.
      erewrite rbind_run by eauto. erewrite rbind_run by eauto. reflexivity.
    - subst. exists []. split; reflexivity. }
  destruct HB as (cb & WB & RB).
  eexists. split.
  - unfold export_mat. cbn [alphamode fxfile technique mapnum maps vstart istart inum vnum mat_u4 mat_u5 mmin mmax].
    rewrite WA, WB. wdone.
  - intros rest. rewrite <- !app_assoc. unfold load_mat.
    do 12 (erewrite rbind_run by eauto). reflexivity.
Qed.

(** ** Lods *)
Definition raw_mats (version : Z) (skinned : bool) (l : lod Z) : Prop :=
  counts p (matnum l) (materials l) /\ Forall (raw_mat version skinned) (materials l).

Definition raw_nodes (version : Z) (bundled skinned : bool) (l : lod Z) : Prop :=
  present true (lod_min l) /\ present true (lod_max l) /\ present (version <=? 6) (pivot l) /\
  opt_all (vec3_all is_bits32) (lod_min l) /\ opt_all (vec3_all is_bits32) (lod_max l) /\
  opt_all (vec3_all is_bits32) (pivot l) /\
  (if skinned then
     counts p (rignum l) (rigs l) /\ Forall raw_rig (rigs l) /\ nodenum l = 0 /\ nodes l = []
   else
     rignum l = 0 /\ rigs l = [] /\ is_long p (nodenum l) /\
     (if bundled then nodes l = [] else counts p (nodenum l) (nodes l) /\ Forall raw_matrix (nodes l))).

Lemma raw_lod_iff version bundled skinned l :
  (raw_nodes version bundled skinned l /\ raw_mats version skinned l) <->
  (wf_lod p version bundled skinned l /\ lod_all is_bits32 l).
Proof.
  unfold raw_nodes, raw_mats, wf_lod, lod_all, raw_mat, raw_rig, raw_matrix.
  assert (forall P : matrix4 Z -> Prop, nodes l = [] -> Forall P (nodes l)) as Hn
    by (intros P ->; constructor).
  assert (forall P : rig Z -> Prop, rigs l = [] -> Forall P (rigs l)) as Hr
    by (intros P ->; constructor).
  pose proof (Hn (matrix_all is_bits32)) as Hn1.
  pose proof (Hr (fun r => Forall (fun b => matrix_all is_bits32 (bone_matrix b)) (bones r))) as Hr1.
  clear Hn Hr.
  destruct skinned; [|destruct bundled]; rewrite ?Forall_and; tauto.
Qed.

Lemma rt1_matrices (bundled : bool) n bs l rest : is_long p n ->
  (if bundled then rret [] else read_n (read_matrix4 p raw) (Z.to_nat n)) bs = Ok (l, rest) ->
  (if bundled then l = [] else counts p n l /\ Forall raw_matrix l) /\
  exists cs, (if bundled then wnil else wall (write_matrix4 p raw) l) = (cs, None) /\ bs = cs ++ rest.
Proof.
  intros Hn G. destruct bundled.
  - ret G. split; [reflexivity|]. exists []. split; reflexivity.
  - rd G (rt1_n _ _ _ (Z.to_nat n) rt1_matrix4). destruct Q as (Q2 & Q3).
    split; [split; [split|]; auto|]. eexists; eauto.
Qed.

Lemma rt1_nodes version bundled skinned bs l rest :
  load_nodes_rigs p raw version bundled skinned new_lod bs = Ok (l, rest) ->
  raw_nodes version bundled skinned l /\
  exists cs, export_nodes p raw version bundled skinned l = (cs, None) /\ bs = cs ++ rest.
Proof.
  intros H. unfold load_nodes_rigs in H. do 3 split_get H.
  rd G rt1_float3. rd G0 rt1_float3.
  assert (present (version <=? 6) a1 /\ opt_all (vec3_all is_bits32) a1 /\
    exists cs, (if version <=? 6 then write_float3_opt p raw a1 else wnil) = (cs, None) /\ mid0 = cs ++ mid1) as HA.
  { destruct (version <=? 6).
    - split_get G1. ret G1. rd G rt1_float3. simpl.
      split; [eauto|]. split; [auto|]. eexists. split; [eauto|reflexivity].
    - ret G1. simpl. split; [auto|]. split; [auto|]. exists []. split; reflexivity. }
  destruct HA as (A1 & A2 & ca & WA & ->).
  destruct skinned.
  - do 2 split_get H. ret H. rd G (rt1_long p).
    rd G0 (rt1_n _ _ _ (Z.to_nat a2) rt1_rig). destruct Q2 as (Q2 & Q3).
    split.
    + red. cbn -[is_long]. unfold counts. repeat split; eauto; apply Q1.
    + eexists. split.
      * unfold export_nodes. cbn [lod_min lod_max pivot rignum rigs write_float3_opt].
        rewrite WA. wdone.
      * rewrite <- !app_assoc. reflexivity.
  - do 2 split_get H. ret H. rd G (rt1_long p). cbn [nodes app new_lod] in *.
    apply rt1_matrices in G0; [|exact Q1]. rename G0 into HB.
    destruct HB as (B1 & cb & WB & ->).
    split.
    + red. cbn -[is_long]. repeat (split; [solve [eauto]|]). exact B1.
    + eexists. split.
      * unfold export_nodes. cbn [lod_min lod_max pivot nodenum nodes write_float3_opt].
        rewrite WA, WB. wdone.
      * rewrite <- !app_assoc. reflexivity.
Qed.

Definition strip_mats {F} (l : lod F) : lod F :=
  {| lod_min := lod_min l; lod_max := lod_max l; pivot := pivot l;
     rignum := rignum l; rigs := rigs l; nodenum := nodenum l; nodes := nodes l;
     matnum := 0; materials := [] |}.

Lemma rt2_nodes version bundled skinned l :
  raw_nodes version bundled skinned l ->
  exists cs, export_nodes p raw version bundled skinned l = (cs, None) /\
    forall rest, load_nodes_rigs p raw version bundled skinned new_lod (cs ++ rest) = Ok (strip_mats l, rest).
Proof.
  intros H. destruct l as [mn mx pv rn rs nn ns mtn mts]. red in H. cbn -[is_long present] in H.
  destruct H as (H1 & H2 & H3 & H4 & H5 & H6 & H7).
  destruct H1 as (amn & ->). destruct H2 as (amx & ->). cbn in H4, H5.
  wr rt2_float3 H4. wr rt2_float3 H5.
  assert (exists cs, (if version <=? 6 then write_float3_opt p raw pv else wnil) = (cs, None) /\
    forall rest, (if version <=? 6 then get v <- read_float3 p raw; rret (Some v) else rret None) (cs ++ rest) = Ok (pv, rest)) as HA.
  { destruct (version <=? 6); simpl in H3.
    - destruct H3 as (a & ->). simpl in H6. wr rt2_float3 H6. eexists. split; [exact W1|].
      intros rest. erewrite rbind_run by eauto. reflexivity.
    - subst pv. exists []. split; reflexivity. }
  destruct HA as (ca & WA & RA).
  destruct skinned.
  - destruct H7 as ((H7 & H7') & H8 & -> & ->). wr (rt2_long p) H7.
    destruct (rt2_n _ _ _ (Z.to_nat rn) rt2_rig rs (conj H7' H8)) as (ds & W2 & R2).
    eexists. split.
    + unfold export_nodes. cbn [lod_min lod_max pivot rignum rigs]. rewrite WA.
      cbn [write_float3_opt]. wdone.
    + intros rest. rewrite <- !app_assoc. unfold load_nodes_rigs.
      do 5 (erewrite rbind_run by eauto). reflexivity.
  - destruct H7 as (-> & -> & H7 & H8). wr (rt2_long p) H7.
    assert (exists cs, (if bundled then wnil else wall (write_matrix4 p raw) ns) = (cs, None) /\
      forall rest, (if bundled then rret [] else read_n (read_matrix4 p raw) (Z.to_nat nn)) (cs ++ rest) = Ok (ns, rest)) as HB.
    { destruct bundled.
      - subst ns. exists []. split; reflexivity.
      - destruct H8 as ((_ & H8) & H9).
        destruct (rt2_n _ _ _ (Z.to_nat nn) rt2_matrix4 ns (conj H8 H9)) as (ds & W2 & R2). eauto. }
    destruct HB as (cb & WB & RB).
    eexists. split.
    + unfold export_nodes. cbn [lod_min lod_max pivot nodenum nodes]. rewrite WA, WB.
      cbn [write_float3_opt]. wdone.
    + intros rest. rewrite <- !app_assoc. unfold load_nodes_rigs.
      do 5 (erewrite rbind_run by eauto). reflexivity.
Qed.

Definition same_nodes {F} (a b : lod F) : Prop := strip_mats a = strip_mats b.

Lemma rt1_materials version skinned l0 bs l rest :
  load_materials p raw version skinned l0 bs = Ok (l, rest) ->
  (same_nodes l0 l /\ raw_mats version skinned l) /\
  exists cs, export_materials p raw version skinned l = (cs, None) /\ bs = cs ++ rest.
Proof.
  intros H. unfold load_materials in H. do 2 split_get H. ret H.
  rd G (rt1_long p). rd G0 (rt1_n _ _ _ (Z.to_nat a) (rt1_mat version skinned)).
  destruct Q0 as (Q0 & Q1).
  split; [split; [reflexivity|split; [split|]; auto]|].
  eexists. split; [unfold export_materials; cbn [matnum materials]; wdone|].
  rewrite <- !app_assoc. reflexivity.
Qed.

Lemma rt2_materials version skinned l :
  raw_mats version skinned l ->
  exists cs, export_materials p raw version skinned l = (cs, None) /\
    forall rest, load_materials p raw version skinned (strip_mats l) (cs ++ rest) = Ok (l, rest).
Proof.
  intros ((H1 & H2) & H3). wr (rt2_long p) H1.
  destruct (rt2_n _ _ _ (Z.to_nat (matnum l)) (rt2_mat version skinned) _ (conj H2 H3)) as (ds & W2 & R2).
  eexists. split; [unfold export_materials; wdone|].
  intros rest. rewrite <- !app_assoc. unfold load_materials.
  do 2 (erewrite rbind_run by eauto). destruct l; reflexivity.
Qed.

(** ** Geoms *)
Lemma export_nodes_same version bundled skinned (a b : lod Z) :
  same_nodes a b ->
  export_nodes p raw version bundled skinned a = export_nodes p raw version bundled skinned b.
Proof.
  intros H. unfold same_nodes, strip_mats in H. injection H as H1 H2 H3 H4 H5 H6 H7.
  unfold export_nodes. rewrite H1, H2, H3, H4, H5, H6, H7. reflexivity.
Qed.

Lemma rt1_geoms0 gn bs gs rest :
  read_n (load_geom (F:=Z) p) gn bs = Ok (gs, rest) ->
  (length gs = gn /\
   Forall (fun g => counts p (lodnum g) (lods g) /\ Forall (fun l => l = new_lod) (lods g)) gs) /\
  exists cs, wall (export_geom p) gs = (cs, None) /\ bs = cs ++ rest.
Proof.
  apply rt1_n. intros bs' g rest' H. unfold load_geom in H. split_get H. ret H.
  rd G (rt1_long p). split.
  - cbn. split; [split; [auto|apply repeat_length]|].
    apply Forall_forall. intros x Hx. apply repeat_spec in Hx. auto.
  - exists cs. split; [exact W|reflexivity].
Qed.

Definition R_geom {F} (R : lod F -> lod F -> Prop) (a b : geom F) : Prop :=
  lodnum a = lodnum b /\ Forall2 R (lods a) (lods b).

Lemma rt1_each_lod (r : lod Z -> reader (lod Z)) w (Q : lod Z -> Prop) R gs bs gs' rest :
  (forall a bs b rest, Q a -> r a bs = Ok (b, rest) ->
     R a b /\ exists cs, w b = (cs, None) /\ bs = cs ++ rest) ->
  Forall (fun g => Forall Q (lods g)) gs ->
  each_lod r gs bs = Ok (gs', rest) ->
  Forall2 (R_geom R) gs gs' /\
  exists cs, wall (fun g => wall w (lods g)) gs' = (cs, None) /\ bs = cs ++ rest.
Proof.
  intros Hr HQ H. unfold each_lod in H. revert HQ H.
  apply rt1_each with (Q := fun g : geom Z => Forall Q (lods g)).
  intros g bs' g' rest' HQ H.
  split_get H. ret H.
  eapply rt1_each in G; [|exact Hr|exact HQ]. destruct G as (G & cs & W & ->).
  split; [split; [reflexivity|exact G]|]. exists cs. split; [exact W|reflexivity].
Qed.

Definition raw_lod version bundled skinned (l : lod Z) : Prop :=
  raw_nodes version bundled skinned l /\ raw_mats version skinned l.
Definition raw_geom version bundled skinned (g : geom Z) : Prop :=
  counts p (lodnum g) (lods g) /\ Forall (raw_lod version bundled skinned) (lods g).

Lemma Forall2_length' {A B} (R : A -> B -> Prop) l l' : Forall2 R l l' -> length l = length l'.
Proof. induction 1; simpl; congruence. Qed.

Lemma raw_nodes_same version bundled skinned a b :
  same_nodes a b -> raw_nodes version bundled skinned a -> raw_nodes version bundled skinned b.
Proof.
  intros H. unfold same_nodes, strip_mats in H. injection H as H1 H2 H3 H4 H5 H6 H7.
  unfold raw_nodes. rewrite H1, H2, H3, H4, H5, H6, H7. auto.
Qed.

Lemma rt1_geoms version bundled skinned gs0 bs gs1 mid gs2 rest :
  Forall (fun g => counts p (lodnum g) (lods g) /\ Forall (fun l => l = new_lod) (lods g)) gs0 ->
  each_lod (load_nodes_rigs p raw version bundled skinned) gs0 bs = Ok (gs1, mid) ->
  each_lod (load_materials p raw version skinned) gs1 mid = Ok (gs2, rest) ->
  length gs2 = length gs0 /\ Forall (raw_geom version bundled skinned) gs2 /\
  wall (export_geom p) gs2 = wall (export_geom p) gs0 /\
  exists cs, (wall (fun g => wall (export_nodes p raw version bundled skinned) (lods g)) gs2 ;;
              wall (fun g => wall (export_materials p raw version skinned) (lods g)) gs2) = (cs, None) /\
             bs = cs ++ rest.
Proof.
  intros H0 H1 H2.
  eapply rt1_each_lod with (Q := fun l => l = new_lod)
     (R := fun a b => raw_nodes version bundled skinned b)
     (w := export_nodes p raw version bundled skinned) in H1.
  2:{ intros a bs' b rest' -> Hr. apply rt1_nodes in Hr. auto. }
  2:{ eapply Forall_impl; [|exact H0]. intros g (_ & Hg). exact Hg. }
  destruct H1 as (F1 & c1 & W1 & ->).
  eapply rt1_each_lod with (Q := fun l => True)
     (R := fun a b => same_nodes a b /\ raw_mats version skinned b)
     (w := export_materials p raw version skinned) in H2.
  2:{ intros a bs' b rest' _ Hr. apply rt1_materials in Hr. auto. }
  2:{ apply Forall_forall. intros. apply Forall_forall. auto. }
  destruct H2 as (F2 & c2 & W2 & ->).
  pose proof (Forall2_length' _ _ _ F1) as L1. pose proof (Forall2_length' _ _ _ F2) as L2.
  assert (wall (fun g => wall (export_nodes p raw version bundled skinned) (lods g)) gs2 =
          wall (fun g => wall (export_nodes p raw version bundled skinned) (lods g)) gs1) as EN.
  { clear -F2. induction F2 as [|g g' t t' (_ & Hg) Ht IH]; [reflexivity|]. simpl. rewrite IH. f_equal.
    clear -Hg. induction Hg as [|l l' t t' (Hl & _) Ht IH]; [reflexivity|]. simpl. rewrite IH. f_equal.
    symmetry; apply export_nodes_same; auto. }
  split; [congruence|]. split.
  - clear -H0 F1 F2. revert gs2 F2. induction F1 as [|g0 g1 t0 t1 (E1 & G1) Ht IH]; intros gs2 F2.
    + inversion F2; constructor.
    + inversion F2 as [|? g2 ? t2 (E2 & G2) Ht2]; subst. inversion H0 as [|? ? (Hc & _) H0t]; subst.
      constructor; [|auto]. split.
      * rewrite <- E2, <- E1. destruct Hc as (Hc1 & Hc2). split; [auto|].
        rewrite <- (Forall2_length' _ _ _ G2), <- (Forall2_length' _ _ _ G1). auto.
      * clear -G1 G2. revert G2. generalize (lods g2) as l2.
        induction G1 as [|a b ta tb Hb Htb IH]; intros l2 G2; inversion G2 as [|? c ? tc (Hs & Hm) Htc]; subst; constructor; auto.
        split; [eapply raw_nodes_same; eauto|auto].
  - split.
    + clear -F1 F2. revert gs2 F2. induction F1 as [|g0 g1 t0 t1 (E1 & _) Ht IH]; intros gs2 F2.
      * inversion F2; reflexivity.
      * inversion F2 as [|? g2 ? t2 (E2 & _) Ht2]; subst. simpl. rewrite (IH _ Ht2).
        unfold export_geom. congruence.
    + exists (c1 ++ c2). rewrite EN, W1, W2. split; [reflexivity|]. apply app_assoc.
Qed.

Definition fresh_geom (g : geom Z) : geom Z :=
  {| lodnum := lodnum g; lods := map (fun _ => new_lod) (lods g) |}.
Definition strip_geom (g : geom Z) : geom Z :=
  {| lodnum := lodnum g; lods := map strip_mats (lods g) |}.

Lemma map_const {A B} (b : B) (l : list A) : map (fun _ => b) l = repeat b (length l).
Proof. induction l; simpl; congruence. Qed.

Lemma rt2_geoms0 gs :
  Forall (fun g => counts p (lodnum g) (lods g)) gs ->
  exists cs, wall (export_geom p) gs = (cs, None) /\
    forall rest, read_n (load_geom (F:=Z) p) (length gs) (cs ++ rest) = Ok (map fresh_geom gs, rest).
Proof.
  induction 1 as [|g t (Hg & Hl) Ht (ds & W2 & R2)].
  - exists []. split; reflexivity.
  - wr (rt2_long p) Hg. exists (cs ++ ds). simpl. unfold export_geom at 1. rewrite W, W2.
    split; [reflexivity|]. intros rest. rewrite <- app_assoc.
    assert (load_geom p (cs ++ ds ++ rest) = Ok (fresh_geom g, ds ++ rest)) as E.
    { unfold load_geom. erewrite rbind_run by eauto. unfold rret, fresh_geom. rewrite map_const, Hl. reflexivity. }
    erewrite rbind_run by exact E. erewrite rbind_run by eauto. reflexivity.
Qed.

Lemma rt2_each_lod (r : lod Z -> reader (lod Z)) w (pre post : lod Z -> lod Z) gs :
  Forall (fun g => Forall (fun l => exists cs, w l = (cs, None) /\
             forall rest, r (pre l) (cs ++ rest) = Ok (post l, rest)) (lods g)) gs ->
  exists cs, wall (fun g => wall w (lods g)) gs = (cs, None) /\
    forall rest, each_lod r (map (fun g => {| lodnum := lodnum g; lods := map pre (lods g) |}) gs) (cs ++ rest)
                 = Ok (map (fun g => {| lodnum := lodnum g; lods := map post (lods g) |}) gs, rest).
Proof.
  intros H. unfold each_lod. apply rt2_each.
  eapply Forall_impl; [|exact H]. intros g Hg.
  apply rt2_each in Hg. destruct Hg as (cs & W & R). exists cs. split; [exact W|].
  intros rest. cbn [lods lodnum]. erewrite rbind_run by apply R. reflexivity.
Qed.

Lemma rt2_geoms version bundled skinned gs :
  Forall (raw_geom version bundled skinned) gs ->
  exists c1 c2,
    wall (fun g => wall (export_nodes p raw version bundled skinned) (lods g)) gs = (c1, None) /\
    wall (fun g => wall (export_materials p raw version skinned) (lods g)) gs = (c2, None) /\
    (forall rest, each_lod (load_nodes_rigs p raw version bundled skinned) (map fresh_geom gs) (c1 ++ rest)
                  = Ok (map strip_geom gs, rest)) /\
    (forall rest, each_lod (load_materials p raw version skinned) (map strip_geom gs) (c2 ++ rest)
                  = Ok (gs, rest)).
Proof.
  intros H.
  destruct (rt2_each_lod (load_nodes_rigs p raw version bundled skinned)
              (export_nodes p raw version bundled skinned) (fun _ => new_lod) strip_mats gs) as (c1 & W1 & R1).
  { eapply Forall_impl; [|exact H]. intros g (_ & Hg). eapply Forall_impl; [|exact Hg].
    intros l (Hl & _). apply rt2_nodes; auto. }
  destruct (rt2_each_lod (load_materials p raw version skinned)
              (export_materials p raw version skinned) strip_mats (fun l => l) gs) as (c2 & W2 & R2).
  { eapply Forall_impl; [|exact H]. intros g (_ & Hg). eapply Forall_impl; [|exact Hg].
    intros l (_ & Hl). apply rt2_materials; auto. }
  exists c1, c2. split; [exact W1|]. split; [exact W2|]. split; [exact R1|].
  intros rest. unfold strip_geom. rewrite R2. f_equal. f_equal.
  rewrite <- (map_id gs) at 2. apply map_ext. intros g. rewrite map_id. destruct g; reflexivity.
Qed.

(** ** Arrays *)
Lemma load_vertices_ok s f n bs l rest :
  load_vertices p raw s f n bs = Ok (l, rest) ->
  data_num s f n = Ok (zlen l) /\ length l <> 1%nat /\ Forall is_bits32 l /\
  exists cs, wall (write_float p raw) l = (cs, None) /\ bs = cs ++ rest.
Proof.
  unfold load_vertices. intros H. split_get H. unfold rlift in G.
  apply bind_ok in G. destruct G as (d & Hd & G). injection G as -> <-.
  split_get H. unfold read_float in G. split_get G. ret G.
  apply read_items_ok in G0. destruct G0 as (H0 & H1 & H2 & ->).
  assert (unwrap a (map (fun b => raw (dec_uint p b)) a1) = Tuple l /\ mid0 = rest) as (HU & ->).
  { destruct (unwrap a (map (fun b => raw (dec_uint p b)) a1)); [discriminate|].
    ret H. auto. }
  unfold unwrap in HU. rewrite Hd.
  destruct (Z.eqb_spec a 1).
  - subst a. destruct a1 as [|? [|]]; simpl in H1; try discriminate H1; discriminate HU.
  - injection HU as <-. unfold zlen. rewrite map_length, H1, Z2Nat.id by lia.
    split; [reflexivity|]. split; [lia|]. split; [apply dec_bits32; auto|].
    unfold raw in *. rewrite wall_write_float. eexists. split; [reflexivity|]. f_equal.
    symmetry. apply flat_map_enc_dec; auto.
Qed.

Lemma load_vertices_run s f n l :
  data_num s f n = Ok (zlen l) -> length l <> 1%nat -> Forall is_bits32 l ->
  exists cs, wall (write_float p raw) l = (cs, None) /\
    forall rest, load_vertices p raw s f n (cs ++ rest) = Ok (l, rest).
Proof.
  intros Hd Hl Hb. unfold raw at 1. rewrite wall_write_float. eexists. split; [reflexivity|].
  intros rest. unfold load_vertices. erewrite rbind_run by (unfold rlift; rewrite Hd; reflexivity).
  assert (Forall (fun c : bytes => length c = 4%nat) (map (enc_uint p 4) l)) as Hm.
  { apply Forall_map. apply Forall_forall. intros; apply enc_uint_length. }
  assert (flat_map (enc_uint p 4) l = flat_map (fun x => x) (map (enc_uint p 4) l)) as E.
  { clear. induction l; simpl; congruence. }
  assert (zlen l = zlen (map (enc_uint p 4) l)) as Ez by (unfold zlen; rewrite map_length; auto).
  assert (read_float p raw (zlen l) (flat_map (enc_uint p 4) l ++ rest) = Ok (Tuple l, rest)) as ER.
  { unfold read_float. erewrite rbind_run.
    2:{ rewrite E, Ez. apply read_items_run; auto. }
    unfold rret, raw. rewrite (map_dec_enc p 4) by auto. unfold unwrap.
    destruct (Z.eqb_spec (zlen l) 1); [|reflexivity]. unfold zlen in *. lia. }
  erewrite rbind_run by exact ER. reflexivity.
Qed.

Lemma read_short_ok n bs i rest : is_long p n ->
  read_short p n bs = Ok (i, rest) ->
  wf_index p n i /\
  (forall l, i = Tuple l -> exists cs, export_index p i = (cs, None) /\ bs = cs ++ rest) /\
  (forall v, i = Scalar v -> exists cs, length cs = 2%nat /\ bs = cs ++ rest).
Proof.
  intros Hn H. unfold read_short in H. split_get H. ret H.
  apply read_items_ok in G. destruct G as (H0 & H1 & H2 & ->).
  assert (Forall is_ushort (map (dec_uint p) a)) as HF.
  { clear -H2. induction H2 as [|c t Hc Ht IH]; simpl; constructor; auto.
    pose proof (dec_uint_range p c) as H. rewrite Hc in H. exact H. }
  unfold unwrap. destruct (Z.eqb_spec n 1).
  - subst n. destruct a as [|c [|]]; simpl in H1; try discriminate H1. simpl.
    inversion HF; subst. inversion H2; subst.
    split; [split; auto|]. split; [discriminate|].
    intros v _. exists c. rewrite app_nil_r. auto.
  - split; [split; [auto|split; [|split; auto]]|].
    + unfold zlen. rewrite map_length. lia.
    + split; [|discriminate]. intros l _. unfold export_index. rewrite wall_write_short by auto.
      eexists. split; [reflexivity|]. f_equal. symmetry. apply flat_map_enc_dec; auto.
Qed.

Lemma read_short_run n l : wf_index p n (Tuple l) ->
  exists cs, export_index p (Tuple l) = (cs, None) /\
    forall rest, read_short p n (cs ++ rest) = Ok (Tuple l, rest).
Proof.
  intros (Hn & -> & Hn1 & HF). unfold export_index. rewrite wall_write_short by auto.
  eexists. split; [reflexivity|]. intros rest. unfold read_short.
  assert (Forall (fun c : bytes => length c = 2%nat) (map (enc_uint p 2) l)) as Hm.
  { apply Forall_map. apply Forall_forall. intros; apply enc_uint_length. }
  assert (flat_map (enc_uint p 2) l = flat_map (fun x => x) (map (enc_uint p 2) l)) as E.
  { clear. induction l; simpl; congruence. }
  assert (zlen l = zlen (map (enc_uint p 2) l)) as Ez by (unfold zlen; rewrite map_length; auto).
  erewrite rbind_run.
  2:{ rewrite E, Ez. apply read_items_run; auto. }
  unfold rret. rewrite map_dec_enc by auto. unfold unwrap.
  destruct (Z.eqb_spec (zlen l) 1); [contradiction|reflexivity].
Qed.

(** ** Whole meshes *)
Definition raw_wf (m : mesh Z) : Prop := wf p m /\ mesh_all is_bits32 m.

Lemma raw_geom_iff version bundled skinned gs :
  Forall (raw_geom version bundled skinned) gs <->
  Forall (wf_geom p version bundled skinned) gs /\
  Forall (fun g => Forall (lod_all is_bits32) (lods g)) gs.
Proof.
  rewrite <- Forall_and. apply Forall_iff. intros g. unfold raw_geom, wf_geom.
  assert (Forall (raw_lod version bundled skinned) (lods g) <->
          Forall (wf_lod p version bundled skinned) (lods g) /\ Forall (lod_all is_bits32) (lods g)) as E.
  { rewrite <- Forall_and. apply Forall_iff. intros l. apply raw_lod_iff. }
  rewrite E. tauto.
Qed.

Lemma rt1_u2 (skinned : bool) bs u2 rest :
  (if skinned then rret 0 else read_long p) bs = Ok (u2, rest) ->
  (if skinned then u2 = 0 else is_long p u2) /\
  exists cs, (if skinned then wnil else write_long p u2) = (cs, None) /\ bs = cs ++ rest.
Proof.
  destruct skinned.
  - intros [= <- <-]. split; [reflexivity|]. exists []. split; reflexivity.
  - intros H. rd H (rt1_long p). split; [auto|]. eauto.
Qed.

Theorem load_body_raw_ok k bs m rest :
  load_body p raw k bs = Ok (m, rest) ->
  raw_wf m /\ m_kind m = k /\
  (forall l, index m = Tuple l -> exists cs, export p raw m = (cs, None) /\ bs = cs ++ rest) /\
  (forall v, index m = Scalar v ->
     exists pre post, export p raw m = (pre, Some EType) /\ bs = pre ++ post ++ rest /\ (2 <= length post)%nat).
Proof.
  intros H. unfold load_body in H. do 15 split_get H. ret H.
  rd G rt1_head. rd G0 (rt1_byte p). rd G1 (rt1_long p).
  apply rt1_geoms0 in G2. destruct G2 as ((L2 & Q2) & cs2 & W2 & ->).
  rd G3 (rt1_long p). rd G4 (rt1_n _ _ _ (Z.to_nat a3) rt1_vertattrib).
  rd G5 (rt1_long p). rd G6 (rt1_long p). rd G7 (rt1_long p).
  apply load_vertices_ok in G8. destruct G8 as (D1 & D2 & D3 & cs8 & W8 & ->).
  rd G9 (rt1_long p).
  apply read_short_ok in G10; [|auto]. destruct G10 as (I1 & I2 & I3).
  apply rt1_u2 in G11. destruct G11 as (U1 & cu & WU & ->).
  eapply rt1_geoms in G12; [|exact Q2|exact G13].
  destruct G12 as (L3 & R3 & E3 & cg & WG & ->).
  destruct Q4 as (Q4 & Q4').
  assert (raw_wf {| m_kind := k; m_head := a; m_u1 := a0; geomnum := a1; geoms := a13;
          vertattribnum := a3; vertex_attributes := a4;
          vertformat := a5; vertstride := a6; vertnum := a7; vertices := a8;
          indexnum := a9; index := a10; m_u2 := a11 |}) as HW.
  { apply raw_geom_iff in R3. destruct R3 as (R3 & R4).
    split; [|split; [exact R4|exact D3]].
    red. cbn -[is_long]. unfold counts.
    split; [exact Q|]. split; [exact Q0|]. split; [split; [exact Q1|congruence]|].
    split; [exact R3|]. split; [split; [exact Q3|exact Q4]|]. split; [exact Q4'|].
    repeat (split; [assumption|]). exact U1. }
  split; [exact HW|]. split; [reflexivity|].
  cbn [index]. split.
  - intros l Hl. destruct (I2 l Hl) as (ci & WI & ->).
    eexists. split.
    + unfold export. cbn [m_kind m_head m_u1 geomnum geoms vertattribnum vertex_attributes
        vertformat vertstride vertnum vertices indexnum index m_u2].
      rewrite E3, WU, WI, WG. wdone.
    + rewrite <- !app_assoc. reflexivity.
  - intros v Hv. destruct (I3 v Hv) as (ci & LI & ->).
    eexists. exists (ci ++ cu ++ cg). split.
    + unfold export. cbn [m_kind m_head m_u1 geomnum geoms vertattribnum vertex_attributes
        vertformat vertstride vertnum vertices indexnum index m_u2].
      rewrite E3. subst a10. cbn [export_index wraise].
      repeat match goal with W : _ = (_, None) |- _ => rewrite W; clear W end.
      cbn [wseq]. reflexivity.
    + split; [rewrite <- !app_assoc; reflexivity|]. rewrite app_length. lia.
Qed.

Theorem export_load_raw_ok k m l :
  raw_wf m -> m_kind m = k -> index m = Tuple l ->
  exists cs, export p raw m = (cs, None) /\
    forall rest, load_body p raw k (cs ++ rest) = Ok (m, rest).
Proof.
  intros (Hw & Ha) Hk Hi. destruct m as [k' h u1 gn gs van vas vf vst vn vs inn ix u2].
  cbn in Hk, Hi. subst k' ix.
  red in Hw. cbn -[is_long] in Hw.
  destruct Hw as (H1 & H2 & (H3 & H3') & H4 & (H5 & H5') & H6 & H7 & H8 & H9 & H10 & H11 & H12 & H13).
  destruct Ha as (Ha & Hb). cbn in Ha, Hb.
  pose proof (proj2 (raw_geom_iff _ _ _ _) (conj H4 Ha)) as HG.
  wr rt2_head H1. wr (rt2_byte p) H2. wr (rt2_long p) H3.
  destruct (rt2_geoms0 gs) as (cg0 & WG0 & RG0).
  { eapply Forall_impl; [|exact HG]. intros g (Hg & _). exact Hg. }
  rewrite H3' in RG0.
  wr (rt2_long p) H5.
  destruct (rt2_n _ _ _ (Z.to_nat van) rt2_vertattrib vas (conj H5' H6)) as (cva & WVA & RVA).
  wr (rt2_long p) H7. wr (rt2_long p) H8. wr (rt2_long p) H9.
  destruct (load_vertices_run _ _ _ _ H10 H11 Hb) as (cv & WV & RV).
  destruct H12 as (H12 & H12'). wr (rt2_long p) H12.
  destruct (read_short_run inn l (conj H12 H12')) as (ci & WI & RI).
  assert (exists cs, (if isSkinnedMesh k then wnil else write_long p u2) = (cs, None) /\
     forall rest, (if isSkinnedMesh k then rret 0 else read_long p) (cs ++ rest) = Ok (u2, rest)) as HU.
  { destruct (isSkinnedMesh k).
    - subst u2. exists []. split; reflexivity.
    - wr (rt2_long p) H13. eauto. }
  destruct HU as (cu & WU & RU).
  destruct (rt2_geoms _ _ _ _ HG) as (c1 & c2 & WN & WM & RN & RM).
  eexists. split.
  - unfold export. cbn [m_kind m_head m_u1 geomnum geoms vertattribnum vertex_attributes
        vertformat vertstride vertnum vertices indexnum index m_u2].
    rewrite WU. wdone.
  - intros rest. rewrite <- !app_assoc. unfold load_body.
    do 15 (erewrite rbind_run by eauto). reflexivity.
Qed.
End Raw.
