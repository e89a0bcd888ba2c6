(** The loader and the serialiser follow the layout of SpecFormat.v. *)
From Coq Require Import ZArith NArith List Bool Ascii Lia.
From Coq Require Import Reals Lra.
From Flocq Require Import Core IEEE754.Binary IEEE754.Bits.
From Verif Require Import PyBase Struct Mesh Spec CodecBase CodecRaw CodecParam F64 F64Facts CodecFacts SpecF SpecFormat.
Import ListNotations.
Open Scope Z_scope.
Open Scope res_scope.

Definition wfield (p : plat) (f : field) : writer :=
  match f with
  | FLong z => write_long p z
  | FChar z => write_byte p z
  | FShort z => write_short p z
  | FSShort z => if in_signed 2 z then wput (enc_uint p 2 (of_signed 2 z)) else wraise EStruct
  | FFloat b => write_float p raw b
  | FText s => wput s
  end.

(** ** Blocks *)
Lemma base256_app bs b : base256 (bs ++ [b]) = 256 * base256 bs + Z_of_byte b.
Proof. unfold base256. rewrite fold_left_app. reflexivity. Qed.

Lemma le_decode_base bs : le_decode bs = base256 (rev bs).
Proof.
  induction bs as [|b t IH]; [reflexivity|]. cbn [le_decode rev]. rewrite base256_app, IH. lia.
Qed.

Lemma number_of_dec p bs : number_of p bs = dec_uint p bs.
Proof.
  unfold number_of, dec_uint, order_bytes. rewrite le_decode_base.
  destruct (big_endian p); rewrite ?rev_involutive; reflexivity.
Qed.

Lemma unsigned_enc p w z bs : 0 <= z < 2 ^ (8 * Z.of_nat w) ->
  (holds_unsigned p w z bs <-> bs = enc_uint p w z).
Proof.
  intros Hz. unfold holds_unsigned. rewrite number_of_dec. split.
  - intros (<- & <-). symmetry. apply enc_dec.
  - intros ->. split; [apply enc_uint_length|apply dec_enc; exact Hz].
Qed.

Lemma signed_enc p w z bs : (0 < w)%nat ->
  (holds_signed p w z bs <-> in_signed w z = true /\ bs = enc_uint p w (of_signed w z)).
Proof.
  intros Hw. unfold holds_signed, in_signed. rewrite number_of_dec, andb_true_iff, Z.leb_le, Z.ltb_lt.
  pose proof (half_pow w Hw) as E.
  assert (0 < 2 ^ (8 * Z.of_nat w - 1)) by (apply Z.pow_pos_nonneg; lia).
  split.
  - intros (L & R & N). split; [exact R|].
    pose proof (dec_uint_range p bs) as D. rewrite L in D.
    assert (of_signed w z = dec_uint p bs) as ->.
    { unfold of_signed. destruct N as [N|N]; [rewrite N in *; apply Z.mod_small; lia|].
      symmetry. apply Z.mod_unique with (-1); lia. }
    rewrite <- L. symmetry. apply enc_dec.
  - intros (R & ->). rewrite enc_uint_length, dec_enc by apply of_signed_range.
    split; [reflexivity|]. split; [exact R|]. unfold of_signed.
    destruct (Z.le_gt_cases 0 z); [left; apply Z.mod_small; lia|right].
    symmetry. apply Z.mod_unique with (-1); lia.
Qed.

(** A field within the range of its type. *)
Definition sized (f : field) : Prop := match f with FFloat b => is_bits32 b | _ => True end.

Lemma field_written p f bs : sized f -> (holds p f bs <-> wfield p f = (bs, None)).
Proof.
  destruct f as [z|z|z|z|b|s]; simpl; intros S.
  - change (match long_sz p with Long4 => 4%nat | Long8 => 8%nat end) with (long_bytes p).
    rewrite signed_enc by apply long_bytes_pos. unfold write_long, fits_long.
    destruct (in_signed (long_bytes p) z); unfold wput, wraise; split; intros H.
    + destruct H as (_ & ->). reflexivity.
    + injection H as <-. auto.
    + destruct H; discriminate.
    + discriminate.
  - rewrite signed_enc by lia. unfold write_byte, fits_schar.
    destruct (in_signed 1 z); unfold wput, wraise; split; intros H.
    + destruct H as (_ & ->). reflexivity.
    + injection H as <-. auto.
    + destruct H; discriminate.
    + discriminate.
  - unfold write_short. destruct (fits_ushort z) eqn:E; unfold wput, wraise.
    + apply fits_ushort_iff in E. rewrite unsigned_enc by exact E. split; [intros ->; reflexivity|].
      intros H. injection H as <-. reflexivity.
    + split; [|discriminate]. intros (L & N). exfalso.
      assert (is_ushort z) as Q.
      { rewrite number_of_dec in N. pose proof (dec_uint_range p bs) as D. rewrite L, N in D. exact D. }
      apply fits_ushort_iff in Q. congruence.
  - rewrite signed_enc by lia.
    destruct (in_signed 2 z); unfold wput, wraise; split; intros H.
    + destruct H as (_ & ->). reflexivity.
    + injection H as <-. auto.
    + destruct H; discriminate.
    + discriminate.
  - unfold write_float, enc_float, raw, wput. rewrite unsigned_enc by exact S.
    split; [intros ->; reflexivity|]. intros H. injection H as <-. reflexivity.
  - unfold wput. split; [intros ->; reflexivity|]. intros H. injection H as <-. reflexivity.
Qed.

Lemma fields_written p fs bs : Forall sized fs -> (laid_out p fs bs <-> wall (wfield p) fs = (bs, None)).
Proof.
  intros S. revert bs. induction S as [|f fs Sf S IH]; intros bs; cbn [wall].
  - unfold laid_out, wnil. split.
    + intros (bl & H & ->). inversion H; subst. reflexivity.
    + intros H. injection H as <-. exists []. auto.
  - unfold laid_out. split.
    + intros (bl & H & ->). inversion H as [|? b ? bl' Hf Ht]; subst. cbn [concat].
      apply field_written in Hf; [|exact Sf]. rewrite Hf.
      assert (laid_out p fs (concat bl')) as Q by (exists bl'; auto).
      apply IH in Q. rewrite Q. reflexivity.
    + intros H. apply wseq_inv in H. destruct H as (c & d & H1 & H2 & ->).
      apply field_written in H1; [|exact Sf]. apply IH in H2. destruct H2 as (bl & H2 & ->).
      exists (c :: bl). split; [constructor; auto|reflexivity].
Qed.

(** ** The serialiser writes the fields *)
Lemma wseq_nil_r a : (a ;; wnil) = a.
Proof. destruct a as [bs [e|]]; unfold wnil; simpl; rewrite ?app_nil_r; reflexivity. Qed.
Lemma wseq_nil_l a : (wnil ;; a) = a.
Proof. destruct a as [bs o]; reflexivity. Qed.

Lemma wall_app {A} (w : A -> writer) l l' : wall w (l ++ l') = (wall w l ;; wall w l').
Proof.
  induction l as [|a t IH]; cbn [app wall]; [rewrite wseq_nil_l; reflexivity|].
  rewrite IH, wseq_assoc. reflexivity.
Qed.
Lemma wall_flat {A B} (w : B -> writer) (f : A -> list B) l :
  wall w (flat_map f l) = wall (fun a => wall w (f a)) l.
Proof.
  induction l as [|a t IH]; cbn [flat_map wall]; [reflexivity|]. rewrite wall_app, IH. reflexivity.
Qed.
Lemma wall_put {A} (f : A -> bytes) l : wall (fun a => wput (f a)) l = wput (flat_map f l).
Proof.
  induction l as [|a t IH]; cbn [flat_map wall]; [reflexivity|]. rewrite IH. reflexivity.
Qed.

Section P.
Context (p : plat).
Notation W := (wall (wfield p)).

Lemma w_cons f fs : W (f :: fs) = (wfield p f ;; W fs).
Proof. reflexivity. Qed.

Lemma w_triple v : (exists t, v = Some t) -> W (triple_fields v) = write_float3_opt p raw v.
Proof.
  intros ([[x y] z] & ->). unfold triple_fields. rewrite !w_cons. cbn [wall wfield]. rewrite wseq_nil_r. reflexivity.
Qed.

Lemma w_row (r : list Z) : W (map FFloat r) = wput (flat_map (enc_float p raw) r).
Proof. rewrite wall_map. apply (wall_put (enc_float p raw)). Qed.

Lemma w_matrix m : wf_matrix m -> W (matrix_fields m) = write_matrix4 p raw m.
Proof.
  intros (L & H). destruct m as [|r0 [|r1 [|r2 [|r3 [|? ?]]]]]; try discriminate.
  unfold matrix_fields. rewrite wall_flat, (wall_ext _ (fun r => wput (flat_map (enc_float p raw) r))).
  2:{ apply Forall_forall. intros r _. apply w_row. }
  pose proof (Forall_inv H) as H0. apply Forall_inv_tail in H.
  pose proof (Forall_inv H) as H1. apply Forall_inv_tail in H.
  pose proof (Forall_inv H) as H2. apply Forall_inv_tail in H. pose proof (Forall_inv H) as H3.
  unfold write_matrix4, seq, write_row4. cbn [wall nth_error]. rewrite H0, H1, H2, H3. reflexivity.
Qed.

Lemma w_all {A} (f : A -> list field) (w : A -> writer) (Q : A -> Prop) l :
  (forall a, Q a -> W (f a) = w a) -> Forall Q l -> W (flat_map f l) = wall w l.
Proof.
  intros H HQ. rewrite wall_flat. apply wall_ext. revert HQ. apply Forall_impl. auto.
Qed.

Lemma w_rig r : wf_rig p r -> W (rig_fields r) = export_rig p raw r.
Proof.
  intros (_ & H). unfold rig_fields, export_rig. rewrite w_cons. f_equal.
  apply (w_all _ _ (wf_bone p)); [|exact H]. intros b (_ & Hm).
  unfold bone_fields, export_bone. rewrite w_cons, w_matrix by exact Hm. reflexivity.
Qed.

Lemma w_nodes v k l : wf_lod p v (isBundledMesh k) (isSkinnedMesh k) l ->
  W (nodes_fields v k l) = export_nodes p raw v (isBundledMesh k) (isSkinnedMesh k) l.
Proof.
  intros (H1 & H2 & H3 & H4 & _). unfold nodes_fields, export_nodes. rewrite !wall_app.
  rewrite (w_triple _ H1), (w_triple _ H2). f_equal. f_equal. f_equal.
  - destruct (v <=? 6); [apply w_triple, H3|reflexivity].
  - destruct (isSkinnedMesh k).
    + destruct H4 as (_ & H4 & _). rewrite w_cons. f_equal. apply (w_all _ _ (wf_rig p)); [apply w_rig|exact H4].
    + destruct H4 as (_ & _ & _ & H4). rewrite w_cons. f_equal. destruct (isBundledMesh k); [reflexivity|].
      apply (w_all _ _ wf_matrix); [apply w_matrix|apply H4].
Qed.

Lemma w_text s : W (text_fields s) = write_string p s.
Proof. unfold text_fields, write_string. rewrite !w_cons. cbn [wall wfield]. rewrite wseq_nil_r. reflexivity. Qed.

Lemma w_mat v k m : wf_mat p v (isSkinnedMesh k) m ->
  W (material_fields v k m) = export_mat p raw v (isSkinnedMesh k) m.
Proof.
  intros (H1 & _ & _ & _ & _ & _ & _ & _ & _ & _ & _ & _ & H2 & H3).
  unfold material_fields, export_mat. rewrite !wall_app, !w_text, w_cons, !wall_app.
  rewrite (w_all text_fields (write_string p) (fun _ => True)); [|intros; apply w_text|apply Forall_forall; auto].
  rewrite !w_cons. cbn [wfield]. rewrite !wseq_assoc. f_equal; [|do 10 f_equal].
  - destruct (isSkinnedMesh k); [reflexivity|]. destruct H1 as (a & ->). cbn [write_long_opt].
    rewrite w_cons. cbn [wall wfield]. apply wseq_nil_r.
  - cbn [wall]. rewrite wseq_nil_l. destruct (isSkinnedMesh k); [reflexivity|]. cbn [negb andb] in *.
    destruct (v =? 11); [|reflexivity]. rewrite wall_app, (w_triple _ H2), (w_triple _ H3). reflexivity.
Qed.

Lemma w_lods {A} (f : lod Z -> list A) w (gs : list (geom Z)) (Wd : A -> writer) (Q : lod Z -> Prop) :
  (forall l, Q l -> wall Wd (f l) = w l) -> Forall (fun g => Forall Q (lods g)) gs ->
  wall Wd (flat_map f (flat_map lods gs)) = wall (fun g => wall w (lods g)) gs.
Proof.
  intros H HQ. rewrite !wall_flat. apply wall_ext. revert HQ. apply Forall_impl. intros g Hg.
  apply wall_ext. revert Hg. apply Forall_impl. auto.
Qed.

Lemma w_materials v k l : wf_lod p v (isBundledMesh k) (isSkinnedMesh k) l ->
  W (FLong (matnum l) :: flat_map (material_fields v k) (materials l)) =
  export_materials p raw v (isSkinnedMesh k) l.
Proof.
  intros (_ & _ & _ & _ & _ & H). unfold export_materials. rewrite w_cons. f_equal.
  apply (w_all _ _ _ _ (w_mat v k) H).
Qed.

Lemma w_one f : W [f] = wfield p f.
Proof. rewrite w_cons. cbn [wall]. apply wseq_nil_r. Qed.

Lemma w_attribs l : W (flat_map attrib_fields l) = wall (export_vertattrib p) l.
Proof.
  rewrite wall_flat. apply wall_ext, Forall_forall. intros a _.
  unfold attrib_fields, export_vertattrib. rewrite !w_cons. cbn [wall wfield]. rewrite wseq_nil_r. reflexivity.
Qed.

Lemma w_mesh m l : wf p m -> index m = Tuple l -> W (mesh_fields m) = export p raw m.
Proof.
  intros (_ & _ & _ & HG & _) Hi.
  assert (Forall (fun g => Forall (wf_lod p (h_version (m_head m)) (isBundledMesh (m_kind m))
            (isSkinnedMesh (m_kind m))) (lods g)) (geoms m)) as HL.
  { revert HG. apply Forall_impl. intros g (_ & H). exact H. }
  unfold mesh_fields. cbv zeta. rewrite Hi. cbn [index_fields].
  rewrite wall_app, !w_cons, !wall_app, !w_cons, !wall_app, !w_cons, !wall_app, !w_cons, !wall_app.
  rewrite (w_lods _ _ _ _ _ (w_nodes (h_version (m_head m)) (m_kind m)) HL).
  rewrite (w_lods _ _ _ _ _ (w_materials (h_version (m_head m)) (m_kind m)) HL).
  rewrite w_attribs, !wall_map. unfold export, export_index. rewrite Hi.
  replace (W (if isSkinnedMesh (m_kind m) then [] else [FLong (m_u2 m)]))
    with (if isSkinnedMesh (m_kind m) then wnil else write_long p (m_u2 m))
    by (destruct (isSkinnedMesh (m_kind m)); [reflexivity|symmetry; apply w_one]).
  assert (W (head_fields (m_head m)) = export_head p (m_head m)) as ->.
  { unfold head_fields, export_head. rewrite !w_cons. cbn [wall wfield]. rewrite wseq_nil_r. reflexivity. }
  reflexivity.
Qed.
End P.

(** ** Sizes *)
Lemma sized_flat {A} (f : A -> list field) (Q : A -> Prop) l :
  (forall a, Q a -> Forall sized (f a)) -> Forall Q l -> Forall sized (flat_map f l).
Proof.
  intros H. induction 1; cbn [flat_map]; [constructor|]. apply Forall_app. auto.
Qed.
Lemma sized_map {A} (f : A -> field) l : (forall a, sized (f a)) -> Forall sized (map f l).
Proof. intros H. induction l; cbn [map]; constructor; auto. Qed.
Lemma sized_floats l : Forall is_bits32 l -> Forall sized (map FFloat l).
Proof. induction 1; cbn [map]; constructor; auto. Qed.
Lemma sized_triple v : opt_all (vec3_all is_bits32) v -> Forall sized (triple_fields v).
Proof.
  destruct v as [[[x y] z]|]; intros H; cbn [triple_fields]; [|constructor]. destruct H as (? & ? & ?).
  repeat (apply Forall_cons; [assumption|]). constructor.
Qed.
Lemma sized_matrix m : matrix_all is_bits32 m -> Forall sized (matrix_fields m).
Proof. apply sized_flat. apply sized_floats. Qed.
Lemma sized_texts l : Forall sized (flat_map text_fields l).
Proof.
  apply (sized_flat _ (fun _ => True)); [|apply Forall_forall; auto].
  intros a _. repeat constructor.
Qed.

Ltac sized := repeat first [apply Forall_app; split | apply Forall_cons; [exact I|] | apply Forall_nil].

Lemma sized_mat v k m : mat_all is_bits32 m -> Forall sized (material_fields v k m).
Proof.
  intros (H1 & H2). unfold material_fields, text_fields. sized; try apply sized_texts.
  - destruct (isSkinnedMesh k), (alphamode m); sized.
  - destruct (isSkinnedMesh k), (v =? 11); sized; apply sized_triple; assumption.
Qed.

Lemma sized_nodes v k l : lod_all is_bits32 l -> Forall sized (nodes_fields v k l).
Proof.
  intros (H1 & H2 & H3 & H4 & H5 & _). unfold nodes_fields. sized; try (apply sized_triple; assumption).
  - destruct (v <=? 6); sized. apply sized_triple; assumption.
  - destruct (isSkinnedMesh k); [|destruct (isBundledMesh k)]; sized.
    + refine (sized_flat _ _ _ _ H4). intros r Hr. unfold rig_fields. sized.
      refine (sized_flat _ _ _ _ Hr). intros b Hb. unfold bone_fields. sized. apply sized_matrix, Hb.
    + apply (sized_flat _ _ _ sized_matrix H5).
Qed.

Lemma sized_mesh m : mesh_all is_bits32 m -> Forall sized (mesh_fields m).
Proof.
  intros (HG & HV).
  assert (Forall (lod_all is_bits32) (flat_map lods (geoms m))) as HL.
  { induction HG; cbn [flat_map]; [constructor|]. apply Forall_app. auto. }
  unfold mesh_fields, head_fields. cbv zeta. sized.
  - apply sized_map. intros; exact I.
  - apply (sized_flat _ (fun _ => True)); [|apply Forall_forall; auto]. intros a _. unfold attrib_fields. sized.
  - apply sized_floats, HV.
  - destruct (index m); cbn [index_fields]; sized. apply sized_map. intros; exact I.
  - destruct (isSkinnedMesh (m_kind m)); sized.
  - apply (sized_flat _ _ _ (sized_nodes _ _) HL).
  - refine (sized_flat _ _ _ _ HL). intros l (_ & _ & _ & _ & _ & H). sized.
    apply (sized_flat _ _ _ (sized_mat _ _) H).
Qed.

(** ** Final forms *)
Theorem export_layout p (m : mesh binary64) bs : wf p m -> indexnum m <> 1 ->
  (export p pack_f m = (bs, None) <-> laid_out p (mesh_fields (mesh_map pack_f m)) bs).
Proof.
  intros W N. rewrite export_via.
  assert (mesh_all is_bits32 (mesh_map pack_f m)) as WB.
  { apply mesh_all_map. apply mesh_all_true. apply pack_range. }
  apply (wf_map pack_f) in W. destruct (wf_index_of p _ W N) as (l & Hl).
  rewrite fields_written by (apply sized_mesh, WB). rewrite (w_mesh p _ l W Hl). reflexivity.
Qed.

Theorem load_layout p k bs m : indexnum m <> 1 ->
  (load p unpack_f k bs = Ok m <->
   exists mr : mesh Z, m = mesh_map unpack_f mr /\ wf p mr /\ mesh_all is_bits32 mr /\ m_kind mr = k /\
     laid_out p (mesh_fields mr) bs).
Proof.
  intros N. split.
  - intros H. apply load_inv in H. destruct H as (mr & H & ->). exists mr.
    apply load_raw_ok in H. destruct H as ((W & WB) & K & T & _).
    destruct (wf_index_of p mr W N) as (l & Hl). apply T in Hl as E.
    split; [reflexivity|]. split; [exact W|]. split; [exact WB|]. split; [exact K|].
    apply fields_written; [apply sized_mesh, WB|]. rewrite (w_mesh p mr l W Hl). exact E.
  - intros (mr & -> & W & WB & K & E).
    change (indexnum (mesh_map unpack_f mr)) with (indexnum mr) in N.
    destruct (wf_index_of p mr W N) as (l & Hl).
    apply fields_written in E; [|apply sized_mesh, WB]. rewrite (w_mesh p mr l W Hl) in E.
    destruct (export_load_raw_ok p k mr l (conj W WB) K Hl) as (cs & E' & R).
    assert (cs = bs) as -> by congruence. specialize (R []). rewrite app_nil_r in R.
    rewrite load_via. unfold load. rewrite R. reflexivity.
Qed.

(** ** Single patterns *)
Lemma sign_bit x : (2 ^ 31 <=? bits_of_b32 x) = let '(s, _, _) := split_bits_of_binary_float 23 8 x in s.
Proof.
  pose proof (split_bits_of_binary_float_correct 23 8 eq_refl eq_refl x) as H.
  change (bits_of_binary_float 23 8 x) with (bits_of_b32 x) in H. unfold split_bits in H.
  destruct (split_bits_of_binary_float 23 8 x) as [[s m] e]. injection H as H1 _ _. exact H1.
Qed.

Lemma F2R_signed s m e : F2R (Float radix2 (SpecFloat.cond_Zopp s (Zpos m)) e) =
  ((if s then -1 else 1) * IZR (Zpos m) * bpow radix2 e)%R.
Proof. unfold F2R. cbn [Fnum Fexp]. destruct s; cbn [SpecFloat.cond_Zopp]; rewrite ?opp_IZR; lra. Qed.

Theorem unpack_value b : is_bits32 b -> single_value b (unpack_f b).
Proof.
  intros R. unfold unpack_f. pose proof (bits_of_bits b R) as E. set (x := b32_of_bits b) in *.
  pose proof (bits_fields x) as HB. pose proof (sign_bit x) as HS. cbv zeta in HB. rewrite E in HB, HS.
  unfold single_value. clearbody x. clear E.
  destruct x as [s|s|s pl H|s m e H]; cbn [split_bits_of_binary_float] in HB, HS.
  - destruct HB as (-> & ->). rewrite HS. cbn. repeat split. destruct s; lra.
  - destruct HB as (-> & ->). rewrite HS. reflexivity.
  - destruct HB as (-> & ->). reflexivity.
  - destruct (widen_correct _ (eq_refl : is_finite 24 128 (B754_finite 24 128 s m e H) = true)) as (W1 & W2 & W3).
    assert (e <= 104).
    { pose proof H as H0. unfold SpecFloat.bounded in H0. apply andb_true_iff in H0. destruct H0 as (_ & H0).
      apply Z.leb_le in H0. exact H0. }
    assert (-149 <= e /\ (Zpos m < 2 ^ 23 -> e = -149)) as (He & Hsub).
    { pose proof H as HC. unfold SpecFloat.bounded, SpecFloat.canonical_mantissa in HC. apply andb_true_iff in HC.
      destruct HC as (HC & _). apply Zeq_bool_eq in HC. unfold SpecFloat.fexp, SpecFloat.emin in HC.
      rewrite Digits.Zpos_digits2_pos in HC. split; [lia|]. intros Hm.
      assert (Digits.Zdigits radix2 (Zpos m) <= 23) by (apply Digits.Zdigits_le_Zpower; exact Hm). lia. }
    assert (Zpos m < 2 ^ 24) as Hm.
    { pose proof H as HC. unfold SpecFloat.bounded, SpecFloat.canonical_mantissa in HC. apply andb_true_iff in HC.
      destruct HC as (HC & _). apply Zeq_bool_eq in HC. unfold SpecFloat.fexp, SpecFloat.emin in HC.
      rewrite Digits.Zpos_digits2_pos in HC.
      apply (Digits.Zpower_gt_Zdigits radix2 24 (Zpos m)). lia. }
    rewrite W2, W3, W1. cbn [Bsign B2R]. rewrite F2R_signed. unfold SpecFloat.emin in HB, HS.
    destruct (Z.leb_spec 0 (Zpos m - 2 ^ 23)).
    + destruct HB as (-> & ->). rewrite HS.
      destruct (Z.eqb_spec (e - (3 - 2 ^ (8 - 1) - (23 + 1)) + 1) 255); [lia|].
      destruct (Z.eqb_spec (e - (3 - 2 ^ (8 - 1) - (23 + 1)) + 1) 0); [lia|].
      split; [reflexivity|]. split; [reflexivity|].
      replace (2 ^ 23 + (Zpos m - 2 ^ 23)) with (Zpos m) by lia.
      replace (e - (3 - 2 ^ (8 - 1) - (23 + 1)) + 1 - 150) with e by lia. ring.
    + destruct HB as (-> & ->). rewrite HS. cbn [Z.eqb].
      split; [reflexivity|]. split; [reflexivity|]. rewrite Hsub by lia. ring.
Qed.
