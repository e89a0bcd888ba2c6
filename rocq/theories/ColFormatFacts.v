(** Collision meshes are read and written in the layout of SpecColFormat.v. *)
From Coq Require Import ZArith NArith List Bool Ascii Lia.
From Flocq Require Import IEEE754.Binary IEEE754.Bits.
From Verif Require Import PyBase Struct Mesh F64 Spec SpecF CodecBase CodecRaw CodecParam F64Facts CodecFacts Col SpecCol
  SpecFormat FormatFacts ColFacts SpecColFormat.
Import ListNotations.
Open Scope Z_scope.
Open Scope res_scope.

Section P.
Context (p : plat).
Notation W := (wall (wfield p)).

Lemma w_vec v : W (vec_fields v) = write_float3 p raw v.
Proof. destruct v as [[x y] z]. apply (w_triple p (Some (x, y, z))). eauto. Qed.
Lemma w_flat {A} (f : A -> list field) (w : A -> writer) l : (forall a, W (f a) = w a) -> W (flat_map f l) = wall w l.
Proof. intros H. rewrite wall_flat. apply wall_ext, Forall_forall. auto. Qed.
Lemma w_face f : W (face_fields f) = write_face p f.
Proof. unfold face_fields, write_face. rewrite !w_cons. cbn [wall wfield]. rewrite wseq_nil_r. reflexivity. Qed.
Lemma w_y y : W (y_fields y) = write_ystruct p raw y.
Proof. unfold y_fields, write_ystruct. rewrite !w_cons. cbn [wall wfield]. rewrite wseq_nil_r. reflexivity. Qed.

Lemma w_collod v l : W (collod_fields v l) = write_collod p raw v l.
Proof.
  unfold collod_fields, write_collod.
  rewrite wall_app, w_cons, wall_app, w_cons, !wall_app, w_cons, !wall_app, w_cons, wall_app, w_cons, wall_app.
  rewrite !w_vec, (w_flat _ _ _ w_face), (w_flat _ _ _ w_vec), (w_flat _ _ _ w_y), !wall_map.
  assert (W (if v <? 9 then [] else [FLong (cl_type l)]) = if 9 <=? v then write_long p (cl_type l) else wnil) as ->.
  { destruct (Z.ltb_spec v 9), (Z.leb_spec 9 v); try lia; [reflexivity|apply w_one]. }
  assert (W (if v <? 10 then [] else FLong (cl_anum l) :: map FLong (cl_adata l)) =
    if 10 <=? v then write_long p (cl_anum l) ;; wall (write_long p) (cl_adata l) else wnil) as ->.
  { destruct (Z.ltb_spec v 10), (Z.leb_spec 10 v); try lia; [reflexivity|]. rewrite w_cons, wall_map. reflexivity. }
  reflexivity.
Qed.

Lemma w_col m : W (col_fields m) = write_colmesh p raw m.
Proof.
  unfold col_fields, write_colmesh. rewrite !w_cons. cbn [wfield]. do 3 f_equal.
  apply w_flat. intros g. unfold write_colgeom. rewrite w_cons. f_equal.
  apply w_flat. intros s. unfold write_colsub. rewrite w_cons. f_equal.
  apply w_flat. apply w_collod.
Qed.

Lemma sized_vec v : vec3_all is_bits32 v -> Forall FormatFacts.sized (vec_fields v).
Proof. destruct v as [[x y] z]. intros H. exact (sized_triple (Some (x, y, z)) H). Qed.

Lemma sized_col m : col_all is_bits32 m -> Forall FormatFacts.sized (col_fields m).
Proof.
  unfold col_all, col_lods. intros H. apply Forall_flat_map in H. unfold col_fields. FormatFacts.sized.
  refine (sized_flat _ _ _ _ H). intros g Hg. unfold geom_lods in Hg. apply Forall_flat_map in Hg. FormatFacts.sized.
  refine (sized_flat _ _ _ _ Hg). intros s Hs. FormatFacts.sized.
  refine (sized_flat _ _ _ _ Hs). intros l (H1 & H2 & H3 & H4 & H5 & H6).
  unfold collod_fields. FormatFacts.sized; try (apply sized_map; intros; exact I); try (apply sized_vec; assumption).
  - destruct (cm_version m <? 9); FormatFacts.sized.
  - apply (sized_flat _ (fun _ => True)); [|apply Forall_forall; auto]. intros a _. unfold face_fields. FormatFacts.sized.
  - apply (sized_flat _ _ _ sized_vec H1).
  - refine (sized_flat _ _ _ _ H6). intros y Hy. unfold y_fields. apply Forall_cons; [exact Hy|]. FormatFacts.sized.
  - destruct (cm_version m <? 10); FormatFacts.sized. apply sized_map; intros; exact I.
Qed.

Theorem col_save_layout (m : colmesh binary64 colface) bs :
  write_colmesh p pack_f m = (bs, None) <-> laid_out p (col_fields (colmesh_map pack_f (fun x => x) m)) bs.
Proof.
  rewrite write_col_via, fields_written, w_col; [reflexivity|].
  apply sized_col. rewrite col_all_map. apply col_all_true, pack_range.
Qed.

Theorem col_load_layout bs m : col_load p unpack_f bs = Ok m <->
  exists (mr : colmesh Z colface) used rest, bs = used ++ rest /\ wf_col p mr /\ col_all is_bits32 mr /\
    laid_out p (col_fields mr) used /\ m = colmesh_map unpack_f reread mr.
Proof.
  split.
  - intros H. apply col_load_inv in H. destruct H as (m0 & H & ->).
    apply col_load_raw_ok in H. destruct H as (R & FR & used & rest & -> & E & _).
    exists (faces_map restored m0), used, rest. destruct (restored_wf p m0 FR R) as (W & B).
    split; [reflexivity|]. split; [exact W|]. split; [exact B|]. split.
    + apply fields_written; [apply sized_col, B|]. rewrite w_col. exact E.
    + unfold faces_map. rewrite colmesh_map_map.
      apply (colmesh_map_ext is_bits32 raw_face); auto; [|apply R].
      intros f (_ & F0 & n & Hn & _). destruct f as [a b c d e]. cbn in *. subst. reflexivity.
  - intros (mr & used & rest & -> & W & B & E & ->).
    apply fields_written in E; [|apply sized_col, B]. rewrite w_col in E.
    destruct (rtf_colmesh p mr (conj W B)) as (cs & E' & R). assert (cs = used) as -> by congruence.
    rewrite col_load_via. unfold col_load. rewrite R. cbn [bind rmap fst]. unfold faces_map.
    rewrite colmesh_map_map. reflexivity.
Qed.
End P.
