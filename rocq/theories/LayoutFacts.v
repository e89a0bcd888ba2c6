(** Packed meshes: the arrays are the concatenation of the materials' data, and a
    packed mesh is determined by that data. *)
From Coq Require Import ZArith List Bool Lia.
From Verif Require Import PyBase Struct Mesh Arith Edit SpecEdit TravFacts VertFacts.
Import ListNotations.
Open Scope Z_scope.

Section Layout.
Context {F : Type}.
Implicit Types (m : mesh F) (mt : mat F) (vs : nat).

(** Vertices and indices of a material. *)
Definition part : Type := (list (list F) * list Z)%type.
Definition data vs m mt : part := (mat_vertices vs m mt, mat_indices m mt).

(** Materials laid out one after the other from vertex [a] and index [b]. *)
Fixpoint laid (a b : Z) (ms : list (mat F)) (ps : list part) : Prop :=
  match ms, ps with
  | [], [] => True
  | mt :: ms, (vl, il) :: ps =>
      vstart mt = a /\ istart mt = b /\ vnum mt = zlen vl /\ inum mt = zlen il /\
      laid (a + zlen vl) (b + zlen il) ms ps
  | _, _ => False
  end.

Definition all_v (ps : list part) : list (list F) := flat_map fst ps.
Definition all_i (ps : list part) : list Z := flat_map snd ps.

Lemma laid_app a b ms1 ps1 ms2 ps2 :
  laid a b ms1 ps1 -> laid (a + zlen (all_v ps1)) (b + zlen (all_i ps1)) ms2 ps2 ->
  laid a b (ms1 ++ ms2) (ps1 ++ ps2).
Proof.
  revert a b ps1. induction ms1 as [|mt ms1 IH]; intros a b [|(vl, il) ps1] H1 H2; simpl in *; try contradiction.
  - now rewrite !Z.add_0_r in H2.
  - destruct H1 as (E1 & E2 & E3 & E4 & H1). repeat split; auto. apply IH; [exact H1|].
    unfold all_v, all_i, zlen in *. simpl in H2. rewrite !app_length, !Nat2Z.inj_add in H2.
    now rewrite !Z.add_assoc in H2.
Qed.

Lemma laid_length a b ms ps : laid a b ms ps -> length ms = length ps.
Proof.
  revert a b ps. induction ms as [|mt ms IH]; intros a b [|(vl, il) ps] H; simpl in *; try contradiction; auto.
  f_equal. eapply IH. apply H.
Qed.

Lemma laid_tiles_v a b ms ps : laid a b ms ps ->
  tiles a (map (fun mt => (vstart mt, vnum mt)) ms) (a + zlen (all_v ps)).
Proof.
  revert a b ps. induction ms as [|mt ms IH]; intros a b [|(vl, il) ps] H; simpl in *; try contradiction.
  - unfold zlen. simpl. lia.
  - destruct H as (E1 & E2 & E3 & E4 & H). rewrite E3. split; [exact E1|]. split; [unfold zlen; lia|].
    apply IH in H. unfold all_v in *. simpl. unfold zlen in *. rewrite app_length, Nat2Z.inj_add, Z.add_assoc. exact H.
Qed.
Lemma laid_tiles_i a b ms ps : laid a b ms ps ->
  tiles b (map (fun mt => (istart mt, inum mt)) ms) (b + zlen (all_i ps)).
Proof.
  revert a b ps. induction ms as [|mt ms IH]; intros a b [|(vl, il) ps] H; simpl in *; try contradiction.
  - unfold zlen. simpl. lia.
  - destruct H as (E1 & E2 & E3 & E4 & H). rewrite E4. split; [exact E2|]. split; [unfold zlen; lia|].
    apply IH in H. unfold all_i in *. simpl. unfold zlen in *. rewrite app_length, Nat2Z.inj_add, Z.add_assoc. exact H.
Qed.

Lemma block_concat vs (r : list (list F)) i : Forall (fun v => length v = vs) r -> (i < length r)%nat ->
  Some (block vs (concat r) i) = nth_error r i.
Proof.
  intros H. revert i. induction H as [|v r Hv H IH]; intros i Hi; simpl in *; [lia|].
  unfold block in *. destruct i; simpl.
  - f_equal. rewrite firstn_app, Hv, Nat.sub_diag. simpl. rewrite app_nil_r. rewrite <- Hv. apply firstn_all.
  - rewrite <- IH by lia. f_equal. f_equal. rewrite skipn_app, Hv.
    rewrite skipn_all2 by lia. simpl. f_equal. lia.
Qed.

Lemma blocks_sub vs (l1 vl l2 : list (list F)) : Forall (fun v => length v = vs) (l1 ++ vl ++ l2) ->
  map (fun i => block vs (concat (l1 ++ vl ++ l2)) (length l1 + i)) (seq 0 (length vl)) = vl.
Proof.
  intros H. apply nth_ext_error. intros c. rewrite nth_error_map.
  destruct (Nat.ltb_spec c (length vl)) as [Hc|Hc].
  - rewrite (nth_error_nth' _ 0%nat) by (rewrite seq_length; lia). rewrite seq_nth by lia. simpl.
    rewrite block_concat by (auto; rewrite !app_length; lia).
    rewrite nth_error_app2 by lia. rewrite nth_error_app1 by lia. f_equal. lia.
  - rewrite (proj2 (nth_error_None (seq 0 (length vl)) c)) by (rewrite seq_length; lia).
    symmetry. apply nth_error_None. lia.
Qed.

Lemma laid_data vs m : forall ms ps, laid 0 0 ms ps -> Forall (Forall (fun v => length v = vs)) (map fst ps) ->
  vertices m = concat (all_v ps) -> index m = Tuple (all_i ps) ->
  Forall2 (fun mt p => data vs m mt = p) ms ps.
Proof.
  assert (forall pre ms ps, laid (zlen (all_v pre)) (zlen (all_i pre)) ms ps ->
    Forall (Forall (fun v => length v = vs)) (map fst (pre ++ ps)) ->
    vertices m = concat (all_v (pre ++ ps)) -> index m = Tuple (all_i (pre ++ ps)) ->
    Forall2 (fun mt p => data vs m mt = p) ms ps) as G; [|intros ms ps H; apply (G [] ms ps); exact H].
  intros pre ms ps. revert pre ms. induction ps as [|(vl, il) ps IH]; intros pre [|mt ms] H HL HV HI; simpl in H; try contradiction; constructor.
  - destruct H as (E1 & E2 & E3 & E4 & _). unfold data. f_equal.
    + unfold mat_vertices. rewrite E1, E3, HV. unfold zlen. rewrite !Nat2Z.id. unfold all_v. rewrite flat_map_app. simpl.
      apply blocks_sub. rewrite map_app in HL. simpl in HL.
      assert (forall l : list part, Forall (Forall (fun v => length v = vs)) (map fst l) -> Forall (fun v => length v = vs) (flat_map fst l)) as FF.
      { induction l as [|x l IHl]; simpl; intros Hl; [constructor|]. inversion Hl; subst. apply Forall_app. auto. }
      apply Forall_app in HL. destruct HL as (HL1 & HL2). inversion HL2 as [|? ? HL3 HL4]; subst.
      apply Forall_app. split; [apply FF, HL1|]. apply Forall_app. split; [exact HL3|apply FF, HL4].
    + unfold mat_indices, index_list. rewrite E2, E4, HI. unfold zlen. rewrite !Nat2Z.id. unfold all_i.
      rewrite flat_map_app. simpl. rewrite skipn_app, skipn_all, Nat.sub_diag. cbn [app skipn].
      rewrite firstn_app, firstn_all, Nat.sub_diag. cbn [firstn]. apply app_nil_r.
  - apply (IH (pre ++ [(vl, il)])).
    + destruct H as (_ & _ & _ & _ & H). unfold all_v, all_i in *. rewrite !flat_map_app. simpl. rewrite !app_nil_r.
      unfold zlen in *. rewrite !app_length, !Nat2Z.inj_add. exact H.
    + now rewrite <- app_assoc.
    + now rewrite <- app_assoc.
    + now rewrite <- app_assoc.
Qed.

Lemma concat_len vs (r : list (list F)) : Forall (fun v => length v = vs) r -> zlen (concat r) = zlen r * Z.of_nat vs.
Proof. intros H. unfold zlen. rewrite (concat_length_const vs) by exact H. lia. Qed.

Lemma parts_lengths vs (ps : list part) : Forall (Forall (fun v => length v = vs)) (map fst ps) ->
  Forall (fun v => length v = vs) (all_v ps).
Proof.
  unfold all_v. induction ps as [|x l IHl]; simpl; intros Hl; [constructor|]. inversion Hl; subst. apply Forall_app. auto.
Qed.

(** A mesh laid out with given parts is packed and its materials own these parts. *)
Theorem laid_packed vs m ps : laid 0 0 (mats m) ps -> Forall (Forall (fun v => length v = vs)) (map fst ps) ->
  vertices m = concat (all_v ps) -> index m = Tuple (all_i ps) ->
  packed vs m /\ Forall2 (fun mt p => data vs m mt = p) (mats m) ps.
Proof.
  intros H HL HV HI. split; [split|now apply laid_data].
  - exists (zlen (all_v ps)). split.
    + rewrite HV. apply concat_len. now apply parts_lengths.
    + apply laid_tiles_v in H. exact H.
  - exists (all_i ps). split; [exact HI|]. apply laid_tiles_i in H. exact H.
Qed.

(** Conversely. *)
Lemma tiled_indices_concat m l : index m = Tuple l ->
  tiles 0 (map (fun mt => (istart mt, inum mt)) (mats m)) (zlen l) ->
  flat_map (mat_indices m) (mats m) = l.
Proof.
  intros HI T. unfold mat_indices, index_list. rewrite HI.
  assert (forall ms a, 0 <= a -> tiles a (map (fun mt : mat F => (istart mt, inum mt)) ms) (zlen l) ->
    flat_map (fun mt => firstn (Z.to_nat (inum mt)) (skipn (Z.to_nat (istart mt)) l)) ms = skipn (Z.to_nat a) l) as G.
  { induction ms as [|mt ms IH]; simpl; intros a Ha H.
    - subst a. unfold zlen. rewrite Nat2Z.id. symmetry. apply skipn_all.
    - destruct H as (-> & H1 & H2). rewrite (IH (a + inum mt)) by (auto; lia).
      rewrite Z2Nat.inj_add by lia.  rewrite <- skipn_skipn'. apply firstn_skipn. }
  now rewrite (G _ 0) by (auto; lia).
Qed.

Theorem packed_laid vs m : packed vs m ->
  laid 0 0 (mats m) (map (data vs m) (mats m)) /\
  vertices m = concat (all_v (map (data vs m) (mats m))) /\ index m = Tuple (all_i (map (data vs m) (mats m))).
Proof.
  intros (TV & l & HI & TI). pose proof (tiled_vin vs m TV) as Hin. destruct TV as (n & EV & TV).
  split; [|split].
  - assert (forall ms a b c, Forall (mat_vin vs m) ms -> 0 <= b -> c <= zlen l ->
      tiles a (map (fun mt => (vstart mt, vnum mt)) ms) n -> tiles b (map (fun mt => (istart mt, inum mt)) ms) c ->
      laid a b ms (map (data vs m) ms)) as G.
    { induction ms as [|mt ms IH]; simpl; intros a b c Hv Hb Hc H1 H2; [exact I|].
      destruct H1 as (E1 & V1 & H1), H2 as (E2 & V2 & H2). inversion Hv; subst.
      pose proof (tiles_le _ _ _ H2).
      assert (zlen (mat_vertices vs m mt) = vnum mt) as L1.
      { unfold zlen, mat_vertices. rewrite map_length, seq_length. lia. }
      assert (zlen (mat_indices m mt) = inum mt) as L2.
      { unfold zlen, mat_indices, index_list. rewrite HI, firstn_length, skipn_length. unfold zlen in *. lia. }
      rewrite L1, L2. repeat split; auto. apply (IH _ _ c); auto. lia. }
    apply (G _ _ _ (zlen l)); auto; lia.
  - unfold all_v. rewrite flat_map_concat_map, map_map. cbn [data fst]. rewrite <- flat_map_concat_map.
    change (flat_map (fun x => mat_vertices vs m x) (mats m)) with (flat_map (mat_vertices vs m) (mats m)).
    rewrite (tiled_blocks vs m n EV TV). pose proof (tiles_le _ _ _ TV).
    pose proof (concat_blocks vs (vertices m) (Z.to_nat n) 0) as B.
    rewrite B. rewrite firstn_all2; [reflexivity|]. simpl. unfold zlen in EV. nia.
  - rewrite HI. f_equal. unfold all_i. rewrite flat_map_concat_map, map_map. cbn [data snd].
    rewrite <- flat_map_concat_map. symmetry. now apply tiled_indices_concat.
Qed.

(** ** Uniqueness *)
Lemma unplaced_eq mt mt' : unplaced mt = unplaced mt' -> vstart mt = vstart mt' -> istart mt = istart mt' -> mt = mt'.
Proof. destruct mt, mt'. unfold unplaced. cbn. intros H E1 E2. injection H. intros. now subst. Qed.

Lemma cons_eq {B} (x y : B) l l' : x :: l = y :: l' -> x = y /\ l = l'.
Proof. intros H. now injection H. Qed.

Lemma laid_unique a b ms ms' ps : laid a b ms ps -> laid a b ms' ps -> map unplaced ms = map unplaced ms' -> ms = ms'.
Proof.
  revert a b ms' ps. induction ms as [|mt ms IH]; intros a b [|mt' ms'] [|(vl, il) ps] H H' E; simpl in *; try contradiction; auto.
  apply cons_eq in E. destruct E as (E1 & E2). f_equal.
  - apply unplaced_eq; [exact E1| |]; destruct H as (H1 & H2 & _), H' as (H3 & H4 & _); congruence.
  - eapply IH; [apply H|apply H'|exact E2].
Qed.

Lemma lods_mats_map f ls : lods_mats (map (lod_mats f) ls) = map f (lods_mats (F:=F) ls).
Proof. induction ls as [|l ls IH]; simpl; [reflexivity|]. rewrite map_app. now rewrite <- IH. Qed.
Lemma mats_of_map f gs : mats_of (map (geom_mats f) gs) = map f (mats_of (F:=F) gs).
Proof.
  induction gs as [|g gs IH]; simpl; [reflexivity|]. fold (mats_of gs). fold (mats_of (map (geom_mats f) gs)).
  rewrite map_app, <- IH. f_equal. apply lods_mats_map.
Qed.

Lemma app_inv_len {B} (x x' t t' : list B) : length x = length x' -> x ++ t = x' ++ t' -> x = x' /\ t = t'.
Proof.
  revert x'. induction x as [|a x IH]; intros [|a' x'] EL M; simpl in *; try discriminate; auto.
  apply cons_eq in M. destruct M as (-> & M). destruct (IH x' ltac:(lia) M) as (-> & ->). auto.
Qed.

Lemma lods_unique f ls ls' : map (lod_mats f) ls = map (lod_mats f) ls' -> lods_mats (F:=F) ls = lods_mats ls' -> ls = ls'.
Proof.
  revert ls'. induction ls as [|l ls IH]; intros [|l' ls'] E M; simpl in *; try discriminate; auto.
  apply cons_eq in E. destruct E as (E1 & E2).
  assert (length (materials l) = length (materials l')) as EL.
  { apply (f_equal (fun x => length (materials x))) in E1. simpl in E1. now rewrite !map_length in E1. }
  assert (materials l = materials l' /\ lods_mats ls = lods_mats ls') as (M1 & M2).
  { now apply app_inv_len. }
  f_equal; [|now apply IH]. destruct l, l'. unfold lod_mats in E1. cbn in *. injection E1. intros. now subst.
Qed.

Lemma geoms_unique f gs gs' : map (geom_mats f) gs = map (geom_mats f) gs' -> mats_of (F:=F) gs = mats_of gs' -> gs = gs'.
Proof.
  revert gs'. induction gs as [|g gs IH]; intros [|g' gs'] E M; simpl in *; try discriminate; auto.
  apply cons_eq in E. destruct E as (E1 & E3). assert (map (lod_mats f) (lods g) = map (lod_mats f) (lods g')) as E2 by (apply (f_equal lods) in E1; exact E1).
  assert (length (lods_mats (lods g)) = length (lods_mats (lods g'))) as EL.
  { apply (f_equal (fun x => length (lods_mats x))) in E2. rewrite !lods_mats_map, !map_length in E2. exact E2. }
  apply app_inv_len in M; [|exact EL]. destruct M as (M1 & M2). f_equal; [|now apply IH].
  destruct g, g'. cbn in *. f_equal; [injection E1; auto|]. eapply lods_unique; eauto.
Qed.

Lemma mesh_eq m m' : same_header m m' -> same_counts m m' -> geoms m = geoms m' -> vertices m = vertices m' ->
  index m = index m' -> m = m'.
Proof.
  unfold same_header, same_counts. destruct m, m'. cbn. intros HH HC. intros.
  destruct HH as (-> & -> & -> & -> & -> & -> & -> & -> & ->), HC as (-> & ->). congruence.
Qed.

(** A packed mesh is determined by its header, counts, material records without
    places, and the data of each material. *)
Theorem packed_unique vs m m' : packed vs m -> packed vs m' -> same_header m m' -> same_counts m m' ->
  map (geom_mats unplaced) (geoms m) = map (geom_mats unplaced) (geoms m') ->
  Forall2 (fun mt mt' => data vs m mt = data vs m' mt') (mats m) (mats m') -> m = m'.
Proof.
  intros P P' HH HC HG HD. apply packed_laid in P. destruct P as (L & V & I). apply packed_laid in P'. destruct P' as (L' & V' & I').
  assert (map (data vs m) (mats m) = map (data vs m') (mats m')) as ED.
  { clear -HD. induction HD; simpl; f_equal; auto. }
  rewrite <- ED in L', V', I'.
  assert (geoms m = geoms m') as EG.
  { apply (geoms_unique unplaced); [exact HG|]. apply (laid_unique 0 0 _ _ _ L L').
    unfold mats. rewrite <- !mats_of_map. now rewrite HG. }
  apply mesh_eq; auto; congruence.
Qed.

(** put_mats keeps everything else. *)
Lemma put_lods_map f ls ms : length ms = length (lods_mats (F:=F) ls) -> map f ms = map f (lods_mats ls) ->
  map (lod_mats f) (put_lods ls ms) = map (lod_mats f) ls.
Proof.
  revert ms. induction ls as [|l ls IH]; intros ms L E; simpl in *; [reflexivity|].
  change (flat_map materials ls) with (lods_mats ls) in *. rewrite app_length in L. rewrite map_app in E.
  rewrite <- (firstn_skipn (length (materials l)) ms), map_app in E.
  apply app_inv_len in E; [|rewrite !map_length, firstn_length; lia]. destruct E as (E1 & E2).
  f_equal.
  - unfold lod_mats, set_materials. cbn. now rewrite E1.
  - apply IH; [rewrite skipn_length; lia|exact E2].
Qed.
Lemma put_mats_map f gs ms : length ms = length (mats_of (F:=F) gs) -> map f ms = map f (mats_of gs) ->
  map (geom_mats f) (put_mats gs ms) = map (geom_mats f) gs.
Proof.
  revert ms. induction gs as [|g gs IH]; intros ms L E; simpl in *; [reflexivity|].
  change (flat_map (fun g => flat_map materials (lods g)) gs) with (mats_of gs) in *.
  change (flat_map materials (lods g)) with (lods_mats (lods g)) in *.
  rewrite app_length in L. rewrite map_app in E.
  rewrite <- (firstn_skipn (length (lods_mats (lods g))) ms), map_app in E.
  apply app_inv_len in E; [|rewrite !map_length, firstn_length; lia]. destruct E as (E1 & E2).
  f_equal.
  - unfold geom_mats, set_lods. cbn. f_equal. apply put_lods_map; [rewrite firstn_length; lia|exact E1].
  - apply IH; [rewrite skipn_length; lia|exact E2].
Qed.
End Layout.
