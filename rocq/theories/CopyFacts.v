(** mesh_order_fix.py: copy_geom_table. *)
From Coq Require Import ZArith List Bool Lia.
From Verif Require Import PyBase Struct Mesh Arith Edit OldEdit Trans Scripts Spec SpecEdit SpecOldEdit SpecTrans DivFacts TravFacts VertFacts
  LayoutFacts Old OldEditFacts TransFacts DeleteFacts.
Import ListNotations.
Open Scope Z_scope.
Open Scope res_scope.

Section CopyFacts.
Context {F : Type}.
Implicit Types (m : mesh F).

Lemma flat_map_map {X Y Z} (f : Y -> list Z) (g : X -> Y) l : flat_map f (map g l) = flat_map (fun x => f (g x)) l.
Proof. induction l as [|x t IH]; [reflexivity|]. cbn [map flat_map]. now rewrite IH. Qed.

Section Copy.
Context (vs : nat) (m1 m2 : mesh F).
Hypothesis (Hvs : (0 < vs)%nat) (Hf0 : 0 < vertformat m1) (HS : vertstride m1 = Z.of_nat vs * vertformat m1).
Hypothesis (HB : zlen (vertices m2) <= 2 ^ 53) (HV : Z.of_nat vs <= 2 ^ 53) (R2 : in_range vs m2).

Let Hf : vertformat m1 <> 0.
Proof. lia. Qed.

Notation sm := (shift_mat (- vertnum m1) (- indexnum m1)).
Notation sg := (shift_geom (F:=F) (- vertnum m1) (- indexnum m1)).
Definition add_mat (s : list F * list Z) (mt : mat F) : list F * list Z :=
  (fst s ++ concat (mat_vertices vs m2 mt), snd s ++ mat_indices m2 mt).
Definition tup (s : list F * list Z) : list F * pyseq Z := (fst s, Tuple (snd s)).

Lemma copy_mat_ok s mt : In mt (mats m2) -> copy_mat true true m1 m2 (tup s) mt = (tup (add_mat s mt), sm mt, None).
Proof.
  intros H. destruct R2 as ((il & EI) & R). rewrite Forall_forall in R. pose proof (R mt H) as (I1 & I2 & I3 & I4 & I5 & I6).
  destruct s as (v, ix). unfold copy_mat, tup. cbn [fst snd].
  destruct (truediv_exact (Z.of_nat vs) (vertformat m1) Hf) as (q & Eq & D); [lia|]. rewrite HS, Eq. cbn [bind].
  assert (forall x, 0 <= x -> x * Z.of_nat vs <= 2 ^ 53 -> (do y <- py_fmul_int q x; py_int y) = Ok (Z.of_nat vs * x)) as M.
  { intros x H0 Hx. pose proof (data_num_exact (Z.of_nat vs) (vertformat m1) x Hf) as DN. unfold data_num in DN. rewrite Eq in DN. cbn [bind] in DN. apply DN; nia. }
  pose proof (M (vstart mt) I1 ltac:(nia)) as Ma. pose proof (M (vnum mt) I2 ltac:(nia)) as Mn.
  destruct (py_fmul_int q (vstart mt)) as [x|]; [|discriminate]. cbn [bind] in *. rewrite Ma. cbn [bind].
  destruct (py_fmul_int q (vnum mt)) as [y|]; [|discriminate]. cbn [bind] in *. rewrite Mn. cbn [bind negb].
  assert (py_slice (vertices m2) (Z.of_nat vs * vstart mt) (Z.of_nat vs * vstart mt + Z.of_nat vs * vnum mt) = concat (mat_vertices vs m2 mt)) as ->.
  { rewrite <- vdata_blocks, <- mat_slice by (repeat split; assumption). f_equal; ring. }
  rewrite EI. cbn [index_slice]. assert (py_slice il (istart mt) (istart mt + inum mt) = mat_indices m2 mt) as ->.
  { unfold mat_indices, index_list in *. rewrite EI in *. now apply py_slice_in. }
  unfold add_mat. cbn [fst snd].
  destruct (mat_indices m2 mt) as [|i t]; [rewrite app_nil_r|]; do 2 f_equal; unfold shift_mat, set_mat_layout; cbn; f_equal; lia.
Qed.
Definition add_lod (s : list F * list Z) (l : lod F) := fold_left add_mat (materials l) s.
Definition add_geom (s : list F * list Z) (g : geom F) := fold_left add_lod (lods g) s.

Lemma fold_mut_tup {X} (f : nat -> list F * pyseq Z -> X -> (list F * pyseq Z) * X * option exn) (h : X -> X) (ad : list F * list Z -> X -> list F * list Z) : forall l i s,
  (forall i s x, In x l -> f i (tup s) x = (tup (ad s x), h x, None)) -> fold_mut_from f i (tup s) l = (tup (fold_left ad l s), map h l, None).
Proof.
  induction l as [|x t IH]; intros i s H; [reflexivity|]. cbn [fold_mut_from fold_left map]. rewrite H by now left.
  rewrite IH; [reflexivity|]. intros j s' y Hy. apply H. now right.
Qed.
Lemma copy_geom_ok s g : In g (geoms m2) -> trav_geom (fun _ _ => copy_mat true true m1 m2) (tup s) g = (tup (add_geom s g), sg g, None).
Proof.
  intros Hg. unfold trav_geom, fold_mut.
  rewrite (fold_mut_tup _ (fun l => set_materials l (map sm (materials l))) add_lod); [reflexivity|].
  intros i s0 l Hl. unfold trav_lod, fold_mut. rewrite (fold_mut_tup _ sm add_mat); [reflexivity|].
  intros j s1 mt Hm. apply copy_mat_ok. unfold mats, mats_of. apply in_flat_map. exists g. split; [exact Hg|]. apply in_flat_map. now exists l.
Qed.

Hypothesis (HG : geomnum m1 = zlen (geoms m1)).
Lemma copy_step_ok s k g : nth_error (geoms m2) k = Some g ->
  copy_step true true m1 m2 (tup s, geoms m1, map sg (firstn k (geoms m2)) ++ skipn k (geoms m2)) k =
  ((tup (add_geom s g), geoms m1, map sg (firstn (S k) (geoms m2)) ++ skipn (S k) (geoms m2)), None).
Proof.
  intros H. assert (k < length (geoms m2))%nat as Hk by (apply nth_error_Some; congruence).
  assert (geoms m2 = firstn k (geoms m2) ++ g :: skipn (S k) (geoms m2)) as E.
  { rewrite <- (firstn_skipn k (geoms m2)) at 1. f_equal. clear -H. revert H. generalize (geoms m2). intros l. revert k. induction l as [|x t IH]; intros [|k] H; try discriminate; cbn in *; [now injection H as ->|]. now apply IH. }
  assert (skipn k (geoms m2) = g :: skipn (S k) (geoms m2)) as ES.
  { rewrite E at 1. rewrite skipn_app, skipn_all2 by (rewrite firstn_length; lia). rewrite firstn_length, Nat.min_l, Nat.sub_diag by lia. reflexivity. }
  assert (firstn (S k) (geoms m2) = firstn k (geoms m2) ++ [g]) as EF.
  { rewrite E at 1. rewrite firstn_app, firstn_length, Nat.min_l by lia. rewrite firstn_all2 by (rewrite firstn_length; lia).
    replace (S k - k)%nat with 1%nat by lia. reflexivity. }
  unfold copy_step. rewrite ES, EF, map_app. cbn [map].
  set (P := map sg (firstn k (geoms m2))). assert (length P = k) as LP by (unfold P; rewrite map_length, firstn_length; lia).
  set (Q := skipn (S k) (geoms m2)). clearbody Q.
  assert (firstn (S k) (P ++ g :: Q) = P ++ [g]) as ->.
  { rewrite firstn_app, LP. rewrite firstn_all2 by lia. now replace (S k - k)%nat with 1%nat by lia. }
  rewrite norm_index_nonneg by (rewrite HG; unfold zlen; lia). rewrite HG.
  assert (zlen (geoms m1 ++ P ++ [g]) = zlen (geoms m1) + Z.of_nat k + 1) as -> by (unfold zlen; rewrite !app_length; cbn [length]; lia).
  destruct (Z.ltb_spec (Z.of_nat k + zlen (geoms m1)) (zlen (geoms m1) + Z.of_nat k + 1)); [|lia].
  replace (Z.to_nat (Z.of_nat k + zlen (geoms m1))) with (length (geoms m1) + k)%nat by (unfold zlen; lia).
  rewrite nth_error_app2 by lia. replace (length (geoms m1) + k - length (geoms m1))%nat with k by lia.
  rewrite nth_error_app2 by lia. rewrite LP, Nat.sub_diag. cbn [nth_error].
  rewrite copy_geom_ok by (eapply nth_error_In; exact H). destruct (Nat.ltb_spec (length (geoms m1) + k) (length (geoms m1))); [lia|].
  replace (length (geoms m1) + k - length (geoms m1))%nat with k by lia. do 2 f_equal.
  clearbody P. clear -LP. revert k LP. induction P as [|x P IH]; intros k LP; cbn [length] in LP; subst k; [reflexivity|]. cbn. f_equal. now apply IH.
Qed.
Lemma copy_loop_ok n : forall k s, (k + n = length (geoms m2))%nat ->
  copy_loop true true m1 m2 n k (tup s, geoms m1, map sg (firstn k (geoms m2)) ++ skipn k (geoms m2)) =
  ((tup (fold_left add_geom (skipn k (geoms m2)) s), geoms m1, map sg (geoms m2)), length (geoms m2), None).
Proof.
  induction n as [|n IH]; intros k s Hk; cbn [copy_loop].
  - rewrite firstn_all2, skipn_all2 by lia. cbn [fold_left]. rewrite app_nil_r. do 2 f_equal. lia.
  - destruct (nth_error (geoms m2) k) as [g|] eqn:E; [|apply nth_error_None in E; lia]. rewrite (copy_step_ok s k g E).
    rewrite IH by lia. do 4 f_equal. clear -E. revert k E. induction (geoms m2) as [|x t IH]; intros [|k] E; try discriminate; cbn in *; [now injection E as ->|].
    specialize (IH k E). destruct t; [now destruct k|]. exact IH.
Qed.

Lemma add_geoms gs : forall s, fold_left add_geom gs s =
  (fst s ++ concat (flat_map (mat_vertices vs m2) (mats_of gs)), snd s ++ flat_map (mat_indices m2) (mats_of gs)).
Proof.
  assert (forall ms s, fold_left add_mat ms s = (fst s ++ concat (flat_map (mat_vertices vs m2) ms), snd s ++ flat_map (mat_indices m2) ms)) as G1.
  { induction ms as [|mt t IH]; intros (v, i); cbn [fold_left flat_map concat fst snd]; [now rewrite !app_nil_r|]. rewrite IH. cbn [add_mat fst snd]. now rewrite concat_app, !app_assoc. }
  assert (forall ls s, fold_left add_lod ls s = fold_left add_mat (flat_map materials ls) s) as G2.
  { induction ls as [|l t IH]; intros s; cbn [fold_left flat_map]; [reflexivity|]. rewrite IH, fold_left_app. reflexivity. }
  intros s. rewrite <- G1. revert s. induction gs as [|g t IH]; intros s; cbn [fold_left]; [reflexivity|]. unfold mats_of. cbn [flat_map]. rewrite fold_left_app, IH.
  unfold add_geom. now rewrite G2.
Qed.

Hypothesis (HN1 : zlen (vertices m1) = vertnum m1 * Z.of_nat vs) (HI1 : has_tuple m1).
Hypothesis (HB2 : zlen (vertices m1) + sumZ vnum (mats m2) * Z.of_nat vs <= 2 ^ 53).

Definition copied : mesh F :=
  set_counts (set_geom_table (set_index (set_vertices (set_geoms m1 (geoms m1 ++ map sg (geoms m2)))
      (vertices m1 ++ concat (flat_map (mat_vertices vs m2) (mats m2)))) (Tuple (index_list m1 ++ flat_map (mat_indices m2) (mats m2))))
      (zlen (geoms m1) + zlen (geoms m2)) (geoms m1 ++ map sg (geoms m2)))
    (vertnum m1 + sumZ vnum (mats m2)) (zlen (index_list m1) + sumZ inum (mats m2)).
Lemma sums_in ms : Forall (mat_in vs m2) ms -> zlen (flat_map (mat_vertices vs m2) ms) = sumZ vnum ms /\ zlen (flat_map (mat_indices m2) ms) = sumZ inum ms /\
  Forall (fun v => length v = vs) (flat_map (mat_vertices vs m2) ms) /\ 0 <= sumZ vnum ms.
Proof.
  induction 1 as [|mt t H HT IH]; [repeat split; try constructor; reflexivity|]. destruct IH as (I1 & I2 & I3 & I4). cbn [flat_map sumZ].
  pose proof (mat_in_vin _ _ _ H) as Hv. pose proof (mat_vertices_length vs m2 mt Hv) as L2.
  assert (length (mat_vertices vs m2 mt) = Z.to_nat (vnum mt)) as L1 by (unfold mat_vertices; now rewrite map_length, seq_length). destruct H as (B1 & B2 & B3 & B4 & B5 & B6).
  unfold zlen in *. rewrite !app_length. split; [lia|]. split; [|split; [apply Forall_app; auto|lia]].
  assert (length (mat_indices m2 mt) = Z.to_nat (inum mt)) as -> by (unfold mat_indices; rewrite firstn_length, skipn_length; lia). lia.
Qed.
Theorem copy_run : copy_geom_table true true m1 m2 = (copied, set_geoms m2 (map sg (geoms m2)), None).
Proof.
  unfold copy_geom_table. destruct HI1 as (il & EI). pose proof (copy_loop_ok (length (geoms m2)) 0 (vertices m1, il) eq_refl) as L.
  rewrite firstn_O in L. cbn [map app skipn] in L. unfold tup at 1 in L. cbn [fst snd] in L. rewrite EI, L, add_geoms. unfold tup. cbn [fst snd].
  fold (mats m2). destruct (sums_in (mats m2) (proj2 R2)) as (S1 & S2 & S3 & S4).
  assert (zlen (vertices m1 ++ concat (flat_map (mat_vertices vs m2) (mats m2))) = (vertnum m1 + sumZ vnum (mats m2)) * Z.of_nat vs) as EL.
  { pose proof (concat_len vs _ S3) as X. unfold zlen in *. rewrite app_length. lia. }
  assert (0 <= vertnum m1) by (unfold zlen in HN1; nia).
  rewrite EL, HS, old_vertnum_exact; try lia.
  - unfold copied, index_list. rewrite EI.
    assert (zlen (il ++ flat_map (mat_indices m2) (mats m2)) = zlen il + sumZ inum (mats m2)) as -> by (unfold zlen in *; rewrite app_length; lia).
    rewrite firstn_all2 by (rewrite map_length; lia).
    assert (zlen (geoms m1 ++ map sg (geoms m2)) = zlen (geoms m1) + zlen (geoms m2)) as E by (unfold zlen; rewrite app_length, map_length; lia).
    cbn [geoms set_index set_vertices set_geoms]. rewrite E. reflexivity.
Qed.

Hypothesis (P1 : packed vs m1) (P2 : packed vs m2) (HJ : indexnum m1 = zlen (index_list m1)).
Theorem copied_packed : packed vs copied /\ map (geom_data vs copied) (geoms copied) = map (geom_data vs m1) (geoms m1) ++ map (geom_data vs m2) (geoms m2).
Proof.
  pose proof (packed_laid vs m1 P1) as (L1 & V1 & I1). pose proof (packed_laid vs m2 P2) as (L2 & V2 & I2).
  set (p1 := map (data vs m1) (mats m1)) in *. set (p2 := map (data vs m2) (mats m2)) in *.
  pose proof (tiled_vin _ _ (proj1 P1)) as T1. pose proof (tiled_vin _ _ (proj1 P2)) as T2.
  assert (forall m, Forall (mat_vin vs m) (mats m) -> Forall (Forall (fun v => length v = vs)) (map fst (map (data vs m) (mats m)))) as FL.
  { intros m T. rewrite map_map. apply Forall_map. eapply Forall_impl; [|exact T]. intros mt Hm. cbn. now apply mat_vertices_length. }
  assert (mats copied = mats m1 ++ map sm (mats m2)) as EM.
  { unfold mats. cbn [geoms copied set_counts set_geom_table]. rewrite mats_of_app, shift_mats. reflexivity. }
  assert (index_list m1 = all_i p1) as EI by (unfold index_list; now rewrite I1).
  assert (laid 0 0 (mats copied) (p1 ++ p2)) as LC.
  { rewrite EM. apply laid_app; [exact L1|].
    assert (zlen (all_v p1) = vertnum m1) as ->.
    { pose proof (concat_len vs _ (parts_lengths _ _ (FL m1 T1))) as X. fold p1 in X. rewrite <- V1 in X. nia. }
    rewrite <- EI, <- HJ. pose proof (laid_shift 0 0 (- vertnum m1) (- indexnum m1) _ _ L2) as X. now rewrite !Z.sub_0_l, !Z.opp_involutive in X. }
  destruct (laid_packed vs copied (p1 ++ p2) LC) as (PK & D).
  - rewrite map_app. apply Forall_app. split; [exact (FL m1 T1)|exact (FL m2 T2)].
  - cbn [vertices copied set_counts set_geom_table set_index set_vertices]. unfold all_v. rewrite flat_map_app, concat_app. f_equal; [exact V1|].
    f_equal. unfold p2. rewrite flat_map_map. reflexivity.
  - cbn [index copied set_counts set_geom_table set_index set_vertices]. unfold all_i. rewrite flat_map_app, EI. f_equal. f_equal.
    unfold p2. rewrite flat_map_map. reflexivity.
  - split; [exact PK|].
    assert (map (data vs copied) (mats copied) = p1 ++ p2) as ED.
    { clear -D. induction D as [|x y l l' H D IH]; [reflexivity|]. cbn [map]. now rewrite H, IH. }
    assert (map (data vs copied) (mats_of (geoms m1)) = p1 /\ map (data vs copied) (mats_of (map sg (geoms m2))) = p2) as (D1 & D2).
    { rewrite EM, map_app in ED. apply app_inv_length in ED; [|unfold p1; now rewrite !map_length]. rewrite shift_mats. exact ED. }
    cbn [geoms copied set_counts set_geom_table]. rewrite map_app. f_equal.
    + apply (split_data (data vs copied) (data vs m1)); [reflexivity|exact D1].
    + apply (split_data (data vs copied) (data vs m2)); [|exact D2]. rewrite map_map. apply map_ext. intros g. apply shift_unplaced.
Qed.
Lemma copied_unplaced : map (geom_mats unplaced) (geoms copied) = map (geom_mats unplaced) (geoms m1) ++ map (geom_mats unplaced) (geoms m2).
Proof. cbn [geoms copied set_counts set_geom_table]. rewrite map_app, map_map. f_equal. apply map_ext. intros g. apply shift_unplaced. Qed.

Lemma shift_wf p v b sk vn inn (g : geom F) : wf_geom p v b sk g ->
  Forall (fun mt => is_long p (vstart mt - vn) /\ is_long p (istart mt - inn)) (flat_map materials (lods g)) -> wf_geom p v b sk (shift_geom vn inn g).
Proof.
  intros ((G1 & G2) & G3) HL. split; [split; [exact G1|]; cbn [lods shift_geom set_lods]; now rewrite map_length|]. cbn [lods shift_geom set_lods].
  rewrite Forall_forall in G3, HL. apply Forall_forall. intros lo Hlo. apply in_map_iff in Hlo. destruct Hlo as (lo0 & <- & Hlo).
  destruct (G3 lo0 Hlo) as (L1 & L2 & L3 & L4 & (L5 & L5') & L6). repeat (split; [assumption|]). cbn [matnum materials set_materials].
  split; [split; [exact L5|now rewrite map_length]|]. rewrite Forall_forall in L6. apply Forall_forall. intros ma Hma. apply in_map_iff in Hma. destruct Hma as (ma0 & <- & Hma).
  destruct (HL ma0) as (Q1 & Q2); [apply in_flat_map; eauto|].
  destruct (L6 ma0 Hma) as (M1 & M2 & M3 & M4 & M5 & M6 & M7 & M8 & M9). do 6 (split; [assumption|]).
  cbn [vstart istart shift_mat set_mat_layout]. split; [exact Q1|]. split; [exact Q2|]. exact M9.
Qed.
Theorem copied_wf p : wf p m1 -> wf p m2 -> m_kind m2 = m_kind m1 -> h_version (m_head m2) = h_version (m_head m1) -> (2 <= vs)%nat ->
  is_long p (zlen (geoms m1) + zlen (geoms m2)) -> is_long p (vertnum m1 + sumZ vnum (mats m2)) -> is_long p (indexnum m1 + sumZ inum (mats m2)) ->
  indexnum m1 + sumZ inum (mats m2) <> 1 -> wf p copied.
Proof.
  intros W W' EK EH H2 LG LV LI LI1.
  destruct W as (W1 & W2 & (W3 & W3') & W4 & W5 & W6 & W7 & W8 & W9 & W10 & W11 & (W12 & W12') & W13).
  destruct W' as (_ & _ & _ & W4' & _ & _ & _ & _ & _ & _ & _ & (_ & X12) & _). rewrite EK, EH in W4'.
  pose proof (packed_laid vs m2 P2) as (L2 & V2 & I2). destruct (sums_in (mats m2) (proj2 R2)) as (S1 & S2 & S3 & S4).
  assert (0 <= vertnum m1) as N1 by (unfold zlen in HN1; nia).
  assert (0 <= sumZ inum (mats m2)) as S5 by (rewrite <- S2; unfold zlen; lia).
  assert (0 <= indexnum m1) as N2 by (rewrite HJ; unfold zlen; lia).
  assert (zlen (vertices copied) = (vertnum m1 + sumZ vnum (mats m2)) * Z.of_nat vs) as EL.
  { cbn [vertices copied set_counts set_geom_table set_index set_vertices]. pose proof (concat_len vs _ S3) as X. unfold zlen in *. rewrite app_length. lia. }
  unfold wf. cbn [m_kind m_head m_u1 geomnum geoms vertattribnum vertex_attributes vertformat vertstride vertnum indexnum index m_u2 copied set_counts set_geom_table set_index set_vertices set_geoms].
  split; [exact W1|]. split; [exact W2|]. split.
  { split; [exact LG|]. rewrite app_length, map_length. unfold zlen. lia. }
  split; [|split; [exact W5|split; [exact W6|split; [exact W7|split; [exact W8|split; [exact LV|]]]]]].
  - apply Forall_app. split; [exact W4|]. apply Forall_map, Forall_forall. intros g Hg. rewrite Forall_forall in W4'. apply shift_wf; [now apply W4'|].
    apply Forall_forall. intros mt Hm. assert (In mt (mats m2)) as HM by (apply in_flat_map; eauto).
    pose proof (proj2 R2) as R. rewrite Forall_forall in R. destruct (R mt HM) as (B1 & B2 & B3 & B4 & B5 & B6).
    assert (zlen (vertices m2) = sumZ vnum (mats m2) * Z.of_nat vs) as E2.
    { destruct P2 as ((n & En & T) & _). pose proof (laid_sums _ _ _ _ L2) as (Q & _). rewrite Q.
      rewrite V2 at 1. apply concat_len. apply parts_lengths. rewrite map_map. apply Forall_map. eapply Forall_impl; [|exact (tiled_vin _ _ (proj1 P2))].
      intros x Hx. now apply mat_vertices_length. }
    assert (zlen (index_list m2) = sumZ inum (mats m2)) as E3.
    { pose proof (laid_sums _ _ _ _ L2) as (_ & Q). rewrite Q. unfold index_list. now rewrite I2. }
    assert (vstart mt <= sumZ vnum (mats m2)) by nia.
    destruct LV, LI, W9, W12. split; split; lia.
  - split; [|split; [|split; [|exact W13]]].
    + rewrite HS, EL. rewrite data_num_exact; [f_equal; lia|exact Hf|lia| |]; unfold zlen in *; nia.
    + intros E1. change (length (vertices copied) = 1%nat) in E1. unfold zlen in EL. rewrite E1 in EL. assert (vertnum m1 + sumZ vnum (mats m2) = 0 \/ 1 <= vertnum m1 + sumZ vnum (mats m2)) as [E0|E0] by lia; [rewrite E0 in EL; lia|nia].
    + split; [rewrite <- HJ; exact LI|]. split; [unfold zlen in *; rewrite app_length; lia|]. split; [rewrite <- HJ; exact LI1|].
      destruct HI1 as (il & EI). rewrite EI in W12'. unfold index_list. rewrite EI. apply Forall_app. split; [apply W12'|].
      rewrite I2 in X12. destruct X12 as (_ & _ & X). rewrite <- (flat_map_map snd (data vs m2)). exact X.
Qed.
Lemma source_moved : vertnum m1 <> 0 -> mats m2 <> [] -> ~ packed vs (set_geoms m2 (map sg (geoms m2))).
Proof.
  intros Hv Hm ((n & _ & T) & _). unfold mats in T. cbn [geoms set_geoms] in T. rewrite shift_mats in T. fold (mats m2) in T.
  destruct P2 as ((n2 & _ & T2) & _). destruct (mats m2) as [|mt t]; [congruence|]. cbn in T, T2. lia.
Qed.
End Copy.

Theorem copy_table_ok vs m1 m2 : (0 < vs)%nat -> 0 < vertformat m1 -> vertstride m1 = Z.of_nat vs * vertformat m1 ->
  zlen (vertices m2) <= 2 ^ 53 -> Z.of_nat vs <= 2 ^ 53 -> in_range vs m2 -> geomnum m1 = zlen (geoms m1) ->
  zlen (vertices m1) = vertnum m1 * Z.of_nat vs -> zlen (vertices m1) + sumZ vnum (mats m2) * Z.of_nat vs <= 2 ^ 53 ->
  packed vs m1 -> packed vs m2 -> indexnum m1 = zlen (index_list m1) ->
  exists m1' m2', copy_geom_table true true m1 m2 = (m1', m2', None) /\ same_rest m1 m1' /\ packed vs m1' /\
    geomnum m1' = zlen (geoms m1') /\ vertnum m1' = vertnum m1 + sumZ vnum (mats m2) /\ zlen (vertices m1') = vertnum m1' * Z.of_nat vs /\
    indexnum m1' = zlen (index_list m1') /\
    map (geom_mats unplaced) (geoms m1') = map (geom_mats unplaced) (geoms m1) ++ map (geom_mats unplaced) (geoms m2) /\
    map (geom_data vs m1') (geoms m1') = map (geom_data vs m1) (geoms m1) ++ map (geom_data vs m2) (geoms m2) /\
    (forall p, wf p m1 -> wf p m2 -> m_kind m2 = m_kind m1 -> h_version (m_head m2) = h_version (m_head m1) -> (2 <= vs)%nat ->
       is_long p (geomnum m1') -> is_long p (vertnum m1') -> is_long p (indexnum m1') -> indexnum m1' <> 1 -> wf p m1') /\
    geoms m1' = geoms m1 ++ geoms m2' /\ vertices m2' = vertices m2 /\ index m2' = index m2 /\
    (vertnum m1 <> 0 -> mats m2 <> [] -> ~ packed vs m2').
Proof.
  intros H1 H2 H3 H4 H5 H6 H7 H8 H9 P1 P2 H10.
  assert (has_tuple m1) as HT by (destruct P1 as (_ & l & E & _); now exists l).
  exists (copied vs m1 m2), (set_geoms m2 (map (shift_geom (- vertnum m1) (- indexnum m1)) (geoms m2))).
  split; [now apply copy_run|]. split; [repeat split|]. destruct (copied_packed vs m1 m2) as (PK & GD); auto. split; [exact PK|].
  split; [cbn; unfold zlen; rewrite app_length, map_length; lia|]. split; [reflexivity|].
  destruct (sums_in vs m1 m2 H1 H2 (mats m2) (proj2 H6)) as (S1 & S2 & S3 & S4).
  split; [cbn [vertices vertnum copied set_counts set_geom_table set_index set_vertices]; pose proof (concat_len vs _ S3) as X; unfold zlen in *; rewrite app_length; lia|].
  split; [unfold index_list at 1; cbn [indexnum index copied set_counts set_geom_table set_index set_vertices]; unfold zlen in *; rewrite app_length; lia|].
  split; [apply copied_unplaced|]. split; [exact GD|]. split.
  - intros p W1 W2 EK EV V2 L1 L2 L3 L4. apply copied_wf; auto; rewrite H10; assumption.
  - do 3 (split; [reflexivity|]). now apply source_moved.
Qed.
End CopyFacts.
