(** VisMeshTransform.delete_geom_id. *)
From Coq Require Import ZArith List Bool Lia.
From Verif Require Import PyBase Struct Mesh Arith Edit OldEdit Trans Spec SpecEdit SpecTrans CodecBase DivFacts TravFacts VertFacts LayoutFacts Old TransFacts.
Import ListNotations.
Open Scope Z_scope.
Open Scope res_scope.

Section DeleteFacts.
Context {F : Type}.
Implicit Types (m : mesh F) (g : geom F).

(** The vertices of a loaded or edited mesh are a tuple: nothing happens. *)
Theorem delete_tuple ilist m ids id : exists e, delete_geom_id false ilist m ids id = (m, ids, Some e).
Proof. unfold delete_geom_id. destruct (do g <- _; _) as [((((vn, inn), a), n), i)|e]; eexists; reflexivity. Qed.

Lemma fold_sum {B} (f : B -> Z) l : fold_left Z.add (map f l) 0 = sumZ f l.
Proof.
  assert (forall a, fold_left Z.add (map f l) a = a + sumZ f l) as G; [|rewrite G; lia].
  induction l as [|x l IH]; intros a; cbn [map fold_left sumZ]; [lia|]. rewrite IH. lia.
Qed.

Lemma laid_app_inv a b ms1 ps1 ms2 ps2 : length ms1 = length ps1 -> laid (F:=F) a b (ms1 ++ ms2) (ps1 ++ ps2) ->
  laid a b ms1 ps1 /\ laid (a + zlen (all_v ps1)) (b + zlen (all_i ps1)) ms2 ps2.
Proof.
  revert a b ps1. induction ms1 as [|mt ms1 IH]; intros a b [|(vl, il) ps1] L H; try discriminate.
  - cbn [app] in H. unfold all_v, all_i, zlen. cbn. rewrite !Z.add_0_r. auto.
  - cbn [app laid] in H. destruct H as (E1 & E2 & E3 & E4 & H). injection L as L. destruct (IH _ _ _ L H) as (H1 & H2).
    split; [cbn [laid]; auto|]. unfold all_v, all_i, zlen in *. cbn [flat_map fst snd]. rewrite !app_length, !Nat2Z.inj_add, !Z.add_assoc. exact H2.
Qed.
Lemma laid_shift a b vn inn ms ps : laid (F:=F) a b ms ps -> laid (a - vn) (b - inn) (map (shift_mat vn inn) ms) ps.
Proof.
  revert a b ps. induction ms as [|mt ms IH]; intros a b [|(vl, il) ps] H; cbn [map laid] in *; try contradiction; auto.
  destruct H as (E1 & E2 & E3 & E4 & H). cbn [vstart istart vnum inum shift_mat set_mat_layout]. rewrite E1, E2. repeat (split; [assumption||reflexivity|]).
  replace (a - vn + zlen vl) with (a + zlen vl - vn) by lia. replace (b - inn + zlen il) with (b + zlen il - inn) by lia. now apply IH.
Qed.
Lemma laid_sums a b ms ps : laid (F:=F) a b ms ps -> sumZ vnum ms = zlen (all_v ps) /\ sumZ inum ms = zlen (all_i ps).
Proof.
  revert a b ps. induction ms as [|mt ms IH]; intros a b [|(vl, il) ps] H; cbn [laid] in *; try contradiction; [split; reflexivity|].
  destruct H as (_ & _ & E3 & E4 & H). apply IH in H. destruct H as (H1 & H2). unfold all_v, all_i, zlen in *. cbn [sumZ flat_map fst snd].
  rewrite !app_length. lia.
Qed.

Lemma shift_geoms_fresh m (id : nat) vn inn : (id < length (geoms m))%nat ->
  shift_geoms (fresh m) (geoms m) (Z.of_nat id) vn inn = firstn (S id) (geoms m) ++ map (shift_geom vn inn) (skipn (S id) (geoms m)).
Proof.
  intros Hid. unfold shift_geoms.
  set (step := fun gs k => _).
  assert (forall n gs, length gs = length (geoms m) -> (forall k, (k < n)%nat -> nth_error gs k = if (k <=? id)%nat then nth_error (geoms m) k else option_map (shift_geom vn inn) (nth_error (geoms m) k)) ->
    (forall k, (n <= k)%nat -> nth_error gs k = nth_error (geoms m) k) -> forall c, (n + c = length (geoms m))%nat ->
    forall k, nth_error (fold_left step (seq n c) gs) k = if (k <=? id)%nat then nth_error (geoms m) k else option_map (shift_geom vn inn) (nth_error (geoms m) k)) as G.
  { intros n gs L H1 H2 c. revert n gs L H1 H2. induction c as [|c IH]; intros n gs L H1 H2 Hc k; cbn [seq fold_left].
    - destruct (Nat.ltb_spec k n); [now apply H1|]. rewrite H2 by lia. assert (nth_error (geoms m) k = None) as -> by (apply nth_error_None; lia). now destruct (k <=? id)%nat.
    - assert (length (fresh m) = length gs) as LF by (unfold fresh; rewrite seq_length; lia).
      assert (forall j, nth_error (step gs n) j = if (j =? n)%nat && (id <? n)%nat then option_map (shift_geom vn inn) (nth_error gs j) else nth_error gs j) as HS.
      { intros j. unfold step. destruct (nth_error gs n) as [g|] eqn:E; [|apply nth_error_None in E; lia].
        destruct (Z.ltb_spec (Z.of_nat id) (Z.of_nat n)); destruct (Nat.ltb_spec id n); try lia; [|now rewrite andb_false_r].
        rewrite assign_nth by exact LF. unfold fresh. rewrite seq_nth_error, seq_nth by lia. cbn [Nat.add]. rewrite andb_true_r.
        destruct (Nat.ltb_spec j (length (geoms m))).
        - destruct (nth_error gs j) as [h|] eqn:Ej; [|apply nth_error_None in Ej; lia]. destruct (Nat.eqb_spec j n) as [->|]; [|reflexivity]. cbn. congruence.
        - assert (nth_error gs j = None) as -> by (apply nth_error_None; lia). now destruct (j =? n)%nat. }
      apply IH; [| |intros j Hj|lia].
      + unfold step. destruct (nth_error gs n); [|exact L]. destruct (_ <? _); [|exact L]. now rewrite assign_length.
      + intros j Hj. rewrite HS. destruct (Nat.eqb_spec j n) as [->|Hn].
        * cbn [andb]. rewrite H2 by lia. destruct (Nat.ltb_spec id n); destruct (Nat.leb_spec n id); try lia; reflexivity.
        * cbn [andb]. apply H1. lia.
      + rewrite HS. destruct (Nat.eqb_spec j n); [lia|]. cbn [andb]. apply H2. lia. }
  apply nth_ext_list. intros k. rewrite (G 0%nat) by (auto; intros; lia). destruct (Nat.leb_spec k id).
  - rewrite nth_error_app1 by (rewrite firstn_length; lia). now rewrite nth_firstn by lia.
  - rewrite nth_error_app2 by (rewrite firstn_length; lia). rewrite firstn_length, nth_error_map, nth_skipn. do 2 f_equal. lia.
Qed.

Lemma del_slice_mid {B} (x y z : list B) a n : a = zlen x -> n = zlen y -> py_del_slice (x ++ y ++ z) a (a + n) = x ++ z.
Proof.
  intros -> ->. unfold py_del_slice, py_slice_assign, norm_bound, zlen. rewrite !app_length.
  destruct (Z.ltb_spec (Z.of_nat (length x)) 0); [lia|]. destruct (Z.ltb_spec (Z.of_nat (length x) + Z.of_nat (length y)) 0); [lia|].
  rewrite !Z.min_l by lia. rewrite Z.max_r by lia. rewrite <- Nat2Z.inj_add, !Nat2Z.id. cbn [app]. f_equal.
  - rewrite firstn_app, firstn_all, Nat.sub_diag. cbn. apply app_nil_r.
  - rewrite app_assoc, skipn_app, app_length, Nat.sub_diag. rewrite skipn_all2 by (rewrite app_length; lia). reflexivity.
Qed.

Lemma shift_mats vn inn (gs : list (geom F)) : mats_of (map (shift_geom vn inn) gs) = map (shift_mat vn inn) (mats_of gs).
Proof.
  unfold mats_of. induction gs as [|g gs IH]; [reflexivity|]. cbn [map flat_map]. rewrite map_app, IH. f_equal. cbn [shift_geom lods set_lods].
  induction (lods g) as [|l t IHl]; [reflexivity|]. cbn [map flat_map]. rewrite map_app, IHl. reflexivity.
Qed.
Lemma shift_unplaced vn inn g : geom_mats unplaced (shift_geom vn inn g) = geom_mats unplaced g.
Proof.
  unfold geom_mats, shift_geom. cbn [lodnum lods set_lods]. f_equal. rewrite map_map. apply map_ext. intros l. unfold lod_mats.
  cbn [lod_min lod_max pivot rignum rigs nodenum nodes matnum materials set_materials]. f_equal. rewrite map_map. now apply map_ext.
Qed.
Lemma mats_of_app (a b : list (geom F)) : mats_of (a ++ b) = mats_of a ++ mats_of b.
Proof. apply flat_map_app. Qed.

Lemma app_inv_length {B} (a b c d : list B) : a ++ b = c ++ d -> length a = length c -> a = c /\ b = d.
Proof.
  revert c. induction a as [|x a IH]; intros [|y c] H L; try discriminate; cbn in *; [auto|]. injection H as -> H. injection L as L.
  destruct (IH c H L) as (-> & ->). auto.
Qed.
(** Splitting a list of data by geoms. *)
Lemma split_data {C} (f f' : mat F -> C) (gs gs' : list (geom F)) :
  map (geom_mats unplaced) gs = map (geom_mats unplaced) gs' -> map f (mats_of gs) = map f' (mats_of gs') ->
  map (fun g => map f (flat_map materials (lods g))) gs = map (fun g => map f' (flat_map materials (lods g))) gs'.
Proof.
  revert gs'. induction gs as [|g gs IH]; intros [|g' gs'] E H; try discriminate; [reflexivity|]. cbn [map] in *.
  apply cons_eq in E. destruct E as (E1 & E2). unfold mats_of in H. cbn [flat_map] in H. rewrite !map_app in H.
  assert (length (flat_map materials (lods g)) = length (flat_map materials (lods g'))) as L.
  { apply (f_equal (fun g => length (flat_map materials (lods g)))) in E1. unfold geom_mats in E1. cbn [lods] in E1.
    revert E1. generalize (lods g) (lods g'). intros l l' E1.
    assert (forall ls, length (flat_map materials (map (lod_mats (F:=F) unplaced) ls)) = length (flat_map materials ls)) as LL.
    { induction ls as [|x t IHt]; [reflexivity|]. cbn [map flat_map]. rewrite !app_length, IHt. cbn [lod_mats materials]. now rewrite map_length. }
    now rewrite !LL in E1. }
  apply app_inv_length in H; [|now rewrite !map_length]. destruct H as (H1 & H2). rewrite H1. f_equal. now apply IH.
Qed.

Section Delete.
Context (vs : nat) (m : mesh F) (k : nat) (g : geom F) (l0 : lod F) (m0 : mat F) (lt : list (lod F)) (mtl : list (mat F)).
Hypothesis (P : packed vs m) (Hvs : (0 < vs)%nat) (Hf : vertformat m <> 0) (HS : vertstride m = Z.of_nat vs * vertformat m).
Hypothesis (HG : nth_error (geoms m) k = Some g) (HL : lods g = l0 :: lt) (HM : materials l0 = m0 :: mtl) (HB : zlen (vertices m) <= 2 ^ 53) (HB' : Z.of_nat vs <= 2 ^ 53).

Definition deleted : mesh F :=
  set_geom_table
    (set_counts (set_index (set_counts (set_vertices m (py_del_slice (vertices m) (Z.of_nat vs * vstart m0) (Z.of_nat vs * vstart m0 + Z.of_nat vs * geom_vnum g)))
                           (vertnum m - geom_vnum g) (indexnum m)) (Tuple (py_del_slice (index_list m) (istart m0) (istart m0 + geom_inum g))))
                (vertnum m - geom_vnum g) (indexnum m - geom_inum g))
    (geomnum m - 1) (firstn k (geoms m) ++ map (shift_geom (geom_vnum g) (geom_inum g)) (skipn (S k) (geoms m))).

Lemma delete_parts : exists pA pB pC,
  let A := mats_of (firstn k (geoms m)) in let B := flat_map materials (lods g) in let C := mats_of (skipn (S k) (geoms m)) in
  pA = map (data vs m) A /\ pB = map (data vs m) B /\ pC = map (data vs m) C /\
  Forall (Forall (fun v => length v = vs)) (map fst (pA ++ pB ++ pC)) /\
  laid 0 0 A pA /\ laid (zlen (all_v pA)) (zlen (all_i pA)) B pB /\
  laid (zlen (all_v pA) + zlen (all_v pB)) (zlen (all_i pA) + zlen (all_i pB)) C pC /\
  vertices m = concat (all_v pA) ++ concat (all_v pB) ++ concat (all_v pC) /\
  index m = Tuple (all_i pA ++ all_i pB ++ all_i pC).
Proof.
  destruct (packed_laid vs m P) as (L & V & I).
  assert (mats m = mats_of (firstn k (geoms m)) ++ flat_map materials (lods g) ++ mats_of (skipn (S k) (geoms m))) as EM.
  { unfold mats. rewrite <- (firstn_skipn k (geoms m)) at 1. rewrite mats_of_app. f_equal.
    assert (skipn k (geoms m) = g :: skipn (S k) (geoms m)) as ->; [|reflexivity].
    clear - HG. revert HG. generalize (geoms m). induction k as [|n IH]; intros [|h t] H; try discriminate; cbn in *; [congruence|now apply IH]. }
  rewrite EM, !map_app in *. do 3 eexists. cbv zeta. split; [reflexivity|]. split; [reflexivity|]. split; [reflexivity|].
  split.
  { rewrite <- !map_app, <- EM, map_map. apply Forall_map, Forall_forall. intros x Hx. cbn. apply mat_vertices_length.
    destruct P as (TV & _). pose proof (tiled_vin vs m TV) as Hin. rewrite Forall_forall in Hin. now apply Hin. }
  apply laid_app_inv in L; [|now rewrite map_length]. destruct L as (L1 & L). apply laid_app_inv in L; [|now rewrite map_length]. destruct L as (L2 & L3).
  rewrite !Z.add_0_l in *. split; [exact L1|]. split; [exact L2|]. split; [exact L3|].
  unfold all_v, all_i in *. rewrite !flat_map_app in *. rewrite !concat_app in V. auto.
Qed.

Lemma delete_value : delete_geom_id true true m (fresh m) (Z.of_nat k) = (deleted, del_nth (fresh m) k, None).
Proof.
  destruct delete_parts as (pA & pB & pC & EA & EB & EC & LL & LA & LB & LC & V & I).
  assert (k < length (geoms m))%nat as Hk by (apply nth_error_Some; congruence).
  unfold delete_geom_id. rewrite py_get_nonneg by lia. rewrite Nat2Z.id, HG. cbn [bind].
  destruct (flat_map materials (lods g)) as [|x t] eqn:EF. { rewrite HL in EF. cbn [flat_map] in EF. rewrite HM in EF. discriminate. }
  assert (x = m0) as ->. { rewrite HL in EF. cbn [flat_map] in EF. rewrite HM in EF. cbn in EF. congruence. }
  rewrite !fold_sum. rewrite <- EF. change (sumZ vnum (flat_map materials (lods g))) with (geom_vnum g). change (sumZ inum (flat_map materials (lods g))) with (geom_inum g).
  destruct (laid_sums _ _ _ _ LB) as (SV & SI). rewrite <- EF in SV, SI. fold (geom_vnum g) in SV. fold (geom_inum g) in SI.
  assert (vstart m0 = zlen (all_v pA)) as B1.
  { destruct pB as [|(vl, il) pB]; [contradiction|]. destruct LB as (B1 & B2 & _). exact B1. }
  assert (zlen (vertices m) = Z.of_nat vs * (zlen (all_v pA) + zlen (all_v pB) + zlen (all_v pC))) as EV.
  { rewrite !map_app in LL. apply Forall_app in LL. destruct LL as (LLA & LL). apply Forall_app in LL. destruct LL as (LLB & LLC).
    pose proof (concat_len vs _ (parts_lengths _ _ LLA)) as Q1. pose proof (concat_len vs _ (parts_lengths _ _ LLB)) as Q2. pose proof (concat_len vs _ (parts_lengths _ _ LLC)) as Q3.
    rewrite V. unfold zlen in *. rewrite !app_length, !Nat2Z.inj_add. lia. }
  pose proof (data_num_exact (Z.of_nat vs) (vertformat m) (vstart m0) Hf) as D1. pose proof (data_num_exact (Z.of_nat vs) (vertformat m) (geom_vnum g) Hf) as D2.
  assert (0 <= zlen (all_v pA) /\ 0 <= zlen (all_v pB) /\ 0 <= zlen (all_v pC)) as (N1 & N2 & N3) by (unfold zlen; lia).
  rewrite B1 in D1. rewrite SV in D2. rewrite <- HS in D1, D2.
  specialize (D1 ltac:(lia) ltac:(nia) ltac:(nia)). specialize (D2 ltac:(lia) ltac:(nia) ltac:(nia)).
  rewrite <- SV in D2. rewrite <- B1 in D1.
  unfold data_num in D1, D2. destruct (py_truediv (vertstride m) (vertformat m)) as [q|e] eqn:EQ; [|discriminate]. cbn [bind] in *.
  rewrite HL. rewrite py_get_nonneg by lia. cbn [Z.to_nat nth_error bind]. rewrite py_get_nonneg by lia. rewrite HM. cbn [Z.to_nat nth_error bind].
  destruct (py_fmul_int q (vstart m0)) as [va|e]; [|discriminate]. cbn [bind] in *. rewrite D1. cbn [bind].
  destruct (py_fmul_int q (geom_vnum g)) as [nv|e]; [|discriminate]. cbn [bind] in *. rewrite D2. cbn [bind negb].
  unfold deleted, index_list. rewrite I. rewrite shift_geoms_fresh by exact Hk.
  assert (length (firstn (S k) (geoms m) ++ map (shift_geom (geom_vnum g) (geom_inum g)) (skipn (S k) (geoms m))) = length (geoms m)) as LG.
  { rewrite app_length, map_length, firstn_length, skipn_length. lia. }
  rewrite norm_index_nonneg by lia. unfold zlen at 1. rewrite LG. destruct (Z.ltb_spec (Z.of_nat k) (Z.of_nat (length (geoms m)))); [|lia]. rewrite Nat2Z.id.
  f_equal. f_equal. unfold del_nth at 1. cbn [vertnum set_counts set_vertices]. f_equal.
  rewrite firstn_app, skipn_app, !firstn_length. replace (k - Nat.min (S k) (length (geoms m)))%nat with 0%nat by lia.
  replace (S k - Nat.min (S k) (length (geoms m)))%nat with 0%nat by lia. rewrite firstn_O, skipn_O, app_nil_r.
  rewrite firstn_firstn, Nat.min_l by lia. rewrite skipn_all2 by (rewrite firstn_length; lia). reflexivity.
Qed.

Theorem delete_ok : exists m' ids', delete_geom_id true true m (fresh m) (Z.of_nat k) = (m', ids', None) /\ same_rest m m' /\
  geomnum m' = geomnum m - 1 /\ vertnum m' = vertnum m - geom_vnum g /\ indexnum m' = indexnum m - geom_inum g /\
  zlen (vertices m') = zlen (vertices m) - geom_vnum g * Z.of_nat vs /\ zlen (index_list m') = zlen (index_list m) - geom_inum g /\
  without k (map (geom_mats unplaced) (geoms m)) (map (geom_mats unplaced) (geoms m')) /\
  without k (map (geom_data vs m) (geoms m)) (map (geom_data vs m') (geoms m')) /\ packed vs m'.
Proof.
  exists deleted, (del_nth (fresh m) k). split; [exact delete_value|]. split; [repeat split|]. split; [reflexivity|]. split; [reflexivity|]. split; [reflexivity|].
  destruct delete_parts as (pA & pB & pC & EA & EB & EC & LL & LA & LB & LC & V & I).
  assert (k < length (geoms m))%nat as Hk by (apply nth_error_Some; congruence).
  pose proof (laid_sums _ _ _ _ LB) as (SV & SI). fold (geom_vnum g) in SV. fold (geom_inum g) in SI.
  assert (vstart m0 = zlen (all_v pA) /\ istart m0 = zlen (all_i pA)) as (B1 & B2).
  { rewrite HL in LB. cbn [flat_map] in LB. rewrite HM in LB. cbn [app] in LB. destruct pB as [|(vl, il) pB]; [contradiction|]. destruct LB as (? & ? & _). auto. }
  rewrite !map_app in LL. apply Forall_app in LL. destruct LL as (LLA & LL). apply Forall_app in LL. destruct LL as (LLB & LLC).
  pose proof (concat_len vs _ (parts_lengths _ _ LLA)) as QA. pose proof (concat_len vs _ (parts_lengths _ _ LLB)) as QB.
  assert (vertices deleted = concat (all_v pA) ++ concat (all_v pC)) as EV.
  { change (vertices deleted) with (py_del_slice (vertices m) (Z.of_nat vs * vstart m0) (Z.of_nat vs * vstart m0 + Z.of_nat vs * geom_vnum g)).
    rewrite V. apply del_slice_mid; lia. }
  assert (index deleted = Tuple (all_i pA ++ all_i pC)) as EI.
  { change (index deleted) with (Tuple (py_del_slice (index_list m) (istart m0) (istart m0 + geom_inum g))). unfold index_list. rewrite I. f_equal. now apply del_slice_mid. }
  assert (skipn k (geoms m) = g :: skipn (S k) (geoms m)) as ESK.
  { clear - HG. revert HG. generalize (geoms m). induction k as [|n IH]; intros [|h t] H; try discriminate; cbn in *; [congruence|now apply IH]. }
  assert (mats deleted = mats_of (firstn k (geoms m)) ++ map (shift_mat (geom_vnum g) (geom_inum g)) (mats_of (skipn (S k) (geoms m)))) as EM.
  { unfold mats. cbn [geoms deleted set_geom_table]. now rewrite mats_of_app, shift_mats. }
  destruct (laid_packed vs deleted (pA ++ pC)) as (PK & D).
  - rewrite EM. apply laid_app; [exact LA|]. rewrite !Z.add_0_l.
    replace (zlen (all_v pA)) with (zlen (all_v pA) + zlen (all_v pB) - geom_vnum g) by lia.
    replace (zlen (all_i pA)) with (zlen (all_i pA) + zlen (all_i pB) - geom_inum g) by lia. now apply laid_shift.
  - rewrite map_app. apply Forall_app. auto.
  - rewrite EV. unfold all_v. now rewrite flat_map_app, concat_app.
  - rewrite EI. unfold all_i. now rewrite flat_map_app.
  - assert (map (geom_mats unplaced) (geoms deleted) = map (geom_mats unplaced) (firstn k (geoms m) ++ skipn (S k) (geoms m))) as EU.
    { cbn [geoms deleted set_geom_table]. rewrite !map_app, map_map. f_equal. apply map_ext. intros h. apply shift_unplaced. }
    split; [rewrite EV, V; unfold zlen in *; rewrite !app_length; lia|].
    split; [unfold index_list; rewrite EI, I; unfold zlen in *; rewrite !app_length; lia|].
    split; [|split; [|exact PK]].
    + rewrite EU. exists (geom_mats unplaced g). exists (map (geom_mats unplaced) (firstn k (geoms m))), (map (geom_mats unplaced) (skipn (S k) (geoms m))).
      rewrite map_app. split; [reflexivity|]. split; [rewrite map_length, firstn_length; lia|].
      rewrite <- (firstn_skipn k (geoms m)) at 1. rewrite map_app, ESK. reflexivity.
    + assert (map (geom_data vs deleted) (geoms deleted) = map (geom_data vs m) (firstn k (geoms m) ++ skipn (S k) (geoms m))) as ED.
      { apply split_data; [exact EU|]. fold (mats deleted). rewrite mats_of_app, map_app.
        change (map (data vs deleted) (mats deleted) = map (data vs m) (mats_of (firstn k (geoms m))) ++ map (data vs m) (mats_of (skipn (S k) (geoms m)))).
        rewrite <- EA, <- EC. clear - D. induction D; cbn; congruence. }
      rewrite ED. exists (geom_data vs m g). exists (map (geom_data vs m) (firstn k (geoms m))), (map (geom_data vs m) (skipn (S k) (geoms m))).
      rewrite map_app. split; [reflexivity|]. split; [rewrite map_length, firstn_length; lia|].
      rewrite <- (firstn_skipn k (geoms m)) at 1. rewrite map_app, ESK. reflexivity.
Qed.

(** The result can be saved and loaded again, unless a single index is left. *)
Theorem delete_wf p : wf p m -> zlen (vertices m) = vertnum m * Z.of_nat vs -> (2 <= vs)%nat -> indexnum m - geom_inum g <> 1 -> forall m' ids',
  delete_geom_id true true m (fresh m) (Z.of_nat k) = (m', ids', None) -> wf p m'.
Proof.
  intros W HN H2 Hi m1 ids1 H. rewrite delete_value in H. injection H as <- _.
  destruct delete_ok as (m' & ids' & E & (R1 & R2 & R3 & R4 & R5 & R6 & R7 & R8) & N1 & N2 & N3 & LV & LI & U & _ & PK).
  rewrite delete_value in E. injection E as <- <-.
  destruct W as (W1 & W2 & (W3 & W3') & W4 & W5 & W6 & W7 & W8 & W9 & W10 & W11 & (W12 & W12') & W13).
  assert (k < length (geoms m))%nat as Hk by (apply nth_error_Some; congruence).
  destruct delete_parts as (pA & pB & pC & EA & EB & EC & LL & LA & LB & LC & V & I).
  pose proof (laid_sums _ _ _ _ LB) as (SV & SI). fold (geom_vnum g) in SV. fold (geom_inum g) in SI.
  assert (0 <= geom_vnum g /\ 0 <= geom_inum g) as (NV & NI) by (unfold zlen in *; lia).
  rewrite I in W12'. destruct W12' as (X1 & X2 & X3).
  assert (zlen (vertices deleted) = (vertnum m - geom_vnum g) * Z.of_nat vs) as EV by (rewrite LV, HN; lia).
  assert (0 <= vertnum m - geom_vnum g) as NN by (unfold zlen in EV; nia).
  assert (is_long p (vertnum m - geom_vnum g)) as LVN by (destruct W9; split; lia).
  assert (length (geoms deleted) = (length (geoms m) - 1)%nat) as LG.
  { cbn [geoms deleted set_geom_table]. rewrite app_length, map_length, firstn_length, skipn_length. lia. }
  unfold wf. rewrite R1, R2, R3, R4, R5, R6, R7, R8, N1, N2, N3.
  split; [exact W1|]. split; [exact W2|]. split.
  { split; [destruct W3; split; lia|]. rewrite LG. unfold zlen in W3'. lia. }
  split; [|split; [exact W5|split; [exact W6|split; [exact W7|split; [exact W8|split; [exact LVN|]]]]]].
  - cbn [geoms deleted set_geom_table]. rewrite Forall_forall in W4. apply Forall_app. split.
    + apply Forall_forall. intros h Hh. apply W4. eapply in_firstn, Hh.
    + apply Forall_forall. intros h Hh. apply in_map_iff in Hh. destruct Hh as (h0 & <- & Hh).
      destruct (W4 h0 (in_skipn _ _ _ Hh)) as ((G1 & G2) & G3).
      split; [split; [exact G1|]; cbn [lods shift_geom set_lods]; now rewrite map_length|]. cbn [lods shift_geom set_lods].
      rewrite Forall_forall in G3. apply Forall_forall. intros lo Hlo. apply in_map_iff in Hlo. destruct Hlo as (lo0 & <- & Hlo).
      destruct (G3 lo0 Hlo) as (L1 & L2 & L3 & L4 & (L5 & L5') & L6). repeat (split; [assumption|]). cbn [matnum materials set_materials].
      split; [split; [exact L5|now rewrite map_length]|]. rewrite Forall_forall in L6. apply Forall_forall. intros ma Hma. apply in_map_iff in Hma. destruct Hma as (ma0 & <- & Hma).
      assert (In ma0 (mats_of (skipn (S k) (geoms m)))) as HIN.
      { apply in_flat_map. exists h0. split; [exact Hh|]. apply in_flat_map. exists lo0. auto. }
      assert (geom_vnum g <= vstart ma0 /\ geom_inum g <= istart ma0) as (Q1 & Q2).
      { clear - LC HIN SV SI. revert LC HIN. assert (geom_vnum g <= zlen (all_v pA) + zlen (all_v pB)) as Q1 by (unfold zlen in *; lia).
        assert (geom_inum g <= zlen (all_i pA) + zlen (all_i pB)) as Q2 by (unfold zlen in *; lia). revert Q1 Q2.
        generalize (zlen (all_v pA) + zlen (all_v pB)) (zlen (all_i pA) + zlen (all_i pB)) (mats_of (skipn (S k) (geoms m))).
        intros a b ms. revert a b pC. induction ms as [|x t IH]; intros a b [|(vl, il) pC] Q1 Q2 LC HIN; cbn [laid In] in *; try contradiction.
        destruct LC as (E1 & E2 & E3 & E4 & LC). destruct HIN as [->|HIN]; [lia|]. apply (IH _ _ _) in LC; unfold zlen in *; try lia; auto. }
      destruct (L6 ma0 Hma) as (M1 & M2 & M3 & M4 & M5 & M6 & M7 & M8 & M9). repeat (split; [assumption|]).
      cbn [vstart istart shift_mat set_mat_layout]. split; [destruct M7; split; lia|]. split; [destruct M8; split; lia|]. exact M9.
  - split; [|split; [|split; [|exact W13]]].
    + rewrite HS, EV. rewrite data_num_exact; [f_equal; lia|exact Hf|lia| |]; unfold zlen in *; nia.
    + intros E1. unfold zlen in EV. rewrite E1 in EV. assert (vertnum m - geom_vnum g = 0 \/ 1 <= vertnum m - geom_vnum g) as [E0|E0] by lia; [rewrite E0 in EV; lia|nia].
    + split; [destruct W12; split; unfold zlen in *; rewrite !app_length in X1; lia|].
      change (match index deleted with Scalar v => indexnum m - geom_inum g = 1 /\ is_ushort v | Tuple l => indexnum m - geom_inum g = zlen l /\ indexnum m - geom_inum g <> 1 /\ Forall is_ushort l end).
      change (index deleted) with (Tuple (py_del_slice (index_list m) (istart m0) (istart m0 + geom_inum g))). cbv match.
      unfold index_list in LI. rewrite I in LI. change (index deleted) with (Tuple (py_del_slice (index_list m) (istart m0) (istart m0 + geom_inum g))) in LI. cbv match in LI.
      split; [lia|]. split; [exact Hi|]. unfold py_del_slice, py_slice_assign, index_list. rewrite I. cbn [app]. rewrite Forall_forall in X3. apply Forall_app. split.
      * apply Forall_forall. intros x Hx. apply X3. eapply in_firstn, Hx.
      * apply Forall_forall. intros x Hx. apply X3. eapply in_skipn, Hx.
Qed.
End Delete.
End DeleteFacts.
