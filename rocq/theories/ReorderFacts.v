(** change_geoms_order. *)
From Coq Require Import ZArith List Bool Lia Permutation.
From Verif Require Import PyBase Struct Mesh Arith Edit Spec SpecEdit DivFacts TravFacts VertFacts LayoutFacts MergeFacts.
Import ListNotations.
Open Scope Z_scope.

Section Reorder.
Context {F : Type}.
Implicit Types (m : mesh F) (mt : mat F) (ms : list (mat F)) (g : geom F) (gs : list (geom F)) (vs : nat).

Lemma picks_norm n i k : norm_index (Z.of_nat n) i = Some k <-> picks n i k.
Proof.
  unfold norm_index, picks. destruct (Z.ltb_spec i 0).
  - destruct (Z.leb_spec 0 (i + Z.of_nat n)); destruct (Z.ltb_spec (i + Z.of_nat n) (Z.of_nat n)); cbn [andb];
      (split; [intros H'; inversion H'; subst; lia|intros H'; try (f_equal; lia); lia]).
  - destruct (Z.leb_spec 0 i); destruct (Z.ltb_spec i (Z.of_nat n)); cbn [andb];
      (split; [intros H'; inversion H'; subst; lia|intros H'; try (f_equal; lia); lia]).
Qed.

(** New places, one after the other. *)
Fixpoint relaid (a b : Z) ms : list (mat F) :=
  match ms with
  | [] => []
  | mt :: t => set_mat_layout mt a b (inum mt) (vnum mt) :: relaid (a + vnum mt) (b + inum mt) t
  end.
Lemma relaid_length a b ms : length (relaid a b ms) = length ms.
Proof. revert a b. induction ms; intros a0 b0; simpl; auto. Qed.
Lemma relaid_unplaced a b ms : map unplaced (relaid a b ms) = map unplaced ms.
Proof. revert a b. induction ms as [|mt t IH]; intros a b; simpl; [reflexivity|]. f_equal. apply IH. Qed.
Lemma relaid_app a b l1 l2 : relaid a b (l1 ++ l2) = relaid a b l1 ++ relaid (a + sumZ vnum l1) (b + sumZ inum l1) l2.
Proof.
  revert a b. induction l1 as [|mt t IH]; intros a b; simpl; [now rewrite !Z.add_0_r|].
  rewrite IH, !Z.add_assoc. reflexivity.
Qed.
Lemma sumZ_app {B} (f : B -> Z) l1 l2 : sumZ f (l1 ++ l2) = sumZ f l1 + sumZ f l2.
Proof. induction l1 as [|x t IH]; simpl; [reflexivity|]. rewrite IH. lia. Qed.
Lemma sumZ_perm {B} (f : B -> Z) l1 l2 : Permutation l1 l2 -> sumZ f l1 = sumZ f l2.
Proof. induction 1; simpl; lia. Qed.
Lemma sumZ_nonneg {B} (f : B -> Z) l : Forall (fun x => 0 <= f x) l -> 0 <= sumZ f l.
Proof. induction 1; simpl; lia. Qed.

Lemma relaid_laid vs m : forall ms a b, Forall (mat_in vs m) ms -> laid a b (relaid a b ms) (map (data vs m) ms).
Proof.
  induction ms as [|mt t IH]; intros a b H; simpl; [exact I|]. inversion H; subst.
  rewrite !(mat_vertices_zlen vs), !(mat_indices_zlen vs) by assumption. repeat split; auto.
Qed.

Lemma data_len vs m ms : Forall (mat_in vs m) ms ->
  zlen (flat_map (mat_vertices vs m) ms) = sumZ vnum ms /\ zlen (flat_map (mat_indices m) ms) = sumZ inum ms /\
  Forall (fun v => length v = vs) (flat_map (mat_vertices vs m) ms).
Proof.
  induction 1 as [|mt t H Ht (I1 & I2 & I3)]; simpl; [repeat split; constructor|].
  rewrite !zlen_app, I1, I2, (mat_vertices_zlen vs), (mat_indices_zlen vs) by assumption. repeat split.
  apply Forall_app. split; [|exact I3]. apply mat_vertices_length. now apply mat_in_vin.
Qed.

Lemma flat_map_id {B} (l : list (list B)) : concat l = flat_map (fun x => x) l.
Proof. induction l; simpl; congruence. Qed.

(** The materials of one geom. *)
Lemma reorder_fold {K} vs m (Hv : (0 < vs)%nat) (HT : has_tuple m) : forall (l : list (K * mat F)) nv ni n,
  Forall (mat_in vs m) (map snd l) -> zlen nv = n * Z.of_nat vs -> 0 <= n -> n + sumZ vnum (map snd l) <= 2 ^ 53 ->
  fold_am (fun _ => reorder_mat (Z.of_nat vs) (vertices m) (index m)) (nv, ni) l =
  ((nv ++ concat (flat_map (mat_vertices vs m) (map snd l)), ni ++ flat_map (mat_indices m) (map snd l)),
   relaid n (zlen ni) (map snd l), None).
Proof.
  destruct HT as (il & EI). induction l as [|(k, mt) t IH]; intros nv ni n H L Hn B.
  - simpl. now rewrite !app_nil_r.
  - cbn [map snd] in H, B. inversion H as [|? ? Hm Ht]; subst.
    cbn [fold_am]. unfold reorder_mat at 1. rewrite mat_slice by now apply mat_in_vin. rewrite EI. cbn [index_slice].
    assert (py_slice il (istart mt) (istart mt + inum mt) = mat_indices m mt) as ES.
    { destruct Hm as (_ & _ & _ & I1 & I2 & I3). unfold index_list in I3. rewrite EI in I3.
      rewrite py_slice_in by assumption. unfold mat_indices, index_list. now rewrite EI. }
    rewrite ES, vdata_blocks.
    assert (0 <= sumZ vnum (map snd t)) as HS.
    { apply sumZ_nonneg. eapply Forall_impl; [|exact Ht]. intros x Hx. apply Hx. }
    assert (0 <= vnum mt) as Hvn by apply Hm. cbn [sumZ] in B.
    assert (zlen (nv ++ concat (mat_vertices vs m mt)) = (n + vnum mt) * Z.of_nat vs) as EL.
    { rewrite zlen_app, L, (concat_len vs), (mat_vertices_zlen vs) by
        (try assumption; apply mat_vertices_length; now apply mat_in_vin). lia. }
    rewrite EL, int_div_exact by lia.
    rewrite <- EI. rewrite (IH _ _ (n + vnum mt) Ht EL) by lia.
    rewrite zlen_app, (mat_indices_zlen vs) by assumption.
    cbn [map snd flat_map relaid]. rewrite concat_app, <- !app_assoc.
    replace (n + vnum mt - vnum mt) with n by lia. replace (zlen ni + inum mt - inum mt) with (zlen ni) by lia. reflexivity.
Qed.

Lemma nth_set_same {B} (l : list B) k v : (k < length l)%nat -> nth_error (set_nth l k v) k = Some v.
Proof. revert k. induction l as [|x t IH]; intros [|k] H; simpl in *; try lia; auto. apply IH. lia. Qed.
Lemma nth_set_other {B} (l : list B) k j v : k <> j -> nth_error (set_nth l k v) j = nth_error l j.
Proof. revert k j. induction l as [|x t IH]; intros [|k] [|j] H; simpl in *; auto; try congruence. Qed.

Lemma pick_ext {B} (l l' : list B) ks : (forall k, In k ks -> nth_error l k = nth_error l' k) -> pick l ks = pick l' ks.
Proof.
  intros H. unfold pick. induction ks as [|k t IH]; simpl; [reflexivity|]. rewrite H by now left. rewrite IH; [reflexivity|].
  intros. apply H. now right.
Qed.
Lemma pick_app {B} (l : list B) k1 k2 : pick l (k1 ++ k2) = pick l k1 ++ pick l k2.
Proof. unfold pick. now rewrite flat_map_app. Qed.
Lemma mats_of_app gs1 gs2 : mats_of (gs1 ++ gs2) = mats_of gs1 ++ mats_of gs2.
Proof. unfold mats_of. now rewrite flat_map_app. Qed.

Lemma put_mats_app gs1 gs2 ms1 ms2 : length ms1 = length (mats_of gs1) ->
  put_mats (gs1 ++ gs2) (ms1 ++ ms2) = put_mats gs1 ms1 ++ put_mats gs2 ms2.
Proof.
  revert ms1. induction gs1 as [|g t IH]; intros ms1 H.
  - destruct ms1; [reflexivity|discriminate].
  - cbn [mats_of flat_map] in H. fold (mats_of t) in H. change (flat_map materials (lods g)) with (lods_mats (lods g)) in H.
    rewrite app_length in H. cbn [app put_mats].
    rewrite firstn_app, skipn_app. 
    replace (length (lods_mats (lods g)) - length ms1)%nat with 0%nat by lia. cbn [firstn skipn].
    rewrite app_nil_r. cbn [app]. f_equal. rewrite IH; [reflexivity|]. rewrite skipn_length. lia.
Qed.

Lemma reorder_loop_spec vs m (Hv : (0 < vs)%nat) : in_range vs m ->
  forall order ks store nv ni chosen n,
  Forall2 (picks (length (geoms m))) order ks -> NoDup ks -> length store = length (geoms m) ->
  (forall k, In k ks -> nth_error store k = nth_error (geoms m) k) ->
  zlen nv = n * Z.of_nat vs -> 0 <= n ->
  let cm := mats_of (pick (geoms m) ks) in
  n + sumZ vnum cm <= 2 ^ 53 ->
  exists store',
    reorder_loop (Z.of_nat vs) (vertices m) (index m) order store (nv, ni) chosen =
      (store', (nv ++ concat (flat_map (mat_vertices vs m) cm), ni ++ flat_map (mat_indices m) cm), chosen ++ ks, None) /\
    length store' = length store /\
    (forall k, ~ In k ks -> nth_error store' k = nth_error store k) /\
    pick store' ks = put_mats (pick (geoms m) ks) (relaid n (zlen ni) cm).
Proof.
  intros (HT & HR) order. induction order as [|i t IH]; intros ks store nv ni chosen n HP ND LS HS L Hn cm B.
  - inversion HP; subst. exists store. cbn. rewrite !app_nil_r. repeat split; auto.
  - inversion HP as [|? k ? kt Hk HPt]; subst. inversion ND as [|? ? Hnk NDt]; subst.
    cbn [reorder_loop]. unfold zlen at 1. rewrite (proj2 (picks_norm (length store) i k)) by (rewrite LS; exact Hk).
    assert (k < length (geoms m))%nat as Kl by apply Hk.
    destruct (nth_error (geoms m) k) as [g|] eqn:Eg; [|apply nth_error_None in Eg; lia].
    rewrite HS by now left. rewrite Eg.
    assert (cm = lods_mats (lods g) ++ mats_of (pick (geoms m) kt)) as EC.
    { unfold cm, pick. cbn [flat_map]. rewrite Eg, mats_of_app. f_equal. unfold mats_of. cbn. apply app_nil_r. }
    rewrite EC, sumZ_app in B.
    assert (forall ks0, Forall (mat_in vs m) (mats_of (pick (geoms m) ks0))) as HPk.
    { intros ks0. apply Forall_forall. intros x Hx. rewrite Forall_forall in HR. apply HR. unfold mats, mats_of in *.
      apply in_flat_map in Hx. destruct Hx as (h & Hh & Hx). apply in_flat_map. exists h. split; [|exact Hx].
      unfold pick in Hh. apply in_flat_map in Hh. destruct Hh as (k0 & _ & Hh).
      destruct (nth_error (geoms m) k0) eqn:E0; [|contradiction]. destruct Hh as [<-|[]]. now apply nth_error_In in E0. }
    assert (Forall (mat_in vs m) (lods_mats (lods g))) as HG.
    { pose proof (HPk (k :: kt)) as G. fold cm in G. rewrite EC in G. apply Forall_app in G. apply G. }
    assert (0 <= sumZ vnum (mats_of (pick (geoms m) kt))) as HSn.
    { apply sumZ_nonneg. eapply Forall_impl; [|apply (HPk kt)]. intros x Hx. apply Hx. }
    rewrite trav_geom_flat, (reorder_fold vs m Hv HT _ nv ni n); rewrite ?amats_lods_snd; try assumption; try lia.
    cbn zeta. destruct (data_len vs m _ HG) as (D1 & D2 & D3).
    set (g' := set_lods g (put_lods (lods g) (relaid n (zlen ni) (lods_mats (lods g))))).
    destruct (IH kt (set_nth store k g') (nv ++ concat (flat_map (mat_vertices vs m) (lods_mats (lods g))))
                (ni ++ flat_map (mat_indices m) (lods_mats (lods g))) (chosen ++ [k]) (n + sumZ vnum (lods_mats (lods g))))
      as (store' & E & LS' & HO & HK); auto.
    + rewrite set_nth_length. exact LS.
    + intros k' Hk'. rewrite nth_set_other by congruence. apply HS. now right.
    + rewrite zlen_app, L, (concat_len vs), D1 by exact D3. lia.
    + assert (0 <= sumZ vnum (lods_mats (lods g))); [|lia].
      apply sumZ_nonneg. eapply Forall_impl; [|apply HG]. intros x Hx. apply Hx.
    + lia.
    + exists store'. rewrite E. split; [|split; [|split]].
      * rewrite EC, !flat_map_app, concat_app, <- !app_assoc. reflexivity.
      * rewrite LS'. apply set_nth_length.
      * intros k' Hk'. rewrite HO by (intros ?; apply Hk'; now right). apply nth_set_other. intros ->. apply Hk'. now left.
      * change (pick store' (k :: kt)) with ((match nth_error store' k with Some x => [x] | None => [] end) ++ pick store' kt).
        rewrite HO by exact Hnk. rewrite nth_set_same by lia. rewrite HK.
        change (pick (geoms m) (k :: kt)) with ((match nth_error (geoms m) k with Some x => [x] | None => [] end) ++ pick (geoms m) kt).
        rewrite Eg, EC, relaid_app. cbn [app].
        rewrite (put_mats_cons g) by (rewrite relaid_length; reflexivity).
        rewrite zlen_app, D2. reflexivity.
Qed.

(** What a reordering by [ks] produces. *)
Record reordered vs m (ks : list nat) (m' : mesh F) : Prop := {
  r_laid : laid 0 0 (mats m') (map (data vs m) (mats_of (pick (geoms m) ks)));
  r_verts : vertices m' = concat (all_v (map (data vs m) (mats_of (pick (geoms m) ks))));
  r_index : index m' = Tuple (all_i (map (data vs m) (mats_of (pick (geoms m) ks))));
  r_head : same_header m m'; r_counts : same_counts m m';
  r_geoms : map (geom_mats unplaced) (geoms m') = map (geom_mats unplaced) (pick (geoms m) ks) }.

Lemma pick_perm {B} (l : list B) ks ks' : Permutation ks ks' -> Permutation (pick l ks) (pick l ks').
Proof. intros H. unfold pick. now apply Permutation_flat_map. Qed.
Lemma pick_seq {B} (l : list B) : pick l (seq 0 (length l)) = l.
Proof.
  assert (forall pre, pick (pre ++ l) (seq (length pre) (length l)) = l) as G.
  { induction l as [|x t IH]; intros pre; [reflexivity|]. unfold pick. simpl.
    rewrite nth_error_app2, Nat.sub_diag by lia. simpl. f_equal. specialize (IH (pre ++ [x])).
    rewrite app_length in IH. simpl in IH. rewrite Nat.add_1_r, <- app_assoc in IH. exact IH. }
  apply (G []).
Qed.
Lemma pick_sum m ks : Permutation ks (seq 0 (length (geoms m))) -> sumZ vnum (mats_of (pick (geoms m) ks)) = sumZ vnum (mats m).
Proof.
  intros H. apply sumZ_perm. unfold mats. transitivity (mats_of (pick (geoms m) (seq 0 (length (geoms m))))).
  - unfold mats_of. apply Permutation_flat_map. now apply pick_perm.
  - now rewrite pick_seq.
Qed.

Theorem reorder_ok vs m order ks : vertex_size m = Ok (Z.of_nat vs) -> (0 < vs)%nat -> in_range vs m ->
  sumZ vnum (mats m) <= 2 ^ 53 -> permutes (length (geoms m)) order ks ->
  exists m', change_geoms_order m order = (m', None) /\ reordered vs m ks m'.
Proof.
  intros Hs Hv R B (HP & PE). unfold change_geoms_order.
  assert (length order = length (geoms m)) as EL.
  { apply Forall2_len in HP. apply Permutation_length in PE. rewrite seq_length in PE. congruence. }
  rewrite EL, Nat.eqb_refl. cbn [negb]. rewrite Hs.
  assert (NoDup ks) as ND by (eapply Permutation_NoDup; [symmetry; exact PE|apply seq_NoDup]).
  destruct (reorder_loop_spec vs m Hv R order ks (geoms m) [] [] [] 0 HP ND eq_refl (fun _ _ => eq_refl) eq_refl (Z.le_refl 0))
    as (store' & E & LS & HO & HK).
  { rewrite pick_sum by exact PE. lia. }
  rewrite E. cbn [app]. eexists. split; [reflexivity|].
  set (cm := mats_of (pick (geoms m) ks)) in *.
  assert (Forall (mat_in vs m) cm) as HC.
  { destruct R as (_ & HR). unfold mats in HR. rewrite Forall_forall in *. intros x Hx. apply HR.
    apply (Permutation_in (l := cm)); [|exact Hx].
    unfold cm, mats_of. apply Permutation_flat_map. rewrite <- (pick_seq (geoms m)) at 2. now apply pick_perm. }
  split.
  - unfold mats. cbn [geoms set_index set_vertices set_geoms]. rewrite HK, mats_put by (rewrite relaid_length; reflexivity).
    now apply relaid_laid.
  - cbn [vertices set_index set_vertices set_geoms]. unfold all_v. rewrite !flat_map_concat_map, map_map. reflexivity.
  - cbn [index set_index set_vertices set_geoms]. unfold all_i. rewrite !flat_map_concat_map, map_map. reflexivity.
  - repeat split.
  - repeat split.
  - cbn [geoms set_index set_vertices set_geoms]. rewrite HK. apply put_mats_map.
    + rewrite relaid_length. reflexivity.
    + apply relaid_unplaced.
Qed.

Lemma reordered_unique vs m ks m1 m2 ks' m' :
  reordered vs m ks m1 -> reordered vs m' ks' m2 ->
  map (data vs m) (mats_of (pick (geoms m) ks)) = map (data vs m') (mats_of (pick (geoms m') ks')) ->
  same_header m m' -> same_counts m m' ->
  map (geom_mats unplaced) (pick (geoms m) ks) = map (geom_mats unplaced) (pick (geoms m') ks') -> m1 = m2.
Proof.
  intros R1 R2 ED HH HC EG.
  assert (map (geom_mats unplaced) (geoms m1) = map (geom_mats unplaced) (geoms m2)) as EG'
    by (rewrite (r_geoms _ _ _ _ R1), (r_geoms _ _ _ _ R2); exact EG).
  apply mesh_eq.
  - pose proof (r_head _ _ _ _ R1) as H1. pose proof (r_head _ _ _ _ R2) as H2. unfold same_header in *.
    destruct HH as (? & ? & ? & ? & ? & ? & ? & ? & ?), H1 as (? & ? & ? & ? & ? & ? & ? & ? & ?), H2 as (? & ? & ? & ? & ? & ? & ? & ? & ?).
    repeat split; congruence.
  - pose proof (r_counts _ _ _ _ R1) as H1. pose proof (r_counts _ _ _ _ R2) as H2. unfold same_counts in *.
    destruct HC, H1, H2. split; congruence.
  - apply (geoms_unique unplaced); [exact EG'|].
    apply (laid_unique 0 0 _ _ (map (data vs m) (mats_of (pick (geoms m) ks)))).
    + apply (r_laid _ _ _ _ R1).
    + rewrite ED. apply (r_laid _ _ _ _ R2).
    + rewrite <- !mats_of_map. now rewrite EG'.
  - rewrite (r_verts _ _ _ _ R1), (r_verts _ _ _ _ R2). now rewrite ED.
  - rewrite (r_index _ _ _ _ R1), (r_index _ _ _ _ R2). now rewrite ED.
Qed.

Definition geom_of g : list (mat F) := mats_of [g].
Lemma geom_of_mats g : geom_of g = lods_mats (lods g).
Proof. unfold geom_of, mats_of. simpl. apply app_nil_r. Qed.
Lemma mats_of_geoms gs : mats_of gs = flat_map geom_of gs.
Proof. unfold mats_of at 1. apply flat_map_ext. intros g. now rewrite geom_of_mats. Qed.

Lemma lods_len (f : mat F -> mat F) (ls ls' : list (lod F)) : map (lod_mats f) ls = map (lod_mats f) ls' -> length (lods_mats ls) = length (lods_mats ls').
Proof. intros E. apply (f_equal (fun x => length (lods_mats x))) in E. now rewrite !lods_mats_map, !map_length in E. Qed.

Lemma split_mats (f : mat F -> mat F) (P : mat F -> mat F -> Prop) gs gs' : map (geom_mats f) gs = map (geom_mats f) gs' ->
  Forall2 P (mats_of gs) (mats_of gs') -> Forall2 (fun g h => Forall2 P (geom_of g) (geom_of h)) gs gs'.
Proof.
  revert gs'. induction gs as [|g t IH]; intros [|g' t'] E H; try discriminate; [constructor|].
  cbn [map] in E. apply cons_eq in E. destruct E as (E1 & E2).
  rewrite (mats_of_geoms (g :: t)), (mats_of_geoms (g' :: t')) in H. cbn [flat_map] in H. rewrite <- !mats_of_geoms in H.
  assert (length (geom_of g) = length (geom_of g')) as EL.
  { rewrite !geom_of_mats. apply (lods_len f). apply (f_equal lods) in E1. exact E1. }
  apply Forall2_app_inv_l in H. destruct H as (l1 & l2 & H1 & H2 & H3).
  apply Forall2_len in H1 as L1. apply app_inv_len in H3; [|congruence]. destruct H3 as (<- & <-). constructor; auto.
Qed.

Lemma Forall2_map_eq {B C D} (f : B -> D) (g : C -> D) l l' : Forall2 (fun x y => f x = g y) l l' <-> map f l = map g l'.
Proof.
  split.
  - induction 1; simpl; congruence.
  - revert l'. induction l as [|x t IH]; intros [|y t'] E; try discriminate; constructor; cbn [map] in E; apply cons_eq in E; [|apply IH]; apply E.
Qed.

Lemma reordered_parts vs m ks m' : in_range vs m -> reordered vs m ks m' ->
  packed vs m' /\
  Forall2 (fun g h => Forall2 (same_content vs m' m) (geom_of g) (geom_of h)) (geoms m') (pick (geoms m) ks).
Proof.
  intros (HT & HR) R.
  assert (Forall (Forall (fun v => length v = vs)) (map fst (map (data vs m) (mats_of (pick (geoms m) ks))))) as HL.
  { rewrite map_map. apply Forall_map. apply Forall_forall. intros x Hx. cbn. apply mat_vertices_length. apply mat_in_vin.
    rewrite Forall_forall in HR. apply HR. unfold mats, mats_of in *.
    apply in_flat_map in Hx. destruct Hx as (h & Hh & Hx). apply in_flat_map. exists h. split; [|exact Hx].
    unfold pick in Hh. apply in_flat_map in Hh. destruct Hh as (k0 & _ & Hh).
    destruct (nth_error (geoms m) k0) eqn:E0; [|contradiction]. destruct Hh as [<-|[]]. now apply nth_error_In in E0. }
  destruct (laid_packed vs m' _ (r_laid _ _ _ _ R) HL (r_verts _ _ _ _ R) (r_index _ _ _ _ R)) as (P & D).
  split; [exact P|]. apply (split_mats unplaced); [apply R|]. fold (mats m').
  assert (map unplaced (mats m') = map unplaced (mats_of (pick (geoms m) ks))) as EU.
  { unfold mats. rewrite <- !mats_of_map. now rewrite (r_geoms _ _ _ _ R). }
  apply Forall2_map_eq in EU. revert D EU. generalize (mats_of (pick (geoms m) ks)). induction (mats m') as [|x t IH]; intros l D EU.
  - inversion EU; constructor.
  - destruct l as [|y t']; inversion EU; subst. inversion D; subst. constructor; [|apply IH; assumption].
    match goal with H : data vs m' x = data vs m y |- _ => unfold data in H; injection H as E1 E2 end.
    split; [assumption|]. split; [exact E1|]. split; [exact E2|]. unfold corners, corner. now rewrite E1, E2.
Qed.

Lemma pick_nth {B} (l : list B) ks j : Forall (fun k => (k < length l)%nat) ks ->
  nth_error (pick l ks) j = match nth_error ks j with Some k => nth_error l k | None => None end.
Proof.
  intros H. revert j. induction H as [|k t Hk H IH]; intros j.
  - now destruct j.
  - unfold pick. cbn [flat_map]. destruct (nth_error l k) as [x|] eqn:E; [|apply nth_error_None in E; lia].
    cbn [app]. destruct j; cbn [nth_error]; [congruence|apply IH].
Qed.
Lemma pick_length {B} (l : list B) ks : Forall (fun k => (k < length l)%nat) ks -> length (pick l ks) = length ks.
Proof.
  induction 1 as [|k t Hk H IH]; [reflexivity|]. unfold pick. cbn [flat_map].
  destruct (nth_error l k) as [x|] eqn:E; [|apply nth_error_None in E; lia]. cbn [app length]. now f_equal.
Qed.
Lemma permutes_in n order ks : permutes n order ks -> Forall (fun k => (k < n)%nat) ks.
Proof. intros (H & _). induction H; constructor; auto. apply H. Qed.
Lemma permutes_len n order ks : permutes n order ks -> length ks = n.
Proof. intros (_ & H). apply Permutation_length in H. now rewrite seq_length in H. Qed.

Theorem reorder_content vs m order ks : vertex_size m = Ok (Z.of_nat vs) -> (0 < vs)%nat -> in_range vs m ->
  sumZ vnum (mats m) <= 2 ^ 53 -> permutes (length (geoms m)) order ks ->
  exists m', change_geoms_order m order = (m', None) /\ packed vs m' /\ same_header m m' /\ same_counts m m' /\
    length (geoms m') = length (geoms m) /\
    forall j k g g', nth_error ks j = Some k -> nth_error (geoms m) k = Some g -> nth_error (geoms m') j = Some g' ->
      geom_mats unplaced g' = geom_mats unplaced g /\
      Forall2 (same_content vs m' m) (mats_of [g']) (mats_of [g]).
Proof.
  intros Hs Hv R B HP. destruct (reorder_ok vs m order ks Hs Hv R B HP) as (m' & E & RO).
  exists m'. split; [exact E|]. destruct (reordered_parts vs m ks m' R RO) as (P & D).
  split; [exact P|]. split; [apply RO|]. split; [apply RO|].
  assert (length (geoms m') = length (geoms m)) as EL.
  { apply Forall2_len in D. rewrite pick_length in D by (eapply permutes_in; exact HP).
    rewrite (permutes_len _ _ _ HP) in D. exact D. }
  split; [exact EL|]. intros j k g g' Hj Hk Hg'.
  assert (nth_error (pick (geoms m) ks) j = Some g) as Hg.
  { rewrite pick_nth by (eapply permutes_in; exact HP). now rewrite Hj. }
  split.
  - pose proof (r_geoms _ _ _ _ RO) as EG. apply (f_equal (fun l => nth_error l j)) in EG. rewrite !nth_error_map, Hg, Hg' in EG.
    cbn in EG. congruence.
  - pose proof (Forall2_nth _ _ _ D j) as H. rewrite Hg, Hg' in H. exact H.
Qed.

(** ** Composition *)
Lemma pick_map {B C} (f : B -> C) l ks : pick (map f l) ks = map f (pick l ks).
Proof.
  unfold pick. induction ks as [|k t IH]; [reflexivity|]. cbn [flat_map]. rewrite map_app, IH, nth_error_map.
  now destruct (nth_error l k).
Qed.
Lemma pick_pick {B} (l : list B) ks ks' : Forall (fun k => (k < length l)%nat) ks -> Forall (fun k => (k < length ks)%nat) ks' ->
  pick (pick l ks) ks' = pick l (map (fun k => nth k ks 0%nat) ks').
Proof.
  intros H H'. unfold pick at 1 3. induction H' as [|k t Hk H' IH]; [reflexivity|]. cbn [flat_map map]. f_equal; [|exact IH].
  rewrite pick_nth by exact H. rewrite (nth_error_nth' ks 0%nat Hk). reflexivity.
Qed.

Definition dgeom vs m g := map (data vs m) (geom_of g).
Lemma mats_data vs m gs : map (data vs m) (mats_of gs) = concat (map (dgeom vs m) gs).
Proof.
  rewrite mats_of_geoms, flat_map_concat_map, concat_map, map_map. reflexivity.
Qed.
Lemma reordered_dgeom vs m ks m' : in_range vs m -> reordered vs m ks m' ->
  map (dgeom vs m') (geoms m') = map (dgeom vs m) (pick (geoms m) ks).
Proof.
  intros R RO. destruct (reordered_parts vs m ks m' R RO) as (_ & D). apply Forall2_map_eq. revert D. apply Forall2_impl'.
  intros g h H. unfold dgeom. apply Forall2_map_eq. revert H. apply Forall2_impl'. intros x y (_ & E1 & E2 & _). unfold data. congruence.
Qed.

Lemma reordered_compose vs m ks m1 ks' m2 m3 : in_range vs m ->
  Forall (fun k => (k < length (geoms m))%nat) ks -> Forall (fun k => (k < length ks)%nat) ks' ->
  reordered vs m ks m1 -> reordered vs m1 ks' m2 -> reordered vs m (map (fun k => nth k ks 0%nat) ks') m3 -> m2 = m3.
Proof.
  intros R H H' R1 R2 R3.
  apply (reordered_unique vs m1 ks' m2 m3 (map (fun k => nth k ks 0%nat) ks') m R2 R3).
  - rewrite !mats_data, <- !pick_map, (reordered_dgeom vs m ks m1 R R1), !pick_map, pick_pick by assumption. reflexivity.
  - pose proof (r_head _ _ _ _ R1) as HH. unfold same_header in *. intuition congruence.
  - pose proof (r_counts _ _ _ _ R1) as HH. unfold same_counts in *. intuition congruence.
  - rewrite <- pick_map, (r_geoms _ _ _ _ R1), pick_map, pick_pick by assumption. reflexivity.
Qed.

Lemma reordered_id vs m : packed vs m -> reordered vs m (seq 0 (length (geoms m))) m.
Proof.
  intros P. destruct (packed_laid vs m P) as (L & V & I). fold (mats m).
  split; rewrite ?pick_seq; try assumption; now repeat split.
Qed.

Lemma reordered_sum vs m ks m' : in_range vs m -> Permutation ks (seq 0 (length (geoms m))) -> reordered vs m ks m' ->
  sumZ vnum (mats m') = sumZ vnum (mats m).
Proof.
  intros R P RO. rewrite <- (pick_sum m ks P).
  assert (map unplaced (mats m') = map unplaced (mats_of (pick (geoms m) ks))) as EU.
  { unfold mats. rewrite <- !mats_of_map. now rewrite (r_geoms _ _ _ _ RO). }
  clear -EU. revert EU. generalize (mats_of (pick (geoms m) ks)). induction (mats m') as [|x t IH]; intros [|y l] E; try discriminate; [reflexivity|].
  cbn [map] in E. apply cons_eq in E. destruct E as (E1 & E2). simpl. rewrite (IH l E2). apply (f_equal vnum) in E1. cbn in E1. lia.
Qed.

Theorem reorder_compose vs m o1 k1 o2 k2 o3 m1 m2 : vertex_size m = Ok (Z.of_nat vs) -> (0 < vs)%nat -> in_range vs m ->
  sumZ vnum (mats m) <= 2 ^ 53 -> let n := length (geoms m) in
  permutes n o1 k1 -> permutes n o2 k2 -> permutes n o3 (map (fun k => nth k k1 0%nat) k2) ->
  change_geoms_order m o1 = (m1, None) -> change_geoms_order m1 o2 = (m2, None) -> change_geoms_order m o3 = (m2, None).
Proof.
  intros Hs Hv R B n P1 P2 P3 E1 E2.
  destruct (reorder_ok vs m o1 k1 Hs Hv R B P1) as (m1' & E1' & R1). rewrite E1 in E1'. injection E1' as <-.
  destruct (reordered_parts vs m k1 m1 R R1) as (PK & D).
  pose proof (packed_in_range _ _ PK) as Rm1.
  assert (length (geoms m1) = n) as EL.
  { apply Forall2_len in D. rewrite pick_length in D by (eapply permutes_in; exact P1). now rewrite (permutes_len _ _ _ P1) in D. }
  assert (vertex_size m1 = Ok (Z.of_nat vs)) as Hs1.
  { unfold vertex_size in *. destruct (r_head _ _ _ _ R1) as (_ & _ & _ & _ & _ & -> & _). exact Hs. }
  rewrite <- EL in P2.
  destruct (reorder_ok vs m1 o2 k2 Hs1 Hv Rm1) as (m2' & E2' & R2); [|exact P2|].
  { rewrite (reordered_sum vs m k1 m1 R (proj2 P1) R1). exact B. }
  rewrite E2 in E2'. injection E2' as <-.
  destruct (reorder_ok vs m o3 _ Hs Hv R B P3) as (m3 & E3 & R3). rewrite E3. f_equal. symmetry.
  apply (reordered_compose vs m k1 m1 k2 m2 m3); auto.
  - eapply permutes_in; exact P1.
  - pose proof (permutes_in _ _ _ P2) as H. rewrite EL in H. rewrite (permutes_len _ _ _ P1). exact H.
Qed.

Theorem reorder_identity vs m order : vertex_size m = Ok (Z.of_nat vs) -> (0 < vs)%nat -> packed vs m ->
  sumZ vnum (mats m) <= 2 ^ 53 -> permutes (length (geoms m)) order (seq 0 (length (geoms m))) ->
  change_geoms_order m order = (m, None).
Proof.
  intros Hs Hv P B HP. destruct (reorder_ok vs m order _ Hs Hv (packed_in_range _ _ P) B HP) as (m' & E & R). rewrite E. f_equal.
  apply (reordered_unique vs m _ m' m _ m R (reordered_id vs m P)); try reflexivity; now repeat split.
Qed.

(** Lengths and counts. *)
Theorem reorder_lengths vs m order ks m' : vertex_size m = Ok (Z.of_nat vs) -> (0 < vs)%nat -> packed vs m ->
  sumZ vnum (mats m) <= 2 ^ 53 -> permutes (length (geoms m)) order ks -> change_geoms_order m order = (m', None) ->
  zlen (vertices m') = zlen (vertices m) /\ zlen (index_list m') = zlen (index_list m) /\ has_tuple m'.
Proof.
  intros Hs Hv P B HP E. destruct (reorder_ok vs m order _ Hs Hv (packed_in_range _ _ P) B HP) as (m1 & E' & R).
  rewrite E in E'. injection E' as <-. destruct (packed_laid vs m P) as (L & V & I).
  assert (Permutation (map (data vs m) (mats_of (pick (geoms m) ks))) (map (data vs m) (mats m))) as PE.
  { apply Permutation_map. unfold mats, mats_of. apply Permutation_flat_map. rewrite <- (pick_seq (geoms m)) at 2.
    apply pick_perm. apply HP. }
  assert (Permutation (vertices m') (vertices m)) as PV.
  { rewrite (r_verts _ _ _ _ R), V. rewrite !flat_map_id. apply Permutation_flat_map. unfold all_v. now apply Permutation_flat_map. }
  assert (Permutation (index_list m') (index_list m)) as PI.
  { unfold index_list. rewrite (r_index _ _ _ _ R), I. unfold all_i. now apply Permutation_flat_map. }
  unfold zlen. rewrite (Permutation_length PV), (Permutation_length PI). repeat split. eexists. apply R.
Qed.
End Reorder.

(** ** Bad orders *)
From Coq Require Import Reals Lra.
From Flocq Require Import Core.
Open Scope Z_scope.
Lemma int_div_total a b : 0 <= a <= 2 ^ 64 -> 0 < b -> exists q, py_int_div a b = Ok q.
Proof.
  intros Ha Hb. destruct (truediv_denotes a b) as (q & E & D); [lia| |].
  - assert (0 < IZR b)%R by now apply IZR_lt. assert (1 <= IZR b)%R by (apply IZR_le; lia).
    assert (0 <= IZR a)%R by (apply IZR_le; lia).
    pose proof (small_int a) as S. unfold small in *. rewrite (Rabs_pos_eq (IZR a)) in S by assumption.
    eapply Rle_trans; [|apply S; lia].
    rewrite Rabs_pos_eq by (apply Rmult_le_pos; [assumption|left; now apply Rinv_0_lt_compat]).
    apply Rmult_le_reg_r with (IZR b); [assumption|]. unfold Rdiv. rewrite Rmult_assoc, Rinv_l, Rmult_1_r by lra.
    rewrite <- (Rmult_1_r (IZR a)) at 1. apply Rmult_le_compat_l; assumption.
  - unfold py_int_div. rewrite E. simpl. eexists. exact (py_int_denotes _ _ D).
Qed.
Lemma py_slice_length {B} (l : list B) a b : zlen (py_slice l a b) <= zlen l.
Proof. unfold py_slice, zlen. rewrite firstn_length, skipn_length. lia. Qed.

Section Bad.
Context {F : Type}.
Implicit Types (m : mesh F) (g : geom F).

Lemma fold_am_keeps {K B S C} (h : B -> C) (f : K -> S -> B -> S * B * option exn) :
  (forall k s x, h (snd (fst (f k s x))) = h x) ->
  forall l s, map h (snd (fst (fold_am f s l))) = map h (map snd l).
Proof.
  intros H. induction l as [|(k, x) t IH]; intros s; [reflexivity|]. cbn [fold_am].
  specialize (H k s x). destruct (f k s x) as ((s', x'), [e|]); cbn [fst snd] in H.
  - cbn. now rewrite H.
  - specialize (IH s'). destruct (fold_am f s' t) as ((s'', r), o). cbn in *. now rewrite H, IH.
Qed.
Lemma reorder_mat_keeps vs verts ix s (x : mat F) : unplaced (snd (fst (reorder_mat vs verts ix s x))) = unplaced x.
Proof.
  unfold reorder_mat. destruct s as (nv, ni). destruct (index_slice _ _ _); [|reflexivity].
  destruct (py_int_div _ _); reflexivity.
Qed.
Lemma trav_keeps vs verts ix s g : geom_mats unplaced (snd (fst (trav_geom (fun _ _ => reorder_mat vs verts ix) s g))) = geom_mats unplaced g.
Proof.
  rewrite trav_geom_flat. pose proof (fold_am_keeps unplaced (fun _ : nat * nat => reorder_mat (F:=F) vs verts ix)
    (fun _ => reorder_mat_keeps vs verts ix) (amats_lods 0 (lods g)) s) as H.
  pose proof (fold_am_length (fun _ : nat * nat => reorder_mat (F:=F) vs verts ix) s (amats_lods 0 (lods g))) as L.
  destruct (fold_am _ s (amats_lods 0 (lods g))) as ((s', ms), o). cbn [fst snd] in *. rewrite amats_lods_snd in H.
  unfold geom_mats. cbn [lods set_lods lodnum]. f_equal. apply put_lods_map; [|exact H].
  apply (f_equal (@length _)) in H. now rewrite !map_length in H.
Qed.
Lemma map_set_nth {B C} (f : B -> C) l k v x : nth_error l k = Some x -> f v = f x -> map f (set_nth l k v) = map f l.
Proof.
  revert k. induction l as [|y t IH]; intros [|k] E H; simpl in *; try discriminate; [congruence|]. f_equal. eauto.
Qed.
Lemma reorder_loop_keeps vs verts ix : forall order (store : list (geom F)) s chosen,
  map (geom_mats unplaced) (fst (fst (fst (reorder_loop vs verts ix order store s chosen)))) = map (geom_mats unplaced) store.
Proof.
  induction order as [|i t IH]; intros store s chosen; [reflexivity|]. cbn [reorder_loop].
  destruct (norm_index _ i) as [k|]; [|reflexivity]. destruct (nth_error store k) as [g|] eqn:E; [|reflexivity].
  pose proof (trav_keeps vs verts ix s g) as H. destruct (trav_geom _ s g) as ((s', g'), [e|]); cbn [fst snd] in H.
  - cbn. now apply (map_set_nth _ _ _ _ g).
  - rewrite IH. now apply (map_set_nth _ _ _ _ g).
Qed.

Theorem reorder_error_keeps m order m' e : change_geoms_order m order = (m', Some e) ->
  same_header m m' /\ same_counts m m' /\ vertices m' = vertices m /\ index m' = index m /\
  map (geom_mats unplaced) (geoms m') = map (geom_mats unplaced) (geoms m).
Proof.
  unfold change_geoms_order. destruct (negb _); [intros H; inversion H; subst; now repeat split|].
  destruct (vertex_size m) as [vs|]; [|intros H; inversion H; subst; now repeat split].
  pose proof (reorder_loop_keeps vs (vertices m) (index m) order (geoms m) ([], []) []) as K.
  destruct (reorder_loop _ _ _ _ _ _ _) as (((store, (nv, ni)), ch), [e'|]); intros H; inversion H; subst. cbn in K.
  repeat split. exact K.
Qed.

Theorem reorder_wrong_length m order : length order <> length (geoms m) -> change_geoms_order m order = (m, Some EAttribute).
Proof. intros H. unfold change_geoms_order. apply Nat.eqb_neq in H. now rewrite H. Qed.

Lemma reorder_fold_total {K} (vs : Z) verts il (Hv : 0 < vs) : forall (l : list (K * mat F)) nv ni,
  zlen nv + zlen l * zlen verts <= 2 ^ 64 ->
  exists nv' ni' ms, fold_am (fun _ => reorder_mat vs verts (Tuple il)) (nv, ni) l = ((nv', ni'), ms, None) /\
    zlen nv' <= zlen nv + zlen l * zlen verts.
Proof.
  induction l as [|(k, mt) t IH]; intros nv ni B.
  - exists nv, ni, []. cbn. split; [reflexivity|lia].
  - cbn [fold_am]. unfold reorder_mat at 1. cbn [index_slice].
    set (nv1 := nv ++ py_slice verts (vstart mt * vs) (vstart mt * vs + vnum mt * vs)).
    assert (zlen nv1 <= zlen nv + zlen verts) as L1.
    { unfold nv1. rewrite zlen_app. pose proof (py_slice_length verts (vstart mt * vs) (vstart mt * vs + vnum mt * vs)). lia. }
    pose proof (zlen_nonneg verts). pose proof (zlen_nonneg t). pose proof (zlen_nonneg nv1).
    assert (zlen ((k, mt) :: t) = 1 + zlen t) as EL by (unfold zlen; cbn [length]; lia). rewrite EL in B.
    destruct (int_div_total (zlen nv1) vs) as (q & ->); [nia|exact Hv|].
    destruct (IH nv1 (ni ++ py_slice il (istart mt) (istart mt + inum mt))) as (nv' & ni' & ms & -> & L); [nia|].
    eexists _, _, _. split; [reflexivity|]. rewrite EL. nia.
Qed.

Lemma reorder_loop_total vs verts il N (Hv : 0 < vs) : forall order (store : list (geom F)) nv ni chosen,
  Forall (fun g => zlen (lods_mats (lods g)) <= N) store -> 0 <= N ->
  zlen nv + zlen order * (N * zlen verts) <= 2 ^ 64 ->
  exists store' nv' ni' ch o, reorder_loop vs verts (Tuple il) order store (nv, ni) chosen = (store', (nv', ni'), ch, o) /\
    ((o = None /\ Forall (fun i => exists k, picks (length store) i k) order) \/
     (o = Some EIndex /\ Exists (fun i => ~ exists k, picks (length store) i k) order)).
Proof.
  induction order as [|i t IH]; intros store nv ni chosen HN HN0 B.
  - eexists _, _, _, _, _. split; [reflexivity|]. left. auto.
  - cbn [reorder_loop]. destruct (norm_index (zlen store) i) as [k|] eqn:EN.
    2:{ eexists _, _, _, _, _. split; [reflexivity|]. right. split; [reflexivity|]. constructor. intros (k & Hk).
        apply picks_norm in Hk. unfold zlen in EN. congruence. }
    apply picks_norm in EN. destruct (nth_error store k) as [g|] eqn:Eg; [|apply nth_error_None in Eg; destruct EN; lia].
    assert (zlen (i :: t) = 1 + zlen t) as EL by (unfold zlen; cbn [length]; lia). rewrite EL in B.
    pose proof (zlen_nonneg verts). pose proof (zlen_nonneg t).
    assert (zlen (lods_mats (lods g)) <= N) as Hg by (rewrite Forall_forall in HN; apply HN; now apply nth_error_In in Eg).
    assert (zlen (amats_lods 0 (lods g)) = zlen (lods_mats (lods g))) as EA.
    { unfold zlen. rewrite <- (amats_lods_snd 0 (lods g)), map_length. reflexivity. }
    pose proof (trav_keeps vs verts (Tuple il) (nv, ni) g) as KP.
    rewrite trav_geom_flat in *.
    assert (zlen (lods_mats (lods g)) * zlen verts <= N * zlen verts) as HM by nia.
    destruct (reorder_fold_total vs verts il Hv (amats_lods 0 (lods g)) nv ni) as (nv' & ni' & ms & E & L).
    { rewrite EA. nia. }
    rewrite E in *. cbn [fst snd] in KP. rewrite EA in L.
    destruct (IH (set_nth store k (set_lods g (put_lods (lods g) ms))) nv' ni' (chosen ++ [k])) as (st & nv2 & ni2 & ch & o & E2 & C).
    + apply Forall_forall. intros h Hh. apply In_nth_error in Hh. destruct Hh as (j & Hj).
      destruct (Nat.eq_dec k j) as [<-|NE].
      * rewrite nth_set_same in Hj by (apply nth_error_Some; congruence). injection Hj as <-.
        apply (f_equal lods) in KP. cbn [lods geom_mats] in KP. apply lods_len in KP. unfold zlen in *. rewrite KP. exact Hg.
      * rewrite nth_set_other in Hj by exact NE. rewrite Forall_forall in HN. apply HN. now apply nth_error_In in Hj.
    + exact HN0.
    + nia.
    + exists st, nv2, ni2, ch, o. split; [exact E2|]. rewrite set_nth_length in C.
      destruct C as [(-> & C)|(-> & C)]; [left|right]; (split; [reflexivity|]).
      * constructor; eauto.
      * now apply Exists_cons_tl.
Qed.

Theorem reorder_outcome vs m order : vertex_size m = Ok vs -> 0 < vs -> has_tuple m -> length order = length (geoms m) ->
  zlen order * (zlen (mats m) * zlen (vertices m)) <= 2 ^ 64 ->
  let valid i := exists k, picks (length (geoms m)) i k in
  (Forall valid order -> exists m', change_geoms_order m order = (m', None)) /\
  (Exists (fun i => ~ valid i) order -> exists m', change_geoms_order m order = (m', Some EIndex)).
Proof.
  intros Hs Hv (il & EI) EL B valid. unfold change_geoms_order. rewrite EL, Nat.eqb_refl. cbn [negb]. rewrite Hs, EI.
  destruct (reorder_loop_total vs (vertices m) il (zlen (mats m)) Hv order (geoms m) [] [] []) as (st & nv & ni & ch & o & E & C).
  - apply Forall_forall. intros g Hg. apply in_split in Hg. destruct Hg as (l1 & l2 & E). unfold mats. rewrite E, mats_of_app.
    change (mats_of (g :: l2)) with (lods_mats (lods g) ++ mats_of l2). rewrite !zlen_app.
    pose proof (zlen_nonneg (mats_of l1)). pose proof (zlen_nonneg (mats_of l2)). lia.
  - apply zlen_nonneg.
  - cbn. lia.
  - rewrite E. destruct C as [(-> & C)|(-> & C)]; split; intros H; eauto.
    + exfalso. apply Exists_exists in H. destruct H as (i & Hi & N). rewrite Forall_forall in C. apply N. now apply C.
    + exfalso. apply Exists_exists in C. destruct C as (i & Hi & N). rewrite Forall_forall in H. apply N. now apply H.
Qed.
Theorem reorder_counts m m' order r : change_geoms_order m order = (m', r) -> same_counts m m'.
Proof.
  unfold change_geoms_order. destruct (negb _); [intros H; inversion H; subst; now repeat split|].
  destruct (vertex_size m) as [vs|]; [|intros H; inversion H; subst; now repeat split].
  destruct (reorder_loop _ _ _ _ _ _ _) as (((store, (nv, ni)), ch), [e'|]); intros H; inversion H; subst; now repeat split.
Qed.

Theorem reorder_inverse vs m o1 k1 o2 k2 : vertex_size m = Ok (Z.of_nat vs) -> (0 < vs)%nat -> packed vs m ->
  sumZ vnum (mats m) <= 2 ^ 53 -> let n := length (geoms m) in
  permutes n o1 k1 -> permutes n o2 k2 -> map (fun k => nth k k1 0%nat) k2 = seq 0 n ->
  exists m1, change_geoms_order m o1 = (m1, None) /\ change_geoms_order m1 o2 = (m, None).
Proof.
  intros Hs Hv P B n P1 P2 E. pose proof (packed_in_range _ _ P) as R.
  destruct (reorder_ok vs m o1 k1 Hs Hv R B P1) as (m1 & E1 & R1). exists m1. split; [exact E1|].
  destruct (reordered_parts vs m k1 m1 R R1) as (PK & _).
  assert (length (geoms m1) = n) as EL.
  { pose proof (r_geoms _ _ _ _ R1) as H. apply (f_equal (@length _)) in H. rewrite !map_length in H. rewrite H.
    rewrite (pick_length (geoms m) k1); [now apply (permutes_len _ o1)|now apply (permutes_in _ o1)]. }
  assert (vertex_size m1 = Ok (Z.of_nat vs)) as Hs1.
  { rewrite <- Hs. destruct (r_head _ _ _ _ R1) as (_ & _ & _ & _ & _ & EA & _). unfold vertex_size. now rewrite EA. }
  destruct (reorder_ok vs m1 o2 k2 Hs1 Hv (packed_in_range _ _ PK)) as (m2 & E2 & _).
  - rewrite (reordered_sum vs m k1 m1 R (proj2 P1) R1); exact B.
  - now rewrite EL.
  - rewrite E2. f_equal.
    assert (permutes n (map Z.of_nat (seq 0 n)) (seq 0 n)) as PI.
    { split; [|reflexivity]. assert (forall l, (forall k, In k l -> (k < n)%nat) -> Forall2 (picks n) (map Z.of_nat l) l) as G.
      { induction l as [|x t IH]; intros H; constructor; [split; [apply H; now left|now left]|apply IH; intros; apply H; now right]. }
      apply G. intros k Hk. apply in_seq in Hk. lia. }
    pose proof (reorder_compose vs m o1 k1 o2 k2 (map Z.of_nat (seq 0 n)) m1 m2 Hs Hv R B P1 P2) as C. rewrite E in C.
    specialize (C PI E1 E2). rewrite (reorder_identity vs m _ Hs Hv P B PI) in C. congruence.
Qed.
End Bad.
