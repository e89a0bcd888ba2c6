(** Bounds of meshes rotated in doubles. *)
From Coq Require Import ZArith List Bool Lia Reals Lra.
From Flocq Require Import Core IEEE754.Binary IEEE754.Bits.
From Verif Require Import PyBase Struct Mesh Arith F64 Edit Spec SpecEdit CodecBase DivFacts TravFacts VertFacts MergeFacts RArith RFacts F64Facts BoundFacts CenterFacts
  SpecBounds RecentreFacts SpecAcc AccFacts PiFacts SpecMoveBound MoveBoundFacts.
Import ListNotations.
Open Scope Z_scope.

Lemma triple_inj {F} (v : list F) o q q' : triple v o q -> triple v o q' -> q = q'.
Proof. destruct q as ((x, y), z), q' as ((x', y'), z'). intros (A1 & A2 & A3) (B1 & B2 & B3). congruence. Qed.
Lemma positions_from {F} vs (m m' : mesh F) a mt q' :
  bounding_attrib m = Some a -> bounding_attrib m' = Some a -> attrib_start m' a = attrib_start m a -> (attrib_start m a + 3 <= vs)%nat ->
  length (vertices m') = length (vertices m) -> In q' (positions vs m' mt) ->
  exists j q, In q (positions vs m mt) /\ triple (vertices m) (j * vs + attrib_start m a) q /\ triple (vertices m') (j * vs + attrib_start m a) q'.
Proof.
  intros E1 E2 E3 Ho LL. unfold positions, bounding_start. rewrite E1, E2, E3. unfold mat_vertices.
  intros H. apply in_flat_map in H. destruct H as (b & Hb & H). apply in_map_iff in Hb. destruct Hb as (i & <- & Hi).
  set (j := (Z.to_nat (vstart mt) + i)%nat) in *. exists j.
  destruct (at3 (block vs (vertices m') j) (attrib_start m a)) as [x|] eqn:E; [|destruct H]. destruct H as [<-|[]]. apply at3_triple in E; [|exact Ho].
  assert (j * vs + attrib_start m a + 2 < length (vertices m))%nat as K.
  { rewrite <- LL. destruct x as ((x1, x2), x3). destruct E as (_ & _ & E). apply nth_error_Some. congruence. }
  destruct (triple_ex (vertices m) (j * vs + attrib_start m a)) as (q & Hq); [lia|]. exists q. split; [|auto].
  apply in_flat_map. exists (block vs (vertices m) j). split; [apply in_map_iff; exists i; split; [reflexivity|exact Hi]|]. apply at3_triple in Hq; [|exact Ho]. rewrite Hq. now left.
Qed.
Lemma within_axis e u v i : In i axes -> within e u v -> (Rabs (axis i u - axis i v) <= e)%R.
Proof. destruct u as ((a, b), c), v as ((x, y), z). intros [<-|[<-|[<-|[]]]] (H1 & H2 & H3); cbn; assumption. Qed.
Lemma axis_val3 i q : In i axes -> axis i (val3 q) = SpecAcc.val (axis i q).
Proof. destruct q as ((x, y), z). intros [<-|[<-|[<-|[]]]]; reflexivity. Qed.
Lemma finite_axis i q : In i axes -> finite3 q -> finite (axis i q).
Proof. destruct q as ((x, y), z). intros [<-|[<-|[<-|[]]]] (H1 & H2 & H3); cbn; assumption. Qed.

Theorem rotated_double L vs m m1 mv m2 yaw pitch roll more a gi li l lo2 hi2 e D ray :
  vertex_size m = Ok (Z.of_nat vs) -> (0 < vs)%nat -> tiled_vertices vs m -> rotate_ready vs m -> bounded_kind m ->
  bounding_attrib m = Some a ->
  (0 <= e)%R -> libm_within e L -> angle_upto D yaw -> angle_upto D pitch -> angle_upto D roll -> (e + D * bpow radix2 (-58) <= / 16)%R ->
  Forall (fun mt => Forall (fun q => finite3 q /\ (norm (val3 q) <= bpow radix2 1000)%R) (positions vs m mt)) (mats m) ->
  update_boundaries (f64 L) m = (m1, None) -> rotate (f64 L) m1 (yaw :: pitch :: roll :: more) = (mv, None) -> update_boundaries (f64 L) mv = (m2, None) ->
  lod_at m gi li l -> has_box m2 gi li lo2 hi2 ->
  (0 <= ray)%R -> (forall q, In q (lod_positions vs m l) -> (norm (val3 q) <= ray)%R) ->
  let far := (ray + (9 * (2 * (e + D * bpow radix2 (-58)) + 6 * half_ulp) * ray + bpow radix2 (-1069)))%R in
  forall i, In i axes -> finite (axis i lo2) /\ finite (axis i hi2) /\
    (- far <= SpecAcc.val (axis i lo2) <= 0)%R /\ (0 <= SpecAcc.val (axis i hi2) <= far)%R.
Proof.
  intros Hs Hv T HR HK HB He HL Hy Hp Hr HD HF U1 HT U2 L0 (l2 & L2 & E3 & E4) Hray HQ far i Hi. pose proof (proj1 HR) as HO.
  destruct (update_keeps (f64 L) vs m m1 Hs T HO HK U1) as (Hs1 & T1 & HO1 & HK1 & B1 & P1 & OA & V1 & F1 & LP & LX & M1).
  assert (rotate_ready vs m1) as R1.
  { destruct HR as (_ & H2 & H3). split; [exact HO1|]. rewrite OA. unfold apart, attrib_start in *. now rewrite F1. }
  destruct (rotate_accuracy L vs m1 yaw pitch roll more e D Hs1 Hv T1 R1 He HL Hy Hp Hr HD) as (mv' & HT' & AC).
  assert (mv' = mv) by congruence. subst mv'.
  assert (0 <= D)%R as D0 by (destruct Hy as (_ & Hy); eapply Rle_trans; [apply Rabs_pos|exact Hy]).
  assert (D <= bpow radix2 60)%R as HD60.
  { assert (0 < bpow radix2 (-58))%R by apply bpow_gt_0. apply Rmult_le_reg_r with (bpow radix2 (-58)); [lra|]. rewrite <- bpow_plus. change (bpow radix2 (60 + -58)) with 4%R. lra. }
  destruct (rotate_triples (f64 L) vs m1 yaw pitch roll more Hs1 Hv T1 R1 (finite_can_turn L _ _ _ D Hy Hp Hr HD60)) as (mv' & HT2 & S & LL & _).
  assert (mv' = mv) by congruence. subst mv'.
  destruct (vertices_keep vs m1 mv Hs1 T1 HO1 HK1 S LL) as (Hsv & Tv & HOv & HKv & LA & EM).
  destruct (LX _ _ _ L0) as (l1 & L1). destruct (LP _ _ _ L1) as (l' & L' & Q). rewrite (lod_at_unique _ _ _ _ _ L' L0) in Q.
  assert (bounding_attrib m1 = Some a) as HB1 by congruence.
  assert (In a (oriented_attribs m1)) as IA.
  { unfold bounding_attrib in HB1. apply find_some in HB1. destruct HB1 as (X1 & X2). apply filter_In. split; [now apply in_rev|].
    unfold oriented. apply andb_true_iff in X2. destruct X2 as (-> & ->). reflexivity. }
  assert (forall mt q', In q' (positions vs mv mt) -> exists j q, In q (positions vs m1 mt) /\ triple (vertices m1) (j * vs + attrib_start m1 a) q /\
            triple (vertices mv) (j * vs + attrib_start m1 a) q') as PF.
  { intros mt q'. destruct S as ((_ & _ & _ & _ & _ & S5 & S6 & _) & _). apply positions_from; auto.
    - unfold bounding_attrib in *. now rewrite S5.
    - unfold attrib_start. now rewrite S6.
    - destruct R1 as (_ & R2 & _). rewrite Forall_forall in R2. apply R2, IA. }
  assert (forall mt, In mt (mats m1) -> forall q, In q (positions vs m1 mt) -> finite3 q /\ (norm (val3 q) <= bpow radix2 1000)%R) as HF1.
  { intros mt Hm q Hq. rewrite M1 in Hm. apply in_map_iff in Hm. destruct Hm as (mt0 & <- & Hm). rewrite Forall_forall in HF. specialize (HF mt0 Hm).
    rewrite Forall_forall in HF. apply HF. revert Hq. unfold positions, bounding_start, attrib_start. rewrite B1, F1. unfold mat_vertices. rewrite V1.
    assert (vstart (mat_bound (f64 L) vs m mt0) = vstart mt0 /\ vnum (mat_bound (f64 L) vs m mt0) = vnum mt0) as (-> & ->); [|auto].
    unfold mat_bound. destruct (has_mat_bounds m); auto. }
  assert (forall mt, In mt (mats m1) -> forall q', In q' (positions vs mv mt) -> exists q, In q (positions vs m1 mt) /\ finite3 q' /\
     within (9 * (2 * (e + D * bpow radix2 (-58)) + 6 * half_ulp) * norm (val3 q) + bpow radix2 (-1069)) (val3 q')
           (turn exact (SpecAcc.val yaw) (SpecAcc.val pitch) (SpecAcc.val roll) (val3 q))) as PW.
  { intros mt Hm q' Hq'. destruct (PF mt q' Hq') as (j & q & Hq & T3 & T4). destruct (HF1 mt Hm q Hq) as (G1 & G2).
    destruct (AC j a q IA T3 G1 G2) as (q2 & T5 & G3 & W). rewrite (triple_inj _ _ _ _ T4 T5). eauto. }
  assert (box (f64 L) (origin (f64 L) :: lod_positions vs mv l1) lo2 hi2) as (I2 & A2).
  { eapply (fresh_box (f64 L) _ _ (f64_ordered L) vs mv m2 gi li l1 l2); eauto using tiled_vin; [|now apply LA].
    apply Forall_forall. intros mt Hm. apply Forall_forall. intros q' Hq' k Hk. rewrite EM in Hm.
    destruct (PW mt Hm q' Hq') as (q & _ & G & _). apply (finite_axis k) in G; [|exact Hk]. unfold number, finite in *. now destruct (axis k q'). }
  assert (axis i (origin (f64 L)) = f_zero (f64 L)) as E0 by (destruct Hi as [<-|[<-|[<-|[]]]]; reflexivity).
  assert (SpecAcc.val (f_zero (f64 L)) = 0%R) as V0 by reflexivity.
  assert (0 < bpow radix2 (-1069))%R as Z1 by apply bpow_gt_0. assert (0 < bpow radix2 (-58))%R as Z2 by apply bpow_gt_0.
  assert (0 < half_ulp)%R as Z3 by apply bpow_gt_0.
  set (c := (9 * (2 * (e + D * bpow radix2 (-58)) + 6 * half_ulp))%R) in *.
  assert (0 <= c)%R as Hc. { unfold c. assert (0 <= D * bpow radix2 (-58))%R by (apply Rmult_le_pos; lra). lra. }
  assert (0 <= far)%R as Hfar. { unfold far. assert (0 <= c * ray)%R by now apply Rmult_le_pos. lra. }
  assert (forall q', In q' (origin (f64 L) :: lod_positions vs mv l1) -> finite (axis i q') /\ (- far <= SpecAcc.val (axis i q') <= far)%R) as K.
  { intros q' [<-|Hq']; [rewrite E0; split; [reflexivity|rewrite V0; lra]|].
    unfold lod_positions in Hq'. apply in_flat_map in Hq'. destruct Hq' as (mt & Hm & Hq').
    destruct (PW mt (mats_in _ _ _ _ L1 mt Hm) q' Hq') as (q & Hq & G & W). split; [now apply finite_axis|].
    assert (norm (val3 q) <= ray)%R as NQ. { apply HQ. rewrite <- Q. unfold lod_positions. apply in_flat_map. eauto. }
    apply (within_axis _ _ _ i Hi) in W. rewrite (axis_val3 i q' Hi) in W.
    assert (c * norm (val3 q) <= c * ray)%R as CN by now apply Rmult_le_compat_l.
    set (t := turn exact (SpecAcc.val yaw) (SpecAcc.val pitch) (SpecAcc.val roll) (val3 q)) in *.
    assert (- ray <= axis i t <= ray)%R as KT.
    { apply square_le; [exact Hray|]. eapply Rle_trans; [apply axis_dot, Hi|]. unfold t. rewrite turn_dot. rewrite norm_dot in NQ.
      assert (0 <= dot (val3 q) (val3 q))%R as DP. { destruct (val3 q) as ((x, y), z). unfold dot. pose proof (Rle_0_sqr x). pose proof (Rle_0_sqr y). pose proof (Rle_0_sqr z). unfold Rsqr in *. lra. }
      rewrite <- (sqrt_sqrt _ DP). apply Rmult_le_compat; try apply sqrt_pos; exact NQ. }
    apply Rabs_le_inv in W. unfold far. lra. }
  destruct (A2 i Hi) as ((u & Hu & Eu) & (w & Hw & Ew)). destruct (K u Hu) as (Fu & Ku), (K w Hw) as (Fw & Kw). rewrite Eu in Fu, Ku. rewrite Ew in Fw, Kw.
  split; [exact Fu|]. split; [exact Fw|]. pose proof (I2 _ (or_introl eq_refl) i Hi) as (K2 & K3). rewrite E0 in K2, K3.
  rewrite fle_fin in K2, K3 by (exact Fu || exact Fw || reflexivity). change (B2R 53 1024 (f_zero (f64 L))) with 0%R in K2, K3.
  unfold SpecAcc.val in *. lra.
Qed.
