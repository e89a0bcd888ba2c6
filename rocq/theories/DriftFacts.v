(** How far sequences of moves in doubles end from where they should: proofs. *)
From Coq Require Import ZArith Reals List Bool Lia Lra Psatz.
From Flocq Require Import Core IEEE754.Binary IEEE754.Bits.
From Verif Require Import PyBase Struct Mesh Arith F64 RArith Edit Spec SpecEdit SpecAcc SpecVec SpecSurface SpecDrift
  CodecFacts F64Facts TravFacts VertFacts RFacts AccFacts PiFacts SurfaceFacts.
Import ListNotations.
Open Scope R_scope.

(** ** Lengths *)
Lemma norm_scalar v : norm v = sqrt (scalar_product v v).
Proof. destruct v as ((x, y), z). reflexivity. Qed.
Lemma scalar_pos v : 0 <= scalar_product v v.
Proof. algebra. nra. Qed.
Lemma norm_pos v : 0 <= norm v.
Proof. rewrite norm_scalar. apply sqrt_pos. Qed.
Lemma norm_sq v : norm v * norm v = scalar_product v v.
Proof. rewrite norm_scalar. apply sqrt_sqrt, scalar_pos. Qed.
Lemma cauchy u v : scalar_product u v <= norm u * norm v.
Proof.
  destruct (Rle_lt_dec (scalar_product u v) 0) as [H|H]; [pose proof (norm_pos u); pose proof (norm_pos v); nra|].
  apply Rsqr_incr_0_var; [|pose proof (norm_pos u); pose proof (norm_pos v); nra]. unfold Rsqr.
  pose proof (gram u v) as G. pose proof (scalar_pos (vector_product u v)) as P. rewrite G in P.
  replace (norm u * norm v * (norm u * norm v)) with ((norm u * norm u) * (norm v * norm v)) by ring. rewrite !norm_sq. lra.
Qed.
Lemma norm_le v r : 0 <= r -> scalar_product v v <= r * r -> norm v <= r.
Proof.
  intros R0 H. rewrite <- norm_sq in H. apply Rsqr_incr_0_var; [exact H|exact R0].
Qed.
Lemma norm_plus u v : norm (plus u v) <= norm u + norm v.
Proof.
  pose proof (norm_pos u). pose proof (norm_pos v). apply norm_le; [lra|].
  assert (scalar_product (plus u v) (plus u v) = scalar_product u u + 2 * scalar_product u v + scalar_product v v) as -> by (algebra; ring).
  pose proof (cauchy u v). rewrite <- !norm_sq. nra.
Qed.
Lemma norm_minus_sym u v : norm (minus u v) = norm (minus v u).
Proof. rewrite !norm_scalar. f_equal. algebra. ring. Qed.
Lemma norm_via u v w : norm (minus u w) <= norm (minus u v) + norm (minus v w).
Proof. replace (minus u w) with (plus (minus u v) (minus v w)) by (algebra; apply vec_ext; ring). apply norm_plus. Qed.
Lemma norm_near u v e : norm (minus u v) <= e -> norm u <= norm v + e.
Proof.
  intros H. replace u with (plus v (minus u v)) by (algebra; apply vec_ext; ring).
  eapply Rle_trans; [apply norm_plus|]. lra.
Qed.
Lemma within_norm e u v : 0 <= e -> SpecAcc.within e u v -> norm (minus u v) <= 2 * e.
Proof.
  intros E0. destruct u as ((a, b), c), v as ((x, y), z). intros (H1 & H2 & H3). apply norm_le; [lra|].
  assert (forall t, Rabs t <= e -> t * t <= e * e) as S.
  { intros t Ht. pose proof (Rabs_pos t). replace (t * t) with (Rabs t * Rabs t) by (rewrite <- Rabs_mult; apply Rabs_pos_eq; nra). nra. }
  apply S in H1, H2, H3. unfold scalar_product, minus, SpecBounds.axis. nra.
Qed.
Lemma rot_norm g : rotation g -> forall v, norm (g v) = norm v.
Proof. intros [_ H _] v. now rewrite !norm_scalar, H. Qed.

Lemma position_among {F} (m : mesh F) a : position_attrib m = Some a -> In a (oriented_attribs m) /\ position_start m = attrib_start m a.
Proof.
  intros H. split; [|unfold position_start; now rewrite H]. unfold position_attrib in H. apply find_some in H. destruct H as (H1 & H2).
  apply filter_In. split; [exact H1|]. apply andb_prop in H2. unfold oriented. now rewrite (proj1 H2), (proj2 H2).
Qed.

(** ** One call *)
Section One.
Variables (L : libm) (e D : R).
Hypothesis (E0 : 0 <= e) (HL : libm_within e L) (ED : e + D * bpow radix2 (-58) <= / 16) (D0 : 0 <= D).
Notation dl := (per_call e D).
Notation tau := (bpow radix2 (-1000)).

Lemma dl_big : 108 * half_ulp <= dl.
Proof. unfold per_call. pose proof (bpow_gt_0 radix2 (-58)). nra. Qed.
Lemma dl_pos : 0 < dl.
Proof. pose proof dl_big. pose proof u_small. lra. Qed.
Lemma tiny : 2 * bpow radix2 (-1069) <= dl * tau.
Proof.
  pose proof dl_big as H. pose proof (bpow_gt_0 radix2 (-1000)).
  apply Rle_trans with (half_ulp * tau); [|unfold half_ulp in *; pose proof (bpow_gt_0 radix2 (-53)); nra].
  unfold half_ulp. rewrite <- bpow_plus. change 2 with (bpow radix2 1). rewrite <- bpow_plus. apply bpow_le. lia.
Qed.

Lemma movable_same vs m m' : movable vs m -> same_but_vertices m m' -> length (vertices m') = length (vertices m) -> movable vs m'.
Proof.
  intros [M1 M2 M3 M4 M5] (SH & SC & EG & EI) EL. assert (vertex_attributes m' = vertex_attributes m) as EA by apply SH.
  assert (vertformat m' = vertformat m) as EF by apply SH. constructor; auto.
  - unfold vertex_size in *. now rewrite EA.
  - unfold tiled_vertices, mats, zlen in *. now rewrite EG, EL.
  - revert M4. unfold rotate_ready, short_offsets, oriented_attribs, apart, attrib_start. now rewrite EA, EF.
  - unfold position_attrib in *. now rewrite EA.
Qed.
Lemma shift_moves vs m x y z : movable vs m -> exists m', translate (f64 L) m [x; y; z] = (m', None) /\ same_but_vertices m m' /\
  length (vertices m') = length (vertices m) /\
  forall j c v, (c < vs)%nat -> nth_error (vertices m) (j * vs + c) = Some v ->
    nth_error (vertices m') (j * vs + c) = Some (moved (f64 L) (position_start m) [x; y; z] c v).
Proof.
  intros [M1 M2 M3 M4 (pa & M5)]. destruct (position_among m pa M5) as (Hp & _).
  assert (attrib_start m pa + 3 <= vs)%nat as Lp by (destruct M4 as (_ & R & _); rewrite Forall_forall in R; apply (R pa Hp)).
  destruct (translate_succeeds (f64 L) vs m [x; y; z] M1 M2 M3 (proj1 M4)) as (m' & E); [intros _; exists pa; now split|].
  exists m'. split; [exact E|]. exact (translate_packed (f64 L) vs m _ m' M1 M2 M3 (proj1 M4) E).
Qed.
Lemma moved_far ps x y z c v : (c < ps \/ ps + 3 <= c)%nat -> moved (f64 L) ps [x; y; z] c v = v.
Proof.
  intros [H|H]; unfold moved.
  - now rewrite (proj2 (Nat.leb_gt _ _) H).
  - destruct (ps <=? c)%nat; [|reflexivity]. now rewrite (proj2 (nth_error_None _ _)) by (cbn; lia).
Qed.
Lemma ready_apart vs (m : mesh binary64) a b : rotate_ready vs m -> In a (oriented_attribs m) -> In b (oriented_attribs m) ->
  attrib_start m a <> attrib_start m b -> (attrib_start m a + 3 <= attrib_start m b \/ attrib_start m b + 3 <= attrib_start m a)%nat.
Proof.
  intros (_ & _ & P) Ha Hb N. destruct (ForallOrdPairs_In P a b Ha Hb) as [-> | [H | H]]; [easy|exact H|destruct H; auto].
Qed.
Lemma add_near x d : finite x -> finite d -> Rabs (val x + val d) <= bpow radix2 1000 ->
  finite (f_add (f64 L) x d) /\ Rabs (val (f_add (f64 L) x d) - (val x + val d)) <= half_ulp * Rabs (val x + val d).
Proof.
  intros Fx Fd B. assert (finite (f_add (f64 L) x d)) as F.
  { apply (plus_ok L x d Fx Fd). eapply Rle_trans; [exact B|]. apply bpow_le. lia. }
  split; [exact F|]. now apply (add_rounded L x d F).
Qed.
Lemma norm_each (k : R) a b c x y z : 0 <= k -> Rabs (a - x) <= k * Rabs x -> Rabs (b - y) <= k * Rabs y -> Rabs (c - z) <= k * Rabs z ->
  norm (minus (a, b, c) (x, y, z)) <= k * norm (x, y, z).
Proof.
  intros K H1 H2 H3. apply norm_le; [pose proof (norm_pos (x, y, z)); nra|].
  replace (k * norm (x, y, z) * (k * norm (x, y, z))) with (k * k * (norm (x, y, z) * norm (x, y, z))) by ring. rewrite norm_sq.
  assert (forall p t, Rabs p <= k * Rabs t -> p * p <= k * k * (t * t)) as S.
  { intros p t H. replace (p * p) with (Rabs p * Rabs p) by (rewrite <- Rabs_mult; apply Rabs_pos_eq; nra).
    replace (t * t) with (Rabs t * Rabs t) by (rewrite <- Rabs_mult; apply Rabs_pos_eq; nra).
    pose proof (Rabs_pos p). pose proof (Rabs_pos t). nra. }
  apply S in H1, H2, H3. unfold scalar_product, minus, SpecBounds.axis. nra.
Qed.

Lemma one_motion vs m s : movable vs m -> motion_upto D s -> exists m', do_motion L m s = (m', None) /\
  same_but_vertices m m' /\ length (vertices m') = length (vertices m) /\
  (forall j c v, (c < vs)%nat -> Forall (outside m c) (oriented_attribs m) -> nth_error (vertices m) (j * vs + c) = Some v ->
     nth_error (vertices m') (j * vs + c) = Some v) /\
  (forall j a q, In a (oriented_attribs m) -> triple (vertices m) (j * vs + attrib_start m a) q ->
     finite3 q -> norm (val3 q) + way [s] <= bpow radix2 1000 ->
   exists q', triple (vertices m') (j * vs + attrib_start m a) q' /\ finite3 q' /\
     norm (minus (val3 q') (goal (at_position m a) [s] (val3 q))) <= dl * (norm (val3 q) + way [s]) + 2 * bpow radix2 (-1069)).
Proof.
  intros M U. pose proof (bpow_gt_0 radix2 (-1069)) as T0. pose proof dl_pos as DP. destruct s as [x y z|yaw pitch roll].
  - destruct U as (Fx & Fy & Fz). destruct (shift_moves vs m x y z M) as (m' & E & SV & EL & N). exists m'. cbn [do_motion].
    split; [exact E|]. split; [exact SV|]. split; [exact EL|]. pose proof M as [M1 M2 M3 M4 (pa & M5)]. destruct (position_among m pa M5) as (Hp & Ep).
    split.
    + intros j c v Hc HO Hv. rewrite (N j c v Hc Hv). f_equal. apply moved_far. rewrite Ep. rewrite Forall_forall in HO. exact (HO pa Hp).
    + intros j a q Ha Hq Fq B. cbn [way fold_right] in *. rewrite Rplus_0_r in *. destruct q as ((q1, q2), q3). pose proof Hq as (Q1 & Q2 & Q3). destruct Fq as (F1 & F2 & F3).
      assert (attrib_start m a + 3 <= vs)%nat as La by (destruct M4 as (_ & R & _); rewrite Forall_forall in R; apply (R a Ha)).
      pose proof (N j (attrib_start m a) q1 ltac:(lia) Q1) as P1.
      pose proof (N j (attrib_start m a + 1)%nat q2 ltac:(lia)) as P2. rewrite Nat.add_assoc in P2. specialize (P2 Q2).
      pose proof (N j (attrib_start m a + 2)%nat q3 ltac:(lia)) as P3. rewrite Nat.add_assoc in P3. specialize (P3 Q3).
      set (W := norm (val x, val y, val z)) in *. pose proof (norm_pos (val x, val y, val z)) as W0. fold W in W0. pose proof (norm_pos (val3 (q1, q2, q3))) as V0.
      unfold goal, at_position. cbn [fold_left]. destruct (Nat.eqb_spec (attrib_start m a) (position_start m)) as [EQ|NE].
      * assert (norm (plus (val3 (q1, q2, q3)) (val x, val y, val z)) <= bpow radix2 1000) as B'.
        { eapply Rle_trans; [apply norm_plus|]. exact B. }
        cbn [val3 plus] in B'. destruct (norm_comp _ _ _ _ B') as (B1 & B2 & B3).
        destruct (add_near q1 x F1 Fx B1) as (G1 & A1). destruct (add_near q2 y F2 Fy B2) as (G2 & A2). destruct (add_near q3 z F3 Fz B3) as (G3 & A3).
        exists (f_add (f64 L) q1 x, f_add (f64 L) q2 y, f_add (f64 L) q3 z). rewrite EQ in *.
        rewrite (moved_at_eq L m [x; y; z] _ x) in P1 by (split; [lia|]; now rewrite Nat.sub_diag).
        rewrite (moved_at_eq L m [x; y; z] _ y) in P2 by (split; [lia|]; now replace (position_start m + 1 - position_start m)%nat with 1%nat by lia).
        rewrite (moved_at_eq L m [x; y; z] _ z) in P3 by (split; [lia|]; now replace (position_start m + 2 - position_start m)%nat with 2%nat by lia).
        split; [exact (conj P1 (conj P2 P3))|]. split; [exact (conj G1 (conj G2 G3))|]. cbn [point_by].
        pose proof u_small as US. pose proof dl_big as DB.
        eapply Rle_trans; [apply (norm_each half_ulp (val (f_add (f64 L) q1 x)) (val (f_add (f64 L) q2 y)) (val (f_add (f64 L) q3 z))); [lra|exact A1|exact A2|exact A3]|].
        pose proof (norm_plus (val3 (q1, q2, q3)) (val x, val y, val z)) as NP. cbn [val3 plus] in NP, V0. fold W in NP.
        pose proof (norm_pos (val q1 + val x, val q2 + val y, val q3 + val z)). cbn [val3]. nra.
      * exists (q1, q2, q3). pose proof (ready_apart vs m a pa M4 Ha Hp) as AP. rewrite <- Ep in AP. specialize (AP NE).
        rewrite moved_far in P1 by lia. rewrite moved_far in P2 by lia. rewrite moved_far in P3 by lia.
        split; [exact (conj P1 (conj P2 P3))|]. split; [exact (conj F1 (conj F2 F3))|]. cbn [direction_by].
        replace (norm (minus (val3 (q1, q2, q3)) (val3 (q1, q2, q3)))) with 0; [nra|]. cbn [val3 minus].
        rewrite !Rminus_diag_eq by reflexivity. rewrite norm_scalar. unfold scalar_product, SpecBounds.axis. symmetry.
        replace (0 * 0 + 0 * 0 + 0 * 0) with 0 by ring. apply sqrt_0.
  - destruct U as (U1 & U2 & U3). pose proof M as [M1 M2 M3 M4 (pa & M5)].
    destruct (rotate_accuracy L vs m yaw pitch roll [] e D M1 M2 M3 M4 E0 HL U1 U2 U3 ED) as (m' & E & A).
    assert (can_turn (f64 L) yaw pitch roll) as CT.
    { apply (finite_can_turn L _ _ _ D U1 U2 U3). pose proof (bpow_gt_0 radix2 (-58)).
      apply Rmult_le_reg_r with (bpow radix2 (-58)); [lra|]. rewrite <- bpow_plus. change (bpow radix2 (60 + -58)) with 4. lra. }
    destruct (rotate_packed (f64 L) vs m yaw pitch roll [] M1 M2 M3 M4 CT) as (m1 & E1 & SV & EL & O & _). rewrite E in E1. injection E1 as <-.
    exists m'. cbn [do_motion]. split; [exact E|]. split; [exact SV|]. split; [exact EL|]. split.
    + intros j c v Hc HO Hv. now rewrite (O j c Hc HO).
    + intros j a q Ha Hq Fq B. cbn [way fold_right] in *. rewrite Rplus_0_r in *. destruct (A j a q Ha Hq Fq B) as (q' & Tq & Ff & W).
      exists q'. split; [exact Tq|]. split; [exact Ff|]. pose proof (norm_pos (val3 q)) as V0.
      replace (goal (at_position m a) [Turn yaw pitch roll] (val3 q)) with (turn exact (val yaw) (val pitch) (val roll) (val3 q))
        by (unfold goal; cbn [fold_left]; destruct (at_position m a); reflexivity).
      apply within_norm in W; [|pose proof dl_big; pose proof u_small; unfold per_call in *; pose proof (bpow_gt_0 radix2 (-58)); nra].
      eapply Rle_trans; [exact W|]. unfold per_call. nra.
Qed.

(** ** Many calls *)
Lemma goal_near b s u v : norm (minus (goal b [s] u) (goal b [s] v)) = norm (minus u v).
Proof.
  unfold goal. cbn [fold_left]. destruct s as [x y z|yaw pitch roll]; cbn [point_by direction_by].
  - destruct b; [now rewrite minus_shift|reflexivity].
  - pose proof (turn_rotation (val yaw) (val pitch) (val roll)) as G. destruct b; now rewrite <- (rot_minus _ G), (rot_norm _ G).
Qed.
Lemma goal_norm b s v : norm (goal b [s] v) <= norm v + way [s].
Proof.
  unfold goal. cbn [fold_left way fold_right]. destruct s as [x y z|yaw pitch roll]; cbn [point_by direction_by].
  - rewrite Rplus_0_r. pose proof (norm_pos (val x, val y, val z)). destruct b; [apply norm_plus|lra].
  - rewrite Rplus_0_r. pose proof (turn_rotation (val yaw) (val pitch) (val roll)) as G. destruct b; rewrite (rot_norm _ G); lra.
Qed.
Lemma way_cons s ss : way (s :: ss) = way [s] + way ss.
Proof. unfold way. destruct s; cbn [fold_right]; ring. Qed.
Lemma way_pos ss : 0 <= way ss.
Proof. induction ss as [|[x y z|a b c] t IH]; cbn [way fold_right]; [lra|pose proof (norm_pos (val x, val y, val z)); fold (way t); lra|exact IH]. Qed.

Theorem many_motions vs : forall ss m, movable vs m -> Forall (motion_upto D) ss -> exists m', do_motions L m ss = (m', None) /\
  same_but_vertices m m' /\ length (vertices m') = length (vertices m) /\
  (forall j c v, (c < vs)%nat -> Forall (outside m c) (oriented_attribs m) -> nth_error (vertices m) (j * vs + c) = Some v ->
     nth_error (vertices m') (j * vs + c) = Some v) /\
  (forall j a q Q err r, In a (oriented_attribs m) -> triple (vertices m) (j * vs + attrib_start m a) q -> finite3 q ->
     norm (minus (val3 q) Q) <= err -> norm Q <= r -> 0 <= err ->
     (1 + dl) ^ length ss * (err + (r + way ss) + tau) <= bpow radix2 1000 ->
   exists q', triple (vertices m') (j * vs + attrib_start m a) q' /\ finite3 q' /\
     norm (minus (val3 q') (goal (at_position m a) ss Q)) <= (1 + dl) ^ length ss * (err + (r + way ss) + tau) - ((r + way ss) + tau)).
Proof.
  pose proof dl_pos as DP. pose proof (bpow_gt_0 radix2 (-1000)) as T0.
  induction ss as [|s ss IH]; intros m M U.
  - exists m. split; [reflexivity|]. split; [repeat split|]. split; [reflexivity|]. split; [auto|].
    intros j a q Q err r Ha Hq Fq HN HR HE B. exists q. split; [exact Hq|]. split; [exact Fq|]. cbn [goal fold_left length pow]. lra.
  - inversion_clear U as [|? ? U1 U2]. destruct (one_motion vs m s M U1) as (m1 & E1 & SV1 & EL1 & O1 & A1).
    pose proof (movable_same vs m m1 M SV1 EL1) as M1. destruct (IH m1 M1 U2) as (m2 & E2 & SV2 & EL2 & O2 & A2).
    pose proof SV1 as (SH & SC & EG & EI). assert (vertex_attributes m1 = vertex_attributes m) as EA by apply SH.
    assert (vertformat m1 = vertformat m) as EF by apply SH.
    assert (oriented_attribs m1 = oriented_attribs m) as EO by (unfold oriented_attribs; now rewrite EA).
    assert (forall a, attrib_start m1 a = attrib_start m a) as ES by (intros a; unfold attrib_start; now rewrite EF).
    exists m2. cbn [do_motions]. rewrite E1. split; [exact E2|]. split; [|split; [congruence|split]].
    + destruct SV2 as (SH2 & (C1 & C2) & EG2 & EI2). destruct SC. repeat split; try congruence; unfold same_header in *; intuition congruence.
    + intros j c v Hc HO Hv. apply (O2 j c v Hc); [|now apply (O1 j c v)]. rewrite EO. eapply Forall_impl; [|exact HO]. intros a. unfold outside. now rewrite ES.
    + intros j a q Q err r Ha Hq Fq HN HR HE B. rewrite (way_cons s ss) in *. cbn [length] in *. rewrite <- tech_pow_Rmult in *.
      pose proof (way_pos ss) as W0. pose proof (way_pos [s]) as W1. pose proof (norm_pos Q) as Q0.
      set (RR := r + (way [s] + way ss)) in *.
      assert (1 <= (1 + dl) ^ length ss) as P1 by (apply pow_R1_Rle; lra). set (P := (1 + dl) ^ length ss) in *.
      assert (err + RR + tau <= (1 + dl) * P * (err + RR + tau)) as GE.
      { assert (0 <= err + RR + tau) by (unfold RR; lra). assert (1 <= (1 + dl) * P) by nra. nra. }
      pose proof (norm_near _ _ _ HN) as NQ.
      assert (norm (val3 q) + way [s] <= RR + err) as NW by (unfold RR; lra).
      destruct (A1 j a q Ha Hq Fq) as (q1 & T1 & F1 & N1).
      { apply Rle_trans with (1 := NW). apply Rle_trans with (2 := B). apply Rle_trans with (2 := GE). lra. }
      set (Q1 := goal (at_position m a) [s] Q).
      assert (norm (minus (val3 q1) Q1) <= (1 + dl) * (err + RR + tau) - (RR + tau)) as D1.
      { eapply Rle_trans; [apply (norm_via _ (goal (at_position m a) [s] (val3 q)))|]. unfold Q1. rewrite goal_near.
        pose proof tiny as TI. nra. }
      assert (norm Q1 <= r + way [s]) as R1 by (unfold Q1; eapply Rle_trans; [apply goal_norm|]; lra).
      rewrite <- EO in Ha. rewrite <- (ES a) in T1.
      destruct (A2 j a q1 Q1 ((1 + dl) * (err + RR + tau) - (RR + tau)) (r + way [s]) Ha T1 F1 D1 R1) as (q2 & T2 & F2 & N2).
      { assert (0 <= err + RR + tau) by (unfold RR; lra). nra. }
      { replace (r + way [s] + way ss) with RR by (unfold RR; ring). eapply Rle_trans; [|exact B]. apply Req_le. ring. }
      rewrite (ES a) in T2. exists q2. split; [exact T2|]. split; [exact F2|].
      replace (at_position m1 a) with (at_position m a) in N2.
      2: { unfold at_position, position_start, position_attrib. rewrite ES, EA. now destruct (find _ _) as [pa|]; rewrite ?ES. }
      replace (goal (at_position m a) (s :: ss) Q) with (goal (at_position m a) ss Q1) by reflexivity.
      eapply Rle_trans; [exact N2|]. replace (r + way [s] + way ss) with RR by (unfold RR; ring). apply Req_le. ring.
Qed.

Theorem drift_bound vs m ss : movable vs m -> Forall (motion_upto D) ss -> exists m', do_motions L m ss = (m', None) /\
  same_but_vertices m m' /\ length (vertices m') = length (vertices m) /\
  (forall j c v, (c < vs)%nat -> Forall (outside m c) (oriented_attribs m) -> nth_error (vertices m) (j * vs + c) = Some v ->
     nth_error (vertices m') (j * vs + c) = Some v) /\
  (forall j a q, In a (oriented_attribs m) -> triple (vertices m) (j * vs + attrib_start m a) q -> finite3 q ->
     (1 + dl) ^ length ss * (norm (val3 q) + way ss + tau) <= bpow radix2 1000 ->
   exists q', triple (vertices m') (j * vs + attrib_start m a) q' /\ finite3 q' /\
     norm (minus (val3 q') (goal (at_position m a) ss (val3 q))) <= drift_upto e D (length ss) (norm (val3 q) + way ss)).
Proof.
  intros M U. destruct (many_motions vs ss m M U) as (m' & E & SV & EL & O & A). exists m'. repeat (split; [assumption|]).
  intros j a q Ha Hq Fq B. destruct (A j a q (val3 q) 0 (norm (val3 q)) Ha Hq Fq) as (q' & T & F & N); try lra.
  - replace (norm (minus (val3 q) (val3 q))) with 0; [lra|]. destruct (val3 q) as ((x, y), z). cbn [minus].
    rewrite !Rminus_diag_eq by reflexivity. rewrite norm_scalar. unfold scalar_product, SpecBounds.axis. symmetry.
    replace (0 * 0 + 0 * 0 + 0 * 0) with 0 by ring. apply sqrt_0.
  - exists q'. split; [exact T|]. split; [exact F|]. eapply Rle_trans; [exact N|]. unfold drift_upto. apply Req_le. ring.
Qed.

Lemma goal_isometry b ss : forall u v, norm (minus (goal b ss u) (goal b ss v)) = norm (minus u v).
Proof.
  induction ss as [|s ss IH]; intros u v; [reflexivity|].
  change (goal b (s :: ss) u) with (goal b ss (goal b [s] u)). change (goal b (s :: ss) v) with (goal b ss (goal b [s] v)). now rewrite IH, goal_near.
Qed.
Lemma goal_reach b ss : forall v, norm (goal b ss v) <= norm v + way ss.
Proof.
  induction ss as [|s ss IH]; intros v; [cbn; lra|]. change (goal b (s :: ss) v) with (goal b ss (goal b [s] v)). rewrite way_cons.
  eapply Rle_trans; [apply IH|]. pose proof (goal_norm b s v). lra.
Qed.
(** Distances between vertices, and angles between directions. *)
Theorem distances_kept vs m ss m' : movable vs m -> Forall (motion_upto D) ss -> do_motions L m ss = (m', None) ->
  forall i j a p q p' q', In a (oriented_attribs m) ->
    triple (vertices m) (i * vs + attrib_start m a) p -> triple (vertices m) (j * vs + attrib_start m a) q ->
    triple (vertices m') (i * vs + attrib_start m a) p' -> triple (vertices m') (j * vs + attrib_start m a) q' ->
    finite3 p -> finite3 q ->
    (1 + dl) ^ length ss * (norm (val3 p) + way ss + tau) <= bpow radix2 1000 ->
    (1 + dl) ^ length ss * (norm (val3 q) + way ss + tau) <= bpow radix2 1000 ->
    Rabs (norm (minus (val3 p') (val3 q')) - norm (minus (val3 p) (val3 q))) <=
      drift_upto e D (length ss) (norm (val3 p) + way ss) + drift_upto e D (length ss) (norm (val3 q) + way ss).
Proof.
  intros M U H i j a p q p' q' Ha Tp Tq Tp' Tq' Fp Fq Bp Bq. destruct (drift_bound vs m ss M U) as (m1 & E & _ & _ & _ & A). rewrite H in E. injection E as <-.
  destruct (A i a p Ha Tp Fp Bp) as (p1 & T1 & _ & N1). destruct (A j a q Ha Tq Fq Bq) as (q1 & T2 & _ & N2).
  assert (forall v o (x y : vec3 binary64), triple v o x -> triple v o y -> x = y) as UQ.
  { intros v o ((x1, x2), x3) ((y1, y2), y3) (X1 & X2 & X3) (Y1 & Y2 & Y3). congruence. }
  rewrite (UQ _ _ _ _ Tp' T1), (UQ _ _ _ _ Tq' T2). clear p' q' Tp' Tq' T1 T2.
  set (P := goal (at_position m a) ss (val3 p)) in *. set (Q := goal (at_position m a) ss (val3 q)) in *.
  assert (norm (minus P Q) = norm (minus (val3 p) (val3 q))) as <- by apply goal_isometry.
  pose proof (norm_via (val3 p1) P (val3 q1)) as V1. pose proof (norm_via P Q (val3 q1)) as V2. rewrite (norm_minus_sym Q (val3 q1)) in V2.
  pose proof (norm_via P (val3 p1) Q) as V3. pose proof (norm_via (val3 p1) (val3 q1) Q) as V4. rewrite (norm_minus_sym P (val3 p1)) in V3.
  apply Rabs_le. lra.
Qed.
(** For few calls the error grows linearly. *)
Theorem drift_linear n r : 0 <= r -> 2 * INR n * dl <= 1 -> drift_upto e D n r <= 2 * INR n * dl * (r + tau).
Proof.
  intros R0 H. pose proof dl_pos as DP. pose proof (bpow_gt_0 radix2 (-1000)) as T0. unfold drift_upto. apply Rmult_le_compat_r; [lra|].
  enough ((1 + dl) ^ n <= 1 + 2 * INR n * dl) by lra. revert H. induction n as [|n IH]; [cbn; lra|]. rewrite S_INR. intros H.
  rewrite <- tech_pow_Rmult. pose proof (pos_INR n). specialize (IH ltac:(nra)). nra.
Qed.

(** Saving and reloading rounds once more, to 24 bits. *)
Theorem drift_saved p vs m ss : wf p m -> indexnum m <> 1%Z -> movable vs m -> Forall (motion_upto D) ss ->
  exists m1 bs m2, do_motions L m ss = (m1, None) /\ export p pack_f m1 = (bs, None) /\ load p unpack_f (m_kind m) bs = Ok m2 /\
  forall j a q, In a (oriented_attribs m) -> triple (vertices m) (j * vs + attrib_start m a) q -> finite3 q ->
    (1 + dl) ^ length ss * (norm (val3 q) + way ss + tau) <= bpow radix2 126 ->
  exists q', triple (vertices m2) (j * vs + attrib_start m a) q' /\ finite3 q' /\
    norm (minus (val3 q') (goal (at_position m a) ss (val3 q))) <=
      (1 + bpow radix2 (-23)) * drift_upto e D (length ss) (norm (val3 q) + way ss) +
      bpow radix2 (-23) * (norm (val3 q) + way ss) + bpow radix2 (-149).
Proof.
  intros W HI M U. destruct (drift_bound vs m ss M U) as (m1 & E & SV & EL & _ & A).
  pose proof (same_wf p m m1 SV EL W) as W1. assert (indexnum m1 <> 1%Z) as HI1 by (destruct SV as (_ & (_ & ->) & _); exact HI).
  destruct (save_accuracy p m1 W1 HI1) as (bs & m2 & Ex & Ld & _ & N). exists m1, bs, m2. split; [exact E|]. split; [exact Ex|].
  assert (m_kind m1 = m_kind m) as EK by (destruct SV as (SH & _); apply SH). rewrite EK in Ld. split; [exact Ld|].
  intros j a q Ha Hq Fq B.
  destruct (A j a q Ha Hq Fq) as (q1 & T1 & F1 & N1); [eapply Rle_trans; [exact B|apply bpow_le; lia]|].
  set (d := drift_upto e D (length ss) (norm (val3 q) + way ss)) in *. set (Q := goal (at_position m a) ss (val3 q)) in *.
  pose proof (goal_reach (at_position m a) ss (val3 q)) as RQ. fold Q in RQ. pose proof (norm_near _ _ _ N1) as NQ.
  pose proof dl_pos as DP. pose proof (bpow_gt_0 radix2 (-1000)) as T0. pose proof (norm_pos (val3 q)) as V0. pose proof (way_pos ss) as WP.
  assert (norm (val3 q1) <= bpow radix2 126) as B1.
  { eapply Rle_trans; [exact NQ|]. eapply Rle_trans; [|exact B]. unfold d, drift_upto. lra. }
  destruct q1 as ((x, y), z). destruct T1 as (X & Y & Z). destruct F1 as (FX & FY & FZ).
  destruct (N _ _ X) as (x' & X' & GX). destruct (N _ _ Y) as (y' & Y' & GY). destruct (N _ _ Z) as (z' & Z' & GZ).
  cbn [val3] in B1. destruct (norm_comp _ _ _ _ B1) as (BX & BY & BZ).
  assert (bpow radix2 126 <= bpow radix2 127) as LE by (apply bpow_le; lia).
  destruct (GX FX ltac:(lra)) as (FX' & EX). destruct (GY FY ltac:(lra)) as (FY' & EY). destruct (GZ FZ ltac:(lra)) as (FZ' & EZ).
  exists (x', y', z'). split; [exact (conj X' (conj Y' Z'))|]. split; [exact (conj FX' (conj FY' FZ'))|].
  set (n := norm (val x, val y, val z)) in *. destruct (norm_comp (val x) (val y) (val z) n (Rle_refl _)) as (CX & CY & CZ).
  assert (0 <= n) as N0 by apply norm_pos. cbn [val3] in NQ. fold n in NQ.
  assert (forall r, Rabs r <= n -> single_error r <= bpow radix2 (-24) * n + bpow radix2 (-150)) as SE.
  { intros r Hr. unfold single_error. pose proof (bpow_gt_0 radix2 (-24)). nra. }
  assert (SpecAcc.within (bpow radix2 (-24) * n + bpow radix2 (-150)) (val3 (x', y', z')) (val3 (x, y, z))) as WI.
  { repeat split; eapply Rle_trans; eauto. }
  apply within_norm in WI; [|pose proof (bpow_gt_0 radix2 (-24)); pose proof (bpow_gt_0 radix2 (-150)); nra].
  assert (2 * bpow radix2 (-24) = bpow radix2 (-23)) as E23 by (change 2 with (bpow radix2 1); rewrite <- bpow_plus; reflexivity).
  assert (2 * bpow radix2 (-150) = bpow radix2 (-149)) as E149 by (change 2 with (bpow radix2 1); rewrite <- bpow_plus; reflexivity).
  eapply Rle_trans; [apply (norm_via _ (val3 (x, y, z)))|].
  assert (n <= norm (val3 q) + way ss + d) as NN by lra.
  pose proof (bpow_gt_0 radix2 (-23)) as P23. nra.
Qed.
End One.
