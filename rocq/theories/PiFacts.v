(** math.radians in doubles is close to multiplying by PI / 180 (for AccFacts.v). *)
From Coq Require Import ZArith Reals Lra Lia QArith Qreals Machin Ratan.
From Flocq Require Import Core IEEE754.Binary IEEE754.Bits.
From Verif Require Import Arith F64 RArith Struct Mesh PyBase Edit Spec SpecEdit F64Facts VertFacts RFacts SpecAcc AccFacts.
From Coq Require Import List.
Import ListNotations.
Open Scope R_scope.

(** ** PI to 18 digits, from the series of Machin.v *)
Definition qterm (n : nat) : Q :=
  let k := Z.of_nat (2 * n + 1) in
  (if Nat.even n then 1 else -1) * (2 * (1 # (Z.to_pos (3 ^ k * k))) + (1 # (Z.to_pos (7 ^ k * k)))).
Fixpoint qsum (n : nat) : Q := match n with O => qterm 0 | S m => Qred (qsum m + qterm (S m)) end.

Lemma ratan_q b n : (0 < b)%Z -> Ratan_seq (/ IZR b) n = Q2R (1 # Z.to_pos (b ^ Z.of_nat (2 * n + 1) * Z.of_nat (2 * n + 1))).
Proof.
  intros Hb. unfold Ratan_seq, Q2R. set (k := (2 * n + 1)%nat).
  assert (0 < b ^ Z.of_nat k)%Z by (apply Z.pow_pos_nonneg; lia).
  assert (0 < Z.of_nat k)%Z by (unfold k; lia). cbn [Qnum Qden].
  rewrite Z2Pos.id by nia. rewrite mult_IZR, <- INR_IZR_INZ, <- pow_IZR.
  assert (IZR b <> 0) by (apply IZR_neq; lia). assert (INR k <> 0) by (apply not_0_INR; lia).
  rewrite pow_inv. field. split; [assumption|]. apply pow_nonzero. assumption.
Qed.
Lemma minus1_even n : ((-1) ^ n)%R = if Nat.even n then 1 else -1.
Proof.
  induction n as [|n IH]; [reflexivity|]. rewrite Nat.even_succ, <- Nat.negb_even. simpl. rewrite IH. destruct (Nat.even n); simpl; ring.
Qed.
Lemma term_q n : tg_alt PI_2_3_7_tg n = Q2R (qterm n).
Proof.
  unfold tg_alt, PI_2_3_7_tg, qterm. rewrite (ratan_q 3), (ratan_q 7) by lia. rewrite Q2R_mult, Q2R_plus, Q2R_mult, minus1_even.
  f_equal; [destruct (Nat.even n); unfold Q2R; simpl; lra|]. f_equal. f_equal. unfold Q2R. simpl. lra.
Qed.
Lemma sum_q n : sum_f_R0 (tg_alt PI_2_3_7_tg) n = Q2R (qsum n).
Proof.
  induction n as [|n IH]; simpl sum_f_R0; [apply term_q|]. rewrite IH, term_q. cbn [qsum]. rewrite (Qeq_eqR _ _ (Qred_correct _)). now rewrite Q2R_plus.
Qed.

Lemma pi_bounds : Q2R (3141592653589793238 # 1000000000000000000) <= PI <= Q2R (3141592653589793239 # 1000000000000000000).
Proof.
  destruct (PI_2_3_7_ineq 9) as (H1 & H2). rewrite sum_q in H1, H2.
  assert (Q2R (3141592653589793238 # 4000000000000000000) <= Q2R (qsum (S (2 * 9)))) as A by (apply Qle_Rle; vm_compute; discriminate).
  assert (Q2R (qsum (2 * 9)) <= Q2R (3141592653589793239 # 4000000000000000000)) as B by (apply Qle_Rle; vm_compute; discriminate).
  assert (forall n, Q2R (n # 4000000000000000000) = Q2R (n # 1000000000000000000) / 4) as E.
  { intros n. unfold Q2R. simpl. lra. }
  rewrite E in A, B. lra.
Qed.

(** Mantissa and exponent. *)
Definition parts (x : binary64) : option (Z * Z) :=
  match x with
  | B754_zero _ _ _ => Some (0, 0)%Z
  | B754_finite _ _ s m e _ => Some (SpecFloat.cond_Zopp s (Zpos m), e)
  | _ => None
  end.
Lemma parts_val x m e : parts x = Some (m, e) -> finite x /\ val x = IZR m * bpow radix2 e.
Proof.
  destruct x as [s|s|s pl H|s n k H]; try discriminate; intros E; injection E as <- <-; (split; [reflexivity|]).
  - symmetry. apply Rmult_0_l.
  - reflexivity.
Qed.

(** ** The constant of math.radians *)
Definition deg_c : R := IZR 5030569068109113 / IZR 288230376151711744.
Lemma deg_val : finite deg_to_rad /\ val deg_to_rad = deg_c.
Proof.
  destruct (parts_val deg_to_rad 5030569068109113 (-58)) as (F & ->); [vm_compute; reflexivity|].
  split; [exact F|]. unfold deg_c, Rdiv. f_equal.
Qed.
Lemma deg_near : Rabs (deg_c - PI / 180) <= bpow radix2 (-61) /\ 0 < deg_c < 175 / 10000.
Proof.
  destruct pi_bounds as (H1 & H2). unfold Q2R in H1, H2. cbn [Qnum Qden] in H1, H2. unfold deg_c.
  change (bpow radix2 (-61)) with (/ IZR 2305843009213693952). split; [apply Rabs_le|]; lra.
Qed.

Lemma radians_near D a : angle_upto D a -> D <= bpow radix2 60 ->
  finite (b64_radians a) /\ Rabs (val (b64_radians a) - val a * PI / 180) <= D * bpow radix2 (-58) + bpow radix2 (-1075).
Proof.
  intros (Fa & Ha) HD. destruct deg_val as (Fd & Ed). destruct deg_near as (N1 & N2).
  set (L := {| lm_sin := fun x => x; lm_cos := fun x => x |}).
  assert (Rabs (val a * val deg_to_rad) <= bpow radix2 1010) as B.
  { rewrite Ed, Rabs_mult, (Rabs_pos_eq deg_c) by lra. apply Rle_trans with (bpow radix2 60 * 1).
    - apply Rmult_le_compat; try lra; apply Rabs_pos.
    - rewrite Rmult_1_r. apply bpow_le. lia. }
  destruct (mult_ok L a deg_to_rad Fa Fd B) as (F & V). change (f_mul (f64 L) a deg_to_rad) with (b64_radians a) in F, V.
  split; [exact F|]. rewrite V. destruct (mult_round (val a * val deg_to_rad)) as (e & h & He & Hh & ->). rewrite Ed.
  replace (val a * deg_c * (1 + e) + h - val a * PI / 180) with (val a * ((deg_c - PI / 180) + deg_c * e) + h) by field.
  eapply Rle_trans; [apply Rabs_triang|]. apply Rplus_le_compat; [|exact Hh]. rewrite Rabs_mult.
  apply Rmult_le_compat; try apply Rabs_pos; [exact Ha|]. eapply Rle_trans; [apply Rabs_triang|].
  rewrite Rabs_mult, (Rabs_pos_eq deg_c) by lra.
  assert (deg_c * Rabs e <= 175 / 10000 * u) by (apply Rmult_le_compat; try apply Rabs_pos; lra).
  pose proof u_val as U. change (bpow radix2 (-61)) with (/ IZR 2305843009213693952) in N1.
  change (bpow radix2 (-58)) with (/ IZR 288230376151711744). lra.
Qed.

(** ** Sine and cosine are 1-Lipschitz *)
Lemma sin_abs t : Rabs (sin t) <= Rabs t.
Proof.
  assert (forall t, 0 < t -> Rabs (sin t) <= t) as P.
  { intros s Hs. apply Rabs_le. split; [|apply Rlt_le, sin_lt_x, Hs].
    destruct (Rle_lt_dec 1 s); [pose proof (SIN_bound s); lra|]. pose proof PI2_1. assert (0 <= sin s) by (apply sin_ge_0; lra). lra. }
  destruct (Rtotal_order t 0) as [H|[->|H]].
  - rewrite <- (Rabs_Ropp (sin t)), <- sin_neg, <- (Rabs_Ropp t), (Rabs_pos_eq (- t)) by lra. apply P. lra.
  - rewrite sin_0. lra.
  - rewrite (Rabs_pos_eq t) by lra. now apply P.
Qed.
Lemma half_abs p q : Rabs ((p - q) / 2) = Rabs (p - q) / 2.
Proof. unfold Rdiv. rewrite Rabs_mult, (Rabs_pos_eq (/ 2)) by lra. reflexivity. Qed.
Lemma prod_le a b X : Rabs a <= X -> Rabs b <= 1 -> Rabs (2 * (a * b)) <= 2 * X.
Proof.
  intros H1 H2. rewrite !Rabs_mult, (Rabs_pos_eq 2) by lra. apply Rmult_le_compat_l; [lra|]. rewrite <- (Rmult_1_r X).
  apply Rmult_le_compat; auto using Rabs_pos.
Qed.
Lemma cos_lip p q : Rabs (cos p - cos q) <= Rabs (p - q).
Proof.
  rewrite form2. replace (-2 * sin ((p - q) / 2) * sin ((p + q) / 2)) with (- (2 * (sin ((p - q) / 2) * sin ((p + q) / 2)))) by ring.
  rewrite Rabs_Ropp. eapply Rle_trans; [apply (prod_le _ _ (Rabs (p - q) / 2)); [rewrite <- half_abs; apply sin_abs|apply sin_le1]|]. lra.
Qed.
Lemma sin_lip p q : Rabs (sin p - sin q) <= Rabs (p - q).
Proof.
  rewrite form4. replace (2 * cos ((p + q) / 2) * sin ((p - q) / 2)) with (2 * (sin ((p - q) / 2) * cos ((p + q) / 2))) by ring.
  eapply Rle_trans; [apply (prod_le _ _ (Rabs (p - q) / 2)); [rewrite <- half_abs; apply sin_abs|apply cos_le1]|]. lra.
Qed.

Lemma angle_near L e D a : libm_within e L -> angle_upto D a -> D <= bpow radix2 60 ->
  angle_within (e + (D * bpow radix2 (-58) + bpow radix2 (-1075))) L a.
Proof.
  intros HL Ha HD. destruct (radians_near D a Ha HD) as (F & N). destruct (HL _ F) as (F1 & F2 & N1 & N2).
  split; [exact F1|]. split; [exact F2|]. split.
  - replace (val (lm_cos L (b64_radians a)) - cos (val a * PI / 180)) with
      ((val (lm_cos L (b64_radians a)) - cos (val (b64_radians a))) + (cos (val (b64_radians a)) - cos (val a * PI / 180))) by ring.
    eapply Rle_trans; [apply Rabs_triang|]. apply Rplus_le_compat; [exact N1|]. eapply Rle_trans; [apply cos_lip|exact N].
  - replace (val (lm_sin L (b64_radians a)) - sin (val a * PI / 180)) with
      ((val (lm_sin L (b64_radians a)) - sin (val (b64_radians a))) + (sin (val (b64_radians a)) - sin (val a * PI / 180))) by ring.
    eapply Rle_trans; [apply Rabs_triang|]. apply Rplus_le_compat; [exact N2|]. eapply Rle_trans; [apply sin_lip|exact N].
Qed.

Lemma finite_can_turn L yaw pitch roll D : angle_upto D yaw -> angle_upto D pitch -> angle_upto D roll -> D <= bpow radix2 60 ->
  can_turn (f64 L) yaw pitch roll.
Proof.
  intros H1 H2 H3 HD. unfold can_turn. cbn [f64 f_trig f_radians].
  destruct (radians_near D yaw H1 HD) as (F1 & _), (radians_near D pitch H2 HD) as (F2 & _), (radians_near D roll H3 HD) as (F3 & _).
  unfold finite in *. now rewrite F1, F2, F3.
Qed.

Theorem rotate_accuracy L vs m yaw pitch roll more e D :
  vertex_size m = Ok (Z.of_nat vs) -> (0 < vs)%nat -> tiled_vertices vs m -> rotate_ready vs m ->
  0 <= e -> libm_within e L -> angle_upto D yaw -> angle_upto D pitch -> angle_upto D roll ->
  e + D * bpow radix2 (-58) <= / 16 ->
  exists m', rotate (f64 L) m (yaw :: pitch :: roll :: more) = (m', None) /\
  forall j a q, In a (oriented_attribs m) -> triple (vertices m) (j * vs + attrib_start m a) q ->
    finite3 q -> norm (val3 q) <= bpow radix2 1000 ->
  exists q', triple (vertices m') (j * vs + attrib_start m a) q' /\ finite3 q' /\
    within (9 * (2 * (e + D * bpow radix2 (-58)) + 6 * half_ulp) * norm (val3 q) + bpow radix2 (-1069)) (val3 q')
           (turn exact (val yaw) (val pitch) (val roll) (val3 q)).
Proof.
  intros Hs Hv T Hr He HL Hy Hp Hro HD.
  assert (0 <= D) as D0 by (destruct Hy as (_ & Hy); eapply Rle_trans; [apply Rabs_pos|exact Hy]).
  assert (0 < bpow radix2 (-58)) by apply bpow_gt_0.
  assert (D <= bpow radix2 60) as HD60.
  { apply Rmult_le_reg_r with (bpow radix2 (-58)); [lra|]. rewrite <- bpow_plus. change (bpow radix2 (60 + -58)) with 4. lra. }
  destruct (rotate_packed (f64 L) vs m yaw pitch roll more Hs Hv T Hr (finite_can_turn L _ _ _ D Hy Hp Hro HD60)) as (m' & E & _).
  exists m'. split; [exact E|]. intros j a q Ha Hq F B.
  pose proof eta_small as Et. pose proof u_val as U. assert (bpow radix2 (-1075) <= half_ulp * / 4) as E4.
  { unfold half_ulp. change (/ 4) with (bpow radix2 (-2)). rewrite <- bpow_plus. apply bpow_le. lia. }
  destruct (rotate_near L vs m yaw pitch roll more m' (e + (D * bpow radix2 (-58) + bpow radix2 (-1075))) Hs Hv T Hr E) with (j := j) (a := a) (q := q)
    as (q' & T' & F' & W); auto using angle_near.
  { unfold half_ulp in *. assert (0 <= D * bpow radix2 (-58)) by (apply Rmult_le_pos; lra). lra. }
  exists q'. split; [exact T'|]. split; [exact F'|].
  assert (0 <= norm (val3 q)) as NP by (rewrite norm_dot; apply sqrt_pos).
  destruct (val3 q') as ((x, y), z). destruct (turn exact _ _ _ _) as ((x', y'), z'). destruct W as (W1 & W2 & W3).
  assert (9 * (2 * (e + (D * bpow radix2 (-58) + bpow radix2 (-1075))) + 5 * half_ulp) * norm (val3 q) + bpow radix2 (-1069) <=
    9 * (2 * (e + D * bpow radix2 (-58)) + 6 * half_ulp) * norm (val3 q) + bpow radix2 (-1069)) as LE.
  { apply Rplus_le_compat_r, Rmult_le_compat_r; [exact NP|]. lra. }
  repeat split; eapply Rle_trans; eauto.
Qed.

(** Rotate, save and reload. *)
Theorem rotate_save_accuracy L p vs m yaw pitch roll more e D : wf p m -> indexnum m <> 1%Z ->
  vertex_size m = Ok (Z.of_nat vs) -> (0 < vs)%nat -> tiled_vertices vs m -> rotate_ready vs m ->
  0 <= e -> libm_within e L -> angle_upto D yaw -> angle_upto D pitch -> angle_upto D roll ->
  e + D * bpow radix2 (-58) <= / 16 ->
  exists m' bs m2, rotate (f64 L) m (yaw :: pitch :: roll :: more) = (m', None) /\
  export p pack_f m' = (bs, None) /\ load p unpack_f (m_kind m) bs = Ok m2 /\
  forall j a q, In a (oriented_attribs m) -> triple (vertices m) (j * vs + attrib_start m a) q ->
    finite3 q -> norm (val3 q) <= bpow radix2 125 ->
  exists q2, triple (vertices m2) (j * vs + attrib_start m a) q2 /\ finite3 q2 /\
    within ((bpow radix2 (-24) + 18 * (2 * (e + D * bpow radix2 (-58)) + 6 * half_ulp)) * norm (val3 q) + bpow radix2 (-149)) (val3 q2)
           (turn exact (val yaw) (val pitch) (val roll) (val3 q)).
Proof.
  intros W Hi Hs Hv T Hr He HL Hy Hp Hro HD.
  destruct (rotate_accuracy L vs m yaw pitch roll more e D Hs Hv T Hr He HL Hy Hp Hro HD) as (m' & E & N).
  assert (same_but_vertices m m' /\ length (vertices m') = length (vertices m)) as (S & Len).
  { assert (0 <= D) as D0 by (destruct Hy as (_ & Hy); eapply Rle_trans; [apply Rabs_pos|exact Hy]).
    assert (0 < bpow radix2 (-58)) by apply bpow_gt_0.
    assert (D <= bpow radix2 60) as HD60.
    { apply Rmult_le_reg_r with (bpow radix2 (-58)); [lra|]. rewrite <- bpow_plus. change (bpow radix2 (60 + -58)) with 4. lra. }
    destruct (rotate_packed (f64 L) vs m yaw pitch roll more Hs Hv T Hr (finite_can_turn L _ _ _ D Hy Hp Hro HD60)) as (m1 & E1 & S & Len & _).
    rewrite E in E1. injection E1 as <-. auto. }
  destruct (save_accuracy p m') as (bs & m2 & EX & Ld & _ & NS).
  { now apply (same_wf p m). } { replace (indexnum m') with (indexnum m) by (symmetry; apply S). exact Hi. }
  exists m', bs, m2. split; [exact E|]. split; [exact EX|]. split; [rewrite <- Ld; f_equal; symmetry; apply S|].
  intros j a q Ha Hq F B. destruct (N j a q Ha Hq F) as (q' & T' & F' & WI).
  { eapply Rle_trans; [exact B|]. apply bpow_le. lia. }
  assert (norm (turn exact (val yaw) (val pitch) (val roll) (val3 q)) <= norm (val3 q)) as NT.
  { rewrite !norm_dot, turn_dot. apply Rle_refl. }
  assert (0 <= norm (val3 q)) as NP by (rewrite norm_dot; apply sqrt_pos).
  set (n := norm (val3 q)) in *. set (K := 2 * (e + D * bpow radix2 (-58)) + 6 * half_ulp) in *.
  assert (0 <= K <= / 6) as HK.
  { pose proof u_small. assert (0 <= D) as D0 by (destruct Hy as (_ & Hy); eapply Rle_trans; [apply Rabs_pos|exact Hy]).
    assert (0 < bpow radix2 (-58)) by apply bpow_gt_0. assert (0 <= D * bpow radix2 (-58)) by (apply Rmult_le_pos; lra).
    unfold K, half_ulp, AccFacts.u in *. lra. }
  assert (0 < bpow radix2 (-1069) <= bpow radix2 (-152)) as Es by (split; [apply bpow_gt_0|apply bpow_le; lia]).
  assert (bpow radix2 (-150) = 4 * bpow radix2 (-152)) as E150 by exact (bpow_plus radix2 2 (-152)).
  assert (bpow radix2 (-149) = 8 * bpow radix2 (-152)) as E149 by exact (bpow_plus radix2 3 (-152)).
  assert (0 < bpow radix2 (-24) <= / 4) as B24.
  { split; [apply bpow_gt_0|]. change (/ 4) with (bpow radix2 (-2)). apply bpow_le. lia. }
  assert (bpow radix2 127 = 4 * bpow radix2 125) as E127 by exact (bpow_plus radix2 2 125).
  assert (bpow radix2 (-152) <= bpow radix2 125) as Eb by (apply bpow_le; lia).
  assert (0 <= K * n) as KN by (apply Rmult_le_pos; lra). assert (K * n <= / 6 * n) as KN' by (apply Rmult_le_compat_r; lra).
  assert (forall x t, finite x -> Rabs t <= n -> Rabs (val x - t) <= 9 * K * n + bpow radix2 (-1069) ->
    forall y, (finite x -> Rabs (val x) <= bpow radix2 127 -> finite y /\ Rabs (val y - val x) <= single_error (val x)) ->
    finite y /\ Rabs (val y - t) <= (bpow radix2 (-24) + 18 * K) * n + bpow radix2 (-149)) as G.
  { intros x t Fx Ht Hx y Hy'. pose proof (near_abs _ _ _ _ Hx Ht) as Bx. destruct (Hy' Fx) as (Fy & A1); [lra|]. split; [exact Fy|]. unfold single_error in A1.
    replace (val y - t) with ((val y - val x) + (val x - t)) by ring. eapply Rle_trans; [apply Rabs_triang|].
    assert (bpow radix2 (-24) * Rabs (val x) <= bpow radix2 (-24) * n + / 4 * (9 * K * n + bpow radix2 (-1069))) as A2.
    { eapply Rle_trans; [apply Rmult_le_compat_l; [lra|exact Bx]|]. rewrite Rmult_plus_distr_l. apply Rplus_le_compat_l, Rmult_le_compat_r; lra. }
    lra. }
  destruct q' as ((x, y), z). destruct T' as (T1 & T2 & T3). destruct F' as (F1 & F2 & F3).
  destruct (NS _ _ T1) as (x2 & X2 & GX), (NS _ _ T2) as (y2 & Y2 & GY), (NS _ _ T3) as (z2 & Z2 & GZ).
  cbn [val3] in WI. destruct (turn exact (val yaw) (val pitch) (val roll) (val3 q)) as ((tx, ty), tz). destruct WI as (W1 & W2 & W3).
  destruct (norm_comp tx ty tz n NT) as (N1 & N2 & N3).
  destruct (G x tx F1 N1 W1 x2 GX) as (R1 & R2). destruct (G y ty F2 N2 W2 y2 GY) as (R3 & R4). destruct (G z tz F3 N3 W3 z2 GZ) as (R5 & R6).
  exists (x2, y2, z2). split; [exact (conj X2 (conj Y2 Z2))|]. split; [exact (conj R1 (conj R3 R5))|]. exact (conj R2 (conj R4 R6)).
Qed.
