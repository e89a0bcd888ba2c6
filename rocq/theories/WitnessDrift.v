(** Cases for the drift of sequences of moves. *)
From Coq Require Import ZArith Reals List Lia Lra Psatz.
From Flocq Require Import Core IEEE754.Binary IEEE754.Bits.
From Verif Require Import PyBase Struct Mesh Arith F64 RArith Edit Spec SpecEdit SpecAcc SpecSurface SpecDrift
  AccFacts PiFacts DriftFacts Witness WitnessEdit WitnessAcc.
Import ListNotations.
Open Scope R_scope.
#[local] Opaque unpack_f.

(** One step forward and a quarter turn, [n] times. *)
Definition steps (n : nat) : list motion :=
  flat_map (fun _ => [Shift (unpack_f b1) (unpack_f b0) (unpack_f b0); Turn b90_ (unpack_f b0) (unpack_f b0)]) (seq 0 n).
Lemma steps_upto n : Forall (motion_upto 90) (steps n).
Proof.
  apply Forall_flat_map, Forall_forall. intros k _. constructor; [split; [apply b1_val|split; apply b0_val]|]. constructor; [|constructor].
  assert (angle_upto 90 (unpack_f b0)) by (split; [apply b0_val|rewrite val_b0, Rabs_R0; lra]). split; [apply b90_upto|now split].
Qed.
Lemma steps_length n : length (steps n) = (2 * n)%nat.
Proof. unfold steps. rewrite <- (seq_length n 0) at 2. induction (seq 0 n) as [|k t IH]; [reflexivity|]. cbn [flat_map app length]. rewrite IH. lia. Qed.
Lemma steps_way n : way (steps n) = INR n.
Proof.
  unfold steps. rewrite <- (seq_length n 0) at 2. induction (seq 0 n) as [|k t IH]; [reflexivity|]. cbn [flat_map app length]. rewrite S_INR, <- IH.
  unfold way. cbn [fold_right]. rewrite val_b1, val_b0. unfold norm at 1. replace (1 * 1 + 0 * 0 + 0 * 0) with 1 by ring. rewrite sqrt_1. ring.
Qed.
Lemma per_call_small : per_call (2 * half_ulp) 90 <= / 10000000000000.
Proof.
  unfold per_call. pose proof u_val as U. rewrite U. change (bpow radix2 (-58)) with (/ 288230376151711744). lra.
Qed.
(** A million calls. *)
Lemma steps_linear n : INR n <= 500000 -> 2 * INR (length (steps n)) * per_call (2 * half_ulp) 90 <= 1.
Proof.
  intros H. rewrite steps_length, mult_INR. change (INR 2) with 2. pose proof per_call_small. pose proof (pos_INR n).
  assert (0 <= per_call (2 * half_ulp) 90) by (unfold per_call; pose proof u_small; change (bpow radix2 (-58)) with (/ 288230376151711744); lra).
  nra.
Qed.
Lemma steps_fit n r : INR n <= 500000 -> 0 <= r <= 1000 ->
  (1 + per_call (2 * half_ulp) 90) ^ length (steps n) * (r + way (steps n) + bpow radix2 (-1000)) <= bpow radix2 126.
Proof.
  intros H R0. pose proof (steps_linear n H) as SL. rewrite steps_way. pose proof (pos_INR n) as N0.
  pose proof (drift_linear (2 * half_ulp) 90 ltac:(pose proof u_small; lra) ltac:(lra) (length (steps n)) 0 ltac:(lra) SL) as DL.
  unfold drift_upto in DL. set (P := (1 + _) ^ _) in *. set (K := 2 * INR _ * _) in *. pose proof (bpow_gt_0 radix2 (-1000)) as T0.
  assert (bpow radix2 (-1000) <= 1) as T1 by (change 1 with (bpow radix2 0); apply bpow_le; lia).
  assert (P <= 2) as P2 by nra. assert (501001 * 2 <= bpow radix2 126) as B.
  { apply Rle_trans with (bpow radix2 20); [change (bpow radix2 20) with 1048576; lra|apply bpow_le; lia]. }
  nra.
Qed.
Lemma ex_movable : movable 7 (exm unpack_f).
Proof.
  constructor; [apply ex_size|lia|apply ex_tiled|apply ex_ready|]. destruct (ex_position unpack_f) as (a & P & _). now exists a.
Qed.
(** Four times is a walk around a square: it should end where it began. *)
Lemma quarter x y z : turn exact (val b90_) (val (unpack_f b0)) (val (unpack_f b0)) (x, y, z) = (z, y, - x).
Proof.
  rewrite val_b90, val_b0. unfold turn, roll_by, pitch_by, yaw_by. cbn [f_radians exact f_add f_sub f_mul f_cos f_sin].
  replace (90 * PI / 180) with (PI / 2) by field. replace (0 * PI / 180) with 0 by field.
  rewrite cos_PI2, sin_PI2, cos_0, sin_0. f_equal; [f_equal|]; ring.
Qed.
Lemma square_walk k b v : goal b (steps (4 * k)) v = v.
Proof.
  assert (forall n, steps (4 + n) = steps 4 ++ steps n) as S4.
  { intros n. unfold steps. rewrite seq_app, flat_map_app. f_equal.
    assert (forall B (l : list B) n s t, flat_map (fun _ : nat => l) (seq s n) = flat_map (fun _ => l) (seq t n)) as G; [|apply G].
    intros B l. clear. intros n. induction n as [|n IH]; intros s t; [reflexivity|]. cbn [seq flat_map]. now rewrite (IH (S s) (S t)). }
  induction k as [|k IH]; [reflexivity|]. replace (4 * S k)%nat with (4 + 4 * k)%nat by lia. rewrite S4.
  unfold goal in *. rewrite fold_left_app.
  enough (fold_left (fun v s => if b then point_by s v else direction_by s v) (steps 4) v = v) as -> by exact IH.
  destruct v as ((x, y), z). cbn [steps flat_map seq app fold_left]. unfold point_by, direction_by, plus.
  destruct b; repeat (rewrite quarter; cbn beta iota); rewrite ?val_b1, ?val_b0; f_equal; try f_equal; ring.
Qed.
Theorem square_example k : INR (4 * k) <= 500000 ->
  wf p64 (exm unpack_f) /\ indexnum (exm unpack_f) <> 1%Z /\ movable 7 (exm unpack_f) /\ Forall (motion_upto 90) (steps (4 * k)) /\
  (exists a q, In a (oriented_attribs (exm unpack_f)) /\
    triple (vertices (exm unpack_f)) (1 * 7 + attrib_start (exm unpack_f) a) q /\ finite3 q /\ norm (val3 q) = 1) /\
  exists m', do_motions lib_rounded (exm unpack_f) (steps (4 * k)) = (m', None) /\
  forall j a q, In a (oriented_attribs (exm unpack_f)) -> triple (vertices (exm unpack_f)) (j * 7 + attrib_start (exm unpack_f) a) q ->
    finite3 q -> norm (val3 q) <= 1000 ->
  exists q', triple (vertices m') (j * 7 + attrib_start (exm unpack_f) a) q' /\
    norm (minus (val3 q') (val3 q)) <= INR (16 * k) * / 10000000000000 * (norm (val3 q) + INR (4 * k) + 1).
Proof.
  intros K. assert (0 <= 2 * half_ulp) as E0 by (pose proof u_small; lra). assert (0 <= 90) as D0 by lra.
  split; [apply ex_wf_single|]. split; [apply ex_wf_single|]. split; [exact ex_movable|]. split; [apply steps_upto|]. split; [exact ex_oriented|].
  destruct (drift_bound lib_rounded (2 * half_ulp) 90 E0 lib_rounded_right acc_small D0 7 _ _ ex_movable (steps_upto (4 * k))) as (m' & E & _ & _ & _ & A).
  exists m'. split; [exact E|]. intros j a q Ha Tq Fq Nq. pose proof (norm_pos (val3 q)) as N0.
  assert (bpow radix2 126 <= bpow radix2 1000) as BL by (apply bpow_le; lia).
  destruct (A j a q Ha Tq Fq) as (q' & T' & _ & N'); [eapply Rle_trans; [apply steps_fit|exact BL]; [exact K|lra]|].
  exists q'. split; [exact T'|]. rewrite square_walk in N'. eapply Rle_trans; [exact N'|].
  pose proof (pos_INR (4 * k)) as K0. pose proof (steps_linear _ K) as SL.
  eapply Rle_trans; [apply (drift_linear (2 * half_ulp) 90 E0 D0); [rewrite steps_way; lra|exact SL]|].
  rewrite steps_way, steps_length. replace (INR (16 * k)) with (2 * INR (2 * (4 * k))) by (rewrite !mult_INR; cbn [INR]; ring).
  pose proof (pos_INR (2 * (4 * k))) as K2. pose proof (bpow_gt_0 radix2 (-1000)) as T0.
  assert (bpow radix2 (-1000) <= 1) as T1 by (change 1 with (bpow radix2 0); apply bpow_le; lia).
  assert (0 <= per_call (2 * half_ulp) 90) as P0 by (unfold per_call; pose proof u_small; change (bpow radix2 (-58)) with (/ 288230376151711744); lra).
  apply Rmult_le_compat; [nra|lra| |lra]. apply Rmult_le_compat_l; [lra|exact per_call_small].
Qed.
