(** Proofs about deprecated/rotate.py. *)
From Coq Require Import ZArith Reals Lra Lia List.
From Verif Require Import PyBase Mesh Arith RArith Edit SpecEdit SpecAcc RFacts RotScript.
Import ListNotations.
Open Scope R_scope.

Theorem printed {F} (A : arith F) x y z p a b c r : f_trig A (f_radians A a) = true ->
  rotate_X A (x :: y :: z :: p) (a :: b :: c :: r) =
  Ok (pitch_by A (f_radians A a) (yaw_by A (f_radians A a) (roll_by A (f_radians A a) (x, y, z)))).
Proof. intros H. unfold rotate_X. cbn [first3 bind]. now rewrite H. Qed.
Theorem printed_raises {F} (A : arith F) position rotation e :
  rotate_X A position rotation = Raise e <-> (e = EIndex /\ (List.length position < 3 \/ List.length rotation < 3)%nat) \/
    (e = EValue /\ (3 <= List.length position)%nat /\ exists a b c r, rotation = a :: b :: c :: r /\ f_trig A (f_radians A a) = false).
Proof.
  unfold rotate_X, first3.
  destruct rotation as [|a [|b [|c r]]].
  1-3: cbn [bind List.length]; split; [intros H; injection H as <-; left; split; [reflexivity|lia]|];
       intros [(-> & _)|(_ & _ & ? & ? & ? & ? & H & _)]; [reflexivity|discriminate H].
  destruct position as [|x [|y [|z p]]]; cbn [bind List.length].
  1-3: split; [intros H; injection H as <-; left; split; [reflexivity|lia]|];
       intros [(-> & _)|(_ & H & _)]; [reflexivity|exfalso; lia].
  destruct (f_trig A (f_radians A a)) eqn:E; split.
  - discriminate.
  - intros [(_ & H)|(_ & _ & a' & b' & c' & r' & H & H')]; [exfalso; lia|]. injection H as <- <- <- <-. congruence.
  - intros H. injection H as <-. right. split; [reflexivity|]. split; [lia|]. exists a, b, c, r. auto.
  - intros [(_ & H)|(-> & _)]; [exfalso; lia|reflexivity].
Qed.
Theorem printed_dot x y z p u v w q a b c r v1 v2 :
  rotate_X exact (x :: y :: z :: p) (a :: b :: c :: r) = Ok v1 -> rotate_X exact (u :: v :: w :: q) (a :: b :: c :: r) = Ok v2 ->
  dot v1 v2 = dot (x, y, z) (u, v, w).
Proof.
  assert (forall {B} (u v : B), Ok u = Ok v -> v = u) as OI by (intros B s t [= <-]; reflexivity).
  rewrite !printed by reflexivity. intros H1 H2. apply OI in H1, H2. rewrite H1, H2. now rewrite pitch_dot, yaw_dot, roll_dot.
Qed.
(** A yaw of 90 degrees: the script leaves its own example where it is. *)
Theorem not_a_yaw : rotate_X exact [5; 0; 5] [90; 0; 0] = Ok (5, 0, 5) /\ turn exact 90 0 0 (5, 0, 5) = (5, 0, -5).
Proof.
  split.
  - rewrite printed by reflexivity. unfold roll_by, yaw_by, pitch_by. cbn. replace (90 * PI / 180) with (PI / 2) by field. rewrite cos_PI2, sin_PI2. repeat f_equal; ring.
  - unfold turn, roll_by, yaw_by, pitch_by. cbn. replace (90 * PI / 180) with (PI / 2) by field. replace (0 * PI / 180) with 0 by field. rewrite cos_PI2, sin_PI2, cos_0, sin_0. repeat f_equal; ring.
Qed.
