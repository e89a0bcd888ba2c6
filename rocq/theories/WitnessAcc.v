(** Cases for the accuracy properties. *)
From Coq Require Import ZArith Reals List Lia Lra.
From Flocq Require Import Core IEEE754.Binary IEEE754.Bits.
From Verif Require Import PyBase Struct Mesh Arith F64 RArith Edit Spec SpecEdit SpecAcc AccFacts PiFacts Witness WitnessEdit.
Import ListNotations.
Open Scope R_scope.

Definition b90_ : binary64 := unpack_f 1119092736.

Lemma b1_val : finite (unpack_f b1) /\ val (unpack_f b1) = 1.
Proof.
  destruct (parts_val (unpack_f b1) 4503599627370496 (-52)) as (F & ->); [vm_compute; reflexivity|].
  split; [exact F|]. simpl. lra.
Qed.
Lemma b0_val : finite (unpack_f b0) /\ val (unpack_f b0) = 0.
Proof.
  destruct (parts_val (unpack_f b0) 0 0) as (F & ->); [vm_compute; reflexivity|].
  split; [exact F|]. ring.
Qed.
Lemma b90_val : finite b90_ /\ val b90_ = 90.
Proof.
  destruct (parts_val b90_ 6333186975989760 (-46)) as (F & ->); [vm_compute; reflexivity|].
  split; [exact F|]. simpl. lra.
Qed.
Definition val_b1 := proj2 b1_val. Definition val_b0 := proj2 b0_val. Definition val_b90 := proj2 b90_val.
#[local] Opaque unpack_f.

(** A C library whose sine and cosine are the exact ones, rounded. *)
Definition of_real (r : R) : binary64 :=
  let x := rnd64 r in
  binary_normalize 53 1024 Hprec64 Hmax64 BinarySingleNaN.mode_NE
    (Ztrunc (scaled_mantissa radix2 (FLT_exp (-1074) 53) x)) (cexp radix2 (FLT_exp (-1074) 53) x) false.
Definition lib_rounded : libm := {| lm_sin := fun x => of_real (sin (val x)); lm_cos := fun x => of_real (cos (val x)) |}.

Lemma of_real_near r : Rabs r <= 1 -> finite (of_real r) /\ Rabs (val (of_real r) - r) <= 2 * half_ulp.
Proof.
  intros Hr. destruct (mult_round r) as (e & h & He & Hh & E).
  assert (Rabs (rnd64 r - r) <= 2 * half_ulp) as HN.
  { rewrite E. replace (r * (1 + e) + h - r) with (r * e + h) by ring. eapply Rle_trans; [apply Rabs_triang|]. rewrite Rabs_mult.
    pose proof eta_small. pose proof u_small.
    assert (Rabs r * Rabs e <= 1 * u) by (apply Rmult_le_compat; auto using Rabs_pos). 
    assert (bpow radix2 (-1075) <= u) by (apply bpow_le; discriminate). lra. }
  assert (generic_format radix2 (FLT_exp (-1074) 53) (rnd64 r)) as G by (apply generic_format_round; [apply FLT_exp_valid; reflexivity|apply valid_rnd_N]).
  unfold of_real, finite, val.
  pose proof (binary_normalize_correct 53 1024 Hprec64 Hmax64 BinarySingleNaN.mode_NE
    (Ztrunc (scaled_mantissa radix2 (FLT_exp (-1074) 53) (rnd64 r))) (cexp radix2 (FLT_exp (-1074) 53) (rnd64 r)) false) as C.
  cbv zeta in C. pose proof G as G'. unfold generic_format in G'. rewrite <- G' in C. simpl BinarySingleNaN.round_mode in C.
  rewrite (round_generic radix2 (SpecFloat.fexp 53 1024) ZnearestE (rnd64 r) G) in C.
  destruct (Rlt_bool_spec (Rabs (rnd64 r)) (bpow radix2 1024)) as [B|B].
  - destruct C as (C1 & C2 & _). split; [exact C2|]. now rewrite C1.
  - exfalso. assert (Rabs (rnd64 r) <= 2) as B2.
    { replace (rnd64 r) with ((rnd64 r - r) + r) by ring. eapply Rle_trans; [apply Rabs_triang|]. pose proof u_small. lra. }
    assert (4 <= bpow radix2 1024) by (change 4 with (bpow radix2 2); apply bpow_le; lia). lra.
Qed.
Lemma lib_rounded_right : libm_within (2 * half_ulp) lib_rounded.
Proof.
  intros x _. destruct (of_real_near (cos (val x)) (cos_le1 _)) as (C1 & C2). destruct (of_real_near (sin (val x)) (sin_le1 _)) as (S1 & S2).
  auto.
Qed.
Lemma b90_upto : angle_upto 90 b90_.
Proof. destruct b90_val as (F & E). split; [exact F|]. rewrite E, Rabs_pos_eq; lra. Qed.
Lemma acc_small : 2 * half_ulp + 90 * bpow radix2 (-58) <= / 16.
Proof. pose proof u_small. change (bpow radix2 (-58)) with (/ 288230376151711744). lra. Qed.

Lemma ex_moved : moved_at (exm unpack_f) one3 0 (unpack_f b1) /\
  nth_error (vertices (exm unpack_f)) (1 * 7 + 0) = Some (unpack_f b1) /\
  finite (unpack_f b1) /\ on_grid 0 (unpack_f b1) /\
  Rabs (val (unpack_f b1)) < bpow radix2 (0 + 53) /\ Rabs (val (unpack_f b1) + val (unpack_f b1)) < bpow radix2 (0 + 53).
Proof.
  split; [split; [cbn; lia|reflexivity]|]. split; [reflexivity|]. split; [apply b1_val|]. repeat split.
  - exists 1%Z. rewrite val_b1. simpl. lra.
  - rewrite val_b1, Rabs_R1. simpl. lra.
  - rewrite val_b1, Rabs_pos_eq by lra. simpl. lra.
Qed.

Lemma ex_oriented : exists a q, In a (oriented_attribs (exm unpack_f)) /\
  triple (vertices (exm unpack_f)) (1 * 7 + attrib_start (exm unpack_f) a) q /\ finite3 q /\ norm (val3 q) = 1.
Proof.
  exists {| flag := 0; offset := 0; vartype := 2; usage := 0 |}, (unpack_f b1, unpack_f b0, unpack_f b0).
  split; [left; reflexivity|]. split; [repeat split; reflexivity|].
  split; [split; [apply b1_val|split; apply b0_val]|].
  unfold val3, norm. rewrite val_b1, val_b0. replace (1 * 1 + 0 * 0 + 0 * 0) with 1 by ring. apply sqrt_1.
Qed.
