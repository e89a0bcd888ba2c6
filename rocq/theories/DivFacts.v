(** Facts about Python's [int / int], [float * int] and [int(float)] as modelled in
    PyBase.v: their real-number meaning, and exactness on the cases the mesh code needs. *)
From Coq Require Import ZArith Reals Lia Lra List Bool Psatz.
From Coq Require Import Floats.SpecFloat.
From Flocq Require Import Core.
From Flocq Require Import IEEE754.BinarySingleNaN.
From Verif Require Import PyBase Mesh.
Open Scope Z_scope.

Notation rnd64 x := (round radix2 (SpecFloat.fexp 53 1024) ZnearestE x).

#[local] Instance Hprec53 : Prec_gt_0 53 := eq_refl.
#[local] Instance Hmax1024 : Prec_lt_emax 53 1024 := eq_refl.

#[local] Instance Hvalid : Valid_exp (SpecFloat.fexp 53 1024) := fexp_correct 53 1024 Hprec53.

Lemma choice_NE sx mx lx : choice_mode mode_NE sx mx lx = round_nearest_even mx lx.
Proof.
  unfold choice_mode, round_nearest_even, Round.cond_incr, Round.round_N.
  destruct lx as [|[]]; try reflexivity. now destruct (Z.even mx).
Qed.

Lemma round_aux_equiv sx mx ex lx :
  SpecFloat.binary_round_aux 53 1024 sx mx ex lx = binary_round_aux 53 1024 mode_NE sx mx ex lx.
Proof.
  unfold SpecFloat.binary_round_aux, binary_round_aux.
  destruct (shr_fexp 53 1024 mx ex lx) as (mrs, e). rewrite choice_NE.
  destruct (shr_fexp 53 1024 _ e loc_Exact) as (mrs', e'). reflexivity.
Qed.

Lemma round_equiv sx mx ex :
  SpecFloat.binary_round 53 1024 sx mx ex = binary_round 53 1024 mode_NE sx mx ex.
Proof.
  unfold SpecFloat.binary_round, binary_round, shl_align_fexp.
  destruct (shl_align _ _ _) as (mz, ez). apply round_aux_equiv.
Qed.

Definition small (r : R) : Prop := (Rabs r <= bpow radix2 1000)%R.

Lemma small_round r : small r -> (Rabs (rnd64 r) < bpow radix2 1024)%R.
Proof.
  intros H. apply Rle_lt_trans with (bpow radix2 1000); [|apply bpow_lt; lia].
  apply abs_round_le_generic; auto with typeclass_instances.
  apply generic_format_bpow. unfold SpecFloat.fexp, SpecFloat.emin. lia.
Qed.

(** What a finite Python float denotes. *)
Definition denotes (q : spec_float) (r : R) : Prop :=
  SF2R radix2 q = r /\ is_finite_SF q = true /\ SpecFloat.valid_binary 53 1024 q = true.

Lemma sf_exact_R z : SF2R radix2 (sf_exact z) = IZR z.
Proof. destruct z; simpl; rewrite ?F2R_0; unfold F2R; simpl; try ring; reflexivity. Qed.

Lemma truediv_denotes a b : b <> 0 -> small (IZR a / IZR b) ->
  exists q, py_truediv a b = Ok q /\ denotes q (rnd64 (IZR a / IZR b)).
Proof.
  intros Hb Hs. unfold py_truediv. rewrite (proj2 (Z.eqb_neq b 0) Hb).
  pose proof (small_round _ Hs) as HR.
  assert (forall sx mx sy my,
    (F2R (Float radix2 (SpecFloat.cond_Zopp sx (Zpos mx)) 0) = IZR a) ->
    (F2R (Float radix2 (SpecFloat.cond_Zopp sy (Zpos my)) 0) = IZR b) ->
    exists q, match SFdiv 53 1024 (S754_finite sx mx 0) (S754_finite sy my 0) with
       | S754_infinity _ => Raise EOverflow | q => Ok q end = Ok q /\ denotes q (rnd64 (IZR a / IZR b))) as G.
  { intros sx mx sy my Ex Ey.
    pose proof (Bdiv_correct_aux 53 1024 _ _ mode_NE sx mx 0 sy my 0) as C. cbv zeta in C.
    rewrite Ex, Ey in C. cbn [SFdiv].
    destruct (SFdiv_core_binary 53 1024 (Z.pos mx) 0 (Z.pos my) 0) as ((mz, ez), lz).
    rewrite round_aux_equiv. destruct C as (V & C). simpl round_mode in C.
    rewrite Rlt_bool_true in C by exact HR. destruct C as (C1 & C2 & C3).
    destruct (binary_round_aux 53 1024 mode_NE (xorb sx sy) mz ez lz); try discriminate;
      eexists; (split; [reflexivity|]); repeat split; auto. }
  destruct a as [|a|a], b as [|b|b]; try congruence; cbn [sf_exact].
  - eexists. split; [reflexivity|]. repeat split. simpl. unfold Rdiv. rewrite Rmult_0_l, round_0; auto with typeclass_instances.
  - eexists. split; [reflexivity|]. repeat split. simpl. unfold Rdiv. rewrite Rmult_0_l, round_0; auto with typeclass_instances.
  - apply (G false a false b); unfold F2R; simpl; ring.
  - apply (G false a true b); unfold F2R; simpl; ring.
  - apply (G true a false b); unfold F2R; simpl; ring.
  - apply (G true a true b); unfold F2R; simpl; ring.
Qed.

Lemma float_of_int_denotes z : small (IZR z) ->
  exists q, py_float_of_int z = Ok q /\ denotes q (rnd64 (IZR z)).
Proof.
  intros Hs. pose proof (small_round _ Hs) as HR. unfold py_float_of_int.
  assert (forall sx mx, F2R (Float radix2 (SpecFloat.cond_Zopp sx (Zpos mx)) 0) = IZR z ->
    exists q, match SpecFloat.binary_round 53 1024 sx mx 0 with
       | S754_infinity _ => Raise EOverflow | q => Ok q end = Ok q /\ denotes q (rnd64 (IZR z))) as G.
  { intros sx mx Ex. pose proof (binary_round_correct 53 1024 _ _ mode_NE sx mx 0) as C. cbv zeta in C.
    rewrite Ex in C. simpl round_mode in C. rewrite round_equiv. rewrite Rlt_bool_true in C by exact HR.
    destruct C as (V & C1 & C2 & C3).
    destruct (binary_round 53 1024 mode_NE sx mx 0); try discriminate;
      eexists; (split; [reflexivity|]); repeat split; auto. }
  destruct z as [|z|z]; cbn [SpecFloat.binary_normalize].
  - eexists. split; [reflexivity|]. repeat split. simpl. rewrite round_0; auto with typeclass_instances.
  - apply G. unfold F2R; simpl; ring.
  - apply G. unfold F2R; simpl; ring.
Qed.

Lemma mul_denotes x y r s : denotes x r -> denotes y s -> small (r * s) ->
  denotes (SFmul 53 1024 x y) (rnd64 (r * s)).
Proof.
  intros (Ex & Fx & Vx) (Ey & Fy & Vy) Hs. pose proof (small_round _ Hs) as HR.
  destruct x as [sx|sx| |sx mx ex], y as [sy|sy| |sy my ey]; try discriminate; simpl in Ex, Ey; subst.
  1-3: cbn [SFmul]; rewrite ?Rmult_0_l, ?Rmult_0_r, round_0 by auto with typeclass_instances; repeat split.
  pose proof (Bmult_correct_aux 53 1024 _ _ mode_NE sx mx ex Vx sy my ey Vy) as C. cbv zeta in C.
  simpl round_mode in C. cbn [SFmul]. rewrite round_aux_equiv. destruct C as (V & C).
  rewrite Rlt_bool_true in C by exact HR. destruct C as (C1 & C2 & C3). repeat split; auto.
Qed.

Lemma py_int_denotes q r : denotes q r -> py_int q = Ok (Ztrunc r).
Proof.
  intros (E & Hf & _). destruct q as [s|s| |s m e]; try discriminate; simpl in E; subst r.
  - simpl. now rewrite Ztrunc_IZR.
  - unfold py_int. f_equal.
    assert (Ztrunc (F2R (Float radix2 (Zpos m) e)) = if e <? 0 then Z.pos m / 2 ^ (- e) else Z.pos m * 2 ^ e) as P.
    { rewrite Ztrunc_floor by (apply F2R_ge_0; simpl; lia). unfold F2R. cbn [Fnum Fexp].
      destruct (Z.ltb_spec e 0).
      - replace (bpow radix2 e) with (/ IZR (2 ^ (- e)))%R.
        + rewrite <- Zfloor_div; [reflexivity|]. apply Z.pow_nonzero; lia.
        + change 2 with (radix_val radix2). rewrite IZR_Zpower by lia. rewrite <- bpow_opp, Z.opp_involutive. reflexivity.
      - replace (bpow radix2 e) with (IZR (2 ^ e)) by (change 2 with (radix_val radix2); apply IZR_Zpower; lia).
        rewrite <- mult_IZR. apply Zfloor_IZR. }
    destruct s; cbn [SpecFloat.cond_Zopp]; rewrite <- P; [|reflexivity].
    change (- Z.pos m) with (Z.opp (Z.pos m)). rewrite F2R_Zopp, Ztrunc_opp. reflexivity.
Qed.

Lemma format_int z : Z.abs z <= 2 ^ 53 -> rnd64 (IZR z) = IZR z.
Proof.
  intros H. apply round_generic; auto with typeclass_instances.
  destruct (Z.eq_dec (Z.abs z) (2 ^ 53)) as [E|E].
  - assert (generic_format radix2 (SpecFloat.fexp 53 1024) (IZR (2 ^ 53))) as G.
    { change (2 ^ 53) with (radix2 ^ 53). rewrite IZR_Zpower by lia. apply generic_format_bpow.
      unfold SpecFloat.fexp, SpecFloat.emin. lia. }
    destruct (Z.abs_eq_or_opp z) as [A|A]; rewrite A in E.
    + now rewrite E.
    + replace z with (- 2 ^ 53) by lia. rewrite opp_IZR. now apply generic_format_opp.
  - apply generic_format_FLT. exists (Float radix2 z 0); simpl; try lia.
    unfold F2R; simpl; ring. unfold SpecFloat.emin. lia.
Qed.

Lemma small_int z : Z.abs z <= 2 ^ 64 -> small (IZR z).
Proof.
  intros H. unfold small. rewrite <- abs_IZR. apply Rle_trans with (IZR (2 ^ 64)); [now apply IZR_le|].
  change (2 ^ 64) with (radix2 ^ 64). rewrite IZR_Zpower by lia. apply bpow_le. lia.
Qed.

Lemma bpow_opp_Zpos_20 : bpow radix2 (-20) = (/ IZR (2 ^ 20))%R.
Proof. change (2 ^ 20) with (radix2 ^ 20). rewrite IZR_Zpower by lia. now rewrite <- bpow_opp. Qed.

(** Exact quotients below 2^53. *)
Theorem truediv_exact k b : b <> 0 -> Z.abs k <= 2 ^ 53 ->
  exists q, py_truediv (k * b) b = Ok q /\ denotes q (IZR k).
Proof.
  intros Hb Hk. assert (IZR (k * b) / IZR b = IZR k)%R as E.
  { rewrite mult_IZR. field. now apply IZR_neq. }
  destruct (truediv_denotes (k * b) b Hb) as (q & Hq & D).
  { rewrite E. apply small_int. lia. }
  exists q. split; [exact Hq|]. now rewrite E, format_int in D.
Qed.

Theorem int_div_exact k b : b <> 0 -> Z.abs k <= 2 ^ 53 -> py_int_div (k * b) b = Ok k.
Proof.
  intros Hb Hk. destruct (truediv_exact k b Hb Hk) as (q & E & D). unfold py_int_div. rewrite E. simpl.
  apply py_int_denotes in D. now rewrite Ztrunc_IZR in D.
Qed.

(** [int(stride / format * num)] when the stride is a whole number of items. *)
Theorem data_num_exact k f n : f <> 0 -> Z.abs k <= 2 ^ 53 -> Z.abs n <= 2 ^ 53 -> Z.abs (k * n) <= 2 ^ 53 ->
  data_num (k * f) f n = Ok (k * n).
Proof.
  intros Hf Hk Hn Hkn. unfold data_num. destruct (truediv_exact k f Hf Hk) as (q & E & D).
  rewrite E. cbn [bind]. unfold py_fmul_int.
  destruct (float_of_int_denotes n) as (y & Ey & Dy); [apply small_int; lia|].
  rewrite Ey. cbn [bind]. rewrite format_int in Dy by exact Hn.
  assert (denotes (SFmul 53 1024 q y) (IZR (k * n))) as DM.
  { rewrite <- (format_int (k * n)) by exact Hkn. rewrite mult_IZR. apply mul_denotes; auto.
    rewrite <- mult_IZR. apply small_int. lia. }
  apply py_int_denotes in DM. now rewrite Ztrunc_IZR in DM.
Qed.

(** [int(offset / format)] for an unsigned short offset: truncated division. *)
Theorem int_div_short a b : 0 <= a < 65536 -> b <> 0 -> py_int_div a b = Ok (Z.quot a b).
Proof.
  intros Ha Hb.
  assert (forall c, 0 < c -> exists q, py_truediv a c = Ok q /\ denotes q (rnd64 (IZR a / IZR c)) /\
            Ztrunc (rnd64 (IZR a / IZR c)) = a / c) as P.
  { intros c Hc. assert (0 < IZR c)%R as HcR by now apply IZR_lt.
    assert (0 <= IZR a / IZR c)%R as H0.
    { apply Rmult_le_pos; [now apply IZR_le|]. left. now apply Rinv_0_lt_compat. }
    assert (IZR a / IZR c <= IZR a)%R as H1.
    { unfold Rdiv. rewrite <- (Rmult_1_r (IZR a)) at 2. apply Rmult_le_compat_l; [now apply IZR_le|].
      rewrite <- Rinv_1. apply Rinv_le_contravar; [lra|]. apply IZR_le. lia. }
    destruct (truediv_denotes a c) as (q & Eq & D); [lia| |].
    { unfold small. rewrite Rabs_pos_eq by exact H0. apply Rle_trans with (1 := H1).
      rewrite <- (Rabs_pos_eq (IZR a)) by now apply IZR_le. apply small_int. lia. }
    exists q. repeat split; auto; try apply D.
    assert (IZR (a / c) <= IZR a / IZR c)%R as L.
    { apply Rmult_le_reg_r with (IZR c); [exact HcR|]. unfold Rdiv. rewrite Rmult_assoc, Rinv_l, Rmult_1_r by lra.
      rewrite <- mult_IZR. apply IZR_le. pose proof (Z.mul_div_le a c). lia. }
    assert (0 <= a / c) as N by (apply Z.div_pos; lia).
    assert (a / c <= a) as N2 by (apply Z.div_le_upper_bound; nia).
    assert (IZR (a / c) <= rnd64 (IZR a / IZR c))%R as L1.
    { apply round_ge_generic; auto with typeclass_instances.
      rewrite <- (format_int (a / c)) by lia. apply generic_format_round; auto with typeclass_instances. }
    assert (rnd64 (IZR a / IZR c) < IZR (a / c + 1))%R as U.
    { (* the quotient is below the next integer by at least 2^-17 relative *)
      destruct (Z.lt_ge_cases a c) as [Hac|Hac].
      - rewrite Z.div_small by lia. change (0 + 1) with 1.
        apply Rle_lt_trans with (1 - bpow radix2 (-20))%R; [|pose proof (bpow_gt_0 radix2 (-20)); lra].
        apply round_le_generic; auto with typeclass_instances.
        + replace (1 - bpow radix2 (-20))%R with (F2R (Float radix2 (2 ^ 20 - 1) (-20))).
          * apply generic_format_FLT. eexists; [reflexivity| |]; unfold SpecFloat.emin; simpl; lia.
          * unfold F2R. cbn [Fnum Fexp]. rewrite minus_IZR. change (2 ^ 20) with (radix2 ^ 20).
            rewrite IZR_Zpower by lia. rewrite Rmult_minus_distr_r, <- bpow_plus. simpl. ring.
        + assert (IZR a / IZR c <= IZR a / IZR (a + 1))%R as A1.
          { unfold Rdiv. apply Rmult_le_compat_l; [now apply IZR_le|]. apply Rinv_le_contravar.
            apply IZR_lt; lia. apply IZR_le; lia. }
          apply Rle_trans with (1 := A1).
          assert (IZR a / IZR (a + 1) = 1 - / IZR (a + 1))%R as A2.
          { rewrite plus_IZR. field. rewrite <- plus_IZR. apply IZR_neq. lia. }
          rewrite A2. apply Rplus_le_compat_l, Ropp_le_contravar.
          rewrite bpow_opp_Zpos_20. apply Rinv_le_contravar. apply IZR_lt; lia. apply IZR_le. lia.
      - apply Rle_lt_trans with (IZR (a / c + 1) - bpow radix2 (-20))%R; [|pose proof (bpow_gt_0 radix2 (-20)); lra].
        apply round_le_generic; auto with typeclass_instances.
        + replace (IZR (a / c + 1) - bpow radix2 (-20))%R with (F2R (Float radix2 ((a / c + 1) * 2 ^ 20 - 1) (-20))).
          * apply generic_format_FLT. eexists; [reflexivity| |]; unfold SpecFloat.emin; simpl; lia.
          * unfold F2R. cbn [Fnum Fexp]. rewrite minus_IZR, mult_IZR. change (2 ^ 20) with (radix2 ^ 20).
            rewrite (IZR_Zpower _ 20) by lia. rewrite Rmult_minus_distr_r, Rmult_assoc, <- bpow_plus. simpl. ring.
        + assert (IZR a / IZR c <= IZR (a / c + 1) - / IZR c)%R as A1.
          { apply Rmult_le_reg_r with (IZR c); [exact HcR|]. unfold Rdiv.
            rewrite Rmult_assoc, Rinv_l, Rmult_1_r, Rmult_minus_distr_r, Rinv_l by lra.
            rewrite <- mult_IZR, <- minus_IZR. apply IZR_le.
            pose proof (Z.mul_succ_div_gt a c). lia. }
          apply Rle_trans with (1 := A1). apply Rplus_le_compat_l, Ropp_le_contravar.
          rewrite bpow_opp_Zpos_20. apply Rinv_le_contravar; [exact HcR|]. apply IZR_le. lia. }
    rewrite Ztrunc_floor by (apply Rle_trans with (2 := L1); now apply IZR_le).
    apply Zfloor_imp. split; assumption. }
  destruct (Z.lt_trichotomy b 0) as [Hn|[->|Hp]]; [|lia|].
  - destruct (P (- b)) as (q & _ & _ & T); [lia|].
    destruct (truediv_denotes a b Hb) as (q' & E' & D').
    { unfold small. replace (IZR a / IZR b)%R with (- (IZR a / IZR (- b)))%R by (rewrite opp_IZR; field; now apply IZR_neq).
      rewrite Rabs_Ropp. rewrite Rabs_pos_eq.
      - apply Rle_trans with (IZR a); [|rewrite <- (Rabs_pos_eq (IZR a)) by (apply IZR_le; lia); apply small_int; lia].
        unfold Rdiv. rewrite <- (Rmult_1_r (IZR a)) at 2. apply Rmult_le_compat_l; [now apply IZR_le|].
        rewrite <- Rinv_1. apply Rinv_le_contravar; [lra|]. apply IZR_le. lia.
      - apply Rmult_le_pos; [now apply IZR_le|]. left. apply Rinv_0_lt_compat. apply IZR_lt. lia. }
    unfold py_int_div. rewrite E'. simpl. rewrite (py_int_denotes _ _ D').
    replace (IZR a / IZR b)%R with (- (IZR a / IZR (- b)))%R by (rewrite opp_IZR; field; now apply IZR_neq).
    rewrite round_NE_opp, Ztrunc_opp, T. f_equal.
    rewrite <- Z.quot_div_nonneg by lia. rewrite Z.quot_opp_r by lia. lia.
  - destruct (P b Hp) as (q & E & D & T). unfold py_int_div. rewrite E. simpl.
    rewrite (py_int_denotes _ _ D), T. now rewrite Z.quot_div_nonneg by lia.
Qed.
