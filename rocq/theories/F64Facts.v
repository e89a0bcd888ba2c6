(** Facts about the conversions between Python floats and 32-bit patterns. *)
From Coq Require Import ZArith Reals Lia Lra List Bool Psatz.
From Flocq Require Import Core IEEE754.Binary IEEE754.Bits.
From Verif Require Import Arith F64 Spec SpecF.
Open Scope Z_scope.

Notation fexp32 := (SpecFloat.fexp 24 128).
Notation fexp64 := (SpecFloat.fexp 53 1024).
Notation rnd32 x := (round radix2 fexp32 ZnearestE x).

Lemma sign_F2R s m e :
  match Rcompare (F2R (Float radix2 (SpecFloat.cond_Zopp s (Zpos m)) e)) 0 with
  | Eq => s | Lt => true | Gt => false end = s.
Proof.
  destruct s; simpl SpecFloat.cond_Zopp.
  - rewrite Rcompare_Lt; [reflexivity|]. apply F2R_lt_0. reflexivity.
  - rewrite Rcompare_Gt; [reflexivity|]. apply F2R_gt_0. reflexivity.
Qed.

Lemma narrow_correct x : is_finite 53 1024 x = true ->
  if Rlt_bool (Rabs (rnd32 (B2R 53 1024 x))) (bpow radix2 128)
  then B2R 24 128 (narrow x) = rnd32 (B2R 53 1024 x) /\
       is_finite 24 128 (narrow x) = true /\ Bsign 24 128 (narrow x) = Bsign 53 1024 x
  else narrow x = B754_infinity 24 128 (Bsign 53 1024 x).
Proof.
  destruct x as [s|s|s pl H|s m e H]; try discriminate; intros _.
  - simpl B2R. rewrite round_0 by apply valid_rnd_N. rewrite Rabs_R0.
    rewrite Rlt_bool_true by apply bpow_gt_0. auto.
  - pose proof (binary_normalize_correct 24 128 Hprec32 Hmax32 BinarySingleNaN.mode_NE
                  (SpecFloat.cond_Zopp s (Zpos m)) e s) as C.
    simpl BinarySingleNaN.round_mode in C. cbn [narrow].
    change (B2R 53 1024 (B754_finite 53 1024 s m e H))
      with (F2R (Float radix2 (SpecFloat.cond_Zopp s (Zpos m)) e)).
    destruct (Rlt_bool _ _).
    + destruct C as (C1 & C2 & C3). rewrite sign_F2R in C3. auto.
    + cbn [Bsign]. assert (Rlt_bool (F2R (Float radix2 (SpecFloat.cond_Zopp s (Zpos m)) e)) 0 = s) as Es.
      { destruct s; simpl SpecFloat.cond_Zopp.
        - apply Rlt_bool_true, F2R_lt_0. reflexivity.
        - apply Rlt_bool_false, F2R_ge_0. simpl. lia. }
      rewrite Es in C. unfold binary_overflow, BinarySingleNaN.binary_overflow in C. simpl in C.
      destruct (binary_normalize 24 128 Hprec32 Hmax32 BinarySingleNaN.mode_NE _ e s);
        simpl in C; try discriminate. injection C as ->. reflexivity.
Qed.

Lemma format_32_64 x : generic_format radix2 fexp32 x -> generic_format radix2 fexp64 x.
Proof.
  intros H. apply generic_inclusion_mag with fexp32; [|exact H].
  intros _. unfold SpecFloat.fexp, SpecFloat.emin. lia.
Qed.

Lemma widen_correct x : is_finite 24 128 x = true ->
  B2R 53 1024 (widen x) = B2R 24 128 x /\ is_finite 53 1024 (widen x) = true /\
  Bsign 53 1024 (widen x) = Bsign 24 128 x.
Proof.
  destruct x as [s|s|s pl H|s m e H]; try discriminate; intros _; [auto|].
  pose proof (binary_normalize_correct 53 1024 Hprec64 Hmax64 BinarySingleNaN.mode_NE
                (SpecFloat.cond_Zopp s (Zpos m)) e s) as C.
  simpl BinarySingleNaN.round_mode in C. cbn [widen].
  set (x := B754_finite 24 128 s m e H) in *.
  change (F2R (Float radix2 (SpecFloat.cond_Zopp s (Zpos m)) e)) with (B2R 24 128 x) in C.
  rewrite round_generic in C by (try apply valid_rnd_N; apply format_32_64, generic_format_B2R).
  rewrite Rlt_bool_true in C.
  - destruct C as (C1 & C2 & C3). unfold x, B2R in C3. rewrite sign_F2R in C3. auto.
  - apply Rlt_trans with (bpow radix2 128); [apply abs_B2R_lt_emax|]. apply bpow_lt. lia.
Qed.

Lemma narrow_widen x : is_nan 24 128 x = false -> narrow (widen x) = x.
Proof.
  destruct x as [s|s|s pl H|s m e H]; try discriminate; intros _; try reflexivity.
  set (x := B754_finite 24 128 s m e H).
  destruct (widen_correct x eq_refl) as (W1 & W2 & W3).
  pose proof (narrow_correct _ W2) as N. rewrite W1, W3 in N.
  rewrite round_generic in N by (try apply valid_rnd_N; apply generic_format_B2R).
  rewrite Rlt_bool_true in N by apply abs_B2R_lt_emax.
  destruct N as (N1 & N2 & N3). apply B2R_Bsign_inj; auto.
Qed.

(** ** Bit patterns *)
Lemma bits_range x : is_bits32 (bits_of_b32 x).
Proof. unfold is_bits32, bits_of_b32. apply (bits_of_binary_float_range 23 8); reflexivity. Qed.

Lemma pack_range x : is_bits32 (pack_f x).
Proof. apply bits_range. Qed.

Lemma bits_of_bits b : is_bits32 b -> bits_of_b32 (b32_of_bits b) = b.
Proof. intros H. apply (bits_of_binary_float_of_bits 23 8). exact H. Qed.

Lemma of_bits_of x : b32_of_bits (bits_of_b32 x) = x.
Proof. apply (binary_float_of_bits_of_binary_float 23 8). Qed.

Lemma bits_fields x :
  let b := bits_of_b32 x in
  let '(s, m, e) := split_bits_of_binary_float 23 8 x in
  b mod 2 ^ 23 = m /\ (b / 2 ^ 23) mod 256 = e.
Proof.
  intros b. pose proof (split_bits_of_binary_float_correct 23 8 eq_refl eq_refl x) as H.
  change (bits_of_binary_float 23 8 x) with b in H. unfold split_bits in H.
  destruct (split_bits_of_binary_float 23 8 x) as [[s m] e].
  injection H as _ H2 H3. auto.
Qed.

Lemma snan_bits x : snan (bits_of_b32 x) <->
  exists s pl H, x = B754_nan 24 128 s pl H /\ Zpos pl < 2 ^ 22.
Proof.
  pose proof (bits_fields x) as HB. cbv zeta in HB. unfold snan. revert HB.
  generalize (bits_of_b32 x) as b. intros b HB.
  destruct x as [s|s|s pl H|s m e H]; cbn [split_bits_of_binary_float] in HB.
  - destruct HB as (-> & ->). split; [lia|]. intros (? & ? & ? & E & _). discriminate.
  - destruct HB as (-> & ->). split; [lia|]. intros (? & ? & ? & E & _). discriminate.
  - destruct HB as (-> & ->). split.
    + intros (_ & H1). exists s, pl, H. split; [reflexivity|lia].
    + intros (s' & pl' & H' & E & H1). injection E as -> ->. lia.
  - split; [|intros (? & ? & ? & E & _); discriminate].
    intros (H1 & _). exfalso.
    assert (e <= 104).
    { pose proof H as H0. unfold SpecFloat.bounded in H0. apply andb_true_iff in H0. destruct H0 as (_ & H0).
      apply Z.leb_le in H0. exact H0. }
    unfold SpecFloat.emin in HB.
    destruct (0 <=? Z.pos m - 2 ^ 23); destruct HB as (_ & HB); lia.
Qed.

Lemma bits_nan s pl H : bits_of_b32 (B754_nan 24 128 s pl H) =
  (if s then 2 ^ 31 else 0) + 255 * 2 ^ 23 + Zpos pl.
Proof.
  unfold bits_of_b32, bits_of_binary_float, join_bits. rewrite Z.shiftl_mul_pow2 by lia.
  destruct s; lia.
Qed.

Lemma narrow_widen_nan s pl H :
  exists H', narrow (widen (B754_nan 24 128 s pl H)) = B754_nan 24 128 s (quiet32_pl pl) H'.
Proof.
  cbn [widen narrow]. set (q := quiet32_pl pl).
  assert (Z.to_pos (Z.pos (quiet64_pl (Z.to_pos (Z.pos q * 2 ^ 29))) / 2 ^ 29) = q) as E.
  { assert (2 ^ 22 <= Z.pos q < 2 ^ 23) as Hq.
    { pose proof H as H0. rewrite nan_pl_lt in H0 by lia. unfold q, quiet32_pl.
      destruct (Z.ltb_spec (Zpos pl) (2 ^ 22)); rewrite ?Z2Pos.id by lia; lia. }
    unfold quiet64_pl. rewrite Z2Pos.id by lia.
    destruct (Z.ltb_spec (Z.pos q * 2 ^ 29) (2 ^ 51)); [lia|].
    rewrite Z2Pos.id by lia. rewrite Z.div_mul by lia. reflexivity. }
  generalize (narrow_pl_ok (Z.to_pos (Z.pos q * 2 ^ 29)) (widen_pl_ok pl H)).
  rewrite E. intros H'. exists H'. reflexivity.
Qed.

(** Loading and writing back a pattern: only signalling NaNs change. *)
Lemma pack_unpack b : is_bits32 b -> ~ snan b -> pack_f (unpack_f b) = b.
Proof.
  intros Hb Hs. unfold pack_f, unpack_f. rewrite <- (bits_of_bits b Hb) in Hs |- * at 2.
  rewrite snan_bits in Hs.
  destruct (b32_of_bits b) as [s|s|s pl H|s m e H] eqn:Ex; try (rewrite narrow_widen; reflexivity).
  destruct (narrow_widen_nan s pl H) as (H' & ->). rewrite !bits_nan.
  assert (quiet32_pl pl = pl) as ->; [|reflexivity].
  unfold quiet32_pl. destruct (Z.ltb_spec (Zpos pl) (2 ^ 22)); [|reflexivity].
  exfalso. apply Hs. exists s, pl, H. auto.
Qed.

Lemma pack_unpack_snan b : is_bits32 b -> snan b -> pack_f (unpack_f b) = b + 2 ^ 22.
Proof.
  intros Hb Hs. unfold pack_f, unpack_f. rewrite <- (bits_of_bits b Hb) in Hs |- * at 2.
  rewrite snan_bits in Hs. destruct Hs as (s & pl & H & -> & Hp).
  destruct (narrow_widen_nan s pl H) as (H' & ->). rewrite !bits_nan.
  unfold quiet32_pl. destruct (Z.ltb_spec (Zpos pl) (2 ^ 22)); [|lia].
  rewrite Z2Pos.id by lia. lia.
Qed.

Lemma pack_not_snan x : ~ snan (pack_f x).
Proof.
  unfold pack_f. rewrite snan_bits. intros (s & pl & H & E & Hp).
  destruct x as [s'|s'|s' pl' H'|s' m e H']; try discriminate.
  - cbn [narrow] in E. injection E as _ E.
    pose proof (quiet64_pl_bounds pl' H') as Hb.
    assert (2 ^ 22 <= Zpos (quiet64_pl pl') / 2 ^ 29) by (apply Z.div_le_lower_bound; lia).
    rewrite <- E in Hp. rewrite Z2Pos.id in Hp by lia. lia.
  - pose proof (narrow_correct _ (eq_refl : is_finite 53 1024 (B754_finite 53 1024 s' m e H') = true)) as C.
    rewrite E in C. destruct (Rlt_bool _ _); [|discriminate]. destruct C as (_ & C & _). discriminate.
Qed.

Lemma pack_unpack_pack x : pack_f (unpack_f (pack_f x)) = pack_f x.
Proof. apply pack_unpack; [apply pack_range|apply pack_not_snan]. Qed.

(** Widening remembers everything but the signalling bit. *)
Lemma unpack_pack_unpack b : is_bits32 b -> unpack_f (pack_f (unpack_f b)) = unpack_f b.
Proof.
  intros Hb. unfold pack_f, unpack_f. rewrite of_bits_of.
  destruct (b32_of_bits b) as [s|s|s pl H|s m e H] eqn:Ex; try (rewrite narrow_widen; reflexivity).
  destruct (narrow_widen_nan s pl H) as (H' & ->). cbn [widen].
  assert (quiet32_pl (quiet32_pl pl) = quiet32_pl pl) as E.
  { pose proof H as H0. rewrite nan_pl_lt in H0 by lia. unfold quiet32_pl at 1.
    destruct (Z.ltb_spec (Zpos (quiet32_pl pl)) (2 ^ 22)) as [E|E]; [|reflexivity].
    revert E. unfold quiet32_pl. destruct (Z.ltb_spec (Zpos pl) (2 ^ 22)); rewrite ?Z2Pos.id by lia; lia. }
  generalize (widen_pl_ok (quiet32_pl pl) H'), (widen_pl_ok pl H). rewrite E.
  intros p1 p2. f_equal. apply Eqdep_dec.UIP_dec. apply Bool.bool_dec.
Qed.

(** ** Rounding to single precision *)
Lemma nearest_single_rnd32 r : nearest_single r = rnd32 r.
Proof. reflexivity. Qed.

Theorem unpack_pack_rounds x : rounds_to_single x (unpack_f (pack_f x)).
Proof.
  unfold rounds_to_single, unpack_f, pack_f. rewrite of_bits_of.
  destruct (is_nan 53 1024 x) eqn:En.
  { destruct x; try discriminate. reflexivity. }
  destruct (is_finite 53 1024 x) eqn:Ef.
  2:{ destruct x; try discriminate. reflexivity. }
  pose proof (narrow_correct x Ef) as C. rewrite nearest_single_rnd32. split; intros H.
  - rewrite Rlt_bool_true in C by exact H. destruct C as (C1 & C2 & C3).
    destruct (widen_correct _ C2) as (W1 & W2 & W3). rewrite W1, W3. auto.
  - rewrite Rlt_bool_false in C by exact H. rewrite C. reflexivity.
Qed.

Theorem unpack_pack_single x : is_single x -> unpack_f (pack_f x) = x.
Proof.
  intros (Hn & Hf). pose proof (unpack_pack_rounds x) as H. unfold rounds_to_single in H.
  rewrite Hn in H. destruct (is_finite 53 1024 x) eqn:E; [|exact H].
  destruct (Hf eq_refl) as (Hg & Hb). destruct H as (H & _).
  unfold nearest_single in H. rewrite round_generic in H by (auto using valid_rnd_N).
  destruct (H Hb) as (H1 & H2 & H3). apply B2R_Bsign_inj; auto.
Qed.

Lemma unpack_single b : is_nan 53 1024 (unpack_f b) = false -> is_single (unpack_f b).
Proof.
  intros H. split; [exact H|]. unfold unpack_f in *.
  destruct (b32_of_bits b) as [s|s|s pl Hp|s m e Hb] eqn:E; try discriminate; intros Hf.
  - cbn [widen B2R]. split; [apply generic_format_0|]. rewrite Rabs_R0. apply bpow_gt_0.
  - destruct (widen_correct (B754_finite 24 128 s m e Hb) eq_refl) as (W & _).
    rewrite W. split; [|apply abs_B2R_lt_emax]. apply (generic_format_B2R 24 128).
Qed.

(** ** Order *)
Lemma b64_compare_finite x y : is_finite 53 1024 x = true -> is_finite 53 1024 y = true ->
  b64_compare x y = Some (Rcompare (B2R 53 1024 x) (B2R 53 1024 y)).
Proof. intros Hx Hy. apply Bcompare_correct; assumption. Qed.

(** Position on the real line, with the infinities beyond every finite number. *)
Definition ord (x : binary64) : R :=
  match x with
  | B754_infinity _ _ s => if s then (- bpow radix2 1025)%R else bpow radix2 1025
  | _ => B2R 53 1024 x
  end.

Lemma ord_finite x : is_finite 53 1024 x = true -> ord x = B2R 53 1024 x.
Proof. destruct x; try discriminate; reflexivity. Qed.

Lemma ord_bound x : is_finite 53 1024 x = true -> (- bpow radix2 1025 < B2R 53 1024 x < bpow radix2 1025)%R.
Proof.
  intros _. pose proof (abs_B2R_lt_emax 53 1024 x) as H. apply Rabs_lt_inv in H.
  assert (bpow radix2 1024 < bpow radix2 1025)%R by (apply bpow_lt; lia). lra.
Qed.

Lemma compare_ord x y : is_nan 53 1024 x = false -> is_nan 53 1024 y = false ->
  b64_compare x y = Some (Rcompare (ord x) (ord y)).
Proof.
  intros Hx Hy.
  destruct (is_finite 53 1024 x) eqn:Fx; destruct (is_finite 53 1024 y) eqn:Fy.
  - rewrite b64_compare_finite, !ord_finite by assumption. reflexivity.
  - pose proof (ord_bound x Fx) as B. rewrite (ord_finite x Fx).
    destruct y as [| [|] | |]; try discriminate; cbn [ord].
    + rewrite Rcompare_Gt by lra. destruct x; try discriminate; reflexivity.
    + rewrite Rcompare_Lt by lra. destruct x; try discriminate; reflexivity.
  - pose proof (ord_bound y Fy) as B. rewrite (ord_finite y Fy).
    destruct x as [| [|] | |]; try discriminate; cbn [ord].
    + rewrite Rcompare_Lt by lra. destruct y; try discriminate; reflexivity.
    + rewrite Rcompare_Gt by lra. destruct y; try discriminate; reflexivity.
  - assert (0 < bpow radix2 1025)%R by apply bpow_gt_0.
    destruct x as [| [|] | |]; try discriminate; destruct y as [| [|] | |]; try discriminate; cbn [ord].
    + rewrite Rcompare_Eq by lra. reflexivity.
    + rewrite Rcompare_Lt by lra. reflexivity.
    + rewrite Rcompare_Gt by lra. reflexivity.
    + rewrite Rcompare_Eq by lra. reflexivity.
Qed.

Lemma b64_lt_ord x y : is_nan 53 1024 x = false -> is_nan 53 1024 y = false ->
  b64_lt x y = true <-> (ord x < ord y)%R.
Proof.
  intros Hx Hy. unfold b64_lt. rewrite compare_ord by assumption.
  destruct (Rcompare_spec (ord x) (ord y)); split; intros; try discriminate; try lra; reflexivity.
Qed.

(** Overflow clamps to the infinities. *)
Definition clamp (r : R) : R :=
  if Rlt_bool r (bpow radix2 128) then
    if Rlt_bool (- bpow radix2 128) r then r else (- bpow radix2 1025)%R
  else bpow radix2 1025.

Lemma clamp_monotone r s : (r <= s)%R -> (clamp r <= clamp s)%R.
Proof.
  intros H. unfold clamp.
  assert (bpow radix2 128 < bpow radix2 1025)%R by (apply bpow_lt; lia).
  assert (0 < bpow radix2 128)%R by apply bpow_gt_0.
  destruct (Rlt_bool_spec r (bpow radix2 128)), (Rlt_bool_spec s (bpow radix2 128)),
    (Rlt_bool_spec (- bpow radix2 128) r), (Rlt_bool_spec (- bpow radix2 128) s); lra.
Qed.

Lemma rnd32_le r s : (r <= s)%R -> (rnd32 r <= rnd32 s)%R.
Proof. apply round_le; [apply (fexp_correct 24 128); reflexivity|apply valid_rnd_N]. Qed.

Lemma rnd32_inf : rnd32 (bpow radix2 1025) = bpow radix2 1025.
Proof.
  apply round_generic; [apply valid_rnd_N|]. apply generic_format_bpow.
  unfold SpecFloat.fexp, SpecFloat.emin. lia.
Qed.

Lemma sign_nonneg x : is_finite 53 1024 x = true -> Bsign 53 1024 x = false -> (0 <= B2R 53 1024 x)%R.
Proof.
  destruct x as [s|s|s pl H|s m e H]; try discriminate; intros _; cbn [Bsign B2R].
  - intros _. lra.
  - intros ->. apply F2R_ge_0. simpl. lia.
Qed.
Lemma sign_nonpos x : is_finite 53 1024 x = true -> Bsign 53 1024 x = true -> (B2R 53 1024 x <= 0)%R.
Proof.
  destruct x as [s|s|s pl H|s m e H]; try discriminate; intros _; cbn [Bsign B2R].
  - intros _. lra.
  - intros ->. apply F2R_le_0. simpl. lia.
Qed.

Lemma ord_single x : is_nan 53 1024 x = false ->
  is_nan 53 1024 (unpack_f (pack_f x)) = false /\ ord (unpack_f (pack_f x)) = clamp (rnd32 (ord x)).
Proof.
  intros Hn. pose proof (unpack_pack_rounds x) as H. unfold rounds_to_single in H. rewrite Hn in H.
  set (y := unpack_f (pack_f x)) in *. clearbody y.
  assert (bpow radix2 128 < bpow radix2 1025)%R by (apply bpow_lt; lia).
  assert (0 < bpow radix2 128)%R by apply bpow_gt_0.
  destruct (is_finite 53 1024 x) eqn:Fx.
  - rewrite (ord_finite x Fx). rewrite nearest_single_rnd32 in H. destruct H as (HA & HB).
    destruct (Rlt_or_le (Rabs (rnd32 (B2R 53 1024 x))) (bpow radix2 128)) as [C|C].
    + destruct (HA C) as (E1 & E2 & E3). split; [destruct y; try discriminate; reflexivity|].
      rewrite (ord_finite y E2), E1. unfold clamp. apply Rabs_lt_inv in C.
      rewrite !Rlt_bool_true by lra. reflexivity.
    + rewrite (HB C). split; [reflexivity|]. cbn [ord]. unfold clamp.
      destruct (Bsign 53 1024 x) eqn:S.
      * pose proof (sign_nonpos x Fx S) as P. apply rnd32_le in P.
        rewrite round_0 in P by apply valid_rnd_N. rewrite Rabs_left1 in C by lra.
        rewrite Rlt_bool_true, Rlt_bool_false by lra. reflexivity.
      * pose proof (sign_nonneg x Fx S) as P. apply rnd32_le in P.
        rewrite round_0 in P by apply valid_rnd_N. rewrite Rabs_pos_eq in C by lra.
        rewrite Rlt_bool_false by lra. reflexivity.
  - subst y. split; [exact Hn|]. destruct x as [|s| |]; try discriminate. cbn [ord]. unfold clamp.
    destruct s.
    + rewrite round_NE_opp, rnd32_inf. rewrite Rlt_bool_true, Rlt_bool_false by lra. reflexivity.
    + rewrite rnd32_inf. rewrite Rlt_bool_false by lra. reflexivity.
Qed.

(** Rounding to single keeps the order. *)
Theorem single_monotone x y : is_nan 53 1024 x = false -> is_nan 53 1024 y = false ->
  b64_lt y x = false -> b64_lt (unpack_f (pack_f y)) (unpack_f (pack_f x)) = false.
Proof.
  intros Hx Hy H. destruct (ord_single x Hx) as (Nx & Ox). destruct (ord_single y Hy) as (Ny & Oy).
  apply not_true_iff_false. rewrite b64_lt_ord by assumption. rewrite Ox, Oy.
  apply not_true_iff_false in H. rewrite b64_lt_ord in H by assumption.
  apply Rle_not_lt. apply clamp_monotone, rnd32_le. lra.
Qed.
