(** Python floats: IEEE-754 binary64 (Flocq's [binary64], with NaN payloads), and
    the conversion to and from the 32-bit patterns of native struct format 'f'
    (io.py: read_float, read_float3, read_matrix4, write_float, write_float3,
    write_matrix4).

    CPython's native 'f' unpacks with a C conversion float -> double and packs with
    a C cast double -> float. Modelled: widening is exact; narrowing rounds to
    nearest even and overflows to infinity; NaNs keep sign and the top payload bits
    and are made quiet (x86-64 SSE2 and AArch64 behaviour). NaNs produced by
    arithmetic take the payload of the first NaN operand, or Flocq's default one;
    no property below depends on that choice. *)
From Coq Require Import ZArith Reals Lia List Bool.
From Flocq Require Import Core IEEE754.Binary IEEE754.Bits.
From Verif Require Import Arith.
Open Scope Z_scope.

Lemma Hprec32 : FLX.Prec_gt_0 24. Proof. reflexivity. Qed.
Lemma Hmax32 : BinarySingleNaN.Prec_lt_emax 24 128. Proof. reflexivity. Qed.
Lemma Hprec64 : FLX.Prec_gt_0 53. Proof. reflexivity. Qed.
Lemma Hmax64 : BinarySingleNaN.Prec_lt_emax 53 1024. Proof. reflexivity. Qed.

(** Set the quiet bit of a 23-bit / 52-bit NaN payload. *)
Definition quiet32_pl (pl : positive) : positive :=
  if Zpos pl <? 2 ^ 22 then Z.to_pos (Zpos pl + 2 ^ 22) else pl.
Definition quiet64_pl (pl : positive) : positive :=
  if Zpos pl <? 2 ^ 51 then Z.to_pos (Zpos pl + 2 ^ 51) else pl.

Lemma nan_pl_lt prec pl : 0 < prec -> nan_pl prec pl = true <-> Zpos pl < 2 ^ (prec - 1).
Proof.
  intros Hp. unfold nan_pl. rewrite Z.ltb_lt.
  rewrite Digits.Zpos_digits2_pos.
  split; intros H.
  - assert (Zpos pl < Zpower Zaux.radix2 (prec - 1)) as H1; [|exact H1].
    replace (Z.pos pl) with (Z.abs (Z.pos pl)) by reflexivity.
    apply Digits.Zpower_gt_Zdigits. lia.
  - enough (Digits.Zdigits Zaux.radix2 (Z.pos pl) <= prec - 1) by lia.
    apply Digits.Zdigits_le_Zpower. simpl Z.abs. exact H.
Qed.

Lemma widen_pl_ok pl : nan_pl 24 pl = true ->
  nan_pl 53 (Z.to_pos (Zpos (quiet32_pl pl) * 2 ^ 29)) = true.
Proof.
  rewrite !nan_pl_lt by lia. unfold quiet32_pl. intros H.
  destruct (Z.ltb_spec (Zpos pl) (2 ^ 22)); rewrite !Z2Pos.id by lia; lia.
Qed.

Lemma quiet64_pl_bounds pl : nan_pl 53 pl = true ->
  2 ^ 51 <= Zpos (quiet64_pl pl) < 2 ^ 52.
Proof.
  rewrite !nan_pl_lt by lia. unfold quiet64_pl. intros H.
  destruct (Z.ltb_spec (Zpos pl) (2 ^ 51)); rewrite ?Z2Pos.id by lia; lia.
Qed.

Lemma narrow_pl_ok pl : nan_pl 53 pl = true ->
  nan_pl 24 (Z.to_pos (Zpos (quiet64_pl pl) / 2 ^ 29)) = true.
Proof.
  intros H. rewrite nan_pl_lt by lia.
  pose proof (quiet64_pl_bounds pl H) as Hb.
  assert (2 ^ 22 <= Zpos (quiet64_pl pl) / 2 ^ 29 < 2 ^ 23) as Hd.
  { split.
    - apply Z.div_le_lower_bound; lia.
    - apply Z.div_lt_upper_bound; lia. }
  rewrite Z2Pos.id by lia. lia.
Qed.

Definition widen (x : binary32) : binary64 :=
  match x with
  | B754_zero _ _ s => B754_zero _ _ s
  | B754_infinity _ _ s => B754_infinity _ _ s
  | B754_nan _ _ s pl H => B754_nan 53 1024 s _ (widen_pl_ok pl H)
  | B754_finite _ _ s m e _ =>
      binary_normalize 53 1024 Hprec64 Hmax64 BinarySingleNaN.mode_NE
                       (SpecFloat.cond_Zopp s (Zpos m)) e s
  end.

Definition narrow (x : binary64) : binary32 :=
  match x with
  | B754_zero _ _ s => B754_zero _ _ s
  | B754_infinity _ _ s => B754_infinity _ _ s
  | B754_nan _ _ s pl H => B754_nan 24 128 s _ (narrow_pl_ok pl H)
  | B754_finite _ _ s m e _ =>
      binary_normalize 24 128 Hprec32 Hmax32 BinarySingleNaN.mode_NE
                       (SpecFloat.cond_Zopp s (Zpos m)) e s
  end.

(** struct 'f' on 32-bit patterns. *)
Definition unpack_f (bits : Z) : binary64 := widen (b32_of_bits bits).
Definition pack_f (x : binary64) : Z := bits_of_b32 (narrow x).

(** math.sin / math.cos come from the C library: they are arbitrary functions here
    (theorems quantify over them). *)
Record libm := { lm_sin : binary64 -> binary64; lm_cos : binary64 -> binary64 }.

(** math.radians, Modules/mathmodule.c of CPython: [x * (pi / 180.0)] in doubles, with the
    constant 0x400921FB54442D18 for pi and 0x4066800000000000 for 180.0. *)
Definition deg_to_rad : binary64 :=
  b64_div BinarySingleNaN.mode_NE (b64_of_bits 4614256656552045848) (b64_of_bits 4640537203540230144).
Definition b64_radians (x : binary64) : binary64 := b64_mult BinarySingleNaN.mode_NE x deg_to_rad.

Definition b64_lt (x y : binary64) : bool :=
  match b64_compare x y with Some Lt => true | _ => false end.
Definition b64_eq (x y : binary64) : bool :=
  match b64_compare x y with Some Eq => true | _ => false end.

(** Double arithmetic, round to nearest even. *)
Definition f64 (L : libm) : arith binary64 :=
  {| f_zero := B754_zero 53 1024 false;
     f_two := b64_of_bits 4611686018427387904;   (* 0x4000000000000000 = 2.0 *)
     f_add := b64_plus BinarySingleNaN.mode_NE;
     f_sub := b64_minus BinarySingleNaN.mode_NE;
     f_mul := b64_mult BinarySingleNaN.mode_NE;
     f_div := b64_div BinarySingleNaN.mode_NE;
     f_lt := b64_lt;
     f_eq := b64_eq;
     f_finite := is_finite 53 1024;
     f_trig := fun x => is_finite 53 1024 x || is_nan 53 1024 x;
     f_sin := lm_sin L; f_cos := lm_cos L; f_radians := b64_radians |}.
