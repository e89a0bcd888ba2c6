(** Accuracy of translate and rotate in double arithmetic. *)
From Coq Require Import ZArith Reals List Bool Lia Lra Psatz.
From Flocq Require Import Core IEEE754.Binary IEEE754.Bits Relative Plus_error.
From Verif Require Import PyBase Struct Mesh Arith F64 RArith Edit Spec SpecF SpecEdit CodecFacts F64Facts TravFacts VertFacts RFacts SpecAcc.
Import ListNotations.
Open Scope R_scope.

#[local] Existing Instance Hprec64.
#[local] Existing Instance Hmax64.
Notation fexp64 := (SpecFloat.fexp 53 1024).
Notation rnd64 x := (round radix2 fexp64 ZnearestE x).
Notation u := half_ulp.
Notation eta := (bpow radix2 (-1075)).

Lemma u_val : u = / 9007199254740992.
Proof. unfold half_ulp. simpl. f_equal. Qed.
Lemma u_small : 0 < u <= / 9007199254740992.
Proof. rewrite u_val. lra. Qed.

Lemma val_format x : generic_format radix2 (FLT_exp (-1074) 53) (val x).
Proof. exact (generic_format_B2R 53 1024 x). Qed.

Lemma u_ro_u : u_ro radix2 53 = u.
Proof. unfold u_ro, half_ulp. change (/ 2) with (bpow radix2 (-1)). rewrite <- bpow_plus. reflexivity. Qed.

(** Rounded addition and multiplication. *)
Lemma plus_round x y : exists e, Rabs e <= u /\ rnd64 (val x + val y) = (val x + val y) * (1 + e).
Proof.
  destruct (FLT_plus_error_N_ex radix2 (-1074) 53 (fun z => negb (Z.even z)) (val x) (val y)
              (val_format x) (val_format y)) as (e & He & Hr).
  exists e. split; [|exact Hr]. eapply Rle_trans; [exact He|]. rewrite u_ro_u.
  pose proof u_small. apply Rmult_le_reg_r with (1 + u); [lra|]. unfold Rdiv.
  rewrite Rmult_assoc, Rinv_l by lra. nra.
Qed.

Lemma minus_round x y : exists e, Rabs e <= u /\ rnd64 (val x - val y) = (val x - val y) * (1 + e).
Proof.
  destruct (FLT_plus_error_N_ex radix2 (-1074) 53 (fun z => negb (Z.even z)) (val x) (- val y)
              (val_format x) (generic_format_opp _ _ _ (val_format y))) as (e & He & Hr).
  exists e. split; [|exact Hr]. eapply Rle_trans; [exact He|]. rewrite u_ro_u.
  pose proof u_small. apply Rmult_le_reg_r with (1 + u); [lra|]. unfold Rdiv.
  rewrite Rmult_assoc, Rinv_l by lra. nra.
Qed.

Lemma mult_round r : exists e h, Rabs e <= u /\ Rabs h <= eta /\ rnd64 r = r * (1 + e) + h.
Proof.
  destruct (error_N_FLT radix2 (-1074) 53 eq_refl (fun z => negb (Z.even z)) r) as (e & h & He & Hh & _ & Hr).
  exists e, h. repeat split; [| |exact Hr].
  - eapply Rle_trans; [exact He|]. right. unfold half_ulp. change (/ 2) with (bpow radix2 (-1)).
    rewrite <- bpow_plus. reflexivity.
  - eapply Rle_trans; [exact Hh|]. right. change (/ 2) with (bpow radix2 (-1)).
    rewrite <- bpow_plus. reflexivity.
Qed.

Lemma below r : Rabs r < bpow radix2 1024 -> Rlt_bool (Rabs r) (bpow radix2 1024) = true.
Proof. intros H. now apply Rlt_bool_true. Qed.

(** Flocq's correctness statements, for the operations of [f64]. *)
Lemma add_spec L x y : finite x -> finite y ->
  if Rlt_bool (Rabs (rnd64 (val x + val y))) (bpow radix2 1024)
  then val (f_add (f64 L) x y) = rnd64 (val x + val y) /\ finite (f_add (f64 L) x y)
  else ~ finite (f_add (f64 L) x y).
Proof.
  intros Hx Hy. cbn [f64 f_add]. unfold b64_plus, finite, val.
  match goal with |- context [Bplus 53 1024 ?P ?M _ _ _ _] =>
    pose proof (Bplus_correct 53 1024 P M binop_nan_pl64 BinarySingleNaN.mode_NE x y Hx Hy) as C end.
  simpl BinarySingleNaN.round_mode in C. destruct (Rlt_bool _ _); [tauto|].
  destruct C as [C _]. rewrite <- is_finite_B2FF, C. discriminate.
Qed.
Lemma sub_spec L x y : finite x -> finite y ->
  if Rlt_bool (Rabs (rnd64 (val x - val y))) (bpow radix2 1024)
  then val (f_sub (f64 L) x y) = rnd64 (val x - val y) /\ finite (f_sub (f64 L) x y)
  else ~ finite (f_sub (f64 L) x y).
Proof.
  intros Hx Hy. cbn [f64 f_sub]. unfold b64_minus, finite, val.
  match goal with |- context [Bminus 53 1024 ?P ?M _ _ _ _] =>
    pose proof (Bminus_correct 53 1024 P M binop_nan_pl64 BinarySingleNaN.mode_NE x y Hx Hy) as C end.
  simpl BinarySingleNaN.round_mode in C. destruct (Rlt_bool _ _); [tauto|].
  destruct C as [C _]. rewrite <- is_finite_B2FF, C. discriminate.
Qed.
Lemma mul_spec L x y : finite x -> finite y ->
  if Rlt_bool (Rabs (rnd64 (val x * val y))) (bpow radix2 1024)
  then val (f_mul (f64 L) x y) = rnd64 (val x * val y) /\ finite (f_mul (f64 L) x y)
  else ~ finite (f_mul (f64 L) x y).
Proof.
  intros Hx Hy. cbn [f64 f_mul]. unfold b64_mult, finite, val.
  match goal with |- context [Bmult 53 1024 ?P ?M _ _ _ _] =>
    pose proof (Bmult_correct 53 1024 P M binop_nan_pl64 BinarySingleNaN.mode_NE x y) as C end.
  simpl BinarySingleNaN.round_mode in C. destruct (Rlt_bool _ _).
  - destruct C as (C1 & C2 & _). rewrite Hx, Hy in C2. auto.
  - rewrite <- is_finite_B2FF, C. discriminate.
Qed.

(** A finite sum has finite summands. *)
Lemma plus_finite_inv L x y : finite (f_add (f64 L) x y) -> finite x /\ finite y.
Proof.
  unfold finite. intros H. destruct x as [s|s|s pl Hp|s m e Hm], y as [s'|s'|s' pl' Hp'|s' m' e' Hm'];
    try (split; reflexivity); exfalso; revert H; cbn [f64 f_add]; unfold b64_plus, Bplus;
    try (destruct binop_nan_pl64 as [? ?]; simpl); simpl; try (destruct (Bool.eqb s s'); simpl); try discriminate.
Qed.

Lemma plus_val L x y : finite (f_add (f64 L) x y) ->
  val (f_add (f64 L) x y) = rnd64 (val x + val y).
Proof.
  intros H. destruct (plus_finite_inv L x y H) as [Hx Hy].
  pose proof (add_spec L x y Hx Hy) as C. destruct (Rlt_bool _ _); tauto.
Qed.

Lemma plus_ok L x y : finite x -> finite y -> Rabs (val x + val y) <= bpow radix2 1023 ->
  finite (f_add (f64 L) x y) /\ val (f_add (f64 L) x y) = rnd64 (val x + val y).
Proof.
  intros Hx Hy B.
  pose proof (add_spec L x y Hx Hy) as C.
  rewrite below in C.
  - tauto.
  - destruct (plus_round x y) as (e & He & Hr).
    rewrite Hr, Rabs_mult. pose proof u_small.
    assert (Rabs (1 + e) <= 3 / 2) by (apply Rabs_le; apply Rabs_le_inv in He; lra).
    apply Rle_lt_trans with (bpow radix2 1023 * (3 / 2)).
    + apply Rmult_le_compat; auto using Rabs_pos.
    + change (bpow radix2 1024) with (bpow radix2 (1023 + 1)). rewrite bpow_plus.
      apply Rmult_lt_compat_l; [apply bpow_gt_0|]. simpl. lra.
Qed.

Lemma minus_ok L x y : finite x -> finite y -> Rabs (val x - val y) <= bpow radix2 1023 ->
  finite (f_sub (f64 L) x y) /\ val (f_sub (f64 L) x y) = rnd64 (val x - val y).
Proof.
  intros Hx Hy B.
  pose proof (sub_spec L x y Hx Hy) as C.
  rewrite below in C.
  - tauto.
  - destruct (minus_round x y) as (e & He & Hr).
    rewrite Hr, Rabs_mult. pose proof u_small.
    assert (Rabs (1 + e) <= 3 / 2) by (apply Rabs_le; apply Rabs_le_inv in He; lra).
    apply Rle_lt_trans with (bpow radix2 1023 * (3 / 2)).
    + apply Rmult_le_compat; auto using Rabs_pos.
    + change (bpow radix2 1024) with (bpow radix2 (1023 + 1)). rewrite bpow_plus.
      apply Rmult_lt_compat_l; [apply bpow_gt_0|]. simpl. lra.
Qed.

Lemma eta_small : 0 < eta <= / 9007199254740992.
Proof.
  split; [apply bpow_gt_0|]. apply Rle_trans with u; [|apply u_small].
  unfold half_ulp. apply bpow_le. lia.
Qed.
Lemma big_1010 : 1 <= bpow radix2 1010.
Proof. change 1 with (bpow radix2 0). apply bpow_le. lia. Qed.

Lemma mult_ok L x y : finite x -> finite y -> Rabs (val x * val y) <= bpow radix2 1010 ->
  finite (f_mul (f64 L) x y) /\ val (f_mul (f64 L) x y) = rnd64 (val x * val y).
Proof.
  intros Hx Hy B.
  pose proof (mul_spec L x y Hx Hy) as C.
  rewrite below in C.
  - tauto.
  - destruct (mult_round (val x * val y)) as (e & h & He & Hh & Hr).
    rewrite Hr. pose proof u_small. pose proof eta_small. pose proof big_1010.
    assert (Rabs (1 + e) <= 2) by (apply Rabs_le; apply Rabs_le_inv in He; lra).
    apply Rle_lt_trans with (bpow radix2 1010 * 4).
    + eapply Rle_trans; [apply Rabs_triang|]. rewrite Rabs_mult.
      assert (Rabs (val x * val y) * Rabs (1 + e) <= bpow radix2 1010 * 2)
        by (apply Rmult_le_compat; auto using Rabs_pos). lra.
    + change 4 with (bpow radix2 2). rewrite <- bpow_plus. apply bpow_lt. reflexivity.
Qed.

(** ** translate *)
Lemma opp_val x : finite x -> finite (b64_opp x) /\ val (b64_opp x) = - val x.
Proof.
  intros H. unfold finite, val, b64_opp. split; [now rewrite is_finite_Bopp|apply B2R_Bopp].
Qed.
Lemma opp_finite x : finite (b64_opp x) -> finite x.
Proof. unfold finite, b64_opp. now rewrite is_finite_Bopp. Qed.

Lemma add_rounded L x d : finite (f_add (f64 L) x d) ->
  finite x /\ finite d /\ rounded (f_add (f64 L) x d) (val x + val d).
Proof.
  intros H. destruct (plus_finite_inv L x d H) as [Hx Hd]. split; [exact Hx|]. split; [exact Hd|].
  red. rewrite (plus_val L x d H). destruct (plus_round x d) as (e & He & ->).
  replace ((val x + val d) * (1 + e) - (val x + val d)) with (e * (val x + val d)) by ring.
  rewrite Rabs_mult. apply Rmult_le_compat_r; auto using Rabs_pos.
Qed.

Lemma add_undo L x d : finite (f_add (f64 L) (f_add (f64 L) x d) (b64_opp d)) ->
  finite x /\ finite d /\
  Rabs (val (f_add (f64 L) (f_add (f64 L) x d) (b64_opp d)) - val x)
    <= u * (Rabs (val x) + (1 + u) * Rabs (val x + val d)).
Proof.
  intros H. set (x' := f_add (f64 L) x d) in *. pose proof (plus_val L _ _ H) as E2.
  destruct (plus_finite_inv L _ _ H) as [Hx' _]. pose proof (plus_val L _ _ Hx') as E1.
  destruct (plus_finite_inv L _ _ Hx') as [Hx Hd]. split; [exact Hx|]. split; [exact Hd|].
  destruct (plus_round x d) as (e1 & He1 & R1). destruct (plus_round x' (b64_opp d)) as (e2 & He2 & R2).
  fold x' in E1. rewrite R1 in E1. rewrite R2 in E2. rewrite E2, (proj2 (opp_val d Hd)), E1.
  set (a := val x). set (s := a + val d).
  replace ((s * (1 + e1) + - val d) * (1 + e2) - a) with (e1 * s + e2 * a + e2 * e1 * s)
    by (unfold s; ring).
  pose proof u_small. eapply Rle_trans; [apply Rabs_triang|]. eapply Rle_trans; [apply Rplus_le_compat_r, Rabs_triang|].
  rewrite !Rabs_mult. pose proof (Rabs_pos s). pose proof (Rabs_pos a). pose proof (Rabs_pos e1). pose proof (Rabs_pos e2).
  assert (Rabs e1 * Rabs s <= u * Rabs s) by (apply Rmult_le_compat_r; auto).
  assert (Rabs e2 * Rabs a <= u * Rabs a) by (apply Rmult_le_compat_r; auto).
  assert (Rabs e2 * Rabs e1 * Rabs s <= u * u * Rabs s).
  { apply Rmult_le_compat_r; auto. apply Rmult_le_compat; auto. }
  lra.
Qed.

Lemma grid_add_format e x d : (-1074 <= e)%Z -> on_grid e x -> on_grid e d ->
  Rabs (val x + val d) < bpow radix2 (e + 53) ->
  generic_format radix2 fexp64 (val x + val d).
Proof.
  intros He (k & Ek) (l & El) B. apply (generic_format_FLT radix2 (-1074) 53).
  exists (Float radix2 (k + l) e).
  - unfold F2R. simpl. rewrite plus_IZR, Ek, El. ring.
  - rewrite Ek, El, <- Rmult_plus_distr_r, <- plus_IZR, Rabs_mult, (Rabs_pos_eq (bpow _ _)) in B by apply bpow_ge_0.
    rewrite bpow_plus, (Rmult_comm (bpow radix2 e)) in B. apply Rmult_lt_reg_r in B; [|apply bpow_gt_0].
    simpl Fnum. rewrite <- abs_IZR in B. apply lt_IZR. exact B.
  - exact He.
Qed.

Lemma grid_opp e x : finite x -> on_grid e x -> on_grid e (b64_opp x).
Proof.
  intros Hf (k & E). exists (- k)%Z. rewrite (proj2 (opp_val x Hf)), E, opp_IZR. ring.
Qed.

Lemma grid_add L e x d : (-1074 <= e <= 970)%Z -> finite x -> finite d -> on_grid e x -> on_grid e d ->
  Rabs (val x + val d) < bpow radix2 (e + 53) ->
  finite (f_add (f64 L) x d) /\ val (f_add (f64 L) x d) = val x + val d /\ on_grid e (f_add (f64 L) x d).
Proof.
  intros He Hx Hd Gx Gd B. destruct (plus_ok L x d Hx Hd) as [Hf Hv].
  { apply Rlt_le. eapply Rlt_le_trans; [exact B|]. apply bpow_le. lia. }
  rewrite round_generic in Hv; [|apply valid_rnd_N|apply (grid_add_format e); auto; lia].
  split; [exact Hf|]. split; [exact Hv|]. destruct Gx as (k & Ek), Gd as (l & El).
  exists (k + l)%Z. rewrite Hv, Ek, El, plus_IZR. ring.
Qed.

Lemma moved_at_eq L m off c d x : moved_at m off c d ->
  moved (f64 L) (position_start m) off c x = f_add (f64 L) x d.
Proof.
  intros (Hc & Hd). unfold moved. rewrite (proj2 (Nat.leb_le _ _) Hc), Hd. reflexivity.
Qed.

Theorem translate_accuracy L vs m off m' :
  vertex_size m = Ok (Z.of_nat vs) -> (0 < vs)%nat -> tiled_vertices vs m -> short_offsets m ->
  translate (f64 L) m off = (m', None) ->
  forall j c x d, (c < vs)%nat -> nth_error (vertices m) (j * vs + c) = Some x -> moved_at m off c d ->
  exists x', nth_error (vertices m') (j * vs + c) = Some x' /\
    (finite x' -> finite x /\ finite d /\ rounded x' (val x + val d)) /\
    (finite x -> finite d -> Rabs (val x + val d) <= bpow radix2 1023 -> finite x').
Proof.
  intros Hs Hv T Ho H j c x d Hc Hx Hd.
  destruct (translate_packed (f64 L) vs m off m' Hs Hv T Ho H) as (_ & _ & N).
  specialize (N j c x Hc Hx). rewrite (moved_at_eq L m off c d x Hd) in N.
  eexists. split; [exact N|]. split; [apply add_rounded|]. intros Fx Fd B.
  exact (proj1 (plus_ok L x d Fx Fd B)).
Qed.

Lemma undo_twice L vs m off m1 m2 :
  vertex_size m = Ok (Z.of_nat vs) -> (0 < vs)%nat -> tiled_vertices vs m -> short_offsets m ->
  translate (f64 L) m off = (m1, None) -> translate (f64 L) m1 (map b64_opp off) = (m2, None) ->
  forall j c x d, (c < vs)%nat -> nth_error (vertices m) (j * vs + c) = Some x -> moved_at m off c d ->
  nth_error (vertices m2) (j * vs + c) = Some (f_add (f64 L) (f_add (f64 L) x d) (b64_opp d)).
Proof.
  intros Hs Hv T Ho H1 H2 j c x d Hc Hx Hd.
  destruct (translate_packed (f64 L) vs m off m1 Hs Hv T Ho H1) as (S1 & L1 & N1).
  destruct (translate_packed (f64 L) vs m1 (map b64_opp off) m2) as (S2 & L2 & N2); auto.
  { now rewrite (same_size m m1). } { now apply (same_tiled vs m m1). } { now apply (same_short m m1). }
  specialize (N1 j c x Hc Hx). rewrite (moved_at_eq L m off c d x Hd) in N1.
  rewrite (N2 j c _ Hc N1). f_equal. apply (moved_at_eq L m1). split.
  - rewrite (same_position m m1 S1). apply Hd.
  - rewrite (same_position m m1 S1), nth_error_map, (proj2 Hd). reflexivity.
Qed.

Theorem translate_undo_accuracy L vs m off m1 :
  vertex_size m = Ok (Z.of_nat vs) -> (0 < vs)%nat -> tiled_vertices vs m -> short_offsets m ->
  translate (f64 L) m off = (m1, None) ->
  exists m2, translate (f64 L) m1 (map b64_opp off) = (m2, None) /\ same_but_vertices m m2 /\
  forall j c x, (c < vs)%nat -> nth_error (vertices m) (j * vs + c) = Some x ->
  exists x', nth_error (vertices m2) (j * vs + c) = Some x' /\
    ((forall d, ~ moved_at m off c d) -> x' = x) /\
    forall d, moved_at m off c d -> finite x' ->
      finite x /\ finite d /\
      Rabs (val x' - val x) <= half_ulp * (Rabs (val x) + (1 + half_ulp) * Rabs (val x + val d)).
Proof.
  intros Hs Hv T Ho H1. destruct (translate_packed (f64 L) vs m off m1 Hs Hv T Ho H1) as (S1 & L1 & N1).
  destruct (translate_again (f64 L) vs m off m1 (map b64_opp off) m1 Hs Hv T Ho H1 S1 L1) as (m2 & H2).
  { apply map_length. }
  exists m2. split; [exact H2|].
  destruct (translate_packed (f64 L) vs m1 (map b64_opp off) m2) as (S2 & L2 & N2); auto.
  { now rewrite (same_size m m1). } { now apply (same_tiled vs m m1). } { now apply (same_short m m1). }
  split; [now apply (same_but_trans m m1)|].
  intros j c x Hc Hx. specialize (N1 j c x Hc Hx). specialize (N2 j c _ Hc N1).
  eexists. split; [exact N2|]. split.
  - intros Hno. rewrite (same_position m m1 S1). unfold moved. destruct (_ <=? c)%nat eqn:El; [|reflexivity].
    rewrite nth_error_map. destruct (nth_error off (c - position_start m)) as [d|] eqn:Ed; [|reflexivity].
    exfalso. apply (Hno d). split; [now apply Nat.leb_le|exact Ed].
  - intros d Hd Hf. rewrite (undo_twice L vs m off m1 m2 Hs Hv T Ho H1 H2 j c x d Hc Hx Hd) in N2.
    injection N2 as E. rewrite <- E in *. now apply (add_undo L).
Qed.

Theorem translate_grid L vs m off m1 e :
  vertex_size m = Ok (Z.of_nat vs) -> (0 < vs)%nat -> tiled_vertices vs m -> short_offsets m ->
  (-1074 <= e <= 970)%Z -> translate (f64 L) m off = (m1, None) ->
  exists m2, translate (f64 L) m1 (map b64_opp off) = (m2, None) /\
  forall j c x d, (c < vs)%nat -> nth_error (vertices m) (j * vs + c) = Some x -> moved_at m off c d ->
    finite x -> finite d -> on_grid e x -> on_grid e d ->
    Rabs (val x) < bpow radix2 (e + 53) -> Rabs (val x + val d) < bpow radix2 (e + 53) ->
    exists x1 x2, nth_error (vertices m1) (j * vs + c) = Some x1 /\ val x1 = val x + val d /\
                  nth_error (vertices m2) (j * vs + c) = Some x2 /\ val x2 = val x.
Proof.
  intros Hs Hv T Ho He H1. destruct (translate_undo_accuracy L vs m off m1 Hs Hv T Ho H1) as (m2 & H2 & _).
  exists m2. split; [exact H2|]. intros j c x d Hc Hx Hd Fx Fd Gx Gd Bx Bs.
  pose proof (undo_twice L vs m off m1 m2 Hs Hv T Ho H1 H2 j c x d Hc Hx Hd) as E2.
  destruct (translate_packed (f64 L) vs m off m1 Hs Hv T Ho H1) as (_ & _ & N1).
  specialize (N1 j c x Hc Hx). rewrite (moved_at_eq L m off c d x Hd) in N1.
  destruct (grid_add L e x d He Fx Fd Gx Gd Bs) as (F1 & V1 & G1).
  destruct (opp_val d Fd) as (Fo & Vo).
  assert (val (f_add (f64 L) x d) + val (b64_opp d) = val x) as ES by (rewrite V1, Vo; ring).
  destruct (grid_add L e (f_add (f64 L) x d) (b64_opp d) He F1 Fo G1 (grid_opp e d Fd Gd)) as (F2 & V2 & _).
  { now rewrite ES. }
  exists (f_add (f64 L) x d), (f_add (f64 L) (f_add (f64 L) x d) (b64_opp d)).
  split; [exact N1|]. split; [exact V1|]. split; [exact E2|]. rewrite V2. exact ES.
Qed.

(** ** rotate *)
Lemma big_prod a b M N : Rabs a <= M -> Rabs b <= N -> Rabs (a * b) <= M * N.
Proof. intros. rewrite Rabs_mult. apply Rmult_le_compat; auto using Rabs_pos. Qed.

(** A product with a perturbed sine or cosine. *)
Lemma mul_near L x c C d M : finite x -> finite c -> Rabs (val c - C) <= d -> Rabs C <= 1 ->
  0 <= d <= / 8 -> Rabs (val x) <= M -> M <= bpow radix2 1009 ->
  finite (f_mul (f64 L) x c) /\
  Rabs (val (f_mul (f64 L) x c) - val x * C) <= M * (d + 5 / 4 * u) + eta.
Proof.
  intros Fx Fc Hc HC Hd Hx HM. pose proof u_small.
  assert (Rabs (val c) <= 9 / 8) as Bc.
  { replace (val c) with (C + (val c - C)) by ring. eapply Rle_trans; [apply Rabs_triang|]. lra. }
  pose proof (Rabs_pos (val x)).
  assert (Rabs (val x * val c) <= M * (9 / 8)) as BP by (apply big_prod; auto).
  destruct (mult_ok L x c Fx Fc) as [F V].
  { change (bpow radix2 1010) with (bpow radix2 (1009 + 1)). rewrite bpow_plus. simpl (bpow radix2 1). lra. }
  split; [exact F|]. rewrite V. destruct (mult_round (val x * val c)) as (e & h & He & Hh & ->).
  replace (val x * val c * (1 + e) + h - val x * C) with (val x * (val c - C) + (val x * val c) * e + h) by ring.
  eapply Rle_trans; [apply Rabs_triang|]. apply Rplus_le_compat; [|exact Hh].
  eapply Rle_trans; [apply Rabs_triang|].
  pose proof (big_prod (val x) (val c - C) M d Hx Hc). pose proof (big_prod _ e _ u BP He). nra.
Qed.

(** One plane rotation: [x*c - y*s] and [x*s + y*c]. *)
Section Plane.
Variables (L : libm) (x y c s : binary64) (X Y C S d M E : R).
Hypotheses (Fx : finite x) (Fy : finite y) (Fc : finite c) (Fs : finite s)
  (Hc : Rabs (val c - C) <= d) (Hs : Rabs (val s - S) <= d) (HC : Rabs C <= 1) (HS : Rabs S <= 1)
  (Hd : 0 <= d <= / 8) (Hx : Rabs (val x) <= M) (Hy : Rabs (val y) <= M) (HM : M <= bpow radix2 1009)
  (HX : Rabs (val x - X) <= E) (HY : Rabs (val y - Y) <= E).
Let k := 2 * d + 5 * u.

Lemma M_pos : 0 <= M.
Proof. eapply Rle_trans; [apply Rabs_pos|exact Hx]. Qed.

Lemma sum_near p q P Q : finite p -> finite q ->
  Rabs (val p - P) <= M * (d + 5 / 4 * u) + eta -> Rabs (val q - Q) <= M * (d + 5 / 4 * u) + eta ->
  Rabs P <= M -> Rabs Q <= M ->
  (finite (f_add (f64 L) p q) /\ Rabs (val (f_add (f64 L) p q) - (P + Q)) <= M * k + 4 * eta) /\
  (finite (f_sub (f64 L) p q) /\ Rabs (val (f_sub (f64 L) p q) - (P - Q)) <= M * k + 4 * eta).
Proof.
  intros Fp Fq Hp Hq BP BQ. pose proof u_small. pose proof eta_small. pose proof M_pos. pose proof big_1010.
  set (D := M * (d + 5 / 4 * u) + eta) in *.
  assert (bpow radix2 1010 = 2 * bpow radix2 1009) as EB.
  { transitivity (bpow radix2 1009 * bpow radix2 1); [exact (bpow_plus radix2 1009 1)|]. apply Rmult_comm. }
  assert (bpow radix2 1010 * 8 <= bpow radix2 1023) as EB2.
  { change 8 with (bpow radix2 3). rewrite <- bpow_plus. apply bpow_le. lia. }
  assert (D <= M * (/ 4) + 1) as BD by (unfold D; nra).
  assert (forall r, Rabs (r) <= 2 * M + 2 * D -> r * 0 = 0 /\ Rabs r <= bpow radix2 1023) as Big.
  { intros r Hr. split; [ring|]. lra. }
  assert (forall a b A B e, Rabs (a - A) <= D -> Rabs (b - B) <= D -> Rabs A <= M -> Rabs B <= M -> Rabs e <= u ->
            Rabs (a + b) <= 2 * M + 2 * D /\ Rabs ((a + b) * (1 + e) - (A + B)) <= M * k + 4 * eta) as G.
  { intros a b A B e Ha Hb HA HB He.
    assert (Rabs (a + b) <= 2 * M + 2 * D) as B1.
    { apply Rabs_le. apply Rabs_le_inv in Ha, Hb, HA, HB. lra. }
    split; [exact B1|].
    replace ((a + b) * (1 + e) - (A + B)) with ((a - A) + (b - B) + (a + b) * e) by ring.
    eapply Rle_trans; [apply Rabs_triang|]. pose proof (big_prod (a + b) e _ u B1 He) as B2.
    pose proof (Rabs_triang (a - A) (b - B)) as B3.
    apply Rle_trans with (D + D + (2 * M + 2 * D) * u); [lra|].
    assert (D <= M * (3 / 16) + eta) as BD2.
    { unfold D. apply Rplus_le_compat_r, Rmult_le_compat_l; lra. }
    assert (D * u <= (M * (3 / 16) + eta) * u) as BD3 by (apply Rmult_le_compat_r; lra).
    assert (0 <= M * u) by (apply Rmult_le_pos; lra).
    assert (0 <= eta * u <= eta * / 2) by (split; [apply Rmult_le_pos; lra|apply Rmult_le_compat_l; lra]).
    unfold k. replace (D + D) with (2 * (M * d) + 5 / 2 * (M * u) + 2 * eta) by (unfold D; field). lra. }
  split.
  - destruct (plus_round p q) as (e & He & Hr).
    destruct (G (val p) (val q) P Q e Hp Hq BP BQ He) as [G1 G2]. destruct (Big _ G1) as [_ BB].
    destruct (plus_ok L p q Fp Fq BB) as [Ff Fv]. split; [exact Ff|]. rewrite Fv, Hr. exact G2.
  - destruct (minus_round p q) as (e & He & Hr).
    destruct (G (val p) (- val q) P (- Q) e Hp) as [G1 G2]; auto.
    { replace (- val q - - Q) with (- (val q - Q)) by ring. now rewrite Rabs_Ropp. }
    { now rewrite Rabs_Ropp. }
    destruct (Big _ G1) as [_ BB]. destruct (minus_ok L p q Fp Fq BB) as [Ff Fv]. split; [exact Ff|]. rewrite Fv, Hr. exact G2.
Qed.

Lemma shift_near a A B e1 : Rabs (a - A) <= e1 -> Rabs (A - B) <= 2 * E -> Rabs (a - B) <= 2 * E + e1.
Proof. intros H1 H2. replace (a - B) with ((a - A) + (A - B)) by ring. eapply Rle_trans; [apply Rabs_triang|]. lra. Qed.

Lemma drift (sg : R) C' S' : Rabs sg <= 1 -> Rabs C' <= 1 -> Rabs S' <= 1 ->
  Rabs (val x * C' + sg * (val y * S') - (X * C' + sg * (Y * S'))) <= 2 * E.
Proof.
  intros Hg HC' HS'.
  replace (val x * C' + sg * (val y * S') - (X * C' + sg * (Y * S')))
    with ((val x - X) * C' + (val y - Y) * (sg * S')) by ring.
  eapply Rle_trans; [apply Rabs_triang|].
  pose proof (big_prod _ _ _ _ HX HC'). pose proof (big_prod _ _ _ _ HY (big_prod _ _ _ _ Hg HS')). lra.
Qed.

Lemma plane :
  (finite (f_sub (f64 L) (f_mul (f64 L) x c) (f_mul (f64 L) y s)) /\
   Rabs (val (f_sub (f64 L) (f_mul (f64 L) x c) (f_mul (f64 L) y s)) - (X * C - Y * S)) <= 2 * E + (M * k + 4 * eta)) /\
  (finite (f_add (f64 L) (f_mul (f64 L) x s) (f_mul (f64 L) y c)) /\
   Rabs (val (f_add (f64 L) (f_mul (f64 L) x s) (f_mul (f64 L) y c)) - (X * S + Y * C)) <= 2 * E + (M * k + 4 * eta)) /\
  (finite (f_add (f64 L) (f_mul (f64 L) y c) (f_mul (f64 L) x s)) /\
   Rabs (val (f_add (f64 L) (f_mul (f64 L) y c) (f_mul (f64 L) x s)) - (Y * C + X * S)) <= 2 * E + (M * k + 4 * eta)).
Proof.
  destruct (mul_near L x c C d M Fx Fc Hc HC Hd Hx HM) as [F1 N1].
  destruct (mul_near L y s S d M Fy Fs Hs HS Hd Hy HM) as [F2 N2].
  destruct (mul_near L x s S d M Fx Fs Hs HS Hd Hx HM) as [F3 N3].
  destruct (mul_near L y c C d M Fy Fc Hc HC Hd Hy HM) as [F4 N4].
  assert (forall a b, Rabs a <= M -> Rabs b <= 1 -> Rabs (a * b) <= M) as One.
  { intros a b Ha Hb. pose proof (big_prod a b M 1 Ha Hb). lra. }
  destruct (sum_near _ _ _ _ F1 F2 N1 N2 (One _ _ Hx HC) (One _ _ Hy HS)) as [_ [G1 G2]].
  destruct (sum_near _ _ _ _ F3 F4 N3 N4 (One _ _ Hx HS) (One _ _ Hy HC)) as [[G3 G4] _].
  destruct (sum_near _ _ _ _ F4 F3 N4 N3 (One _ _ Hy HC) (One _ _ Hx HS)) as [[G5 G6] _].
  repeat apply conj; try assumption.
  - eapply shift_near; [exact G2|]. pose proof (drift (-1) C S ltac:(apply Rabs_le; lra) HC HS) as D.
    replace (val x * C - val y * S - (X * C - Y * S))
      with (val x * C + -1 * (val y * S) - (X * C + -1 * (Y * S))) by ring. exact D.
  - eapply shift_near; [exact G4|]. pose proof (drift 1 S C ltac:(apply Rabs_le; lra) HS HC) as D.
    replace (val x * S + val y * C - (X * S + Y * C))
      with (val x * S + 1 * (val y * C) - (X * S + 1 * (Y * C))) by ring. exact D.
  - eapply shift_near; [exact G6|]. pose proof (drift 1 S C ltac:(apply Rabs_le; lra) HS HC) as D.
    replace (val y * C + val x * S - (Y * C + X * S))
      with (val x * S + 1 * (val y * C) - (X * S + 1 * (Y * C))) by ring. exact D.
Qed.
End Plane.

Lemma norm_dot v : norm v = sqrt (dot v v).
Proof. destruct v as ((x, y), z). reflexivity. Qed.
Lemma norm_comp x y z N : norm (x, y, z) <= N -> Rabs x <= N /\ Rabs y <= N /\ Rabs z <= N.
Proof.
  intros H. assert (forall a b c, x * x + y * y + z * z = a * a + b * b + c * c -> Rabs a <= N) as G.
  { intros a b c E. eapply Rle_trans; [|exact H]. simpl norm. rewrite E. rewrite <- sqrt_Rsqr_abs. apply sqrt_le_1_alt.
    unfold Rsqr. nra. }
  split; [apply (G x y z)|split; [apply (G y x z)|apply (G z x y)]]; ring.
Qed.

Lemma cos_le1 t : Rabs (cos t) <= 1. Proof. apply Rabs_le. pose proof (COS_bound t). lra. Qed.
Lemma sin_le1 t : Rabs (sin t) <= 1. Proof. apply Rabs_le. pose proof (SIN_bound t). lra. Qed.

Lemma near_abs a b E N : Rabs (a - b) <= E -> Rabs b <= N -> Rabs a <= N + E.
Proof. intros. replace a with ((a - b) + b) by ring. eapply Rle_trans; [apply Rabs_triang|]. lra. Qed.

(** The cosine and sine of an angle in degrees, as the code gets them. *)
Definition angle_within (d : R) (L : libm) (a : binary64) : Prop :=
  finite (lm_cos L (b64_radians a)) /\ finite (lm_sin L (b64_radians a)) /\
  Rabs (val (lm_cos L (b64_radians a)) - cos (val a * PI / 180)) <= d /\
  Rabs (val (lm_sin L (b64_radians a)) - sin (val a * PI / 180)) <= d.

Section Turn.
Variables (L : libm) (d N : R).
Hypotheses (Hd : 0 <= d <= / 8) (HN : 0 <= N <= bpow radix2 1000).
Let k := 2 * d + 5 * u.
Let next E := 2 * E + ((N + E) * k + 4 * eta).

Lemma stage_grow E : 0 <= E -> E <= next E.
Proof.
  intros HE. pose proof u_small. pose proof eta_small. unfold next, k.
  assert (0 <= (N + E) * (2 * d + 5 * u)) by (apply Rmult_le_pos; lra). lra.
Qed.

Ltac setup q Q E H := destruct q as ((x, y), z), Q as ((X, Y), Z); destruct H as (W1 & W2 & W3).

Lemma roll_near a q Q E : angle_within d L a -> finite3 q -> norm Q <= N -> within E (val3 q) Q ->
  0 <= E -> N + E <= bpow radix2 1009 ->
  finite3 (roll_by (f64 L) (f_radians (f64 L) a) q) /\
  within (next E) (val3 (roll_by (f64 L) (f_radians (f64 L) a) q)) (roll_by exact (f_radians exact (val a)) Q).
Proof.
  intros (Fc & Fs & Hc & Hs) F HQ W HE HB. destruct q as ((x, y), z), Q as ((X, Y), Z).
  destruct F as (Fx & Fy & Fz), W as (W1 & W2 & W3). destruct (norm_comp _ _ _ _ HQ) as (BX & BY & BZ).
  destruct (plane L x y _ _ X Y _ _ d (N + E) E Fx Fy Fc Fs Hc Hs (cos_le1 _) (sin_le1 _) Hd
             (near_abs _ _ _ _ W1 BX) (near_abs _ _ _ _ W2 BY) HB W1 W2) as ((G1 & G2) & (G3 & G4) & _).
  split; [repeat split; assumption|]. split; [exact G2|]. split; [exact G4|].
  eapply Rle_trans; [exact W3|]. now apply stage_grow.
Qed.

Lemma pitch_near a q Q E : angle_within d L a -> finite3 q -> norm Q <= N -> within E (val3 q) Q ->
  0 <= E -> N + E <= bpow radix2 1009 ->
  finite3 (pitch_by (f64 L) (f_radians (f64 L) a) q) /\
  within (next E) (val3 (pitch_by (f64 L) (f_radians (f64 L) a) q)) (pitch_by exact (f_radians exact (val a)) Q).
Proof.
  intros (Fc & Fs & Hc & Hs) F HQ W HE HB. destruct q as ((x, y), z), Q as ((X, Y), Z).
  destruct F as (Fx & Fy & Fz), W as (W1 & W2 & W3). destruct (norm_comp _ _ _ _ HQ) as (BX & BY & BZ).
  destruct (plane L y z _ _ Y Z _ _ d (N + E) E Fy Fz Fc Fs Hc Hs (cos_le1 _) (sin_le1 _) Hd
             (near_abs _ _ _ _ W2 BY) (near_abs _ _ _ _ W3 BZ) HB W2 W3) as ((G1 & G2) & (G3 & G4) & _).
  split; [repeat split; assumption|]. split; [|split; [exact G2|exact G4]].
  eapply Rle_trans; [exact W1|]. now apply stage_grow.
Qed.

Lemma yaw_near a q Q E : angle_within d L a -> finite3 q -> norm Q <= N -> within E (val3 q) Q ->
  0 <= E -> N + E <= bpow radix2 1009 ->
  finite3 (yaw_by (f64 L) (f_radians (f64 L) a) q) /\
  within (next E) (val3 (yaw_by (f64 L) (f_radians (f64 L) a) q)) (yaw_by exact (f_radians exact (val a)) Q).
Proof.
  intros (Fc & Fs & Hc & Hs) F HQ W HE HB. destruct q as ((x, y), z), Q as ((X, Y), Z).
  destruct F as (Fx & Fy & Fz), W as (W1 & W2 & W3). destruct (norm_comp _ _ _ _ HQ) as (BX & BY & BZ).
  destruct (plane L z x _ _ Z X _ _ d (N + E) E Fz Fx Fc Fs Hc Hs (cos_le1 _) (sin_le1 _) Hd
             (near_abs _ _ _ _ W3 BZ) (near_abs _ _ _ _ W1 BX) HB W3 W1) as ((G1 & G2) & _ & (G3 & G4)).
  split; [repeat split; assumption|]. split; [exact G4|]. split; [|exact G2].
  eapply Rle_trans; [exact W2|]. now apply stage_grow.
Qed.

Lemma turn_near yaw pitch roll q : angle_within d L yaw -> angle_within d L pitch -> angle_within d L roll ->
  finite3 q -> norm (val3 q) <= N ->
  finite3 (turn (f64 L) yaw pitch roll q) /\
  within (9 * (2 * d + 5 * u) * N + 64 * eta) (val3 (turn (f64 L) yaw pitch roll q))
         (turn exact (val yaw) (val pitch) (val roll) (val3 q)).
Proof.
  intros Hy Hp Hr F HQ. pose proof u_small. pose proof eta_small.
  assert (0 <= k <= 3 / 10) as Hk by (unfold k; lra).
  assert (forall E, 0 <= E -> 0 <= next E) as Np by (intros E HE; eapply Rle_trans; [exact HE|now apply stage_grow]).
  assert (next 0 = N * k + 4 * eta) as E1 by (unfold next; ring).
  assert (0 <= N * k <= N * (3 / 10)) as Bk by (split; [apply Rmult_le_pos; lra|apply Rmult_le_compat_l; lra]).
  assert (0 <= eta * k <= eta * (3 / 10)) as Be by (split; [apply Rmult_le_pos; lra|apply Rmult_le_compat_l; lra]).
  assert (0 <= N * k * k <= N * k * (3 / 10)) as Bkk by (split; [apply Rmult_le_pos; lra|apply Rmult_le_compat_l; lra]).
  assert (next (next 0) <= 33 / 10 * (N * k) + 14 * eta) as E2.
  { rewrite E1. unfold next. replace ((N + (N * k + 4 * eta)) * k) with (N * k + N * k * k + 4 * (eta * k)) by ring. lra. }
  assert (next (next (next 0)) <= 9 * k * N + 64 * eta) as E3.
  { set (E := next (next 0)) in *. unfold next. assert (0 <= E) by (apply Np, Np; lra).
    assert (E * k <= (33 / 10 * (N * k) + 14 * eta) * (3 / 10)) by (apply Rmult_le_compat; lra).
    replace ((N + E) * k) with (N * k + E * k) by ring. lra. }
  assert (bpow radix2 1000 * 8 <= bpow radix2 1009) as B9.
  { change 8 with (bpow radix2 3). rewrite <- bpow_plus. apply bpow_le. lia. }
  assert (1 <= bpow radix2 1000) as B0 by (change 1 with (bpow radix2 0); apply bpow_le; lia).
  assert (norm (val3 q) <= N) as Q0 by exact HQ.
  destruct (roll_near roll q (val3 q) 0 Hr F Q0) as (F1 & W1).
  { destruct q as ((x, y), z). simpl. unfold Rminus. rewrite !Rplus_opp_r, Rabs_R0. lra. }
  { lra. } { lra. }
  destruct (pitch_near pitch _ (roll_by exact (f_radians exact (val roll)) (val3 q)) (next 0) Hp F1) as (F2 & W2).
  { rewrite norm_dot, roll_dot, <- norm_dot. exact HQ. } { exact W1. } { apply Np; lra. } { rewrite E1; lra. }
  destruct (yaw_near yaw _ (pitch_by exact (f_radians exact (val pitch)) (roll_by exact (f_radians exact (val roll)) (val3 q))) (next (next 0)) Hy F2) as (F3 & W3).
  { rewrite norm_dot, pitch_dot, roll_dot, <- norm_dot. exact HQ. } { exact W2. } { apply Np, Np; lra. } { lra. }
  split; [exact F3|]. unfold turn. fold k.
  revert W3. generalize (yaw_by exact (f_radians exact (val yaw)) (pitch_by exact (f_radians exact (val pitch)) (roll_by exact (f_radians exact (val roll)) (val3 q)))).
  generalize (val3 (yaw_by (f64 L) (f_radians (f64 L) yaw) (pitch_by (f64 L) (f_radians (f64 L) pitch) (roll_by (f64 L) (f_radians (f64 L) roll) q)))).
  intros ((a, b), c) ((a', b'), c') (W4 & W5 & W6). repeat split; eapply Rle_trans; eauto.
Qed.
End Turn.

Theorem rotate_near L vs m yaw pitch roll more m' d :
  vertex_size m = Ok (Z.of_nat vs) -> (0 < vs)%nat -> tiled_vertices vs m -> rotate_ready vs m ->
  rotate (f64 L) m (yaw :: pitch :: roll :: more) = (m', None) ->
  0 <= d <= / 8 -> angle_within d L yaw -> angle_within d L pitch -> angle_within d L roll ->
  forall j a q, In a (oriented_attribs m) -> triple (vertices m) (j * vs + attrib_start m a) q ->
    finite3 q -> norm (val3 q) <= bpow radix2 1000 ->
  exists q', triple (vertices m') (j * vs + attrib_start m a) q' /\ finite3 q' /\
    within (9 * (2 * d + 5 * half_ulp) * norm (val3 q) + bpow radix2 (-1069)) (val3 q')
           (turn exact (val yaw) (val pitch) (val roll) (val3 q)).
Proof.
  intros Hs Hv T Hr H Hd Ly Lp Lr j a q Ha Hq F B.
  assert (can_turn (f64 L) yaw pitch roll) as Ht.
  { apply (rotate_can (f64 L) vs m yaw pitch roll more m'); auto.
    - intros E. rewrite E in Hq. destruct q as ((x, y), z). destruct Hq as (Hq & _). now destruct (_ + _)%nat in Hq.
    - intros E. now rewrite E in Ha. }
  destruct (rotate_packed (f64 L) vs m yaw pitch roll more Hs Hv T Hr Ht) as (m1 & E & _ & _ & _ & N).
  assert (m1 = m') by congruence. subst m1. exists (turn (f64 L) yaw pitch roll q).
  split; [apply (N j a q Ha Hq)|].
  destruct (turn_near L d (norm (val3 q)) Hd) with (yaw := yaw) (pitch := pitch) (roll := roll) (q := q) as (F' & W); auto.
  { split; [|exact B]. rewrite norm_dot. apply sqrt_pos. }
  { lra. }
  split; [exact F'|]. replace (bpow radix2 (-1069)) with (64 * eta); [exact W|].
  change 64 with (bpow radix2 6). rewrite <- bpow_plus. reflexivity.
Qed.

(** ** Saving *)
Lemma same_wf p m m' : same_but_vertices m m' -> length (vertices m') = length (vertices m) ->
  wf (F := binary64) p m -> wf p m'.
Proof.
  intros ((H1 & H2 & H3 & H4 & H5 & H6 & H7 & H8 & H9) & (H10 & H11) & H12 & H13) E W.
  unfold wf, zlen in *. rewrite H1, H2, H3, H4, H5, H6, H7, H8, H9, H10, H11, H12, H13, E. exact W.
Qed.

Lemma single_round r : exists e h, Rabs e <= bpow radix2 (-24) /\ Rabs h <= bpow radix2 (-150) /\
  nearest_single r = r * (1 + e) + h.
Proof.
  destruct (error_N_FLT radix2 (-149) 24 eq_refl (fun z => negb (Z.even z)) r) as (e & h & He & Hh & _ & Hr).
  exists e, h. repeat split; [| |exact Hr].
  - eapply Rle_trans; [exact He|]. right. change (/ 2) with (bpow radix2 (-1)). rewrite <- bpow_plus. reflexivity.
  - eapply Rle_trans; [exact Hh|]. right. change (/ 2) with (bpow radix2 (-1)). rewrite <- bpow_plus. reflexivity.
Qed.

Lemma single_near x y : rounds_to_single x y -> finite x -> Rabs (val x) <= bpow radix2 127 ->
  finite y /\ Rabs (val y - val x) <= single_error (val x).
Proof.
  unfold rounds_to_single, finite. intros H F B. destruct (is_nan 53 1024 x) eqn:En.
  { destruct x; discriminate. }
  rewrite F in H. destruct H as (H & _). fold (val x) in H.
  destruct (single_round (val x)) as (e & h & He & Hh & Hr).
  assert (bpow radix2 (-24) <= / 4) as B24.
  { change (/ 4) with (bpow radix2 (-2)). apply bpow_le. lia. }
  assert (bpow radix2 (-150) <= / 4) as B150.
  { change (/ 4) with (bpow radix2 (-2)). apply bpow_le. lia. }
  assert (1 <= bpow radix2 127) as B1 by (change 1 with (bpow radix2 0); apply bpow_le; lia).
  pose proof (Rabs_pos (val x)). pose proof (big_prod (val x) e _ _ (Rle_refl _) He) as BP.
  destruct H as (H1 & H2 & _).
  - rewrite Hr. replace (val x * (1 + e) + h) with (val x + val x * e + h) by ring.
    apply Rle_lt_trans with (Rabs (val x) + Rabs (val x) * / 4 + / 4).
    + eapply Rle_trans; [apply Rabs_triang|]. apply Rplus_le_compat; [|lra].
      eapply Rle_trans; [apply Rabs_triang|]. apply Rplus_le_compat_l. eapply Rle_trans; [exact BP|].
      apply Rmult_le_compat_l; lra.
    + replace (bpow radix2 128) with (bpow radix2 127 * 2) by (symmetry; exact (bpow_plus radix2 127 1)). lra.
  - split; [exact H2|]. unfold val at 1. rewrite H1, Hr. unfold single_error.
    replace (val x * (1 + e) + h - val x) with (val x * e + h) by ring.
    eapply Rle_trans; [apply Rabs_triang|]. rewrite (Rmult_comm (bpow radix2 (-24))). lra.
Qed.

(** Every vertex number of a saved and reloaded mesh. *)
Theorem save_accuracy p m : wf p m -> indexnum m <> 1%Z ->
  exists bs m', export p pack_f m = (bs, None) /\ load p unpack_f (m_kind m) bs = Ok m' /\
  length (vertices m') = length (vertices m) /\
  forall i x, nth_error (vertices m) i = Some x -> exists y, nth_error (vertices m') i = Some y /\
    (finite x -> Rabs (val x) <= bpow radix2 127 -> finite y /\ Rabs (val y - val x) <= single_error (val x)).
Proof.
  intros W H. destruct (export_reload_round p m W H) as (bs & rd & R1 & _ & E & Ld).
  exists bs, (mesh_map rd m). split; [exact E|]. split; [exact Ld|].
  split; [cbn; apply map_length|]. intros i x Hi. exists (rd x). split.
  - cbn. rewrite nth_error_map, Hi. reflexivity.
  - apply single_near, R1.
Qed.

(** Translate, save and reload. *)
Theorem translate_save_accuracy L p vs m off m' : wf p m -> indexnum m <> 1%Z ->
  vertex_size m = Ok (Z.of_nat vs) -> (0 < vs)%nat -> tiled_vertices vs m -> short_offsets m ->
  translate (f64 L) m off = (m', None) ->
  exists bs m2, export p pack_f m' = (bs, None) /\ load p unpack_f (m_kind m) bs = Ok m2 /\
  forall j c x d, (c < vs)%nat -> nth_error (vertices m) (j * vs + c) = Some x -> moved_at m off c d ->
    finite x -> finite d -> Rabs (val x + val d) <= bpow radix2 126 ->
    exists y, nth_error (vertices m2) (j * vs + c) = Some y /\ finite y /\
      Rabs (val y - (val x + val d)) <=
        (bpow radix2 (-24) + 2 * half_ulp) * Rabs (val x + val d) + bpow radix2 (-150).
Proof.
  intros W Hi Hs Hv T Ho H. destruct (translate_packed (f64 L) vs m off m' Hs Hv T Ho H) as (S & Len & _).
  destruct (save_accuracy p m') as (bs & m2 & E & Ld & _ & N).
  { now apply (same_wf p m). } { replace (indexnum m') with (indexnum m) by (symmetry; apply S). exact Hi. }
  exists bs, m2. split; [exact E|].
  split; [rewrite <- Ld; f_equal; symmetry; apply S|].
  intros j c x d Hc Hx Hd Fx Fd B.
  destruct (translate_accuracy L vs m off m' Hs Hv T Ho H j c x d Hc Hx Hd) as (x' & Hx' & A1 & A2).
  destruct A1 as (_ & _ & A1).
  { apply A2; auto. eapply Rle_trans; [exact B|]. apply bpow_le. lia. }
  assert (finite x') as Fx' by (apply A2; auto; eapply Rle_trans; [exact B|]; apply bpow_le; lia).
  destruct (N _ _ Hx') as (y & Hy & G). exists y. split; [exact Hy|]. red in A1.
  set (t := val x + val d) in *. pose proof u_small. pose proof (Rabs_pos t).
  assert (0 < bpow radix2 (-24) <= / 4) as B24.
  { split; [apply bpow_gt_0|]. change (/ 4) with (bpow radix2 (-2)). apply bpow_le. lia. }
  assert (Rabs (val x') <= Rabs t + u * Rabs t) as Bx by (apply (near_abs _ t); [exact A1|apply Rle_refl]).
  assert (u * Rabs t <= Rabs t) as Bu by nra.
  destruct G as (Fy & G); auto.
  { replace (bpow radix2 127) with (bpow radix2 126 * 2) by (symmetry; exact (bpow_plus radix2 126 1)). lra. }
  split; [exact Fy|]. unfold single_error in G.
  replace (val y - t) with ((val y - val x') + (val x' - t)) by ring.
  eapply Rle_trans; [apply Rabs_triang|].
  assert (bpow radix2 (-24) * Rabs (val x') <= bpow radix2 (-24) * (Rabs t + u * Rabs t)) by (apply Rmult_le_compat_l; lra).
  assert (bpow radix2 (-24) * (u * Rabs t) <= / 4 * (u * Rabs t)).
  { apply Rmult_le_compat_r; [apply Rmult_le_pos; lra|lra]. }
  assert (0 <= u * Rabs t) by (apply Rmult_le_pos; lra).
  lra.
Qed.
