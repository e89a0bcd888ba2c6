(** The example mesh, bounded, rotated by three right angles in doubles and bounded again. *)
From Coq Require Import ZArith Reals List Lia Lra Bool.
From Flocq Require Import Core IEEE754.Binary IEEE754.Bits.
From Verif Require Import PyBase Struct Mesh Arith F64 RArith Edit Spec SpecEdit RFacts F64Facts BoundFacts CenterFacts MoveBoundFacts MoveBoundAcc
  AccFacts PiFacts Witness WitnessEdit WitnessMerge WitnessBounds WitnessAcc SpecBounds SpecAcc SpecMoveBound.
Import ListNotations.
Open Scope Z_scope.

Definition b4_ : binary64 := b64_of_bits 4616189618054758400.
Definition small (q : vec3 binary64) : bool := let '(x, y, z) := q in
  forallb (fun x => is_finite 53 1024 x && fle_b x b4_ && fle_b (b64_opp b4_) x) [x; y; z].
Lemma small_right q : small q = true -> finite3 q /\ (norm (val3 q) <= 8)%R.
Proof.
  destruct q as ((x, y), z). unfold small. rewrite forallb_forall. intros H.
  assert (forall x0, In x0 [x; y; z] -> finite x0 /\ (-4 <= SpecAcc.val x0 <= 4)%R) as K.
  { intros x0 Hx. apply H in Hx. rewrite !andb_true_iff in Hx. destruct Hx as ((F0 & A1) & A2).
    assert (SpecAcc.val b4_ = 4%R /\ SpecAcc.val (b64_opp b4_) = (-4)%R) as (E1 & E2).
    { unfold SpecAcc.val. split; cbn; unfold F2R; cbn; lra. }
    assert (forall u v, fle_b u v = true -> fle (f64 lib_rounded) u v) as FB by (intros u v; unfold fle_b, fle; cbn; now rewrite orb_true_iff).
    apply FB in A1, A2. rewrite fle_fin in A1 by (exact F0 || reflexivity). rewrite fle_fin in A2 by (exact F0 || reflexivity).
    split; [exact F0|]. unfold SpecAcc.val in *. lra. }
  destruct (K x) as (Fx & Kx); [cbn; auto|]. destruct (K y) as (Fy & Ky); [cbn; auto|]. destruct (K z) as (Fz & Kz); [cbn; auto|].
  split; [cbn; auto|]. unfold val3, norm. set (u := SpecAcc.val x) in *. set (v := SpecAcc.val y) in *. set (w := SpecAcc.val z) in *.
  assert (forall r, -4 <= r <= 4 -> r * r <= 16)%R as SQ by (intros r Hr; nra).
  pose proof (SQ u Kx). pose proof (SQ v Ky). pose proof (SQ w Kz). replace 8%R with (sqrt (8 * 8)) by (apply sqrt_square; lra). apply sqrt_le_1_alt. lra.
Qed.
Lemma ex_near : Forall (fun mt => Forall (fun q => finite3 q /\ (norm (val3 q) <= 8)%R) (positions 7 (exm unpack_f) mt)) (mats (exm unpack_f)).
Proof.
  assert (forallb (fun mt => forallb small (positions 7 (exm unpack_f) mt)) (mats (exm unpack_f)) = true) as H by (vm_compute; reflexivity).
  rewrite forallb_forall in H. apply Forall_forall. intros mt Hm. specialize (H mt Hm). rewrite forallb_forall in H.
  apply Forall_forall. intros q Hq. apply small_right, H, Hq.
Qed.
Lemma b90_can_turn L : can_turn (f64 L) b90_ b90_ b90_.
Proof.
  apply (finite_can_turn L _ _ _ 90); try exact b90_upto. change 90%R with (IZR 90). eapply Rle_trans; [|apply (bpow_le radix2 7); lia].
  cbn. lra.
Qed.
Lemma ex_turned : exists m1 mv m2 a l lo2 hi2, bounding_attrib (exm unpack_f) = Some a /\
  update_boundaries (f64 lib_rounded) (exm unpack_f) = (m1, None) /\ rotate (f64 lib_rounded) m1 [b90_; b90_; b90_] = (mv, None) /\
  update_boundaries (f64 lib_rounded) mv = (m2, None) /\ lod_at (exm unpack_f) 1 0 l /\ has_box m2 1 0 lo2 hi2 /\
  (forall q, In q (lod_positions 7 (exm unpack_f) l) -> norm (val3 q) <= 8)%R.
Proof.
  assert (exists l, lod_at (exm unpack_f) 1 0 l) as (l & HL).
  { eexists. exists 1%nat, 0%nat. eexists. split; [split; [cbn; lia|now left]|]; split; [reflexivity|]; split; [split; [cbn; lia|now left]|reflexivity]. }
  destruct (rotate_through (f64 lib_rounded) 7 (exm unpack_f) b90_ b90_ b90_ [] {| flag := 0; offset := 0; vartype := 2; usage := 0 |} 1 0 l)
    as (m1 & mv & m2 & lo & hi & lo2 & hi2 & U1 & RT & U2 & _ & X2).
  - apply ex_size.
  - lia.
  - apply ex_tiled.
  - apply ex_ready.
  - apply ex_bounded.
  - change (vertex_attributes (exm unpack_f)) with ex_attribs. eapply Forall_impl; [|exact ex_known]. auto.
  - reflexivity.
  - apply b90_can_turn.
  - exact HL.
  - exists m1, mv, m2. do 2 eexists. exists lo2, hi2. split; [reflexivity|]. do 3 (split; [eassumption|]). split; [exact HL|]. split; [exact X2|].
    intros q Hq. unfold lod_positions in Hq. apply in_flat_map in Hq. destruct Hq as (mt & Hm & Hq).
    pose proof ex_near as N. rewrite Forall_forall in N. specialize (N mt (mats_in _ _ _ _ HL mt Hm)). rewrite Forall_forall in N. now apply N.
Qed.
