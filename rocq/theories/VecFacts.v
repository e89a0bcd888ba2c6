(** Facts about Vec3. *)
From Coq Require Import ZArith Reals List Bool Lra Lia.
From Flocq Require Import Core IEEE754.Binary IEEE754.Bits.
From Verif Require Import PyBase Struct Mesh Arith RArith F64 Col Vec SpecBounds SpecVec BoundFacts EqFacts SpecAcc AccFacts.
Import ListNotations.
Open Scope R_scope.

Lemma axis_cases (P : nat -> Prop) : P 0%nat -> P 1%nat -> P 2%nat -> forall i, In i axes -> P i.
Proof. intros H0 H1 H2 i [<-|[<-|[<-|[]]]]; assumption. Qed.
Lemma Reqb_spec x y : Reqb x y = true <-> x = y.
Proof. unfold Reqb. destruct (Req_EM_T x y); split; congruence. Qed.

(** ** Reals *)
Theorem exact_add_sub_neg u v : by_axis Rplus u v (vec_add exact u v) /\ by_axis Rminus u v (vec_sub exact Ropp u v) /\
  (forall i, In i axes -> axis i (vec_neg Ropp u) = - axis i u).
Proof.
  destruct u as ((x, y), z), v as ((a, b), c). split; [|split]; unfold by_axis; apply axis_cases; reflexivity.
Qed.
Theorem exact_dot u v : vec_dot exact u v = scalar_product u v.
Proof. destruct u as ((x, y), z), v as ((a, b), c). reflexivity. Qed.
(** When the vector product comes out right. *)
Theorem exact_cross u v : vec_cross exact u v = vector_product u v <-> (axis 0 u = axis 2 u \/ (axis 0 v = 0 /\ axis 1 v = 0)).
Proof.
  destruct u as ((x, y), z), v as ((a, b), c). unfold vec_cross, vector_product. cbn. split.
  - intros H. injection H as H1 H2. destruct (Req_dec x z) as [E|E]; [now left|right].
    assert (a * (x - z) = 0) as Ha by lra. assert (b * (x - z) = 0) as Hb by lra.
    apply Rmult_integral in Ha. apply Rmult_integral in Hb. lra.
  - intros [->|(-> & ->)]; f_equal; try (f_equal; lra); lra.
Qed.
Theorem exact_cross_first u v : axis 0 (vec_cross exact u v) = axis 0 (vector_product u v).
Proof. destruct u as ((x, y), z), v as ((a, b), c). reflexivity. Qed.
Theorem exact_divn u n : (n = 0 -> vec_divn exact u n = Raise EZeroDiv) /\
  (n <> 0 -> exists w, vec_divn exact u n = Ok w /\ forall i, In i axes -> axis i w * n = axis i u).
Proof.
  destruct u as ((x, y), z). unfold vec_divn, py_fdiv. cbn [f_eq f_zero exact]. split; intros H.
  - now rewrite (proj2 (Reqb_spec n 0) H).
  - assert (Reqb n 0 = false) as -> by (apply not_true_is_false; intros X; now apply Reqb_spec in X).
    cbn [bind]. eexists; split; [reflexivity|]. apply axis_cases; cbn; field; exact H.
Qed.
Theorem exact_divv u v : ((exists i, In i axes /\ axis i v = 0) -> vec_divv exact u v = Raise EZeroDiv) /\
  ((forall i, In i axes -> axis i v <> 0) -> exists w, vec_divv exact u v = Ok w /\ forall i, In i axes -> axis i w * axis i v = axis i u).
Proof.
  destruct u as ((x, y), z), v as ((a, b), c). unfold vec_divv, py_fdiv. cbn [f_eq f_zero exact]. split; intros H.
  - destruct H as (i & Hi & H). destruct (Reqb a 0) eqn:Ea; [reflexivity|]. cbn [bind]. destruct (Reqb b 0) eqn:Eb; [reflexivity|]. cbn [bind].
    destruct (Reqb c 0) eqn:Ec; [reflexivity|]. apply not_true_iff_false in Ea, Eb, Ec. rewrite Reqb_spec in Ea, Eb, Ec.
    destruct Hi as [<-|[<-|[<-|[]]]]; cbn in H; contradiction.
  - assert (forall t, t <> 0 -> Reqb t 0 = false) as E by (intros t Ht; apply not_true_is_false; intros X; now apply Reqb_spec in X).
    pose proof (H 0%nat (or_introl eq_refl)) as Ha. pose proof (H 1%nat (or_intror (or_introl eq_refl))) as Hb.
    pose proof (H 2%nat (or_intror (or_intror (or_introl eq_refl)))) as Hc. cbn in Ha, Hb, Hc.
    rewrite !E by assumption. cbn [bind]. eexists; split; [reflexivity|]. apply axis_cases; cbn; field; assumption.
Qed.

(** ** Doubles *)
Lemma minus_opp L x y : finite x -> finite y -> f_add (f64 L) x (b64_opp y) = f_sub (f64 L) x y.
Proof.
  unfold finite. cbn. intros Hx Hy. unfold b64_plus, b64_minus, b64_opp, Bplus, Bminus, Bopp.
  destruct x as [sx|sx|sx px Hpx|sx mx ex Bx], y as [sy|sy|sy py Hpy|sy my ey By]; try discriminate; reflexivity.
Qed.
Lemma finite3_axis v i : finite3 v -> In i axes -> finite (axis i v).
Proof. destruct v as ((x, y), z). intros (H1 & H2 & H3). revert i. apply axis_cases; assumption. Qed.
Theorem double_sub L u v : finite3 u -> finite3 v -> by_axis (f_sub (f64 L)) u v (vec_sub (f64 L) b64_opp u v).
Proof.
  destruct u as ((x, y), z), v as ((a, b), c). intros (H1 & H2 & H3) (K1 & K2 & K3). unfold by_axis. apply axis_cases; apply minus_opp; assumption.
Qed.
(** Rounding: one half unit in the last place for each component. *)
Theorem double_sub_accuracy L u v i : finite3 u -> finite3 v -> In i axes -> Rabs (val (axis i u) - val (axis i v)) <= bpow radix2 1023 ->
  finite (axis i (vec_sub (f64 L) b64_opp u v)) /\ rounded (axis i (vec_sub (f64 L) b64_opp u v)) (val (axis i u) - val (axis i v)).
Proof.
  intros Hu Hv Hi B. rewrite (double_sub L u v Hu Hv i Hi).
  pose proof (finite3_axis u i Hu Hi) as Fu. pose proof (finite3_axis v i Hv Hi) as Fv.
  destruct (minus_ok L _ _ Fu Fv B) as (F1 & E0); destruct (minus_round (axis i u) (axis i v)) as (e & He & E); split; [exact F1|]. unfold rounded. rewrite E0, E.
  replace ((val (axis i u) - val (axis i v)) * (1 + e) - (val (axis i u) - val (axis i v))) with (e * (val (axis i u) - val (axis i v))) by ring.
  rewrite Rabs_mult. apply Rmult_le_compat_r; [apply Rabs_pos|exact He].
Qed.
Theorem double_neg u : vec_neg b64_opp (vec_neg b64_opp u) = u.
Proof.
  destruct u as ((x, y), z). unfold vec_neg. assert (forall t, b64_opp (b64_opp t) = t) as E.
  { intros t. unfold b64_opp. destruct t; cbn; try (now rewrite ?negb_involutive). }
  now rewrite !E.
Qed.
Theorem double_divn L u n : (val n = 0 /\ finite n -> vec_divn (f64 L) u n = Raise EZeroDiv) /\
  (~ (val n = 0 /\ finite n) -> exists w, vec_divn (f64 L) u n = Ok w /\ forall i, In i axes -> axis i w = f_div (f64 L) (axis i u) n).
Proof.
  destruct u as ((x, y), z).
  assert (f_eq (f64 L) n (f_zero (f64 L)) = true <-> (val n = 0 /\ finite n)) as E.
  { cbn [f64 f_eq f_zero]. unfold val, finite, b64_eq, b64_compare. destruct n as [s|s|s p H|s m e H]; cbn.
    - destruct s; cbn; tauto.
    - destruct s; split; (discriminate || (intros (_ & ?); discriminate)).
    - split; (discriminate || (intros (_ & ?); discriminate)).
    - split; [destruct s; discriminate|]. intros (X & _). apply eq_0_F2R in X. destruct s; discriminate. }
  unfold vec_divn, py_fdiv. destruct (f_eq (f64 L) n (f_zero (f64 L))).
  - split; [reflexivity|]. intros X. exfalso. apply X. now apply E.
  - split; [intros X; apply E in X; discriminate|]. intros _. eexists. split; [reflexivity|]. apply axis_cases; reflexivity.
Qed.
