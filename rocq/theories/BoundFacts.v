(** Facts about update_boundaries and get_lod_center_offset. *)
From Coq Require Import ZArith List Bool Lia Reals Lra.
From Flocq Require Import Core IEEE754.Binary IEEE754.Bits.
From Verif Require Import PyBase Struct Mesh Arith F64 Edit Spec SpecEdit SpecBounds CodecBase F64Facts DivFacts TravFacts VertFacts MergeFacts RArith.
Import ListNotations.
Open Scope Z_scope.
Open Scope res_scope.

(** ** Orders *)
Record ordered {F} (A : arith F) (good : F -> Prop) (val : F -> R) : Prop := {
  o_lt : forall x y, good x -> good y -> f_lt A x y = true <-> (val x < val y)%R;
  o_eq : forall x y, good x -> good y -> f_eq A x y = true <-> val x = val y;
  o_zero : good (f_zero A) }.

Definition number (x : binary64) : Prop := is_nan 53 1024 x = false.
Lemma f64_ordered L : ordered (f64 L) number ord.
Proof.
  constructor; try reflexivity.
  - intros x y. apply b64_lt_ord.
  - intros x y Hx Hy. cbn. unfold b64_eq. rewrite compare_ord by assumption.
    destruct (Rcompare_spec (ord x) (ord y)); split; intros; try discriminate; try lra; reflexivity.
Qed.
Lemma exact_ordered : ordered exact (fun _ => True) (fun x => x).
Proof.
  constructor; auto; intros; cbn; unfold Rltb, Reqb.
  - destruct (Rlt_dec x y); split; intros; try discriminate; try lra; auto.
  - destruct (Req_EM_T x y); split; intros; try discriminate; try lra; auto.
Qed.

Section Bounds.
Context {F : Type} (A : arith F).
Implicit Types (m : mesh F) (mt : mat F) (q lo hi : vec3 F).

Section Order.
Context (good : F -> Prop) (val : F -> R) (O : ordered A good val).
Lemma fle_val x y : good x -> good y -> fle A x y <-> (val x <= val y)%R.
Proof.
  intros Hx Hy. unfold fle. rewrite (o_lt _ _ _ O) by assumption. rewrite (o_eq _ _ _ O) by assumption. lra.
Qed.
Lemma fle_trans x y z : good x -> good y -> good z -> fle A x y -> fle A y z -> fle A x z.
Proof. intros. rewrite fle_val in * by assumption. lra. Qed.
Lemma fle_refl x : good x -> fle A x x.
Proof. intros. rewrite fle_val by assumption. lra. Qed.

Definition good3 q : Prop := forall i, In i axes -> good (axis i q).
Lemma upd_min_good p a : good p -> good a -> good (upd_min A p a).
Proof. unfold upd_min. now destruct (f_lt A p a). Qed.
Lemma upd_max_good p a : good p -> good a -> good (upd_max A p a).
Proof. unfold upd_max. now destruct (f_lt A a p). Qed.
Lemma upd_min_le p a : good p -> good a -> fle A (upd_min A p a) p /\ fle A (upd_min A p a) a.
Proof.
  intros Hp Ha. rewrite !fle_val by (auto using upd_min_good). unfold upd_min.
  pose proof (o_lt _ _ _ O p a Hp Ha) as E. destruct (f_lt A p a).
  - assert (val p < val a)%R by now apply E. lra.
  - assert (~ (val p < val a))%R by (intros H; apply E in H; discriminate). lra.
Qed.
Lemma upd_max_le p a : good p -> good a -> fle A p (upd_max A p a) /\ fle A a (upd_max A p a).
Proof.
  intros Hp Ha. rewrite !fle_val by (auto using upd_max_good). unfold upd_max.
  pose proof (o_lt _ _ _ O a p Ha Hp) as E. destruct (f_lt A a p).
  - assert (val a < val p)%R by now apply E. lra.
  - assert (~ (val a < val p))%R by (intros H; apply E in H; discriminate). lra.
Qed.
End Order.

Lemma axis_min i p a : axis i (vmin3 A p a) = upd_min A (axis i p) (axis i a).
Proof. destruct p as ((?, ?), ?), a as ((?, ?), ?), i as [|[|]]; reflexivity. Qed.
Lemma axis_max i p a : axis i (vmax3 A p a) = upd_max A (axis i p) (axis i a).
Proof. destruct p as ((?, ?), ?), a as ((?, ?), ?), i as [|[|]]; reflexivity. Qed.

Definition low (l : list (vec3 F)) (a : vec3 F) : vec3 F := fold_left (fun a q => vmin3 A q a) l a.
Definition high (l : list (vec3 F)) (a : vec3 F) : vec3 F := fold_left (fun a q => vmax3 A q a) l a.
Lemma low_app l k a : low (l ++ k) a = low k (low l a).
Proof. apply fold_left_app. Qed.
Lemma high_app l k a : high (l ++ k) a = high k (high l a).
Proof. apply fold_left_app. Qed.

Lemma low_attained (i : nat) : forall l a, axis i (low l a) = axis i a \/ exists q, In q l /\ axis i q = axis i (low l a).
Proof.
  induction l as [|q t IH]; intros a; [now left|]. cbn [low fold_left]. change (fold_left _ t ?x) with (low t x).
  destruct (IH (vmin3 A q a)) as [E|(r & Hr & E)].
  - rewrite E, axis_min. unfold upd_min. destruct (f_lt A _ _); [right; exists q; split; [now left|reflexivity]|now left].
  - right. exists r. split; [now right|exact E].
Qed.
Lemma high_attained (i : nat) : forall l a, axis i (high l a) = axis i a \/ exists q, In q l /\ axis i q = axis i (high l a).
Proof.
  induction l as [|q t IH]; intros a; [now left|]. cbn [high fold_left]. change (fold_left _ t ?x) with (high t x).
  destruct (IH (vmax3 A q a)) as [E|(r & Hr & E)].
  - rewrite E, axis_max. unfold upd_max. destruct (f_lt A _ _); [right; exists q; split; [now left|reflexivity]|now left].
  - right. exists r. split; [now right|exact E].
Qed.

Section Order2.
Context (good : F -> Prop) (val : F -> R) (O : ordered A good val).
Notation good3 := (good3 good).
Lemma low_good i : In i axes -> forall l a, Forall good3 l -> good (axis i a) -> good (axis i (low l a)).
Proof.
  intros Hi. induction l as [|q t IH]; intros a H Ha; [exact Ha|]. inversion H; subst. cbn. apply IH; [assumption|].
  rewrite axis_min. apply upd_min_good; auto.
Qed.
Lemma high_good i : In i axes -> forall l a, Forall good3 l -> good (axis i a) -> good (axis i (high l a)).
Proof.
  intros Hi. induction l as [|q t IH]; intros a H Ha; [exact Ha|]. inversion H; subst. cbn. apply IH; [assumption|].
  rewrite axis_max. apply upd_max_good; auto.
Qed.
Lemma low_le i : In i axes -> forall l a, Forall good3 l -> good (axis i a) ->
  fle A (axis i (low l a)) (axis i a) /\ forall q, In q l -> fle A (axis i (low l a)) (axis i q).
Proof.
  intros Hi. induction l as [|p t IH]; intros a H Ha; [split; [now apply (fle_refl good val O)|intros ? []]|].
  inversion H as [|? ? Hp Ht]; subst. cbn [low fold_left]. change (fold_left _ t ?x) with (low t x).
  pose proof (upd_min_le good val O (axis i p) (axis i a) (Hp i Hi) Ha) as (L1 & L2).
  pose proof (upd_min_good good _ _ (Hp i Hi) Ha) as G. rewrite <- axis_min in *.
  destruct (IH _ Ht G) as (I1 & I2). pose proof (low_good i Hi t _ Ht G) as G'. split.
  - apply (fle_trans good val O _ (axis i (vmin3 A p a))); auto.
  - intros q [<-|Hq]; [|now apply I2]. apply (fle_trans good val O _ (axis i (vmin3 A p a))); auto.
Qed.
Lemma high_le i : In i axes -> forall l a, Forall good3 l -> good (axis i a) ->
  fle A (axis i a) (axis i (high l a)) /\ forall q, In q l -> fle A (axis i q) (axis i (high l a)).
Proof.
  intros Hi. induction l as [|p t IH]; intros a H Ha; [split; [now apply (fle_refl good val O)|intros ? []]|].
  inversion H as [|? ? Hp Ht]; subst. cbn [high fold_left]. change (fold_left _ t ?x) with (high t x).
  pose proof (upd_max_le good val O (axis i p) (axis i a) (Hp i Hi) Ha) as (L1 & L2).
  pose proof (upd_max_good good _ _ (Hp i Hi) Ha) as G. rewrite <- axis_max in *.
  destruct (IH _ Ht G) as (I1 & I2). pose proof (high_good i Hi t _ Ht G) as G'. split.
  - apply (fle_trans good val O _ (axis i (vmax3 A p a))); auto.
  - intros q [<-|Hq]; [|now apply I2]. apply (fle_trans good val O _ (axis i (vmax3 A p a))); auto.
Qed.
Lemma origin_good i : In i axes -> good (axis i (origin A)).
Proof. intros [<-|[<-|[<-|[]]]]; apply (o_zero _ _ _ O). Qed.
Lemma origin_good3 : good3 (origin A).
Proof. intros i. apply origin_good. Qed.

Lemma low_high_box l : Forall good3 l -> box A (origin A :: l) (low l (origin A)) (high l (origin A)).
Proof.
  intros H. split.
  - intros q Hq i Hi. destruct (low_le i Hi l (origin A) H (origin_good i Hi)) as (L1 & L2).
    destruct (high_le i Hi l (origin A) H (origin_good i Hi)) as (H1 & H2).
    destruct Hq as [<-|Hq]; split; auto.
  - intros i Hi. split.
    + destruct (low_attained i l (origin A)) as [E|(q & Hq & E)]; [exists (origin A)|exists q]; (split; [|(symmetry; exact E) || exact E]); [now left|now right].
    + destruct (high_attained i l (origin A)) as [E|(q & Hq & E)]; [exists (origin A)|exists q]; (split; [|(symmetry; exact E) || exact E]); [now left|now right].
Qed.
Lemma low_good3 l : Forall good3 l -> good3 (low l (origin A)).
Proof. intros H i Hi. apply low_good; auto using origin_good. Qed.
Lemma high_good3 l : Forall good3 l -> good3 (high l (origin A)).
Proof. intros H i Hi. apply high_good; auto using origin_good. Qed.

Lemma between_trans lo lo' q hi' hi : good3 lo -> good3 lo' -> good3 q -> good3 hi' -> good3 hi ->
  between A lo lo' hi -> between A lo hi' hi -> between A lo' q hi' -> between A lo q hi.
Proof.
  intros G1 G2 G3 G4 G5 H1 H2 H3 i Hi. destruct (H1 i Hi), (H2 i Hi), (H3 i Hi). split.
  - apply (fle_trans good val O _ (axis i lo')); auto.
  - apply (fle_trans good val O _ (axis i hi')); auto.
Qed.

(** Running minima from different starting points. *)
Lemma low_upd i : In i axes -> forall l a b, Forall good3 l -> good (axis i a) -> good (axis i b) ->
  (val (axis i a) <= val (axis i b))%R -> axis i (low l a) = upd_min A (axis i (low l b)) (axis i a).
Proof.
  intros Hi.
  assert (forall l a b, axis i a = axis i b -> axis i (low l a) = axis i (low l b)) as EXT.
  { induction l as [|q t IH]; intros a b E; [exact E|]. cbn. apply IH. now rewrite !axis_min, E. }
  induction l as [|q t IH]; intros a b H Ga Gb L.
  - cbn. unfold upd_min. pose proof (o_lt _ _ _ O _ _ Gb Ga) as E.
    destruct (f_lt A _ _); [|reflexivity]. assert (val (axis i b) < val (axis i a))%R by now apply E. lra.
  - inversion H as [|? ? Gq Gt]; subst. cbn [low fold_left]. change (fold_left _ t ?x) with (low t x).
    pose proof (Gq i Hi) as Gqi.
    pose proof (o_lt _ _ _ O _ _ Gqi Ga) as Ea. pose proof (o_lt _ _ _ O _ _ Gqi Gb) as Eb.
    assert (axis i (vmin3 A q a) = if f_lt A (axis i q) (axis i a) then axis i q else axis i a) as Xa by apply axis_min.
    assert (axis i (vmin3 A q b) = if f_lt A (axis i q) (axis i b) then axis i q else axis i b) as Xb by apply axis_min.
    destruct (f_lt A (axis i q) (axis i a)).
    + assert (val (axis i q) < val (axis i a))%R as LT by now apply Ea.
      replace (f_lt A (axis i q) (axis i b)) with true in Xb by (symmetry; apply Eb; lra).
      rewrite (EXT t _ _ Xa), (EXT t _ _ Xb).
      destruct (low_le i Hi t q Gt Gqi) as (L1 & _). pose proof (low_good i Hi t q Gt Gqi) as GL.
      apply (fle_val good val O) in L1; auto. unfold upd_min.
      replace (f_lt A (axis i (low t q)) (axis i a)) with true; [reflexivity|].
      symmetry. apply (o_lt _ _ _ O); auto. lra.
    + assert (~ val (axis i q) < val (axis i a))%R as NL by (intros X; apply Ea in X; discriminate).
      rewrite (EXT t _ _ Xa). destruct (f_lt A (axis i q) (axis i b)).
      * rewrite (EXT t _ _ Xb). apply IH; auto. lra.
      * rewrite (EXT t _ _ Xb). now apply IH.
Qed.
Lemma high_upd i : In i axes -> forall l a b, Forall good3 l -> good (axis i a) -> good (axis i b) ->
  (val (axis i b) <= val (axis i a))%R -> axis i (high l a) = upd_max A (axis i (high l b)) (axis i a).
Proof.
  intros Hi.
  assert (forall l a b, axis i a = axis i b -> axis i (high l a) = axis i (high l b)) as EXT.
  { induction l as [|q t IH]; intros a b E; [exact E|]. cbn. apply IH. now rewrite !axis_max, E. }
  induction l as [|q t IH]; intros a b H Ga Gb L.
  - cbn. unfold upd_max. pose proof (o_lt _ _ _ O _ _ Ga Gb) as E.
    destruct (f_lt A _ _); [|reflexivity]. assert (val (axis i a) < val (axis i b))%R by now apply E. lra.
  - inversion H as [|? ? Gq Gt]; subst. cbn [high fold_left]. change (fold_left _ t ?x) with (high t x).
    pose proof (Gq i Hi) as Gqi.
    pose proof (o_lt _ _ _ O _ _ Ga Gqi) as Ea. pose proof (o_lt _ _ _ O _ _ Gb Gqi) as Eb.
    assert (axis i (vmax3 A q a) = if f_lt A (axis i a) (axis i q) then axis i q else axis i a) as Xa by apply axis_max.
    assert (axis i (vmax3 A q b) = if f_lt A (axis i b) (axis i q) then axis i q else axis i b) as Xb by apply axis_max.
    destruct (f_lt A (axis i a) (axis i q)).
    + assert (val (axis i a) < val (axis i q))%R as LT by now apply Ea.
      replace (f_lt A (axis i b) (axis i q)) with true in Xb by (symmetry; apply Eb; lra).
      rewrite (EXT t _ _ Xa), (EXT t _ _ Xb).
      destruct (high_le i Hi t q Gt Gqi) as (L1 & _). pose proof (high_good i Hi t q Gt Gqi) as GL.
      apply (fle_val good val O) in L1; auto. unfold upd_max.
      replace (f_lt A (axis i a) (axis i (high t q))) with true; [reflexivity|].
      symmetry. apply (o_lt _ _ _ O); auto. lra.
    + assert (~ val (axis i a) < val (axis i q))%R as NL by (intros X; apply Ea in X; discriminate).
      rewrite (EXT t _ _ Xa). destruct (f_lt A (axis i b) (axis i q)).
      * rewrite (EXT t _ _ Xb). apply IH; auto. lra.
      * rewrite (EXT t _ _ Xb). now apply IH.
Qed.
Lemma axis_ext q r : (forall i, In i axes -> axis i q = axis i r) -> q = r.
Proof.
  intros H. destruct q as ((x, y), z), r as ((x', y'), z').
  pose proof (H 0%nat) as H0. pose proof (H 1%nat) as H1. pose proof (H 2%nat) as H2. cbn in *.
  rewrite H0, H1, H2 by auto. reflexivity.
Qed.
Definition below (a : vec3 F) : Prop := forall i, In i axes -> (val (axis i a) <= val (f_zero A))%R.
Definition above (a : vec3 F) : Prop := forall i, In i axes -> (val (f_zero A) <= val (axis i a))%R.
Lemma origin_axis i : In i axes -> axis i (origin A) = f_zero A.
Proof. intros [<-|[<-|[<-|[]]]]; reflexivity. Qed.
Lemma low_below l : Forall good3 l -> below (low l (origin A)).
Proof.
  intros H i Hi. destruct (low_le i Hi l (origin A) H (origin_good i Hi)) as (L & _). rewrite (origin_axis i Hi) in L.
  apply (fle_val good val O) in L; [exact L|now apply low_good3|apply (o_zero _ _ _ O)].
Qed.
Lemma high_above l : Forall good3 l -> above (high l (origin A)).
Proof.
  intros H i Hi. destruct (high_le i Hi l (origin A) H (origin_good i Hi)) as (L & _). rewrite (origin_axis i Hi) in L.
  apply (fle_val good val O) in L; [exact L|apply (o_zero _ _ _ O)|now apply high_good3].
Qed.
Lemma low_concat : forall ls a, Forall (Forall good3) ls -> good3 a -> below a ->
  low (concat ls) a = low (map (fun l => low l (origin A)) ls) a.
Proof.
  induction ls as [|l t IH]; intros a H Ga Ba; [reflexivity|]. inversion H as [|? ? Hl Ht]; subst.
  cbn [concat map]. rewrite low_app. cbn [low fold_left]. change (fold_left _ (map ?f t) ?x) with (low (map f t) x).
  assert (low l a = vmin3 A (low l (origin A)) a) as ->.
  { apply axis_ext. intros i Hi. rewrite axis_min. apply low_upd; auto using origin_good. rewrite origin_axis by exact Hi. auto. }
  apply IH; [exact Ht| |].
  - intros i Hi. rewrite axis_min. apply upd_min_good; auto. now apply low_good3.
  - intros i Hi. rewrite axis_min. unfold upd_min. destruct (f_lt A _ _); [now apply low_below|auto].
Qed.
Lemma high_concat : forall ls a, Forall (Forall good3) ls -> good3 a -> above a ->
  high (concat ls) a = high (map (fun l => high l (origin A)) ls) a.
Proof.
  induction ls as [|l t IH]; intros a H Ga Ba; [reflexivity|]. inversion H as [|? ? Hl Ht]; subst.
  cbn [concat map]. rewrite high_app. cbn [high fold_left]. change (fold_left _ (map ?f t) ?x) with (high (map f t) x).
  assert (high l a = vmax3 A (high l (origin A)) a) as ->.
  { apply axis_ext. intros i Hi. rewrite axis_max. apply high_upd; auto using origin_good. rewrite origin_axis by exact Hi. auto. }
  apply IH; [exact Ht| |].
  - intros i Hi. rewrite axis_max. apply upd_max_good; auto. now apply high_good3.
  - intros i Hi. rewrite axis_max. unfold upd_max. destruct (f_lt A _ _); [now apply high_above|auto].
Qed.
Lemma low_of_above l a : Forall good3 l -> Forall above l -> good3 a -> below a -> low l a = a.
Proof.
  intros H U Ga B. induction l as [|q t IH]; [reflexivity|]. inversion H; inversion U; subst. cbn.
  replace (vmin3 A q a) with a; [now apply IH|]. apply axis_ext. intros i Hi. rewrite axis_min. unfold upd_min.
  destruct (f_lt A (axis i q) (axis i a)) eqn:E; [|reflexivity]. apply (o_lt _ _ _ O) in E; auto.
  match goal with H : above q |- _ => specialize (H i Hi) end. specialize (B i Hi). lra.
Qed.
Lemma high_of_below l a : Forall good3 l -> Forall below l -> good3 a -> above a -> high l a = a.
Proof.
  intros H U Ga B. induction l as [|q t IH]; [reflexivity|]. inversion H; inversion U; subst. cbn.
  replace (vmax3 A q a) with a; [now apply IH|]. apply axis_ext. intros i Hi. rewrite axis_max. unfold upd_max.
  destruct (f_lt A (axis i a) (axis i q)) eqn:E; [|reflexivity]. apply (o_lt _ _ _ O) in E; auto.
  match goal with H : below q |- _ => specialize (H i Hi) end. specialize (B i Hi). lra.
Qed.
(** The box of all points is the box of the corners of the boxes of the parts. *)
Lemma box_corners ls : Forall (Forall good3) ls ->
  box A (origin A :: map (fun l => low l (origin A)) ls ++ map (fun l => high l (origin A)) ls)
    (low (concat ls) (origin A)) (high (concat ls) (origin A)).
Proof.
  intros H. set (lo := map (fun l => low l (origin A)) ls). set (hi := map (fun l => high l (origin A)) ls).
  assert (Forall good3 lo /\ Forall good3 hi) as (Gl & Gh).
  { split; apply Forall_map; (eapply Forall_impl; [|exact H]); intros; [now apply low_good3|now apply high_good3]. }
  assert (Forall below lo /\ Forall above hi) as (Bl & Bh).
  { split; apply Forall_map; (eapply Forall_impl; [|exact H]); intros; [now apply low_below|now apply high_above]. }
  assert (below (origin A) /\ above (origin A)) as (B0 & A0) by (split; intros i Hi; rewrite origin_axis by exact Hi; apply Rle_refl).
  pose proof origin_good3 as GO.
  rewrite low_concat, high_concat by auto. fold lo hi.
  rewrite <- (low_of_above hi (low lo (origin A))) by (auto using low_good3, low_below).
  rewrite <- (high_of_below lo (origin A)) at 3 by auto. rewrite <- low_app, <- high_app.
  apply low_high_box. now apply Forall_app.
Qed.
End Order2.

(** ** The loops *)
Lemma py_slice_from {B} (l : list B) a n : 0 <= a -> 0 <= n ->
  py_slice l a (a + n) = firstn (Z.to_nat n) (skipn (Z.to_nat a) l).
Proof.
  intros Ha Hn. unfold py_slice. assert (norm_bound (zlen l) a = Z.min a (zlen l)) as ->.
  { unfold norm_bound. destruct (Z.ltb_spec a 0); lia. }
  assert (norm_bound (zlen l) (a + n) = Z.min (a + n) (zlen l)) as ->.
  { unfold norm_bound. destruct (Z.ltb_spec (a + n) 0); lia. }
  unfold zlen. destruct (Z.leb_spec a (Z.of_nat (length l))).
  - rewrite (Z.min_l a) by lia. destruct (Z.leb_spec (a + n) (Z.of_nat (length l))).
    + f_equal. lia.
    + rewrite !firstn_all2; [reflexivity| |]; rewrite skipn_length; lia.
  - rewrite !skipn_all2 by lia. now rewrite !firstn_nil.
Qed.
Lemma first3_at3 (buf : list F) s n q : 0 <= n -> first3 (py_slice buf (Z.of_nat s) (Z.of_nat s + n)) = Ok q -> at3 buf s = Some q.
Proof.
  intros Hn. rewrite py_slice_from by lia. rewrite Nat2Z.id. set (k := Z.to_nat n).
  assert (forall j, nth_error buf (s + j) = nth_error (skipn s buf) j) as N.
  { intros j. clear. revert buf. induction s as [|s IH]; intros buf; [reflexivity|]. destruct buf; [now destruct j|]. apply IH. }
  unfold at3. replace (nth_error buf s) with (nth_error (skipn s buf) 0) by (rewrite <- N; now rewrite Nat.add_0_r). rewrite !N.
  destruct (skipn s buf) as [|x [|y [|z t]]]; destruct k as [|[|[|k]]]; cbn; try discriminate; intros H; injection H as <-; reflexivity.
Qed.
Lemma at3_first3 (buf : list F) s n q : 3 <= n -> at3 buf s = Some q -> first3 (py_slice buf (Z.of_nat s) (Z.of_nat s + n)) = Ok q.
Proof.
  intros Hn. rewrite py_slice_from by lia. rewrite Nat2Z.id. destruct (Z.to_nat n) as [|[|[|k]]] eqn:E; try lia.
  assert (forall j, nth_error buf (s + j) = nth_error (skipn s buf) j) as N.
  { intros j. clear. revert buf. induction s as [|s IH]; intros buf; [reflexivity|]. destruct buf; [now destruct j|]. apply IH. }
  unfold at3. replace (nth_error buf s) with (nth_error (skipn s buf) 0) by (rewrite <- N; now rewrite Nat.add_0_r). rewrite !N.
  destruct (skipn s buf) as [|x [|y [|z t]]]; cbn; try discriminate; intros H; injection H as <-; reflexivity.
Qed.

(** The attributes that decoding looks at. *)
Definition used_attrib (a : vertattrib) : bool := (usage a =? 0) && in_use a.
Lemma decltype_len_range v n : decltype_len v = Ok n -> 0 <= n <= 4.
Proof.
  unfold decltype_len. repeat destruct (_ =? _); intros H; inversion H; lia.
Qed.
Lemma vertex_position_spec m (buf : list F) : short_offsets m -> forall l cur r, Forall (fun a => 0 <= offset a < 65536) l ->
  vertex_position (vertformat m) buf l cur = Ok r ->
  r = match find used_attrib (rev l) with
      | Some a => match decltype_len (vartype a) with
                  | Ok n => Some (py_slice buf (Z.of_nat (attrib_start m a)) (Z.of_nat (attrib_start m a) + n))
                  | Raise _ => r
                  end
      | None => cur
      end /\ forall a, find used_attrib (rev l) = Some a -> exists n, decltype_len (vartype a) = Ok n.
Proof.
  intros (Hf & _).
  assert (forall (P : vertattrib -> bool) l1 l2, find P (l1 ++ l2) = match find P l1 with Some a => Some a | None => find P l2 end) as FA.
  { intros P l1 l2. induction l1 as [|x t IH]; [reflexivity|]. cbn. now destruct (P x). }
  induction l as [|a t IH]; intros cur r HO H; [injection H as <-; split; [reflexivity|discriminate]|].
  inversion HO as [|? ? Ha Ht]; subst.
  cbn [rev]. rewrite FA. cbn [find]. cbn [vertex_position] in H.
  assert (used_attrib a = (usage a =? 0) && negb (flag a =? 255)) as EU by reflexivity.
  change UNUSED with 255 in H. destruct (flag a =? 255).
  - rewrite andb_false_r in EU. rewrite EU. destruct (IH _ _ Ht H) as (E & K).
    destruct (find used_attrib (rev t)) eqn:E1; [split; [exact E|exact K]|]. split; [exact E|discriminate].
  - rewrite (attrib_start_div m a Hf Ha) in H. cbn [bind] in H.
    destruct (decltype_len (vartype a)) as [n|] eqn:En; [|discriminate]. cbn [bind] in H.
    destruct (negb (known_usage (usage a))); [discriminate|]. change POSITION with 0 in H. rewrite andb_true_r in EU.
    destruct (IH _ _ Ht H) as (E & K). destruct (find used_attrib (rev t)) eqn:E1; [split; [exact E|exact K]|].
    rewrite EU. destruct (usage a =? 0); split.
    + rewrite En. exact E.
    + intros a' Ea. injection Ea as <-. eauto.
    + exact E.
    + discriminate.
Qed.
Lemma vertex_position_total m (buf : list F) : 0 < vertformat m -> forall l cur, Forall (fun a => 0 <= offset a < 65536) l ->
  Forall (fun a => in_use a = true -> known_attrib a) l -> exists r, vertex_position (vertformat m) buf l cur = Ok r.
Proof.
  intros Hf. induction l as [|a t IH]; intros cur HO HD; [eexists; reflexivity|].
  inversion HO as [|? ? Ha Ht]; inversion HD as [|? ? Da Dt]; subst. cbn [vertex_position]. change UNUSED with 255.
  destruct (flag a =? 255) eqn:E; [now apply IH|]. rewrite (attrib_start_div m a Hf Ha). cbn [bind].
  destruct (known_decodes a) as (n & -> & ->); [apply Da; unfold in_use; now rewrite E|]. cbn [bind negb]. now apply IH.
Qed.

Lemma has_mat_bounds_spec m : has_mat_bounds m = true <-> bounded_kind m.
Proof. unfold has_mat_bounds, bounded_kind. rewrite andb_true_iff, negb_true_iff, Z.eqb_eq. reflexivity. Qed.

Definition bstep (b : bnds (F:=F)) q : bnds :=
  {| b_mmin := vmin3 A q (b_mmin b); b_mmax := vmax3 A q (b_mmax b);
     b_lmin := vmin3 A q (b_lmin b); b_lmax := vmax3 A q (b_lmax b) |}.
Lemma bstep_fold : forall l b, fold_left bstep l b =
  {| b_mmin := low l (b_mmin b); b_mmax := high l (b_mmax b); b_lmin := low l (b_lmin b); b_lmax := high l (b_lmax b) |}.
Proof.
  induction l as [|q t IH]; intros b; [now destruct b|]. cbn [fold_left]. rewrite IH. reflexivity.
Qed.
Lemma vertex_block vs m mt i : mat_vin vs m mt -> (i < Z.to_nat (vnum mt))%nat ->
  py_slice (vertices m) ((vstart mt + Z.of_nat i) * Z.of_nat vs) ((vstart mt + Z.of_nat i) * Z.of_nat vs + Z.of_nat vs) =
  block vs (vertices m) (Z.to_nat (vstart mt) + i).
Proof.
  intros (H1 & H2 & H3) Hi. rewrite py_slice_from by nia. unfold block. rewrite Nat2Z.id. f_equal. f_equal. nia.
Qed.
Lemma bound_vertices vs m mt : vertex_size m = Ok (Z.of_nat vs) -> short_offsets m -> mat_vin vs m mt -> bounded_kind m ->
  forall is b b', Forall (fun i => (i < Z.to_nat (vnum mt))%nat) is ->
  fold_res (bound_vertex A m mt) b (map Z.of_nat is) = Ok b' ->
  let vl := map (fun i => block vs (vertices m) (Z.to_nat (vstart mt) + i)) is in
  let ps := flat_map (fun v => match at3 v (bounding_start m) with Some q => [q] | None => [] end) vl in
  b' = fold_left bstep ps b /\ length ps = length is.
Proof.
  intros Hs HO HV HK. induction is as [|i t IH]; intros b b' HI H; [injection H as <-; split; reflexivity|].
  inversion HI as [|? ? Hi Ht]; subst. cbn [map fold_res] in H. unfold bound_vertex at 1 in H. rewrite Hs in H. cbn [bind] in H.
  rewrite (vertex_block vs m mt i HV Hi) in H.
  destruct (vertex_position _ _ _ None) as [pos|] eqn:EP; [|discriminate]. cbn [bind] in H.
  rewrite (proj2 (has_mat_bounds_spec m) HK) in H. destruct pos as [pl|]; [|discriminate].
  destruct (first3 pl) as [q|] eqn:E3; [|discriminate]. cbn [bind] in H.
  destruct (vertex_position_spec m _ HO _ _ _ (proj2 HO) EP) as (E & K).
  change (find used_attrib (rev (vertex_attributes m))) with (bounding_attrib m) in *.
  assert (at3 (block vs (vertices m) (Z.to_nat (vstart mt) + i)) (bounding_start m) = Some q) as E4.
  { unfold bounding_start. destruct (bounding_attrib m) as [a|]; [|discriminate]. destruct (K a eq_refl) as (n & En). rewrite En in E.
    injection E as ->. eapply first3_at3; [|exact E3]. apply decltype_len_range in En. lia. }
  destruct (IH _ _ Ht H) as (I1 & I2). cbn [map flat_map]. rewrite E4. cbn [app fold_left length]. rewrite <- I2. split; [exact I1|reflexivity].
Qed.
Lemma bound_vertices_total vs m mt a : vertex_size m = Ok (Z.of_nat vs) -> short_offsets m -> mat_vin vs m mt ->
  Forall (fun a => in_use a = true -> known_attrib a) (vertex_attributes m) -> bounding_attrib m = Some a -> vartype a = 2 \/ vartype a = 3 -> (attrib_start m a + 3 <= vs)%nat ->
  forall is b, Forall (fun i => (i < Z.to_nat (vnum mt))%nat) is -> exists b', fold_res (bound_vertex A m mt) b (map Z.of_nat is) = Ok b'.
Proof.
  intros Hs HO HV HD HB HT HL. induction is as [|i t IH]; intros b HI; [eexists; reflexivity|].
  inversion HI as [|? ? Hi Ht]; subst. cbn [map fold_res]. unfold bound_vertex at 1. rewrite Hs. cbn [bind].
  rewrite (vertex_block vs m mt i HV Hi). destruct (vertex_position_total m (block vs (vertices m) (Z.to_nat (vstart mt) + i)) (proj1 HO) (vertex_attributes m) None (proj2 HO) HD) as (r & EP).
  rewrite EP. cbn [bind]. destruct (has_mat_bounds m); [|cbn [bind]; now apply IH].
  destruct (vertex_position_spec m _ HO _ _ _ (proj2 HO) EP) as (E & K).
  change (find used_attrib (rev (vertex_attributes m))) with (bounding_attrib m) in *. rewrite HB in E.
  assert (exists n, decltype_len (vartype a) = Ok n /\ 3 <= n) as (n & En & Hn).
  { destruct HT as [-> | ->]; eexists; (split; [reflexivity|lia]). }
  rewrite En in E. rewrite E.
  assert (exists q, at3 (block vs (vertices m) (Z.to_nat (vstart mt) + i)) (attrib_start m a) = Some q) as (q & Eq).
  { assert (length (block vs (vertices m) (Z.to_nat (vstart mt) + i)) = vs) as LB.
    { unfold block. rewrite firstn_length, skipn_length. destruct HV as (H1 & H2 & H3). unfold zlen in H3. nia. }
    assert (forall j, (j < vs)%nat -> exists x, nth_error (block vs (vertices m) (Z.to_nat (vstart mt) + i)) j = Some x) as N.
    { intros j Hj. destruct (nth_error _ j) eqn:EE; [eauto|]. apply nth_error_None in EE. lia. }
    destruct (N (attrib_start m a)) as (x & Ex); [lia|]. destruct (N (attrib_start m a + 1)%nat) as (y & Ey); [lia|].
    destruct (N (attrib_start m a + 2)%nat) as (z & Ez); [lia|]. unfold at3. rewrite Ex, Ey, Ez. eauto. }
  rewrite (at3_first3 _ _ _ _ Hn Eq). cbn [bind]. now apply IH.
Qed.

Section Closed.
Context (vs : nat) (m : mesh F) (Hs : vertex_size m = Ok (Z.of_nat vs)) (HO : short_offsets m) (HK : bounded_kind m).
Definition mat_bound mt : mat F :=
  set_mat_bounds mt (low (positions vs m mt) (origin A)) (high (positions vs m mt) (origin A)).
Lemma bound_mat_ok lb lb' mt mt' : mat_vin vs m mt -> bound_mat A m lb mt = (lb', mt', None) ->
  lb' = (low (positions vs m mt) (fst lb), high (positions vs m mt) (snd lb)) /\ mt' = mat_bound mt /\
  zlen (positions vs m mt) = vnum mt.
Proof.
  intros HV. unfold bound_mat, zrange. destruct (fold_res _ _ _) as [b|] eqn:E; [|discriminate].
  assert (Forall (fun i => (i < Z.to_nat (vnum mt))%nat) (seq 0 (Z.to_nat (vnum mt)))) as HI
    by (apply Forall_forall; intros i Hi; apply in_seq in Hi; lia).
  destruct (bound_vertices vs m mt Hs HO HV HK _ _ _ HI E) as (E1 & E2).
  rewrite bstep_fold in E1. cbn [b_mmin b_mmax b_lmin b_lmax] in E1.
  rewrite (proj2 (has_mat_bounds_spec m) HK). intros H. injection H as <- <-. subst b.
  split; [reflexivity|]. split; [reflexivity|]. rewrite seq_length in E2. unfold zlen, positions, mat_vertices. rewrite E2.
  destruct HV. lia.
Qed.
Lemma bound_mats_ok : forall ms i lb lb' ms', Forall (mat_vin vs m) ms ->
  fold_mut_from (fun _ lb mt => bound_mat A m lb mt) i lb ms = (lb', ms', None) ->
  lb' = (low (flat_map (positions vs m) ms) (fst lb), high (flat_map (positions vs m) ms) (snd lb)) /\
  ms' = map mat_bound ms /\ Forall (fun mt => zlen (positions vs m mt) = vnum mt) ms.
Proof.
  induction ms as [|mt t IH]; intros i lb lb' ms' HV H; [injection H as <- <-; destruct lb; now repeat split|].
  inversion HV as [|? ? Hm Ht]; subst. cbn [fold_mut_from] in H.
  destruct (bound_mat A m lb mt) as ((lb1, mt1), [e|]) eqn:E; [discriminate|].
  destruct (fold_mut_from _ _ lb1 t) as ((lb2, t'), o) eqn:E2. injection H as <- <- ->.
  destruct (bound_mat_ok _ _ _ _ Hm E) as (-> & -> & P). destruct (IH _ _ _ _ Ht E2) as (-> & -> & P').
  cbn [flat_map map fst snd]. rewrite low_app, high_app. repeat split; auto.
Qed.
Definition lod_bound (l : lod F) : lod F :=
  set_lod_bounds (set_materials l (map mat_bound (materials l)))
    (low (lod_positions vs m l) (origin A)) (high (lod_positions vs m l) (origin A)).
Definition geom_bound (g : geom F) : geom F := set_lods g (map lod_bound (lods g)).
Definition counted mt : Prop := zlen (positions vs m mt) = vnum mt.
Lemma bound_lod_ok l l' : Forall (mat_vin vs m) (materials l) -> bound_lod A m l = (l', None) ->
  l' = lod_bound l /\ Forall counted (materials l).
Proof.
  intros HV. unfold bound_lod, fold_mut. destruct (fold_mut_from _ _ _ _) as (((a, b), ms), [e|]) eqn:E; [discriminate|].
  intros H. injection H as <-. destruct (bound_mats_ok _ _ _ _ _ HV E) as (E1 & -> & P). injection E1 as -> ->. split; [reflexivity|exact P].
Qed.
Lemma bound_lods_ok : forall ls i ls', Forall (mat_vin vs m) (lods_mats ls) ->
  fold_mut_from (fun _ (_ : unit) l => let '(l', o) := bound_lod A m l in (tt, l', o)) i tt ls = (tt, ls', None) ->
  ls' = map lod_bound ls /\ Forall counted (lods_mats ls).
Proof.
  induction ls as [|l t IH]; intros i ls' HV H; [injection H as <-; split; [reflexivity|constructor]|].
  cbn [lods_mats flat_map] in HV. apply Forall_app in HV. destruct HV as (Hl & Ht).
  cbn [fold_mut_from] in H. destruct (bound_lod A m l) as (l1, [e|]) eqn:E; [discriminate|].
  destruct (fold_mut_from _ _ tt t) as (([], t'), o) eqn:E2. injection H as <- ->.
  destruct (bound_lod_ok _ _ Hl E) as (-> & P). destruct (IH _ _ Ht E2) as (-> & P').
  split; [reflexivity|]. cbn [lods_mats flat_map]. apply Forall_app. now split.
Qed.
Lemma bound_geoms_ok : forall gs i gs', Forall (mat_vin vs m) (mats_of gs) ->
  fold_mut_from (fun _ (_ : unit) g => let '(g', o) := bound_geom A m g in (tt, g', o)) i tt gs = (tt, gs', None) ->
  gs' = map geom_bound gs /\ Forall counted (mats_of gs).
Proof.
  induction gs as [|g t IH]; intros i gs' HV H; [injection H as <-; split; [reflexivity|constructor]|].
  cbn [mats_of flat_map] in HV. apply Forall_app in HV. destruct HV as (Hg & Ht).
  cbn [fold_mut_from] in H. unfold bound_geom in H at 1. unfold fold_mut in H.
  destruct (fold_mut_from _ 0 tt (lods g)) as (([], ls), [e|]) eqn:E; [discriminate|].
  destruct (fold_mut_from _ _ tt t) as (([], t'), o) eqn:E2. injection H as <- ->.
  destruct (bound_lods_ok _ _ _ Hg E) as (-> & P). destruct (IH _ _ Ht E2) as (-> & P').
  split; [reflexivity|]. cbn [mats_of flat_map]. apply Forall_app. now split.
Qed.
Lemma update_ok m' : Forall (mat_vin vs m) (mats m) -> update_boundaries A m = (m', None) ->
  m' = set_geoms m (map geom_bound (geoms m)) /\ Forall counted (mats m).
Proof.
  intros HV. unfold update_boundaries, fold_mut. destruct (fold_mut_from _ _ _ _) as (([], gs), o) eqn:E.
  intros H. injection H as <- ->. destruct (bound_geoms_ok _ _ _ HV E) as (-> & P). now split.
Qed.
End Closed.

(** ** Results *)
Lemma positions_bound vs m gs mt a b : positions vs (set_geoms m gs) (set_mat_bounds mt a b) = positions vs m mt.
Proof. reflexivity. Qed.
Lemma flat_map_concat' {B C} (f : B -> list C) l : flat_map f l = concat (map f l).
Proof. apply flat_map_concat_map. Qed.

Theorem update_box good val : ordered A good val -> forall vs m m',
  vertex_size m = Ok (Z.of_nat vs) -> short_offsets m -> bounded_kind m -> Forall (mat_vin vs m) (mats m) ->
  Forall (fun mt => Forall (good3 good) (positions vs m mt)) (mats m) ->
  update_boundaries A m = (m', None) -> every_lod (lod_boxed A vs m') m'.
Proof.
  intros O vs m m' Hs HO HK HV HG HU. destruct (update_ok vs m Hs HO HK m' HV HU) as (-> & HC). unfold every_lod. cbn [geoms set_geoms].
  apply Forall_map. apply Forall_forall. intros g Hg. cbn [geom_bound lods set_lods]. apply Forall_map. apply Forall_forall. intros l Hl.
  assert (forall mt, In mt (materials l) -> In mt (mats m)) as IN.
  { intros mt Hm. unfold mats, mats_of. apply in_flat_map. exists g. split; [exact Hg|]. apply in_flat_map. now exists l. }
  rewrite Forall_forall in HG, HC.
  set (ls := map (positions vs m) (materials l)).
  assert (Forall (Forall (good3 good)) ls) as GL by (apply Forall_map, Forall_forall; intros mt Hm; apply HG; auto).
  assert (lod_positions vs m l = concat ls) as EL by apply flat_map_concat_map.
  exists (low (concat ls) (origin A)), (high (concat ls) (origin A)),
         (map (fun l => low l (origin A)) ls), (map (fun l => high l (origin A)) ls).
  cbn [lod_bound lod_min lod_max set_lod_bounds set_materials materials]. rewrite <- EL.
  split; [reflexivity|]. split; [reflexivity|].
  split; [unfold ls; rewrite !map_map; reflexivity|]. split; [unfold ls; rewrite !map_map; reflexivity|].
  assert (lod_positions vs (set_geoms m (map (geom_bound vs m) (geoms m))) (lod_bound vs m l) = concat ls) as EP.
  { unfold lod_positions. cbn [lod_bound materials set_lod_bounds set_materials]. rewrite flat_map_concat_map, map_map. reflexivity. }
  rewrite EP, EL. split; [apply (low_high_box good val O); now apply Forall_concat|].
  split; [now apply (box_corners good val O)|].
  apply Forall_map. apply Forall_forall. intros mt Hm. eexists. eexists. split; [reflexivity|]. split; [reflexivity|].
  split; [exact (HC mt (IN mt Hm))|]. exact (low_high_box good val O _ (HG mt (IN mt Hm))).
Qed.

Lemma fold_mut_total {B S} (f : nat -> S -> B -> S * B * option exn) (P : B -> Prop) :
  (forall i s x, P x -> snd (f i s x) = None) -> forall l i s, Forall P l -> snd (fold_mut_from f i s l) = None.
Proof.
  intros H. induction l as [|x t IH]; intros i s HP; [reflexivity|]. inversion HP as [|? ? Hx Ht]; subst. cbn [fold_mut_from].
  specialize (H i s x Hx). destruct (f i s x) as ((s', x'), o). cbn in H. subst o. specialize (IH (Datatypes.S i) s' Ht).
  destruct (fold_mut_from f _ s' t) as ((s'', t'), o). exact IH.
Qed.
Lemma update_total_aux (P : mat F -> Prop) m : (forall lb mt, P mt -> snd (bound_mat A m lb mt) = None) ->
  Forall P (mats m) -> exists m', update_boundaries A m = (m', None).
Proof.
  intros H HP. unfold update_boundaries, fold_mut.
  pose proof (fold_mut_total (fun _ (_ : unit) g => let '(g', o) := bound_geom A m g in (tt, g', o))
               (fun g => Forall P (lods_mats (lods g)))) as T.
  specialize T with (i := 0%nat) (s := tt) (l := geoms m).
  destruct (fold_mut_from _ _ tt (geoms m)) as (([], gs), o). exists (set_geoms m gs). f_equal. apply T.
  - intros _ _ g Hg. unfold bound_geom, fold_mut.
    pose proof (fold_mut_total (fun _ (_ : unit) l => let '(l', o) := bound_lod A m l in (tt, l', o)) (fun l => Forall P (materials l))) as T2.
    specialize T2 with (i := 0%nat) (s := tt) (l := lods g). destruct (fold_mut_from _ _ tt (lods g)) as (([], ls), o2). apply T2.
    + intros _ _ l Hl. unfold bound_lod, fold_mut.
      pose proof (fold_mut_total (fun _ lb mt => bound_mat A m lb mt) P (fun _ => H) (materials l) 0%nat (zero3 A, zero3 A) Hl) as T3.
      destruct (fold_mut_from _ _ _ (materials l)) as (((a, b), ms), o3). cbn in T3. now rewrite T3.
    + apply Forall_forall. intros l Hl. rewrite Forall_forall in Hg |- *. intros mt Hm. apply Hg. apply in_flat_map. eauto.
  - apply Forall_forall. intros g Hg. rewrite Forall_forall in HP |- *. intros mt Hm. apply HP. apply in_flat_map. eauto.
Qed.

Theorem update_total vs m a : vertex_size m = Ok (Z.of_nat vs) -> short_offsets m -> Forall (mat_vin vs m) (mats m) ->
  Forall (fun a => in_use a = true -> known_attrib a) (vertex_attributes m) -> bounding_attrib m = Some a -> vartype a = 2 \/ vartype a = 3 -> (attrib_start m a + 3 <= vs)%nat ->
  exists m', update_boundaries A m = (m', None).
Proof.
  intros Hs HO HV HD HB HT HL. apply (update_total_aux (mat_vin vs m)); [|exact HV]. intros lb mt Hm. unfold bound_mat, zrange.
  destruct (bound_vertices_total vs m mt a Hs HO Hm HD HB HT HL (seq 0 (Z.to_nat (vnum mt)))
    {| b_mmin := zero3 A; b_mmax := zero3 A; b_lmin := fst lb; b_lmax := snd lb |}) as (b & ->); [|reflexivity].
  apply Forall_forall. intros i Hi. apply in_seq in Hi. lia.
Qed.

(** *** Meshes without material bounds *)
Lemma fold_res_const {B S} (f : S -> B -> res S) l s s' : (forall x s1, f s x = Ok s1 -> s1 = s) -> fold_res f s l = Ok s' -> s' = s.
Proof.
  intros H. induction l as [|x t IH]; intros E; [now injection E|]. cbn [fold_res] in E.
  destruct (f s x) as [s1|] eqn:E1; [|discriminate]. cbn [bind] in E. apply H in E1. subst. auto.
Qed.
Lemma bound_mat_none m lb lb' mt mt' o : has_mat_bounds m = false -> bound_mat A m lb mt = (lb', mt', o) -> lb' = lb /\ mt' = mt.
Proof.
  intros HK. unfold bound_mat. rewrite HK. destruct (fold_res _ _ _) as [b|] eqn:E; intros H; inversion H; subst; [|now split].
  apply fold_res_const in E.
  - subst. destruct lb. now split.
  - intros x s1. unfold bound_vertex. rewrite HK. destruct (vertex_size m); [|discriminate]. cbn [bind].
    destruct (vertex_position _ _ _ _); [|discriminate]. cbn [bind]. congruence.
Qed.
Lemma bound_mats_none m : has_mat_bounds m = false -> forall ms i lb lb' ms' o,
  fold_mut_from (fun _ lb mt => bound_mat A m lb mt) i lb ms = (lb', ms', o) -> lb' = lb /\ ms' = ms.
Proof.
  intros HK. induction ms as [|mt t IH]; intros i lb lb' ms' o H; [injection H as <- <-; now split|].
  cbn [fold_mut_from] in H. destruct (bound_mat A m lb mt) as ((lb1, mt1), [e|]) eqn:E; apply (bound_mat_none _ _ _ _ _ _ HK) in E; destruct E as (-> & ->).
  - inversion H; subst. now split.
  - destruct (fold_mut_from _ _ lb t) as ((lb2, t'), o') eqn:E2. destruct (IH _ _ _ _ _ E2) as (-> & ->). inversion H; subst. now split.
Qed.
Lemma fold_mut_map {B} (f : B -> B * option exn) (h : B -> B) : (forall x y, f x = (y, None) -> y = h x) -> forall l i l',
  fold_mut_from (fun _ (_ : unit) x => let '(y, o) := f x in (tt, y, o)) i tt l = (tt, l', None) -> l' = map h l.
Proof.
  intros H. induction l as [|x t IH]; intros i l' E; [now injection E as <-|]. cbn [fold_mut_from] in E.
  destruct (f x) as (y, [e|]) eqn:Ex; [discriminate|]. destruct (fold_mut_from _ _ tt t) as (([], t'), o) eqn:E2.
  injection E as <- ->. apply H in Ex. subst. cbn [map]. f_equal. eauto.
Qed.
Definition lod_erased (l : lod F) : lod F := set_lod_bounds l (origin A) (origin A).
Theorem update_erases m m' : ~ bounded_kind m -> update_boundaries A m = (m', None) ->
  m' = set_geoms m (map (fun g => set_lods g (map lod_erased (lods g))) (geoms m)).
Proof.
  intros HK. assert (has_mat_bounds m = false) as HK'.
  { destruct (has_mat_bounds m) eqn:E; [|reflexivity]. apply has_mat_bounds_spec in E. contradiction. }
  unfold update_boundaries, fold_mut. destruct (fold_mut_from _ _ _ _) as (([], gs), o) eqn:E. intros H. injection H as <- ->.
  f_equal. refine (fold_mut_map (bound_geom A m) (fun g => set_lods g (map lod_erased (lods g))) _ _ _ _ E).
  intros g g' Eg. unfold bound_geom, fold_mut in Eg.
  destruct (fold_mut_from _ _ tt (lods g)) as (([], ls), o) eqn:E2. injection Eg as <- ->. f_equal.
  refine (fold_mut_map (bound_lod A m) lod_erased _ _ _ _ E2). intros l l' El. unfold bound_lod, fold_mut in El.
  destruct (fold_mut_from _ _ _ (materials l)) as (((a, b), ms), [e|]) eqn:E3; [discriminate|]. injection El as <-.
  destruct (bound_mats_none m HK' _ _ _ _ _ _ E3) as (E4 & ->). rewrite set_materials_same. apply pair_equal_spec in E4. destruct E4 as (-> & ->). reflexivity.
Qed.
Lemma map_flat_map' {B C D} (h : C -> D) (f : B -> list C) l : map h (flat_map f l) = flat_map (fun x => map h (f x)) l.
Proof. induction l; [reflexivity|]. cbn. now rewrite map_app, IHl. Qed.
Theorem update_erased m m' : ~ bounded_kind m -> update_boundaries A m = (m', None) ->
  every_lod (fun l => lod_min l = Some (origin A) /\ lod_max l = Some (origin A)) m' /\ mats m' = mats m.
Proof.
  intros HK HU. rewrite (update_erases m m' HK HU). split.
  - unfold every_lod. cbn. apply Forall_map, Forall_forall. intros g _. cbn. apply Forall_map, Forall_forall. intros l _. now split.
  - unfold mats, mats_of. cbn. rewrite flat_map_concat_map, map_map, <- flat_map_concat_map. apply flat_map_ext. intros g. cbn.
    rewrite flat_map_concat_map, map_map, <- flat_map_concat_map. reflexivity.
Qed.
Theorem update_erased_total vs m : ~ bounded_kind m -> vertex_size m = Ok vs -> short_offsets m -> Forall (fun a => in_use a = true -> known_attrib a) (vertex_attributes m) ->
  exists m', update_boundaries A m = (m', None).
Proof.
  intros HK Hs HO HD. assert (has_mat_bounds m = false) as HK'.
  { destruct (has_mat_bounds m) eqn:E; [|reflexivity]. apply has_mat_bounds_spec in E. contradiction. }
  apply (update_total_aux (fun _ => True)); [|apply Forall_forall; auto]. intros lb mt _. unfold bound_mat.
  assert (forall l b, exists b', fold_res (bound_vertex A m mt) b l = Ok b') as T.
  { induction l as [|i t IH]; intros b; [eexists; reflexivity|]. cbn [fold_res]. unfold bound_vertex at 1. rewrite Hs. cbn [bind].
    match goal with |- context [vertex_position _ ?buf _ _] => destruct (vertex_position_total m buf (proj1 HO) (vertex_attributes m) None (proj2 HO) HD) as (r & ->) end.
    rewrite HK'. cbn [bind]. apply IH. }
  match goal with |- context [fold_res _ ?b ?l] => destruct (T l b) as (b' & ->) end. reflexivity.
Qed.

(** *** Frame and idempotence *)
Lemma fold_mut_keeps {B S C} (h : B -> C) (f : nat -> S -> B -> S * B * option exn) :
  (forall i s x, h (snd (fst (f i s x))) = h x) -> forall l i s, map h (snd (fst (fold_mut_from f i s l))) = map h l.
Proof.
  intros H. induction l as [|x t IH]; intros i s; [reflexivity|]. cbn [fold_mut_from]. specialize (H i s x).
  destruct (f i s x) as ((s', x'), [e|]); cbn [fst snd] in H.
  - cbn. now rewrite H.
  - specialize (IH (Datatypes.S i) s'). destruct (fold_mut_from f _ s' t) as ((s'', t'), o). cbn in *. now rewrite H, IH.
Qed.
Lemma bound_mat_keeps m lb mt : mat_unbound (snd (fst (bound_mat A m lb mt))) = mat_unbound mt.
Proof. unfold bound_mat. destruct (fold_res _ _ _); [|reflexivity]. cbn. now destruct (has_mat_bounds m). Qed.
Lemma bound_lod_keeps m l : lod_unbound (fst (bound_lod A m l)) = lod_unbound l.
Proof.
  unfold bound_lod, fold_mut. pose proof (fold_mut_keeps mat_unbound (fun _ lb mt => bound_mat A m lb mt) (fun _ => bound_mat_keeps m) (materials l) 0%nat (zero3 A, zero3 A)) as H.
  destruct (fold_mut_from _ _ _ _) as (((a, b), ms), [e|]); cbn in *; unfold lod_unbound; cbn; now rewrite H.
Qed.
Lemma bound_geom_keeps m g : geom_unbound (fst (bound_geom A m g)) = geom_unbound g.
Proof.
  unfold bound_geom, fold_mut.
  pose proof (fold_mut_keeps lod_unbound (fun _ (_ : unit) l => let '(l', o) := bound_lod A m l in (tt, l', o))) as H.
  specialize H with (l := lods g) (i := 0%nat) (s := tt). destruct (fold_mut_from _ _ _ _) as ((u, ls), o). cbn in *. unfold geom_unbound. cbn. rewrite H; [reflexivity|].
  intros _ _ l. rewrite <- (bound_lod_keeps m l). now destruct (bound_lod A m l).
Qed.
Theorem update_frame m m' o : update_boundaries A m = (m', o) -> same_but_bounds m m'.
Proof.
  unfold update_boundaries, fold_mut.
  pose proof (fold_mut_keeps geom_unbound (fun _ (_ : unit) g => let '(g', o) := bound_geom A m g in (tt, g', o))) as H.
  specialize H with (l := geoms m) (i := 0%nat) (s := tt). destruct (fold_mut_from _ _ _ _) as ((u, gs), o'). intros E. injection E as <- <-.
  repeat split. cbn in *. apply H. intros _ _ g. rewrite <- (bound_geom_keeps m g). now destruct (bound_geom A m g).
Qed.

Lemma fold_mut_idem {B S} (f : nat -> S -> B -> S * B * option exn) :
  (forall i s x, f i s (snd (fst (f i s x))) = f i s x) -> forall l i s, fold_mut_from f i s (snd (fst (fold_mut_from f i s l))) = fold_mut_from f i s l.
Proof.
  intros H. induction l as [|x t IH]; intros i s; [reflexivity|]. cbn [fold_mut_from]. specialize (H i s x).
  destruct (f i s x) as ((s', x'), [e|]) eqn:E; cbn [fst snd] in H.
  - cbn [fst snd fold_mut_from]. now rewrite H.
  - specialize (IH (Datatypes.S i) s'). destruct (fold_mut_from f _ s' t) as ((s'', t'), o). cbn [fst snd] in IH |- *. cbn [fold_mut_from]. now rewrite H, IH.
Qed.
Lemma bound_mat_idem m lb mt : bound_mat A m lb (snd (fst (bound_mat A m lb mt))) = bound_mat A m lb mt.
Proof.
  unfold bound_mat at 2. destruct (fold_res _ _ _) as [b|] eqn:E; [|reflexivity]. cbn [fst snd].
  destruct (has_mat_bounds m) eqn:K; [|reflexivity]. unfold bound_mat. rewrite E, K.
  change (fold_res (bound_vertex A m (set_mat_bounds mt (b_mmin b) (b_mmax b))) ?z (zrange (vnum (set_mat_bounds mt (b_mmin b) (b_mmax b)))))
    with (fold_res (bound_vertex A m mt) z (zrange (vnum mt))). rewrite E. reflexivity.
Qed.
Lemma bound_lod_idem m l : bound_lod A m (fst (bound_lod A m l)) = bound_lod A m l.
Proof.
  unfold bound_lod at 2, fold_mut.
  pose proof (fold_mut_idem (fun _ lb mt => bound_mat A m lb mt) (fun _ => bound_mat_idem m) (materials l) 0%nat (zero3 A, zero3 A)) as H.
  destruct (fold_mut_from _ _ (zero3 A, zero3 A) (materials l)) as (((a, b), ms), [e|]) eqn:E; cbn [fst snd] in *; unfold bound_lod, fold_mut; rewrite E;
    cbn [materials set_materials set_lod_bounds]; rewrite H; reflexivity.
Qed.
Lemma bound_geom_idem m g : bound_geom A m (fst (bound_geom A m g)) = bound_geom A m g.
Proof.
  unfold bound_geom at 2, fold_mut.
  pose proof (fold_mut_idem (fun _ (_ : unit) l => let '(l', o) := bound_lod A m l in (tt, l', o))) as H.
  specialize H with (l := lods g) (i := 0%nat) (s := tt). destruct (fold_mut_from _ _ tt (lods g)) as (([], ls), o) eqn:E; cbn [fst snd] in *. unfold bound_geom, fold_mut. rewrite E.
  cbn [lods set_lods]. rewrite H; [reflexivity|]. intros _ [] l.
  pose proof (bound_lod_idem m l) as I. destruct (bound_lod A m l) as (l1, o1). cbn [fst snd] in *. now rewrite I.
Qed.
Theorem update_idem m : update_boundaries A (fst (update_boundaries A m)) = update_boundaries A m.
Proof.
  unfold update_boundaries at 2, fold_mut.
  pose proof (fold_mut_idem (fun _ (_ : unit) g => let '(g', o) := bound_geom A m g in (tt, g', o))) as H.
  specialize H with (l := geoms m) (i := 0%nat) (s := tt). destruct (fold_mut_from _ _ tt (geoms m)) as (([], gs), o) eqn:E; cbn [fst snd] in *. unfold update_boundaries, fold_mut. rewrite E.
  cbn [geoms set_geoms]. change (bound_geom A (set_geoms m gs)) with (bound_geom A m).
  rewrite H; [reflexivity|]. intros _ [] g.
  pose proof (bound_geom_idem m g) as I. destruct (bound_geom A m g) as (g1, o1). cbn [fst snd] in *. now rewrite I.
Qed.
End Bounds.
