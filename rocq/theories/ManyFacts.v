(** Merging several meshes into one. *)
From Coq Require Import ZArith List Bool Lia Permutation.
From Verif Require Import PyBase Struct Mesh Edit Spec SpecEdit SpecMany MergeFacts.
Import ListNotations.
Open Scope Z_scope.

Section Many.
Context {F : Type}.
Implicit Types (a b m r : mesh F) (bs : list (mesh F)).

Lemma kth_nil k ys : kth_mats k ([] : list (mesh F)) ys -> ys = [].
Proof. now inversion 1. Qed.
Lemma kth_cons k b bs ys : kth_mats k (b :: bs) ys -> exists y t, ys = y :: t /\ nth_error (mats b) k = Some y /\ kth_mats k bs t.
Proof. inversion 1; subst. eauto. Qed.

(** What a merge keeps of the properties that the next one needs. *)
Lemma merge_keeps vs a b m : vertex_size a = Ok (Z.of_nat vs) -> in_range vs a -> in_range vs b -> merge a b = (m, Merged) ->
  vertex_size m = Ok (Z.of_nat vs) /\ in_range vs m /\ packed vs m /\ compatible a m /\ same_header a m /\
  map (geom_mats uncounted) (geoms m) = map (geom_mats uncounted) (geoms a) /\ length (mats m) = length (mats a).
Proof.
  intros Hs Ra Rb H. destruct (merge_tables vs a b m Hs Ra Rb H) as (P & SH & G & _).
  assert (vertex_attributes m = vertex_attributes a) as EA by (unfold same_header in SH; tauto).
  split; [unfold vertex_size in *; now rewrite EA|]. split; [now apply packed_in_range|]. split; [exact P|].
  split; [apply uncounted_compat; auto|]. split; [exact SH|]. split; [exact G|].
  now destruct (merged_nth vs a b m Hs Ra Rb H) as (_ & E & _).
Qed.

(** ** Which meshes fit *)
Definition overflows a bs : Prop := exists before b after k x ys y i,
  bs = before ++ b :: after /\ nth_error (mats a) k = Some x /\ kth_mats k before ys /\ nth_error (mats b) k = Some y /\
  In i (mat_indices b y) /\ 65535 < i + vnum x + sumZ vnum ys.

Lemma overflows_cons vs a b m bs : vertex_size a = Ok (Z.of_nat vs) -> in_range vs a -> in_range vs b -> merge a b = (m, Merged) ->
  overflows a (b :: bs) -> overflows m bs.
Proof.
  intros Hs Ra Rb H (before & c & after & k & x & ys & y & i & E & Hx & Hy & Hc & Hi & O).
  destruct (merged_nth vs a b m Hs Ra Rb H) as (L1 & L2 & N).
  destruct before as [|b' before]; injection E as -> ->.
  - apply kth_nil in Hy. subst ys. cbn [sumZ] in O. exfalso.
    destruct (merged_built vs a c m Hs Ra Rb H) as (HC & _ & _).
    destruct (merge_overflow vs a c HC Hs Ra Rb) as (K & _).
    destruct K as (m' & E & _); [exists k, x, y, i; repeat split; auto; lia|]. rewrite E in H. discriminate.
  - apply kth_cons in Hy. destruct Hy as (y0 & t & -> & Hy0 & Ht).
    destruct (nth_from_mats (mats a) (mats m) k x (eq_sym L2) Hx) as (z & Hz).
    destruct (N k x y0 z Hx Hy0 Hz) as (V & _). cbn [sumZ] in O.
    exists before, c, after, k, z, t, y, i. repeat split; auto. lia.
Qed.
Lemma overflows_step vs a b m bs : vertex_size a = Ok (Z.of_nat vs) -> in_range vs a -> in_range vs b -> merge a b = (m, Merged) ->
  overflows m bs -> overflows a (b :: bs).
Proof.
  intros Hs Ra Rb H (before & c & after & k & z & ys & y & i & E & Hz & Hy & Hc & Hi & O).
  destruct (merged_nth vs a b m Hs Ra Rb H) as (L1 & L2 & N).
  destruct (nth_from_mats (mats m) (mats a) k z L2 Hz) as (x & Hx).
  destruct (nth_from_mats (mats a) (mats b) k x (eq_sym L1) Hx) as (y0 & Hy0).
  destruct (N k x y0 z Hx Hy0 Hz) as (V & _).
  exists (b :: before), c, after, k, x, (y0 :: ys), y, i. subst bs. split; [reflexivity|]. split; [exact Hx|].
  split; [now constructor|]. split; [exact Hc|]. split; [exact Hi|]. cbn [sumZ]. lia.
Qed.

Theorem each_fits vs bs : forall a, vertex_size a = Ok (Z.of_nat vs) -> in_range vs a -> Forall (in_range vs) bs -> Forall (compatible a) bs ->
  (overflows a bs -> exists m, merge_each a bs = (m, Some EOverflow)) /\
  (~ overflows a bs -> exists m, merge_each a bs = (m, None)).
Proof.
  induction bs as [|b bs IH]; intros a Hs Ra R C.
  - split; [|intros _; now exists a]. intros (before & b & after & k & x & ys & y & i & E & _). now destruct before.
  - inversion R as [|? ? Rb Rt]; subst. inversion C as [|? ? Cb Ct]; subst.
    destruct (merge_overflow vs a b Cb Hs Ra Rb) as (O1 & O2). cbn [merge_each].
    destruct (merge_cases vs a b Cb Hs Ra Rb) as [(_ & m & E & _)|(_ & m & E & _)]; rewrite E.
    + destruct (merge_keeps vs a b m Hs Ra Rb E) as (Hm & Rm & _ & Cm & _).
      destruct (IH m Hm Rm Rt) as (I1 & I2).
      { eapply Forall_impl; [|exact Ct]. intros c Hc. eapply compatible_trans; [apply compatible_sym; exact Cm|exact Hc]. }
      split.
      * intros O. apply I1. exact (overflows_cons vs a b m bs Hs Ra Rb E O).
      * intros O. apply I2. intros O'. apply O. exact (overflows_step vs a b m bs Hs Ra Rb E O').
    + split; [intros _; now exists m|]. intros O. exfalso. destruct O2 as (m' & E'); [|rewrite E' in E; discriminate].
      intros (k & x & y & i & Hx & Hy & Hi & B). apply O. exists [], b, bs, k, x, [], y, i.
      repeat split; auto; [constructor|]. cbn [sumZ]. lia.
Qed.

(** ** What they become *)
Theorem each_result vs bs : forall a r, vertex_size a = Ok (Z.of_nat vs) -> in_range vs a -> Forall (in_range vs) bs -> Forall (compatible a) bs ->
  merge_each a bs = (r, None) ->
  in_range vs r /\ vertex_size r = Ok (Z.of_nat vs) /\ same_header a r /\ map (geom_mats uncounted) (geoms r) = map (geom_mats uncounted) (geoms a) /\
  length (mats r) = length (mats a) /\ Forall (fun b => length (mats b) = length (mats a)) bs /\
  (bs <> [] -> packed vs r /\ vertnum r = sumZ vnum (mats r) /\ indexnum r = sumZ inum (mats r)) /\
  forall k x ys z, nth_error (mats a) k = Some x -> kth_mats k bs ys -> nth_error (mats r) k = Some z ->
    vnum z = vnum x + sumZ vnum ys /\ inum z = inum x + sumZ inum ys /\
    mat_vertices vs r z = mat_vertices vs a x ++ flat_map (fun p => mat_vertices vs (fst p) (snd p)) (combine bs ys) /\
    (closed a -> Forall closed bs -> closed r /\
     corners vs r z = corners vs a x ++ flat_map (fun p => corners vs (fst p) (snd p)) (combine bs ys)).
Proof.
  induction bs as [|b bs IH]; intros a r Hs Ra R C H.
  - cbn [merge_each] in H. injection H as ->. do 4 (split; [assumption || (repeat split; reflexivity) || reflexivity|]).
    split; [reflexivity|]. split; [constructor|]. split; [intros E; now destruct E|].
    intros k x ys z Hx Hy Hz. apply kth_nil in Hy. subst ys. rewrite Hx in Hz. injection Hz as ->. cbn [sumZ combine flat_map].
    rewrite !app_nil_r. repeat split; try lia. assumption.
  - inversion R as [|? ? Rb Rt]; subst. inversion C as [|? ? Cb Ct]; subst. cbn [merge_each] in H.
    destruct (merge_cases vs a b Cb Hs Ra Rb) as [(_ & m & E & _)|(_ & m & E & _)]; rewrite E in H; [|discriminate].
    destruct (merge_keeps vs a b m Hs Ra Rb E) as (Hm & Rm & Pm & Cm & SH & G & L).
    destruct (merged_nth vs a b m Hs Ra Rb E) as (L1 & _ & N).
    destruct (IH m r Hm Rm Rt) as (I1 & I2 & I3 & I4 & I5 & I6 & I7 & I8); [|exact H|].
    { eapply Forall_impl; [|exact Ct]. intros c Hc. eapply compatible_trans; [apply compatible_sym; exact Cm|exact Hc]. }
    split; [exact I1|]. split; [exact I2|]. split.
    { unfold same_header in *. destruct SH as (? & ? & ? & ? & ? & ? & ? & ? & ?), I3 as (? & ? & ? & ? & ? & ? & ? & ? & ?). repeat split; congruence. }
    split; [congruence|]. split; [congruence|]. split.
    { constructor; [exact L1|]. eapply Forall_impl; [|exact I6]. cbn. intros c Hc. congruence. }
    split.
    { intros _. destruct bs as [|c t]; [cbn [merge_each] in H; injection H as <-|apply I7; discriminate].
      destruct (merge_tables vs a b m Hs Ra Rb E) as (_ & _ & _ & _ & _ & T1 & T2 & _). auto. }
    intros k x ys z Hx Hy Hz. apply kth_cons in Hy. destruct Hy as (y & t & -> & Hy & Ht).
    destruct (nth_from_mats (mats a) (mats m) k x (eq_sym L) Hx) as (w & Hw).
    destruct (N k x y w Hx Hy Hw) as (V & I & EV & EI). destruct (I8 k w t z Hw Ht Hz) as (V' & In' & EV' & K).
    cbn [sumZ combine flat_map fst snd]. split; [lia|]. split; [lia|]. split; [rewrite EV', EV, app_assoc; reflexivity|].
    intros Ca Cbs. inversion Cbs as [|? ? Clb Clt]; subst.
    destruct (merge_tables vs a b m Hs Ra Rb E) as (_ & _ & _ & _ & _ & _ & _ & CM & _). specialize (CM Ca Clb).
    destruct (K CM Clt) as (Cr & EC). split; [exact Cr|].
    destruct (merge_corners vs a b m Hs Ra Rb Ca) with (2 := E) as (_ & _ & NC).
    { unfold closed in Clb. eapply Forall_impl; [|exact Clb]. intros mt Hmt. eapply Forall_impl; [|exact Hmt]. cbn. intros. lia. }
    rewrite EC, (NC k x y w Hx Hy Hw), app_assoc. reflexivity.
Qed.

(** ** Copies of one mesh *)
Lemma kth_repeat k b y n : nth_error (mats b) k = Some y -> kth_mats k (repeat b n) (repeat y n).
Proof. intros H. induction n; simpl; constructor; auto. Qed.
Lemma sum_repeat {A} (f : A -> Z) x n : sumZ f (repeat x n) = Z.of_nat n * f x.
Proof. induction n as [|n IH]; simpl repeat; cbn [sumZ]; [reflexivity|rewrite IH; lia]. Qed.
Lemma kth_unique k bs ys ys' : kth_mats k bs ys -> kth_mats k bs ys' -> ys = ys'.
Proof.
  intros H. revert ys'. induction H as [|b y bs ys Hb _ IH]; intros ys' H'.
  - now apply kth_nil in H'.
  - apply kth_cons in H'. destruct H' as (y' & t & -> & Hy & Ht). rewrite Hb in Hy. injection Hy as ->. f_equal. auto.
Qed.
Lemma repeat_split {A} (b : A) n before c after : repeat b n = before ++ c :: after ->
  exists j, (j < n)%nat /\ before = repeat b j /\ c = b.
Proof.
  revert before. induction n as [|n IH]; intros [|d before] E; simpl in E; try discriminate.
  - injection E as <- <-. exists 0%nat. repeat split. lia.
  - injection E as <- E. destruct (IH before E) as (j & L & -> & ->). exists (S j). repeat split. lia.
Qed.

Lemma overflows_repeat vs a b n : in_range vs b ->
  overflows a (repeat b n) <->
  exists k x y i, nth_error (mats a) k = Some x /\ nth_error (mats b) k = Some y /\ In i (mat_indices b y) /\
    (0 < n)%nat /\ 65535 < i + vnum x + (Z.of_nat n - 1) * vnum y.
Proof.
  intros Rb. split.
  - intros (before & c & after & k & x & ys & y & i & E & Hx & Hy & Hc & Hi & O).
    apply repeat_split in E. destruct E as (j & L & -> & ->).
    rewrite (kth_unique k _ _ _ Hy (kth_repeat k b y j Hc)), sum_repeat in O.
    exists k, x, y, i. split; [exact Hx|]. split; [exact Hc|]. split; [exact Hi|]. split; [lia|].
    assert (0 <= vnum y). { destruct Rb as (_ & Rb). rewrite Forall_forall in Rb. apply (Rb y). eapply nth_error_In; eauto. }
    assert (Z.of_nat j * vnum y <= (Z.of_nat n - 1) * vnum y) by (apply Z.mul_le_mono_nonneg_r; lia). lia.
  - intros (k & x & y & i & Hx & Hy & Hi & L & O). destruct n as [|n]; [lia|].
    exists (repeat b n), b, [], k, x, (repeat y n), y, i. split.
    { change (b :: []) with (repeat b 1). rewrite <- repeat_app. f_equal. lia. }
    split; [exact Hx|]. split; [now apply kth_repeat|]. split; [exact Hy|]. split; [exact Hi|].
    rewrite sum_repeat. replace (Z.of_nat (S n) - 1) with (Z.of_nat n) in O by lia. lia.
Qed.

Theorem copies_fit vs a b n : vertex_size a = Ok (Z.of_nat vs) -> in_range vs a -> in_range vs b -> compatible a b ->
  let over := exists k x y i, nth_error (mats a) k = Some x /\ nth_error (mats b) k = Some y /\ In i (mat_indices b y) /\
    (0 < n)%nat /\ 65535 < i + vnum x + (Z.of_nat n - 1) * vnum y in
  (over -> exists m, merge_each a (repeat b n) = (m, Some EOverflow)) /\
  (~ over -> exists m, merge_each a (repeat b n) = (m, None)).
Proof.
  intros Hs Ra Rb C over.
  assert (overflows a (repeat b n) <-> over) as E by (apply (overflows_repeat vs); exact Rb).
  destruct (each_fits vs (repeat b n) a Hs Ra) as (O1 & O2).
  - apply Forall_forall. intros c Hc. apply repeat_spec in Hc. now subst.
  - apply Forall_forall. intros c Hc. apply repeat_spec in Hc. now subst.
  - split; [intros O; apply O1; now apply E|intros O; apply O2; intros O'; apply O; now apply E].
Qed.

(** ** Meshes that cannot be merged are passed over *)
Lemma guard2_map {B C} (u : B -> B) (f : B -> C -> res bool) l l' : guard2 f (map u l) l' = guard2 (fun x => f (u x)) l l'.
Proof.
  unfold guard2. rewrite map_length. destruct (negb _); [reflexivity|].
  revert l'. induction l as [|x t IH]; intros [|y t']; cbn [map check2]; try reflexivity. now rewrite IH.
Qed.
Lemma guard2_ext {B C} (f g : B -> C -> res bool) l l' : (forall x y, f x y = g x y) -> guard2 f l l' = guard2 g l l'.
Proof.
  intros H. unfold guard2. destruct (negb _); [reflexivity|].
  revert l'. induction l as [|x t IH]; intros [|y t']; cbn [check2]; try reflexivity. now rewrite H, IH.
Qed.
Definition geom_ok (g h : geom F) := guard2 (fun l k => guard2 mat_compatible (materials l) (materials k)) (lods g) (lods h).
Lemma geom_ok_uncounted (g h : geom F) : geom_ok (geom_mats uncounted g) h = geom_ok g h.
Proof.
  unfold geom_ok. cbn [geom_mats lods]. rewrite guard2_map. apply guard2_ext. intros l k. cbn [lod_mats materials].
  rewrite guard2_map. apply guard2_ext. reflexivity.
Qed.
Lemma canMerge_uncounted a m c : map (geom_mats uncounted) (geoms m) = map (geom_mats uncounted) (geoms a) -> same_header a m ->
  canMerge m c = canMerge a c.
Proof.
  intros E SH. rewrite !canMerge_guard. assert (vertex_attributes m = vertex_attributes a) as -> by (unfold same_header in SH; tauto).
  assert (forall x : mesh F, guard2 geom_ok (geoms x) (geoms c) = guard2 geom_ok (map (geom_mats uncounted) (geoms x)) (geoms c)) as G.
  { intros x. rewrite guard2_map. apply guard2_ext. intros. symmetry. apply geom_ok_uncounted. }
  unfold geom_ok in G. rewrite (G m), (G a), E. reflexivity.
Qed.

Theorem each_passes_over vs before b after : forall a, vertex_size a = Ok (Z.of_nat vs) -> in_range vs a -> Forall (in_range vs) before ->
  canMerge a b = Ok false -> merge_each a (before ++ b :: after) = merge_each a (before ++ after).
Proof.
  induction before as [|c t IH]; intros a Hs Ra R H.
  - cbn [app merge_each]. now rewrite (merge_incompatible _ _ H).
  - inversion R as [|? ? Rc Rt]; subst. cbn [app merge_each]. destruct (merge a c) as (m, [| |e]) eqn:E; [| |reflexivity].
    + destruct (merge_keeps vs a c m Hs Ra Rc E) as (Hm & Rm & _ & _ & SH & G & _). apply IH; auto.
      rewrite <- H. now apply canMerge_uncounted.
    + assert (m = a) as ->.
      { unfold merge in E. destruct (canMerge a c) as [[|]|]; [|now injection E|discriminate]. exfalso.
        unfold merge_with in E. destruct (trav_geoms _ _ _) as ((s', gs), [e|]); [discriminate|]. destruct (index a); discriminate. }
      now apply IH.
Qed.

(** ** The order of the meshes *)
Lemma kth_flat {B} k (f : mesh F -> mat F -> list B) bs ys : kth_mats k bs ys ->
  flat_map (fun p => f (fst p) (snd p)) (combine bs ys) =
  flat_map (fun b => match nth_error (mats b) k with Some y => f b y | None => [] end) bs.
Proof.
  induction 1 as [|b y bs ys H _ IH]; cbn [combine flat_map fst snd]; [reflexivity|]. now rewrite H, IH.
Qed.
Lemma kth_exists k bs n : Forall (fun b => length (mats b) = n) bs -> (k < n)%nat -> exists ys, kth_mats k bs ys.
Proof.
  intros H L. induction H as [|b bs Hb _ (ys & IH)]; [now exists []; constructor|].
  destruct (nth_error (mats b) k) as [y|] eqn:E.
  - exists (y :: ys). constructor; assumption.
  - apply nth_error_None in E. lia.
Qed.
Theorem each_order vs bs bs' a r r' : vertex_size a = Ok (Z.of_nat vs) -> in_range vs a -> Forall (in_range vs) bs -> Forall (compatible a) bs ->
  closed a -> Forall closed bs -> Permutation bs bs' -> merge_each a bs = (r, None) -> merge_each a bs' = (r', None) ->
  length (mats r) = length (mats r') /\
  forall k z z', nth_error (mats r) k = Some z -> nth_error (mats r') k = Some z' -> Permutation (corners vs r z) (corners vs r' z').
Proof.
  intros Hs Ra R C Ca Cl P H H'.
  assert (forall Q : mesh F -> Prop, Forall Q bs -> Forall Q bs') as T.
  { intros Q HQ. rewrite Forall_forall in *. intros x Hx. apply HQ. eapply Permutation_in; [apply Permutation_sym; exact P|exact Hx]. }
  destruct (each_result vs bs a r Hs Ra R C H) as (_ & _ & _ & _ & L & LB & _ & N).
  destruct (each_result vs bs' a r' Hs Ra (T _ R) (T _ C) H') as (_ & _ & _ & _ & L' & LB' & _ & N').
  split; [congruence|]. intros k z z' Hz Hz'.
  destruct (nth_from_mats (mats r) (mats a) k z L Hz) as (x & Hx).
  assert (k < length (mats a))%nat as K by (apply nth_error_Some; congruence).
  destruct (kth_exists k bs _ LB K) as (ys & Hy). destruct (kth_exists k bs' _ LB' K) as (ys' & Hy').
  destruct (N k x ys z Hx Hy Hz) as (_ & _ & _ & E). destruct (N' k x ys' z' Hx Hy' Hz') as (_ & _ & _ & E').
  destruct (E Ca Cl) as (_ & ->). destruct (E' Ca (T _ Cl)) as (_ & ->).
  apply Permutation_app_head. rewrite (kth_flat k (corners vs)), (kth_flat k (corners vs)) by assumption.
  now apply Permutation_flat_map.
Qed.
End Many.
