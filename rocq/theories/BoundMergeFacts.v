(** Bounds of merged meshes. *)
From Coq Require Import ZArith List Bool Lia Reals Lra.
From Verif Require Import PyBase Struct Mesh Arith RArith Edit Spec SpecEdit SpecBounds SpecMin TravFacts VertFacts LayoutFacts MergeFacts BoundFacts VMapFacts CommFacts.
Import ListNotations.
Open Scope Z_scope.

(** ** Position of an item of nested lists in the flat list *)
Section Flat.
Context {B : Type}.
Lemma nth_concat (ll : list (list B)) : forall j l t, nth_error ll j = Some l -> (t < length l)%nat ->
  nth_error (concat ll) (length (concat (firstn j ll)) + t) = nth_error l t.
Proof.
  induction ll as [|x ll IH]; intros [|j] l t E H; try discriminate.
  - injection E as ->. cbn. now rewrite nth_error_app1.
  - cbn [firstn concat nth_error] in *. rewrite app_length, <- Nat.add_assoc, nth_error_app2 by lia.
    rewrite <- (IH j l t E H). f_equal. lia.
Qed.
Lemma concat_length (ll : list (list B)) : length (concat ll) = list_sum (map (@length B) ll).
Proof. induction ll as [|x ll IH]; [reflexivity|]. cbn. rewrite app_length, IH. reflexivity. Qed.
End Flat.

Section Shape.
Context {F : Type}.
Implicit Types (m : mesh F) (g : geom F) (l : lod F).
Definition gshape g : list nat := map (fun l => length (materials l)) (lods g).
Definition shape m : list (list nat) := map gshape (geoms m).
Definition before (s : list (list nat)) (j k : nat) : nat :=
  (list_sum (map list_sum (firstn j s)) + list_sum (firstn k (nth j s [])))%nat.

Definition gmats g : list (mat F) := concat (map materials (lods g)).
Lemma mats_concat m : mats m = concat (map gmats (geoms m)).
Proof. unfold mats, mats_of. rewrite flat_map_concat_map. f_equal. apply map_ext. intros g. apply flat_map_concat_map. Qed.
Lemma gmats_length g : length (gmats g) = list_sum (gshape g).
Proof. unfold gmats, gshape. now rewrite concat_length, map_map. Qed.

Lemma mats_at m j k g l t : nth_error (geoms m) j = Some g -> nth_error (lods g) k = Some l -> (t < length (materials l))%nat ->
  nth_error (mats m) (before (shape m) j k + t) = nth_error (materials l) t.
Proof.
  intros Ej Ek Ht. rewrite mats_concat. unfold before.
  assert (nth j (shape m) [] = gshape g) as ->.
  { apply nth_error_nth. unfold shape. now rewrite nth_error_map, Ej. }
  assert (length (concat (firstn k (map materials (lods g)))) = list_sum (firstn k (gshape g))) as E2.
  { unfold gshape. now rewrite concat_length, !firstn_map, map_map. }
  assert (length (concat (firstn j (map gmats (geoms m)))) = list_sum (map list_sum (firstn j (shape m)))) as E1.
  { unfold shape. rewrite concat_length, !firstn_map, !map_map. f_equal. apply map_ext. intros. apply gmats_length. }
  rewrite <- E1, <- Nat.add_assoc.
  assert (nth_error (gmats g) (list_sum (firstn k (gshape g)) + t) = nth_error (materials l) t) as E3.
  { rewrite <- E2. apply nth_concat; [now rewrite nth_error_map, Ek|exact Ht]. }
  rewrite <- E3. apply nth_concat; [now rewrite nth_error_map, Ej|].
  apply nth_error_Some. rewrite E3. now apply nth_error_Some.
Qed.

Lemma shape_at m m' j k g g' l l' : shape m = shape m' -> nth_error (geoms m) j = Some g -> nth_error (geoms m') j = Some g' ->
  nth_error (lods g) k = Some l -> nth_error (lods g') k = Some l' -> length (materials l) = length (materials l').
Proof.
  intros E Ej Ej' Ek Ek'. assert (Some (gshape g) = Some (gshape g')) as H.
  { assert (nth_error (shape m) j = nth_error (shape m') j) as H by now rewrite E. unfold shape in H. now rewrite !nth_error_map, Ej, Ej' in H. }
  injection H as H. assert (nth_error (gshape g) k = nth_error (gshape g') k) as H2 by now rewrite H.
  unfold gshape in H2. rewrite !nth_error_map, Ek, Ek' in H2. now injection H2.
Qed.
Lemma unbound_shape m m' : map geom_unbound (geoms m') = map geom_unbound (geoms m) -> shape m' = shape m.
Proof.
  intros H. assert (forall x : mesh F, shape x = map gshape (map geom_unbound (geoms x))) as G.
  { intros x. unfold shape. rewrite map_map. apply map_ext. intros g. unfold gshape, geom_unbound. cbn. rewrite map_map. apply map_ext.
    intros l. cbn. now rewrite map_length. }
  now rewrite !G, H.
Qed.
Lemma geom_mats_shape (f : mat F -> mat F) m m' : map (geom_mats f) (geoms m') = map (geom_mats f) (geoms m) -> shape m' = shape m.
Proof.
  intros H. assert (forall x : mesh F, shape x = map gshape (map (geom_mats f) (geoms x))) as G.
  { intros x. unfold shape. rewrite map_map. apply map_ext. intros g. unfold gshape, geom_mats. cbn. rewrite map_map. apply map_ext.
    intros l. cbn. now rewrite map_length. }
  now rewrite !G, H.
Qed.
Lemma compatible_shapes m m' : compatible m m' -> shape m' = shape m.
Proof.
  intros (H & _). unfold shape. induction H as [|g h gs hs H _ IH]; [reflexivity|]. cbn. rewrite IH. f_equal. unfold gshape. clear IH.
  induction H as [|l k ls ks H _ IH]; [reflexivity|]. cbn. rewrite IH. f_equal. symmetry. apply (Forall2_len _ _ _ H).
Qed.
End Shape.

Section Span.
Context {F : Type} (A : arith F) (good : F -> Prop) (val : F -> R) (O : ordered A good val).
Notation good3 := (good3 good).

Lemma box_spans o P Q S lo1 hi1 lo2 hi2 lo hi : good3 o -> Forall good3 P -> Forall good3 Q ->
  box A (o :: P) lo1 hi1 -> box A (o :: Q) lo2 hi2 -> box A (o :: S) lo hi -> (forall q, In q S <-> In q P \/ In q Q) ->
  spans A lo1 hi1 lo2 hi2 lo hi.
Proof.
  intros Go GP GQ (B1 & A1) (B2 & A2) (B & A3) E i Hi.
  assert (forall q, In q (o :: P) -> good (axis i q)) as G1.
  { intros q [<-|H]; [now apply Go|]. rewrite Forall_forall in GP. now apply GP. }
  assert (forall q, In q (o :: Q) -> good (axis i q)) as G2.
  { intros q [<-|H]; [now apply Go|]. rewrite Forall_forall in GQ. now apply GQ. }
  assert (forall q, In q (o :: S) -> In q (o :: P) \/ In q (o :: Q)) as S1.
  { intros q [<-|H]; [left; now left|]. apply E in H. destruct H; [left|right]; now right. }
  assert (forall q, In q (o :: P) -> In q (o :: S)) as S2.
  { intros q [<-|H]; [now left|]. right. apply E. now left. }
  assert (forall q, In q (o :: Q) -> In q (o :: S)) as S3.
  { intros q [<-|H]; [now left|]. right. apply E. now right. }
  destruct (A1 i Hi) as ((q1 & I1 & E1) & (p1 & J1 & F1)). destruct (A2 i Hi) as ((q2 & I2 & E2) & (p2 & J2 & F2)).
  destruct (A3 i Hi) as ((q & I3 & E3) & (p & J3 & F3)).
  pose proof (G1 _ I1) as g1. pose proof (G1 _ J1) as h1. pose proof (G2 _ I2) as g2. pose proof (G2 _ J2) as h2.
  assert (good (axis i q) /\ good (axis i p)) as (g & h).
  { split; [destruct (S1 _ I3)|destruct (S1 _ J3)]; auto. }
  pose proof (proj1 (B _ (S2 _ I1) i Hi)) as L1. pose proof (proj1 (B _ (S3 _ I2) i Hi)) as L2.
  pose proof (proj2 (B _ (S2 _ J1) i Hi)) as U1. pose proof (proj2 (B _ (S3 _ J2) i Hi)) as U2.
  rewrite E1, E2, E3, F1, F2, F3 in *. unfold lesser, greater. split; (split; [assumption|]; split; [assumption|]).
  - destruct (S1 _ I3) as [H|H].
    + left. pose proof (proj1 (B1 _ H i Hi)) as K. rewrite E3 in K. rewrite (fle_val A good val O) in K, L1 by assumption.
      apply (o_eq _ _ _ O); auto. lra.
    + right. pose proof (proj1 (B2 _ H i Hi)) as K. rewrite E3 in K. rewrite (fle_val A good val O) in K, L2 by assumption.
      apply (o_eq _ _ _ O); auto. lra.
  - destruct (S1 _ J3) as [H|H].
    + left. pose proof (proj2 (B1 _ H i Hi)) as K. rewrite F3 in K. rewrite (fle_val A good val O) in K, U1 by assumption.
      apply (o_eq _ _ _ O); auto. lra.
    + right. pose proof (proj2 (B2 _ H i Hi)) as K. rewrite F3 in K. rewrite (fle_val A good val O) in K, U2 by assumption.
      apply (o_eq _ _ _ O); auto. lra.
Qed.
End Span.

Section Bounds.
Context {F : Type} (A : arith F) (good : F -> Prop) (val : F -> R) (O : ordered A good val) (vs : nat).
Implicit Types (a b r m : mesh F) (x y z : mat F).
Notation good3 := (good3 good).

Lemma positions_head m m' x y w : vertex_attributes m' = vertex_attributes m -> vertformat m' = vertformat m ->
  mat_vertices vs m' x = mat_vertices vs m y ++ w -> 
  positions vs m' x = positions vs m y ++ flat_map (fun v => match at3 v (bounding_start m) with Some q => [q] | None => [] end) w.
Proof.
  intros E1 E2 E. unfold positions. rewrite E, flat_map_app.
  assert (bounding_start m' = bounding_start m) as -> by (unfold bounding_start, bounding_attrib, attrib_start; now rewrite E1, E2).
  reflexivity.
Qed.

Definition allpos m : list (list (vec3 F)) := map (positions vs m) (mats m).
Lemma allpos_unbound m m' : same_but_bounds m m' -> allpos m' = allpos m.
Proof.
  intros ((_ & _ & _ & _ & _ & E1 & E2 & _) & _ & EV & _ & EG).
  assert (map mat_unbound (mats m') = map mat_unbound (mats m)) as EM.
  { assert (forall k : mesh F, map mat_unbound (mats k) = flat_map (fun g => flat_map materials (lods g)) (map geom_unbound (geoms k))) as G.
    { intros k. unfold mats, mats_of. induction (geoms k) as [|g gs IH]; [reflexivity|]. cbn. rewrite map_app, IH. f_equal.
      induction (lods g) as [|l ls IH']; [reflexivity|]. cbn. now rewrite map_app, IH'. }
    now rewrite !G, EG. }
  unfold allpos. assert (forall x, positions vs m' x = positions vs m (mat_unbound x)) as H1.
  { intros x. pose proof (positions_head m m' x (mat_unbound x) [] E1 E2) as H. cbn [flat_map] in H. rewrite !app_nil_r in H. apply H.
    unfold mat_vertices, block. now rewrite EV. }
  rewrite (map_ext _ _ H1), <- map_map, EM, map_map. now apply map_ext.
Qed.

Lemma allpos_merge a b r : vertex_size a = Ok (Z.of_nat vs) -> in_range vs a -> in_range vs b -> vertformat b = vertformat a ->
  merge a b = (r, Merged) -> forall k p q s, nth_error (allpos a) k = Some p -> nth_error (allpos b) k = Some q ->
  nth_error (allpos r) k = Some s -> s = p ++ q.
Proof.
  intros Hs R1 R2 Ef H k p q s. unfold allpos. rewrite !nth_error_map.
  destruct (nth_error (mats a) k) as [x|] eqn:Ex; [|discriminate]. destruct (nth_error (mats b) k) as [y|] eqn:Ey; [|discriminate].
  destruct (nth_error (mats r) k) as [z|] eqn:Ez; [|discriminate]. cbn. intros [= <-] [= <-] [= <-].
  destruct (merged_tiled vs a b r Hs R1 R2 H) as (_ & (_ & _ & _ & _ & _ & E1 & E2 & _) & E3 & _).
  destruct (merged_nth vs a b r Hs R1 R2 H) as (_ & _ & N). destruct (N k x y z Ex Ey Ez) as (_ & _ & EV & _).
  rewrite (positions_head a r z x _ E1 E2 EV). f_equal. unfold positions.
  assert (bounding_start b = bounding_start a) as -> by (unfold bounding_start, bounding_attrib, attrib_start; now rewrite E3, Ef).
  reflexivity.
Qed.

Lemma in_lod_positions m j k g l q : nth_error (geoms m) j = Some g -> nth_error (lods g) k = Some l ->
  In q (lod_positions vs m l) <->
  exists t p, (t < length (materials l))%nat /\ nth_error (allpos m) (before (shape m) j k + t) = Some p /\ In q p.
Proof.
  intros Ej Ek. unfold lod_positions. rewrite in_flat_map. split.
  - intros (x & Hx & Hq). apply In_nth_error in Hx. destruct Hx as (t & Ht). exists t, (positions vs m x).
    assert (t < length (materials l))%nat as L by (apply nth_error_Some; now rewrite Ht). split; [exact L|]. split; [|exact Hq].
    unfold allpos. now rewrite nth_error_map, (mats_at m j k g l t Ej Ek L), Ht.
  - intros (t & p & L & E & Hq). unfold allpos in E. rewrite nth_error_map, (mats_at m j k g l t Ej Ek L) in E.
    destruct (nth_error (materials l) t) as [x|] eqn:Ex; [|discriminate]. injection E as <-. exists x. split; [|exact Hq].
    now apply nth_error_In in Ex.
Qed.
Lemma allpos_length m : length (allpos m) = list_sum (map list_sum (shape m)).
Proof.
  unfold allpos. rewrite map_length, mats_concat, concat_length. unfold shape. rewrite !map_map. f_equal. apply map_ext. intros. apply gmats_length.
Qed.
Lemma update_pos m m' : update_boundaries A m = (m', None) -> allpos m' = allpos m /\ shape m' = shape m.
Proof. intros H. apply update_frame in H. split; [now apply allpos_unbound|]. apply unbound_shape. apply H. Qed.

Lemma in_range_vin m : in_range vs m -> Forall (mat_vin vs m) (mats m).
Proof. intros (_ & H). eapply Forall_impl; [|exact H]. intros x X. unfold mat_in, mat_vin in *. lia. Qed.
Lemma good_allpos m : Forall (fun mt => Forall good3 (positions vs m mt)) (mats m) -> Forall (Forall good3) (allpos m).
Proof. intros H. unfold allpos. now apply Forall_map. Qed.
Lemma lods_good m j k g l : Forall (Forall good3) (allpos m) -> nth_error (geoms m) j = Some g -> nth_error (lods g) k = Some l ->
  Forall good3 (lod_positions vs m l).
Proof.
  intros H Ej Ek. apply Forall_forall. intros q Hq. apply (in_lod_positions m j k g l q Ej Ek) in Hq. destruct Hq as (t & p & _ & E & Hp).
  apply nth_error_In in E. rewrite Forall_forall in H. specialize (H p E). rewrite Forall_forall in H. auto.
Qed.

Theorem merge_bounds a b r a' b' r' :
  vertex_size a = Ok (Z.of_nat vs) -> short_offsets a -> vertformat b = vertformat a -> bounded_kind a -> bounded_kind b ->
  in_range vs a -> in_range vs b ->
  Forall (fun mt => Forall good3 (positions vs a mt)) (mats a) -> Forall (fun mt => Forall good3 (positions vs b mt)) (mats b) ->
  merge a b = (r, Merged) -> update_boundaries A a = (a', None) -> update_boundaries A b = (b', None) -> update_boundaries A r = (r', None) ->
  forall j k ga gb gr la lb lr, nth_error (geoms a') j = Some ga -> nth_error (geoms b') j = Some gb -> nth_error (geoms r') j = Some gr ->
  nth_error (lods ga) k = Some la -> nth_error (lods gb) k = Some lb -> nth_error (lods gr) k = Some lr ->
  (exists lo1 hi1 lo2 hi2 lo hi, lod_min la = Some lo1 /\ lod_max la = Some hi1 /\ lod_min lb = Some lo2 /\ lod_max lb = Some hi2 /\
     lod_min lr = Some lo /\ lod_max lr = Some hi /\ spans A lo1 hi1 lo2 hi2 lo hi) /\
  (length (materials la) = length (materials lr) /\ length (materials lb) = length (materials lr)) /\
  forall t x y z, nth_error (materials la) t = Some x -> nth_error (materials lb) t = Some y -> nth_error (materials lr) t = Some z ->
   exists lo1 hi1 lo2 hi2 lo hi, mmin x = Some lo1 /\ mmax x = Some hi1 /\ mmin y = Some lo2 /\ mmax y = Some hi2 /\
     mmin z = Some lo /\ mmax z = Some hi /\ spans A lo1 hi1 lo2 hi2 lo hi.
Proof.
  intros Hs Ho Ef Ka Kb Ra Rb Ga Gb HM Ua Ub Ur j k ga gb gr la lb lr Ja Jb Jr La Lb Lr.
  destruct (merged_tiled vs a b r Hs Ra Rb HM) as (Pr & HH & E3 & _). pose proof HH as (K1 & K2 & _ & _ & _ & E1 & E2 & _).
  assert (vertex_size b = Ok (Z.of_nat vs)) as Hb by (unfold vertex_size; now rewrite E3).
  assert (short_offsets b) as Hob by (unfold short_offsets; now rewrite Ef, E3).
  assert (short_offsets r) as Hor by (unfold short_offsets; now rewrite E1, E2).
  assert (bounded_kind r) as Kr by (unfold bounded_kind; now rewrite K1, K2).
  pose proof (merge_compatible _ _ _ HM) as HC.
  destruct (merge_tables vs a b r Hs Ra Rb HM) as (_ & _ & EG & _).
  destruct (update_pos _ _ Ua) as (Pa & Sa). destruct (update_pos _ _ Ub) as (Pb & Sb). destruct (update_pos _ _ Ur) as (Pr' & Sr).
  assert (shape b' = shape a') as SAB by (rewrite Sa, Sb; now apply compatible_shapes).
  assert (shape r' = shape a') as SAR by (rewrite Sa, Sr; exact (geom_mats_shape _ _ _ EG)).
  assert (forall q (x y z : list (vec3 F)), nth_error (allpos a') q = Some x -> nth_error (allpos b') q = Some y -> nth_error (allpos r') q = Some z -> z = x ++ y) as AP.
  { rewrite Pa, Pb, Pr'. exact (allpos_merge a b r Hs Ra Rb Ef HM). }
  pose proof (good_allpos a Ga) as GA. pose proof (good_allpos b Gb) as GB. rewrite <- Pa in GA. rewrite <- Pb in GB.
  assert (Forall (Forall good3) (allpos r')) as GR.
  { apply Forall_forall. intros s Hin. apply In_nth_error in Hin. destruct Hin as (q & Eq).
    assert (q < length (allpos r'))%nat as Lq by (apply nth_error_Some; now rewrite Eq).
    destruct (nth_error (allpos a') q) as [x|] eqn:Ex.
    2:{ apply nth_error_None in Ex. rewrite !allpos_length, SAR in *. lia. }
    destruct (nth_error (allpos b') q) as [y|] eqn:Ey.
    2:{ apply nth_error_None in Ey. rewrite !allpos_length, SAR, SAB in *. lia. }
    rewrite (AP q x y s Ex Ey Eq). apply Forall_app. rewrite Forall_forall in GA, GB. split; [apply GA|apply GB]; eapply nth_error_In; eassumption. }
  assert (Forall (fun mt => Forall good3 (positions vs r mt)) (mats r)) as Gr by (rewrite Pr' in GR; unfold allpos in GR; now rewrite Forall_map in GR).
  pose proof (update_box A good val O vs a a' Hs Ho Ka (in_range_vin _ Ra) Ga Ua) as Ba.
  pose proof (update_box A good val O vs b b' Hb Hob Kb (in_range_vin _ Rb) Gb Ub) as Bb.
  pose proof (update_box A good val O vs r r' (head_size vs a r HH Hs) Hor Kr (tiled_vin vs r (proj1 Pr)) Gr Ur) as Br.
  assert (forall m g l, every_lod (lod_boxed A vs m) m -> nth_error (geoms m) j = Some g -> nth_error (lods g) k = Some l -> lod_boxed A vs m l) as EL.
  { intros m g l H Hj Hk. unfold every_lod in H. rewrite Forall_forall in H. specialize (H g (nth_error_In _ _ Hj)).
    rewrite Forall_forall in H. exact (H l (nth_error_In _ _ Hk)). }
  pose proof (EL _ _ _ Ba Ja La) as (lo1 & hi1 & los1 & his1 & M1 & N1 & _ & _ & B1 & _ & F1).
  pose proof (EL _ _ _ Bb Jb Lb) as (lo2 & hi2 & los2 & his2 & M2 & N2 & _ & _ & B2 & _ & F2).
  pose proof (EL _ _ _ Br Jr Lr) as (lo & hi & los & his & M3 & N3 & _ & _ & B3 & _ & F3).
  pose proof (shape_at a' r' j k ga gr la lr (eq_sym SAR) Ja Jr La Lr) as LEN1.
  pose proof (shape_at b' r' j k gb gr lb lr ltac:(congruence) Jb Jr Lb Lr) as LEN2.
  assert (good3 (origin A)) as G0 by exact (origin_good3 A good val O).
  split; [|split; [now split|]].
  - exists lo1, hi1, lo2, hi2, lo, hi. do 6 (split; [assumption|]).
    apply (box_spans A good val O (origin A) (lod_positions vs a' la) (lod_positions vs b' lb) (lod_positions vs r' lr)); auto.
    + now apply (lods_good a' j k ga la).
    + now apply (lods_good b' j k gb lb).
    + intros q. rewrite (in_lod_positions r' j k gr lr q Jr Lr), (in_lod_positions a' j k ga la q Ja La), (in_lod_positions b' j k gb lb q Jb Lb).
      rewrite SAR, SAB, LEN1, LEN2. split.
      * intros (t & s & Lt & Es & Hq).
        assert (before (shape a') j k + t < length (allpos r'))%nat as Lq by (apply nth_error_Some; now rewrite Es).
        destruct (nth_error (allpos a') (before (shape a') j k + t)) as [x|] eqn:Ex.
        2:{ apply nth_error_None in Ex. rewrite !allpos_length, SAR in *. lia. }
        destruct (nth_error (allpos b') (before (shape a') j k + t)) as [y|] eqn:Ey.
        2:{ apply nth_error_None in Ey. rewrite !allpos_length, SAR, SAB in *. lia. }
        rewrite (AP _ x y s Ex Ey Es) in Hq. apply in_app_or in Hq. destruct Hq; [left|right]; eauto.
      * intros [(t & x & Lt & Ex & Hq)|(t & y & Lt & Ey & Hq)].
        -- assert (before (shape a') j k + t < length (allpos a'))%nat as Lq by (apply nth_error_Some; now rewrite Ex).
           destruct (nth_error (allpos r') (before (shape a') j k + t)) as [s|] eqn:Es.
           2:{ apply nth_error_None in Es. rewrite !allpos_length, SAR in *. lia. }
           destruct (nth_error (allpos b') (before (shape a') j k + t)) as [y|] eqn:Ey.
           2:{ apply nth_error_None in Ey. rewrite !allpos_length, SAB in *. lia. }
           exists t, s. split; [exact Lt|]. split; [exact Es|]. rewrite (AP _ x y s Ex Ey Es). apply in_or_app. now left.
        -- assert (before (shape a') j k + t < length (allpos b'))%nat as Lq by (apply nth_error_Some; now rewrite Ey).
           destruct (nth_error (allpos r') (before (shape a') j k + t)) as [s|] eqn:Es.
           2:{ apply nth_error_None in Es. rewrite !allpos_length, SAR, SAB in *. lia. }
           destruct (nth_error (allpos a') (before (shape a') j k + t)) as [x|] eqn:Ex.
           2:{ apply nth_error_None in Ex. rewrite !allpos_length, SAB in *. lia. }
           exists t, s. split; [exact Lt|]. split; [exact Es|]. rewrite (AP _ x y s Ex Ey Es). apply in_or_app. now right.
  - intros t x y z Ex Ey Ez. rewrite Forall_forall in F1, F2, F3.
    destruct (F1 x (nth_error_In _ _ Ex)) as (p1 & q1 & X1 & Y1 & _ & C1).
    destruct (F2 y (nth_error_In _ _ Ey)) as (p2 & q2 & X2 & Y2 & _ & C2).
    destruct (F3 z (nth_error_In _ _ Ez)) as (p3 & q3 & X3 & Y3 & _ & C3).
    exists p1, q1, p2, q2, p3, q3. do 6 (split; [assumption|]).
    assert (t < length (materials la))%nat as L1 by (apply nth_error_Some; now rewrite Ex).
    assert (nth_error (allpos a') (before (shape a') j k + t) = Some (positions vs a' x)) as Z1
      by (unfold allpos; now rewrite nth_error_map, (mats_at a' j k ga la t Ja La L1), Ex).
    assert (nth_error (allpos b') (before (shape a') j k + t) = Some (positions vs b' y)) as Z2
      by (unfold allpos; rewrite nth_error_map, <- SAB, (mats_at b' j k gb lb t Jb Lb), Ey by lia; reflexivity).
    assert (nth_error (allpos r') (before (shape a') j k + t) = Some (positions vs r' z)) as Z3
      by (unfold allpos; rewrite nth_error_map, <- SAR, (mats_at r' j k gr lr t Jr Lr), Ez by lia; reflexivity).
    apply (box_spans A good val O (origin A) (positions vs a' x) (positions vs b' y) (positions vs r' z)); auto.
    + rewrite Forall_forall in GA. exact (GA _ (nth_error_In _ _ Z1)).
    + rewrite Forall_forall in GB. exact (GB _ (nth_error_In _ _ Z2)).
    + intros q. rewrite (AP _ _ _ _ Z1 Z2 Z3). apply in_app_iff.
Qed.
End Bounds.

Theorem merge_bounds_exact vs (a b r a' b' r' : mesh R) :
  vertex_size a = Ok (Z.of_nat vs) -> short_offsets a -> vertformat b = vertformat a -> bounded_kind a -> bounded_kind b ->
  in_range vs a -> in_range vs b ->
  merge a b = (r, Merged) -> update_boundaries exact a = (a', None) -> update_boundaries exact b = (b', None) -> update_boundaries exact r = (r', None) ->
  forall j k ga gb gr la lb lr, nth_error (geoms a') j = Some ga -> nth_error (geoms b') j = Some gb -> nth_error (geoms r') j = Some gr ->
  nth_error (lods ga) k = Some la -> nth_error (lods gb) k = Some lb -> nth_error (lods gr) k = Some lr ->
  (exists lo1 hi1 lo2 hi2 lo hi, lod_min la = Some lo1 /\ lod_max la = Some hi1 /\ lod_min lb = Some lo2 /\ lod_max lb = Some hi2 /\
     lod_min lr = Some lo /\ lod_max lr = Some hi /\ spans exact lo1 hi1 lo2 hi2 lo hi) /\
  (length (materials la) = length (materials lr) /\ length (materials lb) = length (materials lr)) /\
  forall t x y z, nth_error (materials la) t = Some x -> nth_error (materials lb) t = Some y -> nth_error (materials lr) t = Some z ->
   exists lo1 hi1 lo2 hi2 lo hi, mmin x = Some lo1 /\ mmax x = Some hi1 /\ mmin y = Some lo2 /\ mmax y = Some hi2 /\
     mmin z = Some lo /\ mmax z = Some hi /\ spans exact lo1 hi1 lo2 hi2 lo hi.
Proof.
  intros Hs Ho Ef Ka Kb Ra Rb. apply (merge_bounds exact (fun _ => True) (fun x => x) exact_ordered vs); auto;
    apply Forall_forall; intros mt _; apply Forall_forall; intros q _ i _; exact I.
Qed.
