(** The editing methods of the old class act on the surface as those of the new class. *)
From Coq Require Import ZArith List Bool Lia Reals Permutation Relations.
From Verif Require Import PyBase Struct Mesh Arith Edit Old OldEdit HeapEdit Spec SpecEdit SpecBounds SpecProg SpecOldEdit SpecBoth SpecSurface SpecVec MockFacts Mock SpecMock
  RArith TravFacts VertFacts LayoutFacts MergeFacts BoundFacts HistFacts ManyFacts OldEditFacts OldEditThms SurfaceFacts WitnessSurface BothFacts.
Import ListNotations.
Open Scope Z_scope.

Lemma float3_position vs (m : mesh R) : new_editable vs m -> float3 m 0 -> exists a, position_attrib m = Some a /\ (attrib_start m a + 3 <= vs)%nat.
Proof.
  intros N (a & HA & T). pose proof (ne_ready _ _ N) as (_ & R & _). rewrite Forall_forall in R.
  assert (exists b, position_attrib m = Some b) as (b & Eb).
  { unfold position_attrib. destruct (find _ _) as [b|] eqn:E; [eauto|]. exfalso. destruct HA as (I & V & U).
    pose proof (find_none _ _ E a I) as X. cbn beta in X. rewrite U, V in X. discriminate. }
  exists b. split; [exact Eb|]. destruct (position_oriented m b Eb) as (Hb & _). now destruct (R b Hb).
Qed.
Lemma old_drawable vs (m : mesh R) : old_editable vs m -> closed m -> drawable vs m.
Proof.
  intros O C. pose proof (old_new vs m O) as N. destruct (float3_position vs m N (oe_position _ _ O)) as (a & Ha & _).
  constructor; try apply N; [exact C|eauto].
Qed.
Lemma exact_sum x d : f_add exact x d = sum2 exact x d.
Proof. unfold sum2. cbn. ring. Qed.

Theorem old_move_carried vs m m' : old_editable vs m -> closed m -> old_move m m' -> carried vs m m' /\ old_editable vs m'.
Proof.
  intros O C H. pose proof (old_new vs m O) as N. pose proof (old_drawable vs m O C) as D. pose proof (S_refl eq (fun x => eq_refl) m) as S0.
  destruct H as [m dx dy dz m' o H|m a b c more m' o H|m m' o H].
  - destruct (float3_position vs m N (oe_position _ _ O)) as (a & Ha & La).
    destruct (translate_succeeds exact vs m [dx; dy; dz]) as (m1 & E1); try apply N. { intros _. exists a. now split. }
    destruct (step_translate exact eq (@eq_trans R) exact_sum (fun x y d e => f_equal (fun z => f_add exact z d) e) vs m m [dx; dy; dz] m1 N O S0 eq_refl E1) as (m2 & E2 & S2 & O2).
    rewrite H in E2. injection E2 as <- _. split; [|exact O2]. pose proof (move_carried vs m m1 D (by_translate _ _ _ _ _ _ E1)) as C1.
    apply (carried_trans vs m m1 m' C1). apply carried_bounds; [apply C1|now apply same_up_to_eq].
  - destruct (rotate_packed exact vs m a b c more (ne_size _ _ N) (ne_pos _ _ N) (proj1 (ne_packed _ _ N)) (ne_ready _ _ N)) as (m1 & E1 & _); [repeat split|].
    destruct (step_rotate exact eq (turn_eq exact) vs m m a b c more m1 N O S0) as (m2 & E2 & S2 & O2); [repeat split|exact E1|].
    rewrite H in E2. injection E2 as <- _. split; [|exact O2]. pose proof (move_carried vs m m1 D (by_rotate _ _ _ _ E1)) as C1.
    apply (carried_trans vs m m1 m' C1). apply carried_bounds; [apply C1|now apply same_up_to_eq].
  - destruct (update_boundaries exact m) as (m1, o1) eqn:E1.
    destruct (step_bounds exact eq vs m m m1 o1 N O S0 E1) as (m2 & E2 & S2 & O2).
    rewrite H in E2. injection E2 as <- _. split; [|exact O2]. pose proof (move_carried vs m m1 D (by_bounds _ _ _ E1)) as C1.
    apply (carried_trans vs m m1 m' C1). apply carried_bounds; [apply C1|now apply same_up_to_eq].
Qed.
Theorem old_moves_carried vs m m' : old_editable vs m -> closed m -> clos_refl_trans _ old_move m m' -> carried vs m m' /\ old_editable vs m'.
Proof.
  intros O C H. revert O C. induction H as [m m' H|m|m m1 m2 _ IH1 _ IH2]; intros O C; [now apply old_move_carried| |].
  - split; [|exact O]. now apply carried_refl, old_drawable.
  - destruct (IH1 O C) as (C1 & O1). destruct (IH2 O1 (dr_closed _ _ (proj1 C1))) as (C2 & O2). split; [|exact O2]. now apply (carried_trans vs m m1).
Qed.
(** The moves raise nothing. *)
Theorem old_moves_succeed vs m : old_editable vs m ->
  (forall dx dy dz, exists m', old_translate exact m [dx; dy; dz] = (m', None)) /\
  (forall a b c more, exists m', old_rotate exact m (a :: b :: c :: more) = (m', None)) /\
  (exists m', old_update_boundaries exact m = (m', None)).
Proof.
  intros O. pose proof O as [C P Sz St P0 P3 P6 B]. split; [|split].
  - intros dx dy dz. destruct (old_translate_packed exact vs m [dx; dy; dz] C (proj1 P) P0 B ltac:(cbn; lia)) as (m' & E & _). eauto.
  - intros a b c more. destruct (old_rotate_packed exact vs m a b c more C (proj1 P) P0 P3 P6 B) as (m' & E & _); [repeat split|]. eauto.
  - eexists. apply (old_bounds_ok exact vs m C P0 (tiled_vin vs m (proj1 P)) B).
Qed.
Theorem old_moves_measures vs m m' : old_editable vs m -> closed m -> clos_refl_trans _ old_move m m' ->
  old_editable vs m' /\ closed m' /\
  (exists g d h, rotation g /\ rigid vs m g d h /\ Permutation (faces vs m') (map (on3 h) (faces vs m))) /\
  area (surface vs m') = area (surface vs m) /\
  (closed_surface (surface vs m') <-> closed_surface (surface vs m)) /\
  (closed_surface (surface vs m) -> volume (surface vs m') = volume (surface vs m)) /\
  forall a, In a (oriented_attribs m) -> attrib_start m a <> position_start m -> Permutation (shading vs m' a) (shading vs m a).
Proof.
  intros O C H. pose proof (old_drawable vs m O C) as D. destruct (old_moves_carried vs m m' O C H) as (Ca & O').
  split; [exact O'|]. split; [apply Ca|]. split; [apply Ca|]. split; [now apply carried_area|]. split; [now apply carried_closed|].
  split; [now apply carried_volume|]. intros a. now apply carried_shading.
Qed.

Theorem old_merge_surface vs a b m1 : old_editable vs a -> old_editable vs b -> closed a -> closed b -> whole a -> vertformat b = vertformat a ->
  merge a b = (m1, Merged) -> zlen (vertices a) + zlen (vertices b) <= 2 ^ 53 ->
  exists m', old_merge exact a b = (m', None) /\ old_editable vs m' /\ closed m' /\
    Permutation (surface vs m') (surface vs a ++ surface vs b) /\
    area (surface vs m') = (area (surface vs a) + area (surface vs b))%R /\
    volume (surface vs m') = (volume (surface vs a) + volume (surface vs b))%R.
Proof.
  intros Oa Ob Ca Cb W EF H B. pose proof (old_new vs a Oa) as Na. pose proof (old_new vs b Ob) as Nb.
  pose proof (old_drawable vs a Oa Ca) as Da. pose proof (old_drawable vs b Ob Cb) as Db.
  destruct (new_merge vs a b m1 Na Nb H) as (_ & Z).
  destruct (step_merge exact eq vs a a b b m1 Na Nb Oa Ob (S_refl eq (fun x => eq_refl) a) (S_refl eq (fun x => eq_refl) b) H ltac:(lia)) as (m' & E & S & O').
  destruct (merge_measures vs a b m1 Da Db W EF H) as (D1 & P1 & A1 & V1 & _).
  destruct (faces_bounds vs m1 m' (same_up_to_eq _ _ S)) as (F1 & _ & SH & C1).
  assert (surface vs m' = surface vs m1) as ES.
  { unfold surface. rewrite F1. assert (vertex_attributes m' = vertex_attributes m1) as EA by apply SH. assert (vertformat m' = vertformat m1) as EF' by apply SH.
    unfold position_start, position_attrib, attrib_start. now rewrite EA, EF'. }
  exists m'. rewrite ES. repeat (split; [assumption|]). split; [apply C1, D1|]. auto.
Qed.

(** ** The example *)
Definition sbox {F} (num : lit -> F) : mesh F := as_static (the_box num).
Lemma box_editable {F} (num : lit -> F) : old_editable 12 (sbox num).
Proof.
  destruct (box_fit num) as (C & P & H0 & H3 & H6 & B & _). destruct C as [K1 K2 K3 K4 K5 K6 K7 K8].
  constructor; try assumption; try reflexivity. constructor; assumption.
Qed.
Lemma box_closed {F} (num : lit -> F) : closed (sbox num).
Proof. unfold closed, mats, mats_of. cbn [geoms as_static the_box flat_map lods app sbox]. repeat apply Forall_cons; try apply Forall_nil; cbn [vnum]; lia. Qed.
Lemma in_firstn' {B} (x : B) n l : In x (firstn n l) -> In x l.
Proof. rewrite <- (firstn_skipn n l) at 2. intros H. apply in_or_app. now left. Qed.
Lemma in_skipn' {B} (x : B) n l : In x (skipn n l) -> In x l.
Proof. rewrite <- (firstn_skipn n l) at 2. intros H. apply in_or_app. now right. Qed.
Lemma hdr_trans {F} (m m1 m2 : mesh F) : same_header m m1 -> same_header m1 m2 -> same_header m m2.
Proof. unfold same_header. intuition congruence. Qed.
Lemma box_program {F} (A : arith F) (num : lit -> F) dx dy dz a b c : can_turn A a b c -> exists ms1,
  value_run A [sbox num; sbox num] [CTranslate 1 [dx; dy; dz]; CMerge 0 1; CRotate 0 [a; b; c]; CBounds 0] = (ms1, [ONone; ONone; ONone; ONone]) /\
  Forall (fun m => zlen (vertices m) <= 2 ^ 53) ms1.
Proof.
  intros T. pose proof (box_editable num) as O. pose proof (old_new 12 _ O) as N. pose proof N as [N1 N2 N3 N4 N5].
  destruct (translate_succeeds A 12 (sbox num) [dx; dy; dz] N2 N1 (proj1 N3) (proj1 N4)) as (m1 & E1).
  { intros _. eexists. split; [reflexivity|]. vm_compute. lia. }
  destruct (translate_packed A 12 _ _ _ N2 N1 (proj1 N3) (proj1 N4) E1) as (SV & _).
  destruct (new_translate A 12 _ _ _ N E1) as (Nm1 & Z1).
  assert (zlen (vertices (sbox num)) = 288) as Z0 by reflexivity. rewrite Z0 in Z1.
  pose proof SV as (SH1 & SC1 & EG1 & EI1).
  assert (compatible (sbox num) m1) as HC.
  { apply canMerge_true. unfold canMerge. rewrite EG1. destruct SH1 as (_ & _ & _ & _ & _ & -> & _). reflexivity. }
  destruct (merge_overflow 12 (sbox num) m1 HC N2 (packed_in_range _ _ N3) (packed_in_range _ _ (ne_packed _ _ Nm1))) as (_ & M).
  destruct M as (m2 & E2).
  { intros (k & x & y & i & Hx & Hy & Hi & HL). unfold mats in Hy. rewrite EG1 in Hy.
    assert (vnum x = 24) as Ex. { destruct k as [|k]; [injection Hx as <-; reflexivity|destruct k; discriminate]. }
    unfold mat_indices in Hi. unfold index_list in Hi. rewrite EI1 in Hi. apply in_firstn', in_skipn' in Hi.
    assert (Forall (fun i => i <= 23) (match index (sbox num) with Tuple l => l | NoIndex => [] end)) as X by (cbn [index sbox as_static the_box]; repeat constructor; lia).
    rewrite Forall_forall in X. specialize (X i Hi). lia. }
  destruct (new_merge 12 _ _ _ N Nm1 E2) as (Nm2 & Z2).
  destruct (rotate_packed A 12 m2 a b c [] (ne_size _ _ Nm2) (ne_pos _ _ Nm2) (proj1 (ne_packed _ _ Nm2)) (ne_ready _ _ Nm2) T) as (m3 & E3 & SV3 & _).
  destruct (new_rotate A 12 _ _ _ _ _ _ Nm2 T E3) as (Nm3 & Z3).
  assert (same_header (sbox num) m3) as SH3.
  { apply (hdr_trans _ m2); [|apply SV3]. destruct (merge_tables 12 _ _ _ N2 (packed_in_range _ _ N3) (packed_in_range _ _ (ne_packed _ _ Nm1)) E2) as (_ & X & _). exact X. }
  assert (exists m4, update_boundaries A m3 = (m4, None)) as (m4 & E4).
  { assert (vertex_attributes m3 = vertex_attributes (sbox num)) as EA by apply SH3. assert (vertformat m3 = vertformat (sbox num)) as EF by apply SH3.
    assert (exists a, bounding_attrib (sbox num) = Some a /\ vartype a = 2 /\ (attrib_start (sbox num) a + 3 <= 12)%nat) as (pa & Pa & Ta & La).
    { eexists. split; [reflexivity|]. split; [reflexivity|]. vm_compute. lia. }
    apply (update_total A 12 m3 pa (ne_size _ _ Nm3) (proj1 (ne_ready _ _ Nm3))); [exact (tiled_vin 12 m3 (proj1 (ne_packed _ _ Nm3)))| | |now left|].
    - rewrite EA. cbn [vertex_attributes sbox as_static the_box]. repeat apply Forall_cons; try apply Forall_nil; intros _; split; cbn; tauto.
    - unfold bounding_attrib in *. now rewrite EA.
    - unfold attrib_start in *. now rewrite EF. }
  destruct (new_bounds A 12 _ _ _ Nm3 E4) as (_ & Z4).
  exists [m4; m1]. unfold value_run, value_call, value. cbn [nth set_nth]. rewrite E1. cbn [nth set_nth]. rewrite E2. cbn [nth set_nth].
  rewrite E3. cbn [nth set_nth]. rewrite E4. cbn [of_exn of_merge set_nth]. split; [reflexivity|]. repeat apply Forall_cons; try apply Forall_nil; lia.
Qed.
