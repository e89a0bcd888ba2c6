(** Bounds of moved meshes. *)
From Coq Require Import ZArith List Bool Lia Reals Lra.
From Flocq Require Import Core IEEE754.Binary IEEE754.Bits.
From Verif Require Import PyBase Struct Mesh Arith F64 Edit Spec SpecEdit CodecBase DivFacts TravFacts VertFacts MergeFacts RArith RFacts F64Facts BoundFacts CenterFacts SpecBounds RecentreFacts AccFacts SpecMoveBound.
Import ListNotations.
Open Scope Z_scope.

(** ** The boxes before and after *)
Section Boxes.
Context {F : Type} (A : arith F) (good : F -> Prop) (val : F -> R) (O : ordered A good val).
Implicit Types (m : mesh F) (mt : mat F).
Lemma mats_in m gi li l : lod_at m gi li l -> forall mt, In mt (materials l) -> In mt (mats m).
Proof.
  intros (j & k & g & _ & N1 & _ & N2) mt Hm. unfold mats, mats_of. apply in_flat_map. exists g. split; [eapply nth_error_In, N1|].
  apply in_flat_map. exists l. split; [eapply nth_error_In, N2|exact Hm].
Qed.
Lemma fresh_box vs m m1 gi li l l1 lo hi :
  vertex_size m = Ok (Z.of_nat vs) -> short_offsets m -> bounded_kind m -> Forall (mat_vin vs m) (mats m) ->
  Forall (fun mt => Forall (good3 good) (positions vs m mt)) (mats m) ->
  update_boundaries A m = (m1, None) -> lod_at m gi li l -> lod_at m1 gi li l1 -> lod_min l1 = Some lo -> lod_max l1 = Some hi ->
  box A (origin A :: lod_positions vs m l) lo hi.
Proof.
  intros Hs HO HK HV HG U L L1 E1 E2. pose proof (update_box A good val O vs m m1 Hs HO HK HV HG U) as B.
  destruct (update_ok A vs m Hs HO HK m1 HV U) as (-> & _).
  pose proof (lod_at_every _ _ _ _ _ B L1) as (a1 & b1 & _ & _ & X1 & X2 & _ & _ & BX1 & _).
  rewrite E1 in X1. rewrite E2 in X2. injection X1 as <-. injection X2 as <-.
  apply (lod_at_bound A vs m) in L1. destruct L1 as (l0 & L0 & ->). rewrite (lod_at_unique _ _ _ _ _ L0 L) in BX1.
  unfold lod_positions in *. cbn [lod_bound set_lod_bounds set_materials materials] in BX1. revert BX1.
  rewrite !flat_map_concat_map, map_map. exact (fun x => x).
Qed.
End Boxes.

(** What update_boundaries and a change of the vertices keep. *)
Lemma update_keeps {F} (A : arith F) vs (m m1 : mesh F) :
  vertex_size m = Ok (Z.of_nat vs) -> tiled_vertices vs m -> short_offsets m -> bounded_kind m -> update_boundaries A m = (m1, None) ->
  vertex_size m1 = Ok (Z.of_nat vs) /\ tiled_vertices vs m1 /\ short_offsets m1 /\ bounded_kind m1 /\
  bounding_attrib m1 = bounding_attrib m /\ position_attrib m1 = position_attrib m /\ oriented_attribs m1 = oriented_attribs m /\
  vertices m1 = vertices m /\ vertformat m1 = vertformat m /\
  (forall gi li l1, lod_at m1 gi li l1 -> exists l, lod_at m gi li l /\ lod_positions vs m1 l1 = lod_positions vs m l) /\
  (forall gi li l, lod_at m gi li l -> exists l1, lod_at m1 gi li l1) /\
  mats m1 = map (mat_bound A vs m) (mats m).
Proof.
  intros Hs T HO HK U. destruct (update_ok A vs m Hs HO HK m1 (tiled_vin vs m T) U) as (-> & _).
  repeat (split; [assumption || reflexivity|]). split.
  { unfold tiled_vertices in *. rewrite mats_bound, map_map. exact T. }
  split; [exact HO|]. split; [exact HK|]. do 5 (split; [reflexivity|]). split; [|split].
  - intros gi li l1 L1. apply (lod_at_bound A vs m) in L1. destruct L1 as (l0 & L0 & ->). exists l0. split; [exact L0|].
    unfold lod_positions. cbn [lod_bound set_lod_bounds set_materials materials]. rewrite !flat_map_concat_map, map_map. reflexivity.
  - intros gi li l L. exists (lod_bound A vs m l). apply lod_at_bound. eauto.
  - apply mats_bound.
Qed.
Lemma vertices_keep {F} vs (m m' : mesh F) :
  vertex_size m = Ok (Z.of_nat vs) -> tiled_vertices vs m -> short_offsets m -> bounded_kind m ->
  same_but_vertices m m' -> length (vertices m') = length (vertices m) ->
  vertex_size m' = Ok (Z.of_nat vs) /\ Forall (mat_vin vs m') (mats m') /\ short_offsets m' /\ bounded_kind m' /\
  (forall gi li l, lod_at m' gi li l <-> lod_at m gi li l) /\ mats m' = mats m.
Proof.
  intros Hs T HO HK S LL. assert (geoms m' = geoms m) as EG by apply S.
  destruct S as ((S1 & S2 & _ & _ & _ & S5 & S6 & _) & _).
  assert (mats m' = mats m) as EM by (unfold mats; now rewrite EG).
  split; [unfold vertex_size in *; now rewrite S5|]. split.
  { rewrite EM. eapply Forall_impl; [|exact (tiled_vin vs m T)].
    intros mt (X1 & X2 & X3). split; [exact X1|]. split; [exact X2|]. unfold zlen in *. now rewrite LL. }
  split; [unfold short_offsets in *; now rewrite S5, S6|]. split; [unfold bounded_kind in *; now rewrite S1, S2|].
  split; [intros; unfold lod_at; now rewrite EG|exact EM].
Qed.

(** ** translate *)
Section Translated.
Context {F : Type} (A : arith F) (good : F -> Prop) (val : F -> R) (O : ordered A good val).
Theorem translated_boxes vs (m m1 mv m2 : mesh F) dx dy dz gi li l lo hi lo2 hi2 :
  vertex_size m = Ok (Z.of_nat vs) -> (0 < vs)%nat -> tiled_vertices vs m -> short_offsets m -> bounded_kind m ->
  bounding_attrib m = position_attrib m ->
  Forall (fun mt => Forall (fun q => good3 good q /\ good3 good (plus3 A (dx, dy, dz) q)) (positions vs m mt)) (mats m) ->
  update_boundaries A m = (m1, None) -> translate A m1 [dx; dy; dz] = (mv, None) -> update_boundaries A mv = (m2, None) ->
  lod_at m gi li l -> has_box m1 gi li lo hi -> has_box m2 gi li lo2 hi2 ->
  box A (origin A :: lod_positions vs m l) lo hi /\
  box A (origin A :: map (plus3 A (dx, dy, dz)) (lod_positions vs m l)) lo2 hi2.
Proof.
  intros Hs Hv T HO HK HB HG U1 HT U2 L (l1 & L1 & E1 & E2) (l2 & L2 & E3 & E4).
  split.
  { eapply (fresh_box A good val O vs m m1 gi li l l1); eauto using tiled_vin. eapply Forall_impl; [|exact HG].
    intros mt X. eapply Forall_impl; [|exact X]. intros q. tauto. }
  destruct (update_keeps A vs m m1 Hs T HO HK U1) as (Hs1 & T1 & HO1 & HK1 & B1 & P1 & _ & _ & _ & LP & _ & M1).
  assert (bounding_attrib m1 = position_attrib m1) as HB1 by congruence.
  destruct (translate_packed A vs m1 _ mv Hs1 Hv T1 HO1 HT) as (S & LL & _).
  destruct (vertices_keep vs m1 mv Hs1 T1 HO1 HK1 S LL) as (Hsv & Tv & HOv & HKv & LA & EM).
  destruct (LP _ _ _ L1) as (l' & L' & Q). rewrite (lod_at_unique _ _ _ _ _ L' L) in Q.
  rewrite <- Q. change (plus3 A (dx, dy, dz)) with (shift A (dx, dy, dz)).
  rewrite <- (lod_positions_moved A vs m1 dx dy dz mv l1 Hs1 Hv T1 HO1 HB1 HT).
  eapply (fresh_box A good val O vs mv m2 gi li l1 l2); eauto; [|now apply LA].
  rewrite EM, Forall_forall. intros mt Hm. rewrite (positions_moved A vs m1 dx dy dz mv mt Hs1 Hv T1 HO1 HB1 HT).
  apply Forall_map. rewrite M1 in Hm. apply in_map_iff in Hm. destruct Hm as (mt0 & <- & Hm0).
  rewrite Forall_forall in HG. specialize (HG mt0 Hm0).
  destruct (update_ok A vs m Hs HO HK m1 (tiled_vin vs m T) U1) as (-> & _).
  eapply Forall_impl; [|exact HG]. intros q X. apply X.
Qed.

(** The arithmetic on the boxes: [ok d x] says that [x] may be moved by [d]. *)
Lemma carried (ok : F -> F -> Prop) (d : vec3 F) P lo hi lo2 hi2 :
  (forall a x y, ok a x -> ok a y -> fle A x y -> fle A (f_add A x a) (f_add A y a)) ->
  (forall i, In i axes -> ok (axis i d) (f_zero A)) ->
  (forall q, In q P -> forall i, In i axes -> ok (axis i d) (axis i q)) ->
  box A (origin A :: P) lo hi -> box A (origin A :: map (plus3 A d) P) lo2 hi2 -> box_carried A d P lo hi lo2 hi2.
Proof.
  intros M OZ OP (C1 & A1) (C2 & A2) i Hi. specialize (A1 i Hi). specialize (A2 i Hi).
  assert (axis i (origin A) = f_zero A) as E0 by (destruct Hi as [<-|[<-|[<-|[]]]]; reflexivity).
  assert (forall q, axis i (plus3 A d q) = f_add A (axis i q) (axis i d)) as EP.
  { intros ((x, y), z). destruct d as ((dx, dy), dz), Hi as [<-|[<-|[<-|[]]]]; reflexivity. }
  assert (forall q, In q (origin A :: P) -> ok (axis i d) (axis i q)) as OK.
  { intros q [<-|Hq]; [rewrite E0; auto|auto]. }
  destruct A1 as ((u & Hu & Eu) & (w & Hw & Ew)), A2 as ((u2 & Hu2 & Eu2) & (w2 & Hw2 & Ew2)).
  split; [|split; [|split]].
  - destruct Hu2 as [<-|Hu2]; [left; congruence|]. right. apply in_map_iff in Hu2. destruct Hu2 as (r & <- & Hr).
    rewrite <- Eu2, EP, <- Eu. apply M; auto. rewrite Eu. exact (proj1 (C1 r (or_intror Hr) i Hi)).
  - destruct Hw2 as [<-|Hw2]; [left; congruence|]. right. apply in_map_iff in Hw2. destruct Hw2 as (r & <- & Hr).
    rewrite <- Ew2, EP, <- Ew. apply M; auto. rewrite Ew. exact (proj2 (C1 r (or_intror Hr) i Hi)).
  - intros (q & Hq & <-). rewrite <- EP. exact (proj1 (C2 _ (or_intror (in_map _ _ _ Hq)) i Hi)).
  - intros (q & Hq & <-). rewrite <- EP. exact (proj2 (C2 _ (or_intror (in_map _ _ _ Hq)) i Hi)).
Qed.
End Translated.

Theorem translated_exact vs (m m1 mv m2 : mesh R) dx dy dz gi li l lo hi lo2 hi2 :
  vertex_size m = Ok (Z.of_nat vs) -> (0 < vs)%nat -> tiled_vertices vs m -> short_offsets m -> bounded_kind m ->
  bounding_attrib m = position_attrib m ->
  update_boundaries exact m = (m1, None) -> translate exact m1 [dx; dy; dz] = (mv, None) -> update_boundaries exact mv = (m2, None) ->
  lod_at m gi li l -> has_box m1 gi li lo hi -> has_box m2 gi li lo2 hi2 ->
  forall i, In i axes -> let d := axis i (dx, dy, dz) in
    (Rmin 0 (axis i lo + d) <= axis i lo2 <= 0)%R /\ (0 <= axis i hi2 <= Rmax 0 (axis i hi + d))%R /\
    ((exists q, In q (lod_positions vs m l) /\ axis i q <= 0)%R -> axis i lo2 = Rmin 0 (axis i lo + d)) /\
    ((exists q, In q (lod_positions vs m l) /\ 0 <= axis i q)%R -> axis i hi2 = Rmax 0 (axis i hi + d)).
Proof.
  intros Hs Hv T HO HK HB U1 HT U2 L B1 B2 i Hi d.
  destruct (translated_boxes exact _ _ exact_ordered vs m m1 mv m2 dx dy dz gi li l lo hi lo2 hi2 Hs Hv T HO HK HB) as (X1 & X2); auto.
  { apply Forall_forall; intros; apply Forall_forall; intros; split; intros ? ?; exact I. }
  assert (box_carried exact (dx, dy, dz) (lod_positions vs m l) lo hi lo2 hi2) as C.
  { apply (carried exact (fun _ _ => True)); auto. intros a x y _ _. rewrite !(fle_val _ _ _ exact_ordered) by exact I. cbn. lra. }
  specialize (C i Hi).
  fold d in C. destruct C as (C1 & C2 & C3 & C4), X1 as (I1 & A1), X2 as (I2 & _).
  assert (axis i (origin exact) = 0%R) as E0 by (destruct Hi as [<-|[<-|[<-|[]]]]; reflexivity).
  pose proof (I1 _ (or_introl eq_refl) i Hi) as K1. pose proof (I2 _ (or_introl eq_refl) i Hi) as K2.
  rewrite E0 in K1, K2. rewrite !(fle_val _ _ _ exact_ordered) in * by exact I. cbn [f_zero f_add exact] in *.
  assert (forall q, In q (lod_positions vs m l) -> (axis i lo <= axis i q <= axis i hi)%R) as KQ.
  { intros q Hq. pose proof (I1 q (or_intror Hq) i Hi) as K. rewrite !(fle_val _ _ _ exact_ordered) in K by exact I. lra. }
  destruct (A1 i Hi) as ((u & Hu & Eu) & (w & Hw & Ew)).
  unfold Rmin, Rmax. destruct (Rle_dec 0 (axis i lo + d)) as [D1|D1], (Rle_dec 0 (axis i hi + d)) as [D2|D2].
  all: split; [destruct C1; lra|]; split; [destruct C2; lra|]; split; intros (q & Hq & Sq).
  all: pose proof (KQ q Hq) as KK.
  all: try (assert (axis i lo2 <= axis i lo + d)%R as C3' by (apply C3; destruct Hu as [<-|Hu]; [exists q; split; [exact Hq|lra]|eauto]); destruct C1; lra).
  all: try (assert (axis i hi + d <= axis i hi2)%R as C4' by (apply C4; destruct Hw as [<-|Hw]; [exists q; split; [exact Hq|lra]|eauto]); destruct C2; lra).
Qed.

Lemma add_mono L a x y : fin (f_add (f64 L) x a) -> fin (f_add (f64 L) y a) -> fle (f64 L) x y ->
  fle (f64 L) (f_add (f64 L) x a) (f_add (f64 L) y a).
Proof.
  intros Hx Hy H. destruct (plus_finite_inv L x a Hx) as (Fx & _), (plus_finite_inv L y a Hy) as (Fy & _).
  rewrite fle_fin in * by assumption. pose proof (plus_val L x a Hx) as E1. pose proof (plus_val L y a Hy) as E2.
  unfold SpecAcc.val in E1, E2. rewrite E1, E2.
  apply round_le; [apply (fexp_correct 53 1024); reflexivity|apply valid_rnd_N|]. lra.
Qed.
Lemma zero_plus_fin L a : fin a -> fin (f_add (f64 L) (f_zero (f64 L)) a).
Proof. unfold fin. destruct a as [[]|[]| |]; intros H; try discriminate H; reflexivity. Qed.
Theorem translated_double L vs m m1 mv m2 dx dy dz gi li l lo hi lo2 hi2 :
  vertex_size m = Ok (Z.of_nat vs) -> (0 < vs)%nat -> tiled_vertices vs m -> short_offsets m -> bounded_kind m ->
  bounding_attrib m = position_attrib m ->
  (forall i, In i axes -> is_finite 53 1024 (axis i (dx, dy, dz)) = true) ->
  Forall (fun mt => Forall (fun q => forall i, In i axes -> is_finite 53 1024 (axis i (plus3 (f64 L) (dx, dy, dz) q)) = true)
                           (positions vs m mt)) (mats m) ->
  update_boundaries (f64 L) m = (m1, None) -> translate (f64 L) m1 [dx; dy; dz] = (mv, None) -> update_boundaries (f64 L) mv = (m2, None) ->
  lod_at m gi li l -> has_box m1 gi li lo hi -> has_box m2 gi li lo2 hi2 ->
  box_carried (f64 L) (dx, dy, dz) (lod_positions vs m l) lo hi lo2 hi2.
Proof.
  intros Hs Hv T HO HK HB Fd HF U1 HT U2 L0 B1 B2.
  assert (forall x, is_finite 53 1024 x = true -> number x) as FN by (intros x; unfold number; destruct x; easy).
  assert (forall q i, In i axes -> axis i (plus3 (f64 L) (dx, dy, dz) q) = f_add (f64 L) (axis i q) (axis i (dx, dy, dz))) as EP.
  { intros ((x, y), z) i Hi. destruct Hi as [<-|[<-|[<-|[]]]]; reflexivity. }
  assert (forall q, (forall i, In i axes -> is_finite 53 1024 (axis i (plus3 (f64 L) (dx, dy, dz) q)) = true) ->
            good3 number q /\ good3 number (plus3 (f64 L) (dx, dy, dz) q)) as GQ.
  { intros q H. split; intros i Hi; apply FN; [|now apply H]. specialize (H i Hi). rewrite (EP q i Hi) in H.
    exact (proj1 (plus_finite_inv L _ _ H)). }
  destruct (translated_boxes (f64 L) _ _ (f64_ordered L) vs m m1 mv m2 dx dy dz gi li l lo hi lo2 hi2 Hs Hv T HO HK HB) as (X1 & X2); auto.
  { eapply Forall_impl; [|exact HF]. intros mt X. eapply Forall_impl; [|exact X]. exact GQ. }
  apply (carried (f64 L) (fun a x => fin (f_add (f64 L) x a))); auto.
  - intros a x y. apply add_mono.
  - intros i Hi. apply zero_plus_fin. exact (Fd i Hi).
  - intros q Hq i Hi. unfold lod_positions in Hq. apply in_flat_map in Hq. destruct Hq as (mt & Hm & Hq).
    rewrite Forall_forall in HF. specialize (HF mt (mats_in _ _ _ _ L0 mt Hm)). rewrite Forall_forall in HF.
    specialize (HF q Hq i Hi). rewrite (EP q i Hi) in HF. exact HF.
Qed.

(** ** rotate *)
Lemma at3_triple {F} vs (v : list F) j o q : (o + 3 <= vs)%nat -> at3 (block vs v j) o = Some q <-> triple v (j * vs + o) q.
Proof.
  intros H. unfold at3, triple. rewrite !nth_block by lia. destruct q as ((x, y), z). rewrite !Nat.add_assoc.
  destruct (nth_error v (j * vs + o)), (nth_error v (j * vs + o + 1)), (nth_error v (j * vs + o + 2));
    (split; [intros E; try discriminate E; injection E as -> -> ->; auto | intros (E1 & E2 & E3); try discriminate;
      injection E1 as ->; injection E2 as ->; injection E3 as ->; reflexivity]).
Qed.
Lemma positions_turned vs (m m' : mesh R) a f mt :
  bounding_attrib m = Some a -> bounding_attrib m' = Some a -> attrib_start m' a = attrib_start m a -> (attrib_start m a + 3 <= vs)%nat ->
  length (vertices m') = length (vertices m) ->
  (forall j q, triple (vertices m) (j * vs + attrib_start m a) q -> triple (vertices m') (j * vs + attrib_start m a) (f q)) ->
  positions vs m' mt = map f (positions vs m mt).
Proof.
  intros E1 E2 E3 Ho LL H. unfold positions, bounding_start. rewrite E1, E2, E3. unfold mat_vertices.
  rewrite !flat_map_concat_map, !map_map, concat_map, map_map. f_equal. apply map_ext. intros i.
  set (j := (Z.to_nat (vstart mt) + i)%nat). destruct (at3 (block vs (vertices m) j) (attrib_start m a)) as [q|] eqn:E.
  - apply at3_triple in E; [|exact Ho]. apply H in E. apply at3_triple in E; [|exact Ho]. now rewrite E.
  - destruct (at3 (block vs (vertices m') j) (attrib_start m a)) as [q|] eqn:E'; [|reflexivity]. exfalso.
    apply at3_triple in E'; [|exact Ho]. destruct q as ((x, y), z). destruct E' as (_ & _ & Z).
    assert (j * vs + attrib_start m a + 2 < length (vertices m))%nat as K by (rewrite <- LL; apply nth_error_Some; congruence).
    destruct (triple_ex (vertices m) (j * vs + attrib_start m a)) as (q & Hq); [lia|].
    apply at3_triple in Hq; [congruence|exact Ho].
Qed.
Theorem rotated_boxes vs (m m1 mv m2 : mesh R) y p r more a gi li l lo hi lo2 hi2 :
  vertex_size m = Ok (Z.of_nat vs) -> (0 < vs)%nat -> tiled_vertices vs m -> rotate_ready vs m -> bounded_kind m ->
  bounding_attrib m = Some a ->
  update_boundaries exact m = (m1, None) -> rotate exact m1 (y :: p :: r :: more) = (mv, None) -> update_boundaries exact mv = (m2, None) ->
  lod_at m gi li l -> has_box m1 gi li lo hi -> has_box m2 gi li lo2 hi2 ->
  box exact (origin exact :: lod_positions vs m l) lo hi /\
  box exact (origin exact :: map (turn exact y p r) (lod_positions vs m l)) lo2 hi2.
Proof.
  intros Hs Hv T HR HK HB U1 HT U2 L (l1 & L1 & E1 & E2) (l2 & L2 & E3 & E4). pose proof (proj1 HR) as HO.
  assert (forall (m : mesh R), Forall (fun mt => Forall (good3 (fun _ => True)) (positions vs m mt)) (mats m)) as TR.
  { intros; apply Forall_forall; intros; apply Forall_forall; intros ? ? ? ?; exact I. }
  split. { eapply (fresh_box exact _ _ exact_ordered vs m m1 gi li l l1); eauto using tiled_vin. }
  destruct (update_keeps exact vs m m1 Hs T HO HK U1) as (Hs1 & T1 & HO1 & HK1 & B1 & P1 & OA & V1 & F1 & LP & _ & M1).
  assert (rotate_ready vs m1) as R1.
  { destruct HR as (_ & H2 & H3). split; [exact HO1|]. rewrite OA. unfold apart, attrib_start in *. now rewrite F1. }
  destruct (rotate_triples exact vs m1 y p r more Hs1 Hv T1 R1 (can_turn_exact _ _ _)) as (mv' & HT' & S & LL & _ & TR1).
  assert (mv' = mv) by congruence. subst mv'.
  destruct (vertices_keep vs m1 mv Hs1 T1 HO1 HK1 S LL) as (Hsv & Tv & HOv & HKv & LA & EM).
  destruct (LP _ _ _ L1) as (l' & L' & Q). rewrite (lod_at_unique _ _ _ _ _ L' L) in Q. rewrite <- Q.
  assert (bounding_attrib m1 = Some a) as HB1 by congruence.
  assert (In a (oriented_attribs m1)) as IA.
  { unfold bounding_attrib in HB1. apply find_some in HB1. destruct HB1 as (X1 & X2). apply filter_In. split; [now apply in_rev|].
    unfold oriented. apply andb_true_iff in X2. destruct X2 as (-> & ->). reflexivity. }
  assert (lod_positions vs mv l1 = map (turn exact y p r) (lod_positions vs m1 l1)) as QV.
  { unfold lod_positions. rewrite !flat_map_concat_map, concat_map, map_map. f_equal. apply map_ext. intros mt.
    destruct S as ((_ & _ & _ & _ & _ & S5 & S6 & _) & _).
    apply (positions_turned vs m1 mv a); auto.
    - unfold bounding_attrib in *. now rewrite S5.
    - unfold attrib_start. now rewrite S6.
    - destruct R1 as (_ & R2 & _). rewrite Forall_forall in R2. apply R2, IA. }
  rewrite <- QV. eapply (fresh_box exact _ _ exact_ordered vs mv m2 gi li l1 l2); eauto. now apply LA.
Qed.

Lemma square_le x r : (0 <= r -> x * x <= r * r -> - r <= x <= r)%R.
Proof. intros H1 H2. split; nra. Qed.
Lemma axis_dot i (q : vec3 R) : In i axes -> (axis i q * axis i q <= dot q q)%R.
Proof.
  destruct q as ((x, y), z). intros [<-|[<-|[<-|[]]]]; cbn; pose proof (Rle_0_sqr x); pose proof (Rle_0_sqr y); pose proof (Rle_0_sqr z);
    unfold Rsqr in *; lra.
Qed.
Theorem rotated_ball vs (m m1 mv m2 : mesh R) y p r more a gi li l lo hi lo2 hi2 :
  vertex_size m = Ok (Z.of_nat vs) -> (0 < vs)%nat -> tiled_vertices vs m -> rotate_ready vs m -> bounded_kind m ->
  bounding_attrib m = Some a ->
  update_boundaries exact m = (m1, None) -> rotate exact m1 (y :: p :: r :: more) = (mv, None) -> update_boundaries exact mv = (m2, None) ->
  lod_at m gi li l -> has_box m1 gi li lo hi -> has_box m2 gi li lo2 hi2 ->
  (forall ray, 0 <= ray -> (forall q, In q (lod_positions vs m l) -> dot q q <= ray * ray) ->
     forall i, In i axes -> - ray <= axis i lo2 <= 0 /\ 0 <= axis i hi2 <= ray)%R /\
  (forall i, In i axes -> - far_corner lo hi <= axis i lo2 <= 0 /\ 0 <= axis i hi2 <= far_corner lo hi)%R.
Proof.
  intros Hs Hv T HR HK HB U1 HT U2 L B1 B2.
  destruct (rotated_boxes vs m m1 mv m2 y p r more a gi li l lo hi lo2 hi2 Hs Hv T HR HK HB U1 HT U2 L B1 B2) as ((I1 & _) & (I2 & A2)).
  assert (forall ray, 0 <= ray -> (forall q, In q (lod_positions vs m l) -> dot q q <= ray * ray) ->
     forall i, In i axes -> - ray <= axis i lo2 <= 0 /\ 0 <= axis i hi2 <= ray)%R as BALL.
  { intros ray Hray HQ i Hi.
    assert (axis i (origin exact) = 0%R) as E0 by (destruct Hi as [<-|[<-|[<-|[]]]]; reflexivity).
    pose proof (I2 _ (or_introl eq_refl) i Hi) as K2. rewrite E0 in K2. rewrite !(fle_val _ _ _ exact_ordered) in K2 by exact I.
    assert (forall q, In q (origin exact :: map (turn exact y p r) (lod_positions vs m l)) -> (- ray <= axis i q <= ray)%R) as K.
    { intros q [<-|Hq]; [rewrite E0; lra|]. apply in_map_iff in Hq. destruct Hq as (q0 & <- & Hq). apply square_le; [exact Hray|].
      eapply Rle_trans; [apply axis_dot, Hi|]. rewrite turn_dot. auto. }
    destruct (A2 i Hi) as ((u & Hu & Eu) & (w & Hw & Ew)). pose proof (K u Hu). pose proof (K w Hw). cbv beta in *. lra. }
  split; [exact BALL|]. apply BALL; [apply sqrt_pos|]. intros q Hq. unfold far_corner.
  assert (forall x, 0 <= x * x)%R as SQ by (intros x; apply Rle_0_sqr).
  rewrite sqrt_sqrt by (pose proof (SQ (reach 0 lo hi)); pose proof (SQ (reach 1 lo hi)); pose proof (SQ (reach 2 lo hi)); lra).
  assert (forall i, In i axes -> axis i q * axis i q <= reach i lo hi * reach i lo hi)%R as RI.
  { intros i Hi. pose proof (I1 q (or_intror Hq) i Hi) as K. pose proof (I1 _ (or_introl eq_refl) i Hi) as K0.
    rewrite !(fle_val _ _ _ exact_ordered) in K, K0 by exact I.
    assert (axis i (origin exact) = 0%R) as E0 by (destruct Hi as [<-|[<-|[<-|[]]]]; reflexivity). rewrite E0 in K0.
    unfold reach. pose proof (Rmax_l (- axis i lo) (axis i hi)). pose proof (Rmax_r (- axis i lo) (axis i hi)).
    set (k := Rmax _ _) in *. set (x := axis i q) in *. assert (0 <= k - x /\ 0 <= k + x)%R as (K1 & K2) by lra.
    pose proof (Rmult_le_pos _ _ K1 K2). lra. }
  pose proof (RI 0%nat (or_introl eq_refl)). pose proof (RI 1%nat (or_intror (or_introl eq_refl))).
  pose proof (RI 2%nat (or_intror (or_intror (or_introl eq_refl)))). destruct q as ((qx, qy), qz). cbn in *. lra.
Qed.

(** ** The steps go through *)
Lemma same_total {F} (A : arith F) vs (m m' : mesh F) a :
  vertex_size m = Ok (Z.of_nat vs) -> tiled_vertices vs m -> short_offsets m -> bounded_kind m ->
  Forall (fun a => in_use a = true -> known_attrib a) (vertex_attributes m) -> bounding_attrib m = Some a ->
  vartype a = 2 \/ vartype a = 3 -> (attrib_start m a + 3 <= vs)%nat ->
  same_but_vertices m m' -> length (vertices m') = length (vertices m) -> exists m2, update_boundaries A m' = (m2, None).
Proof.
  intros Hs T HO HK HD HB HT HL S LL. destruct (vertices_keep vs m m' Hs T HO HK S LL) as (Hsv & Tv & HOv & HKv & _ & _).
  destruct S as ((_ & _ & _ & _ & _ & S5 & S6 & _) & _).
  apply (update_total A vs m' a); auto.
  - now rewrite S5.
  - unfold bounding_attrib in *. now rewrite S5.
  - unfold attrib_start in *. now rewrite S6.
Qed.
Lemma box_exists {F} (A : arith F) vs (m m1 : mesh F) gi li l :
  vertex_size m = Ok (Z.of_nat vs) -> short_offsets m -> bounded_kind m -> Forall (mat_vin vs m) (mats m) ->
  update_boundaries A m = (m1, None) -> lod_at m gi li l -> exists lo hi, has_box m1 gi li lo hi.
Proof.
  intros Hs HO HK HV U L. destruct (update_ok A vs m Hs HO HK m1 HV U) as (-> & _).
  assert (lod_at (set_geoms m (map (geom_bound A vs m) (geoms m))) gi li (lod_bound A vs m l)) as L1 by (apply lod_at_bound; eauto).
  eexists _, _, _. split; [exact L1|]. split; reflexivity.
Qed.
Section Through.
Context {F : Type} (A : arith F).
Theorem moves_through (move : mesh F -> mesh F * option exn) vs (m : mesh F) a gi li l :
  (forall m1, update_boundaries A m = (m1, None) -> exists mv, move m1 = (mv, None) /\ same_but_vertices m1 mv /\ length (vertices mv) = length (vertices m1)) ->
  vertex_size m = Ok (Z.of_nat vs) -> tiled_vertices vs m -> short_offsets m -> bounded_kind m ->
  Forall (fun a => in_use a = true -> known_attrib a) (vertex_attributes m) -> bounding_attrib m = Some a ->
  vartype a = 2 \/ vartype a = 3 -> (attrib_start m a + 3 <= vs)%nat -> lod_at m gi li l ->
  exists m1 mv m2 lo hi lo2 hi2, update_boundaries A m = (m1, None) /\ move m1 = (mv, None) /\ update_boundaries A mv = (m2, None) /\
    has_box m1 gi li lo hi /\ has_box m2 gi li lo2 hi2.
Proof.
  intros HM Hs T HO HK HD HB HT HL L. destruct (update_total A vs m a Hs HO (tiled_vin vs m T) HD HB HT HL) as (m1 & U1).
  destruct (HM m1 U1) as (mv & MV & S & LL).
  destruct (update_keeps A vs m m1 Hs T HO HK U1) as (Hs1 & T1 & HO1 & HK1 & B1 & _ & _ & _ & F1 & _ & LA & _).
  assert (vertex_attributes m1 = vertex_attributes m) as EA.
  { destruct (update_ok A vs m Hs HO HK m1 (tiled_vin vs m T) U1) as (-> & _). reflexivity. }
  destruct (same_total A vs m1 mv a Hs1 T1 HO1 HK1) as (m2 & U2); auto.
  { now rewrite EA. } { congruence. } { unfold attrib_start in *. now rewrite F1. }
  destruct (vertices_keep vs m1 mv Hs1 T1 HO1 HK1 S LL) as (Hsv & Tv & HOv & HKv & LAv & _).
  destruct (LA _ _ _ L) as (l1 & L1).
  destruct (box_exists A vs m m1 gi li l Hs HO HK (tiled_vin vs m T) U1 L) as (lo & hi & X1).
  destruct (box_exists A vs mv m2 gi li l1 Hsv HOv HKv Tv U2 (proj2 (LAv _ _ _) L1)) as (lo2 & hi2 & X2).
  exists m1, mv, m2, lo, hi, lo2, hi2. auto.
Qed.
Theorem translate_through vs (m : mesh F) dx dy dz a gi li l :
  vertex_size m = Ok (Z.of_nat vs) -> (0 < vs)%nat -> tiled_vertices vs m -> short_offsets m -> bounded_kind m ->
  Forall (fun a => in_use a = true -> known_attrib a) (vertex_attributes m) ->
  bounding_attrib m = position_attrib m -> bounding_attrib m = Some a ->
  vartype a = 2 \/ vartype a = 3 -> (attrib_start m a + 3 <= vs)%nat -> lod_at m gi li l ->
  exists m1 mv m2 lo hi lo2 hi2, update_boundaries A m = (m1, None) /\ translate A m1 [dx; dy; dz] = (mv, None) /\
    update_boundaries A mv = (m2, None) /\ has_box m1 gi li lo hi /\ has_box m2 gi li lo2 hi2.
Proof.
  intros Hs Hv T HO HK HD HP HB HT HL L. apply (moves_through (fun m1 => translate A m1 [dx; dy; dz]) vs m a gi li l); auto. intros m1 U1.
  destruct (update_keeps A vs m m1 Hs T HO HK U1) as (Hs1 & T1 & HO1 & HK1 & B1 & P1 & _ & _ & F1 & _).
  destruct (translate_succeeds A vs m1 [dx; dy; dz] Hs1 Hv T1 HO1) as (mv & MV).
  { intros _. exists a. split; [congruence|]. unfold attrib_start in *. rewrite F1. exact HL. }
  destruct (translate_packed A vs m1 _ mv Hs1 Hv T1 HO1 MV) as (S & LL & _). eauto.
Qed.
End Through.
Theorem rotate_through {F} (A : arith F) vs (m : mesh F) y p r more a gi li l :
  vertex_size m = Ok (Z.of_nat vs) -> (0 < vs)%nat -> tiled_vertices vs m -> rotate_ready vs m -> bounded_kind m ->
  Forall (fun a => in_use a = true -> known_attrib a) (vertex_attributes m) -> bounding_attrib m = Some a -> can_turn A y p r -> lod_at m gi li l ->
  exists m1 mv m2 lo hi lo2 hi2, update_boundaries A m = (m1, None) /\ rotate A m1 (y :: p :: r :: more) = (mv, None) /\
    update_boundaries A mv = (m2, None) /\ has_box m1 gi li lo hi /\ has_box m2 gi li lo2 hi2.
Proof.
  intros Hs Hv T HR HK HD HB CT L. pose proof (proj1 HR) as HO.
  assert (vartype a = 2 /\ (attrib_start m a + 3 <= vs)%nat) as (V1 & V2).
  { destruct HR as (_ & R2 & _). rewrite Forall_forall in R2. apply R2. unfold bounding_attrib in HB. apply find_some in HB.
    destruct HB as (X1 & X2). apply filter_In. split; [now apply in_rev|].
    unfold oriented. apply andb_true_iff in X2. destruct X2 as (-> & ->). reflexivity. }
  apply (moves_through A (fun m1 => rotate A m1 (y :: p :: r :: more)) vs m a gi li l); auto. intros m1 U1.
  destruct (update_keeps A vs m m1 Hs T HO HK U1) as (Hs1 & T1 & HO1 & HK1 & B1 & P1 & OA & _ & F1 & _).
  assert (rotate_ready vs m1) as R1.
  { destruct HR as (_ & H2 & H3). split; [exact HO1|]. rewrite OA. unfold apart, attrib_start in *. now rewrite F1. }
  destruct (rotate_triples A vs m1 y p r more Hs1 Hv T1 R1 CT) as (mv & MV & S & LL & _). eauto.
Qed.
(** Moved away from the origin, the box does not move along. *)
Theorem not_moved_along vs (m m1 mv m2 : mesh R) dx dy dz gi li l lo hi lo2 hi2 :
  vertex_size m = Ok (Z.of_nat vs) -> (0 < vs)%nat -> tiled_vertices vs m -> short_offsets m -> bounded_kind m ->
  bounding_attrib m = position_attrib m ->
  update_boundaries exact m = (m1, None) -> translate exact m1 [dx; dy; dz] = (mv, None) -> update_boundaries exact mv = (m2, None) ->
  lod_at m gi li l -> has_box m1 gi li lo hi -> has_box m2 gi li lo2 hi2 ->
  forall i, In i axes -> (0 < axis i lo + axis i (dx, dy, dz) -> axis i lo2 = 0)%R /\
                         (axis i hi + axis i (dx, dy, dz) < 0 -> axis i hi2 = 0)%R.
Proof.
  intros Hs Hv T HO HK HB U1 HT U2 L B1 B2 i Hi.
  destruct (translated_exact vs m m1 mv m2 dx dy dz gi li l lo hi lo2 hi2 Hs Hv T HO HK HB U1 HT U2 L B1 B2 i Hi) as (X1 & X2 & _).
  split; intros H.
  - rewrite Rmin_left in X1 by lra. lra.
  - rewrite Rmax_left in X2 by lra. lra.
Qed.
