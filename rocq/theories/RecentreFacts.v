(** Moving a mesh by the negative of a lod's centre. *)
From Coq Require Import ZArith List Bool Lia Reals Lra.
From Verif Require Import PyBase Struct Mesh Arith Edit Spec SpecEdit CodecBase DivFacts TravFacts VertFacts MergeFacts RArith RFacts BoundFacts CenterFacts SpecBounds.
Import ListNotations.
Open Scope Z_scope.

Section Moved.
Context {F : Type} (A : arith F).
Implicit Types (m : mesh F) (mt : mat F).
Definition shift (off q : vec3 F) : vec3 F :=
  let '(dx, dy, dz) := off in let '(x, y, z) := q in (f_add A x dx, f_add A y dy, f_add A z dz).
Lemma nth_block_out {B} n (l : list B) j c : (n <= c)%nat -> nth_error (block n l j) c = None.
Proof. intros H. apply nth_error_None. unfold block. rewrite firstn_length. lia. Qed.
Lemma block_moved vs m off m' : vertex_size m = Ok (Z.of_nat vs) -> (0 < vs)%nat -> tiled_vertices vs m -> short_offsets m ->
  translate A m off = (m', None) -> forall j c,
  nth_error (block vs (vertices m') j) c = option_map (moved A (position_start m) off c) (nth_error (block vs (vertices m) j) c).
Proof.
  intros Hs Hv T HO HT j c. destruct (translate_packed A vs m off m' Hs Hv T HO HT) as (_ & L & P).
  destruct (Nat.lt_ge_cases c vs) as [Hc|Hc].
  - rewrite !nth_block by assumption. destruct (nth_error (vertices m) (j * vs + c)) as [x|] eqn:E.
    + now rewrite (P j c x Hc E).
    + apply nth_error_None in E. cbn. apply nth_error_None. lia.
  - now rewrite !nth_block_out by assumption.
Qed.
Lemma positions_moved vs m dx dy dz m' mt : vertex_size m = Ok (Z.of_nat vs) -> (0 < vs)%nat -> tiled_vertices vs m -> short_offsets m ->
  bounding_attrib m = position_attrib m -> translate A m [dx; dy; dz] = (m', None) ->
  positions vs m' mt = map (shift (dx, dy, dz)) (positions vs m mt).
Proof.
  intros Hs Hv T HO HB HT. pose proof (block_moved vs m _ m' Hs Hv T HO HT) as BM.
  destruct (translate_packed A vs m _ m' Hs Hv T HO HT) as (S & _ & _).
  assert (bounding_start m' = position_start m) as E1.
  { unfold bounding_start, position_start. rewrite <- HB. destruct S as ((_ & _ & _ & _ & _ & S5 & S6 & _) & _).
    unfold bounding_attrib, attrib_start in *. now rewrite S5, S6. }
  assert (bounding_start m = position_start m) as E2 by (unfold bounding_start, position_start; now rewrite HB).
  unfold positions. rewrite E1, E2. unfold mat_vertices. rewrite !flat_map_concat_map, !map_map, concat_map, map_map. f_equal.
  apply map_ext. intros i. unfold at3. rewrite !BM. set (b := block vs (vertices m) _). unfold moved.
  replace (position_start m <=? position_start m)%nat with true by (symmetry; apply Nat.leb_le; lia).
  replace (position_start m <=? position_start m + 1)%nat with true by (symmetry; apply Nat.leb_le; lia).
  replace (position_start m <=? position_start m + 2)%nat with true by (symmetry; apply Nat.leb_le; lia).
  replace (position_start m - position_start m)%nat with 0%nat by lia.
  replace (position_start m + 1 - position_start m)%nat with 1%nat by lia.
  replace (position_start m + 2 - position_start m)%nat with 2%nat by lia. cbn [nth_error].
  destruct (nth_error b (position_start m)), (nth_error b (position_start m + 1)), (nth_error b (position_start m + 2)); reflexivity.
Qed.
Lemma lod_positions_moved vs m dx dy dz m' l : vertex_size m = Ok (Z.of_nat vs) -> (0 < vs)%nat -> tiled_vertices vs m -> short_offsets m ->
  bounding_attrib m = position_attrib m -> translate A m [dx; dy; dz] = (m', None) ->
  lod_positions vs m' l = map (shift (dx, dy, dz)) (lod_positions vs m l).
Proof.
  intros Hs Hv T HO HB HT. unfold lod_positions. rewrite !flat_map_concat_map, concat_map, map_map. f_equal. apply map_ext.
  intros mt. now apply positions_moved.
Qed.
Lemma lod_at_bound vs m gi li l : lod_at (set_geoms m (map (geom_bound A vs m) (geoms m))) gi li l <->
  exists l0, lod_at m gi li l0 /\ l = lod_bound A vs m l0.
Proof.
  unfold lod_at. cbn [geoms set_geoms]. split.
  - intros (j & k & g & P1 & N1 & P2 & N2). rewrite map_length in P1. rewrite nth_error_map in N1.
    destruct (nth_error (geoms m) j) as [g0|] eqn:E; [|discriminate]. injection N1 as <-. cbn [lods geom_bound set_lods] in P2, N2.
    rewrite map_length in P2. rewrite nth_error_map in N2. destruct (nth_error (lods g0) k) as [l0|] eqn:E2; [|discriminate]. injection N2 as <-.
    exists l0. split; [|reflexivity]. exists j, k, g0. auto.
  - intros (l0 & (j & k & g & P1 & N1 & P2 & N2) & ->). exists j, k, (geom_bound A vs m g). rewrite map_length, nth_error_map, N1.
    cbn [lods geom_bound set_lods option_map]. rewrite map_length, nth_error_map, N2. auto.
Qed.
Lemma lod_at_unique m gi li l l' : lod_at m gi li l -> lod_at m gi li l' -> l = l'.
Proof. rewrite !lod_at_get. congruence. Qed.
Lemma mats_bound vs m : mats (set_geoms m (map (geom_bound A vs m) (geoms m))) = map (mat_bound A vs m) (mats m).
Proof.
  unfold mats, mats_of. cbn [geoms set_geoms]. rewrite !flat_map_concat_map, concat_map, !map_map. f_equal. apply map_ext. intros g.
  cbn [lods geom_bound set_lods]. rewrite !flat_map_concat_map, concat_map, !map_map. f_equal.
Qed.
End Moved.

Theorem recentre vs (m m1 m2 m3 : mesh R) gi li l cx cy cz c :
  vertex_size m = Ok (Z.of_nat vs) -> (0 < vs)%nat -> tiled_vertices vs m -> short_offsets m -> bounded_kind m ->
  bounding_attrib m = position_attrib m -> lod_at m gi li l ->
  (forall i, In i axes -> (exists q, In q (lod_positions vs m l) /\ (axis i q <= 0)%R) /\
                          (exists q, In q (lod_positions vs m l) /\ (0 <= axis i q)%R)) ->
  get_lod_center_offset exact m gi li true = (m1, Ok (cx, cy, cz)) ->
  translate exact m1 [- cx; - cy; - cz]%R = (m2, None) ->
  get_lod_center_offset exact m2 gi li true = (m3, Ok c) -> c = (0, 0, 0)%R.
Proof.
  intros Hs Hv T HO HK HB HL ST H1 HT H2.
  destruct (center_result _ _ _ _ _ _ _ H1) as (U1 & l1 & lo & hi & L1 & E1 & E2 & M1).
  assert (Forall (mat_vin vs m) (mats m)) as HV by apply tiled_vin, T.
  pose proof (update_box exact (fun _ => True) (fun x => x) exact_ordered vs m m1 Hs HO HK HV) as B1. specialize (B1 ltac:(apply Forall_forall; intros; apply Forall_forall; intros ? ? ? ?; exact I) U1).
  destruct (update_ok exact vs m Hs HO HK m1 HV U1) as (Em1 & _). subst m1. set (m1 := set_geoms m (map (geom_bound exact vs m) (geoms m))) in *.
  assert (vertex_size m1 = Ok (Z.of_nat vs)) as Hs1 by exact Hs. assert (short_offsets m1) as HO1 by exact HO.
  assert (bounded_kind m1) as HK1 by exact HK. assert (bounding_attrib m1 = position_attrib m1) as HB1 by exact HB.
  assert (tiled_vertices vs m1) as T1.
  { unfold tiled_vertices in *. unfold m1 at 2. rewrite mats_bound, map_map. exact T. }
  destruct (translate_packed exact vs m1 _ m2 Hs1 Hv T1 HO1 HT) as (S & LL & _).
  destruct (center_result _ _ _ _ _ _ _ H2) as (U2 & l3 & lo3 & hi3 & L3 & E3 & E4 & M3).
  assert (geoms m2 = geoms m1) as EG by apply S.
  assert (vertex_size m2 = Ok (Z.of_nat vs)) as Hs2.
  { destruct S as ((_ & _ & _ & _ & _ & S5 & S6 & _) & _). unfold vertex_size in *. now rewrite S5. }
  assert (short_offsets m2) as HO2.
  { destruct S as ((_ & _ & _ & _ & _ & S5 & S6 & _) & _). unfold short_offsets in *. now rewrite S5, S6. }
  assert (bounded_kind m2) as HK2.
  { destruct S as ((S1 & S2 & _) & _). unfold bounded_kind in *. now rewrite S1, S2. }
  assert (Forall (mat_vin vs m2) (mats m2)) as HV2.
  { pose proof (tiled_vin vs m1 T1) as X. unfold mats. rewrite EG. unfold mats in X. eapply Forall_impl; [|exact X].
    intros mt (X1 & X2 & X3). split; [exact X1|]. split; [exact X2|]. unfold zlen in *. now rewrite LL. }
  pose proof (update_box exact (fun _ => True) (fun x => x) exact_ordered vs m2 m3 Hs2 HO2 HK2 HV2) as B3. specialize (B3 ltac:(apply Forall_forall; intros; apply Forall_forall; intros ? ? ? ?; exact I) U2).
  destruct (update_ok exact vs m2 Hs2 HO2 HK2 m3 HV2 U2) as (Em3 & _). subst m3. set (m3 := set_geoms m2 (map (geom_bound exact vs m2) (geoms m2))) in *.
  pose proof (lod_at_every _ _ _ _ _ B1 L1) as (a1 & b1 & _ & _ & X1 & X2 & _ & _ & BX1 & _).
  pose proof (lod_at_every _ _ _ _ _ B3 L3) as (a3 & b3 & _ & _ & X3 & X4 & _ & _ & BX3 & _).
  rewrite E1 in X1. rewrite E2 in X2. rewrite E3 in X3. rewrite E4 in X4. injection X1 as <-. injection X2 as <-. injection X3 as <-. injection X4 as <-.
  assert (lod_positions vs m1 l1 = lod_positions vs m l) as Q1.
  { apply (lod_at_bound exact vs m) in L1. destruct L1 as (l0 & L0 & ->). rewrite (lod_at_unique _ _ _ _ _ L0 HL).
    unfold lod_positions. cbn [lod_bound set_lod_bounds set_materials materials]. rewrite !flat_map_concat_map, map_map. reflexivity. }
  assert (lod_positions vs m3 l3 = map (shift exact (- cx, - cy, - cz)%R) (lod_positions vs m l)) as Q3.
  { apply (lod_at_bound exact vs m2) in L3. destruct L3 as (l2 & L2 & ->).
    assert (lod_at m1 gi li l2) as L2' by (unfold lod_at in *; now rewrite EG in L2). rewrite (lod_at_unique _ _ _ _ _ L2' L1).
    rewrite <- Q1, <- (lod_positions_moved exact vs m1 _ _ _ m2 l1 Hs1 Hv T1 HO1 HB1 HT).
    unfold lod_positions. cbn [lod_bound set_lod_bounds set_materials materials]. rewrite !flat_map_concat_map, map_map. reflexivity. }
  rewrite Q1 in BX1. rewrite Q3 in BX3. clear -ST M1 M3 BX1 BX3.
  assert (forall i, In i axes -> axis i c = 0%R) as Z.
  { intros i Hi. specialize (ST i Hi). specialize (M1 i Hi). specialize (M3 i Hi). destruct BX1 as (C1 & A1), BX3 as (C3 & A3).
    specialize (A1 i Hi). specialize (A3 i Hi). cbn [f_div f_add f_two exact] in M1, M3.
    assert (forall q, In q (lod_positions vs m l) -> (axis i lo <= axis i q <= axis i hi)%R) as K1.
    { intros q Hq. destruct (C1 q (or_intror Hq) i Hi) as (D1 & D2). rewrite (fle_val _ _ _ exact_ordered) in D1, D2 by exact I. lra. }
    assert (forall q, In q (lod_positions vs m l) -> (axis i lo3 <= axis i q - axis i (cx, cy, cz) <= axis i hi3)%R) as K3.
    { intros q Hq. destruct (C3 (shift exact (- cx, - cy, - cz)%R q) (or_intror (in_map _ _ _ Hq)) i Hi) as (D1 & D2).
      rewrite (fle_val _ _ _ exact_ordered) in D1, D2 by exact I.
      destruct q as ((x, y), z), Hi as [<-|[<-|[<-|[]]]]; cbn in *; lra. }
    assert (axis i lo3 <= 0 <= axis i hi3)%R as K0.
    { destruct (C3 _ (or_introl eq_refl) i Hi) as (D1 & D2). rewrite (fle_val _ _ _ exact_ordered) in D1, D2 by exact I.
      destruct Hi as [<-|[<-|[<-|[]]]]; cbn in *; lra. }
    assert (axis i lo <= 0 <= axis i hi)%R as K0'.
    { destruct (C1 _ (or_introl eq_refl) i Hi) as (D1 & D2). rewrite (fle_val _ _ _ exact_ordered) in D1, D2 by exact I.
      destruct Hi as [<-|[<-|[<-|[]]]]; cbn in *; lra. }
    destruct ST as ((q1 & Hq1 & P1) & (q2 & Hq2 & P2)).
    assert (exists q, In q (lod_positions vs m l) /\ axis i q = axis i lo) as (u & Hu & Eu).
    { destruct A1 as ((q & [<-|Hq] & E) & _); [|eauto]. exists q1. split; [exact Hq1|]. specialize (K1 q1 Hq1).
      assert (axis i (origin exact) = 0%R) as E0 by (destruct Hi as [<-|[<-|[<-|[]]]]; reflexivity). lra. }
    assert (exists q, In q (lod_positions vs m l) /\ axis i q = axis i hi) as (w & Hw & Ew).
    { destruct A1 as (_ & (q & [<-|Hq] & E)); [|eauto]. exists q2. split; [exact Hq2|]. specialize (K1 q2 Hq2).
      assert (axis i (origin exact) = 0%R) as E0 by (destruct Hi as [<-|[<-|[<-|[]]]]; reflexivity). lra. }
    assert (axis i lo3 = axis i lo - axis i (cx, cy, cz))%R as V1.
    { apply Rle_antisym; [specialize (K3 u Hu); lra|]. destruct A3 as ((q & [<-|Hq] & E) & _).
      - assert (axis i (origin exact) = 0%R) as E0 by (destruct Hi as [<-|[<-|[<-|[]]]]; reflexivity). lra.
      - apply in_map_iff in Hq. destruct Hq as (r & <- & Hr). specialize (K1 r Hr).
        destruct r as ((x, y), z), Hi as [<-|[<-|[<-|[]]]]; cbn in *; lra. }
    assert (axis i hi3 = axis i hi - axis i (cx, cy, cz))%R as V2.
    { apply Rle_antisym; [|specialize (K3 w Hw); lra]. destruct A3 as (_ & (q & [<-|Hq] & E)).
      - assert (axis i (origin exact) = 0%R) as E0 by (destruct Hi as [<-|[<-|[<-|[]]]]; reflexivity). lra.
      - apply in_map_iff in Hq. destruct Hq as (r & <- & Hr). specialize (K1 r Hr).
        destruct r as ((x, y), z), Hi as [<-|[<-|[<-|[]]]]; cbn in *; lra. }
    lra. }
  destruct c as ((x, y), z). pose proof (Z 0%nat (or_introl eq_refl)). pose proof (Z 1%nat (or_intror (or_introl eq_refl))).
  pose proof (Z 2%nat (or_intror (or_intror (or_introl eq_refl)))). cbn in *. congruence.
Qed.
