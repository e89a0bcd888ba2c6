(** Programs over several meshes give the same in both mesh classes. *)
From Coq Require Import ZArith List Bool Lia Reals.
From Flocq Require Import IEEE754.Binary IEEE754.Bits.
From Verif Require Import PyBase Struct Mesh Arith Edit Old OldEdit HeapEdit Spec SpecEdit SpecBounds SpecProg SpecOldEdit SpecBoth
  F64 RArith TravFacts VertFacts LayoutFacts MergeFacts BoundFacts HistFacts ManyFacts OldEditFacts OldEditThms.
Import ListNotations.
Open Scope Z_scope.

(** ** Lists *)
Section Lists.
Context {B C : Type} (P : B -> C -> Prop).
Lemma f2_firstn n : forall l l', Forall2 P l l' -> Forall2 P (firstn n l) (firstn n l').
Proof. induction n as [|n IH]; intros l l' H; [constructor|]. destruct H; cbn; constructor; auto. Qed.
Lemma f2_skipn n : forall l l', Forall2 P l l' -> Forall2 P (skipn n l) (skipn n l').
Proof. induction n as [|n IH]; intros l l' H; [exact H|]. destruct H; cbn; [constructor|auto]. Qed.
Lemma f2_concat : forall l l', Forall2 (Forall2 P) l l' -> Forall2 P (concat l) (concat l').
Proof. induction 1; cbn; [constructor|]. now apply Forall2_app. Qed.
Lemma f2_nth l l' i x y : Forall2 P l l' -> nth_error l i = Some x -> nth_error l' i = Some y -> P x y.
Proof.
  intros H. revert i. induction H; intros [|i]; cbn; try discriminate; [now intros [= <-] [= <-]|apply IHForall2].
Qed.
Lemma f2_nth_l l l' i x : Forall2 P l l' -> nth_error l i = Some x -> exists y, nth_error l' i = Some y /\ P x y.
Proof. intros H. revert i. induction H; intros [|i]; cbn; try discriminate; [intros [= <-]; eauto|apply IHForall2]. Qed.
Lemma f2_nth_r l l' i y : Forall2 P l l' -> nth_error l' i = Some y -> exists x, nth_error l i = Some x /\ P x y.
Proof. intros H. revert i. induction H; intros [|i]; cbn; try discriminate; [intros [= <-]; eauto|apply IHForall2]. Qed.
Lemma f2_flat_map {B' C'} (Q : B' -> C' -> Prop) (f : B' -> list B) (g : C' -> list C) l l' :
  (forall x y, Q x y -> Forall2 P (f x) (g y)) -> Forall2 Q l l' -> Forall2 P (flat_map f l) (flat_map g l').
Proof. intros H. induction 1; cbn; [constructor|]. apply Forall2_app; auto. Qed.
Lemma f2_set l l' i x y : Forall2 P l l' -> P x y -> Forall2 P (set_nth l i x) (set_nth l' i y).
Proof. intros H HP. revert i. induction H; intros [|i]; cbn; constructor; auto. Qed.
End Lists.
Lemma f2_refl {B} (P : B -> B -> Prop) l : (forall x, P x x) -> Forall2 P l l.
Proof. intros H. induction l; constructor; auto. Qed.
Lemma f2_trans {B C D} (P : B -> C -> Prop) (Q : C -> D -> Prop) (R : B -> D -> Prop) l1 l2 l3 :
  (forall x y z, P x y -> Q y z -> R x z) -> Forall2 P l1 l2 -> Forall2 Q l2 l3 -> Forall2 R l1 l3.
Proof. intros H H1. revert l3. induction H1; intros l3 H2; inversion H2; subst; constructor; eauto. Qed.
Lemma f2_combine {A B C D} (P : A -> B -> Prop) (Q : C -> D -> Prop) l1 l2 : Forall2 P l1 l2 -> forall k1 k2, Forall2 Q k1 k2 ->
  Forall2 (fun p q => P (fst p) (fst q) /\ Q (snd p) (snd q)) (combine l1 k1) (combine l2 k2).
Proof. induction 1; intros k1 k2 HK; [constructor|]. destruct HK; cbn; constructor; auto. Qed.
Lemma forall_set {B} (P : B -> Prop) l i x : Forall P l -> P x -> Forall P (set_nth l i x).
Proof. intros H HP. revert i. induction H; intros [|i]; cbn; constructor; auto. Qed.
Lemma f2_map_eq {B C D} (f : B -> D) (g : C -> D) l l' : Forall2 (fun x y => f x = g y) l l' <-> map f l = map g l'.
Proof.
  split; [induction 1; cbn; congruence|]. revert l'. induction l as [|x t IH]; intros [|y t']; cbn; try discriminate; constructor;
    injection H as ? ?; auto.
Qed.

Section Unbound.
Context {F : Type}.
Implicit Types (m : mesh F).
Lemma unbound_mats_of (gs : list (geom F)) : mats_of (map geom_unbound gs) = map mat_unbound (mats_of gs).
Proof.
  unfold mats_of. rewrite !flat_map_concat_map, map_map, concat_map, map_map. f_equal. apply map_ext. intros g.
  cbn [lods geom_unbound]. rewrite !flat_map_concat_map, concat_map, !map_map. reflexivity.
Qed.
Lemma unbound_mats m m' : map geom_unbound (geoms m') = map geom_unbound (geoms m) ->
  Forall2 (fun x y => mat_unbound x = mat_unbound y) (mats m) (mats m').
Proof. intros H. apply f2_map_eq. unfold mats. rewrite <- !unbound_mats_of. now rewrite H. Qed.
Lemma put_lods_unbound (ls : list (lod F)) : forall ms, map lod_unbound (put_lods ls ms) = put_lods (map lod_unbound ls) (map mat_unbound ms).
Proof.
  induction ls as [|l t IH]; intros ms; [reflexivity|]. cbn [put_lods map]. rewrite IH. cbn [lod_unbound materials]. rewrite map_length.
  f_equal; [|f_equal; now rewrite skipn_map]. unfold lod_unbound. cbn. now rewrite firstn_map.
Qed.
Lemma put_mats_unbound (gs : list (geom F)) : forall ms, map geom_unbound (put_mats gs ms) = put_mats (map geom_unbound gs) (map mat_unbound ms).
Proof.
  induction gs as [|g t IH]; intros ms; [reflexivity|]. cbn [put_mats map]. rewrite IH.
  assert (length (lods_mats (lods (geom_unbound g))) = length (lods_mats (lods g))) as ->.
  { unfold lods_mats. cbn [lods geom_unbound]. rewrite !flat_map_concat_map, map_map. induction (lods g) as [|l k IHl]; [reflexivity|].
    cbn [map concat]. rewrite !app_length, IHl. cbn [lod_unbound materials]. now rewrite map_length. }
  f_equal; [|f_equal; now rewrite skipn_map]. unfold geom_unbound. cbn. now rewrite put_lods_unbound, firstn_map.
Qed.
Lemma merged_unbound ps : forall a b, map (@mat_unbound F) (merged_mats a b ps) = merged_mats a b (map (fun p => (mat_unbound (fst p), mat_unbound (snd p))) ps).
Proof. induction ps as [|(om, mt) t IH]; intros a b; [reflexivity|]. cbn [merged_mats map fst snd]. now rewrite IH. Qed.
Lemma shape_unbound (gs gs' hs hs' : list (geom F)) : map geom_unbound gs = map geom_unbound gs' -> map geom_unbound hs = map geom_unbound hs' ->
  same_shape gs hs -> same_shape gs' hs'.
Proof.
  intros EG EH H. revert gs' hs' EG EH. induction H as [|g h gs hs Hg H IH]; intros [|g' gs'] [|h' hs'] EG EH; try discriminate; [constructor|].
  cbn [map] in EG, EH. apply cons_eq in EG, EH. destruct EG as (Eg & EG), EH as (Eh & EH). constructor; [|now apply IH].
  apply (f_equal lods) in Eg, Eh. cbn [lods geom_unbound] in Eg, Eh. revert Eg Eh. generalize (lods g') (lods h').
  clear -Hg. induction Hg as [|l k ls ks Hl Hg IH]; intros [|l' ls'] [|k' ks'] Eg Eh; try discriminate; [constructor|].
  cbn [map] in Eg, Eh. apply cons_eq in Eg, Eh. destruct Eg as (El & Eg), Eh as (Ek & Eh). constructor; [|now apply IH].
  apply (f_equal materials) in El, Ek. cbn [materials lod_unbound] in El, Ek. apply (f_equal (@length _)) in El, Ek. rewrite !map_length in El, Ek. congruence.
Qed.
End Unbound.

(** ** The new class *)
Section New.
Context {F : Type} (A : arith F).
Implicit Types (m : mesh F).
Record new_editable (vs : nat) (m : mesh F) : Prop := {
  ne_pos : (0 < vs)%nat;
  ne_size : vertex_size m = Ok (Z.of_nat vs);
  ne_packed : packed vs m;
  ne_ready : rotate_ready vs m;
  ne_num : zlen (vertices m) = vertnum m * Z.of_nat vs }.

Lemma same_packed vs m m' : index m' = index m -> zlen (vertices m') = zlen (vertices m) ->
  map geom_unbound (geoms m') = map geom_unbound (geoms m) -> packed vs m -> packed vs m'.
Proof.
  intros EI EV EG ((n & E & T) & l & El & TI). pose proof (unbound_mats m m' EG) as M. apply f2_map_eq in M.
  assert (forall (B : Type) (f : mat F -> B), (forall x, f (mat_unbound x) = f x) -> map f (mats m') = map f (mats m)) as G.
  { intros B f Hf. assert (forall k, map f k = map f (map mat_unbound k)) as X by (intros k; rewrite map_map; apply map_ext; intros; now rewrite Hf).
    rewrite X, <- M, <- X. reflexivity. }
  split.
  - exists n. rewrite EV. split; [exact E|]. rewrite G by reflexivity. exact T.
  - exists l. rewrite EI. split; [exact El|]. rewrite G by reflexivity. exact TI.
Qed.
Lemma same_ready vs m m' : same_header m m' -> rotate_ready vs m -> rotate_ready vs m'.
Proof.
  intros SH (S & R1 & R2). assert (vertex_attributes m' = vertex_attributes m) as EA by (unfold same_header in SH; tauto).
  assert (vertformat m' = vertformat m) as EF by (unfold same_header in SH; tauto).
  unfold rotate_ready, short_offsets, oriented_attribs, attrib_start, apart, attrib_start. rewrite EA, EF. exact (conj S (conj R1 R2)).
Qed.
Lemma same_size m m' : same_header m m' -> vertex_size m' = vertex_size m.
Proof. intros SH. unfold vertex_size. now assert (vertex_attributes m' = vertex_attributes m) as -> by (unfold same_header in SH; tauto). Qed.
Lemma new_keeps vs m m' : new_editable vs m -> same_but_vertices_bounds m m' -> zlen (vertices m') = zlen (vertices m) -> new_editable vs m'.
Proof.
  intros [N1 N2 N3 N4 N5] (SH & (C1 & C2) & EI & EG) EV. constructor; auto.
  - now rewrite (same_size m m' SH).
  - now apply (same_packed vs m m').
  - now apply (same_ready vs m m').
  - now rewrite EV, C1.
Qed.
Lemma vertices_bounds m m' : same_but_vertices m m' -> same_but_vertices_bounds m m'.
Proof. intros (SH & SC & EG & EI). split; [exact SH|]. split; [exact SC|]. split; [exact EI|]. now rewrite EG. Qed.
Lemma bounds_vertices m m' : same_but_bounds m m' -> same_but_vertices_bounds m m'.
Proof. intros (SH & SC & EV & EI & EG). exact (conj SH (conj SC (conj EI EG))). Qed.

Lemma new_translate vs m off m' : new_editable vs m -> translate A m off = (m', None) -> new_editable vs m' /\ zlen (vertices m') = zlen (vertices m).
Proof.
  intros N H. destruct N as [N1 N2 N3 N4 N5].
  destruct (translate_packed A vs m off m' N2 N1 (proj1 N3) (proj1 N4) H) as (SV & L & _).
  assert (zlen (vertices m') = zlen (vertices m)) as EZ by (unfold zlen; lia). split; [|exact EZ].
  apply (new_keeps vs m m'); [now constructor|now apply vertices_bounds|exact EZ].
Qed.
Lemma new_rotate vs m a b c more m' : new_editable vs m -> can_turn A a b c -> rotate A m (a :: b :: c :: more) = (m', None) ->
  new_editable vs m' /\ zlen (vertices m') = zlen (vertices m).
Proof.
  intros N T H. destruct N as [N1 N2 N3 N4 N5].
  destruct (rotate_packed A vs m a b c more N2 N1 (proj1 N3) N4 T) as (m1 & E & SV & L & _). rewrite H in E. injection E as <-.
  assert (zlen (vertices m') = zlen (vertices m)) as EZ by (unfold zlen; lia). split; [|exact EZ].
  apply (new_keeps vs m m'); [now constructor|now apply vertices_bounds|exact EZ].
Qed.
Lemma new_bounds vs m m' o : new_editable vs m -> update_boundaries A m = (m', o) -> new_editable vs m' /\ zlen (vertices m') = zlen (vertices m).
Proof.
  intros N H. apply update_frame in H. assert (zlen (vertices m') = zlen (vertices m)) as EZ by (destruct H as (_ & _ & -> & _); reflexivity).
  split; [|exact EZ]. apply (new_keeps vs m m'); [exact N|now apply bounds_vertices|exact EZ].
Qed.
Lemma sum_zip (f : mat F -> Z) l1 l2 l3 : length l2 = length l1 -> length l3 = length l1 ->
  (forall k x y z, nth_error l1 k = Some x -> nth_error l2 k = Some y -> nth_error l3 k = Some z -> f z = f x + f y) -> sumZ f l3 = sumZ f l1 + sumZ f l2.
Proof.
  revert l2 l3. induction l1 as [|x l1 IH]; intros [|y l2] [|z l3] L1 L2 H; try discriminate; [reflexivity|]. cbn [sumZ].
  rewrite (H 0%nat x y z eq_refl eq_refl eq_refl), (IH l2 l3); [lia|now injection L1|now injection L2|]. intros k. exact (H (S k)).
Qed.
Lemma packed_sum vs m : packed vs m -> zlen (vertices m) = sumZ vnum (mats m) * Z.of_nat vs.
Proof. intros ((n & E & T) & _). apply OldEditFacts.tiles_sum in T. now rewrite E, T. Qed.
Lemma new_merge vs a b r : new_editable vs a -> new_editable vs b -> merge a b = (r, Merged) ->
  new_editable vs r /\ zlen (vertices r) = zlen (vertices a) + zlen (vertices b).
Proof.
  intros [A1 A2 A3 A4 A5] [B1 B2 B3 B4 B5] H. pose proof (packed_in_range _ _ A3) as Ra. pose proof (packed_in_range _ _ B3) as Rb.
  destruct (merge_tables vs a b r A2 Ra Rb H) as (P & SH & _ & EV & _). split.
  - constructor; auto; [now rewrite (same_size a r SH)|now apply (same_ready vs a r)].
  - destruct (merged_nth vs a b r A2 Ra Rb H) as (L1 & L2 & N). rewrite (packed_sum vs r P), (packed_sum vs a A3), (packed_sum vs b B3).
    rewrite (sum_zip vnum (mats a) (mats b) (mats r)); [lia|congruence|congruence|]. intros k x y z Hx Hy Hz. now destruct (N k x y z Hx Hy Hz).
Qed.
End New.

(** ** Both classes, call by call *)
Section Step.
Context {F : Type} (A : arith F) (E : F -> F -> Prop).
Hypothesis E_refl : forall x, E x x.
Hypothesis E_trans : forall x y z, E x y -> E y z -> E x z.
Hypothesis E_sum : forall x d, E (f_add A x d) (sum2 A x d).
Hypothesis E_add : forall x y d, E x y -> E (f_add A x d) (f_add A y d).
Hypothesis E_turn : forall a b c x y z x' y' z', E x x' -> E y y' -> E z z' ->
  let '(u, v, w) := turn A a b c (x, y, z) in let '(u', v', w') := turn A a b c (x', y', z') in E u u' /\ E v v' /\ E w w'.
Implicit Types (m : mesh F).
Notation S := (same_up_to E).

Lemma S_refl m : S m m.
Proof. split; [repeat split|now apply f2_refl]. Qed.
Lemma svb_trans m1 m2 m3 : same_but_vertices_bounds m1 m2 -> same_but_vertices_bounds m2 m3 -> same_but_vertices_bounds m1 m3.
Proof.
  intros (SH & (C1 & C2) & EI & EG) (SH' & (C1' & C2') & EI' & EG'). unfold same_header in *.
  destruct SH as (? & ? & ? & ? & ? & ? & ? & ? & ?), SH' as (? & ? & ? & ? & ? & ? & ? & ? & ?). repeat split; congruence.
Qed.
Lemma svb_sym m1 m2 : same_but_vertices_bounds m1 m2 -> same_but_vertices_bounds m2 m1.
Proof.
  intros (SH & (C1 & C2) & EI & EG). unfold same_header in *. destruct SH as (? & ? & ? & ? & ? & ? & ? & ? & ?). repeat split; congruence.
Qed.
Lemma S_length m1 m2 : S m1 m2 -> length (vertices m1) = length (vertices m2).
Proof. intros (_ & H). exact (Forall2_len _ _ _ H). Qed.
Lemma old_keeps vs m m' : old_editable vs m -> same_but_vertices_bounds m m' -> length (vertices m') = length (vertices m) ->
  every_lod lod_bounded m' -> old_editable vs m'.
Proof.
  intros [C P Sz St P0 P3 P6 Bd] SV L Bd'. pose proof SV as ((H1 & H2 & H3 & H4 & H5 & H6 & H7 & H8 & H9) & (C1 & C2) & EI & EG).
  assert (zlen (vertices m') = zlen (vertices m)) as EZ by (unfold zlen; lia).
  assert (forall u, float3 m u -> float3 m' u) as FL.
  { intros u (a & (I & U & W) & V). exists a. split; [|exact V]. split; [now rewrite H6|]. split; auto. }
  constructor; auto.
  - destruct C as [K1 K2 K3 K4 K5 K6 K7 K8]. constructor; auto; unfold short_offsets in *; rewrite ?H6, ?H7, ?H8, ?EZ, ?C1; auto.
  - now apply (same_packed vs m m').
  - rewrite (same_size m m'); [exact Sz|]. now repeat split.
  - now rewrite H1.
Qed.

Lemma edited_bounded vs m nv m' : canonical vs m -> tiled_vertices vs m -> has_positions m -> every_lod lod_bounded m -> length nv = length (vertices m) ->
  old_update_boundaries A (set_vertices m nv) = (m', None) -> every_lod lod_bounded m'.
Proof.
  intros C T P B L H. rewrite (old_bounds_ok A vs (set_vertices m nv)) in H; auto using canonical_vertices.
  - injection H as <-. exact (grown_bounded A vs (set_vertices m nv) (geoms m) B).
  - apply tiled_vin in T. eapply Forall_impl; [|exact T]. intros mt. now apply mat_vin_vertices.
Qed.

Lemma pointwise vs (l l' k k' : list F) : (0 < vs)%nat -> length k = length l -> length k' = length l' -> length l = length l' ->
  (forall j c x y, (c < vs)%nat -> nth_error k (j * vs + c) = Some x -> nth_error k' (j * vs + c) = Some y -> E x y) -> Forall2 E k k'.
Proof.
  intros V L L' L2 H. apply Forall2_nth'; [congruence|]. intros i x y Hx Hy.
  pose proof (Nat.div_mod i vs ltac:(lia)) as Ei. pose proof (Nat.mod_upper_bound i vs ltac:(lia)) as Hc.
  apply (H (i / vs)%nat (i mod vs)%nat x y Hc); [rewrite <- Hx|rewrite <- Hy]; f_equal; lia.
Qed.
Lemma nth_same_length (l k : list F) i x : length k = length l -> nth_error k i = Some x -> exists z, nth_error l i = Some z.
Proof.
  intros L H. destruct (nth_error l i) eqn:X; [eauto|]. apply nth_error_None in X. assert (i < length k)%nat by (apply nth_error_Some; congruence). lia.
Qed.

Lemma step_translate vs m1 m2 off m1' : new_editable vs m1 -> old_editable vs m2 -> S m1 m2 -> length off = 3%nat -> translate A m1 off = (m1', None) ->
  exists m2', old_translate A m2 off = (m2', None) /\ S m1' m2' /\ old_editable vs m2'.
Proof.
  intros N O SS Ho H. pose proof O as [C P Sz St P0 P3 P6 Bd]. pose proof N as [N1 N2 N3 N4 N5].
  destruct (translate_packed A vs m1 off m1' N2 N1 (proj1 N3) (proj1 N4) H) as (SV & L & M).
  pose proof P0 as (a & Ha & Ht).
  destruct (old_translate_edit A vs m2 off a C (proj1 P) Ha Ht ltac:(lia)) as (nv & Lv & Ee & M').
  destruct (edit_ok A vs m2 nv C (proj1 P) P0 Bd Lv) as (m2' & Em). pose proof (edited_bounded vs m2 nv m2' C (proj1 P) P0 Bd Lv Em) as Bd'.
  apply bounds_frame_vertices in Em as Fr. destruct Fr as (FR & EV). exists m2'. rewrite Ee. split; [exact Em|].
  pose proof (S_length _ _ SS) as L2. pose proof SS as (SB & F2). split.
  - split; [eapply svb_trans; [apply svb_sym, vertices_bounds; exact SV|eapply svb_trans; [exact SB|exact FR]]|].
    rewrite EV. apply (pointwise vs (vertices m1) (vertices m2)); auto. intros j c x y Hc Hx Hy.
    destruct (nth_same_length (vertices m1) _ _ _ L Hx) as (x0 & X0). destruct (f2_nth_l _ _ _ _ _ F2 X0) as (y0 & Y0 & E0).
    rewrite (M j c x0 Hc X0) in Hx. rewrite (M' j c y0 Hc Y0) in Hy. injection Hx as <-. injection Hy as <-.
    assert (position_start m2 = position_start m1) as ->.
    { destruct SB as ((_ & _ & _ & _ & _ & E6 & E7 & _) & _). unfold position_start, position_attrib, attrib_start. now rewrite E6, E7. }
    unfold moved, shifted. rewrite firstn_all2 by lia. destruct (position_start m1 <=? c)%nat; [|exact E0].
    destruct (nth_error off (c - position_start m1)); [|exact E0]. eapply E_trans; [apply E_add; exact E0|apply E_sum].
  - apply (old_keeps vs m2 m2' O FR); [congruence|exact Bd'].
Qed.

Lemma step_rotate vs m1 m2 r0 r1 r2 more m1' : new_editable vs m1 -> old_editable vs m2 -> S m1 m2 -> can_turn A r0 r1 r2 ->
  rotate A m1 (r0 :: r1 :: r2 :: more) = (m1', None) ->
  exists m2', old_rotate A m2 (r0 :: r1 :: r2 :: more) = (m2', None) /\ S m1' m2' /\ old_editable vs m2'.
Proof.
  intros N O SS Ht H. pose proof O as [C P Sz St P0 P3 P6 Bd]. pose proof N as [N1 N2 N3 N4 N5].
  destruct (rotate_packed A vs m1 r0 r1 r2 more N2 N1 (proj1 N3) N4 Ht) as (m1'' & E1 & SV & L & M1 & M2). rewrite H in E1. injection E1 as <-.
  pose proof P0 as (a & Ha & Ta). pose proof P3 as (b & Hb & Tb). pose proof P6 as (c & Hc & Tc).
  destruct (old_rotate_edit A vs m2 r0 r1 r2 more a b c C (proj1 P) Ha Ta Hb Tb Hc Tc Ht) as (nv & Lv & Ee & W1 & W2).
  destruct (edit_ok A vs m2 nv C (proj1 P) P0 Bd Lv) as (m2' & Em). pose proof (edited_bounded vs m2 nv m2' C (proj1 P) P0 Bd Lv Em) as Bd'.
  apply bounds_frame_vertices in Em as Fr. destruct Fr as (FR & EV). exists m2'. rewrite Ee. split; [exact Em|].
  pose proof (S_length _ _ SS) as L2. pose proof SS as (SB & F2). split.
  - split; [eapply svb_trans; [apply svb_sym, vertices_bounds; exact SV|eapply svb_trans; [exact SB|exact FR]]|].
    assert (vertex_attributes m2 = vertex_attributes m1 /\ vertformat m2 = vertformat m1) as (EA & EF) by (destruct SB as ((_ & _ & _ & _ & _ & E6 & E7 & _) & _); auto).
    assert (oriented_attribs m2 = oriented_attribs m1) as EO by (unfold oriented_attribs; now rewrite EA).
    assert (forall d, attrib_start m2 d = attrib_start m1 d) as ES by (intros d; unfold attrib_start; now rewrite EF).
    rewrite EV. apply (pointwise vs (vertices m1) (vertices m2)); auto. intros j k x y Hk Hx Hy.
    destruct (nth_same_length (vertices m1) _ _ _ L Hx) as (x0 & X0). destruct (f2_nth_l _ _ _ _ _ F2 X0) as (y0 & Y0 & E0).
    destruct (Forall_Exists_dec (outside m1 k) (fun a => ltac:(unfold outside;
      destruct (lt_dec k (attrib_start m1 a)); [left; now left|destruct (le_dec (attrib_start m1 a + 3) k); [left; now right|right; lia]])) (oriented_attribs m1)) as [HO|HO].
    + rewrite (M1 j k Hk HO), X0 in Hx. injection Hx as <-. rewrite (W1 j k Hk), Y0 in Hy; [now injection Hy as <-|].
      rewrite EO. eapply Forall_impl; [|exact HO]. intros d. unfold outside. now rewrite ES.
    + apply Exists_exists in HO. destruct HO as (d & Hd & HI). unfold outside in HI. destruct N4 as (_ & R & _). rewrite Forall_forall in R. specialize (R d Hd) as (_ & Rd).
      assert (j * vs + vs <= length (vertices m1))%nat as LJ.
      { assert (j * vs + k < length (vertices m1))%nat by (apply nth_error_Some; congruence).
        assert (Z.of_nat (length (vertices m1)) = vertnum m1 * Z.of_nat vs) as EN by exact N5.
        assert (length (vertices m1) = Z.to_nat (vertnum m1) * vs)%nat as EL by nia.
        rewrite EL in *. assert (j < Z.to_nat (vertnum m1))%nat by nia. nia. }
      assert (forall (l : list F) i, (i < length l)%nat -> exists z, nth_error l i = Some z) as NE.
      { intros l i Hi. destruct (nth_error l i) eqn:X; [eauto|]. apply nth_error_None in X. lia. }
      destruct (NE (vertices m1) (j * vs + attrib_start m1 d)%nat) as (u & Hu); [lia|].
      destruct (NE (vertices m1) (j * vs + attrib_start m1 d + 1)%nat) as (v & Hv); [lia|].
      destruct (NE (vertices m1) (j * vs + attrib_start m1 d + 2)%nat) as (w & Hw); [lia|].
      destruct (f2_nth_l _ _ _ _ _ F2 Hu) as (u' & Hu' & Eu). destruct (f2_nth_l _ _ _ _ _ F2 Hv) as (v' & Hv' & Ev). destruct (f2_nth_l _ _ _ _ _ F2 Hw) as (w' & Hw' & Ew).
      pose proof (M2 j d (u, v, w) Hd (conj Hu (conj Hv Hw))) as T1.
      pose proof (W2 j d (u', v', w')) as T2. rewrite EO, ES in T2. specialize (T2 Hd (conj Hu' (conj Hv' Hw'))).
      pose proof (E_turn r0 r1 r2 u v w u' v' w' Eu Ev Ew) as ET.
      destruct (turn A r0 r1 r2 (u, v, w)) as ((p1, p2), p3), (turn A r0 r1 r2 (u', v', w')) as ((q1, q2), q3).
      destruct T1 as (A1 & A2 & A3), T2 as (B1 & B2 & B3), ET as (G1 & G2 & G3).
      assert (k = attrib_start m1 d \/ k = attrib_start m1 d + 1 \/ k = attrib_start m1 d + 2)%nat as [EC | [EC | EC]] by lia;
        rewrite EC, ?Nat.add_assoc in Hx, Hy; congruence.
  - apply (old_keeps vs m2 m2' O FR); [congruence|exact Bd'].
Qed.

Lemma step_bounds vs m1 m2 m1' o : new_editable vs m1 -> old_editable vs m2 -> S m1 m2 -> update_boundaries A m1 = (m1', o) ->
  exists m2', old_update_boundaries A m2 = (m2', None) /\ S m1' m2' /\ old_editable vs m2'.
Proof.
  intros N O SS H. pose proof O as [C P Sz St P0 P3 P6 Bd]. apply update_frame in H. pose proof (tiled_vin vs m2 (proj1 P)) as V.
  pose proof (old_bounds_ok A vs m2 C P0 V Bd) as Ee. eexists. split; [exact Ee|]. pose proof (old_bounds_frame _ _ _ _ Ee) as FR.
  split.
  - destruct SS as (SB & F2). split.
    + eapply svb_trans; [apply svb_sym, bounds_vertices; exact H|]. eapply svb_trans; [exact SB|apply bounds_vertices; exact FR].
    + destruct H as (_ & _ & -> & _). exact F2.
  - apply (old_keeps vs m2 _ O); [apply bounds_vertices; exact FR|reflexivity|]. exact (grown_bounded A vs m2 (geoms m2) Bd).
Qed.

(** *** merge *)
Lemma mat_vertices_rel vs m1 m2 x y : S m1 m2 -> mat_unbound x = mat_unbound y -> Forall2 (Forall2 E) (mat_vertices vs m1 x) (mat_vertices vs m2 y).
Proof.
  intros (_ & F2) EM. pose proof (f_equal vstart EM) as E1. pose proof (f_equal vnum EM) as E2. cbn [mat_unbound vstart vnum] in E1, E2.
  unfold mat_vertices. rewrite E1, E2. induction (seq 0 (Z.to_nat (vnum y))) as [|i t IH]; cbn [map]; constructor; [|exact IH].
  unfold block. now apply f2_firstn, f2_skipn.
Qed.
Lemma mat_indices_rel m1 m2 x y : S m1 m2 -> mat_unbound x = mat_unbound y -> mat_indices m1 x = mat_indices m2 y.
Proof.
  intros ((_ & _ & EI & _) & _) EM. pose proof (f_equal istart EM) as E1. pose proof (f_equal inum EM) as E2. cbn [mat_unbound istart inum] in E1, E2.
  unfold mat_indices, index_list. now rewrite E1, E2, EI.
Qed.
Lemma combined_rel vs a1 a2 b1 b2 : S a1 a2 -> S b1 b2 -> S (combined vs a1 b1) (combined vs a2 b2).
Proof.
  intros Sa Sb. pose proof Sa as ((SH & SC & EI & EG) & Va). pose proof Sb as ((SHb & SCb & EIb & EGb) & Vb).
  pose proof (f2_combine _ _ _ _ (unbound_mats b1 b2 EGb) _ _ (unbound_mats a1 a2 EG)) as R. unfold combined.
  set (ps := combine (mats b1) (mats a1)) in *. set (qs := combine (mats b2) (mats a2)) in *.
  assert (forall f : mat F -> Z, (forall x, f (mat_unbound x) = f x) -> sumZ (fun p => f (snd p) + f (fst p)) qs = sumZ (fun p => f (snd p) + f (fst p)) ps) as ES.
  { intros f Hf. clear -R Hf. induction R as [|p q ps qs (R1 & R2) R IH]; [reflexivity|]. cbn [sumZ]. rewrite IH.
    rewrite <- (Hf (snd p)), <- (Hf (fst p)), R1, R2, !Hf. reflexivity. }
  split; [|].
  - split; [exact SH|]. split; [|split].
    + split; cbn [vertnum indexnum set_counts]; [exact (ES vnum (fun _ => eq_refl))|exact (ES inum (fun _ => eq_refl))].
    + cbn [index set_counts set_index]. f_equal. clear -R Sa Sb. induction R as [|(p1, p2) (q1, q2) ps qs (R1 & R2) R IH]; [reflexivity|].
      cbn [flat_map merged_part snd]. cbn [fst snd] in R1, R2.
      rewrite IH, <- (mat_indices_rel a1 a2 p2 q2 Sa R2), <- (mat_indices_rel b1 b2 p1 q1 Sb R1).
      pose proof (f_equal vnum R2) as EN. cbn [mat_unbound vnum] in EN. now rewrite EN.
    + cbn [geoms set_counts set_index set_vertices set_geoms]. rewrite !put_mats_unbound, !merged_unbound, EG. do 2 f_equal.
      clear -R. induction R as [|p q ps qs (R1 & R2) R IH]; [reflexivity|]. cbn [map]. now rewrite IH, R1, R2.
  - cbn [vertices set_counts set_index set_vertices]. apply f2_concat. apply (f2_flat_map _ _ _ _ _ _) with (2 := R).
    intros (p1, p2) (q1, q2) (R1 & R2). cbn [fst snd merged_part] in *. apply Forall2_app; now apply mat_vertices_rel.
Qed.
Lemma step_merge vs a1 a2 b1 b2 r1 : new_editable vs a1 -> new_editable vs b1 -> old_editable vs a2 -> old_editable vs b2 -> S a1 a2 -> S b1 b2 ->
  merge a1 b1 = (r1, Merged) -> zlen (vertices r1) <= 2 ^ 53 ->
  exists r2, old_merge A a2 b2 = (r2, None) /\ S r1 r2 /\ old_editable vs r2.
Proof.
  intros Na Nb Oa Ob Sa Sb H B53. pose proof (packed_in_range _ _ (ne_packed _ _ Na)) as Ra. pose proof (packed_in_range _ _ (ne_packed _ _ Nb)) as Rb.
  destruct (merged_built vs a1 b1 r1 (ne_size _ _ Na) Ra Rb H) as (HC & _ & B). pose proof (compatible_shape _ _ HC) as SH.
  assert (r1 = combined vs a1 b1) as Er.
  { apply (built_unique vs a1 b1 a1 b1); auto using combined_built. repeat split. }
  destruct (new_merge vs a1 b1 r1 Na Nb H) as (Nr & Ez).
  pose proof Sa as ((SHa & _ & _ & EGa) & _). pose proof Sb as ((SHb & _ & _ & EGb) & _).
  assert (zlen (vertices a2) = zlen (vertices a1)) as Za by (unfold zlen; now rewrite (S_length _ _ Sa)).
  assert (zlen (vertices b2) = zlen (vertices b1)) as Zb by (unfold zlen; now rewrite (S_length _ _ Sb)).
  destruct (old_merge_built A vs a2 b2) as (r2 & E2 & FR & Bd); try apply Oa; try apply Ob.
  { exact (shape_unbound _ _ _ _ (eq_sym EGa) (eq_sym EGb) SH). }
  { destruct HC as (_ & EA). unfold same_header in SHa, SHb. destruct SHa as (_ & _ & _ & _ & _ & -> & _), SHb as (_ & _ & _ & _ & _ & -> & _). exact EA. }
  { left. apply Oa. }
  { lia. }
  exists r2. split; [exact E2|].
  assert (S r1 r2) as Sr.
  { subst r1. destruct (combined_rel vs a1 a2 b1 b2 Sa Sb) as (SB & F2). split; [eapply svb_trans; [exact SB|apply bounds_vertices; exact FR]|].
    destruct FR as (_ & _ & -> & _). exact F2. }
  split; [exact Sr|]. pose proof Sr as ((SHr & (C1 & C2) & EIr & EGr) & F2). pose proof (S_length _ _ Sr) as Lr.
  assert (same_header a2 r2) as HH.
  { destruct FR as (X & _). exact X. }
  pose proof HH as (H1 & H2 & H3 & H4 & H5 & H6 & H7 & H8 & H9). pose proof Oa as [C P Sz St P0 P3 P6 _].
  assert (forall u, float3 a2 u -> float3 r2 u) as FL.
  { intros u (a & (I & U & W) & V). exists a. split; [|exact V]. split; [now rewrite H6|]. split; auto. }
  assert (zlen (vertices r2) = zlen (vertices r1)) as Zr by (unfold zlen; now rewrite Lr).
  constructor; auto.
  - destruct C as [K1 K2 K3 K4 K5 K6 K7 K8]. constructor; auto; unfold short_offsets in *; rewrite ?H6, ?H7, ?H8, ?Zr, ?C1; auto. apply Nr.
  - apply (same_packed vs r1 r2); auto. apply Nr.
  - now rewrite (same_size a2 r2 HH).
  - now rewrite H1.
Qed.
End Step.

(** ** Programs *)
Section Run.
Context {F : Type} (A : arith F).
Implicit Types (m : mesh F) (ms : list (mesh F)).
Definition no_smaller m m' : Prop := zlen (vertices m) <= zlen (vertices m').
Lemma f2_value {P : mesh F -> mesh F -> Prop} ms ms' i : Forall2 P ms ms' -> (i < length ms)%nat -> P (value ms i) (value ms' i).
Proof. intros H. revert i. induction H; intros [|i] Hi; cbn in *; try lia; [assumption|]. apply IHForall2. lia. Qed.
Lemma forall_value (P : mesh F -> Prop) ms i : Forall P ms -> (i < length ms)%nat -> P (value ms i).
Proof. intros H. revert i. induction H; intros [|i] Hi; cbn in *; try lia; [assumption|]. apply IHForall. lia. Qed.
Lemma larger_set ms i m : (i < length ms)%nat -> no_smaller (value ms i) m -> Forall2 no_smaller ms (set_nth ms i m).
Proof.
  revert i. induction ms as [|x t IH]; intros [|i] Hi H; cbn in *; try lia; constructor; auto; try (now apply f2_refl; unfold no_smaller; intros; lia).
  - unfold no_smaller. lia.
  - apply IH; [lia|exact H].
Qed.
Lemma len_set_nth ms i m : length (set_nth ms i m) = length ms.
Proof. revert i. induction ms as [|x t IH]; intros [|i]; cbn; auto. Qed.

Lemma new_call vs ms c ms' : Forall (new_editable vs) ms -> in_both A (length ms) c -> value_call A ms c = (ms', ONone) ->
  Forall (new_editable vs) ms' /\ Forall2 no_smaller ms ms' /\ length ms' = length ms.
Proof.
  intros N I H. destruct c as [i j|i ord|i off|i rot|i|i gi li u]; cbn in I; try contradiction; cbn [value_call] in H.
  - destruct I as ((Hi & Hj) & _). destruct (merge (value ms i) (value ms j)) as (r, o) eqn:E. injection H as <- Ho.
    assert (o = Merged) as -> by (destruct o; auto; discriminate).
    destruct (new_merge vs _ _ _ (forall_value _ ms i N Hi) (forall_value _ ms j N Hj) E) as (Nr & Z).
    split; [now apply forall_set|]. split; [|apply len_set_nth]. apply larger_set; [exact Hi|]. unfold no_smaller.
    pose proof (zlen_nonneg (vertices (value ms j))). lia.
  - destruct I as (Hi & L). destruct (translate A (value ms i) off) as (r, o) eqn:E. injection H as <- Ho.
    assert (o = None) as -> by (destruct o; auto; discriminate).
    destruct (new_translate A vs _ _ _ (forall_value _ ms i N Hi) E) as (Nr & Z).
    split; [now apply forall_set|]. split; [|apply len_set_nth]. apply larger_set; [exact Hi|]. unfold no_smaller. lia.
  - destruct I as (Hi & a & b & c & more & -> & T). destruct (rotate A (value ms i) _) as (r, o) eqn:E. injection H as <- Ho.
    assert (o = None) as -> by (destruct o; auto; discriminate).
    destruct (new_rotate A vs _ _ _ _ _ _ (forall_value _ ms i N Hi) T E) as (Nr & Z).
    split; [now apply forall_set|]. split; [|apply len_set_nth]. apply larger_set; [exact Hi|]. unfold no_smaller. lia.
  - destruct (update_boundaries A (value ms i)) as (r, o) eqn:E. injection H as <- Ho.
    destruct (new_bounds A vs _ _ _ (forall_value _ ms i N I) E) as (Nr & Z).
    split; [now apply forall_set|]. split; [|apply len_set_nth]. apply larger_set; [exact I|]. unfold no_smaller. lia.
Qed.
Lemma new_run vs cs : forall ms ms' os, Forall (new_editable vs) ms -> Forall (in_both A (length ms)) cs -> value_run A ms cs = (ms', os) ->
  Forall (eq ONone) os -> Forall2 no_smaller ms ms'.
Proof.
  induction cs as [|c t IH]; intros ms ms' os N I H O; cbn [value_run] in H.
  - injection H as <- <-. apply f2_refl. unfold no_smaller. lia.
  - destruct (value_call A ms c) as (m1, o) eqn:E1. destruct (value_run A m1 t) as (m2, os') eqn:E2. injection H as <- <-.
    inversion_clear O as [|? ? Eo O']. subst o. inversion_clear I as [|? ? Ic It]. destruct (new_call vs ms c m1 N Ic E1) as (N1 & L & Len).
    rewrite <- Len in It. refine (f2_trans _ _ _ _ _ _ _ L (IH m1 m2 os' N1 It E2 O')). unfold no_smaller. lia.
Qed.

Lemma old_new vs m : old_editable vs m -> new_editable vs m.
Proof.
  intros [C P Sz St P0 P3 P6 B]. constructor; auto; [apply (can_size _ _ C)|now apply canonical_ready|apply C].
Qed.

Variable (E : F -> F -> Prop).
Hypothesis E_refl : forall x, E x x.
Hypothesis E_trans : forall x y z, E x y -> E y z -> E x z.
Hypothesis E_sum : forall x d, E (f_add A x d) (sum2 A x d).
Hypothesis E_add : forall x y d, E x y -> E (f_add A x d) (f_add A y d).
Hypothesis E_turn : forall a b c x y z x' y' z', E x x' -> E y y' -> E z z' ->
  let '(u, v, w) := turn A a b c (x, y, z) in let '(u', v', w') := turn A a b c (x', y', z') in E u u' /\ E v v' /\ E w w'.
Definition alike vs m1 m2 : Prop := new_editable vs m1 /\ old_editable vs m2 /\ same_up_to E m1 m2.

Lemma call_alike vs ms1 ms2 c ms1' : Forall2 (alike vs) ms1 ms2 -> in_both A (length ms1) c -> value_call A ms1 c = (ms1', ONone) ->
  Forall (fun m => zlen (vertices m) <= 2 ^ 53) ms1' ->
  exists ms2', old_call A ms2 c = (ms2', ONone) /\ Forall2 (alike vs) ms1' ms2'.
Proof.
  intros R I H B. assert (Forall (new_editable vs) ms1) as N1 by (clear -R; induction R as [|x y l l' (? & _) R IH]; constructor; auto).
  destruct (new_call vs ms1 c ms1' N1 I H) as (N1' & _). pose proof I as I'.
  destruct c as [i j|i ord|i off|i rot|i|i gi li u]; cbn in I; try contradiction; cbn [value_call] in H; cbn [old_call].
  - destruct I as ((Hi & Hj) & _). destruct (merge (value ms1 i) (value ms1 j)) as (r, o) eqn:Er. injection H as <- Ho.
    assert (o = Merged) as -> by (destruct o; auto; discriminate).
    destruct (f2_value _ _ i R Hi) as (Na & Oa & Sa). destruct (f2_value _ _ j R Hj) as (Nb & Ob & Sb).
    assert (value (set_nth ms1 i r) i = r) as Ev.
    { clear -Hi. revert i Hi. induction ms1 as [|x t IH]; intros [|i] Hi; cbn in *; try lia; [reflexivity|]. apply IH. lia. }
    assert (zlen (vertices r) <= 2 ^ 53) as Br.
    { rewrite <- Ev at 1. apply (forall_value _ (set_nth ms1 i r) i B). now rewrite len_set_nth. }
    destruct (step_merge A E vs _ _ _ _ r Na Nb Oa Ob Sa Sb Er Br) as (r2 & -> & Sr & Or).
    eexists. split; [reflexivity|]. apply f2_set; [exact R|]. split; [|now split]. now apply (new_merge vs _ _ r Na Nb).
  - destruct I as (Hi & L). destruct (translate A (value ms1 i) off) as (r, o) eqn:Er. injection H as <- Ho.
    assert (o = None) as -> by (destruct o; auto; discriminate). destruct (f2_value _ _ i R Hi) as (Na & Oa & Sa).
    destruct (step_translate A E E_trans E_sum E_add vs _ _ off r Na Oa Sa L Er) as (r2 & -> & Sr & Or).
    eexists. split; [reflexivity|]. apply f2_set; [exact R|]. split; [|now split]. now apply (new_translate A vs _ off r Na).
  - destruct I as (Hi & a & b & c & more & -> & T). destruct (rotate A (value ms1 i) _) as (r, o) eqn:Er. injection H as <- Ho.
    assert (o = None) as -> by (destruct o; auto; discriminate). destruct (f2_value _ _ i R Hi) as (Na & Oa & Sa).
    destruct (step_rotate A E E_turn vs _ _ a b c more r Na Oa Sa T Er) as (r2 & -> & Sr & Or).
    eexists. split; [reflexivity|]. apply f2_set; [exact R|]. split; [|now split]. now apply (new_rotate A vs _ a b c more r Na).
  - destruct (update_boundaries A (value ms1 i)) as (r, o) eqn:Er. injection H as <- Ho. destruct (f2_value _ _ i R I) as (Na & Oa & Sa).
    destruct (step_bounds A E vs _ _ r o Na Oa Sa Er) as (r2 & -> & Sr & Or).
    eexists. split; [reflexivity|]. apply f2_set; [exact R|]. split; [|now split]. now apply (new_bounds A vs _ r o Na).
Qed.
Lemma run_alike vs cs : forall ms1 ms2 ms1' os, Forall2 (alike vs) ms1 ms2 -> Forall (in_both A (length ms1)) cs -> value_run A ms1 cs = (ms1', os) ->
  Forall (eq ONone) os -> Forall (fun m => zlen (vertices m) <= 2 ^ 53) ms1' ->
  exists ms2', old_run A ms2 cs = (ms2', os) /\ Forall2 (alike vs) ms1' ms2'.
Proof.
  induction cs as [|c t IH]; intros ms1 ms2 ms1' os R I H O B; cbn [value_run old_run] in *.
  - injection H as <- <-. eauto.
  - destruct (value_call A ms1 c) as (m1, o) eqn:E1. destruct (value_run A m1 t) as (m2, os') eqn:E2. injection H as <- <-.
    inversion_clear O as [|? ? Eo O']. subst o. inversion_clear I as [|? ? Ic It].
    assert (Forall (new_editable vs) ms1) as N by (clear -R; induction R as [|x y l l' (? & _) R IH]; constructor; auto).
    destruct (new_call vs ms1 c m1 N Ic E1) as (N1 & L & Len). rewrite <- Len in It. pose proof (new_run vs t m1 m2 os' N1 It E2 O') as G.
    assert (Forall (fun m => zlen (vertices m) <= 2 ^ 53) m1) as B1.
    { clear -G B. induction G as [|x y l l' H G IH]; [constructor|]. inversion_clear B. constructor; auto. unfold no_smaller in H. lia. }
    destruct (call_alike vs ms1 ms2 c m1 R Ic E1 B1) as (k1 & -> & R1). destruct (IH m1 k1 m2 os' R1 It E2 O' B) as (k2 & -> & R2). eauto.
Qed.
Theorem both_run vs ms cs ms1 os : Forall (old_editable vs) ms -> Forall (in_both A (length ms)) cs -> value_run A ms cs = (ms1, os) ->
  Forall (eq ONone) os -> Forall (fun m => zlen (vertices m) <= 2 ^ 53) ms1 ->
  exists ms2, old_run A ms cs = (ms2, os) /\ Forall2 (same_up_to E) ms1 ms2 /\ Forall (old_editable vs) ms2.
Proof.
  intros O I H Oo B. assert (Forall2 (alike vs) ms ms) as R.
  { clear -O E_refl. induction O as [|m t Hm O IH]; constructor; auto. split; [now apply old_new|]. split; [exact Hm|]. now apply S_refl. }
  destruct (run_alike vs cs ms ms ms1 os R I H Oo B) as (ms2 & Er & R2). exists ms2. split; [exact Er|].
  clear -R2. induction R2 as [|x y l l' (? & ? & ?) R2 (IH1 & IH2)]; split; constructor; auto.
Qed.
End Run.

(** ** In exact arithmetic *)
Lemma turn_eq {F} (A : arith F) a b c x y z x' y' z' : x = x' -> y = y' -> z = z' ->
  let '(u, v, w) := turn A a b c (x, y, z) in let '(u', v', w') := turn A a b c (x', y', z') in u = u' /\ v = v' /\ w = w'.
Proof. intros -> -> ->. destruct (turn A a b c (x', y', z')) as ((u, v), w). auto. Qed.
Lemma same_up_to_eq {F} (m m' : mesh F) : same_up_to eq m m' -> same_but_bounds m m'.
Proof.
  intros ((SH & SC & EI & EG) & H). apply Forall2_eq in H. exact (conj SH (conj SC (conj (eq_sym H) (conj EI EG)))).
Qed.
Theorem both_exact vs ms cs ms1 os : Forall (old_editable vs) ms -> Forall (in_both exact (length ms)) cs -> value_run exact ms cs = (ms1, os) ->
  Forall (eq ONone) os -> Forall (fun m => zlen (vertices m) <= 2 ^ 53) ms1 ->
  exists ms2, old_run exact ms cs = (ms2, os) /\ Forall2 same_but_bounds ms1 ms2 /\ Forall (old_editable vs) ms2.
Proof.
  intros O I H Oo B. destruct (both_run exact eq (fun x => eq_refl) (fun x y z H1 H2 => eq_trans H1 H2)) with (vs := vs) (ms := ms) (cs := cs) (ms1 := ms1) (os := os) as (ms2 & E2 & R & O2); auto.
  - intros x d. unfold sum2. cbn. ring.
  - intros x y d ->. reflexivity.
  - intros. now apply turn_eq.
  - exists ms2. split; [exact E2|]. split; [|exact O2]. clear -R. induction R; constructor; auto using same_up_to_eq.
Qed.

(** ** In doubles *)
Lemma eoz_refl x : equal_or_zeros x x.
Proof. now left. Qed.
Lemma eoz_trans x y z : equal_or_zeros x y -> equal_or_zeros y z -> equal_or_zeros x z.
Proof. intros [-> | (Hx & Hy)] [<- | (Hy' & Hz)]; [now left|right; now split|right; now split|right; now split]. Qed.
Lemma eoz_plus x x' y y' : equal_or_zeros x x' -> equal_or_zeros y y' ->
  equal_or_zeros (b64_plus BinarySingleNaN.mode_NE x y) (b64_plus BinarySingleNaN.mode_NE x' y').
Proof.
  intros Hx Hy. apply eoz_trans with (b64_plus BinarySingleNaN.mode_NE x' y).
  - destruct Hx as [-> | ((s & ->) & (s' & ->))]; [apply eoz_refl|]. unfold b64_plus.
    destruct y as [sy|sy|sy ply ey|sy my ey e]; destruct s, s'; try (left; reflexivity); destruct sy; try (left; reflexivity); right; split; eexists; reflexivity.
  - destruct Hy as [-> | ((s & ->) & (s' & ->))]; [apply eoz_refl|]. unfold b64_plus.
    destruct x' as [sy|sy|sy ply ey|sy my ey e]; destruct s, s'; try (left; reflexivity); destruct sy; try (left; reflexivity); right; split; eexists; reflexivity.
Qed.
Lemma eoz_minus x x' y y' : equal_or_zeros x x' -> equal_or_zeros y y' ->
  equal_or_zeros (b64_minus BinarySingleNaN.mode_NE x y) (b64_minus BinarySingleNaN.mode_NE x' y').
Proof.
  intros Hx Hy. apply eoz_trans with (b64_minus BinarySingleNaN.mode_NE x' y).
  - destruct Hx as [-> | ((s & ->) & (s' & ->))]; [apply eoz_refl|]. unfold b64_minus.
    destruct y as [sy|sy|sy ply ey|sy my ey e]; destruct s, s'; try (left; reflexivity); destruct sy; try (left; reflexivity); right; split; eexists; reflexivity.
  - destruct Hy as [-> | ((s & ->) & (s' & ->))]; [apply eoz_refl|]. unfold b64_minus.
    destruct x' as [sy|sy|sy ply ey|sy my ey e]; destruct s, s'; try (left; reflexivity); destruct sy; try (left; reflexivity); right; split; eexists; reflexivity.
Qed.
Lemma eoz_mult x x' y : equal_or_zeros x x' ->
  equal_or_zeros (b64_mult BinarySingleNaN.mode_NE x y) (b64_mult BinarySingleNaN.mode_NE x' y).
Proof.
  intros [-> | ((s & ->) & (s' & ->))]; [apply eoz_refl|]. unfold b64_mult.
  destruct y as [sy|sy|sy ply ey|sy my ey e]; destruct s, s'; try (left; reflexivity); right; split; eexists; reflexivity.
Qed.
Theorem both_doubles L vs ms cs ms1 os : Forall (old_editable vs) ms -> Forall (in_both (f64 L) (length ms)) cs -> value_run (f64 L) ms cs = (ms1, os) ->
  Forall (eq ONone) os -> Forall (fun m => zlen (vertices m) <= 2 ^ 53) ms1 ->
  exists ms2, old_run (f64 L) ms cs = (ms2, os) /\ Forall2 (same_up_to equal_or_zeros) ms1 ms2 /\ Forall (old_editable vs) ms2.
Proof.
  apply (both_run (f64 L) equal_or_zeros eoz_refl eoz_trans (sum2_doubles L)).
  - intros x y d H. cbn [f_add f64]. apply eoz_plus; [exact H|apply eoz_refl].
  - intros a b c x y z x' y' z' Hx Hy Hz. unfold turn.
    set (tr := f_radians (f64 L) c). set (tp := f_radians (f64 L) b). set (ty := f_radians (f64 L) a). clearbody tr tp ty.
    unfold roll_by, pitch_by, yaw_by. cbn [f64 f_add f_sub f_mul f_sin f_cos].
    repeat split; repeat first [assumption|apply eoz_plus|apply eoz_minus|apply eoz_mult].
Qed.
