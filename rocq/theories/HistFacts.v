(** Edit histories keep a mesh consistent. *)
From Coq Require Import ZArith List Bool Lia Permutation Relations.
From Flocq Require Import IEEE754.Bits.
From Verif Require Import PyBase Struct Mesh Arith F64 Edit Spec SpecF SpecEdit SpecBounds SpecHist CodecBase CodecFacts DivFacts TravFacts VertFacts
  LayoutFacts MergeFacts ReorderFacts BoundFacts CenterFacts.
Import ListNotations.
Open Scope Z_scope.

Section Hist.
Context {F : Type} (A : arith F) (p : plat) (vs : nat).
Implicit Types (m : mesh F).

(** Everything that does not depend on the ranges and counts of the materials. *)
Definition frame m : Prop :=
  wf_head p (m_head m) /\ -128 <= m_u1 m < 128 /\ counts p (geomnum m) (geoms m) /\
  Forall (fun g => wf_geom p (h_version (m_head m)) (isBundledMesh (m_kind m)) (isSkinnedMesh (m_kind m)) (geom_mats uncounted g)) (geoms m) /\
  counts p (vertattribnum m) (vertex_attributes m) /\ Forall wf_vertattrib (vertex_attributes m) /\
  is_long p (vertformat m) /\ is_long p (vertstride m) /\
  (if isSkinnedMesh (m_kind m) then m_u2 m = 0 else is_long p (m_u2 m)) /\
  vertex_size m = Ok (Z.of_nat vs) /\ 0 < vertformat m /\ vertstride m = Z.of_nat vs * vertformat m /\
  Forall (fun a => oriented a = true -> vartype a <> 3) (vertex_attributes m).

Definition arrays m : Prop :=
  packed vs m /\ zlen (vertices m) = vertnum m * Z.of_nat vs /\ zlen (vertices m) <> 1 /\
  indexnum m = zlen (index_list m) /\ indexnum m <> 1 /\ Forall is_ushort (index_list m).

Definition held m : Prop := (0 < vs)%nat /\ Z.of_nat vs <= 2 ^ 53 /\ frame m /\ arrays m.

Lemma long0 : is_long p 0.
Proof. unfold is_long. assert (0 < 2 ^ (8 * Z.of_nat (long_bytes p) - 1)); [|lia]. apply Z.pow_pos_nonneg; [lia|]. unfold long_bytes. destruct (long_sz p); lia. Qed.

Lemma wf_uncounted v b s (g : geom F) : wf_geom p v b s g -> wf_geom p v b s (geom_mats uncounted g).
Proof.
  intros (C & W). split.
  - unfold counts in *. cbn. now rewrite map_length.
  - cbn. apply Forall_map. eapply Forall_impl; [|exact W]. intros l (W1 & W2 & W3 & W4 & W5 & W6).
    split; [exact W1|]. split; [exact W2|]. split; [exact W3|]. split; [exact W4|]. split.
    + unfold counts in *. cbn. now rewrite map_length.
    + cbn. apply Forall_map. eapply Forall_impl; [|exact W6]. intros mt H. unfold wf_mat in *. cbn.
      pose proof long0. tauto.
Qed.

Lemma wf_counted v b s (g : geom F) : wf_geom p v b s (geom_mats uncounted g) ->
  Forall (fun mt => is_long p (vstart mt) /\ is_long p (istart mt) /\ is_long p (inum mt) /\ is_long p (vnum mt)) (flat_map materials (lods g)) ->
  wf_geom p v b s g.
Proof.
  intros (C & W) H. split.
  - unfold counts in *. cbn in C. now rewrite map_length in C.
  - cbn in W. rewrite Forall_map in W. apply Forall_flat_map in H. rewrite Forall_forall in W, H. apply Forall_forall. intros l Hl.
    specialize (H l Hl). destruct (W l Hl) as (W1 & W2 & W3 & W4 & W5 & W6).
    split; [exact W1|]. split; [exact W2|]. split; [exact W3|]. split; [exact W4|]. split.
    + unfold counts in *. cbn in W5. now rewrite map_length in W5.
    + cbn in W6. rewrite Forall_map in W6. rewrite Forall_forall in *. intros mt Hm. specialize (H mt Hm). specialize (W6 mt Hm).
      unfold wf_mat in *. cbn in W6. tauto.
Qed.

Lemma tiles_sum a (l : list (Z * Z)) b : tiles a l b -> b = a + sumZ snd l.
Proof. revert a. induction l as [|(s, n) t IH]; simpl; intros a H; [lia|]. destruct H as (_ & _ & H). apply IH in H. lia. Qed.
Lemma sumZ_map {B C} (f : B -> C) g l : sumZ g (map f l) = sumZ (fun x => g (f x)) l.
Proof. induction l; simpl; congruence. Qed.

Lemma arrays_sums m : (0 < vs)%nat -> arrays m -> vertnum m = sumZ vnum (mats m) /\ indexnum m = sumZ inum (mats m).
Proof.
  intros Hv (((n & E & T) & l & El & TI) & E' & _ & EI & _).
  apply tiles_sum in T, TI. rewrite sumZ_map in T, TI. cbn [snd] in *. split.
  - change (fun x : mat F => vnum x) with (@vnum F) in T. rewrite E in E'. nia.
  - rewrite EI. unfold index_list. rewrite El. exact TI.
Qed.

(** ** From a consistent mesh and back *)
Lemma savable_held m : savable p vs m -> held m.
Proof.
  intros (W & P & Hs & Hv & Hb & Hf & Est & Ev & HO). unfold wf in W.
  destruct W as (W1 & W2 & W3 & W4 & W5 & W6 & W7 & W8 & W9 & W10 & W11 & W12 & W13).
  split; [exact Hv|]. split; [exact Hb|]. split.
  - repeat (split; [solve [assumption|eapply Forall_impl; [|exact W4]; intros g; apply wf_uncounted]|]). exact HO.
  - split; [exact P|]. split; [exact Ev|]. split; [unfold zlen; lia|].
    destruct P as (_ & l & El & _). unfold index_list. rewrite El in *. destruct W12 as (_ & E1 & E2 & E3). auto.
Qed.

Theorem held_savable m : held m -> is_long p (vertnum m) -> is_long p (indexnum m) -> vertnum m * Z.of_nat vs <= 2 ^ 53 -> savable p vs m.
Proof.
  intros (Hv & Hb & FR & AR) L1 L2 B. pose proof (arrays_sums m Hv AR) as (S1 & S2).
  destruct FR as (W1 & W2 & W3 & W4 & W5 & W6 & W7 & W8 & W9 & Hs & Hf & Est & HO). destruct AR as (P & Ev & Nv & Ei & Ni & HI).
  assert (0 <= vertnum m) as V0 by (pose proof (zlen_nonneg (vertices m)); nia).
  split; [|repeat (split; [assumption|]); assumption].
  split; [exact W1|]. split; [exact W2|]. split; [exact W3|]. split.
  - assert (Forall (fun mt => is_long p (vstart mt) /\ is_long p (istart mt) /\ is_long p (inum mt) /\ is_long p (vnum mt)) (mats m)) as HM.
    { pose proof (packed_in_range vs m P) as (_ & R). eapply Forall_impl; [|exact R].
      intros mt (H1 & H2 & H3 & H4 & H5 & H6). rewrite Ev in H3. rewrite <- Ei in H6.
      assert (vstart mt + vnum mt <= vertnum m) by nia. unfold is_long in *. lia. }
    unfold mats, mats_of in HM. apply Forall_flat_map in HM. rewrite Forall_forall in *. intros g Hg. apply wf_counted; auto.
  - repeat (split; [assumption|]). split.
    + rewrite Est, Ev, (Z.mul_comm (vertnum m)). apply data_num_exact; try lia; try nia.
    + split; [unfold zlen in Nv; lia|]. split; [|exact W9]. split; [exact L2|].
      destruct P as (_ & l & El & _). unfold index_list in *. rewrite El in *. auto.
Qed.

(** ** Steps *)
Lemma frame_ext m m' : same_header m m' -> Permutation (map (geom_mats uncounted) (geoms m')) (map (geom_mats uncounted) (geoms m)) ->
  frame m -> frame m'.
Proof.
  intros (H1 & H2 & H3 & H4 & H5 & H6 & H7 & H8 & H9) PE FR. unfold frame, vertex_size in *. rewrite H1, H2, H3, H4, H5, H6, H7, H8, H9.
  destruct FR as (W1 & W2 & W3 & W4 & W5). split; [exact W1|]. split; [exact W2|]. split; [|split; [|exact W5]].
  - unfold counts in *. apply Permutation_length in PE. rewrite !map_length in PE. destruct W3. split; congruence.
  - set (P := fun g : geom F => wf_geom p (h_version (m_head m)) (isBundledMesh (m_kind m)) (isSkinnedMesh (m_kind m)) g).
    change (Forall (fun g => P (geom_mats uncounted g)) (geoms m')). change (Forall (fun g => P (geom_mats uncounted g)) (geoms m)) in W4.
    rewrite <- Forall_map in W4 |- *. rewrite Forall_forall in *. intros g Hg. apply W4. eapply Permutation_in; eauto.
Qed.

Lemma short m : frame m -> short_offsets m.
Proof.
  intros (_ & _ & _ & _ & _ & W6 & _ & _ & _ & _ & Hf & _). split; [exact Hf|]. eapply Forall_impl; [|exact W6]. intros a (_ & H & _). exact H.
Qed.

Lemma vertices_held m m' : held m -> same_but_vertices m m' -> length (vertices m') = length (vertices m) -> held m'.
Proof.
  intros (Hv & Hb & FR & AR) (SH & (SC1 & SC2) & SG & SI) EL. split; [exact Hv|]. split; [exact Hb|]. split.
  - apply (frame_ext m); [exact SH|now rewrite SG|exact FR].
  - unfold arrays, packed, tiled_vertices, tiled_indices, index_list, mats, zlen in *. now rewrite SC1, SC2, SG, SI, EL.
Qed.

Lemma translate_held m off m' o : held m -> translate A m off = (m', o) -> held m'.
Proof.
  intros H E. destruct o as [e|].
  - now rewrite (move_atomic A m off m' e) by auto.
  - pose proof H as (Hv & _ & FR & (P & _)).
    destruct (translate_packed A vs m off m') as (S & L & _); auto; [apply FR|apply P|now apply short|].
    now apply (vertices_held m).
Qed.

Lemma rotate_attrib_len m yaw pitch roll v a v' : 0 < vertformat m -> 0 <= offset a < 65536 -> (oriented a = true -> vartype a <> 3) ->
  rotate_attrib A m yaw pitch roll v a = Ok v' -> length v' = length v.
Proof.
  intros Hf Ho Ht. unfold rotate_attrib. rewrite oriented_unfold. destruct (oriented a) eqn:O; [|congruence]. specialize (Ht eq_refl).
  rewrite attrib_start_div by assumption. cbn [bind]. destruct (decltype_len (vartype a)) as [n|] eqn:D; [|discriminate]. cbn [bind].
  assert (0 <= n <= 3) as Hn.
  { revert D. unfold decltype_len. repeat match goal with |- context [if ?x =? ?y then _ else _] => destruct (Z.eqb_spec x y) end; intros D; try discriminate; try (injection D as <-; lia); contradiction. }
  destruct (first3 _) as [q|] eqn:E; [|discriminate]. cbn [bind]. destruct (trig3 A yaw pitch roll); [|discriminate]. destruct (rot3 A yaw pitch roll q) as ((x, y), z). intros H. injection H as <-.
  set (o := attrib_start m a) in *.
  assert (length (py_slice v (Z.of_nat o) (Z.of_nat o + n)) >= 3)%nat as L3.
  { destruct (py_slice v _ _) as [|? [|? [|? ?]]]; simpl in *; try discriminate; lia. }
  assert ((o + 3 <= length v)%nat /\ n = 3) as (Hl & ->).
  { unfold py_slice, norm_bound in L3. destruct (Z.ltb_spec (Z.of_nat o) 0); [lia|]. destruct (Z.ltb_spec (Z.of_nat o + n) 0); [lia|].
    rewrite firstn_length, skipn_length in L3. split; lia. }
  rewrite slice_assign_in by lia. rewrite !app_length, firstn_length, skipn_length. simpl. lia.
Qed.

Lemma rotate_vertex_len m yaw pitch roll v v' : short_offsets m -> Forall (fun a => oriented a = true -> vartype a <> 3) (vertex_attributes m) ->
  rotate_vertex A m yaw pitch roll v = Ok v' -> length v' = length v.
Proof.
  intros (Hf & HO) HT. unfold rotate_vertex. revert v. induction (vertex_attributes m) as [|a l IH]; intros v H; simpl in H; [congruence|].
  inversion HO; subst. inversion HT; subst. destruct (rotate_attrib A m yaw pitch roll v a) as [v1|] eqn:E; [|discriminate]. simpl in H.
  rewrite (IH ltac:(assumption) ltac:(assumption) v1 H). now apply (rotate_attrib_len m yaw pitch roll _ a).
Qed.

Lemma rotate_held m rot m' o : held m -> rotate A m rot = (m', o) -> held m'.
Proof.
  intros H E. destruct o as [e|].
  - now rewrite (move_atomic A m rot m' e) by auto.
  - pose proof H as (Hv & _ & FR & (P & _)). unfold rotate in E. destruct rot as [|r0 [|r1 [|r2 t]]]; try discriminate.
    apply assign_spec in E. destruct E as (nv & E & ->). apply (vertices_held m); [exact H|apply set_vertices_frame|]. cbn [vertices set_vertices].
    pose proof P as ((n & En & T) & _). apply (packed_loop vs) in E; [|apply FR|exact Hv|apply P]. destruct E as (r & -> & FA).
    destruct (packed_nth vs m r Hv (proj1 P) (fun _ _ _ => True)) as (L & _); [|exact L].
    assert (Forall (fun v => length v = vs) (map (block vs (vertices m)) (seq 0 (length (vertices m) / vs)))) as LB.
    { apply Forall_map, Forall_forall. intros i Hi. apply in_seq in Hi. apply block_length.
      pose proof (Nat.mul_div_le (length (vertices m)) vs ltac:(lia)). nia. }
    revert LB. induction FA as [|v v' l l' Hf FA IH]; intros LB; constructor; inversion LB; subst; auto.
    assert (length v' = length v) as L1. { apply rotate_vertex_len in Hf; [exact Hf|now apply short|apply FR]. }
    split; [congruence|]. intros c x Hx. destruct (nth_error v' c) eqn:E; [eauto|]. apply nth_error_None in E.
    assert (c < length v)%nat by (apply nth_error_Some; congruence). lia.
Qed.

(** Bounds. *)
Lemma bound_mat_frame m lb mt : let v := h_version (m_head m) in let sk := isSkinnedMesh (m_kind m) in
  wf_mat p v sk (uncounted mt) -> wf_mat p v sk (uncounted (snd (fst (bound_mat A m lb mt)))).
Proof.
  intros v sk W. unfold bound_mat. destruct (fold_res _ _ _) as [b|]; [|exact W]. cbn [fst snd].
  destruct (has_mat_bounds m) eqn:K; [|exact W]. unfold has_mat_bounds in K. fold v sk in K.
  unfold wf_mat in *. cbn in *. rewrite K in *. cbn in *. intuition eauto.
Qed.
Lemma bound_lod_frame m l : let v := h_version (m_head m) in let sk := isSkinnedMesh (m_kind m) in
  let bu := isBundledMesh (m_kind m) in wf_lod p v bu sk (lod_mats uncounted l) -> wf_lod p v bu sk (lod_mats uncounted (fst (bound_lod A m l))).
Proof.
  intros v sk bu (W1 & W2 & W3 & W4 & W5 & W6). cbn [materials lod_mats] in W5, W6. rewrite Forall_map in W6. unfold bound_lod, fold_mut.
  pose proof (fold_mut_forall (fun mt => wf_mat p v sk (uncounted mt)) (fun _ lb mt => bound_mat A m lb mt) (fun _ lb mt => bound_mat_frame m lb mt) (materials l) 0%nat (zero3 A, zero3 A) W6) as H.
  pose proof (fold_mut_len (fun _ lb mt => bound_mat A m lb mt) (materials l) 0%nat (zero3 A, zero3 A)) as L.
  assert (forall ms : list (mat F), length ms = length (materials l) -> counts p (matnum l) (map uncounted ms)) as HC.
  { intros ms Hm. destruct W5 as (C1 & C2). rewrite map_length in C2. split; [exact C1|rewrite map_length; cbn in C2; congruence]. }
  destruct (fold_mut_from _ _ _ _) as (((a, b), ms), [e|]); cbn [fst snd] in *; unfold wf_lod;
    cbn [lod_mats lod_min lod_max pivot rignum rigs nodenum nodes matnum materials set_lod_bounds set_materials];
    (split; [solve [exact W1|exists a; reflexivity]|]; split; [solve [exact W2|exists b; reflexivity]|];
    split; [exact W3|]; split; [exact W4|]; split; [now apply HC|now apply Forall_map]).
Qed.
Lemma unbound_place l l' : map (lod_unbound (F:=F)) l = map lod_unbound l' ->
  map (fun mt => (vstart mt, vnum mt, (istart mt, inum mt))) (flat_map materials l) = map (fun mt => (vstart mt, vnum mt, (istart mt, inum mt))) (flat_map materials l').
Proof.
  revert l'. induction l as [|x l IH]; intros [|y l'] E; try discriminate; [reflexivity|]. simpl in *. apply cons_eq in E. destruct E as (E1 & E2).
  rewrite !map_app. f_equal; [|auto]. apply (f_equal materials) in E1. unfold lod_unbound in E1. cbn [materials] in E1.
  apply (f_equal (map (fun mt => (vstart mt, vnum mt, (istart mt, inum mt))))) in E1. rewrite !map_map in E1. exact E1.
Qed.
Lemma unbound_places l l' : map (geom_unbound (F:=F)) l = map geom_unbound l' ->
  map (fun mt => (vstart mt, vnum mt, (istart mt, inum mt))) (mats_of l) = map (fun mt => (vstart mt, vnum mt, (istart mt, inum mt))) (mats_of l').
Proof.
  revert l'. induction l as [|x l IH]; intros [|y l'] E; try discriminate; [reflexivity|]. simpl in *. apply cons_eq in E. destruct E as (E1 & E2).
  rewrite !map_app. f_equal; [|apply IH, E2]. apply (f_equal lods) in E1. unfold geom_unbound in E1. cbn [lods] in E1. now apply unbound_place.
Qed.

Lemma update_held m m' o : held m -> update_boundaries A m = (m', o) -> held m'.
Proof.
  intros (Hv & Hb & FR & AR) E. pose proof (update_frame A m m' o E) as (SH & (SC1 & SC2) & SV & SI & SG).
  split; [exact Hv|]. split; [exact Hb|]. split.
  - clear AR SV SI SG SC1 SC2. destruct SH as (H1 & H2 & H3 & H4 & H5 & H6 & H7 & H8 & H9).
    unfold update_boundaries, fold_mut in E.
    pose proof (fold_mut_forall (fun g => wf_geom p (h_version (m_head m)) (isBundledMesh (m_kind m)) (isSkinnedMesh (m_kind m)) (geom_mats uncounted g))
      (fun _ (_ : unit) g => let '(g', o) := bound_geom A m g in (tt, g', o))) as H.
    specialize H with (l := geoms m) (i := 0%nat) (s := tt).
    pose proof (fold_mut_len (fun _ (_ : unit) g => let '(g', o) := bound_geom A m g in (tt, g', o)) (geoms m) 0%nat tt) as L.
    destruct (fold_mut_from _ _ _ (geoms m)) as ((u, gs), o'). injection E as <- <-. cbn [fst snd] in *.
    destruct FR as (W1 & W2 & (W3 & W3') & W4 & W5). unfold frame, vertex_size in *.
    cbn [m_head m_kind m_u1 geomnum geoms set_geoms vertattribnum vertex_attributes vertformat vertstride m_u2] in *.
    split; [exact W1|]. split; [exact W2|]. split; [split; [exact W3|congruence]|]. split; [|exact W5]. apply H; [|exact W4].
    clear. intros _ _ g (C & Wg). unfold bound_geom, fold_mut.
    pose proof (fold_mut_forall (fun l => wf_lod p (h_version (m_head m)) (isBundledMesh (m_kind m)) (isSkinnedMesh (m_kind m)) (lod_mats uncounted l))
      (fun _ (_ : unit) l => let '(l', o) := bound_lod A m l in (tt, l', o))) as H.
    specialize H with (l := lods g) (i := 0%nat) (s := tt).
    pose proof (fold_mut_len (fun _ (_ : unit) l => let '(l', o) := bound_lod A m l in (tt, l', o)) (lods g) 0%nat tt) as L.
    destruct (fold_mut_from _ _ _ (lods g)) as ((u, ls), o'). cbn in *. split.
    + unfold counts in *. cbn in *. rewrite map_length in *. now rewrite L.
    + cbn. apply Forall_map. rewrite Forall_map in Wg. apply H; [|exact Wg]. intros _ _ l Wl. pose proof (bound_lod_frame m l Wl) as X. now destruct (bound_lod A m l).
  - pose proof (unbound_places _ _ SG) as PL. unfold arrays, packed, tiled_vertices, tiled_indices, index_list, mats in *. rewrite SC1, SC2, SV, SI.
    assert (map (fun mt : mat F => (vstart mt, vnum mt)) (mats_of (geoms m')) = map (fun mt => (vstart mt, vnum mt)) (mats_of (geoms m))) as ->.
    { apply (f_equal (map fst)) in PL. now rewrite !map_map in PL. }
    assert (map (fun mt : mat F => (istart mt, inum mt)) (mats_of (geoms m')) = map (fun mt => (istart mt, inum mt)) (mats_of (geoms m))) as ->.
    { apply (f_equal (map snd)) in PL. now rewrite !map_map in PL. }
    exact AR.
Qed.

Lemma center_held m gi li u m' r : held m -> get_lod_center_offset A m gi li u = (m', r) -> held m'.
Proof.
  intros H. unfold get_lod_center_offset. destruct (bind _ _) as [l|]; [|congruence]. destruct u; [|congruence].
  destruct (update_boundaries A m) as (m1, o) eqn:E. pose proof (update_held m m1 o H E). destruct o; congruence.
Qed.

Lemma sum_nth (f : mat F -> Z) : forall l1 l2 l3, length l2 = length l1 -> length l3 = length l1 ->
  (forall k x y z, nth_error l1 k = Some x -> nth_error l2 k = Some y -> nth_error l3 k = Some z -> f z = f x + f y) ->
  sumZ f l3 = sumZ f l1 + sumZ f l2.
Proof.
  induction l1 as [|x l1 IH]; intros [|y l2] [|z l3] E1 E2 H; try discriminate; [reflexivity|]. simpl in *.
  rewrite (IH l2 l3) by (try lia; intros k; apply (H (S k))). rewrite (H 0%nat x y z) by reflexivity. lia.
Qed.

Lemma held_counts m : held m -> 0 <= vertnum m /\ 0 <= indexnum m /\ vertnum m * Z.of_nat vs <> 1 /\ indexnum m <> 1.
Proof.
  intros (Hv & _ & _ & (_ & E & N & EI & NI & _)). pose proof (zlen_nonneg (vertices m)). pose proof (zlen_nonneg (index_list m)).
  repeat split; try lia; nia.
Qed.

Lemma merge_held m other m' : held m -> held other -> merge m other = (m', Merged) -> held m'.
Proof.
  intros H1 H2 E. pose proof (held_counts m H1) as C1. pose proof (held_counts other H2) as C2.
  destruct H1 as (Hv & Hb & FR & AR), H2 as (_ & _ & _ & AR2). pose proof FR as (_ & _ & _ & _ & _ & _ & _ & _ & _ & Hs & _).
  pose proof (arrays_sums m Hv AR) as (SV1 & SI1). pose proof (arrays_sums other Hv AR2) as (SV2 & SI2).
  pose proof (packed_in_range vs m (proj1 AR)) as R1. pose proof (packed_in_range vs other (proj1 AR2)) as R2.
  destruct (merge_tables vs m other m' Hs R1 R2 E) as (P & SH & SG & EV & EI & SV & SI & _ & B).
  destruct (merged_nth vs m other m' Hs R1 R2 E) as (L1 & L2 & N).
  rewrite (sum_nth vnum (mats m) (mats other)) in SV by (try assumption; intros k x y z Hx Hy Hz; now apply (N k x y z)).
  rewrite (sum_nth inum (mats m) (mats other)) in SI by (try assumption; intros k x y z Hx Hy Hz; now apply (N k x y z)).
  split; [exact Hv|]. split; [exact Hb|]. split.
  - apply (frame_ext m); [exact SH|now rewrite SG|exact FR].
  - split; [exact P|]. split; [exact EV|]. split.
    + rewrite EV, SV, <- SV1, <- SV2. destruct C1 as (C1 & _ & C1' & _), C2 as (C2 & _ & C2' & _). nia.
    + split; [exact EI|]. split; [lia|]. destruct AR as (_ & _ & _ & _ & _ & U1), AR2 as (_ & _ & _ & _ & _ & U2).
      apply (Forall_impl (P := fun i => 0 <= i <= 65535)); [unfold is_ushort; intros; lia|]. apply B.
      * eapply Forall_impl; [|exact U1]. unfold is_ushort. intros. lia.
      * eapply Forall_impl; [|exact U2]. unfold is_ushort. intros. lia.
Qed.

Lemma map_unplaced_uncounted (gs gs' : list (geom F)) : map (geom_mats unplaced) gs = map (geom_mats unplaced) gs' ->
  map (geom_mats uncounted) gs = map (geom_mats uncounted) gs'.
Proof.
  intros H. apply (f_equal (map (geom_mats uncounted))) in H. rewrite !map_map in H.
  assert (forall g : geom F, geom_mats uncounted (geom_mats unplaced g) = geom_mats uncounted g) as Q.
  { intros g. unfold geom_mats, lod_mats. cbn. f_equal. rewrite map_map. apply map_ext. intros l. cbn. f_equal. rewrite map_map. reflexivity. }
  rewrite (map_ext _ _ Q gs), (map_ext _ _ Q gs') in H. exact H.
Qed.

Lemma reorder_held m order ks m' : held m -> permutes (length (geoms m)) order ks -> vertnum m <= 2 ^ 53 ->
  change_geoms_order m order = (m', None) -> held m'.
Proof.
  intros (Hv & Hb & FR & AR) HP B E. pose proof FR as (_ & _ & _ & _ & _ & _ & _ & _ & _ & Hs & _).
  pose proof (arrays_sums m Hv AR) as (SV & SI). rewrite SV in B. pose proof AR as (P & EV & NV & EI & NI & U).
  destruct (reorder_lengths vs m order ks m' Hs Hv P B HP E) as (LV & LI & _).
  destruct (reorder_ok vs m order ks Hs Hv (packed_in_range _ _ P) B HP) as (m1 & E' & R). rewrite E in E'. injection E' as <-.
  assert (Permutation (pick (geoms m) ks) (geoms m)) as PG. { rewrite <- (pick_seq (geoms m)) at 2. apply pick_perm, HP. }
  destruct R as [RL RV RI RH (RC1 & RC2) RG].
  split; [exact Hv|]. split; [exact Hb|]. split.
  - apply (frame_ext m); [exact RH| |exact FR]. apply map_unplaced_uncounted in RG. rewrite RG. now apply Permutation_map.
  - destruct (packed_laid vs m P) as (L & V & I).
    split.
    + apply (laid_packed vs m' _ RL); [|exact RV|exact RI]. rewrite Forall_map, Forall_map. unfold data. cbn [fst].
      assert (Forall (fun mt => Forall (fun v : list F => length v = vs) (mat_vertices vs m mt)) (mats m)) as Q.
      { eapply Forall_impl; [|exact (tiled_vin vs m (proj1 P))]. intros mt. apply mat_vertices_length. }
      rewrite Forall_forall in *. intros mt Hm. apply Q. apply (Permutation_in (l := mats_of (pick (geoms m) ks))); [|exact Hm].
      unfold mats, mats_of. now apply Permutation_flat_map.
    + rewrite RC1, RC2, LV, LI. repeat (split; [assumption|]). unfold index_list in U |- *. rewrite RI. rewrite I in U.
      rewrite Forall_forall in *. intros i Hi. apply U. apply (Permutation_in (l := all_i (map (data vs m) (mats_of (pick (geoms m) ks))))); [|exact Hi].
      unfold all_i. apply Permutation_flat_map, Permutation_map. unfold mats, mats_of. now apply Permutation_flat_map.
Qed.

Theorem refused_same m other m' : merge m other = (m', ReturnedNotImplementedError) -> m' = m.
Proof.
  unfold merge. destruct (canMerge m other) as [[|]|]; try congruence. intros E. exfalso. revert E. unfold merge_with.
  destruct (trav_geoms _ _ _) as ((s, gs), [e|]); [congruence|]. destruct (index m); congruence.
Qed.

Theorem edit_held m m' : held m -> edit A p vs m m' -> held m'.
Proof.
  intros H E. destruct E as [m off m' o E|m rot m' o E|m m' o E|m gi li u m' r E|m other m' S E|m m' E|m other m' E|m order ks m' HP B E].
  - exact (translate_held m off m' o H E).
  - exact (rotate_held m rot m' o H E).
  - exact (update_held m m' o H E).
  - exact (center_held m gi li u m' r H E).
  - exact (merge_held m other m' H (savable_held other S) E).
  - rewrite merge_self_copy in E. exact (merge_held m m m' H H E).
  - now rewrite (refused_same m other m' E).
  - exact (reorder_held m order ks m' H HP B E).
Qed.

Theorem history_savable m0 m : savable p vs m0 -> history A p vs m0 m ->
  is_long p (vertnum m) -> is_long p (indexnum m) -> vertnum m * Z.of_nat vs <= 2 ^ 53 -> savable p vs m.
Proof.
  intros S H. apply savable_held in S. assert (held m); [|now apply held_savable].
  induction H as [|x y z E H IH]; [exact S|]. apply IH. now apply (edit_held x).
Qed.
End Hist.

Theorem history_exports L p vs (m0 m : mesh binary64) : savable p vs m0 -> history (f64 L) p vs m0 m ->
  is_long p (vertnum m) -> is_long p (indexnum m) -> vertnum m * Z.of_nat vs <= 2 ^ 53 ->
  savable p vs m /\
  exists bs round, (forall x, rounds_to_single x (round x)) /\ (forall x, is_single x -> round x = x) /\
    export p pack_f m = (bs, None) /\ load p unpack_f (m_kind m) bs = Ok (mesh_map round m).
Proof.
  intros S H L1 L2 B. pose proof (history_savable _ p vs m0 m S H L1 L2 B) as S'. split; [exact S'|].
  apply export_reload_round; [apply S'|]. now destruct (savable_held p vs m S') as (_ & _ & _ & (_ & _ & _ & _ & N & _)).
Qed.
