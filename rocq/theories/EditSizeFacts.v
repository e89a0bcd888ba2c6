(** The length of the file of an edited mesh. *)
From Coq Require Import ZArith List Bool Lia Permutation Relations.
From Flocq Require Import IEEE754.Bits.
From Verif Require Import PyBase Struct Mesh Arith F64 Edit Spec SpecF SpecEdit SpecBounds SpecHist CodecBase CodecFacts CodecLocal DivFacts TravFacts VertFacts
  LayoutFacts MergeFacts ReorderFacts BoundFacts CenterFacts HistFacts SpecEditSize.
Import ListNotations.
Open Scope Z_scope.

Section Size.
Context {F : Type} (A : arith F) (p : plat) (vs : nat) (L : Z).
Implicit Types (m : mesh F).

(** All but the arrays. *)
Definition geom_bytes v b s (g : geom F) : Z := L + sumZ (nodes_size L v b s) (lods g) + sumZ (mats_size L v s) (lods g).
Definition table_bytes m : Z :=
  11 * L + 1 + 8 * zlen (vertex_attributes m) + (if isSkinnedMesh (m_kind m) then 0 else L) +
  sumZ (geom_bytes (h_version (m_head m)) (isBundledMesh (m_kind m)) (isSkinnedMesh (m_kind m))) (geoms m).
Lemma file_size_split m : file_size L m = table_bytes m + array_bytes m.
Proof.
  unfold file_size, head_size, table_bytes, array_bytes.
  assert (seq_len (index m) = zlen (index_list m)) as -> by (unfold seq_len, index_list; now destruct (index m)).
  assert (forall v b s gs, sumZ (geom_bytes v b s) gs = L * zlen gs + sumZ (fun g => sumZ (nodes_size L v b s) (lods g)) gs + sumZ (fun g => sumZ (mats_size L v s) (lods g)) gs) as ->.
  { intros v b s gs. unfold zlen. induction gs as [|g t IH]; cbn [sumZ length]; [lia|]. rewrite IH. unfold geom_bytes. lia. }
  lia.
Qed.
Lemma geom_bytes_uncounted v b s g : geom_bytes v b s (geom_mats uncounted g) = geom_bytes v b s g.
Proof.
  unfold geom_bytes. cbn [geom_mats lods]. rewrite !sumZ_map. f_equal.
  apply sumZ_ext. intros l _. unfold mats_size. cbn [lod_mats materials]. rewrite sumZ_map. reflexivity.
Qed.
Lemma geom_bytes_unbound v b s g : geom_bytes v b s (geom_unbound g) = geom_bytes v b s g.
Proof.
  unfold geom_bytes. cbn [geom_unbound lods]. rewrite !sumZ_map. f_equal.
  apply sumZ_ext. intros l _. unfold mats_size. cbn [lod_unbound materials]. rewrite sumZ_map. reflexivity.
Qed.
Lemma sumZ_permuted {B} (f : B -> Z) l l' : Permutation l l' -> sumZ f l = sumZ f l'.
Proof. induction 1; cbn [sumZ]; lia. Qed.
Lemma table_ext m m' : same_header m m' -> Permutation (map (geom_mats uncounted) (geoms m')) (map (geom_mats uncounted) (geoms m)) ->
  table_bytes m' = table_bytes m.
Proof.
  intros (H1 & H2 & _ & _ & _ & H6 & _) P. unfold table_bytes. rewrite H1, H2, H6. f_equal.
  rewrite <- (sumZ_ext _ _ _ (fun g _ => geom_bytes_uncounted _ _ _ g)), <- sumZ_map, (sumZ_permuted _ _ _ P), sumZ_map.
  apply sumZ_ext. intros g _. apply geom_bytes_uncounted.
Qed.
Lemma table_bound m m' : same_but_bounds m m' -> table_bytes m' = table_bytes m /\ array_bytes m' = array_bytes m.
Proof.
  intros ((H1 & H2 & _ & _ & _ & H6 & _) & _ & SV & SI & SG). split; [|unfold array_bytes, index_list; now rewrite SV, SI].
  unfold table_bytes. rewrite H1, H2, H6. f_equal.
  rewrite <- (sumZ_ext _ _ _ (fun g _ => geom_bytes_unbound _ _ _ g)), <- sumZ_map, SG, sumZ_map.
  apply sumZ_ext. intros g _. apply geom_bytes_unbound.
Qed.
Lemma held_arrays m : held p vs m -> array_bytes m = 4 * (vertnum m * Z.of_nat vs) + 2 * indexnum m.
Proof. intros (_ & _ & _ & (_ & EV & _ & EI & _)). unfold array_bytes. now rewrite EV, EI. Qed.
Lemma move_edit m m' : move A m m' -> edit A p vs m m'.
Proof. intros H. destruct H; econstructor; eassumption. Qed.
Lemma counts_arrays m m' : held p vs m -> held p vs m' -> same_counts m m' -> array_bytes m' = array_bytes m.
Proof. intros H H' (E1 & E2). rewrite (held_arrays m H), (held_arrays m' H'). now rewrite E1, E2. Qed.
Lemma move_bytes m m' : held p vs m -> move A m m' -> table_bytes m' = table_bytes m /\ array_bytes m' = array_bytes m.
Proof.
  intros H E. pose proof (edit_held A p vs m m' H (move_edit m m' E)) as H'.
  assert (forall x (r : res (list F)) y o, assign_vertices x r = (y, o) -> same_but_vertices x y) as AS.
  { intros x r y o Q. unfold assign_vertices in Q. destruct r; injection Q as <- <-; [apply set_vertices_frame|repeat split]. }
  assert (forall y, same_but_vertices m y -> held p vs y -> table_bytes y = table_bytes m /\ array_bytes y = array_bytes m) as SB.
  { intros y (S1 & S2 & S3 & _) HY. split; [apply table_ext; [exact S1|now rewrite S3]|now apply counts_arrays]. }
  destruct E as [m off m' o E|m rot m' o E|m m' o E|m gi li u m' r E|m other m' E|m order ks m' HP B E].
  - apply SB; [|exact H']. unfold translate in E. now apply AS in E.
  - apply SB; [|exact H']. unfold rotate in E. destruct rot as [|r0 [|r1 [|r2 t]]]; try (injection E as <- <-; repeat split). now apply AS in E.
  - apply table_bound, (update_frame A m m' o E).
  - unfold get_lod_center_offset in E. destruct (bind _ _) as [l|]; [|injection E as <- _; auto]. destruct u; [|injection E as <- _; auto].
    destruct (update_boundaries A m) as (m1, o) eqn:EU. assert (m' = m1) as -> by (destruct o; congruence). apply table_bound, (update_frame A m m1 o EU).
  - rewrite (refused_same m other m' E). auto.
  - pose proof H as (Hv & Hb & FR & AR). pose proof FR as (_ & _ & _ & _ & _ & _ & _ & _ & _ & Hs & _).
    pose proof (arrays_sums vs m Hv AR) as (SV & SI). rewrite SV in B. pose proof AR as (P & _).
    destruct (reorder_ok vs m order ks Hs Hv (packed_in_range _ _ P) B HP) as (m1 & E' & R). rewrite E in E'. injection E' as <-.
    destruct R as [RL RV RI RH RC RG]. split; [|now apply counts_arrays].
    apply table_ext; [exact RH|]. apply map_unplaced_uncounted in RG. rewrite RG. apply Permutation_map.
    rewrite <- (pick_seq (geoms m)) at 2. apply pick_perm, HP.
Qed.
Lemma merge_bytes m other m' : held p vs m -> held p vs other -> merge m other = (m', Merged) ->
  table_bytes m' = table_bytes m /\ array_bytes m' = array_bytes m + array_bytes other.
Proof.
  intros H1 H2 E. pose proof (merge_held p vs m other m' H1 H2 E) as H3.
  rewrite (held_arrays m H1), (held_arrays other H2), (held_arrays m' H3).
  destruct H1 as (Hv & Hb & FR & AR), H2 as (_ & _ & _ & AR2). pose proof FR as (_ & _ & _ & _ & _ & _ & _ & _ & _ & Hs & _).
  pose proof (arrays_sums vs m Hv AR) as (SV1 & SI1). pose proof (arrays_sums vs other Hv AR2) as (SV2 & SI2).
  pose proof (packed_in_range vs m (proj1 AR)) as R1. pose proof (packed_in_range vs other (proj1 AR2)) as R2.
  destruct (merge_tables vs m other m' Hs R1 R2 E) as (P & SH & SG & EV & EI & SV & SI & _ & _).
  destruct (merged_nth vs m other m' Hs R1 R2 E) as (L1 & L2 & N).
  rewrite (sum_nth vnum (mats m) (mats other)) in SV by (try assumption; intros k x y z Hx Hy Hz; now apply (N k x y z)).
  rewrite (sum_nth inum (mats m) (mats other)) in SI by (try assumption; intros k x y z Hx Hy Hz; now apply (N k x y z)).
  split; [apply table_ext; [exact SH|now rewrite SG]|]. rewrite SV, SI, SV1, SV2, SI1, SI2. lia.
Qed.
Theorem journey_bytes m0 ms m : held p vs m0 -> journey A p vs m0 ms m ->
  held p vs m /\ table_bytes m = table_bytes m0 /\ array_bytes m = array_bytes m0 + sumZ array_bytes ms.
Proof.
  intros H J. induction J as [|ms m m' J (HH & T & Y) E|ms m other m' J (HH & T & Y) S E|ms m m' J (HH & T & Y) E]; cbn [sumZ].
  - repeat split; try exact (proj1 H); auto; try apply H. lia.
  - destruct (move_bytes m m' HH E). split; [exact (edit_held A p vs m m' HH (move_edit m m' E))|]. split; lia.
  - apply savable_held in S. destruct (merge_bytes m other m' HH S E). split; [exact (merge_held p vs m other m' HH S E)|]. split; lia.
  - rewrite merge_self_copy in E. destruct (merge_bytes m m m' HH HH E). split; [exact (merge_held p vs m m m' HH HH E)|]. split; lia.
Qed.
End Size.

Lemma saved_length p m bs : wf p m -> indexnum m <> 1 -> export p pack_f m = (bs, None) -> zlen bs = file_size (Z.of_nat (long_bytes p)) m.
Proof.
  intros W N E. destruct (export_reload_round p m W N) as (b & r & _ & _ & E' & H). rewrite E in E'. injection E' as <-.
  apply loaded_file_size in H. now rewrite file_size_map in H.
Qed.
Theorem journey_length L p vs m0 ms m b0 : savable p vs m0 -> journey (f64 L) p vs m0 ms m ->
  is_long p (vertnum m) -> is_long p (indexnum m) -> vertnum m * Z.of_nat vs <= 2 ^ 53 -> export p pack_f m0 = (b0, None) ->
  exists bs, export p pack_f m = (bs, None) /\ zlen bs = zlen b0 + sumZ array_bytes ms.
Proof.
  intros S J L1 L2 B E0. pose proof (savable_held p vs m0 S) as H0.
  destruct (journey_bytes (f64 L) p vs (Z.of_nat (long_bytes p)) m0 ms m H0 J) as (H & T & Y).
  pose proof (held_savable p vs m H L1 L2 B) as S'.
  assert (indexnum m <> 1) as N by (destruct H as (_ & _ & _ & (_ & _ & _ & _ & N & _)); exact N).
  assert (indexnum m0 <> 1) as N0 by (destruct H0 as (_ & _ & _ & (_ & _ & _ & _ & N0 & _)); exact N0).
  destruct (export_reload_round p m (proj1 S') N) as (bs & r & _ & _ & E & _). exists bs. split; [exact E|].
  rewrite (saved_length p m bs (proj1 S') N E), (saved_length p m0 b0 (proj1 S) N0 E0), !file_size_split, T, Y. lia.
Qed.
Theorem merge_length p vs m other m' b1 b2 b3 : savable p vs m -> savable p vs other -> merge m other = (m', Merged) ->
  wf p m' -> export p pack_f m = (b1, None) -> export p pack_f other = (b2, None) -> export p pack_f m' = (b3, None) ->
  zlen b3 < zlen b1 + zlen b2 /\ zlen b1 <= zlen b3.
Proof.
  intros S1 S2 E W E1 E2 E3. pose proof (savable_held p vs m S1) as H1. pose proof (savable_held p vs other S2) as H2.
  pose proof (merge_held p vs m other m' H1 H2 E) as H3.
  assert (forall x : mesh binary64, held p vs x -> indexnum x <> 1) as N by (intros x (_ & _ & _ & (_ & _ & _ & _ & N & _)); exact N).
  destruct (merge_bytes p vs (Z.of_nat (long_bytes p)) m other m' H1 H2 E) as (T & Y).
  rewrite (saved_length p m b1 (proj1 S1) (N _ H1) E1), (saved_length p other b2 (proj1 S2) (N _ H2) E2), (saved_length p m' b3 W (N _ H3) E3), !file_size_split, T, Y.
  assert (0 < table_bytes (Z.of_nat (long_bytes p)) other); [|unfold array_bytes, zlen; lia].
  unfold table_bytes. assert (forall (X : Type) (f : X -> Z) l, (forall x, 0 <= f x) -> 0 <= sumZ f l) as P.
  { intros X f l Hf. induction l as [|x t IH]; cbn [sumZ]; [lia|]. specialize (Hf x). lia. }
  match goal with |- 0 < _ + sumZ ?f ?l => assert (0 <= sumZ f l) as Q end.
  { apply P. intros g. unfold geom_bytes, nodes_size, mats_size, mat_size, string_size.
    match goal with |- 0 <= _ + sumZ ?f1 ?l1 + sumZ ?f2 ?l2 => assert (0 <= sumZ f1 l1 /\ 0 <= sumZ f2 l2); [split; apply P|lia] end.
    - intros l. match goal with |- context [if ?s then sumZ ?f ?k else _] => pose proof (P _ f k ltac:(intros; unfold zlen; nia)) end.
      repeat match goal with |- context [if ?b then _ else _] => destruct b end; unfold zlen in *; lia.
    - intros l. match goal with |- 0 <= _ + sumZ ?f ?k => assert (0 <= sumZ f k); [apply P|lia] end.
      intros mt. match goal with |- context [sumZ ?f ?k] => pose proof (P _ f k ltac:(intros; unfold zlen; lia)) end.
      repeat match goal with |- context [if ?b then _ else _] => destruct b end; unfold zlen in *; lia. }
  repeat match goal with |- context [if ?b then _ else _] => destruct b end; unfold zlen in *; lia.
Qed.
(** Every history is such a sequence. *)
Theorem history_journey {F} (A : arith F) p vs m0 m : history A p vs m0 m <-> exists ms, journey A p vs m0 ms m.
Proof.
  split.
  - intros H. apply Operators_Properties.clos_rt1n_rt, Operators_Properties.clos_rt_rtn1 in H.
    induction H as [|x y E H (ms & J)]; [exists []; constructor|].
    destruct E as [m off m' o E|m rot m' o E|m m' o E|m gi li u m' r E|m other m' S E|m m' E|m other m' E|m order ks m' HP B E].
    + exists ms. apply (jn_move _ _ _ _ _ m); [exact J|exact (mv_translate _ _ _ _ _ E)].
    + exists ms. apply (jn_move _ _ _ _ _ m); [exact J|exact (mv_rotate _ _ _ _ _ E)].
    + exists ms. apply (jn_move _ _ _ _ _ m); [exact J|exact (mv_bounds _ _ _ _ E)].
    + exists ms. apply (jn_move _ _ _ _ _ m); [exact J|exact (mv_center _ _ _ _ _ _ _ E)].
    + exists (other :: ms). exact (jn_merge _ _ _ _ _ m other m' J S E).
    + exists (m :: ms). exact (jn_self _ _ _ _ _ m m' J E).
    + exists ms. apply (jn_move _ _ _ _ _ m); [exact J|exact (mv_refused _ _ _ _ E)].
    + exists ms. apply (jn_move _ _ _ _ _ m); [exact J|exact (mv_reorder _ _ _ _ _ HP B E)].
  - intros (ms & J). apply Operators_Properties.clos_rt_rt1n, Operators_Properties.clos_rtn1_rt.
    induction J as [|ms m m' J IH E|ms m other m' J IH S E|ms m m' J IH E]; [constructor| | |].
    + apply (Relation_Operators.rtn1_trans _ _ _ m); [apply move_edit, E|exact IH].
    + apply (Relation_Operators.rtn1_trans _ _ _ m); [exact (by_merge _ _ _ _ _ _ S E)|exact IH].
    + apply (Relation_Operators.rtn1_trans _ _ _ m); [exact (by_self_merge _ _ _ _ _ E)|exact IH].
Qed.
