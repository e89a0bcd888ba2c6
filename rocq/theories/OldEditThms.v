(** The editing methods of the old mesh class: vertex objects, and agreement with the new
    class. *)
From Coq Require Import ZArith List Bool Lia Reals Lra.
From Flocq Require Import IEEE754.Binary IEEE754.Bits.
From Verif Require Import PyBase Struct Mesh Arith F64 Edit OldEdit RArith Spec SpecEdit SpecBounds SpecOldEdit F64Facts DivFacts TravFacts VertFacts LayoutFacts MergeFacts BoundFacts OldEditFacts.
Import ListNotations.
Open Scope Z_scope.
Open Scope res_scope.

(** ** Vertex objects *)
Section Objects.
Context {F : Type} (A : arith F).
Implicit Types (m : mesh F).

Lemma no_attrib m u : (forall a, ~ has_attrib m u a) -> ~ In u (map usage (filter in_use (vertex_attributes m))).
Proof.
  intros H HI. apply in_map_iff in HI. destruct HI as (a & E & Ha). apply filter_In in Ha. destruct Ha as (H1 & H2).
  apply (H a). repeat split; auto.
Qed.
Lemma has_dec m u : (exists a, has_attrib m u a) \/ (forall a, ~ has_attrib m u a).
Proof.
  destruct (find (fun a => in_use a && (usage a =? u)) (vertex_attributes m)) as [a|] eqn:E.
  - left. exists a. apply find_some in E. destruct E as (H1 & H2). apply andb_prop in H2. destruct H2 as (H2 & H3).
    apply Z.eqb_eq in H3. repeat split; auto.
  - right. intros a (H1 & H2 & H3). pose proof (find_none _ _ E a H1) as HN. cbn in HN. rewrite H2, H3, Z.eqb_refl in HN. discriminate.
Qed.
Lemma view_field vs m j : canonical vs m -> forall u, field_of vs m j u (view m (block vs (vertices m) j) u).
Proof.
  intros C u. destruct (has_dec m u) as [(a & Ha)|HN].
  - left. destruct (has_in m a u Ha) as (Hi & <-). pose proof (can_parts m vs C) as P. rewrite Forall_forall in P.
    exists a, (width a). split; [exact Ha|]. split; [apply P, Hi|]. now rewrite (view_at m vs C).
  - right. split; [exact HN|]. apply view_none. now apply no_attrib.
Qed.

Theorem get_vertices_fields vs m : canonical vs m -> exists objs, get_vertices m = Ok objs /\
  zlen objs = vertnum m /\ forall j v, nth_error objs j = Some v -> forall u, field_of vs m j u (v u).
Proof.
  intros C. exists (map (view m) (blocks m vs)). split; [apply (get_vertices_view m vs C)|]. split.
  - unfold zlen. rewrite map_length. unfold blocks. rewrite map_length, seq_length. pose proof (vertnum_nonneg m vs C). lia.
  - intros j v H u. rewrite nth_error_map in H. unfold blocks in H. rewrite nth_error_map in H.
    destruct (nth_error (seq 0 (Z.to_nat (vertnum m))) j) as [k|] eqn:E; [|discriminate]. cbn in H. injection H as <-.
    assert (k = j) as ->.
    { assert (j < length (seq 0 (Z.to_nat (vertnum m))))%nat as Hj by (apply nth_error_Some; congruence).
      apply (nth_error_nth _ _ 0%nat) in E. rewrite seq_length in Hj. rewrite seq_nth in E by exact Hj. lia. }
    now apply view_field.
Qed.

Lemma views_numbers vs m : canonical vs m -> forall l, Forall (fun c => length c = vs) l ->
  map_res (vertex_numbers m) (map (view m) l) = Ok l.
Proof.
  intros C. induction 1 as [|c t Hc Ht IH]; [reflexivity|]. cbn [map map_res]. rewrite (view_numbers m vs C) by exact Hc. cbn [bind].
  rewrite IH. reflexivity.
Qed.

(** Writing back what was read. *)
Theorem read_write vs m objs m' o : canonical vs m -> get_vertices m = Ok objs -> update_vertices A m objs = (m', o) ->
  same_but_bounds m m'.
Proof.
  intros C HG H. rewrite (get_vertices_view m vs C) in HG. injection HG as <-. unfold update_vertices in H.
  rewrite (views_numbers vs m C) in H by apply (blocks_lengths m vs C). rewrite (blocks_concat m vs C), (can_vertnum _ _ C), (can_stride _ _ C) in H.
  pose proof (can_size _ _ C). pose proof (vertnum_nonneg m vs C). pose proof (vs_small m vs C). pose proof (can_format m vs C).
  rewrite old_vertnum_exact in H; try lia.
  - apply old_bounds_frame in H. exact H.
  - rewrite <- (can_vertnum _ _ C). apply C.
Qed.
Theorem read_write_ok vs m : canonical vs m -> Forall (mat_vin vs m) (mats m) -> has_positions m -> every_lod lod_bounded m ->
  exists objs m', get_vertices m = Ok objs /\ update_vertices A m objs = (m', None) /\ same_but_bounds m m'.
Proof.
  intros C HM HP HB. exists (map (view m) (blocks m vs)), (fst (old_update_boundaries A m)).
  pose proof (get_vertices_view m vs C) as HG.
  assert (update_vertices A m (map (view m) (blocks m vs)) = old_update_boundaries A m) as E.
  { unfold update_vertices. rewrite (views_numbers vs m C) by apply (blocks_lengths m vs C). rewrite (blocks_concat m vs C), (can_vertnum _ _ C), (can_stride _ _ C).
    pose proof (can_size _ _ C). pose proof (vertnum_nonneg m vs C). pose proof (vs_small m vs C). pose proof (can_format m vs C).
    rewrite old_vertnum_exact; try lia; [|rewrite <- (can_vertnum _ _ C); apply C]. f_equal. now destruct m. }
  rewrite E. rewrite (old_bounds_ok A vs m C HP HM HB) at 1 2. split; [exact HG|]. split; [reflexivity|].
  cbn [fst]. pose proof (old_bounds_ok A vs m C HP HM HB) as FR. apply old_bounds_frame in FR. rewrite (old_bounds_ok A vs m C HP HM HB). exact FR.
Qed.

(** Reading what was written. *)
Definition numbers m (v : vertex) : list F :=
  flat_map (fun a => match v (usage a) with Some x => x | None => [] end) (filter in_use (vertex_attributes m)).
Lemma in_has m a : In a (filter in_use (vertex_attributes m)) -> has_attrib m (usage a) a.
Proof. intros H. apply filter_In in H. destruct H. repeat split; auto. Qed.
Lemma numbers_ok vs m v : canonical vs m -> complete m v ->
  vertex_numbers m v = Ok (numbers m v) /\ length (numbers m v) = vs /\
  forall a, In a (filter in_use (vertex_attributes m)) -> v (usage a) = Some (part m (numbers m v) a).
Proof.
  intros C HC. pose proof (can_parts m vs C) as P. rewrite Forall_forall in P.
  assert (forall a, In a (filter in_use (vertex_attributes m)) -> exists x, v (usage a) = Some x /\ length x = width a) as HV.
  { intros a Ha. apply (HC (usage a) a (width a)); [now apply in_has|]. apply P, Ha. }
  destruct (parts_nth m (fun a => match v (usage a) with Some x => x | None => [] end) _ _ _ (can_format m vs C) (can_declared _ _ C)) as (L & N).
  { apply Forall_forall. intros a Ha. destruct (HV a Ha) as (x & -> & E). exact E. }
  fold (numbers m v) in L, N. split; [|split].
  - apply (vertex_numbers_ok m vs C). intros a Ha. destruct (HV a Ha) as (x & -> & _). discriminate.
  - lia.
  - intros a Ha. destruct (HV a Ha) as (x & Ex & Lx). rewrite Ex. f_equal. apply nth_ext_error. intros k.
    destruct (P a Ha) as (_ & P2). destruct (Nat.ltb_spec k (width a)) as [Hk|Hk].
    + rewrite nth_part by exact Hk. specialize (N a k Ha Hk). rewrite Nat.sub_0_r, Ex in N. symmetry. exact N.
    + rewrite !(proj2 (nth_error_None _ _)); [reflexivity| |lia]. rewrite part_length by lia. lia.
Qed.
Theorem write_read vs m objs m' o : canonical vs m -> Forall (complete m) objs -> zlen objs * Z.of_nat vs <= 2 ^ 53 ->
  update_vertices A m objs = (m', o) ->
  same_header m m' /\ vertnum m' = zlen objs /\ zlen (vertices m') = zlen objs * Z.of_nat vs /\
  index m' = index m /\ indexnum m' = indexnum m /\ map geom_unbound (geoms m') = map geom_unbound (geoms m) /\
  exists objs', get_vertices m' = Ok objs' /\ Forall2 (trimmed m) objs objs'.
Proof.
  intros C HC H53 H. pose proof (can_size _ _ C) as H1. pose proof (vs_small m vs C) as H2. pose proof (can_format m vs C) as H3.
  assert (map_res (vertex_numbers m) objs = Ok (map (numbers m) objs)) as EN.
  { clear H53 H. induction HC as [|v t Hv Ht IH]; [reflexivity|]. cbn [map map_res]. destruct (numbers_ok vs m v C Hv) as (-> & _). cbn [bind]. now rewrite IH. }
  assert (Forall (fun c => length c = vs) (map (numbers m) objs)) as EL.
  { rewrite Forall_map. eapply Forall_impl; [|exact HC]. intros v Hv. now apply (numbers_ok vs m v C). }
  set (nv := concat (map (numbers m) objs)) in *.
  assert (zlen nv = zlen objs * Z.of_nat vs) as LN.
  { replace (zlen objs) with (zlen (map (numbers m) objs)) by apply zlen_map. unfold nv. clear - EL. induction EL as [|v t Hv Ht IH]; [reflexivity|]. cbn [concat]. rewrite zlen_app, IH. unfold zlen. cbn [length]. lia. }
  unfold update_vertices in H. rewrite EN in H. fold nv in H. rewrite LN, (can_stride _ _ C), old_vertnum_exact in H; try (pose proof (zlen_nonneg objs); lia).
  pose proof (old_bounds_frame A _ _ _ H) as (FH & (FC1 & FC2) & FV & FI & FG). cbn in FC1, FC2, FV, FI, FG.
  assert (canonical vs m') as C'.
  { destruct FH as (_ & _ & _ & _ & _ & E1 & E2 & E3 & _). cbn in E1, E2, E3.
    assert (short_offsets m') as S. { destruct (can_short _ _ C) as (S1 & S2). split; rewrite ?E1, ?E2; auto. }
    constructor; rewrite ?E1, ?E2, ?E3, ?FV, ?FC1; try apply C; auto. lia. }
  assert (vertex_attributes m' = vertex_attributes m /\ vertformat m' = vertformat m) as (EA & EF) by (destruct FH as (_ & _ & _ & _ & _ & E1 & E2 & _); auto).
  split; [exact FH|]. split; [exact FC1|]. split; [rewrite FV; exact LN|]. repeat (split; [assumption|]).
  exists (map (view m') (blocks m' vs)). split; [apply (get_vertices_view m' vs C')|].
  assert (blocks m' vs = map (numbers m) objs) as ->.
  { unfold blocks. rewrite FV, FC1. clear - EL H1. unfold nv, zlen. rewrite Nat2Z.id. replace (length objs) with (length (map (numbers m) objs)) by apply map_length.
    clear nv. revert EL. generalize (map (numbers m) objs). clear - H1. intros l EL.
    apply nth_ext_error. intros j. rewrite nth_error_map. destruct (nth_error l j) as [c|] eqn:E.
    - assert (j < length l)%nat as Hj by (apply nth_error_Some; congruence).
      rewrite (nth_error_nth' _ 0%nat) by (rewrite seq_length; lia). rewrite seq_nth by lia. cbn [option_map Nat.add]. f_equal.
      assert (length c = vs) as Lc by (rewrite Forall_forall in EL; apply EL; eapply nth_error_In; eauto).
      apply nth_ext_error. intros k. destruct (Nat.ltb_spec k vs) as [Hk|Hk].
      + rewrite nth_block by exact Hk. rewrite (nth_concat vs) by auto. now rewrite E.
      + rewrite !(proj2 (nth_error_None _ _)); [reflexivity|lia|]. unfold block. rewrite firstn_length. lia.
    - apply nth_error_None in E. rewrite (proj2 (nth_error_None _ _)); [reflexivity|]. rewrite seq_length. lia. }
  rewrite map_map. clear - C C' HC EA EF. induction HC as [|v t Hv Ht IH]; constructor; [|exact IH]. intros u. split.
  - intros (a & Ha). destruct (has_in m a u Ha) as (Hi & <-). rewrite (view_at m' vs C') by now rewrite EA.
    destruct (numbers_ok vs m v C Hv) as (_ & _ & E). rewrite (E a Hi). f_equal. unfold part, attrib_start. now rewrite EF.
  - intros HN. apply view_none. rewrite EA. now apply no_attrib.
Qed.

(** ** rotate: agreement with the new class *)
Lemma oriented_in m a : In a (oriented_attribs m) -> exists u, In u [0; 3; 6] /\ has_attrib m u a.
Proof.
  intros H. apply filter_In in H. destruct H as (H1 & H2). unfold oriented in H2. apply andb_prop in H2. destruct H2 as (H2 & H3).
  exists (usage a). split; [|repeat split; auto]. rewrite !orb_true_iff, !Z.eqb_eq in H3. cbn. intuition.
Qed.

Lemma canonical_ready vs m : canonical vs m -> float3 m 0 -> float3 m 3 -> float3 m 6 -> rotate_ready vs m.
Proof.
  intros C H0 H3 H6. pose proof (can_parts m vs C) as P. rewrite Forall_forall in P.
  assert (forall a, In a (oriented_attribs m) -> In a (filter in_use (vertex_attributes m)) /\ vartype a = 2) as HO.
  { intros a Ha. destruct (oriented_in m a Ha) as (u & Hu & HA). destruct (has_in m a u HA) as (Hi & Eu). split; [exact Hi|].
    assert (float3 m u) as (b & Hb & Tb) by (cbn in Hu; destruct Hu as [<-|[<-|[<-|[]]]]; assumption).
    destruct (has_in m b u Hb) as (Hj & Ev). now rewrite (usage_unique vs m C a b Hi Hj) by congruence. }
  split; [apply (can_short _ _ C)|]. split.
  - apply Forall_forall. intros a Ha. destruct (HO a Ha) as (Hi & T). split; [exact T|]. destruct (P a Hi) as (_ & P2). now rewrite (float3_width a T) in P2.
  - assert (NoDup (oriented_attribs m)) as ND.
    { unfold oriented_attribs. replace (filter oriented (vertex_attributes m)) with (filter oriented (filter in_use (vertex_attributes m))).
      - apply NoDup_filter, (NoDup_of_map usage), (can_usages _ _ C).
      - clear. induction (vertex_attributes m) as [|a t IH]; [reflexivity|]. cbn [filter]. destruct (in_use a) eqn:E.
        + cbn [filter]. destruct (oriented a); rewrite IH; reflexivity.
        + unfold oriented at 2. rewrite E. cbn [andb]. exact IH. }
    assert (forall l, incl l (oriented_attribs m) -> NoDup l -> ForallOrdPairs (apart m) l) as G; [|apply G; [apply incl_refl|exact ND]].
    induction l as [|a t IH]; intros HI HN; [constructor|]. inversion HN as [|? ? Hn Ht]; subst. constructor; [|apply IH; auto; intros x Hx; apply HI; now right].
    apply Forall_forall. intros b Hb. destruct (HO a (HI a (or_introl eq_refl))) as (Ia & Ta). destruct (HO b (HI b (or_intror Hb))) as (Ib & Tb).
    unfold apart. pose proof (float3_width a Ta) as Wa. pose proof (float3_width b Tb) as Wb.
    destruct (Nat.leb_spec (attrib_start m a + 3) (attrib_start m b)); [now left|].
    destruct (Nat.leb_spec (attrib_start m b + 3) (attrib_start m a)); [now right|]. exfalso. apply Hn.
    replace a with b; [exact Hb|].
    pose proof (declared_disjoint m 0 _ vs (can_format m vs C) (can_declared _ _ C) (NoDup_of_map _ _ (can_usages _ _ C))) as D.
    destruct (Nat.leb_spec (attrib_start m a) (attrib_start m b)).
    + apply (D b a (attrib_start m b)); auto; lia.
    + apply (D b a (attrib_start m a)); auto; lia.
Qed.

Lemma turned_unique vs m (l1 l2 : list F) (f : vec3 F -> vec3 F) : canonical vs m -> rotate_ready vs m ->
  length l1 = length (vertices m) -> length l2 = length (vertices m) ->
  (forall j c, (c < vs)%nat -> Forall (outside m c) (oriented_attribs m) -> nth_error l1 (j * vs + c) = nth_error (vertices m) (j * vs + c)) ->
  (forall j c, (c < vs)%nat -> Forall (outside m c) (oriented_attribs m) -> nth_error l2 (j * vs + c) = nth_error (vertices m) (j * vs + c)) ->
  (forall j a q, In a (oriented_attribs m) -> triple (vertices m) (j * vs + attrib_start m a) q -> triple l1 (j * vs + attrib_start m a) (f q)) ->
  (forall j a q, In a (oriented_attribs m) -> triple (vertices m) (j * vs + attrib_start m a) q -> triple l2 (j * vs + attrib_start m a) (f q)) ->
  l1 = l2.
Proof.
  intros C (_ & HR & _) L1 L2 O1 O2 T1 T2. pose proof (can_size _ _ C) as Hv. apply nth_ext_error. intros i.
  destruct (Nat.ltb_spec i (length (vertices m))) as [Hi|Hi].
  2: { rewrite !(proj2 (nth_error_None _ _)); [reflexivity|lia|lia]. }
  pose proof (Nat.div_mod i vs ltac:(lia)) as E. pose proof (Nat.mod_upper_bound i vs ltac:(lia)) as Hc.
  set (j := (i / vs)%nat) in *. set (c := (i mod vs)%nat) in *. replace i with (j * vs + c)%nat by lia.
  destruct (Forall_Exists_dec (outside m c) (fun a => ltac:(unfold outside;
     destruct (lt_dec c (attrib_start m a)); [left; now left|destruct (le_dec (attrib_start m a + 3) c); [left; now right|right; lia]])) (oriented_attribs m)) as [HO|HO].
  - now rewrite O1, O2.
  - apply Exists_exists in HO. destruct HO as (a & Ha & HN). unfold outside in HN. rewrite Forall_forall in HR. destruct (HR a Ha) as (_ & HV).
    assert (j * vs + vs <= length (vertices m))%nat as HJ.
    { rewrite (vertices_length m vs C) in *. assert (j < Z.to_nat (vertnum m))%nat by nia. nia. }
    assert (exists q, triple (vertices m) (j * vs + attrib_start m a) q) as (q & Hq).
    { assert (forall k, (k < length (vertices m))%nat -> exists x, nth_error (vertices m) k = Some x) as NE.
      { intros k Hk. destruct (nth_error (vertices m) k) eqn:X; [eauto|]. apply nth_error_None in X. lia. }
      destruct (NE (j * vs + attrib_start m a)%nat) as (x & Ex); [lia|].
      destruct (NE (j * vs + attrib_start m a + 1)%nat) as (y & Ey); [lia|].
      destruct (NE (j * vs + attrib_start m a + 2)%nat) as (z & Ez); [lia|]. exists (x, y, z). repeat split; auto. }
    specialize (T1 j a q Ha Hq). specialize (T2 j a q Ha Hq). destruct (f q) as ((x, y), z).
    destruct T1 as (A1 & A2 & A3), T2 as (B1 & B2 & B3).
    assert (c = attrib_start m a \/ c = attrib_start m a + 1 \/ c = attrib_start m a + 2)%nat as [EC | [EC | EC]] by lia; rewrite EC, ?Nat.add_assoc; congruence.
Qed.

Theorem old_rotate_packed vs m r0 r1 r2 more : canonical vs m -> tiled_vertices vs m ->
  float3 m 0 -> float3 m 3 -> float3 m 6 -> every_lod lod_bounded m -> can_turn A r0 r1 r2 ->
  exists m', old_rotate A m (r0 :: r1 :: r2 :: more) = (m', None) /\ same_but_vertices_bounds m m' /\
    length (vertices m') = length (vertices m) /\
    (forall j c, (c < vs)%nat -> Forall (outside m c) (oriented_attribs m) ->
       nth_error (vertices m') (j * vs + c) = nth_error (vertices m) (j * vs + c)) /\
    (forall j a q, In a (oriented_attribs m) -> triple (vertices m) (j * vs + attrib_start m a) q ->
       triple (vertices m') (j * vs + attrib_start m a) (turn A r0 r1 r2 q)).
Proof.
  intros C T H0 H3 H6 B Ht. destruct H0 as (a & Ha & Ta), H3 as (b & Hb & Tb), H6 as (c & Hc & Tc).
  destruct (old_rotate_edit A vs m r0 r1 r2 more a b c C T Ha Ta Hb Tb Hc Tc Ht) as (nv & L & E & N1 & N2).
  destruct (edit_ok A vs m nv C T (ex_intro _ a (conj Ha Ta)) B L) as (m' & Em). exists m'. rewrite E. split; [exact Em|].
  apply bounds_frame_vertices in Em. destruct Em as (FR & EV). rewrite EV. auto.
Qed.
Theorem old_rotate_agrees vs m r0 r1 r2 more m1 : canonical vs m -> tiled_vertices vs m -> vertex_size m = Ok (Z.of_nat vs) ->
  float3 m 0 -> float3 m 3 -> float3 m 6 -> every_lod lod_bounded m -> can_turn A r0 r1 r2 ->
  rotate A m (r0 :: r1 :: r2 :: more) = (m1, None) ->
  exists m', old_rotate A m (r0 :: r1 :: r2 :: more) = (m', None) /\ same_but_bounds m1 m'.
Proof.
  intros C T S H0 H3 H6 B Ht H. pose proof (canonical_ready vs m C H0 H3 H6) as R.
  destruct (old_rotate_packed vs m r0 r1 r2 more C T H0 H3 H6 B Ht) as (m' & E & FR & L & N1 & N2). exists m'. split; [exact E|].
  destruct (rotate_packed A vs m r0 r1 r2 more S (can_size _ _ C) T R Ht) as (m1' & E1 & FR1 & L1 & M1 & M2). rewrite H in E1. injection E1 as <-.
  destruct FR as (FH & FC & FI & FG), FR1 as (GH & GC & GI & GG). repeat split; try apply FH; try apply FC.
  all: try (destruct FH as (? & ? & ? & ? & ? & ? & ? & ? & ?), GH as (? & ? & ? & ? & ? & ? & ? & ? & ?); congruence).
  all: try (destruct FC, GC; congruence).
  - apply (turned_unique vs m _ _ (turn A r0 r1 r2)); auto.
Qed.
End Objects.

(** ** translate: agreement with the new class *)
Section Translate.
Context {F : Type} (A : arith F) (R : F -> F -> Prop).
Hypothesis R_refl : forall x, R x x.
Hypothesis R_sum : forall x d, R (f_add A x d) (sum2 A x d).

Lemma Forall2_nth' {B C} (P : B -> C -> Prop) l l' : length l = length l' ->
  (forall i x y, nth_error l i = Some x -> nth_error l' i = Some y -> P x y) -> Forall2 P l l'.
Proof.
  revert l'. induction l as [|x t IH]; intros [|y t'] HL H; try discriminate; constructor.
  - exact (H 0%nat x y eq_refl eq_refl).
  - apply IH; [now injection HL|]. intros i. exact (H (S i)).
Qed.
Theorem old_translate_agrees vs (m : mesh F) off m1 : canonical vs m -> tiled_vertices vs m -> vertex_size m = Ok (Z.of_nat vs) ->
  has_positions m -> every_lod lod_bounded m -> length off = 3%nat -> translate A m off = (m1, None) ->
  exists m', old_translate A m off = (m', None) /\ same_but_vertices_bounds m1 m' /\ Forall2 R (vertices m1) (vertices m').
Proof.
  intros C T S P B Ho H. destruct (old_translate_packed A vs m off C T P B ltac:(lia)) as (m' & E & FR & L & N). exists m'.
  split; [exact E|]. destruct (translate_packed A vs m off m1 S (can_size _ _ C) T (can_short _ _ C) H) as (FR1 & L1 & N1).
  destruct FR as (FH & FC & FI & FG), FR1 as (GH & GC & GI & GG). split; [repeat split|].
  all: try (destruct FH as (? & ? & ? & ? & ? & ? & ? & ? & ?), GH as (? & ? & ? & ? & ? & ? & ? & ? & ?); congruence).
  all: try (destruct FC, GC; congruence).
  apply Forall2_nth'; [congruence|]. intros i x y Hx Hy. pose proof (can_size _ _ C) as Hv.
  pose proof (Nat.div_mod i vs ltac:(lia)) as Ei. pose proof (Nat.mod_upper_bound i vs ltac:(lia)) as Hc.
  set (j := (i / vs)%nat) in *. set (c := (i mod vs)%nat) in *. replace i with (j * vs + c)%nat in Hx, Hy by lia.
  destruct (nth_error (vertices m) (j * vs + c)) as [z|] eqn:Ez.
  2: { apply nth_error_None in Ez. assert (j * vs + c < length (vertices m'))%nat by (apply nth_error_Some; congruence). lia. }
  rewrite (N j c z Hc Ez) in Hy. rewrite (N1 j c z Hc Ez) in Hx. injection Hx as <-. injection Hy as <-.
  unfold moved, shifted. rewrite firstn_all2 by lia. destruct (position_start m <=? c)%nat; [|apply R_refl].
  destruct (nth_error off (c - position_start m)); [apply R_sum|apply R_refl].
Qed.
End Translate.

Theorem old_translate_exact vs (m : mesh R) off m1 : canonical vs m -> tiled_vertices vs m -> vertex_size m = Ok (Z.of_nat vs) ->
  has_positions m -> every_lod lod_bounded m -> length off = 3%nat -> translate exact m off = (m1, None) ->
  exists m', old_translate exact m off = (m', None) /\ same_but_bounds m1 m'.
Proof.
  intros C T S P B Ho H. destruct (old_translate_agrees exact eq (fun x => eq_refl)) with (vs := vs) (m := m) (off := off) (m1 := m1) as (m' & E & (FH & FC & FI & FG) & HV); auto.
  - intros x d. unfold sum2. cbn. ring.
  - exists m'. split; [exact E|]. repeat split; try apply FH; try apply FC; auto. symmetry. now apply Forall2_eq.
Qed.

(** In doubles, the sum from zero loses the sign of a zero and nothing else. *)
Lemma sum2_doubles L x d : f_add (f64 L) x d = sum2 (f64 L) x d \/ (zero64 (f_add (f64 L) x d) /\ zero64 (sum2 (f64 L) x d)).
Proof.
  unfold sum2. cbn [f64 f_add f_zero]. unfold b64_plus.
  assert (forall y : binary64, (forall s, y <> B754_zero 53 1024 s) ->
    Bplus 53 1024 eq_refl eq_refl binop_nan_pl64 BinarySingleNaN.mode_NE (B754_zero 53 1024 false) y = y) as E0.
  { intros [s|s|s pl e|s mx ex e] H; try reflexivity. now destruct (H s). }
  destruct x as [sx|sx|sx plx ex|sx mx ex e].
  - destruct d as [sd|sd|sd pld ed|sd md ed e]; destruct sx; try (left; reflexivity); destruct sd; try (left; reflexivity).
    all: right; split; eexists; reflexivity.
  - left. rewrite E0 by discriminate. reflexivity.
  - left. rewrite E0 by discriminate. reflexivity.
  - left. rewrite E0 by discriminate. reflexivity.
Qed.
Theorem old_translate_doubles L vs m off m1 : canonical vs m -> tiled_vertices vs m -> vertex_size m = Ok (Z.of_nat vs) ->
  has_positions m -> every_lod lod_bounded m -> length off = 3%nat -> translate (f64 L) m off = (m1, None) ->
  exists m', old_translate (f64 L) m off = (m', None) /\ same_but_vertices_bounds m1 m' /\
    Forall2 (fun x y => x = y \/ (zero64 x /\ zero64 y)) (vertices m1) (vertices m').
Proof.
  intros. apply (old_translate_agrees (f64 L) (fun x y => x = y \/ (zero64 x /\ zero64 y)) (fun x => or_introl eq_refl) (sum2_doubles L) vs m); auto.
Qed.

(** ** update_boundaries *)
Theorem old_bounds_f64 L vs m : canonical vs m -> has_positions m -> Forall (mat_vin vs m) (mats m) -> every_lod lod_bounded m ->
  every_lod (lod_coords (fun x => is_nan 53 1024 x = false) vs m) m ->
  exists m', old_update_boundaries (f64 L) m = (m', None) /\ same_but_bounds m m' /\ bounds_enlarged (f64 L) vs m m'.
Proof.
  intros C P V B G. pose proof (old_bounds_ok (f64 L) vs m C P V B) as E. eexists. split; [exact E|]. split; [exact (old_bounds_frame _ _ _ _ E)|].
  apply (old_bounds_enlarged (f64 L) vs m C P number ord (f64_ordered L)); auto.
Qed.
Theorem old_bounds_exact vs m : canonical vs m -> has_positions m -> Forall (mat_vin vs m) (mats m) -> every_lod lod_bounded m ->
  exists m', old_update_boundaries exact m = (m', None) /\ same_but_bounds m m' /\ bounds_enlarged exact vs m m'.
Proof.
  intros C P V B. pose proof (old_bounds_ok exact vs m C P V B) as E. eexists. split; [exact E|]. split; [exact (old_bounds_frame _ _ _ _ E)|].
  apply (old_bounds_enlarged exact vs m C P _ _ exact_ordered); auto.
  apply Forall_forall. intros g _. apply Forall_forall. intros l _. repeat split; try apply Forall_forall; intros; try (intros ? ?; exact I).
  repeat split; try apply Forall_forall; intros; intros ? ?; exact I.
Qed.

(** After moving or turning the vertices. *)
Lemma edit_bounds_exact vs (m : mesh R) nv m' : canonical vs m -> tiled_vertices vs m -> has_positions m -> every_lod lod_bounded m ->
  length nv = length (vertices m) -> old_update_boundaries exact (set_vertices m nv) = (m', None) -> bounds_enlarged exact vs m m'.
Proof.
  intros C T P B L E. destruct (old_bounds_exact vs (set_vertices m nv)) as (m1 & E1 & _ & HB); auto using canonical_vertices.
  - apply tiled_vin in T. eapply Forall_impl; [|exact T]. intros mt. now apply mat_vin_vertices.
  - rewrite E in E1. injection E1 as <-. exact HB.
Qed.
Theorem old_translate_bounds vs (m : mesh R) off m' : canonical vs m -> tiled_vertices vs m -> has_positions m -> every_lod lod_bounded m ->
  (3 <= length off)%nat -> old_translate exact m off = (m', None) -> bounds_enlarged exact vs m m'.
Proof.
  intros C T P B Ho E. pose proof P as (a & Ha & Ht). destruct (old_translate_edit exact vs m off a C T Ha Ht Ho) as (nv & L & E' & _).
  apply (edit_bounds_exact vs m nv); auto. congruence.
Qed.
Theorem old_rotate_bounds vs (m : mesh R) r0 r1 r2 more m' : canonical vs m -> tiled_vertices vs m ->
  float3 m 0 -> float3 m 3 -> float3 m 6 -> every_lod lod_bounded m ->
  old_rotate exact m (r0 :: r1 :: r2 :: more) = (m', None) -> bounds_enlarged exact vs m m'.
Proof.
  intros C T H0 H3 H6 B E. pose proof H0 as (a & Ha & Ta). pose proof H3 as (b & Hb & Tb). pose proof H6 as (c & Hc & Tc).
  destruct (old_rotate_edit exact vs m r0 r1 r2 more a b c C T Ha Ta Hb Tb Hc Tc (conj eq_refl (conj eq_refl eq_refl))) as (nv & L & E' & _).
  apply (edit_bounds_exact vs m nv); auto. congruence.
Qed.
