(** Proofs about deprecated/mesh_read.py. *)
From Coq Require Import ZArith List Bool Lia.
From Verif Require Import PyBase Struct Mesh Arith Edit OldEdit Old SpecEdit SpecBounds SpecOldEdit DivFacts TravFacts VertFacts LayoutFacts MergeFacts BoundFacts
  CenterFacts OldEditFacts Display SpecDisplay.
Import ListNotations.
Open Scope Z_scope.
Open Scope res_scope.

Section DisplayFacts.
Context {F : Type} (vs : nat) (m : mesh F) (C : canonical vs m).
Local Notation n := (Z.to_nat (vertnum m)).

Lemma size_ok : py_int_div (vertstride m) (vertformat m) = Ok (Z.of_nat vs).
Proof.
  rewrite (can_stride _ _ C). apply int_div_exact; [pose proof (can_format m vs C); lia|pose proof (vs_small m vs C); lia].
Qed.

Lemma attrib_facts_ok a : In a (vertex_attributes m) -> vartype a <> 3 ->
  exists w, attrib_facts m a = Ok (Z.of_nat (attrib_start m a), w) /\ old_type_len (vartype a) = Ok w.
Proof.
  intros H H3. unfold attrib_facts. pose proof (can_short _ _ C) as (Hf & Ho). pose proof (can_known _ _ C) as K.
  rewrite Forall_forall in Ho, K. rewrite (attrib_start_div m a Hf (Ho a H)). cbn [bind].
  destruct (old_known_ok a (K a H)) as (H1 & ->). rewrite H1. cbn [negb].
  assert (exists w, old_type_len (vartype a) = Ok w) as (w & ->); [|exists w; now split].
  destruct (K a H) as (T & _). cbn in T.
  repeat match goal with H : _ \/ _ |- _ => destruct H as [H|H] end; try contradiction; rewrite <- T in *; cbn; eauto. now destruct H3.
Qed.

Lemma attrib_rows_ok o w : forall l, attrib_rows m o w l =
  (map (fun i => AttribLine i (o + i * Z.of_nat vs)
     (py_slice (vertices m) (o + i * Z.of_nat vs) (o + i * Z.of_nat vs + w))) l, None).
Proof. induction l as [|i t IH]; [reflexivity|]. cbn [attrib_rows]. rewrite size_ok, IH. reflexivity. Qed.

Definition row o w (i : nat) : line F :=
  AttribLine (Z.of_nat i) (Z.of_nat (i * vs + o))
    (py_slice (vertices m) (Z.of_nat (i * vs + o)) (Z.of_nat (i * vs + o) + w)).
Definition section_of (a : vertattrib) : list (line F) :=
  AttribHead (usage a) (vartype a) ::
  map (row (attrib_start m a) (match old_type_len (vartype a) with Ok w => w | Raise _ => 0 end)) (seq 0 n).
Lemma section_length a : length (section_of a) = S n.
Proof. cbn. now rewrite map_length, seq_length. Qed.

Lemma sections_ok : forall l, incl l (vertex_attributes m) -> Forall (fun a => vartype a <> 3) l ->
  attrib_sections m l = (flat_map section_of l, None).
Proof.
  induction l as [|a t IH]; intros Hi H3; [reflexivity|]. cbn [attrib_sections flat_map].
  destruct (attrib_facts_ok a (Hi a (or_introl eq_refl)) (Forall_inv H3)) as (w & -> & Ew).
  rewrite attrib_rows_ok. rewrite IH; [|intros x Hx; apply Hi; now right|exact (Forall_inv_tail H3)].
  unfold section_of at 2. rewrite Ew. f_equal. cbn [app]. f_equal. f_equal. unfold zrange. rewrite map_map.
  apply map_ext. intros i. unfold row. f_equal; [lia|]. f_equal; lia.
Qed.

Lemma flat_nth {A B} (f : A -> list B) k : (forall a, length (f a) = k) -> forall l j i a, nth_error l j = Some a -> (i < k)%nat ->
  nth_error (flat_map f l) (j * k + i) = nth_error (f a) i.
Proof.
  intros Hf. induction l as [|b t IH]; intros j i a Hj Hi; [destruct j; discriminate|]. cbn [flat_map]. destruct j as [|j].
  - injection Hj as ->. cbn [Nat.mul Nat.add]. apply nth_error_app1. now rewrite Hf.
  - rewrite nth_error_app2 by (rewrite Hf; lia). rewrite Hf. rewrite <- (IH j i a Hj Hi). f_equal. lia.
Qed.
Lemma flat_len {A B} (f : A -> list B) k : (forall a, length (f a) = k) -> forall l, length (flat_map f l) = (length l * k)%nat.
Proof. intros Hf. induction l as [|b t IH]; [reflexivity|]. cbn. rewrite app_length, Hf, IH. lia. Qed.

(** ** Corners *)
Definition corner (v : Z) : line F :=
  CornerLine v (py_slice (vertices m) (v * Z.of_nat vs) (v * Z.of_nat vs + 3)).
Lemma corner_rows_ok : forall ix k, 0 <= k < 3 -> exists rows, corner_rows m k ix = (rows, None) /\
  length rows = (length ix + (length ix + Z.to_nat k) / 3)%nat /\
  (forall j v, nth_error ix j = Some v -> nth_error rows (j + (j + Z.to_nat k) / 3) = Some (corner v)) /\
  (forall j, (j + 1 <= length ix)%nat -> ((j + 1 + Z.to_nat k) mod 3 = 0)%nat ->
     nth_error rows (j + 1 + (j + Z.to_nat k) / 3) = Some Blank).
Proof.
  induction ix as [|v t IH]; intros k Hk.
  { exists []. cbn [corner_rows length]. repeat split; [rewrite Nat.div_small by lia; reflexivity| |]; intros j *.
    - destruct j; discriminate.
    - lia. }
  cbn [corner_rows]. rewrite size_ok. fold (corner v). destruct (k + 1 =? 3) eqn:E.
  - apply Z.eqb_eq in E. destruct (IH 0 ltac:(lia)) as (rows & -> & Hl & Hc & Hb). replace k with 2 in * by lia.
    change (Z.to_nat 0) with 0%nat in *. change (Z.to_nat 2) with 2%nat.
    eexists. split; [reflexivity|].
    assert (forall x, ((x + 1 + 2) / 3 = x / 3 + 1)%nat) as D.
    { intros x. replace (x + 1 + 2)%nat with (x + 1 * 3)%nat by lia. now rewrite Nat.div_add by lia. }
    repeat split.
    + cbn [length]. rewrite Hl, Nat.add_0_r. replace (S (length t) + 2)%nat with (length t + 1 + 2)%nat by lia. rewrite D. lia.
    + intros [|j] w Hj; [injection Hj as ->; reflexivity|]. cbn [nth_error] in Hj. specialize (Hc j w Hj). rewrite Nat.add_0_r in Hc.
      replace (S j + 2)%nat with (j + 1 + 2)%nat by lia. rewrite D. rewrite <- Hc.
      replace (S j + (j / 3 + 1))%nat with (S (S (j + j / 3))) by lia. reflexivity.
    + intros [|j] Hj Hm; [reflexivity|]. specialize (Hb j). cbn [length] in Hj. rewrite !Nat.add_0_r in Hb.
      replace (S j + 2)%nat with (j + 1 + 2)%nat by lia. rewrite D. rewrite <- Hb; [|lia|].
      * replace (S j + 1 + (j / 3 + 1))%nat with (S (S (j + 1 + j / 3))) by lia. reflexivity.
      * replace (S j + 1 + 2)%nat with (j + 1 + 1 * 3)%nat in Hm by lia. now rewrite Nat.mod_add in Hm by lia.
  - apply Z.eqb_neq in E. destruct (IH (k + 1) ltac:(lia)) as (rows & -> & Hl & Hc & Hb).
    replace (Z.to_nat (k + 1)) with (S (Z.to_nat k)) in * by lia. set (q := Z.to_nat k) in *. assert (q < 2)%nat as Hq by (unfold q; lia).
    eexists. split; [reflexivity|]. repeat split.
    + cbn [length]. rewrite Hl. replace (S (length t) + q)%nat with (length t + S q)%nat by lia. lia.
    + intros [|j] w Hj; [injection Hj as ->; cbn [Nat.add]; rewrite Nat.div_small by lia; reflexivity|]. cbn [nth_error] in Hj.
      rewrite <- (Hc j w Hj). replace (S j + q)%nat with (j + S q)%nat by lia. reflexivity.
    + intros [|j] Hj Hm.
      { exfalso. rewrite Nat.mod_small in Hm by lia. lia. }
      cbn [length] in Hj. rewrite <- (Hb j); [|lia|].
      * replace (S j + q)%nat with (j + S q)%nat by lia. reflexivity.
      * replace (j + 1 + S q)%nat with (S j + 1 + q)%nat by lia. exact Hm.
Qed.

Lemma corner_data v : 0 <= v < vertnum m -> (3 <= vs)%nat ->
  corner v = CornerLine v (firstn 3 (block vs (vertices m) (Z.to_nat v))).
Proof.
  intros Hv H3. unfold corner. f_equal. pose proof (vertices_length m vs C) as L. unfold block.
  rewrite py_slice_in by (unfold zlen; nia). rewrite firstn_firstn. f_equal; [lia|]. f_equal. nia.
Qed.
Lemma row_data a w i : In (vartype a, w) old_widths -> (attrib_start m a + w <= vs)%nat -> (i < n)%nat ->
  row (attrib_start m a) (Z.of_nat w) i =
  AttribLine (Z.of_nat i) (Z.of_nat (i * vs + attrib_start m a)) (firstn w (skipn (attrib_start m a) (block vs (vertices m) i))).
Proof.
  intros Hw Ha Hi. unfold row. f_equal. pose proof (vertices_length m vs C) as L. unfold block.
  rewrite py_slice_in by (unfold zlen; nia). rewrite skipn_firstn_comm', firstn_firstn, skipn_skipn'.
  f_equal; [lia|]. f_equal. lia.
Qed.

Theorem display_ok ix : Forall (fun a => vartype a <> 3) (vertex_attributes m) -> index m = Tuple ix ->
  exists ls, display_mesh_data m = (ls, None) /\ mesh_shown vs m ix ls.
Proof.
  intros H3 HI. unfold display_mesh_data. rewrite (sections_ok _ (incl_refl _) H3), HI.
  destruct (corner_rows_ok ix 0 ltac:(lia)) as (rows & -> & Hl & Hc & Hb). eexists. split; [reflexivity|].
  change (Z.to_nat 0) with 0%nat in *. rewrite Nat.add_0_r in Hl.
  assert (length (flat_map section_of (vertex_attributes m)) = (length (vertex_attributes m) * S n)%nat) as HL
    by (apply flat_len, section_length).
  assert (forall k, nth_error (flat_map section_of (vertex_attributes m) ++ IndexHead :: rows) (length (vertex_attributes m) * S n + k)
            = nth_error (IndexHead :: rows) k) as HR.
  { intros k. rewrite nth_error_app2 by lia. f_equal. lia. }
  constructor.
  - rewrite app_length, HL. cbn [length]. lia.
  - intros j a Hj. assert (j < length (vertex_attributes m))%nat by (apply nth_error_Some; congruence).
    rewrite nth_error_app1 by nia. rewrite <- (Nat.add_0_r (j * S n)). rewrite (flat_nth _ _ section_length _ _ _ _ Hj) by lia. reflexivity.
  - intros j a i Hj Hi. assert (j < length (vertex_attributes m))%nat by (apply nth_error_Some; congruence).
    assert (In a (vertex_attributes m)) as Ha by (eapply nth_error_In; eauto).
    eexists. split.
    + rewrite nth_error_app1 by nia. replace (j * S n + 1 + i)%nat with (j * S n + (S i))%nat by lia.
      rewrite (flat_nth _ _ section_length _ _ _ _ Hj) by lia. unfold section_of. cbn [nth_error].
      apply map_nth_error. rewrite nth_error_nth' with (d := 0%nat) by (rewrite seq_length; lia). now rewrite seq_nth by lia.
    + split.
      * intros Hu. assert (In a (filter in_use (vertex_attributes m))) as Hf by (apply filter_In; now split).
        pose proof (can_parts m vs C) as P. rewrite Forall_forall in P. destruct (P a Hf) as (P1 & P2).
        destruct (old_widths_len a _ P1) as (-> & _ & _). eexists. split; [exact P1|].
        apply row_data; [exact P1|exact P2|lia].
      * intros E. rewrite E. cbn [old_type_len Z.eqb]. unfold row, py_slice. rewrite Z.add_0_r, Z.sub_diag. reflexivity.
  - rewrite <- (Nat.add_0_r (_ * _)), HR. reflexivity.
  - intros k v Hk Hv H3'. replace (length (vertex_attributes m) * S n + 1 + (k + k / 3))%nat
      with (length (vertex_attributes m) * S n + S (k + k / 3))%nat by lia.
    rewrite HR. cbn [nth_error]. specialize (Hc k v Hk). rewrite Nat.add_0_r in Hc. rewrite Hc. f_equal. now apply corner_data.
  - intros t Ht. replace (length (vertex_attributes m) * S n + 1 + (4 * t + 3))%nat
      with (length (vertex_attributes m) * S n + S (4 * t + 3))%nat by lia.
    rewrite HR. cbn [nth_error]. specialize (Hb (3 * t + 2)%nat ltac:(lia)).
    rewrite !Nat.add_0_r in Hb. rewrite <- Hb.
    + f_equal. assert ((3 * t + 2) / 3 = t)%nat as -> by (symmetry; apply (Nat.div_unique _ 3 t 2); lia). lia.
    + replace (3 * t + 2 + 1)%nat with ((t + 1) * 3)%nat by lia. apply Nat.mod_mul. lia.
Qed.

(** With positions first, the corner lines show the positions. *)
Lemma corner_position a v : has_attrib m 0 a -> vartype a = 2 -> attrib_start m a = 0%nat ->
  field_of vs m (Z.to_nat v) 0 (Some (firstn 3 (block vs (vertices m) (Z.to_nat v)))).
Proof.
  intros H1 H2 H3. left. exists a, 3%nat. split; [exact H1|]. split; [rewrite H2; cbn; tauto|]. now rewrite H3.
Qed.
Lemma position_wide a : has_attrib m 0 a -> vartype a = 2 -> (3 <= vs)%nat.
Proof.
  intros (H1 & H2 & _) H3. pose proof (can_parts m vs C) as P. rewrite Forall_forall in P.
  destruct (P a) as (_ & H); [apply filter_In; now split|]. rewrite float3_width in H by exact H3. lia.
Qed.
Theorem corners_positions ix ls a k v : display_mesh_data m = (ls, None) -> index m = Tuple ix ->
  has_attrib m 0 a -> vartype a = 2 -> attrib_start m a = 0%nat -> nth_error ix k = Some v -> 0 <= v < vertnum m ->
  exists q, field_of vs m (Z.to_nat v) 0 (Some q) /\ In (CornerLine v q) ls.
Proof.
  intros H HI H1 H2 H3 Hk Hv. pose proof (position_wide a H1 H2) as W.
  unfold display_mesh_data in H. destruct (attrib_sections m (vertex_attributes m)) as (s, [e|]); [discriminate|]. rewrite HI in H.
  destruct (corner_rows_ok ix 0 ltac:(lia)) as (rows & E & _ & Hc & _). rewrite E in H. injection H as <-.
  eexists. split; [now apply (corner_position a)|]. apply in_or_app. right. right. rewrite <- corner_data by assumption.
  apply (nth_error_In _ _ (Hc k v Hk)).
Qed.
End DisplayFacts.

(** A FLOAT4 attribute stops the listing. *)
Theorem display_float4 {F} vs (m : mesh F) A a B : canonical vs m -> vertex_attributes m = A ++ a :: B -> vartype a = 3 ->
  Forall (fun b => vartype b <> 3) A ->
  exists ls, display_mesh_data m = (ls, Some EKey) /\ length ls = (length A * S (Z.to_nat (vertnum m)))%nat.
Proof.
  intros C E H3 HA. assert (forall l, incl l A -> attrib_sections m (l ++ a :: B) = (flat_map (section_of vs m) l, Some EKey)) as G.
  { induction l as [|b t IH]; intros Hi; cbn [app attrib_sections flat_map].
    - unfold attrib_facts. assert (In a (vertex_attributes m)) as Ha by (rewrite E; apply in_elt).
      pose proof (can_short _ _ C) as (Hf & Ho). pose proof (can_known _ _ C) as K. rewrite Forall_forall in Ho, K.
      rewrite (attrib_start_div m a Hf (Ho a Ha)). cbn [bind]. destruct (old_known_ok a (K a Ha)) as (-> & ->). rewrite H3. reflexivity.
    - assert (In b A) as Hb by (apply Hi; now left). rewrite Forall_forall in HA.
      destruct (attrib_facts_ok vs m C b) as (w & -> & Ew); [rewrite E; apply in_or_app; now left|now apply HA|].
      rewrite (attrib_rows_ok vs m C), IH by (intros x Hx; apply Hi; now right). unfold section_of at 2. rewrite Ew.
      f_equal. cbn [app]. f_equal. f_equal. unfold zrange. rewrite map_map.
      apply map_ext. intros i. unfold row. f_equal; [lia|]. f_equal; lia. }
  exists (flat_map (section_of vs m) A). unfold display_mesh_data. rewrite E, (G A (incl_refl _)). split; [reflexivity|].
  apply flat_len, section_length.
Qed.

(** ** display_material_data *)
Lemma material_of_at {F} (m : mesh F) g l k mt : material_of m g l k = Ok mt <-> mat_at m g l k mt.
Proof.
  unfold material_of, mat_at, lod_at. split.
  - intros H. destruct (py_get (geoms m) g) as [ge|] eqn:E1; [|discriminate]. cbn [bind] in H.
    destruct (py_get (lods ge) l) as [lo|] eqn:E2; [|discriminate]. cbn [bind] in H.
    apply py_get_picks in E1, E2, H. destruct E1 as (a & A1 & A2), E2 as (b & B1 & B2), H as (c & C1 & C2).
    exists lo, c. split; [|now split]. exists a, b, ge. exact (conj A1 (conj A2 (conj B1 B2))).
  - intros (lo & i & (a & b & ge & A1 & A2 & B1 & B2) & C1 & C2).
    assert (py_get (geoms m) g = Ok ge) as -> by (apply py_get_picks; eauto). cbn [bind].
    assert (py_get (lods ge) l = Ok lo) as -> by (apply py_get_picks; eauto). cbn [bind]. apply py_get_picks. eauto.
Qed.
Lemma material_of_none {F} (m : mesh F) g l k : (forall mt, ~ mat_at m g l k mt) -> material_of m g l k = Raise EIndex.
Proof.
  intros H. unfold material_of. destruct (py_get_cases (geoms m) g) as [(ge & E1)|(E1 & _)]; rewrite E1; [|reflexivity]. cbn [bind].
  destruct (py_get_cases (lods ge) l) as [(lo & E2)|(E2 & _)]; rewrite E2; [|reflexivity]. cbn [bind].
  destruct (py_get_cases (materials lo) k) as [(mt & E3)|(E3 & _)]; [|exact E3].
  destruct (H mt). apply material_of_at. unfold material_of. rewrite E1. cbn [bind]. rewrite E2. exact E3.
Qed.

Lemma maps_nth (l : list bytes) : forall b i s, nth_error l i = Some s ->
  nth_error (map (fun im => MMap (Z.of_nat (fst im)) (snd im)) (combine (seq b (length l)) l)) i = Some (MMap (Z.of_nat (b + i)) s).
Proof.
  induction l as [|x t IH]; intros b i s H; [destruct i; discriminate|]. cbn [length seq combine map]. destruct i as [|i].
  - injection H as ->. cbn [nth_error fst snd]. now rewrite Nat.add_0_r.
  - cbn [nth_error] in *. rewrite (IH (S b) i s H). do 2 f_equal. lia.
Qed.
Theorem material_ok {F} (m : mesh F) g l k mt : mat_at m g l k mt ->
  exists ls, display_material_data m g l k = (ls, None) /\ material_shown g mt ls.
Proof.
  intros H. apply material_of_at in H. unfold display_material_data. rewrite H. eexists. split; [reflexivity|].
  set (ml := map _ (combine _ _)). assert (length ml = length (maps mt)) as L.
  { unfold ml. rewrite map_length, combine_length, seq_length. lia. }
  constructor.
  - cbn [app length]. rewrite app_length. cbn [length]. lia.
  - reflexivity.
  - intros i s Hi. assert (i < length (maps mt))%nat by (apply nth_error_Some; congruence). rewrite nth_error_app2 by (cbn; lia).
    cbn [length]. rewrite nth_error_app1 by lia. replace (5 + i - 5)%nat with i by lia. exact (maps_nth _ 0 i s Hi).
  - rewrite app_assoc, skipn_app, skipn_all2 by (rewrite app_length; cbn [length]; lia).
    rewrite app_length, L. cbn [length]. rewrite Nat.sub_diag. reflexivity.
Qed.
Theorem material_missing {F} (m : mesh F) g l k : (forall mt, ~ mat_at m g l k mt) ->
  display_material_data m g l k = ([MGeom g], Some EIndex).
Proof. intros H. unfold display_material_data. now rewrite material_of_none. Qed.
Theorem main_ok {F} p (uf : Z -> F) file m : old_load p uf skinned_kind file = Ok m ->
  (forall a b, mat_at m 17 0 0 a -> mat_at m 18 0 0 b -> exists la lb, mesh_read_main p uf file = Ok (la ++ lb, None) /\
     material_shown 17 a la /\ material_shown 18 b lb) /\
  ((forall a b, ~ (mat_at m 17 0 0 a /\ mat_at m 18 0 0 b)) -> exists ls, mesh_read_main p uf file = Ok (ls, Some EIndex)).
Proof.
  intros H. unfold mesh_read_main. unfold skinned_kind in H. rewrite H. cbn [bind]. split.
  - intros a b Ha Hb. destruct (material_ok m _ _ _ _ Ha) as (la & -> & La). destruct (material_ok m _ _ _ _ Hb) as (lb & -> & Lb).
    exists la, lb. split; [reflexivity|]. split; assumption.
  - intros N. destruct (material_of m 17 0 0) as [a|] eqn:Ea.
    + apply material_of_at in Ea. destruct (material_ok m _ _ _ _ Ea) as (la & -> & _). rewrite material_missing; [eauto|].
      intros b Hb. apply (N a b). now split.
    + rewrite material_missing; [eauto|]. intros a Ha. apply material_of_at in Ha. congruence.
Qed.
