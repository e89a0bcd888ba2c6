(** translate and rotate in exact arithmetic. *)
From Coq Require Import ZArith Reals List Bool Lia Lra.
From Verif Require Import PyBase Struct Mesh Arith RArith Edit SpecEdit TravFacts VertFacts.
Import ListNotations.

(** ** Rotations of the space *)
Open Scope R_scope.
Definition vec := (R * R * R)%type.
Definition dot (u v : vec) : R :=
  let '(a, b, c) := u in let '(x, y, z) := v in a * x + b * y + c * z.
Definition vsub (u v : vec) : vec :=
  let '(a, b, c) := u in let '(x, y, z) := v in (a - x, b - y, c - z).
Definition det (u v w : vec) : R :=
  let '(a, b, c) := u in let '(x, y, z) := v in let '(p, q, r) := w in
  a * (y * r - z * q) - b * (x * r - z * p) + c * (x * q - y * p).
Definition dist3 (u v : vec) : R := sqrt (dot (vsub u v) (vsub u v)).

Lemma sc t : sin t * sin t = 1 - cos t * cos t.
Proof. pose proof (sin2_cos2 t) as H. unfold Rsqr in H. lra. Qed.

Lemma trip_eq (a b c x y z : R) : a = x -> b = y -> c = z -> (a, b, c) = (x, y, z).
Proof. congruence. Qed.

Lemma roll_dot t u v : dot (roll_by exact t u) (roll_by exact t v) = dot u v.
Proof.
  destruct u as ((a, b), c), v as ((x, y), z). simpl. pose proof (sc t) as H.
  transitivity ((a * x + b * y) * (cos t * cos t + sin t * sin t) + c * z); [ring|rewrite H; ring].
Qed.
Lemma pitch_dot t u v : dot (pitch_by exact t u) (pitch_by exact t v) = dot u v.
Proof.
  destruct u as ((a, b), c), v as ((x, y), z). simpl. pose proof (sc t) as H.
  transitivity (a * x + (b * y + c * z) * (cos t * cos t + sin t * sin t)); [ring|rewrite H; ring].
Qed.
Lemma yaw_dot t u v : dot (yaw_by exact t u) (yaw_by exact t v) = dot u v.
Proof.
  destruct u as ((a, b), c), v as ((x, y), z). simpl. pose proof (sc t) as H.
  transitivity (b * y + (a * x + c * z) * (cos t * cos t + sin t * sin t)); [ring|rewrite H; ring].
Qed.
Lemma turn_dot y p r u v : dot (turn exact y p r u) (turn exact y p r v) = dot u v.
Proof. unfold turn. now rewrite yaw_dot, pitch_dot, roll_dot. Qed.

Lemma roll_det t u v w : det (roll_by exact t u) (roll_by exact t v) (roll_by exact t w) = det u v w.
Proof.
  destruct u as ((a, b), c), v as ((x, y), z), w as ((p, q), r). simpl. pose proof (sc t) as H.
  transitivity ((a * (y * r - z * q) - b * (x * r - z * p) + c * (x * q - y * p)) * (cos t * cos t + sin t * sin t)); [ring|rewrite H; ring].
Qed.
Lemma pitch_det t u v w : det (pitch_by exact t u) (pitch_by exact t v) (pitch_by exact t w) = det u v w.
Proof.
  destruct u as ((a, b), c), v as ((x, y), z), w as ((p, q), r). simpl. pose proof (sc t) as H.
  transitivity ((a * (y * r - z * q) - b * (x * r - z * p) + c * (x * q - y * p)) * (cos t * cos t + sin t * sin t)); [ring|rewrite H; ring].
Qed.
Lemma yaw_det t u v w : det (yaw_by exact t u) (yaw_by exact t v) (yaw_by exact t w) = det u v w.
Proof.
  destruct u as ((a, b), c), v as ((x, y), z), w as ((p, q), r). simpl. pose proof (sc t) as H.
  transitivity ((a * (y * r - z * q) - b * (x * r - z * p) + c * (x * q - y * p)) * (cos t * cos t + sin t * sin t)); [ring|rewrite H; ring].
Qed.
Lemma turn_det y p r u v w : det (turn exact y p r u) (turn exact y p r v) (turn exact y p r w) = det u v w.
Proof. unfold turn. now rewrite yaw_det, pitch_det, roll_det. Qed.

Lemma roll_sub t u v : roll_by exact t (vsub u v) = vsub (roll_by exact t u) (roll_by exact t v).
Proof. destruct u as ((a, b), c), v as ((x, y), z). simpl. apply trip_eq; ring. Qed.
Lemma pitch_sub t u v : pitch_by exact t (vsub u v) = vsub (pitch_by exact t u) (pitch_by exact t v).
Proof. destruct u as ((a, b), c), v as ((x, y), z). simpl. apply trip_eq; ring. Qed.
Lemma yaw_sub t u v : yaw_by exact t (vsub u v) = vsub (yaw_by exact t u) (yaw_by exact t v).
Proof. destruct u as ((a, b), c), v as ((x, y), z). simpl. apply trip_eq; ring. Qed.
Lemma turn_sub y p r u v : turn exact y p r (vsub u v) = vsub (turn exact y p r u) (turn exact y p r v).
Proof. unfold turn. now rewrite roll_sub, pitch_sub, yaw_sub. Qed.

Lemma turn_dist y p r u v : dist3 (turn exact y p r u) (turn exact y p r v) = dist3 u v.
Proof. unfold dist3. now rewrite <- turn_sub, turn_dot. Qed.

Lemma rad0 : f_radians exact 0 = 0. Proof. simpl. unfold Rdiv. ring. Qed.
Lemma rad_add a b : f_radians exact (a + b) = f_radians exact a + f_radians exact b.
Proof. simpl. unfold Rdiv. ring. Qed.
Lemma rad_opp a : f_radians exact (- a) = - f_radians exact a.
Proof. simpl. unfold Rdiv. ring. Qed.

Lemma roll0 v : roll_by exact 0 v = v.
Proof. destruct v as ((x, y), z). simpl. rewrite cos_0, sin_0. apply trip_eq; ring. Qed.
Lemma pitch0 v : pitch_by exact 0 v = v.
Proof. destruct v as ((x, y), z). simpl. rewrite cos_0, sin_0. apply trip_eq; ring. Qed.
Lemma yaw0 v : yaw_by exact 0 v = v.
Proof. destruct v as ((x, y), z). simpl. rewrite cos_0, sin_0. apply trip_eq; ring. Qed.
Lemma roll_add a b v : roll_by exact (a + b) v = roll_by exact a (roll_by exact b v).
Proof. destruct v as ((x, y), z). simpl. rewrite cos_plus, sin_plus. apply trip_eq; ring. Qed.
Lemma pitch_add a b v : pitch_by exact (a + b) v = pitch_by exact a (pitch_by exact b v).
Proof. destruct v as ((x, y), z). simpl. rewrite cos_plus, sin_plus. apply trip_eq; ring. Qed.
Lemma yaw_add a b v : yaw_by exact (a + b) v = yaw_by exact a (yaw_by exact b v).
Proof. destruct v as ((x, y), z). simpl. rewrite cos_plus, sin_plus. apply trip_eq; ring. Qed.

Lemma turn_yaw a v : turn exact a 0 0 v = yaw_by exact (f_radians exact a) v.
Proof. unfold turn. now rewrite rad0, roll0, pitch0. Qed.
Lemma turn_pitch a v : turn exact 0 a 0 v = pitch_by exact (f_radians exact a) v.
Proof. unfold turn. now rewrite rad0, roll0, yaw0. Qed.
Lemma turn_roll a v : turn exact 0 0 a v = roll_by exact (f_radians exact a) v.
Proof. unfold turn. now rewrite rad0, yaw0, pitch0. Qed.
Lemma turn_id v : turn exact 0 0 0 v = v.
Proof. now rewrite turn_yaw, rad0, yaw0. Qed.

(** ** Meshes *)
Open Scope Z_scope.
Section Gen.
Context {F : Type} (A : arith F).
Implicit Types (m : mesh F).

Lemma same_but_trans m m1 m2 : same_but_vertices m m1 -> same_but_vertices m1 m2 -> same_but_vertices m m2.
Proof.
  unfold same_but_vertices, same_header, same_counts. intuition congruence.
Qed.
Lemma mesh_ext_vertices m m' : same_but_vertices m m' -> vertices m' = vertices m -> m' = m.
Proof.
  intros ((H1 & H2 & H3 & H4 & H5 & H6 & H7 & H8 & H9) & (H10 & H11) & H12 & H13) E.
  destruct m, m'. cbn in *. subst. reflexivity.
Qed.
Lemma mesh_ext2 m m1 m2 : same_but_vertices m m1 -> same_but_vertices m m2 -> vertices m1 = vertices m2 -> m1 = m2.
Proof.
  intros ((H1 & H2 & H3 & H4 & H5 & H6 & H7 & H8 & H9) & (H10 & H11) & H12 & H13)
         ((K1 & K2 & K3 & K4 & K5 & K6 & K7 & K8 & K9) & (K10 & K11) & K12 & K13) E.
  destruct m1, m2. cbn in *. subst. reflexivity.
Qed.

Lemma by_component (l l' : list F) vs : (0 < vs)%nat ->
  (forall j c, (c < vs)%nat -> nth_error l (j * vs + c) = nth_error l' (j * vs + c)) -> l = l'.
Proof.
  intros Hv H. apply nth_ext_error. intros i.
  pose proof (Nat.div_mod i vs ltac:(lia)) as E. rewrite E. rewrite (Nat.mul_comm vs). apply H.
  apply Nat.mod_upper_bound. lia.
Qed.

Lemma same_size m m' : same_but_vertices m m' -> vertex_size m' = vertex_size m.
Proof. intros H. unfold vertex_size. now replace (vertex_attributes m') with (vertex_attributes m) by (symmetry; apply H). Qed.
Lemma same_tiled vs m m' : same_but_vertices m m' -> length (vertices m') = length (vertices m) ->
  tiled_vertices vs m -> tiled_vertices vs m'.
Proof.
  intros (_ & _ & Hg & _) L (n & E & T). exists n. unfold zlen in *. rewrite L. unfold mats in *. rewrite Hg. auto.
Qed.
Lemma same_short m m' : same_but_vertices m m' -> short_offsets m -> short_offsets m'.
Proof.
  intros (H & _) (Hf & Ho). red in H. red.
  replace (vertformat m') with (vertformat m) by (symmetry; apply H).
  replace (vertex_attributes m') with (vertex_attributes m) by (symmetry; apply H). auto.
Qed.
Lemma same_start m m' a : same_but_vertices m m' -> attrib_start m' a = attrib_start m a.
Proof.
  intros (H & _). unfold attrib_start.
  now replace (vertformat m') with (vertformat m) by (symmetry; apply H).
Qed.
Lemma same_oriented m m' : same_but_vertices m m' -> oriented_attribs m' = oriented_attribs m.
Proof. intros (H & _). unfold oriented_attribs. now replace (vertex_attributes m') with (vertex_attributes m) by (symmetry; apply H). Qed.
Lemma same_position m m' : same_but_vertices m m' -> position_start m' = position_start m.
Proof.
  intros S. unfold position_start, position_attrib.
  replace (vertex_attributes m') with (vertex_attributes m) by (symmetry; apply S).
  destruct (find _ _); [|reflexivity]. now apply same_start.
Qed.
Lemma same_ready vs m m' : same_but_vertices m m' -> rotate_ready vs m -> rotate_ready vs m'.
Proof.
  intros S (H1 & H2 & H3). repeat split.
  - apply (same_short m m' S H1).
  - apply (same_short m m' S H1).
  - rewrite (same_oriented m m' S). eapply Forall_impl; [|exact H2]. intros a. now rewrite (same_start m m' a S).
  - rewrite (same_oriented m m' S). clear -S H3. induction H3; constructor; auto.
    eapply Forall_impl; [|exact H]. intros b. unfold apart. now rewrite !(same_start m m' _ S).
Qed.

(** Whether a vertex can be translated depends only on the lengths. *)
Lemma translate_vertex_lengths m off off' v v' w : short_offsets m -> length off' = length off -> length w = length v ->
  translate_vertex A m off v = Ok v' -> exists w', translate_vertex A m off' w = Ok w'.
Proof.
  intros Hs Lo Lv H. unfold translate_vertex in *. rewrite position_offset_spec in * by exact Hs. cbn [bind] in *.
  destruct off as [|d t].
  { destruct off'; [|discriminate]. simpl. eauto. }
  destruct off' as [|d' t']; [discriminate|].
  destruct (position_attrib m) as [a|] eqn:Ea; [|discriminate]. simpl option_map in *.
  assert (0 <= offset a / vertformat m) as Ho.
  { apply find_some in Ea. destruct Ea as (Hin & _). destruct Hs as (Hf & Hs). rewrite Forall_forall in Hs.
    specialize (Hs _ Hin). apply Z.div_pos; lia. }
  assert (0 < length (d :: t))%nat as Hp by (simpl; lia). assert (0 < length (d' :: t'))%nat as Hp' by (simpl; lia).
  pose proof (add_offset_spec A (attrib_start m a) (d :: t) 0 v Hp) as S.
  pose proof (add_offset_spec A (attrib_start m a) (d' :: t') 0 w Hp') as S'.
  replace (Z.of_nat (attrib_start m a)) with (offset a / vertformat m) in S, S' by (unfold attrib_start; lia).
  change (Z.of_nat 0) with 0 in S, S'. rewrite Lo, Lv in S'. destruct (_ <=? _)%nat.
  - destruct S' as (w' & E & _). rewrite E. eauto.
  - rewrite S in H. discriminate.
Qed.

Lemma map_res_all {B C} (f : B -> res C) l : (forall x, In x l -> exists y, f x = Ok y) -> exists r, map_res f l = Ok r.
Proof.
  induction l as [|x t IH]; intros H; simpl; [eauto|].
  destruct (H x (or_introl eq_refl)) as (y & ->). destruct IH as (r & ->); [intros; apply H; now right|]. simpl. eauto.
Qed.

Lemma translate_again vs m off m1 off' m2 : vertex_size m = Ok (Z.of_nat vs) -> (0 < vs)%nat ->
  tiled_vertices vs m -> short_offsets m -> translate A m off = (m1, None) ->
  same_but_vertices m m2 -> length (vertices m2) = length (vertices m) -> length off' = length off ->
  exists m3, translate A m2 off' = (m3, None).
Proof.
  intros Hs Hv T Ho H S L Lo. apply assign_spec in H. destruct H as (nv & H & _).
  destruct (packed_loop _ _ _ _ Hs Hv T H) as (r & _ & HF).
  assert (tiled_vertices vs m2) as T2 by (apply (same_tiled vs m m2); auto).
  unfold translate. rewrite (all_loop vs) by (auto using tiled_vin; rewrite (same_size m m2); auto).
  assert (exists r2, map_res (translate_vertex A m2 off') (flat_map (mat_vertices vs m2) (mats m2)) = Ok r2) as (r2 & ->);
    [|simpl; eauto].
  apply map_res_all. intros w Hw.
  assert (length w = vs) as Lw.
  { assert (Forall (fun v => length v = vs) (flat_map (mat_vertices vs m2) (mats m2))) as HB.
    { apply Forall_flat_map. eapply Forall_impl; [|apply tiled_vin, T2]. intros mt. apply mat_vertices_length. }
    rewrite Forall_forall in HB. auto. }
  assert (exists v v', length v = vs /\ translate_vertex A m off v = Ok v') as (v & v' & Lv & Ev).
  { destruct T2 as (n2 & E2 & T2). rewrite (tiled_blocks vs m2 n2 E2 T2) in Hw. apply in_map_iff in Hw.
    destruct Hw as (i & _ & Hi). apply in_seq in Hi.
    assert (length (vertices m) / vs = Z.to_nat n2)%nat as EN.
    { symmetry. apply (Nat.div_unique _ _ _ 0); [lia|]. unfold zlen in E2. nia. }
    rewrite EN in HF. destruct (Z.to_nat n2) as [|k] eqn:Ek; [lia|]. simpl in HF. inversion HF; subst.
    eexists. eexists. split; [|eassumption]. apply block_length. unfold zlen in E2. nia. }
  destruct (translate_vertex_lengths m off off' v v' w Ho Lo ltac:(lia) Ev) as (w' & Ew).
  exists w'. rewrite <- Ew. unfold translate_vertex. f_equal.
  destruct S as (S & _). f_equal; apply S.
Qed.

(** A rotated mesh is determined by the rotation. *)
Lemma oriented_dec m c l : Forall (outside m c) l \/ exists a, In a l /\ (attrib_start m a <= c < attrib_start m a + 3)%nat.
Proof.
  induction l as [|a l IH]; [now left|].
  destruct (Nat.ltb_spec c (attrib_start m a)); [|destruct (Nat.leb_spec (attrib_start m a + 3) c)].
  - destruct IH as [IH|(b & Hb & Hr)]; [left; constructor; auto; left; assumption|right; exists b; split; [now right|exact Hr]].
  - destruct IH as [IH|(b & Hb & Hr)]; [left; constructor; auto; right; assumption|right; exists b; split; [now right|exact Hr]].
  - right. exists a. split; [now left|lia].
Qed.

(** [m'] is [m] with its oriented triples mapped by [f]. *)
Definition triples_by (f : vec3 F -> vec3 F) vs m m' : Prop :=
  same_but_vertices m m' /\ length (vertices m') = length (vertices m) /\
  (forall j c, (c < vs)%nat -> Forall (outside m c) (oriented_attribs m) ->
     nth_error (vertices m') (j * vs + c) = nth_error (vertices m) (j * vs + c)) /\
  (forall j a q, In a (oriented_attribs m) -> triple (vertices m) (j * vs + attrib_start m a) q ->
     triple (vertices m') (j * vs + attrib_start m a) (f q)).

Lemma triple_ex (v : list F) o : (o + 3 <= length v)%nat -> exists q, triple v o q.
Proof.
  intros H.
  assert (forall i, (i < length v)%nat -> exists x, nth_error v i = Some x) as N.
  { intros i Hi. destruct (nth_error v i) eqn:E; [eauto|]. apply nth_error_None in E. lia. }
  destruct (N o ltac:(lia)) as (x & Ex). destruct (N (o + 1)%nat ltac:(lia)) as (y & Ey). destruct (N (o + 2)%nat ltac:(lia)) as (z & Ez).
  exists (x, y, z). repeat split; assumption.
Qed.

Lemma tiled_rows vs m j c : (0 < vs)%nat -> tiled_vertices vs m -> (c < vs)%nat ->
  (j * vs + c < length (vertices m))%nat -> ((j + 1) * vs <= length (vertices m))%nat.
Proof.
  intros Hv (n & E & T) Hc H. apply tiles_le in T. unfold zlen in E.
  assert (length (vertices m) = Z.to_nat n * vs)%nat as EL by nia. rewrite EL in *.
  assert (j < Z.to_nat n)%nat by nia. apply Nat.mul_le_mono_r. lia.
Qed.

Lemma triples_by_unique f vs m m1 m2 : (0 < vs)%nat -> tiled_vertices vs m ->
  Forall (fun a => (attrib_start m a + 3 <= vs)%nat) (oriented_attribs m) ->
  triples_by f vs m m1 -> triples_by f vs m m2 -> m1 = m2.
Proof.
  intros Hv T HA (S1 & L1 & O1 & T1) (S2 & L2 & O2 & T2). apply (mesh_ext2 m); auto.
  apply (by_component _ _ vs Hv). intros j c Hc.
  destruct (oriented_dec m c (oriented_attribs m)) as [Hout|(a & Ha & Hr)].
  { rewrite O1, O2 by auto. reflexivity. }
  destruct (Nat.ltb_spec (j * vs + c) (length (vertices m))) as [Hl|Hl].
  - rewrite Forall_forall in HA. specialize (HA a Ha).
    pose proof (tiled_rows vs m j c Hv T Hc Hl). destruct (triple_ex (vertices m) (j * vs + attrib_start m a)) as (q & Hq); [nia|].
    specialize (T1 j a q Ha Hq). specialize (T2 j a q Ha Hq). destruct (f q) as ((x, y), z).
    destruct T1 as (A1 & A2 & A3), T2 as (B1 & B2 & B3).
    assert (c = attrib_start m a \/ c = attrib_start m a + 1 \/ c = attrib_start m a + 2)%nat as [E|[E|E]] by lia;
      rewrite E, ?Nat.add_assoc; congruence.
  - transitivity (@None F); [|symmetry]; apply nth_error_None; lia.
Qed.

Lemma triples_by_id f vs m : (forall q, f q = q) -> triples_by f vs m m.
Proof. intros H. repeat split; auto. intros. now rewrite H. Qed.

Lemma triples_by_comp f g h vs m m1 m2 : (forall q, h q = g (f q)) ->
  triples_by f vs m m1 -> triples_by g vs m1 m2 -> triples_by h vs m m2.
Proof.
  intros Hh (S1 & L1 & O1 & T1) (S2 & L2 & O2 & T2). pose proof (same_oriented m m1 S1) as EO.
  split; [apply (same_but_trans m m1 m2); auto|]. split; [lia|]. split.
  - intros j c Hc Hout. rewrite O2; auto. rewrite EO. eapply Forall_impl; [|exact Hout].
    intros a. unfold outside. now rewrite (same_start m m1 a S1).
  - intros j a q Ha Hq. rewrite Hh. rewrite <- (same_start m m1 a S1). apply T2; [now rewrite EO|].
    rewrite (same_start m m1 a S1). apply T1; auto.
Qed.

Lemma rotate_triples vs m yaw pitch roll more :
  vertex_size m = Ok (Z.of_nat vs) -> (0 < vs)%nat -> tiled_vertices vs m -> rotate_ready vs m -> can_turn A yaw pitch roll ->
  exists m', rotate A m (yaw :: pitch :: roll :: more) = (m', None) /\ triples_by (turn A yaw pitch roll) vs m m'.
Proof.
  intros Hs Hv T Hr Ht. destruct (rotate_packed A vs m yaw pitch roll more Hs Hv T Hr Ht) as (m' & E & H).
  exists m'. split; [exact E|]. exact H.
Qed.
End Gen.

Lemma can_turn_exact a b c : can_turn exact a b c.
Proof. repeat split. Qed.
#[export] Hint Resolve can_turn_exact : core.

Section Exact.
Implicit Types (m : mesh R).

Definition vadd (a b : list R) : list R := map (fun p => (fst p + snd p)%R) (combine a b).

Lemma vadd_length a b : length b = length a -> length (vadd a b) = length a.
Proof. intros H. unfold vadd. rewrite map_length, combine_length. lia. Qed.

Lemma moved_vadd o a b c x : length b = length a ->
  moved exact o b c (moved exact o a c x) = moved exact o (vadd a b) c x.
Proof.
  intros H. unfold moved. destruct (o <=? c)%nat; [|reflexivity]. generalize (c - o)%nat as k. intros k.
  revert b H k. induction a as [|p a IH]; intros [|q b] H k; try discriminate.
  - unfold vadd. simpl. destruct k; reflexivity.
  - destruct k; simpl.
    + ring.
    + apply IH. simpl in H. lia.
Qed.

Theorem translate_compose vs m a b m1 :
  vertex_size m = Ok (Z.of_nat vs) -> (0 < vs)%nat -> tiled_vertices vs m -> short_offsets m ->
  length b = length a -> translate exact m a = (m1, None) ->
  exists m2, translate exact m1 b = (m2, None) /\ translate exact m (vadd a b) = (m2, None).
Proof.
  intros Hs Hv T Ho Hl H1. destruct (translate_packed exact vs m a m1 Hs Hv T Ho H1) as (S1 & L1 & N1).
  destruct (translate_again exact vs m a m1 b m1 Hs Hv T Ho H1 S1 L1 Hl) as (m2 & H2).
  destruct (translate_again exact vs m a m1 (vadd a b) m Hs Hv T Ho H1) as (m3 & H3); auto.
  { repeat split. } { now apply vadd_length. }
  exists m2. split; [exact H2|]. rewrite H3. f_equal.
  destruct (translate_packed exact vs m1 b m2) as (S2 & L2 & N2); auto.
  { now rewrite (same_size m m1). } { now apply (same_tiled vs m m1). } { now apply (same_short m m1). }
  destruct (translate_packed exact vs m (vadd a b) m3) as (S3 & L3 & N3); auto.
  apply (mesh_ext2 m); auto. { now apply (same_but_trans m m1). }
  apply (by_component _ _ vs Hv). intros j c Hc.
  destruct (nth_error (vertices m) (j * vs + c)) as [x|] eqn:E.
  - rewrite (N3 j c x Hc E). symmetry. rewrite (N2 j c _ Hc (N1 j c x Hc E)). f_equal.
    rewrite (same_position m m1 S1). now apply moved_vadd.
  - apply nth_error_None in E. transitivity (@None R); [|symmetry]; apply nth_error_None; lia.
Qed.

Theorem translate_undo vs m a m1 :
  vertex_size m = Ok (Z.of_nat vs) -> (0 < vs)%nat -> tiled_vertices vs m -> short_offsets m ->
  translate exact m a = (m1, None) -> translate exact m1 (map Ropp a) = (m, None).
Proof.
  intros Hs Hv T Ho H1. destruct (translate_compose vs m a (map Ropp a) m1 Hs Hv T Ho) as (m2 & H2 & H3); auto.
  { apply map_length. }
  rewrite H2. f_equal. destruct (translate_packed exact vs m _ m2 Hs Hv T Ho H3) as (S & L & N).
  apply mesh_ext_vertices; [exact S|]. apply (by_component _ _ vs Hv). intros j c Hc.
  destruct (nth_error (vertices m) (j * vs + c)) as [x|] eqn:E.
  - rewrite (N j c x Hc E). f_equal. unfold moved. destruct (_ <=? c)%nat; [|reflexivity].
    generalize (c - position_start m)%nat as k. clear. induction a as [|p a IH]; intros k; [destruct k; reflexivity|].
    destruct k; simpl; [ring|]. apply IH.
  - apply nth_error_None in E. apply nth_error_None. lia.
Qed.

Variant axis := Yaw | Pitch | Roll.
Definition about (x : axis) (t : R) : list R :=
  match x with Yaw => [t; 0%R; 0%R] | Pitch => [0%R; t; 0%R] | Roll => [0%R; 0%R; t] end.
Definition axis_turn (x : axis) (t : R) : vec -> vec :=
  (match x with Yaw => turn exact t 0 0 | Pitch => turn exact 0 t 0 | Roll => turn exact 0 0 t end)%R.
Lemma axis_turn_add x s t v : axis_turn x (s + t)%R v = axis_turn x s (axis_turn x t v).
Proof.
  destruct x; simpl; rewrite ?turn_yaw, ?turn_pitch, ?turn_roll, rad_add; [apply yaw_add|apply pitch_add|apply roll_add].
Qed.
Lemma axis_turn_0 x v : axis_turn x 0%R v = v.
Proof. destruct x; simpl; apply turn_id. Qed.

Lemma rotate_axis vs m x t :
  vertex_size m = Ok (Z.of_nat vs) -> (0 < vs)%nat -> tiled_vertices vs m -> rotate_ready vs m ->
  exists m', rotate exact m (about x t) = (m', None) /\ triples_by (axis_turn x t) vs m m'.
Proof.
  intros Hs Hv T Hr. destruct x; apply rotate_triples; auto.
Qed.

Lemma ready_inside {F} vs (m : mesh F) : rotate_ready vs m ->
  Forall (fun a => (attrib_start m a + 3 <= vs)%nat) (oriented_attribs m).
Proof. intros (_ & H & _). eapply Forall_impl; [|exact H]. intros a (_ & Ha). exact Ha. Qed.

Theorem rotate_axis_add vs m x s t m1 :
  vertex_size m = Ok (Z.of_nat vs) -> (0 < vs)%nat -> tiled_vertices vs m -> rotate_ready vs m ->
  rotate exact m (about x t) = (m1, None) ->
  exists m2, rotate exact m1 (about x s) = (m2, None) /\ rotate exact m (about x (s + t)%R) = (m2, None).
Proof.
  intros Hs Hv T Hr H1. destruct (rotate_axis vs m x t Hs Hv T Hr) as (m1' & H1' & P1).
  assert (m1' = m1) by congruence. subst m1'. pose proof P1 as (S1 & L1 & _).
  destruct (rotate_axis vs m1 x s) as (m2 & H2 & P2); auto.
  { now rewrite (same_size m m1). } { now apply (same_tiled vs m m1). } { now apply (same_ready vs m m1). }
  destruct (rotate_axis vs m x (s + t)%R Hs Hv T Hr) as (m3 & H3 & P3).
  exists m2. split; [exact H2|]. rewrite H3. f_equal.
  apply (triples_by_unique (axis_turn x (s + t)%R) vs m); auto using ready_inside.
  apply (triples_by_comp (axis_turn x t) (axis_turn x s) _ vs m m1); auto. intros q. apply axis_turn_add.
Qed.

Theorem rotate_zero vs m more :
  vertex_size m = Ok (Z.of_nat vs) -> (0 < vs)%nat -> tiled_vertices vs m -> rotate_ready vs m ->
  rotate exact m (0%R :: 0%R :: 0%R :: more) = (m, None).
Proof.
  intros Hs Hv T Hr. destruct (rotate_triples exact vs m 0%R 0%R 0%R more Hs Hv T Hr (can_turn_exact _ _ _)) as (m1 & H1 & P1).
  rewrite H1. f_equal. apply (triples_by_unique (turn exact 0%R 0%R 0%R) vs m); auto using ready_inside.
  apply triples_by_id. exact turn_id.
Qed.

Theorem rotate_axis_undo vs m x t m1 :
  vertex_size m = Ok (Z.of_nat vs) -> (0 < vs)%nat -> tiled_vertices vs m -> rotate_ready vs m ->
  rotate exact m (about x t) = (m1, None) -> rotate exact m1 (about x (- t)%R) = (m, None).
Proof.
  intros Hs Hv T Hr H1. destruct (rotate_axis_add vs m x (- t)%R t m1 Hs Hv T Hr H1) as (m2 & H2 & H3).
  rewrite H2. rewrite Rplus_opp_l in H3. rewrite <- H3.
  destruct x; simpl; apply (rotate_zero vs m []); auto.
Qed.

(** Undoing a general rotation takes three calls. *)
Theorem rotate_undo vs m y p r more m1 :
  vertex_size m = Ok (Z.of_nat vs) -> (0 < vs)%nat -> tiled_vertices vs m -> rotate_ready vs m ->
  rotate exact m (y :: p :: r :: more) = (m1, None) ->
  exists m2 m3, rotate exact m1 [(- y)%R; 0%R; 0%R] = (m2, None) /\
                rotate exact m2 [0%R; (- p)%R; 0%R] = (m3, None) /\
                rotate exact m3 [0%R; 0%R; (- r)%R] = (m, None).
Proof.
  intros Hs Hv T Hr H1. destruct (rotate_triples exact vs m y p r more Hs Hv T Hr (can_turn_exact _ _ _)) as (m1' & H1' & P1).
  assert (m1' = m1) by congruence. subst m1'. pose proof P1 as (S1 & L1 & _).
  assert (vertex_size m1 = Ok (Z.of_nat vs) /\ tiled_vertices vs m1 /\ rotate_ready vs m1) as (Hs1 & T1 & R1).
  { rewrite (same_size m m1) by exact S1. split; [exact Hs|]. split; [now apply (same_tiled vs m m1)|now apply (same_ready vs m m1)]. }
  destruct (rotate_axis vs m1 Yaw (- y)%R Hs1 Hv T1 R1) as (m2 & H2 & P2). pose proof P2 as (S2 & L2 & _).
  assert (vertex_size m2 = Ok (Z.of_nat vs) /\ tiled_vertices vs m2 /\ rotate_ready vs m2) as (Hs2 & T2 & R2).
  { rewrite (same_size m1 m2) by exact S2. split; [exact Hs1|]. split; [now apply (same_tiled vs m1 m2)|now apply (same_ready vs m1 m2)]. }
  destruct (rotate_axis vs m2 Pitch (- p)%R Hs2 Hv T2 R2) as (m3 & H3 & P3). pose proof P3 as (S3 & L3 & _).
  assert (vertex_size m3 = Ok (Z.of_nat vs) /\ tiled_vertices vs m3 /\ rotate_ready vs m3) as (Hs3 & T3 & R3).
  { rewrite (same_size m2 m3) by exact S3. split; [exact Hs2|]. split; [now apply (same_tiled vs m2 m3)|now apply (same_ready vs m2 m3)]. }
  destruct (rotate_axis vs m3 Roll (- r)%R Hs3 Hv T3 R3) as (m4 & H4 & P4).
  exists m2, m3. split; [exact H2|]. split; [exact H3|]. cbn [about] in H4. rewrite H4. f_equal.
  apply (triples_by_unique (fun q => axis_turn Roll (- r)%R (axis_turn Pitch (- p)%R (axis_turn Yaw (- y)%R (turn exact y p r q)))) vs m); auto using ready_inside.
  - apply (triples_by_comp (fun q => axis_turn Pitch (- p)%R (axis_turn Yaw (- y)%R (turn exact y p r q))) (axis_turn Roll (- r)%R) _ vs m m3); auto.
    apply (triples_by_comp (fun q => axis_turn Yaw (- y)%R (turn exact y p r q)) (axis_turn Pitch (- p)%R) _ vs m m2); auto.
    apply (triples_by_comp (turn exact y p r) (axis_turn Yaw (- y)%R) _ vs m m1); auto.
  - apply triples_by_id. intros q. cbn [axis_turn]. rewrite turn_yaw, turn_pitch, turn_roll. unfold turn.
    rewrite !rad_opp. rewrite <- yaw_add, Rplus_opp_l, yaw0.
    rewrite <- pitch_add, Rplus_opp_l, pitch0. rewrite <- roll_add, Rplus_opp_l. apply roll0.
Qed.

(** Geometry is carried along rigidly. *)
Theorem rotate_rigid vs m y p r more m' :
  vertex_size m = Ok (Z.of_nat vs) -> (0 < vs)%nat -> tiled_vertices vs m -> rotate_ready vs m ->
  rotate exact m (y :: p :: r :: more) = (m', None) ->
  exists f : vec -> vec,
    (forall u v, dist3 (f u) (f v) = dist3 u v) /\
    (forall u v, dot (f u) (f v) = dot u v) /\
    (forall u v w, det (f u) (f v) (f w) = det u v w) /\
    f (0, 0, 0)%R = (0, 0, 0)%R /\
    forall j a q, In a (oriented_attribs m) ->
      triple (vertices m) (j * vs + attrib_start m a) q ->
      triple (vertices m') (j * vs + attrib_start m a) (f q).
Proof.
  intros Hs Hv T Hr H. destruct (rotate_triples exact vs m y p r more Hs Hv T Hr (can_turn_exact _ _ _)) as (m1 & H1 & P1).
  assert (m1 = m') by congruence. subst m1. exists (turn exact y p r).
  split; [apply turn_dist|]. split; [apply turn_dot|]. split; [apply turn_det|]. split.
  - unfold turn, yaw_by, pitch_by, roll_by. simpl. apply trip_eq; ring.
  - apply P1.
Qed.
End Exact.
