(** Proofs about the surface that a mesh describes. *)
From Coq Require Import ZArith List Bool Lia Reals Lra Permutation Relations.
From Verif Require Import PyBase Struct Mesh Arith RArith Edit Spec SpecEdit SpecBounds SpecVec SpecSurface
  TravFacts VertFacts LayoutFacts MergeFacts ReorderFacts BoundFacts CenterFacts HistFacts VMapFacts CommFacts RFacts.
Import ListNotations.
Open Scope Z_scope.

(** ** Triangles *)
Lemma triples_map {A B} (f : A -> B) : forall n l, (length l <= n)%nat -> triples (map f l) = map (on3 f) (triples l).
Proof.
  induction n as [|n IH]; intros l Hl; [destruct l; [reflexivity|cbn in Hl; lia]|].
  destruct l as [|a [|b [|c t]]]; try reflexivity. cbn [map triples]. f_equal. apply IH. cbn in Hl. lia.
Qed.
Lemma triples_app {A} : forall n (l k : list A), (length l <= n)%nat -> (length l mod 3 = 0)%nat -> triples (l ++ k) = triples l ++ triples k.
Proof.
  induction n as [|n IH]; intros l k Hl H3; [destruct l; [reflexivity|cbn in Hl; lia]|].
  destruct l as [|a [|b [|c t]]]; [reflexivity|discriminate|discriminate|]. cbn [app triples]. f_equal. apply IH; [cbn in Hl; lia|].
  cbn [length] in H3. replace (S (S (S (length t)))) with (length t + 1 * 3)%nat in H3 by lia. rewrite Nat.mod_add in H3 by lia. exact H3.
Qed.
Lemma in_triples {A} : forall n (l : list A) a b c, (length l <= n)%nat -> In (a, b, c) (triples l) -> In a l /\ In b l /\ In c l.
Proof.
  induction n as [|n IH]; intros l a b c Hl H; [destruct l; [contradiction|cbn in Hl; lia]|].
  destruct l as [|x [|y [|z t]]]; try contradiction. cbn [triples In] in H. destruct H as [E|H].
  - injection E as <- <- <-. cbn. auto 10.
  - destruct (IH t a b c) as (H1 & H2 & H3); [cbn in Hl; lia|exact H|]. cbn. auto 10.
Qed.
Lemma edges_map {A B} (f : A -> B) (l : list (A * A * A)) : edges (map (on3 f) l) = map (fun e => (f (fst e), f (snd e))) (edges l).
Proof. induction l as [|((a, b), c) t IH]; [reflexivity|]. unfold edges in *. cbn [map flat_map app fst snd on3]. now rewrite IH. Qed.
Lemma edges_app {A} (l k : list (A * A * A)) : edges (l ++ k) = edges l ++ edges k.
Proof. apply flat_map_app. Qed.
Lemma edges_perm {A} (l k : list (A * A * A)) : Permutation l k -> Permutation (edges l) (edges k).
Proof. intros H. now apply Permutation_flat_map. Qed.
Lemma closed_perm {A} (l k : list (A * A * A)) : Permutation l k -> closed_surface l -> closed_surface k.
Proof.
  intros P (H1 & H2). pose proof (edges_perm _ _ P) as E. split; [now apply (Permutation_NoDup E)|].
  intros a b H. apply (Permutation_in _ E), H2, (Permutation_in _ (Permutation_sym E)), H.
Qed.
Lemma closed_map {A B} (f : A -> B) (l : list (A * A * A)) : (forall x y, f x = f y -> x = y) -> closed_surface l -> closed_surface (map (on3 f) l).
Proof.
  intros Hf (H1 & H2). unfold closed_surface. rewrite edges_map. split.
  - apply FinFun.Injective_map_NoDup; [|exact H1]. intros (a, b) (c, d) E. injection E as E1 E2. now rewrite (Hf _ _ E1), (Hf _ _ E2).
  - intros a b H. apply in_map_iff in H. destruct H as ((x, y) & E & H). injection E as <- <-.
    apply in_map_iff. exists (y, x). split; [reflexivity|]. now apply H2.
Qed.
Lemma closed_unmap {A B} (f : A -> B) (l : list (A * A * A)) : (forall x y, f x = f y -> x = y) -> closed_surface (map (on3 f) l) -> closed_surface l.
Proof.
  intros Hf (H1 & H2). rewrite edges_map in *. split; [now apply NoDup_map_inv in H1|].
  intros a b H. specialize (H2 (f a) (f b)). rewrite !in_map_iff in H2. destruct H2 as ((x, y) & E & H3); [now exists (a, b)|].
  injection E as E1 E2. apply Hf in E1, E2. now subst.
Qed.
Lemma closed_app {A} (l k : list (A * A * A)) : closed_surface l -> closed_surface k ->
  (forall e, In e (edges l) -> ~ In e (edges k)) -> closed_surface (l ++ k).
Proof.
  intros (H1 & H2) (K1 & K2) D. unfold closed_surface. rewrite edges_app. split.
  - revert D. induction H1 as [|x t N H IH]; intros D; [exact K1|].
    assert (forall p : list (A * A), NoDup p -> forall q, NoDup q -> (forall e, In e p -> ~ In e q) -> NoDup (p ++ q)) as G.
    { clear. induction 1 as [|x p N Hp IH]; intros q Hq D; [exact Hq|]. cbn. constructor.
      - rewrite in_app_iff. intros [X|X]; [now apply N|]. apply (D x); [now left|exact X].
      - apply IH; [exact Hq|]. intros e He. apply D. now right. }
    apply (G (x :: t)); [now constructor|exact K1|exact D].
  - intros a b. rewrite !in_app_iff. intros [H|H]; [left; now apply H2|right; now apply K2].
Qed.

(** ** Vectors *)
Ltac vecs := repeat match goal with v : vec3 R |- _ => destruct v as ((?, ?), ?) end.
Ltac algebra := vecs; unfold triple_product, scalar_product, vector_product, plus, minus, SpecBounds.axis in *; cbv beta iota in *.
Lemma vec_ext (a b c x y z : R) : a = x -> b = y -> c = z -> (a, b, c) = (x, y, z).
Proof. congruence. Qed.
Lemma gram u v : scalar_product (vector_product u v) (vector_product u v) =
  (scalar_product u u * scalar_product v v - scalar_product u v * scalar_product u v)%R.
Proof. algebra. ring. Qed.
Lemma minus_shift u v d : minus (plus u d) (plus v d) = minus u v.
Proof. algebra. apply vec_ext; ring. Qed.
Lemma plus_inj u v d : plus u d = plus v d -> u = v.
Proof. algebra. intros [= H1 H2 H3]. apply vec_ext; lra. Qed.
Lemma minus_zero u v : scalar_product (minus u v) (minus u v) = 0%R -> u = v.
Proof.
  algebra. intros H. match type of H with (?a * ?a + ?b * ?b + ?c * ?c)%R = _ =>
    pose proof (Rle_0_sqr a) as A1; pose proof (Rle_0_sqr b) as A2; pose proof (Rle_0_sqr c) as A3; unfold Rsqr in *;
    assert (a = 0)%R by (apply Rsqr_0_uniq; unfold Rsqr; lra); assert (b = 0)%R by (apply Rsqr_0_uniq; unfold Rsqr; lra);
    assert (c = 0)%R by (apply Rsqr_0_uniq; unfold Rsqr; lra) end. apply vec_ext; lra.
Qed.
Lemma rot_inj g : rotation g -> forall u v, g u = g v -> u = v.
Proof. intros [H1 H2 H3] u v E. apply minus_zero. rewrite <- H2, H1, E. generalize (g v) as w. intros w. algebra. ring. Qed.
Lemma rot_zero g : rotation g -> g (0, 0, 0)%R = (0, 0, 0)%R.
Proof.
  intros [H1 H2 H3]. pose proof (H1 (0, 0, 0) (0, 0, 0))%R as E. replace (minus (0, 0, 0) (0, 0, 0))%R with (0, 0, 0)%R in E by (cbn; apply vec_ext; ring).
  rewrite E. destruct (g (0, 0, 0)%R) as ((x, y), z). cbn. apply vec_ext; ring.
Qed.
Lemma rot_plus g : rotation g -> forall u v, g (plus u v) = plus (g u) (g v).
Proof.
  intros H u v. pose proof (rot_minus g H (plus u v) v) as E. replace (minus (plus u v) v) with u in E by (algebra; apply vec_ext; ring).
  rewrite E. generalize (g (plus u v)) as a, (g v) as b. intros a b. clear. algebra. apply vec_ext; ring.
Qed.
Lemma rot_id : rotation (fun v => v).
Proof. now constructor. Qed.
Lemma rot_comp g h : rotation g -> rotation h -> rotation (fun v => h (g v)).
Proof.
  intros [A1 A2 A3] [B1 B2 B3]. constructor; intros; [now rewrite A1, B1|now rewrite B2, A2|now rewrite B3, A3].
Qed.
Lemma turn_rotation y p r : rotation (turn exact y p r).
Proof.
  constructor.
  - intros u v. pose proof (turn_sub y p r u v) as H. unfold vsub in H. unfold minus. exact H.
  - intros u v. pose proof (turn_dot y p r u v) as H. revert H. generalize (turn exact y p r u) (turn exact y p r v). intros. algebra. exact H.
  - intros u v w. pose proof (turn_det y p r u v w) as H. revert H. generalize (turn exact y p r u) (turn exact y p r v) (turn exact y p r w).
    intros. algebra. unfold det in H. lra.
Qed.

(** ** Measures *)
Lemma sumR_perm l k : Permutation l k -> sumR l = sumR k.
Proof. unfold sumR. induction 1; cbn; lra. Qed.
Lemma sumR_app l k : sumR (l ++ k) = (sumR l + sumR k)%R.
Proof. unfold sumR. induction l; cbn; lra. Qed.
Lemma area_perm l k : Permutation l k -> area l = area k.
Proof. intros H. apply sumR_perm. now apply Permutation_map. Qed.
Lemma volume_perm l k : Permutation l k -> volume l = volume k.
Proof. intros H. apply sumR_perm. now apply Permutation_map. Qed.
Lemma area_app l k : area (l ++ k) = (area l + area k)%R.
Proof. unfold area. now rewrite map_app, sumR_app. Qed.
Lemma volume_app l k : volume (l ++ k) = (volume l + volume k)%R.
Proof. unfold volume. now rewrite map_app, sumR_app. Qed.

Section Rigid.
Context (g : vec3 R -> vec3 R) (d : vec3 R) (HG : rotation g).
Let f v := plus (g v) d.

Lemma rigid_inj u v : f u = f v -> u = v.
Proof. intros H. apply plus_inj in H. now apply (rot_inj g HG). Qed.
Lemma rigid_minus u v : minus (f u) (f v) = g (minus u v).
Proof. unfold f. rewrite minus_shift. symmetry. apply HG. Qed.
Lemma rigid_area l : area (map (on3 f) l) = area l.
Proof.
  unfold area. rewrite map_map. f_equal. apply map_ext. intros ((p, q), r). cbn [on3 facing]. do 2 f_equal.
  now rewrite !rigid_minus, !gram, !(rot_scalar g HG).
Qed.
Lemma rigid_closed l : closed_surface (map (on3 f) l) <-> closed_surface l.
Proof. split; [apply closed_unmap|apply closed_map]; exact rigid_inj. Qed.

(** The sum of the vector products along the edges of a closed surface is zero. *)
Definition side (e : vec3 R * vec3 R) : R := scalar_product d (vector_product (fst e) (snd e)).
End Rigid.
Definition sides (d : vec3 R) (es : list (vec3 R * vec3 R)) : R := sumR (map (side d) es).
Lemma side_swap d e : side d (snd e, fst e) = (- side d e)%R.
Proof. destruct e as (u, v). unfold side. cbn [fst snd]. algebra. ring. Qed.
Lemma sides_closed d (l : list (vec3 R * vec3 R * vec3 R)) : closed_surface l -> sides d (edges l) = 0%R.
Proof.
  intros (H1 & H2). assert (Permutation (map (fun e => (snd e, fst e)) (edges l)) (edges l)) as P.
  { apply NoDup_Permutation.
    - apply FinFun.Injective_map_NoDup; [|exact H1]. intros (a, b) (x, y) E. cbn in E. congruence.
    - exact H1.
    - intros (a, b). rewrite in_map_iff. split.
      + intros ((x, y) & E & H). injection E as <- <-. now apply H2.
      + intros H. exists (b, a). split; [reflexivity|]. now apply H2. }
  apply (Permutation_map (side d)) in P. apply sumR_perm in P. rewrite map_map in P.
  assert (sumR (map (fun e => side d (snd e, fst e)) (edges l)) = - sumR (map (side d) (edges l)))%R as E.
  { clear. unfold sumR. induction (edges l) as [|e t IH]; cbn [map fold_right]; [lra|]. rewrite side_swap, IH. lra. }
  unfold sides. lra.
Qed.
Lemma volume_shift d (l : list (vec3 R * vec3 R * vec3 R)) : volume (map (on3 (fun v => plus v d)) l) = (volume l + sides d (edges l) / 6)%R.
Proof.
  unfold volume, sides, sumR. induction l as [|((p, q), r) t IH]; [cbn; lra|].
  change (edges ((p, q, r) :: t)) with ((p, q) :: (q, r) :: (r, p) :: edges t). cbn [map fold_right]. rewrite IH. cbn [on3]. unfold side at 2 3 4. cbn [fst snd].
  generalize (fold_right Rplus 0%R (map (side d) (edges t))).
  generalize (fold_right Rplus 0%R (map (fun t0 => let '(p0, q0, r0) := t0 in (triple_product p0 q0 r0 / 6)%R) t)). intros X Y. clear IH. algebra. field.
Qed.
Lemma rigid_volume g d l : rotation g -> closed_surface l -> volume (map (on3 (fun v => plus (g v) d)) l) = volume l.
Proof.
  intros HG HC. replace (map (on3 (fun v => plus (g v) d)) l) with (map (on3 (fun v => plus v d)) (map (on3 g) l)).
  - rewrite volume_shift, sides_closed; [|now apply closed_map; [apply rot_inj|]]. unfold volume. rewrite map_map.
    rewrite (map_ext (fun t => let '(p, q, r) := on3 g t in (triple_product p q r / 6)%R) (fun t => let '(p, q, r) := t in (triple_product p q r / 6)%R)).
    + lra.
    + intros ((p, q), r). cbn [on3]. now rewrite (rot_triple g HG).
  - rewrite map_map. apply map_ext. intros ((p, q), r). reflexivity.
Qed.

(** ** Meshes: the triangles under each operation *)
Section Faces.
Context {F : Type} (vs : nat).
Implicit Types (m a b : mesh F) (mt : mat F).

Definition look (vl : list (list F)) (i : Z) : list F :=
  match (if i <? 0 then None else nth_error vl (Z.to_nat i)) with Some v => v | None => [] end.
Definition tri (p : list (list F) * list Z) : list (list F * list F * list F) := triples (map (look (fst p)) (snd p)).
Definition inside (p : list (list F) * list Z) : Prop := Forall (fun i => 0 <= i < zlen (fst p)) (snd p).

Lemma faces_parts m : faces vs m = flat_map tri (parts vs m).
Proof.
  unfold faces, parts. rewrite !flat_map_concat_map, map_map. f_equal. apply map_ext. intros mt. unfold tri, corners, data, corner, look. cbn [fst snd].
  now rewrite map_map.
Qed.
Lemma data_inside m mt : mat_closed m mt -> inside (data vs m mt).
Proof.
  unfold mat_closed, inside, data. cbn [fst snd]. intros H. eapply Forall_impl; [|exact H]. intros i Hi. cbv beta in *.
  unfold zlen, mat_vertices. rewrite map_length, seq_length. lia.
Qed.
Lemma closed_inside m : closed m -> Forall inside (parts vs m).
Proof. intros H. unfold parts. apply Forall_map. eapply Forall_impl; [|exact H]. intros mt. apply data_inside. Qed.
Lemma look_in (vl : list (list F)) i : 0 <= i < zlen vl -> nth_error vl (Z.to_nat i) = Some (look vl i).
Proof.
  intros H. unfold look. destruct (Z.ltb_spec i 0); [lia|]. destruct (nth_error vl (Z.to_nat i)) eqn:E; [reflexivity|].
  apply nth_error_None in E. unfold zlen in H. lia.
Qed.
Lemma look_eq (vl : list (list F)) i v : 0 <= i -> nth_error vl (Z.to_nat i) = Some v -> look vl i = v.
Proof. intros H E. unfold look. destruct (Z.ltb_spec i 0); [lia|]. now rewrite E. Qed.

Lemma tri_pmap f p : inside p -> tri (pmap f p) = map (on3 f) (tri p).
Proof.
  intros H. unfold tri, pmap. cbn [fst snd]. rewrite <- (triples_map f (length (snd p))) by now rewrite map_length. f_equal. rewrite map_map.
  apply map_ext_in. intros i Hi. unfold inside in H. rewrite Forall_forall in H. specialize (H i Hi).
  apply look_eq; [lia|]. rewrite nth_error_map, look_in by exact H. reflexivity.
Qed.
Lemma flat_map_pmap f ps : Forall inside ps -> flat_map tri (map (pmap f) ps) = map (on3 f) (flat_map tri ps).
Proof. induction 1 as [|p ps H HS IH]; [reflexivity|]. cbn [map flat_map]. now rewrite map_app, IH, tri_pmap. Qed.

Theorem faces_vmap f m : (forall v, length v = vs -> length (f v) = vs) -> tiled_vertices vs m -> closed m ->
  faces vs (vmap vs f m) = map (on3 f) (faces vs m).
Proof. intros Hf T C. rewrite !faces_parts, vmap_parts by assumption. now apply flat_map_pmap, closed_inside. Qed.
Lemma closed_vmap f m : closed m -> closed (vmap vs f m).
Proof. intros H. exact H. Qed.

(** The corners of the triangles are vertices of the mesh. *)
Lemma faces_in m : closed m -> forall u v w, In (u, v, w) (faces vs m) ->
  In u (flat_map (mat_vertices vs m) (mats m)) /\ In v (flat_map (mat_vertices vs m) (mats m)) /\ In w (flat_map (mat_vertices vs m) (mats m)).
Proof.
  intros C u v w H. rewrite faces_parts in H. apply in_flat_map in H. destruct H as (p & Hp & H).
  pose proof (closed_inside m C) as CI. rewrite Forall_forall in CI. specialize (CI p Hp).
  assert (forall x, In x (map (look (fst p)) (snd p)) -> In x (flat_map (mat_vertices vs m) (mats m))) as G.
  { intros x Hx. apply in_map_iff in Hx. destruct Hx as (i & <- & Hi). unfold inside in CI. rewrite Forall_forall in CI. specialize (CI i Hi).
    apply look_in, nth_error_In in CI. unfold parts in Hp. apply in_map_iff in Hp. destruct Hp as (mt & <- & Hm).
    apply in_flat_map. exists mt. split; [exact Hm|exact CI]. }
  apply (in_triples _ _ _ _ _ (Nat.le_refl _)) in H. destruct H as (H1 & H2 & H3). auto.
Qed.
Lemma map_on3_ext {B} (f g : list F -> B) m : closed m -> (forall v, In v (flat_map (mat_vertices vs m) (mats m)) -> f v = g v) ->
  map (on3 f) (faces vs m) = map (on3 g) (faces vs m).
Proof.
  intros C H. apply map_ext_in. intros ((u, v), w) Hin. destruct (faces_in m C u v w Hin) as (H1 & H2 & H3). cbn. now rewrite !H.
Qed.
Lemma map_on3_len {B} (f g : list F -> B) m : tiled_vertices vs m -> closed m -> (forall v, length v = vs -> f v = g v) ->
  map (on3 f) (faces vs m) = map (on3 g) (faces vs m).
Proof.
  intros T C H. apply map_on3_ext; [exact C|]. intros v Hv. apply H. pose proof (tiled_lengths vs m T) as L. rewrite Forall_forall in L. auto.
Qed.

(** *** Vertex by vertex *)
Lemma faces_run f m m' : keeps vs f -> vertex_size m = Ok (Z.of_nat vs) -> (0 < vs)%nat -> tiled_vertices vs m -> closed m -> run f m = (m', None) ->
  faces vs m' = map (on3 (total vs f)) (faces vs m) /\ tiled_vertices vs m' /\ closed m' /\ works vs f m.
Proof.
  intros K Hs Hv T C H. apply (run_iff vs) in H; auto. destruct H as (W & ->). split; [|split; [|split]].
  - apply faces_vmap; auto. apply total_len.
  - apply vmap_tiled; auto. apply total_len.
  - exact C.
  - exact W.
Qed.
Theorem faces_translate (A : arith F) m off m' : vertex_size m = Ok (Z.of_nat vs) -> (0 < vs)%nat -> tiled_vertices vs m -> closed m -> short_offsets m ->
  translate A m off = (m', None) -> faces vs m' = map (on3 (moved_vertex A (position_start m) off)) (faces vs m) /\ tiled_vertices vs m' /\ closed m'.
Proof.
  intros Hs Hv T C Ho H. rewrite (translate_same A m m off eq_refl eq_refl) in H. pose proof (keeps_translate A vs m off Ho) as K.
  destruct (faces_run _ m m' K Hs Hv T C H) as (E & T' & C' & W). split; [|auto]. rewrite E. apply map_on3_ext; [exact C|]. intros v Hin.
  unfold works in W. rewrite Forall_forall in W. destruct (W v Hin) as (v' & EV). pose proof (tiled_lengths vs m T) as L. rewrite Forall_forall in L.
  rewrite (total_ok vs _ v v' K (L v Hin) EV). now apply (translate_vertex_eq A m off).
Qed.

(** *** Reordering *)
Lemma pick_whole {X} (l : list X) ks : Permutation ks (seq 0 (length l)) -> Permutation (pick l ks) l.
Proof. intros P. rewrite (pick_perm l _ _ P). now rewrite pick_seq. Qed.
Lemma inside_closed m : Forall inside (parts vs m) -> closed m.
Proof.
  unfold parts, closed. rewrite Forall_map. intros H. eapply Forall_impl; [|exact H]. intros mt HM. unfold inside, data in HM. cbn [fst snd] in HM.
  eapply Forall_impl; [|exact HM]. intros i Hi. cbv beta in *. unfold zlen, mat_vertices in Hi. rewrite map_length, seq_length in Hi. lia.
Qed.
Theorem faces_reorder m order ks m' : vertex_size m = Ok (Z.of_nat vs) -> (0 < vs)%nat -> packed vs m ->
  sumZ vnum (mats m) <= 2 ^ 53 -> permutes (length (geoms m)) order ks -> change_geoms_order m order = (m', None) ->
  Permutation (faces vs m') (faces vs m) /\ packed vs m' /\ same_header m m' /\ (closed m -> closed m').
Proof.
  intros Hs Hv P B PE E. pose proof (packed_in_range vs m P) as R.
  destruct (reorder_ok vs m order ks Hs Hv R B PE) as (m1 & E1 & RO). rewrite E in E1. injection E1 as <-.
  assert (parts vs m' = map (data vs m) (mats_of (pick (geoms m) ks))) as EP.
  { unfold parts. unfold mats. rewrite !mats_data. f_equal. now rewrite (reordered_dgeom vs m ks m' R RO). }
  assert (Permutation (parts vs m') (parts vs m)) as PP.
  { rewrite EP. unfold parts, mats. apply Permutation_map. unfold mats_of. apply Permutation_flat_map, pick_whole, PE. }
  split; [|split; [now apply (reordered_parts vs m ks m' R RO)|split; [apply RO|]]].
  - rewrite !faces_parts. now apply Permutation_flat_map.
  - intros C. apply inside_closed. apply (Permutation_Forall (Permutation_sym PP)). now apply closed_inside.
Qed.

(** *** Bounds *)
Lemma places_parts m m' : vertices m' = vertices m -> index m' = index m ->
  map (fun mt => (vstart mt, vnum mt, (istart mt, inum mt))) (mats m') = map (fun mt => (vstart mt, vnum mt, (istart mt, inum mt))) (mats m) ->
  parts vs m' = parts vs m.
Proof.
  intros EV EI. unfold parts. generalize (mats m') (mats m). intros l. induction l as [|x l IH]; intros [|y k] E; try discriminate; [reflexivity|].
  cbn [map] in *. apply cons_eq in E. destruct E as (E & E'). rewrite (IH k E'). f_equal. unfold data, mat_vertices, mat_indices, index_list.
  rewrite EV, EI. now inversion E.
Qed.
Theorem faces_bounds m m' : same_but_bounds m m' ->
  faces vs m' = faces vs m /\ (packed vs m -> packed vs m') /\ same_header m m' /\ (closed m -> closed m').
Proof.
  intros (SH & SC & SV & SI & SG). pose proof (unbound_places _ _ SG) as PL. pose proof (places_parts m m' SV SI PL) as EP. split; [|split; [|split]].
  - now rewrite !faces_parts, EP.
  - unfold packed, tiled_vertices, tiled_indices, index_list, mats in *. rewrite SV, SI.
    assert (map (fun mt : mat F => (vstart mt, vnum mt)) (mats_of (geoms m')) = map (fun mt => (vstart mt, vnum mt)) (mats_of (geoms m))) as ->.
    { apply (f_equal (map fst)) in PL. now rewrite !map_map in PL. }
    assert (map (fun mt : mat F => (istart mt, inum mt)) (mats_of (geoms m')) = map (fun mt => (istart mt, inum mt)) (mats_of (geoms m))) as ->.
    { apply (f_equal (map snd)) in PL. now rewrite !map_map in PL. }
    auto.
  - exact SH.
  - intros C. apply inside_closed. rewrite EP. now apply closed_inside.
Qed.

(** *** Merging *)
Lemma tri_join p q : inside p -> inside q -> (length (snd p) mod 3 = 0)%nat -> tri (join p q) = tri p ++ tri q.
Proof.
  intros H1 H2 H3. unfold tri, join. cbn [fst snd]. rewrite map_app, map_map.
  rewrite (map_ext_in (look (fst p ++ fst q)) (look (fst p))), (map_ext_in (fun i => look (fst p ++ fst q) (i + zlen (fst p))) (look (fst q))).
  - apply (triples_app _ _ _ (Nat.le_refl _)). now rewrite map_length.
  - intros i Hi. unfold inside in H2. rewrite Forall_forall in H2. specialize (H2 i Hi). apply look_eq; [unfold zlen; lia|].
    unfold zlen. rewrite nth_error_app2 by lia. rewrite <- look_in by exact H2. f_equal. lia.
  - intros i Hi. unfold inside in H1. rewrite Forall_forall in H1. specialize (H1 i Hi). apply look_eq; [lia|].
    rewrite nth_error_app1 by (unfold zlen in H1; lia). now apply look_in.
Qed.
Lemma tri_zip l k : length l = length k -> Forall inside l -> Forall inside k -> Forall (fun p => (length (snd p) mod 3 = 0)%nat) l ->
  Permutation (flat_map tri (zip_join l k)) (flat_map tri l ++ flat_map tri k).
Proof.
  revert k. induction l as [|p l IH]; intros [|q k] E H1 H2 H3; try discriminate; [reflexivity|]. cbn in E.
  inversion H1; inversion H2; inversion H3; subst. unfold zip_join in *. cbn [combine map flat_map fst snd].
  rewrite tri_join by assumption. rewrite IH by (try assumption; lia). rewrite <- !app_assoc. apply Permutation_app_head.
  rewrite !app_assoc. apply Permutation_app_tail, Permutation_app_comm.
Qed.
Theorem faces_merge a b m' : vertex_size a = Ok (Z.of_nat vs) -> packed vs a -> packed vs b -> closed a -> closed b -> whole a ->
  merge a b = (m', Merged) -> Permutation (faces vs m') (faces vs a ++ faces vs b).
Proof.
  intros Hs P1 P2 C1 C2 W H. pose proof (packed_in_range vs a P1) as R1. pose proof (packed_in_range vs b P2) as R2.
  destruct (merged_built vs a b m' Hs R1 R2 H) as (HC & C & B). destruct (built_parts vs a b m' R1 R2 B) as (_ & EP).
  destruct (merged_tiled vs a b m' Hs R1 R2 H) as (_ & _ & _ & _ & L).
  rewrite !faces_parts, EP. apply tri_zip; auto using closed_inside.
  - unfold parts. now rewrite !map_length.
  - unfold parts. apply Forall_map. unfold whole in W. destruct R1 as (_ & R1). rewrite Forall_forall in *. intros x Hx. unfold data. cbn [snd].
    unfold mat_indices. rewrite firstn_length, skipn_length. destruct (R1 x Hx) as (_ & _ & _ & I1 & I2 & I3). unfold zlen in I3.
    rewrite Nat.min_l by lia. now apply W.
Qed.
End Faces.

(** *** Exact arithmetic *)
Lemma vec_at_triple o v q : triple v o q -> vec_at o v = q.
Proof. destruct q as ((x, y), z). intros (H1 & H2 & H3). unfold vec_at. apply vec_ext; now apply nth_error_nth. Qed.
Lemma triple_vec_at o v : (o + 3 <= length v)%nat -> triple v o (vec_at o v).
Proof. intros H. unfold triple, vec_at. repeat split; apply nth_error_nth'; lia. Qed.

Section Exact.
Context (vs : nat).
Implicit Types (m : mesh R).

Lemma position_oriented m a : position_attrib m = Some a -> In a (oriented_attribs m) /\ position_start m = attrib_start m a.
Proof.
  intros H. unfold position_start. rewrite H. split; [|reflexivity]. unfold position_attrib in H. apply find_some in H. destruct H as (H1 & H2).
  apply andb_true_iff in H2. destruct H2 as (H2 & H3). unfold oriented_attribs. apply filter_In. split; [exact H1|]. unfold oriented. now rewrite H3, H2.
Qed.
Lemma apart_start m a b : ForallOrdPairs (apart m) (oriented_attribs m) -> In a (oriented_attribs m) -> In b (oriented_attribs m) ->
  attrib_start m a <> attrib_start m b -> apart m a b.
Proof.
  intros H Ha Hb N. destruct (ForallOrdPairs_In H a b Ha Hb) as [-> | [X|X]]; [now destruct N|exact X|unfold apart in *; tauto].
Qed.

Lemma rigid_translate m dx dy dz : rotate_ready vs m -> (exists a, position_attrib m = Some a) ->
  rigid vs m (fun v => v) (dx, dy, dz) (moved_vertex exact (position_start m) [dx; dy; dz]).
Proof.
  intros ((Hf & Ho) & HA & HP) (p & EP) v L. destruct (position_oriented m p EP) as (Hp & ->).
  assert (forall c, nth_error (moved_vertex exact (attrib_start m p) [dx; dy; dz] v) c = option_map (moved exact (attrib_start m p) [dx; dy; dz] c) (nth_error v c)) as N.
  { intros c. unfold moved_vertex. rewrite nth_error_map, nth_combine_seq. now destruct (nth_error v c). }
  rewrite Forall_forall in HA. destruct (HA p Hp) as (_ & LP).
  assert (length (moved_vertex exact (attrib_start m p) [dx; dy; dz] v) = vs) as LM.
  { unfold moved_vertex. rewrite map_length, combine_length, seq_length, L. lia. }
  split; [exact LM|]. split; [|split].
  - apply vec_at_triple. unfold vec_at, plus, triple. rewrite !N, !(nth_error_nth' v 0%R) by lia. cbn [option_map].
    unfold moved. repeat split; f_equal.
    + destruct (Nat.leb_spec (attrib_start m p) (attrib_start m p)); [|lia]. now rewrite Nat.sub_diag.
    + destruct (Nat.leb_spec (attrib_start m p) (attrib_start m p + 1)); [|lia]. now replace (attrib_start m p + 1 - attrib_start m p)%nat with 1%nat by lia.
    + destruct (Nat.leb_spec (attrib_start m p) (attrib_start m p + 2)); [|lia]. now replace (attrib_start m p + 2 - attrib_start m p)%nat with 2%nat by lia.
  - apply Forall_forall. intros a Hin NE. apply vec_at_triple. unfold triple, vec_at. destruct (HA a Hin) as (_ & La).
    pose proof (apart_start m a p HP Hin Hp NE) as AP. unfold apart in AP.
    assert (forall c, (attrib_start m a <= c < attrib_start m a + 3)%nat -> nth_error (moved_vertex exact (attrib_start m p) [dx; dy; dz] v) c = Some (nth c v 0%R)) as G.
    { intros c Hc. rewrite N, (nth_error_nth' v 0%R) by lia. cbn [option_map]. f_equal. unfold moved. destruct (Nat.leb_spec (attrib_start m p) c); [|reflexivity].
      destruct (nth_error _ _) eqn:E; [|reflexivity]. assert (c - attrib_start m p < 3)%nat by (apply (nth_error_Some [dx; dy; dz]); congruence). lia. }
    repeat split; apply G; lia.
  - intros c Hc. rewrite N. rewrite Forall_forall in Hc. specialize (Hc p Hp). unfold outside in Hc. destruct (nth_error v c) eqn:E; [|reflexivity].
    cbn. f_equal. unfold moved. destruct (Nat.leb_spec (attrib_start m p) c); [|reflexivity].
    destruct (nth_error [dx; dy; dz] (c - attrib_start m p)) eqn:E3; [|reflexivity].
    assert (c - attrib_start m p < 3)%nat by (apply (nth_error_Some [dx; dy; dz]); congruence). lia.
Qed.

Lemma rigid_rotate m y p r : rotate_ready vs m -> (exists a, position_attrib m = Some a) ->
  rigid vs m (turn exact y p r) (0, 0, 0)%R
    (total vs (rotate_vertex exact m (f_radians exact y) (f_radians exact p) (f_radians exact r))).
Proof.
  intros RR (pa & EP) v L. pose proof (keeps_rotate exact vs m (f_radians exact y) (f_radians exact p) (f_radians exact r) RR) as K.
  destruct (position_oriented m pa EP) as (Hp & ->). destruct RR as ((Hf & Ho) & HA & HP).
  destruct (rotate_fold exact m (f_radians exact y) (f_radians exact p) (f_radians exact r) vs eq_refl Hf (vertex_attributes m) v Ho L HA HP) as (v' & E & L' & O & T).
  rewrite (total_ok vs _ v v' K L E). fold (oriented_attribs m) in O, T. rewrite Forall_forall in HA, T.
  assert (forall a, In a (oriented_attribs m) -> vec_at (attrib_start m a) v' = turn exact y p r (vec_at (attrib_start m a) v)) as G.
  { intros a Ha. apply vec_at_triple. rewrite <- rot3_turn. apply (T a Ha), triple_vec_at. destruct (HA a Ha). lia. }
  split; [exact L'|]. split; [|split; [|exact O]].
  - rewrite G by exact Hp. destruct (turn exact y p r _) as ((a, b), c). cbn. apply vec_ext; ring.
  - apply Forall_forall. intros a Ha _. now apply G.
Qed.

(** *** Histories *)
Lemma drawable_header m m' : same_header m m' -> drawable vs m -> packed vs m' -> closed m' -> drawable vs m'.
Proof.
  intros SH D P C. destruct D as [D1 D2 D3 D4 D5 D6]. assert (vertex_attributes m' = vertex_attributes m) as EA by apply SH.
  assert (vertformat m' = vertformat m) as EF by apply SH. constructor; auto.
  - unfold vertex_size in *. now rewrite EA.
  - revert D5. unfold rotate_ready, short_offsets, oriented_attribs, apart, attrib_start. now rewrite EA, EF.
  - unfold position_attrib in *. now rewrite EA.
Qed.
Lemma rigid_header m m' g d h : same_header m m' -> rigid vs m' g d h -> rigid vs m g d h.
Proof.
  intros SH. assert (vertex_attributes m' = vertex_attributes m) as EA by apply SH. assert (vertformat m' = vertformat m) as EF by apply SH.
  unfold rigid, position_start, position_attrib, attrib_start, oriented_attribs, outside, attrib_start. now rewrite EA, EF.
Qed.
Lemma header_refl m : same_header m m.
Proof. unfold same_header. intuition. Qed.
Lemma header_trans m m1 m2 : same_header m m1 -> same_header m1 m2 -> same_header m m2.
Proof. unfold same_header. intuition congruence. Qed.
Lemma rigid_id m : rigid vs m (fun v => v) (0, 0, 0)%R (fun v => v).
Proof.
  intros v L. split; [exact L|]. split; [|split; [now apply Forall_forall|auto]].
  destruct (vec_at _ v) as ((a, b), c). cbn. apply vec_ext; ring.
Qed.
Lemma rigid_comp m g1 d1 h1 g2 d2 h2 : rotation g2 -> rigid vs m g1 d1 h1 -> rigid vs m g2 d2 h2 ->
  rigid vs m (fun v => g2 (g1 v)) (plus (g2 d1) d2) (fun v => h2 (h1 v)).
Proof.
  intros G H1 H2 v L. destruct (H1 v L) as (L1 & P1 & A1 & O1). destruct (H2 (h1 v) L1) as (L2 & P2 & A2 & O2).
  split; [exact L2|]. split; [|split].
  - rewrite P2, P1, rot_plus by exact G. generalize (g2 (g1 (vec_at (position_start m) v))) (g2 d1). intros. algebra. apply vec_ext; ring.
  - rewrite Forall_forall in *. intros a Ha N. rewrite A2, A1 by assumption. reflexivity.
  - intros c Hc. rewrite O2, O1 by exact Hc. reflexivity.
Qed.

Definition carried (m m' : mesh R) : Prop :=
  drawable vs m' /\ same_header m m' /\ exists g d h, rotation g /\ rigid vs m g d h /\ Permutation (faces vs m') (map (on3 h) (faces vs m)).
Lemma map_on3_id {A} (l : list (A * A * A)) : map (on3 (fun v => v)) l = l.
Proof. rewrite <- (map_id l) at 2. apply map_ext. now intros ((a, b), c). Qed.
Lemma carried_same m m' : drawable vs m' -> same_header m m' -> Permutation (faces vs m') (faces vs m) -> carried m m'.
Proof.
  intros D H P. split; [exact D|]. split; [exact H|]. exists (fun v => v), (0, 0, 0)%R, (fun v => v). split; [apply rot_id|].
  split; [apply rigid_id|]. now rewrite map_on3_id.
Qed.
Lemma carried_refl m : drawable vs m -> carried m m.
Proof. intros D. apply carried_same; [exact D|apply header_refl|reflexivity]. Qed.
Lemma carried_trans m m1 m2 : carried m m1 -> carried m1 m2 -> carried m m2.
Proof.
  intros (D1 & H1 & g1 & d1 & h1 & G1 & R1 & P1) (D2 & H2 & g2 & d2 & h2 & G2 & R2 & P2).
  split; [exact D2|]. split; [now apply (header_trans m m1)|]. exists (fun v => g2 (g1 v)), (plus (g2 d1) d2), (fun v => h2 (h1 v)).
  split; [now apply rot_comp|]. split; [apply rigid_comp; auto; now apply (rigid_header m m1)|].
  rewrite P2, P1, map_map. apply Permutation_refl'. apply map_ext. now intros ((a, b), c).
Qed.
Lemma tiled_packed m m' : same_but_vertices m m' -> packed vs m -> tiled_vertices vs m' -> packed vs m'.
Proof.
  intros (_ & _ & EG & EI) (_ & T) T'. split; [exact T'|]. unfold tiled_indices, mats in *. now rewrite EI, EG.
Qed.
Lemma carried_bounds m m' : drawable vs m -> same_but_bounds m m' -> carried m m'.
Proof.
  intros D S. destruct (faces_bounds vs m m' S) as (E & P & H & C). apply carried_same; [|exact H|now rewrite E].
  apply (drawable_header m); auto; [apply P|apply C]; apply D.
Qed.
Theorem move_carried m m' : drawable vs m -> move m m' -> carried m m'.
Proof.
  intros D H. pose proof D as [D1 D2 D3 D4 D5 D6]. pose proof (proj1 D3) as T. destruct H as [m dx dy dz m' o H|m rot m' o H|m m' o H|m gi li u m' r H|m order ks m' PE B H].
  - destruct o as [e|]; [rewrite (move_atomic exact m [dx; dy; dz] m' e) by auto; now apply carried_refl|].
    destruct (faces_translate vs exact m [dx; dy; dz] m' D1 D2 T D4 (proj1 D5) H) as (E & T' & C').
    assert (same_but_vertices m m') as S by (rewrite (translate_same exact m m _ eq_refl eq_refl) in H; now apply run_frame in H).
    split; [apply (drawable_header m); auto; [apply S|now apply (tiled_packed m)]|]. split; [apply S|].
    exists (fun v => v), (dx, dy, dz), (moved_vertex exact (position_start m) [dx; dy; dz]). split; [apply rot_id|]. split; [now apply rigid_translate|now rewrite E].
  - destruct o as [e|]; [rewrite (move_atomic exact m rot m' e) by auto; now apply carried_refl|].
    destruct rot as [|y [|p [|r more]]]; try discriminate. rewrite (rotate_same exact m m y p r more eq_refl eq_refl) in H. pose proof (run_frame _ _ _ H) as S.
    destruct (faces_run vs _ m m' (keeps_rotate exact vs m _ _ _ D5) D1 D2 T D4 H) as (E & T' & C' & _).
    split; [apply (drawable_header m); auto; [apply S|now apply (tiled_packed m)]|]. split; [apply S|].
    eexists (turn exact y p r), (0, 0, 0)%R, _. split; [apply turn_rotation|]. split; [now apply rigid_rotate|now rewrite E].
  - apply carried_bounds; [exact D|]. now apply (update_frame exact m m' o).
  - unfold get_lod_center_offset in H. destruct (bind _ _) as [l|] in H; [|injection H as <- _; now apply carried_refl].
    destruct u; [|injection H as <- _; now apply carried_refl]. destruct (update_boundaries exact m) as (m1, o) eqn:E.
    pose proof (update_frame exact m m1 o E) as S. assert (m' = m1) as -> by (destruct o; congruence). now apply carried_bounds.
  - destruct (faces_reorder vs m order ks m' D1 D2 D3 B PE H) as (P & PK & SH & C). apply carried_same; auto. apply (drawable_header m); auto.
Qed.
Theorem moves_carried m m' : drawable vs m -> clos_refl_trans _ move m m' -> carried m m'.
Proof.
  intros D H. revert D. induction H as [m m' H|m|m m1 m2 _ IH1 _ IH2]; intros D; [now apply move_carried|now apply carried_refl|].
  pose proof (IH1 D) as C. apply (carried_trans m m1); [exact C|]. apply IH2, C.
Qed.

(** *** What is measured *)
Lemma on3_on3 {A B C} (f : B -> C) (g : A -> B) l : map (on3 f) (map (on3 g) l) = map (on3 (fun x => f (g x))) l.
Proof. rewrite map_map. apply map_ext. now intros ((a, b), c). Qed.
Lemma carried_surface m m' : drawable vs m -> carried m m' ->
  exists g d, rotation g /\ Permutation (surface vs m') (map (on3 (fun v => plus (g v) d)) (surface vs m)).
Proof.
  intros D (D' & SH & g & d & h & G & RI & P). exists g, d. split; [exact G|]. unfold surface.
  assert (position_start m' = position_start m) as ->.
  { assert (vertex_attributes m' = vertex_attributes m) as EA by apply SH. assert (vertformat m' = vertformat m) as EF by apply SH.
    unfold position_start, position_attrib, attrib_start. now rewrite EA, EF. }
  rewrite (Permutation_map _ P), !on3_on3. apply Permutation_refl'. apply map_on3_len; [apply D|apply D|]. intros v L. now apply (RI v L).
Qed.
Theorem carried_area m m' : drawable vs m -> carried m m' -> area (surface vs m') = area (surface vs m).
Proof. intros D C. destruct (carried_surface m m' D C) as (g & d & G & P). rewrite (area_perm _ _ P). now apply rigid_area. Qed.
Theorem carried_closed m m' : drawable vs m -> carried m m' -> closed_surface (surface vs m') <-> closed_surface (surface vs m).
Proof.
  intros D C. destruct (carried_surface m m' D C) as (g & d & G & P). rewrite <- (rigid_closed g d G (surface vs m)). split; apply closed_perm; [exact P|now symmetry].
Qed.
Theorem carried_volume m m' : drawable vs m -> carried m m' -> closed_surface (surface vs m) -> volume (surface vs m') = volume (surface vs m).
Proof. intros D C CS. destruct (carried_surface m m' D C) as (g & d & G & P). rewrite (volume_perm _ _ P). now apply rigid_volume. Qed.

Lemma rot_cross g : rotation g -> forall u v w, scalar_product (g w) (vector_product (g u) (g v)) = scalar_product w (vector_product u v).
Proof. intros [_ _ H] u v w. apply (H w u v). Qed.
Theorem carried_shading m m' a : drawable vs m -> carried m m' -> In a (oriented_attribs m) -> attrib_start m a <> position_start m ->
  Permutation (shading vs m' a) (shading vs m a).
Proof.
  intros D (D' & SH & g & d & h & G & RI & P) Ha NE. unfold shading.
  assert (position_start m' = position_start m /\ attrib_start m' a = attrib_start m a) as (-> & ->).
  { assert (vertex_attributes m' = vertex_attributes m) as EA by apply SH. assert (vertformat m' = vertformat m) as EF by apply SH.
    unfold position_start, position_attrib, attrib_start. now rewrite EA, EF. }
  rewrite (Permutation_map _ P), map_map. apply Permutation_refl'. apply map_ext_in. intros ((u, v), w) Hin.
  assert (length u = vs /\ length v = vs /\ length w = vs) as (Lu & Lv & Lw).
  { destruct (faces_in vs m (dr_closed _ _ D) u v w Hin) as (H1 & H2 & H3). pose proof (tiled_lengths vs m (proj1 (dr_packed _ _ D))) as L.
    rewrite Forall_forall in L. auto. }
  destruct (RI u Lu) as (_ & Pu & Au & _). destruct (RI v Lv) as (_ & Pv & Av & _). destruct (RI w Lw) as (_ & Pw & Aw & _).
  rewrite Forall_forall in Au, Av, Aw. unfold shade. cbn [on3 facing]. rewrite Pu, Pv, Pw, !minus_shift, <- !(rot_minus g G).
  rewrite (Au a Ha NE), (Av a Ha NE), (Aw a Ha NE). now rewrite !rot_cross.
Qed.

(** *** Merging *)
Theorem merged_surface a b m' : drawable vs a -> drawable vs b -> whole a -> vertformat b = vertformat a -> merge a b = (m', Merged) ->
  drawable vs m' /\ Permutation (surface vs m') (surface vs a ++ surface vs b).
Proof.
  intros Da Db W EF H. pose proof (packed_in_range vs a (dr_packed _ _ Da)) as R1. pose proof (packed_in_range vs b (dr_packed _ _ Db)) as R2.
  destruct (merge_tables vs a b m' (dr_size _ _ Da) R1 R2 H) as (P & SH & _ & _ & _ & _ & _ & C & _).
  destruct (merged_tiled vs a b m' (dr_size _ _ Da) R1 R2 H) as (_ & _ & EA & _ & _). split.
  - apply (drawable_header a); auto. apply C; [apply Da|apply Db].
  - pose proof (faces_merge vs a b m' (dr_size _ _ Da) (dr_packed _ _ Da) (dr_packed _ _ Db) (dr_closed _ _ Da) (dr_closed _ _ Db) W H) as PF.
    unfold surface. rewrite (Permutation_map _ PF), map_app.
    assert (position_start m' = position_start a) as ->.
    { assert (vertex_attributes m' = vertex_attributes a) as EA' by apply SH. assert (vertformat m' = vertformat a) as EF' by apply SH.
      unfold position_start, position_attrib, attrib_start. now rewrite EA', EF'. }
    assert (position_start b = position_start a) as ->.
    { unfold position_start, position_attrib, attrib_start. now rewrite EA, EF. }
    reflexivity.
Qed.
Theorem moves_measures m m' : drawable vs m -> clos_refl_trans _ move m m' ->
  area (surface vs m') = area (surface vs m) /\
  (closed_surface (surface vs m') <-> closed_surface (surface vs m)) /\
  (closed_surface (surface vs m) -> volume (surface vs m') = volume (surface vs m)) /\
  forall a, In a (oriented_attribs m) -> attrib_start m a <> position_start m -> Permutation (shading vs m' a) (shading vs m a).
Proof.
  intros D H. pose proof (moves_carried m m' D H) as C. split; [now apply carried_area|]. split; [now apply carried_closed|].
  split; [now apply carried_volume|]. intros a. now apply carried_shading.
Qed.
Theorem merge_measures a b m' : drawable vs a -> drawable vs b -> whole a -> vertformat b = vertformat a -> merge a b = (m', Merged) ->
  drawable vs m' /\ Permutation (surface vs m') (surface vs a ++ surface vs b) /\
  area (surface vs m') = (area (surface vs a) + area (surface vs b))%R /\
  volume (surface vs m') = (volume (surface vs a) + volume (surface vs b))%R /\
  (closed_surface (surface vs a) -> closed_surface (surface vs b) ->
   (forall e, In e (edges (surface vs a)) -> ~ In e (edges (surface vs b))) -> closed_surface (surface vs m')).
Proof.
  intros Da Db W EF H. destruct (merged_surface a b m' Da Db W EF H) as (D & P). split; [exact D|]. split; [exact P|].
  split; [now rewrite (area_perm _ _ P), area_app|]. split; [now rewrite (volume_perm _ _ P), volume_app|].
  intros C1 C2 N. apply (closed_perm _ _ (Permutation_sym P)). now apply closed_app.
Qed.
End Exact.
