(** translate and rotate commute with merge and change_geoms_order. *)
From Coq Require Import ZArith List Bool Lia Permutation.
From Verif Require Import PyBase Struct Mesh Arith Edit Spec SpecEdit DivFacts TravFacts VertFacts LayoutFacts MergeFacts ReorderFacts VMapFacts.
Import ListNotations.
Open Scope Z_scope.

Section Op.
Context {F : Type} (vs : nat).
Implicit Types (m a b r : mesh F) (f : list F -> res (list F)) (g : list F -> list F).

(** A vertex function that keeps the length, and its total version. *)
Definition keeps f : Prop := forall v v', length v = vs -> f v = Ok v' -> length v' = vs.
Definition total f (v : list F) : list F := match f v with Ok v' => if Nat.eqb (length v') vs then v' else v | _ => v end.
Lemma total_len f v : length v = vs -> length (total f v) = vs.
Proof. intros H. unfold total. destruct (f v) as [v'|]; auto. destruct (Nat.eqb_spec (length v') vs); auto. Qed.
Lemma total_ok f v v' : keeps f -> length v = vs -> f v = Ok v' -> total f v = v'.
Proof. intros K H E. unfold total. rewrite E, (K v v' H E), Nat.eqb_refl. reflexivity. Qed.

Definition run f m : mesh F * option exn := assign_vertices m (map_vertices m f).
Definition works f m : Prop := Forall (fun v => exists v', f v = Ok v') (flat_map (mat_vertices vs m) (mats m)).

Lemma tiled_lengths m : tiled_vertices vs m -> Forall (fun v => length v = vs) (flat_map (mat_vertices vs m) (mats m)).
Proof.
  intros T. apply Forall_forall. intros v Hv. apply in_flat_map in Hv. destruct Hv as (x & Hx & Hv).
  pose proof (tiled_vin vs m T) as HV'. rewrite Forall_forall in HV'. pose proof (mat_vertices_length vs m x (HV' x Hx)) as H.
  rewrite Forall_forall in H. auto.
Qed.

Lemma run_iff f m m' : keeps f -> vertex_size m = Ok (Z.of_nat vs) -> (0 < vs)%nat -> tiled_vertices vs m ->
  run f m = (m', None) <-> works f m /\ m' = vmap vs (total f) m.
Proof.
  intros K Hs Hv T. unfold run. rewrite (all_loop vs) by auto using tiled_vin. unfold works, vmap.
  pose proof (tiled_lengths m T) as L. revert L. generalize (flat_map (mat_vertices vs m) (mats m)). intros l L.
  assert ((exists q, map_res f l = Ok q /\ q = map (total f) l /\ Forall (fun v => exists v', f v = Ok v') l) \/
          ((exists e, map_res f l = Raise e) /\ ~ Forall (fun v => exists v', f v = Ok v') l)) as [(q & -> & -> & W)|((e & ->) & N)].
  { induction L as [|v l Hl L IH]; [left; eexists; repeat split; constructor|]. cbn [map_res].
    destruct (f v) as [v'|e] eqn:E.
    - cbn [bind]. destruct IH as [(q & -> & -> & W)|((e & ->) & N)].
      + left. eexists. cbn. rewrite (total_ok f v v' K Hl E). repeat split. constructor; eauto.
      + right. split; [cbn; eauto|]. intros W. apply N. now inversion W.
    - right. split; [cbn; eauto|]. intros W. inversion W as [|? ? (v' & E') _]. congruence. }
  - cbn. split; [intros H; injection H as <-; auto|intros (_ & ->); reflexivity].
  - cbn. split; [discriminate|tauto].
Qed.

Lemma works_merged f a b r : vertex_size a = Ok (Z.of_nat vs) -> in_range vs a -> in_range vs b ->
  merge a b = (r, Merged) -> works f a -> works f b -> works f r.
Proof.
  intros Hs R1 R2 H W1 W2. destruct (merged_tiled vs a b r Hs R1 R2 H) as (_ & _ & _ & E & _). unfold works in *. rewrite E.
  rewrite all_v_parts in W1, W2. rewrite Forall_forall in *. intros v Hv. unfold all_v in Hv. apply in_flat_map in Hv.
  destruct Hv as (p & Hp & Hv). unfold zip_join in Hp. apply in_map_iff in Hp. destruct Hp as ((p1 & p2) & <- & Hp).
  cbn [join fst snd] in Hv. apply in_app_or in Hv. destruct Hv as [Hv|Hv].
  - apply W1. apply in_flat_map. exists p1. split; [now apply in_combine_l in Hp|exact Hv].
  - apply W2. apply in_flat_map. exists p2. split; [now apply in_combine_r in Hp|exact Hv].
Qed.

Lemma head_size a r : same_header a r -> vertex_size a = Ok (Z.of_nat vs) -> vertex_size r = Ok (Z.of_nat vs).
Proof. intros (_ & _ & _ & _ & _ & E & _). unfold vertex_size. now rewrite E. Qed.

Theorem run_merge f a b a' b' r' : keeps f -> vertex_size a = Ok (Z.of_nat vs) -> (0 < vs)%nat ->
  vertex_size b = Ok (Z.of_nat vs) -> in_range vs a -> in_range vs b -> tiled_vertices vs a -> tiled_vertices vs b ->
  run f a = (a', None) -> run f b = (b', None) ->
  merge a' b' = (r', Merged) <-> exists r, merge a b = (r, Merged) /\ run f r = (r', None).
Proof.
  intros K Hs Hv Hb R1 R2 T1 T2 E1 E2. apply (run_iff f a a' K Hs Hv T1) in E1. destruct E1 as (W1 & ->).
  apply (run_iff f b b' K Hb Hv T2) in E2. destruct E2 as (W2 & ->).
  destruct (vmap_merge vs (total f) (total_len f) a b Hs R1 R2 T1 T2) as (G1 & G2).
  assert (forall r, merge a b = (r, Merged) -> run f r = (vmap vs (total f) r, None)) as G3.
  { intros r H. destruct (merged_tiled vs a b r Hs R1 R2 H) as (P & HH & _).
    apply (run_iff f r _ K (head_size _ _ HH Hs) Hv); [apply P|]. split; [|reflexivity]. now apply (works_merged f a b r). }
  split.
  - intros H. destruct (G2 _ H) as (r & E & ->). exists r. split; [exact E|]. now apply G3.
  - intros (r & E & H). rewrite (G3 r E) in H. injection H as <-. now apply G1.
Qed.

Theorem run_reorder f m order ks m' : keeps f -> vertex_size m = Ok (Z.of_nat vs) -> (0 < vs)%nat -> in_range vs m -> tiled_vertices vs m ->
  sumZ vnum (mats m) <= 2 ^ 53 -> permutes (length (geoms m)) order ks -> run f m = (m', None) ->
  exists m1 r, change_geoms_order m order = (m1, None) /\ run f m1 = (r, None) /\ change_geoms_order m' order = (r, None).
Proof.
  intros K Hs Hv R T B P E. apply (run_iff f m m' K Hs Hv T) in E. destruct E as (W & ->).
  destruct (vmap_reorder vs (total f) (total_len f) m order ks Hs Hv R T B P) as (m1 & E1 & E2 & PK & HH & I).
  exists m1, (vmap vs (total f) m1). split; [exact E1|]. split; [|exact E2].
  apply (run_iff f m1 _ K (head_size _ _ HH Hs) Hv); [apply PK|]. split; [|reflexivity].
  unfold works in *. rewrite Forall_forall in *. intros v Hv'. apply W, I, Hv'.
Qed.
End Op.

Section Comm.
Context {F : Type} (A : arith F).
Implicit Types (m a b r : mesh F) (vs : nat).

Lemma keeps_translate vs m off : short_offsets m -> keeps vs (translate_vertex A m off).
Proof. intros Ho v v' L E. now apply (translate_vertex_spec A m off vs v v' Ho L E). Qed.
Lemma keeps_rotate vs m y p q : rotate_ready vs m -> keeps vs (rotate_vertex A m y p q).
Proof.
  intros ((Hf & Ho) & HA & HP) v v' L E.
  destruct (rotate_fold_ok A m y p q (vertex_attributes m) v v' E) as [Ht| ->]; [|exact L].
  destruct (rotate_fold A m y p q vs Ht Hf (vertex_attributes m) v Ho L HA HP) as (v1 & E1 & L1 & _). unfold rotate_vertex in E. congruence.
Qed.
(** They look at the header only. *)
Lemma translate_same m m' off : vertformat m' = vertformat m -> vertex_attributes m' = vertex_attributes m ->
  translate A m' off = run (translate_vertex A m off) m'.
Proof. intros E1 E2. unfold translate, run, translate_vertex. now rewrite E1, E2. Qed.
Lemma rotate_same m m' y p q more : vertformat m' = vertformat m -> vertex_attributes m' = vertex_attributes m ->
  rotate A m' (y :: p :: q :: more) = run (rotate_vertex A m (f_radians A y) (f_radians A p) (f_radians A q)) m'.
Proof. intros E1 E2. unfold rotate, run, rotate_vertex, rotate_attrib. now rewrite E1, E2. Qed.

Lemma merge_attribs vs a b r : vertex_size a = Ok (Z.of_nat vs) -> packed vs a -> packed vs b -> merge a b = (r, Merged) ->
  vertex_attributes b = vertex_attributes a /\ vertex_size b = Ok (Z.of_nat vs) /\ vertformat r = vertformat a /\ vertex_attributes r = vertex_attributes a.
Proof.
  intros Hs P1 P2 H. destruct (merged_tiled vs a b r Hs (packed_in_range _ _ P1) (packed_in_range _ _ P2) H) as (_ & HH & E & _).
  split; [exact E|]. unfold vertex_size. rewrite E. split; [exact Hs|]. split; apply HH.
Qed.

Lemma run_frame f m m' : run f m = (m', None) -> same_but_vertices m m'.
Proof. unfold run. intros H. apply assign_spec in H. destruct H as (nv & _ & ->). apply set_vertices_frame. Qed.
Lemma merge_compatible a b r : merge a b = (r, Merged) -> compatible a b.
Proof. intros H. apply canMerge_true. unfold merge in H. destruct (canMerge a b) as [[|]|]; [reflexivity| |]; discriminate. Qed.

Lemma ops_merge (op : mesh F -> mesh F * option exn) f vs a b a' b' r' :
  (forall m, vertformat m = vertformat a -> vertex_attributes m = vertex_attributes a -> op m = run f m) ->
  (forall m m', op m = (m', None) -> same_but_vertices m m') -> keeps vs f ->
  vertex_size a = Ok (Z.of_nat vs) -> (0 < vs)%nat -> vertformat b = vertformat a ->
  packed vs a -> packed vs b -> op a = (a', None) -> op b = (b', None) ->
  merge a' b' = (r', Merged) <-> exists r, merge a b = (r, Merged) /\ op r = (r', None).
Proof.
  intros HO HF K Hs Hv Ef P1 P2 E1 E2.
  assert (vertex_attributes b = vertex_attributes a -> merge a' b' = (r', Merged) <-> exists r, merge a b = (r, Merged) /\ op r = (r', None)) as G.
  { intros EA. rewrite (HO a) in E1 by reflexivity. rewrite (HO b) in E2 by assumption.
    rewrite (run_merge vs f a b a' b' r' K Hs Hv) ; auto using packed_in_range.
    - split; intros (r & H & H'); exists r; (split; [exact H|]); destruct (merge_attribs vs a b r Hs P1 P2 H) as (_ & _ & Q1 & Q2).
      + now rewrite HO.
      + now rewrite HO in H' by assumption.
    - unfold vertex_size in *. now rewrite EA.
    - apply P1.
    - apply P2. }
  split; intros H.
  - apply G; [|exact H]. apply merge_compatible in H. destruct H as (_ & H).
    apply HF in E1. apply HF in E2. destruct E1 as ((_ & _ & _ & _ & _ & Q1 & _) & _), E2 as ((_ & _ & _ & _ & _ & Q2 & _) & _). congruence.
  - apply G; [|exact H]. destruct H as (r & H & _). apply merge_compatible in H. destruct H as (_ & H). congruence.
Qed.

Theorem translate_merge vs a b off a' b' r' : vertex_size a = Ok (Z.of_nat vs) -> (0 < vs)%nat -> short_offsets a ->
  vertformat b = vertformat a -> packed vs a -> packed vs b ->
  translate A a off = (a', None) -> translate A b off = (b', None) ->
  merge a' b' = (r', Merged) <-> exists r, merge a b = (r, Merged) /\ translate A r off = (r', None).
Proof.
  intros Hs Hv Ho Ef P1 P2. apply (ops_merge (fun m => translate A m off) (translate_vertex A a off) vs); auto.
  - intros m H1 H2. now apply translate_same.
  - intros m m' H. apply assign_spec in H. destruct H as (nv & _ & ->). apply set_vertices_frame.
  - now apply keeps_translate.
Qed.
Theorem rotate_merge vs a b rot a' b' r' : vertex_size a = Ok (Z.of_nat vs) -> (0 < vs)%nat -> rotate_ready vs a ->
  vertformat b = vertformat a -> packed vs a -> packed vs b ->
  rotate A a rot = (a', None) -> rotate A b rot = (b', None) ->
  merge a' b' = (r', Merged) <-> exists r, merge a b = (r, Merged) /\ rotate A r rot = (r', None).
Proof.
  intros Hs Hv Ho Ef P1 P2 E1. destruct rot as [|y [|p [|q more]]]; try discriminate. revert E1.
  apply (ops_merge (fun m => rotate A m (y :: p :: q :: more)) (rotate_vertex A a (f_radians A y) (f_radians A p) (f_radians A q)) vs); auto.
  - intros m H1 H2. now apply rotate_same.
  - intros m m' H. apply assign_spec in H. destruct H as (nv & _ & ->). apply set_vertices_frame.
  - now apply keeps_rotate.
Qed.
Theorem translate_reorder vs m off order ks m' : vertex_size m = Ok (Z.of_nat vs) -> (0 < vs)%nat -> short_offsets m -> packed vs m ->
  sumZ vnum (mats m) <= 2 ^ 53 -> permutes (length (geoms m)) order ks -> translate A m off = (m', None) ->
  exists m1 r, change_geoms_order m order = (m1, None) /\ translate A m1 off = (r, None) /\ change_geoms_order m' order = (r, None).
Proof.
  intros Hs Hv Ho P B PE E. rewrite (translate_same m m) in E by reflexivity.
  destruct (run_reorder vs _ m order ks m' (keeps_translate vs m off Ho) Hs Hv (packed_in_range _ _ P) (proj1 P) B PE E) as (m1 & r & E1 & E2 & E3).
  exists m1, r. split; [exact E1|]. split; [|exact E3]. 
  destruct (reorder_ok vs m order ks Hs Hv (packed_in_range _ _ P) B PE) as (m2 & Em & RO). rewrite E1 in Em. injection Em as <-.
  rewrite (translate_same m m1); [exact E2|apply RO|apply RO].
Qed.
Theorem rotate_reorder vs m rot order ks m' : vertex_size m = Ok (Z.of_nat vs) -> (0 < vs)%nat -> rotate_ready vs m -> packed vs m ->
  sumZ vnum (mats m) <= 2 ^ 53 -> permutes (length (geoms m)) order ks -> rotate A m rot = (m', None) ->
  exists m1 r, change_geoms_order m order = (m1, None) /\ rotate A m1 rot = (r, None) /\ change_geoms_order m' order = (r, None).
Proof.
  intros Hs Hv Ho P B PE E. destruct rot as [|y [|p [|q more]]]; try discriminate. rewrite (rotate_same m m) in E by reflexivity.
  destruct (run_reorder vs _ m order ks m' (keeps_rotate vs m _ _ _ Ho) Hs Hv (packed_in_range _ _ P) (proj1 P) B PE E) as (m1 & r & E1 & E2 & E3).
  exists m1, r. split; [exact E1|]. split; [|exact E3].
  destruct (reorder_ok vs m order ks Hs Hv (packed_in_range _ _ P) B PE) as (m2 & Em & RO). rewrite E1 in Em. injection Em as <-.
  rewrite (rotate_same m m1); [exact E2|apply RO|apply RO].
Qed.
End Comm.
