(** Changing vertices one by one commutes with merging and reordering. *)
From Coq Require Import ZArith List Bool Lia Permutation.
From Verif Require Import PyBase Struct Mesh Arith Edit Spec SpecEdit DivFacts TravFacts VertFacts LayoutFacts MergeFacts ReorderFacts.
Import ListNotations.
Open Scope Z_scope.

Section VMap.
Context {F : Type} (vs : nat) (f : list F -> list F) (Hf : forall v, length v = vs -> length (f v) = vs).
Implicit Types (m a b : mesh F) (mt : mat F).

Definition vmap m : mesh F := set_vertices m (concat (map f (flat_map (mat_vertices vs m) (mats m)))).
Definition pmap (p : list (list F) * list Z) : list (list F) * list Z := (map f (fst p), snd p).

Lemma Forall_f l : Forall (fun v => length v = vs) l -> Forall (fun v => length v = vs) (map f l).
Proof. induction 1; cbn; constructor; auto. Qed.

Lemma vmap_data m mt : tiled_vertices vs m -> In mt (mats m) -> data vs (vmap m) mt = pmap (data vs m mt).
Proof.
  intros T Hin. pose proof (tiled_vin vs m T) as HV. rewrite Forall_forall in HV. specialize (HV mt Hin).
  assert (Forall (fun v => length v = vs) (flat_map (mat_vertices vs m) (mats m))) as HL.
  { apply Forall_forall. intros v Hv. apply in_flat_map in Hv. destruct Hv as (x & Hx & Hv).
    pose proof (tiled_vin vs m T) as HV'. rewrite Forall_forall in HV'. pose proof (mat_vertices_length vs m x (HV' x Hx)) as H.
    rewrite Forall_forall in H. auto. }
  destruct T as (n & E & T). pose proof (tiles_le _ _ _ T) as Hn. pose proof T as T'. apply tiles_in in T'.
  rewrite Forall_map, Forall_forall in T'. specialize (T' mt Hin). cbn [fst snd] in T'.
  unfold data, pmap. cbn [fst snd]. f_equal. unfold mat_vertices. rewrite (map_map _ f). apply map_ext_in. intros i Hi. apply in_seq in Hi.
  unfold vmap. cbn [vertices set_vertices]. rewrite (tiled_blocks vs m n E T) in *.
  assert (Some (block vs (concat (map f (map (block vs (vertices m)) (seq 0 (Z.to_nat n))))) (Z.to_nat (vstart mt) + i)) =
          Some (f (block vs (vertices m) (Z.to_nat (vstart mt) + i)))) as Q; [|now injection Q].
  rewrite block_concat; [|now apply Forall_f|rewrite !map_length, seq_length; lia].
  rewrite !nth_error_map. rewrite (nth_error_nth' (seq 0 (Z.to_nat n)) 0%nat) by (rewrite seq_length; lia).
  now rewrite seq_nth by lia.
Qed.

Lemma vmap_len m : tiled_vertices vs m -> zlen (vertices (vmap m)) = zlen (vertices m).
Proof.
  intros T. assert (Forall (fun v => length v = vs) (flat_map (mat_vertices vs m) (mats m))) as HL.
  { apply Forall_forall. intros v Hv. apply in_flat_map in Hv. destruct Hv as (x & Hx & Hv).
    pose proof (tiled_vin vs m T) as HV'. rewrite Forall_forall in HV'. pose proof (mat_vertices_length vs m x (HV' x Hx)) as H.
    rewrite Forall_forall in H. auto. }
  destruct T as (n & E & T). pose proof (tiles_le _ _ _ T) as Hn. unfold vmap. cbn [vertices set_vertices]. rewrite (concat_len vs) by (now apply Forall_f).
  rewrite E. f_equal. rewrite (tiled_blocks vs m n E T). unfold zlen. rewrite !map_length, seq_length. lia.
Qed.
Lemma vmap_tiled m : tiled_vertices vs m -> tiled_vertices vs (vmap m).
Proof. intros T. pose proof (vmap_len m T) as L. destruct T as (n & E & T). exists n. split; [congruence|exact T]. Qed.
Lemma vmap_in_range m : tiled_vertices vs m -> in_range vs m -> in_range vs (vmap m).
Proof. intros T (H1 & H2). split; [exact H1|]. pose proof (vmap_len m T) as L. unfold mat_in. rewrite L. exact H2. Qed.
Lemma vmap_datas m ms : tiled_vertices vs m -> (forall mt, In mt ms -> In mt (mats m)) -> map (data vs (vmap m)) ms = map pmap (map (data vs m) ms).
Proof. intros T H. rewrite map_map. apply map_ext_in. intros mt Hin. apply vmap_data; auto. Qed.
Lemma vmap_parts m : tiled_vertices vs m -> parts vs (vmap m) = map pmap (parts vs m).
Proof. intros T. unfold parts. change (mats (vmap m)) with (mats m). now apply vmap_datas. Qed.

Lemma pmap_join p q : join (pmap p) (pmap q) = pmap (join p q).
Proof. unfold join, pmap. cbn [fst snd]. now rewrite map_app, zlen_map. Qed.
Lemma pmap_zip l l' : zip_join (map pmap l) (map pmap l') = map pmap (zip_join l l').
Proof. unfold zip_join. rewrite combine_map2, !map_map. apply map_ext. intros (p, q). apply pmap_join. Qed.
Lemma pmap_clears l l' : Forall2 clears (map pmap l) (map pmap l') <-> Forall2 clears l l'.
Proof.
  revert l'. induction l as [|p l IH]; intros [|q l']; cbn; split; intros H; inversion H; subst; constructor; try (now apply IH).
  - unfold clears, pmap in *. cbn [fst snd] in *. now rewrite zlen_map in *.
  - unfold clears, pmap in *. cbn [fst snd] in *. now rewrite zlen_map.
Qed.
Lemma pmap_laid ms ps (a b : Z) : laid a b ms ps -> laid a b ms (map pmap ps).
Proof.
  revert ms a b. induction ps as [|(vl, il) ps IH]; intros [|mt ms] a b; cbn; auto. unfold zlen. rewrite map_length. intros (-> & -> & H1 & H2 & H).
  repeat split; auto.
Qed.
Lemma pmap_all_v ps : all_v (map pmap ps) = map f (all_v ps).
Proof. unfold all_v. induction ps as [|p ps IH]; cbn; [reflexivity|]. now rewrite map_app, IH. Qed.
Lemma pmap_all_i ps : all_i (map pmap ps) = all_i ps.
Proof. unfold all_i. induction ps as [|p ps IH]; cbn; [reflexivity|]. now rewrite IH. Qed.
Lemma all_v_parts m : flat_map (mat_vertices vs m) (mats m) = all_v (parts vs m).
Proof. unfold all_v, parts. rewrite !flat_map_concat_map, map_map. reflexivity. Qed.

Lemma vmap_built a b r : in_range vs a -> in_range vs b -> tiled_vertices vs a -> tiled_vertices vs b ->
  built vs a b r -> built vs (vmap a) (vmap b) (vmap r).
Proof.
  intros R1 R2 T1 T2 B. destruct (built_parts vs a b r R1 R2 B) as (R & EP). destruct B as [B1 B2 B3 B4 B5 B6 B7].
  split; rewrite ?(vmap_parts a), ?(vmap_parts b), ?pmap_zip, ?pmap_all_v, ?pmap_all_i by assumption.
  - exact (pmap_laid _ _ _ _ B1).
  - unfold vmap. cbn [vertices set_vertices]. now rewrite all_v_parts, EP.
  - exact B3.
  - unfold vmap. cbn [vertnum set_vertices]. now rewrite zlen_map.
  - exact B5.
  - exact B6.
  - exact B7.
Qed.

Theorem vmap_merge a b : vertex_size a = Ok (Z.of_nat vs) -> in_range vs a -> in_range vs b -> tiled_vertices vs a -> tiled_vertices vs b ->
  (forall r, merge a b = (r, Merged) -> merge (vmap a) (vmap b) = (vmap r, Merged)) /\
  (forall r', merge (vmap a) (vmap b) = (r', Merged) -> exists r, merge a b = (r, Merged) /\ r' = vmap r).
Proof.
  intros Hs R1 R2 T1 T2.
  assert (forall r, merge a b = (r, Merged) -> merge (vmap a) (vmap b) = (vmap r, Merged)) as G.
  { intros r H. destruct (merged_built vs a b r Hs R1 R2 H) as (HC & C & B).
    destruct (merge_cases vs (vmap a) (vmap b)) as [(_ & m' & E & B')|(N & _)].
    - exact HC.
    - exact Hs.
    - now apply vmap_in_range.
    - now apply vmap_in_range.
    - rewrite E. f_equal. apply (built_unique vs (vmap a) (vmap b) (vmap a) (vmap b)); auto.
      + now apply vmap_built.
      + now repeat split.
    - destruct N. rewrite !vmap_parts by assumption. now apply pmap_clears. }
  split; [exact G|]. intros r' H.
  destruct (merged_built vs (vmap a) (vmap b) r' Hs (vmap_in_range _ T1 R1) (vmap_in_range _ T2 R2) H) as (HC & C & B).
  destruct (merge_cases vs a b HC Hs R1 R2) as [(_ & m' & E & _)|(N & _)].
  - exists m'. split; [exact E|]. rewrite (G _ E) in H. congruence.
  - destruct N. rewrite !vmap_parts in C by assumption. now apply pmap_clears.
Qed.

(** The mesh made by merging is again suitable. *)
Lemma merged_tiled a b r : vertex_size a = Ok (Z.of_nat vs) -> in_range vs a -> in_range vs b ->
  merge a b = (r, Merged) -> packed vs r /\ same_header a r /\ vertex_attributes b = vertex_attributes a /\
  flat_map (mat_vertices vs r) (mats r) = all_v (zip_join (parts vs a) (parts vs b)) /\ length (mats a) = length (mats b).
Proof.
  intros Hs R1 R2 H. destruct (merged_built vs a b r Hs R1 R2 H) as (HC & C & B).
  destruct (built_packed vs a b r R1 R2 B) as (P & _). split; [exact P|]. split; [apply B|]. split; [symmetry; apply HC|].
  split; [|apply Forall2_len in C; unfold parts in C; now rewrite !map_length in C].
  rewrite all_v_parts. f_equal. apply (built_parts vs a b r R1 R2 B).
Qed.

(** ** Reordering *)
Lemma vmap_reordered m ks m1 : in_range vs m -> tiled_vertices vs m -> reordered vs m ks m1 -> reordered vs (vmap m) ks (vmap m1).
Proof.
  intros R T RO. pose proof (reordered_parts vs m ks m1 R RO) as (PK & _). pose proof (packed_laid vs m1 PK) as (_ & V & _).
  assert (forall mt, In mt (mats_of (pick (geoms m) ks)) -> In mt (mats m)) as HI.
  { intros x Hx. unfold mats, mats_of in *. apply in_flat_map in Hx. destruct Hx as (h & Hh & Hx). apply in_flat_map. exists h. split; [|exact Hx].
    unfold pick in Hh. apply in_flat_map in Hh. destruct Hh as (k0 & _ & Hh).
    destruct (nth_error (geoms m) k0) eqn:E0; [|contradiction]. destruct Hh as [<-|[]]. now apply nth_error_In in E0. }
  pose proof (laid_packed vs m1 _ (r_laid _ _ _ _ RO)) as LP.
  assert (parts vs m1 = map (data vs m) (mats_of (pick (geoms m) ks))) as EP.
  { unfold parts. unfold mats. rewrite !mats_data. f_equal. now rewrite (reordered_dgeom vs m ks m1 R RO). }
  destruct RO as [B1 B2 B3 B4 B5 B6].
  split; change (geoms (vmap m)) with (geoms m); change (geoms (vmap m1)) with (geoms m1); change (mats (vmap m1)) with (mats m1);
    rewrite ?(vmap_datas m), ?pmap_all_v, ?pmap_all_i by assumption.
  - now apply pmap_laid.
  - unfold vmap at 1. cbn [vertices set_vertices]. now rewrite all_v_parts, EP.
  - exact B3.
  - exact B4.
  - exact B5.
  - exact B6.
Qed.

Theorem vmap_reorder m order ks : vertex_size m = Ok (Z.of_nat vs) -> (0 < vs)%nat -> in_range vs m -> tiled_vertices vs m ->
  sumZ vnum (mats m) <= 2 ^ 53 -> permutes (length (geoms m)) order ks ->
  exists m1, change_geoms_order m order = (m1, None) /\ change_geoms_order (vmap m) order = (vmap m1, None) /\
    packed vs m1 /\ same_header m m1 /\
    incl (flat_map (mat_vertices vs m1) (mats m1)) (flat_map (mat_vertices vs m) (mats m)).
Proof.
  intros Hs Hv R T B P. destruct (reorder_ok vs m order ks Hs Hv R B P) as (m1 & E & RO). exists m1. split; [exact E|].
  destruct (reorder_ok vs (vmap m) order ks) as (m2 & E2 & RO2); auto using vmap_in_range.
  split; [|split; [|split]].
  - rewrite E2. f_equal. apply (reordered_unique vs (vmap m) ks m2 (vmap m1) ks (vmap m)); auto using vmap_reordered; now repeat split.
  - apply (reordered_parts vs m ks m1 R RO).
  - apply RO.
  - intros v Hv'. apply in_flat_map in Hv'. destruct Hv' as (x & Hx & Hvx).
    assert (In (data vs m1 x) (map (data vs m) (mats_of (pick (geoms m) ks)))) as HD.
    { assert (parts vs m1 = map (data vs m) (mats_of (pick (geoms m) ks))) as EP.
      { unfold parts. unfold mats. rewrite !mats_data. f_equal. now rewrite (reordered_dgeom vs m ks m1 R RO). }
      rewrite <- EP. now apply in_map. }
    apply in_map_iff in HD. destruct HD as (y & EY & Hy). unfold data in EY. injection EY as EY _. apply in_flat_map.
    exists y. split; [|now rewrite EY]. unfold mats, mats_of in *. apply in_flat_map in Hy. destruct Hy as (h & Hh & Hy). apply in_flat_map. exists h. split; [|exact Hy].
    unfold pick in Hh. apply in_flat_map in Hh. destruct Hh as (k0 & _ & Hh).
    destruct (nth_error (geoms m) k0) eqn:E0; [|contradiction]. destruct Hh as [<-|[]]. now apply nth_error_In in E0.
Qed.
End VMap.
