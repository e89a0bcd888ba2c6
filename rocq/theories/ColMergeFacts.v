(** Property C46: merging and translating collision meshes. *)
From Coq Require Import ZArith List Bool Lia Reals Relations.
From Verif Require Import PyBase Struct Mesh Arith Edit Spec SpecEdit CodecRaw BoundFacts Col ColFacts SpecBounds SpecCol.
Import ListNotations.
Open Scope Z_scope.

(** ** The heap *)
Lemma set_nth_length {A} (l : list A) k v : length (set_nth l k v) = length l.
Proof. revert k; induction l as [|x t IH]; intros [|k]; cbn; auto. Qed.
Lemma nth_set_nth {A} (l : list A) k v d j : nth j (set_nth l k v) d = if (j =? k)%nat && (k <? length l)%nat then v else nth j l d.
Proof.
  revert k j; induction l as [|x t IH]; intros k j.
  - rewrite andb_comm. now destruct k, j.
  - destruct k as [|k], j as [|j]; try reflexivity. apply IH.
Qed.
Lemma heap_add_length n h a : length (heap_add n h a) = length h.
Proof. apply set_nth_length. Qed.
Lemma deref_add n h a x : deref (heap_add n h a) x = if (x =? a)%nat && (a <? length h)%nat then shifted n (deref h a) else deref h x.
Proof. unfold deref, heap_add. rewrite nth_set_nth. reflexivity. Qed.

Lemma merge_faces_spec n : forall theirs h mine h' l, merge_faces n h mine theirs = (h', l) ->
  l = mine ++ theirs /\ length h' = length h /\ (forall x, ~ In x theirs -> deref h' x = deref h x) /\
  (NoDup theirs -> Forall (fun x => (x < length h)%nat) theirs -> forall x, In x theirs -> deref h' x = shifted n (deref h x)).
Proof.
  induction theirs as [|a t IH]; intros h mine h' l H; cbn in H.
  - injection H as <- <-. rewrite app_nil_r. repeat split; auto. intros _ _ x [].
  - destruct (IH _ _ _ _ H) as (-> & L & O & S). rewrite heap_add_length in *. rewrite <- app_assoc. split; [reflexivity|].
    split; [exact L|]. split.
    + intros x Hx. rewrite O by (intros X; apply Hx; now right). rewrite deref_add.
      destruct (Nat.eqb_spec x a) as [->|]; [exfalso; apply Hx; now left|reflexivity].
    + intros ND FA x Hx. inversion ND as [|? ? NI ND']; subst. inversion FA as [|? ? LA FA']; subst. destruct Hx as [<-|Hx].
      * rewrite O by exact NI. rewrite deref_add, Nat.eqb_refl. now replace (a <? length h)%nat with true by (symmetry; now apply Nat.ltb_lt).
      * rewrite S by auto. rewrite deref_add. destruct (Nat.eqb_spec x a) as [->|]; [contradiction|reflexivity].
Qed.

Section Merge.
Context {F : Type} (A : arith F).
Implicit Types (h : heap).

(** What a merge does at one level of the tree. *)
Record merges {X Y} (mrg : heap -> X -> X -> heap * X * option exn) (addrs : X -> list nat) (vw : heap -> X -> Y)
       (W : X -> X -> Prop) (M : Y -> Y -> Y -> Prop) (sh : Y -> Y) : Prop := {
  mg_view : forall h h' x, (forall a, In a (addrs x) -> deref h a = deref h' a) -> vw h x = vw h' x;
  mg_run : forall h x y h' x' r, apart h (addrs x) (addrs y) -> mrg h x y = (h', x', r) ->
    length h' = length h /\ (forall a, ~ In a (addrs y) -> deref h' a = deref h a) /\
    (r = None \/ r = Some EIndex) /\ (r = None <-> W x y) /\
    (r = None -> M (vw h x) (vw h y) (vw h' x') /\ vw h' y = sh (vw h y) /\ incl (addrs x') (addrs x ++ addrs y)) }.

Lemma apart_app h a1 a2 b1 b2 : apart h (a1 ++ a2) (b1 ++ b2) -> apart h a1 b1 /\ apart h a2 b2 /\
  (forall x, In x b1 -> ~ In x b2) /\ (forall x, In x a1 -> ~ In x b2) /\ (forall x, In x a2 -> ~ In x b1).
Proof.
  intros (N & R & D). rewrite Forall_app in R, D. destruct R as (R1 & R2), D as (D1 & D2). rewrite !Forall_forall in D1, D2.
  assert (NoDup b1 /\ NoDup b2 /\ forall x, In x b1 -> ~ In x b2) as (N1 & N2 & N3).
  { clear - N. induction b1 as [|c t IH]; cbn in *; [repeat split; auto; constructor|]. inversion N as [|? ? NI ND]; subst.
    destruct (IH ND) as (I1 & I2 & I3). rewrite in_app_iff in NI. split; [constructor; tauto|]. split; [exact I2|].
    intros x [<-|Hx]; auto. }
  unfold apart. rewrite !Forall_forall in *.
  split; [split; [exact N1|split; [exact R1|]]|]; [intros x Hx X; apply (D1 x Hx), in_app_iff; now left|].
  split; [split; [exact N2|split; [exact R2|]]|]; [intros x Hx X; apply (D2 x Hx), in_app_iff; now right|].
  split; [exact N3|]. split; intros x Hx X; [apply (D1 x Hx)|apply (D2 x Hx)]; apply in_app_iff; auto.
Qed.

Lemma merges_each {X Y} mrg addrs (vw : heap -> X -> Y) W M sh : merges mrg addrs vw W M sh ->
  merges (merge_each mrg) (flat_map addrs) (fun h => map (vw h)) (each_within W) (each_merged M) (map sh).
Proof.
  intros (V & R). split.
  - intros h h' xs H. apply map_ext_in. intros x Hx. apply V. intros a Ha. apply H. apply in_flat_map. eauto.
  - intros h xs ys. revert h xs. induction ys as [|y ys IH]; intros h xs h' xs' r AP H.
    + cbn in H. assert (h' = h /\ xs' = xs /\ r = None) as (-> & -> & ->) by (destruct xs; now injection H as <- <- <-).
      split; [reflexivity|]. split; [auto|]. split; [auto|]. split; [split; [constructor|auto]|]. intros _.
      split; [constructor|]. split; [reflexivity|]. cbn. rewrite app_nil_r. apply incl_refl.
    + destruct xs as [|x xs]; cbn [merge_each] in H.
      { injection H as <- <- <-. split; [reflexivity|]. split; [auto|]. split; [auto|]. split; [|discriminate].
        split; [discriminate|inversion 1]. }
      cbn [flat_map] in AP. destruct (apart_app _ _ _ _ _ AP) as (AP1 & AP2 & D1 & D2 & D3).
      destruct (mrg h x y) as ((h1, x1), r1) eqn:E1. destruct (R _ _ _ _ _ _ AP1 E1) as (L1 & O1 & C1 & I1 & S1).
      destruct r1 as [e|].
      { injection H as <- <- <-. split; [exact L1|]. split; [intros a Ha; apply O1; intros X0; apply Ha, in_app_iff; now left|].
        split; [exact C1|]. split; [|discriminate]. split; [discriminate|]. inversion 1 as [|? ? ? ? WX]; subst. apply I1 in WX. discriminate. }
      destruct (merge_each mrg h1 xs ys) as ((h2, xs2), r2) eqn:E2. injection H as <- <- <-.
      assert (apart h1 (flat_map addrs xs) (flat_map addrs ys)) as AP2'.
      { destruct AP2 as (Q1 & Q2 & Q3). split; [exact Q1|]. split; [now rewrite L1|exact Q3]. }
      destruct (IH _ _ _ _ _ AP2' E2) as (L2 & O2 & C2 & I2 & S2).
      split; [congruence|]. split.
      { intros a Ha. cbn [flat_map] in Ha. rewrite in_app_iff in Ha. rewrite O2, O1 by tauto. reflexivity. }
      split; [exact C2|]. split.
      { rewrite I2. split; [intros WT; constructor; [now apply I1|exact WT]|]. now inversion 1. }
      intros ->. destruct (S1 eq_refl) as (M1 & T1 & N1). destruct (S2 eq_refl) as (M2 & T2 & N2).
      assert (map (vw h1) xs = map (vw h) xs) as EX.
      { apply map_ext_in. intros z Hz. apply V. intros a Ha. apply O1. apply D3. apply in_flat_map. eauto. }
      assert (map (vw h1) ys = map (vw h) ys) as EY.
      { apply map_ext_in. intros z Hz. apply V. intros a Ha. apply O1. intros X0. apply (D1 a X0). apply in_flat_map. eauto. }
      assert (vw h2 x1 = vw h1 x1) as EX1.
      { apply V. intros a Ha. apply O2. apply N1 in Ha. apply in_app_iff in Ha. destruct Ha; auto. }
      assert (vw h2 y = vw h1 y) as EY1 by (apply V; intros a Ha; apply O2; auto).
      rewrite EX, EY in M2. rewrite EY in T2. cbn [map flat_map]. rewrite EX1, EY1, T1, T2. split; [constructor; auto|]. split; [reflexivity|].
      intros a Ha. apply in_app_iff in Ha. destruct Ha as [Ha|Ha]; [apply N1 in Ha|apply N2 in Ha]; rewrite !in_app_iff in *; tauto.
Qed.

Lemma vec3_id (v : vec3 F) : vec3_map (fun x => x) v = v. Proof. now destruct v as ((?, ?), ?). Qed.
Lemma map_vec3 (l : list (vec3 F)) : map (vec3_map (fun x => x)) l = l.
Proof. rewrite <- (map_id l) at 2. apply map_ext. apply vec3_id. Qed.
Lemma map_ys (l : list (ystruct F)) : map (ystruct_map (fun x => x)) l = l.
Proof. rewrite <- (map_id l) at 2. apply map_ext. now intros []. Qed.
Lemma lod_view_eq h (l : collod F nat) : lod_view h l =
  {| cl_type := cl_type l; cl_facenum := cl_facenum l; cl_faces := map (deref h) (cl_faces l);
     cl_vertnum := cl_vertnum l; cl_vertices := cl_vertices l; cl_vertids := cl_vertids l;
     cl_min := cl_min l; cl_max := cl_max l; cl_u7 := cl_u7 l; cl_bmin := cl_bmin l; cl_bmax := cl_bmax l;
     cl_ynum := cl_ynum l; cl_ydata := cl_ydata l; cl_znum := cl_znum l; cl_zdata := cl_zdata l;
     cl_anum := cl_anum l; cl_adata := cl_adata l |}.
Proof. unfold lod_view, collod_map. now rewrite map_vec3, map_ys, !vec3_id. Qed.
Lemma lod_shifted_eq (l : collod F colface) : lod_shifted l =
  {| cl_type := cl_type l; cl_facenum := cl_facenum l; cl_faces := map (shifted (cl_vertnum l)) (cl_faces l);
     cl_vertnum := cl_vertnum l; cl_vertices := cl_vertices l; cl_vertids := cl_vertids l;
     cl_min := cl_min l; cl_max := cl_max l; cl_u7 := cl_u7 l; cl_bmin := cl_bmin l; cl_bmax := cl_bmax l;
     cl_ynum := cl_ynum l; cl_ydata := cl_ydata l; cl_znum := cl_znum l; cl_zdata := cl_zdata l;
     cl_anum := cl_anum l; cl_adata := cl_adata l |}.
Proof. unfold lod_shifted, collod_map. now rewrite map_vec3, map_ys, !vec3_id. Qed.

Lemma merge_collod_run h (a b : collod F nat) h' c : apart h (cl_faces a) (cl_faces b) -> merge_collod A h a b = (h', c) ->
  length h' = length h /\ (forall x, ~ In x (cl_faces b) -> deref h' x = deref h x) /\
  lod_merged (lod_view h a) (lod_view h b) (lod_view h' c) /\ lod_view h' b = lod_shifted (lod_view h b) /\
  cl_faces c = cl_faces a ++ cl_faces b.
Proof.
  intros (ND & RG & DJ) H. unfold merge_collod in H. destruct (merge_faces (cl_vertnum b) h (cl_faces a) (cl_faces b)) as (h1, l) eqn:E.
  injection H as <- <-. destruct (merge_faces_spec _ _ _ _ _ _ E) as (-> & L & O & S). specialize (S ND RG).
  split; [exact L|]. split; [exact O|]. rewrite Forall_forall in DJ.
  assert (map (deref h1) (cl_faces b) = map (shifted (cl_vertnum b)) (map (deref h) (cl_faces b))) as EB
    by (rewrite map_map; apply map_ext_in; exact S).
  split; [|split; [|reflexivity]].
  - rewrite !lod_view_eq. unfold lod_merged. cbn. split; [reflexivity|]. split; [reflexivity|]. split; [reflexivity|]. split; [|repeat split].
    rewrite map_app. f_equal; [|exact EB]. apply map_ext_in. intros x Hx. apply O. auto.
  - rewrite lod_shifted_eq, !lod_view_eq. cbn. now rewrite EB.
Qed.

Lemma lod_view_ext h h' (x : collod F nat) : (forall a, In a (cl_faces x) -> deref h a = deref h' a) -> lod_view h x = lod_view h' x.
Proof. intros H. rewrite !lod_view_eq. f_equal. now apply map_ext_in. Qed.
Lemma merges_lod : merges (fun h (x y : collod F nat) => let '(h', x') := merge_collod A h x y in (h', x', None)) cl_faces lod_view
  (fun _ _ => True) lod_merged lod_shifted.
Proof.
  split; [exact lod_view_ext|].
  intros h x y h' x' r AP H. destruct (merge_collod A h x y) as (h1, c) eqn:E. injection H as <- <- <-.
  destruct (merge_collod_run _ _ _ _ _ AP E) as (L & O & M & S & EF).
  split; [exact L|]. split; [exact O|]. split; [auto|]. split; [tauto|]. intros _. split; [exact M|]. split; [exact S|].
  rewrite EF. apply incl_refl.
Qed.

Definition sub_view h (s : colsub F nat) : colsub F colface := colsub_map (fun x => x) (deref h) s.
Definition geom_view h (s : colgeom F nat) : colgeom F colface := colgeom_map (fun x => x) (deref h) s.
Definition sub_shifted (s : colsub F colface) : colsub F colface := {| cs_lodnum := cs_lodnum s; cs_lods := map lod_shifted (cs_lods s) |}.
Definition geom_shifted (g : colgeom F colface) : colgeom F colface := {| cg_subnum := cg_subnum g; cg_subs := map sub_shifted (cg_subs g) |}.

Lemma merges_sub : merges (merge_colsub A) (fun s => flat_map cl_faces (cs_lods s)) sub_view sub_within sub_merged sub_shifted.
Proof.
  destruct (merges_each _ _ _ _ _ _ merges_lod) as (V & R). split.
  - intros h h' x H. unfold sub_view, colsub_map. f_equal. apply (V h h' (cs_lods x) H).
  - intros h x y h' x' r AP H. unfold merge_colsub in H.
    destruct (merge_each _ h (cs_lods x) (cs_lods y)) as ((h1, l), r1) eqn:E. injection H as <- <- <-.
    destruct (R _ _ _ _ _ _ AP E) as (L & O & C & I & S). split; [exact L|]. split; [exact O|]. split; [exact C|]. split; [exact I|].
    intros HR. destruct (S HR) as (M & T & N). split; [split; [reflexivity|exact M]|]. split; [|exact N].
    unfold sub_view, colsub_map, sub_shifted. cbn. f_equal. exact T.
Qed.
Lemma flat_map_flat_map {X Y W} (f : X -> list Y) (g : Y -> list W) l : flat_map g (flat_map f l) = flat_map (fun x => flat_map g (f x)) l.
Proof. induction l as [|x t IH]; cbn; [reflexivity|]. now rewrite flat_map_app, IH. Qed.
Lemma merges_geom : merges (merge_colgeom A) (fun s => flat_map cl_faces (geom_lods s)) geom_view geom_within geom_merged geom_shifted.
Proof.
  destruct (merges_each _ _ _ _ _ _ merges_sub) as (V & R). split.
  - intros h h' x H. unfold geom_view, colgeom_map. f_equal. unfold geom_lods in H. rewrite flat_map_flat_map in H. apply (V h h' (cg_subs x) H).
  - intros h x y h' x' r AP H. unfold merge_colgeom in H.
    destruct (merge_each _ h (cg_subs x) (cg_subs y)) as ((h1, l), r1) eqn:E. injection H as <- <- <-.
    unfold geom_lods in *. rewrite !flat_map_flat_map in *.
    destruct (R _ _ _ _ _ _ AP E) as (L & O & C & I & S). split; [exact L|]. split; [exact O|]. split; [exact C|]. split; [exact I|].
    intros HR. destruct (S HR) as (M & T & N). split; [split; [reflexivity|exact M]|]. split; [|exact N].
    unfold geom_view, colgeom_map, geom_shifted. cbn. f_equal. exact T.
Qed.

(** ** The main theorem *)
Theorem col_merge_run h (a b : colmesh F nat) h' c r : apart h (col_faces a) (col_faces b) -> col_merge A h a b = (h', c, r) ->
  (r = None \/ r = Some EIndex) /\ (r = None <-> within a b) /\ length h' = length h /\
  (forall x, ~ In x (col_faces b) -> deref h' x = deref h x) /\
  (r = None -> col_merged (view h a) (view h b) (view h' c) /\ view h' b = mesh_shifted (view h b) /\ incl (col_faces c) (col_faces a ++ col_faces b)).
Proof.
  intros AP H. unfold col_merge in H. destruct (merge_each _ h (cm_geoms a) (cm_geoms b)) as ((h1, l), r1) eqn:E. injection H as <- <- <-.
  destruct (merges_each _ _ _ _ _ _ merges_geom) as (V & R).
  unfold col_faces, col_lods in *. rewrite !flat_map_flat_map in *.
  destruct (R _ _ _ _ _ _ AP E) as (L & O & C & I & S). split; [exact C|]. split; [exact I|]. split; [exact L|]. split; [exact O|].
  intros HR. destruct (S HR) as (M & T & N). split; [repeat (split; [reflexivity|]); exact M|]. split; [|exact N].
  unfold view, faces_map, colmesh_map, mesh_shifted. cbn. f_equal. exact T.
Qed.

(** Merging the same lod into two others: the first one changes again. *)
Theorem merged_twice h (a b c a' c' : collod F nat) h1 h2 :
  apart h (cl_faces a) (cl_faces b) -> apart h (cl_faces c) (cl_faces b) ->
  merge_collod A h a b = (h1, a') -> merge_collod A h1 c b = (h2, c') ->
  let n := cl_vertnum b in
  cl_faces (lod_view h1 a') = cl_faces (lod_view h a) ++ map (shifted n) (cl_faces (lod_view h b)) /\
  cl_faces (lod_view h2 a') = cl_faces (lod_view h a) ++ map (shifted (n + n)) (cl_faces (lod_view h b)) /\
  cl_faces (lod_view h2 c') = cl_faces (lod_view h c) ++ map (shifted (n + n)) (cl_faces (lod_view h b)).
Proof.
  intros AP1 AP2 E1 E2 n. destruct (merge_collod_run _ _ _ _ _ AP1 E1) as (L1 & O1 & M1 & S1 & EF1).
  assert (apart h1 (cl_faces c) (cl_faces b)) as AP2' by (destruct AP2 as (Q1 & Q2 & Q3); split; [exact Q1|split; [now rewrite L1|exact Q3]]).
  destruct (merge_collod_run _ _ _ _ _ AP2' E2) as (L2 & O2 & M2 & S2 & EF2).
  destruct AP1 as (N1 & R1 & D1), AP2 as (N2 & R2 & D2). rewrite Forall_forall in D1, D2.
  assert (map (deref h1) (cl_faces b) = map (shifted n) (map (deref h) (cl_faces b))) as B1.
  { apply (f_equal cl_faces) in S1. rewrite lod_shifted_eq, !lod_view_eq in S1. exact S1. }
  assert (map (deref h2) (cl_faces b) = map (shifted (n + n)) (map (deref h) (cl_faces b))) as B2.
  { apply (f_equal cl_faces) in S2. rewrite lod_shifted_eq, !lod_view_eq in S2. cbn in S2. rewrite S2, B1, !map_map. apply map_ext.
    intros x. unfold shifted. cbn. now rewrite !Z.add_assoc. }
  rewrite !lod_view_eq. cbn [cl_faces]. rewrite EF1, EF2, !map_app, B1, B2.
  assert (forall x, In x (cl_faces a) -> deref h1 x = deref h x) as X1 by (intros; apply O1; auto).
  assert (forall x, In x (cl_faces a) -> deref h2 x = deref h1 x) as X2 by (intros; apply O2; auto).
  assert (forall x, In x (cl_faces c) -> deref h1 x = deref h x) as X3 by (intros; apply O1; auto).
  assert (forall x, In x (cl_faces c) -> deref h2 x = deref h1 x) as X4 by (intros; apply O2; auto).
  split; [f_equal; now apply map_ext_in|]. split; f_equal; apply map_ext_in; intros x Hx.
  - now rewrite X2, X1.
  - now rewrite X4, X3.
Qed.

(** ** Triangles *)
Lemma corner_app_l (vs ws : list (vec3 F)) n : 0 <= n < zlen vs -> corner (vs ++ ws) n = corner vs n.
Proof. unfold corner, zlen. intros H. replace (n <? 0) with false by lia. rewrite nth_error_app1 by lia. reflexivity. Qed.
Lemma corner_app_r (vs ws : list (vec3 F)) n : 0 <= n -> corner (vs ++ ws) (n + zlen vs) = corner ws n.
Proof.
  unfold corner, zlen. intros H. replace (n <? 0) with false by lia. destruct (Z.ltb_spec (n + Z.of_nat (length vs)) 0); [lia|].
  rewrite nth_error_app2 by lia. f_equal. lia.
Qed.
Theorem merged_triangles (a b c : collod F colface) : faces_ok a -> faces_ok b -> lod_merged a b c -> cl_vertnum a = cl_vertnum b ->
  triangles c = triangles a ++ triangles b.
Proof.
  intros (A1 & A2) (B1 & B2) (_ & _ & _ & MF & _ & MV & _) E. unfold triangles. rewrite MF, map_app, map_map. f_equal.
  - apply map_ext_in. intros f Hf. rewrite Forall_forall in A2. destruct (A2 f Hf) as (V1 & V2 & V3). unfold corners. rewrite MV.
    rewrite !corner_app_l by lia. reflexivity.
  - apply map_ext_in. intros f Hf. rewrite Forall_forall in B2. destruct (B2 f Hf) as (V1 & V2 & V3). unfold corners. rewrite MV.
    cbn [shifted cf_v1 cf_v2 cf_v3]. rewrite <- E, A1, !corner_app_r by lia. reflexivity.
Qed.
(** The faces of [a] always keep their corners. *)
Theorem merged_triangles_mine (a b c : collod F colface) : faces_ok a -> lod_merged a b c ->
  firstn (length (cl_faces a)) (triangles c) = triangles a.
Proof.
  intros (A1 & A2) (_ & _ & _ & MF & _ & MV & _). unfold triangles. rewrite MF, map_app, firstn_app, map_length, Nat.sub_diag.
  rewrite firstn_O, app_nil_r. rewrite firstn_all2 by (rewrite map_length; lia).
  apply map_ext_in. intros f Hf. rewrite Forall_forall in A2. destruct (A2 f Hf) as (V1 & V2 & V3). unfold corners. rewrite MV.
  rewrite !corner_app_l by lia. reflexivity.
Qed.
(** If [b] has more vertices, those of its faces that use the last ones point nowhere. *)
Theorem merged_dangling (a b c : collod F colface) : faces_ok a -> faces_ok b -> lod_merged a b c -> forall k f,
  nth_error (cl_faces b) k = Some f -> cl_vertnum a <= cf_v1 f ->
  exists f', nth_error (cl_faces c) (length (cl_faces a) + k) = Some f' /\ corner (cl_vertices c) (cf_v1 f') = None.
Proof.
  intros (A1 & A2) (B1 & B2) (_ & _ & _ & MF & _ & MV & _) k f Hk HV. exists (shifted (cl_vertnum b) f). split.
  - rewrite MF, nth_error_app2 by lia. replace (length (cl_faces a) + k - length (cl_faces a))%nat with k by lia. now apply map_nth_error.
  - unfold corner. destruct (_ <? 0); [reflexivity|]. apply nth_error_None. rewrite MV, app_length. cbn [shifted cf_v1]. unfold zlen in *. lia.
Qed.

(** ** Bounds *)
Lemma lower3_min (c v : vec3 F) : lower3 A c v = vmin3 A v c.
Proof. now destruct c as ((?, ?), ?), v as ((?, ?), ?). Qed.
Lemma upper3_max (c v : vec3 F) : upper3 A c v = vmax3 A v c.
Proof. now destruct c as ((?, ?), ?), v as ((?, ?), ?). Qed.
Lemma fold_low l (a : vec3 F) : fold_left (lower3 A) l a = low A l a.
Proof. unfold low. revert a. induction l as [|q t IH]; intros a; cbn; [reflexivity|]. now rewrite IH, lower3_min. Qed.
Lemma fold_high l (a : vec3 F) : fold_left (upper3 A) l a = high A l a.
Proof. unfold high. revert a. induction l as [|q t IH]; intros a; cbn; [reflexivity|]. now rewrite IH, upper3_max. Qed.
Lemma good_axis good (v : vec3 F) i : vec3_all good v -> In i axes -> good (axis i v).
Proof. destruct v as ((x, y), z). intros (? & ? & ?) [<-|[<-|[<-|[]]]]; assumption. Qed.
Lemma grown_low_high good val : ordered A good val -> forall l lo hi, Forall (vec3_all good) l -> vec3_all good lo -> vec3_all good hi ->
  grown A l lo hi (low A l lo) (high A l hi).
Proof.
  intros O l lo hi Hl Hlo Hhi i Hi.
  assert (Forall (good3 good) l) as G by (revert Hl; apply Forall_impl; intros v Hv j Hj; now apply good_axis).
  destruct (low_le A good val O i Hi l lo G (good_axis _ _ _ Hlo Hi)) as (L1 & L2).
  destruct (high_le A good val O i Hi l hi G (good_axis _ _ _ Hhi Hi)) as (H1 & H2).
  split; [exact L1|]. split; [exact H1|]. split; [auto|]. split; [apply low_attained|apply high_attained].
Qed.
Theorem merged_bounds good val : ordered A good val -> forall h (a b : collod F nat) h' c, merge_collod A h a b = (h', c) ->
  Forall (vec3_all good) (cl_vertices a ++ cl_vertices b) -> vec3_all good (cl_min a) -> vec3_all good (cl_max a) ->
  vec3_all good (cl_bmin a) -> vec3_all good (cl_bmax a) ->
  grown A (cl_vertices a ++ cl_vertices b) (cl_min a) (cl_max a) (cl_min c) (cl_max c) /\
  grown A (cl_vertices a ++ cl_vertices b) (cl_bmin a) (cl_bmax a) (cl_bmin c) (cl_bmax c).
Proof.
  intros O h a b h' c H HV H1 H2 H3 H4. unfold merge_collod in H. destruct (merge_faces _ _ _ _) as (h1, l). injection H as _ <-.
  cbn [cl_min cl_max cl_bmin cl_bmax]. rewrite !fold_low, !fold_high. split; eapply grown_low_high; eauto.
Qed.

(** ** Saving a merged mesh *)
Lemma each_merged_Forall {X} (M : X -> X -> X -> Prop) (P Q : X -> Prop) xs ys zs : each_merged M xs ys zs ->
  (forall x y z, M x y z -> P x -> P y -> Q z -> P z) -> Forall P xs -> Forall P ys -> Forall Q zs -> Forall P zs.
Proof.
  intros H K. induction H; intros H1 H2 H3; [exact H1|]. inversion H1; inversion H2; inversion H3; subst. constructor; eauto.
Qed.
Lemma each_merged_length {X} (M : X -> X -> X -> Prop) xs ys zs : each_merged M xs ys zs -> length zs = length xs.
Proof. induction 1; cbn; congruence. Qed.
Lemma counted_exact {X} p n (l : list X) : is_long p n -> n = zlen l -> counted0 p n l.
Proof. intros H ->. split; [exact H|]. unfold zlen. lia. Qed.

Lemma merged_lod_wf p v (a b c : collod F colface) : lod_merged a b c ->
  (wf_collod p v a /\ exact_lod a) -> (wf_collod p v b /\ exact_lod b) -> lod_fits p c -> wf_collod p v c /\ exact_lod c.
Proof.
  intros (M1 & M2 & M3 & M4 & M5 & M6 & M7 & M8 & M9 & M10 & M11 & M12 & M13)
    ((A1 & A2 & A3 & A4 & A5 & A6 & A7 & A8 & A9 & A10 & A11 & A12) & (EA1 & EA2 & EA3 & EA4 & EA5))
    ((B1 & B2 & B3 & B4 & B5 & B6 & B7 & B8 & B9 & B10 & B11 & B12) & (EB1 & EB2 & EB3 & EB4 & EB5))
    (F1 & F2 & F3 & F4 & F5 & F6).
  assert (exact_lod c) as EC.
  { unfold exact_lod, zlen in *. rewrite M3, M4, M5, M6, M8, M9, M10, M11, M12, M13, !app_length, map_length. lia. }
  split; [|exact EC]. destruct EC as (EC1 & EC2 & EC3 & EC4 & EC5).
  unfold wf_collod. rewrite M1, M2. split; [exact A1|]. split; [now apply counted_exact|]. split; [exact F6|].
  split; [now apply counted_exact|]. split; [rewrite M7, app_length, M5; unfold zlen in *; lia|].
  split; [rewrite M7; apply Forall_app; auto|]. split; [exact A7|]. split; [now apply counted_exact|].
  split; [rewrite M9; apply Forall_app; auto|]. split; [now apply counted_exact|]. split; [rewrite M11; apply Forall_app; auto|].
  destruct (10 <=? v).
  - destruct A12 as (_ & A12), B12 as (_ & B12). split; [now apply counted_exact|]. rewrite M13. apply Forall_app; auto.
  - destruct A12 as (A12 & A13), B12 as (B12 & B13). rewrite M12, M13, A12, A13, B12, B13. auto.
Qed.
Theorem merged_wf p (a b c : colmesh F colface) : wf_col p a -> wf_col p b -> Forall exact_lod (col_lods a) -> Forall exact_lod (col_lods b) ->
  cm_version a = cm_version b -> col_merged a b c -> Forall (lod_fits p) (col_lods c) -> wf_col p c.
Proof.
  intros (W1 & W2 & (W3 & W3') & W4) (V1 & V2 & V3 & V4) EA EB EV (M1 & M2 & M3 & M4) FC.
  unfold col_lods, geom_lods in *. rewrite Forall_flat_map in EA, EB, FC. unfold wf_col. rewrite M1, M2, M3.
  split; [exact W1|]. split; [exact W2|]. split; [split; [exact W3|rewrite <- W3'; eapply each_merged_length; exact M4]|].
  rewrite <- EV in V4. generalize dependent (cm_version a). intros v _ W4 EV M2 V4.
  enough (Forall (fun g => wf_colgeom p v g /\ Forall exact_lod (flat_map cs_lods (cg_subs g))) (cm_geoms c)) as X
    by (now apply Forall_and_inv in X).
  eapply each_merged_Forall with (Q := fun g => Forall (lod_fits p) (flat_map cs_lods (cg_subs g))); [exact M4| |apply Forall_and; auto|apply Forall_and; auto|exact FC].
  clear. intros a b c (M1 & M2) (((W1 & W1') & W2) & EA) (((V1 & V1') & V2) & EB) FC. rewrite Forall_flat_map in *.
  enough (Forall (fun s => wf_colsub p v s /\ Forall exact_lod (cs_lods s)) (cg_subs c)) as X.
  { apply Forall_and_inv in X. destruct X as (X1 & X2). split; [|exact X2]. split; [|exact X1]. split; [now rewrite M1|].
    rewrite M1, <- W1'. eapply each_merged_length. exact M2. }
  eapply each_merged_Forall with (Q := fun s => Forall (lod_fits p) (cs_lods s)); [exact M2| |apply Forall_and; auto|apply Forall_and; auto|exact FC].
  clear. intros a b c (M1 & M2) (((W1 & W1') & W2) & EA) (((V1 & V1') & V2) & EB) FC.
  enough (Forall (fun l => wf_collod p v l /\ exact_lod l) (cs_lods c)) as X.
  { apply Forall_and_inv in X. destruct X as (X1 & X2). split; [|exact X2]. split; [|exact X1]. split; [now rewrite M1|].
    rewrite M1, <- W1'. eapply each_merged_length. exact M2. }
  eapply each_merged_Forall with (Q := lod_fits p); [exact M2| |apply Forall_and; auto|apply Forall_and; auto|exact FC].
  clear. intros a b c M HA HB HC. eapply merged_lod_wf; eauto.
Qed.

(** ** Merging a lod with itself *)
Theorem self_merge_never_ends n (l : list nat) h : l <> [] -> forall s, clos_refl_trans_1n _ (self_step n) (0%nat, l, h) s -> exists s', self_step n s s'.
Proof.
  intros NE. assert (forall s s', clos_refl_trans_1n _ (self_step n) s s' -> (fst (fst s) < length (snd (fst s)))%nat -> (fst (fst s') < length (snd (fst s')))%nat) as INV.
  { intros s s'. induction 1 as [|x y z H1 H2 IH]; [auto|]. intros L. apply IH. inversion H1; subst. cbn in *. rewrite app_length. cbn. lia. }
  intros s H. apply INV in H; [|destruct l; cbn; [easy|lia]]. destruct s as ((i, l'), h'). cbn in H.
  destruct (nth_error l' i) as [a|] eqn:E; [|apply nth_error_None in E; lia]. eexists. constructor. exact E.
Qed.
Theorem self_merge_grows n (l : list nat) h : l <> [] -> forall k, exists l' h', clos_refl_trans_1n _ (self_step n) (0%nat, l, h) (k, l', h') /\ length l' = (length l + k)%nat.
Proof.
  intros NE. assert (forall k i (l : list nat) h, (i < length l)%nat -> exists l' h', clos_refl_trans_1n _ (self_step n) (i, l, h) ((i + k)%nat, l', h') /\ length l' = (length l + k)%nat) as G.
  { clear. induction k as [|k IH]; intros i l h L.
    - exists l, h. rewrite Nat.add_0_r. split; [constructor|lia].
    - destruct (nth_error l i) as [a|] eqn:E; [|apply nth_error_None in E; lia].
      destruct (IH (S i) (l ++ [a]) (heap_add n h a)) as (l' & h' & R & EL); [rewrite app_length; cbn; lia|].
      exists l', h'. split; [|rewrite EL, app_length; cbn; lia]. eapply Relation_Operators.rt1n_trans; [constructor; exact E|].
      replace (i + S k)%nat with (S i + k)%nat by lia. exact R. }
  intros k. apply (G k 0%nat l h). destruct l; cbn; [easy|lia].
Qed.

(** ** Translation *)
Theorem translated {R} o (m : colmesh F R) : Forall2 (lod_moved A o) (col_lods m) (col_lods (col_translate A o m)) /\
  cm_u1 (col_translate A o m) = cm_u1 m /\ cm_version (col_translate A o m) = cm_version m /\ cm_geomnum (col_translate A o m) = cm_geomnum m /\
  Forall2 (fun g g' => cg_subnum g' = cg_subnum g /\ Forall2 (fun s s' => cs_lodnum s' = cs_lodnum s /\ length (cs_lods s') = length (cs_lods s)) (cg_subs g) (cg_subs g'))
    (cm_geoms m) (cm_geoms (col_translate A o m)).
Proof.
  assert (forall X Y (f : X -> Y) (P : X -> Y -> Prop) l, (forall x, P x (f x)) -> Forall2 P l (map f l)) as FM
    by (intros X Y f P l H; induction l; cbn; constructor; auto).
  split; [|split; [reflexivity|split; [reflexivity|split; [reflexivity|]]]].
  - assert (forall l : collod F R, lod_moved A o l (translate_collod A o l)) as LM.
    { intros l. unfold lod_moved. cbn. split; [|repeat split]. apply FM. intros v i Hi. destruct v as ((x, y), z), o as ((a, b), c).
      cbn in Hi. destruct Hi as [<-|[<-|[<-|[]]]]; reflexivity. }
    unfold col_lods, col_translate, geom_lods. cbn. induction (cm_geoms m) as [|g t IH]; cbn; [constructor|]. apply Forall2_app; [|exact IH].
    clear IH. induction (cg_subs g) as [|s u IH]; cbn; [constructor|]. apply Forall2_app; [|exact IH]. now apply FM.
  - cbn. apply FM. intros g. cbn. split; [reflexivity|]. apply FM. intros s. cbn. now rewrite map_length.
Qed.
End Merge.

(** ** What can be saved at all *)
Section Saved.
Context {F : Type} (p : plat) (packf : F -> Z).
Lemma wseq_none (a b : writer) : snd (a ;; b) = None -> snd a = None /\ snd b = None.
Proof. destruct a as (x, [e|]), b as (y, r); cbn; [discriminate|auto]. Qed.
Lemma wall_none {X} (w : X -> writer) l : snd (wall w l) = None -> Forall (fun x => snd (w x) = None) l.
Proof. induction l as [|x t IH]; cbn [wall]; [constructor|]. intros H. apply wseq_none in H. destruct H. constructor; auto. Qed.
Lemma write_sshort_none v : snd (write_sshort p v) = None -> is_sshort v.
Proof. unfold write_sshort, in_signed, is_sshort. cbn. destruct (_ && _) eqn:E; [|discriminate]. intros _. lia. Qed.
Theorem saved_faces (m : colmesh F colface) : snd (write_colmesh p packf m) = None -> Forall wf_face (col_faces m).
Proof.
  intros H. unfold write_colmesh in H. do 3 (apply wseq_none in H; destruct H as (_ & H)). apply wall_none in H.
  unfold col_faces, col_lods, geom_lods. rewrite !Forall_flat_map. revert H. apply Forall_impl. intros g H.
  unfold write_colgeom in H. apply wseq_none in H. destruct H as (_ & H). apply wall_none in H.
  rewrite Forall_flat_map. revert H. apply Forall_impl. intros s H.
  unfold write_colsub in H. apply wseq_none in H. destruct H as (_ & H). apply wall_none in H.
  revert H. apply Forall_impl. intros l H. unfold write_collod in H.
  do 2 (apply wseq_none in H; destruct H as (_ & H)). apply wseq_none in H. destruct H as (H & _). apply wall_none in H.
  revert H. apply Forall_impl. intros f H. unfold write_face in H.
  apply wseq_none in H. destruct H as (H1 & H). apply wseq_none in H. destruct H as (H2 & H). apply wseq_none in H. destruct H as (H3 & H4).
  repeat split; apply write_sshort_none; assumption.
Qed.
End Saved.
