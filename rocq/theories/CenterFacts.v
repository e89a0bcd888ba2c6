(** Bounds through saving and reloading; the lod centre. *)
From Coq Require Import ZArith List Bool Lia Reals Lra.
From Flocq Require Import Core IEEE754.Binary IEEE754.Bits.
From Verif Require Import PyBase Struct Mesh Arith F64 Edit Spec SpecF SpecEdit SpecBounds CodecBase CodecRaw CodecParam CodecFacts
  F64Facts DivFacts TravFacts VertFacts MergeFacts RArith BoundFacts.
Import ListNotations.
Open Scope Z_scope.

(** ** Updating bounds keeps a mesh consistent *)
Section Wf.
Context {F : Type} (A : arith F).
Lemma fold_mut_forall {B S} (P : B -> Prop) (f : nat -> S -> B -> S * B * option exn) :
  (forall i s x, P x -> P (snd (fst (f i s x)))) -> forall l i s, Forall P l -> Forall P (snd (fst (fold_mut_from f i s l))).
Proof.
  intros H. induction l as [|x t IH]; intros i s HP; [constructor|]. inversion HP as [|? ? Hx Ht]; subst. cbn [fold_mut_from].
  specialize (H i s x Hx). destruct (f i s x) as ((s', x'), [e|]); cbn [fst snd] in H.
  - now constructor.
  - specialize (IH (Datatypes.S i) s' Ht). destruct (fold_mut_from f _ s' t) as ((s'', t'), o). now constructor.
Qed.
Lemma fold_mut_len {B S} (f : nat -> S -> B -> S * B * option exn) : forall l i s, length (snd (fst (fold_mut_from f i s l))) = length l.
Proof.
  induction l as [|x t IH]; intros i s; [reflexivity|]. cbn [fold_mut_from].
  destruct (f i s x) as ((s', x'), [e|]); [reflexivity|].
  specialize (IH (Datatypes.S i) s'). destruct (fold_mut_from f _ s' t) as ((s'', t'), o). cbn in *. now rewrite IH.
Qed.
Lemma bound_mat_wf p (m : mesh F) lb mt : let v := h_version (m_head m) in let sk := isSkinnedMesh (m_kind m) in
  wf_mat p v sk mt -> wf_mat p v sk (snd (fst (bound_mat A m lb mt))).
Proof.
  intros v sk W. unfold bound_mat. destruct (fold_res _ _ _) as [b|]; [|exact W]. cbn [fst snd].
  destruct (has_mat_bounds m) eqn:K; [|exact W]. unfold has_mat_bounds in K. fold v sk in K.
  unfold wf_mat in *. cbn. rewrite K in *. cbn in *. intuition eauto.
Qed.
Lemma bound_lod_wf p (m : mesh F) l : let v := h_version (m_head m) in let sk := isSkinnedMesh (m_kind m) in
  let bu := isBundledMesh (m_kind m) in wf_lod p v bu sk l -> wf_lod p v bu sk (fst (bound_lod A m l)).
Proof.
  intros v sk bu (W1 & W2 & W3 & W4 & W5 & W6). unfold bound_lod, fold_mut.
  pose proof (fold_mut_forall _ (fun _ lb mt => bound_mat A m lb mt) (fun _ lb mt => bound_mat_wf p m lb mt) (materials l) 0%nat (zero3 A, zero3 A) W6) as H.
  pose proof (fold_mut_len (fun _ lb mt => bound_mat A m lb mt) (materials l) 0%nat (zero3 A, zero3 A)) as L.
  assert (forall ms : list (mat F), length ms = length (materials l) -> counts p (matnum l) (materials l) -> counts p (matnum l) ms) as HC.
  { intros ms Hm (C1 & C2). split; [exact C1|congruence]. }
  destruct (fold_mut_from _ _ _ _) as (((a, b), ms), [e|]); cbn [fst snd] in *; unfold wf_lod;
    cbn [lod_min lod_max pivot rignum rigs nodenum nodes matnum materials set_lod_bounds set_materials];
    (split; [solve [exact W1|exact I|exists a; reflexivity|easy]|]; split; [solve [exact W2|exact I|exists b; reflexivity|easy]|];
    split; [exact W3|]; split; [exact W4|]; split; [now apply HC|exact H]).
Qed.
Theorem update_wf p (m m' : mesh F) o : wf p m -> update_boundaries A m = (m', o) -> wf p m'.
Proof.
  intros W HU. unfold wf in *. destruct W as (W1 & W2 & (W3 & W3') & W4 & W5).
  unfold update_boundaries, fold_mut in HU.
  pose proof (fold_mut_forall (wf_geom p (h_version (m_head m)) (isBundledMesh (m_kind m)) (isSkinnedMesh (m_kind m)))
    (fun _ (_ : unit) g => let '(g', o) := bound_geom A m g in (tt, g', o))) as H.
  specialize H with (l := geoms m) (i := 0%nat) (s := tt).
  pose proof (fold_mut_len (fun _ (_ : unit) g => let '(g', o) := bound_geom A m g in (tt, g', o)) (geoms m) 0%nat tt) as L.
  destruct (fold_mut_from _ _ _ (geoms m)) as ((u, gs), o'). injection HU as <- <-. cbn [fst snd] in *.
  cbn [m_head m_kind m_u1 geomnum geoms set_geoms vertattribnum vertex_attributes vertformat vertstride vertnum vertices indexnum index m_u2].
  split; [exact W1|]. split; [exact W2|]. split; [split; [exact W3|congruence]|]. split; [|exact W5]. apply H; [|exact W4].
  clear. intros _ _ g (C & Wg). unfold bound_geom, fold_mut.
  pose proof (fold_mut_forall (wf_lod p (h_version (m_head m)) (isBundledMesh (m_kind m)) (isSkinnedMesh (m_kind m)))
    (fun _ (_ : unit) l => let '(l', o) := bound_lod A m l in (tt, l', o))) as H.
  specialize H with (l := lods g) (i := 0%nat) (s := tt).
  pose proof (fold_mut_len (fun _ (_ : unit) l => let '(l', o) := bound_lod A m l in (tt, l', o)) (lods g) 0%nat tt) as L.
  destruct (fold_mut_from _ _ _ (lods g)) as ((u, ls), o'). cbn in *. split.
  - unfold counts in *. cbn. now rewrite L.
  - cbn. apply H; [|exact Wg]. intros _ _ l Wl. pose proof (bound_lod_wf p m l Wl) as X. now destruct (bound_lod A m l).
Qed.
End Wf.

(** ** Applying a monotone function to every number *)
Section Map.
Context {F G : Type} (f : F -> G).
Lemma block_map {B C} (h : B -> C) n l i : block n (map h l) i = map h (block n l i).
Proof. unfold block. now rewrite skipn_map, firstn_map. Qed.
Lemma mat_vertices_map vs (m : mesh F) mt : mat_vertices vs (mesh_map f m) (mat_map f mt) = map (map f) (mat_vertices vs m mt).
Proof.
  unfold mat_vertices. rewrite map_map. cbn [vstart vnum mat_map vertices mesh_map]. apply map_ext. intros i. apply block_map.
Qed.
Lemma at3_map v o : at3 (map f v) o = option_map (vec3_map f) (at3 v o).
Proof.
  unfold at3. rewrite !nth_error_map. destruct (nth_error v o), (nth_error v (o + 1)), (nth_error v (o + 2)); reflexivity.
Qed.
Lemma positions_map vs (m : mesh F) mt : positions vs (mesh_map f m) (mat_map f mt) = map (vec3_map f) (positions vs m mt).
Proof.
  unfold positions. rewrite mat_vertices_map. change (bounding_start (mesh_map f m)) with (bounding_start m).
  induction (mat_vertices vs m mt) as [|v t IH]; [reflexivity|]. cbn [map flat_map]. rewrite map_app, <- IH, at3_map.
  now destruct (at3 v (bounding_start m)).
Qed.
Lemma lod_positions_map vs (m : mesh F) l : lod_positions vs (mesh_map f m) (lod_map f l) = map (vec3_map f) (lod_positions vs m l).
Proof.
  unfold lod_positions. cbn [materials lod_map]. induction (materials l) as [|mt t IH]; [reflexivity|].
  cbn [map flat_map]. now rewrite map_app, <- IH, positions_map.
Qed.
Lemma axis_map i q : axis i (vec3_map f q) = f (axis i q).
Proof. destruct q as ((x, y), z), i as [|[|]]; reflexivity. Qed.
End Map.

Section Mono.
Context {F : Type} (A : arith F) (good : F -> Prop) (f : F -> F).
Hypothesis mono : forall x y, good x -> good y -> fle A x y -> fle A (f x) (f y).
Hypothesis f0 : f (f_zero A) = f_zero A.
Hypothesis good0 : good (f_zero A).
Notation good3 := (good3 good).
Lemma box_map l lo hi : Forall good3 l -> good3 lo -> good3 hi -> box A l lo hi -> box A (map (vec3_map f) l) (vec3_map f lo) (vec3_map f hi).
Proof.
  intros G G1 G2 (B1 & B2). split.
  - intros q Hq. apply in_map_iff in Hq. destruct Hq as (r & <- & Hr). intros i Hi. rewrite !axis_map.
    rewrite Forall_forall in G. destruct (B1 r Hr i Hi). split; apply mono; auto; now apply (G r).
  - intros i Hi. rewrite !axis_map. destruct (B2 i Hi) as ((q & Hq & E) & (r & Hr & E')).
    split; [exists (vec3_map f q)|exists (vec3_map f r)]; (split; [now apply in_map|]); rewrite axis_map; congruence.
Qed.
Lemma origin_map : vec3_map f (origin A) = origin A.
Proof. unfold origin, vec3_map. now rewrite f0. Qed.
Lemma box_good l lo hi : Forall good3 l -> box A l lo hi -> good3 lo /\ good3 hi.
Proof.
  intros G (_ & B). rewrite Forall_forall in G.
  split; intros i Hi; destruct (B i Hi) as ((q & Hq & Eq) & (r & Hr & Er)); [rewrite <- Eq; now apply (G q)|rewrite <- Er; now apply (G r)].
Qed.
Lemma origin3 : good3 (origin A).
Proof. intros i [<-|[<-|[<-|[]]]]; exact good0. Qed.

Lemma lod_boxed_map vs (m : mesh F) l : Forall (fun mt => Forall good3 (positions vs m mt)) (materials l) ->
  lod_boxed A vs m l -> lod_boxed A vs (mesh_map f m) (lod_map f l).
Proof.
  intros G (lo & hi & los & his & E1 & E2 & E3 & E4 & B1 & B2 & B3).
  assert (Forall good3 (origin A :: lod_positions vs m l)) as GL.
  { constructor; [apply origin3|]. unfold lod_positions. now apply Forall_flat_map. }
  destruct (box_good _ _ _ GL B1) as (Glo & Ghi).
  assert (Forall good3 los /\ Forall good3 his) as (Gl & Gh).
  { assert (forall mt, In mt (materials l) -> exists a b, mmin mt = Some a /\ mmax mt = Some b /\ good3 a /\ good3 b) as X.
    { intros mt Hm. rewrite Forall_forall in B3, G. destruct (B3 mt Hm) as (a & b & Ea & Eb & _ & B).
      exists a, b. split; [exact Ea|]. split; [exact Eb|]. eapply box_good; [|exact B]. constructor; [apply origin3|]. now apply G. }
    split; apply Forall_forall; intros q Hq.
    - assert (In (Some q) (map mmin (materials l))) as H by (rewrite E3; now apply in_map).
      apply in_map_iff in H. destruct H as (mt & Em & Hm). destruct (X mt Hm) as (a & b & Ea & Eb & Ga & Gb). now replace q with a by congruence.
    - assert (In (Some q) (map mmax (materials l))) as H by (rewrite E4; now apply in_map).
      apply in_map_iff in H. destruct H as (mt & Em & Hm). destruct (X mt Hm) as (a & b & Ea & Eb & Ga & Gb). now replace q with b by congruence. }
  exists (vec3_map f lo), (vec3_map f hi), (map (vec3_map f) los), (map (vec3_map f) his).
  cbn [lod_min lod_max lod_map materials]. rewrite E1, E2. split; [reflexivity|]. split; [reflexivity|].
  split. { rewrite !map_map. cbn [mmin mat_map]. rewrite <- (map_map mmin (option_map (vec3_map f))), E3, !map_map. reflexivity. }
  split. { rewrite !map_map. cbn [mmax mat_map]. rewrite <- (map_map mmax (option_map (vec3_map f))), E4, !map_map. reflexivity. }
  split. { pose proof (box_map _ _ _ GL Glo Ghi B1) as B. cbn [map] in B. rewrite origin_map in B. rewrite lod_positions_map. exact B. }
  split. { assert (Forall good3 (origin A :: los ++ his)) as GX by (constructor; [apply origin3|now apply Forall_app]).
    pose proof (box_map _ _ _ GX Glo Ghi B2) as B. cbn [map] in B. rewrite origin_map, map_app in B. exact B. }
  apply Forall_map. rewrite Forall_forall in *. intros mt Hm. destruct (B3 mt Hm) as (a & b & Ea & Eb & C & B).
  exists (vec3_map f a), (vec3_map f b). cbn [mmin mmax mat_map vnum]. rewrite Ea, Eb. split; [reflexivity|]. split; [reflexivity|].
  rewrite positions_map. split; [unfold zlen in *; now rewrite map_length|].
  assert (Forall good3 (origin A :: positions vs m mt)) as GX by (constructor; [apply origin3|now apply G]).
  destruct (box_good _ _ _ GX B) as (Ga & Gb). pose proof (box_map _ _ _ GX Ga Gb B) as B'. cbn [map] in B'. now rewrite origin_map in B'.
Qed.
End Mono.

(** ** Saving and reloading *)
Definition single (x : binary64) : binary64 := unpack_f (pack_f x).
Lemma single_mono L x y : number x -> number y -> fle (f64 L) x y -> fle (f64 L) (single x) (single y).
Proof.
  intros Hx Hy H. pose proof (f64_ordered L) as O. destruct (ord_single x Hx) as (Nx & Ox). destruct (ord_single y Hy) as (Ny & Oy).
  apply (fle_val _ _ _ O) in H; auto. apply (fle_val _ _ _ O); auto. unfold single. rewrite Ox, Oy. now apply clamp_monotone, rnd32_le.
Qed.
Lemma single_zero L : single (f_zero (f64 L)) = f_zero (f64 L).
Proof. reflexivity. Qed.

Theorem bounds_survive p L vs (m m' : mesh binary64) : wf p m -> indexnum m <> 1 ->
  vertex_size m = Ok (Z.of_nat vs) -> short_offsets m -> bounded_kind m -> Forall (mat_vin vs m) (mats m) ->
  Forall (fun mt => Forall (good3 number) (positions vs m mt)) (mats m) ->
  update_boundaries (f64 L) m = (m', None) ->
  exists bs m2, export p pack_f m' = (bs, None) /\ load p unpack_f (m_kind m) bs = Ok m2 /\
    every_lod (lod_boxed (f64 L) vs m2) m2.
Proof.
  intros W HI Hs HO HK HV HG HU.
  pose proof (update_box (f64 L) number ord (f64_ordered L) vs m m' Hs HO HK HV HG HU) as B.
  pose proof (update_wf _ p m m' None W HU) as W'.
  destruct (update_frame _ _ _ _ HU) as (HH & HC & _).
  destruct (export_reload p m' W') as (bs & E & R).
  { destruct HC as (_ & ->). exact HI. }
  exists bs, (mesh_map single m'). split; [exact E|]. split.
  { destruct HH as (<- & _). exact R. }
  destruct (update_ok (f64 L) vs m Hs HO HK m' HV HU) as (-> & _).
  unfold every_lod in *. cbn [geoms mesh_map]. apply Forall_map. rewrite Forall_forall in B |- *. intros g Hg. specialize (B g Hg).
  cbn [lods geom_map]. apply Forall_map. rewrite Forall_forall in B |- *. intros l Hl. specialize (B l Hl).
  apply (lod_boxed_map (f64 L) number single (single_mono L) (single_zero L) eq_refl); [|exact B].
  cbn [geoms set_geoms] in Hg. apply in_map_iff in Hg. destruct Hg as (g0 & <- & Hg). cbn [lods geom_bound set_lods] in Hl.
  apply in_map_iff in Hl. destruct Hl as (l0 & <- & Hl). cbn [materials lod_bound set_lod_bounds set_materials].
  apply Forall_map. rewrite Forall_forall in HG |- *. intros mt Hm. change (Forall (good3 number) (positions vs m mt)). apply HG. unfold mats, mats_of. apply in_flat_map.
  exists g0. split; [exact Hg|]. apply in_flat_map. eauto.
Qed.

(** ** The centre of a lod *)
Section Center.
Context {F : Type} (A : arith F).
Implicit Types (m : mesh F).
Lemma py_get_picks {B} (l : list B) i x : py_get l i = Ok x <-> exists k, picks (length l) i k /\ nth_error l k = Some x.
Proof.
  unfold py_get. split.
  - destruct (norm_index (zlen l) i) as [k|] eqn:E; [|discriminate]. destruct (nth_error l k) eqn:E2; [|discriminate].
    intros H. injection H as <-. exists k. split; [|exact E2]. unfold norm_index, zlen in E. destruct (Z.ltb_spec i 0).
    + destruct (_ && _) eqn:E3; [|discriminate]. apply andb_true_iff in E3. rewrite Z.leb_le, Z.ltb_lt in E3.
      injection E as <-. split; lia.
    + destruct (_ && _) eqn:E3; [|discriminate]. apply andb_true_iff in E3. rewrite Z.leb_le, Z.ltb_lt in E3.
      injection E as <-. split; lia.
  - intros (k & (Hk & C) & E). assert (norm_index (zlen l) i = Some k) as ->; [|now rewrite E].
    unfold norm_index, zlen. destruct (Z.ltb_spec i 0).
    + assert (Z.of_nat k = i + Z.of_nat (length l)) as EK by lia.
      rewrite <- EK. replace (_ && _) with true by (symmetry; apply andb_true_iff; rewrite Z.leb_le, Z.ltb_lt; lia).
      now rewrite Nat2Z.id.
    + assert (Z.of_nat k = i) as EK by lia.
      rewrite <- EK. replace (_ && _) with true by (symmetry; apply andb_true_iff; rewrite Z.leb_le, Z.ltb_lt; lia).
      now rewrite Nat2Z.id.
Qed.
Lemma py_get_cases {B} (l : list B) i : (exists x, py_get l i = Ok x) \/ (py_get l i = Raise EIndex /\ ~ exists k, picks (length l) i k).
Proof.
  destruct (py_get l i) as [x|e] eqn:E; [left; eauto|]. right. split.
  - unfold py_get in E. destruct (norm_index _ _) as [k|]; [destruct (nth_error l k)|]; congruence.
  - intros (k & Hk). destruct (nth_error l k) as [x|] eqn:En.
    + assert (py_get l i = Ok x) by (apply py_get_picks; eauto). congruence.
    + apply nth_error_None in En. destruct Hk. lia.
Qed.

Lemma lod_at_get m gi li l : lod_at m gi li l <-> bind (py_get (geoms m) gi) (fun g => py_get (lods g) li) = Ok l.
Proof.
  split.
  - intros (j & k & g & H1 & H2 & H3 & H4). assert (py_get (geoms m) gi = Ok g) as -> by (apply py_get_picks; eauto).
    cbn. apply py_get_picks. eauto.
  - destruct (py_get (geoms m) gi) as [g|] eqn:E; [|discriminate]. cbn. intros H. apply py_get_picks in E, H.
    destruct E as (j & ? & ?), H as (k & ? & ?). exists j, k, g. auto.
Qed.
Lemma lod_center_mid l c : lod_center A l = Ok c -> exists lo hi, lod_min l = Some lo /\ lod_max l = Some hi /\ midpoint A lo hi c.
Proof.
  unfold lod_center. destruct (lod_min l) as [((ax, ay), az)|]; [|discriminate]. destruct (lod_max l) as [((bx, by_), bz)|]; [|discriminate].
  intros H. injection H as <-. eexists. eexists. split; [reflexivity|]. split; [reflexivity|].
  intros i [<-|[<-|[<-|[]]]]; reflexivity.
Qed.
Theorem center_result m gi li ub m' c : get_lod_center_offset A m gi li ub = (m', Ok c) ->
  (if ub then update_boundaries A m = (m', None) else m' = m) /\
  exists l lo hi, lod_at m' gi li l /\ lod_min l = Some lo /\ lod_max l = Some hi /\ midpoint A lo hi c.
Proof.
  unfold get_lod_center_offset. destruct (bind _ _) as [l0|]; [|discriminate].
  destruct ub.
  - destruct (update_boundaries A m) as (m1, [e|]); [discriminate|]. intros H. injection H as <- H. split; [reflexivity|].
    destruct (py_get (geoms m1) gi) as [g|] eqn:Eg; [|discriminate]. cbn [bind] in H.
    destruct (py_get (lods g) li) as [l|] eqn:El; [|discriminate]. cbn [bind] in H.
    destruct (lod_center_mid _ _ H) as (lo & hi & E1 & E2 & M). exists l, lo, hi. split; [|auto]. apply lod_at_get. rewrite Eg. exact El.
  - intros H. injection H as <- H. split; [reflexivity|].
    destruct (py_get (geoms m) gi) as [g|] eqn:Eg; [|discriminate]. cbn [bind] in H.
    destruct (py_get (lods g) li) as [l|] eqn:El; [|discriminate]. cbn [bind] in H.
    destruct (lod_center_mid _ _ H) as (lo & hi & E1 & E2 & M). exists l, lo, hi. split; [|auto]. apply lod_at_get. rewrite Eg. exact El.
Qed.
(** A bad geom or lod number is an IndexError before anything changes. *)
Theorem center_bad m gi li ub : (~ exists l, lod_at m gi li l) -> get_lod_center_offset A m gi li ub = (m, Raise EIndex).
Proof.
  intros H. unfold get_lod_center_offset. destruct (py_get_cases (geoms m) gi) as [(g & Eg)|(-> & _)]; [|reflexivity].
  rewrite Eg. cbn [bind]. destruct (py_get_cases (lods g) li) as [(l & El)|(-> & _)]; [|reflexivity].
  exfalso. apply H. exists l. apply lod_at_get. rewrite Eg. exact El.
Qed.
(** A good one succeeds when the bounds can be updated. *)
Theorem center_ok m gi li l m1 : lod_at m gi li l -> update_boundaries A m = (m1, None) ->
  exists c, get_lod_center_offset A m gi li true = (m1, Ok c).
Proof.
  intros H HU. unfold get_lod_center_offset. apply lod_at_get in H. rewrite H, HU.
  assert (exists l1, lod_at m1 gi li l1 /\ exists lo hi, lod_min l1 = Some lo /\ lod_max l1 = Some hi) as (l1 & H1 & lo & hi & E1 & E2).
  { apply lod_at_get in H. destruct H as (j & k & g & P1 & N1 & P2 & N2).
    destruct (update_frame _ _ _ _ HU) as (_ & _ & _ & _ & EG).
    assert (length (geoms m1) = length (geoms m)) as LG by (apply (f_equal (@length _)) in EG; now rewrite !map_length in EG).
    pose proof (f_equal (fun x => nth_error x j) EG) as Ej. cbn in Ej. rewrite !nth_error_map, N1 in Ej.
    destruct (nth_error (geoms m1) j) as [g1|] eqn:N1'; [|discriminate]. injection Ej as _ Ej.
    assert (length (lods g1) = length (lods g)) as LL by (apply (f_equal (@length _)) in Ej; now rewrite !map_length in Ej).
    pose proof (f_equal (fun x => nth_error x k) Ej) as Ek. cbn in Ek. rewrite !nth_error_map, N2 in Ek.
    destruct (nth_error (lods g1) k) as [l1|] eqn:N2'; [|discriminate].
    exists l1. split; [exists j, k, g1; rewrite LG, LL; auto|].
    (* every lod of a successfully updated mesh has bounds *)
    assert (every_lod (fun l => exists lo hi, lod_min l = Some lo /\ lod_max l = Some hi) m1) as EV.
    { clear -HU. unfold update_boundaries, fold_mut in HU. destruct (fold_mut_from _ _ _ (geoms m)) as (([], gs), o) eqn:E.
      injection HU as <- ->. unfold every_lod. cbn [geoms set_geoms].
      assert (forall {B} (f : B -> B * option exn) (P : B -> Prop), (forall x y, f x = (y, None) -> P y) -> forall l i l',
        fold_mut_from (fun _ (_ : unit) x => let '(y, o) := f x in (tt, y, o)) i tt l = (tt, l', None) -> Forall P l') as FP.
      { clear. intros B f P H. induction l as [|x t IH]; intros i l' E; [injection E as <-; constructor|]. cbn [fold_mut_from] in E.
        destruct (f x) as (y, [e|]) eqn:Ex; [discriminate|]. destruct (fold_mut_from _ _ tt t) as (([], t'), o) eqn:E2.
        injection E as <- ->. constructor; eauto. }
      refine (FP _ (bound_geom A m) (fun g => Forall _ (lods g)) _ _ _ _ E). intros g g' Eg. unfold bound_geom, fold_mut in Eg.
      destruct (fold_mut_from _ _ tt (lods g)) as (([], ls), o) eqn:E2. injection Eg as <- ->. cbn [lods set_lods].
      refine (FP _ (bound_lod A m) _ _ _ _ _ E2). intros l l' El. unfold bound_lod in El.
      destruct (fold_mut _ _ (materials l)) as (((a, b), ms), [e|]); [discriminate|]. injection El as <-. cbn. eauto. }
    unfold every_lod in EV. rewrite Forall_forall in EV. specialize (EV g1 (nth_error_In _ _ N1')). rewrite Forall_forall in EV.
    apply EV. now apply nth_error_In in N2'. }
  apply lod_at_get in H1. destruct (py_get (geoms m1) gi) as [g1|]; [|discriminate]. cbn [bind] in *. rewrite H1. cbn [bind].
  unfold lod_center. rewrite E1, E2. destruct lo as ((?, ?), ?), hi as ((?, ?), ?). eexists. reflexivity.
Qed.
End Center.

(** ** The centre in exact and in double arithmetic *)
Theorem exact_center lo hi c : midpoint exact lo hi c -> forall i, In i axes -> (2 * axis i c = axis i lo + axis i hi)%R.
Proof. intros H i Hi. rewrite (H i Hi). cbn. field. Qed.

Definition fin (x : binary64) : Prop := is_finite 53 1024 x = true.
Notation val := (B2R 53 1024).
Notation rnd := (round radix2 fexp64 (BinarySingleNaN.round_mode BinarySingleNaN.mode_NE)).
Lemma fle_fin L x y : fin x -> fin y -> fle (f64 L) x y <-> (val x <= val y)%R.
Proof.
  intros Hx Hy. assert (number x /\ number y) as (Nx & Ny) by (unfold number, fin in *; destruct x, y; easy).
  rewrite (fle_val _ _ _ (f64_ordered L)) by assumption. now rewrite !ord_finite.
Qed.
Lemma rnd_between x lo hi : (val lo <= x <= val hi)%R -> (val lo <= rnd x <= val hi)%R.
Proof.
  intros (H1 & H2).
  split; [rewrite <- (round_generic radix2 fexp64 (BinarySingleNaN.round_mode BinarySingleNaN.mode_NE) (val lo))
         |rewrite <- (round_generic radix2 fexp64 (BinarySingleNaN.round_mode BinarySingleNaN.mode_NE) (val hi))];
  try (apply round_le; [apply (fexp_correct 53 1024); reflexivity|apply valid_rnd_N|assumption]); apply generic_format_B2R.
Qed.
Lemma rnd_small x lo hi : (val lo <= x <= val hi)%R -> (Rabs (rnd x) < bpow radix2 1024)%R.
Proof.
  intros H. apply rnd_between in H. apply Rabs_def1.
  - eapply Rle_lt_trans; [apply H|]. eapply Rle_lt_trans; [apply Rle_abs|]. apply abs_B2R_lt_emax.
  - eapply Rlt_le_trans; [|apply H]. apply Ropp_lt_cancel. rewrite Ropp_involutive.
    eapply Rle_lt_trans; [|apply (abs_B2R_lt_emax 53 1024 lo)]. rewrite <- Rabs_Ropp. apply Rle_abs.
Qed.
Lemma val_two : val (b64_of_bits 4611686018427387904) = 2%R.
Proof.
  rewrite <- FF2R_B2FF.
  assert (B2FF 53 1024 (b64_of_bits 4611686018427387904) = F754_finite false 4503599627370496 (-51)) as -> by (vm_compute; reflexivity).
  cbn [FF2R]. unfold F2R, SpecFloat.cond_Zopp, Fnum, Fexp. cbn [bpow]. change (Z.pow_pos radix2 51) with 2251799813685248. lra.
Qed.
Lemma mid_between L lo hi : fin lo -> fin hi -> (val lo <= 0 <= val hi)%R ->
  let c := f_div (f64 L) (f_add (f64 L) lo hi) (f_two (f64 L)) in
  fin c /\ (val lo <= val c <= val hi)%R /\ val c = rnd (rnd (val lo + val hi) / 2).
Proof.
  intros Hl Hh Hz. cbn [f_div f_add f_two f64]. unfold b64_plus, b64_div.
  assert (val lo <= val lo + val hi <= val hi)%R as B1 by lra.
  match goal with |- context [Bplus _ _ ?a ?b ?c ?d lo hi] => pose proof (Bplus_correct 53 1024 a b c d lo hi Hl Hh) as P; set (s := Bplus 53 1024 a b c d lo hi) in * end.
  rewrite Rlt_bool_true in P by (eapply rnd_small; exact B1). destruct P as (P1 & P2 & _).
  change (val s = rnd (val lo + val hi)) in P1. pose proof (rnd_between _ _ _ B1) as B2. rewrite <- P1 in B2.
  assert (val lo <= val s / 2 <= val hi)%R as B3 by lra.
  match goal with |- context [Bdiv _ _ ?a ?b ?c ?d s ?t] => pose proof (Bdiv_correct 53 1024 a b c d s t) as D; set (q := Bdiv 53 1024 a b c d s t) in * end.
  rewrite val_two in D. specialize (D ltac:(lra)).
  rewrite Rlt_bool_true in D by (eapply rnd_small; exact B3). destruct D as (D1 & D2 & _).
  change (val q = rnd (val s / 2)) in D1. pose proof (rnd_between _ _ _ B3) as B4. rewrite <- D1 in B4.
  split; [unfold fin; rewrite D2; exact P2|]. split; [exact B4|]. now rewrite D1, P1.
Qed.

Lemma lod_at_every {F} (P : lod F -> Prop) m gi li l : every_lod P m -> lod_at m gi li l -> P l.
Proof.
  unfold every_lod. rewrite Forall_forall. intros H (j & k & g & _ & N1 & _ & N2). specialize (H g (nth_error_In _ _ N1)).
  rewrite Forall_forall in H. apply H. exact (nth_error_In _ _ N2).
Qed.

(** The centre of freshly computed bounds lies within them, for finite positions. *)
Theorem double_center L vs (m m' : mesh binary64) gi li c :
  vertex_size m = Ok (Z.of_nat vs) -> short_offsets m -> bounded_kind m -> Forall (mat_vin vs m) (mats m) ->
  Forall (fun mt => Forall (good3 fin) (positions vs m mt)) (mats m) ->
  get_lod_center_offset (f64 L) m gi li true = (m', Ok c) ->
  exists l lo hi, lod_at m' gi li l /\ lod_min l = Some lo /\ lod_max l = Some hi /\
    midpoint (f64 L) lo hi c /\ good3 fin c /\ between (f64 L) lo c hi.
Proof.
  intros Hs HO HK HV HG HC. destruct (center_result _ _ _ _ _ _ _ HC) as (HU & l & lo & hi & HL & E1 & E2 & M).
  exists l, lo, hi. split; [exact HL|]. split; [exact E1|]. split; [exact E2|]. split; [exact M|].
  assert (forall q, good3 fin q -> good3 number q) as FN.
  { intros q H i Hi. specialize (H i Hi). unfold fin, number in *. now destruct (axis i q). }
  pose proof (update_box (f64 L) number ord (f64_ordered L) vs m m' Hs HO HK HV) as B.
  assert (every_lod (lod_boxed (f64 L) vs m') m') as BX.
  { apply B; [|exact HU]. eapply Forall_impl; [|exact HG]. intros mt H. eapply Forall_impl; [|exact H]. exact FN. }
  assert (every_lod (fun l => Forall (good3 fin) (lod_positions vs m' l)) m') as FP.
  { destruct (update_ok (f64 L) vs m Hs HO HK m' HV HU) as (-> & _). unfold every_lod. cbn [geoms set_geoms]. apply Forall_map, Forall_forall.
    intros g Hg. cbn [geom_bound set_lods lods]. apply Forall_map, Forall_forall. intros l1 Hl. unfold lod_positions.
    apply Forall_flat_map. cbn [lod_bound set_lod_bounds set_materials materials]. apply Forall_map, Forall_forall. intros mt Hm.
    change (Forall (good3 fin) (positions vs m mt)). rewrite Forall_forall in HG. apply HG. unfold mats, mats_of.
    apply in_flat_map. exists g. split; [exact Hg|]. apply in_flat_map. eauto. }
  pose proof (lod_at_every _ _ _ _ _ BX HL) as (lo' & hi' & _ & _ & X1 & X2 & _ & _ & BB & _).
  pose proof (lod_at_every _ _ _ _ _ FP HL) as FL. rewrite E1 in X1. rewrite E2 in X2. injection X1 as <-. injection X2 as <-.
  assert (Forall (good3 fin) (origin (f64 L) :: lod_positions vs m' l)) as GL.
  { constructor; [|exact FL]. intros i [<-|[<-|[<-|[]]]]; reflexivity. }
  destruct (box_good (f64 L) fin _ _ _ GL BB) as (Glo & Ghi).
  assert (forall i, In i axes -> fin (axis i c) /\ (val (axis i lo) <= val (axis i c) <= val (axis i hi))%R) as K.
  { intros i Hi. destruct BB as (BB & _). destruct (BB (origin (f64 L)) (or_introl eq_refl) i Hi) as (O1 & O2).
    assert (axis i (origin (f64 L)) = f_zero (f64 L)) as EO by (destruct Hi as [<-|[<-|[<-|[]]]]; reflexivity). rewrite EO in O1, O2.
    apply (fle_fin L) in O1, O2; try apply Glo; try apply Ghi; try assumption; try reflexivity.
    assert (val (f_zero (f64 L)) = 0%R) as VZ by reflexivity. rewrite VZ in *.
    destruct (mid_between L (axis i lo) (axis i hi) (Glo i Hi) (Ghi i Hi) (conj O1 O2)) as (F1 & F2 & _). rewrite (M i Hi). now split. }
  split; [intros i Hi; now apply K|]. intros i Hi. destruct (K i Hi) as (F1 & F2). rewrite !fle_fin; auto.
Qed.
Theorem exact_center_between (lo hi c : vec3 R) : between exact lo hi hi -> midpoint exact lo hi c -> between exact lo c hi.
Proof.
  intros H M i Hi. destruct (H i Hi) as (H1 & _). rewrite (fle_val _ _ _ exact_ordered) in H1 by exact I.
  pose proof (exact_center _ _ _ M i Hi) as E. rewrite !(fle_val _ _ _ exact_ordered) by exact I. lra.
Qed.

(** ** The origin is always inside *)
Section Origin.
Context {F : Type} (A : arith F) (good : F -> Prop) (val : F -> R) (O : ordered A good val).
Hypothesis lt_good : forall x y, good y -> f_lt A x y = true \/ f_lt A y x = true -> good x.
Hypothesis val0 : val (f_zero A) = 0%R.
Definition around (a b : vec3 F) : Prop := forall i, In i axes ->
  good (axis i a) /\ good (axis i b) /\ (val (axis i a) <= 0 <= val (axis i b))%R.
Lemma around_zero : around (zero3 A) (zero3 A).
Proof. intros i [<-|[<-|[<-|[]]]]; cbn; rewrite val0; (split; [apply O|split; [apply O|lra]]). Qed.
Lemma around_update q a b : around a b -> around (vmin3 A q a) (vmax3 A q b).
Proof.
  intros H i Hi. specialize (H i Hi). destruct H as (Ga & Gb & V).
  assert (axis i (vmin3 A q a) = upd_min A (axis i q) (axis i a) /\ axis i (vmax3 A q b) = upd_max A (axis i q) (axis i b)) as (-> & ->).
  { destruct q as ((?, ?), ?), a as ((?, ?), ?), b as ((?, ?), ?), Hi as [<-|[<-|[<-|[]]]]; split; reflexivity. }
  unfold upd_min, upd_max. destruct (f_lt A (axis i q) (axis i a)) eqn:E1, (f_lt A (axis i b) (axis i q)) eqn:E2.
  - assert (good (axis i q)) as G by (apply (lt_good _ (axis i a)); auto). apply (o_lt _ _ _ O) in E1, E2; auto. repeat split; auto; lra.
  - assert (good (axis i q)) as G by (apply (lt_good _ (axis i a)); auto). apply (o_lt _ _ _ O) in E1; auto. repeat split; auto; lra.
  - assert (good (axis i q)) as G by (apply (lt_good _ (axis i b)); auto). apply (o_lt _ _ _ O) in E2; auto. repeat split; auto; lra.
  - repeat split; auto; lra.
Qed.
Lemma around_between a b : around a b -> between A a (origin A) b.
Proof.
  intros H i Hi. destruct (H i Hi) as (Ga & Gb & V). assert (axis i (origin A) = f_zero A) as -> by (destruct Hi as [<-|[<-|[<-|[]]]]; reflexivity).
  rewrite !(fle_val _ _ _ O) by (auto; apply O). rewrite val0. lra.
Qed.
Definition arounds (b : bnds) : Prop := around (b_mmin b) (b_mmax b) /\ around (b_lmin b) (b_lmax b).
Lemma arounds_vertices m mt : forall l b b', arounds b -> fold_res (bound_vertex A m mt) b l = Ok b' -> arounds b'.
Proof.
  induction l as [|i t IH]; intros b b' H E; [injection E as <-; exact H|]. cbn [fold_res] in E.
  destruct (bound_vertex A m mt b i) as [b1|] eqn:E1; [|discriminate]. cbn [bind] in E. refine (IH _ _ _ E).
  unfold bound_vertex in E1. destruct (vertex_size m) as [vs|]; [|discriminate]. cbn [bind] in E1.
  destruct (vertex_position _ _ _ _) as [o|]; [|discriminate]. cbn [bind] in E1. destruct (has_mat_bounds m); [|injection E1 as <-; exact H].
  destruct o as [l|]; [|discriminate]. destruct (first3 l) as [q|]; [|discriminate]. injection E1 as <-.
  split; cbn; apply around_update; apply H.
Qed.
Definition mat_around (m : mesh F) (mt : mat F) : Prop := bounded_kind m -> exists a b, mmin mt = Some a /\ mmax mt = Some b /\ around a b.
Lemma arounds_mat m lb mt lb' mt' : around (fst lb) (snd lb) -> bound_mat A m lb mt = (lb', mt', None) ->
  around (fst lb') (snd lb') /\ mat_around m mt'.
Proof.
  unfold bound_mat. intros H E. destruct (fold_res _ _ _) as [b|] eqn:E1; [|discriminate]. injection E as <- <-.
  apply arounds_vertices in E1; [|split; [apply around_zero|exact H]]. destruct E1 as (E1 & E2). split; [exact E2|].
  intros K. apply has_mat_bounds_spec in K. rewrite K. cbn. eauto.
Qed.
Lemma fold_mut_inv {B S} (I : S -> Prop) (P : B -> Prop) (f : nat -> S -> B -> S * B * option exn) :
  (forall i s x s' x', I s -> f i s x = (s', x', None) -> I s' /\ P x') -> forall l i s s' l', I s -> fold_mut_from f i s l = (s', l', None) -> I s' /\ Forall P l'.
Proof.
  intros H. induction l as [|x t IH]; intros i s s' l' HI E; [injection E as <- <-; auto|]. cbn [fold_mut_from] in E.
  destruct (f i s x) as ((s1, x1), [e|]) eqn:Ex; [discriminate|]. destruct (H _ _ _ _ _ HI Ex) as (I1 & P1).
  destruct (fold_mut_from f (Datatypes.S i) s1 t) as ((s2, t2), o) eqn:E2. injection E as <- <- ->.
  destruct (IH _ _ _ _ I1 E2). auto.
Qed.
Theorem origin_inside m m' : update_boundaries A m = (m', None) -> every_lod (fun l =>
  (exists lo hi, lod_min l = Some lo /\ lod_max l = Some hi /\ between A lo (origin A) hi) /\
  (bounded_kind m -> Forall (fun mt => exists a b, mmin mt = Some a /\ mmax mt = Some b /\ between A a (origin A) b) (materials l))) m'.
Proof.
  intros HU. unfold update_boundaries, fold_mut in HU. destruct (fold_mut_from _ _ _ (geoms m)) as (([], gs), o) eqn:E.
  injection HU as <- ->. unfold every_lod. cbn [geoms set_geoms].
  refine (proj2 (fold_mut_inv (fun _ => True) _ _ _ _ _ _ _ _ I E)). intros i [] g [] g' _ Eg. split; [exact I|].
  unfold bound_geom, fold_mut in Eg. destruct (fold_mut_from _ _ tt (lods g)) as (([], ls), o) eqn:E2. injection Eg as <- ->. cbn [lods set_lods].
  refine (proj2 (fold_mut_inv (fun _ => True) _ _ _ _ _ _ _ _ I E2)). intros i2 [] l [] l' _ El. split; [exact I|].
  destruct (bound_lod A m l) as (l1, o) eqn:E3. injection El as <- ->. unfold bound_lod, fold_mut in E3.
  destruct (fold_mut_from _ 0 _ (materials l)) as (((a, b), ms), [e|]) eqn:E4; [discriminate|]. injection E3 as <-.
  destruct (fold_mut_inv (fun lb => around (fst lb) (snd lb)) (mat_around m) _ (fun _ s x s' x' => arounds_mat m s x s' x') _ _ (zero3 A, zero3 A) _ _ around_zero E4) as (H1 & H2).
  cbn [lod_min lod_max materials set_lod_bounds set_materials]. split.
  - exists a, b. split; [reflexivity|]. split; [reflexivity|]. now apply around_between.
  - intros K. eapply Forall_impl; [|exact H2]. intros mt H. destruct (H K) as (x & y & E5 & E6 & H3). exists x, y. auto using around_between.
Qed.
End Origin.
Lemma b64_lt_number x y : b64_lt x y = true -> number x /\ number y.
Proof. unfold b64_lt, b64_compare, number. destruct x, y; cbn; easy. Qed.
Theorem origin_inside_f64 L m m' : update_boundaries (f64 L) m = (m', None) -> every_lod (fun l =>
  (exists lo hi, lod_min l = Some lo /\ lod_max l = Some hi /\ between (f64 L) lo (origin (f64 L)) hi) /\
  (bounded_kind m -> Forall (fun mt => exists a b, mmin mt = Some a /\ mmax mt = Some b /\ between (f64 L) a (origin (f64 L)) b) (materials l))) m'.
Proof.
  apply (origin_inside (f64 L) number ord (f64_ordered L)); [|reflexivity].
  intros x y _ [H|H]; apply b64_lt_number in H; tauto.
Qed.
Theorem origin_inside_exact m m' : update_boundaries exact m = (m', None) -> every_lod (fun l =>
  (exists lo hi, lod_min l = Some lo /\ lod_max l = Some hi /\ between exact lo (origin exact) hi) /\
  (bounded_kind m -> Forall (fun mt => exists a b, mmin mt = Some a /\ mmax mt = Some b /\ between exact a (origin exact) b) (materials l))) m'.
Proof. apply (origin_inside exact (fun _ => True) (fun x => x) exact_ordered); [|reflexivity]. auto. Qed.

Theorem update_box_exact vs (m m' : mesh R) :
  vertex_size m = Ok (Z.of_nat vs) -> short_offsets m -> bounded_kind m -> Forall (mat_vin vs m) (mats m) ->
  update_boundaries exact m = (m', None) -> every_lod (lod_boxed exact vs m') m'.
Proof.
  intros Hs HO HK HV HU. refine (update_box exact (fun _ => True) (fun x => x) exact_ordered vs m m' Hs HO HK HV _ HU).
  apply Forall_forall. intros mt _. apply Forall_forall. intros q _ i _. exact I.
Qed.
Theorem update_again {F} (A : arith F) m m' o : update_boundaries A m = (m', o) -> update_boundaries A m' = (m', o).
Proof. intros H. pose proof (update_idem A m) as E. rewrite H in E. exact E. Qed.
