(** Duplicating a collision mesh (deprecated/mesh_merge.py). *)
From Coq Require Import ZArith List Bool Lia Reals Lra.
From Verif Require Import PyBase Struct Mesh Arith RArith Edit Spec SpecEdit BoundFacts Col ColFacts SpecBounds SpecCol ColMergeFacts Vec SpecVec VecFacts
  Recipe SpecRecipe.
Import ListNotations.
Open Scope Z_scope.

(** ** Merging, with the bounds *)
Section Grown.
Context {F : Type} (A : arith F).
Definition lod_grew (a b c : collod F colface) : Prop := lod_merged a b c /\
  cl_min c = low A (cl_vertices a ++ cl_vertices b) (cl_min a) /\ cl_max c = high A (cl_vertices a ++ cl_vertices b) (cl_max a) /\
  cl_bmin c = low A (cl_vertices a ++ cl_vertices b) (cl_bmin a) /\ cl_bmax c = high A (cl_vertices a ++ cl_vertices b) (cl_bmax a).
Definition sub_grew (a b c : colsub F colface) : Prop :=
  cs_lodnum c = cs_lodnum a /\ each_merged lod_grew (cs_lods a) (cs_lods b) (cs_lods c).
Definition geom_grew (a b c : colgeom F colface) : Prop :=
  cg_subnum c = cg_subnum a /\ each_merged sub_grew (cg_subs a) (cg_subs b) (cg_subs c).
Definition col_grew (a b c : colmesh F colface) : Prop :=
  cm_u1 c = cm_u1 a /\ cm_version c = cm_version a /\ cm_geomnum c = cm_geomnum a /\
  each_merged geom_grew (cm_geoms a) (cm_geoms b) (cm_geoms c).

Lemma merges_lod_g : merges (fun h (x y : collod F nat) => let '(h', x') := merge_collod A h x y in (h', x', None)) cl_faces lod_view
  (fun _ _ => True) lod_grew lod_shifted.
Proof.
  split; [exact lod_view_ext|].
  intros h x y h' x' r AP H. destruct (merge_collod A h x y) as (h1, c) eqn:E. injection H as <- <- <-.
  destruct (merge_collod_run _ _ _ _ _ _ AP E) as (L & O & M & S & EF).
  split; [exact L|]. split; [exact O|]. split; [auto|]. split; [tauto|]. intros _. split; [|split; [exact S|rewrite EF; apply incl_refl]].
  split; [exact M|]. unfold merge_collod in E. destruct (merge_faces _ _ _ _) as (h2, l). injection E as _ <-. rewrite !lod_view_eq.
  cbn [cl_min cl_max cl_bmin cl_bmax cl_vertices]. rewrite !fold_low, !fold_high. repeat split.
Qed.
Lemma merges_sub_g : merges (merge_colsub A) (fun s => flat_map cl_faces (cs_lods s)) sub_view sub_within sub_grew sub_shifted.
Proof.
  destruct (merges_each _ _ _ _ _ _ merges_lod_g) as (V & R). split.
  - intros h h' x H. unfold sub_view, colsub_map. f_equal. apply (V h h' (cs_lods x) H).
  - intros h x y h' x' r AP H. unfold merge_colsub in H.
    destruct (merge_each _ h (cs_lods x) (cs_lods y)) as ((h1, l), r1) eqn:E. injection H as <- <- <-.
    destruct (R _ _ _ _ _ _ AP E) as (L & O & C & I & S). split; [exact L|]. split; [exact O|]. split; [exact C|]. split; [exact I|].
    intros HR. destruct (S HR) as (M & T & N). split; [split; [reflexivity|exact M]|]. split; [|exact N].
    unfold sub_view, colsub_map, sub_shifted. cbn. f_equal. exact T.
Qed.
Lemma merges_geom_g : merges (merge_colgeom A) (fun s => flat_map cl_faces (geom_lods s)) geom_view geom_within geom_grew geom_shifted.
Proof.
  destruct (merges_each _ _ _ _ _ _ merges_sub_g) as (V & R). split.
  - intros h h' x H. unfold geom_view, colgeom_map. f_equal. unfold geom_lods in H. rewrite flat_map_flat_map in H. apply (V h h' (cg_subs x) H).
  - intros h x y h' x' r AP H. unfold merge_colgeom in H.
    destruct (merge_each _ h (cg_subs x) (cg_subs y)) as ((h1, l), r1) eqn:E. injection H as <- <- <-.
    unfold geom_lods in *. rewrite !flat_map_flat_map in *.
    destruct (R _ _ _ _ _ _ AP E) as (L & O & C & I & S). split; [exact L|]. split; [exact O|]. split; [exact C|]. split; [exact I|].
    intros HR. destruct (S HR) as (M & T & N). split; [split; [reflexivity|exact M]|]. split; [|exact N].
    unfold geom_view, colgeom_map, geom_shifted. cbn. f_equal. exact T.
Qed.
Lemma col_merge_grew h (a b : colmesh F nat) h' c : apart h (col_faces a) (col_faces b) -> col_merge A h a b = (h', c, None) ->
  col_grew (view h a) (view h b) (view h' c).
Proof.
  intros AP H. unfold col_merge in H. destruct (merge_each _ h (cm_geoms a) (cm_geoms b)) as ((h1, l), r1) eqn:E. injection H as <- <- ->.
  destruct (merges_each _ _ _ _ _ _ merges_geom_g) as (V & R).
  unfold col_faces, col_lods in *. rewrite !flat_map_flat_map in *.
  destruct (R _ _ _ _ _ _ AP E) as (L & O & C & I & S). destruct (S eq_refl) as (M & T & N).
  repeat (split; [reflexivity|]). exact M.
Qed.

(** ** A mesh and a copy of the same shape *)
Lemma each_same {X} (M : X -> X -> X -> Prop) f xs zs : each_merged M xs (map f xs) zs -> Forall2 (fun x z => M x (f x) z) xs zs.
Proof.
  revert zs. induction xs as [|x t IH]; cbn; intros zs H; inversion H; subst; constructor; auto.
Qed.
Lemma Forall2_flat {X Y X' Y'} (P : X -> X' -> Prop) (Q : Y -> Y' -> Prop) f g xs ys : (forall x y, P x y -> Forall2 Q (f x) (g y)) ->
  Forall2 P xs ys -> Forall2 Q (flat_map f xs) (flat_map g ys).
Proof. intros H. induction 1; cbn; [constructor|]. apply Forall2_app; auto. Qed.
Lemma Forall2_impl' {X Y} (P Q : X -> Y -> Prop) xs ys : (forall x y, P x y -> Q x y) -> Forall2 P xs ys -> Forall2 Q xs ys.
Proof. intros H. induction 1; constructor; auto. Qed.

(** Where each part of the result comes from. *)
Lemma grew_moved d (m m' : colmesh F colface) : col_grew m (col_translate A d m) m' ->
  cm_u1 m' = cm_u1 m /\ cm_version m' = cm_version m /\ cm_geomnum m' = cm_geomnum m /\
  Forall2 (fun g g' => cg_subnum g' = cg_subnum g /\ Forall2 (fun s s' => cs_lodnum s' = cs_lodnum s /\
     Forall2 (fun l l' => lod_grew l (translate_collod A d l) l') (cs_lods s) (cs_lods s')) (cg_subs g) (cg_subs g')) (cm_geoms m) (cm_geoms m').
Proof.
  intros (U & V & G & M). split; [exact U|]. split; [exact V|]. split; [exact G|]. apply each_same in M. revert M. apply Forall2_impl'.
  intros g g' (N & S). split; [exact N|]. apply each_same in S. revert S. apply Forall2_impl'.
  intros s s' (K & L). split; [exact K|]. now apply each_same in L.
Qed.

Lemma lods_translate {R} o (m : colmesh F R) : col_lods (col_translate A o m) = map (translate_collod A o) (col_lods m).
Proof.
  unfold col_lods, geom_lods, col_translate. cbn. induction (cm_geoms m) as [|g t IH]; cbn; [reflexivity|]. rewrite map_app, IH. f_equal. clear.
  induction (cg_subs g) as [|s u IH]; cbn; [reflexivity|]. now rewrite map_app, IH.
Qed.
Lemma view_translate h o (m : colmesh F nat) : view h (col_translate A o m) = col_translate A o (view h m).
Proof.
  unfold view, faces_map, colmesh_map, col_translate. cbn. f_equal. rewrite !map_map. apply map_ext. intros g. unfold colgeom_map. cbn. f_equal.
  rewrite !map_map. apply map_ext. intros s. unfold colsub_map. cbn. f_equal. rewrite !map_map. apply map_ext. intros l.
  change (collod_map (fun x => x) (deref h)) with (@lod_view F h). rewrite !lod_view_eq. reflexivity.
Qed.
Lemma view_ext h h' (m : colmesh F nat) : (forall a, In a (col_faces m) -> deref h a = deref h' a) -> view h m = view h' m.
Proof.
  intros H. unfold view, faces_map.
  apply (colmesh_map_ext (fun _ => True) (fun a => In a (col_faces m))); auto.
  - apply col_all_true; auto.
  - apply Forall_forall. auto.
Qed.
Lemma view_copy h (m : colmesh F nat) : view (h ++ h) (faces_map (fun a => (length h + a)%nat) m) = view h m.
Proof.
  unfold view, faces_map. rewrite colmesh_map_map. apply (colmesh_map_ext (fun _ => True) (fun _ => True)); auto.
  - intros a _. unfold deref. rewrite app_nth2 by lia. f_equal. lia.
  - apply col_all_true; auto.
  - apply Forall_forall. auto.
Qed.
Lemma within_refl_translate d g (m : colmesh F nat) : within m (col_translate A d (faces_map g m)).
Proof.
  unfold within, col_translate, faces_map, colmesh_map. cbn.
  induction (cm_geoms m) as [|x t IH]; cbn; constructor; [|exact IH]. unfold geom_within. cbn. clear.
  induction (cg_subs x) as [|s u IH]; cbn; constructor; [|exact IH]. unfold sub_within. cbn. clear.
  induction (cs_lods s) as [|l v IH]; cbn; constructor; auto.
Qed.

(** Moving vertices moves the triangles. *)
Lemma corner_map (f : vec3 F -> vec3 F) vs n : corner (map f vs) n = option_map f (corner vs n).
Proof. unfold corner. destruct (n <? 0); [reflexivity|]. apply nth_error_map. Qed.
Lemma triangles_moved (l l' : collod F colface) f : cl_vertices l' = map f (cl_vertices l) -> cl_faces l' = cl_faces l ->
  triangles l' = map (tri_map f) (triangles l).
Proof.
  intros HV HF. unfold triangles. rewrite HF, map_map. apply map_ext. intros x. unfold corners. rewrite HV, !corner_map. reflexivity.
Qed.
Lemma faces_ok_moved d (l : collod F colface) : faces_ok l -> faces_ok (translate_collod A d l).
Proof. intros (H1 & H2). split; [|exact H2]. cbn. rewrite H1. unfold zlen. now rewrite map_length. Qed.

Lemma lod_twice_ok d c (l l' : collod F colface) : faces_ok l -> lod_merged l (translate_collod A d l) l' ->
  lod_twice (fun v => vec_add A v c) (fun v => vec_add A (vec_add A v d) c) l (translate_collod A c l').
Proof.
  intros OK M. pose proof (merged_triangles _ _ _ OK (faces_ok_moved d l OK) M eq_refl) as T.
  destruct M as (M1 & M2 & M3 & M4 & M5 & M6 & M7 & M8 & M9 & M10 & M11 & M12 & M13). cbn in M3, M4, M5, M6, M7, M8, M9, M10, M11, M12, M13.
  unfold lod_twice. cbn [translate_collod cl_vertices cl_faces cl_type cl_u7 cl_facenum cl_vertnum cl_ynum cl_znum cl_anum cl_vertids cl_ydata cl_zdata cl_adata].
  split; [rewrite M6, map_app, map_map; reflexivity|]. split.
  { rewrite (triangles_moved l' (translate_collod A c l') (fun v => vec_add A v c) eq_refl eq_refl), T, map_app. f_equal.
    rewrite (triangles_moved l (translate_collod A d l) (fun v => vec_add A v d) eq_refl eq_refl), map_map. apply map_ext.
    intros ((p, q), r). cbn. destruct p, q, r; reflexivity. }
  split; [rewrite M4, map_app, map_map; reflexivity|].
  repeat split; try assumption; lia.
Qed.

(** ** The script *)
Lemma col0_spec {R} (m : colmesh F R) l : col0 m = Ok l <-> exists g gs s ss ls, cm_geoms m = g :: gs /\ cg_subs g = s :: ss /\ cs_lods s = l :: ls.
Proof.
  unfold col0. split.
  - intros H. destruct (cm_geoms m) as [|g gs] eqn:E1; [discriminate|]. destruct (cg_subs g) as [|s ss] eqn:E2; [discriminate|].
    destruct (cs_lods s) as [|l0 ls] eqn:E3; [discriminate|]. injection H as ->. exists g, gs, s, ss, ls. auto.
  - intros (g & gs & s & ss & ls & -> & -> & ->). reflexivity.
Qed.
Lemma col0_view h (m : colmesh F nat) : col0 (view h m) = rmap (lod_view h) (col0 m).
Proof.
  unfold col0, view, faces_map, colmesh_map. cbn. destruct (cm_geoms m) as [|g gs]; cbn; [reflexivity|]. destruct (cg_subs g) as [|s ss]; cbn; [reflexivity|].
  destruct (cs_lods s); reflexivity.
Qed.
Lemma col0_in {R} (m : colmesh F R) l : col0 m = Ok l -> In l (col_lods m).
Proof.
  intros H. apply col0_spec in H. destruct H as (g & gs & s & ss & ls & E1 & E2 & E3). unfold col_lods, geom_lods. rewrite E1. cbn. rewrite E2. cbn.
  rewrite E3. now left.
Qed.

Lemma mesh_rel_col0 (P : collod F colface -> collod F colface -> Prop) m m' l : mesh_rel P m m' -> col0 m = Ok l -> exists l', col0 m' = Ok l' /\ P l l'.
Proof.
  intros (_ & _ & _ & M) H. apply col0_spec in H. destruct H as (g & gs & s & ss & ls & E1 & E2 & E3). rewrite E1 in M.
  destruct (cm_geoms m') as [|g' gs'] eqn:E1'; inversion M as [|? ? ? ? (_ & G) _]; subst. rewrite E2 in G.
  destruct (cg_subs g') as [|s' ss'] eqn:E2'; inversion G as [|? ? ? ? (_ & S) _]; subst. rewrite E3 in S.
  destruct (cs_lods s') as [|l' ls'] eqn:E3'; inversion S as [|? ? ? ? L _]; subst.
  exists l'. split; [|exact L]. apply col0_spec. exists g', gs', s', ss', ls'. auto.
Qed.
Lemma mesh_rel_impl (P Q : collod F colface -> collod F colface -> Prop) m m' : mesh_rel P m m' ->
  (forall l l', In l (col_lods m) -> P l l' -> Q l l') -> mesh_rel Q m m'.
Proof.
  intros (U & V & G & M) H. repeat (split; [assumption|]). unfold col_lods in H. clear -M H.
  induction M as [|g g' t t' (N & S) M IH]; constructor.
  - split; [exact N|]. cbn in H. assert (forall l l', In l (geom_lods g) -> P l l' -> Q l l') as H' by (intros; apply H; [apply in_app_iff; now left|assumption]).
    clear -S H'. unfold geom_lods in H'. induction S as [|s s' u u' (K & L) S IH]; constructor.
    + split; [exact K|]. cbn in H'. assert (forall l l', In l (cs_lods s) -> P l l' -> Q l l') as H'' by (intros; apply H'; [apply in_app_iff; now left|assumption]).
      clear -L H''. induction L; constructor; [apply H''; [now left|assumption]|]. apply IHL. intros. apply H''; [now right|assumption].
    + apply IH. intros. apply H'; [cbn; apply in_app_iff; now right|assumption].
  - apply IH. intros. apply H; [cbn; apply in_app_iff; now right|assumption].
Qed.
Lemma mesh_rel_translate (P : collod F colface -> collod F colface -> Prop) o m m' : mesh_rel P m m' ->
  mesh_rel (fun l l'' => exists l', P l l' /\ l'' = translate_collod A o l') m (col_translate A o m').
Proof.
  intros (U & V & G & M). unfold mesh_rel, col_translate. cbn. repeat (split; [assumption|]). clear -M.
  induction M as [|g g' t t' (N & S) M IH]; cbn; constructor; [|exact IH]. cbn. split; [exact N|]. clear -S.
  induction S as [|s s' u u' (K & L) S IH]; cbn; constructor; [|exact IH]. cbn. split; [exact K|]. clear -L.
  induction L; cbn; constructor; eauto.
Qed.

Lemma own_apart h (m : colmesh F nat) d : own_faces h m ->
  apart (h ++ h) (col_faces m) (col_faces (col_translate A d (faces_map (fun a => (length h + a)%nat) m))).
Proof.
  intros (ND & RG).
  assert (col_faces (col_translate A d (faces_map (fun a => (length h + a)%nat) m)) = map (fun a => (length h + a)%nat) (col_faces m)) as ->.
  { unfold faces_map. rewrite <- (col_faces_map (fun x => x)). unfold col_faces. rewrite lods_translate. rewrite !flat_map_concat_map, map_map. reflexivity. }
  rewrite Forall_forall in RG. split; [|split].
  - apply FinFun.Injective_map_NoDup; [intros x y; lia|exact ND].
  - apply Forall_forall. intros x Hx. apply in_map_iff in Hx. destruct Hx as (a & <- & Ha). rewrite app_length. specialize (RG a Ha). lia.
  - apply Forall_forall. intros x Hx X. apply in_map_iff in X. destruct X as (a & E & Ha). specialize (RG x Hx). lia.
Qed.

(** Everything that happens up to the point where the centre is computed. *)
Lemma duplicate_merge h (m : colmesh F nat) d : own_faces h m ->
  exists h2 m1, col_merge A (h ++ h) m (col_translate A d (faces_map (fun a => (length h + a)%nat) m)) = (h2, m1, None) /\
    (forall a, (a < length h)%nat -> deref h2 a = deref h a) /\ length h2 = length (h ++ h) /\
    incl (col_faces m1) (col_faces m ++ map (fun a => (length h + a)%nat) (col_faces m)) /\
    mesh_rel (fun l l' => lod_grew l (translate_collod A d l) l') (view h m) (view h2 m1).
Proof.
  intros OF. pose proof (own_apart h m d OF) as AP. destruct OF as (ND & RG).
  set (m2 := col_translate A d (faces_map (fun a => (length h + a)%nat) m)) in *.
  destruct (col_merge A (h ++ h) m m2) as ((h2, m1), r) eqn:E.
  destruct (col_merge_run A _ _ _ _ _ _ AP E) as (_ & W & L & O & S). assert (r = None) as -> by (apply W, within_refl_translate).
  exists h2, m1. split; [reflexivity|]. destruct (S eq_refl) as (_ & _ & IN).
  assert (col_faces m2 = map (fun a => (length h + a)%nat) (col_faces m)) as EF.
  { unfold m2, faces_map. rewrite <- (col_faces_map (fun x => x)). unfold col_faces. rewrite lods_translate. rewrite !flat_map_concat_map, map_map. reflexivity. }
  split.
  { intros a Ha. rewrite O; [unfold deref; now rewrite app_nth1|]. rewrite EF. intros X. apply in_map_iff in X. destruct X as (b & <- & _). lia. }
  split; [exact L|]. split; [rewrite <- EF; exact IN|].
  pose proof (col_merge_grew _ _ _ _ _ AP E) as G. unfold m2 in G. rewrite view_translate, view_copy in G.
  assert (view (h ++ h) m = view h m) as EV.
  { apply view_ext. intros a Ha. unfold deref. rewrite Forall_forall in RG. now rewrite app_nth1 by auto. }
  rewrite EV in G. exact (grew_moved d _ _ G).
Qed.

(** The script fails exactly when there is no first lod. *)
Theorem duplicate_fails neg h (m : colmesh F nat) d : f_eq A (f_two A) (f_zero A) = false -> own_faces h m ->
  (exists h' m', duplicate A neg h m d = (h', m', None)) \/
  ((exists h' m', duplicate A neg h m d = (h', m', Some EIndex)) /\ ~ exists l, first_lod m l).
Proof.
  intros H2 OF. destruct (duplicate_merge h m d OF) as (h2 & m1 & E & _ & _ & _ & G). unfold duplicate, deepcopy. rewrite E.
  destruct (col0 m1) as [l|e] eqn:E0.
  - left. unfold vec_divn, py_fdiv. rewrite H2. destruct (vec_add A (cl_min l) (cl_max l)) as ((x, y), z). cbn [bind]. eauto.
  - assert (e = EIndex) as ->.
    { unfold col0 in E0. destruct (cm_geoms m1) as [|g ?]; [congruence|]. destruct (cg_subs g) as [|s ?]; [congruence|]. destruct (cs_lods s); congruence. }
    right. split; [eauto|]. intros (l & Hl). apply (proj2 (col0_spec m l)) in Hl.
    pose proof (col0_view h m) as V. rewrite Hl in V. cbn in V. destruct (mesh_rel_col0 _ _ _ _ G V) as (l' & E' & _).
    rewrite col0_view, E0 in E'. discriminate.
Qed.

(** What it does. *)
Lemma duplicate_run neg h (m : colmesh F nat) d l0 : f_eq A (f_two A) (f_zero A) = false -> own_faces h m -> first_lod m l0 ->
  exists h' m1 l1, col0 (view h' m1) = Ok l1 /\
    let c := vec_neg neg (let '(x, y, z) := vec_add A (cl_min l1) (cl_max l1) in (f_div A x (f_two A), f_div A y (f_two A), f_div A z (f_two A))) in
    duplicate A neg h m d = (h', col_translate A c m1, None) /\
    (forall a, (a < length h)%nat -> deref h' a = deref h a) /\ length h' = length (h ++ h) /\
    incl (col_faces m1) (col_faces m ++ map (fun a => (length h + a)%nat) (col_faces m)) /\
    mesh_rel (fun l l' => lod_grew l (translate_collod A d l) l') (view h m) (view h' m1).
Proof.
  intros H2 OF FL. destruct (duplicate_merge h m d OF) as (h2 & m1 & E & O & L & IN & G).
  apply (proj2 (col0_spec m l0)) in FL. pose proof (col0_view h m) as V. rewrite FL in V. cbn in V.
  destruct (mesh_rel_col0 _ _ _ _ G V) as (l1 & E1 & _). exists h2, m1, l1. split; [exact E1|]. cbv zeta.
  split; [|auto]. unfold duplicate, deepcopy. rewrite E. rewrite col0_view in E1. destruct (col0 m1) as [l|e] eqn:E0; [|discriminate].
  cbn in E1. injection E1 as <-. rewrite !lod_view_eq. cbn [cl_min cl_max].
  unfold vec_divn, py_fdiv. rewrite H2. destruct (vec_add A (cl_min l) (cl_max l)) as ((x, y), z). reflexivity.
Qed.

Theorem duplicate_ok neg good val h (m : colmesh F nat) d l0 : ordered A good val -> f_eq A (f_two A) (f_zero A) = false ->
  own_faces h m -> first_lod m l0 -> Forall faces_ok (col_lods (view h m)) ->
  col_all good (view h m) -> col_all good (view h (col_translate A d m)) ->
  exists h' m' l' c, duplicate A neg h m d = (h', m', None) /\
    (forall a, In a (col_faces m) -> deref h' a = deref h a) /\
    first_lod (view h' m') l' /\
    (forall i, In i axes -> axis i c = neg (f_div A (f_add A (axis i (cl_min l')) (axis i (cl_max l'))) (f_two A))) /\
    mesh_rel (lod_duplicated A d c) (view h m) (view h' m').
Proof.
  intros ORD H2 OF FL OK GA GT. destruct (duplicate_run neg h m d l0 H2 OF FL) as (h' & m1 & l1 & E1 & H). cbv zeta in H.
  set (c := vec_neg neg _) in H. destruct H as (E & O & L & IN & G).
  assert (col0 (view h' (col_translate A c m1)) = Ok (translate_collod A c l1)) as E2.
  { rewrite view_translate. revert E1. generalize (view h' m1). intros M X. apply col0_spec in X. destruct X as (g & gs & s & ss & ls & X1 & X2 & X3).
    unfold col0, col_translate. cbn. rewrite X1. cbn. rewrite X2. cbn. rewrite X3. reflexivity. }
  exists h', (col_translate A c m1), (translate_collod A c l1), c. split; [exact E|].
  destruct OF as (ND & RG). rewrite Forall_forall in RG.
  split; [intros a Ha; apply O, RG, Ha|]. split; [now apply col0_spec|]. split.
  { cbn [translate_collod cl_min cl_max]. unfold c. destruct (cl_min l1) as ((?, ?), ?), (cl_max l1) as ((?, ?), ?). apply axis_cases; reflexivity. }
  rewrite view_translate. pose proof (mesh_rel_translate _ c _ _ G) as G'. revert G'. intros G'. apply (mesh_rel_impl _ _ _ _ G').
  intros l l'' Hl (l' & (M & B1 & B2 & B3 & B4) & ->).
  rewrite Forall_forall in OK. split; [apply lod_twice_ok; auto|]. cbn [translate_collod cl_min cl_max cl_bmin cl_bmax].
  rewrite view_translate in GT. unfold col_all in GA, GT. rewrite lods_translate, Forall_map in GT. rewrite Forall_forall in GA, GT.
  destruct (GA l Hl) as (V & P1 & P2 & P3 & P4 & _). destruct (GT l Hl) as (VT & _).
  rewrite B1, B2, B3, B4. cbn [translate_collod cl_vertices]. split; eapply grown_low_high; eauto; apply Forall_app; split; assumption.
Qed.
End Grown.

(** ** Exact arithmetic: the first lod ends up centred *)
Lemma grown_box V V' (lo hi lo' hi' : vec3 R) : box exact V lo hi -> grown exact (V ++ V') lo hi lo' hi' -> box exact (V ++ V') lo' hi'.
Proof.
  intros (B1 & B2) G. split.
  - intros q Hq i Hi. destruct (G i Hi) as (_ & _ & X & _). auto.
  - intros i Hi. destruct (G i Hi) as (_ & _ & _ & [E|X] & [E'|X']); destruct (B2 i Hi) as ((q & Q1 & Q2) & (r & R1 & R2)); split; auto.
    all: try (exists q; split; [apply in_app_iff; now left|congruence]); exists r; (split; [apply in_app_iff; now left|congruence]).
Qed.
Lemma box_moved V c (lo hi : vec3 R) : box exact V lo hi -> box exact (map (fun v => vec_add exact v c) V) (vec_add exact lo c) (vec_add exact hi c).
Proof.
  assert (forall u w : vec3 R, forall i, In i axes -> axis i (vec_add exact u w) = (axis i u + axis i w)%R) as AX.
  { intros u w. destruct (exact_add_sub_neg u w) as (X & _). exact X. }
  intros (B1 & B2). split.
  - intros q Hq i Hi. apply in_map_iff in Hq. destruct Hq as (v & <- & Hv). destruct (B1 v Hv i Hi) as (X & Y).
    rewrite !AX by exact Hi. rewrite (fle_val _ _ _ exact_ordered) in X, Y by exact I.
    rewrite !(fle_val _ _ _ exact_ordered) by exact I. lra.
  - intros i Hi. destruct (B2 i Hi) as ((q & Q1 & Q2) & (r & R1 & R2)). split; [exists (vec_add exact q c)|exists (vec_add exact r c)];
      (split; [now apply (in_map (fun v => vec_add exact v c))|]); rewrite !AX by exact Hi; congruence.
Qed.
Theorem duplicate_centred h (m : colmesh R nat) d l0 : own_faces h m -> first_lod m l0 -> Forall faces_ok (col_lods (view h m)) ->
  box exact (cl_vertices l0) (cl_min l0) (cl_max l0) ->
  exists h' m' l' lo hi, duplicate exact Ropp h m d = (h', m', None) /\ first_lod (view h' m') l' /\
    box exact (cl_vertices l') lo hi /\ centred lo hi /\
    (forall i, In i axes -> axis i hi - axis i lo = axis i (cl_max l') - axis i (cl_min l'))%R /\
    (collod_boxed exact l' <-> centred (cl_min l') (cl_max l')).
Proof.
  intros OF FL OK B.
  destruct (duplicate_ok exact Ropp (fun _ => True) (fun x => x) h m d l0 exact_ordered) as (h' & m' & l' & c & E & _ & F' & C & G); auto.
  { cbn. apply not_true_is_false. rewrite Reqb_spec. lra. } { apply col_all_true; auto. } { apply col_all_true; auto. }
  pose proof (proj2 (col0_spec m l0) FL) as E0. pose proof (col0_view h m) as V. rewrite E0 in V. cbn in V.
  destruct (mesh_rel_col0 _ _ _ _ G V) as (l'' & E'' & T). apply (proj2 (col0_spec _ l')) in F'. rewrite F' in E''. injection E'' as <-.
  destruct T as ((TV & _) & GR & _). rewrite lod_view_eq in TV, GR. cbn [cl_vertices cl_min cl_max] in TV, GR.
  exists h', m', l', (vec_add exact (cl_min l') c), (vec_add exact (cl_max l') c). split; [exact E|]. split; [now apply col0_spec|].
  assert (forall u w : vec3 R, forall i, In i axes -> axis i (vec_add exact u w) = (axis i u + axis i w)%R) as AX.
  { intros u w. destruct (exact_add_sub_neg u w) as (X & _). exact X. }
  split.
  { rewrite TV. rewrite <- (map_map (fun v => vec_add exact v d) (fun v => vec_add exact v c)), <- map_app. apply box_moved. eapply grown_box; eauto. }
  split; [intros i Hi; rewrite !AX, (C i Hi) by exact Hi; cbn; field|]. split; [intros i Hi; rewrite !AX by exact Hi; ring|].
  assert (box exact (cl_vertices l') (vec_add exact (cl_min l') c) (vec_add exact (cl_max l') c)) as (BX1 & BX2).
  { rewrite TV. rewrite <- (map_map (fun v => vec_add exact v d) (fun v => vec_add exact v c)), <- map_app. apply box_moved. eapply grown_box; eauto. }
  split.
  - intros X i Hi. destruct (BX2 i Hi) as ((q & Q1 & Q2) & (r & R1 & R2)). destruct (X q Q1 i Hi) as (Y1 & _). destruct (X r R1 i Hi) as (_ & Y2).
    rewrite (fle_val _ _ _ exact_ordered) in Y1, Y2 by exact I. rewrite Q2, AX, (C i Hi) in Y1 by exact Hi. rewrite R2, AX, (C i Hi) in Y2 by exact Hi.
    cbn in Y1, Y2. lra.
  - intros X q Hq i Hi. destruct (BX1 q Hq i Hi) as (Y1 & Y2). specialize (X i Hi). specialize (C i Hi). cbn in C. rewrite X in C.
    rewrite (fle_val _ _ _ exact_ordered) in Y1, Y2 by exact I. rewrite AX in Y1, Y2 by exact Hi. rewrite C in Y1, Y2.
    rewrite !(fle_val _ _ _ exact_ordered) by exact I. lra.
Qed.
