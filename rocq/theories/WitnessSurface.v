(** Concrete surfaces. *)
From Coq Require Import ZArith List Bool Lia Reals Lra Permutation Relations.
From Verif Require Import PyBase Struct Mesh Arith RArith Edit Spec SpecEdit SpecBounds SpecVec SpecSurface OldEdit SpecOldEdit
  TravFacts VertFacts LayoutFacts MergeFacts ReorderFacts VMapFacts CommFacts SurfaceFacts Mock SpecMock MockFacts.
Import ListNotations.
Open Scope Z_scope.

(** ** Box of mock_mesh.py *)
Lemma nth_block {B} (d : B) n l i k : (k < n)%nat -> nth k (block n l i) d = nth (i * n + k) l d.
Proof.
  intros H. unfold block. rewrite <- (firstn_skipn (i * n) l) at 2. destruct (Nat.le_gt_cases (i * n) (length l)) as [L|L].
  - rewrite app_nth2; rewrite firstn_length, Nat.min_l by exact L; [|lia]. replace (i * n + k - i * n)%nat with k by lia.
    destruct (Nat.le_gt_cases (length (firstn n (skipn (i * n) l))) k) as [K|K].
    + rewrite nth_overflow by exact K. rewrite firstn_length in K. symmetry. apply nth_overflow. lia.
    + rewrite <- (firstn_skipn n (skipn (i * n) l)) at 2. now rewrite app_nth1.
  - rewrite skipn_all2 by lia. rewrite firstn_nil, app_nil_r, !nth_overflow; [reflexivity| |cbn; lia]. rewrite firstn_length. lia.
Qed.
Lemma box_drawable : drawable 12 rbox.
Proof.
  destruct (box_fit lit_real) as (C & P & _). constructor.
  - reflexivity.
  - apply le_n_S, Nat.le_0_l.
  - exact P.
  - unfold closed, mats, mats_of. cbn [geoms the_box flat_map lods app]. repeat apply Forall_cons; try apply Forall_nil; cbn [vnum]; lia.
  - unfold rotate_ready. split; [apply C|]. let t := eval vm_compute in (oriented_attribs rbox) in change (oriented_attribs rbox) with t. split.
    + repeat apply Forall_cons; try apply Forall_nil; (split; [reflexivity|]); vm_compute; lia.
    + repeat constructor; vm_compute; lia.
  - eexists. reflexivity.
Qed.
Lemma box_surface_is : surface 12 rbox = map (on3 half3) (triples (map zpos box_index)).
Proof.
  rewrite <- (triples_map half3 36) by (cbn; lia). rewrite <- box_rpos. unfold surface. rewrite faces_parts.
  assert (exists mt, mats rbox = [mt] /\ vstart mt = 0 /\ vnum mt = 24 /\ mat_indices rbox mt = box_index) as (mt & E & V & N & I).
  { eexists. split; [reflexivity|]. repeat split; reflexivity. }
  unfold parts. rewrite E. cbn [map flat_map]. rewrite app_nil_r. unfold tri, data. cbn [fst snd]. rewrite I.
  rewrite <- (triples_map _ 36) by (cbn; lia). f_equal. rewrite map_map. apply map_ext_in. intros i Hi.
  assert (0 <= i < 24) as Hi'. { cbn [box_index In] in Hi. lia. }
  assert (look (mat_vertices 12 rbox mt) i = block 12 (vertices rbox) (Z.to_nat i)) as ->.
  { apply look_eq; [lia|]. unfold mat_vertices. rewrite nth_error_map, N, V. change (Z.to_nat 0) with 0%nat. cbn [Nat.add].
    rewrite (nth_error_nth' _ 0%nat) by (rewrite seq_length; lia). rewrite seq_nth by lia. reflexivity. }
  assert (position_start rbox = 0)%nat as -> by reflexivity. unfold vec_at, three. cbv zeta. rewrite !nth_block by lia. now rewrite !Nat.add_assoc.
Qed.
Lemma box_surface_closed : closed_surface (surface 12 rbox).
Proof. rewrite box_surface_is. apply closed_map; [exact half3_inj|exact box_zclosed]. Qed.

Ltac see_box := rewrite box_surface_is; let t := eval vm_compute in (triples (map zpos box_index)) in change (triples (map zpos box_index)) with t.
Lemma box_volume : volume (surface 12 rbox) = 1%R.
Proof.
  see_box. unfold volume, sumR, triple_product, scalar_product, vector_product, axis, half3. cbn [map on3 fold_right]. cbv beta iota. lra.
Qed.
Lemma box_area : area (surface 12 rbox) = 6%R.
Proof.
  see_box. unfold area, sumR. cbn [map on3 fold_right].
  assert (forall x, x = 1%R -> sqrt x = 1%R) as S by (intros x ->; apply sqrt_1).
  rewrite !S by (unfold facing, minus, scalar_product, vector_product, axis, half3; lra). lra.
Qed.

(** ** One triangle *)
Definition sheet_mat : mat R :=
  {| alphamode := None; fxfile := []; technique := []; mapnum := 0; maps := []; vstart := 0; istart := 0; inum := 3; vnum := 3;
     mat_u4 := 0; mat_u5 := 0; mmin := None; mmax := None |}.
Definition sheet : mesh R :=
  {| m_kind := m_kind rbox; m_head := m_head rbox; m_u1 := 0; geomnum := 1;
     geoms := [{| lodnum := 1; lods := [{| lod_min := None; lod_max := None; pivot := None; rignum := 0; rigs := []; nodenum := 0; nodes := [];
                                         matnum := 1; materials := [sheet_mat] |}] |}];
     vertattribnum := 1; vertex_attributes := [{| flag := 0; offset := 0; vartype := 2; usage := 0 |}];
     vertformat := 4; vertstride := 12; vertnum := 3; vertices := [1; 0; 0; 0; 1; 0; 0; 0; 1]%R;
     indexnum := 3; index := Tuple [0; 1; 2]; m_u2 := 8 |}.
Lemma sheet_drawable : drawable 3 sheet.
Proof.
  constructor.
  - reflexivity.
  - lia.
  - split; [exists 3|exists [0; 1; 2]]; cbn; repeat split; lia.
  - unfold closed, mats, mats_of. cbn. repeat apply Forall_cons; try apply Forall_nil; cbn; lia.
  - unfold rotate_ready. split; [|split].
    + split; [cbn; lia|]. cbn. repeat constructor; cbn; lia.
    + cbn. repeat constructor.
    + cbn. repeat constructor.
  - eexists. reflexivity.
Qed.
Lemma sheet_faces : faces 3 sheet = [([1; 0; 0], [0; 1; 0], [0; 0; 1])]%R.
Proof. reflexivity. Qed.
(** The volume formula of an open surface depends on where it is. *)
Lemma sheet_moves : exists m', translate exact sheet [1; 0; 0]%R = (m', None) /\ drawable 3 m' /\
  volume (surface 3 sheet) = (1 / 6)%R /\ volume (surface 3 m') = (1 / 3)%R.
Proof.
  destruct (translate_succeeds exact 3 sheet [1; 0; 0]%R) as (m' & E).
  - reflexivity.
  - lia.
  - apply sheet_drawable.
  - apply sheet_drawable.
  - intros _. eexists. split; [reflexivity|]. cbn. lia.
  - exists m'. split; [exact E|]. pose proof sheet_drawable as D. split; [apply (move_carried 3 sheet m' D); eapply by_translate; exact E|].
    destruct (faces_translate 3 exact sheet [1; 0; 0]%R m' (dr_size _ _ D) (dr_pos _ _ D) (proj1 (dr_packed _ _ D)) (dr_closed _ _ D) (proj1 (dr_ready _ _ D)) E)
      as (EF & _). pose proof (proj1 (proj2 (move_carried 3 sheet m' D (by_translate _ _ _ _ _ _ E)))) as SH.
    assert (position_start m' = 0)%nat as EP.
    { unfold position_start, position_attrib, attrib_start. destruct SH as (_ & _ & _ & _ & _ & -> & -> & _). reflexivity. }
    unfold surface. rewrite EP, EF, sheet_faces. change (position_start sheet) with 0%nat.
    unfold volume, sumR, triple_product, scalar_product, vector_product, axis, vec_at, moved_vertex, moved. cbn. split; lra.
Qed.

(** ** Box is moved about *)
Lemma box_tour : exists m1 m2 m3, translate exact rbox [1; 2; 3]%R = (m1, None) /\ rotate exact m1 [90; 0; 45]%R = (m2, None) /\
  change_geoms_order m2 [-1] = (m3, None) /\ clos_refl_trans _ move rbox m3.
Proof.
  pose proof box_drawable as D.
  destruct (translate_succeeds exact 12 rbox [1; 2; 3]%R) as (m1 & E1); [apply D|apply D|apply D|apply D| |].
  { intros _. eexists. split; [reflexivity|]. vm_compute. lia. }
  pose proof (by_translate _ _ _ _ _ _ E1) as M1. pose proof (move_carried 12 rbox m1 D M1) as (D1 & SH1 & _).
  assert (same_but_vertices rbox m1) as S1 by (rewrite (translate_same exact rbox rbox _ eq_refl eq_refl) in E1; now apply run_frame in E1).
  destruct (rotate_packed exact 12 m1 90%R 0%R 45%R []) as (m2 & E2 & S2 & _); [apply D1|apply D1|apply D1|apply D1|now repeat split|].
  pose proof (by_rotate _ _ _ _ E2) as M2. pose proof (move_carried 12 m1 m2 D1 M2) as (D2 & SH2 & _).
  assert (geoms m2 = geoms rbox) as EG. { transitivity (geoms m1); [apply S2|apply S1]. }
  assert (sumZ vnum (mats m2) <= 2 ^ 53) as B. { unfold mats. rewrite EG. vm_compute. discriminate. }
  assert (permutes (length (geoms m2)) [-1] [0%nat]) as PE.
  { rewrite EG. cbn. split; [constructor; [|constructor]|reflexivity]. split; [lia|right; reflexivity]. }
  destruct (reorder_ok 12 m2 [-1] [0%nat] (dr_size _ _ D2) (dr_pos _ _ D2) (packed_in_range 12 m2 (dr_packed _ _ D2)) B PE) as (m3 & E3 & _).
  exists m1, m2, m3. split; [exact E1|]. split; [exact E2|]. split; [exact E3|].
  apply (rt_trans _ _ _ m1); [now apply rt_step|]. apply (rt_trans _ _ _ m2); [now apply rt_step|]. apply rt_step. now apply (by_reorder m2 [-1] [0%nat]).
Qed.

(** ** Two boxes *)
Lemma corner_x (P : R -> Prop) l : Forall (fun t => let '(p, q, r) := t in P (axis 0 p) /\ P (axis 0 q) /\ P (axis 0 r)) l ->
  forall e, In e (edges l) -> P (axis 0 (fst e)).
Proof.
  intros H e He. unfold edges in He. apply in_flat_map in He. destruct He as (((p, q), r) & Ht & He). rewrite Forall_forall in H.
  destruct (H _ Ht) as (H1 & H2 & H3). destruct He as [<-|[<-|[<-|[]]]]; assumption.
Qed.
Lemma box_pair : exists b r, translate exact rbox [10; 0; 0]%R = (b, None) /\ merge rbox b = (r, Merged) /\ drawable 12 b /\ whole rbox /\
  vertformat b = vertformat rbox /\ forall e, In e (edges (surface 12 rbox)) -> ~ In e (edges (surface 12 b)).
Proof.
  pose proof box_drawable as D.
  destruct (translate_succeeds exact 12 rbox [10; 0; 0]%R) as (b & E1); [apply D|apply D|apply D|apply D| |].
  { intros _. eexists. split; [reflexivity|]. vm_compute. lia. }
  pose proof (by_translate _ _ _ _ _ _ E1) as M1. pose proof (move_carried 12 rbox b D M1) as (D1 & SH1 & _).
  pose proof E1 as E2. rewrite (translate_same exact rbox rbox _ eq_refl eq_refl) in E2.
  apply (run_iff 12) in E2; [|apply keeps_translate, D|apply D|apply D|apply D]. destruct E2 as (_ & EB).
  assert (in_range 12 rbox) as R by apply packed_in_range, D. assert (in_range 12 b) as RB by apply packed_in_range, D1.
  destruct (merge_cases 12 rbox b) as [(_ & r & E & _)|(N & _)]; [apply canMerge_true; rewrite EB; reflexivity|apply D|exact R|exact RB| |].
  - exists b, r. split; [exact E1|]. split; [exact E|]. split; [exact D1|]. split; [unfold whole; repeat constructor|]. split; [apply SH1|].
    assert (surface 12 b = map (on3 (fun v => plus v (10, 0, 0)%R)) (surface 12 rbox)) as ES.
    { destruct (faces_translate 12 exact rbox [10; 0; 0]%R b (dr_size _ _ D) (dr_pos _ _ D) (proj1 (dr_packed _ _ D)) (dr_closed _ _ D) (proj1 (dr_ready _ _ D)) E1) as (EF & _).
      unfold surface. rewrite EF. assert (position_start b = position_start rbox) as ->.
      { unfold position_start, position_attrib, attrib_start. destruct SH1 as (_ & _ & _ & _ & _ & -> & -> & _). reflexivity. }
      rewrite !on3_on3. apply map_on3_len; [apply D|apply D|]. intros v L. apply (rigid_translate 12 rbox 10 0 0 (dr_ready _ _ D) (dr_position _ _ D) v L). }
    intros e H1 H2. rewrite ES in H2. 
    assert (Forall (fun t => let '(p, q, r) := t in (-1 <= axis 0 p <= 1)%R /\ (-1 <= axis 0 q <= 1)%R /\ (-1 <= axis 0 r <= 1)%R) (surface 12 rbox)) as BD.
    { see_box. cbn [map on3 half3]. repeat apply Forall_cons; try apply Forall_nil; unfold axis; repeat split; lra. }
    pose proof (corner_x (fun x => (-1 <= x <= 1)%R) _ BD e H1) as X1.
    assert (9 <= axis 0 (fst e))%R as X2.
    { apply (corner_x (fun x => 9 <= x)%R (map (on3 (fun v => plus v (10, 0, 0)%R)) (surface 12 rbox))); [|exact H2]. apply Forall_map.
      eapply Forall_impl; [|exact BD]. intros ((((p1, p2), p3), ((q1, q2), q3)), ((r1, r2), r3)). unfold axis. cbn. lra. }
    lra.
  - exfalso. apply N. rewrite EB. rewrite vmap_parts by (apply D || apply total_len). 
    assert (exists vl, parts 12 rbox = [(vl, box_index)] /\ zlen vl = 24) as (vl & EP & L).
    { eexists. split; [reflexivity|]. reflexivity. }
    rewrite EP. cbn [map pmap fst snd]. constructor; [|constructor]. unfold clears. cbn [fst snd]. rewrite L. unfold box_index. repeat constructor; lia.
Qed.

Lemma open_refuted : ~ (forall vs m m', drawable vs m -> clos_refl_trans _ move m m' -> volume (surface vs m') = volume (surface vs m)).
Proof.
  intros H. destruct sheet_moves as (m' & E & _ & V & V'). specialize (H 3%nat sheet m' sheet_drawable (rt_step _ _ _ _ (by_translate _ _ _ _ _ _ E))). lra.
Qed.
