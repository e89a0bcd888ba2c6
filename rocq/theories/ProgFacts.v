(** Programs on a store behave as programs on values. *)
From Coq Require Import ZArith List Bool Lia Permutation.
From Verif Require Import PyBase Struct Mesh Arith Edit SpecEdit TravFacts MergeFacts ColMergeFacts ReorderFacts BoundFacts CenterFacts Heap HeapFacts HeapEdit SpecProg.
Import ListNotations.
Open Scope Z_scope.
Open Scope res_scope.

Lemma NoDup_app_inv {X} (a b : list X) : NoDup (a ++ b) -> NoDup a /\ NoDup b /\ forall x, In x a -> ~ In x b.
Proof.
  induction a as [|x a IH]; intros H; cbn [app] in *.
  - split; [constructor|]. split; [exact H|]. intros x [].
  - inversion H as [|? ? NI ND]; subst. rewrite in_app_iff in NI. destruct (IH ND) as (H1 & H2 & H3).
    split; [constructor; tauto|]. split; [exact H2|]. intros y [<-|Hy]; [tauto|auto].
Qed.

Lemma NoDup_app_intro {X} (a b : list X) : NoDup a -> NoDup b -> (forall x, In x a -> ~ In x b) -> NoDup (a ++ b).
Proof.
  induction a as [|x a IH]; intros H1 H2 H3; [exact H2|]. inversion H1; subst. cbn. constructor; [|apply IH; auto; intros y Hy; apply H3; now right].
  rewrite in_app_iff. intros [X1|X1]; [contradiction|]. apply (H3 x); [now left|exact X1].
Qed.
Section Prog.
Context {F : Type}.
Implicit Types (st : store F) (i a : nat).

(** ** Loops over materials *)
Definition frame (l : list nat) st st' : Prop :=
  s_meshes st' = s_meshes st /\ length (s_mats st') = length (s_mats st) /\ forall x, ~ In x l -> mat_at st' x = mat_at st x.
Definition inside (l : list nat) st : Prop := Forall (fun a => (a < length (s_mats st))%nat) l.
Lemma frame_refl l st : frame l st st. Proof. repeat split. Qed.
Lemma frame_trans l1 l2 st1 st2 st3 : frame l1 st1 st2 -> frame l2 st2 st3 -> frame (l1 ++ l2) st1 st3.
Proof.
  intros (A1 & A2 & A3) (B1 & B2 & B3). split; [congruence|]. split; [congruence|]. intros x Hx. rewrite in_app_iff in Hx.
  rewrite B3, A3; tauto.
Qed.
Lemma frame_incl l1 l2 st1 st2 : frame l1 st1 st2 -> incl l1 l2 -> frame l2 st1 st2.
Proof. intros (A1 & A2 & A3) I. repeat split; auto. Qed.
Lemma inside_frame l l' st st' : inside l st -> frame l' st st' -> inside l st'.
Proof. intros H (_ & E & _). unfold inside in *. now rewrite E. Qed.
Lemma put_frame st a m : (a < length (s_mats st))%nat -> frame [a] st (put_mat st a m).
Proof.
  intros H. split; [reflexivity|]. split; [apply mats_put_len|]. intros x Hx. rewrite mat_at_put by exact H.
  destruct (Nat.eqb_spec x a) as [->|]; [exfalso; apply Hx; now left|reflexivity].
Qed.
Lemma frame_map l l' st st' : frame l st st' -> (forall x, In x l' -> ~ In x l) -> map (mat_at st') l' = map (mat_at st) l'.
Proof. intros (_ & _ & H) D. apply map_ext_in. auto. Qed.

Section Loop.
Context {S : Type} (f : S -> mat F -> S * mat F * option exn).
Lemma heap_mats_run : forall l st s st' s' o k, NoDup l -> inside l st -> heap_mats f l st s = (st', s', o) ->
  fold_mut_from (fun _ => f) k s (map (mat_at st) l) = (s', map (mat_at st') l, o) /\ frame l st st'.
Proof.
  induction l as [|a t IH]; intros st s st' s' o k ND RG H; cbn [heap_mats map fold_mut_from] in *.
  - injection H as <- <- <-. split; [reflexivity|apply frame_refl].
  - inversion ND as [|? ? NI ND']; subst. inversion RG as [|? ? LA RG']; subst.
    destruct (f s (mat_at st a)) as ((s1, m1), o1). pose proof (put_frame st a m1 LA) as PF.
    assert (mat_at (put_mat st a m1) a = m1) as EA by (rewrite mat_at_put by exact LA; now rewrite Nat.eqb_refl).
    assert (map (mat_at (put_mat st a m1)) t = map (mat_at st) t) as ET.
    { apply (frame_map [a]); [exact PF|]. intros x Hx [->|[]]. contradiction. }
    destruct o1 as [e|].
    + injection H as <- <- <-. rewrite EA, ET. split; [reflexivity|]. apply (frame_incl [a]); [exact PF|]. intros x [->|[]]. now left.
    + destruct (IH _ _ _ _ _ (Datatypes.S k) ND' (inside_frame _ _ _ _ RG' PF) H) as (R & FR). rewrite ET in R. rewrite R.
      destruct FR as (F1 & F2 & F3). rewrite (F3 a NI), EA. split; [reflexivity|].
      apply (frame_trans [a] t st _ st' PF). repeat split; auto.
Qed.
Lemma heap_lods_run : forall ls st s st' s' o k, NoDup (flat_map hl_mats ls) -> inside (flat_map hl_mats ls) st -> heap_lods f ls st s = (st', s', o) ->
  fold_mut_from (fun _ s l => trav_lod (fun _ => f) s l) k s (map (lod_tree st) ls) = (s', map (lod_tree st') ls, o) /\ frame (flat_map hl_mats ls) st st'.
Proof.
  induction ls as [|l t IH]; intros st s st' s' o k ND RG H; cbn [heap_lods map fold_mut_from flat_map] in *.
  - injection H as <- <- <-. split; [reflexivity|apply frame_refl].
  - destruct (NoDup_app_inv _ _ ND) as (N1 & N2 & DJ). unfold inside in RG. rewrite Forall_app in RG. destruct RG as (R1 & R2).
    destruct (heap_mats f (hl_mats l) st s) as ((st1, s1), o1) eqn:E. destruct (heap_mats_run _ _ _ _ _ _ 0 N1 R1 E) as (RM & FR).
    assert (forall st2, frame (flat_map hl_mats t) st1 st2 -> lod_tree st2 l = lod_tree st1 l) as K.
    { intros st2 Fr. unfold lod_tree. f_equal. apply (frame_map (flat_map hl_mats t)); [exact Fr|]. exact DJ. }
    assert (map (lod_tree st1) t = map (lod_tree st) t) as ET.
    { apply map_ext_in. intros l' Hl. unfold lod_tree. f_equal. apply (frame_map (hl_mats l)); [exact FR|]. intros x X1 X2.
      apply (DJ x X2). apply in_flat_map. eauto. }
    unfold trav_lod at 1. unfold lod_tree at 1. cbn [materials set_materials]. unfold fold_mut. rewrite RM.
    change (set_materials (lod_tree st l) ?x) with (set_materials (hl_lod l) x). fold (lod_tree st1 l).
    destruct o1 as [e|].
    + injection H as <- <- <-. rewrite ET. split; [reflexivity|]. apply (frame_incl (hl_mats l)); [exact FR|]. apply incl_appl, incl_refl.
    + destruct (IH _ _ _ _ _ (Datatypes.S k) N2 (inside_frame _ _ _ _ R2 FR) H) as (R & FR2). rewrite ET in R. rewrite R.
      rewrite (K _ FR2). split; [reflexivity|]. eapply frame_trans; eauto.
Qed.
End Loop.

(** ** Geoms *)
Definition addrs (g : hgeom F) : list nat := flat_map hl_mats (hg_lods g).
Lemma geoms_addrs_cons (g : hgeom F) gs : geoms_addrs (g :: gs) = addrs g ++ geoms_addrs gs. Proof. reflexivity. Qed.
Lemma in_addrs (gs : list (hgeom F)) k g a : nth_error gs k = Some g -> In a (addrs g) -> In a (geoms_addrs gs).
Proof. intros H Ha. apply in_flat_map. exists g. split; [now apply nth_error_In in H|exact Ha]. Qed.
Lemma addrs_nodup : forall (gs : list (hgeom F)) k g, NoDup (geoms_addrs gs) -> nth_error gs k = Some g -> NoDup (addrs g).
Proof.
  induction gs as [|x t IH]; intros [|k] g ND H; cbn in H; try discriminate; rewrite geoms_addrs_cons in ND; apply NoDup_app_inv in ND.
  - injection H as <-. apply ND.
  - apply (IH k); [apply ND|exact H].
Qed.
Lemma addrs_disjoint : forall (gs : list (hgeom F)) j k g g' a, NoDup (geoms_addrs gs) -> nth_error gs j = Some g -> nth_error gs k = Some g' ->
  In a (addrs g) -> In a (addrs g') -> j = k.
Proof.
  induction gs as [|x t IH]; intros [|j] [|k] g g' a ND H1 H2 A1 A2; cbn in H1, H2; try discriminate; rewrite geoms_addrs_cons in ND; apply NoDup_app_inv in ND; destruct ND as (_ & ND & DJ).
  - reflexivity.
  - injection H1 as <-. exfalso. apply (DJ a A1). eapply in_addrs; eauto.
  - injection H2 as <-. exfalso. apply (DJ a A2). eapply in_addrs; eauto.
  - f_equal. eapply IH; eauto.
Qed.
Lemma geom_frame st st' (g : hgeom F) l : frame l st st' -> (forall a, In a (addrs g) -> ~ In a l) -> geom_tree st' g = geom_tree st g.
Proof. intros (_ & _ & H) D. apply geom_tree_ext. intros a Ha. apply H. now apply D. Qed.
Lemma geoms_set : forall (gs : list (hgeom F)) k g st st', NoDup (geoms_addrs gs) -> nth_error gs k = Some g -> frame (addrs g) st st' ->
  map (geom_tree st') gs = set_nth (map (geom_tree st) gs) k (geom_tree st' g).
Proof.
  induction gs as [|x t IH]; intros [|k] g st st' ND H FR; cbn in H; try discriminate; rewrite geoms_addrs_cons in ND; apply NoDup_app_inv in ND; destruct ND as (_ & ND & DJ); cbn [map set_nth].
  - injection H as <-. f_equal. apply map_ext_in. intros y Hy. apply (geom_frame _ _ _ (addrs x)); [exact FR|]. intros a Ha X. apply (DJ a X).
    apply In_nth_error in Hy. destruct Hy as (n & Hy). eapply in_addrs; eauto.
  - f_equal; [|now apply IH]. apply (geom_frame _ _ _ (addrs g)); [exact FR|]. intros a Ha X. apply (DJ a Ha). eapply in_addrs; eauto.
Qed.
Lemma inside_geom (gs : list (hgeom F)) k g st : inside (geoms_addrs gs) st -> nth_error gs k = Some g -> inside (addrs g) st.
Proof. intros H E. unfold inside in *. rewrite Forall_forall in *. intros a Ha. apply H. eapply in_addrs; eauto. Qed.
Lemma pick_app {X} (l : list X) ks k x : nth_error l k = Some x -> pick l (ks ++ [k]) = pick l ks ++ [x].
Proof. intros H. unfold pick. rewrite flat_map_app. cbn. now rewrite H. Qed.
Lemma heap_geom_run {S} (f : S -> mat F -> S * mat F * option exn) g st s st' s' o : NoDup (addrs g) -> inside (addrs g) st ->
  heap_lods f (hg_lods g) st s = (st', s', o) -> trav_geom (fun _ _ => f) s (geom_tree st g) = (s', geom_tree st' g, o) /\ frame (addrs g) st st'.
Proof.
  intros ND RG H. destruct (heap_lods_run f _ _ _ _ _ _ 0 ND RG H) as (R & FR). split; [|exact FR].
  unfold trav_geom. unfold geom_tree at 1. cbn [lods set_lods]. unfold fold_mut. rewrite R. reflexivity.
Qed.

(** ** change_geoms_order *)
Definition norm1 (n : nat) (z : Z) : Z := if z <? 0 then z + Z.of_nat n else z.
Lemma norm_index_norm1 n z k : norm_index (Z.of_nat n) z = Some k -> norm1 n z = Z.of_nat k.
Proof.
  unfold norm_index, norm1. intros H. destruct (z <? 0); destruct ((0 <=? _) && _)%bool eqn:E in H; try discriminate; apply andb_prop in E; destruct E as (E1 & E2); injection H as <-; rewrite Z2Nat.id; lia.
Qed.
Lemma heap_order_run vs verts ix gs : NoDup (geoms_addrs gs) -> forall order st s ks st' s' ch o, inside (geoms_addrs gs) st ->
  heap_order_loop vs verts ix gs order st s (pick gs ks) = (st', s', ch, o) ->
  exists ks', reorder_loop vs verts ix order (map (geom_tree st) gs) s ks = (map (geom_tree st') gs, s', ks', o) /\ ch = pick gs ks' /\
    frame (geoms_addrs gs) st st' /\ (o = None -> map Z.of_nat ks' = map Z.of_nat ks ++ map (norm1 (length gs)) order).
Proof.
  intros ND. induction order as [|z t IH]; intros st s ks st' s' ch o RG H; cbn [heap_order_loop reorder_loop] in *.
  - injection H as <- <- <- <-. exists ks. split; [reflexivity|]. split; [reflexivity|]. split; [apply frame_refl|]. cbn [map]. now rewrite app_nil_r.
  - unfold py_get in H. unfold zlen at 1. rewrite map_length. fold (zlen gs). destruct (norm_index (zlen gs) z) as [k|] eqn:EN.
    2: { injection H as <- <- <- <-. exists ks. split; [reflexivity|]. split; [reflexivity|]. split; [apply frame_refl|discriminate]. }
    rewrite nth_error_map. destruct (nth_error gs k) as [g|] eqn:EG; cbn [option_map].
    2: { injection H as <- <- <- <-. exists ks. split; [reflexivity|]. split; [reflexivity|]. split; [apply frame_refl|discriminate]. }
    destruct (heap_lods (reorder_mat vs verts ix) (hg_lods g) st s) as ((st1, s1), o1) eqn:E.
    destruct (heap_geom_run _ g _ _ _ _ _ (addrs_nodup _ _ _ ND EG) (inside_geom _ _ _ _ RG EG) E) as (R & FR). rewrite R.
    rewrite <- (geoms_set gs k g st st1 ND EG FR).
    assert (frame (geoms_addrs gs) st st1) as FR' by (apply (frame_incl (addrs g)); [exact FR|]; intros a Ha; eapply in_addrs; eauto).
    destruct o1 as [e|].
    + injection H as <- <- <- <-. exists ks. split; [reflexivity|]. split; [reflexivity|]. split; [exact FR'|discriminate].
    + rewrite <- (pick_app gs ks k g EG) in H. destruct (IH _ _ _ _ _ _ _ (inside_frame _ _ _ _ RG FR') H) as (ks' & R1 & R2 & R3 & R4).
      exists ks'. split; [exact R1|]. split; [exact R2|]. split.
      * apply (frame_incl (geoms_addrs gs ++ geoms_addrs gs)); [eapply frame_trans; eauto|]. intros a Ha. apply in_app_iff in Ha. tauto.
      * intros X. rewrite (R4 X), map_app. cbn [map]. rewrite <- app_assoc. cbn [app]. now rewrite (norm_index_norm1 _ _ _ EN).
Qed.
Lemma pick_nodup (gs : list (hgeom F)) : NoDup (geoms_addrs gs) -> forall ks, NoDup ks -> NoDup (geoms_addrs (pick gs ks)).
Proof.
  intros ND. induction ks as [|k t IH]; intros H; [constructor|]. inversion H as [|? ? NI NT]; subst. unfold pick. cbn [flat_map]. fold (pick gs t).
  destruct (nth_error gs k) as [g|] eqn:E; [|now apply IH]. cbn [app]. rewrite geoms_addrs_cons. apply NoDup_app_intro; [eapply addrs_nodup; eauto|now apply IH|].
  intros a Ha X. unfold geoms_addrs in X. apply in_flat_map in X. destruct X as (g' & Hg & Ha'). unfold pick in Hg. apply in_flat_map in Hg. destruct Hg as (k' & Hk & Hg).
  destruct (nth_error gs k') as [g2|] eqn:E2; [|destruct Hg]. destruct Hg as [<-|[]]. apply NI. now rewrite (addrs_disjoint gs k k' g g2 a ND E E2 Ha Ha').
Qed.
Lemma pick_incl (gs : list (hgeom F)) ks : incl (geoms_addrs (pick gs ks)) (geoms_addrs gs).
Proof.
  intros a X. unfold geoms_addrs in X. apply in_flat_map in X. destruct X as (g & Hg & Ha). unfold pick in Hg. apply in_flat_map in Hg. destruct Hg as (k' & Hk & Hg).
  destruct (nth_error gs k') as [g2|] eqn:E2; [|destruct Hg]. destruct Hg as [<-|[]]. eapply in_addrs; eauto.
Qed.
Lemma map_pick {X Y} (h : X -> Y) l ks : map h (pick l ks) = pick (map h l) ks.
Proof.
  unfold pick. induction ks as [|k t IH]; [reflexivity|]. cbn [flat_map]. rewrite map_app, IH, nth_error_map. now destruct (nth_error l k).
Qed.

(** ** What a call on mesh [i] may change *)
Definition changes st st' i : Prop :=
  length (s_mats st') = length (s_mats st) /\ length (s_meshes st') = length (s_meshes st) /\
  (forall a, ~ In a (mats_addrs st i) -> mat_at st' a = mat_at st a) /\
  (forall j, j <> i -> mesh_at st' j = mesh_at st j) /\
  incl (mats_addrs st' i) (mats_addrs st i) /\ NoDup (mats_addrs st' i).
Lemma only_changes_changes st st' i : own st i -> only_changes st st' i -> changes st st' i.
Proof.
  intros (_ & ND & _) (C1 & C2 & C3 & C4 & C5). assert (mats_addrs st' i = mats_addrs st i) as E by (unfold mats_addrs; now rewrite C5).
  repeat split; auto; rewrite E; [apply incl_refl|exact ND].
Qed.
Lemma changes_separate st st' ms i : separate st ms -> (i < length ms)%nat -> changes st st' i -> separate st' (set_nth ms i (tree_of st' i)).
Proof.
  intros (L & O & D) Hi (C1 & C2 & C3 & C4 & C5 & C6).
  assert (forall j, j <> i -> mats_addrs st' j = mats_addrs st j) as EJ by (intros j Hj; unfold mats_addrs; now rewrite C4).
  assert (forall j, incl (mats_addrs st' j) (mats_addrs st j)) as IJ.
  { intros j. destruct (Nat.eq_dec j i) as [->|N]; [exact C5|]. rewrite EJ by exact N. apply incl_refl. }
  split; [now rewrite set_nth_length, C2|]. split.
  - intros j m Hm. destruct (Nat.eq_dec j i) as [->|N].
    + destruct (nth_error ms i) as [m0|] eqn:E0; [|apply nth_error_None in E0; lia]. destruct (O i m0 E0) as ((O1 & O2 & O3) & _).
      split; [split; [lia|]; split; [exact C6|]; rewrite C1; rewrite Forall_forall in *; auto|].
      assert (nth_error (set_nth ms i (tree_of st' i)) i = Some (tree_of st' i)) as E by (now apply nth_set_same). congruence.
    + rewrite nth_set_other in Hm by auto. destruct (O j m Hm) as ((O1 & O2 & O3) & <-). split.
      * split; [lia|]. rewrite EJ by exact N. split; [exact O2|]. now rewrite C1.
      * unfold tree_of. rewrite C4 by exact N. f_equal. apply geoms_tree_ext. intros a Ha. apply C3. intros X. exact (D j i N a Ha X).
  - intros j k N a Ha Hb. exact (D j k N a (IJ j a Ha) (IJ k a Hb)).
Qed.
Lemma mesh_at_put_all st i m gs j : (i < length (s_meshes st))%nat ->
  mesh_at (put_all st i m gs) j = if (j =? i)%nat then {| hm_mesh := m; hm_geoms := gs |} else mesh_at st j.
Proof. intros H. unfold mesh_at, put_all. cbn. rewrite nth_set_nth. apply Nat.ltb_lt in H. now rewrite H, andb_true_r. Qed.
Lemma changes_refl st i : own st i -> changes st st i.
Proof. intros (_ & ND & _). repeat split; auto. apply incl_refl. Qed.
Lemma frame_changes st st' i : own st i -> frame (mats_addrs st i) st st' -> changes st st' i.
Proof.
  intros (_ & ND & _) (F1 & F2 & F3). assert (forall j, mesh_at st' j = mesh_at st j) as EM by (intros j; now apply mesh_at_eq).
  assert (mats_addrs st' i = mats_addrs st i) as E by (unfold mats_addrs; now rewrite EM).
  split; [exact F2|]. split; [now rewrite F1|]. split; [exact F3|]. split; [auto|]. rewrite E. split; [apply incl_refl|exact ND].
Qed.
Lemma put_all_changes st st' i m gs : own st i -> frame (mats_addrs st i) st st' -> incl (geoms_addrs gs) (mats_addrs st i) -> NoDup (geoms_addrs gs) ->
  changes st (put_all st' i m gs) i /\ tree_of (put_all st' i m gs) i = set_geoms m (map (geom_tree st') gs).
Proof.
  intros (O1 & _ & _) (F1 & F2 & F3) I ND. assert ((i < length (s_meshes st'))%nat) as L by now rewrite F1.
  assert (forall j, mesh_at (put_all st' i m gs) j = if (j =? i)%nat then {| hm_mesh := m; hm_geoms := gs |} else mesh_at st j) as EM.
  { intros j. rewrite mesh_at_put_all by exact L. now rewrite (mesh_at_eq _ _ j F1). }
  split.
  - split; [exact F2|]. split; [unfold put_all; cbn; now rewrite set_nth_length, F1|]. split; [exact F3|]. split.
    + intros j N. rewrite EM. destruct (Nat.eqb_spec j i); [contradiction|reflexivity].
    + unfold mats_addrs at 1 3. rewrite EM, Nat.eqb_refl. cbn [hm_geoms]. split; [exact I|exact ND].
  - unfold tree_of. rewrite EM, Nat.eqb_refl. reflexivity.
Qed.
Lemma map_of_nat_nodup ks : NoDup (map Z.of_nat ks) -> NoDup ks.
Proof. apply NoDup_map_inv. Qed.

Theorem heap_order_tree st i order st' o : own st i -> names_once (length (hm_geoms (mesh_at st i))) order -> heap_order st i order = (st', o) ->
  changes st st' i /\ (tree_of st' i, o) = change_geoms_order (tree_of st i) order.
Proof.
  intros O NO H. pose proof O as (O1 & O2 & O3). unfold heap_order in H. unfold change_geoms_order.
  set (gs := hm_geoms (mesh_at st i)) in *. change (geoms (tree_of st i)) with (map (geom_tree st) gs). rewrite map_length.
  destruct (negb _); [injection H as <- <-; split; [now apply changes_refl|reflexivity]|].
  change (vertex_size (tree_of st i)) with (vertex_size (hm_mesh (mesh_at st i))).
  destruct (vertex_size (hm_mesh (mesh_at st i))) as [vs|e]; [|injection H as <- <-; split; [now apply changes_refl|reflexivity]].
  change (vertices (tree_of st i)) with (vertices (hm_mesh (mesh_at st i))). change (index (tree_of st i)) with (index (hm_mesh (mesh_at st i))).
  destruct (heap_order_loop _ _ _ gs order st ([], []) []) as (((st1, (nv, ni)), ch), o1) eqn:E.
  change (@nil (hgeom F)) with (pick gs []) in E. destruct (heap_order_run _ _ _ gs O2 _ _ _ _ _ _ _ _ O3 E) as (ks & R & -> & FR & PM). rewrite R.
  destruct o1 as [e|].
  - injection H as <- <-. split; [now apply frame_changes|]. unfold tree_of. rewrite (mesh_at_eq _ _ i (proj1 FR)). reflexivity.
  - injection H as <- <-. rewrite (mesh_at_eq _ _ i (proj1 FR)).
    assert (NoDup ks) as NK.
    { apply map_of_nat_nodup. rewrite (PM eq_refl). cbn [map app]. exact NO. }
    destruct (put_all_changes st st1 i (set_index (set_vertices (hm_mesh (mesh_at st i)) nv) (Tuple ni)) (pick gs ks) O FR (pick_incl gs ks) (pick_nodup gs O2 ks NK)) as (C & T).
    split; [exact C|]. rewrite T, map_pick. reflexivity.
Qed.

(** ** translate and rotate *)
Lemma put_mesh_all st i m : put_mesh st i m = put_all st i m (hm_geoms (mesh_at st i)). Proof. reflexivity. Qed.
Lemma heap_assign_tree st i st' o nv : own st i -> heap_assign st i (assign_vertices (tree_of st i) nv) = (st', o) ->
  changes st st' i /\ (tree_of st' i, o) = assign_vertices (tree_of st i) nv.
Proof.
  intros O H. unfold heap_assign, assign_vertices in *. destruct nv as [nv|e]; injection H as <- <-; [|split; [now apply changes_refl|reflexivity]].
  rewrite put_mesh_all. destruct (put_all_changes st st i (set_vertices (hm_mesh (mesh_at st i)) nv) (hm_geoms (mesh_at st i)) O (frame_refl _ _) (incl_refl _)) as (C & T); [apply O|].
  cbn [vertices set_vertices]. split; [exact C|]. now rewrite T.
Qed.

Section Arith.
Context (A : arith F).
Theorem heap_translate_tree st i off st' o : own st i -> heap_translate A st i off = (st', o) ->
  changes st st' i /\ (tree_of st' i, o) = translate A (tree_of st i) off.
Proof. intros O H. now apply (heap_assign_tree _ _ _ _ _ O) in H. Qed.
Theorem heap_rotate_tree st i rot st' o : own st i -> heap_rotate A st i rot = (st', o) ->
  changes st st' i /\ (tree_of st' i, o) = rotate A (tree_of st i) rot.
Proof.
  intros O H. unfold heap_rotate, rotate in *. destruct rot as [|a [|b [|c r]]]; try (injection H as <- <-; split; [now apply changes_refl|reflexivity]).
  now apply (heap_assign_tree _ _ _ _ _ O) in H.
Qed.

(** ** update_boundaries *)
Lemma heap_bound_lod_run m st l st' l' o : NoDup (hl_mats l) -> inside (hl_mats l) st -> heap_bound_lod A m st l = (st', l', o) ->
  bound_lod A m (lod_tree st l) = (lod_tree st' l', o) /\ hl_mats l' = hl_mats l /\ frame (hl_mats l) st st'.
Proof.
  intros ND RG H. unfold heap_bound_lod in H. unfold bound_lod. unfold lod_tree at 1. cbn [materials set_materials].
  destruct (heap_mats (bound_mat A m) (hl_mats l) st (zero3 A, zero3 A)) as ((st1, (a, b)), o1) eqn:E.
  destruct (heap_mats_run _ _ _ _ _ _ _ 0 ND RG E) as (R & FR). unfold fold_mut.
  change (fun _ lb mt => bound_mat A m lb mt) with (fun _ : nat => bound_mat A m). rewrite R.
  destruct o1 as [e|]; injection H as <- <- <-; repeat split; try apply FR; reflexivity.
Qed.
Lemma heap_bound_lods_run m : forall ls st st' ls' o k, NoDup (flat_map hl_mats ls) -> inside (flat_map hl_mats ls) st -> heap_each (heap_bound_lod A m) st ls = (st', ls', o) ->
  fold_mut_from (fun _ (_ : unit) l => let '(l', o) := bound_lod A m l in (tt, l', o)) k tt (map (lod_tree st) ls) = (tt, map (lod_tree st') ls', o) /\
  flat_map hl_mats ls' = flat_map hl_mats ls /\ frame (flat_map hl_mats ls) st st'.
Proof.
  induction ls as [|l t IH]; intros st st' ls' o k ND RG H; cbn [heap_each map fold_mut_from flat_map] in *.
  - injection H as <- <- <-. repeat split; reflexivity.
  - destruct (NoDup_app_inv _ _ ND) as (N1 & N2 & DJ). unfold inside in RG. rewrite Forall_app in RG. destruct RG as (R1 & R2).
    destruct (heap_bound_lod A m st l) as ((st1, l1), o1) eqn:E. destruct (heap_bound_lod_run _ _ _ _ _ _ N1 R1 E) as (RM & EM & FR). rewrite RM.
    assert (map (lod_tree st1) t = map (lod_tree st) t) as ET.
    { apply map_ext_in. intros l' Hl. unfold lod_tree. f_equal. apply (frame_map (hl_mats l)); [exact FR|]. intros x X1 X2.
      apply (DJ x X2). apply in_flat_map. eauto. }
    destruct o1 as [e|].
    + injection H as <- <- <-. cbn [map flat_map]. rewrite ET, EM. split; [reflexivity|]. split; [reflexivity|]. apply (frame_incl (hl_mats l)); [exact FR|]. apply incl_appl, incl_refl.
    + destruct (heap_each _ st1 t) as ((st2, t'), o2) eqn:E2. injection H as <- <- <-.
      destruct (IH _ _ _ _ (S k) N2 (inside_frame _ _ _ _ R2 FR) E2) as (R & EQ & FR2). rewrite ET in R. rewrite R. cbn [map flat_map]. rewrite EM, EQ. split.
      * f_equal. f_equal. f_equal. unfold lod_tree. f_equal. rewrite EM. symmetry. apply (frame_map (flat_map hl_mats t)); [exact FR2|exact DJ].
      * split; [reflexivity|]. eapply frame_trans; eauto.
Qed.
Lemma heap_bound_geom_run m st g st' g' o : NoDup (addrs g) -> inside (addrs g) st -> heap_bound_geom A m st g = (st', g', o) ->
  bound_geom A m (geom_tree st g) = (geom_tree st' g', o) /\ addrs g' = addrs g /\ frame (addrs g) st st'.
Proof.
  intros ND RG H. unfold heap_bound_geom in H. unfold bound_geom. unfold geom_tree at 1. cbn [lods set_lods].
  destruct (heap_each _ st (hg_lods g)) as ((st1, ls), o1) eqn:E. injection H as <- <- <-.
  destruct (heap_bound_lods_run _ _ _ _ _ _ 0 ND RG E) as (R & EQ & FR). unfold fold_mut. rewrite R. repeat split; try apply FR. exact EQ.
Qed.
Lemma heap_bound_geoms_run m : forall gs st st' gs' o k, NoDup (geoms_addrs gs) -> inside (geoms_addrs gs) st -> heap_each (heap_bound_geom A m) st gs = (st', gs', o) ->
  fold_mut_from (fun _ (_ : unit) g => let '(g', o) := bound_geom A m g in (tt, g', o)) k tt (map (geom_tree st) gs) = (tt, map (geom_tree st') gs', o) /\
  geoms_addrs gs' = geoms_addrs gs /\ frame (geoms_addrs gs) st st'.
Proof.
  induction gs as [|g t IH]; intros st st' gs' o k ND RG H; cbn [heap_each map fold_mut_from] in *.
  - injection H as <- <- <-. repeat split; reflexivity.
  - rewrite geoms_addrs_cons in *. destruct (NoDup_app_inv _ _ ND) as (N1 & N2 & DJ). unfold inside in RG. rewrite Forall_app in RG. destruct RG as (R1 & R2).
    destruct (heap_bound_geom A m st g) as ((st1, g1), o1) eqn:E. destruct (heap_bound_geom_run _ _ _ _ _ _ N1 R1 E) as (RM & EM & FR). rewrite RM.
    assert (map (geom_tree st1) t = map (geom_tree st) t) as ET.
    { apply map_ext_in. intros y Hy. apply (geom_frame _ _ _ (addrs g)); [exact FR|]. intros a Ha X. apply (DJ a X). apply in_flat_map. exists y. auto. }
    destruct o1 as [e|].
    + injection H as <- <- <-. cbn [map]. rewrite geoms_addrs_cons, ET, EM. split; [reflexivity|]. split; [reflexivity|]. apply (frame_incl (addrs g)); [exact FR|]. apply incl_appl, incl_refl.
    + destruct (heap_each _ st1 t) as ((st2, t'), o2) eqn:E2. injection H as <- <- <-.
      destruct (IH _ _ _ _ (S k) N2 (inside_frame _ _ _ _ R2 FR) E2) as (R & EQ & FR2). rewrite ET in R. rewrite R. cbn [map]. rewrite geoms_addrs_cons, EM, EQ. split.
      * f_equal. f_equal. f_equal. symmetry. apply (geom_frame _ _ _ (geoms_addrs t)); [exact FR2|]. rewrite EM. exact DJ.
      * split; [reflexivity|]. eapply frame_trans; eauto.
Qed.
Theorem heap_bounds_tree st i st' o : own st i -> heap_bounds A st i = (st', o) ->
  changes st st' i /\ (tree_of st' i, o) = update_boundaries A (tree_of st i).
Proof.
  intros O H. pose proof O as (O1 & O2 & O3). unfold heap_bounds in H. unfold update_boundaries.
  change (geoms (tree_of st i)) with (map (geom_tree st) (hm_geoms (mesh_at st i))).
  destruct (heap_each _ st (hm_geoms (mesh_at st i))) as ((st1, gs), o1) eqn:E. injection H as <- <-.
  destruct (heap_bound_geoms_run (hm_mesh (mesh_at st i)) _ _ _ _ _ 0 O2 O3 E) as (R & EQ & FR).
  destruct (put_all_changes st st1 i (hm_mesh (mesh_at st i)) gs O FR) as (C & T); [rewrite EQ; apply incl_refl|rewrite EQ; exact O2|].
  split; [exact C|]. rewrite T. unfold fold_mut.
  match type of R with ?a = _ => match goal with |- context [fold_mut_from ?f ?s0 ?l0 ?x] => change (fold_mut_from f s0 l0 x) with a end end.
  rewrite R. reflexivity.
Qed.

(** ** get_lod_center_offset *)
Lemma py_get_map {X Y} (f : X -> Y) l z : py_get (map f l) z = match py_get l z with Ok x => Ok (f x) | Raise e => Raise e end.
Proof.
  unfold py_get, zlen. rewrite map_length. destruct (norm_index _ z) as [k|]; [|reflexivity]. rewrite nth_error_map. now destruct (nth_error l k).
Qed.
Theorem heap_center_tree st i gi li u st' r : own st i -> heap_center A st i gi li u = (st', r) ->
  changes st st' i /\ (tree_of st' i, r) = get_lod_center_offset A (tree_of st i) gi li u.
Proof.
  intros O H. unfold heap_center in H. unfold get_lod_center_offset.
  assert (forall st1, py_get (geoms (tree_of st1 i)) gi = match py_get (hm_geoms (mesh_at st1 i)) gi with Ok g => Ok (geom_tree st1 g) | Raise e => Raise e end) as EG
    by (intros st1; apply (py_get_map (geom_tree st1))).
  assert (forall st1 g, py_get (lods (geom_tree st1 g)) li = match py_get (hg_lods g) li with Ok l => Ok (lod_tree st1 l) | Raise e => Raise e end) as EL
    by (intros st1 g; apply (py_get_map (lod_tree st1))).
  assert (forall st1, (do g <- py_get (geoms (tree_of st1 i)) gi; do l <- py_get (lods g) li; lod_center A l) =
    (do g <- py_get (hm_geoms (mesh_at st1 i)) gi; do l <- py_get (hg_lods g) li; lod_center A (hl_lod l))) as EC.
  { intros st1. rewrite EG. clear H. destruct (py_get (hm_geoms (mesh_at st1 i)) gi) as [g|e]; cbn [bind]; [|reflexivity]. rewrite EL. destruct (py_get (hg_lods g) li) as [l|e]; reflexivity. }
  rewrite EG. destruct (py_get (hm_geoms (mesh_at st i)) gi) as [g|e]; cbn [bind] in *; [|injection H as <- <-; split; [now apply changes_refl|reflexivity]].
  rewrite EL. destruct (py_get (hg_lods g) li) as [l|e]; [|injection H as <- <-; split; [now apply changes_refl|reflexivity]].
  destruct u.
  - destruct (heap_bounds A st i) as (st1, o) eqn:E. destruct (heap_bounds_tree _ _ _ _ O E) as (C & T). rewrite <- T.
    destruct o as [e|]; injection H as <- <-; (split; [exact C|]); [reflexivity|]. now rewrite EC.
  - injection H as <- <-. split; [now apply changes_refl|]. now rewrite EC.
Qed.

(** ** Programs *)
Lemma separate_at st ms i : separate st ms -> (i < length ms)%nat -> own st i /\ tree_of st i = value ms i.
Proof.
  intros (_ & O & _) H. apply O. unfold value. now apply nth_error_nth'.
Qed.
Lemma heap_merge_separate st ms i j st' r : separate st ms -> (i < length ms)%nat -> (j < length ms)%nat -> heap_merge st i j = (st', r) ->
  changes st st' i /\ (tree_of st' i, r) = merge (value ms i) (value ms j).
Proof.
  intros S Hi Hj H. destruct (separate_at _ _ _ S Hi) as (Oi & Ti). destruct (separate_at _ _ _ S Hj) as (Oj & Tj). rewrite <- Ti, <- Tj.
  destruct (Nat.eq_dec i j) as [<-|N].
  - destruct (heap_merge_same _ _ _ _ Oi H) as (C & E). split; [now apply only_changes_changes|exact E].
  - destruct S as (_ & _ & D). destruct (heap_merge_tree _ _ _ _ _ Oi (D i j N) H) as (C & E & _). split; [now apply only_changes_changes|exact E].
Qed.
Theorem do_call_value st ms c : separate st ms -> call_ok ms c ->
  separate (fst (do_call A st c)) (fst (value_call A ms c)) /\ snd (do_call A st c) = snd (value_call A ms c).
Proof.
  intros S OK.
  destruct c as [i j|i order|i off|i rot|i|i gi li u]; cbn [call_ok do_call value_call] in *.
  - destruct OK as (Hi & Hj). destruct (heap_merge st i j) as (st', r) eqn:E. destruct (heap_merge_separate _ _ _ _ _ _ S Hi Hj E) as (C & <-).
    split; [now apply changes_separate with st|reflexivity].
  - destruct OK as (Hi & NO). destruct (separate_at _ _ _ S Hi) as (O & T). rewrite <- T. rewrite <- T in NO. unfold tree_of in NO. cbn [geoms set_geoms] in NO. rewrite map_length in NO. destruct (heap_order st i order) as (st', r) eqn:E.
    destruct (heap_order_tree _ _ _ _ _ O NO E) as (C & <-).
    split; [now apply changes_separate with st|reflexivity].
  - destruct (separate_at _ _ _ S OK) as (O & T). rewrite <- T. destruct (heap_translate A st i off) as (st', r) eqn:E.
    destruct (heap_translate_tree _ _ _ _ _ O E) as (C & <-). split; [now apply changes_separate with st|reflexivity].
  - destruct (separate_at _ _ _ S OK) as (O & T). rewrite <- T. destruct (heap_rotate A st i rot) as (st', r) eqn:E.
    destruct (heap_rotate_tree _ _ _ _ _ O E) as (C & <-). split; [now apply changes_separate with st|reflexivity].
  - destruct (separate_at _ _ _ S OK) as (O & T). rewrite <- T. destruct (heap_bounds A st i) as (st', r) eqn:E.
    destruct (heap_bounds_tree _ _ _ _ O E) as (C & <-). split; [now apply changes_separate with st|reflexivity].
  - destruct (separate_at _ _ _ S OK) as (O & T). rewrite <- T. destruct (heap_center A st i gi li u) as (st', r) eqn:E.
    destruct (heap_center_tree _ _ _ _ _ _ _ O E) as (C & <-). split; [now apply changes_separate with st|reflexivity].
Qed.

(** No call changes how many geoms a mesh has. *)
Lemma merge_geoms_len (x y : mesh F) : length (geoms (fst (merge x y))) = length (geoms x).
Proof.
  unfold merge. destruct (canMerge x y) as [[|]|e]; [|reflexivity|reflexivity]. unfold merge_with, trav_geoms, fold_mut.
  match goal with |- context [fold_mut_from ?f ?k ?s ?l] => pose proof (fold_mut_len f l k s) as H; destruct (fold_mut_from f k s l) as ((s', gs), [e|]) end;
    cbn [fst snd] in H; [exact H|]. destruct (index x); exact H.
Qed.
Lemma reorder_loop_len vs verts ix : forall order (store : list (geom F)) s ch gs' s' ch' o, reorder_loop vs verts ix order store s ch = (gs', s', ch', o) ->
  Forall (fun k => (k < length store)%nat) ch ->
  length gs' = length store /\ Forall (fun k => (k < length store)%nat) ch' /\ (o = None -> length ch' = (length ch + length order)%nat).
Proof.
  induction order as [|z t IH]; intros store s ch gs' s' ch' o H HC; cbn [reorder_loop] in H.
  - injection H as <- <- <- <-. split; [reflexivity|]. split; [exact HC|]. cbn. lia.
  - destruct (norm_index _ z) as [k|]; [|injection H as <- <- <- <-; repeat split; [exact HC|discriminate]].
    destruct (nth_error store k) as [g|] eqn:EG; [|injection H as <- <- <- <-; repeat split; [exact HC|discriminate]].
    destruct (trav_geom _ s g) as ((s1, g1), [e|]).
    + injection H as <- <- <- <-. rewrite set_nth_length. repeat split; [exact HC|discriminate].
    + assert (k < length store)%nat as LK by (apply nth_error_Some; congruence).
      destruct (IH _ _ _ _ _ _ _ H) as (L1 & L2 & L3); [rewrite set_nth_length; apply Forall_app; auto|]. rewrite set_nth_length in *.
      split; [exact L1|]. split; [exact L2|]. intros E. rewrite (L3 E), app_length. cbn. lia.
Qed.
Lemma order_geoms_len (x : mesh F) order : length (geoms (fst (change_geoms_order x order))) = length (geoms x).
Proof.
  unfold change_geoms_order. destruct (Nat.eqb_spec (length order) (length (geoms x))) as [EL|]; cbn [negb]; [|reflexivity].
  destruct (vertex_size x) as [vs|e]; [|reflexivity].
  destruct (reorder_loop vs (vertices x) (index x) order (geoms x) ([], []) []) as (((st, (nv, ni)), ch), o) eqn:E.
  destruct (reorder_loop_len _ _ _ _ _ _ _ _ _ _ _ E (Forall_nil _)) as (L1 & L2 & L3). destruct o as [e|]; cbn [fst geoms set_geoms set_index set_vertices]; [exact L1|].
  rewrite pick_length by now rewrite L1. rewrite (L3 eq_refl). exact EL.
Qed.
Lemma bounds_geoms_len (x : mesh F) : length (geoms (fst (update_boundaries A x))) = length (geoms x).
Proof.
  unfold update_boundaries, fold_mut.
  match goal with |- context [fold_mut_from ?f ?k ?s ?l] => pose proof (fold_mut_len f l k s) as H; destruct (fold_mut_from f k s l) as ((s', gs), o) end. exact H.
Qed.
Lemma center_geoms_len (x : mesh F) gi li u : length (geoms (fst (get_lod_center_offset A x gi li u))) = length (geoms x).
Proof.
  unfold get_lod_center_offset. destruct (do g <- py_get (geoms x) gi; py_get (lods g) li); [|reflexivity].
  pose proof (bounds_geoms_len x) as H. destruct u; [destruct (update_boundaries A x) as (m', [e|]); exact H|reflexivity].
Qed.
Lemma assign_geoms_len (x : mesh F) r : length (geoms (fst (assign_vertices x r))) = length (geoms x).
Proof. now destruct r. Qed.
Lemma rotate_geoms_len (x : mesh F) r : length (geoms (fst (rotate A x r))) = length (geoms x).
Proof. unfold rotate. destruct r as [|a [|b [|c r]]]; try reflexivity. apply assign_geoms_len. Qed.

Definition sizes (ms : list (mesh F)) : list nat := map (fun m => length (geoms m)) ms.
Lemma sizes_set ms i m : length (geoms m) = length (geoms (value ms i)) -> sizes (set_nth ms i m) = sizes ms.
Proof.
  unfold sizes, value. revert i. induction ms as [|x t IH]; intros [|i] H; cbn in *; auto; [now rewrite H|]. now rewrite IH.
Qed.
Lemma sizes_call ms c : sizes (fst (value_call A ms c)) = sizes ms.
Proof.
  destruct c as [i j|i order|i off|i rot|i|i gi li u]; cbn [value_call].
  - pose proof (merge_geoms_len (value ms i) (value ms j)) as H. destruct (merge _ _). now apply sizes_set.
  - pose proof (order_geoms_len (value ms i) order) as H. destruct (change_geoms_order _ _). now apply sizes_set.
  - pose proof (assign_geoms_len (value ms i) (map_vertices (value ms i) (translate_vertex A (value ms i) off))) as H. fold (translate A (value ms i) off) in H. destruct (translate _ _ _). now apply sizes_set.
  - pose proof (rotate_geoms_len (value ms i) rot) as H. destruct (rotate _ _ _). now apply sizes_set.
  - pose proof (bounds_geoms_len (value ms i)) as H. destruct (update_boundaries _ _). now apply sizes_set.
  - pose proof (center_geoms_len (value ms i) gi li u) as H. destruct (get_lod_center_offset _ _ _ _ _). now apply sizes_set.
Qed.
Lemma call_ok_sizes ms ms' c : sizes ms' = sizes ms -> call_ok ms c -> call_ok ms' c.
Proof.
  intros E. assert (length ms' = length ms) as L by (apply (f_equal (@length nat)) in E; unfold sizes in E; now rewrite !map_length in E).
  assert (forall i, length (geoms (value ms' i)) = length (geoms (value ms i))) as V.
  { intros i. unfold value. rewrite <- !(map_nth (fun m : mesh F => length (geoms m))). unfold sizes in E. now rewrite E. }
  destruct c; cbn [call_ok]; rewrite L, ?V; auto.
Qed.
Theorem run_values : forall cs st ms, separate st ms -> Forall (call_ok ms) cs ->
  separate (fst (run A st cs)) (fst (value_run A ms cs)) /\ snd (run A st cs) = snd (value_run A ms cs).
Proof.
  induction cs as [|c t IH]; intros st ms S OK; cbn [run value_run]; [auto|]. inversion OK as [|? ? O1 O2]; subst.
  destruct (do_call_value st ms c S O1) as (S1 & E1). pose proof (sizes_call ms c) as SZ.
  destruct (do_call A st c) as (st1, o). destruct (value_call A ms c) as (ms1, o'). cbn [fst snd] in *. subst o'.
  destruct (IH st1 ms1 S1) as (S2 & E2); [revert O2; apply Forall_impl; intros; now apply call_ok_sizes with ms|].
  destruct (run A st1 t), (value_run A ms1 t). cbn [fst snd] in *. subst. auto.
Qed.
End Arith.
End Prog.
