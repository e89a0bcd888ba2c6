(** Property C30: merge on a store of objects. *)
From Coq Require Import ZArith List Bool Lia.
From Verif Require Import PyBase Struct Mesh Arith Edit SpecEdit TravFacts MergeFacts ColMergeFacts Heap.
Import ListNotations.
Open Scope Z_scope.
Open Scope res_scope.

Section Heap.
Context {F : Type}.
Implicit Types (st : store F) (i a : nat).

Lemma mat_at_put st a m x : (a < length (s_mats st))%nat -> mat_at (put_mat st a m) x = if (x =? a)%nat then m else mat_at st x.
Proof.
  intros H. unfold mat_at, put_mat. cbn [s_mats]. rewrite nth_set_nth. apply Nat.ltb_lt in H. rewrite H, andb_true_r. reflexivity.
Qed.
Lemma mats_put_len st a m : length (s_mats (put_mat st a m)) = length (s_mats st).
Proof. apply set_nth_length. Qed.
Lemma mesh_at_put st a m i : mesh_at (put_mat st a m) i = mesh_at st i. Proof. reflexivity. Qed.
Lemma put_mat_put st a m m' : put_mat (put_mat st a m) a m' = put_mat st a m'.
Proof.
  unfold put_mat. cbn. f_equal. generalize (s_mats st). intros l. revert a. induction l as [|x t IH]; intros [|a]; cbn; auto. now rewrite IH.
Qed.
Lemma put_mat_same st a : put_mat st a (mat_at st a) = st.
Proof.
  destruct st as [l ms]. unfold put_mat, mat_at. cbn. f_equal. revert a. induction l as [|x t IH]; intros [|a]; cbn; auto. now rewrite IH.
Qed.

(** ** One item *)
Definition res_mat st (r : res nat) : res (mat F) := match r with Ok o => Ok (mat_at st o) | Raise e => Raise e end.
Lemma merge_item_mat self other k a st s : (a < length (s_mats st))%nat ->
  merge_item self other k a st s =
  let '(s', m', e) := merge_mat (hm_mesh (mesh_at st self)) (hm_mesh (mesh_at st other))
                        (res_mat st (item_at (hm_geoms (mesh_at st other)) k)) s (mat_at st a) in
  (put_mat st a m', s', e).
Proof.
  intros L. unfold merge_item, merge_mat.
  destruct (vertex_size (hm_mesh (mesh_at st self))) as [vs|e]; cbn [bind]; [|now rewrite put_mat_same].
  destruct (index_slice _ _ _) as [sl|e]; cbn [bind]; [|now rewrite put_mat_same].
  destruct (item_at _ k) as [o|e]; cbn [bind res_mat]; [|now rewrite put_mat_same].
  destruct (vertex_size (hm_mesh (mesh_at st other))) as [ovs|e]; cbn [bind]; [|now rewrite put_mat_same].
  destruct (merge_indices _ _ _ _ _) as [ni|e]; cbn [bind]; [|now rewrite put_mat_same].
  set (m := mat_at st a). set (mo := mat_at st o).
  set (st1 := put_mat st a (set_vnum m (vnum m + vnum mo))).
  assert (mat_at st1 a = set_vnum m (vnum m + vnum mo)) as E1 by (unfold st1; rewrite mat_at_put by exact L; now rewrite Nat.eqb_refl).
  assert (inum (mat_at st1 o) = inum mo) as E1'.
  { unfold st1. rewrite mat_at_put by exact L. destruct (Nat.eqb_spec o a) as [->|]; reflexivity. }
  rewrite E1, E1'. rewrite !mat_at_put, !Nat.eqb_refl by (rewrite ?mats_put_len; unfold st1; rewrite ?mats_put_len; exact L).
  unfold st1. rewrite !put_mat_put. reflexivity.
Qed.

(** ** The loop *)
(** What line 472 gives at an item, by an address or by a value. *)
Definition other_ok st (all : list nat) (g : (nat * nat * nat) -> res nat) (om : (nat * nat * nat) -> mat F -> res (mat F)) (p : (nat * nat * nat) * nat) : Prop :=
  match g (fst p) with
  | Raise e => forall m, om (fst p) m = Raise e
  | Ok o => (o = snd p /\ forall m, om (fst p) m = Ok m) \/ (~ In o all /\ forall m, om (fst p) m = Ok (mat_at st o))
  end.
Lemma merge_items_loop self other om : forall l st s st' s' e, NoDup (map snd l) -> Forall (fun a => (a < length (s_mats st))%nat) (map snd l) ->
  Forall (other_ok st (map snd l) (item_at (hm_geoms (mesh_at st other))) om) l ->
  merge_items self other l st s = (st', s', e) ->
  fold_am (fun k s m => merge_mat (hm_mesh (mesh_at st self)) (hm_mesh (mesh_at st other)) (om k m) s m) s
          (map (fun p => (fst p, mat_at st (snd p))) l) = (s', map (mat_at st') (map snd l), e) /\
  s_meshes st' = s_meshes st /\ length (s_mats st') = length (s_mats st) /\ (forall x, ~ In x (map snd l) -> mat_at st' x = mat_at st x).
Proof.
  induction l as [|(k, a) t IH]; intros st s st' s' e ND RG OO H; cbn [map fst snd merge_items fold_am] in *.
  - injection H as <- <- <-. auto.
  - inversion ND as [|? ? NI ND']; subst. inversion RG as [|? ? LA RG']; subst. inversion OO as [|? ? OA OO']; subst.
    rewrite merge_item_mat in H by exact LA.
    assert (res_mat st (item_at (hm_geoms (mesh_at st other)) k) = om k (mat_at st a)) as EO.
    { unfold other_ok in OA. cbn [fst snd] in OA. destruct (item_at _ k) as [o|e0]; cbn [res_mat]; [|now rewrite OA].
      destruct OA as [(-> & E)|(_ & E)]; now rewrite E. }
    rewrite EO in H. destruct (merge_mat _ _ (om k (mat_at st a)) s (mat_at st a)) as ((s1, m1), [e1|]) eqn:EM.
    + injection H as <- <- <-. split.
      * f_equal. f_equal. rewrite mat_at_put, Nat.eqb_refl by exact LA. f_equal. rewrite map_map. cbn [snd]. rewrite <- (map_map snd (mat_at st)).
        apply map_ext_in. intros x Hx. rewrite mat_at_put by exact LA. destruct (Nat.eqb_spec x a) as [->|]; [contradiction|reflexivity].
      * split; [reflexivity|]. split; [apply mats_put_len|]. intros x Hx. rewrite mat_at_put by exact LA.
        destruct (Nat.eqb_spec x a) as [->|]; [exfalso; apply Hx; now left|reflexivity].
    + assert (forall x, x <> a -> mat_at (put_mat st a m1) x = mat_at st x) as FR
        by (intros x Hx; rewrite mat_at_put by exact LA; destruct (Nat.eqb_spec x a); [contradiction|reflexivity]).
      destruct (IH (put_mat st a m1) s1 st' s' e) as (R & MS & LE & FR'); auto.
      * now rewrite mats_put_len.
      * rewrite mesh_at_put. revert OO'. apply Forall_impl. intros (k2, a2) Q. unfold other_ok in *. cbn [fst snd] in *.
        destruct (item_at _ k2) as [o|e0]; [|exact Q]. destruct Q as [Q|(Q1 & Q2)]; [now left|]. right.
        split; [intros X; apply Q1; now right|]. intros m. rewrite FR; [apply Q2|]. intros ->. apply Q1. now left.
      * rewrite !mesh_at_put in R. rewrite mats_put_len in LE.
        assert (map (fun p => (fst p, mat_at (put_mat st a m1) (snd p))) t = map (fun p => (fst p, mat_at st (snd p))) t) as EQ.
        { apply map_ext_in. intros p Hp. f_equal. apply FR. intros X. apply NI. rewrite <- X. now apply in_map. }
        rewrite EQ in R. rewrite R. split; [|split; [exact MS|split; [exact LE|]]].
        -- f_equal. f_equal. f_equal. rewrite FR' by exact NI. rewrite mat_at_put by exact LA. now rewrite Nat.eqb_refl.
        -- intros x Hx. rewrite FR' by (intros X; apply Hx; now right). apply FR. intros ->. apply Hx. now left.
Qed.

(** ** Items and trees *)
Lemma combine_map_r {X Y Z0} (f : Y -> Z0) (l : list X) : forall l', combine l (map f l') = map (fun p => (fst p, f (snd p))) (combine l l').
Proof. induction l as [|x t IH]; intros [|y u]; cbn; auto. now rewrite IH. Qed.
Lemma amats_tree_lods st : forall ls li, amats_lods li (map (lod_tree st) ls) = map (fun p => (fst p, mat_at st (snd p))) (lods_items li ls).
Proof.
  induction ls as [|l t IH]; intros li; cbn [map amats_lods lods_items]; [reflexivity|]. rewrite map_app, IH. f_equal. unfold lod_tree. cbn [materials set_materials].
  rewrite map_length, combine_map_r, !map_map. apply map_ext. reflexivity.
Qed.
Lemma amats_tree st : forall gs gi, amats gi (map (geom_tree st) gs) = map (fun p => (fst p, mat_at st (snd p))) (items gi gs).
Proof.
  induction gs as [|g t IH]; intros gi; cbn [map amats items]; [reflexivity|]. rewrite map_app, IH. f_equal. unfold geom_tree. cbn [lods set_lods].
  rewrite amats_tree_lods, !map_map. apply map_ext. reflexivity.
Qed.
Definition geoms_addrs (gs : list (hgeom F)) : list nat := flat_map (fun g => flat_map hl_mats (hg_lods g)) gs.
Lemma lods_items_addrs : forall (ls : list (hlod F)) li, map snd (lods_items li ls) = flat_map hl_mats ls.
Proof.
  induction ls as [|l t IH]; intros li; cbn [map lods_items flat_map]; [reflexivity|]. rewrite map_app, IH, map_map. f_equal. cbn [snd].
  apply map_snd_combine. apply seq_length.
Qed.
Lemma items_addrs : forall (gs : list (hgeom F)) gi, map snd (items gi gs) = geoms_addrs gs.
Proof.
  induction gs as [|g t IH]; intros gi; cbn [map items]; [reflexivity|]. unfold geoms_addrs. cbn [flat_map]. rewrite map_app, IH, map_map. f_equal. cbn [snd].
  apply lods_items_addrs.
Qed.

Lemma in_combine_seq {X} (l : list X) : forall i k x, In (k, x) (combine (seq i (length l)) l) -> nth_error l (k - i) = Some x /\ (i <= k)%nat.
Proof.
  induction l as [|y t IH]; intros i k x H; cbn in H; [easy|]. destruct H as [[= <- <-]|H].
  - rewrite Nat.sub_diag. auto.
  - apply IH in H. destruct H as (H1 & H2). split; [|lia]. replace (k - i)%nat with (S (k - S i)) by lia. exact H1.
Qed.
Lemma in_lods_items : forall (ls : list (hlod F)) i li mi a, In ((li, mi), a) (lods_items i ls) ->
  exists l, nth_error ls (li - i) = Some l /\ nth_error (hl_mats l) mi = Some a /\ (i <= li)%nat.
Proof.
  induction ls as [|l t IH]; intros i li mi a H; cbn [lods_items] in H; [easy|]. apply in_app_iff in H. destruct H as [H|H].
  - apply in_map_iff in H. destruct H as ((k, x) & [= <- <- <-] & H). apply in_combine_seq in H. destruct H as (H & _). rewrite Nat.sub_0_r in H.
    exists l. rewrite Nat.sub_diag. auto.
  - apply IH in H. destruct H as (l' & H1 & H2 & H3). exists l'. split; [|split; [exact H2|lia]].
    replace (li - i)%nat with (S (li - S i)) by lia. exact H1.
Qed.
Lemma in_items : forall (gs : list (hgeom F)) i k a, In (k, a) (items i gs) ->
  let '(gi, li, mi) := k in exists g l, nth_error gs (gi - i) = Some g /\ nth_error (hg_lods g) li = Some l /\ nth_error (hl_mats l) mi = Some a /\ (i <= gi)%nat.
Proof.
  induction gs as [|g t IH]; intros i k a H; cbn [items] in H; [easy|]. apply in_app_iff in H. destruct H as [H|H].
  - apply in_map_iff in H. destruct H as (((li, mi), x) & [= <- <-] & H). cbn [fst snd]. apply in_lods_items in H. destruct H as (l & H1 & H2 & _).
    rewrite Nat.sub_0_r in H1. exists g, l. rewrite Nat.sub_diag. auto.
  - apply IH in H. destruct k as ((gi, li), mi). destruct H as (g' & l' & H1 & H2 & H3 & H4). exists g', l'. split; [|split; [exact H2|split; [exact H3|lia]]].
    replace (gi - i)%nat with (S (gi - S i)) by lia. exact H1.
Qed.
Lemma item_at_self (gs : list (hgeom F)) k a : In (k, a) (items 0 gs) -> item_at gs k = Ok a.
Proof.
  intros H. apply in_items in H. destruct k as ((gi, li), mi). destruct H as (g & l & H1 & H2 & H3 & _). rewrite Nat.sub_0_r in H1.
  unfold item_at, nth_res. rewrite H1. cbn [bind]. rewrite H2. cbn [bind]. now rewrite H3.
Qed.
Lemma nth_res_map {X Y} (f : X -> Y) l n : nth_res (map f l) n = match nth_res l n with Ok x => Ok (f x) | Raise e => Raise e end.
Proof. unfold nth_res. rewrite nth_error_map. now destruct (nth_error l n). Qed.
Lemma get_mat_tree st i gi li mi : get_mat (tree_of st i) gi li mi = res_mat st (item_at (hm_geoms (mesh_at st i)) (gi, li, mi)).
Proof.
  unfold get_mat, item_at, tree_of. cbn [geoms set_geoms]. rewrite nth_res_map. destruct (nth_res (hm_geoms _) gi) as [g|e]; cbn [bind]; [|reflexivity].
  unfold geom_tree. cbn [lods set_lods]. rewrite nth_res_map. destruct (nth_res (hg_lods g) li) as [l|e]; cbn [bind]; [|reflexivity].
  unfold lod_tree. cbn [materials set_materials]. rewrite nth_res_map. now destruct (nth_res (hl_mats l) mi).
Qed.
Lemma item_at_in (gs : list (hgeom F)) k o : item_at gs k = Ok o -> In o (geoms_addrs gs).
Proof.
  destruct k as ((gi, li), mi). unfold item_at, nth_res, geoms_addrs. destruct (nth_error gs gi) as [g|] eqn:E1; cbn [bind]; [|discriminate].
  destruct (nth_error (hg_lods g) li) as [l|] eqn:E2; cbn [bind]; [|discriminate]. destruct (nth_error (hl_mats l) mi) as [x|] eqn:E3; [|discriminate].
  intros [= <-]. apply nth_error_In in E1, E2, E3. apply in_flat_map. exists g. split; [exact E1|]. apply in_flat_map. eauto.
Qed.

Lemma put_lods_tree st st' : forall ls, put_lods (map (lod_tree st) ls) (map (mat_at st') (flat_map hl_mats ls)) = map (lod_tree st') ls.
Proof.
  induction ls as [|l t IH]; [reflexivity|]. cbn [map flat_map]. rewrite map_app, put_lods_cons by (unfold lod_tree; cbn; now rewrite !map_length).
  rewrite IH. reflexivity.
Qed.
Lemma put_mats_tree st st' : forall gs, put_mats (map (geom_tree st) gs) (map (mat_at st') (geoms_addrs gs)) = map (geom_tree st') gs.
Proof.
  induction gs as [|g t IH]; [reflexivity|]. unfold geoms_addrs in *. cbn [map flat_map]. rewrite map_app, put_mats_cons.
  - rewrite IH. f_equal. unfold geom_tree. cbn [lods set_lods]. now rewrite put_lods_tree.
  - unfold geom_tree, lods_mats. cbn [lods set_lods]. rewrite map_length. induction (hg_lods g) as [|l u IHl]; cbn; [reflexivity|].
    rewrite !app_length, IHl. now rewrite map_length.
Qed.

Lemma mesh_at_put_mesh st i m j : (i < length (s_meshes st))%nat ->
  mesh_at (put_mesh st i m) j = if (j =? i)%nat then {| hm_mesh := m; hm_geoms := hm_geoms (mesh_at st i) |} else mesh_at st j.
Proof. intros H. unfold mesh_at, put_mesh. cbn. rewrite nth_set_nth. apply Nat.ltb_lt in H. now rewrite H, andb_true_r. Qed.
Lemma mesh_at_eq st st' i : s_meshes st' = s_meshes st -> mesh_at st' i = mesh_at st i.
Proof. unfold mesh_at. now intros ->. Qed.
Lemma geom_tree_ext st st' (g : hgeom F) : (forall a, In a (flat_map hl_mats (hg_lods g)) -> mat_at st' a = mat_at st a) -> geom_tree st' g = geom_tree st g.
Proof.
  intros H. unfold geom_tree. f_equal. apply map_ext_in. intros l Hl. unfold lod_tree. f_equal. apply map_ext_in. intros a Ha. apply H.
  apply in_flat_map. eauto.
Qed.
Lemma geoms_tree_ext st st' (gs : list (hgeom F)) : (forall a, In a (geoms_addrs gs) -> mat_at st' a = mat_at st a) -> map (geom_tree st') gs = map (geom_tree st) gs.
Proof. intros H. apply map_ext_in. intros g Hg. apply geom_tree_ext. intros a Ha. apply H. apply in_flat_map. eauto. Qed.
Lemma put_mesh_put st i m m' : (i < length (s_meshes st))%nat -> put_mesh (put_mesh st i m) i m' = put_mesh st i m'.
Proof.
  intros H. unfold put_mesh at 1. rewrite mesh_at_put_mesh, Nat.eqb_refl by exact H. unfold put_mesh. cbn. f_equal.
  generalize (s_meshes st), (hm_geoms (mesh_at st i)). intros l g. clear. revert i. induction l as [|x t IH]; intros [|i]; cbn; auto. now rewrite IH.
Qed.
Lemma put_mesh_same st i : put_mesh st i (hm_mesh (mesh_at st i)) = st.
Proof.
  destruct st as [ms l]. unfold put_mesh, mesh_at. cbn. f_equal. revert i. induction l as [|x t IH]; intros [|i]; cbn; auto; [now destruct x|]. now rewrite IH.
Qed.

Lemma only_changes_tree st st' i j : only_changes st st' i -> j <> i -> disjoint st j i -> tree_of st' j = tree_of st j.
Proof.
  intros (_ & _ & M & S & _) N D. unfold tree_of. rewrite S by exact N. f_equal. apply geoms_tree_ext. intros a Ha. apply M. now apply D.
Qed.
Lemma only_changes_own st st' i j : only_changes st st' i -> own st j -> own st' j.
Proof.
  intros (L1 & L2 & _ & S & G) (O1 & O2 & O3). assert (hm_geoms (mesh_at st' j) = hm_geoms (mesh_at st j)) as E.
  { destruct (Nat.eq_dec j i) as [->|N]; [exact G|]. now rewrite S. }
  unfold own, mats_addrs in *. now rewrite L1, L2, E.
Qed.
Section Run.
Context (self other : nat) (om : nat -> nat -> nat -> mat F -> res (mat F)).
Lemma heap_merge_run st st' r : own st self ->
  Forall (other_ok st (mats_addrs st self) (item_at (hm_geoms (mesh_at st other))) (fun k => om (fst (fst k)) (snd (fst k)) (snd k)))
         (items 0 (hm_geoms (mesh_at st self))) ->
  heap_merge st self other = (st', r) ->
  only_changes st st' self /\
  (tree_of st' self, r) = match canMerge (tree_of st self) (tree_of st other) with
  | Raise e => (tree_of st self, MergeRaised e)
  | Ok false => (tree_of st self, ReturnedNotImplementedError)
  | Ok true => merge_with (tree_of st self) (tree_of st other) om
  end.
Proof.
  intros (LS & ND & RG) OO H. unfold heap_merge in H. destruct (canMerge (tree_of st self) (tree_of st other)) as [[|]|e].
  2: { injection H as <- <-. split; [now repeat split|reflexivity]. }
  2: { injection H as <- <-. split; [now repeat split|reflexivity]. }
  set (l := items 0 (hm_geoms (mesh_at st self))) in *.
  destruct (merge_items self other l st merge_state0) as ((st1, s), o) eqn:E.
  assert (map snd l = mats_addrs st self) as EA by apply items_addrs. rewrite <- EA in *.
  destruct (merge_items_loop self other (fun k => om (fst (fst k)) (snd (fst k)) (snd k)) l st _ _ _ _ ND RG OO E) as (R & MS & LE & FR).
  unfold merge_with. change (geoms (tree_of st self)) with (map (geom_tree st) (hm_geoms (mesh_at st self))).
  rewrite trav_geoms_flat, amats_tree. fold l.
  match type of R with ?a = _ => match goal with |- context [fold_am ?f ?s0 ?l0] => change (fold_am f s0 l0) with a end end.
  rewrite R, EA. change (mats_addrs st self) with (geoms_addrs (hm_geoms (mesh_at st self))). rewrite put_mats_tree.
  assert (only_changes st st1 self) as OC1.
  { repeat split; [exact LE|now rewrite MS|now rewrite <- EA|intros; now apply mesh_at_eq|]. f_equal. now apply mesh_at_eq. }
  assert (tree_of st1 self = set_geoms (tree_of st self) (map (geom_tree st1) (hm_geoms (mesh_at st self)))) as T1.
  { unfold tree_of. rewrite (mesh_at_eq _ _ self MS). reflexivity. }
  destruct o as [e|]; [injection H as <- <-; split; [exact OC1|now rewrite T1]|].
  assert ((self < length (s_meshes st1))%nat) as LS1 by now rewrite MS.
  assert (forall m, only_changes st (put_mesh st1 self m) self /\ tree_of (put_mesh st1 self m) self = set_geoms m (map (geom_tree st1) (hm_geoms (mesh_at st self)))) as PM.
  { intros m. destruct OC1 as (C1 & C2 & C3 & C4 & C5). split.
    - repeat split; [exact C1|unfold put_mesh; cbn; now rewrite set_nth_length|exact C3| |].
      + intros j Hj. rewrite mesh_at_put_mesh by exact LS1. destruct (Nat.eqb_spec j self); [contradiction|auto].
      + rewrite mesh_at_put_mesh, Nat.eqb_refl by exact LS1. exact C5.
    - unfold tree_of. rewrite mesh_at_put_mesh, Nat.eqb_refl by exact LS1. cbn [hm_mesh hm_geoms]. now rewrite C5. }
  cbv zeta in H. rewrite !(put_mesh_put st1 self _ _ LS1) in H. rewrite !(mesh_at_put_mesh st1 self _ self LS1), !Nat.eqb_refl in H. cbn [hm_mesh index set_vertices] in H.
  change (index (tree_of st self)) with (index (hm_mesh (mesh_at st self))). rewrite (mesh_at_eq _ _ self MS) in H.
  destruct (index (hm_mesh (mesh_at st self))) as [ix|ix].
  - injection H as <- <-.
    split; [apply PM|]. rewrite (proj2 (PM _)). reflexivity.
  - injection H as <- <-. split; [apply PM|]. rewrite (proj2 (PM _)). reflexivity.
Qed.
End Run.

(** Merging another object that shares no material. *)
Theorem heap_merge_tree st self other st' r : own st self -> disjoint st self other -> heap_merge st self other = (st', r) ->
  only_changes st st' self /\ (tree_of st' self, r) = merge (tree_of st self) (tree_of st other) /\
  (self <> other -> tree_of st' other = tree_of st other).
Proof.
  intros O D H. destruct (heap_merge_run self other (fun gi li mi _ => get_mat (tree_of st other) gi li mi) st st' r O) as (C & E); auto.
  - apply Forall_forall. intros (((gi, li), mi), a) Hp. unfold other_ok. cbn [fst snd]. rewrite get_mat_tree.
    destruct (item_at _ _) as [o|e] eqn:EI; cbn [res_mat]; [|reflexivity]. right. split; [|reflexivity].
    intros X. apply (D o X). now apply item_at_in in EI.
  - split; [exact C|]. split; [exact E|]. intros N. eapply only_changes_tree; [exact C|congruence|]. intros a Ha X. now apply (D a).
Qed.
(** Merging an object with itself. *)
Theorem heap_merge_same st self st' r : own st self -> heap_merge st self self = (st', r) ->
  only_changes st st' self /\ (tree_of st' self, r) = merge (tree_of st self) (tree_of st self).
Proof.
  intros O H. rewrite <- merge_self_copy. apply (heap_merge_run self self (fun _ _ _ m => Ok m) st st' r O); auto.
  apply Forall_forall. intros (k, a) Hp. unfold other_ok. cbn [fst snd]. rewrite (item_at_self _ _ _ Hp). left. auto.
Qed.

(** ** Every list of meshes can be put in a store as separate objects *)
Definition alloc_lod n (l : lod F) : hlod F := {| hl_lod := l; hl_mats := seq n (length (materials l)) |}.
Fixpoint alloc_lods n (ls : list (lod F)) : list (hlod F) :=
  match ls with [] => [] | l :: t => alloc_lod n l :: alloc_lods (n + length (materials l))%nat t end.
Fixpoint alloc_geoms n (gs : list (geom F)) : list (hgeom F) :=
  match gs with [] => [] | g :: t => {| hg_geom := g; hg_lods := alloc_lods n (lods g) |} :: alloc_geoms (n + length (lods_mats (lods g)))%nat t end.
Fixpoint alloc n (ms : list (mesh F)) : list (hmesh F) :=
  match ms with [] => [] | m :: t => {| hm_mesh := m; hm_geoms := alloc_geoms n (geoms m) |} :: alloc (n + length (mats_of (geoms m)))%nat t end.
Definition store_of (ms : list (mesh F)) : store F := {| s_mats := flat_map (fun m => mats_of (geoms m)) ms; s_meshes := alloc 0 ms |}.

Lemma map_nth_seq {X} (d : X) (pre l post : list X) : map (fun i => nth i (pre ++ l ++ post) d) (seq (length pre) (length l)) = l.
Proof.
  revert pre. induction l as [|x t IH]; intros pre; cbn [length seq map]; [reflexivity|]. f_equal.
  - rewrite app_nth2, Nat.sub_diag by lia. reflexivity.
  - specialize (IH (pre ++ [x])). rewrite app_length in IH. cbn [length] in IH. rewrite Nat.add_1_r, <- app_assoc in IH. exact IH.
Qed.
Lemma alloc_lods_tree st : forall ls pre post, s_mats st = pre ++ lods_mats ls ++ post -> map (lod_tree st) (alloc_lods (length pre) ls) = ls.
Proof.
  induction ls as [|l t IH]; intros pre post H; cbn [alloc_lods map]; [reflexivity|]. unfold lods_mats in H. cbn [flat_map] in H. fold (lods_mats t) in H. f_equal.
  - unfold lod_tree, alloc_lod. cbn [hl_lod hl_mats]. unfold mat_at. rewrite H, <- app_assoc, map_nth_seq. apply set_materials_same.
  - rewrite <- app_length. apply (IH _ post). now rewrite H, <- !app_assoc.
Qed.
Lemma alloc_geoms_tree st : forall gs pre post, s_mats st = pre ++ mats_of gs ++ post -> map (geom_tree st) (alloc_geoms (length pre) gs) = gs.
Proof.
  induction gs as [|g t IH]; intros pre post H; cbn [alloc_geoms map]; [reflexivity|].
  change (mats_of (g :: t)) with (lods_mats (lods g) ++ mats_of t) in H. f_equal.
  - unfold geom_tree. cbn [hg_geom hg_lods]. rewrite (alloc_lods_tree st _ pre (mats_of t ++ post)); [apply set_lods_same|]. now rewrite H, <- app_assoc.
  - rewrite <- app_length. apply (IH _ post). now rewrite H, <- !app_assoc.
Qed.
Lemma alloc_lods_addrs : forall ls n, flat_map hl_mats (alloc_lods n ls) = seq n (length (lods_mats ls)).
Proof.
  induction ls as [|l t IH]; intros n; [reflexivity|]. unfold lods_mats. cbn [alloc_lods flat_map]. fold (lods_mats t). rewrite IH, app_length, seq_app. reflexivity.
Qed.
Lemma alloc_geoms_addrs : forall gs n, geoms_addrs (alloc_geoms n gs) = seq n (length (mats_of gs)).
Proof.
  induction gs as [|g t IH]; intros n; [reflexivity|]. change (mats_of (g :: t)) with (lods_mats (lods g) ++ mats_of t).
  unfold geoms_addrs. cbn [alloc_geoms flat_map hg_lods]. fold (geoms_addrs (alloc_geoms (n + length (lods_mats (lods g)))%nat t)). rewrite IH, alloc_lods_addrs, app_length, seq_app. reflexivity.
Qed.
Lemma alloc_length n ms : length (alloc n ms) = length ms.
Proof. revert n. induction ms; intros; cbn; auto. Qed.
Lemma alloc_nth : forall ms n i m, nth_error ms i = Some m -> exists pre post, ms = pre ++ m :: post /\ length pre = i /\
  nth i (alloc n ms) mesh_none = {| hm_mesh := m; hm_geoms := alloc_geoms (n + length (flat_map (fun m => mats_of (geoms m)) pre))%nat (geoms m) |}.
Proof.
  induction ms as [|x t IH]; intros n [|i] m H; cbn in H; try discriminate.
  - injection H as ->. exists [], t. cbn. rewrite Nat.add_0_r. auto.
  - destruct (IH (n + length (mats_of (geoms x)))%nat i m H) as (pre & post & E1 & E2 & E3). exists (x :: pre), post. cbn [alloc nth flat_map length app].
    rewrite E3, app_length, Nat.add_assoc, E1, E2. auto.
Qed.
Lemma set_geoms_same (m : mesh F) : set_geoms m (geoms m) = m. Proof. now destruct m. Qed.
Theorem store_of_ok ms : let st := store_of ms in
  (forall i m, nth_error ms i = Some m -> own st i /\ tree_of st i = m) /\ (forall i j, i <> j -> disjoint st i j).
Proof.
  cbn zeta. split.
  - intros i m H. destruct (alloc_nth ms 0 i m H) as (pre & post & E1 & E2 & E3). cbn [Nat.add] in E3.
    assert (s_mats (store_of ms) = flat_map (fun m => mats_of (geoms m)) pre ++ mats_of (geoms m) ++ flat_map (fun m => mats_of (geoms m)) post) as EM
      by (unfold store_of; cbn [s_mats]; rewrite E1, flat_map_app; reflexivity).
    split.
    + split; [unfold store_of; cbn; rewrite alloc_length; apply nth_error_Some; congruence|].
      unfold mats_addrs, mesh_at. cbn [store_of s_meshes]. rewrite E3. cbn [hm_geoms]. change (flat_map (fun g => flat_map hl_mats (hg_lods g)) ?x) with (geoms_addrs x). rewrite alloc_geoms_addrs.
      split; [apply seq_NoDup|]. apply Forall_forall. intros a Ha. apply in_seq in Ha. rewrite EM, !app_length. lia.
    + unfold tree_of, mesh_at. cbn [store_of s_meshes]. rewrite E3. cbn [hm_mesh hm_geoms]. rewrite (alloc_geoms_tree _ _ _ _ EM). apply set_geoms_same.
  - intros i j N a Ha Hb. unfold mats_addrs, mesh_at in Ha, Hb. cbn [store_of s_meshes] in Ha, Hb.
    destruct (nth_error ms i) as [m|] eqn:Hi; [|apply nth_error_None in Hi; rewrite nth_overflow in Ha by (now rewrite alloc_length); easy].
    destruct (nth_error ms j) as [m'|] eqn:Hj; [|apply nth_error_None in Hj; rewrite nth_overflow in Hb by (now rewrite alloc_length); easy].
    destruct (alloc_nth ms 0 i m Hi) as (pre & post & E1 & E2 & E3). destruct (alloc_nth ms 0 j m' Hj) as (pre' & post' & E1' & E2' & E3').
    rewrite E3 in Ha. rewrite E3' in Hb. cbn [hm_geoms] in Ha, Hb.
    change (In a (geoms_addrs (alloc_geoms (0 + length (flat_map (fun m => mats_of (geoms m)) pre))%nat (geoms m)))) in Ha.
    change (In a (geoms_addrs (alloc_geoms (0 + length (flat_map (fun m => mats_of (geoms m)) pre'))%nat (geoms m')))) in Hb.
    rewrite alloc_geoms_addrs in Ha, Hb. apply in_seq in Ha, Hb. cbn [Nat.add] in Ha, Hb.
    assert (forall (p1 p2 : list (mesh F)) m1 q1 q2, ms = p1 ++ m1 :: q1 -> ms = p2 ++ q2 -> (length p1 < length p2)%nat ->
      (length (flat_map (fun m => mats_of (geoms m)) p1) + length (mats_of (geoms m1)) <= length (flat_map (fun m => mats_of (geoms m)) p2))%nat) as LT.
    { clear. intros p1 p2 m1 q1 q2 H1 H2 L. assert (firstn (length p2) ms = p2) as X by (rewrite H2, firstn_app, Nat.sub_diag, firstn_all; apply app_nil_r).
      rewrite <- X, H1, firstn_app, firstn_all2 by lia. rewrite flat_map_app, app_length. destruct (length p2 - length p1)%nat eqn:E; [lia|].
      cbn [firstn flat_map]. rewrite app_length. lia. }
    assert (length pre < length pre' \/ length pre' < length pre)%nat as [L|L] by lia.
    + specialize (LT _ _ _ _ _ E1 E1' L). lia.
    + specialize (LT _ _ _ _ _ E1' E1 L). lia.
Qed.
End Heap.
