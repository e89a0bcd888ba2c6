(** Which exceptions the editing methods can raise. *)
From Coq Require Import ZArith Bool Ascii List Lia.
From Verif Require Import PyBase Struct Mesh Arith Edit Spec CodecFacts DivFacts SpecExn ExnFacts.
Import ListNotations.
Open Scope Z_scope.
Open Scope res_scope.

Lemma mut_Forall {X S} (P : X -> Prop) (f : nat -> S -> X -> S * X * option exn) l :
  (forall i s x, P x -> P (snd (fst (f i s x)))) -> Forall P l -> forall i s, Forall P (snd (fst (fold_mut_from f i s l))).
Proof.
  intros H. induction 1 as [| x l Hx Hl IH]; intros i s; cbn [fold_mut_from]; [ constructor |].
  pose proof (H i s x Hx) as Hx'. destruct (f i s x) as [[s' x'] [e |]]; cbn [fst snd] in *; [ now constructor |].
  specialize (IH (Datatypes.S i) s'). destruct (fold_mut_from f (Datatypes.S i) s' l) as [[? ?] ?]. cbn [fst snd] in *. now constructor.
Qed.

Lemma get_in {X} (l : list X) i x : py_get l i = Ok x -> In x l.
Proof.
  unfold py_get. destruct (norm_index _ _); [| discriminate ]. destruct (nth_error l n) eqn:E; [| discriminate ].
  intro H. injection H as <-. eapply nth_error_In, E.
Qed.

Section E.
Context {F : Type} (A : arith F).
Implicit Types (m : mesh F).

Theorem loaded_formatted p (u : Z -> F) k bs m : load p u k bs = Ok m -> formatted m.
Proof.
  intro H. apply loaded_wf in H as [W _]. destruct W as (_ & _ & _ & WG & _ & WA & _ & _ & _ & WD & _). repeat split.
  - intros E. rewrite E in WD. discriminate.
  - eapply Forall_impl; [| exact WA ]. intros a (_ & H & _). exact H.
  - eapply Forall_impl; [| exact WG ]. intros g (_ & WL). eapply Forall_impl; [| exact WL ].
    intros l ((a & Ea) & (b & Eb) & _). rewrite Ea, Eb. split; discriminate.
Qed.

Lemma map_within L m f : In EValue L -> (forall v, within L (f v)) -> within L (map_vertices m f).
Proof.
  intros HV Hf. unfold map_vertices. apply within_fold. intros acc mt _. apply within_bind; [| intros; apply within_ok ].
  unfold map_mat_vertices. apply within_bind; [ now apply size_of_within | intros vs _ ].
  apply within_bind.
  - unfold py_range_step. destruct (Z.to_nat vs); [ now apply within_raise | apply within_ok ].
  - intros starts _. apply within_fold. intros. apply within_bind; [ apply Hf | intros; apply within_ok ].
Qed.
Lemma assign_within L m r : within L r -> owithin L (snd (assign_vertices m r)).
Proof. intros H e. unfold assign_vertices. destruct r as [nv | e']; cbn; intro E; [ discriminate | injection E as <-; now apply H ]. Qed.
Lemma position_within L vf l : vf <> 0 -> Forall (fun a => 0 <= offset a < 65536) l -> within L (position_offset vf l).
Proof.
  intros Hf. induction 1 as [| a l Ha Hl IH]; cbn [position_offset]; [ apply within_ok |].
  destruct (_ && _); [| assumption ]. rewrite int_div_short by assumption. apply within_ok.
Qed.
Lemma add_within L vo off : In EIndex L -> In EUnboundLocal L -> forall k v, within L (add_offset A vo k off v).
Proof.
  intros HI HU. induction off as [| d off IH]; intros k v; cbn [add_offset]; [ apply within_ok |].
  destruct vo; [| now apply within_raise ]. apply within_bind; [ now apply get_within | intros ? _ ].
  apply within_bind; [ now apply set_within | intros ? _; apply IH ].
Qed.
Theorem translate_raises m off m' e : formatted m -> translate A m off = (m', Some e) -> In e translate_exns.
Proof.
  intros (Hf & Ho & _) H. assert (owithin translate_exns (snd (translate A m off))) as W.
  { apply assign_within, map_within; [ cbn; tauto |]. intro v. unfold translate_vertex.
    apply within_bind; [ now apply position_within | intros; apply add_within; cbn; tauto ]. }
  rewrite H in W. now apply W.
Qed.
Theorem rotate_raises m r m' e : formatted m -> rotate A m r = (m', Some e) -> In e rotate_exns.
Proof.
  intros (Hf & Ho & _) H. assert (owithin rotate_exns (snd (rotate A m r))) as W.
  { unfold rotate. destruct r as [| r0 [| r1 [| r2 r]]]; try (apply owithin_some; cbn; tauto).
    apply assign_within, map_within; [ cbn; tauto |]. intro v. unfold rotate_vertex. apply within_fold.
    intros s a Ha. rewrite Forall_forall in Ho. specialize (Ho a Ha). unfold rotate_attrib.
    destruct (flag a =? UNUSED); [ apply within_ok |]. destruct (_ || _); [| apply within_ok ].
    rewrite int_div_short by assumption. cbn [bind]. apply within_bind; [ apply decltype_within; cbn; tauto | intros n _ ].
    apply within_bind; [ apply first3_within; cbn; tauto | intros q _ ].
    destruct (trig3 _ _ _ _); [ destruct (rot3 _ _ _ _ _) as [[? ?] ?]; apply within_ok | apply within_raise; cbn; tauto ]. }
  rewrite H in W. now apply W.
Qed.

Lemma vposition_within L vf (buf : list F) l : In EValue L -> vf <> 0 -> Forall (fun a => 0 <= offset a < 65536) l ->
  forall cur, within L (vertex_position vf buf l cur).
Proof.
  intros HV Hf. induction 1 as [| a l Ha Hl IH]; intro cur; cbn [vertex_position]; [ apply within_ok |].
  destruct (flag a =? UNUSED); [ apply IH |]. rewrite int_div_short by assumption. cbn [bind].
  apply within_bind; [ now apply decltype_within | intros n _ ]. destruct (negb _); [ now apply within_raise | apply IH ].
Qed.
Lemma bound_mat_within m lb mt : formatted m -> owithin bounds_exns (snd (bound_mat A m lb mt)).
Proof.
  intros (Hf & Ho & _). unfold bound_mat.
  assert (within bounds_exns (fold_res (bound_vertex A m mt)
    {| b_mmin := zero3 A; b_mmax := zero3 A; b_lmin := fst lb; b_lmax := snd lb |} (zrange (vnum mt)))) as W.
  { apply within_fold. intros b i _. unfold bound_vertex. apply within_bind; [ apply size_of_within; cbn; tauto | intros vs _ ].
    apply within_bind; [ apply vposition_within; [ cbn; tauto | assumption | assumption ] | intros pos _ ].
    destruct (has_mat_bounds m); [| apply within_ok ]. destruct pos; [| apply within_raise; cbn; tauto ].
    apply within_bind; [ apply first3_within; cbn; tauto | intros; apply within_ok ]. }
  destruct (fold_res _ _ _); cbn [snd]; [ apply owithin_none |]. apply owithin_some, W. reflexivity.
Qed.
Lemma bounds_within m : formatted m -> owithin bounds_exns (snd (update_boundaries A m)).
Proof.
  intro Hm. unfold update_boundaries, fold_mut.
  match goal with |- context [ fold_mut_from ?f 0 tt (geoms m) ] => pose proof (owithin_mut bounds_exns f (geoms m)) as W end.
  specialize (W ltac:(intros i s g; unfold bound_geom, fold_mut;
    match goal with |- context [ fold_mut_from ?f 0 tt (lods g) ] => pose proof (owithin_mut bounds_exns f (lods g)) as W1 end;
    specialize (W1 ltac:(intros i1 s1 l; unfold bound_lod, fold_mut;
      match goal with |- context [ fold_mut_from ?f 0 ?s (materials l) ] =>
        pose proof (owithin_mut bounds_exns f (materials l) (fun _ lb mt => bound_mat_within m lb mt Hm) O s) as W2;
        destruct (fold_mut_from f O s (materials l)) as [[[? ?] ?] [? |]]; cbn [snd fst] in *; exact W2 end) O tt);
    destruct (fold_mut_from _ _ _ _) as [[? ?] ?]; exact W1) O tt).
  destruct (fold_mut_from _ _ _ _) as [[? ?] ?]. exact W.
Qed.
Theorem bounds_raises m m' e : formatted m -> update_boundaries A m = (m', Some e) -> In e bounds_exns.
Proof. intros Hm H. pose proof (bounds_within m Hm) as W. rewrite H in W. now apply W. Qed.

(** Editing keeps a mesh formatted. *)
Definition bounded (g : geom F) : Prop := Forall (fun l : lod F => lod_min l <> None /\ lod_max l <> None) (lods g).
Lemma formatted_geoms m gs : formatted m -> Forall bounded gs -> formatted (set_geoms m gs).
Proof. intros (H1 & H2 & _) H. repeat split; assumption. Qed.
Lemma formatted_translate m off : formatted m -> formatted (fst (translate A m off)).
Proof. intro H. unfold translate, assign_vertices. destruct (map_vertices _ _); exact H. Qed.
Lemma formatted_rotate m r : formatted m -> formatted (fst (rotate A m r)).
Proof.
  intro H. unfold rotate, assign_vertices. destruct r as [| ? [| ? [| ? ?]]]; try exact H. destruct (map_vertices _ _); exact H.
Qed.
Lemma trav_bounded {S} (f : nat -> nat -> S -> mat F -> S * mat F * option exn) s g : bounded g -> bounded (snd (fst (trav_geom f s g))).
Proof.
  intro H. unfold trav_geom, fold_mut.
  pose proof (mut_Forall (fun l : lod F => lod_min l <> None /\ lod_max l <> None) (fun li s l => trav_lod (f li) s l) (lods g)) as W.
  specialize (W ltac:(intros i s0 l Hl; unfold trav_lod; destruct (fold_mut _ _ _) as [[? ?] ?]; exact Hl) H O s).
  destruct (fold_mut_from _ _ _ _) as [[? ?] ?]. exact W.
Qed.
Lemma formatted_merge_with m o om : formatted m -> formatted (fst (merge_with m o om)).
Proof.
  intro H. unfold merge_with, trav_geoms, fold_mut.
  match goal with |- context [ fold_mut_from ?f 0 ?s (geoms m) ] => pose proof (mut_Forall bounded f (geoms m)) as W;
    specialize (W ltac:(intros; now apply trav_bounded) ltac:(apply H) O s); destruct (fold_mut_from f 0 s (geoms m)) as [[s' gs] [e |]] end;
  cbn [fst snd] in W; pose proof (formatted_geoms m gs H W) as H1; [ exact H1 |]. destruct (index m); exact H1.
Qed.
Lemma formatted_merge m o : formatted m -> formatted (fst (merge m o)).
Proof. intro H. unfold merge. destruct (canMerge m o) as [[|] |]; try exact H. now apply formatted_merge_with. Qed.
Lemma formatted_merge_self m : formatted m -> formatted (fst (merge_self m)).
Proof. intro H. unfold merge_self. destruct (canMerge m m) as [[|] |]; try exact H. now apply formatted_merge_with. Qed.
Lemma set_nth_Forall {X} (P : X -> Prop) l k v : Forall P l -> P v -> Forall P (set_nth l k v).
Proof. intros H Hv. revert k. induction H; intros [| k]; cbn; constructor; auto. Qed.
Lemma reorder_bounded vs verts ix order : forall store s chosen, Forall bounded store ->
  Forall bounded (fst (fst (fst (reorder_loop (F := F) vs verts ix order store s chosen)))).
Proof.
  induction order as [| i order IH]; intros store s chosen H; cbn [reorder_loop]; [ exact H |].
  destruct (norm_index _ _) as [k |]; [| exact H ]. destruct (nth_error store k) as [g |] eqn:E; [| exact H ].
  assert (bounded g) as Hg by (pose proof (proj1 (Forall_forall _ _) H) as HH; apply HH; eapply nth_error_In, E).
  pose proof (trav_bounded (fun _ _ => reorder_mat vs verts ix) s g Hg) as Hg'.
  destruct (trav_geom _ s g) as [[s' g'] [e |]]; cbn [fst snd] in *; [ now apply set_nth_Forall |].
  apply IH. now apply set_nth_Forall.
Qed.
Lemma pick_Forall {X} (P : X -> Prop) (store : list X) ks : Forall P store -> Forall P (pick store ks).
Proof.
  intro H. unfold pick. apply Forall_flat_map, Forall_forall. intros k _.
  destruct (nth_error store k) eqn:E; [| constructor ]. constructor; [| constructor ].
  pose proof (proj1 (Forall_forall _ _) H) as HH; apply HH; eapply nth_error_In, E.
Qed.
Lemma formatted_order m order : formatted m -> formatted (fst (change_geoms_order m order)).
Proof.
  intro H. unfold change_geoms_order. destruct (negb _); [ exact H |]. destruct (vertex_size m) as [vs |]; [| exact H ].
  pose proof (reorder_bounded vs (vertices m) (index m) order (geoms m) ([], []) [] ltac:(apply H)) as W.
  destruct (reorder_loop _ _ _ _ _ _ _) as [[[store [nv ni]] chosen] [e |]]; cbn [fst] in *.
  - now apply formatted_geoms.
  - apply (formatted_geoms m (pick store chosen) H). now apply pick_Forall.
Qed.
Lemma formatted_bounds m : formatted m -> formatted (fst (update_boundaries A m)).
Proof.
  intro H. unfold update_boundaries, fold_mut.
  match goal with |- context [ fold_mut_from ?f 0 ?s (geoms m) ] => pose proof (mut_Forall bounded f (geoms m)) as W;
    assert (forall i u g, bounded g -> bounded (snd (fst (f i u g)))) as P end.
  { intros i u g Hg. unfold bound_geom, fold_mut.
    match goal with |- context [ fold_mut_from ?f 0 ?s (lods g) ] =>
      pose proof (mut_Forall (fun l : lod F => lod_min l <> None /\ lod_max l <> None) f (lods g)) as W1;
      assert (forall i u l, (lod_min l <> None /\ lod_max l <> None) ->
        lod_min (snd (fst (f i u l))) <> None /\ lod_max (snd (fst (f i u l))) <> None) as P end.
    { intros i' u' l Hl. unfold bound_lod. destruct (fold_mut _ _ _) as [[[? ?] ?] [? |]]; cbn; [ exact Hl | split; discriminate ]. }
    specialize (W1 P Hg O tt). destruct (fold_mut_from _ _ _ (lods g)) as [[? ?] ?]. exact W1. }
  specialize (W P ltac:(apply H) O tt). destruct (fold_mut_from _ _ _ (geoms m)) as [[? gs] ?]. now apply formatted_geoms.
Qed.

Theorem center_raises m gi li u m' e : formatted m -> get_lod_center_offset A m gi li u = (m', Raise e) -> In e center_exns.
Proof.
  intros Hm. unfold get_lod_center_offset.
  assert (within center_exns (do g <- py_get (geoms m) gi; py_get (lods g) li)) as W0.
  { apply within_bind; [ apply get_within; cbn; tauto | intros; apply get_within; cbn; tauto ]. }
  destruct (do g <- py_get (geoms m) gi; py_get (lods g) li); [| intro E; injection E as _ <-; now apply W0 ].
  assert (formatted (fst (if u then update_boundaries A m else (m, None))) /\
          owithin center_exns (snd (if u then update_boundaries A m else (m, None)))) as [Hm' Ho].
  { destruct u; [ split; [ now apply formatted_bounds | now apply bounds_within ] | split; [ exact Hm | apply owithin_none ] ]. }
  destruct (if u then update_boundaries A m else (m, None)) as [m1 [e' |]]; cbn [fst snd] in *; intro E; injection E as _ E.
  - subst e'. now apply Ho.
  - revert E. change (within center_exns (do g <- py_get (geoms m1) gi; do l <- py_get (lods g) li; lod_center A l)) with
      (forall e, (do g <- py_get (geoms m1) gi; do l <- py_get (lods g) li; lod_center A l) = Raise e -> In e center_exns).
    revert e. apply within_bind; [ apply get_within; cbn; tauto | intros g Eg ].
    apply within_bind; [ apply get_within; cbn; tauto | intros l El ].
    destruct Hm' as (_ & _ & HB). rewrite Forall_forall in HB. specialize (HB g (get_in _ _ _ Eg)).
    rewrite Forall_forall in HB. destruct (HB l (get_in _ _ _ El)) as [H1 H2]. unfold lod_center.
    destruct (lod_min l) as [[[? ?] ?] |]; [| contradiction ]. destruct (lod_max l) as [[[? ?] ?] |]; [| contradiction ]. apply within_ok.
Qed.

(** ** merge *)
Lemma check_within {X} L (f : nat -> X -> res bool) l : (forall i x, In x l -> within L (f i x)) -> forall i, within L (check_all f i l).
Proof.
  induction l as [| x l IH]; intros H i; cbn [check_all]; [ apply within_ok |].
  apply within_bind; [ apply H; now left | intros [|] _; [ apply IH; intros; apply H; now right | apply within_ok ] ].
Qed.
Lemma can_within m o : within merge_exns (canMerge m o).
Proof.
  unfold canMerge. destruct (negb _); [ apply within_ok |]. apply within_bind.
  - apply check_within. intros i g _. apply within_bind; [ apply nth_within; cbn; tauto | intros og _ ].
    destruct (negb _); [ apply within_ok |]. apply check_within. intros j l _.
    apply within_bind; [ apply nth_within; cbn; tauto | intros ol _ ]. destruct (negb _); [ apply within_ok |].
    apply check_within. intros k mt _. apply within_bind; [ apply nth_within; cbn; tauto | intros om _ ].
    unfold mat_compatible. destruct (negb _); [ destruct (alphamode mt); [ apply within_ok | apply within_raise; cbn; tauto ] |].
    repeat (destruct (negb _); [ apply within_ok |]). apply within_ok.
  - intros b _. destruct (negb b); [ apply within_ok |]. destruct (negb _); [ apply within_ok |].
    apply check_within. intros i a _. apply within_bind; [ apply nth_within; cbn; tauto | intros oa _ ].
    unfold attrib_compatible. destruct (vertattrib_eqb _ _); [ apply within_ok |]. apply within_bind; [| intros; apply within_ok ].
    unfold vertattrib_str. apply within_bind; [ apply decltype_within; cbn; tauto | intros _ _ ].
    destruct (known_usage _); [ apply within_ok | apply within_raise; cbn; tauto ].
Qed.
Lemma indices_within ix st sh ids : forall acc, within merge_exns (merge_indices ix st sh ids acc).
Proof.
  induction ids as [| i ids IH]; intro acc; cbn [merge_indices]; [ apply within_ok |]. apply within_bind.
  - destruct ix; [ apply within_raise; cbn; tauto | apply get_within; cbn; tauto ].
  - intros v _. destruct (_ >? _); [ apply within_raise; cbn; tauto | apply IH ].
Qed.
Lemma merge_mat_within m o om s mt : within merge_exns om -> owithin merge_exns (snd (merge_mat m o om s mt)).
Proof.
  intro Hom. unfold merge_mat.
  match goal with |- context [ match ?r with Ok _ => _ | Raise _ => _ end ] => assert (within merge_exns r) as W end.
  { apply within_bind; [ apply size_of_within; cbn; tauto | intros vs _ ].
    apply within_bind; [ destruct (index m); [ apply within_raise; cbn; tauto | apply within_ok ] | intros sl _ ].
    apply within_bind; [ exact Hom | intros ot _ ]. apply within_bind; [ apply size_of_within; cbn; tauto | intros ovs _ ].
    apply within_bind; [ apply indices_within | intros; apply within_ok ]. }
  match goal with |- context [ match ?r with Ok _ => _ | Raise _ => _ end ] => destruct r as [[s' m'] | e] end; cbn [snd];
    [ apply owithin_none | apply owithin_some, W; reflexivity ].
Qed.
Lemma merge_with_within m o om e : (forall gi li mi mt, within merge_exns (om gi li mi mt)) ->
  snd (merge_with m o om) = MergeRaised e -> In e merge_exns.
Proof.
  intros Hom. unfold merge_with, trav_geoms, fold_mut.
  match goal with |- context [ fold_mut_from ?f 0 ?s (geoms m) ] => pose proof (owithin_mut merge_exns f (geoms m)) as W;
    assert (forall i u g, owithin merge_exns (snd (f i u g))) as P end.
  { intros i u g. unfold trav_geom, fold_mut.
    match goal with |- context [ fold_mut_from ?f 0 ?s (lods g) ] => pose proof (owithin_mut merge_exns f (lods g)) as W1;
      assert (forall i u l, owithin merge_exns (snd (f i u l))) as P1 end.
    { intros i' u' l. unfold trav_lod, fold_mut.
      match goal with |- context [ fold_mut_from ?f 0 ?s (materials l) ] =>
        pose proof (owithin_mut merge_exns f (materials l) ltac:(intros; apply merge_mat_within, Hom) O s) as W2;
        destruct (fold_mut_from f 0 s (materials l)) as [[? ?] ?]; exact W2 end. }
    specialize (W1 P1 O u). destruct (fold_mut_from _ _ _ (lods g)) as [[? ?] ?]. exact W1. }
  specialize (W P O merge_state0). destruct (fold_mut_from _ _ _ (geoms m)) as [[s gs] [e' |]]; cbn [snd] in *.
  - intro E. injection E as <-. now apply W.
  - destruct (index m); [ intro E; injection E as <-; cbn; tauto | discriminate ].
Qed.
Theorem merge_raises m o m' e : merge m o = (m', MergeRaised e) -> In e merge_exns.
Proof.
  unfold merge. pose proof (can_within m o) as W. destruct (canMerge m o) as [[|] | e'].
  - intro E. apply merge_with_within with m o (fun gi li mi _ => get_mat o gi li mi); [| now rewrite E ].
    intros. unfold get_mat. apply within_bind; [ apply nth_within; cbn; tauto | intros ].
    apply within_bind; [ apply nth_within; cbn; tauto | intros; apply nth_within; cbn; tauto ].
  - discriminate.
  - intro E. injection E as _ <-. now apply W.
Qed.
Theorem merge_self_raises m m' e : merge_self m = (m', MergeRaised e) -> In e merge_exns.
Proof.
  unfold merge_self. pose proof (can_within m m) as W. destruct (canMerge m m) as [[|] | e'].
  - intro E. apply merge_with_within with m m (fun _ _ _ x => Ok x); [ intros; apply within_ok | now rewrite E ].
  - discriminate.
  - intro E. injection E as _ <-. now apply W.
Qed.

(** ** change_geoms_order *)
Lemma int_div_within a b : within order_exns (py_int_div a b).
Proof.
  unfold py_int_div, py_truediv. destruct (b =? 0); [ apply within_raise; cbn; tauto |].
  destruct (SpecFloat.SFdiv _ _ _ _); cbn; try apply within_ok; apply within_raise; cbn; tauto.
Qed.
Lemma reorder_mat_within vs verts ix s mt : owithin order_exns (snd (reorder_mat (F := F) vs verts ix s mt)).
Proof.
  unfold reorder_mat. destruct s as [nv ni]. destruct ix; cbn [index_slice]; [ apply owithin_some; cbn; tauto |].
  pose proof (int_div_within (zlen (nv ++ py_slice verts (vstart mt * vs) (vstart mt * vs + vnum mt * vs))) vs) as W.
  destruct (py_int_div _ _); [ apply owithin_none | apply owithin_some, W; reflexivity ].
Qed.
Lemma reorder_within vs verts ix order : forall store s chosen,
  owithin order_exns (snd (reorder_loop (F := F) vs verts ix order store s chosen)).
Proof.
  induction order as [| i order IH]; intros store s chosen; cbn [reorder_loop]; [ apply owithin_none |].
  destruct (norm_index _ _) as [k |]; [| apply owithin_some; cbn; tauto ]. destruct (nth_error store k) as [g |]; [| apply owithin_some; cbn; tauto ].
  assert (owithin order_exns (snd (trav_geom (fun _ _ => reorder_mat vs verts ix) s g))) as W.
  { unfold trav_geom, fold_mut.
    match goal with |- context [ fold_mut_from ?f 0 ?s (lods g) ] => pose proof (owithin_mut order_exns f (lods g)) as W1;
      assert (forall i u l, owithin order_exns (snd (f i u l))) as P1 end.
    { intros i' u' l. unfold trav_lod, fold_mut.
      match goal with |- context [ fold_mut_from ?f 0 ?s (materials l) ] =>
        pose proof (owithin_mut order_exns f (materials l) ltac:(intros; apply reorder_mat_within) O s) as W2;
        destruct (fold_mut_from f 0 s (materials l)) as [[? ?] ?]; exact W2 end. }
    specialize (W1 P1 O s). destruct (fold_mut_from _ _ _ (lods g)) as [[? ?] ?]. exact W1. }
  destruct (trav_geom _ s g) as [[s' g'] [e |]]; cbn [snd] in *; [ exact W | apply IH ].
Qed.
Theorem order_raises m order m' e : change_geoms_order (F := F) m order = (m', Some e) -> In e order_exns.
Proof.
  unfold change_geoms_order. destruct (negb _); [ intro E; injection E as _ <-; cbn; tauto |].
  assert (within order_exns (vertex_size m)) as WV by (apply size_of_within; cbn; tauto).
  destruct (vertex_size m) as [vs |]; [| intro E; injection E as _ <-; now apply WV ].
  pose proof (reorder_within vs (vertices m) (index m) order (geoms m) ([], []) []) as W.
  destruct (reorder_loop _ _ _ _ _ _ _) as [[[store [nv ni]] chosen] [e' |]]; cbn [snd] in *; [| discriminate ].
  intro E. injection E as _ <-. now apply W.
Qed.
Lemma formatted_center m gi li b : formatted m -> formatted (fst (get_lod_center_offset A m gi li b)).
Proof.
  intro H. unfold get_lod_center_offset. destruct (do g <- py_get (geoms m) gi; py_get (lods g) li); [| exact H ].
  assert (formatted (fst (if b then update_boundaries A m else (m, None)))) as H' by (destruct b; [ now apply formatted_bounds | exact H ]).
  destruct (if b then update_boundaries A m else (m, None)) as [m1 [e |]]; exact H'.
Qed.
Theorem formatted_kept m o off r order gi li b : formatted m ->
  formatted (fst (translate A m off)) /\ formatted (fst (rotate A m r)) /\ formatted (fst (update_boundaries A m)) /\
  formatted (fst (merge m o)) /\ formatted (fst (merge_self m)) /\ formatted (fst (change_geoms_order m order)) /\
  formatted (fst (get_lod_center_offset A m gi li b)).
Proof.
  intro H. split; [ now apply formatted_translate |]. split; [ now apply formatted_rotate |]. split; [ now apply formatted_bounds |].
  split; [ now apply formatted_merge |]. split; [ now apply formatted_merge_self |]. split; [ now apply formatted_order | now apply formatted_center ].
Qed.
Theorem edits_raise m o off r order gi li b m' e : formatted m ->
  (translate A m off = (m', Some e) -> In e translate_exns) /\
  (rotate A m r = (m', Some e) -> In e rotate_exns) /\
  (update_boundaries A m = (m', Some e) -> In e bounds_exns) /\
  (get_lod_center_offset A m gi li b = (m', Raise e) -> In e center_exns) /\
  (change_geoms_order m order = (m', Some e) -> In e order_exns) /\
  (merge m o = (m', MergeRaised e) -> In e merge_exns) /\
  (merge_self m = (m', MergeRaised e) -> In e merge_exns).
Proof.
  intro H. split; [ now apply translate_raises |]. split; [ now apply rotate_raises |]. split; [ now apply bounds_raises |].
  split; [ now apply center_raises |]. split; [ apply order_raises |]. split; [ apply merge_raises | apply merge_self_raises ].
Qed.
End E.

(** ** export *)
Section X.
Context {F : Type} (p : plat) (pk : F -> Z).
Notation ok w := (owithin export_exns (snd w)).
Lemma wseq_within a b : ok a -> ok b -> ok (wseq a b).
Proof. intros Ha Hb. destruct a as [x [e |]]; [ exact Ha |]. destruct b as [y o]. exact Hb. Qed.
Lemma wall_within {X} (w : X -> writer) l : (forall x, ok (w x)) -> ok (wall w l).
Proof. intro H. induction l; cbn [wall]; [ apply owithin_none | now apply wseq_within ]. Qed.
Lemma put_within bs : ok (wput bs).
Proof. apply owithin_none. Qed.
Lemma raise_within e : In e export_exns -> ok (wraise e).
Proof. intro H. now apply owithin_some. Qed.
Lemma struct_within : ok (wraise EStruct). Proof. apply raise_within. now left. Qed.
Lemma type_within : ok (wraise EType). Proof. apply raise_within. right. now left. Qed.
Lemma row_within t i : ok (write_row4 p pk t i).
Proof. unfold write_row4. destruct (nth_error t i); [ destruct (Nat.eqb _ _); [ apply put_within | apply struct_within ] | apply raise_within; cbn; tauto ]. Qed.
Ltac wr := repeat first
  [ apply wseq_within | apply wall_within; intros | apply put_within | apply struct_within | apply type_within | apply row_within
  | apply owithin_none
  | match goal with
    | |- ok (if ?b then _ else _) => destruct b
    | |- ok (match ?x with _ => _ end) => destruct x
    | |- ok (write_long _ _) => unfold write_long
    | |- ok (write_long_opt _ _) => unfold write_long_opt
    | |- ok (write_short _ _) => unfold write_short
    | |- ok (write_byte _ _) => unfold write_byte
    | |- ok (write_float _ _ _) => unfold write_float
    | |- ok (write_float3_opt _ _ _) => unfold write_float3_opt
    | |- ok (write_float3 _ _ _) => unfold write_float3
    | |- ok (write_matrix4 _ _ _) => unfold write_matrix4
    | |- ok (write_string _ _) => unfold write_string
    | |- ok (export_head _ _) => unfold export_head
    | |- ok (export_geom _ _) => unfold export_geom
    | |- ok (export_vertattrib _ _) => unfold export_vertattrib
    | |- ok (export_rig _ _ _) => unfold export_rig
    | |- ok (export_bone _ _ _) => unfold export_bone
    | |- ok (export_nodes _ _ _ _ _ _) => unfold export_nodes
    | |- ok (export_materials _ _ _ _ _) => unfold export_materials
    | |- ok (export_mat _ _ _ _ _) => unfold export_mat
    | |- ok (export_index _ _) => unfold export_index
    end ].
Theorem export_raises m bs e : export p pk m = (bs, Some e) -> In e export_exns.
Proof.
  intro H. assert (ok (export p pk m)) as W by (unfold export; wr). rewrite H in W. now apply W.
Qed.
End X.
