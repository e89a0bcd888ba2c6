(** Rearranging a mesh computes no new numbers. *)
From Coq Require Import ZArith List Bool Lia Relations.
From Flocq Require Import IEEE754.Binary IEEE754.Bits.
From Verif Require Import PyBase Struct Mesh Arith F64 F64Facts Edit Obj Spec SpecF SpecEdit SpecBounds SpecHist SpecObj SpecLossless CodecBase CodecRaw CodecParam CodecFacts
  MergeFacts LayoutFacts BoundFacts CenterFacts HistFacts PathFacts FileFacts ObjFacts.
Import ListNotations.
Open Scope Z_scope.

Section All.
Context {F : Type} (A : arith F) (P : F -> Prop) (P0 : P (f_zero A)).
Implicit Types (m : mesh F).

Lemma fold_mut_both {B S} (I : S -> Prop) (Q : B -> Prop) (f : nat -> S -> B -> S * B * option exn) :
  (forall i s x s' x' o, I s -> Q x -> f i s x = (s', x', o) -> I s' /\ Q x') ->
  forall l i s s' l' o, I s -> Forall Q l -> fold_mut_from f i s l = (s', l', o) -> I s' /\ Forall Q l'.
Proof.
  intros H. induction l as [|x t IH]; intros i s s' l' o HI HQ E; [injection E as <- <- <-; auto|]. cbn [fold_mut_from] in E.
  inversion HQ as [|? ? Qx Qt]. subst. destruct (f i s x) as ((s1, x1), [e|]) eqn:Ex; destruct (H _ _ _ _ _ _ HI Qx Ex) as (I1 & Q1).
  - injection E as <- <- <-. auto.
  - destruct (fold_mut_from f (Datatypes.S i) s1 t) as ((s2, t2), o2) eqn:E2. injection E as <- <- <-. destruct (IH _ _ _ _ _ I1 Qt E2). auto.
Qed.
Lemma forall_skipn {B} (Q : B -> Prop) n l : Forall Q l -> Forall Q (skipn n l).
Proof. revert l. induction n as [|n IH]; intros [|x l] H; cbn; auto. inversion H. auto. Qed.
Lemma forall_firstn {B} (Q : B -> Prop) n l : Forall Q l -> Forall Q (firstn n l).
Proof. revert l. induction n as [|n IH]; intros [|x l] H; cbn; auto. inversion H. auto. Qed.
Lemma forall_slice {B} (Q : B -> Prop) l a b : Forall Q l -> Forall Q (py_slice l a b).
Proof. intros H. unfold py_slice. auto using forall_firstn, forall_skipn. Qed.

Notation geom_all := (fun g : geom F => Forall (lod_all P) (lods g)).
Lemma all_geoms m gs : mesh_all P m -> Forall geom_all gs -> mesh_all P (set_geoms m gs).
Proof. intros (_ & V) G. now split. Qed.
Lemma trav_geom_all {S} (I : S -> Prop) (f : nat -> nat -> S -> mat F -> S * mat F * option exn) :
  (forall i j s x s' x' o, I s -> mat_all P x -> f i j s x = (s', x', o) -> I s' /\ mat_all P x') ->
  forall s g s' g' o, I s -> geom_all g -> trav_geom f s g = (s', g', o) -> I s' /\ geom_all g'.
Proof.
  intros H s g s' g' o HI G E. unfold trav_geom in E. destruct (fold_mut _ s (lods g)) as ((s1, ls), o1) eqn:E1. injection E as <- <- <-. cbn [lods set_lods].
  revert E1. apply fold_mut_both; auto. clear - H. intros i s l s' l' o HI (L1 & L2 & L3 & L4 & L5 & L6) E.
  unfold trav_lod in E. destruct (fold_mut _ s (materials l)) as ((s1, ms), o1) eqn:E1. injection E as <- <- <-.
  assert (I s1 /\ Forall (mat_all P) ms) as (I1 & M1); [|split; [exact I1|]; repeat (split; [assumption|]); exact M1].
  revert E1. apply fold_mut_both; auto. intros j t x t' x' o' HI' HX. apply H; auto.
Qed.

(** ** Reordering *)
Lemma reorder_mat_all vs verts ix : Forall P verts -> forall s x s' x' o, Forall P (fst s) -> mat_all P x ->
  reorder_mat vs verts ix s x = (s', x', o) -> Forall P (fst s') /\ mat_all P x'.
Proof.
  intros V (nv, ni) x s' x' o I X. unfold reorder_mat. destruct (index_slice ix _ _) as [sl|e]; [|intros [= <- <- <-]; auto].
  destruct (py_int_div _ vs) as [q|e]; [|intros [= <- <- <-]; auto]. intros [= <- <- <-]. split; [|exact X].
  cbn [fst] in *. apply Forall_app. auto using forall_slice.
Qed.
Lemma set_nth_all {B} (Q : B -> Prop) l : forall k x, Forall Q l -> Q x -> Forall Q (set_nth l k x).
Proof. induction l as [|y l IH]; intros [|k] x H X; cbn; auto; inversion H; auto. Qed.
Lemma pick_all {B} (Q : B -> Prop) l ks : Forall Q l -> Forall Q (pick l ks).
Proof.
  intros H. unfold pick. induction ks as [|k ks IH]; [constructor|]. cbn [flat_map]. apply Forall_app. split; [|exact IH].
  destruct (nth_error l k) as [x|] eqn:E; [|constructor]. constructor; [|constructor]. apply nth_error_In in E. rewrite Forall_forall in H. auto.
Qed.
Lemma reorder_all m order m' o : mesh_all P m -> change_geoms_order m order = (m', o) -> mesh_all P m'.
Proof.
  intros H. unfold change_geoms_order. destruct (negb _); [now intros [= <- <-]|]. destruct (vertex_size m) as [vs|e]; [|now intros [= <- <-]].
  assert (forall order store s ch store' s' ch' o, Forall geom_all store -> Forall P (fst s) ->
    reorder_loop vs (vertices m) (index m) order store s ch = (store', s', ch', o) -> Forall geom_all store' /\ Forall P (fst s')) as G.
  { clear order m' o. induction order as [|i order IH]; intros store s ch store' s' ch' o HS HI E; cbn [reorder_loop] in E; [now injection E as <- <- <- <-|].
    destruct (norm_index _ i) as [k|]; [|now injection E as <- <- <- <-]. destruct (nth_error store k) as [g|] eqn:K; [|now injection E as <- <- <- <-].
    destruct (trav_geom _ s g) as ((s1, g1), o1) eqn:T. apply nth_error_In in K.
    assert (geom_all g) as HG by (rewrite Forall_forall in HS; auto).
    destruct (trav_geom_all (fun s => Forall P (fst s)) (fun _ _ => reorder_mat vs (vertices m) (index m)) (fun _ _ => reorder_mat_all vs (vertices m) (index m) (proj2 H)) s g s1 g1 o1 HI HG T) as (I1 & G1).
    destruct o1 as [e|]; [injection E as <- <- <- <-; auto using set_nth_all|]. revert E. apply IH; auto using set_nth_all. }
  destruct (reorder_loop vs _ _ order (geoms m) ([], []) []) as (((store, (nv, ni)), ch), o1) eqn:E.
  destruct (G _ _ _ _ _ _ _ _ (proj1 H) (Forall_nil _ : Forall P (fst (@nil F, @nil Z))) E) as (G1 & G2). destruct o1 as [e|]; intros [= <- <-].
  - now apply all_geoms.
  - split; [now apply pick_all|exact G2].
Qed.

(** ** Merging *)
Lemma merge_with_all a b om r x : mesh_all P a -> mesh_all P b -> merge_with a b om = (r, x) -> mesh_all P r.
Proof.
  intros HA HB. unfold merge_with. destruct (trav_geoms _ _ (geoms a)) as ((s, gs), o) eqn:E.
  assert (Forall P (ms_verts s) /\ Forall geom_all gs) as (V & G).
  { unfold trav_geoms in E. revert E. apply (fold_mut_both (fun s => Forall P (ms_verts s)) geom_all); [|constructor|apply HA].
    intros i s0 g s' g' o' HI HG. apply (trav_geom_all (fun s => Forall P (ms_verts s))); auto. clear - HA HB.
    intros li mi s m s' m' o HI HM E. unfold merge_mat in E. cbv zeta in E. match type of E with match ?r with _ => _ end = _ => destruct r as [(s1, m1)|e] eqn:R end; [|injection E as <- <- <-; auto].
    injection E as <- <- <-. destruct (vertex_size a) as [vs|]; [|discriminate]. cbn [bind] in R. destruct (index_slice _ _ _) as [sl|]; [|discriminate]. cbn [bind] in R.
    destruct (om i li mi m) as [o|]; [|discriminate]. cbn [bind] in R. destruct (vertex_size b) as [ovs|]; [|discriminate]. cbn [bind] in R.
    destruct (merge_indices _ _ _ _ _) as [ni|]; [|discriminate]. cbn [bind] in R. injection R as <- <-. split; [|exact HM]. cbn [ms_verts].
    apply Forall_app. split; [apply Forall_app; split; [exact HI|]|]; apply forall_slice; [apply HA|apply HB]. }
  destruct o as [e|].
  - intros [= <- <-]. now apply all_geoms.
  - destruct (index a); intros [= <- <-]; now split.
Qed.
Lemma merge_all_kept a b r x : mesh_all P a -> mesh_all P b -> merge a b = (r, x) -> mesh_all P r.
Proof.
  intros HA HB. unfold merge. destruct (canMerge a b) as [[|]|]; [now apply merge_with_all|..]; now intros [= <- <-].
Qed.
Lemma merge_self_all a r x : mesh_all P a -> merge_self a = (r, x) -> mesh_all P r.
Proof.
  intros HA. unfold merge_self. destruct (canMerge a a) as [[|]|]; [now apply merge_with_all|..]; now intros [= <- <-].
Qed.

(** ** Bounds *)
Lemma vmin3_all q a : vec3_all P q -> vec3_all P a -> vec3_all P (vmin3 A q a).
Proof. destruct q as ((x, y), z), a as ((x', y'), z'). cbn. unfold upd_min. intros (H1 & H2 & H3) (K1 & K2 & K3). destruct (f_lt A x x'), (f_lt A y y'), (f_lt A z z'); auto. Qed.
Lemma vmax3_all q a : vec3_all P q -> vec3_all P a -> vec3_all P (vmax3 A q a).
Proof. destruct q as ((x, y), z), a as ((x', y'), z'). cbn. unfold upd_max. intros (H1 & H2 & H3) (K1 & K2 & K3). destruct (f_lt A x' x), (f_lt A y' y), (f_lt A z' z); auto. Qed.
Definition bnds_all (b : bnds (F := F)) : Prop := vec3_all P (b_mmin b) /\ vec3_all P (b_mmax b) /\ vec3_all P (b_lmin b) /\ vec3_all P (b_lmax b).
Lemma vertex_position_all vf buf l : Forall P buf -> forall cur r, opt_all (Forall P) cur -> vertex_position vf buf l cur = Ok r -> opt_all (Forall P) r.
Proof.
  intros B. induction l as [|a l IH]; intros cur r C; cbn [vertex_position]; [now intros [= <-]|]. destruct (flag a =? UNUSED); [now apply IH|].
  destruct (py_int_div _ vf) as [s|]; [|discriminate]. cbn [bind]. destruct (decltype_len _) as [n|]; [|discriminate]. cbn [bind].
  destruct (negb _); [discriminate|]. apply IH. destruct (usage a =? POSITION); [|exact C]. now apply forall_slice.
Qed.
Lemma first3_all l q : Forall P l -> first3 l = Ok q -> vec3_all P q.
Proof.
  unfold first3. intros H. destruct l as [|x [|y [|z l]]]; try discriminate. intros [= <-]. inversion H as [|? ? K1 K2]. inversion K2 as [|? ? K3 K4]. inversion K4. cbn. auto.
Qed.
Lemma bound_vertex_all m mt i : mesh_all P m -> forall b b', bnds_all b -> bound_vertex A m mt b i = Ok b' -> bnds_all b'.
Proof.
  intros (_ & V) b b' B. unfold bound_vertex. destruct (vertex_size m) as [vs|]; [|discriminate]. cbn [bind].
  destruct (vertex_position _ _ _ None) as [pos|] eqn:E; [|discriminate]. cbn [bind]. apply vertex_position_all in E; [|now apply forall_slice|exact I].
  destruct (has_mat_bounds m); [|now intros [= <-]]. destruct pos as [l|]; [|discriminate]. destruct (first3 l) as [q|] eqn:Q; [|discriminate].
  apply first3_all in Q; [|exact E]. intros [= <-]. destruct B as (B1 & B2 & B3 & B4). repeat split; cbn; auto using vmin3_all, vmax3_all.
Qed.
Lemma zero3_all : vec3_all P (zero3 A). Proof. cbn. auto. Qed.
Lemma fold_res_all {B S} (I : S -> Prop) (f : S -> B -> res S) : (forall s x s', I s -> f s x = Ok s' -> I s') -> forall l s s', I s -> fold_res f s l = Ok s' -> I s'.
Proof.
  intros H. induction l as [|x l IH]; intros s s' HI E; cbn [fold_res] in E; [injection E as <-; exact HI|].
  destruct (f s x) as [s1|] eqn:E1; [|discriminate]. cbn [bind] in E. eapply IH; [|exact E]. eapply H; [exact HI|exact E1].
Qed.
Lemma update_all m m' o : mesh_all P m -> update_boundaries A m = (m', o) -> mesh_all P m'.
Proof.
  intros H. unfold update_boundaries. destruct (fold_mut _ tt (geoms m)) as ((u, gs), e) eqn:E. intros [= <- <-]. apply all_geoms; [exact H|].
  assert (True /\ Forall geom_all gs) as (_ & G); [|exact G]. revert E. apply (fold_mut_both (fun _ => True) geom_all); [|exact I|apply H]. clear - H P0.
  intros _ u g u' g' o _ HG E. split; [exact I|]. unfold bound_geom in E. destruct (fold_mut _ tt (lods g)) as ((u1, ls), e) eqn:E1. injection E as <- <- <-. cbn [lods set_lods].
  assert (True /\ Forall (lod_all P) ls) as (_ & G); [|exact G]. revert E1. apply (fold_mut_both (fun _ => True) (lod_all P)); [|exact I|exact HG]. clear - H P0.
  intros _ u l u' l' o _ (L1 & L2 & L3 & L4 & L5 & L6) E. split; [exact I|]. destruct (bound_lod A m l) as (l1, o1) eqn:B. injection E as <- <- <-. unfold bound_lod in B.
  destruct (fold_mut _ _ (materials l)) as (((a, b), ms), e) eqn:E1.
  assert ((vec3_all P (fst (a, b)) /\ vec3_all P (snd (a, b))) /\ Forall (mat_all P) ms) as ((VA & VB) & M).
  { revert E1. apply (fold_mut_both (fun ab => vec3_all P (fst ab) /\ vec3_all P (snd ab)) (mat_all P)); [|split; apply zero3_all|exact L6].
    intros _ lb mt lb' mt' o (H1 & H2) HM E1. unfold bound_mat in E1. destruct (fold_res _ _ _) as [c|x] eqn:FR; [|injection E1 as <- <- <-; auto].
    apply (fold_res_all bnds_all) in FR; [|intros s i s'; now apply bound_vertex_all|repeat split; cbn; auto].
    destruct FR as (F1 & F2 & F3 & F4). injection E1 as <- <- <-. split; [now split|]. destruct (has_mat_bounds m); [|exact HM]. now split. }
  destruct e as [e|]; injection B as <- <-; repeat (split; [assumption|]); exact M.
Qed.
Lemma center_all m gi li u m' r : mesh_all P m -> get_lod_center_offset A m gi li u = (m', r) -> mesh_all P m'.
Proof.
  intros H. unfold get_lod_center_offset. destruct (bind _ _) as [l|]; [|now intros [= <- <-]]. destruct u.
  - destruct (update_boundaries A m) as (m1, o) eqn:E. apply update_all in E; [|exact H]. destruct o; now intros [= <- <-].
  - now intros [= <- <-].
Qed.
Theorem arrange_all m m' : mesh_all P m -> clos_refl_trans_1n _ (arrange A (mesh_all P)) m m' -> mesh_all P m'.
Proof.
  intros H R. induction R as [|x y z S R IH]; [exact H|]. apply IH. destruct S as [x y o S|x gi li u y r S|x o y r HO S|x y r S|x order y o S].
  - now apply update_all in S.
  - now apply center_all in S.
  - now apply merge_all_kept in S.
  - now apply merge_self_all in S.
  - now apply reorder_all in S.
Qed.
End All.

(** ** Saving what was rearranged *)
Lemma loaded_stored p k bs (m : mesh binary64) : load p unpack_f k bs = Ok m -> mesh_all stored m.
Proof.
  intros H. apply load_inv in H. destruct H as (mr & H & ->). apply load_raw_ok in H. destruct H as ((_ & WB) & _).
  apply mesh_all_map. apply (mesh_all2 is_bits32 is_bits32); auto. intros b Hb _. exists b. auto.
Qed.
Lemma stored_round x : stored x -> unpack_f (pack_f x) = x.
Proof. intros (b & Hb & ->). now apply unpack_pack_unpack. Qed.
Lemma zero_stored L : stored (f_zero (f64 L)).
Proof. exists 0. split; [lia|]. reflexivity. Qed.
Theorem stored_exact p m : wf p m -> indexnum m <> 1 -> mesh_all stored m ->
  exists bs, export p pack_f m = (bs, None) /\ load p unpack_f (m_kind m) bs = Ok m.
Proof.
  intros W N S. destruct (export_reload p m W N) as (bs & E & R). exists bs. split; [exact E|].
  rewrite (mesh_map_ext stored _ (fun x => x)), mesh_map_id in R by (auto using stored_round). exact R.
Qed.

Theorem arranged_exact L p vs (m0 m : mesh binary64) : savable p vs m0 -> mesh_all stored m0 ->
  clos_refl_trans_1n _ (fun x y => edit (f64 L) p vs x y /\ arrange (f64 L) (mesh_all stored) x y) m0 m ->
  is_long p (vertnum m) -> is_long p (indexnum m) -> vertnum m * Z.of_nat vs <= 2 ^ 53 ->
  exists bs, export p pack_f m = (bs, None) /\ load p unpack_f (m_kind m) bs = Ok m.
Proof.
  intros S0 H R L1 L2 B.
  assert (history (f64 L) p vs m0 m) as HI by (clear - R; induction R as [|x y z (S & _) R IH]; econstructor; eauto).
  assert (mesh_all stored m) as HS.
  { apply (arrange_all (f64 L) stored (zero_stored L) m0); [exact H|]. clear - R. induction R as [|x y z (_ & S) R IH]; econstructor; eauto. }
  pose proof (history_savable _ p vs m0 m S0 HI L1 L2 B) as SV. apply stored_exact; [apply SV| |exact HS].
  now destruct (savable_held p vs m SV) as (_ & _ & _ & (_ & _ & _ & _ & N & _)).
Qed.

(** Through the file system. *)
Theorem stored_reopen L p f (o : obj) filename fn ub f' o' : writes_to o filename fn -> wf p (o_mesh o) -> indexnum (o_mesh o) <> 1 ->
  kind_named (m_kind (o_mesh o)) fn -> mesh_all stored (o_mesh o) ->
  export_obj (f64 L) p pack_f f o filename ub = (f', o', None) ->
  forall kw, new_visible_mesh p unpack_f f' (Some fn) kw = Ok {| o_mesh := o_mesh o'; o_filename := fn; o_loaded := true |}.
Proof.
  intros W HW0 HN0 HK0 HS H kw. destruct (export_success _ p pack_f _ _ _ W _ _ _ _ H) as (bs & EX & EF & -> & _ & (N & NS & NR) & _). cbn [o_mesh] in *.
  destruct (written_same L p ub o HW0) as (HW & HN & HK). rewrite <- HN in HN0. rewrite <- HK in HK0.
  assert (mesh_all stored (mesh_to_write (f64 L) ub o)) as HS'.
  { unfold mesh_to_write. destruct ub; [|exact HS]. destruct (update_boundaries (f64 L) (o_mesh o)) as (m', r) eqn:E. apply (update_all (f64 L) stored (zero_stored L)) in E; assumption. }
  destruct (stored_exact p _ HW HN0 HS') as (bs' & EX' & LD). replace bs' with bs in LD by congruence. rewrite (kind_named_eq _ _ HK0) in LD.
  apply (new_file _ _ _ _ bs); auto. now rewrite lookup_in.
Qed.
Lemma opened_stored p f filename kw (o : obj) : new_visible_mesh p unpack_f f filename kw = Ok o -> wf p (o_mesh o) /\ mesh_all stored (o_mesh o).
Proof.
  intros H. apply new_ok in H. destruct H as (fn & file & _ & _ & _ & LD & _). split; [apply (loaded_wf _ _ _ _ _ LD)|now apply loaded_stored in LD].
Qed.
(** Two files merged into a third one. *)
Theorem merged_files L p vs f fn1 fn2 fn kw1 kw2 (o1 o2 : obj) r ub f' o' :
  new_visible_mesh p unpack_f f fn1 kw1 = Ok o1 -> new_visible_mesh p unpack_f f fn2 kw2 = Ok o2 ->
  savable p vs (o_mesh o1) -> savable p vs (o_mesh o2) -> merge (o_mesh o1) (o_mesh o2) = (r, Merged) ->
  is_long p (vertnum r) -> is_long p (indexnum r) -> vertnum r * Z.of_nat vs <= 2 ^ 53 -> kind_named (m_kind r) fn -> fn <> [] ->
  export_obj (f64 L) p pack_f f {| o_mesh := r; o_filename := o_filename o1; o_loaded := true |} (Some fn) ub = (f', o', None) ->
  o_mesh o' = (if ub then fst (update_boundaries (f64 L) r) else r) /\
  forall kw, new_visible_mesh p unpack_f f' (Some fn) kw = Ok {| o_mesh := o_mesh o'; o_filename := fn; o_loaded := true |}.
Proof.
  intros O1 O2 S1 S2 M L1 L2 B K N E. destruct (opened_stored _ _ _ _ _ O1) as (_ & H1). destruct (opened_stored _ _ _ _ _ O2) as (_ & H2).
  assert (savable p vs r) as SR.
  { apply (history_savable (f64 L) p vs (o_mesh o1)); auto. econstructor; [|constructor]. now apply (by_merge _ _ _ _ (o_mesh o2)). }
  assert (mesh_all stored r) as HR by (now apply (merge_all_kept stored) in M).
  assert (writes_to {| o_mesh := r; o_filename := o_filename o1; o_loaded := true |} (Some fn) fn) as W by (unfold writes_to; destruct fn; [contradiction|reflexivity]).
  split.
  - destruct (export_success _ p pack_f _ _ _ W _ _ _ _ E) as (bs & _ & _ & -> & _). reflexivity.
  - apply (stored_reopen L p f {| o_mesh := r; o_filename := o_filename o1; o_loaded := true |} (Some fn) fn ub); auto; [apply SR|].
    now destruct (savable_held p vs r SR) as (_ & _ & _ & (_ & _ & _ & _ & Q & _)).
Qed.
(** A file saved with its geoms in another order. *)
Theorem reordered_file L p vs f fn1 fn kw1 (o1 : obj) order ks r ub f' o' :
  new_visible_mesh p unpack_f f fn1 kw1 = Ok o1 ->
  savable p vs (o_mesh o1) -> permutes (length (geoms (o_mesh o1))) order ks -> vertnum (o_mesh o1) * Z.of_nat vs <= 2 ^ 53 -> change_geoms_order (o_mesh o1) order = (r, None) ->
  kind_named (m_kind r) fn -> fn <> [] ->
  export_obj (f64 L) p pack_f f {| o_mesh := r; o_filename := o_filename o1; o_loaded := true |} (Some fn) ub = (f', o', None) ->
  o_mesh o' = (if ub then fst (update_boundaries (f64 L) r) else r) /\
  forall kw, new_visible_mesh p unpack_f f' (Some fn) kw = Ok {| o_mesh := o_mesh o'; o_filename := fn; o_loaded := true |}.
Proof.
  intros O1 S1 PM V M K N E. destruct (opened_stored _ _ _ _ _ O1) as (_ & H1).
  assert (vertnum r = vertnum (o_mesh o1) /\ indexnum r = indexnum (o_mesh o1)) as (V1 & V2).
  { unfold change_geoms_order in M. destruct (negb _); [discriminate|]. destruct (vertex_size _); [|discriminate]. destruct (reorder_loop _ _ _ _ _ _ _) as (((store, (nv, ni)), ch), [e|]); [discriminate|].
    now injection M as <-. }
  assert (savable p vs r) as SR.
  { pose proof S1 as (W & _ & _ & P & _). destruct W as (_ & _ & _ & _ & _ & _ & _ & _ & W1 & _ & _ & W2 & _).
    apply (history_savable (f64 L) p vs (o_mesh o1)); auto.
    - econstructor; [|constructor]. apply (by_reorder _ _ _ _ order ks); auto. nia.
    - rewrite V1. exact W1.
    - rewrite V2. apply W2.
    - now rewrite V1. }
  assert (mesh_all stored r) as HR by (now apply (reorder_all stored) in M).
  assert (writes_to {| o_mesh := r; o_filename := o_filename o1; o_loaded := true |} (Some fn) fn) as W by (unfold writes_to; destruct fn; [contradiction|reflexivity]).
  split.
  - destruct (export_success _ p pack_f _ _ _ W _ _ _ _ E) as (bs & _ & _ & -> & _). reflexivity.
  - apply (stored_reopen L p f {| o_mesh := r; o_filename := o_filename o1; o_loaded := true |} (Some fn) fn ub); auto; [apply SR|].
    now destruct (savable_held p vs r SR) as (_ & _ & _ & (_ & _ & _ & _ & Q & _)).
Qed.
