(** The nested loops over materials as one loop over the flat list of materials;
    slices in range. *)
From Coq Require Import ZArith List Bool Lia Arith.
From Verif Require Import PyBase Struct Mesh Arith Edit Spec SpecEdit.
Import ListNotations.
Open Scope Z_scope.

(** ** Slices *)
Lemma zlen_nonneg {A} (l : list A) : 0 <= zlen l.
Proof. unfold zlen. lia. Qed.

Lemma py_slice_in {A} (l : list A) a n : 0 <= a -> 0 <= n -> a + n <= zlen l ->
  py_slice l a (a + n) = firstn (Z.to_nat n) (skipn (Z.to_nat a) l).
Proof.
  intros Ha Hn H. unfold py_slice, norm_bound.
  destruct (Z.ltb_spec a 0); [lia|]. destruct (Z.ltb_spec (a + n) 0); [lia|].
  rewrite !Z.min_l by lia. f_equal. f_equal. lia.
Qed.

Lemma py_get_in {A} (l : list A) i : 0 <= i < zlen l ->
  exists x, nth_error l (Z.to_nat i) = Some x /\ py_get l i = Ok x.
Proof.
  intros H. unfold py_get, norm_index. destruct (Z.ltb_spec i 0); [lia|].
  replace ((0 <=? i) && (i <? zlen l)) with true by (symmetry; apply andb_true_intro; split; [apply Z.leb_le|apply Z.ltb_lt]; lia).
  destruct (nth_error l (Z.to_nat i)) eqn:E; [eauto|]. apply nth_error_None in E. unfold zlen in H. lia.
Qed.

Lemma skipn_firstn_comm' {A} (l : list A) a b : skipn a (firstn b l) = firstn (b - a) (skipn a l).
Proof. apply skipn_firstn_comm. Qed.

(** ** A loop over keyed mutable objects *)
Section Loop.
Context {K A S : Type} (f : K -> S -> A -> S * A * option exn).
Fixpoint fold_am (s : S) (l : list (K * A)) : S * list A * option exn :=
  match l with
  | [] => (s, [], None)
  | (k, x) :: t =>
      match f k s x with
      | (s', x', None) => let '(s'', t', o) := fold_am s' t in (s'', x' :: t', o)
      | (s', x', Some e) => (s', x' :: map snd t, Some e)
      end
  end.

Lemma fold_am_app s l1 l2 :
  fold_am s (l1 ++ l2) =
  match fold_am s l1 with
  | (s', r1, None) => let '(s'', r2, o) := fold_am s' l2 in (s'', r1 ++ r2, o)
  | (s', r1, Some e) => (s', r1 ++ map snd l2, Some e)
  end.
Proof.
  revert s. induction l1 as [|(k, x) t IH]; intros s; simpl.
  - now destruct (fold_am s l2) as ((s', r), o).
  - destruct (f k s x) as ((s', x'), [e|]); simpl.
    + now rewrite map_app.
    + rewrite IH. destruct (fold_am s' t) as ((s'', r), [e|]); simpl; [reflexivity|].
      now destruct (fold_am s'' l2) as ((s3, r2), o).
Qed.

Lemma fold_am_length s l : length (snd (fst (fold_am s l))) = length l.
Proof.
  revert s. induction l as [|(k, x) t IH]; intros s; simpl; [reflexivity|].
  destruct (f k s x) as ((s', x'), [e|]); simpl.
  - now rewrite map_length.
  - specialize (IH s'). destruct (fold_am s' t) as ((s'', r), o). simpl in *. lia.
Qed.
End Loop.

Lemma fold_mut_am {A S} (f : nat -> S -> A -> S * A * option exn) s l i :
  fold_mut_from f i s l = fold_am f s (combine (seq i (length l)) l).
Proof.
  revert s i. induction l as [|x t IH]; intros s i; simpl; [reflexivity|].
  destruct (f i s x) as ((s', x'), [e|]).
  - f_equal. f_equal. f_equal. clear. generalize (Datatypes.S i). induction t as [|y t IH]; intros n; simpl; [reflexivity|]. now f_equal.
  - now rewrite IH.
Qed.

Lemma fold_am_ext {K A S} (f g : K -> S -> A -> S * A * option exn) s l :
  (forall k s x, In (k, x) l -> f k s x = g k s x) -> fold_am f s l = fold_am g s l.
Proof.
  revert s. induction l as [|(k, x) t IH]; intros s H; simpl; [reflexivity|].
  rewrite H by now left. destruct (g k s x) as ((s', x'), [e|]); [reflexivity|].
  rewrite IH; [reflexivity|]. intros. apply H. now right.
Qed.

Lemma fold_am_map {K K' A S} (h : K -> K') (f : K' -> S -> A -> S * A * option exn) s l :
  fold_am f s (map (fun p => (h (fst p), snd p)) l) = fold_am (fun k => f (h k)) s l.
Proof.
  revert s. induction l as [|(k, x) t IH]; intros s; simpl; [reflexivity|].
  destruct (f (h k) s x) as ((s', x'), [e|]).
  - f_equal. f_equal. f_equal. rewrite map_map. reflexivity.
  - now rewrite IH.
Qed.

(** ** Putting materials back *)
Section Put.
Context {F : Type}.
Fixpoint put_lods (ls : list (lod F)) (ms : list (mat F)) : list (lod F) :=
  match ls with
  | [] => []
  | l :: t => let n := length (materials l) in
              set_materials l (firstn n ms) :: put_lods t (skipn n ms)
  end.
Definition lods_mats (ls : list (lod F)) : list (mat F) := flat_map materials ls.
Fixpoint put_mats (gs : list (geom F)) (ms : list (mat F)) : list (geom F) :=
  match gs with
  | [] => []
  | g :: t => let n := length (lods_mats (lods g)) in
              set_lods g (put_lods (lods g) (firstn n ms)) :: put_mats t (skipn n ms)
  end.

Lemma set_materials_same (l : lod F) : set_materials l (materials l) = l.
Proof. now destruct l. Qed.
Lemma set_lods_same (g : geom F) : set_lods g (lods g) = g.
Proof. now destruct g. Qed.

Lemma put_lods_same ls : put_lods ls (lods_mats ls) = ls.
Proof.
  induction ls as [|l t IH]; simpl; [reflexivity|]. rewrite firstn_app, Nat.sub_diag, firstn_all. simpl.
  rewrite app_nil_r, set_materials_same, skipn_app, Nat.sub_diag, skipn_all. simpl. f_equal. exact IH.
Qed.
Lemma put_mats_same gs : put_mats gs (mats_of gs) = gs.
Proof.
  induction gs as [|g t IH]; simpl; [reflexivity|]. fold (lods_mats (lods g)).
  rewrite firstn_app, Nat.sub_diag, firstn_all. simpl.
  rewrite app_nil_r, put_lods_same, set_lods_same, skipn_app, Nat.sub_diag, skipn_all. simpl. f_equal. exact IH.
Qed.

Lemma mats_put_lods ls ms : length ms = length (lods_mats ls) -> lods_mats (put_lods ls ms) = ms.
Proof.
  revert ms. induction ls as [|l t IH]; intros ms H; simpl in *.
  - now destruct ms.
  - rewrite app_length in H. fold (lods_mats t) in H. fold (lods_mats (put_lods t (skipn (length (materials l)) ms))).
    rewrite IH; [apply firstn_skipn|]. rewrite skipn_length. lia.
Qed.
Lemma mats_put gs ms : length ms = length (mats_of gs) -> mats_of (put_mats gs ms) = ms.
Proof.
  revert ms. induction gs as [|g t IH]; intros ms H; simpl in *.
  - now destruct ms.
  - rewrite app_length in H. fold (lods_mats (lods g)) in *. fold (mats_of t) in H.
    fold (lods_mats (put_lods (lods g) (firstn (length (lods_mats (lods g))) ms))).
    rewrite mats_put_lods by (rewrite firstn_length; lia).
    fold (mats_of (put_mats t (skipn (length (lods_mats (lods g))) ms))).
    rewrite IH; [apply firstn_skipn|]. rewrite skipn_length. lia.
Qed.

Lemma put_lods_cons l t ms1 ms2 : length ms1 = length (materials l) ->
  put_lods (l :: t) (ms1 ++ ms2) = set_materials l ms1 :: put_lods t ms2.
Proof.
  intros H. simpl. rewrite <- H, firstn_app, Nat.sub_diag, firstn_all, skipn_app, Nat.sub_diag, skipn_all.
  simpl. now rewrite app_nil_r.
Qed.
Lemma put_mats_cons g t ms1 ms2 : length ms1 = length (lods_mats (lods g)) ->
  put_mats (g :: t) (ms1 ++ ms2) = set_lods g (put_lods (lods g) ms1) :: put_mats t ms2.
Proof.
  intros H. simpl. rewrite <- H, firstn_app, Nat.sub_diag, firstn_all, skipn_app, Nat.sub_diag, skipn_all.
  simpl. now rewrite app_nil_r.
Qed.

(** Materials with their addresses. *)
Fixpoint amats_lods (li : nat) (ls : list (lod F)) : list ((nat * nat) * mat F) :=
  match ls with
  | [] => []
  | l :: t => map (fun p => ((li, fst p), snd p)) (combine (seq 0 (length (materials l))) (materials l))
              ++ amats_lods (S li) t
  end.
Fixpoint amats (gi : nat) (gs : list (geom F)) : list ((nat * nat * nat) * mat F) :=
  match gs with
  | [] => []
  | g :: t => map (fun p => ((gi, fst (fst p), snd (fst p)), snd p)) (amats_lods 0 (lods g)) ++ amats (S gi) t
  end.

Lemma map_snd_combine {B C} (l : list B) (l' : list C) : length l = length l' -> map snd (combine l l') = l'.
Proof. revert l'. induction l; destruct l'; simpl; intros; try discriminate; f_equal; auto. Qed.

Lemma amats_lods_snd li ls : map snd (amats_lods li ls) = lods_mats ls.
Proof.
  revert li. induction ls as [|l t IH]; intros li; simpl; [reflexivity|].
  rewrite map_app, map_map. cbn [snd]. fold (lods_mats t). rewrite IH. f_equal.
  apply map_snd_combine. apply seq_length.
Qed.
Lemma amats_snd gi gs : map snd (amats gi gs) = mats_of gs.
Proof.
  revert gi. induction gs as [|g t IH]; intros gi; simpl; [reflexivity|].
  rewrite map_app, map_map. cbn [snd]. fold (mats_of t). rewrite IH. f_equal.
  rewrite <- (amats_lods_snd 0). now apply map_ext.
Qed.

Context {S : Type}.
Lemma trav_lods_flat (f : nat -> nat -> S -> mat F -> S * mat F * option exn) s ls i :
  fold_mut_from (fun li s l => trav_lod (f li) s l) i s ls =
  let '(s', ms, o) := fold_am (fun a => f (fst a) (snd a)) s (amats_lods i ls) in
  (s', put_lods ls ms, o).
Proof.
  revert s i. induction ls as [|l t IH]; intros s i.
  - reflexivity.
  - cbn [fold_mut_from amats_lods]. rewrite fold_am_app.
    rewrite (fold_am_map (fun m => (i, m))). unfold trav_lod at 1, fold_mut. rewrite fold_mut_am.
    pose proof (fold_am_length (fun a => f i a) s (combine (seq 0 (length (materials l))) (materials l))) as HL.
    cbn [fst snd].
    destruct (fold_am (fun a => f i a) s (combine (seq 0 (length (materials l))) (materials l))) as ((s', ms), [e|]);
      cbn [fst snd] in HL; rewrite combine_length, seq_length, Nat.min_id in HL.
    + rewrite amats_lods_snd, put_lods_cons by exact HL. now rewrite put_lods_same.
    + rewrite IH. destruct (fold_am _ s' (amats_lods (Datatypes.S i) t)) as ((s'', ms2), o).
      now rewrite put_lods_cons.
Qed.

Lemma trav_geom_flat (f : nat -> nat -> S -> mat F -> S * mat F * option exn) s g :
  trav_geom f s g =
  let '(s', ms, o) := fold_am (fun a => f (fst a) (snd a)) s (amats_lods 0 (lods g)) in
  (s', set_lods g (put_lods (lods g) ms), o).
Proof.
  unfold trav_geom, fold_mut. rewrite trav_lods_flat.
  now destruct (fold_am _ s (amats_lods 0 (lods g))) as ((s', ms), o).
Qed.

Lemma trav_geoms_from (f : nat -> nat -> nat -> S -> mat F -> S * mat F * option exn) s gs i :
  fold_mut_from (fun gi s g => trav_geom (f gi) s g) i s gs =
  let '(s', ms, o) := fold_am (fun a => f (fst (fst a)) (snd (fst a)) (snd a)) s (amats i gs) in
  (s', put_mats gs ms, o).
Proof.
  revert s i. induction gs as [|g t IH]; intros s i.
  - reflexivity.
  - cbn [fold_mut_from amats]. rewrite fold_am_app.
    rewrite (fold_am_map (fun a => (i, fst a, snd a))). rewrite trav_geom_flat.
    pose proof (fold_am_length (fun a => f i (fst a) (snd a)) s (amats_lods 0 (lods g))) as HL.
    cbn [fst snd].
    destruct (fold_am (fun a => f i (fst a) (snd a)) s (amats_lods 0 (lods g))) as ((s', ms), [e|]);
      cbn [fst snd] in HL; rewrite <- (map_length snd (amats_lods 0 (lods g))), amats_lods_snd in HL.
    + rewrite amats_snd, put_mats_cons by exact HL. now rewrite put_mats_same.
    + rewrite IH. destruct (fold_am _ s' (amats (Datatypes.S i) t)) as ((s'', ms2), o).
      now rewrite put_mats_cons.
Qed.

Theorem trav_geoms_flat (f : nat -> nat -> nat -> S -> mat F -> S * mat F * option exn) s gs :
  trav_geoms f s gs =
  let '(s', ms, o) := fold_am (fun a => f (fst (fst a)) (snd (fst a)) (snd a)) s (amats 0 gs) in
  (s', put_mats gs ms, o).
Proof. apply trav_geoms_from. Qed.
End Put.
