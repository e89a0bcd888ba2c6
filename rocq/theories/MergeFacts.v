(** canMerge and merge. *)
From Coq Require Import ZArith List Bool Ascii Lia.
From Verif Require Import PyBase Struct Mesh Arith Edit Spec SpecEdit TravFacts VertFacts LayoutFacts.
Import ListNotations.
Open Scope Z_scope.

(** ** Pairwise checks *)
Section Check.
Context {B C : Type} (f : B -> C -> res bool).
Fixpoint check2 (l : list B) (l' : list C) : res bool :=
  match l, l' with
  | [], _ => Ok true
  | x :: t, y :: t' => bind (f x y) (fun b => if b then check2 t t' else Ok false)
  | _ :: _, [] => Raise EIndex
  end.
Lemma check_all_2 l l' : forall pre,
  check_all (fun i x => bind (nth_res (pre ++ l') i) (f x)) (length pre) l = check2 l l'.
Proof.
  revert l'. induction l as [|x t IH]; intros l' pre; simpl; [reflexivity|]. unfold nth_res at 1.
  destruct l' as [|y t'].
  - rewrite (proj2 (nth_error_None _ _)); [reflexivity|]. rewrite app_nil_r. lia.
  - rewrite nth_error_app2, Nat.sub_diag by lia. simpl. destruct (f x y) as [[|]|]; simpl; auto.
    specialize (IH t' (pre ++ [y])). rewrite app_length in IH. simpl in IH. rewrite Nat.add_1_r in IH.
    rewrite <- IH. now rewrite <- app_assoc.
Qed.
Lemma check_all_pair l l' : check_all (fun i x => bind (nth_res l' i) (f x)) 0 l = check2 l l'.
Proof. apply (check_all_2 l l' []). Qed.
Lemma check2_true l l' : length l = length l' -> (check2 l l' = Ok true <-> Forall2 (fun x y => f x y = Ok true) l l').
Proof.
  revert l'. induction l as [|x t IH]; intros [|y t'] H; simpl in *; try discriminate.
  - split; [constructor|reflexivity].
  - specialize (IH t' ltac:(lia)). split.
    + destruct (f x y) as [[|]|] eqn:E; simpl; try discriminate. intros Hc. constructor; [exact E|]. now apply IH.
    + intros Hc. inversion Hc; subst. rewrite H3. simpl. now apply IH.
Qed.
Lemma check2_ok l l' : length l = length l' -> Forall2 (fun x y => exists b, f x y = Ok b) l l' ->
  exists b, check2 l l' = Ok b.
Proof.
  intros _ H. induction H as [|x y t t' (b & E) H IH]; simpl; [eauto|]. rewrite E. simpl. destruct b; eauto.
Qed.
End Check.

Lemma list_eqb_eq {B} (eqb : B -> B -> bool) : (forall x y, eqb x y = true <-> x = y) ->
  forall l l', list_eqb eqb l l' = true <-> l = l'.
Proof.
  intros H. induction l as [|x t IH]; intros [|y t']; simpl; split; try congruence; auto; intros E.
  - apply andb_prop in E. destruct E as (E1 & E2). apply H in E1. apply IH in E2. congruence.
  - injection E as -> ->. apply andb_true_intro. split; [now apply H|now apply IH].
Qed.
Lemma bytes_eqb_eq a b : bytes_eqb a b = true <-> a = b.
Proof. apply list_eqb_eq. apply Ascii.eqb_eq. Qed.
Lemma option_Z_eqb_eq a b : option_Z_eqb a b = true <-> a = b.
Proof. destruct a, b; simpl; split; try congruence; rewrite ?Z.eqb_eq; congruence. Qed.

Section Can.
Context {F : Type}.
Implicit Types (m : mesh F).

Lemma mat_compatible_true (a b : mat F) : mat_compatible a b = Ok true <-> mat_compat a b.
Proof.
  unfold mat_compatible, mat_compat.
  destruct (option_Z_eqb (alphamode a) (alphamode b)) eqn:E1; simpl.
  - apply option_Z_eqb_eq in E1.
    destruct (bytes_eqb (fxfile a) (fxfile b)) eqn:E2; simpl.
    + apply bytes_eqb_eq in E2. destruct (bytes_eqb (technique a) (technique b)) eqn:E3; simpl.
      * apply bytes_eqb_eq in E3. destruct (list_eqb bytes_eqb (maps a) (maps b)) eqn:E4; simpl.
        -- apply (list_eqb_eq bytes_eqb bytes_eqb_eq) in E4. tauto.
        -- split; [discriminate|]. intros (_ & _ & _ & H).
           apply (list_eqb_eq bytes_eqb bytes_eqb_eq) in H. congruence.
      * split; [discriminate|]. intros (_ & _ & H & _). apply bytes_eqb_eq in H. congruence.
    + split; [discriminate|]. intros (_ & H & _). apply bytes_eqb_eq in H. congruence.
  - split; [destruct (alphamode a); discriminate|]. intros (H & _). apply option_Z_eqb_eq in H. congruence.
Qed.

Lemma vertattrib_eqb_eq a b : vertattrib_eqb a b = true <-> a = b.
Proof.
  unfold vertattrib_eqb. rewrite !andb_true_iff, !Z.eqb_eq. destruct a, b. cbn. split.
  - intros (((-> & ->) & ->) & ->). reflexivity.
  - intros H. injection H as -> -> -> ->. auto.
Qed.
Lemma attrib_compatible_true a b : attrib_compatible a b = Ok true <-> a = b.
Proof.
  unfold attrib_compatible. destruct (vertattrib_eqb a b) eqn:E.
  - apply vertattrib_eqb_eq in E. tauto.
  - split; [destruct (vertattrib_str a); discriminate|]. intros H. apply vertattrib_eqb_eq in H. congruence.
Qed.

Lemma Forall2_iff {B C} (P Q : B -> C -> Prop) l l' : (forall x y, P x y <-> Q x y) -> Forall2 P l l' <-> Forall2 Q l l'.
Proof. intros H. split; intros HF; induction HF; constructor; auto; now apply H. Qed.
Lemma Forall2_eq {B} (l l' : list B) : Forall2 eq l l' <-> l = l'.
Proof. split; [induction 1; congruence|intros ->; induction l'; constructor; auto]. Qed.

(** canMerge as nested pairwise checks. *)
Definition guard2 {B C} (f : B -> C -> res bool) (l : list B) (l' : list C) : res bool :=
  if negb (Nat.eqb (length l) (length l')) then Ok false else check2 f l l'.
Lemma guard2_true {B C} (f : B -> C -> res bool) l l' :
  guard2 f l l' = Ok true <-> Forall2 (fun x y => f x y = Ok true) l l'.
Proof.
  unfold guard2. destruct (Nat.eqb_spec (length l) (length l')) as [E|E]; simpl.
  - now apply check2_true.
  - split; [discriminate|]. intros H. apply Forall2_len in H. contradiction.
Qed.
Lemma guard2_ok {B C} (f : B -> C -> res bool) l l' :
  (forall x y, In x l -> In y l' -> exists b, f x y = Ok b) -> exists b, guard2 f l l' = Ok b.
Proof.
  intros H. unfold guard2. destruct (Nat.eqb_spec (length l) (length l')) as [E|E]; simpl; [|eauto].
  apply check2_ok; [exact E|]. revert l' E H. induction l as [|x t IH]; intros [|y t'] E H; try discriminate; constructor.
  - apply H; now left.
  - apply IH; [simpl in E; lia|]. intros. apply H; now right.
Qed.

Lemma check_all_ext {B} (f g : nat -> B -> res bool) : (forall i x, f i x = g i x) ->
  forall l i, check_all f i l = check_all g i l.
Proof. intros H l. induction l as [|x t IH]; intros i; simpl; [reflexivity|]. rewrite H. destruct (g i x) as [[|]|]; simpl; auto. Qed.
Lemma bind_ext {B C} (x : res B) (f g : B -> res C) : (forall y, f y = g y) -> bind x f = bind x g.
Proof. intros H. destruct x; simpl; auto. Qed.

Lemma canMerge_guard (a b : mesh F) : canMerge a b =
  bind (guard2 (fun g h => guard2 (fun l k => guard2 mat_compatible (materials l) (materials k)) (lods g) (lods h))
         (geoms a) (geoms b))
       (fun r => if r then guard2 attrib_compatible (vertex_attributes a) (vertex_attributes b) else Ok false).
Proof.
  unfold canMerge, guard2 at 1. destruct (negb _); [reflexivity|].
  rewrite <- check_all_pair.
  rewrite (check_all_ext _ (fun i x => bind (nth_res (geoms b) i)
     ((fun g h => guard2 (fun l k => guard2 mat_compatible (materials l) (materials k)) (lods g) (lods h)) x))).
  - apply bind_ext. intros [|]; [|reflexivity]. cbn [negb]. unfold guard2. destruct (negb _); [reflexivity|].
    apply (check_all_pair attrib_compatible).
  - intros gi g. apply bind_ext. intros h. unfold guard2 at 1. destruct (negb _); [reflexivity|].
    rewrite <- check_all_pair. apply check_all_ext. intros li l. apply bind_ext. intros k.
    unfold guard2. destruct (negb _); [reflexivity|]. apply (check_all_pair mat_compatible).
Qed.

Theorem canMerge_true (a b : mesh F) : canMerge a b = Ok true <-> compatible a b.
Proof.
  rewrite canMerge_guard. unfold compatible.
  rewrite <- (Forall2_iff (fun g h => guard2 (fun l k => guard2 mat_compatible (materials l) (materials k)) (lods g) (lods h) = Ok true)).
  2:{ intros g h. rewrite guard2_true. apply Forall2_iff. intros l k. rewrite guard2_true. apply Forall2_iff.
      intros. apply mat_compatible_true. }
  rewrite <- guard2_true.
  assert (guard2 attrib_compatible (vertex_attributes a) (vertex_attributes b) = Ok true <->
          vertex_attributes a = vertex_attributes b) as EA.
  { rewrite guard2_true, <- Forall2_eq. apply Forall2_iff. intros. apply attrib_compatible_true. }
  rewrite <- EA. destruct (guard2 _ (geoms a) (geoms b)) as [[|]|]; simpl; split; intros H; try discriminate; try tauto;
    destruct H; congruence.
Qed.

Lemma Forall2_impl' {B C} (P Q : B -> C -> Prop) : (forall x y, P x y -> Q x y) -> forall l l', Forall2 P l l' -> Forall2 Q l l'.
Proof. intros H. induction 1; constructor; auto. Qed.
Lemma Forall2_refl {B} (P : B -> B -> Prop) l : (forall x, P x x) -> Forall2 P l l.
Proof. intros H. induction l; constructor; auto. Qed.
Lemma Forall2_sym {B C} (P : B -> C -> Prop) (Q : C -> B -> Prop) l l' :
  (forall x y, P x y -> Q y x) -> Forall2 P l l' -> Forall2 Q l' l.
Proof. intros H. induction 1; constructor; auto. Qed.
Lemma Forall2_trans {B} (P : B -> B -> Prop) l1 l2 l3 :
  (forall x y z, P x y -> P y z -> P x z) -> Forall2 P l1 l2 -> Forall2 P l2 l3 -> Forall2 P l1 l3.
Proof.
  intros H H1. revert l3. induction H1; intros l3 H2; inversion H2; subst; constructor; eauto.
Qed.

Theorem compatible_refl (a : mesh F) : compatible a a.
Proof. split; [|reflexivity]. apply Forall2_refl. intros g. apply Forall2_refl. intros l. apply Forall2_refl. repeat split. Qed.
Theorem compatible_sym (a b : mesh F) : compatible a b -> compatible b a.
Proof.
  intros (H & E). split; [|congruence]. revert H. apply Forall2_sym. intros g h. apply Forall2_sym. intros l k.
  apply Forall2_sym. intros x y (E1 & E2 & E3 & E4). repeat split; congruence.
Qed.
Theorem compatible_trans (a b c : mesh F) : compatible a b -> compatible b c -> compatible a c.
Proof.
  intros (H1 & E1) (H2 & E2). split; [|congruence]. revert H1 H2. apply Forall2_trans. intros g h i. apply Forall2_trans.
  intros l k j. apply Forall2_trans. intros x y z (A1 & A2 & A3 & A4) (B1 & B2 & B3 & B4). repeat split; congruence.
Qed.

(** When it cannot raise. *)
Lemma known_decodes (a : vertattrib) : known_attrib a -> exists n, decltype_len (vartype a) = Ok n /\ known_usage (usage a) = true.
Proof.
  intros (HT & HU). assert (exists n, decltype_len (vartype a) = Ok n) as (n & E).
  { cbn in HT. repeat (destruct HT as [<-|HT]; [eexists; reflexivity|]). destruct HT. }
  exists n. split; [exact E|]. cbn in HU. repeat (destruct HU as [<-|HU]; [reflexivity|]). destruct HU.
Qed.
Lemma canMerge_total p (a b : mesh F) : wf p a -> wf p b -> isSkinnedMesh (m_kind a) = isSkinnedMesh (m_kind b) ->
  Forall known_attrib (vertex_attributes a) -> exists r, canMerge a b = Ok r.
Proof.
  intros Wa Wb K HA. rewrite canMerge_guard.
  assert (forall x y, In x (mats a) -> In y (mats b) -> exists r, mat_compatible x y = Ok r) as HM.
  { assert (forall m, wf p m -> Forall (fun mt => present (negb (isSkinnedMesh (m_kind m))) (alphamode mt)) (mats m)) as HP.
    { intros m W. unfold wf in W. destruct W as (_ & _ & _ & W & _). unfold mats, mats_of.
      apply Forall_flat_map. eapply Forall_impl; [|exact W]. intros g (_ & Wg). apply Forall_flat_map.
      eapply Forall_impl; [|exact Wg]. intros l (_ & _ & _ & _ & _ & Wl). eapply Forall_impl; [|exact Wl].
      intros mt (H & _). exact H. }
    intros x y Hx Hy. pose proof (HP a Wa) as Pa. pose proof (HP b Wb) as Pb. rewrite Forall_forall in Pa, Pb.
    specialize (Pa x Hx). specialize (Pb y Hy). rewrite <- K in Pb. unfold mat_compatible.
    destruct (option_Z_eqb (alphamode x) (alphamode y)) eqn:E; cbn [negb].
    - repeat (match goal with |- context [negb ?b] => destruct b end; cbn [negb]; [|eauto]). eauto.
    - destruct (alphamode x) eqn:Ex; eauto. unfold present in *. destruct (negb _).
      + destruct Pa; discriminate.
      + rewrite Pb in E. discriminate. }
  destruct (guard2_ok (fun g h => guard2 (fun l k => guard2 mat_compatible (materials l) (materials k)) (lods g) (lods h)) (geoms a) (geoms b)) as (r & ->).
  { intros g h Hg Hh. apply guard2_ok. intros l k Hl Hk. apply guard2_ok. intros x y Hx Hy. apply HM.
    - unfold mats, mats_of. apply in_flat_map. exists g. split; [exact Hg|]. apply in_flat_map. eauto.
    - unfold mats, mats_of. apply in_flat_map. exists h. split; [exact Hh|]. apply in_flat_map. eauto. }
  cbn [bind]. destruct r; [|eauto]. apply guard2_ok. intros x y Hx _. unfold attrib_compatible.
  destruct (vertattrib_eqb x y); eauto. rewrite Forall_forall in HA. destruct (known_decodes x (HA x Hx)) as (n & E & U).
  unfold vertattrib_str. rewrite E. simpl. rewrite U. simpl. eauto.
Qed.
End Can.

(** ** merge *)
Section Merge.
Context {F : Type}.
Implicit Types (m self other : mesh F) (mt om : mat F) (vs : nat).

(** Same nesting. *)
Definition same_shape (gs os : list (geom F)) : Prop :=
  Forall2 (fun g h => Forall2 (fun l k => length (materials l) = length (materials k)) (lods g) (lods h)) gs os.
Lemma compatible_shape self other : compatible self other -> same_shape (geoms self) (geoms other).
Proof.
  intros (H & _). red. induction H as [|g h t t' Hg H IH]; constructor; auto.
  clear -Hg. induction Hg as [|l k t t' Hl H IH]; constructor; auto. now apply Forall2_len in Hl.
Qed.

Definition get_of (os : list (geom F)) (a : nat * nat * nat) : res (mat F) :=
  bind (nth_res os (fst (fst a))) (fun g => bind (nth_res (lods g) (snd (fst a))) (fun l => nth_res (materials l) (snd a))).

Lemma keyed_mats (ms ms' : list (mat F)) : length ms = length ms' -> forall pre,
  map (fun p => (nth_res (pre ++ ms') (fst p), snd p)) (combine (seq (length pre) (length ms)) ms) =
  combine (map Ok ms') ms.
Proof.
  revert ms'. induction ms as [|x t IH]; intros [|y t'] H pre; simpl in *; try discriminate; auto.
  f_equal.
  - unfold nth_res. rewrite nth_error_app2, Nat.sub_diag by lia. reflexivity.
  - specialize (IH t' ltac:(lia) (pre ++ [y])). rewrite app_length in IH. simpl in IH. rewrite Nat.add_1_r in IH.
    rewrite <- IH. now rewrite <- app_assoc.
Qed.

Lemma combine_app {B C} (l1 l2 : list B) (k1 k2 : list C) : length l1 = length k1 ->
  combine (l1 ++ l2) (k1 ++ k2) = combine l1 k1 ++ combine l2 k2.
Proof. revert k1. induction l1; intros [|y k1] H; simpl in *; try discriminate; auto. f_equal. auto. Qed.

Lemma lods_mats_len (ls ks : list (lod F)) : Forall2 (fun l k => length (materials l) = length (materials k)) ls ks ->
  length (lods_mats ls) = length (lods_mats ks).
Proof. unfold lods_mats. induction 1 as [|l k t t' E H IH]; simpl; [reflexivity|]. rewrite !app_length, IH, E. reflexivity. Qed.

Lemma keyed_lods (ls ks : list (lod F)) : Forall2 (fun l k => length (materials l) = length (materials k)) ls ks ->
  forall pre,
  map (fun p => (bind (nth_res (pre ++ ks) (fst (fst p))) (fun l => nth_res (materials l) (snd (fst p))), snd p))
      (amats_lods (length pre) ls) = combine (map Ok (lods_mats ks)) (lods_mats ls).
Proof.
  induction 1 as [|l k t t' E H IH]; intros pre; simpl; [reflexivity|].
  rewrite map_app, map_map. cbn [fst snd]. unfold lods_mats in *. simpl. rewrite map_app.
  rewrite combine_app by (rewrite map_length; lia). f_equal.
  - rewrite <- (keyed_mats (materials l) (materials k) E []). simpl. apply map_ext. intros (i, x). simpl.
    unfold nth_res at 1. rewrite nth_error_app2, Nat.sub_diag by lia. reflexivity.
  - specialize (IH (pre ++ [k])). rewrite app_length in IH. simpl in IH. rewrite Nat.add_1_r in IH.
    rewrite <- IH. now rewrite <- app_assoc.
Qed.

Lemma keyed_geoms gs os : same_shape gs os -> forall pre,
  map (fun p => (get_of (pre ++ os) (fst p), snd p)) (amats (length pre) gs) = combine (map Ok (mats_of os)) (mats_of gs).
Proof.
  induction 1 as [|g h t t' E H IH]; intros pre; simpl; [reflexivity|].
  change (flat_map (fun g => flat_map materials (lods g)) t) with (mats_of t).
  change (flat_map (fun g => flat_map materials (lods g)) t') with (mats_of t').
  change (flat_map materials (lods g)) with (lods_mats (lods g)). change (flat_map materials (lods h)) with (lods_mats (lods h)).
  rewrite map_app, map_map. cbn [fst snd]. rewrite map_app.
  rewrite combine_app by (rewrite map_length; symmetry; now apply lods_mats_len). f_equal.
  - rewrite <- (keyed_lods (lods g) (lods h) E []). simpl. apply map_ext. intros ((li, mi), x). unfold get_of. cbn [fst snd].
    unfold nth_res at 1. rewrite nth_error_app2, Nat.sub_diag by lia. reflexivity.
  - specialize (IH (pre ++ [h])). rewrite app_length in IH. simpl in IH. rewrite Nat.add_1_r in IH.
    rewrite <- IH. now rewrite <- app_assoc.
Qed.

Lemma same_shape_refl gs : same_shape gs gs.
Proof. apply Forall2_refl. intros g. now apply Forall2_refl. Qed.
Lemma same_shape_mats gs os : same_shape gs os -> length (mats_of gs) = length (mats_of os).
Proof.
  unfold mats_of. induction 1 as [|g h t t' E H IH]; simpl; [reflexivity|]. rewrite !app_length, IH.
  f_equal. now apply lods_mats_len.
Qed.

(** The loop of merge over pairs of materials (other's, self's). *)
Definition merge_loop self other := fold_am (fun o s x => merge_mat self other o s x).
Lemma merge_with_loop self other : same_shape (geoms self) (geoms other) ->
  trav_geoms (fun gi li mi s x => merge_mat self other (get_mat other gi li mi) s x) merge_state0 (geoms self) =
  let '(s, ms, o) := merge_loop self other merge_state0 (combine (map Ok (mats other)) (mats self)) in
  (s, put_mats (geoms self) ms, o).
Proof.
  intros H. rewrite trav_geoms_flat. unfold merge_loop, mats.
  rewrite <- (keyed_geoms _ _ H []). cbn [app length]. rewrite fold_am_map. reflexivity.
Qed.

(** merging with itself *)
Lemma fold_am_rel {K K' B S} (f : K -> S -> B -> S * B * option exn) (g : K' -> S -> B -> S * B * option exn) l l' :
  Forall2 (fun p q => snd p = snd q /\ forall s, f (fst p) s (snd p) = g (fst q) s (snd q)) l l' ->
  forall s, fold_am f s l = fold_am g s l'.
Proof.
  induction 1 as [|(k, x) (k', x') t t' (E & H) HF IH]; intros s; simpl; [reflexivity|]. simpl in E, H. subst x'.
  rewrite H. destruct (g k' s x) as ((s', y), [e|]).
  - f_equal. f_equal. f_equal. clear -HF. induction HF as [|p q t t' (E & _) HF IH]; simpl; congruence.
  - now rewrite IH.
Qed.

Theorem merge_self_copy m : merge_self m = merge m m.
Proof.
  unfold merge_self, merge. destruct (canMerge m m) as [[|]|]; try reflexivity. unfold merge_with.
  rewrite merge_with_loop by apply same_shape_refl. rewrite trav_geoms_flat. unfold merge_loop.
  rewrite (fold_am_rel (fun a s x => merge_mat m m (Ok x) s x) (fun o s x => merge_mat m m o s x)
             (amats 0 (geoms m)) (combine (map Ok (mats m)) (mats m))).
  - reflexivity.
  - unfold mats. rewrite <- (amats_snd 0). induction (amats 0 (geoms m)) as [|(k, x) t IH]; simpl; constructor; auto.
Qed.

(** One material. *)
Definition fits mt om other : bool := forallb (fun i => i + vnum mt <=? 65535) (mat_indices other om).
Definition step_state vs self other s mt om : merge_state :=
  {| ms_verts := ms_verts s ++ concat (mat_vertices vs self mt ++ mat_vertices vs other om);
     ms_index := ms_index s ++ mat_indices self mt ++ map (fun i => i + vnum mt) (mat_indices other om);
     ms_vstart := ms_vstart s + (vnum mt + vnum om); ms_istart := ms_istart s + (inum mt + inum om);
     ms_vertnum := ms_vertnum s + (vnum mt + vnum om); ms_indexnum := ms_indexnum s + (inum mt + inum om) |}.
Definition step_mat s mt om : mat F :=
  set_mat_layout mt (@ms_vstart F s) (ms_istart s) (inum mt + inum om) (vnum mt + vnum om).

Lemma skipn_cons {B} (l : list B) : forall n x, nth_error l n = Some x -> skipn n l = x :: skipn (S n) l.
Proof.
  induction l as [|y t IH]; intros [|n] x H; simpl in *; try discriminate.
  - congruence.
  - exact (IH n x H).
Qed.

Lemma merge_indices_spec l start shift n : 0 <= start -> 0 <= n -> start + n <= zlen l -> forall acc,
  merge_indices (Tuple l) start shift (zrange n) acc =
  (let sl := firstn (Z.to_nat n) (skipn (Z.to_nat start) l) in
   if forallb (fun i => i + shift <=? 65535) sl then Ok (acc ++ map (fun i => i + shift) sl) else Raise EOverflow).
Proof.
  intros Hs Hn H. unfold zrange.
  assert (forall k j acc, (Z.to_nat start + j + k <= length l)%nat ->
    merge_indices (Tuple l) start shift (map Z.of_nat (seq j k)) acc =
    (let sl := firstn k (skipn (Z.to_nat start + j) l) in
     if forallb (fun i => i + shift <=? 65535) sl then Ok (acc ++ map (fun i => i + shift) sl) else Raise EOverflow)) as G.
  { induction k as [|k IH]; intros j acc Hk; simpl; [now rewrite app_nil_r|].
    destruct (py_get_in l (start + Z.of_nat j)) as (x & Ex & Gx); [unfold zlen; lia|]. rewrite Gx. cbn [bind].
    replace (Z.to_nat (start + Z.of_nat j)) with (Z.to_nat start + j)%nat in Ex by lia.
    assert (skipn (Z.to_nat start + j) l = x :: skipn (Z.to_nat start + S j) l) as ES.
    { rewrite Nat.add_succ_r. now apply skipn_cons. }
    rewrite ES. cbn [firstn forallb map]. rewrite Z.gtb_ltb. 
    destruct (Z.ltb_spec 65535 (x + shift)) as [Hx|Hx]; destruct (Z.leb_spec (x + shift) 65535); try lia; cbn [andb].
    - reflexivity.
    - rewrite IH by lia. cbn zeta. destruct (forallb _ _); [|reflexivity]. now rewrite <- app_assoc. }
  intros acc. rewrite G by (unfold zlen in H; lia). now rewrite Nat.add_0_r.
Qed.

Lemma merge_step vs self other s mt om : vertex_size self = Ok (Z.of_nat vs) -> vertex_size other = Ok (Z.of_nat vs) ->
  has_tuple self -> has_tuple other -> mat_in vs self mt -> mat_in vs other om ->
  merge_mat self other (Ok om) s mt =
  if fits mt om other then (step_state vs self other s mt om, step_mat s mt om, None) else (s, mt, Some EOverflow).
Proof.
  intros Hs Ho (l & El) (lo & Elo) Hm Hom. unfold merge_mat. rewrite Hs. cbn [bind].
  replace (Z.of_nat vs * vnum mt) with (vnum mt * Z.of_nat vs) by lia. rewrite mat_slice by now apply mat_in_vin.
  rewrite El. cbn [index_slice bind]. rewrite Ho. cbn [bind].
  replace (Z.of_nat vs * vnum om) with (vnum om * Z.of_nat vs) by lia. rewrite mat_slice by now apply mat_in_vin.
  destruct Hm as (V1 & V2 & V3 & I1 & I2 & I3), Hom as (W1 & W2 & W3 & J1 & J2 & J3).
  unfold index_list in I3, J3. rewrite El in I3. rewrite Elo in J3.
  rewrite py_slice_in by assumption. rewrite Elo, merge_indices_spec by assumption. cbn zeta.
  unfold fits. replace (mat_indices other om) with (firstn (Z.to_nat (inum om)) (skipn (Z.to_nat (istart om)) lo))
    by (unfold mat_indices, index_list; now rewrite Elo).
  destruct (forallb _ _); [|reflexivity]. cbn [bind]. unfold step_state, step_mat. f_equal. f_equal. f_equal.
  - rewrite concat_app, <- !vdata_blocks, app_assoc. reflexivity.
  - unfold mat_indices, index_list. rewrite El, Elo, <- app_assoc. reflexivity.
Qed.

(** The whole loop. *)
Definition merged_part vs self other (p : mat F * mat F) : list (list F) * list Z :=
  let '(om, mt) := p in
  (mat_vertices vs self mt ++ mat_vertices vs other om,
   mat_indices self mt ++ map (fun i => i + vnum mt) (mat_indices other om)).

Fixpoint merged_mats (a b : Z) (ps : list (mat F * mat F)) : list (mat F) :=
  match ps with
  | [] => []
  | (om, mt) :: t =>
      set_mat_layout mt a b (inum mt + inum om) (vnum mt + vnum om) ::
      merged_mats (a + (vnum mt + vnum om)) (b + (inum mt + inum om)) t
  end.
Definition sum_v (ps : list (mat F * mat F)) : Z := sumZ (fun p => vnum (snd p) + vnum (fst p)) ps.
Definition sum_i (ps : list (mat F * mat F)) : Z := sumZ (fun p => inum (snd p) + inum (fst p)) ps.

Lemma merge_loop_spec vs self other : vertex_size self = Ok (Z.of_nat vs) -> vertex_size other = Ok (Z.of_nat vs) ->
  has_tuple self -> has_tuple other ->
  forall ps s, Forall (fun p => mat_in vs other (fst p) /\ mat_in vs self (snd p)) ps ->
  match merge_loop self other s (map (fun p => (Ok (fst p), snd p)) ps) with
  | (s', ms, None) =>
      forallb (fun p => fits (snd p) (fst p) other) ps = true /\
      ms = merged_mats (ms_vstart s) (ms_istart s) ps /\
      s' = {| ms_verts := ms_verts s ++ concat (flat_map (fun p => fst (merged_part vs self other p)) ps);
              ms_index := ms_index s ++ flat_map (fun p => snd (merged_part vs self other p)) ps;
              ms_vstart := ms_vstart s + sum_v ps; ms_istart := ms_istart s + sum_i ps;
              ms_vertnum := ms_vertnum s + sum_v ps; ms_indexnum := ms_indexnum s + sum_i ps |}
  | (_, ms, Some e) => e = EOverflow /\ forallb (fun p => fits (snd p) (fst p) other) ps = false /\
      map uncounted ms = map uncounted (map snd ps)
  end.
Proof.
  intros Hs Ho T1 T2. induction ps as [|(om, mt) ps IH]; intros s H.
  - simpl. split; [reflexivity|]. split; [reflexivity|]. unfold sum_v, sum_i. simpl. rewrite !app_nil_r, !Z.add_0_r. now destruct s.
  - inversion H as [|? ? (H1 & H2) H']; subst. cbn [fst snd] in H1, H2. cbn [map merge_loop fold_am fst snd forallb].
    rewrite (merge_step vs) by assumption. destruct (fits mt om other) eqn:EF; cbn [andb].
    + specialize (IH (step_state vs self other s mt om) H').
      destruct (merge_loop _ _ _ (map _ ps)) as ((s', ms), [e|]).
      * destruct IH as (E1 & E2 & E3). split; [exact E1|]. split; [exact E2|]. cbn [map]. rewrite E3. reflexivity.
      * destruct IH as (E1 & E2 & E3). split; [exact E1|]. split.
        -- rewrite E2. reflexivity.
        -- rewrite E3. unfold step_state, sum_v, sum_i. cbn [ms_verts ms_index ms_vstart ms_istart ms_vertnum ms_indexnum flat_map merged_part fst snd sumZ].
           rewrite !concat_app, <- !app_assoc, !Z.add_assoc. reflexivity.
    + split; [reflexivity|]. split; [reflexivity|]. cbn [map snd]. f_equal. rewrite !map_map. reflexivity.
Qed.

(** In terms of what each material owns. *)
Definition parts vs m : list (list (list F) * list Z) := map (data vs m) (mats m).
Definition join (p q : list (list F) * list Z) : list (list F) * list Z :=
  (fst p ++ fst q, snd p ++ map (fun i => i + zlen (fst p)) (snd q)).
Definition zip_join (l l' : list (list (list F) * list Z)) := map (fun p => join (fst p) (snd p)) (combine l l').
Definition clears (p q : list (list F) * list Z) : Prop := Forall (fun i => i + zlen (fst p) <= 65535) (snd q).

Record built vs self other m' : Prop := {
  b_laid : laid 0 0 (mats m') (zip_join (parts vs self) (parts vs other));
  b_verts : vertices m' = concat (all_v (zip_join (parts vs self) (parts vs other)));
  b_index : index m' = Tuple (all_i (zip_join (parts vs self) (parts vs other)));
  b_vnum : vertnum m' = zlen (all_v (zip_join (parts vs self) (parts vs other)));
  b_inum : indexnum m' = zlen (all_i (zip_join (parts vs self) (parts vs other)));
  b_head : same_header self m';
  b_geoms : map (geom_mats uncounted) (geoms m') = map (geom_mats uncounted) (geoms self) }.

Lemma mat_vertices_zlen vs m mt : mat_in vs m mt -> zlen (mat_vertices vs m mt) = vnum mt.
Proof. intros H. unfold zlen, mat_vertices. rewrite map_length, seq_length. destruct H. lia. Qed.
Lemma mat_indices_zlen vs m mt : mat_in vs m mt -> zlen (mat_indices m mt) = inum mt.
Proof.
  intros (_ & _ & _ & H1 & H2 & H3). unfold zlen, mat_indices in *. rewrite firstn_length, skipn_length. lia.
Qed.
Lemma zlen_app {B} (l l' : list B) : zlen (l ++ l') = zlen l + zlen l'.
Proof. unfold zlen. rewrite app_length. lia. Qed.
Lemma zlen_map {B C} (f : B -> C) l : zlen (map f l) = zlen l.
Proof. unfold zlen. now rewrite map_length. Qed.

Lemma combine_map2 {B B' C C'} (f : B -> B') (g : C -> C') l l' :
  combine (map f l) (map g l') = map (fun p => (f (fst p), g (snd p))) (combine l l').
Proof. revert l'. induction l; intros [|y l']; simpl; auto. f_equal. auto. Qed.
Lemma combine_swap {B C} (l : list B) (l' : list C) : combine l l' = map (fun p => (snd p, fst p)) (combine l' l).
Proof. revert l'. induction l; intros [|y l']; simpl; auto. f_equal. auto. Qed.

Lemma zip_parts vs self other : in_range vs self -> length (mats self) = length (mats other) ->
  zip_join (parts vs self) (parts vs other) = map (merged_part vs self other) (combine (mats other) (mats self)).
Proof.
  intros (_ & H) _. unfold zip_join, parts. rewrite combine_map2, combine_swap, !map_map. apply map_ext_in.
  intros (om, mt) Hin. unfold join, merged_part, data. cbn [fst snd]. rewrite mat_vertices_zlen; [reflexivity|].
  rewrite Forall_forall in H. apply H. now apply in_combine_r in Hin.
Qed.

Lemma merged_laid vs self other : forall ps a b, Forall (fun p => mat_in vs other (fst p) /\ mat_in vs self (snd p)) ps ->
  laid a b (merged_mats a b ps) (map (merged_part vs self other) ps) /\
  zlen (all_v (map (merged_part vs self other) ps)) = sum_v ps /\
  zlen (all_i (map (merged_part vs self other) ps)) = sum_i ps.
Proof.
  induction ps as [|(om, mt) ps IH]; intros a b H; [now repeat split|].
  inversion H as [|? ? (H1 & H2) H']; subst. cbn [fst snd] in *.
  destruct (IH (a + (vnum mt + vnum om)) (b + (inum mt + inum om)) H') as (L & E1 & E2).
  cbn [map merged_mats laid merged_part]. unfold all_v, all_i, sum_v, sum_i in *. cbn [flat_map fst snd sumZ].
  rewrite !zlen_app, E1, E2, zlen_map, !(mat_vertices_zlen vs), !(mat_indices_zlen vs) by assumption.
  repeat split; assumption.
Qed.

Lemma merged_uncounted : forall ps a b, map uncounted (merged_mats a b ps) = map uncounted (map snd ps).
Proof. induction ps as [|(om, mt) ps IH]; intros a b; simpl; [reflexivity|]. rewrite IH. reflexivity. Qed.

Lemma clears_fits vs self other ps : Forall (fun p => mat_in vs other (fst p) /\ mat_in vs self (snd p)) ps ->
  forallb (fun p => fits (snd p) (fst p) other) ps = true <->
  Forall (fun p => clears (data vs self (snd p)) (data vs other (fst p))) ps.
Proof.
  intros H. rewrite forallb_forall, Forall_forall. rewrite Forall_forall in H. unfold clears, fits, data. cbn [fst snd].
  split; intros G p Hp; specialize (G p Hp); specialize (H p Hp); destruct H as (_ & H).
  - rewrite (mat_vertices_zlen vs) by exact H. rewrite forallb_forall in G. apply Forall_forall. intros i Hi.
    apply Z.leb_le. auto.
  - rewrite (mat_vertices_zlen vs) in G by exact H. rewrite Forall_forall in G. apply forallb_forall. intros i Hi.
    apply Z.leb_le. auto.
Qed.

Lemma Forall_combine {B C} (P : B -> C -> Prop) l l' : length l = length l' ->
  (Forall (fun p => P (snd p) (fst p)) (combine l' l) <-> Forall2 P l l').
Proof.
  revert l'. induction l as [|x t IH]; intros [|y t'] H; simpl in *; try discriminate.
  - split; constructor.
  - split; intros G; inversion G; subst; constructor; try assumption; apply IH; auto.
Qed.

Lemma Forall2_map2 {B B' C C'} (f : B -> B') (g : C -> C') (P : B' -> C' -> Prop) l l' :
  Forall2 P (map f l) (map g l') <-> Forall2 (fun x y => P (f x) (g y)) l l'.
Proof.
  revert l'. induction l as [|x t IH]; intros [|y t']; simpl; split; intros H; inversion H; subst; constructor; auto; now apply IH.
Qed.

Lemma map_snd_comb {B C} (l : list B) (l' : list C) : length l = length l' -> map snd (combine l l') = l'.
Proof. apply map_snd_combine. Qed.

(** Everything about merge of compatible meshes. *)
Theorem merge_cases vs self other : compatible self other -> vertex_size self = Ok (Z.of_nat vs) ->
  in_range vs self -> in_range vs other ->
  (Forall2 clears (parts vs self) (parts vs other) /\ exists m', merge self other = (m', Merged) /\ built vs self other m') \/
  (~ Forall2 clears (parts vs self) (parts vs other) /\ exists m', merge self other = (m', MergeRaised EOverflow) /\
     same_header self m' /\ same_counts self m' /\ vertices m' = vertices self /\ index m' = index self /\
     map (geom_mats uncounted) (geoms m') = map (geom_mats uncounted) (geoms self)).
Proof.
  intros HC Hs R1 R2. pose proof (compatible_shape _ _ HC) as SH. pose proof (same_shape_mats _ _ SH) as EL.
  fold (mats self) in EL. fold (mats other) in EL.
  assert (vertex_size other = Ok (Z.of_nat vs)) as Ho by (unfold vertex_size in *; destruct HC as (_ & <-); exact Hs).
  pose proof (zip_parts vs self other R1 EL) as EZ.
  set (ps := combine (mats other) (mats self)) in *.
  assert (map snd ps = mats self) as ES by (apply map_snd_combine; congruence).
  assert (Forall (fun p => mat_in vs other (fst p) /\ mat_in vs self (snd p)) ps) as HP.
  { apply Forall_forall. intros (om, mt) Hin. destruct R1 as (_ & R1), R2 as (_ & R2). rewrite Forall_forall in R1, R2.
    split; [apply R2|apply R1]; [apply in_combine_l in Hin|apply in_combine_r in Hin]; exact Hin. }
  assert (Forall2 clears (parts vs self) (parts vs other) <-> forallb (fun p => fits (snd p) (fst p) other) ps = true) as EC.
  { rewrite (clears_fits vs self other) by exact HP. unfold parts. rewrite Forall2_map2. symmetry.
    apply (Forall_combine (fun x y => clears (data vs self x) (data vs other y))). exact EL. }
  rewrite EC. pose proof (merge_loop_spec vs self other Hs Ho (proj1 R1) (proj1 R2) ps merge_state0 HP) as ML.
  unfold merge. rewrite (proj2 (canMerge_true _ _) HC). unfold merge_with. rewrite (merge_with_loop _ _ SH).
  assert (combine (map Ok (mats other)) (mats self) = map (fun p => (Ok (fst p), snd p)) ps) as EP.
  { unfold ps. rewrite <- (map_id (mats self)) at 1. apply (combine_map2 Ok (fun x => x)). }
  rewrite EP. destruct (merge_loop self other merge_state0 _) as ((s', ms), [e|]) eqn:EM.
  - destruct ML as (-> & E2 & E3). right. split; [congruence|]. eexists. split; [reflexivity|].
    rewrite ES in E3. repeat split. cbn [geoms set_geoms]. apply put_mats_map; [|exact E3].
    apply (f_equal (@length _)) in E3. rewrite !map_length in E3. exact E3.
  - destruct ML as (E1 & -> & ->). left. split; [exact E1|]. destruct R1 as ((l & El) & R1). rewrite El.
    eexists. split; [reflexivity|].
    destruct (merged_laid vs self other ps 0 0 HP) as (L & LV & LI).
    assert (length (merged_mats 0 0 ps) = length (mats self)) as ELm.
    { pose proof (merged_uncounted ps 0 0) as E. rewrite ES in E. apply (f_equal (@length _)) in E. rewrite !map_length in E. exact E. }
    split; rewrite ?EZ; cbn [merge_state0 ms_verts ms_index ms_vstart ms_istart ms_vertnum ms_indexnum app].
    + unfold mats. cbn [geoms set_counts set_index set_vertices set_geoms]. rewrite mats_put by exact ELm. exact L.
    + cbn [vertices set_counts set_index set_vertices set_geoms]. unfold all_v. rewrite !flat_map_concat_map, map_map. reflexivity.
    + cbn [index set_counts set_index set_vertices set_geoms]. unfold all_i. rewrite !flat_map_concat_map, map_map. reflexivity.
    + cbn [vertnum set_counts set_index set_vertices set_geoms]. rewrite LV. lia.
    + cbn [indexnum set_counts set_index set_vertices set_geoms]. rewrite LI. lia.
    + repeat split.
    + cbn [geoms set_counts set_index set_vertices set_geoms]. apply put_mats_map; [exact ELm|].
      rewrite merged_uncounted, ES. reflexivity.
Qed.

(** A merge that succeeds. *)
Theorem merged_built vs self other m' : vertex_size self = Ok (Z.of_nat vs) -> in_range vs self -> in_range vs other ->
  merge self other = (m', Merged) ->
  compatible self other /\ Forall2 clears (parts vs self) (parts vs other) /\ built vs self other m'.
Proof.
  intros Hs R1 R2 H. assert (compatible self other) as HC.
  { apply canMerge_true. unfold merge in H. destruct (canMerge self other) as [[|]|]; [reflexivity| |]; discriminate. }
  split; [exact HC|]. destruct (merge_cases vs self other HC Hs R1 R2) as [(C & m1 & E & B)|(C & m1 & E & _)];
    rewrite E in H; inversion H; subst; auto.
Qed.

Lemma part_lengths vs m : in_range vs m -> Forall (Forall (fun v => length v = vs)) (map fst (parts vs m)).
Proof.
  intros (_ & H). unfold parts. rewrite map_map. apply Forall_map. eapply Forall_impl; [|exact H].
  intros mt Hm. apply mat_in_vin in Hm. now apply mat_vertices_length in Hm.
Qed.
End Merge.

Section MergeThms.
Context {F : Type}.
Implicit Types (self other m a b c : mesh F) (vs : nat).

Lemma nth_combine {B C} (l : list B) (l' : list C) k :
  nth_error (combine l l') k = match nth_error l k, nth_error l' k with Some x, Some y => Some (x, y) | _, _ => None end.
Proof.
  revert l' k. induction l as [|x t IH]; intros [|y t'] [|k]; simpl; auto.
  - now destruct (nth_error t k).
Qed.

Lemma join_lengths vs (l l' : list (list (list F) * list Z)) :
  Forall (Forall (fun v => length v = vs)) (map fst l) -> Forall (Forall (fun v => length v = vs)) (map fst l') ->
  Forall (Forall (fun v => length v = vs)) (map fst (zip_join l l')).
Proof.
  intros H H'. unfold zip_join. rewrite map_map. apply Forall_map. apply Forall_forall. intros (p, q) Hin. cbn [fst snd join].
  rewrite Forall_map, Forall_forall in H, H'. apply Forall_app. split.
  - apply H. now apply in_combine_l in Hin.
  - apply H'. now apply in_combine_r in Hin.
Qed.

Lemma built_packed vs self other m' : in_range vs self -> in_range vs other -> built vs self other m' ->
  packed vs m' /\ Forall2 (fun mt p => data vs m' mt = p) (mats m') (zip_join (parts vs self) (parts vs other)).
Proof.
  intros R1 R2 B. apply laid_packed; try apply B. apply join_lengths; now apply part_lengths.
Qed.

Lemma packed_in_range vs m : packed vs m -> in_range vs m.
Proof.
  intros (TV & l & El & TI). split; [now exists l|]. pose proof (tiled_vin vs m TV) as H. apply tiles_in in TI.
  rewrite Forall_map in TI. cbn [fst snd] in TI. rewrite Forall_forall in *. intros mt Hm.
  destruct (H mt Hm) as (H1 & H2 & H3). destruct (TI mt Hm) as (H4 & H5 & H6). repeat split; auto.
  unfold index_list. now rewrite El.
Qed.

Lemma built_parts vs self other m' : in_range vs self -> in_range vs other -> built vs self other m' ->
  in_range vs m' /\ parts vs m' = zip_join (parts vs self) (parts vs other).
Proof.
  intros R1 R2 B. destruct (built_packed vs self other m' R1 R2 B) as (P & D). split; [now apply packed_in_range|].
  unfold parts at 1. clear -D. induction D; simpl; f_equal; auto.
Qed.

(** Position by position. *)
Theorem merged_nth vs self other m' : vertex_size self = Ok (Z.of_nat vs) -> in_range vs self -> in_range vs other ->
  merge self other = (m', Merged) ->
  length (mats other) = length (mats self) /\ length (mats m') = length (mats self) /\
  forall k x y z, nth_error (mats self) k = Some x -> nth_error (mats other) k = Some y -> nth_error (mats m') k = Some z ->
    vnum z = vnum x + vnum y /\ inum z = inum x + inum y /\
    mat_vertices vs m' z = mat_vertices vs self x ++ mat_vertices vs other y /\
    mat_indices m' z = mat_indices self x ++ map (fun i => i + vnum x) (mat_indices other y).
Proof.
  intros Hs R1 R2 H. destruct (merged_built vs self other m' Hs R1 R2 H) as (HC & C & B).
  destruct (built_parts vs self other m' R1 R2 B) as (R & EP).
  assert (length (mats other) = length (mats self)) as EL.
  { apply Forall2_len in C. unfold parts in C. rewrite !map_length in C. congruence. }
  split; [exact EL|]. split.
  { apply (f_equal (@length _)) in EP. unfold zip_join, parts in EP. rewrite !map_length, combine_length, !map_length in EP. lia. }
  intros k x y z Hx Hy Hz. apply (f_equal (fun l => nth_error l k)) in EP. unfold zip_join, parts in EP.
  rewrite nth_error_map, Hz, nth_error_map, nth_combine, !nth_error_map, Hx, Hy in EP. cbn [option_map] in EP.
  injection EP as E1 E2. cbn [fst snd] in E1, E2.
  destruct R1 as (_ & R1), R2 as (_ & R2), R as (_ & R). rewrite Forall_forall in R1, R2, R.
  apply nth_error_In in Hx. apply nth_error_In in Hy. apply nth_error_In in Hz.
  specialize (R1 x Hx). specialize (R2 y Hy). specialize (R z Hz). unfold data in E1, E2. cbn [fst snd] in E1, E2.
  rewrite (mat_vertices_zlen vs) in E2 by exact R1. split; [|split; [|split; assumption]].
  - rewrite <- (mat_vertices_zlen vs m' z R), E1, zlen_app, !(mat_vertices_zlen vs) by assumption. reflexivity.
  - rewrite <- (mat_indices_zlen vs m' z R), E2, zlen_app, zlen_map, !(mat_indices_zlen vs) by assumption. reflexivity.
Qed.

Lemma corner_left vs m mt i l : mat_in vs m mt -> 0 <= i < vnum mt ->
  nth_error (mat_vertices vs m mt ++ l) (Z.to_nat i) = nth_error (mat_vertices vs m mt) (Z.to_nat i).
Proof. intros H Hi. apply nth_error_app1. pose proof (mat_vertices_zlen vs m mt H). unfold zlen in *. lia. Qed.

Theorem merge_corners vs self other m' : vertex_size self = Ok (Z.of_nat vs) -> in_range vs self -> in_range vs other ->
  closed self -> Forall (fun y => Forall (fun i => 0 <= i) (mat_indices other y)) (mats other) ->
  merge self other = (m', Merged) ->
  length (mats other) = length (mats self) /\ length (mats m') = length (mats self) /\
  forall k x y z, nth_error (mats self) k = Some x -> nth_error (mats other) k = Some y -> nth_error (mats m') k = Some z ->
    corners vs m' z = corners vs self x ++ corners vs other y.
Proof.
  intros Hs R1 R2 CL PO H. destruct (merged_nth vs self other m' Hs R1 R2 H) as (E1 & E2 & N).
  split; [exact E1|]. split; [exact E2|]. intros k x y z Hx Hy Hz. destruct (N k x y z Hx Hy Hz) as (V & I & EV & EI).
  unfold corners. rewrite EI, map_app, map_map.
  apply nth_error_In in Hx. apply nth_error_In in Hy. destruct R1 as (_ & R1). unfold closed in CL. rewrite Forall_forall in R1, CL, PO.
  specialize (R1 x Hx). specialize (CL x Hx). specialize (PO y Hy). unfold mat_closed in CL. rewrite Forall_forall in CL, PO.
  f_equal.
  - apply map_ext_in. intros i Hi. specialize (CL i Hi). unfold corner. destruct (Z.ltb_spec i 0); [lia|].
    rewrite EV. now apply corner_left.
  - apply map_ext_in. intros i Hi. specialize (PO i Hi). unfold corner.
    assert (0 <= vnum x) by apply R1. destruct (Z.ltb_spec (i + vnum x) 0); [lia|]. destruct (Z.ltb_spec i 0); [lia|].
    rewrite EV. pose proof (mat_vertices_zlen vs self x R1) as L. unfold zlen in L.
    rewrite nth_error_app2 by lia. f_equal. lia.
Qed.

Lemma nth_from_mats (l l' : list (mat F)) k z : length l = length l' -> nth_error l k = Some z -> exists x, nth_error l' k = Some x.
Proof.
  intros E H. destruct (nth_error l' k) eqn:E'; [eauto|]. apply nth_error_None in E'.
  assert (k < length l)%nat by (apply nth_error_Some; congruence). lia.
Qed.

Theorem merge_tables vs self other m' : vertex_size self = Ok (Z.of_nat vs) -> in_range vs self -> in_range vs other ->
  merge self other = (m', Merged) ->
  packed vs m' /\ same_header self m' /\ map (geom_mats uncounted) (geoms m') = map (geom_mats uncounted) (geoms self) /\
  zlen (vertices m') = vertnum m' * Z.of_nat vs /\ indexnum m' = zlen (index_list m') /\
  vertnum m' = sumZ vnum (mats m') /\ indexnum m' = sumZ inum (mats m') /\
  (closed self -> closed other -> closed m') /\
  (forall lo, Forall (fun i => lo <= i <= 65535) (index_list self) -> 
              Forall (fun i => lo <= i) (index_list other) -> Forall (fun i => lo <= i <= 65535) (index_list m')).
Proof.
  intros Hs R1 R2 H. destruct (merged_built vs self other m' Hs R1 R2 H) as (HC & C & B).
  destruct (built_packed vs self other m' R1 R2 B) as (P & D).
  pose proof (packed_in_range vs m' P) as R. pose proof (merged_nth vs self other m' Hs R1 R2 H) as (E1 & E2 & N).
  split; [exact P|]. split; [apply B|]. split; [apply B|].
  assert (forall l (ps : list (list (list F) * list Z)) u v, laid u v l ps ->
            zlen (all_v ps) = sumZ vnum l /\ zlen (all_i ps) = sumZ inum l) as LS.
  { induction l as [|mt l IH]; intros [|(vl, il) ps] u v L; simpl in L; try contradiction; [now split|].
    destruct L as (_ & _ & EV & EI & L). destruct (IH _ _ _ L) as (A1 & A2). unfold all_v, all_i in *. simpl.
    rewrite !zlen_app. lia. }
  destruct (LS _ _ _ _ (b_laid _ _ _ _ B)) as (S1 & S2).
  repeat split.
  - rewrite (b_verts _ _ _ _ B), (b_vnum _ _ _ _ B). apply concat_len. apply parts_lengths. apply join_lengths; now apply part_lengths.
  - unfold index_list. rewrite (b_index _ _ _ _ B). apply B.
  - now rewrite (b_vnum _ _ _ _ B).
  - now rewrite (b_inum _ _ _ _ B).
  - intros C1 C2. apply Forall_forall. intros z Hz. apply In_nth_error in Hz. destruct Hz as (k & Hz).
    destruct (nth_from_mats (mats m') (mats self) k z E2 Hz) as (x & Hx).
    destruct (nth_from_mats (mats m') (mats other) k z (eq_trans E2 (eq_sym E1)) Hz) as (y & Hy).
    destruct (N k x y z Hx Hy Hz) as (V & I & EV & EI). unfold mat_closed. rewrite EI, V.
    apply nth_error_In in Hx. apply nth_error_In in Hy. unfold closed in *.
    destruct R1 as (_ & R1), R2 as (_ & R2). rewrite Forall_forall in *.
    specialize (C1 x Hx). specialize (C2 y Hy). specialize (R1 x Hx). specialize (R2 y Hy). unfold mat_closed in C1, C2.
    rewrite Forall_forall in C1, C2. destruct R1 as (_ & R1 & _), R2 as (_ & R2 & _).
    intros i Hi. apply in_app_or in Hi. destruct Hi as [Hi|Hi].
    + specialize (C1 i Hi). lia.
    + apply in_map_iff in Hi. destruct Hi as (j & <- & Hj). specialize (C2 j Hj). lia.
  - intros lo I1 I2. unfold index_list at 1. rewrite (b_index _ _ _ _ B). unfold all_i. apply Forall_flat_map.
    unfold zip_join. rewrite Forall_map. apply Forall_forall. intros (p, q) Hin. cbn [fst snd join]. apply Forall_app.
    assert (In p (parts vs self)) as Hp by now apply in_combine_l in Hin.
    assert (In q (parts vs other)) as Hq by now apply in_combine_r in Hin.
    unfold parts in Hp, Hq. apply in_map_iff in Hp, Hq. destruct Hp as (x & Ep & Hx), Hq as (y & Eq & Hy).
    assert (clears p q) as Hc.
    { clear -C Hin. revert Hin. induction C as [|p' q' t t' H HC IH]; simpl; [contradiction|]. intros [E|E]; [congruence|auto]. }
    unfold clears in Hc. subst p q. unfold data in *. cbn [fst snd] in *.
    assert (forall m mt (Q : Z -> Prop), Forall Q (index_list m) -> Forall Q (mat_indices m mt)) as SUB.
    { intros m mt Q HQ. unfold mat_indices. rewrite Forall_forall in *. intros i Hi. apply HQ.
      rewrite <- (firstn_skipn (Z.to_nat (istart mt)) (index_list m)). apply in_or_app. right.
      rewrite <- (firstn_skipn (Z.to_nat (inum mt)) (skipn _ (index_list m))). apply in_or_app. now left. }
    split; [now apply SUB|]. apply Forall_map. pose proof (SUB other y _ I2) as I2'. rewrite Forall_forall in *.
    intros i Hi. specialize (Hc i Hi). specialize (I2' i Hi). cbv beta in *. pose proof (zlen_nonneg (mat_vertices vs self x)). lia.
Qed.

(** Overflow. *)
Theorem merge_overflow vs self other : compatible self other -> vertex_size self = Ok (Z.of_nat vs) ->
  in_range vs self -> in_range vs other ->
  let over := exists k x y i, nth_error (mats self) k = Some x /\ nth_error (mats other) k = Some y /\
                In i (mat_indices other y) /\ 65535 < i + vnum x in
  (over -> exists m', merge self other = (m', MergeRaised EOverflow) /\ same_header self m' /\ same_counts self m' /\
       vertices m' = vertices self /\ index m' = index self /\
       map (geom_mats uncounted) (geoms m') = map (geom_mats uncounted) (geoms self)) /\
  (~ over -> exists m', merge self other = (m', Merged)).
Proof.
  intros HC Hs R1 R2 over.
  assert (over <-> ~ Forall2 clears (parts vs self) (parts vs other)) as E.
  { assert (length (mats self) = length (mats other)) as EL
      by (apply same_shape_mats; now apply compatible_shape).
    destruct R1 as (_ & R1). split.
    - intros (k & x & y & i & Hx & Hy & Hi & HO) C. unfold parts in C. rewrite Forall2_map2 in C.
      pose proof (Forall2_nth _ _ _ C k) as C'. rewrite Hx, Hy in C'.
      unfold clears, data in C'. cbn [fst snd] in C'. rewrite (mat_vertices_zlen vs) in C'.
      + rewrite Forall_forall in C'. specialize (C' i Hi). lia.
      + rewrite Forall_forall in R1. apply R1. now apply nth_error_In in Hx.
    - intros C. unfold parts in C. rewrite Forall2_map2 in C.
      assert (forall l l' : list (mat F), Forall (mat_in vs self) l -> length l = length l' ->
        ~ Forall2 (fun x y => clears (data vs self x) (data vs other y)) l l' ->
        exists k x y i, nth_error l k = Some x /\ nth_error l' k = Some y /\ In i (mat_indices other y) /\ 65535 < i + vnum x) as G.
      { induction l as [|x t IH]; intros [|y t'] HR HL HN; simpl in HL; try discriminate; [destruct HN; constructor|].
        inversion HR; subst. destruct (forallb (fun i => i + vnum x <=? 65535) (mat_indices other y)) eqn:EB.
        - destruct (IH t') as (k & x' & y' & i & A1 & A2 & A3); auto.
          + intros A. apply HN. constructor; [|exact A]. unfold clears, data. cbn [fst snd].
            rewrite (mat_vertices_zlen vs) by assumption. rewrite forallb_forall in EB. apply Forall_forall. intros i Hi.
            apply Z.leb_le. auto.
          + exists (S k), x', y', i. auto.
        - assert (exists i, In i (mat_indices other y) /\ (i + vnum x <=? 65535) = false) as (i & Hi & EI).
          { clear -EB. induction (mat_indices other y) as [|j l IH]; simpl in EB; [discriminate|].
            apply andb_false_iff in EB. destruct EB as [EB|EB]; [exists j; simpl; auto|].
            destruct (IH EB) as (i & Hi & EI). exists i. simpl. auto. }
          exists 0%nat, x, y, i. repeat split; auto. apply Z.leb_gt in EI. lia. }
      apply (G (mats self) (mats other)); auto. }
  destruct (merge_cases vs self other HC Hs R1 R2) as [(C & m' & EM & _)|(C & m' & EM & K)].
  - split; [intros O; apply E in O; contradiction|]. intros _. eauto.
  - split; [intros _; exists m'; auto|]. intros O. destruct O. now apply E.
Qed.

(** Merging does not raise anything else, and never on incompatible meshes. *)
Theorem merge_incompatible self other : canMerge self other = Ok false -> merge self other = (self, ReturnedNotImplementedError).
Proof. intros H. unfold merge. now rewrite H. Qed.

(** ** Associativity *)
Lemma join_assoc (p q r : list (list F) * list Z) : join (join p q) r = join p (join q r).
Proof.
  destruct p as (v1, i1), q as (v2, i2), r as (v3, i3). unfold join. cbn [fst snd]. rewrite map_app, map_map, <- !app_assoc.
  f_equal. f_equal. f_equal. apply map_ext. intros i. rewrite zlen_app. lia.
Qed.
Lemma zip_assoc (l1 l2 l3 : list (list (list F) * list Z)) : zip_join (zip_join l1 l2) l3 = zip_join l1 (zip_join l2 l3).
Proof.
  unfold zip_join. revert l2 l3. induction l1 as [|x t IH]; intros [|y t2] [|z t3]; simpl; auto.
  f_equal; [apply join_assoc|apply IH].
Qed.
Lemma clears_assoc (l1 l2 l3 : list (list (list F) * list Z)) :
  (Forall2 clears l1 l2 /\ Forall2 clears (zip_join l1 l2) l3) <->
  (Forall2 clears l2 l3 /\ Forall2 clears l1 (zip_join l2 l3)).
Proof.
  assert (forall p q r : list (list F) * list Z, (clears p q /\ clears (join p q) r) <-> (clears q r /\ clears p (join q r))) as G.
  { intros p q r. unfold clears, join. cbn [fst snd]. rewrite zlen_app, Forall_app, Forall_map.
    pose proof (zlen_nonneg (fst p)) as Hp.
    split; intros (H1 & H2).
    - split; [|split; [exact H1|]]; (eapply Forall_impl; [|exact H2]); intros i Hi; cbv beta in *; lia.
    - destruct H2 as (H2 & H3). split; [exact H2|]. (eapply Forall_impl; [|exact H3]); intros i Hi; cbv beta in *; lia. }
  revert l2 l3. induction l1 as [|x t IH]; intros [|y t2] [|z t3]; unfold zip_join; simpl; split; intros (H1 & H2);
    try (inversion H1; fail); try (inversion H2; fail); try (split; constructor; fail).
  - inversion H1; inversion H2; subst. destruct (proj1 (G x y z) ltac:(auto)). destruct (proj1 (IH t2 t3) ltac:(auto)).
    split; constructor; auto.
  - inversion H1; inversion H2; subst. destruct (proj2 (G x y z) ltac:(auto)). destruct (proj2 (IH t2 t3) ltac:(auto)).
    split; constructor; auto.
Qed.

Lemma uncounted_eq (x y : mat F) : uncounted x = uncounted y -> vstart x = vstart y -> istart x = istart y ->
  vnum x = vnum y -> inum x = inum y -> x = y.
Proof. destruct x, y. unfold uncounted. cbn. intros H E1 E2 E3 E4. injection H. intros. now subst. Qed.
Lemma laid_unique' u v (ms ms' : list (mat F)) ps : laid u v ms ps -> laid u v ms' ps ->
  map uncounted ms = map uncounted ms' -> ms = ms'.
Proof.
  revert u v ms' ps. induction ms as [|mt ms IH]; intros u v [|mt' ms'] [|(vl, il) ps] H H' E; simpl in *; try contradiction; auto.
  apply cons_eq in E. destruct E as (E1 & E2). f_equal.
  - destruct H as (A1 & A2 & A3 & A4 & _), H' as (B1 & B2 & B3 & B4 & _). apply uncounted_eq; congruence.
  - eapply IH; [apply H|apply H'|exact E2].
Qed.

Lemma built_unique vs a b a' b' m m' : built vs a b m -> built vs a' b' m' ->
  zip_join (parts vs a) (parts vs b) = zip_join (parts vs a') (parts vs b') -> same_header a a' ->
  map (geom_mats uncounted) (geoms a) = map (geom_mats uncounted) (geoms a') -> m = m'.
Proof.
  intros B B' EZ HH EG.
  assert (map (geom_mats uncounted) (geoms m) = map (geom_mats uncounted) (geoms m')) as EG'
    by (rewrite (b_geoms _ _ _ _ B), (b_geoms _ _ _ _ B'); exact EG).
  apply mesh_eq.
  - pose proof (b_head _ _ _ _ B) as H1. pose proof (b_head _ _ _ _ B') as H2. unfold same_header in *.
    destruct HH as (? & ? & ? & ? & ? & ? & ? & ? & ?), H1 as (? & ? & ? & ? & ? & ? & ? & ? & ?), H2 as (? & ? & ? & ? & ? & ? & ? & ? & ?).
    repeat split; congruence.
  - split; [rewrite (b_vnum _ _ _ _ B), (b_vnum _ _ _ _ B')|rewrite (b_inum _ _ _ _ B), (b_inum _ _ _ _ B')]; now rewrite EZ.
  - apply (geoms_unique uncounted); [exact EG'|]. 
    apply (laid_unique' 0 0 _ _ (zip_join (parts vs a) (parts vs b))).
    + apply (b_laid _ _ _ _ B).
    + rewrite EZ. apply (b_laid _ _ _ _ B').
    + rewrite <- !mats_of_map. now rewrite EG'.
  - rewrite (b_verts _ _ _ _ B), (b_verts _ _ _ _ B'). now rewrite EZ.
  - rewrite (b_index _ _ _ _ B), (b_index _ _ _ _ B'). now rewrite EZ.
Qed.

Lemma uncounted_compat (a b : mesh F) : vertex_attributes a = vertex_attributes b ->
  map (geom_mats uncounted) (geoms a) = map (geom_mats uncounted) (geoms b) -> compatible a b.
Proof.
  intros HA HG. split; [|exact HA].
  assert (forall (f : geom F -> geom F) l l', map f l = map f l' -> Forall2 (fun x y => f x = f y) l l') as G1.
  { intros f. induction l as [|x t IH]; intros [|y t'] E; simpl in E; try discriminate; constructor.
    - now apply cons_eq in E.
    - apply IH. now apply cons_eq in E. }
  assert (forall (f : lod F -> lod F) l l', map f l = map f l' -> Forall2 (fun x y => f x = f y) l l') as G2.
  { intros f. induction l as [|x t IH]; intros [|y t'] E; simpl in E; try discriminate; constructor.
    - now apply cons_eq in E.
    - apply IH. now apply cons_eq in E. }
  assert (forall (f : mat F -> mat F) l l', map f l = map f l' -> Forall2 (fun x y => f x = f y) l l') as G3.
  { intros f. induction l as [|x t IH]; intros [|y t'] E; simpl in E; try discriminate; constructor.
    - now apply cons_eq in E.
    - apply IH. now apply cons_eq in E. }
  apply G1 in HG. revert HG. apply Forall2_impl'. intros g h E. apply (f_equal lods) in E. cbn [geom_mats lods] in E.
  apply G2 in E. revert E. apply Forall2_impl'. intros l k E. apply (f_equal materials) in E. cbn [lod_mats materials] in E.
  apply G3 in E. revert E. apply Forall2_impl'. intros x y E. unfold uncounted in E. injection E. intros. repeat split; assumption.
Qed.

Theorem merge_assoc vs a b c r : vertex_size a = Ok (Z.of_nat vs) -> in_range vs a -> in_range vs b -> in_range vs c ->
  (exists ab, merge a b = (ab, Merged) /\ merge ab c = (r, Merged)) <->
  (exists bc, merge b c = (bc, Merged) /\ merge a bc = (r, Merged)).
Proof.
  intros Hs Ra Rb Rc.
  assert (forall x y m', in_range vs x -> in_range vs y -> built vs x y m' ->
     in_range vs m' /\ parts vs m' = zip_join (parts vs x) (parts vs y) /\ compatible x m') as BP.
  { intros x y m' Rx Ry B. destruct (built_parts vs x y m' Rx Ry B) as (R & E). split; [exact R|]. split; [exact E|].
    apply uncounted_compat; [|symmetry; apply B]. symmetry. apply (b_head _ _ _ _ B). }
  assert (forall x y : mesh F, compatible x y -> vertex_size x = Ok (Z.of_nat vs) -> vertex_size y = Ok (Z.of_nat vs)) as VS.
  { intros x y (_ & E) H. unfold vertex_size in *. now rewrite <- E. }
  assert (forall x y : mesh F, compatible x y -> vertex_size x = Ok (Z.of_nat vs) -> in_range vs x -> in_range vs y ->
     Forall2 clears (parts vs x) (parts vs y) -> exists m', merge x y = (m', Merged) /\ built vs x y m') as MK.
  { intros x y HC HV Rx Ry HCl. destruct (merge_cases vs x y HC HV Rx Ry) as [(_ & K)|(N & _)]; [exact K|contradiction]. }
  split.
  - intros (ab & H1 & H2). destruct (merged_built vs a b ab Hs Ra Rb H1) as (C1 & D1 & B1).
    destruct (BP a b ab Ra Rb B1) as (Rab & Pab & Cab). pose proof (VS _ _ Cab Hs) as Hab.
    destruct (merged_built vs ab c r Hab Rab Rc H2) as (C2 & D2 & B2). rewrite Pab in D2.
    destruct (proj1 (clears_assoc _ _ _) (conj D1 D2)) as (D3 & D4).
    assert (compatible b c) as C3.
    { eapply compatible_trans; [|exact C2]. eapply compatible_trans; [|exact Cab]. now apply compatible_sym. }
    pose proof (VS _ _ C1 Hs) as Hb.
    destruct (MK b c C3 Hb Rb Rc D3) as (bc & H3 & B3). exists bc. split; [exact H3|].
    destruct (BP b c bc Rb Rc B3) as (Rbc & Pbc & Cbc). rewrite <- Pbc in D4.
    destruct (MK a bc (compatible_trans _ _ _ C1 Cbc) Hs Ra Rbc D4) as (r' & H4 & B4). rewrite H4. f_equal.
    apply (built_unique vs a bc ab c); auto.
    + rewrite Pab, Pbc. symmetry. apply zip_assoc.
    + apply (b_head _ _ _ _ B1).
    + symmetry. apply (b_geoms _ _ _ _ B1).
  - intros (bc & H1 & H2). assert (compatible a bc) as C1.
    { apply canMerge_true. unfold merge in H2. destruct (canMerge a bc) as [[|]|]; [reflexivity| |]; discriminate. }
    assert (vertex_size b = Ok (Z.of_nat vs)) as Hb.
    { unfold merge in H1. destruct (canMerge b c) as [[|]|] eqn:EC; try discriminate.
      assert (vertex_attributes bc = vertex_attributes b) as E.
      { unfold merge_with in H1. destruct (trav_geoms _ _ _) as ((s', gs), [e|]); [discriminate|].
        destruct (index b); inversion H1. reflexivity. }
      unfold vertex_size in *. rewrite <- E. destruct C1 as (_ & <-). exact Hs. }
    destruct (merged_built vs b c bc Hb Rb Rc H1) as (C3 & D3 & B3).
    destruct (BP b c bc Rb Rc B3) as (Rbc & Pbc & Cbc).
    destruct (merged_built vs a bc r Hs Ra Rbc H2) as (_ & D4 & B4). rewrite Pbc in D4.
    destruct (proj2 (clears_assoc _ _ _) (conj D3 D4)) as (D1 & D2).
    assert (compatible a b) as C4 by (eapply compatible_trans; [exact C1|now apply compatible_sym]).
    destruct (MK a b C4 Hs Ra Rb D1) as (ab & H3 & B1). exists ab. split; [exact H3|].
    destruct (BP a b ab Ra Rb B1) as (Rab & Pab & Cab). rewrite <- Pab in D2. pose proof (VS _ _ Cab Hs) as Hab.
    assert (compatible ab c) as C2.
    { eapply compatible_trans; [apply compatible_sym; exact Cab|]. eapply compatible_trans; [exact C4|exact C3]. }
    destruct (MK ab c C2 Hab Rab Rc D2) as (r' & H4 & B2). rewrite H4. f_equal.
    symmetry. apply (built_unique vs a bc ab c); auto.
    + rewrite Pab, Pbc. symmetry. apply zip_assoc.
    + apply (b_head _ _ _ _ B1).
    + symmetry. apply (b_geoms _ _ _ _ B1).
Qed.
End MergeThms.
