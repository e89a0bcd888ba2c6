(** merge commutes with change_geoms_order. *)
From Coq Require Import ZArith List Bool Lia Permutation.
From Verif Require Import PyBase Struct Mesh Arith Edit Spec SpecEdit DivFacts TravFacts VertFacts LayoutFacts MergeFacts ReorderFacts VMapFacts CommFacts.
Import ListNotations.
Open Scope Z_scope.

(** ** Two lists side by side *)
Definition map2 {B C D} (g : B -> C -> D) (l : list B) (l' : list C) : list D := map (fun p => g (fst p) (snd p)) (combine l l').
Lemma pick_combine {B C} (l : list B) (l' : list C) ks : length l = length l' -> pick (combine l l') ks = combine (pick l ks) (pick l' ks).
Proof.
  intros E. unfold pick. induction ks as [|k ks IH]; [reflexivity|]. cbn [flat_map]. rewrite nth_combine, IH.
  destruct (nth_error l k) as [x|] eqn:E1, (nth_error l' k) as [y|] eqn:E2; try reflexivity.
  - apply nth_error_None in E2. assert (k < length l)%nat by (apply nth_error_Some; congruence). lia.
  - apply nth_error_None in E1. assert (k < length l')%nat by (apply nth_error_Some; congruence). lia.
Qed.
Lemma pick_map2 {B C D} (g : B -> C -> D) l l' ks : length l = length l' -> pick (map2 g l l') ks = map2 g (pick l ks) (pick l' ks).
Proof. intros E. unfold map2. now rewrite pick_map, pick_combine. Qed.
Lemma combine_app' {B C} (x x' : list B) (y y' : list C) : length x = length y -> combine (x ++ x') (y ++ y') = combine x y ++ combine x' y'.
Proof. revert y. induction x as [|a x IH]; intros [|b y] E; try discriminate; [reflexivity|]. cbn. f_equal. apply IH. now injection E. Qed.
Lemma combine_concat {B C} (X : list (list B)) (Y : list (list C)) : Forall2 (fun x y => length x = length y) X Y ->
  combine (concat X) (concat Y) = concat (map2 (@combine B C) X Y).
Proof. induction 1 as [|x y X Y E _ IH]; [reflexivity|]. cbn [concat map2 combine map fst snd]. rewrite combine_app' by exact E. unfold map2 in *. now rewrite IH. Qed.
Lemma map2_map {B C D E} (h : D -> E) (g : B -> C -> D) l l' : map h (map2 g l l') = map2 (fun x y => h (g x y)) l l'.
Proof. unfold map2. now rewrite map_map. Qed.
Lemma F2_pick {B C} (P : B -> C -> Prop) l l' ks : Forall2 P l l' -> Forall2 P (pick l ks) (pick l' ks).
Proof.
  intros H. unfold pick. induction ks as [|k ks IH]; [constructor|]. cbn [flat_map]. apply Forall2_app; [|exact IH].
  pose proof (Forall2_nth _ _ _ H k) as N. destruct (nth_error l k), (nth_error l' k); try contradiction; auto.
Qed.
Lemma F2_combine {B C} (P : B -> C -> Prop) l l' : Forall2 P l l' <-> length l = length l' /\ Forall (fun p => P (fst p) (snd p)) (combine l l').
Proof.
  split.
  - induction 1 as [|x y l l' H _ (E & IH)]; cbn; auto.
  - revert l'. induction l as [|x l IH]; intros [|y l'] (E & H); try discriminate; constructor; inversion H; subst; auto.
Qed.
Lemma F2_perm {B C} (P : B -> C -> Prop) l l' ks : length l = length l' -> Permutation ks (seq 0 (length l)) ->
  Forall2 P (pick l ks) (pick l' ks) <-> Forall2 P l l'.
Proof.
  intros E PE. rewrite !F2_combine, <- pick_combine by exact E.
  assert (Permutation (pick (combine l l') ks) (combine l l')) as PC.
  { rewrite <- (pick_seq (combine l l')) at 2. apply pick_perm. rewrite combine_length, <- E, Nat.min_id. exact PE. }
  assert (length (pick l ks) = length (pick l' ks)) as EL.
  { transitivity (length l).
    - transitivity (length (pick l (seq 0 (length l)))); [apply Permutation_length, pick_perm, PE|now rewrite pick_seq].
    - rewrite E in *. transitivity (length (pick l' (seq 0 (length l')))); [now rewrite pick_seq|symmetry; apply Permutation_length, pick_perm, PE]. }
  split; intros (_ & H); (split; [assumption|]); rewrite Forall_forall in *; intros x Hx; apply H.
  - now apply (Permutation_in (l := combine l l')); [symmetry|].
  - now apply (Permutation_in (l := pick (combine l l') ks)).
Qed.

Section MO.
Context {F : Type}.
Implicit Types (m a b r : mesh F) (vs : nat).

Lemma dgeom_len vs m g : length (dgeom vs m g) = length (geom_of g).
Proof. unfold dgeom. now rewrite map_length. Qed.
Lemma parts_dgeom vs m : parts vs m = concat (map (dgeom vs m) (geoms m)).
Proof. unfold parts, mats. apply mats_data. Qed.
Lemma zip_concat (X Y : list (list (list (list F) * list Z))) : Forall2 (fun x y => length x = length y) X Y ->
  zip_join (concat X) (concat Y) = concat (map2 zip_join X Y).
Proof. intros H. unfold zip_join at 1. rewrite combine_concat by exact H. rewrite concat_map. f_equal. now rewrite map2_map. Qed.
Lemma concat_inj {B} (X Y : list (list B)) : Forall2 (fun x y => length x = length y) X Y -> concat X = concat Y -> X = Y.
Proof. induction 1 as [|x y X Y E _ IH]; [reflexivity|]. cbn. intros H. apply app_inv_len in H; [|exact E]. destruct H as (-> & H). f_equal. auto. Qed.

(** What compatibility looks at. *)
Definition gcompat (g h : geom F) : Prop := Forall2 (fun l k => Forall2 mat_compat (materials l) (materials k)) (lods g) (lods h).
Lemma F2_map2 {B C B' C'} (P : B' -> C' -> Prop) (f : B -> B') (g : C -> C') l l' : Forall2 P (map f l) (map g l') <-> Forall2 (fun x y => P (f x) (g y)) l l'.
Proof.
  split.
  - revert l'. induction l as [|x l IH]; intros [|y l'] H; cbn in H; inversion H; subst; constructor; auto.
  - induction 1; cbn; constructor; auto.
Qed.
Lemma gcompat_unplaced g h : gcompat (geom_mats unplaced g) (geom_mats unplaced h) <-> gcompat g h.
Proof.
  unfold gcompat, geom_mats. cbn [lods]. rewrite F2_map2. split; apply Forall2_impl'; intros l k; unfold lod_mats; cbn [materials]; rewrite F2_map2; auto.
Qed.
Lemma gcompat_len g h : gcompat g h -> length (geom_of g) = length (geom_of h).
Proof.
  rewrite !geom_of_mats. unfold gcompat. induction 1 as [|l k ls ks H _ IH]; [reflexivity|]. cbn. rewrite !app_length. apply Forall2_len in H.
  unfold lods_mats in *. lia.
Qed.
Lemma reordered_compat vs a b ks a1 b1 : length (geoms a) = length (geoms b) -> Permutation ks (seq 0 (length (geoms a))) ->
  reordered vs a ks a1 -> reordered vs b ks b1 -> Forall2 gcompat (geoms a1) (geoms b1) <-> Forall2 gcompat (geoms a) (geoms b).
Proof.
  intros E P Ra Rb.
  assert (forall x y : list (geom F), Forall2 gcompat (map (geom_mats unplaced) x) (map (geom_mats unplaced) y) <-> Forall2 gcompat x y) as G.
  { intros x y. rewrite F2_map2. split; apply Forall2_impl'; intros g h; apply gcompat_unplaced. }
  rewrite <- (G (geoms a1)), (r_geoms _ _ _ _ Ra), (r_geoms _ _ _ _ Rb), G. now apply F2_perm.
Qed.

Lemma reordered_parts' vs m ks m1 : in_range vs m -> reordered vs m ks m1 -> parts vs m1 = concat (pick (map (dgeom vs m) (geoms m)) ks).
Proof. intros R RO. now rewrite parts_dgeom, (reordered_dgeom vs m ks m1 R RO), pick_map. Qed.

Lemma len_dgeoms vs a b : Forall2 gcompat (geoms a) (geoms b) ->
  Forall2 (fun x y => length x = length y) (map (dgeom vs a) (geoms a)) (map (dgeom vs b) (geoms b)).
Proof. intros H. rewrite F2_map2. revert H. apply Forall2_impl'. intros g h H. rewrite !dgeom_len. now apply gcompat_len. Qed.

Lemma clears_concat (X Y : list (list (list (list F) * list Z))) : Forall2 (fun x y => length x = length y) X Y ->
  Forall2 clears (concat X) (concat Y) <-> Forall2 (Forall2 clears) X Y.
Proof.
  induction 1 as [|x y X Y E _ IH]; [split; constructor|]. cbn [concat]. split; intros H.
  - rewrite F2_combine in H. destruct H as (EL & H). rewrite combine_app' in H by exact E. apply Forall_app in H. destruct H as (H1 & H2).
    rewrite !app_length in EL. constructor; [apply F2_combine; auto|]. apply IH, F2_combine. split; [lia|exact H2].
  - inversion H; subst. apply Forall2_app; [assumption|]. now apply IH.
Qed.

Lemma unc_unplaced (g : geom F) : geom_mats uncounted (geom_mats unplaced g) = geom_mats uncounted g.
Proof.
  destruct g. unfold geom_mats. cbn. f_equal. rewrite map_map. apply map_ext. intros l. unfold lod_mats. cbn. now rewrite map_map.
Qed.
Lemma map_unc (l : list (geom F)) : map (geom_mats uncounted) (map (geom_mats unplaced) l) = map (geom_mats uncounted) l.
Proof. rewrite map_map. apply map_ext. apply unc_unplaced. Qed.

Lemma laid_sums : forall l (ps : list (list (list F) * list Z)) u v, laid u v l ps ->
  zlen (all_v ps) = sumZ vnum l /\ zlen (all_i ps) = sumZ inum l.
Proof.
  induction l as [|mt l IH]; intros [|(vl, il) ps] u v L; simpl in L; try contradiction; [now split|].
  destruct L as (_ & _ & EV & EI & L). destruct (IH _ _ _ L) as (A1 & A2). unfold all_v, all_i in *. simpl.
  rewrite !zlen_app. lia.
Qed.
Lemma parts_sums vs m : in_range vs m -> zlen (all_v (parts vs m)) = sumZ vnum (mats m).
Proof.
  intros (_ & R). unfold parts. induction R as [|mt l Hm R IH]; [reflexivity|]. cbn [map sumZ]. unfold all_v in *. cbn [flat_map data fst].
  rewrite zlen_app, IH, (mat_vertices_zlen vs) by exact Hm. reflexivity.
Qed.
Lemma zip_sums (l l' : list (list (list F) * list Z)) : length l = length l' ->
  zlen (all_v (zip_join l l')) = zlen (all_v l) + zlen (all_v l').
Proof.
  unfold zip_join, all_v. revert l'. induction l as [|x l IH]; intros [|y l'] E; try discriminate; [reflexivity|].
  cbn [combine map flat_map]. rewrite !zlen_app, IH by (now injection E). unfold join. cbn [fst snd]. rewrite zlen_app. lia.
Qed.

(** The merged mesh reordered is built from the reordered meshes. *)
Lemma reordered_built vs a b r ks a1 b1 r1 : in_range vs a -> in_range vs b -> Forall2 gcompat (geoms a) (geoms b) ->
  Permutation ks (seq 0 (length (geoms a))) ->
  built vs a b r -> reordered vs a ks a1 -> reordered vs b ks b1 -> reordered vs r ks r1 -> built vs a1 b1 r1.
Proof.
  intros Ra Rb GC PE B Oa Ob Or. destruct (built_parts vs a b r Ra Rb B) as (Rr & EP).
  pose proof (len_dgeoms vs a b GC) as LD.
  assert (map (dgeom vs r) (geoms r) = map2 zip_join (map (dgeom vs a) (geoms a)) (map (dgeom vs b) (geoms b))) as ED.
  { apply concat_inj.
    - pose proof (b_geoms _ _ _ _ B) as EG. clear -EG LD.
      revert LD. generalize (map (dgeom vs b) (geoms b)). revert EG. generalize (geoms r), (geoms a).
      induction l as [|g l IH]; intros [|h l0] EG Y LD; try discriminate; cbn [map] in *; inversion LD as [|? y ? Y' EY LY]; subst; [constructor|].
      unfold map2. cbn [combine map fst snd]. cbn [map] in EG. apply cons_eq in EG. destruct EG as (E1 & E2). constructor.
      + unfold zip_join. rewrite map_length, combine_length. rewrite Nat.min_l by (apply Nat.eq_le_incl; exact EY). rewrite !dgeom_len, !geom_of_mats.
        apply (lods_len uncounted). apply (f_equal lods) in E1. exact E1.
      + apply IH; assumption.
    - rewrite <- parts_dgeom, <- zip_concat by exact LD. rewrite <- !parts_dgeom. exact EP. }
  assert (map (data vs r) (mats_of (pick (geoms r) ks)) = zip_join (parts vs a1) (parts vs b1)) as KEY.
  { rewrite mats_data, <- pick_map, ED, pick_map2 by (apply Forall2_len in LD; exact LD).
    rewrite (reordered_parts' vs a ks a1 Ra Oa), (reordered_parts' vs b ks b1 Rb Ob). symmetry. apply zip_concat. now apply F2_pick. }
  assert (length (geoms r) = length (geoms a)) as EL.
  { pose proof (b_geoms _ _ _ _ B) as EG. apply (f_equal (@length _)) in EG. now rewrite !map_length in EG. }
  assert (Permutation (map (data vs r) (mats_of (pick (geoms r) ks))) (parts vs r)) as PP.
  { unfold parts. apply Permutation_map. unfold mats, mats_of. apply Permutation_flat_map. rewrite <- (pick_seq (geoms r)) at 2.
    apply pick_perm. now rewrite EL. }
  split.
  - rewrite <- KEY. apply Or.
  - rewrite <- KEY. apply Or.
  - rewrite <- KEY. apply Or.
  - destruct (r_counts _ _ _ _ Or) as (-> & _). rewrite (b_vnum _ _ _ _ B), <- EP, <- KEY. unfold all_v, zlen. f_equal.
    apply Permutation_length. symmetry. now apply Permutation_flat_map.
  - destruct (r_counts _ _ _ _ Or) as (_ & ->). rewrite (b_inum _ _ _ _ B), <- EP, <- KEY. unfold all_i, zlen. f_equal.
    apply Permutation_length. symmetry. now apply Permutation_flat_map.
  - pose proof (r_head _ _ _ _ Oa) as H1. pose proof (r_head _ _ _ _ Or) as H2. pose proof (b_head _ _ _ _ B) as H3.
    unfold same_header in *. destruct H1 as (? & ? & ? & ? & ? & ? & ? & ? & ?), H2 as (? & ? & ? & ? & ? & ? & ? & ? & ?), H3 as (? & ? & ? & ? & ? & ? & ? & ? & ?).
    repeat split; congruence.
  - rewrite <- (map_unc (geoms r1)), <- (map_unc (geoms a1)), (r_geoms _ _ _ _ Or), (r_geoms _ _ _ _ Oa), !map_unc, <- !pick_map.
    now rewrite (b_geoms _ _ _ _ B).
Qed.

Theorem merge_reorder vs a b order ks a1 b1 r1 : vertex_size a = Ok (Z.of_nat vs) -> (0 < vs)%nat -> in_range vs a -> in_range vs b ->
  sumZ vnum (mats a) + sumZ vnum (mats b) <= 2 ^ 53 -> permutes (length (geoms a)) order ks -> 
  change_geoms_order a order = (a1, None) -> change_geoms_order b order = (b1, None) ->
  merge a1 b1 = (r1, Merged) <-> exists r, merge a b = (r, Merged) /\ change_geoms_order r order = (r1, None).
Proof.
  intros Hs Hv Ra Rb SB P Ea Eb.
  assert (0 <= sumZ vnum (mats a) /\ 0 <= sumZ vnum (mats b)) as (SA & SB').
  { destruct Ra as (_ & Ra), Rb as (_ & Rb). split; apply sumZ_nonneg; (eapply Forall_impl; [|eassumption]); intros mt H; apply H. }
  destruct (reorder_ok vs a order ks Hs Hv Ra ltac:(lia) P) as (x & X & Oa). rewrite Ea in X. injection X as <-.
  destruct (Nat.eq_dec (length (geoms b)) (length (geoms a))) as [EL|NL].
  2:{ exfalso. unfold change_geoms_order in Eb. destruct (Nat.eqb_spec (length order) (length (geoms b))) as [E|E]; cbn [negb] in Eb; [|discriminate].
      apply NL. rewrite <- E. destruct P as (P1 & P2). apply Forall2_len in P1. apply Permutation_length in P2. rewrite seq_length in P2. congruence. }
  destruct (reordered_parts vs a ks a1 Ra Oa) as (Pa & _). pose proof (packed_in_range _ _ Pa) as Ra1.
  assert (vertex_size a1 = Ok (Z.of_nat vs)) as Hs1 by (apply (head_size vs a); [apply Oa|exact Hs]).
  assert (vertex_attributes b = vertex_attributes a ->
    merge a1 b1 = (r1, Merged) <-> exists r, merge a b = (r, Merged) /\ change_geoms_order r order = (r1, None)) as G.
  { intros EA. assert (vertex_size b = Ok (Z.of_nat vs)) as Hb by (unfold vertex_size in *; now rewrite EA).
    destruct (reorder_ok vs b order ks Hb Hv Rb ltac:(lia) ltac:(now rewrite EL)) as (x & X & Ob). rewrite Eb in X. injection X as <-.
    destruct (reordered_parts vs b ks b1 Rb Ob) as (Pb & _). pose proof (packed_in_range _ _ Pb) as Rb1.
    assert (compatible a1 b1 <-> compatible a b) as CC.
    { unfold compatible. pose proof (reordered_compat vs a b ks a1 b1 (eq_sym EL) (proj2 P) Oa Ob) as H. unfold gcompat in H. rewrite H.
      destruct (r_head _ _ _ _ Oa) as (_ & _ & _ & _ & _ & -> & _), (r_head _ _ _ _ Ob) as (_ & _ & _ & _ & _ & -> & _). tauto. }
    assert (compatible a b -> Forall2 clears (parts vs a1) (parts vs b1) <-> Forall2 clears (parts vs a) (parts vs b)) as CL.
    { intros (C & _). pose proof (len_dgeoms vs a b C) as LD.
      rewrite (reordered_parts' vs a ks a1 Ra Oa), (reordered_parts' vs b ks b1 Rb Ob), (parts_dgeom vs a), (parts_dgeom vs b), !clears_concat by auto using F2_pick.
      apply F2_perm; rewrite !map_length; [now symmetry|apply P]. }
    assert (forall r, merge a b = (r, Merged) -> exists x, change_geoms_order r order = (x, None) /\ merge a1 b1 = (x, Merged)) as M.
    { intros r H. destruct (merged_built vs a b r Hs Ra Rb H) as (HC & C & B). destruct (built_parts vs a b r Ra Rb B) as (Rr & EP).
      assert (length (geoms r) = length (geoms a)) as ELr.
      { pose proof (b_geoms _ _ _ _ B) as EG. apply (f_equal (@length _)) in EG. now rewrite !map_length in EG. }
      destruct (reorder_ok vs r order ks) as (r2 & E2 & Or); auto.
      - apply (head_size vs a); [apply B|exact Hs].
      - rewrite <- (parts_sums vs r Rr), EP, zip_sums by (apply Forall2_len in C; exact C). rewrite !parts_sums by assumption. exact SB.
      - now rewrite ELr.
      - exists r2. split; [exact E2|].
        destruct (merge_cases vs a1 b1) as [(_ & m' & E & B')|(N & _)]; auto.
        + now apply CC.
        + rewrite E. f_equal. apply (built_unique vs a1 b1 a1 b1); auto; [|now repeat split].
          apply (reordered_built vs a b r ks a1 b1 r2); auto; [apply HC|apply P].
        + destruct N. now apply CL. }
    split.
    - intros H. destruct (merged_built vs a1 b1 r1 Hs1 Ra1 Rb1 H) as (HC & C & _). apply CC in HC.
      destruct (merge_cases vs a b HC Hs Ra Rb) as [(_ & r & E & _)|(N & _)]; [|destruct N; now apply CL].
      exists r. split; [exact E|]. destruct (M r E) as (x & E1 & E2). rewrite H in E2. injection E2 as <-. exact E1.
    - intros (r & H & H'). destruct (M r H) as (x & E1 & E2). rewrite H' in E1. injection E1 as <-. exact E2. }
  split; intros H.
  - apply G; [|exact H]. apply merge_compatible in H. destruct H as (_ & H).
    assert (vertex_attributes b1 = vertex_attributes b) as Q.
    { unfold change_geoms_order in Eb. destruct (negb _); [discriminate|]. destruct (vertex_size b) as [w|]; [|discriminate].
      revert Eb. clear. intros Eb. repeat (match type of Eb with context [match ?x with _ => _ end] => destruct x; try discriminate end). injection Eb as <-. reflexivity. }
    destruct (r_head _ _ _ _ Oa) as (_ & _ & _ & _ & _ & Q' & _). congruence.
  - apply G; [|exact H]. destruct H as (r & H & _). apply merge_compatible in H. destruct H as (_ & H). congruence.
Qed.
End MO.
