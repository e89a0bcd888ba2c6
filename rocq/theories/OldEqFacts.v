(** Equality of the parts of old mesh objects. *)
From Coq Require Import ZArith List Bool Lia.
From Verif Require Import PyBase Struct Mesh Arith Edit F64 F64Facts Spec SpecEq SpecBounds BoundFacts EqFacts CodecFacts
  Old SpecOld OldFacts ColFacts OldEq SpecOldEq.
From Flocq Require Import IEEE754.Bits.
Import ListNotations.
Open Scope Z_scope.

Lemma old_head_iff a b : old_head_eqb a b = true <-> a = b.
Proof.
  unfold old_head_eqb. rewrite <- head_eqb_eq. unfold head_eqb.
  destruct (h_u1 a =? h_u1 b), (h_version a =? h_version b), (h_u3 a =? h_u3 b), (h_u4 a =? h_u4 b), (h_u5 a =? h_u5 b); cbn; intuition congruence.
Qed.
Lemma zlist_iff' l l' : list_eqb Z.eqb l l' = true <-> l = l'.
Proof.
  rewrite (list_eqb_F2 Z.eqb Logic.eq) by apply Z.eqb_eq. split; [|intros <-; induction l; auto].
  induction 1 as [|x y t t' E _ IH]; congruence.
Qed.
Lemma natlist_iff l l' : list_eqb Nat.eqb l l' = true <-> l = l'.
Proof.
  rewrite (list_eqb_F2 Nat.eqb Logic.eq) by apply Nat.eqb_eq. split; [|intros <-; induction l; auto].
  induction 1 as [|x y t t' E _ IH]; congruence.
Qed.
Lemma attrib_tuple_iff a t : attrib_tuple_eqb a t = true <-> t = [flag a; offset a; vartype a; usage a].
Proof. unfold attrib_tuple_eqb. rewrite zlist_iff'. split; congruence. Qed.
Lemma attrib_attrib_iff a b : attrib_attrib_eqb a b = true <-> a = b.
Proof. unfold attrib_attrib_eqb. rewrite attrib_tuple_iff. destruct a, b; cbn. split; [intros X; now injection X as -> -> -> ->|congruence]. Qed.

Section Eq.
Context {F : Type} (A : arith F).
Notation R := (fun x y => f_eq A x y = true).

Lemma bytes_iff (x y : bytes) : bytes_eqb x y = true <-> x = y.
Proof.
  unfold bytes_eqb. rewrite (list_eqb_F2 Ascii.eqb Logic.eq) by apply Ascii.eqb_eq. split; [|intros <-; induction x; auto].
  induction 1 as [|a b t t' E _ IH]; congruence.
Qed.
Lemma bytes_list_iff (x y : list bytes) : list_eqb bytes_eqb x y = true <-> x = y.
Proof.
  rewrite (list_eqb_F2 bytes_eqb Logic.eq) by apply bytes_iff. split; [|intros <-; induction x; auto].
  induction 1 as [|a b t t' E _ IH]; congruence.
Qed.
Theorem old_mat_iff a b : old_mat_eqb A a b = true <-> mat_same R a b.
Proof.
  unfold old_mat_eqb, mat_same, mat_alike. rewrite !andb_true_iff, !Z.eqb_eq, option_Z_eqb_iff, !bytes_iff, bytes_list_iff.
  pose proof (vec3_opt_iff A (mmin a) (mmin b)) as H1. pose proof (vec3_opt_iff A (mmax a) (mmax b)) as H2. unfold feq in *. rewrite H1, H2. tauto.
Qed.
Theorem old_lod_iff a b : old_lod_eqb A a b = true <->
  ol_skinned a = ol_skinned b /\ lod_same R (ol_skinned a) (ol_lod a) (ol_lod b) /\ ol_rigs a = ol_rigs b.
Proof.
  unfold old_lod_eqb, lod_same. rewrite !andb_true_iff, !Z.eqb_eq, !option_Z_eqb_iff, natlist_iff.
  pose proof (vec3_opt_iff A) as H3. unfold feq in H3. rewrite !H3.
  pose proof (list_eqb_F2 _ _ (matrix_eqb_iff A) (nodes (ol_lod a)) (nodes (ol_lod b))) as HM. unfold feq in HM. rewrite HM.
  rewrite (list_eqb_F2 _ _ old_mat_iff (materials (ol_lod a)) (materials (ol_lod b))).
  unfold rignum_attr, nodenum_attr. destruct (ol_skinned a), (ol_skinned b); intuition congruence.
Qed.
Theorem old_geom_iff a b : old_geom_eqb A a b = true <->
  og_lodnum a = og_lodnum b /\ Forall2 (fun x y => old_lod_eqb A x y = true) (og_lods a) (og_lods b).
Proof.
  unfold old_geom_eqb. destruct (Z.eqb_spec (og_lodnum a) (og_lodnum b)); cbn [negb].
  - rewrite (list_eqb_F2 (old_lod_eqb A) (fun x y => old_lod_eqb A x y = true)) by tauto. tauto.
  - split; [discriminate|tauto].
Qed.

(** Two meshes without an object in common. *)
Lemma ids_none (a b : olod F) : (forall i, In i (ol_rigs a) -> In i (ol_rigs b) -> False) -> ol_rigs a = ol_rigs b -> ol_rigs a = [].
Proof. intros H E. destruct (ol_rigs a) as [|i t] eqn:X; [reflexivity|]. destruct (H i); [now left|rewrite <- E; now left]. Qed.

Lemma len0 {B C} (l : list B) (l' : list C) : length l = length l' -> l = [] <-> l' = [].
Proof. destruct l, l'; cbn; intros; split; try reflexivity; discriminate. Qed.
Lemma unshared_lods sk ls ls' os os' : Forall2 (lod_object sk) ls os -> Forall2 (lod_object sk) ls' os' ->
  (forall i, In i (flat_map ol_rigs os) -> In i (flat_map ol_rigs os') -> False) ->
  Forall2 (fun x y => old_lod_eqb A x y = true) os os' <->
  Forall2 (lod_same R sk) ls ls' /\ Forall (fun l => rigs l = []) ls /\ Forall (fun l => rigs l = []) ls'.
Proof.
  intros H. revert ls' os'. induction H as [|l o ls os (S1 & S2 & S3) H IH]; intros ls' os' H' D.
  - destruct H' as [|l' o' ls' os' ? ?]; [split; auto|]. split; [inversion 1|intros (X & _); inversion X].
  - destruct H' as [|l' o' ls' os' (T1 & T2 & T3) H']; [split; [inversion 1|intros (X & _); inversion X]|].
    assert (forall i, In i (ol_rigs o) -> In i (ol_rigs o') -> False) as D1 by (intros i X Y; apply (D i); cbn; apply in_or_app; now left).
    assert (forall i, In i (flat_map ol_rigs os) -> In i (flat_map ol_rigs os') -> False) as D2 by (intros i X Y; apply (D i); cbn; apply in_or_app; now right).
    specialize (IH ls' os' H' D2). pose proof (old_lod_iff o o') as E. rewrite S1, S2, T1, T2 in E.
    split.
    + inversion 1 as [|? ? ? ? X Y]; subst. apply E in X. destruct X as (_ & X1 & X2). apply IH in Y. destruct Y as (Y1 & Y2 & Y3).
      pose proof (ids_none _ _ D1 X2) as N.
      split; [constructor; assumption|]. split; constructor; try assumption.
      * apply (len0 _ _ S3). exact N.
      * apply (len0 _ _ T3). congruence.
    + intros (X & Y & Z). inversion X as [|? ? ? ? X1 X2]; inversion Y as [|? ? Y1 Y2]; inversion Z as [|? ? Z1 Z2]; subst.
      constructor; [|apply IH; auto]. apply E. split; [reflexivity|]. split; [assumption|].
      apply (len0 _ _ S3) in Y1. apply (len0 _ _ T3) in Z1. congruence.
Qed.
Theorem unshared_equal sk gs gs' os os' : geom_objects sk gs os -> geom_objects sk gs' os' -> unshared os os' ->
  list_eqb (old_geom_eqb A) os os' = true <->
  Forall2 (geom_same R sk) gs gs' /\ Forall (fun l => rigs l = []) (flat_map lods gs) /\ Forall (fun l => rigs l = []) (flat_map lods gs').
Proof.
  rewrite (list_eqb_F2 (old_geom_eqb A) (fun x y => old_geom_eqb A x y = true)) by tauto. rewrite !Forall_flat_map.
  intros H. revert gs' os'. induction H as [|g o gs os (G1 & G2) H IH]; intros gs' os' H' D.
  - destruct H' as [|g' o' gs' os' ? ?]; [split; auto|]. split; [inversion 1|intros (X & _); inversion X].
  - destruct H' as [|g' o' gs' os' (K1 & K2) H']; [split; [inversion 1|intros (X & _); inversion X]|].
    assert (unshared os os') as D2 by (intros i X Y; apply (D i); unfold rig_objects in *; cbn; apply in_or_app; now right).
    assert (forall i, In i (flat_map ol_rigs (og_lods o)) -> In i (flat_map ol_rigs (og_lods o')) -> False) as D1
      by (intros i X Y; apply (D i); unfold rig_objects in *; cbn; apply in_or_app; now left).
    specialize (IH gs' os' H' D2). pose proof (unshared_lods sk _ _ _ _ G2 K2 D1) as E.
    pose proof (old_geom_iff o o') as EG. rewrite G1, K1 in EG. unfold geom_same. split.
    + inversion 1 as [|? ? ? ? X Y]; subst. apply EG in X. destruct X as (X1 & X2). apply E in X2. destruct X2 as (X2 & X3 & X4).
      apply IH in Y. destruct Y as (Y1 & Y2 & Y3). repeat split; constructor; auto.
    + intros (X & Y & Z). inversion X as [|? ? ? ? (X0 & X1) X2]; inversion Y as [|? ? Y1 Y2]; inversion Z as [|? ? Z1 Z2]; subst.
      constructor; [|apply IH; auto]. apply EG. split; [assumption|]. apply E. auto.
Qed.
End Eq.

(** ** One file loaded twice *)
Lemma mat_same_refl L m : mat_all number m -> mat_same (feq (f64 L)) m m.
Proof.
  intros H. split; [exact (mat_alike_refl _ _ (feq_refl L) m H)|]. destruct H as (_ & H).
  exact (opt_alike_refl _ _ (vec3_refl _ _ (feq_refl L)) _ H).
Qed.
Lemma lod_same_refl L sk l : lod_all number l -> lod_same (feq (f64 L)) sk l l.
Proof.
  intros (H1 & H2 & H3 & H4 & H5 & H6). pose proof (opt_alike_refl _ _ (vec3_refl _ _ (feq_refl L))) as V.
  split; [now apply V|]. split; [now apply V|]. split; [now apply V|]. split; [destruct sk; reflexivity|].
  split; [exact (F2_refl _ _ (matrix_refl _ _ (feq_refl L)) _ H5)|]. split; [reflexivity|].
  exact (F2_refl _ _ (mat_same_refl L) _ H6).
Qed.
Theorem same_mesh_equal L sk (m : mesh binary64) a b : mesh_all number m ->
  geom_objects sk (geoms m) a -> geom_objects sk (geoms m) b -> unshared a b ->
  list_eqb (old_geom_eqb (f64 L)) a b = true <-> Forall (fun l => rigs l = []) (lods_of m).
Proof.
  intros (N & _) Ha Hb D. rewrite (unshared_equal (f64 L) sk _ _ _ _ Ha Hb D). unfold lods_of. split; [tauto|]. intros H. split; [|auto].
  clear -N. induction N as [|g t Hg Ht IH]; constructor; [|exact IH]. split; [reflexivity|]. exact (F2_refl _ _ (lod_same_refl L sk) _ Hg).
Qed.

(** ** Old and new comparison *)
Section Cmp.
Context {F : Type} (A : arith F).
Lemma last_only_one {B} (l : list B) : (length l <= 1)%nat -> last_only l = l.
Proof. destruct l as [|x [|]]; cbn; [reflexivity|reflexivity|lia]. Qed.
Theorem old_then_new p v bu a b oa ob : wf_lod p v bu false a -> wf_lod p v bu false b -> (length (nodes a) <= 1)%nat ->
  lod_object false (with_nodes last_only a) oa -> lod_object false (with_nodes last_only b) ob ->
  old_lod_eqb A oa ob = true -> lod_eq A a b = Ok true.
Proof.
  intros Wa Wb N (A1 & A2 & _) (B1 & B2 & _) H. apply (lod_eq_iff A p v bu false a b Wa Wb).
  apply old_lod_iff in H. destruct H as (_ & H & _). rewrite A1, A2, B2 in H. unfold lod_same, with_nodes in H.
  cbn [lod_min lod_max pivot rignum nodenum nodes matnum materials] in H. destruct H as (H1 & H2 & H3 & H4 & H5 & H6 & H7).
  pose proof (wf_lod_nodes _ _ _ _ _ _ Wa Wb H4) as LN. rewrite !last_only_one in H5 by lia.
  destruct Wa as (_ & _ & _ & (RA & RA' & _) & _), Wb as (_ & _ & _ & (RB & RB' & _) & _).
  split; [exact H1|]. split; [exact H2|]. split; [exact H3|]. split; [congruence|]. split; [rewrite RA', RB'; constructor|].
  split; [exact H4|]. split; [exact H5|]. split; [exact H6|]. clear -H7. induction H7 as [|x y t t' (X & _) _ IH]; constructor; auto.
Qed.
End Cmp.
