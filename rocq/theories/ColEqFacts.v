(** Equality of collision mesh parts. *)
From Coq Require Import ZArith List Bool Lia.
From Verif Require Import PyBase Struct Mesh Arith Edit F64 F64Facts Spec SpecEq SpecBounds Col SpecCol ColEq SpecColEq BoundFacts EqFacts ColFacts ColMergeFacts.
From Flocq Require Import IEEE754.Bits.
Import ListNotations.
Open Scope Z_scope.
Open Scope res_scope.

Lemma face_eq_iff a b : face_eq a b = Ok true <-> face_alike a b.
Proof.
  unfold face_eq, face_alike. destruct (Z.eqb_spec (cf_v1 a) (cf_v1 b)), (Z.eqb_spec (cf_v2 a) (cf_v2 b)), (Z.eqb_spec (cf_v3 a) (cf_v3 b));
    cbn [negb]; try (split; [discriminate|intros (? & ? & ? & ?); congruence]).
  destruct (cf_m a) as [x|], (cf_m b) as [y|]; try (split; [discriminate|intros (_ & _ & _ & n & ? & ?); congruence]).
  split.
  - intros H. injection H as H. apply Z.eqb_eq in H. subst x. do 3 (split; [assumption|]). now exists y.
  - intros (_ & _ & _ & n & E1 & E2). injection E1 as ->. injection E2 as ->. now rewrite Z.eqb_refl.
Qed.
Lemma face_eq_raise a b e : face_eq a b = Raise e <-> e = EAttribute /\ face_stuck a b.
Proof.
  unfold face_eq, face_stuck. destruct (Z.eqb_spec (cf_v1 a) (cf_v1 b)), (Z.eqb_spec (cf_v2 a) (cf_v2 b)), (Z.eqb_spec (cf_v3 a) (cf_v3 b));
    cbn [negb]; try (split; [discriminate|intros (? & ? & ? & ? & ?); congruence]).
  destruct (cf_m a) as [x|], (cf_m b) as [y|];
    try (split; [intros H; injection H as <-; auto 6|intros (-> & _); reflexivity]).
  split; [discriminate|]. intros (_ & _ & _ & _ & [?|?]); discriminate.
Qed.

Section Lists.
Context {B : Type} (eq : B -> B -> res bool) (Q : B -> B -> Prop).
Lemma list_eq_iff l l' : (forall x y, In x l -> In y l' -> eq x y = Ok true <-> Q x y) -> list_eq eq l l' = Ok true <-> Forall2 Q l l'.
Proof.
  unfold list_eq. intros H. destruct (Nat.eqb_spec (length l) (length l')) as [E|E].
  - revert l' H E. induction l as [|x t IH]; intros [|y t'] H E; try discriminate; cbn [items_eq]; [split; auto|].
    pose proof (H x y (or_introl eq_refl) (or_introl eq_refl)) as H1.
    assert (items_eq eq t t' = Ok true <-> Forall2 Q t t') as H2 by (apply IH; [|now injection E]; intros; apply H; now right).
    destruct (eq x y) as [[|]|e]; cbn [bind].
    + rewrite H2. split; [intros; constructor; auto; now apply H1|]. now inversion 1.
    + split; [discriminate|]. inversion 1; subst. assert (Ok false = Ok true) by now apply H1. discriminate.
    + split; [discriminate|]. inversion 1; subst. assert (Raise e = Ok true) by now apply H1. discriminate.
  - split; [discriminate|]. intros X. destruct E. clear -X. induction X; cbn; congruence.
Qed.
Lemma list_eq_total l l' : (forall x y, In x l -> In y l' -> exists r, eq x y = Ok r) -> exists r, list_eq eq l l' = Ok r.
Proof.
  unfold list_eq. intros H. destruct (Nat.eqb (length l) (length l')); [|eauto]. revert l' H.
  induction l as [|x t IH]; intros [|y t'] H; cbn [items_eq]; eauto.
  destruct (H x y (or_introl eq_refl) (or_introl eq_refl)) as (r & ->). cbn [bind]. destruct r; [|eauto]. apply IH. intros; apply H; now right.
Qed.
(** Where a comparison of lists fails. *)
Lemma list_eq_raise l l' e : (forall x y, eq x y = Ok true <-> Q x y) -> list_eq eq l l' = Raise e <->
  length l = length l' /\ exists k x y, nth_error l k = Some x /\ nth_error l' k = Some y /\ Forall2 Q (firstn k l) (firstn k l') /\ eq x y = Raise e.
Proof.
  intros H. unfold list_eq. destruct (Nat.eqb_spec (length l) (length l')) as [E|E]; [|split; [discriminate|intros (? & _); congruence]].
  revert l' E. induction l as [|x t IH]; intros [|y t'] E; try discriminate; cbn [items_eq].
  - split; [discriminate|]. intros (_ & [|k] & x & y & X & _); discriminate.
  - assert (length t = length t') as E' by now injection E.
    pose proof (H x y) as H1. destruct (eq x y) as [[|]|e'] eqn:EQ; cbn [bind].
    + rewrite (IH t' E'). split.
      * intros (_ & k & a & b & X1 & X2 & X3 & X4). split; [exact E|]. exists (S k), a, b. repeat split; auto. cbn. constructor; auto. now apply H1.
      * intros (_ & [|k] & a & b & X1 & X2 & X3 & X4).
        { injection X1 as <-. injection X2 as <-. rewrite EQ in X4. discriminate. }
        split; [exact E'|]. exists k, a, b. repeat split; auto. cbn in X3. now inversion X3.
    + split; [discriminate|]. intros (_ & [|k] & a & b & X1 & X2 & X3 & X4).
      * injection X1 as <-. injection X2 as <-. rewrite EQ in X4. discriminate.
      * cbn in X3. inversion X3; subst. assert (Ok false = Ok true) by now apply H1. discriminate.
    + split.
      * intros X. injection X as ->. split; [exact E|]. exists 0%nat, x, y. repeat split; auto. constructor.
      * intros (_ & [|k] & a & b & X1 & X2 & X3 & X4).
        { injection X1 as <-. injection X2 as <-. rewrite EQ in X4. exact X4. }
        cbn in X3. inversion X3; subst. assert (Raise e' = Ok true) by now apply H1. discriminate.
Qed.
End Lists.

Section ColEq.
Context {F : Type} (A : arith F).
Notation R := (fun x y => f_eq A x y = true).

Lemma ystruct_eqb_iff a b : ystruct_eqb A a b = true <-> ystruct_alike R a b.
Proof. unfold ystruct_eqb, ystruct_alike. rewrite !andb_true_iff, !Z.eqb_eq. tauto. Qed.
Lemma zlist_iff l l' : list_eqb Z.eqb l l' = true <-> l = l'.
Proof.
  rewrite (list_eqb_F2 Z.eqb Logic.eq) by apply Z.eqb_eq. split; [|intros <-; induction l; auto].
  induction 1 as [|x y t t' E _ IH]; congruence.
Qed.
Theorem collod_eq_iff a b : collod_eq A a b = Ok true <-> collod_alike R a b.
Proof.
  unfold collod_eq, collod_alike. pose proof (list_eq_iff face_eq face_alike (cl_faces a) (cl_faces b) (fun x y _ _ => face_eq_iff x y)) as HF.
  pose proof (list_eqb_F2 (vec3_eqb A) (vec3_alike R) (vec3_eqb_iff A) (cl_vertices a) (cl_vertices b)) as HV.
  pose proof (list_eqb_F2 (ystruct_eqb A) (ystruct_alike R) ystruct_eqb_iff (cl_ydata a) (cl_ydata b)) as HY.
  pose proof (vec3_eqb_iff A) as H3. unfold feq in H3.
  destruct (list_eq face_eq (cl_faces a) (cl_faces b)) as [fs|e]; cbn [bind].
  - assert (fs = true <-> Forall2 face_alike (cl_faces a) (cl_faces b)) as HF' by (rewrite <- HF; split; congruence).
    rewrite <- HF', <- HV, <- HY, <- !zlist_iff, <- !H3, <- !Z.eqb_eq.
    split.
    + intros X. injection X as X. rewrite !andb_true_iff in X. tauto.
    + intros X. f_equal. rewrite !andb_true_iff. tauto.
  - split; [discriminate|]. intros (_ & _ & X & _). apply HF in X. discriminate.
Qed.
Theorem colsub_eq_iff a b : colsub_eq A a b = Ok true <-> colsub_alike R a b.
Proof.
  unfold colsub_eq, colsub_alike. pose proof (list_eq_iff (collod_eq A) (collod_alike R) (cs_lods a) (cs_lods b) (fun x y _ _ => collod_eq_iff x y)) as H.
  destruct (list_eq _ _ _) as [r|e]; cbn [bind].
  - rewrite <- H, <- Z.eqb_eq. split; [intros X; injection X as X; apply andb_true_iff in X; destruct X as (? & ->); auto|intros (-> & X); injection X as ->; reflexivity].
  - split; [discriminate|]. intros (_ & X). apply H in X. discriminate.
Qed.
Theorem colgeom_eq_iff a b : colgeom_eq A a b = Ok true <-> colgeom_alike R a b.
Proof.
  unfold colgeom_eq, colgeom_alike. pose proof (list_eq_iff (colsub_eq A) (colsub_alike R) (cg_subs a) (cg_subs b) (fun x y _ _ => colsub_eq_iff x y)) as H.
  destruct (list_eq _ _ _) as [r|e]; cbn [bind].
  - rewrite <- H, <- Z.eqb_eq. split; [intros X; injection X as X; apply andb_true_iff in X; destruct X as (? & ->); auto|intros (-> & X); injection X as ->; reflexivity].
  - split; [discriminate|]. intros (_ & X). apply H in X. discriminate.
Qed.

Lemma face_eq_total a b : has_m a -> has_m b -> exists r, face_eq a b = Ok r.
Proof.
  intros Ha Hb. destruct (face_eq a b) as [r|e] eqn:E; [eauto|]. apply face_eq_raise in E. destruct E as (_ & _ & _ & _ & [X|X]); contradiction.
Qed.
Theorem collod_eq_total a b : Forall has_m (cl_faces a) -> Forall has_m (cl_faces b) -> exists r, collod_eq A a b = Ok r.
Proof.
  intros Ha Hb. unfold collod_eq. destruct (list_eq_total face_eq (cl_faces a) (cl_faces b)) as (r & ->); [|cbn [bind]; eauto].
  rewrite Forall_forall in Ha, Hb. intros x y Hx Hy. apply face_eq_total; auto.
Qed.
Theorem colgeom_eq_total a b : Forall has_m (flat_map cl_faces (geom_lods a)) -> Forall has_m (flat_map cl_faces (geom_lods b)) -> exists r, colgeom_eq A a b = Ok r.
Proof.
  intros Ha Hb. rewrite Forall_forall in Ha, Hb. unfold colgeom_eq.
  destruct (list_eq_total (colsub_eq A) (cg_subs a) (cg_subs b)) as (r & ->); [|cbn [bind]; eauto].
  intros s s' Hs Hs'. unfold colsub_eq. destruct (list_eq_total (collod_eq A) (cs_lods s) (cs_lods s')) as (r & ->); [|cbn [bind]; eauto].
  intros l l' Hl Hl'. apply collod_eq_total; apply Forall_forall; intros f Hf; [apply Ha|apply Hb]; apply in_flat_map; [exists l|exists l']; (split; [|assumption]);
    unfold geom_lods; apply in_flat_map; eauto.
Qed.
(** The only error there is. *)
Theorem collod_eq_raise a b e : collod_eq A a b = Raise e <-> e = EAttribute /\ length (cl_faces a) = length (cl_faces b) /\
  exists k x y, nth_error (cl_faces a) k = Some x /\ nth_error (cl_faces b) k = Some y /\
    Forall2 face_alike (firstn k (cl_faces a)) (firstn k (cl_faces b)) /\ face_stuck x y.
Proof.
  unfold collod_eq. pose proof (list_eq_raise face_eq face_alike (cl_faces a) (cl_faces b) e face_eq_iff) as H.
  destruct (list_eq face_eq (cl_faces a) (cl_faces b)) as [r|e'] eqn:E; cbn [bind].
  - split; [discriminate|]. intros (-> & L & k & x & y & X1 & X2 & X3 & X4).
    assert (@Ok bool r = Raise EAttribute) as X; [|discriminate]. apply H. split; [exact L|]. exists k, x, y. repeat split; auto. now apply face_eq_raise.
  - rewrite H. split.
    + intros (L & k & x & y & X1 & X2 & X3 & X4). apply face_eq_raise in X4. destruct X4 as (-> & X4). split; [reflexivity|]. split; [exact L|]. exists k, x, y. auto.
    + intros (-> & L & k & x & y & X1 & X2 & X3 & X4). split; [exact L|]. exists k, x, y. repeat split; auto. now apply face_eq_raise.
Qed.
End ColEq.

(** ** Doubles *)
Section Refl.
Context {F : Type} (P : F -> Prop) (R : F -> F -> Prop).
Hypothesis (HR : forall x, P x -> R x x).
Lemma lod_reread_alike l : collod_all P l -> Forall (fun f => exists n, read_with n f) (cl_faces l) ->
  collod_alike R l (collod_map (fun x => x) reread l) <-> Forall (fun f => cf_m f = Some 0) (cl_faces l).
Proof.
  intros (H1 & H2 & H3 & H4 & H5 & H6) HF. unfold collod_alike.
  cbn [collod_map cl_type cl_facenum cl_faces cl_vertnum cl_vertices cl_vertids cl_min cl_max cl_u7 cl_bmin cl_bmax cl_ynum cl_ydata cl_znum cl_zdata cl_anum cl_adata].
  assert (forall v : vec3 F, vec3_map (fun x => x) v = v) as V by (intros ((x, y), z); reflexivity). rewrite !V.
  assert (map (vec3_map (fun x : F => x)) (cl_vertices l) = cl_vertices l) as -> by (rewrite <- (map_id (cl_vertices l)) at 2; apply map_ext, V).
  assert (map (ystruct_map (fun x : F => x)) (cl_ydata l) = cl_ydata l) as -> by (rewrite <- (map_id (cl_ydata l)) at 2; apply map_ext; now intros []).
  assert (Forall2 face_alike (cl_faces l) (map reread (cl_faces l)) <-> Forall (fun f => cf_m f = Some 0) (cl_faces l)) as EF.
  { clear -HF. induction HF as [|f t (n & E1 & E2) HF IH]; cbn [map]; [split; constructor|]. split.
    - inversion 1 as [|? ? ? ? (_ & _ & _ & k & K1 & K2) T]; subst. constructor; [cbn in K2; congruence|now apply IH].
    - inversion 1 as [|? ? K T]; subst. constructor; [|now apply IH]. repeat split. exists 0. cbn. rewrite E1. auto. }
  rewrite <- EF. pose proof (vec3_refl R P HR) as VR.
  split; [tauto|]. intros X. repeat (split; [now auto|]). split; [eapply F2_refl; eauto|]. repeat (split; [now auto|]).
  split; [|auto]. eapply F2_refl; [|exact H6]. intros y Hy. repeat split. now apply HR.
Qed.
End Refl.

Lemma F2_map_iff {A B} (Q : A -> B -> Prop) (f : A -> B) (P : A -> Prop) l : Forall (fun x => Q x (f x) <-> P x) l -> Forall2 Q l (map f l) <-> Forall P l.
Proof.
  induction 1 as [|x t H HT IH]; cbn [map]; [split; constructor|]. split.
  - inversion 1; subst. constructor; [now apply H|now apply IH].
  - inversion 1; subst. constructor; [now apply H|now apply IH].
Qed.

(** A mesh and what saving and loading makes of it. *)
Theorem reread_equal L (m : colmesh binary64 colface) : col_all number m -> Forall (fun f => exists n, read_with n f) (col_faces m) ->
  list_eq (colgeom_eq (f64 L)) (cm_geoms m) (cm_geoms (faces_map reread m)) = Ok true <-> Forall (fun f => cf_m f = Some 0) (col_faces m).
Proof.
  intros HN HF. rewrite (list_eq_iff _ (colgeom_alike (feq (f64 L)))) by (intros x y _ _; apply colgeom_eq_iff).
  unfold faces_map. cbn [cm_geoms colmesh_map]. unfold col_all in HN. unfold col_faces, col_lods, geom_lods in *.
  rewrite !Forall_flat_map in HF. rewrite !Forall_flat_map in HN. rewrite !Forall_flat_map.
  apply F2_map_iff. rewrite Forall_forall in *. intros g Hg. specialize (HN g Hg). specialize (HF g Hg). rewrite Forall_flat_map in *.
  unfold colgeom_alike. cbn [colgeom_map cg_subnum cg_subs].
  assert (Forall2 (colsub_alike (feq (f64 L))) (cg_subs g) (map (colsub_map (fun x => x) reread) (cg_subs g)) <->
          Forall (fun a => Forall (fun l => Forall (fun f => cf_m f = Some 0) (cl_faces l)) (cs_lods a)) (cg_subs g)) as E.
  { apply F2_map_iff. rewrite Forall_forall in *. intros s Hs. specialize (HN s Hs). specialize (HF s Hs).
    unfold colsub_alike. cbn [colsub_map cs_lodnum cs_lods].
    assert (Forall2 (collod_alike (feq (f64 L))) (cs_lods s) (map (collod_map (fun x => x) reread) (cs_lods s)) <->
            Forall (fun a => Forall (fun f => cf_m f = Some 0) (cl_faces a)) (cs_lods s)) as E.
    { apply F2_map_iff. rewrite Forall_forall in *. intros l Hl. apply (lod_reread_alike number); [apply feq_refl|now apply HN|now apply HF]. }
    rewrite E. tauto. }
  rewrite E. tauto.
Qed.

(** ** An equivalence *)
Lemma face_alike_sym a b : face_alike a b -> face_alike b a.
Proof. intros (H1 & H2 & H3 & n & H4 & H5). repeat (split; [now symmetry|]). eauto. Qed.
Lemma face_alike_trans a b c : face_alike a b -> face_alike b c -> face_alike a c.
Proof. intros (H1 & H2 & H3 & n & H4 & H5) (G1 & G2 & G3 & k & G4 & G5). repeat (split; [congruence|]). exists n. split; congruence. Qed.
Section Equiv.
Context {F : Type} (P : F -> Prop) (R : F -> F -> Prop).
Hypothesis (HR : forall x, P x -> R x x) (HS : forall x y, R x y -> R y x) (HT : forall x y z, R x y -> R y z -> R x z).
Lemma ystruct_sym a b : ystruct_alike R a b -> ystruct_alike R b a.
Proof. intros (H1 & H2 & H3 & H4 & H5). repeat split; auto. Qed.
Lemma ystruct_trans a b c : ystruct_alike R a b -> ystruct_alike R b c -> ystruct_alike R a c.
Proof. intros (H1 & H2 & H3 & H4 & H5) (G1 & G2 & G3 & G4 & G5). repeat split; try congruence. eauto. Qed.
Lemma collod_refl l : collod_all P l -> Forall has_m (cl_faces l) -> collod_alike R l l.
Proof.
  intros (H1 & H2 & H3 & H4 & H5 & H6) HF. pose proof (vec3_refl R P HR) as VR. unfold collod_alike.
  split; [reflexivity|]. split; [reflexivity|]. split.
  { eapply F2_refl; [|exact HF]. intros f Hf. unfold has_m in Hf. destruct (cf_m f) as [n|] eqn:E; [|congruence]. repeat (split; [reflexivity|]). eauto. }
  split; [reflexivity|]. split; [eapply F2_refl; eauto|]. split; [reflexivity|]. split; [auto|]. split; [auto|]. split; [reflexivity|]. split; [auto|].
  split; [auto|]. split; [reflexivity|]. split; [|auto]. eapply F2_refl; [|exact H6]. intros y Hy. repeat split. now apply HR.
Qed.
Lemma collod_sym a b : collod_alike R a b -> collod_alike R b a.
Proof.
  intros (H1 & H2 & H3 & H4 & H5 & H6 & H7 & H8 & H9 & H10 & H11 & H12 & H13 & H14 & H15 & H16 & H17). unfold collod_alike.
  pose proof (vec3_sym R HS) as VS.
  split; [now symmetry|]. split; [now symmetry|]. split; [exact (F2_sym _ face_alike_sym _ _ H3)|]. split; [now symmetry|]. split; [exact (F2_sym _ VS _ _ H5)|].
  split; [now symmetry|]. split; [auto|]. split; [auto|]. split; [now symmetry|]. split; [auto|]. split; [auto|]. split; [now symmetry|].
  split; [exact (F2_sym _ ystruct_sym _ _ H13)|]. repeat (split; [now symmetry|]). now symmetry.
Qed.
Lemma collod_trans a b c : collod_alike R a b -> collod_alike R b c -> collod_alike R a c.
Proof.
  intros (H1 & H2 & H3 & H4 & H5 & H6 & H7 & H8 & H9 & H10 & H11 & H12 & H13 & H14 & H15 & H16 & H17)
    (G1 & G2 & G3 & G4 & G5 & G6 & G7 & G8 & G9 & G10 & G11 & G12 & G13 & G14 & G15 & G16 & G17). unfold collod_alike.
  pose proof (vec3_trans R HT) as VT.
  split; [congruence|]. split; [congruence|]. split; [exact (F2_trans _ face_alike_trans _ _ _ H3 G3)|]. split; [congruence|]. split; [exact (F2_trans _ VT _ _ _ H5 G5)|].
  split; [congruence|]. split; [eauto|]. split; [eauto|]. split; [congruence|]. split; [eauto|]. split; [eauto|]. split; [congruence|].
  split; [exact (F2_trans _ ystruct_trans _ _ _ H13 G13)|]. repeat (split; [congruence|]). congruence.
Qed.
Lemma colgeom_refl g : Forall (collod_all P) (geom_lods g) -> Forall has_m (flat_map cl_faces (geom_lods g)) -> colgeom_alike R g g.
Proof.
  unfold geom_lods. rewrite !Forall_flat_map. intros HA HF. split; [reflexivity|]. pose proof (Forall_and HA HF) as H. eapply F2_refl; [|exact H].
  cbn beta. intros s (S1 & S2). split; [reflexivity|]. pose proof (Forall_and S1 S2) as H'. eapply F2_refl; [|exact H']. cbn beta. intros l (L1 & L2). now apply collod_refl.
Qed.
Lemma colgeom_sym a b : colgeom_alike R a b -> colgeom_alike R b a.
Proof.
  intros (H1 & H2). split; [now symmetry|]. refine (F2_sym _ _ _ _ H2). intros s t (K1 & K2). split; [now symmetry|]. exact (F2_sym _ collod_sym _ _ K2).
Qed.
Lemma colgeom_trans a b c : colgeom_alike R a b -> colgeom_alike R b c -> colgeom_alike R a c.
Proof.
  intros (H1 & H2) (G1 & G2). split; [congruence|]. refine (F2_trans _ _ _ _ _ H2 G2). intros s t u (K1 & K2) (J1 & J2). split; [congruence|].
  exact (F2_trans _ collod_trans _ _ _ K2 J2).
Qed.
End Equiv.

Theorem colgeom_equivalence L : 
  (forall g, Forall (collod_all number) (geom_lods g) -> Forall has_m (flat_map cl_faces (geom_lods g)) -> colgeom_eq (f64 L) g g = Ok true) /\
  (forall a b, colgeom_eq (f64 L) a b = Ok true -> colgeom_eq (f64 L) b a = Ok true) /\
  (forall a b c, colgeom_eq (f64 L) a b = Ok true -> colgeom_eq (f64 L) b c = Ok true -> colgeom_eq (f64 L) a c = Ok true).
Proof.
  split; [|split].
  - intros g H1 H2. apply colgeom_eq_iff. apply (colgeom_refl number); [apply feq_refl|exact H1|exact H2].
  - intros a b. rewrite !colgeom_eq_iff. apply colgeom_sym. apply feq_sym.
  - intros a b c. rewrite !colgeom_eq_iff. apply colgeom_trans; [exact (feq_sym L)|exact (feq_trans L)].
Qed.

(** ** Files *)
Lemma loaded_m {F} p (u : Z -> F) bs m : col_load p u bs = Ok m -> Forall has_m (col_faces m).
Proof.
  intros H. apply col_loaded in H. destruct H as (_ & H). revert H. apply Forall_impl. intros f (n & _ & _ & E). unfold has_m. congruence.
Qed.
Theorem loaded_compare {F} (A : arith F) p (u : Z -> F) bs bs' m m' : col_load p u bs = Ok m -> col_load p u bs' = Ok m' ->
  exists r, list_eq (colgeom_eq A) (cm_geoms m) (cm_geoms m') = Ok r.
Proof.
  intros H H'. apply loaded_m in H, H'. unfold col_faces, col_lods in H, H'. rewrite flat_map_flat_map, Forall_flat_map in H, H'.
  apply list_eq_total. intros x y Hx Hy. rewrite Forall_forall in H, H'. apply colgeom_eq_total; [now apply H|now apply H'].
Qed.
Theorem saved_equal L p bs m : col_load p unpack_f bs = Ok m -> col_all number m ->
  exists out m', write_colmesh p pack_f m = (out, None) /\ col_load p unpack_f out = Ok m' /\
    (list_eq (colgeom_eq (f64 L)) (cm_geoms m) (cm_geoms m') = Ok true <-> Forall (fun f => cf_m f = Some 0) (col_faces m)).
Proof.
  intros H HN. destruct (col_resave p bs m H) as (used & rest & out & _ & _ & _ & W & _ & R & _). specialize (R []). rewrite app_nil_r in R.
  exists out. eexists. split; [exact W|]. split; [exact R|]. apply reread_equal; [exact HN|].
  apply col_loaded in H. destruct H as (_ & H). revert H. apply Forall_impl. intros f (n & _ & E). eauto.
Qed.
