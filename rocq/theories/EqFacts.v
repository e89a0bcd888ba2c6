(** Facts about the equality methods. *)
From Coq Require Import ZArith List Bool Ascii Lia Reals.
From Flocq Require Import IEEE754.Binary IEEE754.Bits.
From Verif Require Import PyBase Struct Mesh Arith F64 Edit Spec SpecEq CodecBase F64Facts MergeFacts BoundFacts.
Import ListNotations.
Open Scope Z_scope.

Lemma head_eqb_eq a b : head_eqb a b = true <-> a = b.
Proof.
  unfold head_eqb. rewrite !andb_true_iff, !Z.eqb_eq. destruct a, b. cbn. split.
  - intros ((((-> & ->) & ->) & ->) & ->). reflexivity.
  - intros H. injection H as -> -> -> -> ->. auto.
Qed.
Lemma geom_eqb_eq {F} (a b : geom F) : geom_eqb a b = true <-> lodnum a = lodnum b /\ length (lods a) = length (lods b).
Proof. unfold geom_eqb. now rewrite andb_true_iff, Z.eqb_eq, Nat.eqb_eq. Qed.

Section Eq.
Context {F : Type} (A : arith F).
Definition feq (x y : F) : Prop := f_eq A x y = true.

Lemma vec3_eqb_iff a b : vec3_eqb A a b = true <-> vec3_alike feq a b.
Proof. destruct a as ((ax, ay), az), b as ((bx, by_), bz). unfold vec3_eqb, vec3_alike, feq. rewrite !andb_true_iff. tauto. Qed.
Lemma vec3_opt_iff a b : vec3_opt_eqb A a b = true <-> opt_alike (vec3_alike feq) a b.
Proof. destruct a, b; cbn [vec3_opt_eqb opt_alike]; try (split; easy). apply vec3_eqb_iff. Qed.
Lemma list_eqb_F2 {B} (eqb : B -> B -> bool) (Q : B -> B -> Prop) : (forall x y, eqb x y = true <-> Q x y) ->
  forall l l', list_eqb eqb l l' = true <-> Forall2 Q l l'.
Proof.
  intros H. induction l as [|x l IH]; intros [|y l']; cbn [list_eqb].
  - split; [constructor|reflexivity].
  - split; [discriminate|intros X; inversion X].
  - split; [discriminate|intros X; inversion X].
  - rewrite andb_true_iff, H, IH. split; [intros (? & ?); now constructor|]. intros X. inversion X. tauto.
Qed.
Lemma matrix_eqb_iff a b : matrix_eqb A a b = true <-> matrix_alike feq a b.
Proof. apply list_eqb_F2, list_eqb_F2. reflexivity. Qed.
Lemma bone_eqb_iff a b : bone_eqb A a b = true <-> bone_alike feq a b.
Proof. unfold bone_eqb, bone_alike. now rewrite andb_true_iff, Z.eqb_eq, matrix_eqb_iff. Qed.
Lemma option_Z_eqb_iff a b : option_Z_eqb a b = true <-> a = b.
Proof. destruct a, b; cbn; try (split; easy). rewrite Z.eqb_eq. split; congruence. Qed.

(** Comparing item by item with the items of a list of the same length. *)
Lemma check_prefix {B} (eq : B -> B -> res bool) (Q : B -> B -> Prop) l : forall l' k,
  Forall (fun x => Forall (fun y => eq x y = Ok true <-> Q x y) l') l -> length l' = (k + length l)%nat ->
  check_all (fun i x => bind (nth_res l' i) (fun y => eq x y)) k l = Ok true <-> Forall2 Q l (skipn k l').
Proof.
  induction l as [|x l IH]; intros l' k H E; cbn [check_all].
  - rewrite skipn_all2 by (cbn in E; lia). split; [constructor|reflexivity].
  - inversion H as [|? ? H1 H2]; subst. unfold nth_res at 1. destruct (nth_error l' k) as [y|] eqn:N.
    2:{ apply nth_error_None in N. cbn in E. lia. }
    assert (skipn k l' = y :: skipn (S k) l') as ->.
    { clear - N. revert k N. induction l' as [|z l' IH]; intros [|k] N; try discriminate; [now injection N as ->|]. cbn in N. cbn [skipn]. now apply IH. }
    rewrite Forall_forall in H1. specialize (H1 y (nth_error_In _ _ N)). specialize (IH l' (S k) H2 ltac:(cbn in *; lia)). cbn [bind].
    destruct (eq x y) as [[|]|e]; cbn [bind].
    + rewrite IH. split; [intros X; constructor; [now apply H1|exact X]|]. intros X. now inversion X.
    + split; [discriminate|]. intros X. inversion X as [|? ? ? ? Y]; subst. apply H1 in Y. discriminate.
    + split; [discriminate|]. intros X. inversion X as [|? ? ? ? Y]; subst. apply H1 in Y. discriminate.
Qed.
Lemma check_same {B} (eq : B -> B -> res bool) (Q : B -> B -> Prop) l l' : length l = length l' ->
  Forall (fun x => Forall (fun y => eq x y = Ok true <-> Q x y) l') l ->
  check_all (fun i x => bind (nth_res l' i) (fun y => eq x y)) 0 l = Ok true <-> Forall2 Q l l'.
Proof. intros E H. rewrite (check_prefix eq Q) by (auto; lia). reflexivity. Qed.
Lemma check_total {B} (eq : B -> B -> res bool) l l' : length l = length l' ->
  Forall (fun x => Forall (fun y => exists r, eq x y = Ok r) l') l ->
  exists r, check_all (fun i x => bind (nth_res l' i) (fun y => eq x y)) 0 l = Ok r.
Proof.
  intros E H. assert (forall k, length l' = (k + length l)%nat -> exists r, check_all (fun i x => bind (nth_res l' i) (fun y => eq x y)) k l = Ok r) as G.
  { clear E. induction l as [|x l IH]; intros k E; cbn [check_all]; [eauto|]. inversion H as [|? ? H1 H2]; subst.
    unfold nth_res at 1. destruct (nth_error l' k) as [y|] eqn:N; [|apply nth_error_None in N; cbn in E; lia]. cbn [bind].
    rewrite Forall_forall in H1. destruct (H1 y (nth_error_In _ _ N)) as ([|] & ->); cbn [bind]; [|eauto]. apply IH; [exact H2|cbn in *; lia]. }
  apply (G 0%nat). lia.
Qed.

Theorem mat_eq_iff a b : mat_eq A a b = Ok true <-> mat_alike feq a b.
Proof.
  unfold mat_eq, mat_alike.
  destruct (option_Z_eqb (alphamode a) (alphamode b)) eqn:E1; cbn [negb];
    [apply option_Z_eqb_iff in E1|split; [discriminate|intros (X & _); apply option_Z_eqb_iff in X; congruence]].
  destruct (bytes_eqb (fxfile a) (fxfile b)) eqn:E2; cbn [negb];
    [apply bytes_eqb_eq in E2|split; [discriminate|intros (_ & X & _); apply bytes_eqb_eq in X; congruence]].
  destruct (bytes_eqb (technique a) (technique b)) eqn:E3; cbn [negb];
    [apply bytes_eqb_eq in E3|split; [discriminate|intros (_ & _ & X & _); apply bytes_eqb_eq in X; congruence]].
  destruct (Z.eqb_spec (mapnum a) (mapnum b)); cbn [negb]; [|split; [discriminate|tauto]].
  destruct (list_eqb bytes_eqb (maps a) (maps b)) eqn:E4; cbn [negb];
    [apply (list_eqb_eq bytes_eqb bytes_eqb_eq) in E4|split; [discriminate|intros (_ & _ & _ & _ & X & _); apply (list_eqb_eq bytes_eqb bytes_eqb_eq) in X; congruence]].
  destruct (Z.eqb_spec (vstart a) (vstart b)); cbn [negb]; [|split; [discriminate|tauto]].
  destruct (Z.eqb_spec (istart a) (istart b)); cbn [negb]; [|split; [discriminate|tauto]].
  destruct (Z.eqb_spec (inum a) (inum b)); cbn [negb]; [|split; [discriminate|tauto]].
  destruct (Z.eqb_spec (vnum a) (vnum b)); cbn [negb]; [|split; [discriminate|tauto]].
  destruct (Z.eqb_spec (mat_u4 a) (mat_u4 b)); cbn [negb]; [|split; [discriminate|tauto]].
  destruct (Z.eqb_spec (mat_u5 a) (mat_u5 b)); cbn [negb]; [|split; [discriminate|tauto]].
  destruct (vec3_opt_eqb A (mmin a) (mmin b)) eqn:E5; cbn [negb].
  - apply vec3_opt_iff in E5. split; [intros _; repeat split; assumption|reflexivity].
  - split; [destruct (fmt_d33 A (mmin a) (mmin b)); discriminate|]. intros X. exfalso. assert (opt_alike (vec3_alike feq) (mmin a) (mmin b)) as Y by tauto.
    apply vec3_opt_iff in Y. congruence.
Qed.

Definition finite3 (v : option (vec3 F)) : Prop := opt_all (vec3_all (fun x => f_finite A x = true)) v.
Lemma fmt_finite v : finite3 (Some v) -> fmt_d3 A (Some v) = Ok tt.
Proof. destruct v as ((x, y), z). cbn. intros (H1 & H2 & H3). unfold fmt_d. now rewrite H1, H2, H3. Qed.
Lemma both_or_none {B} c (x y : option B) : present c x -> present c y -> (exists u v, x = Some u /\ y = Some v) \/ (x = None /\ y = None).
Proof. destruct c; cbn; [intros (u & ->) (v & ->); left; eauto|]. intros -> ->. now right. Qed.
Theorem mat_eq_total p v s a b : wf_mat p v s a -> wf_mat p v s b -> finite3 (mmin a) -> finite3 (mmin b) -> exists r, mat_eq A a b = Ok r.
Proof.
  intros Wa Wb Fa Fb. unfold mat_eq. repeat match goal with |- exists r, (if ?c then _ else _) = _ => destruct c; [solve [eauto]|] end.
  destruct (vec3_opt_eqb A (mmin a) (mmin b)) eqn:E; cbn [negb]; [eauto|].
  assert (present (negb s && (v =? 11)) (mmin a)) as Pa by apply Wa. assert (present (negb s && (v =? 11)) (mmin b)) as Pb by apply Wb.
  destruct (both_or_none _ _ _ Pa Pb) as [(x & y & Ex & Ey)|(Ex & Ey)]; rewrite Ex, Ey in *; [|discriminate].
  unfold fmt_d33. rewrite (fmt_finite x Fa), (fmt_finite y Fb). cbn. eauto.
Qed.
Lemma counts_len {B} p n (l l' : list B) : counts p n l -> counts p n l' -> length l = length l'.
Proof. intros (_ & ->) (_ & ->). reflexivity. Qed.
Theorem rig_eq_iff p a b : wf_rig p a -> wf_rig p b -> rig_eq A a b = Ok true <-> rig_alike feq a b.
Proof.
  intros (Wa & _) (Wb & _). unfold rig_eq, rig_alike. destruct (Z.eqb_spec (bonenum a) (bonenum b)) as [E|N]; cbn [negb]; [|split; [discriminate|tauto]].
  rewrite E in Wa. rewrite (check_same (fun x y => Ok (bone_eqb A x y)) (bone_alike feq)); [tauto|exact (counts_len _ _ _ _ Wa Wb)|].
  apply Forall_forall. intros x _. apply Forall_forall. intros y _. rewrite <- bone_eqb_iff. split; [intros X; now injection X|now intros ->].
Qed.
Lemma rig_eq_total p (a b : rig F) : wf_rig p a -> wf_rig p b -> exists r, rig_eq A a b = Ok r.
Proof.
  intros (Wa & _) (Wb & _). unfold rig_eq. destruct (Z.eqb_spec (bonenum a) (bonenum b)) as [E|N]; cbn [negb]; [|eauto].
  rewrite E in Wa. apply (check_total (fun x y => Ok (bone_eqb A x y))); [exact (counts_len _ _ _ _ Wa Wb)|].
  apply Forall_forall. intros x _. apply Forall_forall. eauto.
Qed.
Lemma wf_lod_rigs p v bu sk (l : lod F) : wf_lod p v bu sk l -> counts p (rignum l) (rigs l) /\ Forall (wf_rig p) (rigs l).
Proof.
  intros (_ & _ & _ & H & _). destruct sk; [tauto|]. destruct H as (-> & -> & _). split; [|constructor]. split; [|reflexivity].
  destruct p as [[|] ?]; vm_compute; split; congruence.
Qed.
Lemma wf_lod_nodes p v bu sk (a b : lod F) : wf_lod p v bu sk a -> wf_lod p v bu sk b -> nodenum a = nodenum b -> length (nodes a) = length (nodes b).
Proof.
  intros (_ & _ & _ & H & _) (_ & _ & _ & H' & _) E. destruct sk; [destruct H as (_ & _ & _ & ->), H' as (_ & _ & _ & ->); reflexivity|].
  destruct H as (_ & _ & _ & H), H' as (_ & _ & _ & H'). destruct bu; [now rewrite H, H'|]. rewrite E in H. eapply counts_len; [apply H|apply H'].
Qed.

Theorem lod_eq_iff p v bu sk a b : wf_lod p v bu sk a -> wf_lod p v bu sk b -> lod_eq A a b = Ok true <-> lod_alike feq a b.
Proof.
  intros Wa Wb. destruct (wf_lod_rigs _ _ _ _ _ Wa) as (Ra & RRa), (wf_lod_rigs _ _ _ _ _ Wb) as (Rb & RRb).
  pose proof (wf_lod_nodes _ _ _ _ _ _ Wa Wb) as NN. destruct Wa as (_ & _ & _ & _ & Ma & _), Wb as (_ & _ & _ & _ & Mb & _).
  unfold lod_eq, lod_alike.
  destruct (vec3_opt_eqb A (lod_min a) (lod_min b)) eqn:E1; cbn [negb];
    [|split; [destruct (fmt_g33 _ _); discriminate|intros (X & _); apply vec3_opt_iff in X; congruence]].
  destruct (vec3_opt_eqb A (lod_max a) (lod_max b)) eqn:E2; cbn [negb];
    [|split; [destruct (fmt_g33 _ _); discriminate|intros (_ & X & _); apply vec3_opt_iff in X; congruence]].
  destruct (vec3_opt_eqb A (pivot a) (pivot b)) eqn:E3; cbn [negb];
    [|split; [destruct (fmt_g33 _ _); discriminate|intros (_ & _ & X & _); apply vec3_opt_iff in X; congruence]].
  apply vec3_opt_iff in E1, E2, E3.
  destruct (Z.eqb_spec (rignum a) (rignum b)) as [E4|]; cbn [negb]; [|split; [discriminate|tauto]]. rewrite E4 in Ra.
  assert (check_all (fun i x => bind (nth_res (rigs b) i) (fun y => rig_eq A x y)) 0 (rigs a) = Ok true <-> Forall2 (rig_alike feq) (rigs a) (rigs b)) as ER.
  { apply (check_same (rig_eq A)); [exact (counts_len _ _ _ _ Ra Rb)|]. rewrite Forall_forall in RRa, RRb |- *. intros x Hx. apply Forall_forall. intros y Hy. apply (rig_eq_iff p); auto. }
  destruct (check_all _ 0 (rigs a)) as [[|]|e]; cbn [bind negb];
    [apply proj1 in ER; specialize (ER eq_refl)|split; [discriminate|intros (_ & _ & _ & _ & X & _); apply ER in X; discriminate]..].
  destruct (Z.eqb_spec (nodenum a) (nodenum b)) as [E5|]; cbn [negb]; [|split; [discriminate|tauto]].
  assert (check_all (fun i x => bind (nth_res (nodes b) i) (fun y => Ok (matrix_eqb A x y))) 0 (nodes a) = Ok true <-> Forall2 (matrix_alike feq) (nodes a) (nodes b)) as EN.
  { apply (check_same (fun x y => Ok (matrix_eqb A x y))); [now apply NN|]. apply Forall_forall. intros x _. apply Forall_forall. intros y _. rewrite <- matrix_eqb_iff. split; [intros X; now injection X|now intros ->]. }
  destruct (check_all _ 0 (nodes a)) as [[|]|e]; cbn [bind negb];
    [apply proj1 in EN; specialize (EN eq_refl)|split; [discriminate|intros (_ & _ & _ & _ & _ & _ & X & _); apply EN in X; discriminate]..].
  destruct (Z.eqb_spec (matnum a) (matnum b)) as [E6|]; cbn [negb]; [|split; [discriminate|tauto]]. rewrite E6 in Ma.
  rewrite (check_same (mat_eq A) (mat_alike feq)); [tauto|exact (counts_len _ _ _ _ Ma Mb)|].
  apply Forall_forall. intros x _. apply Forall_forall. intros y _. apply mat_eq_iff.
Qed.
(** No exception for parts of meshes of the same kind and version, if the minima of
    their materials are finite. *)
Theorem lod_eq_total p v bu sk a b : wf_lod p v bu sk a -> wf_lod p v bu sk b ->
  Forall (fun m => finite3 (mmin m)) (materials a) -> Forall (fun m => finite3 (mmin m)) (materials b) -> exists r, lod_eq A a b = Ok r.
Proof.
  intros Wa Wb Fa Fb. destruct (wf_lod_rigs _ _ _ _ _ Wa) as (Ra & RRa), (wf_lod_rigs _ _ _ _ _ Wb) as (Rb & RRb).
  pose proof (wf_lod_nodes _ _ _ _ _ _ Wa Wb) as NN. destruct Wa as (P1 & P2 & P3 & _ & Ma & MMa), Wb as (Q1 & Q2 & Q3 & _ & Mb & MMb).
  assert (forall c (x y : option (vec3 F)), present c x -> present c y -> vec3_opt_eqb A x y = false -> fmt_g33 x y = Ok tt) as FG.
  { intros c x y Hx Hy. destruct (both_or_none _ _ _ Hx Hy) as [(u & w & -> & ->)|(-> & ->)]; [reflexivity|discriminate]. }
  unfold lod_eq.
  destruct (vec3_opt_eqb A (lod_min a) (lod_min b)) eqn:E1; cbn [negb]; [|rewrite (FG _ _ _ P1 Q1 E1); cbn; eauto].
  destruct (vec3_opt_eqb A (lod_max a) (lod_max b)) eqn:E2; cbn [negb]; [|rewrite (FG _ _ _ P2 Q2 E2); cbn; eauto].
  destruct (vec3_opt_eqb A (pivot a) (pivot b)) eqn:E3; cbn [negb]; [|rewrite (FG _ _ _ P3 Q3 E3); cbn; eauto].
  destruct (Z.eqb_spec (rignum a) (rignum b)) as [E4|]; cbn [negb]; [|eauto]. rewrite E4 in Ra.
  destruct (check_total (rig_eq A) (rigs a) (rigs b) (counts_len _ _ _ _ Ra Rb)) as (r1 & ->).
  { rewrite Forall_forall in RRa, RRb |- *. intros x Hx. apply Forall_forall. intros y Hy. apply (rig_eq_total p); auto. }
  cbn [bind]. destruct (negb r1); [eauto|]. destruct (Z.eqb_spec (nodenum a) (nodenum b)) as [E5|]; cbn [negb]; [|eauto].
  destruct (check_total (fun x y => Ok (matrix_eqb A x y)) (nodes a) (nodes b) (NN E5)) as (r2 & ->).
  { apply Forall_forall. intros x _. apply Forall_forall. eauto. }
  cbn [bind]. destruct (negb r2); [eauto|]. destruct (Z.eqb_spec (matnum a) (matnum b)) as [E6|]; cbn [negb]; [|eauto]. rewrite E6 in Ma.
  apply (check_total (mat_eq A)); [exact (counts_len _ _ _ _ Ma Mb)|].
  rewrite Forall_forall in MMa, MMb, Fa, Fb |- *. intros x Hx. apply Forall_forall. intros y Hy. apply (mat_eq_total p v sk); auto.
Qed.
(** Comparing lods with and without a pivot is an error. *)
Theorem pivot_error a b v v' p bu sk bu' sk' : wf_lod p v bu sk a -> wf_lod p v' bu' sk' b -> (v <=? 6) <> (v' <=? 6) ->
  opt_alike (vec3_alike feq) (lod_min a) (lod_min b) -> opt_alike (vec3_alike feq) (lod_max a) (lod_max b) -> lod_eq A a b = Raise EType.
Proof.
  intros (_ & _ & Pa & _) (_ & _ & Pb & _) NV E1 E2. unfold lod_eq. apply vec3_opt_iff in E1, E2. rewrite E1, E2. cbn [negb].
  destruct (v <=? 6), (v' <=? 6); try easy; cbn in Pa, Pb.
  - destruct Pa as (x & ->). rewrite Pb. reflexivity.
  - destruct Pb as (x & ->). rewrite Pa. reflexivity.
Qed.
End Eq.

(** ** Equivalence *)
Section Equiv.
Context {F : Type} (R : F -> F -> Prop).
Lemma opt_alike_refl {B} (P : B -> Prop) (Q : B -> B -> Prop) : (forall x, P x -> Q x x) -> forall o, opt_all P o -> opt_alike Q o o.
Proof. intros H [x|]; cbn; auto. Qed.
Lemma opt_alike_sym {B} (Q : B -> B -> Prop) : (forall x y, Q x y -> Q y x) -> forall a b, opt_alike Q a b -> opt_alike Q b a.
Proof. intros H [x|] [y|]; cbn; auto. Qed.
Lemma opt_alike_trans {B} (Q : B -> B -> Prop) : (forall x y z, Q x y -> Q y z -> Q x z) -> forall a b c, opt_alike Q a b -> opt_alike Q b c -> opt_alike Q a c.
Proof. intros H [x|] [y|] [z|]; cbn; try easy. apply H. Qed.
Lemma F2_refl {B} (P : B -> Prop) (Q : B -> B -> Prop) : (forall x, P x -> Q x x) -> forall l, Forall P l -> Forall2 Q l l.
Proof. intros H l. induction 1; constructor; auto. Qed.
Lemma F2_sym {B} (Q : B -> B -> Prop) : (forall x y, Q x y -> Q y x) -> forall a b, Forall2 Q a b -> Forall2 Q b a.
Proof. intros H a b. induction 1; constructor; auto. Qed.
Lemma F2_trans {B} (Q : B -> B -> Prop) : (forall x y z, Q x y -> Q y z -> Q x z) -> forall a b c, Forall2 Q a b -> Forall2 Q b c -> Forall2 Q a c.
Proof. intros H a b c H1. revert c. induction H1; intros c H2; inversion H2; subst; constructor; eauto. Qed.

Section Refl.
Variable P : F -> Prop.
Hypothesis HR : forall x, P x -> R x x.
Lemma vec3_refl v : vec3_all P v -> vec3_alike R v v.
Proof. destruct v as ((x, y), z). cbn. intros (H1 & H2 & H3). auto. Qed.
Lemma mat_alike_refl m : mat_all P m -> mat_alike R m m.
Proof. intros (H & _). unfold mat_alike. repeat (split; [reflexivity|]). exact (opt_alike_refl _ _ vec3_refl _ H). Qed.
Lemma matrix_refl m : matrix_all P m -> matrix_alike R m m.
Proof. apply F2_refl. intros r. apply F2_refl. exact HR. Qed.
Lemma lod_alike_refl l : lod_all P l -> lod_alike R l l.
Proof.
  intros (H1 & H2 & H3 & H4 & H5 & H6). unfold lod_alike. split; [exact (opt_alike_refl _ _ vec3_refl _ H1)|]. split; [exact (opt_alike_refl _ _ vec3_refl _ H2)|].
  split; [exact (opt_alike_refl _ _ vec3_refl _ H3)|]. split; [reflexivity|]. split; [|split; [reflexivity|split; [|split; [reflexivity|]]]].
  - refine (F2_refl _ _ _ _ H4). intros r Hr. split; [reflexivity|]. refine (F2_refl _ _ _ _ Hr). intros b Hb. split; [reflexivity|]. now apply matrix_refl.
  - exact (F2_refl _ _ matrix_refl _ H5).
  - exact (F2_refl _ _ mat_alike_refl _ H6).
Qed.
End Refl.
Section Sym.
Hypothesis HR : forall x y, R x y -> R y x.
Lemma vec3_sym a b : vec3_alike R a b -> vec3_alike R b a.
Proof. destruct a as ((?, ?), ?), b as ((?, ?), ?). cbn. intros (H1 & H2 & H3). auto. Qed.
Lemma matrix_sym a b : matrix_alike R a b -> matrix_alike R b a.
Proof. apply F2_sym, F2_sym, HR. Qed.
Lemma mat_alike_sym a b : mat_alike R a b -> mat_alike R b a.
Proof.
  intros (H1 & H2 & H3 & H4 & H5 & H6 & H7 & H8 & H9 & H10 & H11 & H12). unfold mat_alike. repeat (split; [now symmetry|]). exact (opt_alike_sym _ vec3_sym _ _ H12).
Qed.
Lemma lod_alike_sym a b : lod_alike R a b -> lod_alike R b a.
Proof.
  intros (H1 & H2 & H3 & H4 & H5 & H6 & H7 & H8 & H9). unfold lod_alike. split; [exact (opt_alike_sym _ vec3_sym _ _ H1)|]. split; [exact (opt_alike_sym _ vec3_sym _ _ H2)|].
  split; [exact (opt_alike_sym _ vec3_sym _ _ H3)|]. split; [now symmetry|]. split; [|split; [now symmetry|split; [|split; [now symmetry|]]]].
  - refine (F2_sym _ _ _ _ H5). intros r r' (E & H). split; [now symmetry|]. refine (F2_sym _ _ _ _ H). intros x y (E' & H'). split; [now symmetry|]. now apply matrix_sym.
  - exact (F2_sym _ matrix_sym _ _ H7).
  - exact (F2_sym _ mat_alike_sym _ _ H9).
Qed.
End Sym.
Section Trans.
Hypothesis HR : forall x y z, R x y -> R y z -> R x z.
Lemma vec3_trans a b c : vec3_alike R a b -> vec3_alike R b c -> vec3_alike R a c.
Proof. destruct a as ((?, ?), ?), b as ((?, ?), ?), c as ((?, ?), ?). cbn. intros (H1 & H2 & H3) (H4 & H5 & H6). repeat split; eapply HR; eassumption. Qed.
Lemma matrix_trans a b c : matrix_alike R a b -> matrix_alike R b c -> matrix_alike R a c.
Proof. apply F2_trans. intros x y z. apply F2_trans, HR. Qed.
Lemma mat_alike_trans a b c : mat_alike R a b -> mat_alike R b c -> mat_alike R a c.
Proof.
  intros (H1 & H2 & H3 & H4 & H5 & H6 & H7 & H8 & H9 & H10 & H11 & H12) (G1 & G2 & G3 & G4 & G5 & G6 & G7 & G8 & G9 & G10 & G11 & G12).
  unfold mat_alike. repeat (split; [congruence|]). exact (opt_alike_trans _ vec3_trans _ _ _ H12 G12).
Qed.
Lemma lod_alike_trans a b c : lod_alike R a b -> lod_alike R b c -> lod_alike R a c.
Proof.
  intros (H1 & H2 & H3 & H4 & H5 & H6 & H7 & H8 & H9) (G1 & G2 & G3 & G4 & G5 & G6 & G7 & G8 & G9). unfold lod_alike.
  split; [exact (opt_alike_trans _ vec3_trans _ _ _ H1 G1)|]. split; [exact (opt_alike_trans _ vec3_trans _ _ _ H2 G2)|].
  split; [exact (opt_alike_trans _ vec3_trans _ _ _ H3 G3)|]. split; [congruence|]. split; [|split; [congruence|split; [|split; [congruence|]]]].
  - refine (F2_trans _ _ _ _ _ H5 G5). intros r r' r'' (E & H) (E2 & H'). split; [congruence|]. refine (F2_trans _ _ _ _ _ H H'). intros x y z (E' & K) (E3 & K'). split; [congruence|]. exact (matrix_trans _ _ _ K K').
  - exact (F2_trans _ matrix_trans _ _ _ H7 G7).
  - exact (F2_trans _ mat_alike_trans _ _ _ H9 G9).
Qed.
End Trans.
End Equiv.

Lemma b64_eq_number x y : b64_eq x y = true -> number x /\ number y.
Proof. unfold b64_eq, b64_compare, number. destruct x, y; cbn; try discriminate; auto. Qed.
Lemma f64_eq_ord x y : b64_eq x y = true <-> number x /\ number y /\ ord x = ord y.
Proof.
  split.
  - intros H. destruct (b64_eq_number _ _ H) as (Hx & Hy). split; [exact Hx|]. split; [exact Hy|]. unfold b64_eq in H. rewrite compare_ord in H by assumption.
    destruct (Raux.Rcompare_spec (ord x) (ord y)); try discriminate. assumption.
  - intros (Hx & Hy & E). unfold b64_eq. rewrite compare_ord by assumption. rewrite E. now rewrite Raux.Rcompare_Eq.
Qed.
Lemma feq_refl L x : number x -> feq (f64 L) x x.
Proof. intros H. apply f64_eq_ord. auto. Qed.
Lemma feq_sym L x y : feq (f64 L) x y -> feq (f64 L) y x.
Proof. intros H. apply f64_eq_ord in H. apply f64_eq_ord. intuition. Qed.
Lemma feq_trans L x y z : feq (f64 L) x y -> feq (f64 L) y z -> feq (f64 L) x z.
Proof. intros H G. apply f64_eq_ord in H, G. apply f64_eq_ord. destruct H as (? & ? & H), G as (? & ? & G). split; [assumption|]. split; [assumption|congruence]. Qed.

(** [==] on consistent lods without NaN is an equivalence; likewise on materials. *)
Section Equivalence.
Variables (L : libm) (p : plat) (v : Z) (bu sk : bool).
Notation eq := (lod_eq (f64 L)).
Notation good l := (wf_lod p v bu sk l).
Theorem lod_eq_refl a : good a -> lod_all number a -> eq a a = Ok true.
Proof. intros W H. apply (lod_eq_iff (f64 L) p v bu sk); auto. apply (lod_alike_refl _ number); [apply feq_refl|exact H]. Qed.
Theorem lod_eq_sym a b : good a -> good b -> eq a b = Ok true -> eq b a = Ok true.
Proof. intros Wa Wb H. apply (lod_eq_iff (f64 L) p v bu sk) in H; auto. apply (lod_eq_iff (f64 L) p v bu sk); auto. apply lod_alike_sym; [apply feq_sym|exact H]. Qed.
Theorem lod_eq_trans a b c : good a -> good b -> good c -> eq a b = Ok true -> eq b c = Ok true -> eq a c = Ok true.
Proof.
  intros Wa Wb Wc H G. apply (lod_eq_iff (f64 L) p v bu sk) in H; auto. apply (lod_eq_iff (f64 L) p v bu sk) in G; auto.
  apply (lod_eq_iff (f64 L) p v bu sk); auto. refine (lod_alike_trans _ _ _ _ _ H G). apply feq_trans.
Qed.
Theorem mat_eq_refl a : mat_all number a -> mat_eq (f64 L) a a = Ok true.
Proof. intros H. apply mat_eq_iff. apply (mat_alike_refl _ number); [apply feq_refl|exact H]. Qed.
Theorem mat_eq_sym a b : mat_eq (f64 L) a b = Ok true -> mat_eq (f64 L) b a = Ok true.
Proof. rewrite !mat_eq_iff. apply mat_alike_sym. apply feq_sym. Qed.
Theorem mat_eq_trans a b c : mat_eq (f64 L) a b = Ok true -> mat_eq (f64 L) b c = Ok true -> mat_eq (f64 L) a c = Ok true.
Proof. rewrite !mat_eq_iff. apply mat_alike_trans. apply feq_trans. Qed.
End Equivalence.
