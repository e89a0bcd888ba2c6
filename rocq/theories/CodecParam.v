(** The loader and the serialiser treat floats as opaque 32-bit patterns: loading with
    a conversion [u] is loading raw patterns and converting afterwards; exporting with
    a conversion [pk] is converting first and exporting raw patterns. *)
From Coq Require Import ZArith List Bool Lia.
From Verif Require Import PyBase Struct Mesh Spec CodecBase CodecRaw.
Import ListNotations.
Open Scope Z_scope.
Open Scope res_scope.

Definition via {A B} (f : A -> B) (r : reader A) (r' : reader B) : Prop :=
  forall bs, r' bs = rmap (fun x => (f (fst x), snd x)) (r bs).

Lemma via_refl {A} (r : reader A) : via (fun x => x) r r.
Proof. intros bs. destruct (r bs) as [[a rest]|e]; reflexivity. Qed.

Lemma via_ret {A B} (f : A -> B) a b : f a = b -> via f (rret a) (rret b).
Proof. intros <- bs. reflexivity. Qed.

Lemma via_bind {A A' B B'} (f : A -> A') (g : B -> B') r r' k k' :
  via f r r' -> (forall a, via g (k a) (k' (f a))) -> via g (rbind r k) (rbind r' k').
Proof.
  intros H1 H2 bs. unfold rbind. rewrite H1. destruct (r bs) as [[a rest]|e]; simpl; [|reflexivity].
  apply H2.
Qed.

Lemma via_bind_same {A B B'} (g : B -> B') (r : reader A) k k' :
  (forall a, via g (k a) (k' a)) -> via g (rbind r k) (rbind r k').
Proof. intros H. eapply via_bind; [apply via_refl|]. auto. Qed.

Lemma via_n {A B} (f : A -> B) r r' n : via f r r' -> via (map f) (read_n r n) (read_n r' n).
Proof.
  intros H. induction n as [|n IH]; simpl; [apply via_ret; reflexivity|].
  eapply via_bind; [exact H|]. intros a. eapply via_bind; [exact IH|]. intros t.
  apply via_ret. reflexivity.
Qed.

Lemma via_each {A A' B B'} (f : A -> A') (g : B -> B') r r' l :
  (forall a, via g (r a) (r' (f a))) -> via (map g) (read_each r l) (read_each r' (map f l)).
Proof.
  intros H. induction l as [|a t IH]; simpl; [apply via_ret; reflexivity|].
  eapply via_bind; [apply H|]. intros b. eapply via_bind; [exact IH|]. intros t'.
  apply via_ret. reflexivity.
Qed.

Section Load.
Context {F : Type} (p : plat) (u : Z -> F).
Ltac vs := apply via_bind_same; intros.

Lemma via_float3 : via (vec3_map u) (read_float3 p raw) (read_float3 p u).
Proof. unfold read_float3. vs. apply via_ret. reflexivity. Qed.

Lemma via_row4 : via (map u) (read_row4 p raw) (read_row4 p u).
Proof.
  unfold read_row4. vs. apply via_ret. rewrite map_map. reflexivity.
Qed.

Lemma via_matrix4 : via (matrix_map u) (read_matrix4 p raw) (read_matrix4 p u).
Proof.
  unfold read_matrix4. do 4 (eapply via_bind; [apply via_row4|intros]). apply via_ret. reflexivity.
Qed.

Lemma via_bone : via (bone_map u) (load_bone p raw) (load_bone p u).
Proof.
  unfold load_bone. vs. eapply via_bind; [apply via_matrix4|intros]. apply via_ret. reflexivity.
Qed.
Lemma via_rig : via (rig_map u) (load_rig p raw) (load_rig p u).
Proof.
  unfold load_rig. vs. eapply via_bind; [apply via_n, via_bone|intros]. apply via_ret. reflexivity.
Qed.

Lemma via_geom : via (geom_map u) (load_geom p) (load_geom p).
Proof.
  unfold load_geom. vs. apply via_ret. unfold geom_map. cbn. f_equal.
  induction (Z.to_nat a); simpl; [reflexivity|]. f_equal. auto.
Qed.

Lemma via_vertices s f n : via (map u) (load_vertices p raw s f n) (load_vertices p u s f n).
Proof.
  unfold load_vertices, read_float. vs.
  intros bs. unfold rbind. destruct (read_items 4 a bs) as [[l rest]|e]; [|reflexivity].
  cbn [bind]. unfold rret at 1 3. cbn [bind]. unfold unwrap. destruct (a =? 1).
  - destruct l as [|x [|y t]]; cbn; try reflexivity. rewrite map_map. reflexivity.
  - cbn. rewrite map_map. reflexivity.
Qed.

Lemma via_nodes_rigs version bundled skinned l :
  via (lod_map u) (load_nodes_rigs p raw version bundled skinned l)
                  (load_nodes_rigs p u version bundled skinned (lod_map u l)).
Proof.
  unfold load_nodes_rigs.
  eapply via_bind; [apply via_float3|intros mn].
  eapply via_bind; [apply via_float3|intros mx].
  eapply via_bind with (f := option_map (vec3_map u)).
  { destruct (version <=? 6).
    - eapply via_bind; [apply via_float3|intros]. apply via_ret. reflexivity.
    - apply via_ret. reflexivity. }
  intros pv. destruct skinned.
  - vs. eapply via_bind; [apply via_n, via_rig|intros]. apply via_ret. reflexivity.
  - vs. eapply via_bind with (f := map (matrix_map u)).
    { destruct bundled; [apply via_ret; reflexivity|apply via_n, via_matrix4]. }
    intros ns. apply via_ret. unfold lod_map. cbn. rewrite map_app. reflexivity.
Qed.

Lemma via_mat version skinned :
  via (mat_map u) (load_mat p raw version skinned) (load_mat p u version skinned).
Proof.
  unfold load_mat. do 11 vs.
  eapply via_bind with (f := fun x => (option_map (vec3_map u) (fst x), option_map (vec3_map u) (snd x))).
  { destruct (negb skinned && (version =? 11)).
    - eapply via_bind; [apply via_float3|intros]. eapply via_bind; [apply via_float3|intros].
      apply via_ret. reflexivity.
    - apply via_ret. reflexivity. }
  intros mm. apply via_ret. reflexivity.
Qed.

Lemma via_materials version skinned l :
  via (lod_map u) (load_materials p raw version skinned l)
                  (load_materials p u version skinned (lod_map u l)).
Proof.
  unfold load_materials. vs. eapply via_bind; [apply via_n, via_mat|intros].
  apply via_ret. reflexivity.
Qed.

Lemma via_each_lod r r' gs :
  (forall l, via (lod_map u) (r l) (r' (lod_map u l))) ->
  via (map (geom_map u)) (each_lod r gs) (each_lod r' (map (geom_map u) gs)).
Proof.
  intros H. unfold each_lod. apply via_each. intros g. cbn [geom_map lods lodnum].
  eapply via_bind; [apply via_each; exact H|intros]. apply via_ret. reflexivity.
Qed.

Theorem via_load_body k : via (mesh_map u) (load_body p raw k) (load_body p u k).
Proof.
  unfold load_body. do 3 vs. eapply via_bind; [apply via_n, via_geom|intros gs].
  do 5 vs. eapply via_bind; [apply via_vertices|intros vs]. do 3 vs.
  eapply via_bind; [apply via_each_lod; intros; apply via_nodes_rigs|intros].
  eapply via_bind; [apply via_each_lod; intros; apply via_materials|intros].
  apply via_ret. reflexivity.
Qed.

Theorem load_via k bs : load p u k bs = rmap (mesh_map u) (load p raw k bs).
Proof.
  unfold load. rewrite via_load_body. destruct (load_body p raw k bs) as [[m rest]|e]; [|reflexivity].
  cbn. destruct rest; reflexivity.
Qed.
End Load.

Section Export.
Context {F : Type} (p : plat) (pk : F -> Z).

Lemma ex_float3 o : write_float3_opt p pk o = write_float3_opt p raw (option_map (vec3_map pk) o).
Proof. destruct o as [[[x y] z]|]; reflexivity. Qed.

Lemma ex_matrix4 m : write_matrix4 p pk m = write_matrix4 p raw (matrix_map pk m).
Proof.
  unfold write_matrix4. apply wall_ext. apply Forall_forall. intros k _.
  unfold write_row4, matrix_map. rewrite nth_error_map. destruct (nth_error m k); simpl; [|reflexivity].
  rewrite map_length. destruct (Nat.eqb (length l) 4); [|reflexivity]. f_equal.
  induction l as [|x t IH]; simpl; [reflexivity|]. rewrite IH. reflexivity.
Qed.

Lemma wall_ext' {A} (w w' : A -> writer) l : (forall a, w a = w' a) -> wall w l = wall w' l.
Proof. intros H. apply wall_ext. apply Forall_forall. auto. Qed.

Lemma ex_rig r : export_rig p pk r = export_rig p raw (rig_map pk r).
Proof.
  unfold export_rig. cbn [bonenum bones rig_map]. f_equal. rewrite wall_map. apply wall_ext'.
  intros b. unfold export_bone. cbn [bone_map bone_id bone_matrix]. rewrite ex_matrix4. reflexivity.
Qed.

Lemma ex_nodes v b s l : export_nodes p pk v b s l = export_nodes p raw v b s (lod_map pk l).
Proof.
  unfold export_nodes. rewrite !ex_float3. cbn [lod_map lod_min lod_max pivot rignum rigs nodenum nodes].
  rewrite !wall_map, (wall_ext' _ _ (rigs l) ex_rig).
  destruct s; [reflexivity|]. destruct b; [reflexivity|]. do 4 f_equal.
  apply wall_ext'. exact ex_matrix4.
Qed.

Lemma ex_mat v s m : export_mat p pk v s m = export_mat p raw v s (mat_map pk m).
Proof. unfold export_mat. rewrite !ex_float3. reflexivity. Qed.

Lemma ex_materials v s l : export_materials p pk v s l = export_materials p raw v s (lod_map pk l).
Proof.
  unfold export_materials. cbn [lod_map matnum materials]. rewrite wall_map.
  rewrite (wall_ext' _ _ (materials l) (ex_mat v s)). reflexivity.
Qed.

Theorem export_via m : export p pk m = export p raw (mesh_map pk m).
Proof.
  unfold export. cbn [mesh_map m_kind m_head m_u1 geomnum geoms vertattribnum vertex_attributes
     vertformat vertstride vertnum vertices indexnum index m_u2].
  rewrite !wall_map.
  assert (forall v b s, wall (fun g => wall (export_nodes p pk v b s) (lods g)) (geoms m) =
     wall (fun g => wall (export_nodes p raw v b s) (lods (geom_map pk g))) (geoms m)) as E1.
  { intros. apply wall_ext'. intros g. cbn [geom_map lods]. rewrite wall_map. apply wall_ext'.
    intros. apply ex_nodes. }
  assert (forall v s, wall (fun g => wall (export_materials p pk v s) (lods g)) (geoms m) =
     wall (fun g => wall (export_materials p raw v s) (lods (geom_map pk g))) (geoms m)) as E2.
  { intros. apply wall_ext'. intros g. cbn [geom_map lods]. rewrite wall_map. apply wall_ext'.
    intros. apply ex_materials. }
  rewrite E1, E2. reflexivity.
Qed.
End Export.

(** ** mesh_map *)
Section MapFacts.
Lemma vec3_map_map {A B C} (f : A -> B) (g : B -> C) v : vec3_map g (vec3_map f v) = vec3_map (fun x => g (f x)) v.
Proof. destruct v as [[x y] z]. reflexivity. Qed.
Lemma option_vec3_map_map {A B C} (f : A -> B) (g : B -> C) o :
  option_map (vec3_map g) (option_map (vec3_map f) o) = option_map (vec3_map (fun x => g (f x))) o.
Proof. destruct o; simpl; [rewrite vec3_map_map|]; reflexivity. Qed.
Lemma matrix_map_map {A B C} (f : A -> B) (g : B -> C) m :
  matrix_map g (matrix_map f m) = matrix_map (fun x => g (f x)) m.
Proof. unfold matrix_map. rewrite map_map. apply map_ext. intros. apply map_map. Qed.

Theorem mesh_map_map {A B C} (f : A -> B) (g : B -> C) m :
  mesh_map g (mesh_map f m) = mesh_map (fun x => g (f x)) m.
Proof.
  unfold mesh_map. cbn. f_equal; [|apply map_map].
  rewrite map_map. apply map_ext. intros [ln ls]. unfold geom_map. cbn. f_equal.
  rewrite map_map. apply map_ext. intros l. unfold lod_map. cbn. rewrite !option_vec3_map_map. f_equal.
  - rewrite map_map. apply map_ext. intros [n b]. unfold rig_map. cbn. f_equal.
    rewrite map_map. apply map_ext. intros [i m']. unfold bone_map. cbn [bone_id bone_matrix]. rewrite matrix_map_map. reflexivity.
  - rewrite map_map. apply map_ext. intros. apply matrix_map_map.
  - rewrite map_map. apply map_ext. intros mt. unfold mat_map. cbn. rewrite !option_vec3_map_map. reflexivity.
Qed.

Context {A B : Type} (P : A -> Prop) (f g : A -> B) (Hfg : forall x, P x -> f x = g x).
Lemma vec3_map_ext v : vec3_all P v -> vec3_map f v = vec3_map g v.
Proof. destruct v as [[x y] z]. intros (H1 & H2 & H3). simpl. rewrite !Hfg by auto. reflexivity. Qed.
Lemma opt_map_ext o : opt_all (vec3_all P) o -> option_map (vec3_map f) o = option_map (vec3_map g) o.
Proof. destruct o; simpl; intros; [rewrite vec3_map_ext by auto|]; reflexivity. Qed.
Lemma map_ext_all {C D} (Q : C -> Prop) (h k : C -> D) l :
  (forall x, Q x -> h x = k x) -> Forall Q l -> map h l = map k l.
Proof. intros H. induction 1; simpl; [reflexivity|]. rewrite H by auto. congruence. Qed.
Lemma matrix_map_ext m : matrix_all P m -> matrix_map f m = matrix_map g m.
Proof. apply map_ext_all. intros r. apply map_ext_all. auto. Qed.

Theorem mesh_map_ext m : mesh_all P m -> mesh_map f m = mesh_map g m.
Proof.
  intros (H1 & H2). unfold mesh_map. f_equal; [|eapply map_ext_all; eauto].
  eapply map_ext_all; [|exact H1]. intros ge Hg. unfold geom_map. f_equal.
  eapply map_ext_all; [|exact Hg]. intros l (L1 & L2 & L3 & L4 & L5 & L6).
  unfold lod_map. rewrite !opt_map_ext by auto. f_equal.
  - eapply map_ext_all; [|exact L4]. intros r Hr. unfold rig_map. f_equal.
    eapply map_ext_all; [|exact Hr]. intros b Hb. unfold bone_map. rewrite matrix_map_ext by auto. reflexivity.
  - eapply map_ext_all; [|exact L5]. intros. apply matrix_map_ext; auto.
  - eapply map_ext_all; [|exact L6]. intros mt (M1 & M2). unfold mat_map.
    rewrite !opt_map_ext by auto. reflexivity.
Qed.
End MapFacts.

Lemma map_id_ext {A} (f : A -> A) l : (forall x, f x = x) -> map f l = l.
Proof. intros H. rewrite <- (map_id l) at 2. apply map_ext. auto. Qed.

Theorem mesh_map_id {A} (m : mesh A) : mesh_map (fun x => x) m = m.
Proof.
  assert (forall v : vec3 A, vec3_map (fun x => x) v = v) as Hv by (intros [[x y] z]; reflexivity).
  assert (forall o : option (vec3 A), option_map (vec3_map (fun x => x)) o = o) as Ho
    by (intros [v|]; simpl; rewrite ?Hv; reflexivity).
  assert (forall mx : matrix4 A, matrix_map (fun x => x) mx = mx) as Hm
    by (intros mx; apply map_id_ext; intros; apply map_id).
  destruct m. unfold mesh_map. cbn. rewrite map_id. f_equal.
  apply map_id_ext. intros [ln ls]. unfold geom_map. cbn. f_equal.
  apply map_id_ext. intros []. unfold lod_map. cbn. rewrite !Ho. f_equal.
  - apply map_id_ext. intros []. unfold rig_map. cbn. f_equal.
    apply map_id_ext. intros [i mx]. unfold bone_map. cbn [Mesh.bone_id Mesh.bone_matrix]. rewrite Hm. reflexivity.
  - apply map_id_ext. auto.
  - apply map_id_ext. intros []. unfold mat_map. cbn. rewrite !Ho. reflexivity.
Qed.

(** Every float of [mesh_map f m] satisfies [Q] iff every float of [m] satisfies [Q ∘ f]. *)
Lemma Forall_map_iff {A B} (f : A -> B) (Q : B -> Prop) (R : A -> Prop) l :
  (forall x, R x <-> Q (f x)) -> Forall Q (map f l) <-> Forall R l.
Proof.
  intros H. rewrite Forall_map. apply Forall_iff. intros. symmetry. apply H.
Qed.

Theorem mesh_all_map {A B} (f : A -> B) (Q : B -> Prop) m :
  mesh_all Q (mesh_map f m) <-> mesh_all (fun x => Q (f x)) m.
Proof.
  assert (forall v : vec3 A, vec3_all (fun x => Q (f x)) v <-> vec3_all Q (vec3_map f v)) as Hv
    by (intros [[x y] z]; simpl; tauto).
  assert (forall o, opt_all (vec3_all Q) (option_map (vec3_map f) o) <-> opt_all (vec3_all (fun x => Q (f x))) o) as Ho
    by (intros [v|]; simpl; rewrite ?Hv; tauto).
  assert (forall mx, matrix_all (fun x => Q (f x)) mx <-> matrix_all Q (matrix_map f mx)) as Hm.
  { intros mx. unfold matrix_all, matrix_map. symmetry. apply Forall_map_iff. intros r.
    symmetry. apply Forall_map_iff. tauto. }
  unfold mesh_all. cbn [mesh_map geoms vertices].
  rewrite (Forall_map_iff f Q (fun x => Q (f x))) by tauto.
  rewrite (Forall_map_iff (geom_map f) _ (fun g => Forall (lod_all (fun x => Q (f x))) (lods g))); [tauto|].
  intros g. cbn [geom_map lods]. symmetry. apply Forall_map_iff. intros l.
  unfold lod_all. cbn [lod_map lod_min lod_max pivot rigs nodes materials]. rewrite !Ho.
  rewrite (Forall_map_iff (rig_map f) _ (fun r => Forall (fun b => matrix_all (fun x => Q (f x)) (bone_matrix b)) (bones r))).
  2:{ intros r. cbn [rig_map bones]. symmetry. apply Forall_map_iff. intros b. apply Hm. }
  rewrite (Forall_map_iff (matrix_map f) _ (matrix_all (fun x => Q (f x)))) by apply Hm.
  rewrite (Forall_map_iff (mat_map f) _ (mat_all (fun x => Q (f x)))).
  2:{ intros mt. unfold mat_all. cbn [mat_map mmin mmax]. rewrite !Ho. tauto. }
  tauto.
Qed.

Lemma present_map {A B} (f : A -> B) c o : present c (option_map f o) <-> present c o.
Proof.
  destruct c, o; simpl; split; intros H; try discriminate; try (destruct H; discriminate); eauto; try reflexivity.
Qed.

(** Consistency does not look at the floats. *)
Theorem wf_map {A B} (f : A -> B) p m : wf p (mesh_map f m) <-> wf p m.
Proof.
  assert (forall mx : matrix4 A, wf_matrix mx <-> wf_matrix (matrix_map f mx)) as Hm.
  { intros mx. unfold wf_matrix, matrix_map. rewrite map_length.
    rewrite (Forall_map_iff (map f) _ (fun r => length r = 4%nat)); [tauto|].
    intros r. rewrite map_length. tauto. }
  assert (forall C D (g : C -> D) n l, counts p n (map g l) <-> counts p n l) as Hc.
  { intros. unfold counts. rewrite map_length. tauto. }
  unfold wf. cbn [mesh_map m_kind m_head m_u1 geomnum geoms vertattribnum vertex_attributes
     vertformat vertstride vertnum vertices indexnum index m_u2].
  rewrite Hc. unfold zlen. rewrite map_length.
  rewrite (Forall_map_iff (geom_map f) _
     (wf_geom p (h_version (m_head m)) (isBundledMesh (m_kind m)) (isSkinnedMesh (m_kind m)))); [tauto|].
  intros g. unfold wf_geom. cbn [geom_map lodnum lods]. rewrite Hc.
  rewrite (Forall_map_iff (lod_map f) _
     (wf_lod p (h_version (m_head m)) (isBundledMesh (m_kind m)) (isSkinnedMesh (m_kind m)))); [tauto|].
  intros l. unfold wf_lod.
  cbn [lod_map lod_min lod_max pivot rignum rigs nodenum nodes matnum materials].
  assert (Forall (wf_rig p) (map (rig_map f) (rigs l)) <-> Forall (wf_rig p) (rigs l)) as E1.
  { apply Forall_map_iff. intros r. unfold wf_rig. cbn [rig_map bonenum bones]. rewrite Hc.
    rewrite (Forall_map_iff (bone_map f) _ (wf_bone p)); [tauto|].
    intros b. unfold wf_bone. cbn [bone_map bone_id bone_matrix]. rewrite Hm. tauto. }
  assert (Forall wf_matrix (map (matrix_map f) (nodes l)) <-> Forall wf_matrix (nodes l)) as E2.
  { apply Forall_map_iff. apply Hm. }
  assert (forall v s, Forall (wf_mat p v s) (map (mat_map f) (materials l)) <-> Forall (wf_mat p v s) (materials l)) as E3.
  { intros. apply Forall_map_iff. intros mt. unfold wf_mat.
    cbn [mat_map alphamode fxfile technique mapnum maps vstart istart inum vnum mat_u4 mat_u5 mmin mmax].
    rewrite !present_map. tauto. }
  assert (forall C D (g : C -> D) l, map g l = [] <-> l = []) as Hn.
  { intros C D g' l'. destruct l'; simpl; split; intros; try discriminate; auto. }
  destruct (isSkinnedMesh (m_kind m)), (isBundledMesh (m_kind m));
    rewrite !present_map, ?E1, ?E2, ?E3, ?Hn, ?Hc; tauto.
Qed.

Section MeshAll.
Context {A : Type} (P Q R : A -> Prop) (H : forall x, P x -> Q x -> R x).
Lemma vec3_all2 v : vec3_all P v -> vec3_all Q v -> vec3_all R v.
Proof. destruct v as [[x y] z]. simpl. intuition. Qed.
Lemma opt_all2 o : opt_all (vec3_all P) o -> opt_all (vec3_all Q) o -> opt_all (vec3_all R) o.
Proof. destruct o; simpl; auto using vec3_all2. Qed.
Lemma Forall2_impl {B} (P' Q' R' : B -> Prop) l : (forall x, P' x -> Q' x -> R' x) ->
  Forall P' l -> Forall Q' l -> Forall R' l.
Proof. intros HH H1 H2. rewrite Forall_forall in *. auto. Qed.
Lemma matrix_all2 m : matrix_all P m -> matrix_all Q m -> matrix_all R m.
Proof. apply Forall2_impl. intros x. apply Forall2_impl. exact H. Qed.
Lemma mesh_all2 m : mesh_all P m -> mesh_all Q m -> mesh_all R m.
Proof.
  intros (P1 & P2) (Q1 & Q2). split; [|eapply Forall2_impl; eauto].
  eapply Forall2_impl; [|exact P1|exact Q1]. intros g. apply Forall2_impl.
  intros l (a1 & a2 & a3 & a4 & a5 & a6) (b1 & b2 & b3 & b4 & b5 & b6).
  repeat split; auto using opt_all2.
  - eapply Forall2_impl; [|exact a4|exact b4]. intros r. apply Forall2_impl. intros b. apply matrix_all2.
  - eapply Forall2_impl; [|exact a5|exact b5]. intros b. apply matrix_all2.
  - eapply Forall2_impl; [|exact a6|exact b6]. intros mt (c1 & c2) (d1 & d2). split; auto using opt_all2.
Qed.
End MeshAll.

Lemma mesh_all_and {A} (P Q : A -> Prop) m : mesh_all P m -> mesh_all Q m -> mesh_all (fun x => P x /\ Q x) m.
Proof. apply mesh_all2. auto. Qed.

Lemma mesh_all_true {A} (Q : A -> Prop) m : (forall x, Q x) -> mesh_all Q m.
Proof.
  intros H.
  assert (forall v, vec3_all Q v) as Hv by (intros [[x y] z]; simpl; auto).
  assert (forall o, opt_all (vec3_all Q) o) as Ho by (intros [v|]; simpl; auto).
  assert (forall mx, matrix_all Q mx) as Hm
    by (intros; apply Forall_forall; intros; apply Forall_forall; auto).
  split; [|apply Forall_forall; auto].
  apply Forall_forall. intros g _. apply Forall_forall. intros l _.
  repeat split; auto; apply Forall_forall; intros; auto.
  - apply Forall_forall. auto.
  - split; auto.
Qed.
