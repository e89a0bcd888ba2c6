(** Locality: a reader that succeeds depends only on the bytes it consumed, and fails
    with struct.error on every strict prefix of them. Sizes of loaded files. *)
From Coq Require Import ZArith List Bool Lia.
From Verif Require Import PyBase Struct Mesh Spec CodecBase CodecRaw.
Import ListNotations.
Open Scope Z_scope.
Open Scope res_scope.

Definition strict_prefix (a b : bytes) : Prop := exists c, c <> [] /\ b = a ++ c.

Definition local {A} (r : reader A) : Prop :=
  forall bs a rest, r bs = Ok (a, rest) ->
    exists used, bs = used ++ rest /\
      (forall rest', r (used ++ rest') = Ok (a, rest')) /\
      (forall pre, strict_prefix pre used -> r pre = Raise EStruct).

Lemma strict_prefix_app pre u v : strict_prefix pre (u ++ v) ->
  strict_prefix pre u \/ exists pre', pre = u ++ pre' /\ strict_prefix pre' v.
Proof.
  intros (c & Hc & E). revert pre E. induction u as [|x u IH]; intros pre E; simpl in E.
  - right. exists pre. split; [reflexivity|]. exists c. auto.
  - destruct pre as [|y pre].
    + left. exists (x :: u). split; [discriminate|reflexivity].
    + simpl in E. injection E as <- E. destruct (IH _ E) as [(d & Hd & E')|(pre' & -> & Hp)].
      * left. exists d. split; [auto|]. rewrite E'. reflexivity.
      * right. exists pre'. auto.
Qed.

Lemma strict_prefix_nil pre : ~ strict_prefix pre [].
Proof.
  intros (c & Hc & E). symmetry in E. apply app_eq_nil in E. tauto.
Qed.

Lemma local_ret {A} (a : A) : local (rret a).
Proof.
  intros bs b rest H. apply rret_ok in H. destruct H as (<- & <-). exists [].
  split; [reflexivity|]. split; [reflexivity|]. intros pre Hp. destruct (strict_prefix_nil _ Hp).
Qed.

Lemma local_lift {A} (x : res A) : local (rlift x).
Proof.
  intros bs b rest H. unfold rlift in *. apply bind_ok in H. destruct H as (a & -> & H).
  injection H as -> ->. exists [].
  split; [reflexivity|]. split; [reflexivity|]. intros pre Hp. destruct (strict_prefix_nil _ Hp).
Qed.

Lemma local_raise {A} e : local (rraise (A := A) e).
Proof. intros bs b rest H. discriminate. Qed.

Lemma local_bind {A B} (r : reader A) (f : A -> reader B) :
  local r -> (forall a, local (f a)) -> local (rbind r f).
Proof.
  intros Hr Hf bs b rest H. apply rbind_ok in H. destruct H as (a & mid & H1 & H2).
  destruct (Hr _ _ _ H1) as (u1 & -> & R1 & P1).
  destruct (Hf _ _ _ _ H2) as (u2 & -> & R2 & P2).
  exists (u1 ++ u2). split; [apply app_assoc|]. split.
  - intros rest'. rewrite <- app_assoc. erewrite rbind_run by apply R1. apply R2.
  - intros pre Hp. apply strict_prefix_app in Hp. destruct Hp as [Hp|(pre' & -> & Hp)].
    + unfold rbind. rewrite (P1 _ Hp). reflexivity.
    + erewrite rbind_run by apply R1. apply P2; auto.
Qed.

Lemma local_raw n : local (read_raw n).
Proof.
  intros bs a rest H. pose proof (read_raw_ok _ _ _ _ H) as (H0 & -> & Hl).
  exists a. split; [reflexivity|]. split.
  - intros rest'. apply read_raw_run. lia.
  - intros pre (c & Hc & ->). unfold read_raw, zlen.
    assert (0 < length c)%nat by (destruct c; [congruence|simpl; lia]).
    rewrite app_length in Hl.
    destruct (Z.ltb_spec n 0); [reflexivity|].
    destruct (Z.ltb_spec (Z.of_nat (length pre)) n); [reflexivity|]. lia.
Qed.

Lemma local_items w n : local (read_items w n).
Proof.
  unfold read_items. destruct (n <? 0); [apply local_raise|].
  apply local_bind; [apply local_raw|]. intros. apply local_ret.
Qed.

Lemma local_n {A} (r : reader A) n : local r -> local (read_n r n).
Proof.
  intros H. induction n; simpl; [apply local_ret|].
  apply local_bind; [exact H|]. intros. apply local_bind; [exact IHn|]. intros. apply local_ret.
Qed.

Lemma local_each {A B} (r : A -> reader B) l : (forall a, local (r a)) -> local (read_each r l).
Proof.
  intros H. induction l; simpl; [apply local_ret|].
  apply local_bind; [apply H|]. intros. apply local_bind; [exact IHl|]. intros. apply local_ret.
Qed.

Create HintDb loc.
#[export] Hint Resolve local_ret local_lift local_raise local_raw local_items : loc.
Ltac loc := repeat first
  [ solve [auto with loc]
  | apply local_bind; [|intros]
  | apply local_n
  | apply local_each; intros
  | match goal with |- local (if ?c then _ else _) => destruct c end
  | match goal with |- local (match ?c with _ => _ end) => destruct c end ].

Section L.
Context {F : Type} (p : plat) (u : Z -> F).

Lemma local_long : local (read_long p). Proof. unfold read_long. loc. Qed.
Lemma local_short1 : local (read_short1 p). Proof. unfold read_short1. loc. Qed.
Lemma local_byte : local (read_byte p). Proof. unfold read_byte. loc. Qed.
Lemma local_short n : local (read_short p n). Proof. unfold read_short. loc. Qed.
Lemma local_float n : local (read_float p u n). Proof. unfold read_float. loc. Qed.
Lemma local_float3 : local (read_float3 p u). Proof. unfold read_float3. loc. Qed.
Lemma local_matrix4 : local (read_matrix4 p u). Proof. unfold read_matrix4, read_row4. loc. Qed.
#[local] Hint Resolve local_long local_short1 local_byte local_short local_float local_float3 local_matrix4 : loc.
Lemma local_string : local (read_string p). Proof. unfold read_string. loc. Qed.
#[local] Hint Resolve local_string : loc.
Lemma local_mat v s : local (load_mat p u v s). Proof. unfold load_mat. loc. Qed.
#[local] Hint Resolve local_mat : loc.
Lemma local_rig : local (load_rig p u). Proof. unfold load_rig, load_bone. loc. Qed.
#[local] Hint Resolve local_rig : loc.

Theorem local_load_body k : local (load_body p u k).
Proof.
  unfold load_body, load_head, load_geom, load_vertattrib, load_vertices, each_lod,
    load_nodes_rigs, load_materials. loc.
Qed.
End L.

(** ** Sizes *)
Definition sized {A} (r : reader A) (Q : A -> Z -> Prop) : Prop :=
  forall bs a rest, r bs = Ok (a, rest) -> Q a (zlen bs - zlen rest).

Lemma sized_ret {A} (a : A) (Q : A -> Z -> Prop) : Q a 0 -> sized (rret a) Q.
Proof.
  intros H bs b rest E. apply rret_ok in E. destruct E as (<- & <-).
  rewrite Z.sub_diag. exact H.
Qed.

Lemma sized_bind {A B} (r : reader A) (f : A -> reader B) (Q : A -> Z -> Prop) (R : B -> Z -> Prop) :
  sized r Q -> (forall a n, Q a n -> sized (f a) (fun b k => R b (n + k))) -> sized (rbind r f) R.
Proof.
  intros H1 H2 bs b rest E. apply rbind_ok in E. destruct E as (a & mid & E1 & E2).
  apply H1 in E1. apply (H2 _ _ E1) in E2. replace (zlen bs - zlen rest) with ((zlen bs - zlen mid) + (zlen mid - zlen rest)) by lia.
  exact E2.
Qed.

Lemma sized_weaken {A} (r : reader A) (Q R : A -> Z -> Prop) :
  sized r Q -> (forall a n, Q a n -> R a n) -> sized r R.
Proof. intros H HR bs a rest E. apply HR, H, E. Qed.

Lemma zlen_app {A} (a b : list A) : zlen (a ++ b) = zlen a + zlen b.
Proof. unfold zlen. rewrite app_length. lia. Qed.

Lemma zlen_nonneg {A} (l : list A) : 0 <= zlen l.
Proof. unfold zlen. lia. Qed.

Lemma sized_raw n : sized (read_raw n) (fun a k => k = n /\ zlen a = n).
Proof.
  intros bs a rest E. apply read_raw_ok in E. destruct E as (H & -> & Hl).
  rewrite zlen_app. unfold zlen in *. lia.
Qed.

Lemma sized_n {A} (r : reader A) (sz : A -> Z) n :
  sized r (fun a k => k = sz a) -> sized (read_n r n) (fun l k => k = sumZ sz l /\ length l = n).
Proof.
  intros H. induction n as [|n IH]; simpl.
  - apply sized_ret. auto.
  - eapply sized_bind; [exact H|]. cbv beta. intros a k ->.
    eapply sized_bind; [exact IH|]. cbv beta. intros t k (-> & Hl).
    apply sized_ret. simpl. split; [lia|auto].
Qed.

Lemma sized_each {A B} (r : A -> reader B) (R : A -> B -> Prop) (sz : B -> Z) l :
  (forall a, In a l -> sized (r a) (fun b k => k = sz b /\ R a b)) ->
  sized (read_each r l) (fun l' k => k = sumZ sz l' /\ Forall2 R l l').
Proof.
  induction l as [|x t IH]; simpl; intros H.
  - apply sized_ret. auto.
  - eapply sized_bind; [apply H; auto|]. cbv beta. intros a k (-> & Ha).
    eapply sized_bind; [apply IH; auto|]. cbv beta. intros t' k (-> & Ht).
    apply sized_ret. simpl. split; [lia|auto].
Qed.

Lemma sumZ_const {A} (f : A -> Z) c l : (forall x, f x = c) -> sumZ f l = c * zlen l.
Proof. intros H. unfold zlen. induction l; cbn [sumZ length]; [lia|]. rewrite H, IHl. lia. Qed.
Lemma sumZ_ext {A} (f g : A -> Z) l : (forall x, In x l -> f x = g x) -> sumZ f l = sumZ g l.
Proof. induction l; simpl; intros H; [reflexivity|]. rewrite H, IHl; auto. Qed.
Lemma sumZ_nonneg {A} (f : A -> Z) l : (forall x, 0 <= f x) -> 0 <= sumZ f l.
Proof. intros H. induction l; cbn [sumZ]; [lia|]. specialize (H a). lia. Qed.
Lemma sumZ_add {A} (f g : A -> Z) l : sumZ (fun x => f x + g x) l = sumZ f l + sumZ g l.
Proof. induction l; simpl; lia. Qed.

Section Sz.
Context {F : Type} (p : plat) (u : Z -> F).
Notation L := (Z.of_nat (long_bytes p)).

Lemma sized_items w n : sized (read_items w n) (fun l k => k = Z.of_nat w * n /\ zlen l = n).
Proof.
  intros bs l rest E. apply read_items_ok in E. destruct E as (H0 & H1 & H2 & ->).
  rewrite zlen_app. assert (zlen (flat_map (fun x => x) l) = Z.of_nat w * zlen l) as ->.
  { clear -H2. induction H2; [unfold zlen; simpl; lia|]. cbn [flat_map]. rewrite zlen_app, IHForall.
    unfold zlen in *. cbn [length]. lia. }
  unfold zlen in *. lia.
Qed.

Lemma sized_long : sized (read_long p) (fun _ k => k = L).
Proof.
  eapply sized_bind; [apply sized_raw|]. cbv beta. intros a n (-> & _). apply sized_ret. lia.
Qed.
Lemma sized_short1 : sized (read_short1 p) (fun _ k => k = 2).
Proof.
  eapply sized_bind; [apply sized_raw|]. cbv beta. intros a n (-> & _). apply sized_ret. lia.
Qed.
Lemma sized_byte : sized (read_byte p) (fun _ k => k = 1).
Proof.
  eapply sized_bind; [apply sized_raw|]. cbv beta. intros a n (-> & _). apply sized_ret. lia.
Qed.
Lemma sized_float3 : sized (read_float3 p u) (fun _ k => k = 12).
Proof.
  eapply sized_bind; [apply sized_raw|]. cbv beta. intros a n (-> & _). apply sized_ret. lia.
Qed.
Lemma sized_row4 : sized (read_row4 p u) (fun _ k => k = 16).
Proof.
  eapply sized_bind; [apply sized_raw|]. cbv beta. intros a n (-> & _). apply sized_ret. lia.
Qed.
Ltac sz L := eapply sized_bind; [apply L|]; cbv beta; intros.
Lemma sized_matrix4 : sized (read_matrix4 p u) (fun _ k => k = 64).
Proof. unfold read_matrix4. do 4 sz sized_row4. apply sized_ret. lia. Qed.
Lemma sized_string : sized (read_string p) (fun s k => k = string_size L s).
Proof.
  unfold read_string. sz sized_long. subst. eapply sized_weaken; [apply sized_raw|]. cbv beta.
  intros s k (-> & Hs). unfold string_size. lia.
Qed.
Lemma sized_short n : sized (read_short p n) (fun s k => k = 2 * seq_len s).
Proof.
  unfold read_short. sz sized_items. destruct H as (-> & H). apply sized_ret.
  unfold unwrap. destruct (Z.eqb_spec n 1).
  - subst n. destruct a as [|x [|y t]]; unfold zlen in *; cbn [length map seq_len] in *; unfold zlen; simpl; lia.
  - cbn [seq_len]. unfold zlen in *. rewrite map_length. lia.
Qed.
Lemma sized_vertices s f n : sized (load_vertices p u s f n) (fun l k => k = 4 * zlen l).
Proof.
  unfold load_vertices. intros bs l rest E. split_get E. unfold rlift in G.
  apply bind_ok in G. destruct G as (d & Hd & G). injection G as -> <-.
  split_get E. destruct a0; [discriminate|]. ret E.
  revert G. unfold read_float. intros G. split_get G. apply rret_ok in G. destruct G as (E & <-).
  apply sized_items in G0. destruct G0 as (-> & H).
  unfold unwrap in E. destruct (Z.eqb_spec a 1).
  - subst a. destruct a0 as [|x [|y t]]; try discriminate E;
    injection E as <-; unfold zlen in *; simpl in *; lia.
  - injection E as <-. unfold zlen in *. rewrite map_length. lia.
Qed.

Lemma sized_mat v s : sized (load_mat p u v s) (fun m k => k = mat_size L v s m).
Proof.
  unfold load_mat.
  eapply sized_bind with (Q := fun _ k => k = if s then 0 else L).
  { destruct s; [apply sized_ret; reflexivity|]. sz sized_long. apply sized_ret. lia. }
  intros am n Hn. sz sized_string. sz sized_string. sz sized_long.
  eapply sized_bind; [apply sized_n, sized_string|]. cbv beta. intros ms k (-> & _).
  do 6 sz sized_long.
  eapply sized_bind with (Q := fun _ k => k = if negb s && (v =? 11) then 24 else 0).
  { destruct (negb s && (v =? 11)); [|apply sized_ret; reflexivity].
    sz sized_float3. sz sized_float3. apply sized_ret. lia. }
  intros mm k ->. apply sized_ret. unfold mat_size. cbn [fxfile technique maps]. lia.
Qed.

Lemma sized_rig : sized (load_rig p u) (fun r k => k = L + zlen (bones r) * (L + 64)).
Proof.
  unfold load_rig. sz sized_long. subst.
  eapply sized_bind; [apply sized_n with (sz := fun _ => L + 64)|].
  { unfold load_bone. sz sized_long. sz sized_matrix4. apply sized_ret. lia. }
  cbv beta. intros bs k (-> & _). apply sized_ret. cbn [bones].
  rewrite (sumZ_const _ (L + 64)) by reflexivity. lia.
Qed.

Lemma sized_nodes_rigs v b s l : nodes l = [] ->
  sized (load_nodes_rigs p u v b s l) (fun l' k => k = nodes_size L v b s l' /\ True).
Proof.
  intros Hl. unfold load_nodes_rigs. sz sized_float3. sz sized_float3.
  eapply sized_bind with (Q := fun _ k => k = if v <=? 6 then 12 else 0).
  { destruct (v <=? 6); [|apply sized_ret; reflexivity]. sz sized_float3. apply sized_ret. lia. }
  intros pv k ->. destruct s.
  - sz sized_long. eapply sized_bind; [apply sized_n, sized_rig|]. cbv beta. intros rs k (-> & _).
    apply sized_ret. unfold nodes_size. cbn [rigs]. split; [lia|auto].
  - sz sized_long. eapply sized_bind with (Q := fun ns k => k = if b then 0 else 64 * zlen ns).
    { destruct b; [apply sized_ret; reflexivity|].
      eapply sized_weaken; [apply sized_n, sized_matrix4|]. cbv beta. intros ns k (-> & _).
      apply sumZ_const. reflexivity. }
    intros ns k ->. apply sized_ret. unfold nodes_size. cbn [nodes]. rewrite Hl. cbn [app].
    split; [|auto]. unfold matrix4. destruct b; lia.
Qed.

(** What [load_materials] keeps. *)
Lemma sized_materials v s l :
  sized (load_materials p u v s l) (fun l' k => k = mats_size L v s l' /\ same_nodes l l').
Proof.
  unfold load_materials. sz sized_long.
  eapply sized_bind; [apply sized_n, sized_mat|]. cbv beta. intros ms k (-> & _).
  apply sized_ret. unfold mats_size. cbn [materials]. split; [lia|reflexivity].
Qed.

Lemma sized_each_lod r (R : lod F -> lod F -> Prop) sz gs :
  (forall g l, In g gs -> In l (lods g) -> sized (r l) (fun l' k => k = sz l' /\ R l l')) ->
  sized (each_lod r gs) (fun gs' k => k = sumZ (fun g => sumZ sz (lods g)) gs' /\
     Forall2 (fun g g' => Forall2 R (lods g) (lods g')) gs gs').
Proof.
  intros H. unfold each_lod. apply sized_each. intros g Hg.
  eapply sized_bind; [apply sized_each; intros; apply H with g; auto|].
  cbv beta. intros ls k (-> & HF). apply sized_ret. cbn [lods]. split; [lia|auto].
Qed.

Lemma Forall2_sum {A} (f : A -> Z) (R : A -> A -> Prop) l l' :
  Forall2 R l l' -> (forall a b, R a b -> f a = f b) -> sumZ f l = sumZ f l'.
Proof. intros H HR. induction H as [|a b t t' Hab Ht IH]; simpl; [reflexivity|]. rewrite (HR a b), IH; auto. Qed.

Theorem sized_load_body k :
  sized (load_body p u k) (fun m n => n = file_size L m).
Proof.
  unfold load_body.
  eapply sized_bind with (Q := fun _ n => n = 5 * L).
  { unfold load_head. do 5 sz sized_long. apply sized_ret. lia. }
  intros h n ->. sz sized_byte. sz sized_long.
  eapply sized_bind with (Q := fun gs n => n = L * zlen gs /\
     Forall (fun g => Forall (fun l : lod F => l = new_lod) (lods g)) gs).
  { intros bs gs rest E. split.
    - eapply sized_n with (sz := fun _ => L) in E.
      + destruct E as (E & _). rewrite (sumZ_const _ L) in E by reflexivity. exact E.
      + unfold load_geom. sz sized_long. apply sized_ret. lia.
    - revert bs rest E. generalize (Z.to_nat a0) as gn. intros gn. revert gs.
      induction gn as [|gn IH]; intros gs bs rest E; simpl in E.
      + ret E. constructor.
      + split_get E. split_get E. ret E. constructor; [|eauto].
        unfold load_geom in G. split_get G. ret G. cbn [lods].
        apply Forall_forall. intros x Hx. apply repeat_spec in Hx. auto. }
  intros gs0 n1 (-> & Hg0). sz sized_long.
  eapply sized_bind; [apply sized_n with (sz := fun _ => 8)|].
  { unfold load_vertattrib. do 4 sz sized_short1. apply sized_ret. lia. }
  cbv beta. intros vas k1 (-> & _). rewrite (sumZ_const _ 8) by reflexivity.
  do 3 sz sized_long. sz sized_vertices. sz sized_long. sz sized_short.
  eapply sized_bind with (Q := fun _ n => n = if isSkinnedMesh k then 0 else L).
  { destruct (isSkinnedMesh k); [apply sized_ret; reflexivity|apply sized_long]. }
  intros u2 k2 ->.
  eapply sized_bind; [apply sized_each_lod with (R := fun _ _ => True)|].
  { intros g l Hg Hl. apply sized_nodes_rigs.
    rewrite Forall_forall in Hg0. specialize (Hg0 _ Hg). rewrite Forall_forall in Hg0.
    rewrite (Hg0 _ Hl). reflexivity. }
  cbv beta. intros gs1 k3 (-> & F1).
  eapply sized_bind; [apply sized_each_lod; intros; apply sized_materials|].
  cbv beta. intros gs2 k4 (-> & F2). apply sized_ret.
  apply Forall2_length' in F1 as L1. apply Forall2_length' in F2 as L2.
  assert (forall v b s, sumZ (fun g => sumZ (nodes_size L v b s) (lods g)) gs1 =
                        sumZ (fun g => sumZ (nodes_size L v b s) (lods g)) gs2) as ES.
  { intros. eapply Forall2_sum; [exact F2|]. intros x y Hxy. eapply Forall2_sum; [exact Hxy|].
    intros x' y' E. unfold same_nodes, strip_mats in E. injection E as _ _ _ _ E5 _ E7.
    unfold nodes_size. rewrite E5, E7. reflexivity. }
  unfold file_size, head_size. cbn [m_kind m_head geoms vertex_attributes vertices index].
  rewrite ES. subst. unfold zlen in *. rewrite <- L2, <- L1. lia.
Qed.

Theorem load_size k bs m : load p u k bs = Ok m -> zlen bs = file_size L m.
Proof.
  unfold load. intros H. apply bind_ok in H. destruct H as ([m' rest] & H1 & H2).
  destruct rest; [|discriminate]. injection H2 as <-.
  apply sized_load_body in H1. change (zlen (@nil byte)) with 0 in H1. lia.
Qed.
End Sz.

Lemma sumZ_le {A} (f g : A -> Z) l : (forall x, In x l -> f x <= g x) -> sumZ f l <= sumZ g l.
Proof.
  induction l as [|a l IH]; simpl; intros H; [lia|].
  specialize (IH (fun x Hx => H x (or_intror Hx))). specialize (H a (or_introl eq_refl)). lia.
Qed.
