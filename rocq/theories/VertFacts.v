(** translate and rotate: the per-material vertex loops as one map over vertices. *)
From Coq Require Import ZArith List Bool Lia Arith.
From Verif Require Import PyBase Struct Mesh Arith Edit Spec SpecEdit TravFacts DivFacts.
Import ListNotations.
Open Scope Z_scope.

(** ** List facts *)
Lemma map_res_app {A B} (f : A -> res B) l1 l2 :
  map_res f (l1 ++ l2) = bind (map_res f l1) (fun a => bind (map_res f l2) (fun b => Ok (a ++ b))).
Proof.
  induction l1 as [|x t IH]; simpl.
  - now destruct (map_res f l2).
  - destruct (f x); [|reflexivity]. cbn [bind]. rewrite IH. destruct (map_res f t); [|reflexivity]. cbn [bind].
    now destruct (map_res f l2).
Qed.

Lemma map_res_ok {A B} (f : A -> res B) l r : map_res f l = Ok r <-> Forall2 (fun x y => f x = Ok y) l r.
Proof.
  revert r. induction l as [|x t IH]; intros r; simpl.
  - split; intros H; [injection H as <-; constructor|now inversion H].
  - split; intros H.
    + destruct (f x) eqn:E; [|discriminate]. cbn [bind] in H. destruct (map_res f t) eqn:E2; [|discriminate].
      injection H as <-. constructor; [exact E|]. now apply IH.
    + inversion H as [|? y ? r' E H']; subst. rewrite E. cbn [bind].
      apply IH in H'. now rewrite H'.
Qed.

Lemma fold_res_concat {A B} (g : A -> res (list B)) l acc :
  fold_res (fun acc i => bind (g i) (fun v => Ok (acc ++ v))) acc l =
  bind (map_res g l) (fun r => Ok (acc ++ concat r)).
Proof.
  revert acc. induction l as [|x t IH]; intros acc; simpl.
  - now rewrite app_nil_r.
  - destruct (g x) as [v|e]; [|reflexivity]. cbn [bind]. rewrite IH.
    destruct (map_res g t); [|reflexivity]. cbn [bind]. simpl. now rewrite app_assoc.
Qed.

Lemma map_res_map {A B C} (h : A -> B) (f : B -> res C) l : map_res f (map h l) = map_res (fun x => f (h x)) l.
Proof. induction l; simpl; [reflexivity|]. rewrite IHl. reflexivity. Qed.

Lemma map_res_ext {A B} (f g : A -> res B) l : (forall x, In x l -> f x = g x) -> map_res f l = map_res g l.
Proof.
  induction l as [|x t IH]; intros H; simpl; [reflexivity|]. rewrite H by now left.
  rewrite IH; [reflexivity|]. intros y Hy. apply H. now right.
Qed.

Lemma map_res_flat {A B C} (g : A -> list B) (f : B -> res C) l :
  map_res f (flat_map g l) = bind (map_res (fun x => map_res f (g x)) l) (fun r => Ok (concat r)).
Proof.
  induction l as [|x t IH]; simpl; [reflexivity|]. rewrite map_res_app, IH.
  destruct (map_res f (g x)); [|reflexivity]. cbn [bind].
  now destruct (map_res (fun x => map_res f (g x)) t).
Qed.

Lemma block_length {A} n (l : list A) i : ((i + 1) * n <= length l)%nat -> length (block n l i) = n.
Proof. intros H. unfold block. rewrite firstn_length, skipn_length. lia. Qed.

Lemma skipn_skipn' {A} (l : list A) : forall a b, skipn a (skipn b l) = skipn (b + a) l.
Proof.
  induction l as [|x t IH]; intros a b.
  - now rewrite !skipn_nil.
  - destruct b; simpl; [reflexivity|apply IH].
Qed.

Lemma firstn_skipn_add {A} (l : list A) a b : firstn a l ++ firstn b (skipn a l) = firstn (a + b) l.
Proof.
  revert l. induction a as [|a IH]; intros l; simpl; [reflexivity|]. destruct l; simpl; [now rewrite firstn_nil|].
  f_equal. apply IH.
Qed.

Lemma concat_blocks {A} n (l : list A) : forall k a,
  concat (map (block n l) (seq a k)) = firstn (k * n) (skipn (a * n) l).
Proof.
  induction k as [|k IH]; intros a; simpl; [reflexivity|].
  rewrite IH. unfold block. rewrite <- (firstn_skipn_add _ n (k * n)), skipn_skipn'. do 3 f_equal. simpl. lia.
Qed.

Lemma map_seq_shift a : forall k b, map (fun i => (a + i)%nat) (seq b k) = seq (a + b) k.
Proof.
  induction k as [|k IH]; intros b; simpl; [reflexivity|]. f_equal. rewrite IH. f_equal. lia.
Qed.

Lemma nth_concat {A} n (ll : list (list A)) : Forall (fun v => length v = n) ll ->
  forall j c, (c < n)%nat ->
  nth_error (concat ll) (j * n + c) = match nth_error ll j with Some v => nth_error v c | None => None end.
Proof.
  intros H. induction H as [|v t Hv Ht IH]; intros j c Hc; simpl.
  - destruct (j * n + c)%nat, j; reflexivity.
  - destruct j; simpl.
    + apply nth_error_app1. lia.
    + rewrite nth_error_app2 by lia. rewrite <- IH by exact Hc. f_equal. lia.
Qed.

Lemma nth_block {A} n (l : list A) j c : (c < n)%nat -> nth_error (block n l j) c = nth_error l (j * n + c).
Proof.
  intros Hc. unfold block. revert l. generalize (j * n)%nat as a. intros a l.
  assert (forall (l : list A) k c, (c < k)%nat -> nth_error (firstn k l) c = nth_error l c) as F1.
  { clear. induction l as [|x t IH]; intros k c H; [now rewrite firstn_nil|].
    destruct k; [lia|]. destruct c; [reflexivity|]. simpl. apply IH. lia. }
  rewrite F1 by exact Hc. revert l. induction a; intros l; simpl; [reflexivity|].
  destruct l; simpl; [now destruct c|]. apply IHa.
Qed.

Lemma Forall2_nth {A B} (R : A -> B -> Prop) l l' : Forall2 R l l' ->
  forall j, match nth_error l j, nth_error l' j with
            | Some x, Some y => R x y | None, None => True | _, _ => False end.
Proof.
  intros H. induction H; intros j; destruct j; simpl; auto. apply IHForall2.
Qed.

Lemma Forall2_len {A B} (R : A -> B -> Prop) l l' : Forall2 R l l' -> length l = length l'.
Proof. induction 1; simpl; congruence. Qed.

(** ** The loop over one material *)
Section Loop.
Context {F : Type}.
Implicit Types (m : mesh F) (mt : mat F).

Lemma mat_in_vin vs m mt : mat_in vs m mt -> mat_vin vs m mt.
Proof. intros H. red in H. red. tauto. Qed.

(** The numbers of a material's vertices. *)
Definition vdata (vs : nat) m mt : list F :=
  firstn (Z.to_nat (vnum mt) * vs) (skipn (Z.to_nat (vstart mt) * vs) (vertices m)).

Lemma mat_slice vs m mt : mat_vin vs m mt ->
  py_slice (vertices m) (vstart mt * Z.of_nat vs) (vstart mt * Z.of_nat vs + vnum mt * Z.of_nat vs) = vdata vs m mt.
Proof.
  intros (H1 & H2 & H3). rewrite py_slice_in by nia. unfold vdata. f_equal; [|f_equal]; nia.
Qed.

Lemma vdata_length vs m mt : mat_vin vs m mt -> length (vdata vs m mt) = (Z.to_nat (vnum mt) * vs)%nat.
Proof.
  intros (H1 & H2 & H3). unfold vdata. rewrite firstn_length, skipn_length. unfold zlen in H3. nia.
Qed.

Lemma vdata_blocks vs m mt : vdata vs m mt = concat (mat_vertices vs m mt).
Proof.
  unfold vdata, mat_vertices.
  rewrite <- (map_map (fun i => (Z.to_nat (vstart mt) + i)%nat) (block vs (vertices m))).
  rewrite map_seq_shift, Nat.add_0_r. now rewrite concat_blocks.
Qed.

Lemma mat_vertices_length vs m mt : mat_vin vs m mt ->
  Forall (fun v => length v = vs) (mat_vertices vs m mt).
Proof.
  intros (H1 & H2 & H3). apply Forall_forall. intros v Hv. unfold mat_vertices in Hv.
  apply in_map_iff in Hv. destruct Hv as (i & <- & Hi). apply in_seq in Hi. apply block_length.
  unfold zlen in H3. nia.
Qed.

Lemma range_step k vs : (0 < vs)%nat ->
  py_range_step (k * vs) vs = Ok (map (fun j => Z.of_nat (j * vs)) (seq 0 k)).
Proof.
  intros H. unfold py_range_step. destruct vs as [|v]; [lia|]. do 3 f_equal.
  symmetry. apply (Nat.div_unique _ _ _ v); lia.
Qed.

Lemma mat_loop vs m f mt : vertex_size m = Ok (Z.of_nat vs) -> (0 < vs)%nat -> mat_vin vs m mt ->
  map_mat_vertices m f mt = bind (map_res f (mat_vertices vs m mt)) (fun r => Ok (concat r)).
Proof.
  intros Hs Hv Hm. unfold map_mat_vertices. rewrite Hs. cbn [bind]. rewrite mat_slice by exact Hm.
  rewrite vdata_length by exact Hm. rewrite Nat2Z.id, range_step by exact Hv. cbn [bind].
  rewrite (fold_res_concat (fun i => f (py_slice (vdata vs m mt) i (i + Z.of_nat vs)))).
  rewrite map_res_map. f_equal. unfold mat_vertices. rewrite map_res_map. apply map_res_ext.
  intros j Hj. apply in_seq in Hj. f_equal. destruct Hm as (H1 & H2 & H3).
  rewrite py_slice_in; [|lia|lia|rewrite <- Nat2Z.inj_add; unfold zlen; rewrite vdata_length by (repeat split; auto); nia].
  rewrite !Nat2Z.id. unfold vdata, block. rewrite skipn_firstn_comm', firstn_firstn, skipn_skipn'.
  f_equal; [nia|]. f_equal. lia.
Qed.

Theorem all_loop vs m f : vertex_size m = Ok (Z.of_nat vs) -> (0 < vs)%nat -> Forall (mat_vin vs m) (mats m) ->
  map_vertices m f = bind (map_res f (flat_map (mat_vertices vs m) (mats m))) (fun r => Ok (concat r)).
Proof.
  intros Hs Hv Hm. unfold map_vertices. rewrite (fold_res_concat (map_mat_vertices m f)).
  change (all_mats (geoms m)) with (mats m). rewrite map_res_flat.
  rewrite (map_res_ext (map_mat_vertices m f)
             (fun mt => bind (map_res f (mat_vertices vs m mt)) (fun r => Ok (concat r)))).
  - generalize (mats m). intros l. cbn [app]. induction l as [|x t IH]; simpl; [reflexivity|].
    destruct (map_res f (mat_vertices vs m x)); [|reflexivity]. cbn [bind].
    destruct (map_res (fun mt => bind (map_res f (mat_vertices vs m mt)) (fun r => Ok (concat r))) t);
      destruct (map_res (fun x0 => map_res f (mat_vertices vs m x0)) t); simpl in *; try congruence.
    injection IH as IH. rewrite IH. now rewrite concat_app.
  - intros mt Hin. apply mat_loop; auto. rewrite Forall_forall in Hm. auto.
Qed.

(** ** Tilings *)
Lemma tiles_le a l b : tiles a l b -> a <= b.
Proof. revert a. induction l as [|(s, n) t IH]; simpl; intros a H; [lia|]. destruct H as (_ & H1 & H2). apply IH in H2. lia. Qed.

Lemma tiles_in a l b : tiles a l b -> Forall (fun p => a <= fst p /\ 0 <= snd p /\ fst p + snd p <= b) l.
Proof.
  revert a. induction l as [|(s, n) t IH]; simpl; intros a H; [constructor|]. destruct H as (-> & H1 & H2).
  pose proof (tiles_le _ _ _ H2). constructor; [simpl; lia|]. apply IH in H2.
  eapply Forall_impl; [|exact H2]. simpl. intros. lia.
Qed.

Lemma tiled_vin vs m : tiled_vertices vs m -> Forall (mat_vin vs m) (mats m).
Proof.
  intros (n & E & T). apply tiles_in in T. rewrite Forall_map in T.
  eapply Forall_impl; [|exact T]. simpl. intros mt H. red. rewrite E. nia.
Qed.

Lemma tiled_blocks vs m n : zlen (vertices m) = n * Z.of_nat vs ->
  tiles 0 (map (fun mt => (vstart mt, vnum mt)) (mats m)) n ->
  flat_map (mat_vertices vs m) (mats m) = map (block vs (vertices m)) (seq 0 (Z.to_nat n)).
Proof.
  intros _. assert (forall l a, 0 <= a -> tiles a (map (fun mt : mat F => (vstart mt, vnum mt)) l) n ->
    flat_map (mat_vertices vs m) l = map (block vs (vertices m)) (seq (Z.to_nat a) (Z.to_nat (n - a)))) as G.
  { induction l as [|mt t IH]; simpl; intros a Ha H.
    - subst. now rewrite Z.sub_diag.
    - destruct H as (E & H1 & H2). pose proof (tiles_le _ _ _ H2). rewrite (IH (a + vnum mt)) by (auto; lia).
      replace (Z.to_nat (n - a)) with (Z.to_nat (vnum mt) + Z.to_nat (n - (a + vnum mt)))%nat by lia.
      rewrite seq_app, map_app. f_equal.
      + unfold mat_vertices. rewrite E.
        rewrite <- (map_map (fun i => (Z.to_nat a + i)%nat) (block vs (vertices m))). f_equal.
        now rewrite map_seq_shift, Nat.add_0_r.
      + f_equal. f_equal. lia. }
  intros H. rewrite (G _ 0) by (auto; lia). now rewrite Z.sub_0_r.
Qed.

(** The vertices of a packed mesh are rewritten one by one. *)
Theorem packed_loop vs m f nv : vertex_size m = Ok (Z.of_nat vs) -> (0 < vs)%nat -> tiled_vertices vs m ->
  map_vertices m f = Ok nv ->
  exists r, nv = concat r /\
    Forall2 (fun v v' => f v = Ok v')
            (map (block vs (vertices m)) (seq 0 (length (vertices m) / vs))) r.
Proof.
  intros Hs Hv T H. rewrite (all_loop vs) in H; auto using tiled_vin.
  destruct T as (n & E & T). pose proof (tiles_le _ _ _ T) as Hn. rewrite (tiled_blocks vs m n E T) in H.
  destruct (map_res f _) as [r|] eqn:R; [|discriminate]. injection H as <-. exists r. split; [reflexivity|].
  apply map_res_ok in R. replace (length (vertices m) / vs)%nat with (Z.to_nat n); [exact R|].
  unfold zlen in E. apply (Nat.div_unique _ _ _ 0); nia.
Qed.

Lemma map_vertices_nil m f : mats m = [] -> map_vertices m f = Ok [].
Proof. intros E. unfold map_vertices. change (all_mats (geoms m)) with (mats m). now rewrite E. Qed.

Lemma map_vertices_pos m f vs mt : vertex_size m = Ok (Z.of_nat vs) -> In mt (mats m) -> vs = 0%nat ->
  forall nv, map_vertices m f <> Ok nv.
Proof.
  intros Hs Hin -> nv H. unfold map_vertices in H. rewrite (fold_res_concat (map_mat_vertices m f)) in H.
  change (all_mats (geoms m)) with (mats m) in H. destruct (map_res _ (mats m)) eqn:E; [|discriminate].
  apply map_res_ok in E. clear H. revert Hin. induction E as [|x y l l' Hx E IH]; intros Hin; [destruct Hin|]. destruct Hin as [<-|Hin]; auto.
  - unfold map_mat_vertices in Hx. rewrite Hs in Hx. discriminate.
Qed.
End Loop.

(** ** translate *)
Section Translate.
Context {F : Type} (A : arith F).
Implicit Types (m : mesh F).

Lemma position_offset_spec m : short_offsets m ->
  position_offset (vertformat m) (vertex_attributes m) =
  Ok (option_map (fun a => offset a / vertformat m) (position_attrib m)).
Proof.
  intros (Hf & H). unfold position_attrib. induction H as [|a t Ha Ht IH]; simpl; [reflexivity|].
  change (negb (flag a =? UNUSED)) with (in_use a). change POSITION with 0.
  destruct ((usage a =? 0) && in_use a); [|exact IH].
  rewrite int_div_short by lia. cbn [bind]. simpl. now rewrite Z.quot_div_nonneg by lia.
Qed.

Lemma set_nth_length {B} (l : list B) k v : length (set_nth l k v) = length l.
Proof. revert k. induction l; destruct k; simpl; auto. Qed.
Lemma nth_set_nth {B} (l : list B) k v c : nth_error (set_nth l k v) c =
  if Nat.eqb c k then match nth_error l c with Some _ => Some v | None => None end else nth_error l c.
Proof.
  revert k c. induction l as [|x t IH]; intros k c; simpl.
  - replace (nth_error (@nil B) c) with (@None B) by now destruct c. now destruct (Nat.eqb c k).
  - destruct k, c; simpl; auto.
Qed.

Lemma norm_index_in n i : 0 <= i < n -> norm_index n i = Some (Z.to_nat i).
Proof.
  intros H. unfold norm_index. destruct (Z.ltb_spec i 0); [lia|].
  now replace ((0 <=? i) && (i <? n)) with true
    by (symmetry; apply andb_true_intro; split; [apply Z.leb_le|apply Z.ltb_lt]; lia).
Qed.
Lemma norm_index_out n i : n <= i -> 0 <= i -> norm_index n i = None.
Proof.
  intros H H0. unfold norm_index. destruct (Z.ltb_spec i 0); [lia|].
  now replace (i <? n) with false by (symmetry; apply Z.ltb_ge; lia); rewrite andb_false_r.
Qed.

Lemma add_offset_spec o off : forall k v, (0 < length off)%nat ->
  (if (o + k + length off <=? length v)%nat
   then exists v', add_offset A (Some (Z.of_nat o)) (Z.of_nat k) off v = Ok v' /\ length v' = length v /\
     forall c, nth_error v' c = option_map (moved A (o + k) off c) (nth_error v c)
   else add_offset A (Some (Z.of_nat o)) (Z.of_nat k) off v = Raise EIndex).
Proof.
  induction off as [|d t IH]; intros k v H; [simpl in H; lia|]. cbn [add_offset].
  destruct (Nat.leb_spec (o + k + length (d :: t)) (length v)) as [L|L]; simpl in L.
  - destruct (py_get_in v (Z.of_nat o + Z.of_nat k)) as (x & Ex & Gx); [unfold zlen; lia|]. rewrite Gx. cbn [bind].
    unfold py_set. rewrite norm_index_in by (unfold zlen; lia). cbn [bind].
    replace (Z.to_nat (Z.of_nat o + Z.of_nat k)) with (o + k)%nat in * by lia.
    set (v1 := set_nth v (o + k) (f_add A x d)).
    assert (length v1 = length v) as L1 by apply set_nth_length.
    replace (Z.of_nat k + 1) with (Z.of_nat (S k)) by lia.
    destruct t as [|d2 t].
    + simpl. exists v1. split; [reflexivity|]. split; [exact L1|]. intros c. unfold v1. rewrite nth_set_nth.
      destruct (Nat.eqb_spec c (o + k)) as [->|N].
      * rewrite Ex. simpl. unfold moved. rewrite Nat.leb_refl, Nat.sub_diag. reflexivity.
      * destruct (nth_error v c); [|reflexivity]. simpl. unfold moved.
        destruct (Nat.leb_spec (o + k) c); [|reflexivity].
        replace (nth_error [d] (c - (o + k))) with (@None F); [reflexivity|].
        symmetry. apply nth_error_None. simpl. lia.
    + specialize (IH (S k) v1). assert (0 < length (d2 :: t))%nat as Hp by (simpl; lia).
      specialize (IH Hp). rewrite (proj2 (Nat.leb_le _ _)) in IH by (rewrite L1; simpl in *; lia).
      destruct IH as (v' & E & Hl & Hn). exists v'. split; [exact E|]. split; [lia|]. intros c. rewrite Hn.
      unfold v1. rewrite nth_set_nth. destruct (Nat.eqb_spec c (o + k)) as [->|N].
      * rewrite Ex. simpl. unfold moved. rewrite Nat.leb_refl, Nat.sub_diag. simpl.
        destruct (Nat.leb_spec (o + S k) (o + k)); [lia|reflexivity].
      * destruct (nth_error v c); [|reflexivity]. simpl. unfold moved.
        destruct (Nat.leb_spec (o + S k) c), (Nat.leb_spec (o + k) c); try lia; [|reflexivity].
        replace (c - (o + k))%nat with (S (c - (o + S k)))%nat by lia. reflexivity.
  - destruct (Nat.ltb_spec (o + k) (length v)) as [L2|L2].
    + destruct (py_get_in v (Z.of_nat o + Z.of_nat k)) as (x & Ex & Gx); [unfold zlen; lia|]. rewrite Gx. cbn [bind].
      unfold py_set. rewrite norm_index_in by (unfold zlen; lia). cbn [bind].
      replace (Z.of_nat k + 1) with (Z.of_nat (S k)) by lia.
      destruct t as [|d2 t]; [simpl in L; lia|].
      specialize (IH (S k) (set_nth v (Z.to_nat (Z.of_nat o + Z.of_nat k)) (f_add A x d))).
      rewrite set_nth_length in IH.
      assert (0 < length (d2 :: t))%nat as Hp by (simpl; lia). specialize (IH Hp).
      destruct (Nat.leb_spec (o + S k + length (d2 :: t)) (length v)); [simpl in *; lia|exact IH].
    + unfold py_get. rewrite norm_index_out by (unfold zlen; lia). reflexivity.
Qed.

Lemma translate_vertex_spec m off vs v v' : short_offsets m -> length v = vs ->
  translate_vertex A m off v = Ok v' ->
  length v' = vs /\
  forall c, nth_error v' c =
    option_map (moved A (position_start m) off c) (nth_error v c).
Proof.
  intros Hs Hl H. unfold position_start. unfold translate_vertex in H. rewrite position_offset_spec in H by exact Hs. cbn [bind] in H.
  destruct off as [|d t].
  - simpl in H. injection H as <-. split; [exact Hl|]. intros c. destruct (nth_error v c); [|reflexivity]. simpl. f_equal.
    unfold moved. destruct (_ <=? c)%nat; [|reflexivity].
    now replace (nth_error (@nil F) (c - match position_attrib m with Some a => attrib_start m a | None => 0%nat end)) with (@None F)
      by (symmetry; apply nth_error_None; simpl; lia).
  - destruct (position_attrib m) as [a|] eqn:Ea; [|discriminate]. simpl option_map in H.
    assert (0 <= offset a / vertformat m) as Ho.
    { apply find_some in Ea. destruct Ea as (Hin & _). destruct Hs as (Hf & Hs). rewrite Forall_forall in Hs.
      specialize (Hs _ Hin). apply Z.div_pos; lia. }
    assert (0 < length (d :: t))%nat as Hp by (simpl; lia).
    pose proof (add_offset_spec (attrib_start m a) (d :: t) 0 v Hp) as S.
    replace (Z.of_nat (attrib_start m a)) with (offset a / vertformat m) in S by (unfold attrib_start; lia).
    change (Z.of_nat 0) with 0 in S. destruct (_ <=? _)%nat.
    + destruct S as (v1 & E1 & L1 & N1). rewrite E1 in H. injection H as <-. split; [lia|].
      intros c. rewrite N1. now rewrite Nat.add_0_r.
    + rewrite S in H. discriminate.
Qed.

Lemma translate_vertex_ok m off vs v : short_offsets m -> length v = vs ->
  (off <> [] -> exists a, position_attrib m = Some a /\ (attrib_start m a + length off <= vs)%nat) ->
  exists v', translate_vertex A m off v = Ok v'.
Proof.
  intros Hs Hl H. unfold translate_vertex. rewrite position_offset_spec by exact Hs. cbn [bind].
  destruct off as [|d t]; [simpl; eauto|]. destruct H as (a & Ea & Ho); [discriminate|]. rewrite Ea. simpl option_map.
  assert (0 <= offset a / vertformat m) as Hp.
  { apply find_some in Ea. destruct Ea as (Hin & _). destruct Hs as (Hf & Hs). rewrite Forall_forall in Hs.
    specialize (Hs _ Hin). apply Z.div_pos; lia. }
  assert (0 < length (d :: t))%nat as Hp' by (simpl; lia).
  pose proof (add_offset_spec (attrib_start m a) (d :: t) 0 v Hp') as S.
  replace (Z.of_nat (attrib_start m a)) with (offset a / vertformat m) in S by (unfold attrib_start; lia).
  change (Z.of_nat 0) with 0 in S. rewrite (proj2 (Nat.leb_le _ _)) in S by lia.
  destruct S as (v' & E & _). eauto.
Qed.

(** Everything but the vertex array. *)
Lemma assign_spec m r m' : assign_vertices m r = (m', None) ->
  exists nv, r = Ok nv /\ m' = set_vertices m nv.
Proof. destruct r; simpl; intros H; [|discriminate]. injection H as <-. eauto. Qed.

Lemma set_vertices_frame m nv : same_but_vertices m (set_vertices m nv).
Proof. repeat split. Qed.

(** Vertex by vertex, number by number. *)
Lemma packed_nth vs m r : (0 < vs)%nat -> tiled_vertices vs m ->
  forall R : nat -> F -> F -> Prop,
  Forall2 (fun v v' => length v' = vs /\ forall c x, nth_error v c = Some x -> exists y, nth_error v' c = Some y /\ R c x y)
          (map (block vs (vertices m)) (seq 0 (length (vertices m) / vs))) r ->
  length (concat r) = length (vertices m) /\
  forall j c x, (c < vs)%nat -> nth_error (vertices m) (j * vs + c) = Some x ->
     exists y, nth_error (concat r) (j * vs + c) = Some y /\ R c x y.
Proof.
  intros Hv (n & E & T) R H. pose proof (tiles_le _ _ _ T) as Hn. unfold zlen in E.
  set (k := (length (vertices m) / vs)%nat) in *.
  assert (length (vertices m) = k * vs)%nat as Ek.
  { assert (k = Z.to_nat n). { unfold k. symmetry. apply (Nat.div_unique _ _ _ 0); nia. } nia. }
  assert (Forall (fun v => length v = vs) r) as HL.
  { clear - H. remember (map _ _) as l. clear Heql. induction H; constructor; [apply H|assumption]. }
  assert (length r = k) as Er by (apply Forall2_len in H; rewrite map_length, seq_length in H; lia).
  assert (forall l : list (list F), Forall (fun v => length v = vs) l -> length (concat l) = (length l * vs)%nat) as CL.
  { clear. induction 1; simpl; [reflexivity|]. rewrite app_length, IHForall. lia. }
  split; [rewrite CL by exact HL; lia|].
  intros j c x Hc Hx. assert (j < k)%nat as Hj.
  { assert (j * vs + c < length (vertices m))%nat by (apply nth_error_Some; congruence). nia. }
  pose proof (Forall2_nth _ _ _ H j) as HJ. rewrite (nth_error_nth' _ []) in HJ by (rewrite map_length, seq_length; lia).
  destruct (nth_error r j) as [v'|] eqn:Ej; [|contradiction].
  assert (nth j (map (block vs (vertices m)) (seq 0 k)) [] = block vs (vertices m) j) as Eb.
  { rewrite nth_indep with (d' := block vs (vertices m) 0) by (rewrite map_length, seq_length; lia).
    rewrite map_nth, seq_nth by lia. reflexivity. }
  rewrite Eb in HJ. destruct HJ as (_ & HJ). destruct (HJ c x) as (y & Hy & HR).
  { rewrite nth_block by exact Hc. exact Hx. }
  exists y. split; [|exact HR]. rewrite nth_concat by (auto). now rewrite Ej.
Qed.

Theorem translate_packed vs m off m' :
  vertex_size m = Ok (Z.of_nat vs) -> (0 < vs)%nat -> tiled_vertices vs m -> short_offsets m ->
  translate A m off = (m', None) ->
  same_but_vertices m m' /\ length (vertices m') = length (vertices m) /\
  forall j c x, (c < vs)%nat -> nth_error (vertices m) (j * vs + c) = Some x ->
    nth_error (vertices m') (j * vs + c) = Some (moved A (position_start m) off c x).
Proof.
  intros Hs Hv T Ho H. apply assign_spec in H. destruct H as (nv & H & ->).
  split; [apply set_vertices_frame|]. destruct (packed_loop _ _ _ _ Hs Hv T H) as (r & -> & HF).
  assert (Forall (fun v => length v = vs) (map (block vs (vertices m)) (seq 0 (length (vertices m) / vs)))) as HB.
  { rewrite Forall_map. apply Forall_forall. intros i Hi. apply in_seq in Hi. apply block_length.
    pose proof (Nat.mul_div_le (length (vertices m)) vs). nia. }
  destruct (packed_nth vs m r Hv T (fun c x y => y = moved A (position_start m) off c x)) as (L & N).
  { clear H. revert HB. induction HF as [|v v' l l' Hf HF IH]; intros HB; constructor.
    - inversion HB; subst. destruct (translate_vertex_spec m off (length v) v v' Ho eq_refl Hf) as (L & N).
      split; [exact L|]. intros c x Hx. rewrite N, Hx. simpl. eexists. split; reflexivity.
    - apply IH. inversion HB; subst; assumption. }
  split; [exact L|]. intros j c x Hc Hx. destruct (N j c x Hc Hx) as (y & Hy & ->). exact Hy.
Qed.

Theorem translate_succeeds vs m off :
  vertex_size m = Ok (Z.of_nat vs) -> (0 < vs)%nat -> tiled_vertices vs m -> short_offsets m ->
  (off <> [] -> exists a, position_attrib m = Some a /\ (attrib_start m a + length off <= vs)%nat) ->
  exists m', translate A m off = (m', None).
Proof.
  intros Hs Hv T Ho Hp. unfold translate. rewrite (all_loop vs) by auto using tiled_vin.
  assert (Forall (fun v => length v = vs) (flat_map (mat_vertices vs m) (mats m))) as HB.
  { apply Forall_flat_map. eapply Forall_impl; [|apply tiled_vin, T]. intros mt. apply mat_vertices_length. }
  assert (exists r, map_res (translate_vertex A m off) (flat_map (mat_vertices vs m) (mats m)) = Ok r) as (r & ->).
  { induction HB as [|v l Hv1 HB IH]; simpl; [eauto|].
    destruct (translate_vertex_ok m off vs v Ho Hv1 Hp) as (v' & ->). destruct IH as (r & ->). simpl. eauto. }
  simpl. eauto.
Qed.
End Translate.

(** ** rotate *)
Section Rotate.
Context {F : Type} (A : arith F).
Implicit Types (m : mesh F).

Lemma rot3_turn yaw pitch roll q :
  rot3 A (f_radians A yaw) (f_radians A pitch) (f_radians A roll) q = turn A yaw pitch roll q.
Proof. destruct q as ((x, y), z). reflexivity. Qed.

Lemma can_turn_trig yaw pitch roll : can_turn A yaw pitch roll ->
  trig3 A (f_radians A yaw) (f_radians A pitch) (f_radians A roll) = true.
Proof. intros (H1 & H2 & H3). unfold trig3. now rewrite H1, H2, H3. Qed.
Lemma cannot_turn_trig yaw pitch roll : ~ can_turn A yaw pitch roll ->
  trig3 A (f_radians A yaw) (f_radians A pitch) (f_radians A roll) = false.
Proof.
  intros H. unfold trig3. destruct (f_trig A (f_radians A roll)) eqn:E1; [|reflexivity].
  destruct (f_trig A (f_radians A pitch)) eqn:E2; [|reflexivity].
  destruct (f_trig A (f_radians A yaw)) eqn:E3; [|reflexivity]. destruct H. repeat split; assumption.
Qed.

Lemma can_turn_dec yaw pitch roll : can_turn A yaw pitch roll \/ ~ can_turn A yaw pitch roll.
Proof.
  unfold can_turn. destruct (f_trig A (f_radians A roll)), (f_trig A (f_radians A pitch)), (f_trig A (f_radians A yaw));
    (left; repeat split; reflexivity) || (right; intros (H1 & H2 & H3); discriminate).
Qed.

Lemma slice_assign_in {B} (l : list B) o n new : 0 <= n -> (o <= length l)%nat -> 
  py_slice_assign l (Z.of_nat o) (Z.of_nat o + n) new = firstn o l ++ new ++ skipn (o + Z.to_nat n) l.
Proof.
  intros Hn Ho. unfold py_slice_assign, norm_bound.
  destruct (Z.ltb_spec (Z.of_nat o) 0); [lia|]. destruct (Z.ltb_spec (Z.of_nat o + n) 0); [lia|].
  rewrite (Z.min_l (Z.of_nat o)) by (unfold zlen; lia). rewrite Nat2Z.id. do 2 f_equal.
  unfold zlen. destruct (Z.le_ge_cases (Z.of_nat o + n) (Z.of_nat (length l))).
  - f_equal. lia.
  - rewrite !skipn_all2 by lia. reflexivity.
Qed.

Lemma nth_firstn {B} (l : list B) : forall k c, (c < k)%nat -> nth_error (firstn k l) c = nth_error l c.
Proof.
  induction l as [|x t IH]; intros k c H; [now rewrite firstn_nil|].
  destruct k; [lia|]. destruct c; [reflexivity|]. simpl. apply IH. lia.
Qed.
Lemma nth_skipn {B} (l : list B) : forall k c, nth_error (skipn k l) c = nth_error l (k + c).
Proof.
  induction l as [|x t IH]; intros k c.
  - rewrite skipn_nil. now destruct c, (k + _)%nat.
  - destruct k; simpl; [reflexivity|apply IH].
Qed.

Lemma triple_slice (v : list F) o n : 3 <= n -> (o + 3 <= length v)%nat ->
  exists q, triple v o q /\ first3 (py_slice v (Z.of_nat o) (Z.of_nat o + n)) = Ok q.
Proof.
  intros Hn Ho. unfold py_slice, norm_bound.
  destruct (Z.ltb_spec (Z.of_nat o) 0); [lia|]. destruct (Z.ltb_spec (Z.of_nat o + n) 0); [lia|].
  rewrite (Z.min_l (Z.of_nat o)) by (unfold zlen; lia). rewrite Nat2Z.id.
  set (k := Z.to_nat _). assert (3 <= k)%nat as Hk by (unfold k, zlen; lia).
  assert (forall i, (i < 3)%nat -> nth_error (firstn k (skipn o v)) i = nth_error v (o + i)) as N.
  { intros i Hi. rewrite nth_firstn by lia. apply nth_skipn. }
  assert (3 <= length (firstn k (skipn o v)))%nat as L by (rewrite firstn_length, skipn_length; lia).
  destruct (firstn k (skipn o v)) as [|x [|y [|z t]]]; simpl in L; try lia.
  exists (x, y, z). split; [|reflexivity]. unfold triple.
  rewrite <- (Nat.add_0_r o) at 1. rewrite <- !N by lia. auto.
Qed.

Lemma decl3 v : decltype_len v = Ok 3 <-> v = 2.
Proof.
  unfold decltype_len. split; [|intros ->; reflexivity].
  destruct (Z.eqb_spec v 0); [discriminate|]. destruct (Z.eqb_spec v 1); [discriminate|].
  destruct (Z.eqb_spec v 2); [auto|]. destruct (Z.eqb_spec v 3); [discriminate|].
  destruct (Z.eqb_spec v 4); [discriminate|]. destruct (Z.eqb_spec v 17); discriminate.
Qed.

Lemma oriented_unfold a (B : Type) (x y : B) :
  (if flag a =? UNUSED then x
   else if (usage a =? POSITION) || (usage a =? NORMAL) || (usage a =? TANGENT) then y else x) =
  if oriented a then y else x.
Proof.
  unfold oriented, in_use. change UNUSED with 255. change POSITION with 0. change NORMAL with 3. change TANGENT with 6.
  now destruct (flag a =? 255), (_ || _ || _).
Qed.

Lemma attrib_start_div m a : 0 < vertformat m -> 0 <= offset a < 65536 ->
  py_int_div (offset a) (vertformat m) = Ok (Z.of_nat (attrib_start m a)).
Proof.
  intros Hf Ha. rewrite int_div_short by lia. f_equal. rewrite Z.quot_div_nonneg by lia. unfold attrib_start.
  rewrite Z2Nat.id; [reflexivity|]. apply Z.div_pos; lia.
Qed.

(** One attribute of at least three components in range. *)
Lemma rotate_attrib_spec m yaw pitch roll v a n : trig3 A yaw pitch roll = true ->
  0 < vertformat m -> 0 <= offset a < 65536 -> oriented a = true ->
  decltype_len (vartype a) = Ok n -> 3 <= n -> (attrib_start m a + Z.to_nat n <= length v)%nat ->
  exists q, triple v (attrib_start m a) q /\
  let '(x, y, z) := rot3 A yaw pitch roll q in
  rotate_attrib A m yaw pitch roll v a =
    Ok (firstn (attrib_start m a) v ++ [x; y; z] ++ skipn (attrib_start m a + Z.to_nat n) v).
Proof.
  intros Ht Hf Ha Ho Hn Hn3 Hl. destruct (triple_slice v (attrib_start m a) n Hn3) as (q & Hq & Hs); [lia|].
  exists q. split; [exact Hq|]. unfold rotate_attrib. rewrite oriented_unfold, Ho.
  rewrite attrib_start_div by lia. cbn [bind]. rewrite Hn. cbn [bind]. rewrite Hs. cbn [bind]. rewrite Ht.
  destruct (rot3 A yaw pitch roll q) as ((x, y), z). rewrite slice_assign_in by lia. reflexivity.
Qed.

Lemma rotate_attrib_skip m yaw pitch roll v a : oriented a = false -> rotate_attrib A m yaw pitch roll v a = Ok v.
Proof. intros H. unfold rotate_attrib. now rewrite oriented_unfold, H. Qed.

Lemma triple_same (v v' : list F) o q : (forall c, (o <= c < o + 3)%nat -> nth_error v' c = nth_error v c) ->
  triple v o q -> triple v' o q.
Proof. destruct q as ((x, y), z). unfold triple. intros H. rewrite !H by lia. auto. Qed.

Lemma rotate_fold m yaw pitch roll vs : trig3 A yaw pitch roll = true -> 0 < vertformat m ->
  forall l v, Forall (fun a => 0 <= offset a < 65536) l -> length v = vs ->
  Forall (fun a => vartype a = 2 /\ (attrib_start m a + 3 <= vs)%nat) (filter oriented l) ->
  ForallOrdPairs (apart m) (filter oriented l) ->
  exists v', fold_res (rotate_attrib A m yaw pitch roll) v l = Ok v' /\ length v' = vs /\
    (forall c, Forall (outside m c) (filter oriented l) -> nth_error v' c = nth_error v c) /\
    Forall (fun a => forall q, triple v (attrib_start m a) q ->
                     triple v' (attrib_start m a) (rot3 A yaw pitch roll q)) (filter oriented l).
Proof.
  intros Ht Hf. induction l as [|a l IH]; intros v Ho Hl HA HP.
  - simpl. exists v. repeat split; auto.
  - inversion Ho as [|? ? Ho1 Ho2]; subst. simpl in HA, HP |- *. destruct (oriented a) eqn:Ea.
    + inversion HA as [|? ? (Hv & Hr) HA']; subst. inversion HP as [|? ? HP1 HP2]; subst.
      destruct (rotate_attrib_spec m yaw pitch roll v a 3 Ht Hf Ho1 Ea) as (q & Hq & E); [now apply decl3|lia|exact Hr|].
      destruct (rot3 A yaw pitch roll q) as ((x, y), z) eqn:ER. rewrite E. cbn [bind].
      set (o := attrib_start m a) in *. set (v1 := firstn o v ++ [x; y; z] ++ skipn (o + Z.to_nat 3) v) in *.
      change (Z.to_nat 3) with 3%nat in v1.
      assert (length (firstn o v) = o) as Lo by (rewrite firstn_length; lia).
      assert (length v1 = length v) as L1.
      { unfold v1. rewrite !app_length, Lo, skipn_length. simpl. lia. }
      assert (forall c, (c < o \/ o + 3 <= c)%nat -> nth_error v1 c = nth_error v c) as N1.
      { intros c [Hc|Hc]; unfold v1.
        - rewrite nth_error_app1 by lia. apply nth_firstn. lia.
        - rewrite nth_error_app2 by lia. rewrite nth_error_app2 by (simpl; lia). rewrite nth_skipn, Lo.
          f_equal. simpl. lia. }
      assert (triple v1 o (x, y, z)) as T1.
      { unfold v1, triple. rewrite (nth_error_app2 _ _ (n := o)), (nth_error_app2 _ _ (n := (o + 1)%nat)),
          (nth_error_app2 _ _ (n := (o + 2)%nat)) by lia. rewrite Lo.
        replace (o - o)%nat with 0%nat by lia. replace (o + 1 - o)%nat with 1%nat by lia.
        replace (o + 2 - o)%nat with 2%nat by lia. repeat split; reflexivity. }
      destruct (IH v1 Ho2) as (v' & E' & L' & N' & T'); auto.
      exists v'. split; [exact E'|]. split; [lia|]. split.
      * intros c Hc. inversion Hc as [|? ? Hc1 Hc2]; subst. rewrite N' by exact Hc2. apply N1. exact Hc1.
      * constructor.
        -- intros q' Hq'. assert (q' = q) as ->.
           { destruct q as ((x1, y1), z1), q' as ((x2, y2), z2). fold o in Hq'. unfold triple in Hq, Hq'. destruct Hq as (A1 & A2 & A3), Hq' as (B1 & B2 & B3). rewrite A1 in B1. rewrite A2 in B2. rewrite A3 in B3. congruence. }
           rewrite ER. apply (triple_same v1); [|exact T1]. intros c Hc. apply N'.
           eapply Forall_impl; [|exact HP1]. intros b Hb. unfold apart in Hb. unfold outside. fold o in Hb. lia.
        -- rewrite Forall_forall in T' |- *. intros b Hb q' Hq'. apply T'; [exact Hb|].
           apply (triple_same v); [|exact Hq']. intros c Hc. apply N1.
           rewrite Forall_forall in HP1. specialize (HP1 b Hb). unfold apart in HP1. fold o in HP1. lia.
    + rewrite rotate_attrib_skip by exact Ea. cbn [bind]. apply IH; auto.
Qed.

Lemma rotate_fold_ok m yaw pitch roll : forall l v v', fold_res (rotate_attrib A m yaw pitch roll) v l = Ok v' ->
  trig3 A yaw pitch roll = true \/ v' = v.
Proof.
  destruct (trig3 A yaw pitch roll) eqn:Ht; [auto|]. intros l. right. revert v v' H. induction l as [|a l IH]; intros v v' H; simpl in H; [congruence|].
  destruct (rotate_attrib A m yaw pitch roll v a) as [v1|] eqn:E; [|discriminate]. cbn [bind] in H.
  assert (v1 = v) as ->; [|now apply IH]. unfold rotate_attrib in E. rewrite oriented_unfold in E.
  destruct (oriented a); [|congruence]. rewrite Ht in E.
  destruct (py_int_div _ _); [|discriminate]. cbn [bind] in E. destruct (decltype_len _); [|discriminate]. cbn [bind] in E.
  destruct (first3 _); discriminate.
Qed.

Theorem rotate_packed vs m yaw pitch roll more :
  vertex_size m = Ok (Z.of_nat vs) -> (0 < vs)%nat -> tiled_vertices vs m -> rotate_ready vs m ->
  can_turn A yaw pitch roll ->
  exists m', rotate A m (yaw :: pitch :: roll :: more) = (m', None) /\
  same_but_vertices m m' /\ length (vertices m') = length (vertices m) /\
  (forall j c, (c < vs)%nat -> Forall (outside m c) (oriented_attribs m) ->
     nth_error (vertices m') (j * vs + c) = nth_error (vertices m) (j * vs + c)) /\
  (forall j a q, In a (oriented_attribs m) -> triple (vertices m) (j * vs + attrib_start m a) q ->
     triple (vertices m') (j * vs + attrib_start m a) (turn A yaw pitch roll q)).
Proof.
  intros Hs Hv T ((Hf & Ho) & HA & HP) Ht. apply can_turn_trig in Ht.
  set (R := fun v v' : list F => length v' = vs /\
        (forall c, Forall (outside m c) (oriented_attribs m) -> nth_error v' c = nth_error v c) /\
        Forall (fun a => forall q, triple v (attrib_start m a) q ->
                     triple v' (attrib_start m a) (turn A yaw pitch roll q)) (oriented_attribs m)).
  assert (forall v, length v = vs -> exists v', rotate_vertex A m (f_radians A yaw) (f_radians A pitch) (f_radians A roll) v = Ok v' /\ R v v') as RV.
  { intros v Lv. destruct (rotate_fold m (f_radians A yaw) (f_radians A pitch) (f_radians A roll) vs Ht Hf
             (vertex_attributes m) v Ho Lv HA HP) as (v' & E & L & N & TT).
    exists v'. split; [exact E|]. split; [exact L|]. split; [exact N|].
    eapply Forall_impl; [|exact TT]. intros a Ha q Hq. rewrite <- rot3_turn. auto. }
  assert (exists r, map_res (rotate_vertex A m (f_radians A yaw) (f_radians A pitch) (f_radians A roll))
            (flat_map (mat_vertices vs m) (mats m)) = Ok r) as (r & Er).
  { assert (Forall (fun v => length v = vs) (flat_map (mat_vertices vs m) (mats m))) as HB.
    { apply Forall_flat_map. eapply Forall_impl; [|apply tiled_vin, T]. intros mt. apply mat_vertices_length. }
    induction HB as [|v l Hv1 HB IH]; simpl; [eauto|].
    destruct (RV v Hv1) as (v' & -> & _). destruct IH as (r & ->). simpl. eauto. }
  exists (set_vertices m (concat r)). split.
  { unfold rotate. rewrite (all_loop vs) by auto using tiled_vin. rewrite Er. reflexivity. }
  split; [apply set_vertices_frame|]. cbn [vertices set_vertices].
  destruct T as (n & E & T). pose proof (tiles_le _ _ _ T) as Hn. rewrite (tiled_blocks vs m n E T) in Er.
  apply map_res_ok in Er. unfold zlen in E.
  assert (length (vertices m) = Z.to_nat n * vs)%nat as EL by nia. set (k := Z.to_nat n) in *.
  assert (Forall2 R (map (block vs (vertices m)) (seq 0 k)) r) as HR.
  { assert (Forall (fun v => length v = vs) (map (block vs (vertices m)) (seq 0 k))) as HB.
    { rewrite Forall_map. apply Forall_forall. intros i Hi. apply in_seq in Hi. apply block_length. nia. }
    clear - Er HB RV. remember (map _ _) as l. clear Heql. induction Er; constructor.
    - inversion HB; subst. destruct (RV x eq_refl) as (v' & E & HR). assert (v' = y) by congruence. now subst.
    - apply IHEr. inversion HB; subst; assumption. }
  assert (Forall (fun v => length v = vs) r) as HL.
  { clear - HR. remember (map _ _) as l. clear Heql. induction HR; constructor; [apply H|assumption]. }
  assert (length r = k) as Erk by (apply Forall2_len in HR; rewrite map_length, seq_length in HR; lia).
  assert (length (concat r) = k * vs)%nat as LC.
  { rewrite <- Erk. clear - HL. induction HL; simpl; [reflexivity|]. rewrite app_length. lia. }
  assert (forall j, (j < k)%nat -> exists v', nth_error r j = Some v' /\ R (block vs (vertices m) j) v') as NJ.
  { intros j Hj. pose proof (Forall2_nth _ _ _ HR j) as HJ.
    rewrite (nth_error_nth' _ (block vs (vertices m) 0)) in HJ by (rewrite map_length, seq_length; lia).
    rewrite map_nth, seq_nth in HJ by lia. destruct (nth_error r j) as [v'|]; [|contradiction]. eauto. }
  split; [lia|]. split.
  - intros j c Hc Hout. destruct (Nat.ltb_spec j k) as [Hj|Hj].
    + destruct (NJ j Hj) as (v' & Ev & _ & N & _). rewrite (nth_concat vs) by auto. rewrite Ev, N by exact Hout.
      now apply nth_block.
    + rewrite !(proj2 (nth_error_None _ _)); [reflexivity|nia|nia].
  - intros j a q Ha Hq. assert (In a (oriented_attribs m)) as Ha' by exact Ha.
    assert (attrib_start m a + 3 <= vs)%nat as Hr by (rewrite Forall_forall in HA; apply HA, Ha).
    assert (j < k)%nat as Hj.
    { destruct q as ((x, y), z). destruct Hq as (Hq & _).
      assert (j * vs + attrib_start m a < length (vertices m))%nat by (apply nth_error_Some; congruence). nia. }
    destruct (NJ j Hj) as (v' & Ev & L & _ & TT). rewrite Forall_forall in TT. specialize (TT a Ha q).
    assert (triple (block vs (vertices m) j) (attrib_start m a) q) as Hb.
    { destruct q as ((x, y), z). unfold triple in *. rewrite !nth_block by lia. rewrite !Nat.add_assoc. exact Hq. }
    specialize (TT Hb). destruct (turn A yaw pitch roll q) as ((x, y), z). unfold triple in *.
    rewrite <- !Nat.add_assoc. rewrite !(nth_concat vs) by (auto; lia). rewrite Ev. exact TT.
Qed.
End Rotate.

(** ** Meshes that are not packed; attributes of other widths *)
Section Odd.
Context {F : Type} (A : arith F).
Implicit Types (m : mesh F).

Lemma nth_combine_seq {B} (v : list B) : forall a c,
  nth_error (combine (seq a (length v)) v) c = option_map (fun x => ((a + c)%nat, x)) (nth_error v c).
Proof.
  induction v as [|x t IH]; intros a c; simpl; [now destruct c|]. destruct c; simpl; [now rewrite Nat.add_0_r|].
  rewrite IH. destruct (nth_error t c); simpl; [|reflexivity]. do 2 f_equal. lia.
Qed.
Lemma nth_ext_error {B} : forall (l l' : list B), (forall c, nth_error l c = nth_error l' c) -> l = l'.
Proof.
  induction l as [|x t IH]; intros [|y t'] H; auto.
  - specialize (H 0%nat). discriminate.
  - specialize (H 0%nat). discriminate.
  - pose proof (H 0%nat) as H0. injection H0 as ->. f_equal. apply IH. intros c. apply (H (S c)).
Qed.

Lemma translate_vertex_eq m off v v' : short_offsets m -> translate_vertex A m off v = Ok v' ->
  v' = moved_vertex A (position_start m) off v.
Proof.
  intros Ho H. destruct (translate_vertex_spec A m off (length v) v v' Ho eq_refl H) as (L & N).
  apply nth_ext_error. intros c. rewrite N. unfold moved_vertex. rewrite nth_error_map, nth_combine_seq.
  now destruct (nth_error v c).
Qed.

Theorem translate_in_range vs m off m' :
  vertex_size m = Ok (Z.of_nat vs) -> (0 < vs)%nat -> Forall (mat_vin vs m) (mats m) -> short_offsets m ->
  translate A m off = (m', None) ->
  same_but_vertices m m' /\
  vertices m' = concat (map (moved_vertex A (position_start m) off) (flat_map (mat_vertices vs m) (mats m))).
Proof.
  intros Hs Hv T Ho H. apply assign_spec in H. destruct H as (nv & H & ->).
  split; [apply set_vertices_frame|]. rewrite (all_loop vs) in H by auto.
  destruct (map_res _ _) as [r|] eqn:E; [|discriminate]. injection H as <-. cbn [vertices set_vertices]. f_equal.
  apply map_res_ok in E. induction E as [|v v' l l' Hf E IH]; simpl; [reflexivity|]. f_equal; [|exact IH].
  now apply translate_vertex_eq.
Qed.

Definition four (a : vertattrib) : bool := vartype a =? 3.

Lemma rotate_fold_len m yaw pitch roll : trig3 A yaw pitch roll = true -> 0 < vertformat m ->
  forall l vs v q, Forall (fun a => 0 <= offset a < 65536) l ->
  q = length (filter four (filter oriented l)) ->
  (vs <= length v)%nat ->
  Forall (fun a => (vartype a = 2 \/ vartype a = 3) /\ (attrib_start m a + 3 + q <= vs)%nat) (filter oriented l) ->
  exists v', fold_res (rotate_attrib A m yaw pitch roll) v l = Ok v' /\ (length v' + q = length v)%nat.
Proof.
  intros Ht Hf l. induction l as [|a l IH]; intros vs v q Ho Hq Hl HA.
  - simpl in *. exists v. split; [reflexivity|]. lia.
  - inversion Ho as [|? ? Ho1 Ho2]; subst. simpl in HA |- *. destruct (oriented a) eqn:Ea.
    + inversion HA as [|? ? (Hh & Hr) HA']; subst.
      assert (exists n, decltype_len (vartype a) = Ok n /\ (n = 3 /\ four a = false \/ n = 4 /\ four a = true)) as (n & Hn & Hn4).
      { unfold four. destruct Hh as [-> | ->]; eexists; (split; [reflexivity|]); auto. }
      cbn [filter] in *.
      assert (attrib_start m a + Z.to_nat n <= length v)%nat as Hr'.
      { destruct Hn4 as [(-> & Q)|(-> & Q)]; rewrite Q in Hr; simpl in Hr; lia. }
      destruct (rotate_attrib_spec A m yaw pitch roll v a n Ht Hf Ho1 Ea Hn) as (t & _ & E); [lia|exact Hr'|].
      destruct (rot3 A yaw pitch roll t) as ((x, y), z). rewrite E. cbn [bind].
      set (v1 := firstn _ v ++ _) in *.
      assert (length v1 + Z.to_nat n = length v + 3)%nat as L1.
      { unfold v1. rewrite !app_length, firstn_length, skipn_length. simpl. lia. }
      destruct Hn4 as [(-> & Q)|(-> & Q)]; rewrite Q in *.
      * destruct (IH vs v1 _ Ho2 eq_refl) as (v' & E' & L'); [lia|exact HA'|]. exists v'. split; [exact E'|]. lia.
      * destruct (IH (vs - 1)%nat v1 _ Ho2 eq_refl) as (v' & E' & L').
        { lia. }
        { eapply Forall_impl; [|exact HA']. simpl. intros b (Hb1 & Hb2). split; [exact Hb1|]. lia. }
        exists v'. split; [exact E'|]. simpl. lia.
    + rewrite rotate_attrib_skip by exact Ea. cbn [bind]. apply (IH vs); auto.
Qed.

Lemma map_res_forall {B C} (f : B -> res C) (P : C -> Prop) l :
  Forall (fun x => exists y, f x = Ok y /\ P y) l ->
  exists r, map_res f l = Ok r /\ length r = length l /\ Forall P r.
Proof.
  induction 1 as [|x l (y & E & Py) H (r & Er & L & Pr)]; simpl; [exists []; auto|].
  rewrite E. cbn [bind]. rewrite Er. exists (y :: r). simpl. auto.
Qed.

Lemma concat_length_const {B} n (r : list (list B)) : Forall (fun v => length v = n) r ->
  length (concat r) = (length r * n)%nat.
Proof. induction 1 as [|v l Hv H IH]; simpl; [reflexivity|]. rewrite app_length. lia. Qed.

Theorem rotate_shrinks vs m yaw pitch roll more n :
  vertex_size m = Ok (Z.of_nat vs) -> (0 < vs)%nat -> tiled_vertices vs m -> short_offsets m ->
  length (vertices m) = (n * vs)%nat -> can_turn A yaw pitch roll ->
  let q := length (filter (fun a => vartype a =? 3) (oriented_attribs m)) in
  Forall (fun a => (vartype a = 2 \/ vartype a = 3) /\ (attrib_start m a + 3 + q <= vs)%nat) (oriented_attribs m) ->
  exists m', rotate A m (yaw :: pitch :: roll :: more) = (m', None) /\
    same_but_vertices m m' /\ length (vertices m') = (n * (vs - q))%nat.
Proof.
  intros Hs Hv T (Hf & Ho) Ln Ht q HA. apply can_turn_trig in Ht.
  destruct (map_res_forall (rotate_vertex A m (f_radians A yaw) (f_radians A pitch) (f_radians A roll))
              (fun v => length v = (vs - q)%nat) (flat_map (mat_vertices vs m) (mats m))) as (r & Er & Lr & Pr).
  { apply Forall_flat_map. eapply Forall_impl; [|apply tiled_vin, T]. intros mt Hm.
    eapply Forall_impl; [|apply (mat_vertices_length vs m mt Hm)]. intros v Lv. cbv beta in Lv |- *. unfold rotate_vertex.
    destruct (rotate_fold_len m (f_radians A yaw) (f_radians A pitch) (f_radians A roll) Ht Hf (vertex_attributes m) vs v q Ho)
      as (v' & E & L); [reflexivity|lia|exact HA|].
    exists v'. split; [exact E|]. clearbody q. lia. }
  exists (set_vertices m (concat r)). split.
  { unfold rotate. rewrite (all_loop vs) by auto using tiled_vin. rewrite Er. reflexivity. }
  split; [apply set_vertices_frame|]. cbn [vertices set_vertices].
  rewrite (concat_length_const (vs - q)) by exact Pr. f_equal. rewrite Lr.
  destruct T as (k & E & T). rewrite (tiled_blocks vs m k E T), map_length, seq_length. unfold zlen in E. nia.
Qed.

Theorem rotate_narrow vs m yaw pitch roll more a t :
  vertex_size m = Ok (Z.of_nat vs) -> (0 < vs)%nat -> tiled_vertices vs m -> vertices m <> [] -> short_offsets m ->
  oriented_attribs m = a :: t -> (vartype a = 0 \/ vartype a = 1 \/ vartype a = 4 \/ vartype a = 17) ->
  rotate A m (yaw :: pitch :: roll :: more) = (m, Some EIndex).
Proof.
  intros Hs Hv T Hne (Hf & Ho) Ha Hw. unfold rotate. rewrite (all_loop vs) by auto using tiled_vin.
  assert (exists v l, flat_map (mat_vertices vs m) (mats m) = v :: l) as (v & l & ->).
  { destruct T as (k & E & T). rewrite (tiled_blocks vs m k E T). 
    assert (0 < k). { destruct (vertices m); [contradiction|]. unfold zlen in E. simpl in E. nia. }
    destruct (Z.to_nat k) eqn:Ek; [lia|]. simpl. eauto. }
  simpl. assert (rotate_vertex A m (f_radians A yaw) (f_radians A pitch) (f_radians A roll) v = Raise EIndex) as ->; [|reflexivity].
  unfold rotate_vertex. unfold oriented_attribs in Ha.
  clear -Hf Ho Ha Hw. revert Ha Ho. induction (vertex_attributes m) as [|b l IH]; intros Ha Ho; [discriminate|].
  inversion Ho as [|? ? Ho1 Ho2]; subst. simpl in Ha |- *. destruct (oriented b) eqn:Eb.
  - injection Ha as -> _. unfold rotate_attrib. rewrite oriented_unfold, Eb.
    rewrite attrib_start_div by lia. cbn [bind].
    assert (exists n, decltype_len (vartype a) = Ok n /\ 0 <= n <= 2) as (n & -> & Hn).
    { destruct Hw as [->|[->|[->| ->]]]; eexists; (split; [reflexivity|lia]). }
    cbn [bind]. set (s := py_slice v _ _).
    assert (length s <= 2)%nat as Ls.
    { unfold s, py_slice. rewrite firstn_length. unfold norm_bound.
      destruct (Z.ltb_spec (Z.of_nat (attrib_start m a)) 0); [lia|].
      destruct (Z.ltb_spec (Z.of_nat (attrib_start m a) + n) 0); [lia|]. unfold zlen. lia. }
    destruct s as [|x [|y [|z s]]]; simpl in Ls; try lia; reflexivity.
  - rewrite rotate_attrib_skip by exact Eb. cbn [bind]. auto.
Qed.

(** An infinite angle: math.cos raises before anything is assigned. *)
Theorem rotate_infinite vs m yaw pitch roll more a t n :
  vertex_size m = Ok (Z.of_nat vs) -> (0 < vs)%nat -> tiled_vertices vs m -> vertices m <> [] -> short_offsets m ->
  oriented_attribs m = a :: t -> decltype_len (vartype a) = Ok n -> 3 <= n -> (attrib_start m a + 3 <= vs)%nat ->
  ~ can_turn A yaw pitch roll ->
  rotate A m (yaw :: pitch :: roll :: more) = (m, Some EValue).
Proof.
  intros Hs Hv T Hne (Hf & Ho) Ha Hn Hn3 Hr Ht. apply cannot_turn_trig in Ht.
  unfold rotate. rewrite (all_loop vs) by auto using tiled_vin.
  pose proof (tiled_vin vs m T) as HV.
  assert (exists v l, flat_map (mat_vertices vs m) (mats m) = v :: l /\ length v = vs) as (v & l & -> & Lv).
  { assert (Forall (fun v => length v = vs) (flat_map (mat_vertices vs m) (mats m))) as HB.
    { apply Forall_flat_map. eapply Forall_impl; [|exact HV]. intros mt. apply mat_vertices_length. }
    destruct T as (k & E & T). rewrite (tiled_blocks vs m k E T) in HB |- *.
    assert (0 < k). { destruct (vertices m); [contradiction|]. unfold zlen in E. simpl in E. nia. }
    destruct (Z.to_nat k) eqn:Ek; [lia|]. simpl in HB |- *. inversion HB; subst. eauto. }
  simpl. assert (rotate_vertex A m (f_radians A yaw) (f_radians A pitch) (f_radians A roll) v = Raise EValue) as ->; [|reflexivity].
  unfold rotate_vertex. unfold oriented_attribs in Ha.
  clear -Hf Ho Ha Hn Hn3 Hr Ht Lv. revert Ha Ho. induction (vertex_attributes m) as [|b l IH]; intros Ha Ho; [discriminate|].
  inversion Ho as [|? ? Ho1 Ho2]; subst. simpl in Ha |- *. destruct (oriented b) eqn:Eb.
  - injection Ha as -> _. unfold rotate_attrib. rewrite oriented_unfold, Eb.
    rewrite attrib_start_div by lia. cbn [bind]. rewrite Hn. cbn [bind].
    destruct (triple_slice v (attrib_start m a) n Hn3 Hr) as (q & _ & ->). cbn [bind]. now rewrite Ht.
  - rewrite rotate_attrib_skip by exact Eb. cbn [bind]. auto.
Qed.

Lemma rotate_can vs m yaw pitch roll more m' :
  vertex_size m = Ok (Z.of_nat vs) -> (0 < vs)%nat -> tiled_vertices vs m -> vertices m <> [] -> rotate_ready vs m ->
  oriented_attribs m <> [] -> rotate A m (yaw :: pitch :: roll :: more) = (m', None) -> can_turn A yaw pitch roll.
Proof.
  intros Hs Hv T Hne (Ho & HA & HP) Hn E. destruct (can_turn_dec A yaw pitch roll) as [C|C]; [exact C|exfalso].
  destruct (oriented_attribs m) as [|a t] eqn:Ea; [now destruct Hn|]. inversion HA as [|? ? (H1 & H2) _]; subst.
  rewrite (rotate_infinite vs m yaw pitch roll more a t 3) in E; auto; [discriminate|now apply decl3|lia].
Qed.

Theorem move_atomic m arg m' e :
  translate A m arg = (m', Some e) \/ rotate A m arg = (m', Some e) -> m' = m.
Proof.
  assert (forall r, assign_vertices m r = (m', Some e) -> m' = m) as H.
  { intros [nv|e']; simpl; congruence. }
  intros [E|E]; [exact (H _ E)|]. unfold rotate in E.
  destruct arg as [|a [|b [|c t]]]; [congruence..|exact (H _ E)].
Qed.
End Odd.
