(** The editing methods of the old mesh class on meshes with canonical declarations. *)
From Coq Require Import ZArith List Bool Lia Reals Lra Floats.SpecFloat.
From Flocq Require Import Core IEEE754.BinarySingleNaN.
From Verif Require Import PyBase Struct Mesh Arith Edit OldEdit Spec SpecEdit SpecBounds SpecOldEdit DivFacts TravFacts VertFacts LayoutFacts MergeFacts BoundFacts.
Import ListNotations.
Open Scope Z_scope.
Open Scope res_scope.

(** ** Declarations *)
Definition width (a : vertattrib) : nat :=
  match old_type_len (vartype a) with Ok n => Z.to_nat n | Raise _ => 0%nat end.
Lemma old_widths_len a w : In (vartype a, w) old_widths ->
  old_type_len (vartype a) = Ok (Z.of_nat w) /\ (vartype a =? 17) = false /\ width a = w.
Proof.
  unfold width. cbn. intros H.
  repeat match goal with H : _ \/ _ |- _ => destruct H as [H|H] end; try contradiction;
    injection H as E <-; rewrite <- E; repeat split; reflexivity.
Qed.
Lemma declared_le f o l e : declared f o l e -> (o <= e)%nat.
Proof. induction 1; lia. Qed.

Section Declared.
Context {F : Type} (m : mesh F).
Implicit Types (chunk : list F) (v w : vertex (F:=F)).

Definition part chunk (a : vertattrib) : list F := firstn (width a) (skipn (attrib_start m a) chunk).

Lemma start_exact a o : 0 < vertformat m -> offset a = vertformat m * Z.of_nat o -> attrib_start m a = o.
Proof.
  intros Hf E. unfold attrib_start. rewrite E, Z.mul_comm, Z.div_mul by lia. apply Nat2Z.id.
Qed.
Lemma declared_parts o l e : 0 < vertformat m -> declared (vertformat m) o l e ->
  Forall (fun a => In (vartype a, width a) old_widths /\ (o <= attrib_start m a)%nat /\ (attrib_start m a + width a <= e)%nat) l.
Proof.
  intros Hf. induction 1 as [|o a w l e Hw Ho D IH]; constructor.
  - destruct (old_widths_len a w Hw) as (_ & _ & E). rewrite (start_exact a o Hf Ho), E. apply declared_le in D. repeat split; auto; lia.
  - eapply Forall_impl; [|exact IH]. intros b (H1 & H2 & H3). repeat split; auto; lia.
Qed.
(** Every number of a vertex belongs to an attribute. *)
Lemma declared_cover o l e : 0 < vertformat m -> declared (vertformat m) o l e -> forall c, (o <= c < e)%nat ->
  exists a, In a l /\ (attrib_start m a <= c < attrib_start m a + width a)%nat.
Proof.
  intros Hf. induction 1 as [|o a w l e Hw Ho D IH]; intros c Hc; [lia|].
  destruct (old_widths_len a w Hw) as (_ & _ & E). pose proof (start_exact a o Hf Ho) as S.
  destruct (Nat.ltb_spec c (o + w)).
  - exists a. split; [now left|]. lia.
  - destruct (IH c) as (b & Hb & H1); [lia|]. exists b. split; [now right|exact H1].
Qed.

(** One list of numbers per attribute, one after the other. *)
Lemma parts_nth (g : vertattrib -> list F) o l e : 0 < vertformat m -> declared (vertformat m) o l e ->
  Forall (fun a => length (g a) = width a) l ->
  length (flat_map g l) = (e - o)%nat /\
  forall a k, In a l -> (k < width a)%nat -> nth_error (flat_map g l) (attrib_start m a - o + k) = nth_error (g a) k.
Proof.
  intros Hf. induction 1 as [|o a w l e Hw Ho D IH]; intros HL.
  - split; [cbn; lia|]. intros a k [].
  - inversion HL as [|? ? La Ll]; subst. destruct (IH Ll) as (L & N). cbn [flat_map].
    destruct (old_widths_len a w Hw) as (_ & _ & E). pose proof (start_exact a o Hf Ho) as S.
    pose proof (declared_le _ _ _ _ D). pose proof (declared_parts _ _ _ Hf D) as P. split.
    + rewrite app_length, L, La. lia.
    + intros b k [<-|Hb] Hk.
      * rewrite nth_error_app1 by lia. f_equal. lia.
      * rewrite Forall_forall in P. destruct (P b Hb) as (_ & P1 & _).
        rewrite nth_error_app2 by lia. rewrite <- (N b k Hb Hk). f_equal. lia.
Qed.

Lemma nth_part chunk a k : (k < width a)%nat -> nth_error (part chunk a) k = nth_error chunk (attrib_start m a + k).
Proof.
  intros Hk. unfold part.
  assert (forall (l : list F) n c, (c < n)%nat -> nth_error (firstn n l) c = nth_error l c) as F1.
  { clear. induction l as [|x t IH]; intros n c H; [now rewrite firstn_nil|].
    destruct n; [lia|]. destruct c; [reflexivity|]. simpl. apply IH. lia. }
  rewrite F1 by exact Hk. generalize (attrib_start m a). intros n. revert chunk.
  induction n as [|n IH]; intros l; [reflexivity|]. destruct l; [now destruct k|]. apply IH.
Qed.
Lemma part_length chunk a : (attrib_start m a + width a <= length chunk)%nat -> length (part chunk a) = width a.
Proof. intros H. unfold part. rewrite firstn_length, skipn_length. lia. Qed.
Lemma parts_all o l e chunk : 0 < vertformat m -> declared (vertformat m) o l e -> length chunk = e -> o = 0%nat ->
  flat_map (part chunk) l = chunk.
Proof.
  intros Hf D HL ->. pose proof (declared_parts _ _ _ Hf D) as P.
  destruct (parts_nth (part chunk) _ _ _ Hf D) as (L & N).
  { eapply Forall_impl; [|exact P]. intros a (_ & _ & H). apply part_length. lia. }
  apply nth_ext_error. intros c. destruct (Nat.ltb_spec c e) as [Hc|Hc].
  - destruct (declared_cover _ _ _ Hf D c) as (a & Ha & H1); [lia|].
    specialize (N a (c - attrib_start m a)%nat Ha). rewrite nth_part in N by lia.
    replace (attrib_start m a - 0 + (c - attrib_start m a))%nat with c in N by lia.
    replace (attrib_start m a + (c - attrib_start m a))%nat with c in N by lia. apply N. lia.
  - rewrite !(proj2 (nth_error_None _ _)); [reflexivity|lia|lia].
Qed.

(** ** Vertex objects *)
Definition put chunk (v : vertex) (a : vertattrib) : vertex := setattr v (usage a) (part chunk a).
Definition view chunk : vertex := fold_left (put chunk) (filter in_use (vertex_attributes m)) bare_vertex.

Lemma put_other chunk u : forall l v, ~ In u (map usage l) -> fold_left (put chunk) l v u = v u.
Proof.
  induction l as [|a t IH]; intros v H; [reflexivity|]. cbn [fold_left]. rewrite IH by (intros X; apply H; now right).
  unfold put, setattr. destruct (Z.eqb_spec u (usage a)); [|reflexivity]. subst. destruct H. now left.
Qed.
Lemma put_at chunk a : forall l v, NoDup (map usage l) -> In a l -> fold_left (put chunk) l v (usage a) = Some (part chunk a).
Proof.
  induction l as [|b t IH]; intros v N H; [destruct H|]. inversion N; subst. cbn [fold_left]. destruct H as [->|H].
  - rewrite put_other by assumption. unfold put, setattr. now rewrite Z.eqb_refl.
  - now apply IH.
Qed.

Context (vs : nat) (C : canonical vs m).
Lemma can_format : 0 < vertformat m.
Proof. apply (can_short _ _ C). Qed.
Let l := filter in_use (vertex_attributes m).

Lemma view_at chunk a : In a l -> view chunk (usage a) = Some (part chunk a).
Proof. apply put_at, (can_usages _ _ C). Qed.
Lemma view_none chunk u : ~ In u (map usage l) -> view chunk u = None.
Proof. intros H. unfold view. now rewrite put_other. Qed.

Lemma old_known_ok a : old_known a -> old_known_type (vartype a) = true /\ known_usage (usage a) = true.
Proof.
  intros (H1 & H2). split.
  - cbn in H1. repeat match goal with H : _ \/ _ |- _ => destruct H as [H|H] end; try contradiction; now rewrite <- H1.
  - cbn in H2. repeat match goal with H : _ \/ _ |- _ => destruct H as [H|H] end; try contradiction; now rewrite <- H2.
Qed.
Lemma attrib_offset_ok a : In a (vertex_attributes m) -> attrib_offset m a = Ok (Z.of_nat (attrib_start m a)).
Proof.
  intros H. unfold attrib_offset. pose proof (can_short _ _ C) as (Hf & Ho). pose proof (can_known _ _ C) as K.
  rewrite Forall_forall in Ho, K. rewrite (attrib_start_div m a Hf (Ho a H)). cbn [bind].
  destruct (old_known_ok a (K a H)) as (-> & ->). reflexivity.
Qed.
Lemma can_parts : Forall (fun a => In (vartype a, width a) old_widths /\ (attrib_start m a + width a <= vs)%nat) l.
Proof.
  eapply Forall_impl; [|apply (declared_parts 0 l vs can_format (can_declared _ _ C))]. intros a (H1 & H2 & H3). now split.
Qed.
Lemma vs_small : Z.of_nat vs <= 65538.
Proof.
  pose proof (can_size _ _ C) as Hv. destruct (declared_cover 0 l vs can_format (can_declared _ _ C) (vs - 1)) as (a & Ha & H); [lia|].
  pose proof can_parts as P. rewrite Forall_forall in P. destruct (P a Ha) as (P1 & P2).
  assert (width a <= 3)%nat as W.
  { cbn in P1. repeat match goal with H : _ \/ _ |- _ => destruct H as [H|H] end; try contradiction; injection P1 as _ <-; lia. }
  destruct (can_short _ _ C) as (Hf & Ho). rewrite Forall_forall in Ho. apply filter_In in Ha. destruct Ha as (Ha & _).
  specialize (Ho a Ha). unfold attrib_start in *. assert (offset a / vertformat m <= offset a) by (apply Z.div_le_upper_bound; nia). lia.
Qed.

Lemma get_vertex_view i : ((i + 1) * vs <= length (vertices m))%nat ->
  get_vertex m (Z.of_nat i) = Ok (view (block vs (vertices m) i)).
Proof.
  intros Hi. pose proof (can_size _ _ C) as Hv. unfold get_vertex. rewrite (can_stride _ _ C), int_div_exact.
  2: { pose proof can_format. lia. }
  2: { pose proof vs_small. lia. }
  cbn [bind]. unfold view.
  assert (forall k v, incl k (vertex_attributes m) ->
    fold_res (fun v a => do o <- attrib_offset m a;
      if flag a =? 255 then Ok v else if vartype a =? 17 then Ok v
      else do n <- old_type_len (vartype a);
           let s := Z.of_nat i * Z.of_nat vs + o in Ok (setattr v (usage a) (py_slice (vertices m) s (s + n)))) v k =
    Ok (fold_left (put (block vs (vertices m) i)) (filter in_use k) v)) as G; [|apply G, incl_refl].
  induction k as [|a t IH]; intros v Hk; [reflexivity|]. cbn [fold_res filter].
  rewrite attrib_offset_ok by (apply Hk; now left). cbn [bind]. unfold in_use at 1.
  destruct (flag a =? 255) eqn:Ef; cbn [negb bind]; [apply IH; intros x Hx; apply Hk; now right|].
  assert (In a l) as Ha. { apply filter_In. split; [apply Hk; now left|]. unfold in_use. now rewrite Ef. }
  pose proof can_parts as P. rewrite Forall_forall in P. destruct (P a Ha) as (P1 & P2).
  destruct (old_widths_len a _ P1) as (-> & -> & _). cbn [bind fold_left]. rewrite IH by (intros x Hx; apply Hk; now right).
  do 2 f_equal. unfold put. f_equal. unfold part, block.
  rewrite py_slice_in by (unfold zlen; nia). rewrite skipn_firstn_comm', firstn_firstn, skipn_skipn'.
  f_equal; [lia|]. f_equal. lia.
Qed.

Definition blocks : list (list F) := map (block vs (vertices m)) (seq 0 (Z.to_nat (vertnum m))).
Lemma vertnum_nonneg : 0 <= vertnum m.
Proof. pose proof (can_vertnum _ _ C). pose proof (zlen_nonneg (vertices m)). pose proof (can_size _ _ C). nia. Qed.
Lemma vertices_length : length (vertices m) = (Z.to_nat (vertnum m) * vs)%nat.
Proof. pose proof (can_vertnum _ _ C) as E. pose proof vertnum_nonneg. unfold zlen in E. nia. Qed.
Lemma blocks_lengths : Forall (fun c => length c = vs) blocks.
Proof.
  unfold blocks. rewrite Forall_map. apply Forall_forall. intros i Hi. apply in_seq in Hi. apply block_length.
  rewrite vertices_length. nia.
Qed.
Lemma blocks_concat : concat blocks = vertices m.
Proof.
  unfold blocks. rewrite concat_blocks. cbn [Nat.mul skipn]. apply firstn_all2. rewrite vertices_length. lia.
Qed.
Lemma get_vertices_view : get_vertices m = Ok (map view blocks).
Proof.
  unfold get_vertices, zrange, blocks. rewrite map_res_map. apply map_res_ok.
  rewrite map_map. assert (forall k, incl k (seq 0 (Z.to_nat (vertnum m))) ->
    Forall2 (fun x y => get_vertex m (Z.of_nat x) = Ok y) k (map (fun x => view (block vs (vertices m) x)) k)) as G; [|apply G, incl_refl].
  induction k as [|i t IH]; intros H; constructor.
  - apply get_vertex_view. assert (In i (seq 0 (Z.to_nat (vertnum m)))) as Hi by (apply H; now left). apply in_seq in Hi.
    rewrite vertices_length. nia.
  - apply IH. intros x Hx. apply H. now right.
Qed.

(** Serialising a vertex object. *)
Lemma vertex_numbers_ok (w : vertex) : (forall a, In a l -> w (usage a) <> None) ->
  vertex_numbers m w = Ok (flat_map (fun a => match w (usage a) with Some x => x | None => [] end) l).
Proof.
  intros H. unfold vertex_numbers.
  assert (forall k acc, incl k (vertex_attributes m) ->
    fold_res (fun acc a => do _ <- attrib_offset m a; if flag a =? 255 then Ok acc else do x <- getattr w (usage a); Ok (acc ++ x)) acc k =
    Ok (acc ++ flat_map (fun a => match w (usage a) with Some x => x | None => [] end) (filter in_use k))) as G; [|apply (G _ []), incl_refl].
  induction k as [|a t IH]; intros acc Hk; [cbn; now rewrite app_nil_r|]. cbn [fold_res filter].
  rewrite attrib_offset_ok by (apply Hk; now left). cbn [bind]. unfold in_use at 1.
  destruct (flag a =? 255) eqn:Ef; cbn [negb bind]; [apply IH; intros x Hx; apply Hk; now right|].
  assert (In a l) as Ha. { apply filter_In. split; [apply Hk; now left|]. unfold in_use. now rewrite Ef. }
  specialize (H a Ha). unfold getattr. cbn [flat_map]. destruct (w (usage a)) as [x|]; [|congruence]. cbn [bind].
  rewrite IH by (intros y Hy; apply Hk; now right). now rewrite app_assoc.
Qed.
Lemma view_numbers chunk : length chunk = vs -> vertex_numbers m (view chunk) = Ok chunk.
Proof.
  intros HL. rewrite vertex_numbers_ok by (intros a Ha; rewrite view_at by exact Ha; discriminate). f_equal.
  etransitivity; [|apply (parts_all 0 l vs chunk can_format (can_declared _ _ C) HL eq_refl)].
  assert (forall k, incl k l -> flat_map (fun a => match view chunk (usage a) with Some x => x | None => [] end) k = flat_map (part chunk) k) as G; [|apply G, incl_refl].
  induction k as [|a t IH]; intros H; [reflexivity|]. cbn [flat_map]. rewrite view_at by (apply H; now left).
  rewrite IH by (intros x Hx; apply H; now right). reflexivity.
Qed.
End Declared.

(** ** The number of vertices *)
Lemma div_denotes x y r s : denotes x r -> denotes y s -> s <> 0%R -> small (r / s) ->
  denotes (SFdiv 53 1024 x y) (rnd64 (r / s)).
Proof.
  intros (Ex & Fx & Vx) (Ey & Fy & Vy) Hn Hs. pose proof (small_round _ Hs) as HR.
  destruct x as [sx|sx| |sx mx ex], y as [sy|sy| |sy my ey]; try discriminate; simpl in Ex, Ey; subst; try congruence.
  - cbn [SFdiv]. unfold Rdiv. rewrite Rmult_0_l, round_0 by auto with typeclass_instances. repeat split.
  - pose proof (Bdiv_correct_aux 53 1024 Hprec53 Hmax1024 mode_NE sx mx ex sy my ey) as C. cbv zeta in C.
    cbn [SFdiv]. destruct (SFdiv_core_binary 53 1024 (Z.pos mx) ex (Z.pos my) ey) as ((mz, ez), lz).
    rewrite round_aux_equiv. destruct C as (V & C). simpl round_mode in C.
    rewrite Rlt_bool_true in C by exact HR. destruct C as (C1 & C2 & C3). repeat split; auto.
Qed.
Lemma old_vertnum_exact k n f : 0 < f -> 0 < k -> 0 <= n -> n * k <= 2 ^ 53 -> k <= 2 ^ 53 ->
  old_vertnum (n * k) (k * f) f = Ok n.
Proof.
  intros Hf Hk Hn Hb Hk53. unfold old_vertnum.
  destruct (truediv_exact k f) as (q & Eq & Dq); [lia|lia|]. rewrite Eq. cbn [bind]. unfold py_int_over_float.
  destruct (float_of_int_denotes (n * k)) as (y & Ey & Dy); [apply small_int; lia|]. rewrite Ey. cbn [bind].
  rewrite format_int in Dy by lia. assert (IZR k <> 0%R) as Hz by (apply IZR_neq; lia).
  assert (IZR (n * k) / IZR k = IZR n)%R as EE by (rewrite mult_IZR; field; exact Hz).
  assert (denotes (SFdiv 53 1024 y q) (IZR n)) as D.
  { rewrite <- (format_int n) by nia. rewrite <- EE. apply div_denotes; auto. rewrite EE. apply small_int. nia. }
  destruct q as [s|s| |s mq eq]; try (apply py_int_denotes in D; rewrite Ztrunc_IZR in D; exact D).
  destruct Dq as (Dq & _). simpl in Dq. congruence.
Qed.

(** ** Loops that do not raise *)
Lemma fold_mut_ok {B S} (f : nat -> S -> B -> S * B * option exn) (g : S -> B -> S) (h : B -> B) :
  forall l i s, (forall i s x, In x l -> f i s x = (g s x, h x, None)) ->
  fold_mut_from f i s l = (fold_left g l s, map h l, None).
Proof.
  induction l as [|x t IH]; intros i s H; [reflexivity|]. cbn [fold_mut_from]. rewrite H by now left.
  rewrite IH by (intros; apply H; now right). reflexivity.
Qed.
Lemma fold_mut_keeps {B C S} (f : nat -> S -> B -> S * B * option exn) (h : B -> C) :
  (forall i s x s' x' o, f i s x = (s', x', o) -> h x' = h x) ->
  forall l i s s' l' o, fold_mut_from f i s l = (s', l', o) -> map h l' = map h l.
Proof.
  intros Hf. induction l as [|x t IH]; intros i s s' l' o H; [injection H as <- <- <-; reflexivity|].
  cbn [fold_mut_from] in H. destruct (f i s x) as ((s1, x1), [e|]) eqn:E.
  - injection H as <- <- <-. cbn [map]. f_equal. eapply Hf, E.
  - destruct (fold_mut_from f (Datatypes.S i) s1 t) as ((s2, t2), o2) eqn:E2. injection H as <- <- <-. cbn [map].
    f_equal; [eapply Hf, E|eapply IH, E2].
Qed.

Section Bounds.
Context {F : Type} (A : arith F).
Implicit Types (m : mesh F) (mt : mat F) (q : vec3 F).

(** ** update_boundaries changes bounds only *)
Lemma old_bound_mat_frame vs lb mt lb' mt' o : old_bound_mat A vs lb mt = (lb', mt', o) -> mat_unbound mt' = mat_unbound mt.
Proof.
  unfold old_bound_mat. destruct (mmin mt), (mmax mt); try (intros H; injection H as <- <- <-; reflexivity).
  destruct (old_bound_vertices _ _ _) as (r, o'). intros H. injection H as <- <- <-. reflexivity.
Qed.
Lemma old_bound_lod_frame vs l l' o : old_bound_lod A vs l = (l', o) -> lod_unbound l' = lod_unbound l.
Proof.
  unfold old_bound_lod. destruct (lod_min l) as [a|], (lod_max l) as [b|]; try (intros H; injection H as <- <-; reflexivity).
  unfold fold_mut. destruct (fold_mut_from _ 0 (a, b) (materials l)) as (((a', b'), ms), o') eqn:E. intros H. injection H as <- <-.
  apply (fold_mut_keeps _ mat_unbound) in E; [unfold lod_unbound; cbn; now rewrite E|].
  intros i s x s' x' o''. apply old_bound_mat_frame.
Qed.
Lemma old_bound_geom_frame vs g g' o : old_bound_geom A vs g = (g', o) -> geom_unbound g' = geom_unbound g.
Proof.
  unfold old_bound_geom, fold_mut. destruct (fold_mut_from _ 0 tt (lods g)) as ((u, ls), o') eqn:E. intros H. injection H as <- <-.
  apply (fold_mut_keeps _ lod_unbound) in E; [unfold geom_unbound; cbn; now rewrite E|].
  intros i s x s' x' o'' H. destruct (old_bound_lod A vs x) as (l', o3) eqn:EL. injection H as _ <- _. eapply old_bound_lod_frame, EL.
Qed.
Theorem old_bounds_frame m m' o : old_update_boundaries A m = (m', o) -> same_but_bounds m m'.
Proof.
  unfold old_update_boundaries. destruct (get_vertices m) as [vs|e].
  2: { intros H. injection H as <- <-. repeat split. }
  unfold fold_mut. destruct (fold_mut_from _ 0 tt (geoms m)) as ((u, gs), o') eqn:E. intros H. injection H as <- <-.
  repeat split. cbn. apply (fold_mut_keeps _ geom_unbound) in E; [exact E|].
  intros i s x s' x' o'' H. destruct (old_bound_geom A vs x) as (l', o3) eqn:EL. injection H as _ <- _. eapply old_bound_geom_frame, EL.
Qed.

(** ** ... and enlarges them *)
Definition list3 q : list F := let '(x, y, z) := q in [x; y; z].
Lemma old_bound_vertices_ok : forall l ps b, Forall2 (fun (v : vertex) q => v 0 = Some (list3 q)) l ps ->
  old_bound_vertices A b l = (fold_left (bstep A) ps b, None).
Proof.
  induction l as [|v t IH]; intros ps b H; inversion H as [|? q ? ps' Hv Ht]; subst; [reflexivity|].
  cbn [old_bound_vertices fold_left]. unfold old_bound_vertex. change POSITION with 0. rewrite Hv. destruct q as ((x, y), z).
  destruct (b_mmin b) as ((?, ?), ?) eqn:E1, (b_lmin b) as ((?, ?), ?) eqn:E2. cbn [list3].
  rewrite (IH _ _ Ht). do 2 f_equal. unfold bstep. now rewrite E1, E2.
Qed.

Context (vs : nat) (m : mesh F) (C : canonical vs m).
Let l := filter in_use (vertex_attributes m).

Lemma usage_unique a b : In a l -> In b l -> usage a = usage b -> a = b.
Proof.
  pose proof (can_usages _ _ C) as N. fold l in N. revert N. generalize l. induction l0 as [|x t IH]; intros N Ha Hb E; [destruct Ha|].
  inversion N as [|? ? Hx Ht]; subst. destruct Ha as [->|Ha], Hb as [->|Hb]; auto.
  - destruct Hx. rewrite E. now apply in_map.
  - destruct Hx. rewrite <- E. now apply in_map.
Qed.
Lemma has_in a u : has_attrib m u a -> In a l /\ usage a = u.
Proof. intros (H1 & H2 & H3). split; [|exact H3]. now apply filter_In. Qed.
Lemma find_attrib a k : has_attrib m 0 a -> Permutation.Permutation k (vertex_attributes m) ->
  find (fun a => (usage a =? 0) && in_use a) k = Some a.
Proof.
  intros H P. destruct (find _ k) as [b|] eqn:E.
  - apply find_some in E. destruct E as (Hb & E). apply andb_prop in E. destruct E as (E1 & E2). apply Z.eqb_eq in E1. f_equal.
    destruct (has_in a 0 H) as (Ha & Ea). apply usage_unique; auto; [|congruence]. apply filter_In. split; [|exact E2].
    eapply Permutation.Permutation_in; [exact P|exact Hb].
  - destruct H as (H1 & H2 & H3). assert (In a k) as Hk by (eapply Permutation.Permutation_in; [apply Permutation.Permutation_sym, P|exact H1]).
    pose proof (find_none _ _ E a Hk) as X. cbn in X. rewrite H2, H3 in X. discriminate.
Qed.
Lemma bounding_here a : has_attrib m 0 a -> bounding_attrib m = Some a.
Proof. intros H. apply find_attrib; [exact H|]. apply Permutation.Permutation_sym, Permutation.Permutation_rev. Qed.
Lemma position_here a : has_attrib m 0 a -> position_attrib m = Some a.
Proof. intros H. apply find_attrib; auto. Qed.
Lemma float3_width a : vartype a = 2 -> width a = 3%nat.
Proof. intros E. unfold width. now rewrite E. Qed.

Lemma part3 chunk a : vartype a = 2 -> (attrib_start m a + 3 <= length chunk)%nat ->
  exists q, at3 chunk (attrib_start m a) = Some q /\ part m chunk a = list3 q.
Proof.
  intros E HL. pose proof (part_length m chunk a) as PL. rewrite (float3_width a E) in PL. specialize (PL HL).
  pose proof (fun k => nth_part m chunk a k) as N. rewrite (float3_width a E) in N.
  destruct (part m chunk a) as [|x [|y [|z [|]]]]; try discriminate. exists (x, y, z). split; [|reflexivity].
  unfold at3. rewrite <- (N 1%nat), <- (N 2%nat) by lia. specialize (N 0%nat). rewrite Nat.add_0_r in N. rewrite <- N by lia. reflexivity.
Qed.

Lemma view_position chunk a : has_attrib m 0 a -> vartype a = 2 -> length chunk = vs ->
  exists q, at3 chunk (bounding_start m) = Some q /\ view m chunk 0 = Some (list3 q).
Proof.
  intros H E HL. unfold bounding_start. rewrite (bounding_here a H). destruct (has_in a 0 H) as (Ha & Ea).
  pose proof (can_parts m vs C) as P. rewrite Forall_forall in P. destruct (P a Ha) as (_ & P2). rewrite (float3_width a E) in P2.
  destruct (part3 chunk a E) as (q & Hq & Hp); [lia|]. exists q. split; [exact Hq|]. rewrite <- Ea, (view_at m vs C) by exact Ha. now rewrite Hp.
Qed.

Lemma blocks_slice mt : mat_vin vs m mt -> py_slice (blocks m vs) (vstart mt) (vstart mt + vnum mt) = mat_vertices vs m mt.
Proof.
  intros (H1 & H2 & H3). pose proof (can_vertnum _ _ C) as E. pose proof (can_size _ _ C). rewrite E in H3.
  assert (vstart mt + vnum mt <= vertnum m) as HB by nia.
  rewrite py_slice_in; auto. 2: { unfold zlen, blocks. rewrite map_length, seq_length. lia. }
  unfold blocks, mat_vertices. rewrite skipn_map, firstn_map.
  rewrite <- (map_map (fun i => (Z.to_nat (vstart mt) + i)%nat) (block vs (vertices m))), map_seq_shift. f_equal.
  replace (Z.to_nat (vertnum m)) with (Z.to_nat (vstart mt) + (Z.to_nat (vnum mt) + Z.to_nat (vertnum m - vstart mt - vnum mt)))%nat by lia.
  rewrite seq_app, skipn_app, skipn_all2 by (rewrite seq_length; lia). rewrite seq_length, Nat.sub_diag. cbn [skipn app].
  rewrite seq_app, firstn_app, firstn_all2 by (rewrite seq_length; lia). rewrite seq_length, Nat.sub_diag. cbn [firstn]. rewrite app_nil_r.
  f_equal. lia.
Qed.

Definition grow_mat mt : mat F :=
  match mmin mt, mmax mt with
  | Some a, Some b => set_mat_bounds mt (low A (positions vs m mt) a) (high A (positions vs m mt) b)
  | _, _ => mt
  end.
Definition grow_lod (lo : lod F) : lod F :=
  match lod_min lo, lod_max lo with
  | Some a, Some b => set_lod_bounds (set_materials lo (map grow_mat (materials lo)))
                        (low A (lod_positions vs m lo) a) (high A (lod_positions vs m lo) b)
  | _, _ => lo
  end.
Definition grow_geom (g : geom F) : geom F := set_lods g (map grow_lod (lods g)).

Context (HP : has_positions m).
Lemma positions_all mt : mat_vin vs m mt ->
  Forall2 (fun (v : vertex) q => v 0 = Some (list3 q)) (map (view m) (mat_vertices vs m mt)) (positions vs m mt).
Proof.
  intros Hm. destruct HP as (a & Ha & E). unfold positions. pose proof (mat_vertices_length vs m mt Hm) as HL.
  induction HL as [|c t Hc Ht IH]; [constructor|]. cbn [map flat_map].
  destruct (view_position c a Ha E Hc) as (q & -> & Hq). cbn [app]. constructor; [exact Hq|exact IH].
Qed.
Lemma old_bound_mat_ok lb mt : mat_vin vs m mt -> mat_bounded mt ->
  old_bound_mat A (map (view m) (blocks m vs)) lb mt =
  ((low A (positions vs m mt) (fst lb), high A (positions vs m mt) (snd lb)), grow_mat mt, None).
Proof.
  intros Hm (B1 & B2). unfold old_bound_mat, grow_mat. destruct (mmin mt) as [a|]; [|congruence]. destruct (mmax mt) as [b|]; [|congruence].
  assert (py_slice (map (view m) (blocks m vs)) (vstart mt) (vstart mt + vnum mt) = map (view m) (mat_vertices vs m mt)) as ->.
  { rewrite <- blocks_slice by exact Hm. unfold py_slice, zlen. rewrite map_length, skipn_map, firstn_map. reflexivity. }
  rewrite (old_bound_vertices_ok _ _ _ (positions_all mt Hm)), bstep_fold. reflexivity.
Qed.
Lemma old_bound_lod_ok lo : Forall (mat_vin vs m) (materials lo) -> lod_bounded lo ->
  old_bound_lod A (map (view m) (blocks m vs)) lo = (grow_lod lo, None).
Proof.
  intros Hm (B1 & B2 & B3). unfold old_bound_lod, grow_lod. destruct (lod_min lo) as [a|]; [|congruence]. destruct (lod_max lo) as [b|]; [|congruence].
  unfold fold_mut. rewrite (fold_mut_ok _ (fun lb mt => (low A (positions vs m mt) (fst lb), high A (positions vs m mt) (snd lb))) grow_mat).
  - unfold lod_positions. assert (forall k lb, fold_left (fun lb mt => (low A (positions vs m mt) (fst lb), high A (positions vs m mt) (snd lb))) k lb =
      (low A (flat_map (positions vs m) k) (fst lb), high A (flat_map (positions vs m) k) (snd lb))) as ->; [|reflexivity].
    induction k as [|x t IH]; intros lb; [now destruct lb|]. cbn [fold_left flat_map]. rewrite IH, low_app, high_app. reflexivity.
  - intros i s x Hx. rewrite Forall_forall in Hm, B3. apply old_bound_mat_ok; auto.
Qed.
Theorem old_bounds_ok : Forall (mat_vin vs m) (mats m) -> every_lod lod_bounded m ->
  old_update_boundaries A m = (set_geoms m (map grow_geom (geoms m)), None).
Proof.
  intros Hm HB. unfold old_update_boundaries. rewrite (get_vertices_view m vs C). unfold fold_mut.
  rewrite (fold_mut_ok _ (fun _ _ => tt) grow_geom); [reflexivity|]. intros i s g Hg.
  assert (old_bound_geom A (map (view m) (blocks m vs)) g = (grow_geom g, None)) as ->; [|now destruct s].
  unfold old_bound_geom, fold_mut. rewrite (fold_mut_ok _ (fun _ _ => tt) grow_lod); [reflexivity|]. intros i' s' lo Hlo.
  rewrite old_bound_lod_ok; [now destruct s'| |].
  - apply Forall_forall. intros mt Hmt. rewrite Forall_forall in Hm. apply Hm. unfold mats, mats_of.
    apply in_flat_map. exists g. split; [exact Hg|]. apply in_flat_map. eauto.
  - unfold every_lod in HB. rewrite Forall_forall in HB. specialize (HB g Hg). rewrite Forall_forall in HB. auto.
Qed.

Lemma grown_bounded gs : Forall (fun g => Forall lod_bounded (lods g)) gs -> Forall (fun g => Forall lod_bounded (lods g)) (map grow_geom gs).
Proof.
  intros H. apply Forall_map. eapply Forall_impl; [|exact H]. intros g Hg. apply Forall_map. eapply Forall_impl; [|exact Hg].
  intros lo (B1 & B2 & B3). unfold lod_bounded, grow_lod. cbn [lod_min lod_max materials]. destruct (lod_min lo); [|congruence]. destruct (lod_max lo); [|congruence].
  split; [discriminate|]. split; [discriminate|]. apply Forall_map. eapply Forall_impl; [|exact B3]. intros mt (M1 & M2).
  unfold mat_bounded, grow_mat. cbn [mmin mmax]. destruct (mmin mt); [|congruence]. destruct (mmax mt); [|congruence]. split; discriminate.
Qed.

Section Order.
Context (good : F -> Prop) (val : F -> R) (O : ordered A good val).
Lemma low_high_enlarged ps a b : Forall (good3 good) ps -> good3 good a -> good3 good b ->
  enlarged A ps a b (low A ps a) (high A ps b).
Proof.
  intros H Ga Gb. split; [|split].
  - intros i Hi. destruct (low_le A good val O i Hi ps a H (Ga i Hi)) as (L & _).
    destruct (high_le A good val O i Hi ps b H (Gb i Hi)) as (U & _). now split.
  - intros q Hq i Hi. destruct (low_le A good val O i Hi ps a H (Ga i Hi)) as (_ & L).
    destruct (high_le A good val O i Hi ps b H (Gb i Hi)) as (_ & U). split; auto.
  - intros i Hi. split; [apply low_attained|apply high_attained].
Qed.
Definition mat_good mt : Prop :=
  (forall q, mmin mt = Some q -> good3 good q) /\ (forall q, mmax mt = Some q -> good3 good q) /\
  Forall (good3 good) (positions vs m mt).
Definition lod_good (lo : lod F) : Prop :=
  (forall q, lod_min lo = Some q -> good3 good q) /\ (forall q, lod_max lo = Some q -> good3 good q) /\
  Forall mat_good (materials lo).
Theorem old_bounds_enlarged m' : Forall (mat_vin vs m) (mats m) -> every_lod lod_bounded m -> every_lod lod_good m ->
  old_update_boundaries A m = (m', None) -> bounds_enlarged A vs m m'.
Proof.
  intros Hm HB HG H. rewrite old_bounds_ok in H by auto. injection H as <-. unfold bounds_enlarged. cbn [geoms set_geoms].
  change (lod_enlarged A vs (set_geoms m (map grow_geom (geoms m)))) with (lod_enlarged A vs m).
  unfold every_lod in *.
  assert (forall gs, incl gs (geoms m) -> Forall2 (fun g g' => Forall2 (lod_enlarged A vs m) (lods g) (lods g')) gs (map grow_geom gs)) as G; [|apply G, incl_refl].
  induction gs as [|g t IH]; intros HI; constructor; [|apply IH; intros x Hx; apply HI; now right].
  assert (In g (geoms m)) as Hg by (apply HI; now left). rewrite Forall_forall in HB, HG. specialize (HB g Hg). specialize (HG g Hg).
  cbn [grow_geom lods set_lods]. assert (forall mt, In mt (flat_map materials (lods g)) -> mat_vin vs m mt) as Hm'.
  { intros mt Hmt. rewrite Forall_forall in Hm. apply Hm. apply in_flat_map. eauto. }
  clear IH HI Hg Hm. induction (lods g) as [|lo ls IH]; constructor.
  - inversion HB as [|? ? (B1 & B2 & B3) _]; inversion HG as [|? ? (G1 & G2 & G3) _]; subst.
    unfold lod_enlarged, grow_lod. destruct (lod_min lo) as [a|]; [|congruence]. destruct (lod_max lo) as [b|]; [|congruence]. cbn [lod_min lod_max set_lod_bounds materials set_materials]. split.
    + exists a, b. do 2 eexists. repeat (split; [reflexivity|]). apply low_high_enlarged; auto.
      unfold lod_positions. apply Forall_flat_map. eapply Forall_impl; [|exact G3]. intros mt (_ & _ & X). exact X.
    + assert (forall mt, In mt (materials lo) -> mat_vin vs m mt) as Hm2 by (intros mt Hmt; apply Hm'; cbn; apply in_or_app; now left).
      clear - B3 G3 Hm2 O C HP l. induction (materials lo) as [|mt ms IH]; constructor.
      * inversion B3 as [|? ? (M1 & M2) _]; inversion G3 as [|? ? (N1 & N2 & N3) _]; subst. unfold mat_enlarged, grow_mat.
        destruct (mmin mt) as [a|]; [|congruence]. destruct (mmax mt) as [b|]; [|congruence]. cbn [mmin mmax set_mat_bounds].
        exists a, b. do 2 eexists. repeat (split; [reflexivity|]). split.
        -- assert (mat_vin vs m mt) as Hv by (apply Hm2; now left). pose proof (Forall2_len _ _ _ (positions_all mt Hv)) as L.
           rewrite map_length in L. unfold zlen. rewrite <- L. unfold mat_vertices. rewrite map_length, seq_length. destruct Hv; lia.
        -- apply low_high_enlarged; auto.
      * inversion B3; inversion G3; subst. apply IH; auto. intros; apply Hm2; now right.
  - inversion HB; inversion HG; subst. apply IH; auto. intros; apply Hm'. cbn. apply in_or_app. now right.
Qed.
End Order.
End Bounds.

(** ** The loops of translate and rotate *)
Section Edits.
Context {F : Type} (A : arith F).
Implicit Types (m : mesh F) (mt : mat F) (q : vec3 F).

Lemma canonical_vertices vs m nv : canonical vs m -> length nv = length (vertices m) -> canonical vs (set_vertices m nv).
Proof.
  intros C HL. assert (zlen nv = zlen (vertices m)) as HZ by (unfold zlen; lia).
  constructor; try apply C; cbn; rewrite HZ; apply C.
Qed.

Lemma set_nth_mid {B} (l1 l2 : list B) x y : set_nth (l1 ++ x :: l2) (length l1) y = l1 ++ y :: l2.
Proof. induction l1 as [|z t IH]; [reflexivity|]. cbn. f_equal. exact IH. Qed.

Lemma edit_each_ok (f : vertex -> res (vertex (F:=F))) objs ws : Forall2 (fun o w => f o = Ok w) objs ws ->
  forall k a, (a + k <= length objs)%nat ->
  fold_res (edit_each f) (firstn a ws ++ skipn a objs, seq 0 a) (seq a k) =
  Ok (firstn (a + k) ws ++ skipn (a + k) objs, seq 0 (a + k)).
Proof.
  intros H. pose proof (Forall2_len _ _ _ H) as HL. induction k as [|k IH]; intros a Ha.
  - cbn. now rewrite Nat.add_0_r.
  - cbn [seq fold_res]. unfold edit_each at 1. cbn [fst snd].
    pose proof (Forall2_nth _ _ _ H a) as N.
    destruct (nth_error objs a) as [o|] eqn:Eo; [|apply nth_error_None in Eo; lia].
    destruct (nth_error ws a) as [w|] eqn:Ew; [|contradiction].
    assert (skipn a objs = o :: skipn (Datatypes.S a) objs) as E1 by now apply skipn_cons.
    assert (length (firstn a ws) = a) as E2 by (rewrite firstn_length; lia).
    rewrite E1. rewrite nth_error_app2 by lia. rewrite E2, Nat.sub_diag. cbn [nth_error]. rewrite N. cbn [bind].
    pose proof (set_nth_mid (firstn a ws) (skipn (Datatypes.S a) objs) o w) as SM. rewrite E2 in SM. rewrite SM.
    replace (firstn a ws ++ w :: skipn (Datatypes.S a) objs) with (firstn (Datatypes.S a) ws ++ skipn (Datatypes.S a) objs).
    2: { replace (Datatypes.S a) with (a + 1)%nat at 1 by lia. rewrite <- firstn_skipn_add, (skipn_cons ws a w Ew). cbn [firstn].
         now rewrite <- app_assoc. }
    replace (seq 0 a ++ [a]) with (seq 0 (Datatypes.S a)) by now rewrite seq_S.
    rewrite IH by lia. now replace (Datatypes.S a + k)%nat with (a + Datatypes.S k)%nat by lia.
Qed.

Lemma flat_map_ext' {B D} (f g : B -> list D) l : (forall x, In x l -> f x = g x) -> flat_map f l = flat_map g l.
Proof.
  induction l as [|x t IH]; intros H; [reflexivity|]. cbn. rewrite H by now left. rewrite IH; [reflexivity|].
  intros. apply H. now right.
Qed.
Lemma pick_all {B} (l : list B) : pick l (seq 0 (length l)) = l.
Proof.
  unfold pick. assert (forall pre t, l = pre ++ t ->
    flat_map (fun k => match nth_error l k with Some g => [g] | None => [] end) (seq (length pre) (length t)) = t) as G; [|apply (G [] l eq_refl)].
  intros pre t. revert pre. induction t as [|x t IH]; intros pre E; [reflexivity|]. cbn [length seq flat_map].
  rewrite E at 1. rewrite nth_error_app2, Nat.sub_diag by lia. cbn. f_equal.
  specialize (IH (pre ++ [x])). rewrite app_length in IH. cbn in IH. rewrite Nat.add_1_r in IH. apply IH. now rewrite <- app_assoc.
Qed.

Lemma edit_mats_ok (f : vertex -> res (vertex (F:=F))) objs ws : Forall2 (fun o w => f o = Ok w) objs ws ->
  forall ms a, 0 <= a -> tiles a (map (fun mt : mat F => (vstart mt, vnum mt)) ms) (zlen objs) ->
  fold_res (edit_mat f) (firstn (Z.to_nat a) ws ++ skipn (Z.to_nat a) objs, seq 0 (Z.to_nat a)) ms =
  Ok (ws, seq 0 (length objs)).
Proof.
  intros H. pose proof (Forall2_len _ _ _ H) as HL. induction ms as [|mt t IH]; intros a Ha T.
  - cbn in T. subst. unfold zlen. rewrite Nat2Z.id. cbn. rewrite skipn_all, app_nil_r, firstn_all2 by lia. reflexivity.
  - cbn in T. destruct T as (E & Hn & T). pose proof (tiles_le _ _ _ T) as HT. cbn [fold_res]. unfold edit_mat at 1. cbn [fst].
    assert (length (firstn (Z.to_nat a) ws ++ skipn (Z.to_nat a) objs) = length objs) as ->.
    { rewrite app_length, firstn_length, skipn_length. unfold zlen in HT. lia. }
    rewrite E, py_slice_in; auto; [|unfold zlen in *; rewrite seq_length; lia].
    assert (firstn (Z.to_nat (vnum mt)) (skipn (Z.to_nat a) (seq 0 (length objs))) = seq (Z.to_nat a) (Z.to_nat (vnum mt))) as ->.
    { unfold zlen in HT. replace (length objs) with (Z.to_nat a + (Z.to_nat (vnum mt) + (length objs - Z.to_nat a - Z.to_nat (vnum mt))))%nat by lia.
      rewrite seq_app, skipn_app, skipn_all2 by (rewrite seq_length; lia). rewrite seq_length, Nat.sub_diag. cbn [skipn app].
      rewrite seq_app, firstn_app, firstn_all2 by (rewrite seq_length; lia). rewrite seq_length, Nat.sub_diag. cbn [firstn]. now rewrite app_nil_r. }
    rewrite (edit_each_ok f objs ws H) by (unfold zlen in HT; lia). cbn [bind].
    replace (Z.to_nat a + Z.to_nat (vnum mt))%nat with (Z.to_nat (a + vnum mt)) by lia. apply IH; [lia|exact T].
Qed.

(** An edit that fails on the first vertex fails. *)
Lemma edit_mats_raise (f : vertex -> res (vertex (F:=F))) o objs e : f o = Raise e ->
  forall ms, tiles 0 (map (fun mt : mat F => (vstart mt, vnum mt)) ms) (zlen (o :: objs)) ->
  fold_res (edit_mat f) (o :: objs, []) ms = Raise e.
Proof.
  intros Hf. induction ms as [|mt t IH]; intros T.
  - cbn in T. unfold zlen in T. cbn in T. lia.
  - cbn in T. destruct T as (E & Hn & T). pose proof (tiles_le _ _ _ T) as HT. cbn [fold_res]. unfold edit_mat at 1. cbn [fst].
    rewrite E, py_slice_in; [|lia|exact Hn|cbn in HT; unfold zlen in *; rewrite seq_length; cbn [length] in *; lia]. cbn [skipn Z.to_nat].
    destruct (Z.to_nat (vnum mt)) as [|k] eqn:Ek.
    + cbn [firstn fold_res bind]. apply IH. assert (vnum mt = 0) as Z0 by lia. rewrite Z0 in T. exact T.
    + cbn [length seq firstn fold_res]. unfold edit_each at 1. cbn [fst nth_error]. rewrite Hf. reflexivity.
Qed.

(** The vertices of a canonical mesh in which each attribute of each vertex is replaced. *)
Definition retouch m (g : Z -> list F -> list F) (chunk : list F) : list F :=
  flat_map (fun a => g (usage a) (part m chunk a)) (filter in_use (vertex_attributes m)).

Lemma tiled_num vs m : canonical vs m -> tiled_vertices vs m ->
  tiles 0 (map (fun mt : mat F => (vstart mt, vnum mt)) (mats m)) (vertnum m).
Proof.
  intros C (n & E & T). pose proof (can_vertnum _ _ C). pose proof (can_size _ _ C). assert (n = vertnum m) by nia. now subst.
Qed.

Theorem edit_canonical vs m f g : canonical vs m -> tiled_vertices vs m ->
  (forall chunk, length chunk = vs -> exists w, f (view m chunk) = Ok w /\
     forall a, In a (filter in_use (vertex_attributes m)) ->
       w (usage a) = Some (g (usage a) (part m chunk a)) /\ length (g (usage a) (part m chunk a)) = width a) ->
  let nv := concat (map (retouch m g) (blocks m vs)) in
  length nv = length (vertices m) /\
  edit_vertices A m f = old_update_boundaries A (set_vertices m nv) /\
  forall j a k, In a (filter in_use (vertex_attributes m)) -> (k < width a)%nat -> (j * vs < length (vertices m))%nat ->
    nth_error nv (j * vs + (attrib_start m a + k)) = nth_error (g (usage a) (part m (block vs (vertices m) j) a)) k.
Proof.
  intros C T H nv. pose proof (blocks_lengths m vs C) as BL. pose proof (can_format m vs C) as Hf. pose proof (can_size _ _ C) as Hv.
  assert (exists ws, Forall2 (fun o w => f o = Ok w) (map (view m) (blocks m vs)) ws /\
            Forall2 (fun w c => vertex_numbers m w = Ok c) ws (map (retouch m g) (blocks m vs))) as (ws & W1 & W2).
  { clear nv. induction BL as [|c t Hc Ht (ws & I1 & I2)]; [exists []; split; constructor|].
    destruct (H c Hc) as (w & Ew & Hw). exists (w :: ws). split; constructor; auto.
    rewrite (vertex_numbers_ok m vs C) by (intros a Ha; destruct (Hw a Ha) as (-> & _); discriminate). f_equal. unfold retouch.
    apply flat_map_ext'. intros a Ha. destruct (Hw a Ha) as (-> & _). reflexivity. }
  assert (Forall (fun c => length c = vs) (map (retouch m g) (blocks m vs))) as RL.
  { rewrite Forall_map. eapply Forall_impl; [|exact BL]. intros c Hc. destruct (H c Hc) as (w & _ & Hw).
    destruct (parts_nth m (fun a => g (usage a) (part m c a)) _ _ _ Hf (can_declared _ _ C)) as (L & _).
    { apply Forall_forall. intros a Ha. now apply Hw. } unfold retouch. rewrite L. lia. }
  assert (forall l : list (list F), Forall (fun v => length v = vs) l -> length (concat l) = (length l * vs)%nat) as CL.
  { clear. induction 1; simpl; [reflexivity|]. rewrite app_length, IHForall. lia. }
  assert (length (blocks m vs) = Z.to_nat (vertnum m)) as BN by (unfold blocks; now rewrite map_length, seq_length).
  assert (length nv = length (vertices m)) as LN.
  { unfold nv. rewrite CL by exact RL. rewrite map_length, BN, (vertices_length m vs C). reflexivity. }
  split; [exact LN|]. split.
  - unfold edit_vertices. rewrite (get_vertices_view m vs C). cbn [bind].
    change (all_mats (geoms m)) with (mats m). pose proof (vertnum_nonneg m vs C).
    pose proof (edit_mats_ok f _ ws W1 (mats m) 0 ltac:(lia)) as E. unfold zlen in E. rewrite map_length, BN, Z2Nat.id in E by lia.
    cbn [Z.to_nat firstn skipn app seq] in E. rewrite E by now apply (tiled_num vs). clear E.
    replace (Z.to_nat (vertnum m)) with (length ws) by (apply Forall2_len in W1; rewrite map_length in W1; lia).
    rewrite pick_all. unfold update_vertices. apply map_res_ok in W2. rewrite W2. fold nv.
    replace (zlen nv) with (vertnum m * Z.of_nat vs) by (rewrite <- (can_vertnum _ _ C); unfold zlen; lia).
    rewrite (can_stride _ _ C). rewrite old_vertnum_exact; auto; try lia.
    + rewrite <- (can_vertnum _ _ C). apply C.
    + pose proof (vs_small m vs C). lia.
  - intros j a k Ha Hk Hj. assert (j < Z.to_nat (vertnum m))%nat as Hj' by (rewrite (vertices_length m vs C) in Hj; nia).
    pose proof (can_parts m vs C) as P. rewrite Forall_forall in P. destruct (P a Ha) as (_ & P2).
    unfold nv. rewrite (nth_concat vs) by (auto; lia). rewrite nth_error_map.
    assert (nth_error (blocks m vs) j = Some (block vs (vertices m) j)) as ->.
    { unfold blocks. rewrite nth_error_map. rewrite (nth_error_nth' _ 0%nat) by (rewrite seq_length; lia). rewrite seq_nth by lia. reflexivity. }
    cbn [option_map]. assert (length (block vs (vertices m) j) = vs) as LB by (apply block_length; rewrite (vertices_length m vs C); nia).
    destruct (H _ LB) as (w & _ & Hw).
    destruct (parts_nth m (fun a => g (usage a) (part m (block vs (vertices m) j) a)) _ _ _ Hf (can_declared _ _ C)) as (_ & N).
    { apply Forall_forall. intros b Hb. now apply Hw. }
    specialize (N a k Ha Hk). rewrite Nat.sub_0_r in N. exact N.
Qed.
End Edits.

(** ** translate *)
Section OldTranslate.
Context {F : Type} (A : arith F).
Implicit Types (m : mesh F) (mt : mat F) (q : vec3 F).

(** Attributes do not overlap. *)
Lemma declared_disjoint m o l e : 0 < vertformat m -> declared (vertformat m) o l e -> NoDup l ->
  forall a b c, In a l -> In b l -> (attrib_start m a <= c < attrib_start m a + width a)%nat ->
  (attrib_start m b <= c < attrib_start m b + width b)%nat -> a = b.
Proof.
  intros Hf. induction 1 as [|o x w l e Hw Ho D IH]; intros N a b c Ha Hb H1 H2; [destruct Ha|].
  inversion N as [|? ? _ N']; subst. pose proof (declared_parts m _ _ _ Hf D) as P. rewrite Forall_forall in P.
  destruct (old_widths_len x w Hw) as (_ & _ & E). pose proof (start_exact m x o Hf Ho) as S.
  destruct Ha as [<-|Ha], Hb as [<-|Hb]; auto.
  - destruct (P b Hb). lia.
  - destruct (P a Ha). lia.
  - eapply IH; eauto.
Qed.
Lemma NoDup_of_map {B D} (f : B -> D) l : NoDup (map f l) -> NoDup l.
Proof. apply NoDup_map_inv. Qed.

Lemma bounds_frame_vertices m nv m' o : old_update_boundaries A (set_vertices m nv) = (m', o) ->
  same_but_vertices_bounds m m' /\ vertices m' = nv.
Proof. intros H. apply old_bounds_frame in H. destruct H as (H1 & H2 & H3 & H4 & H5). repeat split; try apply H1; try apply H2; auto. Qed.

Definition move (off : list F) (u : Z) (x : list F) : list F :=
  if u =? 0 then map (fun ab => f_add A (f_add A (f_zero A) (fst ab)) (snd ab)) (combine x off) else x.

Theorem old_translate_edit vs m off a : canonical vs m -> tiled_vertices vs m -> has_attrib m 0 a -> vartype a = 2 -> (3 <= length off)%nat ->
  exists nv, length nv = length (vertices m) /\
    old_translate A m off = old_update_boundaries A (set_vertices m nv) /\
    forall j c x, (c < vs)%nat -> nth_error (vertices m) (j * vs + c) = Some x ->
      nth_error nv (j * vs + c) = Some (shifted A (position_start m) off c x).
Proof.
  intros C T Ha Ht Ho. destruct (has_in m a 0 Ha) as (Hin & Hu). pose proof (can_format m vs C) as Hf. pose proof (can_size _ _ C) as Hv.
  pose proof (can_parts m vs C) as P. rewrite Forall_forall in P. pose proof (float3_width a Ht) as W3.
  destruct (edit_canonical A vs m (fun v =>
    do pos <- getattr v POSITION;
    Ok (setattr v POSITION (map (fun ab => f_add A (f_add A (f_zero A) (fst ab)) (snd ab)) (combine pos off)))) (move off) C T) as (L & E & N).
  - intros chunk HL. unfold getattr. change POSITION with 0. assert (view m chunk 0 = Some (part m chunk a)) as -> by (rewrite <- Hu; now apply (view_at m vs C)). cbn [bind].
    eexists. split; [reflexivity|]. intros b Hb. unfold setattr, move. destruct (Z.eqb_spec (usage b) 0) as [E|E].
    + assert (b = a) as -> by (apply (usage_unique vs m C); auto; congruence). split; [reflexivity|].
      rewrite map_length, combine_length, part_length by (destruct (P a Hin); lia). lia.
    + split; [now apply (view_at m vs C)|]. apply part_length. destruct (P b Hb). lia.
  - eexists. split; [exact L|]. split; [exact E|]. intros j c x Hc Hx.
    assert (j * vs + c < length (vertices m))%nat as Hj by (apply nth_error_Some; congruence).
    destruct (declared_cover m 0 _ vs Hf (can_declared _ _ C) c) as (b & Hb & HR); [lia|].
    specialize (N j b (c - attrib_start m b)%nat Hb).
    replace (j * vs + (attrib_start m b + (c - attrib_start m b)))%nat with (j * vs + c)%nat in N by lia.
    rewrite N by lia. clear N. unfold move, shifted, position_start. rewrite (position_here vs m C a Ha).
    assert (nth_error (part m (block vs (vertices m) j) b) (c - attrib_start m b) = Some x) as NP.
    { rewrite nth_part by lia. replace (attrib_start m b + (c - attrib_start m b))%nat with c by lia. rewrite nth_block by exact Hc. exact Hx. }
    destruct (Z.eqb_spec (usage b) 0) as [Eb|Eb].
    + assert (b = a) as -> by (apply (usage_unique vs m C); auto; congruence).
      rewrite (proj2 (Nat.leb_le _ _)) by lia. rewrite nth_error_map, nth_combine, NP.
      assert (nth_error (firstn 3 off) (c - attrib_start m a) = nth_error off (c - attrib_start m a)) as ->.
      { rewrite W3 in HR. destruct (c - attrib_start m a)%nat as [|[|[|k]]] eqn:EK; try lia; destruct off as [|? [|? [|]]]; reflexivity. }
      destruct (nth_error off (c - attrib_start m a)) as [d|] eqn:Ed; [reflexivity|]. apply nth_error_None in Ed. lia.
    + rewrite NP. destruct (Nat.leb_spec (attrib_start m a) c); [|reflexivity].
      rewrite (proj2 (nth_error_None (firstn 3 off) _)); [reflexivity|]. rewrite firstn_length.
      destruct (Nat.ltb_spec c (attrib_start m a + 3)); [|lia]. exfalso. apply Eb. rewrite <- Hu. f_equal.
      apply (declared_disjoint m 0 _ vs Hf (can_declared _ _ C) (NoDup_of_map _ _ (can_usages _ _ C)) b a c); auto. lia.
Qed.

Lemma mat_vin_vertices vs m nv mt : length nv = length (vertices m) -> mat_vin vs m mt -> mat_vin vs (set_vertices m nv) mt.
Proof. intros L (H1 & H2 & H3). repeat split; auto. cbn. unfold zlen in *. lia. Qed.
Lemma edit_ok vs m nv : canonical vs m -> tiled_vertices vs m -> has_positions m -> every_lod lod_bounded m -> length nv = length (vertices m) ->
  exists m', old_update_boundaries A (set_vertices m nv) = (m', None).
Proof.
  intros C T P B L. eexists. apply (old_bounds_ok A vs); auto using canonical_vertices.
  apply tiled_vin in T. eapply Forall_impl; [|exact T]. intros mt. now apply mat_vin_vertices.
Qed.
Theorem old_translate_packed vs m off : canonical vs m -> tiled_vertices vs m -> has_positions m -> every_lod lod_bounded m -> (3 <= length off)%nat ->
  exists m', old_translate A m off = (m', None) /\ same_but_vertices_bounds m m' /\ length (vertices m') = length (vertices m) /\
    forall j c x, (c < vs)%nat -> nth_error (vertices m) (j * vs + c) = Some x ->
      nth_error (vertices m') (j * vs + c) = Some (shifted A (position_start m) off c x).
Proof.
  intros C T P B Ho. destruct P as (a & Ha & Ht). destruct (old_translate_edit vs m off a C T Ha Ht Ho) as (nv & L & E & N).
  destruct (edit_ok vs m nv C T (ex_intro _ a (conj Ha Ht)) B L) as (m' & Em). exists m'. rewrite E. split; [exact Em|].
  apply bounds_frame_vertices in Em. destruct Em as (FR & EV). split; [exact FR|]. rewrite EV. split; [exact L|exact N].
Qed.

(** ** rotate *)
Definition turn3 (r0 r1 r2 : F) (u : Z) (x : list F) : list F :=
  if (u =? 0) || (u =? 3) || (u =? 6) then
    match first3 x with
    | Ok q => list3 (rot3 A (f_radians A r0) (f_radians A r1) (f_radians A r2) q)
    | Raise _ => x
    end
  else x.
Lemma first3_list q : first3 (list3 q) = Ok q.
Proof. now destruct q as ((x, y), z). Qed.
Lemma list3_length q : length (list3 q) = 3%nat.
Proof. now destruct q as ((x, y), z). Qed.

Theorem old_rotate_edit vs m r0 r1 r2 more a b c : canonical vs m -> tiled_vertices vs m ->
  has_attrib m 0 a -> vartype a = 2 -> has_attrib m 3 b -> vartype b = 2 -> has_attrib m 6 c -> vartype c = 2 ->
  can_turn A r0 r1 r2 ->
  exists nv, length nv = length (vertices m) /\
    old_rotate A m (r0 :: r1 :: r2 :: more) = old_update_boundaries A (set_vertices m nv) /\
    (forall j c, (c < vs)%nat -> Forall (outside m c) (oriented_attribs m) ->
       nth_error nv (j * vs + c) = nth_error (vertices m) (j * vs + c)) /\
    (forall j a q, In a (oriented_attribs m) -> triple (vertices m) (j * vs + attrib_start m a) q ->
       triple nv (j * vs + attrib_start m a) (turn A r0 r1 r2 q)).
Proof.
  intros C T Ha Ta Hb Tb Hc Tc Ht. apply can_turn_trig in Ht. pose proof (can_format m vs C) as Hf. pose proof (can_size _ _ C) as Hv.
  destruct (has_in m a 0 Ha) as (Ia & Ua). destruct (has_in m b 3 Hb) as (Ib & Ub). destruct (has_in m c 6 Hc) as (Ic & Uc).
  pose proof (can_parts m vs C) as P. rewrite Forall_forall in P.
  assert (forall d, In d (filter in_use (vertex_attributes m)) -> (usage d =? 0) || (usage d =? 3) || (usage d =? 6) = true -> vartype d = 2) as V2.
  { intros d Hd Ed. apply orb_prop in Ed. destruct Ed as [Ed|Ed]; [apply orb_prop in Ed; destruct Ed as [Ed|Ed]|]; apply Z.eqb_eq in Ed.
    - assert (d = a) as -> by (apply (usage_unique vs m C); auto; congruence). exact Ta.
    - assert (d = b) as -> by (apply (usage_unique vs m C); auto; congruence). exact Tb.
    - assert (d = c) as -> by (apply (usage_unique vs m C); auto; congruence). exact Tc. }
  assert (forall chunk d, length chunk = vs -> In d (filter in_use (vertex_attributes m)) -> vartype d = 2 ->
    exists q, at3 chunk (attrib_start m d) = Some q /\ part m chunk d = list3 q) as P3.
  { intros chunk d HL Hd Td. apply part3; auto. destruct (P d Hd) as (_ & P2). rewrite (float3_width d Td) in P2. lia. }
  unfold old_rotate. set (tl := fun l => do q <- first3 l; if trig3 A (f_radians A r0) (f_radians A r1) (f_radians A r2) then
    let '(x, y, z) := rot3 A (f_radians A r0) (f_radians A r1) (f_radians A r2) q in Ok [x; y; z] else Raise EValue).
  destruct (edit_canonical A vs m (fun v =>
        do p <- getattr v POSITION; do n <- getattr v NORMAL; do t <- getattr v TANGENT;
        do p' <- tl p; do n' <- tl n; do t' <- tl t;
        Ok (setattr (setattr (setattr v POSITION p') NORMAL n') TANGENT t')) (turn3 r0 r1 r2) C T) as (L & E & N).
  - intros chunk HL. unfold getattr. change POSITION with 0. change NORMAL with 3. change TANGENT with 6.
    assert (view m chunk 0 = Some (part m chunk a)) as -> by (rewrite <- Ua; now apply (view_at m vs C)).
    assert (view m chunk 3 = Some (part m chunk b)) as -> by (rewrite <- Ub; now apply (view_at m vs C)).
    assert (view m chunk 6 = Some (part m chunk c)) as -> by (rewrite <- Uc; now apply (view_at m vs C)). cbn [bind].
    destruct (P3 chunk a HL Ia Ta) as (qa & _ & Pa). destruct (P3 chunk b HL Ib Tb) as (qb & _ & Pb). destruct (P3 chunk c HL Ic Tc) as (qc & _ & Pc).
    rewrite Pa, Pb, Pc. assert (forall q, tl (list3 q) = Ok (list3 (rot3 A (f_radians A r0) (f_radians A r1) (f_radians A r2) q))) as TL.
    { intros q. unfold tl. rewrite first3_list. cbn [bind]. rewrite Ht. now destruct (rot3 _ _ _ _ q) as ((x, y), z). }
    rewrite !TL. cbn [bind]. eexists. split; [reflexivity|]. intros d Hd. unfold setattr, turn3.
    destruct (Z.eqb_spec (usage d) 6) as [E|E6]; [|destruct (Z.eqb_spec (usage d) 3) as [E|E3]; [|destruct (Z.eqb_spec (usage d) 0) as [E|E0]]]; cbn [orb].
    + rewrite orb_true_r. assert (d = c) as -> by (apply (usage_unique vs m C); auto; congruence). rewrite Pc, first3_list. split; [reflexivity|].
      now rewrite list3_length, float3_width.
    + rewrite orb_true_r. cbn [orb]. assert (d = b) as -> by (apply (usage_unique vs m C); auto; congruence). rewrite Pb, first3_list. split; [reflexivity|].
      now rewrite list3_length, float3_width.
    + assert (d = a) as -> by (apply (usage_unique vs m C); auto; congruence). rewrite Pa, first3_list. split; [reflexivity|].
      now rewrite list3_length, float3_width.
    + split; [now apply (view_at m vs C)|]. apply part_length. destruct (P d Hd). lia.
  - match type of L with length ?x = _ => generalize x as nv, L, E, N; clear L E N; intros nv L E N end.
    exists nv. split; [exact L|]. split; [exact E|]. split.
    + intros j k Hk HO. destruct (Nat.ltb_spec (j * vs + k) (length (vertices m))) as [Hj|Hj].
      2: { rewrite !(proj2 (nth_error_None _ _)); [reflexivity|lia|lia]. }
      destruct (declared_cover m 0 _ vs Hf (can_declared _ _ C) k) as (d & Hd & HR); [lia|].
      specialize (N j d (k - attrib_start m d)%nat Hd).
      replace (j * vs + (attrib_start m d + (k - attrib_start m d)))%nat with (j * vs + k)%nat in N by lia.
      rewrite N by lia. unfold turn3. destruct ((usage d =? 0) || (usage d =? 3) || (usage d =? 6)) eqn:Eo.
      * exfalso. rewrite Forall_forall in HO. assert (In d (oriented_attribs m)) as Hd'.
        { apply filter_In in Hd. destruct Hd as (H1 & H2). apply filter_In. split; [exact H1|]. unfold oriented. now rewrite H2, Eo. }
        specialize (HO d Hd'). unfold outside in HO. rewrite (float3_width d) in HR by (apply V2; auto). lia.
      * rewrite nth_part by lia. replace (attrib_start m d + (k - attrib_start m d))%nat with k by lia. now apply nth_block.
    + intros j d q Hd Hq. assert (In d (filter in_use (vertex_attributes m)) /\ (usage d =? 0) || (usage d =? 3) || (usage d =? 6) = true) as (Hd1 & Hd2).
      { apply filter_In in Hd. destruct Hd as (H1 & H2). unfold oriented in H2. apply andb_prop in H2. destruct H2 as (H2 & H3). split; [now apply filter_In|exact H3]. }
      pose proof (V2 d Hd1 Hd2) as Td. destruct (P d Hd1) as (_ & P2). rewrite (float3_width d Td) in P2.
      assert (j * vs + attrib_start m d < length (vertices m))%nat as Hj.
      { destruct q as ((x, y), z). destruct Hq as (Hq & _). apply nth_error_Some. congruence. }
      assert (length (block vs (vertices m) j) = vs) as LB.
      { apply block_length. rewrite (vertices_length m vs C) in *. assert (j < Z.to_nat (vertnum m))%nat by nia. nia. }
      destruct (P3 _ d LB Hd1 Td) as (q' & Hq' & Hp).
      assert (q' = q) as ->.
      { destruct q as ((x, y), z). destruct Hq as (Q1 & Q2 & Q3). unfold at3 in Hq'. rewrite !nth_block, !Nat.add_assoc, Q1, Q2, Q3 in Hq' by lia. now injection Hq'. }
      rewrite <- rot3_turn. pose proof (N j d 0%nat Hd1) as N0. pose proof (N j d 1%nat Hd1) as N1. pose proof (N j d 2%nat Hd1) as N2.
      unfold turn3 in N0, N1, N2. rewrite Hd2, Hp, first3_list in N0, N1, N2. rewrite (float3_width d Td) in N0, N1, N2.
      rewrite Nat.add_0_r in N0. rewrite !Nat.add_assoc in N1, N2.
      destruct (rot3 _ _ _ _ q) as ((x, y), z). unfold triple. rewrite N0, N1, N2 by lia. repeat split.
Qed.

Theorem old_rotate_infinite vs m r0 r1 r2 more : canonical vs m -> tiled_vertices vs m -> vertices m <> [] ->
  float3 m 0 -> (exists b, has_attrib m 3 b) -> (exists c, has_attrib m 6 c) -> ~ can_turn A r0 r1 r2 ->
  old_rotate A m (r0 :: r1 :: r2 :: more) = (m, Some EValue).
Proof.
  intros C T Hne (a & Ha & Ta) (b & Hb) (c & Hc) Ht. apply cannot_turn_trig in Ht.
  destruct (has_in m a 0 Ha) as (Ia & Ua). destruct (has_in m b 3 Hb) as (Ib & Ub). destruct (has_in m c 6 Hc) as (Ic & Uc).
  pose proof (can_parts m vs C) as P. rewrite Forall_forall in P. pose proof (can_size _ _ C) as Hv.
  pose proof (tiled_num vs m C T) as TN. pose proof (blocks_lengths m vs C) as BL. pose proof (vertnum_nonneg m vs C) as VN.
  assert (length (blocks m vs) = Z.to_nat (vertnum m)) as BN by (unfold blocks; now rewrite map_length, seq_length).
  assert (0 < vertnum m) as VP.
  { destruct (vertices m) as [|x l] eqn:E; [contradiction|]. pose proof (vertices_length m vs C) as VL. rewrite E in VL. cbn in VL. lia. }
  unfold old_rotate, edit_vertices. rewrite (get_vertices_view m vs C). cbn [bind].
  destruct (blocks m vs) as [|chunk t] eqn:EB; [cbn in BN; lia|]. cbn [map].
  inversion BL as [|? ? HL _]; subst.
  change (all_mats (geoms m)) with (mats m). rewrite (edit_mats_raise _ _ _ EValue); [reflexivity| |].
  - unfold getattr. change POSITION with 0. change NORMAL with 3. change TANGENT with 6.
    assert (view m chunk 0 = Some (part m chunk a)) as -> by (rewrite <- Ua; now apply (view_at m (length chunk) C)).
    assert (view m chunk 3 = Some (part m chunk b)) as -> by (rewrite <- Ub; now apply (view_at m (length chunk) C)).
    assert (view m chunk 6 = Some (part m chunk c)) as -> by (rewrite <- Uc; now apply (view_at m (length chunk) C)). cbn [bind].
    destruct (P a Ia) as (_ & P2). rewrite (float3_width a Ta) in P2.
    destruct (part3 m chunk a Ta) as (q & _ & ->); [lia|]. rewrite first3_list. cbn [bind]. now rewrite Ht.
  - unfold zlen. cbn [length]. rewrite map_length. cbn [length] in BN. replace (Z.of_nat (S (length t))) with (vertnum m) by lia. exact TN.
Qed.
End OldTranslate.

(** ** merge *)
Section OldMerge.
Context {F : Type} (A : arith F).
Implicit Types (m self other : mesh F) (mt om : mat F) (q : vec3 F).

Definition combined vs self other : mesh F :=
  let ps := combine (mats other) (mats self) in
  set_counts (set_index (set_vertices (set_geoms self (put_mats (geoms self) (merged_mats 0 0 ps)))
                           (concat (flat_map (fun p => fst (merged_part vs self other p)) ps)))
                        (Tuple (flat_map (fun p => snd (merged_part vs self other p)) ps)))
             (sum_v ps) (sum_i ps).

Lemma combined_built vs self other : same_shape (geoms self) (geoms other) -> in_range vs self -> in_range vs other ->
  built vs self other (combined vs self other).
Proof.
  intros SH R1 R2. pose proof (same_shape_mats _ _ SH) as EL. fold (mats self) in EL. fold (mats other) in EL.
  pose proof (zip_parts vs self other R1 EL) as EZ. unfold combined. set (ps := combine (mats other) (mats self)) in *.
  assert (map snd ps = mats self) as ES by (apply map_snd_comb; congruence).
  assert (Forall (fun p => mat_in vs other (fst p) /\ mat_in vs self (snd p)) ps) as HP.
  { apply Forall_forall. intros (om, mt) Hin. destruct R1 as (_ & R1), R2 as (_ & R2). rewrite Forall_forall in R1, R2.
    split; [apply R2|apply R1]; [apply in_combine_l in Hin|apply in_combine_r in Hin]; exact Hin. }
  destruct (merged_laid vs self other ps 0 0 HP) as (L & LV & LI).
  assert (length (merged_mats 0 0 ps) = length (mats self)) as ELm.
  { pose proof (merged_uncounted ps 0 0) as E. rewrite ES in E. apply (f_equal (@length _)) in E. rewrite !map_length in E. exact E. }
  split; rewrite ?EZ.
  - unfold mats. cbn [geoms set_counts set_index set_vertices set_geoms]. rewrite mats_put by exact ELm. exact L.
  - cbn [vertices set_counts set_index set_vertices set_geoms]. unfold all_v. rewrite !flat_map_concat_map, map_map. reflexivity.
  - cbn [index set_counts set_index set_vertices set_geoms]. unfold all_i. rewrite !flat_map_concat_map, map_map. reflexivity.
  - cbn [vertnum set_counts set_index set_vertices set_geoms]. now rewrite LV.
  - cbn [indexnum set_counts set_index set_vertices set_geoms]. now rewrite LI.
  - repeat split.
  - cbn [geoms set_counts set_index set_vertices set_geoms]. apply put_mats_map; [exact ELm|].
    rewrite merged_uncounted, ES. reflexivity.
Qed.

(** The loop over pairs of materials. *)
Definition old_step self other (v1 v2 : list (vertex (F:=F))) (o : res (mat F)) (s : list vertex * list Z * Z * Z) mt
  : (list vertex * list Z * Z * Z) * mat F * option exn :=
  let '(vs, ix, vst, ist) := s in
  match (do om <- o; do i1 <- index_slice (index self) (istart mt) (istart mt + inum mt);
         do i2 <- index_slice (index other) (istart om) (istart om + inum om);
         Ok (om, i1 ++ map (fun i => i + vnum mt) i2)) with
  | Raise e => (s, mt, Some e)
  | Ok (om, mi') =>
      let mv := py_slice v1 (vstart mt) (vstart mt + vnum mt) ++ py_slice v2 (vstart om) (vstart om + vnum om) in
      ((vs ++ mv, ix ++ mi', vst + zlen mv, ist + zlen mi'), set_mat_layout mt vst ist (zlen mi') (zlen mv), None)
  end.
Lemma old_merge_step self other v1 v2 gi li mi s mt :
  old_merge_mat self other v1 v2 gi li mi s mt = old_step self other v1 v2 (get_of (geoms other) (gi, li, mi)) s mt.
Proof.
  unfold old_merge_mat, old_step, get_of. cbn [fst snd]. destruct s as (((vs, ix), vst), ist).
  destruct (nth_res (geoms other) gi); [|reflexivity]. cbn [bind]. destruct (nth_res _ li); [|reflexivity]. cbn [bind].
  destruct (nth_res _ mi); reflexivity.
Qed.
Lemma old_merge_trav self other v1 v2 s : same_shape (geoms self) (geoms other) ->
  trav_geoms (old_merge_mat self other v1 v2) s (geoms self) =
  let '(s', ms, o) := fold_am (old_step self other v1 v2) s (combine (map Ok (mats other)) (mats self)) in
  (s', put_mats (geoms self) ms, o).
Proof.
  intros H. rewrite trav_geoms_flat. unfold mats. rewrite <- (keyed_geoms _ _ H []). cbn [app length]. rewrite fold_am_map.
  rewrite (fold_am_ext _ (fun k => old_step self other v1 v2 (get_of (geoms other) k))); [reflexivity|].
  intros ((gi, li), mi) s' x _. cbn [fst snd]. apply old_merge_step.
Qed.

Lemma view_slice vs m mt : canonical vs m -> mat_vin vs m mt ->
  py_slice (map (view m) (blocks m vs)) (vstart mt) (vstart mt + vnum mt) = map (view m) (mat_vertices vs m mt).
Proof.
  intros C H. rewrite <- (blocks_slice vs m C) by exact H. unfold py_slice, zlen. now rewrite map_length, skipn_map, firstn_map.
Qed.

Definition joined_objects vs self other (p : mat F * mat F) : list (vertex (F:=F)) :=
  map (view self) (mat_vertices vs self (snd p)) ++ map (view other) (mat_vertices vs other (fst p)).
Lemma old_loop vs self other : canonical vs self -> canonical vs other -> has_tuple self -> has_tuple other ->
  forall ps va ix a b, Forall (fun p => mat_in vs other (fst p) /\ mat_in vs self (snd p)) ps ->
  fold_am (old_step self other (map (view self) (blocks self vs)) (map (view other) (blocks other vs))) (va, ix, a, b)
          (map (fun p => (Ok (fst p), snd p)) ps) =
  ((va ++ flat_map (joined_objects vs self other) ps, ix ++ flat_map (fun p => snd (merged_part vs self other p)) ps,
    a + sum_v ps, b + sum_i ps), merged_mats a b ps, None).
Proof.
  intros C1 C2 (l1 & T1) (l2 & T2). induction ps as [|(om, mt) ps IH]; intros va ix a b H.
  - cbn. unfold sum_v, sum_i. cbn. now rewrite !app_nil_r, !Z.add_0_r.
  - inversion H as [|? ? (H1 & H2) H']; subst. cbn [fst snd] in H1, H2. cbn [map fold_am fst snd]. unfold old_step at 1.
    rewrite T1, T2. cbn [bind index_slice].
    rewrite !view_slice by auto using mat_in_vin.
    assert (py_slice l1 (istart mt) (istart mt + inum mt) = mat_indices self mt) as ->.
    { destruct H2 as (_ & _ & _ & I1 & I2 & I3). unfold index_list in I3. rewrite T1 in I3. rewrite py_slice_in by assumption.
      unfold mat_indices, index_list. now rewrite T1. }
    assert (py_slice l2 (istart om) (istart om + inum om) = mat_indices other om) as ->.
    { destruct H1 as (_ & _ & _ & I1 & I2 & I3). unfold index_list in I3. rewrite T2 in I3. rewrite py_slice_in by assumption.
      unfold mat_indices, index_list. now rewrite T2. }
    rewrite !zlen_app, !zlen_map. rewrite !(mat_vertices_zlen vs), !(mat_indices_zlen vs) by assumption.
    rewrite IH by exact H'. unfold sum_v, sum_i. cbn [flat_map merged_mats sumZ merged_part fst snd joined_objects].
    unfold joined_objects at 2. cbn [fst snd]. rewrite !Z.add_assoc, !app_assoc. reflexivity.
Qed.

Lemma objects_numbers vs self other : canonical vs self -> canonical vs other -> vertex_attributes self = vertex_attributes other ->
  forall ps, Forall (fun p => mat_in vs other (fst p) /\ mat_in vs self (snd p)) ps ->
  map_res (vertex_numbers self) (flat_map (joined_objects vs self other) ps) =
  Ok (flat_map (fun p => fst (merged_part vs self other p)) ps).
Proof.
  intros C1 C2 EA.
  assert (forall chunk, length chunk = vs -> vertex_numbers self (view other chunk) = Ok chunk) as VN.
  { intros chunk HL.
    assert (forall a, In a (filter in_use (vertex_attributes self)) -> view other chunk (usage a) = Some (part other chunk a)) as V.
    { intros a Ha. apply (view_at other vs C2). now rewrite <- EA. }
    rewrite (vertex_numbers_ok self vs C1) by (intros a Ha; rewrite V by exact Ha; discriminate). f_equal.
    etransitivity; [|apply (parts_all other 0 (filter in_use (vertex_attributes self)) vs chunk (can_format other vs C2)); auto].
    - apply flat_map_ext'. intros a Ha. now rewrite V.
    - rewrite EA. apply (can_declared _ _ C2). }
  assert (forall m l, (forall c, length c = vs -> vertex_numbers self (view m c) = Ok c) -> Forall (fun c => length c = vs) l ->
    map_res (vertex_numbers self) (map (view m) l) = Ok l) as MR.
  { intros m l Hm HL. rewrite map_res_map. induction HL as [|c t Hc Ht IH]; [reflexivity|]. cbn [map_res]. rewrite Hm by exact Hc. cbn [bind].
    rewrite IH. reflexivity. }
  induction ps as [|(om, mt) ps IH]; intros H; [reflexivity|]. inversion H as [|? ? (H1 & H2) H']; subst. cbn [fst snd] in H1, H2.
  cbn [flat_map merged_part fst snd]. unfold joined_objects at 1. cbn [fst snd]. rewrite !map_res_app.
  rewrite (MR self), (MR other) by (auto using mat_vertices_length, mat_in_vin, (view_numbers self vs C1)). cbn [bind].
  rewrite IH by exact H'. reflexivity.
Qed.

Lemma tiles_sum : forall (l : list (mat F)) a b, tiles a (map (fun mt => (vstart mt, vnum mt)) l) b -> b = a + sumZ vnum l.
Proof.
  induction l as [|mt t IH]; intros a b H; cbn in *; [lia|]. destruct H as (_ & _ & H). apply IH in H. lia.
Qed.
Lemma sum_v_split : forall l l' : list (mat F), length l = length l' -> sum_v (combine l l') = sumZ vnum l' + sumZ vnum l.
Proof.
  unfold sum_v. induction l as [|x t IH]; intros [|y t'] H; try discriminate; [reflexivity|]. cbn. rewrite IH by (cbn in H; lia). lia.
Qed.

Theorem old_merge_built vs self other : canonical vs self -> canonical vs other -> packed vs self -> packed vs other ->
  same_shape (geoms self) (geoms other) -> vertex_attributes self = vertex_attributes other ->
  isStaticMesh (m_kind self) = true \/ isStaticMesh (m_kind other) = true ->
  has_positions self -> every_lod lod_bounded self -> zlen (vertices self) + zlen (vertices other) <= 2 ^ 53 ->
  exists m', old_merge A self other = (m', None) /\ same_but_bounds (combined vs self other) m' /\ every_lod lod_bounded m'.
Proof.
  intros C1 C2 P1 P2 SH EA HK HP HB HS. pose proof (packed_in_range _ _ P1) as R1. pose proof (packed_in_range _ _ P2) as R2.
  pose proof (same_shape_mats _ _ SH) as EL. fold (mats self) in EL. fold (mats other) in EL.
  pose proof (combined_built vs self other SH R1 R2) as B. unfold old_merge.
  assert (negb (isStaticMesh (m_kind self)) && negb (isStaticMesh (m_kind other)) = false) as ->.
  { destruct HK as [-> | ->]; [reflexivity|]. cbn. apply andb_false_r. }
  assert (list_eqb vertattrib_eqb (vertex_attributes self) (vertex_attributes other) = true) as ->.
  { apply (list_eqb_eq _ vertattrib_eqb_eq). exact EA. }
  assert (Nat.eqb (length (geoms self)) (length (geoms other)) = true) as -> by (apply Nat.eqb_eq, (Forall2_len _ _ _ SH)).
  cbn [negb]. rewrite (get_vertices_view self vs C1), (get_vertices_view other vs C2). rewrite old_merge_trav by exact SH.
  set (ps := combine (mats other) (mats self)) in *.
  assert (combine (map Ok (mats other)) (mats self) = map (fun p => (Ok (fst p), snd p)) ps) as ->.
  { unfold ps. rewrite <- (map_id (mats self)) at 1. apply (combine_map2 Ok (fun x => x)). }
  assert (Forall (fun p => mat_in vs other (fst p) /\ mat_in vs self (snd p)) ps) as HI.
  { apply Forall_forall. intros (om, mt) Hin. destruct R1 as (_ & R1), R2 as (_ & R2). rewrite Forall_forall in R1, R2.
    split; [apply R2|apply R1]; [apply in_combine_l in Hin|apply in_combine_r in Hin]; exact Hin. }
  rewrite (old_loop vs self other C1 C2 (proj1 R1) (proj1 R2) ps [] [] 0 0 HI). cbn [app].
  unfold update_vertices.
  change (vertex_numbers (set_geoms self (put_mats (geoms self) (merged_mats 0 0 ps)))) with (vertex_numbers self).
  rewrite (objects_numbers vs self other C1 C2 EA ps HI).
  set (nv := concat (flat_map (fun p => fst (merged_part vs self other p)) ps)).
  assert (sum_v ps * Z.of_nat vs = zlen (vertices self) + zlen (vertices other)) as HN.
  { unfold ps. rewrite sum_v_split by congruence. destruct P1 as ((n1 & E1 & T1) & _), P2 as ((n2 & E2 & T2) & _).
    apply tiles_sum in T1, T2. rewrite E1, E2. subst. lia. }
  assert (zlen nv = sum_v ps * Z.of_nat vs) as HZ.
  { pose proof (b_vnum _ _ _ _ B) as BV. pose proof (b_verts _ _ _ _ B) as BW. cbn [combined vertnum vertices set_counts set_index set_vertices set_geoms] in BV, BW.
    fold ps in BV, BW. fold nv in BW. rewrite BW, BV.
    assert (Forall (fun v => length v = vs) (all_v (zip_join (parts vs self) (parts vs other)))) as HL.
    { pose proof (join_lengths vs _ _ (part_lengths vs self R1) (part_lengths vs other R2)) as JL. rewrite Forall_map in JL.
      unfold all_v. apply Forall_flat_map. exact JL. }
    clear - HL. induction HL as [|v t Hv Ht IH]; [reflexivity|]. cbn [concat]. rewrite zlen_app, IH. unfold zlen. cbn [length]. lia. }
  assert (0 <= sum_v ps) as HV0 by (pose proof (zlen_nonneg nv); pose proof (can_size _ _ C1); nia).
  cbn [vertstride vertformat set_geoms]. rewrite HZ, (can_stride _ _ C1), old_vertnum_exact; try (pose proof (can_size _ _ C1); pose proof (can_format self vs C1); pose proof (vs_small self vs C1); lia).
  set (m2 := set_counts (set_vertices (set_geoms self (put_mats (geoms self) (merged_mats 0 0 ps))) nv) (sum_v ps) (indexnum (set_geoms self (put_mats (geoms self) (merged_mats 0 0 ps))))).
  assert (canonical vs m2) as C3.
  { constructor; try apply C1; cbn; [exact HZ|]. lia. }
  assert (every_lod lod_bounded m2) as HB2.
  { pose proof (b_geoms _ _ _ _ B) as BG. cbn [combined geoms set_counts set_index set_vertices set_geoms] in BG. fold ps in BG.
    unfold every_lod in *. cbn [m2 geoms set_counts set_vertices set_geoms]. revert BG HB. generalize (put_mats (geoms self) (merged_mats 0 0 ps)) as gs.
    generalize (geoms self) as hs. clear. induction hs as [|h hs IH]; intros [|g gs] E H; try discriminate; [constructor|].
    cbn [map] in E. apply cons_eq in E. destruct E as (E1 & E2). inversion H as [|? ? Hh Ht]; subst. constructor; [|now apply (IH gs)].
    apply (f_equal lods) in E1. cbn in E1. revert E1 Hh. generalize (lods h) as ks, (lods g) as ls. clear.
    induction ks as [|k ks IH]; intros [|l ls] E H; try discriminate; [constructor|].
    cbn [map] in E. apply cons_eq in E. destruct E as (E1 & E2). inversion H as [|? ? (B1 & B2 & B3) Ht]; subst. constructor; [|now apply (IH ls)].
    pose proof (f_equal lod_min E1) as M1. pose proof (f_equal lod_max E1) as M2. apply (f_equal materials) in E1. cbn in M1, M2, E1.
    split; [congruence|]. split; [congruence|]. revert E1 B3. generalize (materials k) as xs, (materials l) as ys. clear.
    induction xs as [|x xs IH]; intros [|y ys] E H; try discriminate; [constructor|].
    cbn [map] in E. apply cons_eq in E. destruct E as (E1 & E2). inversion H as [|? ? (B1 & B2) Ht]; subst. constructor; [|now apply (IH ys)].
    pose proof (f_equal mmin E1) as M1. pose proof (f_equal mmax E1) as M2. cbn in M1, M2. split; congruence. }
  assert (Forall (mat_vin vs m2) (mats m2)) as HM2.
  { destruct (built_packed vs self other _ R1 R2 B) as (PK & _). destruct PK as (TV & _). apply tiled_vin in TV. exact TV. }
  destruct (old_update_boundaries A m2) as (m3, o) eqn:E3. rewrite (old_bounds_ok A vs m2 C3 HP HM2 HB2) in E3. injection E3 as <- <-.
  eexists. split; [reflexivity|]. pose proof (old_bounds_ok A vs m2 C3 HP HM2 HB2) as FR. apply old_bounds_frame in FR.
  destruct FR as (_ & _ & _ & _ & FG). split; [|exact (grown_bounded A vs m2 _ HB2)]. pose proof (b_inum _ _ _ _ B) as BI. pose proof (b_index _ _ _ _ B) as BX.
  cbn [combined indexnum index set_counts set_index set_vertices set_geoms] in BI, BX. fold ps in BI, BX.
  repeat split; auto; cbn [combined indexnum set_counts set_index set_vertices set_geoms]; fold ps.
  rewrite BI. injection BX as ->. reflexivity.
Qed.

Theorem old_merge_agrees vs self other m2 : canonical vs self -> canonical vs other -> packed vs self -> packed vs other ->
  vertex_size self = Ok (Z.of_nat vs) ->
  isStaticMesh (m_kind self) = true \/ isStaticMesh (m_kind other) = true ->
  has_positions self -> every_lod lod_bounded self -> zlen (vertices self) + zlen (vertices other) <= 2 ^ 53 ->
  merge self other = (m2, Merged) ->
  exists m', old_merge A self other = (m', None) /\ same_but_bounds m2 m'.
Proof.
  intros C1 C2 P1 P2 HS HK HP HB H53 HM. pose proof (packed_in_range _ _ P1) as R1. pose proof (packed_in_range _ _ P2) as R2.
  destruct (merged_built vs self other m2 HS R1 R2 HM) as (HC & _ & B). pose proof (compatible_shape _ _ HC) as SH.
  destruct (old_merge_built vs self other) as (m' & E & FR & _); auto; [apply HC|]. exists m'. split; [exact E|].
  replace m2 with (combined vs self other); [exact FR|]. apply (built_unique vs self other self other); auto using combined_built.
  repeat split.
Qed.

Theorem old_merge_joined vs self other : canonical vs self -> canonical vs other -> packed vs self -> packed vs other ->
  same_nesting self other -> vertex_attributes self = vertex_attributes other ->
  isStaticMesh (m_kind self) = true \/ isStaticMesh (m_kind other) = true ->
  has_positions self -> every_lod lod_bounded self -> zlen (vertices self) + zlen (vertices other) <= 2 ^ 53 ->
  exists m', old_merge A self other = (m', None) /\ same_header self m' /\ packed vs m' /\ mats_joined vs self other m'.
Proof.
  intros C1 C2 P1 P2 SH EA HK HP HB H53. pose proof (packed_in_range _ _ P1) as R1. pose proof (packed_in_range _ _ P2) as R2.
  destruct (old_merge_built vs self other) as (m' & E & FR & _); auto. exists m'. split; [exact E|].
  pose proof (combined_built vs self other SH R1 R2) as B. destruct FR as (FH & FC & FV & FI & FG).
  assert (map mat_unbound (mats m') = map mat_unbound (mats (combined vs self other))) as FM.
  { unfold mats, mats_of. revert FG. generalize (geoms m') as gs, (geoms (combined vs self other)) as hs. clear.
    induction gs as [|g gs IH]; intros [|h hs] E; try discriminate; [reflexivity|]. cbn [map] in E. apply cons_eq in E. destruct E as (E1 & E2).
    cbn [flat_map]. rewrite !map_app, (IH hs E2). f_equal. apply (f_equal lods) in E1. cbn in E1. revert E1.
    generalize (lods g) as ls, (lods h) as ks. clear. induction ls as [|l ls IH]; intros [|k ks] E; try discriminate; [reflexivity|].
    cbn [map] in E. apply cons_eq in E. destruct E as (E1 & E2). cbn [flat_map]. rewrite !map_app, (IH ks E2). f_equal.
    apply (f_equal materials) in E1. exact E1. }
  assert (forall x y : mat F, mat_unbound x = mat_unbound y -> vstart x = vstart y /\ vnum x = vnum y /\ istart x = istart y /\ inum x = inum y) as MU.
  { intros x y H. repeat split; [apply (f_equal vstart) in H|apply (f_equal vnum) in H|apply (f_equal istart) in H|apply (f_equal inum) in H]; exact H. }
  assert (map (fun mt => (vstart mt, vnum mt)) (mats m') = map (fun mt => (vstart mt, vnum mt)) (mats (combined vs self other)) /\
          map (fun mt => (istart mt, inum mt)) (mats m') = map (fun mt => (istart mt, inum mt)) (mats (combined vs self other))) as (MV & MI).
  { revert FM. generalize (mats m') as l, (mats (combined vs self other)) as k. clear - MU. induction l as [|x l IH]; intros [|y k] E; try discriminate; [split; reflexivity|].
    cbn [map] in E. apply cons_eq in E. destruct E as (E1 & E2). apply MU in E1. destruct E1 as (U1 & U2 & U3 & U4). destruct (IH k E2) as (I1 & I2).
    cbn [map]. now rewrite I1, I2, U1, U2, U3, U4. }
  destruct (built_packed vs self other _ R1 R2 B) as (PK & D). split; [|split].
  - pose proof (b_head _ _ _ _ B) as BH. destruct FH as (? & ? & ? & ? & ? & ? & ? & ? & ?), BH as (? & ? & ? & ? & ? & ? & ? & ? & ?). repeat split; congruence.
  - destruct PK as ((n & E1 & T1) & (l & E2 & T2)). split; [exists n|exists l].
    + rewrite FV, MV. auto.
    + rewrite FI, MI. auto.
  - pose proof (same_shape_mats _ _ SH) as EL. fold (mats self) in EL. fold (mats other) in EL.
    assert (length (mats (combined vs self other)) = length (mats self)) as EC.
    { pose proof (Forall2_len _ _ _ D) as DL. rewrite (zip_parts vs self other R1 EL), map_length, combine_length in DL. lia. }
    split; [apply (f_equal (@length _)) in FM; rewrite !map_length in FM; congruence|].
    intros k x y z Hx Hy Hz.
    pose proof (f_equal (fun l => nth_error l k) FM) as FK. cbn beta in FK. rewrite !nth_error_map, Hz in FK. cbn [option_map] in FK.
    destruct (nth_error (mats (combined vs self other)) k) as [z'|] eqn:Ez; [|discriminate]. cbn [option_map] in FK.
    assert (mat_unbound z = mat_unbound z') as FK' by congruence. apply MU in FK'. destruct FK' as (U1 & U2 & U3 & U4).
    pose proof (Forall2_nth _ _ _ D k) as DK. rewrite Ez in DK.
    rewrite (zip_parts vs self other R1 EL), nth_error_map, nth_combine, Hx, Hy in DK. cbn [option_map merged_part] in DK. unfold data in DK. injection DK as D1 D2.
    assert (mat_vertices vs m' z = mat_vertices vs (combined vs self other) z') as -> by (unfold mat_vertices; now rewrite U1, U2, FV).
    assert (mat_indices m' z = mat_indices (combined vs self other) z') as -> by (unfold mat_indices, index_list; now rewrite U3, U4, FI).
    rewrite D1, D2. rewrite U2, U4.
    assert (mat_in vs self x /\ mat_in vs other y) as (Mx & My).
    { destruct R1 as (_ & R1), R2 as (_ & R2). rewrite Forall_forall in R1, R2. split; [apply R1|apply R2]; eapply nth_error_In; eauto. }
    assert (mat_in vs (combined vs self other) z') as Mz.
    { apply packed_in_range in PK. destruct PK as (_ & RZ). rewrite Forall_forall in RZ. apply RZ. eapply nth_error_In; eauto. }
    apply (f_equal zlen) in D1, D2. rewrite zlen_app in D1. rewrite zlen_app, zlen_map in D2.
    rewrite !(mat_vertices_zlen vs) in D1 by assumption. rewrite !(mat_indices_zlen vs) in D2 by assumption. auto.
Qed.
End OldMerge.
