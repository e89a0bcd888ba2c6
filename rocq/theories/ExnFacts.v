(** Which exceptions the loader and the editing methods can raise. *)
From Coq Require Import ZArith Reals Bool Ascii List Lia Lra Psatz.
From Flocq Require Import Core IEEE754.BinarySingleNaN.
From Verif Require Import PyBase Struct Mesh Arith Edit Spec CodecBase CodecLocal CodecFacts DivFacts SpecExn.
Import ListNotations.
Open Scope Z_scope.
Open Scope res_scope.

Definition within {X} (L : list exn) (x : res X) : Prop := forall e, x = Raise e -> In e L.
Definition owithin (L : list exn) (o : option exn) : Prop := forall e, o = Some e -> In e L.
Lemma within_ok {X} L (x : X) : within L (Ok x). Proof. intros e H. discriminate. Qed.
Lemma within_raise {X} L e : In e L -> within (X := X) L (Raise e). Proof. intros H e' E. now injection E as <-. Qed.
Lemma within_bind {X Y} L (x : res X) (f : X -> res Y) : within L x -> (forall a, x = Ok a -> within L (f a)) -> within L (bind x f).
Proof. intros H1 H2 e. destruct x as [a | e']; cbn [bind]; intro E; [ now apply (H2 a eq_refl) | injection E as <-; now apply H1 ]. Qed.
Lemma within_incl {X} L L' (x : res X) : within L x -> incl L L' -> within L' x.
Proof. intros H1 H2 e E. apply H2, H1, E. Qed.
Lemma owithin_none L : owithin L None. Proof. discriminate. Qed.
Lemma owithin_some L e : In e L -> owithin L (Some e). Proof. intros H e' E. now injection E as <-. Qed.
Lemma within_fold {X S} L (f : S -> X -> res S) l : (forall s x, In x l -> within L (f s x)) -> forall s, within L (fold_res f s l).
Proof.
  induction l as [| x l IH]; intros H s; cbn [fold_res]; [ apply within_ok |].
  apply within_bind; [ apply H; now left | intros a _; apply IH; intros; apply H; now right ].
Qed.
Lemma owithin_mut {X S} L (f : nat -> S -> X -> S * X * option exn) l :
  (forall i s x, owithin L (snd (f i s x))) -> forall i s, owithin L (snd (fold_mut_from f i s l)).
Proof.
  intro H. induction l as [| x l IH]; intros i s; cbn [fold_mut_from]; [ apply owithin_none |].
  pose proof (H i s x) as Hx. destruct (f i s x) as [[s' x'] [e |]]; [ exact Hx |].
  specialize (IH (Datatypes.S i) s'). destruct (fold_mut_from f (Datatypes.S i) s' l) as [[? ?] ?]. exact IH.
Qed.

Lemma get_within {X} L (l : list X) i : In EIndex L -> within L (py_get l i).
Proof.
  intro H. unfold py_get. destruct (norm_index _ _); [| now apply within_raise ].
  destruct (nth_error l n); [ apply within_ok | now apply within_raise ].
Qed.
Lemma set_within {X} L (l : list X) i v : In EIndex L -> within L (py_set l i v).
Proof. intro H. unfold py_set. destruct (norm_index _ _); [ apply within_ok | now apply within_raise ]. Qed.
Lemma decltype_within L v : In EValue L -> within L (decltype_len v).
Proof. intro H. unfold decltype_len. repeat (destruct (v =? _); [ apply within_ok |]). now apply within_raise. Qed.
Lemma size_of_within L l : In EValue L -> within L (vertex_size_of l).
Proof.
  intro H. induction l as [| a l IH]; cbn [vertex_size_of]; [ apply within_ok |].
  destruct (flag a =? USED); [| assumption ].
  apply within_bind; [ now apply decltype_within | intros ? _ ]. apply within_bind; [ assumption | intros ? _; apply within_ok ].
Qed.
Lemma nth_within {X} L (l : list X) i : In EIndex L -> within L (nth_res l i).
Proof. intro H. unfold nth_res. destruct (nth_error l i); [ apply within_ok | now apply within_raise ]. Qed.
Lemma first3_within {F} L (l : list F) : In EIndex L -> within L (first3 l).
Proof. intro H. destruct l as [| ? [| ? [| ? ?]]]; cbn; try (now apply within_raise). apply within_ok. Qed.

(** ** Loading *)
Definition rwithin {X} (L : list exn) (P : X -> Prop) (r : reader X) : Prop :=
  forall bs, match r bs with Ok (a, _) => P a | Raise e => In e L end.
Section Load.
Variable L : list exn.
Hypothesis LS : In EStruct L.
Lemma rw_ret {X} (P : X -> Prop) a : P a -> rwithin L P (rret a). Proof. intros H bs. exact H. Qed.
Lemma rw_bind {X Y} (P : X -> Prop) (Q : Y -> Prop) (r : reader X) f :
  rwithin L P r -> (forall a, P a -> rwithin L Q (f a)) -> rwithin L Q (rbind r f).
Proof. intros H1 H2 bs. unfold rbind. specialize (H1 bs). destruct (r bs) as [[a t] | e]; cbn [bind]; [ apply (H2 a H1 t) | exact H1 ]. Qed.
Lemma rw_any {X} (P : X -> Prop) r : rwithin L P r -> rwithin L (fun _ => True) r.
Proof. intros H bs. specialize (H bs). now destruct (r bs) as [[? ?] |]. Qed.
Lemma rw_raw n : rwithin L (fun bs => zlen bs = n) (read_raw n).
Proof.
  intro bs. unfold read_raw. destruct ((n <? 0) || (zlen bs <? n)) eqn:E; [ exact LS |].
  apply orb_false_iff in E as [E1 E2]. apply Z.ltb_ge in E1, E2. unfold zlen in *. rewrite firstn_length. lia.
Qed.
Lemma rw_items w n : rwithin L (fun _ => True) (read_items w n).
Proof.
  unfold read_items. destruct (n <? 0); [ intro bs; exact LS |].
  eapply rw_bind; [ apply rw_raw | intros; now apply rw_ret ].
Qed.
Lemma rw_n {X} (r : reader X) n : rwithin L (fun _ => True) r -> rwithin L (fun _ => True) (read_n r n).
Proof.
  intro H. induction n as [| n IH]; cbn [read_n]; [ now apply rw_ret |].
  eapply rw_bind; [ exact H | intros ]. eapply rw_bind; [ exact IH | intros; now apply rw_ret ].
Qed.
Lemma rw_each {X Y} (r : X -> reader Y) l : (forall a, rwithin L (fun _ => True) (r a)) -> rwithin L (fun _ => True) (read_each r l).
Proof.
  intro H. induction l as [| a l IH]; cbn [read_each]; [ now apply rw_ret |].
  eapply rw_bind; [ apply H | intros ]. eapply rw_bind; [ exact IH | intros; now apply rw_ret ].
Qed.
Section P.
Context {F : Type} (p : plat) (u : Z -> F).
Lemma rw_long : rwithin L (fun v => - 2 ^ 63 <= v < 2 ^ 63) (read_long p).
Proof.
  unfold read_long. eapply rw_bind; [ apply rw_raw | intros bs H; apply rw_ret ].
  pose proof (dec_uint_range p bs) as R. assert (length bs = long_bytes p) as E by (unfold zlen in H; lia). rewrite E in R.
  pose proof (to_signed_range _ _ (long_bytes_pos p) R) as R2.
  assert (8 * Z.of_nat (long_bytes p) - 1 <= 63) by (unfold long_bytes; destruct (long_sz p); cbn; lia).
  assert (2 ^ (8 * Z.of_nat (long_bytes p) - 1) <= 2 ^ 63) by (apply Z.pow_le_mono_r; lia). lia.
Qed.
Lemma rw_short1 : rwithin L (fun _ => True) (read_short1 p).
Proof. eapply rw_bind; [ apply rw_raw | intros; now apply rw_ret ]. Qed.
Lemma rw_byte : rwithin L (fun _ => True) (read_byte p).
Proof. eapply rw_bind; [ apply rw_raw | intros; now apply rw_ret ]. Qed.
Lemma rw_short n : rwithin L (fun _ => True) (read_short p n).
Proof. eapply rw_bind; [ apply rw_items | intros; now apply rw_ret ]. Qed.
Lemma rw_float n : rwithin L (fun _ => True) (read_float p u n).
Proof. eapply rw_bind; [ apply rw_items | intros; now apply rw_ret ]. Qed.
Lemma rw_float3 : rwithin L (fun _ => True) (read_float3 p u).
Proof. eapply rw_bind; [ apply rw_raw | intros; now apply rw_ret ]. Qed.
Lemma rw_row4 : rwithin L (fun _ => True) (read_row4 p u).
Proof. eapply rw_bind; [ apply rw_raw | intros; now apply rw_ret ]. Qed.
Lemma rw_string : rwithin L (fun _ => True) (read_string p).
Proof. eapply rw_bind; [ apply rw_long | intros; eapply rw_any, rw_raw ]. Qed.
Ltac rw := repeat match goal with
  | |- rwithin _ _ (rret _) => now apply rw_ret
  | |- rwithin _ _ (rbind (read_long _) _) => eapply rw_bind; [ apply rw_long | intros ]
  | |- rwithin _ _ (rbind _ _) => apply rw_bind with (P := fun _ => True); [| intros ]
  | |- rwithin _ _ (read_n _ _) => apply rw_n
  | |- rwithin _ _ (read_each _ _) => apply rw_each; intros
  | |- rwithin _ _ (read_long _) => eapply rw_any, rw_long
  | |- rwithin _ _ (read_short1 _) => apply rw_short1
  | |- rwithin _ _ (read_short _ _) => apply rw_short
  | |- rwithin _ _ (read_byte _) => apply rw_byte
  | |- rwithin _ _ (read_float3 _ _) => apply rw_float3
  | |- rwithin _ _ (read_row4 _ _) => apply rw_row4
  | |- rwithin _ _ (read_matrix4 _ _) => unfold read_matrix4
  | |- rwithin _ _ (read_string _) => apply rw_string
  | |- rwithin _ _ (if ?b then _ else _) => destruct b
  end.
Lemma rw_mat v s : rwithin L (fun _ => True) (load_mat p u v s). Proof. unfold load_mat. rw. Qed.
Lemma rw_rig : rwithin L (fun _ => True) (load_rig p u). Proof. unfold load_rig, load_bone. rw. Qed.
Lemma rw_nodes v b s l : rwithin L (fun _ => True) (load_nodes_rigs p u v b s l).
Proof. unfold load_nodes_rigs. rw; apply rw_rig. Qed.
Lemma rw_materials v s l : rwithin L (fun _ => True) (load_materials p u v s l).
Proof. unfold load_materials. rw; apply rw_mat. Qed.

Lemma data_num_ok s f n : f <> 0 -> - 2 ^ 63 <= s < 2 ^ 63 -> - 2 ^ 63 <= n < 2 ^ 63 -> exists k, data_num s f n = Ok k.
Proof.
  intros Hf Hs Hn. unfold data_num.
  assert (forall z, - 2 ^ 63 <= z < 2 ^ 63 -> (Rabs (IZR z) <= bpow radix2 63)%R) as B.
  { intros z Hz. rewrite <- abs_IZR. rewrite <- IZR_Zpower by lia. apply IZR_le. change (radix_val radix2) with 2. lia. }
  assert (Rabs (IZR s / IZR f) <= bpow radix2 63)%R as Q.
  { unfold Rdiv. rewrite Rabs_mult. apply Rle_trans with (2 := B s Hs).
    rewrite <- (Rmult_1_r (Rabs (IZR s))) at 2. apply Rmult_le_compat_l; [ apply Rabs_pos |].
    rewrite Rabs_inv. rewrite <- Rinv_1. apply Rinv_le_contravar; [ lra |]. rewrite <- abs_IZR. apply IZR_le. lia. }
  assert (forall r, (Rabs r <= bpow radix2 63)%R -> small r) as S.
  { intros r Hr. unfold small. apply Rle_trans with (1 := Hr). apply bpow_le. lia. }
  assert (forall r, (Rabs r <= bpow radix2 63)%R -> (Rabs (rnd64 r) <= bpow radix2 63)%R) as RR.
  { intros r Hr. apply abs_round_le_generic; auto with typeclass_instances; [ now apply (fexp_correct 53 1024 eq_refl) |].
    apply generic_format_bpow. unfold SpecFloat.fexp, SpecFloat.emin. lia. }
  destruct (truediv_denotes s f Hf (S _ Q)) as (q & -> & Dq). cbn [bind]. unfold py_fmul_int.
  destruct (float_of_int_denotes n (S _ (B n Hn))) as (x & -> & Dx). cbn [bind].
  pose proof (RR _ Q) as Q1. pose proof (RR _ (B n Hn)) as Q2.
  assert (small (rnd64 (IZR s / IZR f) * rnd64 (IZR n))) as SM.
  { unfold small. rewrite Rabs_mult. apply Rle_trans with (bpow radix2 63 * bpow radix2 63)%R.
    - apply Rmult_le_compat; auto using Rabs_pos.
    - rewrite <- bpow_plus. apply bpow_le. lia. }
  rewrite (py_int_denotes _ _ (mul_denotes _ _ _ _ Dq Dx SM)). eauto.
Qed.
Lemma rw_vertices s f n : In EType L -> In EZeroDiv L -> - 2 ^ 63 <= s < 2 ^ 63 -> - 2 ^ 63 <= n < 2 ^ 63 ->
  rwithin L (fun _ => True) (load_vertices p u s f n).
Proof.
  intros LT LZ Hs Hn. unfold load_vertices. eapply rw_bind with (P := fun _ => True).
  - intro bs. unfold rlift. destruct (Z.eq_dec f 0) as [-> | N]; [ exact LZ |].
    destruct (data_num_ok s f n N Hs Hn) as [k ->]. exact I.
  - intros. eapply rw_bind; [ apply rw_float | intros [x | l] _ ]; [ intro bs; exact LT | now apply rw_ret ].
Qed.
Lemma rw_body k : In EType L -> In EZeroDiv L -> rwithin L (fun _ => True) (load_body p u k).
Proof.
  intros LT LZ. unfold load_body. unfold load_head, load_geom, load_vertattrib, each_lod.
  repeat match goal with
  | |- rwithin _ _ (load_vertices _ _ _ _ _) => now apply rw_vertices
  | |- rwithin _ _ (load_nodes_rigs _ _ _ _ _ _) => apply rw_nodes
  | |- rwithin _ _ (load_materials _ _ _ _ _) => apply rw_materials
  | _ => progress rw
  end.
Qed.
End P.
End Load.

Theorem load_raises {F} p (u : Z -> F) k bs e : load p u k bs = Raise e -> In e load_exns.
Proof.
  unfold load. pose proof (rw_body load_exns (or_introl eq_refl) p u k) as H.
  specialize (H ltac:(cbn; tauto) ltac:(cbn; tauto) bs). destruct (load_body p u k bs) as [[m [| b t]] | e']; cbn [bind]; intro E.
  - discriminate.
  - injection E as <-. cbn. tauto.
  - injection E as <-. exact H.
Qed.
Theorem load_trailing {F} p (u : Z -> F) k bs :
  load p u k bs = Raise EAttribute <-> exists file extra m, bs = file ++ extra /\ extra <> [] /\ load p u k file = Ok m.
Proof.
  split.
  - unfold load at 1. pose proof (rw_body [EStruct; EType; EZeroDiv] (or_introl eq_refl) p u k) as H.
    specialize (H ltac:(cbn; tauto) ltac:(cbn; tauto) bs). destruct (load_body p u k bs) as [[m [| b t]] | e'] eqn:E; cbn [bind]; intro E'.
    + discriminate.
    + destruct (local_load_body p u k bs m (b :: t) E) as (used & -> & H1 & H2). exists used, (b :: t), m.
      split; [ reflexivity |]. split; [ discriminate |]. unfold load. specialize (H1 []). rewrite app_nil_r in H1. now rewrite H1.
    + injection E' as ->. cbn in H. intuition discriminate.
  - intros (file & extra & m & -> & N & H). now apply trailing_rejected with m.
Qed.
