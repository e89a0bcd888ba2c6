(** Concrete meshes for merge. *)
From Coq Require Import ZArith List Bool Ascii String Lia.
From Flocq Require Import IEEE754.Binary IEEE754.Bits.
From Verif Require Import PyBase Struct Mesh Arith F64 Edit Obj Spec CodecBase CodecRaw CodecParam
  CodecFacts SpecEdit TravFacts VertFacts LayoutFacts MergeFacts Witness WitnessEdit.
Import ListNotations.
Open Scope Z_scope.

(** Deciding the layout conditions by computation. *)
Definition mat_in_b {F} (vs : nat) (m : mesh F) (mt : mat F) : bool :=
  (0 <=? vstart mt) && (0 <=? vnum mt) && ((vstart mt + vnum mt) * Z.of_nat vs <=? zlen (vertices m)) &&
  (0 <=? istart mt) && (0 <=? inum mt) && (istart mt + inum mt <=? zlen (index_list m)).
Lemma mat_in_check {F} vs (m : mesh F) mt : mat_in_b vs m mt = true <-> mat_in vs m mt.
Proof. unfold mat_in_b, mat_in. rewrite !andb_true_iff, !Z.leb_le. tauto. Qed.
Lemma in_range_check {F} vs (m : mesh F) l : index m = Tuple l -> forallb (mat_in_b vs m) (mats m) = true -> in_range vs m.
Proof.
  intros E H. split; [now exists l|]. rewrite forallb_forall in H. apply Forall_forall. intros mt Hm. apply mat_in_check. auto.
Qed.
Lemma closed_check {F} (m : mesh F) :
  forallb (fun mt => forallb (fun i => (0 <=? i) && (i <? vnum mt)) (mat_indices m mt)) (mats m) = true -> closed m.
Proof.
  intros H. rewrite forallb_forall in H. apply Forall_forall. intros mt Hm. specialize (H mt Hm). rewrite forallb_forall in H.
  apply Forall_forall. intros i Hi. specialize (H i Hi). apply andb_true_iff in H. rewrite Z.leb_le, Z.ltb_lt in H. exact H.
Qed.

Lemma ex_known : Forall known_attrib ex_attribs.
Proof. unfold ex_attribs. repeat apply Forall_cons; try apply Forall_nil; split; cbn; tauto. Qed.
Lemma ex_in_range {F} (f : Z -> F) : in_range 7 (exm f).
Proof. apply packed_in_range. apply ex_packed. Qed.
Lemma ex_closed {F} (f : Z -> F) : closed (exm f).
Proof. apply closed_check. vm_compute. reflexivity. Qed.
Lemma ex_merges {F} (f g : Z -> F) : merge (exm f) (exm g) = (fst (merge (exm f) (exm g)), Merged).
Proof. vm_compute. reflexivity. Qed.

(** Skinned against static. *)
Lemma skinned_static : exists bs bs' a b,
  load p32 unpack_f k_skinned_ bs = Ok a /\ load p32 unpack_f k_static_ bs' = Ok b /\
  canMerge a b = Raise EType /\ canMerge b a = Ok false.
Proof.
  exists (ex_file p32 11 k_skinned_), (ex_file p32 11 k_static_), (fl (ex_mesh 11 k_skinned_)), (fl (ex_mesh 11 k_static_)).
  split; [apply (ex_load_fl p32 11 k_skinned_ ex_load_skinned)|]. split; [apply (ex_load_fl p32 11 k_static_ ex_load_static32)|].
  split; reflexivity.
Qed.

(** An attribute type that is not in D3DDECLTYPE. *)
Definition odd_mesh : mesh Z := wide_mesh 5 4.
Lemma odd_loads : load p64 unpack_f k_static_ (file_of odd_mesh) = Ok (fl odd_mesh).
Proof. rewrite load_via. replace (load p64 raw k_static_ (file_of odd_mesh)) with (Ok odd_mesh) by (vm_compute; reflexivity). reflexivity. Qed.
Lemma odd_static : exists bs bs' a b,
  load p64 unpack_f k_static_ bs = Ok a /\ load p64 unpack_f k_static_ bs' = Ok b /\
  canMerge a b = Raise EValue /\ canMerge b a = Ok false.
Proof.
  exists (file_of odd_mesh), (file_of (wide_mesh 3 4)), (fl odd_mesh), (fl (wide_mesh 3 4)).
  split; [apply odd_loads|]. split; [apply wide_loads|]. split; reflexivity.
Qed.

(** An overflow in the second material after the first was rewritten. *)
Definition thin (m1 m2 : mat Z) (n : Z) (ix : list Z) : mesh Z :=
  {| m_kind := k_static_; m_head := ex_head 11; m_u1 := 0; geomnum := 1;
     geoms := [ {| lodnum := 1; lods := [ex_lod 11 k_static_ [m1; m2]] |} ];
     vertattribnum := 2; vertex_attributes := wide_attribs 0;
     vertformat := 4; vertstride := 4; vertnum := n; vertices := repeat b0 (Z.to_nat n);
     indexnum := 6; index := Tuple ix; m_u2 := 8 |}.
Definition thin_small : mesh Z := thin (ex_mat 11 false 0 0 3 1) (ex_mat 11 false 1 3 3 1) 2 [0;0;0; 0;0;0].
Definition thin_big : mesh Z := thin (ex_mat 11 false 0 0 3 3) (ex_mat 11 false 3 3 3 65536) 65539 [0;1;2; 65535;0;1].
Lemma small_loads : load p64 unpack_f k_static_ (file_of thin_small) = Ok (fl thin_small).
Proof. rewrite load_via. replace (load p64 raw k_static_ (file_of thin_small)) with (Ok thin_small) by (vm_compute; reflexivity). reflexivity. Qed.
Lemma small_wf : raw_wf p64 thin_small.
Proof.
  assert (load p64 raw k_static_ (file_of thin_small) = Ok thin_small) as H by (vm_compute; reflexivity).
  unfold load in H. apply bind_ok in H. destruct H as ([m rest] & H1 & H2).
  destruct rest; [|discriminate]. injection H2 as ->. apply load_body_raw_ok in H1. tauto.
Qed.
Lemma long64 z : Z.abs z < 2 ^ 62 -> is_long p64 z.
Proof. intros H. change (- 2 ^ 63 <= z < 2 ^ 63). lia. Qed.
Lemma big_wf : raw_wf p64 thin_big.
Proof.
  destruct small_wf as (W & A). unfold wf in W.
  destruct W as (W1 & W2 & W3 & W4 & W5 & W6 & W7 & W8 & W9 & _ & _ & W12 & W13). split.
  - unfold wf. split; [exact W1|]. split; [exact W2|]. split; [exact W3|]. split.
    { inversion W4 as [|g t (C & Wg) Wt]; subst. constructor; [|constructor]. split; [exact C|].
      inversion Wg as [|l t (L1 & L2 & L3 & L4 & L5 & L6) Wt']; subst. constructor; [|constructor]. 
      split; [exact L1|]. split; [exact L2|]. split; [exact L3|]. split; [exact L4|]. split; [exact L5|].
      inversion L6 as [|x t (X1 & X2 & X3 & X4 & X5 & X6 & X7 & X8 & X9 & X10 & X11 & X12 & X13 & X14) L7]; subst. 
      repeat constructor; try assumption; try (apply long64; cbn; lia). }
    split; [exact W5|]. split; [exact W6|]. split; [exact W7|]. split; [exact W8|].
    split; [apply long64; cbn; lia|]. split.
    { cbn [vertices thin_big thin vertstride vertformat vertnum]. unfold zlen. rewrite repeat_length.
      rewrite Z2Nat.id by lia. vm_compute. reflexivity. }
    split.
    { cbn [vertices thin_big thin]. rewrite repeat_length. lia. }
    split; [|exact W13]. split; [apply long64; cbn; lia|]. split; [reflexivity|]. split; [discriminate|].
    repeat constructor; cbn; lia.
  - destruct A as (A1 & A2). split.
    { inversion A1 as [|g t Ag _]; subst. inversion Ag as [|l t (B1 & B2 & B3 & B4 & B5 & B6) _]; subst.
      constructor; [|constructor]. constructor; [|constructor]. repeat (split; [assumption|]).
      inversion B6 as [|x t X1 B7]; subst. inversion B7 as [|x t X2 _]; subst.
      constructor; [exact X1|]. constructor; [exact X2|constructor]. }
    cbn [vertices thin_big thin]. apply Forall_forall. intros x Hx.
    apply repeat_spec in Hx. subst x. split; [unfold b0; lia|reflexivity].
Qed.
Lemma big_loads : exists bs, load p64 unpack_f k_static_ bs = Ok (fl thin_big).
Proof.
  destruct (export_load_raw_ok p64 k_static_ thin_big _ big_wf eq_refl eq_refl) as (bs & _ & H). exists bs.
  rewrite load_via. unfold load. specialize (H []). rewrite app_nil_r in H. rewrite H. reflexivity.
Qed.

Section Thin.
Context {F : Type} (f : Z -> F).
Notation a := (mesh_map f thin_small). Notation b := (mesh_map f thin_big).
Lemma thin_len : zlen (vertices b) = 65539.
Proof. cbn [vertices mesh_map thin_big thin]. unfold zlen. rewrite map_length, repeat_length. apply Z2Nat.id. lia. Qed.
Lemma thin_ranges : in_range 1 a /\ in_range 1 b.
Proof.
  split; [eapply in_range_check; reflexivity|].
  split; [eexists; reflexivity|]. change (mats b) with (map (mat_map f) [ex_mat 11 false 0 0 3 3; ex_mat 11 false 3 3 3 65536]).
  assert (zlen (index_list b) = 6) as EI by reflexivity.
  pose proof thin_len as EV. repeat constructor; rewrite ?EV, ?EI; cbn; lia.
Qed.
Lemma thin_closed : closed a /\ closed b.
Proof. split; apply closed_check; reflexivity. Qed.
Lemma thin_compatible : compatible a b.
Proof. split; [|reflexivity]. repeat constructor. Qed.

Definition thin_rewritten : mesh F :=
  set_geoms a [ {| lodnum := 1; lods := [lod_map f (ex_lod 11 k_static_ [ex_mat 11 false 0 0 6 4; ex_mat 11 false 1 3 3 1])] |} ].
Lemma thin_merge : merge a b = (thin_rewritten, MergeRaised EOverflow).
Proof.
  destruct thin_ranges as (R1 & R2). pose proof thin_compatible as HC.
  unfold merge. rewrite (proj2 (canMerge_true _ _) HC). unfold merge_with. rewrite merge_with_loop by now apply compatible_shape.
  change (combine (map Ok (mats b)) (mats a)) with
    [(Ok (mat_map f (ex_mat 11 false 0 0 3 3)), mat_map f (ex_mat 11 false 0 0 3 1));
     (Ok (mat_map f (ex_mat 11 false 3 3 3 65536)), mat_map f (ex_mat 11 false 1 3 3 1))].
  unfold merge_loop. cbn [fold_am]. destruct R1 as (T1 & R1), R2 as (T2 & R2).
  inversion R1 as [|? ? A1 R1']; subst. inversion R1' as [|? ? A2 _]; subst.
  inversion R2 as [|? ? B1 R2']; subst. inversion R2' as [|? ? B2 _]; subst.
  rewrite (merge_step 1 a b _ _ _ eq_refl eq_refl T1 T2 A1 B1).
  replace (fits _ _ b) with true by reflexivity.
  rewrite (merge_step 1 a b _ _ _ eq_refl eq_refl T1 T2 A2 B2).
  replace (fits _ _ b) with false by reflexivity. reflexivity.
Qed.
Lemma thin_broken : ~ in_range 1 thin_rewritten.
Proof.
  intros (_ & H). inversion H as [|? ? (_ & _ & H1 & _) _]; subst. vm_compute in H1. now apply H1.
Qed.
End Thin.

Lemma overflow_not_atomic : exists bs bs' a b m', load p64 unpack_f k_static_ bs = Ok a /\ load p64 unpack_f k_static_ bs' = Ok b /\
  in_range 1 a /\ in_range 1 b /\ closed a /\ closed b /\ compatible a b /\
  merge a b = (m', MergeRaised EOverflow) /\ ~ in_range 1 m'.
Proof.
  destruct big_loads as (bs' & H). exists (file_of thin_small), bs', (fl thin_small), (fl thin_big), (thin_rewritten unpack_f).
  split; [apply small_loads|]. split; [exact H|]. unfold fl. destruct (thin_ranges unpack_f), (thin_closed unpack_f).
  repeat (split; [assumption|]). split; [apply thin_compatible|]. split; [apply thin_merge|apply thin_broken].
Qed.
