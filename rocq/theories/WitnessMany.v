(** Concrete meshes merged into one. *)
From Coq Require Import ZArith List Bool Ascii String Lia Permutation.
From Verif Require Import PyBase Struct Mesh Edit Obj Spec CodecBase CodecRaw CodecParam
  SpecEdit SpecMany LayoutFacts MergeFacts ManyFacts Witness WitnessEdit WitnessMerge.
Import ListNotations.
Open Scope Z_scope.

(** Many vertices of which the triangles use few, and fewer vertices all in use. *)
Definition thin_spare : mesh Z := thin (ex_mat 11 false 0 0 3 3) (ex_mat 11 false 3 3 3 40000) 40003 [0;1;2; 0;0;1].
Definition thin_used : mesh Z := thin (ex_mat 11 false 0 0 3 3) (ex_mat 11 false 3 3 3 30000) 30003 [0;1;2; 29999;0;1].

Section Order.
Context {F : Type} (f : Z -> F).
Notation a := (mesh_map f thin_small). Notation b := (mesh_map f thin_spare). Notation c := (mesh_map f thin_used).
Lemma spare_in_range : in_range 1 b.
Proof.
  assert (zlen (vertices b) = 40003) as EV.
  { cbn [vertices mesh_map thin_spare thin]. unfold zlen. rewrite map_length, repeat_length. apply Z2Nat.id. lia. }
  split; [eexists; reflexivity|]. change (mats b) with (map (mat_map f) [ex_mat 11 false 0 0 3 3; ex_mat 11 false 3 3 3 40000]).
  assert (zlen (index_list b) = 6) as EI by reflexivity.
  repeat constructor; rewrite ?EV, ?EI; cbn; lia.
Qed.
Lemma used_in_range : in_range 1 c.
Proof.
  assert (zlen (vertices c) = 30003) as EV.
  { cbn [vertices mesh_map thin_used thin]. unfold zlen. rewrite map_length, repeat_length. apply Z2Nat.id. lia. }
  split; [eexists; reflexivity|]. change (mats c) with (map (mat_map f) [ex_mat 11 false 0 0 3 3; ex_mat 11 false 3 3 3 30000]).
  assert (zlen (index_list c) = 6) as EI by reflexivity.
  repeat constructor; rewrite ?EV, ?EI; cbn; lia.
Qed.
Lemma pair_facts : vertex_size a = Ok 1 /\ in_range 1 a /\ Forall (in_range 1) [b; c] /\ Forall (compatible a) [b; c] /\ closed a /\ Forall closed [b; c].
Proof.
  split; [reflexivity|]. split; [apply (thin_ranges f)|].
  split; [constructor; [apply spare_in_range|constructor; [apply used_in_range|constructor]]|].
  split; [constructor; [|constructor; [|constructor]]; split; try reflexivity; repeat constructor|].
  split; [apply (thin_closed f)|]. constructor; [|constructor; [|constructor]]; apply closed_check; reflexivity.
Qed.
Lemma spare_first : exists m, merge_each a [b; c] = (m, Some EOverflow).
Proof.
  destruct pair_facts as (E & Ra & R & C & _). apply (each_fits 1 [b; c] a E Ra R C).
  exists [b], c, [], 1%nat, (mat_map f (ex_mat 11 false 1 3 3 1)), [mat_map f (ex_mat 11 false 3 3 3 40000)],
    (mat_map f (ex_mat 11 false 3 3 3 30000)), 29999.
  split; [reflexivity|]. split; [reflexivity|]. split; [constructor; [reflexivity|constructor]|]. split; [reflexivity|].
  split; [left; reflexivity|]. reflexivity.
Qed.
Lemma used_first : exists m, merge_each a [c; b] = (m, None).
Proof.
  destruct pair_facts as (E & Ra & R & C & _).
  apply (each_fits 1 [c; b] a E Ra).
  - apply Forall_forall. rewrite Forall_forall in R. intros x [<- | [<- | []]]; apply R; cbn [In]; auto.
  - apply Forall_forall. rewrite Forall_forall in C. intros x [<- | [<- | []]]; apply C; cbn [In]; auto.
  - intros (before & d & after & k & x & ys & y & i & E1 & Hx & Hy & Hd & Hi & O).
    assert (forall e (mt : mat F), In mt (mats b) -> e = b -> In i (mat_indices e mt) -> i <= 2) as Bb.
    { intros e mt [<- | [<- | []]] -> Hin; vm_compute in Hin; intuition lia. }
    assert (forall e (mt : mat F), In mt (mats c) -> e = c -> In i (mat_indices e mt) -> i <= 29999) as Bc.
    { intros e mt [<- | [<- | []]] -> Hin; vm_compute in Hin; intuition lia. }
    assert (vnum x = 1) as Vx.
    { apply nth_error_In in Hx. destruct Hx as [<- | [<- | []]]; reflexivity. }
    destruct before as [|c1 [|c2 [|c3 before]]]; try discriminate.
    + injection E1 as <- <-. apply kth_nil in Hy. subst ys. cbn [sumZ] in O. apply nth_error_In in Hd. specialize (Bc _ _ Hd eq_refl Hi). lia.
    + injection E1 as <- <- <-. apply kth_cons in Hy. destruct Hy as (y0 & t & -> & Hy & Ht). apply kth_nil in Ht. subst t. cbn [sumZ] in O.
      apply nth_error_In in Hd. specialize (Bb _ _ Hd eq_refl Hi).
      assert (vnum y0 <= 30000) by (apply nth_error_In in Hy; destruct Hy as [<- | [<- | []]]; cbn; lia). lia.
Qed.
End Order.

(** Success depends on the order. *)
Lemma order_refuted : ~ (forall F vs (a : mesh F) bs bs' r, vertex_size a = Ok (Z.of_nat vs) -> in_range vs a -> Forall (in_range vs) bs ->
  Forall (compatible a) bs -> closed a -> Forall closed bs -> Permutation bs bs' -> merge_each a bs = (r, None) ->
  exists r', merge_each a bs' = (r', None)).
Proof.
  intros H. destruct (pair_facts (fun z => z)) as (E & Ra & R & C & Ca & Cl). destruct (used_first (fun z => z)) as (m & E1).
  destruct (spare_first (fun z => z)) as (m' & E2).
  assert (forall P : mesh Z -> Prop, Forall P [mesh_map (fun z => z) thin_spare; mesh_map (fun z => z) thin_used] ->
    Forall P [mesh_map (fun z => z) thin_used; mesh_map (fun z => z) thin_spare]) as T.
  { intros P HP. rewrite Forall_forall in *. intros x [<- | [<- | []]]; apply HP; cbn [In]; auto. }
  destruct (H Z 1%nat _ _ [mesh_map (fun z => z) thin_spare; mesh_map (fun z => z) thin_used] m E Ra (T _ R) (T _ C) Ca (T _ Cl) (perm_swap _ _ _) E1) as (r' & E3).
  rewrite E2 in E3. discriminate.
Qed.

(** Three meshes that fit. *)
Lemma three_merged {F} (f g h : Z -> F) : exists r, merge_each (exm f) [exm g; exm h] = (r, None) /\
  vertex_size (exm f) = Ok (Z.of_nat 7) /\ in_range 7 (exm f) /\ Forall (in_range 7) [exm g; exm h] /\
  Forall (compatible (exm f)) [exm g; exm h] /\ closed (exm f) /\ Forall closed [exm g; exm h].
Proof.
  eexists. split; [vm_compute; reflexivity|]. split; [reflexivity|]. split; [apply ex_in_range|].
  split; [repeat (constructor; [apply ex_in_range|]); constructor|].
  split; [repeat (constructor; [apply canMerge_true; reflexivity|]); constructor|].
  split; [apply ex_closed|]. repeat (constructor; [apply ex_closed|]); constructor.
Qed.
Lemma passed_over : exists b, canMerge (exm (fun z => z)) b = Ok false.
Proof. exists (mesh_map (fun z => z) (wide_mesh 3 4)). reflexivity. Qed.
