(** Concrete meshes for the equality methods of the old class. *)
From Coq Require Import ZArith Bool Ascii String List Lia.
From Flocq Require Import IEEE754.Binary IEEE754.Bits.
From Verif Require Import PyBase Struct Mesh Arith F64 Edit Obj Spec SpecEq SpecF CodecBase CodecRaw CodecParam CodecFacts F64Facts BoundFacts EqFacts
  Witness WitnessEq Old SpecOld OldFacts WitnessOld OldEq SpecOldEq OldEqFacts.
Import ListNotations.
Open Scope Z_scope.

(** Objects for the geoms of a mesh, all rigs numbered from [n]. *)
Fixpoint number_lods {F} (sk : bool) (n : nat) (ls : list (lod F)) : list (olod F) * nat :=
  match ls with
  | [] => ([], n)
  | l :: t => let (os, k) := number_lods sk (n + length (rigs l)) t in
              ({| ol_skinned := sk; ol_lod := l; ol_rigs := seq n (length (rigs l)) |} :: os, k)
  end.
Fixpoint number_geoms {F} (sk : bool) (n : nat) (gs : list (geom F)) : list (ogeom F) * nat :=
  match gs with
  | [] => ([], n)
  | g :: t => let (ls, k) := number_lods sk n (lods g) in
              let (os, j) := number_geoms sk k t in ({| og_lodnum := lodnum g; og_lods := ls |} :: os, j)
  end.
Lemma number_lods_ok {F} sk (ls : list (lod F)) : forall n os k, number_lods sk n ls = (os, k) ->
  Forall2 (lod_object sk) ls os /\ (n <= k)%nat /\ forall i, In i (flat_map ol_rigs os) -> (n <= i < k)%nat.
Proof.
  induction ls as [|l t IH]; intros n os k H; cbn in H. { injection H as <- <-. cbn. repeat split; auto; contradiction. }
  destruct (number_lods sk (n + length (rigs l)) t) as (os', k') eqn:E. injection H as <- <-. destruct (IH _ _ _ E) as (H1 & H2 & H3).
  split; [constructor; [|exact H1]; repeat split; cbn; apply seq_length|]. split; [lia|]. intros i Hi. cbn in Hi. apply in_app_or in Hi.
  destruct Hi as [Hi|Hi]; [apply in_seq in Hi; lia|]. apply H3 in Hi. lia.
Qed.
Lemma number_geoms_ok {F} sk (gs : list (geom F)) : forall n os k, number_geoms sk n gs = (os, k) ->
  geom_objects sk gs os /\ (n <= k)%nat /\ forall i, In i (rig_objects os) -> (n <= i < k)%nat.
Proof.
  induction gs as [|g t IH]; intros n os k H; cbn in H. { injection H as <- <-. cbn. repeat split; auto; [constructor|contradiction|contradiction]. }
  destruct (number_lods sk n (lods g)) as (ls, k1) eqn:E1. destruct (number_geoms sk k1 t) as (os', k') eqn:E. injection H as <- <-.
  destruct (number_lods_ok _ _ _ _ _ E1) as (G1 & G2 & G3). destruct (IH _ _ _ E) as (H1 & H2 & H3).
  split; [constructor; [|exact H1]; split; [reflexivity|exact G1]|]. split; [lia|]. intros i Hi. unfold rig_objects in Hi. cbn in Hi. apply in_app_or in Hi.
  destruct Hi as [Hi|Hi]; [apply G3 in Hi; lia|]. apply H3 in Hi. lia.
Qed.
(** Any two meshes have objects without an object in common. *)
Lemma objects_exist {F} sk sk' (gs gs' : list (geom F)) : exists os os', geom_objects sk gs os /\ geom_objects sk' gs' os' /\ unshared os os'.
Proof.
  destruct (number_geoms sk 0 gs) as (os, k) eqn:E. destruct (number_geoms sk' k gs') as (os', k') eqn:E'.
  destruct (number_geoms_ok _ _ _ _ _ E) as (H1 & H2 & H3). destruct (number_geoms_ok _ _ _ _ _ E') as (G1 & G2 & G3).
  exists os, os'. split; [exact H1|]. split; [exact G1|]. intros i Hi Hi'. apply H3 in Hi. apply G3 in Hi'. lia.
Qed.

Lemma old_loads p k bs m : load p raw k bs = Ok m -> starts_with_material (fl m) -> old_load p unpack_f k bs = Ok (old_of (fl m)).
Proof.
  intros H S. assert (load p unpack_f k bs = Ok (fl m)) as H' by (rewrite load_via, H; reflexivity).
  destruct (old_agrees p unpack_f k _ [] _ H') as (X & _). rewrite app_nil_r in X. now apply X.
Qed.
Lemma ex_numbers v k : In (v, k) [(11, k_static_); (11, k_skinned_)] -> mesh_all number (old_of (fl (ex_mesh v k))).
Proof.
  intros H. apply mesh_all_floats. apply Forall_forall. intros x Hx. apply negb_true_iff. revert x Hx. apply forallb_forall.
  destruct H as [H|[H|[]]]; injection H as <- <-; vm_compute; reflexivity.
Qed.

(** One file loaded twice whose geoms differ: a skinned mesh. *)
Theorem skinned_differs L : exists bs m, old_load p32 unpack_f k_skinned_ bs = Ok m /\ mesh_all number m /\
  (exists a b, geom_objects true (geoms m) a /\ geom_objects true (geoms m) b /\ unshared a b) /\
  forall a b, geom_objects true (geoms m) a -> geom_objects true (geoms m) b -> unshared a b -> list_eqb (old_geom_eqb (f64 L)) a b = false.
Proof.
  exists (ex_file p32 11 k_skinned_), (old_of (fl (ex_mesh 11 k_skinned_))).
  split; [apply (old_loads p32); [exact ex_load_skinned|discriminate]|].
  assert (mesh_all number (old_of (fl (ex_mesh 11 k_skinned_)))) as N by (apply ex_numbers; right; left; reflexivity).
  split; [exact N|]. split; [apply objects_exist|]. intros a b Ha Hb D.
  destruct (list_eqb (old_geom_eqb (f64 L)) a b) eqn:E; [|reflexivity]. exfalso.
  apply (same_mesh_equal L true _ a b N Ha Hb D) in E. inversion E as [|? ? X]. discriminate X.
Qed.

(** Lods with two nodes of which only the last is looked at. *)
Definition same_nodes : mesh Z := with_lods (ex_mesh 11 k_static_) (fun g =>
  {| lodnum := lodnum g; lods := map (fun l =>
    {| lod_min := lod_min l; lod_max := lod_max l; pivot := pivot l; rignum := rignum l; rigs := rigs l;
       nodenum := 2; nodes := [two4; two4]; matnum := matnum l; materials := materials l |}) (lods g) |}).
Lemma same_nodes_load : load p64 raw k_static_ (saved same_nodes) = Ok same_nodes.
Proof. vm_compute. reflexivity. Qed.
Lemma same_nodes_old : old_of same_nodes = old_of two_nodes.
Proof. vm_compute. reflexivity. Qed.
Lemma old_of_fl m : old_of (fl m) = fl (old_of m).
Proof.
  unfold fl, mesh_map, old_of, on_lods. cbn. f_equal. rewrite !map_map. apply map_ext. intros g. unfold geom_map. cbn. f_equal. rewrite !map_map. apply map_ext. intros l.
  unfold lod_map, with_nodes. cbn. f_equal. destruct (nodes l) as [|x t]; [reflexivity|]. cbn. f_equal. revert x. induction t as [|y t IH]; intros x; [reflexivity|].
  cbn [map]. rewrite !last_cons. apply IH.
Qed.
Definition differ (L : libm) (m m' : mesh binary64) : bool :=
  match lods_of m, lods_of m' with
  | l :: _, l' :: _ => match lod_eq (f64 L) l l' with Ok false => true | _ => false end
  | _, _ => false
  end.
Theorem nodes_missed L : exists bs bs' m m', load p64 unpack_f k_static_ bs = Ok m /\ load p64 unpack_f k_static_ bs' = Ok m' /\
  (exists l l', hd_error (lods_of m) = Some l /\ hd_error (lods_of m') = Some l' /\ lod_eq (f64 L) l l' = Ok false) /\
  exists mo mo', old_load p64 unpack_f k_static_ bs = Ok mo /\ old_load p64 unpack_f k_static_ bs' = Ok mo' /\
  forall a b, geom_objects false (geoms mo) a -> geom_objects false (geoms mo') b -> unshared a b -> list_eqb (old_geom_eqb (f64 L)) a b = true.
Proof.
  exists two_nodes_file, (saved same_nodes), (fl two_nodes), (fl same_nodes).
  split; [apply load_fl, two_nodes_load|]. split; [apply load_fl, same_nodes_load|]. split.
  { assert (differ L (fl two_nodes) (fl same_nodes) = true) as D by (vm_compute; reflexivity). unfold differ in D.
    destruct (lods_of (fl two_nodes)) as [|l t]; [discriminate|]. destruct (lods_of (fl same_nodes)) as [|l' t']; [discriminate|].
    exists l, l'. split; [reflexivity|]. split; [reflexivity|]. destruct (lod_eq (f64 L) l l') as [[|]|]; try discriminate. reflexivity. }
  exists (old_of (fl two_nodes)), (old_of (fl same_nodes)).
  split; [apply (old_loads p64); [exact two_nodes_load|discriminate]|]. split; [apply (old_loads p64); [exact same_nodes_load|discriminate]|].
  intros a b Ha Hb D. rewrite old_of_fl, same_nodes_old in Hb. rewrite old_of_fl in Ha.
  apply (same_mesh_equal L false (fl (old_of two_nodes)) a b); [|exact Ha|exact Hb|exact D|].
  - apply mesh_all_floats. apply Forall_forall. intros x Hx. apply negb_true_iff. revert x Hx. apply forallb_forall. vm_compute. reflexivity.
  - repeat constructor.
Qed.

(** The largest corner of a material, which the new class leaves out. *)
Theorem mmax_seen L : exists bs bs' m m', load p64 unpack_f k_static_ bs = Ok m /\ load p64 unpack_f k_static_ bs' = Ok m' /\ parts_equal L m m' /\
  exists mo mo', old_load p64 unpack_f k_static_ bs = Ok mo /\ old_load p64 unpack_f k_static_ bs' = Ok mo' /\
  forall a b, geom_objects false (geoms mo) a -> geom_objects false (geoms mo') b -> unshared a b -> list_eqb (old_geom_eqb (f64 L)) a b = false.
Proof.
  exists (ex_file p64 11 k_static_), (saved big_mesh), (fl (ex_mesh 11 k_static_)), (fl big_mesh).
  split; [apply ex_load_fl, ex_load_static|]. split; [apply fl_loads, big_loads|]. split; [apply parts; vm_compute; reflexivity|].
  exists (old_of (fl (ex_mesh 11 k_static_))), (old_of (fl big_mesh)).
  split; [apply (old_loads p64); [exact ex_load_static|discriminate]|]. split; [apply (old_loads p64); [exact big_loads|discriminate]|].
  intros a b Ha Hb D. destruct (list_eqb (old_geom_eqb (f64 L)) a b) eqn:E; [|reflexivity]. exfalso.
  apply (unshared_equal (f64 L) false _ _ a b Ha Hb D) in E. destruct E as (E & _).
  inversion E as [|? ? ? ? (_ & X) _]. inversion X as [|? ? ? ? (_ & _ & _ & _ & _ & _ & Y) _]. inversion Y as [|? ? ? ? (_ & Z) _].
  clear -Z. revert Z. match goal with |- opt_alike _ ?u ?v -> False => assert (vec3_opt_eqb (f64 L) u v = false) as V by (vm_compute; reflexivity) end.
  intros Z. apply (vec3_opt_iff (f64 L)) in Z. congruence.
Qed.
Lemma ex_one_node : exists l : lod binary64, In l (lods_of (fl (ex_mesh 11 k_static_))) /\ wf_lod p64 11 false false l /\ length (nodes l) = 1%nat /\
  materials l <> [] /\ lod_all number l.
Proof.
  destruct ex_good_lod as (g & l & Hg & Hl & W & N & M & _). exists l. split; [apply in_flat_map; eauto|]. split; [exact W|]. split; [|split; assumption].
  destruct Hg as [<-|[<-|[]]]; destruct Hl as [<-|[]]; reflexivity.
Qed.
