(** Concrete meshes for the old mesh class. *)
From Coq Require Import ZArith Bool Ascii String List Lia.
From Flocq Require Import IEEE754.Binary IEEE754.Bits.
From Verif Require Import PyBase Struct Mesh Arith F64 Edit Obj Spec SpecF CodecBase CodecRaw CodecParam CodecFacts F64Facts
  SpecObj WitnessObj Witness Old SpecOld OldFacts.
Import ListNotations.
Open Scope Z_scope.

Definition with_lods (m : mesh Z) (g : geom Z -> geom Z) : mesh Z :=
  {| m_kind := m_kind m; m_head := m_head m; m_u1 := m_u1 m; geomnum := geomnum m;
     geoms := map g (geoms m); vertattribnum := vertattribnum m; vertex_attributes := vertex_attributes m;
     vertformat := vertformat m; vertstride := vertstride m; vertnum := vertnum m;
     vertices := vertices m; indexnum := indexnum m; index := index m; m_u2 := m_u2 m |}.
Definition two4 : matrix4 Z := [[b2; b0; b0; b0]; [b0; b2; b0; b0]; [b0; b0; b2; b0]; [b0; b0; b0; b2]].

(** Lods with two different nodes. *)
Definition two_nodes : mesh Z := with_lods (ex_mesh 11 k_static_) (fun g =>
  {| lodnum := lodnum g; lods := map (fun l =>
    {| lod_min := lod_min l; lod_max := lod_max l; pivot := pivot l; rignum := rignum l; rigs := rigs l;
       nodenum := 2; nodes := [one4; two4]; matnum := matnum l; materials := materials l |}) (lods g) |}).
Definition two_nodes_file : bytes := fst (export p64 raw two_nodes).
Lemma two_nodes_load : load p64 raw k_static_ two_nodes_file = Ok two_nodes.
Proof. vm_compute. reflexivity. Qed.

(** Lods without materials. *)
Definition no_mats : mesh Z := with_lods (ex_mesh 11 k_static_) (fun g =>
  {| lodnum := lodnum g; lods := map (fun l =>
    {| lod_min := lod_min l; lod_max := lod_max l; pivot := pivot l; rignum := rignum l; rigs := rigs l;
       nodenum := nodenum l; nodes := nodes l; matnum := 0; materials := [] |}) (lods g) |}).
Definition no_mats_file : bytes := fst (export p64 raw no_mats).
Lemma no_mats_load : load p64 raw k_static_ no_mats_file = Ok no_mats.
Proof. vm_compute. reflexivity. Qed.

Lemma load_fl k bs m : load p64 raw k bs = Ok m -> load p64 unpack_f k bs = Ok (fl m).
Proof. intros H. rewrite load_via, H. reflexivity. Qed.

(** A file that bf2mesh reads and the old class does not. *)
Lemma old_fails : exists bs m, load p64 unpack_f k_static_ bs = Ok m /\ old_load p64 unpack_f k_static_ bs = Raise EUnboundLocal.
Proof.
  exists no_mats_file. eexists. split; [apply load_fl, no_mats_load|].
  destruct (old_agrees p64 unpack_f _ _ [] _ (load_fl _ _ _ no_mats_load)) as (_ & H). rewrite app_nil_r in H. apply H.
  intros X. apply X. reflexivity.
Qed.
(** A file that the old class reads and saves as a different mesh. *)
Lemma b1_neq_b2 : unpack_f b1 <> unpack_f b2.
Proof.
  intros X. apply (f_equal pack_f) in X. rewrite !pack_unpack in X; [discriminate X| | | |].
  all: unfold is_bits32, snan, b1, b2; cbn; lia.
Qed.
Lemma old_damages : exists bs m cs m', load p64 unpack_f k_static_ bs = Ok m /\ starts_with_material m /\
  old_save p64 pack_f (old_of m) = (cs, None) /\ cs <> bs /\ load p64 unpack_f k_static_ cs = Ok m' /\
  map nodes (lods_of m') <> map nodes (lods_of m).
Proof.
  pose proof (load_fl _ _ _ two_nodes_load) as H. destruct (old_resave p64 _ _ _ H) as (cs & S & _ & L).
  assert (map nodes (lods_of (nodes_flattened (fl two_nodes))) <> map nodes (lods_of (fl two_nodes))) as D.
  { intros X. apply b1_neq_b2. symmetry.
    apply (f_equal (fun l => hd (unpack_f b1) (hd [] (hd [] (hd [] l))))) in X. exact X. }
  exists two_nodes_file, (fl two_nodes), cs, (nodes_flattened (fl two_nodes)).
  split; [exact H|]. split; [discriminate|]. split; [exact S|]. split; [|split; [exact L|exact D]].
  intros ->. rewrite L in H. assert (nodes_flattened (fl two_nodes) = fl two_nodes) as E by congruence. apply D. now rewrite E.
Qed.
Lemma ex_starts v k : starts_with_material (fl (ex_mesh v k)).
Proof. discriminate. Qed.
Lemma ex_alike_map {F} (f : Z -> F) v k : nodes_alike (mesh_map f (ex_mesh v k)).
Proof.
  assert (forall ms a b, In a (nodes (lod_map f (ex_lod v k ms))) -> In b (nodes (lod_map f (ex_lod v k ms))) -> a = b) as H.
  { intros ms a b. unfold ex_lod, lod_map. cbn [nodes]. destruct (isSkinnedMesh k || isBundledMesh k); cbn [map In]; [tauto|].
    intros [<-|[]] [<-|[]]. reflexivity. }
  constructor; [apply H|]. constructor; [apply H|constructor].
Qed.
Lemma ex_alike v k : nodes_alike (fl (ex_mesh v k)).
Proof. apply ex_alike_map. Qed.
