(** Witnesses for the equality methods. *)
From Coq Require Import ZArith List Bool Ascii String Lia.
From Flocq Require Import IEEE754.Binary IEEE754.Bits.
From Verif Require Import PyBase Struct Mesh Arith F64 Edit Spec SpecEq CodecBase CodecRaw CodecParam CodecFacts BoundFacts EqFacts Witness.
Import ListNotations.
Open Scope Z_scope.

Definition map_mats {F} (f : mat F -> mat F) (m : mesh F) : mesh F :=
  set_geoms m (map (fun g => set_lods g (map (fun l => set_materials l (map f (materials l))) (lods g))) (geoms m)).
Definition set_mmin {F} (v : vec3 F) (m : mat F) : mat F :=
  {| alphamode := alphamode m; fxfile := fxfile m; technique := technique m; mapnum := mapnum m; maps := maps m;
     vstart := vstart m; istart := istart m; inum := inum m; vnum := vnum m; mat_u4 := mat_u4 m; mat_u5 := mat_u5 m;
     mmin := Some v; mmax := mmax m |}.
Definition set_mmax {F} (v : vec3 F) (m : mat F) : mat F :=
  {| alphamode := alphamode m; fxfile := fxfile m; technique := technique m; mapnum := mapnum m; maps := maps m;
     vstart := vstart m; istart := istart m; inum := inum m; vnum := vnum m; mat_u4 := mat_u4 m; mat_u5 := mat_u5 m;
     mmin := mmin m; mmax := Some v |}.
Definition big_mesh : mesh Z := map_mats (set_mmax (b3, b3, b3)) (ex_mesh 11 k_static_).
Definition bneg0 : Z := 2147483648.     (* -0.0 *)
Definition bnan : Z := 2143289344.      (* quiet NaN *)
Definition neg_mesh : mesh Z := map_mats (set_mmin (bneg0, b0, b0)) (ex_mesh 11 k_static_).
Definition nan_mesh : mesh Z := map_mats (set_mmin (bnan, b0, b0)) (ex_mesh 11 k_static_).
Definition saved (m : mesh Z) : bytes := fst (export p64 raw m).
Lemma big_loads : load p64 raw k_static_ (saved big_mesh) = Ok big_mesh. Proof. vm_compute. reflexivity. Qed.
Lemma neg_loads : load p64 raw k_static_ (saved neg_mesh) = Ok neg_mesh. Proof. vm_compute. reflexivity. Qed.
Lemma nan_loads : load p64 raw k_static_ (saved nan_mesh) = Ok nan_mesh. Proof. vm_compute. reflexivity. Qed.
Lemma fl_loads m : load p64 raw k_static_ (saved m) = Ok m -> load p64 unpack_f k_static_ (saved m) = Ok (fl m).
Proof. intros H. now rewrite load_via, H. Qed.

(** All parts compare equal. *)
Definition parts_equal (L : libm) (a b : mesh binary64) : Prop :=
  head_eqb (m_head a) (m_head b) = true /\ Forall2 (fun x y => vertattrib_eqb x y = true) (vertex_attributes a) (vertex_attributes b) /\
  Forall2 (fun g h => geom_eqb g h = true /\ Forall2 (fun l k => lod_eq (f64 L) l k = Ok true) (lods g) (lods h)) (geoms a) (geoms b) /\
  vertices a = vertices b /\ index a = index b.
Lemma parts L m : match geoms (fl m) with
  | [g1; g2] => match lods g1, lods g2, geoms (fl (ex_mesh 11 k_static_)) with
    | [l1], [l2], [h1; h2] => match lods h1, lods h2 with
       | [k1], [k2] => geom_eqb h1 g1 && geom_eqb h2 g2 &&
          match lod_eq (f64 L) k1 l1, lod_eq (f64 L) k2 l2 with Ok true, Ok true => true | _, _ => false end
       | _, _ => false end
    | _, _, _ => false end
  | _ => false end = true -> m_head m = ex_head 11 -> vertex_attributes m = ex_attribs -> vertices m = ex_verts -> index m = index (ex_mesh 11 k_static_) ->
  parts_equal L (fl (ex_mesh 11 k_static_)) (fl m).
Proof.
  intros H E1 E2 E3 E4. split. { apply head_eqb_eq. symmetry. exact E1. }
  split. { change (vertex_attributes (fl m)) with (vertex_attributes m). rewrite E2. vm_compute. repeat constructor. }
  split; [|split; [cbn [fl mesh_map vertices]; now rewrite E3|symmetry; exact E4]].
  destruct (geoms (fl m)) as [|g1 [|g2 [|]]]; try discriminate. destruct (lods g1) as [|l1 [|]] eqn:G1; try discriminate.
  destruct (lods g2) as [|l2 [|]] eqn:G2; try discriminate. destruct (geoms (fl (ex_mesh 11 k_static_))) as [|h1 [|h2 [|]]]; try discriminate.
  destruct (lods h1) as [|k1 [|]] eqn:H1; try discriminate. destruct (lods h2) as [|k2 [|]] eqn:H2; try discriminate.
  apply andb_true_iff in H. destruct H as (H & H3). apply andb_true_iff in H. destruct H as (X1 & X2).
  destruct (lod_eq (f64 L) k1 l1) as [[|]|] eqn:Y1; try discriminate. destruct (lod_eq (f64 L) k2 l2) as [[|]|] eqn:Y2; try discriminate.
  constructor; [|constructor; [|constructor]]; (split; [assumption|]); rewrite ?G1, ?G2, ?H1, ?H2; repeat constructor; assumption.
Qed.
Theorem mmax_ignored L : exists bs1 bs2 m1 m2, load p64 unpack_f k_static_ bs1 = Ok m1 /\ load p64 unpack_f k_static_ bs2 = Ok m2 /\
  bs1 <> bs2 /\ parts_equal L m1 m2.
Proof.
  exists (ex_file p64 11 k_static_), (saved big_mesh), (fl (ex_mesh 11 k_static_)), (fl big_mesh). split; [apply ex_load_fl, ex_load_static|].
  split; [apply fl_loads, big_loads|]. split. { intros H. vm_compute in H. discriminate. } apply parts; vm_compute; reflexivity.
Qed.
Theorem zero_sign_ignored L : exists bs1 bs2 m1 m2, load p64 unpack_f k_static_ bs1 = Ok m1 /\ load p64 unpack_f k_static_ bs2 = Ok m2 /\
  bs1 <> bs2 /\ parts_equal L m1 m2 /\ map mmax (List.concat (map (fun g => List.concat (map materials (lods g))) (geoms m1))) =
    map mmax (List.concat (map (fun g => List.concat (map materials (lods g))) (geoms m2))).
Proof.
  exists (ex_file p64 11 k_static_), (saved neg_mesh), (fl (ex_mesh 11 k_static_)), (fl neg_mesh). split; [apply ex_load_fl, ex_load_static|].
  split; [apply fl_loads, neg_loads|]. split. { intros H. vm_compute in H. discriminate. } split; [|reflexivity]. apply parts; vm_compute; reflexivity.
Qed.
(** Two copies of one file with a NaN among its bounds. *)
Theorem nan_compare L : exists bs m g l mt, load p64 unpack_f k_static_ bs = Ok m /\ In g (geoms m) /\ In l (lods g) /\ In mt (materials l) /\
  mat_eq (f64 L) mt mt = Raise EValue /\ lod_eq (f64 L) l l = Raise EValue.
Proof.
  exists (saved nan_mesh), (fl nan_mesh). eexists. eexists. eexists. split; [apply fl_loads, nan_loads|]. split; [left; reflexivity|]. split; [left; reflexivity|].
  split; [left; reflexivity|]. split; vm_compute; reflexivity.
Qed.
Lemma ex_good_lod : exists g l, In g (geoms (fl (ex_mesh 11 k_static_))) /\ In l (lods g) /\ wf_lod p64 11 false false l /\ lod_all number l /\
  materials l <> [] /\ Forall (fun m => opt_all (vec3_all (fun x => is_finite 53 1024 x = true)) (mmin m)) (materials l).
Proof.
  pose proof (loaded_wf p64 _ _ _ _ (ex_load_fl _ _ _ ex_load_static)) as ((_ & _ & _ & W & _) & _).
  assert (mesh_all number (fl (ex_mesh 11 k_static_))) as (N & _).
  { apply mesh_all_floats. apply Forall_forall. intros x Hx. apply negb_true_iff. revert x Hx. apply forallb_forall. vm_compute. reflexivity. }
  eexists. eexists. split; [left; reflexivity|]. split; [left; reflexivity|]. split.
  { rewrite Forall_forall in W. specialize (W _ (or_introl eq_refl)). destruct W as (_ & W). rewrite Forall_forall in W. exact (W _ (or_introl eq_refl)). }
  split; [|split; [discriminate|]].
  - rewrite Forall_forall in N. specialize (N _ (or_introl eq_refl)). rewrite Forall_forall in N. exact (N _ (or_introl eq_refl)).
  - repeat constructor.
Qed.
Lemma ex_pivots : exists a b : lod binary64, wf_lod p64 6 true false a /\ wf_lod p64 11 false false b /\ (6 <=? 6) <> (11 <=? 6) /\
  lod_min a = lod_min b /\ lod_max a = lod_max b.
Proof.
  pose proof (loaded_wf p64 _ _ _ _ (ex_load_fl _ _ _ ex_load_static)) as ((_ & _ & _ & W & _) & _).
  pose proof (loaded_wf p64 _ _ _ _ (ex_load_fl _ _ _ ex_load_bundled)) as ((_ & _ & _ & V & _) & _).
  rewrite Forall_forall in W, V. specialize (W _ (or_introl eq_refl)). specialize (V _ (or_introl eq_refl)).
  destruct W as (_ & W), V as (_ & V). rewrite Forall_forall in W, V. specialize (W _ (or_introl eq_refl)). specialize (V _ (or_introl eq_refl)).
  eexists. eexists. split; [exact V|]. split; [exact W|]. split; [discriminate|]. split; reflexivity.
Qed.
