(** Concrete meshes for the bounds properties. *)
From Coq Require Import ZArith List Bool Ascii String Lia Reals Lra.
From Flocq Require Import IEEE754.Binary IEEE754.Bits.
From Verif Require Import PyBase Struct Mesh Arith F64 Edit Obj Spec CodecBase CodecRaw CodecParam
  CodecFacts F64Facts SpecEdit TravFacts VertFacts MergeFacts RArith BoundFacts CenterFacts RecentreFacts Witness WitnessEdit WitnessMerge SpecBounds.
Import ListNotations.
Open Scope Z_scope.

Lemma ex_bounded {F} (f : Z -> F) : bounded_kind (exm f).
Proof. split; reflexivity. Qed.
Lemma ex_vin {F} (f : Z -> F) : Forall (mat_vin 7 (exm f)) (mats (exm f)).
Proof. apply tiled_vin, ex_tiled. Qed.
Lemma ex_bounding {F} (f : Z -> F) : exists a, bounding_attrib (exm f) = Some a /\ (vartype a = 2 \/ vartype a = 3) /\
  (attrib_start (exm f) a + 3 <= 7)%nat.
Proof. eexists. split; [reflexivity|]. cbn. lia. Qed.
Lemma ex_updates {F} (A : arith F) (f : Z -> F) : exists m', update_boundaries A (exm f) = (m', None).
Proof.
  destruct (ex_bounding f) as (a & H1 & H2 & H3). apply (update_total A 7 (exm f) a (ex_size f) (ex_short f) (ex_vin f)); auto.
  change (vertex_attributes (exm f)) with ex_attribs. eapply Forall_impl; [|exact ex_known]. auto.
Qed.
Lemma ex_finite : Forall (fun mt => Forall (good3 fin) (positions 7 (exm unpack_f) mt)) (mats (exm unpack_f)).
Proof.
  assert (forallb (fun mt => forallb (fun q => forallb (fun i => is_finite 53 1024 (axis i q)) axes) (positions 7 (exm unpack_f) mt)) (mats (exm unpack_f)) = true) as H by (vm_compute; reflexivity).
  rewrite forallb_forall in H. apply Forall_forall. intros mt Hm. specialize (H mt Hm). rewrite forallb_forall in H.
  apply Forall_forall. intros q Hq. specialize (H q Hq). rewrite forallb_forall in H. exact H.
Qed.
Lemma ex_numbers : Forall (fun mt => Forall (good3 number) (positions 7 (exm unpack_f) mt)) (mats (exm unpack_f)).
Proof.
  eapply Forall_impl; [|exact ex_finite]. intros mt H. eapply Forall_impl; [|exact H]. intros q G i Hi. specialize (G i Hi).
  unfold fin, number in *. now destruct (axis i q).
Qed.
Lemma ex_lod_at {F} (f : Z -> F) : lod_at (exm f) 1 (-1) (lod_map f (ex_lod 11 k_static_ [ex_mat 11 false 3 3 3 3])).
Proof. exists 1%nat, 0%nat, (geom_map f {| lodnum := 1; lods := [ex_lod 11 k_static_ [ex_mat 11 false 3 3 3 3]] |}). cbn. repeat split; lia. Qed.

Definition fle_b (x y : binary64) : bool := b64_lt x y || b64_eq x y.
Lemma fle_b_spec L x y : fle (f64 L) x y -> fle_b x y = true.
Proof. unfold fle, fle_b. cbn. intros [->| ->]; [reflexivity|apply orb_true_r]. Qed.

(** A skinned mesh: the bounds do not contain the vertices. *)
Definition skm : mesh binary64 := fl (ex_mesh 11 k_skinned_).
Lemma skinned_unbounded L : exists bs m m' l lo hi q, load p32 unpack_f k_skinned_ bs = Ok m /\
  update_boundaries (f64 L) m = (m', None) /\ lod_at m' 1 0 l /\ lod_min l = Some lo /\ lod_max l = Some hi /\
  In q (lod_positions 7 m' l) /\ ~ between (f64 L) lo q hi.
Proof.
  destruct (update_erased_total (f64 L) 7 skm) as (m' & HU).
  { intros (H & _). discriminate. }
  { reflexivity. }
  { split; [reflexivity|]. change (vertex_attributes skm) with ex_attribs. unfold ex_attribs. repeat constructor; cbn; lia. }
  { change (vertex_attributes skm) with ex_attribs. eapply Forall_impl; [|exact ex_known]. auto. }
  assert (~ bounded_kind skm) as NK by (intros (H & _); discriminate).
  rewrite (update_erases _ _ _ NK HU) in HU.
  exists (ex_file p32 11 k_skinned_), skm. eexists. eexists. exists (origin (f64 L)), (origin (f64 L)). exists (unpack_f b2, unpack_f b0, unpack_f b0).
  split; [apply (ex_load_fl p32 11 k_skinned_ ex_load_skinned)|]. split; [exact HU|].
  split; [exists 1%nat, 0%nat; eexists; split; [split; [cbn; lia|now left]|]; split; [reflexivity|]; split; [split; [cbn; lia|now left]|reflexivity]|].
  split; [reflexivity|]. split; [reflexivity|]. split; [left; reflexivity|].
  intros H. destruct (H 0%nat (or_introl eq_refl)) as (_ & H2). apply fle_b_spec in H2. vm_compute in H2. discriminate.
Qed.

(** A mesh away from the origin. *)
Definition far_verts : list Z :=
  [ b2; b0; b0; b0; b1; b0; b0;   b3; b0; b0; b0; b1; b0; b0;   b2; b0; b1; b0; b1; b0; b0;
    b2; b0; b0; b0; b1; b0; b0;   b3; b0; b0; b0; b1; b0; b0;   b2; b0; b1; b0; b1; b0; b0 ].
Definition far_mesh : mesh Z := set_vertices (ex_mesh 11 k_static_) far_verts.
Lemma far_loads : load p64 unpack_f k_static_ (file_of far_mesh) = Ok (fl far_mesh).
Proof. rewrite load_via. replace (load p64 raw k_static_ (file_of far_mesh)) with (Ok far_mesh) by (vm_compute; reflexivity). reflexivity. Qed.
Definition lod0 (m : mesh binary64) : option (lod binary64) :=
  match geoms m with g :: _ => match lods g with l :: _ => Some l | _ => None end | _ => None end.
Lemma lod0_at m l : lod0 m = Some l -> lod_at m 0 0 l.
Proof.
  unfold lod0, lod_at. destruct (geoms m) as [|g t]; [discriminate|]. destruct (lods g) as [|l0 t0] eqn:E; [discriminate|].
  intros H. injection H as ->. exists 0%nat, 0%nat, g. rewrite E. cbn. repeat split; lia.
Qed.
Lemma far_not_tight L : exists bs m m' l lo hi, load p64 unpack_f k_static_ bs = Ok m /\
  update_boundaries (f64 L) m = (m', None) /\ lod_at m' 0 0 l /\ lod_min l = Some lo /\ lod_max l = Some hi /\
  lod_positions 7 m' l <> [] /\ forall q, In q (lod_positions 7 m' l) -> f_lt (f64 L) (axis 0 lo) (axis 0 q) = true.
Proof.
  exists (file_of far_mesh), (fl far_mesh), (fst (update_boundaries (f64 L) (fl far_mesh))).
  assert (match lod0 (fst (update_boundaries (f64 L) (fl far_mesh))) with
    | Some l => match lod_min l, lod_max l with Some lo, Some hi =>
        negb (Nat.eqb (List.length (lod_positions 7 (fst (update_boundaries (f64 L) (fl far_mesh))) l)) 0) &&
        forallb (fun q => b64_lt (axis 0 lo) (axis 0 q)) (lod_positions 7 (fst (update_boundaries (f64 L) (fl far_mesh))) l)
      | _, _ => false end | None => false end = true) as K by (vm_compute; reflexivity).
  destruct (lod0 (fst (update_boundaries (f64 L) (fl far_mesh)))) as [l|] eqn:E; [|discriminate]. destruct (lod_min l) as [lo|] eqn:E1; [|discriminate]. destruct (lod_max l) as [hi|] eqn:E2; [|discriminate].
  apply andb_true_iff in K. destruct K as (K1 & K2).
  exists l, lo, hi. split; [apply far_loads|]. split; [apply ok_pair; vm_compute; reflexivity|]. split; [now apply lod0_at|].
  split; [exact E1|]. split; [exact E2|]. split; [intros H; rewrite H in K1; discriminate|]. now apply forallb_forall.
Qed.

(** Moving the mesh by minus the centre of its lod does not centre it. *)
Definition neg3 (c : vec3 binary64) : list binary64 :=
  let '(x, y, z) := c in [b64_opp x; b64_opp y; b64_opp z].
Lemma res_pair {B C} (p : B * res C) (d : C) : (match snd p with Ok _ => true | _ => false end) = true ->
  p = (fst p, Ok (match snd p with Ok c => c | Raise _ => d end)).
Proof. destruct p as (b, [c|e]); easy. Qed.
Definition d3 : vec3 binary64 := (unpack_f 0, unpack_f 0, unpack_f 0).
Definition center_of (p : mesh binary64 * res (vec3 binary64)) : vec3 binary64 := match snd p with Ok c => c | Raise _ => d3 end.
Lemma not_recentred L : exists bs m m1 c m2 m3 c', load p64 unpack_f k_static_ bs = Ok m /\
  get_lod_center_offset (f64 L) m 0 0 true = (m1, Ok c) /\
  translate (f64 L) m1 (neg3 c) = (m2, None) /\
  get_lod_center_offset (f64 L) m2 0 0 true = (m3, Ok c') /\
  f_lt (f64 L) (f_zero (f64 L)) (axis 0 c') = true.
Proof.
  set (r1 := get_lod_center_offset (f64 L) (fl far_mesh) 0 0 true). set (t := translate (f64 L) (fst r1) (neg3 (center_of r1))).
  set (r2 := get_lod_center_offset (f64 L) (fst t) 0 0 true).
  exists (file_of far_mesh), (fl far_mesh), (fst r1), (center_of r1), (fst t), (fst r2), (center_of r2).
  split; [apply far_loads|]. split; [apply res_pair; vm_compute; reflexivity|].
  split; [apply ok_pair; vm_compute; reflexivity|]. split; [apply res_pair; vm_compute; reflexivity|]. vm_compute. reflexivity.
Qed.

(** A lod that straddles the origin: the whole recentring sequence in exact arithmetic. *)
Definition zr (z : Z) : R := IZR (if z =? bm1 then -1 else z).
Lemma ex_straddles : exists l, lod_at (exm zr) 1 0 l /\ forall i, In i axes ->
  (exists q, In q (lod_positions 7 (exm zr) l) /\ (axis i q <= 0)%R) /\
  (exists q, In q (lod_positions 7 (exm zr) l) /\ (0 <= axis i q)%R).
Proof.
  eexists. split; [exists 1%nat, 0%nat; eexists; split; [split; [cbn; lia|now left]|]; split; [reflexivity|]; split; [split; [cbn; lia|now left]|reflexivity]|].
  assert (zr b0 = 0%R /\ zr bm1 = (-1)%R /\ 0 <= zr b2 /\ 0 <= zr b1)%R as (E0 & E1 & E2 & E3).
  { unfold zr, b0, bm1, b2, b1. cbn [Z.eqb Pos.eqb]. repeat split; lra. }
  intros i Hi. split.
  - destruct Hi as [<-|Hi].
    + exists (zr bm1, zr b0, zr b1). split; [right; right; left; reflexivity|]. cbn [axis]. lra.
    + exists (zr b2, zr b0, zr b0). split; [left; reflexivity|]. destruct Hi as [<-|[<-|[]]]; cbn [axis]; lra.
  - exists (zr b2, zr b0, zr b0). split; [left; reflexivity|]. destruct Hi as [<-|[<-|[<-|[]]]]; cbn [axis]; lra.
Qed.
Lemma ex_recentres : exists m1 cx cy cz m2 m3, get_lod_center_offset exact (exm zr) 1 0 true = (m1, Ok (cx, cy, cz)) /\
  translate exact m1 [- cx; - cy; - cz]%R = (m2, None) /\
  get_lod_center_offset exact m2 1 0 true = (m3, Ok (0, 0, 0)%R).
Proof.
  destruct ex_straddles as (l & HL & ST).
  destruct (ex_updates exact zr) as (m1 & U1). destruct (center_ok exact _ _ _ _ _ HL U1) as (((cx, cy), cz) & H1).
  destruct (update_ok exact 7 (exm zr) (ex_size zr) (ex_short zr) (ex_bounded zr) m1 (ex_vin zr) U1) as (E1 & _).
  assert (tiled_vertices 7 m1) as T1.
  { rewrite E1. unfold tiled_vertices. rewrite mats_bound, map_map. exact (ex_tiled zr). }
  assert (vertex_size m1 = Ok (Z.of_nat 7)) as S1 by (rewrite E1; exact (ex_size zr)).
  assert (short_offsets m1) as O1 by (rewrite E1; exact (ex_short zr)).
  destruct (translate_succeeds exact 7 m1 [- cx; - cy; - cz]%R S1 ltac:(lia) T1 O1) as (m2 & H2).
  { intros _. destruct (ex_position zr) as (a & P1 & P2). exists a. rewrite E1. split; [exact P1|exact P2]. }
  destruct (translate_packed exact 7 m1 _ m2 S1 ltac:(lia) T1 O1 H2) as (SB & LL & _).
  assert (vertex_attributes m2 = ex_attribs /\ vertformat m2 = 4) as (EA & EF).
  { destruct SB as ((_ & _ & _ & _ & _ & S5 & S6 & _) & _). rewrite S5, S6, E1. split; reflexivity. }
  assert (geoms m2 = geoms m1) as EG by apply SB.
  assert (exists l2, lod_at m2 1 0 l2) as (l2 & L2).
  { exists (lod_bound exact 7 (exm zr) l). unfold lod_at. rewrite EG. rewrite E1. apply (lod_at_bound exact 7 (exm zr)). eauto. }
  assert (Forall (mat_vin 7 m2) (mats m2)) as V2.
  { pose proof (tiled_vin 7 m1 T1) as X. unfold mats. rewrite EG. unfold mats in X. eapply Forall_impl; [|exact X].
    intros mt (X1 & X2 & X3). split; [exact X1|]. split; [exact X2|]. unfold zlen in *. now rewrite LL. }
  destruct (update_total exact 7 m2 {| flag := 0; offset := 0; vartype := 2; usage := 0 |}) as (m3 & U3).
  { unfold vertex_size. rewrite EA. reflexivity. }
  { unfold short_offsets. rewrite EA, EF. exact (ex_short zr). }
  { exact V2. }
  { rewrite EA. eapply Forall_impl; [|exact ex_known]. auto. }
  { unfold bounding_attrib. rewrite EA. reflexivity. }
  { now left. }
  { unfold attrib_start. rewrite EF. cbn. lia. }
  destruct (center_ok exact _ _ _ _ _ L2 U3) as (c & H3).
  assert (c = (0, 0, 0)%R) as ->.
  { exact (recentre 7 (exm zr) m1 m2 m3 1 0 l cx cy cz c (ex_size zr) ltac:(lia) (ex_tiled zr) (ex_short zr) (ex_bounded zr) eq_refl HL ST H1 H2 H3). }
  exists m1, cx, cy, cz, m2, m3. auto.
Qed.
