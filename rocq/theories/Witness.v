(** Concrete meshes and files used as witnesses: non-trivial cases that meet the
    hypotheses of the theorems, and counterexamples. Floats are given as 32-bit
    patterns; [fl] turns a pattern mesh into a mesh of Python floats. *)
From Coq Require Import ZArith List Bool Ascii String Lia.
From Flocq Require Import IEEE754.Binary IEEE754.Bits.
From Verif Require Import PyBase Struct Mesh Arith F64 Edit Obj Spec CodecBase CodecRaw CodecParam.
Import ListNotations.
Open Scope Z_scope.

Definition p64 : plat := {| long_sz := Long8; big_endian := false |}.
Definition p32 : plat := {| long_sz := Long4; big_endian := false |}.
Definition k_static_ : kind := {| isSkinnedMesh := false; isBundledMesh := false;
                                  isStaticMesh := true; isCollisionMesh := false |}.
Definition k_bundled_ : kind := {| isSkinnedMesh := false; isBundledMesh := true;
                                   isStaticMesh := false; isCollisionMesh := false |}.
Definition k_skinned_ : kind := {| isSkinnedMesh := true; isBundledMesh := false;
                                   isStaticMesh := false; isCollisionMesh := false |}.
Definition fl (m : mesh Z) : mesh binary64 := mesh_map unpack_f m.

(** Bit patterns of small singles. *)
Definition b0 : Z := 0.
Definition b1 : Z := 1065353216.        (* 1.0 *)
Definition b2 : Z := 1073741824.        (* 2.0 *)
Definition b3 : Z := 1077936128.        (* 3.0 *)
Definition bm1 : Z := 3212836864.       (* -1.0 *)
Definition bsnan : Z := 2139095041.     (* 0x7f800001, signalling NaN *)

Definition one4 : matrix4 Z :=
  [[b1; b0; b0; b0]; [b0; b1; b0; b0]; [b0; b0; b1; b0]; [b0; b0; b0; b1]].

Definition ex_head (v : Z) : head := {| h_u1 := 0; h_version := v; h_u3 := 0; h_u4 := 0; h_u5 := 0 |}.
Definition ex_attribs : list vertattrib :=
  [ {| flag := 0; offset := 0; vartype := 2; usage := 0 |};      (* POSITION float3 *)
    {| flag := 0; offset := 12; vartype := 2; usage := 3 |};     (* NORMAL float3 *)
    {| flag := 0; offset := 24; vartype := 4; usage := 2 |};     (* BLENDINDICES D3DCOLOR *)
    {| flag := 255; offset := 0; vartype := 17; usage := 0 |} ].

Definition ex_mat (v : Z) (skinned : bool) (vs is inn vn : Z) : mat Z :=
  {| alphamode := if skinned then None else Some 0;
     fxfile := of_string "StaticMesh.fx"; technique := of_string "Base";
     mapnum := 1; maps := [of_string "a.dds"];
     vstart := vs; istart := is; inum := inn; vnum := vn; mat_u4 := 0; mat_u5 := 0;
     mmin := if negb skinned && (v =? 11) then Some (b0, b0, b0) else None;
     mmax := if negb skinned && (v =? 11) then Some (b1, b1, b1) else None |}.

Definition ex_rig : rig Z := {| bonenum := 1; bones := [{| bone_id := 7; bone_matrix := one4 |}] |}.

Definition ex_lod (v : Z) (k : kind) (ms : list (mat Z)) : lod Z :=
  {| lod_min := Some (b0, b0, b0); lod_max := Some (b1, b1, b1);
     pivot := if v <=? 6 then Some (b0, b0, b0) else None;
     rignum := if isSkinnedMesh k then 1 else 0;
     rigs := if isSkinnedMesh k then [ex_rig] else [];
     nodenum := if isSkinnedMesh k then 0 else 1;
     nodes := if isSkinnedMesh k || isBundledMesh k then [] else [one4];
     matnum := zlen ms; materials := ms |}.

(** Two triangles in two geoms; seven numbers per vertex. *)
Definition ex_verts : list Z :=
  [ b0; b0; b0; b0; b1; b0; b0;   b1; b0; b0; b0; b1; b0; b0;   b0; b0; b1; b0; b1; b0; b0;
    b2; b0; b0; b0; b1; b0; b0;   b3; b0; b0; b0; b1; b0; b0;   bm1; b0; b1; b0; b1; b0; b0 ].
Definition ex_index : list Z := [0; 1; 2; 2; 1; 0].

Definition ex_mesh (v : Z) (k : kind) : mesh Z :=
  {| m_kind := k; m_head := ex_head v; m_u1 := 0; geomnum := 2;
     geoms := [ {| lodnum := 1; lods := [ex_lod v k [ex_mat v (isSkinnedMesh k) 0 0 3 3]] |};
                {| lodnum := 1; lods := [ex_lod v k [ex_mat v (isSkinnedMesh k) 3 3 3 3]] |} ];
     vertattribnum := 4; vertex_attributes := ex_attribs;
     vertformat := 4; vertstride := 28; vertnum := 6; vertices := ex_verts;
     indexnum := 6; index := Tuple ex_index;
     m_u2 := if isSkinnedMesh k then 0 else 8 |}.

Definition ex_file (p : plat) (v : Z) (k : kind) : bytes := fst (export p raw (ex_mesh v k)).

Definition check_load (p : plat) (v : Z) (k : kind) : Prop :=
  load p raw k (ex_file p v k) = Ok (ex_mesh v k).
Lemma ex_load_static : check_load p64 11 k_static_. Proof. vm_compute. reflexivity. Qed.
Lemma ex_load_bundled : check_load p64 6 k_bundled_. Proof. vm_compute. reflexivity. Qed.
Lemma ex_load_skinned : check_load p32 11 k_skinned_. Proof. vm_compute. reflexivity. Qed.
Lemma ex_load_static32 : check_load p32 11 k_static_. Proof. vm_compute. reflexivity. Qed.

Lemma ex_load_fl p v k : check_load p v k -> load p unpack_f k (ex_file p v k) = Ok (fl (ex_mesh v k)).
Proof. intros H. rewrite load_via, H. reflexivity. Qed.

Lemma ex_wf p v k : check_load p v k -> raw_wf p (ex_mesh v k).
Proof.
  intros H. unfold check_load, load in H. apply bind_ok in H. destruct H as ([m rest] & H1 & H2).
  destruct rest; [|discriminate]. injection H2 as ->. apply load_body_raw_ok in H1. tauto.
Qed.

(** Replace the vertex numbers, index, or attributes of a mesh. *)
Definition with_verts {F} (m : mesh F) (vs : list F) : mesh F := set_vertices m vs.

(** A file whose first vertex number is a signalling NaN. *)
Definition snan_mesh : mesh Z := set_vertices (ex_mesh 11 k_static_) (bsnan :: tl ex_verts).
Definition snan_file : bytes := fst (export p64 raw snan_mesh).
Lemma snan_file_loads : load p64 raw k_static_ snan_file = Ok snan_mesh.
Proof. vm_compute. reflexivity. Qed.

Lemma snan_not_exact : exists bs m, load p64 unpack_f k_static_ bs = Ok m /\ indexnum m <> 1 /\
  export p64 pack_f m <> (bs, None).
Proof.
  exists snan_file, (fl snan_mesh). split; [rewrite load_via, snan_file_loads; reflexivity|].
  split; [discriminate|]. unfold fl. rewrite export_via, mesh_map_map.
  intros H. apply (f_equal fst) in H. revert H. 
  assert (list_eqb Ascii.eqb (fst (export p64 raw (mesh_map (fun x => pack_f (unpack_f x)) snan_mesh)))
            snan_file = false) as E by (vm_compute; reflexivity).
  intros H. rewrite H in E. vm_compute in E. discriminate.
Qed.

(** A file with exactly one index. *)
Definition one_mesh : mesh Z :=
  set_index (set_counts (ex_mesh 11 k_static_) 6 1) (Scalar 5).
Definition one_front : bytes := fst (export p64 raw one_mesh).
Definition one_file : bytes :=
  one_front ++ enc_uint p64 2 5 ++
  skipn (List.length one_front + 12) (ex_file p64 11 k_static_).
Lemma one_file_loads : load p64 raw k_static_ one_file = Ok one_mesh.
Proof. vm_compute. reflexivity. Qed.
Lemma one_file_loads_fl : load p64 unpack_f k_static_ one_file = Ok (fl one_mesh).
Proof. rewrite load_via, one_file_loads. reflexivity. Qed.

(** A mesh with a single vertex number. *)
Definition scalar_vertex_mesh : mesh Z :=
  {| m_kind := k_static_; m_head := ex_head 4; m_u1 := 0; geomnum := 0; geoms := [];
     vertattribnum := 0; vertex_attributes := [];
     vertformat := 4; vertstride := 4; vertnum := 1; vertices := [b1];
     indexnum := 0; index := Tuple []; m_u2 := 8 |}.
Lemma scalar_vertex_ok : exists bs, export p64 raw scalar_vertex_mesh = (bs, None) /\
  data_num (vertstride scalar_vertex_mesh) (vertformat scalar_vertex_mesh) (vertnum scalar_vertex_mesh) = Ok 1.
Proof. eexists. split; vm_compute; reflexivity. Qed.

(** [mesh_all] of a decidable property by computation. *)
Definition ex_floats {F} (m : mesh F) : list F :=
  let v3 o := match o with Some (x, y, z) => [x; y; z] | None => [] end in
  flat_map (fun g => flat_map (fun l =>
    v3 (lod_min l) ++ v3 (lod_max l) ++ v3 (pivot l) ++
    flat_map (fun r => flat_map (fun b => List.concat (bone_matrix b)) (bones r)) (rigs l) ++
    flat_map (@List.concat F) (nodes l) ++
    flat_map (fun mt => v3 (mmin mt) ++ v3 (mmax mt)) (materials l)) (lods g)) (geoms m) ++ vertices m.

Lemma Forall_concat {A} (P : A -> Prop) l : Forall P (List.concat l) <-> Forall (Forall P) l.
Proof.
  induction l; simpl; [split; constructor|]. rewrite Forall_app, IHl. split.
  - intros (H1 & H2). constructor; auto.
  - intros H. inversion H; auto.
Qed.
Lemma Forall_flat_map' {A B} (P : B -> Prop) (f : A -> list B) l :
  Forall P (flat_map f l) <-> Forall (fun a => Forall P (f a)) l.
Proof.
  induction l; simpl; [split; constructor|]. rewrite Forall_app, IHl. split.
  - intros (H1 & H2). constructor; auto.
  - intros H. inversion H; auto.
Qed.

Lemma mesh_all_floats {F} (P : F -> Prop) m : mesh_all P m <-> Forall P (ex_floats m).
Proof.
  assert (forall o, opt_all (vec3_all P) o <->
    Forall P (match o with Some (x, y, z) => [x; y; z] | None => [] end)) as Ho.
  { intros [[[x y] z]|]; simpl; [|split; constructor].
    split; [intros (a & b & c); auto|]. intros H. inversion H as [|? ? ? H1]; subst.
    inversion H1 as [|? ? ? H2]; subst. inversion H2; subst. auto. }
  unfold mesh_all, ex_floats. rewrite Forall_app, Forall_flat_map'.
  apply and_iff_compat_r. apply Forall_iff. intros g. rewrite Forall_flat_map'.
  apply Forall_iff. intros l. unfold lod_all. rewrite !Forall_app, <- !Ho.
  rewrite !Forall_flat_map'. 
  assert (Forall (fun r => Forall (fun b => matrix_all P (bone_matrix b)) (bones r)) (rigs l) <->
          Forall (fun a => Forall P (flat_map (fun b => List.concat (bone_matrix b)) (bones a))) (rigs l)) as E1.
  { apply Forall_iff. intros r. rewrite Forall_flat_map'. apply Forall_iff. intros b.
    unfold matrix_all. rewrite Forall_concat. tauto. }
  assert (Forall (matrix_all P) (nodes l) <-> Forall (fun a => Forall P (List.concat a)) (nodes l)) as E2.
  { apply Forall_iff. intros r. unfold matrix_all. rewrite Forall_concat. tauto. }
  assert (Forall (mat_all P) (materials l) <->
    Forall (fun a => Forall P ((match mmin a with Some (x, y, z) => [x; y; z] | None => [] end) ++
      match mmax a with Some (x, y, z) => [x; y; z] | None => [] end)) (materials l)) as E3.
  { apply Forall_iff. intros a. unfold mat_all. rewrite Forall_app, <- !Ho. tauto. }
  rewrite E1, E2, E3. tauto.
Qed.

Definition snanb (b : Z) : bool :=
  ((b / 2 ^ 23) mod 256 =? 255) && (0 <? b mod 2 ^ 23) && (b mod 2 ^ 23 <? 2 ^ 22).
Lemma no_snan m : forallb (fun b => negb (snanb b)) (ex_floats m) = true -> mesh_all (fun b => ~ snan b) m.
Proof.
  intros H. apply mesh_all_floats. apply Forall_forall. intros x Hx.
  rewrite forallb_forall in H. specialize (H x Hx). unfold snanb in H. unfold snan. lia.
Qed.

Lemma ex_no_snan : mesh_all (fun b => ~ snan b) (ex_mesh 11 k_static_).
Proof. apply no_snan. vm_compute. reflexivity. Qed.

From Verif Require Import SpecF F64Facts CodecFacts.

Lemma ex_wf_single : wf p64 (fl (ex_mesh 11 k_static_)) /\ indexnum (fl (ex_mesh 11 k_static_)) <> 1 /\
  mesh_all is_single (fl (ex_mesh 11 k_static_)).
Proof.
  split; [apply wf_map; apply (ex_wf p64 11 k_static_ ex_load_static)|].
  split; [discriminate|]. unfold fl. apply mesh_all_map. apply mesh_all_floats.
  apply Forall_forall. intros b Hb. apply unpack_single.
  assert (forallb (fun b => negb (is_nan 53 1024 (unpack_f b))) (ex_floats (ex_mesh 11 k_static_)) = true) as H
    by (vm_compute; reflexivity).
  rewrite forallb_forall in H. specialize (H b Hb). destruct (is_nan 53 1024 (unpack_f b)); [discriminate|reflexivity].
Qed.

Lemma snan_not_injective : exists bs1 bs2 m,
  load p64 unpack_f k_static_ bs1 = Ok m /\ load p64 unpack_f k_static_ bs2 = Ok m /\
  indexnum m <> 1 /\ bs1 <> bs2.
Proof.
  destruct snan_not_exact as (bs & m & L & N & E).
  destruct (reexport_stable p64 k_static_ bs m L N) as (bs' & E' & _ & L').
  exists bs, bs', m. repeat split; auto. intros ->. contradiction.
Qed.

Lemma scalar_vertex_ok_fl : exists bs, export p64 pack_f (fl scalar_vertex_mesh) = (bs, None) /\
  data_num (vertstride scalar_vertex_mesh) (vertformat scalar_vertex_mesh) (vertnum scalar_vertex_mesh) = Ok 1.
Proof. eexists. split; vm_compute; reflexivity. Qed.

Lemma ex_kinds : exists bs m, load p64 unpack_f k_static_ bs = Ok m /\ ~ no_nodes m /\
  wf p64 m /\ export p64 pack_f m = (bs, None).
Proof.
  exists (ex_file p64 11 k_static_), (fl (ex_mesh 11 k_static_)).
  split; [apply ex_load_fl, ex_load_static|]. split.
  - intros H. inversion H as [|? ? H1 _]; subst. inversion H1 as [|? ? H2 _]; subst. vm_compute in H2. congruence.
  - split; [apply ex_wf_single|]. apply (reexport_exact p64 k_static_).
    + apply ex_load_fl, ex_load_static.
    + intros mr H. pose proof ex_load_static as E. unfold check_load in E. rewrite E in H.
      injection H as <-. apply ex_no_snan.
    + discriminate.
Qed.
