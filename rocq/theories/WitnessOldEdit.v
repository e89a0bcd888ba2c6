(** Concrete meshes for the editing methods of the old mesh class. *)
From Coq Require Import ZArith Bool Ascii String List Lia Reals.
From Flocq Require Import IEEE754.Binary IEEE754.Bits.
From Verif Require Import PyBase Struct Mesh Arith F64 Edit OldEdit Trans RArith Spec SpecEdit SpecBounds SpecOldEdit CodecBase CodecRaw CodecParam
  CodecFacts Old SpecOld OldFacts TravFacts VertFacts LayoutFacts MergeFacts BoundFacts OldEditFacts OldEditThms
  Witness WitnessEdit WitnessMerge WitnessBounds WitnessOld.
Import ListNotations.
Open Scope Z_scope.

(** Loading with the old class. *)
Lemma old_loads p k bs m : load p raw k bs = Ok m -> starts_with_material (fl m) ->
  (forall F (f : Z -> F), old_of (mesh_map f m) = mesh_map f m) -> old_load p unpack_f k bs = Ok (fl m).
Proof.
  intros H HS HO. assert (load p unpack_f k bs = Ok (fl m)) as H' by (rewrite load_via, H; reflexivity).
  destruct (old_agrees p unpack_f _ _ [] _ H') as (E & _). rewrite app_nil_r in E. rewrite (E HS). f_equal. apply HO.
Qed.
Ltac loads := apply old_loads; [vm_compute; reflexivity|discriminate|intros; reflexivity].

(** The examples of Witness.v. *)
Lemma ex_canonical {F} (f : Z -> F) : canonical 7 (exm f).
Proof.
  constructor.
  - lia.
  - apply ex_short.
  - change (vertex_attributes (exm f)) with ex_attribs. unfold ex_attribs. repeat apply Forall_cons; try apply Forall_nil; split; cbn; tauto.
  - change (filter in_use (vertex_attributes (exm f))) with (firstn 3 ex_attribs). cbn [ex_attribs firstn].
    apply (declared_cons _ 0 _ 3); [cbn; tauto|reflexivity|]. apply (declared_cons _ 3 _ 3); [cbn; tauto|reflexivity|].
    apply (declared_cons _ 6 _ 1); [cbn; tauto|reflexivity|]. apply (declared_nil _ 7).
  - change (map usage _) with [0; 3; 2]. repeat constructor; cbn; lia.
  - reflexivity.
  - reflexivity.
  - discriminate.
Qed.
Lemma ex_has_positions {F} (f : Z -> F) : has_positions (exm f).
Proof. exists {| flag := 0; offset := 0; vartype := 2; usage := 0 |}. split; [|reflexivity]. repeat split. now left. Qed.
Lemma ex_lods_bounded {F} (f : Z -> F) : every_lod lod_bounded (exm f).
Proof. repeat constructor; discriminate. Qed.
Lemma ex_coords : every_lod (lod_coords (fun x => is_nan 53 1024 x = false) 7 (exm unpack_f)) (exm unpack_f).
Proof.
  assert (forall a b c, is_nan 53 1024 (unpack_f a) || is_nan 53 1024 (unpack_f b) || is_nan 53 1024 (unpack_f c) = false ->
    coords (fun x => is_nan 53 1024 x = false) (unpack_f a, unpack_f b, unpack_f c)) as G.
  { intros a b c H i Hi. apply orb_false_elim in H. destruct H as (H & H3). apply orb_false_elim in H. destruct H as (H1 & H2).
    cbn in Hi. destruct Hi as [<-|[<-|[<-|[]]]]; assumption. }
  assert (forall mt, In mt (mats (exm unpack_f)) -> mat_coords (fun x => is_nan 53 1024 x = false) 7 (exm unpack_f) mt) as M.
  { intros mt Hm. split; [|split].
    - intros q Hq. destruct Hm as [<-|[<-|[]]]; injection Hq as <-; apply G; vm_compute; reflexivity.
    - intros q Hq. destruct Hm as [<-|[<-|[]]]; injection Hq as <-; apply G; vm_compute; reflexivity.
    - pose proof ex_numbers as N. rewrite Forall_forall in N. apply (N mt Hm). }
  unfold every_lod. apply Forall_forall. intros g Hg. apply Forall_forall. intros l Hl.
  split; [|split]; [| |apply Forall_forall; intros mt Hm; apply M; unfold mats, mats_of; apply in_flat_map; exists g; split; [exact Hg|]; apply in_flat_map; eauto].
  all: intros q Hq; destruct Hg as [<-|[<-|[]]]; destruct Hl as [<-|[]]; injection Hq as <-; apply G; vm_compute; reflexivity.
Qed.
Lemma ex_old_load : old_load p64 unpack_f k_static_ (ex_file p64 11 k_static_) = Ok (exm unpack_f).
Proof. loads. Qed.

(** Positions, normals and tangents. *)
Definition tan_attribs : list vertattrib :=
  [ {| flag := 0; offset := 0; vartype := 2; usage := 0 |};
    {| flag := 0; offset := 12; vartype := 2; usage := 3 |};
    {| flag := 0; offset := 24; vartype := 2; usage := 6 |};
    {| flag := 255; offset := 0; vartype := 17; usage := 0 |} ].
Definition tan_mesh : mesh Z :=
  {| m_kind := k_static_; m_head := ex_head 11; m_u1 := 0; geomnum := 1;
     geoms := [ {| lodnum := 1; lods := [ex_lod 11 k_static_ [ex_mat 11 false 0 0 3 3]] |} ];
     vertattribnum := 4; vertex_attributes := tan_attribs;
     vertformat := 4; vertstride := 36; vertnum := 3;
     vertices := [b0; b0; b0; b0; b1; b0; b1; b0; b0;  b1; b0; b0; b0; b1; b0; b1; b0; b0;  b0; b0; b1; b0; b1; b0; b1; b0; b0];
     indexnum := 3; index := Tuple [0; 1; 2]; m_u2 := 8 |}.
Lemma tan_load : old_load p64 unpack_f k_static_ (file_of tan_mesh) = Ok (fl tan_mesh).
Proof. loads. Qed.
Lemma tan_canonical {F} (f : Z -> F) : canonical 9 (mesh_map f tan_mesh).
Proof.
  constructor.
  - lia.
  - split; [reflexivity|]. cbn [vertex_attributes mesh_map tan_mesh]. unfold tan_attribs. repeat constructor; cbn; lia.
  - cbn [vertex_attributes mesh_map tan_mesh]. unfold tan_attribs. repeat apply Forall_cons; try apply Forall_nil; split; cbn; tauto.
  - change (filter in_use (vertex_attributes (mesh_map f tan_mesh))) with (firstn 3 tan_attribs). cbn [tan_attribs firstn].
    apply (declared_cons _ 0 _ 3); [cbn; tauto|reflexivity|]. apply (declared_cons _ 3 _ 3); [cbn; tauto|reflexivity|].
    apply (declared_cons _ 6 _ 3); [cbn; tauto|reflexivity|]. apply (declared_nil _ 9).
  - change (map usage _) with [0; 3; 6]. repeat constructor; cbn; lia.
  - reflexivity.
  - reflexivity.
  - discriminate.
Qed.
Lemma tan_tiled {F} (f : Z -> F) : tiled_vertices 9 (mesh_map f tan_mesh).
Proof. exists 3. split; [reflexivity|]. cbn. lia. Qed.
Lemma tan_float3 {F} (f : Z -> F) u : In u [0; 3; 6] -> float3 (mesh_map f tan_mesh) u.
Proof.
  intros H. cbn in H. destruct H as [<-|[<-|[<-|[]]]].
  - exists {| flag := 0; offset := 0; vartype := 2; usage := 0 |}. split; [|reflexivity]. repeat split. now left.
  - exists {| flag := 0; offset := 12; vartype := 2; usage := 3 |}. split; [|reflexivity]. repeat split. right; now left.
  - exists {| flag := 0; offset := 24; vartype := 2; usage := 6 |}. split; [|reflexivity]. repeat split. right; right; now left.
Qed.
Lemma tan_bounded {F} (f : Z -> F) : every_lod lod_bounded (mesh_map f tan_mesh).
Proof. repeat constructor; discriminate. Qed.
Lemma tan_rotates {F} (A : arith F) (f : Z -> F) a b c : can_turn A a b c -> exists m1, rotate A (mesh_map f tan_mesh) [a; b; c] = (m1, None).
Proof.
  intros Ht. destruct (rotate_packed A 9 (mesh_map f tan_mesh) a b c [] eq_refl ltac:(lia) (tan_tiled f)) as (m1 & H & _); [|exact Ht|eauto].
  apply canonical_ready; [apply tan_canonical| | |]; apply tan_float3; cbn; tauto.
Qed.

(** Normals declared before positions. *)
Definition odd_attribs : list vertattrib :=
  [ {| flag := 0; offset := 12; vartype := 2; usage := 3 |};
    {| flag := 0; offset := 0; vartype := 2; usage := 0 |};
    {| flag := 0; offset := 24; vartype := 4; usage := 2 |};
    {| flag := 255; offset := 0; vartype := 17; usage := 0 |} ].
Definition set_attribs (m : mesh Z) (l : list vertattrib) : mesh Z :=
  {| m_kind := m_kind m; m_head := m_head m; m_u1 := m_u1 m; geomnum := geomnum m;
     geoms := geoms m; vertattribnum := vertattribnum m; vertex_attributes := l;
     vertformat := vertformat m; vertstride := vertstride m; vertnum := vertnum m;
     vertices := vertices m; indexnum := indexnum m; index := index m; m_u2 := m_u2 m |}.
Definition order_mesh : mesh Z := set_attribs (ex_mesh 11 k_static_) odd_attribs.
Lemma order_load : old_load p64 unpack_f k_static_ (file_of order_mesh) = Ok (fl order_mesh).
Proof. loads. Qed.
Lemma read_write_scrambles L : exists bs m objs m', old_load p64 unpack_f k_static_ bs = Ok m /\ packed 7 m /\
  get_vertices m = Ok objs /\ update_vertices (f64 L) m objs = (m', None) /\ vertices m' <> vertices m.
Proof.
  exists (file_of order_mesh), (fl order_mesh).
  assert (match get_vertices (fl order_mesh) with Ok _ => true | Raise _ => false end = true) as E0 by (vm_compute; reflexivity).
  destruct (get_vertices (fl order_mesh)) as [objs|] eqn:EG; [clear E0|discriminate].
  exists objs, (fst (update_vertices (f64 L) (fl order_mesh) objs)).
  split; [apply order_load|]. split; [exact (ex_packed unpack_f)|]. split; [reflexivity|].
  assert (match get_vertices (fl order_mesh) with Ok objs => snd (update_vertices (f64 L) (fl order_mesh) objs) | Raise e => Some e end = None) as E1 by (vm_compute; reflexivity).
  assert (match get_vertices (fl order_mesh) with Ok objs => list_eqb Z.eqb (map pack_f (vertices (fst (update_vertices (f64 L) (fl order_mesh) objs)))) (map pack_f (vertices (fl order_mesh))) | Raise e => true end = false) as E2 by (vm_compute; reflexivity).
  rewrite EG in E1, E2. split; [now apply ok_pair|]. intros H. rewrite H in E2. vm_compute in E2. discriminate.
Qed.

(** ** translate *)
Lemma short_offset_breaks L : exists bs m m', old_load p64 unpack_f k_static_ bs = Ok m /\ packed 7 m /\ canonical 7 m /\
  old_translate (f64 L) m [unpack_f b1; unpack_f b1] = (m', None) /\ zlen (vertices m) = 42 /\ zlen (vertices m') = 36 /\ vertnum m' = 5.
Proof.
  exists (ex_file p64 11 k_static_), (exm unpack_f), (fst (old_translate (f64 L) (exm unpack_f) [unpack_f b1; unpack_f b1])).
  split; [apply ex_old_load|]. split; [apply ex_packed|]. split; [apply ex_canonical|].
  split; [apply ok_pair; vm_compute; reflexivity|]. repeat split; vm_compute; reflexivity.
Qed.
Definition shared_mesh : mesh Z :=
  set_counts (two_geoms (ex_mat 11 false 0 0 3 3) (ex_mat 11 false 0 3 3 3) (firstn 21 ex_verts)) 3 6.
Lemma shared_load : old_load p64 unpack_f k_static_ (file_of shared_mesh) = Ok (fl shared_mesh).
Proof. loads. Qed.
Lemma shared_in_range {F} (f : Z -> F) : in_range 7 (mesh_map f shared_mesh).
Proof. eapply in_range_check; reflexivity. Qed.
Lemma shared_canonical {F} (f : Z -> F) : canonical 7 (mesh_map f shared_mesh).
Proof.
  destruct (ex_canonical f) as [C1 C2 C3 C4 C5 C6 C7 C8]. constructor; auto.
Qed.
Lemma shared_moves_twice L : exists bs m m' x y, old_load p64 unpack_f k_static_ bs = Ok m /\ in_range 7 m /\ canonical 7 m /\
  old_translate (f64 L) m one3 = (m', None) /\ nth_error (vertices m) 0 = Some x /\ nth_error (vertices m') 0 = Some y /\
  y <> shifted (f64 L) (position_start m) one3 0 x /\ zlen (vertices m') = 2 * zlen (vertices m).
Proof.
  exists (file_of shared_mesh), (fl shared_mesh), (fst (old_translate (f64 L) (fl shared_mesh) one3)), (unpack_f b0).
  assert (match nth_error (vertices (fst (old_translate (f64 L) (fl shared_mesh) one3))) 0 with
          | Some y => negb (pack_f y =? pack_f (shifted (f64 L) (position_start (fl shared_mesh)) one3 0 (unpack_f b0))) | None => false end = true) as E by (vm_compute; reflexivity).
  destruct (nth_error _ 0) as [y|]; [|discriminate]. exists y.
  split; [apply shared_load|]. split; [apply shared_in_range|]. split; [apply shared_canonical|].
  split; [apply ok_pair; vm_compute; reflexivity|]. split; [reflexivity|]. split; [reflexivity|].
  split; [intros ->; rewrite Z.eqb_refl in E; discriminate|vm_compute; reflexivity].
Qed.
Lemma skinned_half_done L : exists bs m m', old_load p32 unpack_f k_skinned_ bs = Ok m /\ packed 7 m /\ canonical 7 m /\
  old_translate (f64 L) m one3 = (m', Some EType) /\ vertices m' <> vertices m.
Proof.
  exists (ex_file p32 11 k_skinned_), skm, (fst (old_translate (f64 L) skm one3)). split; [unfold skm; loads|].
  split; [exact (ex_packed unpack_f)|]. split.
  { destruct (ex_canonical unpack_f) as [C1 C2 C3 C4 C5 C6 C7 C8]. constructor; auto. }
  assert (snd (old_translate (f64 L) skm one3) = Some EType) as E by (vm_compute; reflexivity).
  split; [rewrite <- E; now destruct (old_translate _ _ _)|].
  intros H. apply (f_equal (map pack_f)) in H. vm_compute in H. discriminate.
Qed.
Definition bm0 : Z := 2147483648.       (* -0.0 *)
Definition zeros_mesh : mesh Z := set_vertices (ex_mesh 11 k_static_) (repeat bm0 42).
Lemma zeros_load : old_load p64 unpack_f k_static_ (file_of zeros_mesh) = Ok (fl zeros_mesh).
Proof. loads. Qed.
Lemma zeros_differ L : exists bs m m1 m' off, old_load p64 unpack_f k_static_ bs = Ok m /\ packed 7 m /\ canonical 7 m /\
  List.length off = 3%nat /\ translate (f64 L) m off = (m1, None) /\ old_translate (f64 L) m off = (m', None) /\
  vertices m1 <> vertices m'.
Proof.
  set (off := [unpack_f bm0; unpack_f bm0; unpack_f bm0]).
  exists (file_of zeros_mesh), (fl zeros_mesh), (fst (translate (f64 L) (fl zeros_mesh) off)), (fst (old_translate (f64 L) (fl zeros_mesh) off)), off.
  split; [apply zeros_load|]. split; [exact (ex_packed unpack_f)|]. split.
  { destruct (ex_canonical unpack_f) as [C1 C2 C3 C4 C5 C6 C7 C8]. constructor; auto. }
  split; [reflexivity|]. split; [apply ok_pair; vm_compute; reflexivity|]. split; [apply ok_pair; vm_compute; reflexivity|].
  intros H. apply (f_equal (map pack_f)) in H. vm_compute in H. discriminate.
Qed.

(** ** rotate *)
Lemma no_tangent {F} (A : arith F) (f : Z -> F) a b c : can_turn A a b c -> old_rotate A (exm f) [a; b; c] = (exm f, Some EAttribute) /\ exists m1, rotate A (exm f) [a; b; c] = (m1, None).
Proof.
  intros Ht. split; [vm_compute; reflexivity|]. destruct (rotate_packed A 7 (exm f) a b c [] (ex_size f) ltac:(lia) (ex_tiled f) (ex_ready f) Ht) as (m1 & H & _). eauto.
Qed.

(** ** update_boundaries: the old bounds stay *)
Lemma old_not_tight L : exists bs m m' l lo, old_load p64 unpack_f k_static_ bs = Ok m /\ packed 7 m /\ canonical 7 m /\
  old_translate (f64 L) m one3 = (m', None) /\ lod_at m' 0 0 l /\ lod_min l = Some lo /\
  lod_positions 7 m' l <> [] /\ forall q, In q (lod_positions 7 m' l) -> f_lt (f64 L) (axis 0 lo) (axis 0 q) = true.
Proof.
  exists (ex_file p64 11 k_static_), (exm unpack_f), (fst (old_translate (f64 L) (exm unpack_f) one3)).
  assert (match lod0 (fst (old_translate (f64 L) (exm unpack_f) one3)) with
    | Some l => match lod_min l with Some lo =>
        negb (Nat.eqb (List.length (lod_positions 7 (fst (old_translate (f64 L) (exm unpack_f) one3)) l)) 0) &&
        forallb (fun q => b64_lt (axis 0 lo) (axis 0 q)) (lod_positions 7 (fst (old_translate (f64 L) (exm unpack_f) one3)) l)
      | _ => false end | None => false end = true) as K by (vm_compute; reflexivity).
  destruct (lod0 _) as [l|] eqn:E; [|discriminate]. destruct (lod_min l) as [lo|] eqn:E1; [|discriminate].
  apply andb_true_iff in K. destruct K as (K1 & K2).
  exists l, lo. split; [apply ex_old_load|]. split; [apply ex_packed|]. split; [apply ex_canonical|]. split; [apply ok_pair; vm_compute; reflexivity|].
  split; [now apply lod0_at|]. split; [exact E1|]. split; [intros H; rewrite H in K1; discriminate|]. now apply forallb_forall.
Qed.

(** ** merge *)
Definition retexture (m : mesh Z) : mesh Z := with_lods m (fun g =>
  {| lodnum := lodnum g; lods := map (fun l =>
    {| lod_min := lod_min l; lod_max := lod_max l; pivot := pivot l; rignum := rignum l; rigs := rigs l;
       nodenum := nodenum l; nodes := nodes l; matnum := matnum l;
       materials := map (fun mt => set_maps mt [list_ascii_of_string "b.dds"]) (materials l) |}) (lods g) |}).
Definition other_texture : mesh Z := retexture (ex_mesh 11 k_static_).
Lemma other_texture_load : old_load p64 unpack_f k_static_ (file_of other_texture) = Ok (fl other_texture).
Proof. loads. Qed.
Lemma textures_lost L : exists bs bs' a b m', old_load p64 unpack_f k_static_ bs = Ok a /\ old_load p64 unpack_f k_static_ bs' = Ok b /\
  merge a b = (a, ReturnedNotImplementedError) /\ old_merge (f64 L) a b = (m', None) /\
  map maps (mats m') = map maps (mats a) /\ map maps (mats b) <> map maps (mats a) /\ vertnum m' = vertnum a + vertnum b.
Proof.
  exists (ex_file p64 11 k_static_), (file_of other_texture), (exm unpack_f), (fl other_texture), (fst (old_merge (f64 L) (exm unpack_f) (fl other_texture))).
  split; [apply ex_old_load|]. split; [apply other_texture_load|]. split; [reflexivity|]. split; [apply ok_pair; vm_compute; reflexivity|].
  split; [vm_compute; reflexivity|]. split; [intros H; vm_compute in H; discriminate|vm_compute; reflexivity].
Qed.
Definition high_index : mesh Z := set_index (ex_mesh 11 k_static_) (Tuple [0; 1; 2; 2; 1; 65535]).
Lemma high_index_load : old_load p64 unpack_f k_static_ (file_of high_index) = Ok (fl high_index).
Proof. loads. Qed.
Lemma old_merge_unsavable L : exists bs bs' a b m' am bytes e, old_load p64 unpack_f k_static_ bs = Ok a /\ old_load p64 unpack_f k_static_ bs' = Ok b /\
  packed 7 a /\ packed 7 b /\ merge a b = (am, MergeRaised EOverflow) /\
  old_merge (f64 L) a b = (m', None) /\ Exists (fun i => 65535 < i) (index_list m') /\
  old_save p64 pack_f m' = (bytes, Some e).
Proof.
  set (m' := fst (old_merge (f64 L) (exm unpack_f) (fl high_index))).
  assert (match snd (old_save p64 pack_f m') with Some _ => true | None => false end = true) as ES by (vm_compute; reflexivity).
  destruct (old_save p64 pack_f m') as (bytes, [e|]) eqn:ESV; [|discriminate ES].
  exists (ex_file p64 11 k_static_), (file_of high_index), (exm unpack_f), (fl high_index), m', (fst (merge (exm unpack_f) (fl high_index))), bytes, e.
  split; [apply ex_old_load|]. split; [apply high_index_load|]. split; [apply ex_packed|].
  split. { destruct (ex_packed unpack_f) as (T & _). split; [exact T|]. eexists. split; [reflexivity|]. cbn. lia. }
  assert (snd (merge (exm unpack_f) (fl high_index)) = MergeRaised EOverflow) as E by (vm_compute; reflexivity).
  split; [rewrite <- E; now destruct (merge _ _)|]. split; [unfold m'; apply ok_pair; vm_compute; reflexivity|].
  split; [|exact ESV].
  assert (existsb (fun i => 65535 <? i) (index_list m') = true) as EX by (vm_compute; reflexivity).
  apply existsb_exists in EX. destruct EX as (i & Hi & Hl). apply Exists_exists. exists i. split; [exact Hi|]. clear - Hl. apply Z.ltb_lt. exact Hl.
Qed.
(** The second geom of the other mesh has no lods. *)
Definition lodless : mesh Z :=
  let m := ex_mesh 11 k_static_ in
  set_geoms m [ {| lodnum := 1; lods := [ex_lod 11 k_static_ [ex_mat 11 false 0 0 3 3]] |}; {| lodnum := 0; lods := [] |} ].
Lemma lodless_load : old_load p64 unpack_f k_static_ (file_of lodless) = Ok (fl lodless).
Proof. loads. Qed.
Lemma merge_half_done L : exists bs bs' a b m', old_load p64 unpack_f k_static_ bs = Ok a /\ old_load p64 unpack_f k_static_ bs' = Ok b /\
  packed 7 a /\ canonical 7 a /\ canonical 7 b /\
  old_merge (f64 L) a b = (m', Some EIndex) /\ vertices m' = vertices a /\ exists mt, In mt (mats m') /\ vnum mt = 6.
Proof.
  exists (ex_file p64 11 k_static_), (file_of lodless), (exm unpack_f), (fl lodless), (fst (old_merge (f64 L) (exm unpack_f) (fl lodless))).
  split; [apply ex_old_load|]. split; [apply lodless_load|]. split; [apply ex_packed|]. split; [apply ex_canonical|]. split.
  { destruct (ex_canonical unpack_f) as [C1 C2 C3 C4 C5 C6 C7 C8]. constructor; auto. }
  assert (snd (old_merge (f64 L) (exm unpack_f) (fl lodless)) = Some EIndex) as E by (vm_compute; reflexivity).
  split; [rewrite <- E; now destruct (old_merge _ _ _)|]. 
  assert (forall F (A : arith F) (f : Z -> F), vertices (fst (old_merge A (exm f) (mesh_map f lodless))) = vertices (exm f) /\
    exists mt, In mt (mats (fst (old_merge A (exm f) (mesh_map f lodless)))) /\ vnum mt = 6) as G; [|apply G].
  intros F A f. split; [vm_compute; reflexivity|]. vm_compute. eexists. split; [left; reflexivity|reflexivity].
Qed.
Lemma ex_nesting {F} (f g : Z -> F) : same_nesting (exm f) (exm g).
Proof. repeat constructor. Qed.
Lemma ex_complete {F} (f : Z -> F) : exists objs, Forall (complete (exm f)) objs /\ zlen objs = 6.
Proof.
  destruct (get_vertices_fields 7 (exm f) (ex_canonical f)) as (objs & _ & HL & HF). exists objs. split; [|exact HL].
  apply Forall_forall. intros v Hv. apply In_nth_error in Hv. destruct Hv as (j & Hj). pose proof (HF j v Hj) as H. clear HF.
  assert (j < 6)%nat as Hk. { assert (j < length objs)%nat by (apply nth_error_Some; intros E; pose proof (eq_trans (eq_sym E) Hj); discriminate). unfold zlen in HL. change (vertnum (exm f)) with 6 in HL. lia. }
  intros u a w Ha Hw. destruct (H u) as [(a' & w' & Ha' & Hw' & E)|(HN & _)]; [|now destruct (HN a)].
  pose proof (can_usages _ _ (ex_canonical f)) as ND.
  assert (a' = a) as ->. { eapply usage_unique; [apply ex_canonical| | |]; try (apply filter_In; split; [apply Ha' | apply Ha']); try (apply filter_In; split; apply Ha). destruct Ha as (_ & _ & ->), Ha' as (_ & _ & ->). reflexivity. }
  assert (w' = w) as ->.
  { unfold old_widths in Hw, Hw'. cbn in Hw, Hw'. destruct Ha as (Ha & _ & _). change (vertex_attributes (exm f)) with ex_attribs in Ha. cbn in Ha.
    destruct Ha as [<-|[<-|[<-|[<-|[]]]]]; cbn in Hw, Hw'; repeat (destruct Hw as [Hw|Hw]; [|]); try contradiction; try discriminate Hw;
      repeat (destruct Hw' as [Hw'|Hw']; [|]); try contradiction; try discriminate Hw'; congruence. }
  eexists. split; [exact E|]. 
  destruct Ha as (Ha & Hu & _). change (vertex_attributes (exm f)) with ex_attribs in Ha.
  unfold ex_attribs in Ha. cbn in Ha. 
  destruct Ha as [<-|[<-|[<-|[<-|[]]]]]; try discriminate Hu; cbn in Hw; repeat (destruct Hw as [Hw|Hw]; [|]); try contradiction; try discriminate; injection Hw as <-.
  all: do 6 (destruct j as [|j]; [vm_compute; reflexivity|]); lia.
Qed.
Lemma ex_translates {F} (A : arith F) (f : Z -> F) x y z : exists m1, translate A (exm f) [x; y; z] = (m1, None).
Proof.
  apply (translate_succeeds A 7); auto using ex_size, ex_tiled, ex_short; [lia|]. intros _. destruct (ex_position f) as (a & H1 & H2). exists a. now split.
Qed.
