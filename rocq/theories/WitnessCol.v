(** Concrete collision meshes. *)
From Coq Require Import ZArith List Bool Lia.
From Flocq Require Import IEEE754.Binary IEEE754.Bits.
From Verif Require Import PyBase Struct Mesh Arith F64 Edit Obj Spec SpecF CodecBase CodecRaw CodecParam F64Facts
  SpecBounds SpecObj Witness WitnessBounds Col ColFacts ColMergeFacts SpecCol.
Import ListNotations.
Open Scope Z_scope.

(** ** A file of each kind of version, with two faces of materials 5 and 0 *)
Definition ex_face (n : Z) (a b c : Z) : colface := {| cf_v1 := a; cf_v2 := b; cf_v3 := c; cf_material := 0; cf_m := Some n |}.
Definition ex_collod (v n : Z) : collod Z colface :=
  {| cl_type := if 9 <=? v then 2 else 0; cl_facenum := 2; cl_faces := [ex_face n 0 1 2; ex_face 0 3 2 1];
     cl_vertnum := 4; cl_vertices := [(b0, b0, b0); (b1, b0, b0); (b0, b2, b0); (b0, b0, b3)]; cl_vertids := [0; 0; 7; -7];
     cl_min := (b0, b0, b0); cl_max := (b1, b2, b3); cl_u7 := 48; cl_bmin := (b0, b0, b0); cl_bmax := (b1, b2, b3);
     cl_ynum := 1; cl_ydata := [{| y_u1 := b1; y_u2 := 3; y_u3 := -4; y_u4 := 5; y_u5 := -6 |}];
     cl_znum := 2; cl_zdata := [1; -1];
     cl_anum := if 10 <=? v then 1 else 0; cl_adata := if 10 <=? v then [-9] else [] |}.
Definition ex_col (v n : Z) : colmesh Z colface :=
  {| cm_u1 := 0; cm_version := v; cm_geomnum := 2;
     cm_geoms := [ {| cg_subnum := 1; cg_subs := [{| cs_lodnum := 2; cs_lods := [ex_collod v n; ex_collod v n] |}] |};
                   {| cg_subnum := 0; cg_subs := [] |} ] |}.
Definition ex_cfile (v n : Z) : bytes := fst (write_colmesh p64 (fun b => b) (faces_map restored (ex_col v n))).
Definition flc (m : colmesh Z colface) : colmesh binary64 colface := colmesh_map unpack_f (fun x => x) m.

Lemma ex_cload v n : In v [8; 9; 10] -> In n [0; 5] -> col_load p64 unpack_f (ex_cfile v n) = Ok (flc (ex_col v n)).
Proof.
  intros Hv Hn. rewrite col_load_via. unfold raw.
  assert (col_load p64 (fun b => b) (ex_cfile v n) = Ok (ex_col v n)) as ->; [|reflexivity].
  destruct Hv as [<-|[<-|[<-|[]]]], Hn as [<-|[<-|[]]]; vm_compute; reflexivity.
Qed.
Lemma ex_clean v n mr : col_load p64 (fun b => b) (ex_cfile v n) = Ok mr -> In v [8; 9; 10] -> In n [0; 5] -> col_all (fun b => ~ snan b) mr.
Proof.
  intros H Hv Hn. assert (col_load p64 (fun b => b) (ex_cfile v n) = Ok (ex_col v n)) as E
    by (clear H; destruct Hv as [<-|[<-|[<-|[]]]], Hn as [<-|[<-|[]]]; vm_compute; reflexivity).
  rewrite E in H. injection H as <-. assert (collod_all (fun b => ~ snan b) (ex_collod v n)) as C.
  { unfold collod_all, snan. cbn. repeat match goal with |- _ /\ _ => split | |- Forall _ _ => constructor end; vm_compute; intuition discriminate. }
  unfold col_all, col_lods. cbn. auto.
Qed.

(** Face materials are lost by a load and a save. *)
Lemma material_lost : exists bs m out, col_load p64 unpack_f bs = Ok m /\ write_colmesh p64 pack_f m = (out, None) /\
  out <> bs /\ List.length out = List.length bs /\ exists m', col_load p64 unpack_f out = Ok m' /\ map cf_m (col_faces m') <> map cf_m (col_faces m).
Proof.
  pose proof (ex_cload 10 5 ltac:(cbn; auto) ltac:(cbn; auto)) as H. destruct (col_resave p64 _ _ H) as (used & rest & out & E & L1 & _ & W & LE & L2 & IFF).
  assert (used = ex_cfile 10 5 /\ rest = []) as (-> & ->).
  { destruct (col_used p64 unpack_f _ _ H) as (u2 & r2 & E2 & M1 & M2).
    destruct rest as [|b t]; [rewrite app_nil_r in E; auto|]. exfalso.
    assert (col_load p64 (fun b => b) (removelast (ex_cfile 10 5)) = Raise EStruct) as X by (vm_compute; reflexivity).
    assert (col_load p64 unpack_f (removelast (ex_cfile 10 5)) = Raise EStruct) as Y by (rewrite col_load_via; unfold raw; now rewrite X).
    rewrite E, removelast_app in Y by discriminate. rewrite L1 in Y. discriminate. }
  exists (ex_cfile 10 5), (flc (ex_col 10 5)), out. split; [exact H|]. split; [exact W|]. split; [|split; [exact LE|]].
  - intros ->. assert (Forall (fun f => cf_m f = Some 0) (col_faces (flc (ex_col 10 5)))) as X
      by (apply IFF; [|reflexivity]; intros mr Hm; apply (ex_clean 10 5); [exact Hm|right; right; now left|right; now left]).
    unfold flc in X. rewrite col_faces_map, map_id in X. inversion X as [|? ? Y _]. discriminate Y.
  - specialize (L2 []). rewrite app_nil_r in L2. eexists. split; [exact L2|]. unfold faces_map, flc. rewrite !col_faces_map, map_id. cbn. discriminate.
Qed.
Lemma ex_wf_col : wf_col p64 (flc (ex_col 10 5)).
Proof. eapply col_loaded. apply (ex_cload 10 5); cbn; auto. Qed.
(** A material given to a face in memory is written, but reading it back puts it elsewhere. *)
Lemma material_elsewhere : exists m bs m', wf_col p64 m /\ write_colmesh p64 pack_f m = (bs, None) /\ col_load p64 unpack_f bs = Ok m' /\
  map cf_material (col_faces m') <> map cf_material (col_faces m).
Proof.
  set (m := faces_map restored (flc (ex_col 10 5))).
  assert (col_faces m = map restored (col_faces (ex_col 10 5))) as EF by (unfold m, faces_map, flc; now rewrite !col_faces_map, map_id).
  assert (wf_col p64 m) as W.
  { unfold m, faces_map, flc. rewrite colmesh_map_map. cbv beta.
    unfold wf_col, colmesh_map. cbn [cm_u1 cm_version cm_geomnum cm_geoms map ex_col colgeom_map cg_subs colsub_map cs_lods cg_subnum cs_lodnum].
    assert (wf_collod p64 10 (collod_map unpack_f restored (ex_collod 10 5))) as C.
    { unfold wf_collod, counted0, wf_face, wf_ystruct, is_sshort, is_long, collod_map, ex_collod.
      cbn -[unpack_f Z.pow]. repeat match goal with |- _ /\ _ => split | |- Forall _ _ => constructor end; cbn -[unpack_f]; lia. }
    unfold counted0, wf_colgeom, wf_colsub, counted0, is_long. cbn -[unpack_f Z.pow wf_collod].
    repeat match goal with |- _ /\ _ => split | |- Forall _ _ => constructor end; cbn -[unpack_f wf_collod]; try lia; exact C. }
  destruct (col_save_reload p64 m W) as (bs & rd & _ & _ & E & R). specialize (R []). rewrite app_nil_r in R.
  exists m, bs. eexists. split; [exact W|]. split; [exact E|]. split; [exact R|]. rewrite col_faces_map, EF. cbn. discriminate.
Qed.

(** ** Merging *)
Section Merge.
Context {F : Type} (A : arith F) (x y : F).
Definition mk (t : Z) (vs : list (vec3 F)) (fs : list nat) : collod F nat :=
  {| cl_type := t; cl_facenum := zlen fs; cl_faces := fs; cl_vertnum := zlen vs; cl_vertices := vs; cl_vertids := repeat 0 (List.length vs);
     cl_min := (x, x, x); cl_max := (x, x, x); cl_u7 := 0; cl_bmin := (x, x, x); cl_bmax := (x, x, x);
     cl_ynum := 0; cl_ydata := []; cl_znum := 0; cl_zdata := []; cl_anum := 0; cl_adata := [] |}.
Definition one (v : Z) (l : collod F nat) : colmesh F nat :=
  {| cm_u1 := 0; cm_version := v; cm_geomnum := 1; cm_geoms := [{| cg_subnum := 1; cg_subs := [{| cs_lodnum := 1; cs_lods := [l] |}] |}] |}.
Definition two_heap : heap := [ex_face 0 0 1 2; ex_face 1 0 1 2; ex_face 1 0 1 2].
Definition tri (d : F) : list (vec3 F) := [(x, x, d); (x, x, d); (x, x, d)].
Definition quad : list (vec3 F) := [(x, x, x); (x, x, y); (x, x, y); (x, x, y)].

Lemma ex_apart : apart two_heap [0%nat] [1%nat].
Proof. split; [repeat constructor; auto|]. split; constructor; auto; cbn; [lia|intuition lia]. Qed.
Lemma ex_apart2 : apart two_heap [2%nat] [1%nat].
Proof. split; [repeat constructor; auto|]. split; constructor; auto; cbn; [lia|intuition lia]. Qed.
(** Lods of the same size keep their triangles. *)
Lemma ex_same_size : faces_ok (lod_view two_heap (mk 0 (tri x) [0%nat])) /\ faces_ok (lod_view two_heap (mk 0 (tri y) [1%nat])) /\
  cl_vertnum (mk 0 (tri x) [0%nat]) = cl_vertnum (mk 0 (tri y) [1%nat]) /\
  exists h' c, merge_collod A two_heap (mk 0 (tri x) [0%nat]) (mk 0 (tri y) [1%nat]) = (h', c).
Proof.
  split; [repeat constructor; cbn; auto; lia|]. split; [repeat constructor; cbn; auto; lia|]. split; [reflexivity|].
  do 2 eexists. reflexivity.
Qed.
(** Others do not. *)
Lemma wrong_corners : x <> y -> exists h (a b : colmesh F nat) h' c, apart h (col_faces a) (col_faces b) /\
  Forall faces_ok (col_lods (view h a)) /\ Forall faces_ok (col_lods (view h b)) /\ col_merge A h a b = (h', c, None) /\
  flat_map triangles (col_lods (view h' c)) <> flat_map triangles (col_lods (view h a)) ++ flat_map triangles (col_lods (view h b)).
Proof.
  intros N. exists two_heap, (one 10 (mk 0 (tri x) [0%nat])), (one 10 (mk 0 quad [1%nat])). eexists. eexists.
  split; [exact ex_apart|]. split; [repeat constructor; cbn; auto; lia|]. split; [repeat constructor; cbn; auto; lia|]. split; [reflexivity|].
  cbn. intros [= E]. congruence.
Qed.
(** The other mesh is changed. *)
Lemma other_changed : exists h (a b : colmesh F nat) h' c, apart h (col_faces a) (col_faces b) /\
  col_merge A h a b = (h', c, None) /\ view h' b <> view h b.
Proof.
  exists two_heap, (one 10 (mk 0 (tri x) [0%nat])), (one 10 (mk 0 (tri y) [1%nat])). eexists. eexists.
  split; [exact ex_apart|]. split; [reflexivity|]. discriminate.
Qed.
(** A refused merge has already changed part of the mesh. *)
Lemma half_merged : exists h (a b : colmesh F nat) h' c, apart h (col_faces a) (col_faces b) /\
  col_merge A h a b = (h', c, Some EIndex) /\ view h' c <> view h a /\ view h' b <> view h b.
Proof.
  set (g := fun l : collod F nat => {| cg_subnum := 1; cg_subs := [{| cs_lodnum := 1; cs_lods := [l] |}] |}).
  exists two_heap, {| cm_u1 := 0; cm_version := 10; cm_geomnum := 1; cm_geoms := [g (mk 0 (tri x) [0%nat])] |},
    {| cm_u1 := 0; cm_version := 10; cm_geomnum := 2; cm_geoms := [g (mk 0 (tri y) [1%nat]); g (mk 0 [] [])] |}. eexists. eexists.
  split; [exact ex_apart|]. split; [reflexivity|]. split; discriminate.
Qed.
(** Merging a mesh into two others breaks the first. *)
Lemma first_broken : exists h (a b c : collod F nat) h1 a' h2 c', apart h (cl_faces a) (cl_faces b) /\ apart h (cl_faces c) (cl_faces b) /\
  cl_vertnum a = cl_vertnum b /\ faces_ok (lod_view h a) /\ faces_ok (lod_view h b) /\
  merge_collod A h a b = (h1, a') /\ merge_collod A h1 c b = (h2, c') /\
  triangles (lod_view h1 a') = triangles (lod_view h a) ++ triangles (lod_view h b) /\ triangles (lod_view h2 a') <> triangles (lod_view h1 a').
Proof.
  exists two_heap, (mk 0 (tri x) [0%nat]), (mk 0 (tri y) [1%nat]), (mk 0 (tri x) [2%nat]). do 4 eexists.
  split; [exact ex_apart|]. split; [exact ex_apart2|]. split; [reflexivity|].
  split; [repeat constructor; cbn; auto; lia|]. split; [repeat constructor; cbn; auto; lia|]. split; [reflexivity|]. split; [reflexivity|].
  split; [reflexivity|]. cbn. intros [= E]. 
Qed.
(** Two lods that can be saved, their merge not: vertex number 19999 becomes 39999. *)
Definition big (fs : list nat) : collod F nat := mk 0 (repeat (x, x, x) (Z.to_nat 20000)) fs.
Definition big_heap : heap := [ex_face 0 0 1 19999; ex_face 1 0 1 19999].
Lemma big_wf p i : In i [0%nat; 1%nat] -> wf_col p (view big_heap (one 10 (big [i]))).
Proof.
  intros Hi. assert (wf_collod p 10 (lod_view big_heap (big [i]))) as C.
  { unfold lod_view, collod_map, wf_collod, counted0, big, mk. cbn [cl_type cl_facenum cl_faces cl_vertnum cl_vertices cl_vertids cl_u7 cl_ynum cl_ydata cl_znum cl_zdata cl_anum cl_adata].
    rewrite map_length, !repeat_length. unfold zlen. rewrite repeat_length, map_length.
    assert (is_long p 20000 /\ is_long p 0 /\ is_long p 1) as (L1 & L2 & L3) by (unfold is_long; destruct p as [[|] ?]; cbn; lia).
    replace (Z.of_nat (Z.to_nat 20000)) with 20000 by (rewrite Z2Nat.id; lia).
    split; [cbn; lia|]. split; [split; [exact L3|reflexivity]|].
    split; [constructor; [|constructor]; destruct Hi as [<-|[<-|[]]]; unfold wf_face, is_sshort; cbn; lia|].
    split; [split; [exact L1|reflexivity]|]. split; [reflexivity|].
    split; [apply Forall_forall; intros z Hz; apply repeat_spec in Hz; subst; unfold is_sshort; lia|]. split; [lia|].
    split; [split; [exact L2|reflexivity]|]. split; [constructor|]. split; [split; [exact L2|reflexivity]|]. split; [constructor|].
    split; [split; [exact L2|reflexivity]|constructor]. }
  assert (is_long p 10 /\ is_long p 0 /\ is_long p 1) as (L1 & L2 & L3) by (unfold is_long; destruct p as [[|] ?]; cbn; lia).
  unfold wf_col, view, faces_map, colmesh_map, one. cbn [cm_u1 cm_version cm_geomnum cm_geoms map colgeom_map colsub_map cs_lods cs_lodnum cg_subs cg_subnum].
  split; [exact L2|]. split; [exact L1|]. split; [split; [exact L3|reflexivity]|]. constructor; [|constructor].
  split; [split; [exact L3|reflexivity]|]. constructor; [|constructor]. split; [split; [exact L3|reflexivity]|]. constructor; [exact C|constructor].
Qed.
Lemma unsavable p (packf : F -> Z) : exists h (a b : colmesh F nat) h' c, apart h (col_faces a) (col_faces b) /\
  wf_col p (view h a) /\ wf_col p (view h b) /\ col_merge A h a b = (h', c, None) /\ snd (write_colmesh p packf (view h' c)) <> None.
Proof.
  exists big_heap, (one 10 (big [0%nat])), (one 10 (big [1%nat])).
  destruct (col_merge A big_heap (one 10 (big [0%nat])) (one 10 (big [1%nat]))) as ((h', c), r) eqn:E.
  assert (apart big_heap (col_faces (one 10 (big [0%nat]))) (col_faces (one 10 (big [1%nat])))) as AP.
  { split; [repeat constructor; auto|]. split; constructor; auto; cbn; intuition lia. }
  destruct (col_merge_run A _ _ _ _ _ _ AP E) as (_ & W & _ & _ & S).
  assert (r = None) as -> by (apply W; repeat constructor).
  exists h', c. split; [exact AP|]. split; [apply big_wf; cbn; auto|]. split; [apply big_wf; cbn; auto|]. split; [reflexivity|].
  intros X. apply saved_faces in X. destruct (S eq_refl) as (M & _). destruct M as (_ & _ & _ & M).
  clear E S W. generalize dependent (view h' c). intros cv X M.
  unfold col_faces, col_lods in X. rewrite !Forall_flat_map in X.
  inversion M as [|? g1 gc ? ? ? MG MR EQ1 EQ2 EQ3]; subst. rewrite <- EQ3 in X. inversion X as [|? ? XG _]; subst. destruct MG as (_ & MS).
  unfold geom_lods in XG. rewrite Forall_flat_map in XG.
  inversion MS as [|? s1 sc ? ? ? MG2 MR2 EQ4 EQ5 EQ6]; subst. rewrite <- EQ6 in XG. inversion XG as [|? ? XS _]; subst. destruct MG2 as (_ & ML).
  inversion ML as [|? l1 lc ? ? ? MG3 MR3 EQ7 EQ8 EQ9]; subst. rewrite <- EQ9 in XS. inversion XS as [|? ? XL _]; subst.
  destruct MG3 as (_ & _ & _ & MF & _). rewrite MF in XL. apply Forall_app in XL. destruct XL as (_ & XL).
  cbn [cl_faces collod_map big mk map] in XL. apply Forall_inv in XL. destruct XL as (_ & _ & V3 & _).
  cbn [shifted cf_v3 deref nth big_heap ex_face cl_vertnum collod_map big mk] in V3. 
  change (is_sshort (19999 + zlen (repeat (x, x, x) (Z.to_nat 20000)))) in V3. unfold zlen in V3. rewrite repeat_length, Z2Nat.id in V3 by lia.
  unfold is_sshort in V3. lia.
Qed.
End Merge.

(** A small merge that can be saved. *)
Lemma ex_merged_fits {F} (A : arith F) (x y : F) : exists h' c, col_merge A two_heap (one 10 (mk x 0 (tri x x) [0%nat])) (one 10 (mk x 0 (tri x y) [1%nat])) = (h', c, None) /\
  wf_col p64 (view two_heap (one 10 (mk x 0 (tri x x) [0%nat]))) /\ wf_col p64 (view two_heap (one 10 (mk x 0 (tri x y) [1%nat]))) /\
  Forall exact_lod (col_lods (view two_heap (one 10 (mk x 0 (tri x x) [0%nat])))) /\ Forall exact_lod (col_lods (view two_heap (one 10 (mk x 0 (tri x y) [1%nat])))) /\
  Forall (lod_fits p64) (col_lods (view h' c)).
Proof.
  do 2 eexists. split; [reflexivity|].
  unfold wf_col, wf_colgeom, wf_colsub, wf_collod, exact_lod, lod_fits, wf_face, counted0, wf_ystruct, is_sshort, is_long; cbn.
  repeat match goal with |- _ /\ _ => split | |- Forall _ _ => constructor end; cbn; try lia; reflexivity.
Qed.

(** ** Translation *)
Definition at0 : colmesh binary64 nat := one 10 (mk (unpack_f b0) 0 [(unpack_f b0, unpack_f b0, unpack_f b0)] []).
Lemma stale_box L : exists (m : colmesh binary64 nat) o, Forall (collod_boxed (f64 L)) (col_lods m) /\
  ~ Forall (collod_boxed (f64 L)) (col_lods (col_translate (f64 L) o m)).
Proof.
  exists at0, (unpack_f b1, unpack_f b0, unpack_f b0). split.
  - constructor; [|constructor]. intros q [<-|[]] i Hi. assert (fle (f64 L) (unpack_f b0) (unpack_f b0)) as X by (right; vm_compute; reflexivity).
    destruct Hi as [<-|[<-|[<-|[]]]]; split; exact X.
  - intros H. inversion H as [|? ? B _]. specialize (B _ (or_introl eq_refl) 0%nat (or_introl eq_refl)). destruct B as (_ & B).
    apply fle_b_spec in B. vm_compute in B. discriminate.
Qed.
