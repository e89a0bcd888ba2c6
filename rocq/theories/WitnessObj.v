(** Concrete file systems and objects. *)
From Coq Require Import ZArith List Bool Ascii String Lia.
From Flocq Require Import IEEE754.Binary IEEE754.Bits.
From Verif Require Import PyBase Struct Mesh Arith F64 Edit Obj Spec SpecF SpecEdit SpecBounds CodecBase CodecRaw CodecParam CodecFacts
  MergeFacts LayoutFacts BoundFacts CenterFacts SpecObj PathFacts FileFacts ObjFacts Witness WitnessEdit WitnessBounds.
Import ListNotations.
Open Scope Z_scope.

Definition dir_ : path := (false, [of_string "objects"]).
Definition one_fs (name : string) (c : bytes) : fs :=
  update (update (fun _ => None) dir_ Dir) (false, [of_string "objects"; of_string name]) (File c).
Definition fnA : bytes := of_string "objects/a.StaticMesh".
Definition fileA : bytes := ex_file p64 11 k_static_.
Definition fsA : fs := one_fs "a.StaticMesh" fileA.
Definition objA : obj (F := binary64) := {| o_mesh := fl (ex_mesh 11 k_static_); o_filename := fnA; o_loaded := true |}.

Lemma one_tree name c : tree (one_fs name c).
Proof.
  intros (r, q) n Hq. unfold one_fs. cbn [snd] in Hq. rewrite lookup_in by exact Hq. unfold parent. cbn [fst snd].
  destruct (path_dec (r, q) (false, [of_string "objects"; of_string name])) as [E|N1].
  - injection E as -> ->. intros _. reflexivity.
  - rewrite update_other by exact N1. destruct (path_dec (r, q) dir_) as [E|N2]; [injection E as -> ->; reflexivity|].
    now rewrite update_other by exact N2.
Qed.
Definition kw0 : flags := {| k_skinned := true; k_bundled := false; k_static := false |}.
Lemma lookup_one name c : lookup (one_fs name c) (false, [of_string "objects"; of_string name]) = Some (File c).
Proof. unfold one_fs. rewrite lookup_in by discriminate. apply update_same. Qed.
Lemma resolveA : resolve fnA = (false, [of_string "objects"; of_string "a.StaticMesh"]).
Proof. reflexivity. Qed.
Lemma openA kw : new_visible_mesh p64 unpack_f fsA (Some fnA) kw = Ok objA.
Proof.
  apply (new_file p64 fsA fnA kw fileA); [discriminate|reflexivity|rewrite resolveA; apply lookup_one|]. apply ex_load_fl, ex_load_static.
Qed.
Lemma objA_updates L : exists m, prepared_mesh (f64 L) true (o_mesh objA) m None.
Proof. eexists. apply ok_pair. vm_compute. reflexivity. Qed.
Lemma objA_wf : wf p64 (o_mesh objA) /\ indexnum (o_mesh objA) <> 1 /\ kind_named (m_kind (o_mesh objA)) fnA.
Proof. split; [apply ex_wf_single|]. split; [discriminate|]. apply (opened_kind p64 unpack_f fsA fnA kw0 objA). apply openA. Qed.

(** A new name in new directories. *)
Definition fnB : bytes := of_string "objects/new/dir/b.staticmesh".
Lemma fnB_ok : proper_name fnB /\ In slash fnB /\
  (forall q c, q <> resolve fnB -> above q (resolve fnB) -> lookup fsA q <> Some (File c)) /\ lookup fsA (resolve fnB) <> Some Dir.
Proof.
  split; [|split; [|split]].
  - exists (of_string "objects/new/dir/"), (of_string "b.staticmesh"). split; [reflexivity|]. split; [right; exists (of_string "objects/new/dir"); reflexivity|].
    split; [|split; discriminate]. intros H. vm_compute in H. decompose [or] H; try discriminate; easy.
  - vm_compute. tauto.
  - intros (r, q) c _ (E & k & E2). change (fst (r, q)) with r in E. subst r. cbn [snd] in E2.
    change (snd (resolve fnB)) with [of_string "objects"; of_string "new"; of_string "dir"; of_string "b.staticmesh"] in E2.
    change (fst (resolve fnB)) with false.
    destruct q as [|x1 [|x2 [|x3 [|x4 [|]]]]]; try discriminate; injection E2; intros; subst; vm_compute; discriminate.
  - vm_compute. discriminate.
Qed.
Lemma exportB L ub : exists f' o', export_obj (f64 L) p64 pack_f fsA objA (Some fnB) ub = (f', o', None).
Proof.
  destruct fnB_ok as (P1 & P2 & P3 & P4). assert (exists m, prepared_mesh (f64 L) ub (o_mesh objA) m None) as (m & PM).
  { destruct ub; [apply objA_updates|now exists (o_mesh objA)]. }
  pose proof objA_wf as (W & HN & _). destruct (written_same L p64 ub objA W) as (W' & HN' & _). rewrite (prepared_written _ _ _ _ _ PM) in *.
  rewrite <- HN' in HN. destruct (export_reload p64 m W' HN) as (bs & EX & _).
  destruct (export_succeeds' (f64 L) p64 pack_f fsA objA (Some fnB) fnB ub m bs (one_tree _ _) eq_refl P1 P2 P3 P4 PM EX) as (f' & E & _). eauto.
Qed.

(** An interrupted export over an existing file leaves neither the old nor the new
    contents, and the file can no longer be opened. *)
Lemma cut_load : load p64 raw k_static_ (firstn 100 fileA) = Raise EStruct.
Proof. vm_compute. reflexivity. Qed.
Lemma export_fl k v p : check_load p v k -> indexnum (ex_mesh v k) <> 1 -> mesh_all (fun b => ~ snan b) (ex_mesh v k) -> export p pack_f (fl (ex_mesh v k)) = (ex_file p v k, None).
Proof.
  intros H HN HS. apply (reexport_exact p k); [now apply ex_load_fl| |exact HN]. intros mr E. unfold check_load in H. rewrite H in E. injection E as <-. exact HS.
Qed.
Lemma exportA : export p64 pack_f (o_mesh objA) = (fileA, None).
Proof. apply export_fl; [apply ex_load_static|discriminate|apply ex_no_snan]. Qed.
Lemma fileA_length : List.length fileA = 801%nat. Proof. vm_compute. reflexivity. Qed.
Theorem not_atomic L : exists f fn (o : obj) stop f' o' e, tree f /\ (forall kw, new_visible_mesh p64 unpack_f f (Some fn) kw = Ok o) /\
  export_until (f64 L) p64 pack_f stop f o None false = (f', o', e) /\
  f' (resolve fn) <> f (resolve fn) /\ f' (resolve fn) <> Some (File (fst (export p64 pack_f (o_mesh o)))) /\
  (forall kw, new_visible_mesh p64 unpack_f f' (Some fn) kw = Raise EStruct).
Proof.
  exists fsA, fnA, objA, (Some 100%nat). eexists. eexists. eexists. split; [apply one_tree|]. split; [apply openA|].
  split. { unfold export_until. replace (exists_ fsA (dirname (export_target objA None))) with true by (vm_compute; reflexivity).
    replace (open_wb fsA (export_target objA None)) with (@Ok fs (update fsA (resolve fnA) (File []))) by reflexivity.
    rewrite exportA. reflexivity. }
  change (export_target objA None) with fnA. rewrite update_same, exportA. cbn [fst].
  assert (firstn 100 fileA <> fileA) as NE.
  { intros H. apply (f_equal (@List.length _)) in H. rewrite firstn_length, fileA_length in H. vm_compute in H. discriminate. }
  split. { rewrite resolveA. unfold fsA, one_fs. rewrite update_same. congruence. }
  split; [congruence|]. intros kw. unfold new_visible_mesh, first_enter, bf2mesh_init. change (match fnA with [] => _ | _ => _ end) with
    {| b_filename := Some fnA; b_kind := kind_of_name fnA; b_loaded := false |}. cbn [b_filename b_kind].
  rewrite (open_rb_file _ fnA (firstn 100 fileA)); [|discriminate|reflexivity|rewrite lookup_in by (rewrite resolveA; discriminate); apply update_same].
  cbn [bind]. replace (kind_of_name fnA) with k_static_ by reflexivity. rewrite load_via, cut_load. reflexivity.
Qed.

(** ** Another extension *)
Definition zero4 : matrix4 Z := repeat (repeat 0 4) 4.
Definition znode_mesh : mesh Z := set_geoms (ex_mesh 11 k_static_) (map (fun g => {| lodnum := lodnum g; lods := map (fun l =>
  {| lod_min := lod_min l; lod_max := lod_max l; pivot := pivot l; rignum := rignum l; rigs := rigs l; nodenum := nodenum l; nodes := [zero4];
     matnum := matnum l; materials := materials l |}) (lods g) |}) (geoms (ex_mesh 11 k_static_))).
Definition znode_file : bytes := fst (export p64 raw znode_mesh).
Definition fnC : bytes := of_string "objects/a.bundledmesh".
Lemma znode_loads : load p64 raw k_static_ znode_file = Ok znode_mesh.
Proof. vm_compute. reflexivity. Qed.
Lemma znode_bundled : load p64 raw k_bundled_ znode_file = Raise EAttribute.
Proof. vm_compute. reflexivity. Qed.
Theorem wrong_extension L : exists f fn fn' (o : obj) f' o', (forall kw, new_visible_mesh p64 unpack_f f (Some fn) kw = Ok o) /\
  wf p64 (o_mesh o) /\ indexnum (o_mesh o) <> 1 /\
  export_obj (f64 L) p64 pack_f f o (Some fn') false = (f', o', None) /\
  (forall kw, new_visible_mesh p64 unpack_f f' (Some fn') kw = Raise EAttribute).
Proof.
  set (f := one_fs "a.StaticMesh" znode_file). set (o := {| o_mesh := fl znode_mesh; o_filename := fnA; o_loaded := true |}).
  assert (load p64 unpack_f k_static_ znode_file = Ok (fl znode_mesh)) as LD by (rewrite load_via, znode_loads; reflexivity).
  assert (export p64 pack_f (fl znode_mesh) = (znode_file, None)) as EX.
  { apply (reexport_exact p64 k_static_); [exact LD| |discriminate]. intros mr E. rewrite znode_loads in E. injection E as <-. apply no_snan. vm_compute. reflexivity. }
  exists f, fnA, fnC, o. eexists. eexists. split.
  { intros kw. apply (new_file p64 f fnA kw znode_file); [discriminate|reflexivity|rewrite resolveA; apply lookup_one|exact LD]. }
  split; [exact (proj1 (loaded_wf p64 _ _ _ _ LD))|]. split; [discriminate|]. split.
  { unfold export_obj, export_until. replace (exists_ f (dirname (export_target o (Some fnC)))) with true by (vm_compute; reflexivity).
    replace (open_wb f (export_target o (Some fnC))) with (@Ok fs (update f (resolve fnC) (File []))) by reflexivity.
    change (o_mesh o) with (fl znode_mesh). rewrite EX. reflexivity. }
  intros kw. unfold new_visible_mesh, first_enter, bf2mesh_init. change (match fnC with [] => _ | _ => _ end) with
    {| b_filename := Some fnC; b_kind := kind_of_name fnC; b_loaded := false |}. cbn [b_filename b_kind].
  change (export_target o (Some fnC)) with fnC.
  rewrite (open_rb_file _ fnC znode_file); [|discriminate|reflexivity|rewrite lookup_in by discriminate; apply update_same].
  cbn [bind]. replace (kind_of_name fnC) with k_bundled_ by reflexivity. rewrite load_via, znode_bundled. reflexivity.
Qed.
(** One index. *)
Definition fs1 : fs := one_fs "a.StaticMesh" one_file.
Definition obj1 : obj (F := binary64) := {| o_mesh := fl one_mesh; o_filename := fnA; o_loaded := true |}.
Lemma open1 kw : new_visible_mesh p64 unpack_f fs1 (Some fnA) kw = Ok obj1.
Proof. apply (new_file p64 fs1 fnA kw one_file); [discriminate|reflexivity|rewrite resolveA; apply lookup_one|apply one_file_loads_fl]. Qed.
