(** The programs of the README on the box of the repository. *)
From Coq Require Import ZArith List Bool Ascii String Lia Reals Lra.
From Flocq Require Import Core IEEE754.Binary IEEE754.Bits.
From Verif Require Import PyBase Struct Mesh Arith F64 F64Facts RArith Edit Obj Spec SpecF CodecBase CodecFacts SpecEdit SpecBounds SpecObj SpecHist SpecMany ManyFacts TravFacts VertFacts
  LayoutFacts MergeFacts BoundFacts HistFacts ObjFacts PathFacts SpecAcc AccFacts SpecLossless LosslessFacts Witness WitnessEdit WitnessObj WitnessHist WitnessReorder Sample WitnessSample
  ReadMe SpecReadMe ReadMeFacts.
Import ListNotations SpecEdit SpecMany.
Open Scope Z_scope.

Notation obj := (obj (F := binary64)).
Definition zero_f : binary64 := unpack_f 0.
(** 1.5 *)
Definition onehalf_f : binary64 := unpack_f 1069547520.
Lemma onehalf_val : val onehalf_f = (3 / 2)%R.
Proof.
  unfold val, onehalf_f. transitivity (FF2R radix2 (B2FF 53 1024 (unpack_f 1069547520))); [symmetry; apply FF2R_B2FF|].
  replace (B2FF 53 1024 (unpack_f 1069547520)) with (F754_finite false 6755399441055744 (-52)) by (vm_compute; reflexivity).
  unfold FF2R, F2R. cbn. lra.
Qed.
Lemma zero_val : val zero_f = 0%R.
Proof.
  unfold val, zero_f. transitivity (FF2R radix2 (B2FF 53 1024 (unpack_f 0))); [symmetry; apply FF2R_B2FF|].
  now replace (B2FF 53 1024 (unpack_f 0)) with (F754_zero false) by (vm_compute; reflexivity).
Qed.

Lemma box_boundable {F} (g : Z -> F) : boundable 20 (mesh_map g evil_box).
Proof.
  split.
  - cbn [vertex_attributes mesh_map evil_box]. repeat apply Forall_cons; try apply Forall_nil; intros _; split; cbn; tauto.
  - intros _. eexists. split; [reflexivity|]. split; [left; reflexivity|]. vm_compute. lia.
Qed.
Lemma box_kind : m_kind evil_box = k_static_.
Proof. reflexivity. Qed.

(** Half-integers of size up to 4 are singles. *)
Lemma half_single x : finite x -> on_grid (-1) x -> (Rabs (val x) <= 4)%R -> is_single x.
Proof.
  intros Fx (k & G) B. unfold finite in Fx. split; [destruct x; cbn in *; congruence|]. intros _. unfold val in *. split.
  - rewrite G. apply generic_format_FLT. exists (Float radix2 k (-1)); [reflexivity| |cbn; lia]. cbn [Fnum].
    apply lt_IZR. rewrite abs_IZR. rewrite G, Rabs_mult in B. change (bpow radix2 (-1)) with (/ IZR 2)%R in B.
    rewrite (Rabs_pos_eq (/ IZR 2)) in B by lra. change (Zpower radix2 24) with 16777216. lra.
  - apply Rle_lt_trans with (1 := B). change (4 < IZR (2 ^ 128))%R. apply IZR_lt. reflexivity.
Qed.

Section Box.
Variables (L : libm) (f : fs) (src : bytes).
Hypothesis Hsrc : new_visible_mesh p32 unpack_f f (Some src) no_flags = Ok {| o_mesh := fl evil_box; o_filename := src; o_loaded := true |}.

Theorem box_offset dst : can_save f dst -> kind_named k_static_ dst ->
  exists f' r, readme_offset (f64 L) p32 unpack_f pack_f f src [zero_f; zero_f; onehalf_f] dst = (f', None) /\ only_writes f f' dst /\
    (forall kw, new_visible_mesh p32 unpack_f f' (Some dst) kw = Ok {| o_mesh := r; o_filename := dst; o_loaded := true |}) /\
    List.length (vertices r) = List.length (vertices evil_box) /\ index r = index (fl evil_box) /\
    forall j c x, (c < 20)%nat -> nth_error (vertices (fl evil_box)) (j * 20 + c) = Some x ->
      exists y, nth_error (vertices r) (j * 20 + c) = Some y /\
        (c = 2%nat -> val y = (val x + 3 / 2)%R) /\ ((c < 2)%nat -> val y = val x) /\ ((3 <= c)%nat -> rounds_to_single x y /\ (is_single x -> y = x)).
Proof.
  intros C K. pose proof (sample_savable unpack_f _ _ (box_in)) as S. fold (fl evil_box) in S.
  assert (exists a, position_attrib (fl evil_box) = Some a /\ (attrib_start (fl evil_box) a + 3 <= 20)%nat) as P.
  { eexists. split; [reflexivity|]. vm_compute. lia. }
  destruct (offset_saved L p32 20 f src dst [zero_f; zero_f; onehalf_f] _ Hsrc S (box_boundable unpack_f) (fun _ => P)) as (f' & m1 & m2 & rd & E1 & E2 & E3 & E4 & R1 & R2 & E5); auto.
  { vm_compute. discriminate. }
  exists f', (mesh_map rd m2). split; [exact E1|]. split; [exact E4|]. split; [exact E5|]. cbn [o_mesh] in *.
  pose proof S as (_ & (T & _) & Sz & Pos & _). pose proof (sample_short unpack_f _ _ box_in) as Sh.
  destruct (translate_packed (f64 L) 20 _ _ _ Sz Pos T Sh E2) as ((_ & _ & _ & EI) & EL & EN).
  destruct (update_frame _ _ _ _ E3) as (_ & _ & EV & EI2 & _).
  split; [cbn [vertices mesh_map]; rewrite map_length, EV, EL; unfold fl; cbn [vertices mesh_map]; now rewrite map_length|].
  split; [cbn [index mesh_map]; now rewrite EI2, EI|].
  intros j c x Hc Hx. pose proof (EN j c x Hc Hx) as Hy. exists (rd (moved (f64 L) (position_start (fl evil_box)) [zero_f; zero_f; onehalf_f] c x)).
  split; [cbn [vertices mesh_map]; now rewrite nth_error_map, EV, Hy|].
  assert (Forall (fun d => finite d /\ on_grid (-1) d /\ (Rabs (val d) <= bpow radix2 51)%R) [zero_f; zero_f; onehalf_f]) as D.
  { assert (bpow radix2 51 = IZR 2251799813685248) as B51 by reflexivity.
    repeat constructor; try reflexivity; try (exists 0; rewrite zero_val; lra); try (rewrite zero_val, Rabs_R0; lra).
    - exists 3. rewrite onehalf_val. change (bpow radix2 (-1)) with (/ IZR 2)%R. lra.
    - rewrite onehalf_val, Rabs_pos_eq; lra. }
  destruct (sample_translate L _ _ _ _ _ box_in D) as (m1' & m2' & X1 & _ & X3). fold (fl evil_box) in X1.
  replace m1' with m1 in * by congruence. clear X1.
  assert (forall d, nth_error [zero_f; zero_f; onehalf_f] c = Some d -> (Rabs (val d) <= 3 / 2)%R -> val (rd (moved (f64 L) (position_start (fl evil_box)) [zero_f; zero_f; onehalf_f] c x)) = (val x + val d)%R) as V.
  { intros d Hd Bd. assert (c < 3)%nat as C3. { change 3%nat with (List.length [zero_f; zero_f; onehalf_f]). apply nth_error_Some. congruence. }
    destruct (X3 j c x d Hx Hd) as (x1 & _ & Y1 & Y2 & _). rewrite Hy in Y1. injection Y1 as <-.
    destruct (sample_positions _ _ j c x box_in C3 Hx) as (Fx & (kx & Gx) & Bx).
    assert (on_grid (-1) d) as (kd & Gd) by (rewrite Forall_forall in D; apply D; eapply nth_error_In; exact Hd).
    rewrite R2; [exact Y2|]. apply half_single.
    - assert (finite d) as Fd by (rewrite Forall_forall in D; apply D; eapply nth_error_In; exact Hd).
      change (position_start (fl evil_box)) with 0%nat. unfold moved. cbn [Nat.leb]. rewrite Nat.sub_0_r, Hd.
      apply (plus_ok L); [exact Fx|exact Fd|]. pose proof (Rabs_triang (val x) (val d)). apply Rle_trans with 4%R; [lra|].
      change 4%R with (bpow radix2 2). apply bpow_le. lia.
    - exists (kx + kd). rewrite Y2, Gx, Gd, plus_IZR. ring.
    - rewrite Y2. pose proof (Rabs_triang (val x) (val d)). lra. }
  split; [intros ->; rewrite (V onehalf_f eq_refl); rewrite onehalf_val; [reflexivity|rewrite Rabs_pos_eq; lra]|].
  split.
  - intros C2. rewrite (V zero_f); [rewrite zero_val; lra|destruct c as [|[|c]]; [reflexivity|reflexivity|lia]|rewrite zero_val, Rabs_R0; lra].
  - intros C3. change (position_start (fl evil_box)) with 0%nat. unfold moved. cbn [Nat.leb]. rewrite Nat.sub_0_r.
    replace (nth_error [zero_f; zero_f; onehalf_f] c) with (@None binary64) by (symmetry; apply nth_error_None; cbn; lia). auto.
Qed.

(** Two boxes in the place of one. *)
Theorem box_merged dst : can_save f dst -> kind_named k_static_ dst ->
  exists f' r m1, readme_merge (f64 L) p32 unpack_f pack_f f src src dst = (f', None) /\ only_writes f f' dst /\
    (forall kw, new_visible_mesh p32 unpack_f f' (Some dst) kw = Ok {| o_mesh := r; o_filename := dst; o_loaded := true |}) /\
    merge (fl evil_box) (fl evil_box) = (m1, Merged) /\ vertices r = vertices m1 /\ index r = index m1 /\ vertnum r = 50 /\ indexnum r = 72.
Proof.
  intros C K. pose proof (sample_savable unpack_f _ _ (box_in)) as S. fold (fl evil_box) in S.
  destruct (box_copies unpack_f 1 ltac:(lia)) as (m1 & E & EV & EI). cbn [repeat merge_each] in E. fold (fl evil_box) in E.
  assert (merge (fl evil_box) (fl evil_box) = (m1, Merged)) as EM.
  { destruct (merge (fl evil_box) (fl evil_box)) as (m', r) eqn:X. destruct r as [| |e]; [injection E as <-; reflexivity| |discriminate].
    injection E as <-. apply refused_same in X. subst m'. discriminate. }
  assert (vertnum m1 = 50 /\ indexnum m1 = 72) as (EV' & EI') by (rewrite EV, EI; split; reflexivity). clear EV EI.
  assert (is_long p32 (vertnum m1)) as LV by (rewrite EV'; split; vm_compute; [discriminate|reflexivity]).
  assert (is_long p32 (indexnum m1)) as LI by (rewrite EI'; split; vm_compute; [discriminate|reflexivity]).
  assert (vertnum m1 * Z.of_nat 20 <= 2 ^ 53) as LB by (rewrite EV'; vm_compute; discriminate).
  destruct (merge_saved L p32 20 f src src dst _ _ m1 Hsrc Hsrc S S (box_boundable unpack_f) EM LV LI LB C K) as (f' & r & E1 & E2 & E3 & E4).
  destruct (update_frame _ _ _ _ E2) as (_ & (HV & HI) & HVs & HIs & _).
  exists f', r, m1. split; [exact E1|]. split; [exact E3|]. split; [exact E4|]. split; [exact EM|]. split; [exact HVs|]. split; [exact HIs|].
  rewrite HV, HI. split; assumption.
Qed.
End Box.

(** A directory with the box. *)
Definition fs_box : fs := one_fs "evil_box.staticMesh" evil_box_file.
Definition in_objects : bytes := of_string "objects/".
Definition dst_box : bytes := in_objects ++ readme_box_offset.
Lemma open_box : new_visible_mesh p32 unpack_f fs_box (Some (in_objects ++ readme_box)) no_flags =
  Ok {| o_mesh := fl evil_box; o_filename := in_objects ++ readme_box; o_loaded := true |}.
Proof.
  apply (new_file p32 _ _ _ evil_box_file); [discriminate|reflexivity|apply lookup_one|].
  replace (kind_of_name (in_objects ++ readme_box)) with k_static_ by reflexivity. exact (sample_loads unpack_f _ _ box_in).
Qed.
Lemma save_box : can_save fs_box dst_box /\ kind_named k_static_ dst_box.
Proof.
  split; [|replace k_static_ with (kind_of_name dst_box) by reflexivity; apply kind_of_name_spec].
  split; [apply one_tree|]. split; [|split; [vm_compute; tauto|split]].
  - exists in_objects, readme_box_offset. split; [reflexivity|]. split; [right; exists (of_string "objects"); reflexivity|].
    split; [apply box_offset_bare|split; discriminate].
  - intros (r, q) c N (E & k & E2). change (fst (r, q)) with r in E. subst r. cbn [snd] in E2.
    change (snd (resolve dst_box)) with [of_string "objects"; readme_box_offset] in E2. change (fst (resolve dst_box)) with false in *.
    destruct q as [|x1 [|x2 [|]]]; try discriminate; injection E2; intros; subst; [vm_compute; discriminate|]. now contradiction N.
  - vm_compute. discriminate.
Qed.

(** A directory with a mesh of two geoms. *)
Definition fn_duo : bytes := of_string "objects/duo.staticMesh".
Definition fs_duo : fs := one_fs "duo.staticMesh" (file_of duo_mesh).
Definition obj_duo : obj := {| o_mesh := fl duo_mesh; o_filename := fn_duo; o_loaded := true |}.
Lemma open_duo : new_visible_mesh p64 unpack_f fs_duo (Some fn_duo) no_flags = Ok obj_duo.
Proof.
  apply (new_file p64 _ _ _ (file_of duo_mesh)); [discriminate|reflexivity|apply lookup_one|].
  replace (kind_of_name fn_duo) with k_static_ by reflexivity. exact duo_loads.
Qed.
Lemma duo_ready : savable p64 7 (o_mesh obj_duo) /\ boundable 7 (o_mesh obj_duo) /\ permutes (List.length (geoms (o_mesh obj_duo))) [1; -2] [1; 0]%nat /\
  vertnum (o_mesh obj_duo) * Z.of_nat 7 <= 2 ^ 53 /\ can_save fs_duo fn_duo.
Proof.
  split; [exact duo_savable|]. split; [|split; [exact duo_swap|split; [vm_compute; discriminate|]]].
  - split; [repeat apply Forall_cons; try apply Forall_nil; intros _; split; cbn; tauto|].
    intros _. eexists. split; [reflexivity|]. split; [left; reflexivity|]. vm_compute. lia.
  - split; [apply one_tree|]. split; [|split; [vm_compute; tauto|split]].
    + exists in_objects, (of_string "duo.staticMesh"). split; [reflexivity|]. split; [right; exists (of_string "objects"); reflexivity|].
      split; [|split; discriminate]. intros H. vm_compute in H. decompose [or] H; try discriminate; easy.
    + intros (r, q) c N (E & k & E2). change (fst (r, q)) with r in E. subst r. cbn [snd] in E2.
      change (snd (resolve fn_duo)) with [of_string "objects"; of_string "duo.staticMesh"] in E2. change (fst (resolve fn_duo)) with false in *.
      destruct q as [|x1 [|x2 [|]]]; try discriminate; injection E2; intros; subst; [vm_compute; discriminate|]. now contradiction N.
    + intros H. change (resolve fn_duo) with (false, [of_string "objects"; of_string "duo.staticMesh"]) in H. unfold fs_duo in H. rewrite lookup_one in H. discriminate.
Qed.
