(** The sample meshes of the repository, loaded. *)
From Coq Require Import ZArith List Bool Ascii String Lia Reals Lra Permutation Relations.
From Flocq Require Import Core IEEE754.Binary IEEE754.Bits.
From Verif Require Import PyBase Struct Mesh Arith F64 RArith Edit Obj Spec CodecBase CodecRaw CodecParam CodecFacts SpecFormat FormatFacts
  SpecEdit SpecVec SpecBounds SpecSurface SpecHist SpecMany SpecOldEdit TravFacts VertFacts LayoutFacts MergeFacts ManyFacts ManySurface
  SurfaceFacts MockFacts SpecAcc AccFacts SpecCol Col ColFacts SpecMock Old SpecOld OldFacts HistFacts Witness WitnessEdit WitnessMerge WitnessCol Sample.
Import ListNotations SpecEdit SpecMany.
Open Scope Z_scope.

Definition loaded_of (file : bytes) : mesh Z := match load p32 raw k_static_ file with Ok m => m | Raise _ => ex_mesh 11 k_static_ end.
Definition evil_box : mesh Z := Eval vm_compute in loaded_of evil_box_file.
Definition evil_dest : mesh Z := Eval vm_compute in loaded_of evil_dest_file.
Definition evil_lods : mesh Z := Eval vm_compute in loaded_of evil_lods_file.
Definition samples : list (bytes * mesh Z) := [(evil_box_file, evil_box); (evil_dest_file, evil_dest); (evil_lods_file, evil_lods)].

Ltac each_sample H := cbn [In samples] in H; destruct H as [H | [H | [H | []]]]; injection H as <- <-.

Lemma sample_raw file m : In (file, m) samples -> load p32 raw k_static_ file = Ok m.
Proof. intros H. each_sample H; vm_compute; reflexivity. Qed.
Lemma sample_loads {F} (u : Z -> F) file m : In (file, m) samples -> load p32 u k_static_ file = Ok (mesh_map u m).
Proof. intros H. rewrite load_via, (sample_raw file m H). reflexivity. Qed.
(** With a long of 8 bytes the count of geoms is read from other bytes. *)
Lemma geom_reads {F} bs g rest : load_geom (F:=F) p64 bs = Ok (g, rest) -> zlen rest = zlen bs - 8.
Proof.
  unfold load_geom, read_long, rbind, read_raw. change (Z.of_nat (long_bytes p64)) with 8. change (8 <? 0) with false. cbn [orb].
  destruct (Z.ltb_spec (zlen bs) 8) as [L|L]; [discriminate|]. change (Z.to_nat 8) with 8%nat. intros H. injection H as _ <-.
  change (zlen (skipn 8 bs) = zlen bs - 8). unfold zlen in *. rewrite skipn_length. lia.
Qed.
Lemma geoms_read {F} n : forall bs gs rest, read_n (load_geom (F:=F) p64) n bs = Ok (gs, rest) -> 8 * Z.of_nat n <= zlen bs.
Proof.
  induction n as [|n IH]; intros bs gs rest H; [unfold zlen; lia|]. cbn [read_n] in H. unfold rbind in H.
  destruct (load_geom (F:=F) p64 bs) as [(g, r1)|] eqn:E; [|discriminate]. apply geom_reads in E. cbn [bind] in H.
  destruct (read_n (load_geom (F:=F) p64) n r1) as [(t, r2)|] eqn:E2; [|discriminate]. apply IH in E2. lia.
Qed.
Definition first_reads : reader (head * Z * Z) :=
  rbind (load_head p64) (fun h => rbind (read_byte p64) (fun u => rbind (read_long p64) (fun gn => rret (h, u, gn)))).
Lemma first_stuck {F} (u : Z -> F) k bs h u1 gn rest m : first_reads bs = Ok (h, u1, gn, rest) -> zlen rest < 8 * gn -> load p64 u k bs <> Ok m.
Proof.
  intros E L H. unfold load, load_body in H. unfold first_reads in E. unfold rbind at 1 2 3 in H. unfold rbind in E.
  destruct (load_head p64 bs) as [(h', r1)|]; [|discriminate]. cbn [bind] in E, H. destruct (read_byte p64 r1) as [(u', r2)|]; [|discriminate]. cbn [bind] in E, H.
  destruct (read_long p64 r2) as [(g', r3)|]; [|discriminate]. cbn [bind rret] in E, H. injection E as -> -> -> ->.
  unfold rbind at 1 in H. destruct (read_n (load_geom (F:=F) p64) (Z.to_nat gn) rest) as [(gs, r4)|] eqn:E; [|discriminate].
  apply geoms_read in E. unfold zlen in *. lia.
Qed.
Lemma sample_long8 {F} (u : Z -> F) file m k m' : In (file, m) samples -> load p64 u k file <> Ok m'.
Proof.
  intros H. each_sample H; (eapply first_stuck; [vm_compute; reflexivity|]); vm_compute; reflexivity.
Qed.
Lemma sample_exports file m : In (file, m) samples -> export p32 raw m = (file, None).
Proof. intros H. each_sample H; vm_compute; reflexivity. Qed.

(** ** What the theorems ask of a mesh *)
Section Fit.
Context {F : Type} (f : Z -> F).
Lemma sample_size file m : In (file, m) samples -> vertex_size (mesh_map f m) = Ok (Z.of_nat 20).
Proof. intros H. each_sample H; reflexivity. Qed.
Lemma sample_packed file m : In (file, m) samples -> packed 20 (mesh_map f m).
Proof.
  intros H. split; [exists (vertnum m)|exists (index_list m)]; each_sample H; (split; [vm_compute; reflexivity|vm_compute; repeat split; discriminate]).
Qed.
Lemma sample_closed file m : In (file, m) samples -> closed (mesh_map f m).
Proof. intros H. apply closed_check. each_sample H; vm_compute; reflexivity. Qed.
Lemma sample_in_range file m : In (file, m) samples -> in_range 20 (mesh_map f m).
Proof. intros H. apply packed_in_range. now apply (sample_packed file). Qed.
Lemma sample_short file m : In (file, m) samples -> short_offsets (mesh_map f m).
Proof.
  intros H. assert (vertformat m = 4 /\ vertex_attributes m = vertex_attributes evil_box) as (E1 & E2) by (each_sample H; split; reflexivity).
  split; cbn [vertformat vertex_attributes mesh_map]; [rewrite E1; reflexivity|]. rewrite E2. cbn [vertex_attributes evil_box]. repeat constructor; cbn; lia.
Qed.
Lemma sample_canonical file m : In (file, m) samples -> canonical 20 (mesh_map f m).
Proof.
  intros H. pose proof (sample_short file m H) as S.
  assert (vertformat m = 4 /\ vertex_attributes m = vertex_attributes evil_box /\ vertstride m = 80 /\
    zlen (vertices m) = vertnum m * 20 /\ vertnum m <= 50) as (E1 & E2 & E3 & E4 & E5) by (each_sample H; repeat split; vm_compute; discriminate || reflexivity).
  assert (zlen (vertices (mesh_map f m)) = zlen (vertices m)) as EL by (cbn [vertices mesh_map]; unfold zlen; now rewrite map_length).
  constructor; cbn [vertformat vertstride vertnum vertex_attributes mesh_map] in *; rewrite ?E1, ?E2, ?E3; try exact S; try lia.
  - cbn [vertex_attributes evil_box]. repeat apply Forall_cons; try apply Forall_nil; split; cbn; tauto.
  - let t := eval vm_compute in (filter in_use (vertex_attributes evil_box)) in change (filter in_use (vertex_attributes evil_box)) with t.
    apply (declared_cons _ 0 _ 3); [cbn; tauto|reflexivity|]. apply (declared_cons _ 3 _ 3); [cbn; tauto|reflexivity|].
    apply (declared_cons _ 6 _ 1); [cbn; tauto|reflexivity|]. apply (declared_cons _ 7 _ 2); [cbn; tauto|reflexivity|].
    apply (declared_cons _ 9 _ 2); [cbn; tauto|reflexivity|]. apply (declared_cons _ 11 _ 2); [cbn; tauto|reflexivity|].
    apply (declared_cons _ 13 _ 2); [cbn; tauto|reflexivity|]. apply (declared_cons _ 15 _ 2); [cbn; tauto|reflexivity|].
    apply (declared_cons _ 17 _ 3); [cbn; tauto|reflexivity|]. apply (declared_nil _ 20).
  - change (map usage _) with [0; 3; 2; 5; 261; 517; 773; 1029; 6]. repeat constructor; cbn; lia.
Qed.
Lemma sample_ready file m : In (file, m) samples -> rotate_ready 20 (mesh_map f m).
Proof.
  intros H. split; [now apply (sample_short file)|].
  assert (vertformat m = vertformat evil_box /\ vertex_attributes m = vertex_attributes evil_box) as (E1 & E2) by (each_sample H; split; reflexivity).
  unfold oriented_attribs, SpecEdit.apart, attrib_start. cbn [vertformat vertex_attributes mesh_map]. rewrite E1, E2.
  match goal with |- Forall _ ?l /\ _ => let t := eval vm_compute in l in change l with t end. split.
  - repeat apply Forall_cons; try apply Forall_nil; (split; [reflexivity|]); vm_compute; lia.
  - repeat constructor; vm_compute; lia.
Qed.
Lemma sample_drawable file m : In (file, m) samples -> drawable 20 (mesh_map f m).
Proof.
  intros H. constructor; eauto using sample_size, sample_packed, sample_closed, sample_ready; [lia|]. each_sample H; eexists; reflexivity.
Qed.
Lemma sample_whole file m : In (file, m) samples -> whole (mesh_map f m).
Proof. intros H. each_sample H; repeat constructor. Qed.
Lemma sample_savable file m : In (file, m) samples -> savable p32 20 (mesh_map f m).
Proof.
  intros H. destruct (loaded_wf p32 f k_static_ file _ (sample_loads f file m H)) as (W & _). split; [exact W|].
  split; [now apply (sample_packed file)|]. split; [now apply (sample_size file)|]. split; [lia|]. split; [lia|].
  each_sample H; (split; [reflexivity|]; split; [reflexivity|]; split; [vm_compute; reflexivity|]);
    cbn [vertex_attributes mesh_map evil_box evil_dest evil_lods]; repeat constructor; vm_compute; discriminate.
Qed.
End Fit.

(** ** The box *)
(** The number that a pattern in the file stands for. *)
Definition real_of (b : Z) : R := B2R 53 1024 (unpack_f b).
Definition map3 {A B} (g : A -> B) (v : vec3 A) : vec3 B := let '(x, y, z) := v in (g x, g y, g z).
Definition box_raw : list (vec3 Z * vec3 Z * vec3 Z) :=
  Eval vm_compute in map (on3 (fun v => (nth 0 v 0, nth 1 v 0, nth 2 v 0))) (faces 20 evil_box).
Lemma box_surface_raw (g : Z -> R) : surface 20 (mesh_map g evil_box) = map (on3 (map3 g)) box_raw.
Proof. vm_compute. reflexivity. Qed.
(** Twice the number, for the four patterns that occur. *)
Definition twice (b : Z) : Z := if b =? 0 then 0 else if b =? 1056964608 then 1 else if b =? 3204448256 then -1 else 2.
Lemma real_twice b : In b [0; 1056964608; 3204448256; 1065353216] -> real_of b = (IZR (twice b) / 2)%R.
Proof.
  intros H. assert (is_bits32 b) as B by (cbn [In] in H; unfold is_bits32; lia). pose proof (unpack_value b B) as V. unfold real_of.
  cbn [In] in H. unfold single_value in V.
  repeat match goal with H : _ \/ _ |- _ => destruct H as [H|H] end; try contradiction; subst b;
  match type of V with context [if (?b / 2 ^ 23) mod 256 =? 255 then _ else _] =>
    let e := eval vm_compute in ((b / 2 ^ 23) mod 256) in change ((b / 2 ^ 23) mod 256) with e in V;
    let k := eval vm_compute in (b mod 2 ^ 23) in change (b mod 2 ^ 23) with k in V;
    let s := eval vm_compute in (2 ^ 31 <=? b) in change (2 ^ 31 <=? b) with s in V;
    let t := eval vm_compute in (twice b) in change (twice b) with t end.
  all: cbn [Z.eqb Pos.eqb] in V; destruct V as (_ & _ & ->).
  all: change (2 ^ 23 + 0) with 8388608; 
    change (bpow radix2 (126 - 150)) with (/ IZR 16777216)%R; change (bpow radix2 (127 - 150)) with (/ IZR 8388608)%R; lra.
Qed.
Definition known3 (v : vec3 Z) : bool :=
  let '(x, y, z) := v in forallb (fun b => existsb (Z.eqb b) [0; 1056964608; 3204448256; 1065353216]) [x; y; z].
Lemma known3_half v : known3 v = true -> map3 real_of v = half3 (map3 twice v).
Proof.
  destruct v as ((x, y), z). unfold known3. cbn [forallb]. rewrite !andb_true_iff, !existsb_exists.
  intros ((x' & Hx & Ex) & (y' & Hy & Ey) & (z' & Hz & Ez) & _). apply Z.eqb_eq in Ex, Ey, Ez. subst x' y' z'.
  cbn [map3 half3]. now rewrite !real_twice.
Qed.
Definition box_twice : list (vec3 Z * vec3 Z * vec3 Z) := Eval vm_compute in map (on3 (map3 twice)) box_raw.
Lemma sample_surface : surface 20 (mesh_map real_of evil_box) = map (on3 half3) box_twice.
Proof.
  rewrite box_surface_raw. change box_twice with (map (on3 (map3 twice)) box_raw). rewrite map_map. apply map_ext_in. intros t Ht.
  assert (forallb (fun t => let '(u, v, w) := t in forallb known3 [u; v; w]) box_raw = true) as A by (vm_compute; reflexivity).
  rewrite forallb_forall in A. specialize (A t Ht). destruct t as ((u, v), w). cbn [forallb] in A. rewrite !andb_true_iff in A. destruct A as (A1 & A2 & A3 & _).
  cbn [on3]. now rewrite !known3_half.
Qed.
Lemma sample_zclosed : closed_surface box_twice.
Proof.
  split.
  - apply (nodupb_ok edge_eqb edge_eqb_eq). vm_compute. reflexivity.
  - set (es := edges _). assert (forallb (fun e => existsb (edge_eqb (snd e, fst e)) es) es = true) as H by (vm_compute; reflexivity).
    intros a b Hab. rewrite forallb_forall in H. specialize (H _ Hab). apply existsb_exists in H. destruct H as (e & He & E).
    apply edge_eqb_eq in E. cbn [fst snd] in E. subst e. exact He.
Qed.
Lemma sample_surface_closed : closed_surface (surface 20 (mesh_map real_of evil_box)).
Proof. rewrite sample_surface. apply closed_map; [exact half3_inj|exact sample_zclosed]. Qed.
Lemma sample_volume : volume (surface 20 (mesh_map real_of evil_box)) = 1%R.
Proof.
  rewrite sample_surface. unfold volume, sumR, triple_product, scalar_product, vector_product, axis, half3, box_twice. cbn [map on3 fold_right]. cbv beta iota. lra.
Qed.
Lemma sample_area : area (surface 20 (mesh_map real_of evil_box)) = 6%R.
Proof.
  rewrite sample_surface. unfold area, sumR, box_twice. cbn [map on3 fold_right].
  assert (forall x, x = 1%R -> sqrt x = 1%R) as S by (intros x ->; apply sqrt_1).
  rewrite !S by (unfold facing, minus, scalar_product, vector_product, axis, half3; lra). lra.
Qed.

(** However it is moved and turned, it stays a closed box of the same size. *)
Theorem sample_moves m : clos_refl_trans _ move (mesh_map real_of evil_box) m ->
  drawable 20 m /\ closed_surface (surface 20 m) /\ area (surface 20 m) = 6%R /\ volume (surface 20 m) = 1%R.
Proof.
  intros H. assert (In (evil_box_file, evil_box) samples) as I by (left; reflexivity). pose proof (sample_drawable real_of _ _ I) as D.
  destruct (moves_measures 20 _ m D H) as (A & C & V & _). destruct (moves_carried 20 _ m D H) as (D' & _). split; [exact D'|].
  pose proof sample_surface_closed as SC. split; [now apply C|]. rewrite A, V by exact SC. split; [exact sample_area|exact sample_volume].
Qed.

(** ** How many copies of the box can be merged into it *)
Section Copies.
Context {F : Type} (f : Z -> F).
Notation box := (mesh_map f evil_box).
Lemma box_in : In (evil_box_file, evil_box) samples. Proof. left. reflexivity. Qed.
Lemma box_mats : exists mt, mats box = [mt] /\ vnum mt = 25 /\ inum mt = 36 /\ forall i, In i (mat_indices box mt) -> i <= 24.
Proof.
  eexists. split; [reflexivity|]. split; [reflexivity|]. split; [reflexivity|]. intros i Hi.
  match type of Hi with In i ?l => assert (forallb (fun i => i <=? 24) l = true) as A by (vm_compute; reflexivity) end.
  rewrite forallb_forall in A. apply Z.leb_le. now apply A.
Qed.
Lemma box_last : exists mt, mats box = [mt] /\ vnum mt = 25 /\ In 24 (mat_indices box mt).
Proof. eexists. split; [reflexivity|]. split; [reflexivity|]. vm_compute. tauto. Qed.
Theorem box_copies n : Z.of_nat n <= 2620 -> exists r, merge_each box (repeat box n) = (r, None) /\
  vertnum r = 25 * (Z.of_nat n + 1) /\ indexnum r = 36 * (Z.of_nat n + 1).
Proof.
  intros L. pose proof (sample_size f _ _ box_in) as Hs. pose proof (sample_in_range f _ _ box_in) as R.
  destruct (copies_fit 20 box box n Hs R R (compatible_refl box)) as (_ & O). destruct O as (r & E).
  { intros (k & x & y & i & Hx & Hy & Hi & _ & O). destruct box_mats as (mt & E & V & _ & B). apply nth_error_In in Hx, Hy.
    rewrite E in Hx, Hy. destruct Hx as [<- | []], Hy as [<- | []]. specialize (B i Hi). rewrite V in O. lia. }
  exists r. split; [exact E|]. destruct n as [|n]; [injection E as <-; split; reflexivity|].
  destruct (each_result 20 (repeat box (S n)) box r Hs R) as (_ & _ & _ & _ & LM & _ & T & K); try exact E.
  { apply Forall_forall. intros c Hc. apply repeat_spec in Hc. now subst. }
  { apply Forall_forall. intros c Hc. apply repeat_spec in Hc. subst. apply compatible_refl. }
  destruct T as (_ & -> & ->); [discriminate|]. destruct box_mats as (mt & EM & V & I & _). rewrite EM in LM, K.
  destruct (mats r) as [|z [|]] eqn:EZ; try discriminate.
  destruct (K 0%nat mt (repeat mt (S n)) z) as (V' & I' & _); [reflexivity|apply kth_repeat; rewrite EM; reflexivity|reflexivity|].
  cbn [sumZ]. rewrite V', I', !sum_repeat, V, I. lia.
Qed.
Theorem box_too_many n : 2620 < Z.of_nat n -> exists m, merge_each box (repeat box n) = (m, Some EOverflow).
Proof.
  intros L. pose proof (sample_size f _ _ box_in) as Hs. pose proof (sample_in_range f _ _ box_in) as R.
  destruct (copies_fit 20 box box n Hs R R (compatible_refl box)) as (O & _). apply O.
  destruct box_last as (mt & E & V & I). exists 0%nat, mt, mt, 24. rewrite E. split; [reflexivity|]. split; [reflexivity|]. split; [exact I|].
  rewrite V. lia.
Qed.
End Copies.
Theorem box_copies_surface n r : merge_each (mesh_map real_of evil_box) (repeat (mesh_map real_of evil_box) n) = (r, None) ->
  drawable 20 r /\ area (surface 20 r) = (6 * (INR n + 1))%R /\ volume (surface 20 r) = (INR n + 1)%R.
Proof.
  intros E. pose proof (sample_drawable real_of _ _ box_in) as D. pose proof (sample_whole real_of _ _ box_in) as W.
  assert (forall P : mesh R -> Prop, P (mesh_map real_of evil_box) -> Forall P (repeat (mesh_map real_of evil_box) n)) as A.
  { intros P HP. apply Forall_forall. intros c Hc. apply repeat_spec in Hc. now subst. }
  destruct (each_measures 20 _ _ r D (A _ D) W (A _ W) (A (fun b => vertformat b = _) eq_refl) (A _ (compatible_refl _)) E) as (D' & _ & _ & Ea & Ev).
  split; [exact D'|]. rewrite Ea, Ev. rewrite sample_area, sample_volume.
  assert (forall g x, g (mesh_map real_of evil_box) = x -> sumR (map g (repeat (mesh_map real_of evil_box) n)) = (INR n * x)%R) as S.
  { intros g x Hg. clear -Hg. induction n as [|n IH]; [cbn; lra|]. cbn [repeat map]. unfold sumR in *. cbn [fold_right]. rewrite IH, Hg, S_INR. lra. }
  rewrite (S (fun b => area (surface 20 b)) 6%R sample_area), (S (fun b => volume (surface 20 b)) 1%R sample_volume). split; lra.
Qed.

(** ** Moving a sample by multiples of one half and back *)
Lemma sample_positions file m j c x : In (file, m) samples -> (c < 3)%nat -> nth_error (vertices (fl m)) (j * 20 + c) = Some x ->
  finite x /\ on_grid (-1) x /\ (Rabs (val x) <= 1)%R.
Proof.
  intros H Hc Hx. unfold fl in Hx. cbn [vertices mesh_map] in Hx. rewrite nth_error_map in Hx.
  destruct (nth_error (vertices m) (j * 20 + c)) as [b|] eqn:E; [|discriminate]. injection Hx as <-.
  assert (j < 50)%nat as J.
  { assert (j * 20 + c < List.length (vertices m))%nat as L by (apply nth_error_Some; congruence).
    assert (List.length (vertices m) <= 1000)%nat by (each_sample H; vm_compute; lia). lia. }
  assert (forallb (fun j => forallb (fun c => match nth_error (vertices m) (j * 20 + c) with
    | Some b => existsb (Z.eqb b) [0; 1056964608; 3204448256; 1065353216] | None => true end) (seq 0 3)) (seq 0 50) = true) as A.
  { each_sample H; vm_compute; reflexivity. }
  rewrite forallb_forall in A. specialize (A j ltac:(apply in_seq; lia)). rewrite forallb_forall in A. specialize (A c ltac:(apply in_seq; lia)).
  rewrite E, existsb_exists in A. destruct A as (b' & Hb & Eb). apply Z.eqb_eq in Eb. subst b'.
  pose proof (real_twice b Hb) as V. unfold real_of in V. unfold val. split.
  - cbn [In] in Hb. repeat match goal with H : _ \/ _ |- _ => destruct H as [H|H] end; try contradiction; subst b; vm_compute; reflexivity.
  - split.
    + exists (twice b). unfold val. rewrite V. change (bpow radix2 (-1)) with (/ IZR 2)%R. lra.
    + rewrite V. assert (-2 <= twice b <= 2) as (T1 & T2).
      { unfold twice. repeat match goal with |- context [if ?c then _ else _] => destruct c end; lia. }
      apply IZR_le in T1, T2. apply Rabs_le. lra.
Qed.
Theorem sample_translate L file m dx dy dz : In (file, m) samples ->
  Forall (fun d => finite d /\ on_grid (-1) d /\ (Rabs (val d) <= bpow radix2 51)%R) [dx; dy; dz] ->
  exists m1 m2, translate (f64 L) (fl m) [dx; dy; dz] = (m1, None) /\ translate (f64 L) m1 (map b64_opp [dx; dy; dz]) = (m2, None) /\
  forall j c x d, nth_error (vertices (fl m)) (j * 20 + c) = Some x -> nth_error [dx; dy; dz] c = Some d ->
    exists x1 x2, nth_error (vertices m1) (j * 20 + c) = Some x1 /\ val x1 = (val x + val d)%R /\
                  nth_error (vertices m2) (j * 20 + c) = Some x2 /\ val x2 = val x.
Proof.
  intros H D. pose proof (sample_size unpack_f _ _ H) as Hs. destruct (sample_packed unpack_f _ _ H) as (T & _). pose proof (sample_short unpack_f _ _ H) as Sh.
  assert (exists a, position_attrib (fl m) = Some a /\ (attrib_start (fl m) a + 3 <= 20)%nat) as P.
  { each_sample H; eexists; (split; [reflexivity|]); vm_compute; lia. }
  destruct (translate_succeeds (f64 L) 20 (fl m) [dx; dy; dz] Hs ltac:(lia) T Sh) as (m1 & E1); [intros _; exact P|].
  destruct (translate_grid L 20 (fl m) [dx; dy; dz] m1 (-1) Hs ltac:(lia) T Sh ltac:(lia) E1) as (m2 & E2 & K).
  exists m1, m2. split; [exact E1|]. split; [exact E2|]. intros j c x d Hx Hd.
  assert (c < 3)%nat as Hc. { change 3%nat with (List.length [dx; dy; dz]). apply nth_error_Some. congruence. }
  destruct (sample_positions file m j c x H Hc Hx) as (Fx & Gx & Bx).
  rewrite Forall_forall in D. destruct (D d ltac:(eapply nth_error_In; exact Hd)) as (Fd & Gd & Bd).
  assert (position_start (fl m) = 0%nat) as PS by (each_sample H; reflexivity).
  assert (bpow radix2 52 = 2 * bpow radix2 51)%R as B52 by (change (IZR 4503599627370496 = 2 * IZR 2251799813685248)%R; lra).
  assert (1 < bpow radix2 51)%R as B1 by (change (1 < IZR 2251799813685248)%R; lra).
  apply (K j c x d); auto; try lia.
  - unfold moved_at. rewrite PS, Nat.sub_0_r. split; [lia|exact Hd].
  - change (-1 + 53) with 52. rewrite B52. lra.
  - change (-1 + 53) with 52. rewrite B52. pose proof (Rabs_triang (val x) (val d)). lra.
Qed.

(** ** Collision meshes *)
Definition col_loaded_of (file : bytes) : colmesh Z colface := match col_load p32 raw file with Ok m => m | Raise _ => ex_col 10 0 end.
Definition evil_col : colmesh Z colface := Eval vm_compute in col_loaded_of evil_col_file.
Definition evil_col_lods : colmesh Z colface := Eval vm_compute in col_loaded_of evil_col_lods_file.
Definition col_samples : list (bytes * colmesh Z colface) := [(evil_col_file, evil_col); (evil_col_lods_file, evil_col_lods)].
Ltac each_col H := cbn [In col_samples] in H; destruct H as [H | [H | []]]; injection H as <- <-.
Lemma col_sample_loads {F} (u : Z -> F) file m : In (file, m) col_samples -> col_load p32 u file = Ok (colmesh_map u (fun x => x) m).
Proof.
  intros H. rewrite col_load_via. assert (col_load p32 raw file = Ok m) as -> by (each_col H; vm_compute; reflexivity). reflexivity.
Qed.
Lemma col_sample_saved file m : In (file, m) col_samples -> write_colmesh p32 raw m = (file, None).
Proof. intros H. each_col H; vm_compute; reflexivity. Qed.
Lemma col_sample_saved_f file m : In (file, m) col_samples -> write_colmesh p32 pack_f (colmesh_map unpack_f (fun x => x) m) = (file, None).
Proof.
  intros H. rewrite write_col_via, colmesh_map_map.
  assert (colmesh_map (fun x => pack_f (unpack_f x)) (fun x => x) m = m) as -> by (each_col H; vm_compute; reflexivity).
  now apply col_sample_saved.
Qed.

(** ** With floats *)
Lemma sample_no_snan file m : In (file, m) samples -> mesh_all (fun b => ~ snan b) m.
Proof. intros H. apply no_snan. each_sample H; vm_compute; reflexivity. Qed.
Lemma sample_resaved file m : In (file, m) samples -> export p32 pack_f (fl m) = (file, None).
Proof.
  intros H. apply (reexport_exact p32 k_static_).
  - exact (sample_loads unpack_f file m H).
  - intros mr E. rewrite (sample_raw file m H) in E. injection E as <-. exact (sample_no_snan file m H).
  - each_sample H; discriminate.
Qed.
Lemma sample_old {F} (u : Z -> F) file m : In (file, m) samples -> old_load p32 u k_static_ file = Ok (old_of (mesh_map u m)).
Proof.
  intros H. destruct (old_agrees p32 u k_static_ file [] _ (sample_loads u file m H)) as (E & _). rewrite app_nil_r in E. apply E.
  each_sample H; discriminate.
Qed.
