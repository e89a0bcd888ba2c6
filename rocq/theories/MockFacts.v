(** Proofs about deprecated/mock_mesh.py. *)
From Coq Require Import ZArith List Bool Lia Reals Lra.
From Flocq Require Import Core IEEE754.Binary IEEE754.Bits.
From Verif Require Import PyBase Struct Mesh Arith F64 RArith Edit OldEdit Old Obj Col ColEq Spec SpecF SpecEdit SpecBounds SpecCol SpecOld SpecOldEdit SpecVec SpecFormat
  CodecBase CodecRaw CodecParam CodecFacts F64Facts TravFacts OldFacts OldEditFacts ColFacts FormatFacts SpecSurface SurfaceFacts Mock SpecMock.
Import ListNotations.
Open Scope Z_scope.
Open Scope res_scope.

(** ** The attribute table *)
Lemma attribs_ok format : forall table o, 0 < format -> Forall (fun e => exists w, In (snd (fst e), w) old_widths) table ->
  exists l e, mock_attribs format (format * Z.of_nat o) table = Ok l /\ declared format o l e /\
    map (fun a => (flag a, vartype a, usage a)) l = table.
Proof.
  induction table as [|((f, t), u) rest IH]; intros o Hf HT.
  - exists [], o. repeat split. constructor.
  - destruct (Forall_inv HT) as (w & Hw). cbn [fst snd] in Hw.
    destruct (old_widths_len {| flag := f; offset := 0; vartype := t; usage := u |} w Hw) as (E & _). cbn [vartype] in E.
    destruct (IH (o + w)%nat Hf (Forall_inv_tail HT)) as (l & e & E1 & D & M).
    exists ({| flag := f; offset := format * Z.of_nat o; vartype := t; usage := u |} :: l), e.
    cbn [mock_attribs]. rewrite E. cbn [bind].
    replace (format * Z.of_nat o + Z.of_nat w * format) with (format * Z.of_nat (o + w)) by lia. rewrite E1. cbn [bind].
    split; [reflexivity|]. split; [|cbn [map flag vartype usage]; now rewrite M].
    apply (declared_cons format o _ w); [exact Hw|reflexivity|exact D].
Qed.
Lemma fold_add_from l : forall b, fold_left Z.add l b = b + fold_left Z.add l 0.
Proof. induction l as [|x t IH]; intros b; cbn [fold_left]; [lia|]. rewrite (IH (b + x)), (IH (0 + x)). lia. Qed.
Lemma stride_ok format o l e : declared format o l e -> mock_stride format l = Ok (format * Z.of_nat (e - o)).
Proof.
  intros D. induction D as [o|o a w l e Hw Ho D IH].
  - unfold mock_stride. cbn. f_equal. rewrite Nat.sub_diag. lia.
  - pose proof (declared_le _ _ _ _ D) as L. unfold mock_stride in *. cbn [map_res].
    destruct (old_widths_len a w Hw) as (E & _). assert (old_known_type (vartype a) = true) as ->.
    { cbn in Hw. repeat match goal with H : _ \/ _ |- _ => destruct H as [H|H] end; try contradiction; injection Hw as X _; rewrite <- X; reflexivity. }
    rewrite E. cbn [bind]. destruct (map_res _ l) as [ns|] eqn:EM; [|discriminate]. cbn [bind] in *.
    injection IH as IH. f_equal. cbn [fold_left]. rewrite fold_add_from, IH. replace (e - o)%nat with (w + (e - (o + w)))%nat by lia. lia.
Qed.
Theorem table_laid format table : 0 < format -> Forall (fun e => exists w, In (snd (fst e), w) old_widths) table ->
  exists l vs, mock_attribs format 0 table = Ok l /\ map (fun a => (flag a, vartype a, usage a)) l = table /\
    declared format 0 l vs /\ mock_stride format l = Ok (format * Z.of_nat vs).
Proof.
  intros Hf HT. destruct (attribs_ok format table 0 Hf HT) as (l & e & E & D & M). rewrite Z.mul_0_r in E.
  exists l, e. split; [exact E|]. split; [exact M|]. split; [exact D|]. rewrite (stride_ok _ _ _ _ D). do 2 f_equal. lia.
Qed.

(** ** The vertices *)
Lemma py_get_nat {B} (l : list B) i x : nth_error l i = Some x -> py_get l (Z.of_nat i) = Ok x.
Proof.
  intros H. assert (i < length l)%nat by (apply nth_error_Some; congruence). unfold py_get, norm_index, zlen.
  replace (Z.of_nat i <? 0) with false by lia. replace ((0 <=? Z.of_nat i) && (Z.of_nat i <? Z.of_nat (length l))) with true by lia.
  rewrite Nat2Z.id, H. reflexivity.
Qed.
Lemma concat_lens {B} (l : list (list B)) k : Forall (fun x => length x = k) l -> forall i x, nth_error l i = Some x ->
  block k (concat l) i = x.
Proof.
  induction 1 as [|y t Hy Ht IH]; intros [|i] x Hx; try discriminate; cbn [nth_error] in Hx.
  - injection Hx as ->. unfold block. cbn [Nat.mul skipn concat]. rewrite firstn_app, Hy, Nat.sub_diag. cbn [firstn].
    now rewrite app_nil_r, <- Hy, firstn_all.
  - cbn [concat]. unfold block. rewrite skipn_app, skipn_all2 by (cbn; lia). cbn [app]. rewrite Hy.
    replace (S i * k - k)%nat with (i * k)%nat by lia. now apply IH.
Qed.
Theorem vertices_laid {F} (tables : list (list (list F))) widths n positions others vs :
  tables = positions :: others -> length positions = n ->
  Forall2 (fun t w => (n <= length t)%nat /\ Forall (fun r => length r = w) t) tables widths -> vs = fold_right Nat.add 0%nat widths ->
  exists l, mock_vertices positions others = Ok l /\ length l = (n * vs)%nat /\
    forall i, (i < n)%nat -> exists rows, Forall2 (fun t r => nth_error t i = Some r) tables rows /\ block vs l i = concat rows.
Proof.
  intros ET En HF Ev. unfold mock_vertices. rewrite <- ET.
  assert (forall i, (i < n)%nat -> exists rows, map_res (fun t => py_get t (Z.of_nat i)) tables = Ok rows /\
     Forall2 (fun t r => nth_error t i = Some r) tables rows /\ length (concat rows) = vs) as R.
  { intros i Hi. rewrite Ev. clear - HF Hi. induction HF as [|t w ts ws (H1 & H2) _ IH].
    - exists []. repeat split. constructor.
    - destruct IH as (rows & E & G & L). destruct (nth_error t i) as [r|] eqn:Er; [|apply nth_error_None in Er; lia].
      exists (r :: rows). cbn [map_res]. rewrite (py_get_nat _ _ _ Er). cbn [bind]. rewrite E. cbn [bind].
      split; [reflexivity|]. split; [now constructor|]. cbn [concat fold_right]. rewrite app_length, L.
      rewrite Forall_forall in H2. now rewrite (H2 r (nth_error_In _ _ Er)). }
  assert (forall a k, (a + k <= n)%nat -> exists ls, map_res (fun i => do rows <- map_res (fun t => py_get t i) tables; Ok (concat rows)) (map Z.of_nat (seq a k)) = Ok ls /\
     Forall (fun x => length x = vs) ls /\ length ls = k /\
     forall i, (i < k)%nat -> exists rows, Forall2 (fun t r => nth_error t (a + i) = Some r) tables rows /\ nth_error ls i = Some (concat rows)) as S.
  { intros a k; revert a. induction k as [|k IH]; intros a Ha; [exists []; repeat split; [constructor|lia]|].
    destruct (IH (S a) ltac:(lia)) as (ls & E & G & L & N). destruct (R a ltac:(lia)) as (rows & E1 & G1 & L1).
    exists (concat rows :: ls). cbn [seq map map_res]. rewrite E1. cbn [bind]. rewrite E. cbn [bind].
    split; [reflexivity|]. split; [now constructor|]. split; [cbn; lia|]. intros [|i] Hi.
    - exists rows. rewrite Nat.add_0_r. now split.
    - destruct (N i ltac:(lia)) as (rs & N1 & N2). exists rs. cbn [nth_error]. split; [|exact N2].
      now replace (a + S i)%nat with (S a + i)%nat by lia. }
  destruct (S 0%nat n ltac:(lia)) as (ls & E & G & L & N). unfold zrange, zlen. rewrite En, Nat2Z.id, E. cbn [bind].
  exists (concat ls). split; [reflexivity|]. split.
  - rewrite <- L. clear - G. induction G as [|x t Hx _ IH]; [reflexivity|]. cbn. rewrite app_length. lia.
  - intros i Hi. destruct (N i Hi) as (rows & N1 & N2). exists rows. split; [exact N1|]. now apply concat_lens.
Qed.

(** ** Box *)
Definition the_box {F} (num : lit -> F) : mesh F.
Proof. let t := eval vm_compute in (box num) in match t with Ok ?m => exact m end. Defined.
Lemma box_is {F} (num : lit -> F) : box num = Ok (the_box num).
Proof. vm_compute. reflexivity. Qed.

Theorem box_fit {F} (num : lit -> F) : canonical 12 (the_box num) /\ packed 12 (the_box num) /\
  float3 (the_box num) 0 /\ float3 (the_box num) 3 /\ float3 (the_box num) 6 /\ every_lod lod_bounded (the_box num) /\
  Forall (fun v => 0 <= v < vertnum (the_box num)) (index_numbers (index (the_box num))) /\ forall p, wf p (the_box num).
Proof.
  split; [|split; [|split; [|split; [|split; [|split; [|split]]]]]].
  - constructor.
    + lia.
    + split; [reflexivity|]. cbn [vertex_attributes the_box]. repeat constructor; cbn; lia.
    + cbn [vertex_attributes the_box]. repeat apply Forall_cons; try apply Forall_nil; split; cbn; tauto.
    + change (filter in_use (vertex_attributes (the_box num))) with (vertex_attributes (the_box num)). cbn [vertex_attributes the_box].
      apply (declared_cons _ 0 _ 3); [cbn; tauto|reflexivity|]. apply (declared_cons _ 3 _ 3); [cbn; tauto|reflexivity|].
      apply (declared_cons _ 6 _ 1); [cbn; tauto|reflexivity|]. apply (declared_cons _ 7 _ 2); [cbn; tauto|reflexivity|].
      apply (declared_cons _ 9 _ 3); [cbn; tauto|reflexivity|]. apply (declared_nil _ 12).
    + change (map usage _) with [0; 3; 2; 5; 6]. repeat constructor; cbn; lia.
    + reflexivity.
    + reflexivity.
    + discriminate.
  - split; [exists 24; split; [reflexivity|cbn; lia]|]. eexists. split; [reflexivity|]. cbn. lia.
  - exists {| flag := 0; offset := 0; vartype := 2; usage := 0 |}. split; [|reflexivity]. repeat split. now left.
  - exists {| flag := 0; offset := 12; vartype := 2; usage := 3 |}. split; [|reflexivity]. repeat split. right; now left.
  - exists {| flag := 0; offset := 36; vartype := 2; usage := 6 |}. split; [|reflexivity]. repeat split. do 4 right; now left.
  - repeat constructor; discriminate.
  - cbn [index index_numbers the_box vertnum]. repeat constructor; lia.
  - intros p. assert (forall z, -1000 <= z <= 1000 -> is_long p z) as B.
    { intros z Hz. unfold is_long, long_bytes. destruct (long_sz p); cbn; lia. }
    unfold wf, wf_head, wf_geom, wf_lod, wf_mat, wf_vertattrib, wf_index, wf_matrix, wf_string, counts, present.
    cbn [m_kind m_head m_u1 geomnum geoms vertattribnum vertex_attributes vertformat vertstride vertnum vertices indexnum index m_u2
         isSkinnedMesh isBundledMesh h_u1 h_version h_u3 h_u4 h_u5 the_box].
    repeat match goal with
    | |- _ /\ _ => split
    | |- Forall _ [] => apply Forall_nil
    | |- Forall _ (_ :: _) => apply Forall_cons
    | |- exists a, Some _ = Some a => eexists; reflexivity
    | |- is_long p _ => apply B; cbn; lia
    | |- opt_all _ _ => cbn
    | |- is_ushort _ => unfold is_ushort; cbn; lia
    | |- Forall _ _ => progress cbn
    | |- _ => cbn; first [reflexivity | lia | discriminate | eexists; reflexivity]
    end.
Qed.

Lemma used_single x : used x -> is_single (num64 x).
Proof.
  intros H. apply unpack_single. unfold used in H. cbn [In] in H.
  repeat match goal with H : _ \/ _ |- _ => destruct H as [H|H] end; try contradiction; subst x; vm_compute; reflexivity.
Qed.
(** The double is the number that is written in the source. *)
Lemma used_value x : used x -> B2R 53 1024 (num64 x) = lit_real x.
Proof.
  intros H. unfold used in H. cbn [In] in H.
  repeat match goal with H : _ \/ _ |- _ => destruct H as [H|H] end; try contradiction; subst x; unfold num64;
  match goal with |- B2R _ _ (unpack_f ?b) = _ =>
    let v := eval vm_compute in b in change b with v; pose proof (unpack_value v) as V; unfold single_value in V end;
  match type of V with ?A -> _ => assert A as HV by (unfold is_bits32; lia); specialize (V HV) end;
  match type of V with context [if (?b / 2 ^ 23) mod 256 =? 255 then _ else _] =>
    let e := eval vm_compute in ((b / 2 ^ 23) mod 256) in change ((b / 2 ^ 23) mod 256) with e in V;
    let k := eval vm_compute in (b mod 2 ^ 23) in change (b mod 2 ^ 23) with k in V;
    let s := eval vm_compute in (2 ^ 31 <=? b) in change (2 ^ 31 <=? b) with s in V end.
  all: cbn [Z.eqb Pos.eqb] in V; destruct V as (_ & _ & ->); cbn [lit_real].
  all: change (2 ^ 23 + 0) with 8388608; change (2 ^ 23 + 4194304) with 12582912; change (2 ^ 23 + 2097152) with 10485760;
    change (bpow radix2 (126 - 150)) with (/ IZR 16777216)%R; change (bpow radix2 (127 - 150)) with (/ IZR 8388608)%R;
    change (bpow radix2 (128 - 150)) with (/ IZR 4194304)%R; lra.
Qed.

Ltac all_used := repeat match goal with
  | |- _ /\ _ => split
  | |- Forall _ [] => apply Forall_nil
  | |- Forall _ (_ :: _) => apply Forall_cons
  | |- True => exact I
  | H : forall x, used x -> ?P (?num x) |- ?P (?num _) => apply H; unfold used; cbn [In]; auto 20
  | |- _ => progress cbn
  end.
Lemma box_all {F} (P : F -> Prop) (num : lit -> F) : (forall x, used x -> P (num x)) -> mesh_all P (the_box num).
Proof.
  intros H.
  unfold mesh_all, lod_all, mat_all, matrix_all, vec3_all, opt_all. cbn [geoms vertices the_box]. all_used.
Qed.
Lemma box_single : mesh_all is_single (the_box num64).
Proof. exact (box_all is_single num64 used_single). Qed.
Theorem box_saved p : exists bs, old_save p pack_f (the_box num64) = (bs, None) /\
  load p unpack_f (m_kind (as_static (the_box num64))) bs = Ok (as_static (the_box num64)) /\
  forall extra, old_load p unpack_f (m_kind (as_static (the_box num64))) (bs ++ extra) = Ok (as_static (the_box num64)).
Proof.
  destruct (box_fit num64) as (_ & _ & _ & _ & _ & _ & _ & W).
  destruct (export_reload_exact p (as_static (the_box num64))) as (bs & E & L); [exact (W p)|discriminate|exact box_single|].
  exists bs. split; [|split; [exact L|]].
  - change (the_box num64) with (old_of (the_box num64)). rewrite old_save_eq by apply W. exact E.
  - intros extra. destruct (old_agrees p unpack_f _ _ extra _ L) as (A & _). apply A. discriminate.
Qed.

(** ** The surface of Box *)
Definition half3 (v : Z * Z * Z) : vec3 R := let '(x, y, z) := v in (IZR x / 2, IZR y / 2, IZR z / 2)%R.
Definition halves (x : lit) : Z := match x with Nz => 0 | Hf n => n end.
Lemma half3_inj u v : half3 u = half3 v -> u = v.
Proof.
  destruct u as ((a, b), c), v as ((x, y), z). cbn. intros H. injection H as H1 H2 H3.
  assert (a = x) as -> by (apply eq_IZR; lra). assert (b = y) as -> by (apply eq_IZR; lra). assert (c = z) as -> by (apply eq_IZR; lra).
  reflexivity.
Qed.
Definition pt_eqb (u v : Z * Z * Z) : bool := let '(a, b, c) := u in let '(x, y, z) := v in (a =? x) && (b =? y) && (c =? z).
Lemma pt_eqb_eq u v : pt_eqb u v = true <-> u = v.
Proof. destruct u as ((a, b), c), v as ((x, y), z). cbn. split; [intros H; repeat f_equal; lia|intros [= -> -> ->]; lia]. Qed.
Definition edge_eqb (e f : (Z * Z * Z) * (Z * Z * Z)) : bool := pt_eqb (fst e) (fst f) && pt_eqb (snd e) (snd f).
Lemma edge_eqb_eq e f : edge_eqb e f = true <-> e = f.
Proof.
  destruct e as (a, b), f as (c, d). unfold edge_eqb. cbn [fst snd]. rewrite andb_true_iff, !pt_eqb_eq.
  split; [intros (-> & ->); reflexivity|intros [= -> ->]; now split].
Qed.
Fixpoint nodupb {A} (eqb : A -> A -> bool) (l : list A) : bool :=
  match l with [] => true | x :: t => negb (existsb (eqb x) t) && nodupb eqb t end.
Lemma nodupb_ok {A} (eqb : A -> A -> bool) : (forall x y, eqb x y = true <-> x = y) -> forall l, nodupb eqb l = true -> NoDup l.
Proof.
  intros He. induction l as [|x t IH]; intros H; [constructor|]. cbn in H. apply andb_true_iff in H. destruct H as (H1 & H2).
  constructor; [|now apply IH]. intros X. apply negb_true_iff in H1. enough (existsb (eqb x) t = true) by congruence.
  apply existsb_exists. exists x. split; [exact X|now apply He].
Qed.
Definition zpos (v : Z) : Z * Z * Z :=
  match nth (Z.to_nat v) box_positions [] with [a; b; c] => (halves a, halves b, halves c) | _ => (0, 0, 0) end.
Lemma box_zclosed : closed_surface (triples (map zpos box_index)).
Proof.
  split.
  - apply (nodupb_ok edge_eqb edge_eqb_eq). vm_compute. reflexivity.
  - set (es := edges _). assert (forallb (fun e => existsb (edge_eqb (snd e, fst e)) es) es = true) as H by (vm_compute; reflexivity).
    intros a b Hab. rewrite forallb_forall in H. specialize (H _ Hab). apply existsb_exists in H. destruct H as (e & He & E).
    apply edge_eqb_eq in E. cbn [fst snd] in E. now rewrite E.
Qed.
Notation rbox := (the_box lit_real).
Notation lbox := (the_box (fun x => x)).
Lemma rthree o v : three 0%R 12 rbox o v = let '(x, y, z) := three Nz 12 lbox o v in (lit_real x, lit_real y, lit_real z).
Proof.
  assert (vertices rbox = map lit_real (vertices lbox)) as E by reflexivity. unfold three. rewrite E.
  change 0%R with (lit_real Nz). now rewrite !map_nth.
Qed.
Ltac see_three := rewrite !rthree; repeat match goal with |- context [three Nz 12 lbox ?o ?v] =>
  let t := eval vm_compute in (three Nz 12 lbox o v) in change (three Nz 12 lbox o v) with t end.
Lemma box_rpos : map (three 0%R 12 rbox 0) box_index = map half3 (map zpos box_index).
Proof.
  rewrite map_map. apply map_ext_in. intros v Hv. cbn [box_index In] in Hv.
  repeat match goal with H : _ \/ _ |- _ => destruct H as [H|H] end; try contradiction; subst v; see_three;
    match goal with |- context [zpos ?v] => let t := eval vm_compute in (zpos v) in change (zpos v) with t end; cbn;
    repeat (apply pair_equal_spec; split); lra.
Qed.
Theorem box_closed : closed_surface (triples (map (three 0%R 12 rbox 0) (index_numbers (index rbox)))).
Proof.
  change (index_numbers (index rbox)) with box_index. rewrite box_rpos, (triples_map half3 36) by (cbn; lia).
  apply closed_map; [exact half3_inj|exact box_zclosed].
Qed.
Theorem box_facing a b c : In (a, b, c) (triples (index_numbers (index rbox))) ->
  let P := three 0%R 12 rbox 0 in let N := three 0%R 12 rbox 3 in
  N a = N b /\ N b = N c /\ N a = vector_product (minus (P b) (P a)) (minus (P c) (P a)) /\ scalar_product (N a) (N a) = 1%R.
Proof.
  intros H. cbv zeta. change (index_numbers (index rbox)) with box_index in H. cbn [triples box_index In] in H.
  repeat match goal with H : _ \/ _ |- _ => destruct H as [H|H] end; try contradiction; injection H as <- <- <-;
    see_three; unfold vector_product, scalar_product, minus, axis; cbn; repeat split; repeat (apply pair_equal_spec; split); lra.
Qed.

(** ** ColBox *)
Lemma colbox_wf {F} (num : lit -> F) p : wf_col p (colbox num).
Proof.
  assert (forall z, -1000 <= z <= 1000 -> is_long p z) as B.
  { intros z Hz. unfold is_long, long_bytes. destruct (long_sz p); cbn; lia. }
  unfold wf_col, wf_colgeom, wf_colsub, wf_collod, wf_face, wf_ystruct, counted0, is_sshort, colbox.
  repeat match goal with
  | |- _ /\ _ => split
  | |- Forall _ [] => apply Forall_nil
  | |- Forall _ (_ :: _) => apply Forall_cons
  | |- is_long p _ => apply B; cbn; lia
  | |- Forall _ _ => progress cbn
  | |- _ => cbn; first [reflexivity | lia]
  | |- _ => progress cbn
  end.
Qed.
Lemma colbox_all {F} (P : F -> Prop) (num : lit -> F) : (forall x, used x -> P (num x)) -> col_all P (colbox num).
Proof.
  intros H.
  unfold col_all, collod_all, vec3_all. cbn [col_lods flat_map colbox cm_geoms geom_lods cg_subs cs_lods map app].
  all_used.
Qed.
Lemma colbox_single : col_all is_single (colbox num64).
Proof. exact (colbox_all is_single num64 used_single). Qed.
Theorem colbox_saved p : exists bs, write_colmesh p pack_f (colbox num64) = (bs, None) /\
  forall rest, exists m, col_load p unpack_f (bs ++ rest) = Ok m /\ m = colmesh_map (fun x => x) reread (colbox num64) /\
    map cf_material (col_faces m) = map cf_material (col_faces (colbox num64)).
Proof.
  destruct (col_save_reload p (colbox num64) (colbox_wf num64 p)) as (bs & round & _ & R & E & L).
  exists bs. split; [exact E|]. intros rest. eexists. split; [apply L|]. split.
  - apply (colmesh_map_ext is_single (fun _ => True)); [exact R|reflexivity|exact colbox_single|].
    apply Forall_forall. intros. exact I.
  - rewrite (colmesh_map_ext is_single (fun _ => True) round (fun x => x) reread reread) by
      (exact R || reflexivity || exact colbox_single || (apply Forall_forall; intros; exact I)). reflexivity.
Qed.
Lemma fle_exact x y : fle exact x y <-> (x <= y)%R.
Proof.
  unfold fle. cbn. unfold Rltb, Reqb. destruct (Rlt_dec x y) as [H|H], (Req_EM_T x y) as [E|E]; split; intros X; try lra; try tauto; destruct X; congruence.
Qed.
Lemma between_exact a b c x y z d e f : between exact (a, b, c) (x, y, z) (d, e, f) <->
  ((a <= x <= d) /\ (b <= y <= e) /\ (c <= z <= f))%R.
Proof.
  unfold between, axes. split.
  - intros H. pose proof (H 0%nat (or_introl eq_refl)) as H0. pose proof (H 1%nat (or_intror (or_introl eq_refl))) as H1.
    pose proof (H 2%nat (or_intror (or_intror (or_introl eq_refl)))) as H2. cbn [axis] in *. rewrite !fle_exact in *. lra.
  - intros H i Hi. cbn [In] in Hi. rewrite !fle_exact. destruct Hi as [<- | [<- | [<- | []]]]; cbn [axis]; lra.
Qed.
Lemma colbox_lods {F} (num : lit -> F) l : In l (col_lods (colbox num)) -> exists t, l = colbox_lod num t.
Proof.
  intros Hl. change (col_lods (colbox num)) with (map (colbox_lod num) [0; 1; 2; 3; 4]) in Hl.
  apply in_map_iff in Hl. destruct Hl as (t & <- & _). now exists t.
Qed.
(** The stored bounds fit the first of the two boxes only. *)
Theorem colbox_bounds l : In l (col_lods (colbox lit_real)) ->
  (forall v, In v (firstn 8 (cl_vertices l)) -> between exact (cl_min l) v (cl_max l)) /\
  (forall v, In v (skipn 8 (cl_vertices l)) -> ~ between exact (cl_min l) v (cl_max l)) /\
  length (cl_vertices l) = 16%nat /\ ~ collod_boxed exact l.
Proof.
  intros Hl. destruct (colbox_lods _ _ Hl) as (t & ->). clear Hl.
  assert (forall v, In v (skipn 8 (cl_vertices (colbox_lod lit_real t))) ->
    ~ between exact (cl_min (colbox_lod lit_real t)) v (cl_max (colbox_lod lit_real t))) as O.
  { intros v Hv. cbn [colbox_lod cl_vertices cl_min cl_max map skipn colbox_vertices In] in *.
    repeat match goal with H : _ \/ _ |- _ => destruct H as [H|H] end; try contradiction; subst v;
      unfold vec_of, box_vec; rewrite between_exact; cbn [lit_real]; lra. }
  split; [|split; [exact O|split; [reflexivity|]]].
  - intros v Hv. cbn [colbox_lod cl_vertices cl_min cl_max map firstn colbox_vertices In] in *.
    repeat match goal with H : _ \/ _ |- _ => destruct H as [H|H] end; try contradiction; subst v;
      unfold vec_of, box_vec; rewrite between_exact; cbn [lit_real]; lra.
  - intros B. eapply O; [left; reflexivity|]. apply B. do 8 right. now left.
Qed.
Definition zcol (v : Z) : Z * Z * Z :=
  let '(a, b, c) := nth (Z.to_nat v) colbox_vertices (Nz, Nz, Nz) in (halves a, halves b, halves c).
Lemma colbox_zclosed : closed_surface (map (fun t => let '(a, b, c) := t in (zcol a, zcol b, zcol c)) colbox_faces).
Proof.
  split.
  - apply (nodupb_ok edge_eqb edge_eqb_eq). vm_compute. reflexivity.
  - set (es := edges _). assert (forallb (fun e => existsb (edge_eqb (snd e, fst e)) es) es = true) as H by (vm_compute; reflexivity).
    intros a b Hab. rewrite forallb_forall in H. specialize (H _ Hab). apply existsb_exists in H. destruct H as (e & He & E).
    apply edge_eqb_eq in E. cbn [fst snd] in E. now rewrite E.
Qed.
Lemma zcol_corner t v : col_corner (colbox_lod lit_real t) v = half3 (zcol v).
Proof.
  unfold col_corner, zcol. cbn [cl_vertices colbox_lod].
  replace (0, 0, 0)%R with (vec_of lit_real (Nz, Nz, Nz)) by reflexivity. rewrite map_nth.
  destruct (nth (Z.to_nat v) colbox_vertices (Nz, Nz, Nz)) as ((a, b), c). unfold vec_of, box_vec, half3.
  destruct a, b, c; cbn; repeat (apply pair_equal_spec; split); lra.
Qed.
Theorem colbox_closed l : In l (col_lods (colbox lit_real)) ->
  closed_surface (map (fun f => (col_corner l (cf_v1 f), col_corner l (cf_v2 f), col_corner l (cf_v3 f))) (cl_faces l)).
Proof.
  intros Hl. destruct (colbox_lods _ _ Hl) as (t & ->). cbn [cl_faces colbox_lod]. rewrite map_map.
  pose proof (closed_map half3 _ half3_inj colbox_zclosed) as C. rewrite map_map in C.
  erewrite map_ext; [exact C|]. intros ((a, b), c). cbn [cf_v1 cf_v2 cf_v3]. now rewrite !zcol_corner.
Qed.
(** Faces made by the constructor have no attribute m: comparing raises. *)
Theorem colbox_compare {F} (A : arith F) (num : lit -> F) g : In g (cm_geoms (colbox num)) ->
  colgeom_eq A g (colgeom_map (fun x => x) reread g) = Raise EAttribute.
Proof. intros [<- | []]. reflexivity. Qed.
