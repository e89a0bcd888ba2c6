(** Concrete schedules. *)
From Coq Require Import ZArith List Bool Arith Ascii Sorted Reals Lra Lia.
From Flocq Require Import IEEE754.Binary IEEE754.Bits.
From Verif Require Import PyBase Struct Mesh Arith F64 RArith Edit Spec SpecF F64Facts SpecEdit CodecBase CodecRaw CodecParam CodecFacts VertFacts Witness WitnessEdit WitnessBounds WitnessMerge
  Conc SpecConc ConcFacts Thread SpecThread ThreadFacts.
Import ListNotations.
Open Scope nat_scope.

(** ** Reading and writing *)
Definition file_now : bytes := ex_file p64 11 k_static_.
Definition grown : list bytes := [[]; firstn 100 file_now; file_now].
Lemma long_file : 100 < length file_now.
Proof. apply Nat.ltb_lt. vm_compute. reflexivity. Qed.
Lemma growing_three (bs : bytes) : 100 < length bs -> growing bs [[]; firstn 100 bs; bs].
Proof.
  intros L. exists [0; 100; length bs]. split; [discriminate|]. split; [repeat (constructor; [|repeat constructor; lia]); constructor|].
  split; [repeat constructor; lia|]. cbn [map]. rewrite firstn_all. reflexivity.
Qed.
Lemma grown_growing : growing file_now grown.
Proof. exact (growing_three file_now long_file). Qed.
Lemma read_slow : in_order (fun i => if i <? 100 then 1 else 2) 2 /\ in_time file_now grown (fun i => if i <? 100 then 1 else 2) /\
  load_during p64 unpack_f k_static_ grown (fun i => if i <? 100 then 1 else 2) 2 = Ok (exm unpack_f) /\
  in_order (fun _ => 1) 2 /\ ~ in_time file_now grown (fun _ => 1) /\
  load_during p64 unpack_f k_static_ grown (fun _ => 1) 2 = Raise EStruct.
Proof.
  assert (in_order (fun i => if i <? 100 then 1 else 2) 2) as O1.
  { split; intros i; [intros j Hij|]; repeat match goal with |- context [?a <? ?b] => destruct (Nat.ltb_spec a b) end; lia. }
  assert (in_order (fun _ => 1) 2) as O2 by (split; intros; lia).
  assert (in_time file_now grown (fun i => if i <? 100 then 1 else 2)) as T1.
  { intros i Hi. destruct (Nat.ltb_spec i 100) as [L|L]; [|exact Hi]. change (contents_at grown 1) with (firstn 100 file_now). rewrite firstn_length.
    apply Nat.min_glb_lt; [exact L|exact Hi]. }
  assert (~ in_time file_now grown (fun _ => 1)) as T2.
  { intros H. specialize (H 100 long_file). cbv beta in H. change (contents_at grown 1) with (firstn 100 file_now) in H. rewrite firstn_length in H. lia. }
  pose proof (ex_load_fl _ _ _ ex_load_static) as HL.
  pose proof (load_growing p64 unpack_f k_static_ file_now (exm unpack_f) grown _ 2 HL grown_growing O1) as (H1 & _).
  pose proof (load_growing p64 unpack_f k_static_ file_now (exm unpack_f) grown _ 2 HL grown_growing O2) as (_ & H2).
  split; [exact O1|]. split; [exact T1|]. split; [exact (H1 T1)|]. split; [exact O2|]. split; [exact T2|exact (H2 T2)].
Qed.

Lemma ex_exports p m : wf p m -> indexnum m <> 1%Z -> exists bs, export p pack_f m = (bs, None).
Proof. intros W N. destruct (export_reload p m W N) as (bs & E & _). eauto. Qed.

(** Two exports of the same file, interleaved. *)
Lemma same_twice : let l := [SOpen 0; SFlush 0 50; SOpen 1; SFlush 1 10; SFlush 0 200; SFlush 1 2000] in
  last_opener l = Some 1 /\ finished (save_run (fun _ => file_now) [] l) 1 /\ ~ finished (save_run (fun _ => file_now) [] l) 0 /\ d_file (save_run (fun _ => file_now) [] l) = file_now.
Proof.
  intros l. assert (last_opener l = Some 1) as H1 by reflexivity.
  assert (finished (save_run (fun _ => file_now) [] l) 1) as H2 by (exists {| s_off := length file_now; s_left := [] |}; split; [vm_compute|]; reflexivity).
  split; [exact H1|]. split; [exact H2|]. split; [|now apply (save_same (fun _ => file_now) [] l 1)].
  intros (s & E & H).
  assert (option_map (fun s => length (s_left s) =? 0) (d_saver (save_run (fun _ => file_now) [] l) 0) = Some false) as Q by (vm_compute; reflexivity).
  rewrite E in Q. cbn in Q. rewrite H in Q. discriminate.
Qed.

(** ** Threads *)
(** Two translate calls by (x, ...) on the example mesh: thread 0 reads the first
    material, then thread 1 runs, then thread 0 goes on. *)
Definition torn_schedule : list nat := [0; 1; 1; 1; 0; 0].
Lemma torn_run {F} (A : arith F) (f : Z -> F) x : let s := threads_run A (fun _ => CTranslate [x]) (exm f) torn_schedule in
  snd s 0 = TDone /\ snd s 1 = TDone /\ nth_error (vertices (fst s)) 0 = Some (f_add A (f b0) x) /\
  nth_error (vertices (fst s)) 21 = Some (f_add A (f_add A (f b2) x) x).
Proof. repeat split. Qed.

Fixpoint addn {F} (A : arith F) (k : nat) (y x : F) : F := match k with O => y | S k => addn A k (f_add A y x) x end.
Lemma serial_run {F} (A : arith F) (f : Z -> F) x (order : list nat) : let m := fold_left (fun m i => fst (call_alone A m (CTranslate [x]))) order (exm f) in
  nth_error (vertices m) 0 = Some (addn A (length order) (f b0) x) /\ nth_error (vertices m) 21 = Some (addn A (length order) (f b2) x).
Proof.
  cbn zeta. assert (forall order nv y z, length nv = 42 -> nth_error nv 0 = Some y -> nth_error nv 21 = Some z ->
    let m := fold_left (fun m (i : nat) => fst (call_alone A m (CTranslate [x]))) order (set_vertices (exm f) nv) in
    nth_error (vertices m) 0 = Some (addn A (length order) y x) /\ nth_error (vertices m) 21 = Some (addn A (length order) z x)) as Q.
  { clear order. induction order as [|i order IH]; intros nv y z L Hy Hz; [cbn; auto|]. cbn [fold_left length addn].
    set (m1 := set_vertices (exm f) nv). cbn [call_alone].
    assert (tiled_vertices 7 m1) as T.
    { destruct (ex_tiled f) as (n & E & T). exists n. split; [|exact T]. rewrite <- E. unfold zlen. change (vertices m1) with nv. rewrite L. reflexivity. }
    destruct (translate_succeeds A 7 m1 [x] (ex_size f) ltac:(lia) T (ex_short f)) as (m2 & E).
    { intros _. destruct (ex_position f) as (a & E & Ha). exists a. split; [exact E|]. change (attrib_start m1 a) with (attrib_start (exm f) a). cbn [length]. lia. }
    destruct (translate_packed A 7 m1 [x] m2 (ex_size f) ltac:(lia) T (ex_short f) E) as (_ & L2 & N2).
    pose proof (N2 0 0 y ltac:(lia) Hy) as N0. pose proof (N2 3 0 z ltac:(lia) Hz) as N3. rewrite E. cbn [fst].
    unfold translate in E. apply assign_spec in E. destruct E as (nv2 & _ & ->). change (set_vertices m1 nv2) with (set_vertices (exm f) nv2) in *.
    change (vertices m1) with nv in L2. apply (IH nv2); [now rewrite <- L|exact N0|exact N3]. }
  specialize (Q order (vertices (exm f)) (f b0) (f b2) eq_refl eq_refl eq_refl). exact Q.
Qed.
Lemma addn_exact k : forall y x, addn exact k y x = (y + INR k * x)%R.
Proof.
  induction k as [|k IH]; intros y x; [cbn; lra|]. cbn [addn]. rewrite IH. rewrite S_INR. cbn [exact f_add]. lra.
Qed.
(** The result is not that of any number of calls one after the other. *)
Lemma torn_not_serial : exists m m' ts, vertex_size m = Ok (Z.of_nat 7) /\ tiled_vertices 7 m /\ fitting_call exact 7 m (CTranslate [1%R]) /\
  threads_run exact (fun _ => CTranslate [1%R]) m torn_schedule = (m', ts) /\ ts 0 = TDone /\ ts 1 = TDone /\
  forall order, m' <> fold_left (fun m (i : nat) => fst (call_alone exact m (CTranslate [1%R]))) order m.
Proof.
  exists (exm zr). destruct (threads_run exact (fun _ => CTranslate [1%R]) (exm zr) torn_schedule) as (m', ts) eqn:E.
  destruct (torn_run exact zr 1%R) as (H1 & H2 & H3 & H4). rewrite E in H1, H2, H3, H4. cbn [fst snd] in *. exists m', ts.
  split; [apply ex_size|]. split; [apply ex_tiled|]. split.
  { split; [apply ex_short|]. intros _. destruct (ex_position zr) as (a & Ea & Ha). exists a. split; [exact Ea|]. cbn [length]. lia. }
  split; [reflexivity|]. split; [exact H1|]. split; [exact H2|]. intros order Q.
  destruct (serial_run exact zr 1%R order) as (S1 & S2). rewrite <- Q in S1, S2. rewrite H3 in S1. rewrite H4 in S2.
  injection S1 as S1. injection S2 as S2. rewrite addn_exact in S1, S2. cbn [exact f_add] in *. lra.
Qed.

(** Export while another thread merges: counts of the mesh before, arrays of the mesh after. *)
Definition merged_meanwhile : bytes :=
  fst (export_during p64 pack_f (fun i => if i <? 9 then exm unpack_f else fst (merge (exm unpack_f) (exm unpack_f)))).
Definition is_raise {A} (r : res A) : bool := match r with Ok _ => false | Raise _ => true end.
Lemma raise_not_ok {A} (r : res A) : is_raise r = true -> forall x, r <> Ok x.
Proof. intros H x ->. discriminate. Qed.
Lemma merged_no : is_raise (load p64 unpack_f k_static_ merged_meanwhile) = true.
Proof. vm_compute. reflexivity. Qed.
Lemma merged_export : snd (export_during p64 pack_f (fun i => if i <? 9 then exm unpack_f else fst (merge (exm unpack_f) (exm unpack_f)))) = None /\
  merge (exm unpack_f) (exm unpack_f) = (fst (merge (exm unpack_f) (exm unpack_f)), Merged) /\
  forall m, load p64 unpack_f k_static_ merged_meanwhile <> Ok m.
Proof. split; [vm_compute; reflexivity|]. split; [apply ex_merges|]. exact (raise_not_ok _ merged_no). Qed.
Lemma merge_meanwhile : exists m other m' at_, merge m other = (m', Merged) /\ (forall i, at_ i = m \/ at_ i = m') /\
  snd (export_during p64 pack_f at_) = None /\ forall m2, load p64 unpack_f (m_kind m) (fst (export_during p64 pack_f at_)) <> Ok m2.
Proof.
  destruct merged_export as (H1 & H2 & H3). eexists _, _, _, (fun i => if (i <? 9)%nat then exm unpack_f else fst (merge (exm unpack_f) (exm unpack_f))).
  split; [exact H2|]. split; [intros i; destruct (i <? 9)%nat; [left|right]; reflexivity|]. split; [exact H1|exact H3].
Qed.

(** ** Mixtures *)
Definition threes : list binary64 := repeat (unpack_f b3) 42.
Lemma mixed_differs (round : binary64 -> binary64) : (forall x, is_single x -> round x = x) ->
  let mx := mesh_map round (set_vertices (exm unpack_f) (firstn 21 (vertices (exm unpack_f)) ++ skipn 21 threes)) in
  mx <> mesh_map round (exm unpack_f) /\ mx <> mesh_map round (set_vertices (exm unpack_f) threes).
Proof.
  intros R mx. assert (unpack_f b3 <> unpack_f b2 /\ unpack_f b3 <> unpack_f b0) as (N1 & N2) by (split; intros H; apply (f_equal pack_f) in H; vm_compute in H; discriminate).
  assert (forall b, b = b0 \/ b = b2 \/ b = b3 -> round (unpack_f b) = unpack_f b) as RB.
  { intros b Hb. apply R. apply unpack_single. destruct Hb as [-> | [-> | ->]]; vm_compute; reflexivity. }
  split; intros E.
  - apply (f_equal (fun m => nth_error (vertices m) 21)) in E. change (Some (round (unpack_f b3)) = Some (round (unpack_f b2))) in E.
    injection E as E. apply N1. rewrite <- (RB b3), <- (RB b2) by auto. exact E.
  - apply (f_equal (fun m => nth_error (vertices m) 0)) in E. change (Some (round (unpack_f b0)) = Some (round (unpack_f b3))) in E.
    injection E as E. apply N2. rewrite <- (RB b3), <- (RB b0) by auto. now symmetry.
Qed.
Lemma exm_wf : wf p64 (exm unpack_f) /\ indexnum (exm unpack_f) <> 1%Z.
Proof. destruct ex_wf_single as (H1 & H2 & _). auto. Qed.
Lemma threes_wf : wf p64 (set_vertices (exm unpack_f) threes).
Proof. apply wf_vertices; [apply exm_wf|reflexivity]. Qed.
Lemma read_mixed : exists b1 b2 m1 m2 m3 w stat, load p64 unpack_f k_static_ b1 = Ok m1 /\ load p64 unpack_f k_static_ b2 = Ok m2 /\ in_order w stat /\
  load_during p64 unpack_f k_static_ [b1; []; b2] w stat = Ok m3 /\ m3 <> m1 /\ m3 <> m2.
Proof.
  destruct exm_wf as (W & N). destruct (export_reload p64 _ W N) as (b1 & E1 & R1). destruct (export_reload p64 _ threes_wf N) as (b2 & E2 & R2).
  destruct (read_mixture p64 (exm unpack_f) threes b1 b2 21 W N eq_refl ltac:(cbn; lia) E1 E2) as (w & stat & O & E3).
  destruct (mixed_differs (fun x => unpack_f (pack_f x)) unpack_pack_single) as (D1 & D2).
  exists b1, b2. do 3 eexists. exists w, stat. split; [exact R1|]. split; [exact R2|]. split; [exact O|]. split; [exact E3|]. split; [exact D1|exact D2].
Qed.
Lemma save_mixed : exists b1 b2 m1 m2 m3 l, load p64 unpack_f k_static_ b1 = Ok m1 /\ load p64 unpack_f k_static_ b2 = Ok m2 /\
  finished (save_run (two b1 b2) [] l) 0 /\ finished (save_run (two b1 b2) [] l) 1 /\
  load p64 unpack_f k_static_ (d_file (save_run (two b1 b2) [] l)) = Ok m3 /\ m3 <> m1 /\ m3 <> m2.
Proof.
  destruct exm_wf as (W & N). destruct (export_reload p64 _ W N) as (b1 & E1 & R1). destruct (export_reload p64 _ threes_wf N) as (b2 & E2 & R2).
  destruct (save_mixture p64 (exm unpack_f) threes b1 b2 21 [] W N eq_refl ltac:(cbn; lia) E1 E2) as (l & F0 & F1 & E3).
  destruct (mixed_differs (fun x => unpack_f (pack_f x)) unpack_pack_single) as (D1 & D2).
  exists b1, b2. do 3 eexists. exists l. split; [exact R1|]. split; [exact R2|]. split; [exact F0|]. split; [exact F1|]. split; [exact E3|]. split; [exact D1|exact D2].
Qed.
(** A longer file beside a shorter one. *)
Definition longer : mesh binary64 := fst (merge (exm unpack_f) (exm unpack_f)).
Definition longer_file : bytes := fst (export p64 pack_f longer).
Lemma longer_ok : snd (export p64 pack_f longer) = None /\ is_raise (load p64 unpack_f k_static_ longer_file) = false /\ length file_now < length longer_file.
Proof. split; [vm_compute; reflexivity|]. split; [vm_compute; reflexivity|]. apply Nat.ltb_lt. vm_compute. reflexivity. Qed.
Lemma save_broken : exists b1 b2 m1 m2 l, load p64 unpack_f k_static_ b1 = Ok m1 /\ load p64 unpack_f k_static_ b2 = Ok m2 /\
  finished (save_run (two b1 b2) [] l) 0 /\ finished (save_run (two b1 b2) [] l) 1 /\
  load p64 unpack_f k_static_ (d_file (save_run (two b1 b2) [] l)) = Raise EAttribute.
Proof.
  destruct longer_ok as (_ & H & L). destruct (load p64 unpack_f k_static_ longer_file) as [m1|] eqn:E1; [|discriminate].
  pose proof (ex_load_fl _ _ _ ex_load_static) as E2.
  destruct (save_garbage p64 unpack_f k_static_ longer_file file_now _ [] E2 L) as (l & F0 & F1 & _ & E3).
  exists longer_file, file_now, m1. eexists. exists l. split; [exact E1|]. split; [exact E2|]. split; [exact F0|]. split; [exact F1|exact E3].
Qed.
