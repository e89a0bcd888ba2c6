(** More property theorems, after those of Properties.v: several processes and threads.
    Proofs live in the other files; the examples beside the theorems are concrete cases
    that meet their hypotheses. *)
From Coq Require Import ZArith List Bool Reals.
From Flocq Require Import IEEE754.Binary IEEE754.Bits.
From Verif Require Import PyBase Struct Mesh Arith F64 RArith Edit Spec SpecF SpecEdit Witness WitnessEdit.
Import ListNotations.
Open Scope Z_scope.

(** * Several processes and one file *)
From Verif Require Import Conc SpecConc ConcFacts WitnessConc.
Open Scope Z_scope.

(** C100. A reader that opens the file after a save has truncated it: the whole new mesh if every byte was there
    when it was fetched, otherwise struct.error; never a mixture. *)
Theorem C100_read_during_save : forall F p (u : Z -> F) k bs m h w stat, load p u k bs = Ok m -> growing bs h -> in_order w stat ->
  (in_time bs h w -> load_during p u k h w stat = Ok m) /\
  (~ in_time bs h w -> load_during p u k h w stat = Raise EStruct).
Proof. exact @load_growing. Qed.
Print Assumptions C100_read_during_save.
Theorem C100_all_or_error : forall F p (u : Z -> F) k bs m h w stat, load p u k bs = Ok m -> growing bs h -> in_order w stat ->
  load_during p u k h w stat = Ok m \/ load_during p u k h w stat = Raise EStruct.
Proof. exact @load_growing_or. Qed.
Print Assumptions C100_all_or_error.
(** A file that nobody writes is loaded as usual, whenever its bytes are fetched. *)
Theorem C100_still : forall F p (u : Z -> F) k bs w stat, load_during p u k [bs] w stat = load p u k bs.
Proof. exact @load_still. Qed.
Print Assumptions C100_still.
(** A file that has another size by the time it has been read is refused. *)
Theorem C100_resized : forall F p (u : Z -> F) k bs c m, load p u k bs = Ok m -> List.length c <> List.length bs ->
  load_during p u k [bs; c] (fun _ => 0%nat) 1 = Raise EAttribute.
Proof. exact @load_resized. Qed.
Print Assumptions C100_resized.
(** A reader that has started before the truncation: every mixture of the old and the new vertices can be loaded,
    without an error. *)
Theorem C100_mixture : forall p m vs b1 b2, wf p m -> indexnum m <> 1 -> List.length vs = List.length (vertices m) ->
  export p pack_f m = (b1, None) -> export p pack_f (set_vertices m vs) = (b2, None) ->
  exists round, (forall x, rounds_to_single x (round x)) /\ (forall x, is_single x -> round x = x) /\
  forall j, (j <= List.length vs)%nat -> exists w stat, in_order w stat /\
    load_during p unpack_f (m_kind m) [b1; []; b2] w stat = Ok (mesh_map round (set_vertices m (firstn j (vertices m) ++ skipn j vs))).
Proof. exact read_mixture_round. Qed.
Print Assumptions C100_mixture.
(** So a load beside a save can return a mesh that was never saved. *)
Theorem C100_old_or_new_refuted : exists b1 b2 m1 m2 m3 w stat, load p64 unpack_f k_static_ b1 = Ok m1 /\ load p64 unpack_f k_static_ b2 = Ok m2 /\
  in_order w stat /\ load_during p64 unpack_f k_static_ [b1; []; b2] w stat = Ok m3 /\ m3 <> m1 /\ m3 <> m2.
Proof. exact read_mixed. Qed.
Print Assumptions C100_old_or_new_refuted.
Example C100_example : load p64 unpack_f k_static_ file_now = Ok (exm unpack_f) /\ growing file_now grown /\
  in_order (fun i => if (i <? 100)%nat then 1%nat else 2%nat) 2 /\ in_time file_now grown (fun i => if (i <? 100)%nat then 1%nat else 2%nat) /\
  in_order (fun _ => 1%nat) 2 /\ ~ in_time file_now grown (fun _ => 1%nat).
Proof.
  split; [exact (ex_load_fl _ _ _ ex_load_static)|]. split; [exact grown_growing|].
  destruct read_slow as (H1 & H2 & _ & H3 & H4 & _). exact (conj H1 (conj H2 (conj H3 H4))).
Qed.
Example C100_example_mixture : wf p64 (exm unpack_f) /\ indexnum (exm unpack_f) <> 1 /\ List.length threes = List.length (vertices (exm unpack_f)) /\
  (exists b1, export p64 pack_f (exm unpack_f) = (b1, None)) /\ exists b2, export p64 pack_f (set_vertices (exm unpack_f) threes) = (b2, None).
Proof.
  destruct exm_wf as (H1 & H2). split; [exact H1|]. split; [exact H2|]. split; [reflexivity|].
  split; [exact (ex_exports p64 _ H1 H2)|exact (ex_exports p64 _ threes_wf H2)].
Qed.

(** C101. Exports of the same bytes to the same name: when the one that opened the file last has finished, the file
    is those bytes, whatever the others have done or still have to do up to then. *)
Theorem C101_same_bytes : forall data c0 l w b, (forall i, data i = b) -> last_opener l = Some w -> finished (save_run data c0 l) w ->
  d_file (save_run data c0 l) = b.
Proof. exact save_same. Qed.
Print Assumptions C101_same_bytes.
(** An export that nobody writes beside leaves its own bytes, whatever was there or half written before. *)
Theorem C101_alone : forall data c0 l1 w l2, (forall e, In e l2 -> exists n, e = SFlush w n) ->
  finished (save_run data c0 (l1 ++ SOpen w :: l2)) w -> d_file (save_run data c0 (l1 ++ SOpen w :: l2)) = data w.
Proof. exact save_alone. Qed.
Print Assumptions C101_alone.
(** Otherwise each byte, up to the length of what the last opener wrote, comes from one of the exports, from the same
    position of its data. *)
Theorem C101_bytes : forall data c0 l w, last_opener l = Some w -> finished (save_run data c0 l) w ->
  (List.length (data w) <= List.length (d_file (save_run data c0 l)))%nat /\
  forall i, (i < List.length (data w))%nat -> exists j x, nth_error (d_file (save_run data c0 l)) i = Some x /\ nth_error (data j) i = Some x.
Proof. exact save_bytes. Qed.
Print Assumptions C101_bytes.
(** Two exports of meshes that differ in vertices: every mixture can be the result, and it loads. *)
Theorem C101_mixture : forall p m vs b1 b2 c0, wf p m -> indexnum m <> 1 -> List.length vs = List.length (vertices m) ->
  export p pack_f m = (b1, None) -> export p pack_f (set_vertices m vs) = (b2, None) ->
  exists round, (forall x, rounds_to_single x (round x)) /\ (forall x, is_single x -> round x = x) /\
  forall j, (j <= List.length vs)%nat -> exists l, finished (save_run (two b1 b2) c0 l) 0 /\ finished (save_run (two b1 b2) c0 l) 1 /\
    load p unpack_f (m_kind m) (d_file (save_run (two b1 b2) c0 l)) = Ok (mesh_map round (set_vertices m (firstn j (vertices m) ++ skipn j vs))).
Proof. exact save_mixture_round. Qed.
Print Assumptions C101_mixture.
(** A longer file beside a shorter one: the shorter one, saved last, can be followed by the end of the longer one, and
    then it does not load. *)
Theorem C101_garbage : forall F p (u : Z -> F) k b1 b2 m c0, load p u k b2 = Ok m -> (List.length b2 < List.length b1)%nat ->
  exists l, finished (save_run (two b1 b2) c0 l) 0 /\ finished (save_run (two b1 b2) c0 l) 1 /\ last_opener l = Some 1%nat /\
    load p u k (d_file (save_run (two b1 b2) c0 l)) = Raise EAttribute.
Proof. exact @save_garbage. Qed.
Print Assumptions C101_garbage.
(** So two complete saves can leave a mesh that nobody saved, or a file that does not load. *)
Theorem C101_one_of_them_refuted : exists b1 b2 m1 m2 m3 l, load p64 unpack_f k_static_ b1 = Ok m1 /\ load p64 unpack_f k_static_ b2 = Ok m2 /\
  finished (save_run (two b1 b2) [] l) 0 /\ finished (save_run (two b1 b2) [] l) 1 /\
  load p64 unpack_f k_static_ (d_file (save_run (two b1 b2) [] l)) = Ok m3 /\ m3 <> m1 /\ m3 <> m2.
Proof. exact save_mixed. Qed.
Print Assumptions C101_one_of_them_refuted.
Theorem C101_loads_refuted : exists b1 b2 m1 m2 l, load p64 unpack_f k_static_ b1 = Ok m1 /\ load p64 unpack_f k_static_ b2 = Ok m2 /\
  finished (save_run (two b1 b2) [] l) 0 /\ finished (save_run (two b1 b2) [] l) 1 /\
  load p64 unpack_f k_static_ (d_file (save_run (two b1 b2) [] l)) = Raise EAttribute.
Proof. exact save_broken. Qed.
Print Assumptions C101_loads_refuted.
Example C101_example : let l := [SOpen 0; SFlush 0 50; SOpen 1; SFlush 1 10; SFlush 0 200; SFlush 1 2000] in
  last_opener l = Some 1%nat /\ finished (save_run (fun _ => file_now) [] l) 1 /\ ~ finished (save_run (fun _ => file_now) [] l) 0.
Proof. destruct same_twice as (H1 & H2 & H3 & _). exact (conj H1 (conj H2 H3)). Qed.

(** * Threads *)
From Verif Require Import Thread SpecThread ThreadFacts.
Open Scope Z_scope.

(** C102. Any number of translate and rotate calls in threads on one packed mesh, after any schedule. *)
Theorem C102_threads : forall F (A : arith F) vs m0 cs, vertex_size m0 = Ok (Z.of_nat vs) -> (0 < vs)%nat -> tiled_vertices vs m0 ->
  (forall i, fitting_call A vs m0 (cs i)) -> forall l m' ts, threads_run A cs m0 l = (m', ts) ->
  same_but_vertices m0 m' /\ List.length (vertices m') = List.length (vertices m0) /\ (forall i e, ts i <> TRaised e) /\
  ((m' = m0 /\ forall i, ts i <> TDone) \/
   exists w, ts w = TDone /\ forall j, (j < List.length (vertices m0) / vs)%nat ->
     exists order, NoDup (order ++ [w]) /\ (forall i, In i (order ++ [w]) -> ts i = TDone) /\
       moved_by A m0 cs (order ++ [w]) (block vs (vertices m0) j) = Ok (block vs (vertices m') j)).
Proof. exact @threads_result. Qed.
Print Assumptions C102_threads.
(** Number by number, for translate. *)
Theorem C102_translate : forall F (A : arith F) vs (m : mesh F) (off : nat -> list F) l m' ts,
  vertex_size m = Ok (Z.of_nat vs) -> (0 < vs)%nat -> tiled_vertices vs m -> short_offsets m ->
  (forall i, off i <> [] -> exists a, position_attrib m = Some a /\ (attrib_start m a + List.length (off i) <= vs)%nat) ->
  threads_run A (fun i => CTranslate (off i)) m l = (m', ts) ->
  same_but_vertices m m' /\ List.length (vertices m') = List.length (vertices m) /\
  forall j, exists order, NoDup order /\ (forall i, In i order -> ts i = TDone) /\ (order = [] -> forall i, ts i <> TDone) /\
    forall c x, (c < vs)%nat -> nth_error (vertices m) (j * vs + c) = Some x ->
      nth_error (vertices m') (j * vs + c) = Some (fold_left (fun y i => moved A (position_start m) (off i) c y) order x).
Proof. exact @threads_translate. Qed.
Print Assumptions C102_translate.
(** Calls that do not overlap in time do what they do without threads, in the order in which they run. *)
Theorem C102_serial : forall F (A : arith F) cs m l, NoDup l ->
  fst (threads_run A cs m (flat_map (fun i => repeat i (S (List.length (mats m)))) l)) = fold_left (fun m i => fst (call_alone A m (cs i))) l m.
Proof. exact @threads_serial. Qed.
Print Assumptions C102_serial.
(** Two calls that overlap can lose one of them, on every mesh and without an error. *)
Theorem C102_lost_update : forall F (A : arith F) cs m m0 m1, call_alone A m (cs 0%nat) = (m0, None) -> call_alone A m (cs 1%nat) = (m1, None) ->
  exists l ts, threads_run A cs m l = (m1, ts) /\ ts 0%nat = TDone /\ ts 1%nat = TDone.
Proof. exact @threads_lost. Qed.
Print Assumptions C102_lost_update.
(** They can also leave the mesh torn: no number of calls one after the other gives this mesh. *)
Theorem C102_serializable_refuted : exists m m' ts, vertex_size m = Ok (Z.of_nat 7) /\ tiled_vertices 7 m /\ fitting_call exact 7 m (CTranslate [1%R]) /\
  threads_run exact (fun _ => CTranslate [1%R]) m torn_schedule = (m', ts) /\ ts 0%nat = TDone /\ ts 1%nat = TDone /\
  forall order, m' <> fold_left (fun m (i : nat) => fst (call_alone exact m (CTranslate [1%R]))) order m.
Proof. exact torn_not_serial. Qed.
Print Assumptions C102_serializable_refuted.
(** An export (without update of the bounds) beside such calls writes the mesh of one moment. *)
Theorem C102_export : forall F p (pk : F -> Z) m at_, (forall i, same_but_vertices m (at_ i)) -> export_during p pk at_ = export p pk (at_ 9%nat).
Proof. exact @export_meanwhile. Qed.
Print Assumptions C102_export.
(** Not so beside a merge: here the file is written without an error and does not load. *)
Theorem C102_export_merge_refuted : exists m other m' at_, merge m other = (m', Merged) /\ (forall i, at_ i = m \/ at_ i = m') /\
  snd (export_during p64 pack_f at_) = None /\ forall m2, load p64 unpack_f (m_kind m) (fst (export_during p64 pack_f at_)) <> Ok m2.
Proof. exact merge_meanwhile. Qed.
Print Assumptions C102_export_merge_refuted.
Example C102_example : forall F (A : arith F) f x, vertex_size (exm f) = Ok (Z.of_nat 7) /\ tiled_vertices 7 (exm (F:=F) f) /\
  fitting_call A 7 (exm f) (CTranslate [x; x; x]) /\ (can_turn A x x x -> fitting_call A 7 (exm f) (CRotate [x; x; x])).
Proof.
  intros F A f x. split; [apply ex_size|]. split; [apply ex_tiled|]. split.
  - split; [apply ex_short|]. intros _. exact (ex_position f).
  - intros H. split; [apply ex_ready|]. exists x, x, x, []. auto.
Qed.

(** * The programs of the README *)
From Verif Require Import Obj SpecObj SpecHist SpecBounds SpecAcc ReadMe SpecReadMe ReadMeFacts WitnessReorder WitnessSample WitnessReadMe.
Open Scope Z_scope.

(** C103. As they are printed the programs always raise, whatever the files hold, and change no file. *)
Theorem C103_as_printed : forall F (A : arith F) p unpackf packf f off,
  (exists e, readme_order A p unpackf packf f readme_kits readme_order_list = (f, Some e)) /\
  (exists e, readme_offset A p unpackf packf f readme_box off readme_box_offset = (f, Some e)) /\
  (exists e, readme_merge A p unpackf packf f readme_box readme_box readme_box_merged = (f, Some e)).
Proof. exact @as_printed. Qed.
Print Assumptions C103_as_printed.
(** If loading and the editing call succeed, the error is FileNotFoundError. *)
Theorem C103_bare_names : forall F (A : arith F) p unpackf packf f src call dst, dst <> [] -> ~ In slash dst ->
  exists e, edit_file A p unpackf packf f src call dst = (f, Some e) /\
  (forall o, new_visible_mesh p unpackf f (Some src) no_flags = Ok o -> snd (call (o_mesh o)) = None -> e = EFileNotFound).
Proof. exact @file_bare. Qed.
Print Assumptions C103_bare_names.
(** Under any name: the order is for 18 geoms, the comment speaks of 22. *)
Theorem C103_order_mismatch : forall F (A : arith F) p unpackf packf f name order o, new_visible_mesh p unpackf f (Some name) no_flags = Ok o ->
  List.length order <> List.length (geoms (o_mesh o)) -> readme_order A p unpackf packf f name order = (f, Some EAttribute).
Proof. exact @order_mismatch. Qed.
Print Assumptions C103_order_mismatch.
(** For a mesh of 18 geoms it is a permutation: 7 goes to 16, 13 to 15 and 14 to 17, as the comment says. *)
Theorem C103_order_list : exists ks, permutes 18 readme_order_list ks /\ nth_error ks 16 = Some 7%nat /\ nth_error ks 15 = Some 13%nat /\ nth_error ks 17 = Some 14%nat.
Proof. exact (ex_intro _ readme_ks (conj readme_permutes (conj eq_refl (conj eq_refl eq_refl)))). Qed.
Print Assumptions C103_order_list.
(** With a name that has a directory the first program reorders the file. *)
Theorem C103_order : forall L p vs f name order ks o, new_visible_mesh p unpack_f f (Some name) no_flags = Ok o -> savable p vs (o_mesh o) -> boundable vs (o_mesh o) ->
  permutes (List.length (geoms (o_mesh o))) order ks -> vertnum (o_mesh o) * Z.of_nat vs <= 2 ^ 53 -> can_save f name ->
  exists f' m1 m2, readme_order (f64 L) p unpack_f pack_f f name order = (f', None) /\ change_geoms_order (o_mesh o) order = (m1, None) /\
    update_boundaries (f64 L) m1 = (m2, None) /\ only_writes f f' name /\
    (forall j k g g', nth_error ks j = Some k -> nth_error (geoms (o_mesh o)) k = Some g -> nth_error (geoms m1) j = Some g' ->
       geom_mats unplaced g' = geom_mats unplaced g /\ Forall2 (same_content vs m1 (o_mesh o)) (mats_of [g']) (mats_of [g])) /\
    forall kw, new_visible_mesh p unpack_f f' (Some name) kw = Ok {| o_mesh := m2; o_filename := name; o_loaded := true |}.
Proof. exact order_saved. Qed.
Print Assumptions C103_order.
Theorem C103_offset : forall L p vs f src dst off o, new_visible_mesh p unpack_f f (Some src) no_flags = Ok o -> savable p vs (o_mesh o) -> boundable vs (o_mesh o) ->
  (off <> [] -> exists a, position_attrib (o_mesh o) = Some a /\ (attrib_start (o_mesh o) a + List.length off <= vs)%nat) ->
  vertnum (o_mesh o) * Z.of_nat vs <= 2 ^ 53 -> can_save f dst -> kind_named (m_kind (o_mesh o)) dst ->
  exists f' m1 m2 round, readme_offset (f64 L) p unpack_f pack_f f src off dst = (f', None) /\ translate (f64 L) (o_mesh o) off = (m1, None) /\
    update_boundaries (f64 L) m1 = (m2, None) /\ only_writes f f' dst /\
    (forall x, rounds_to_single x (round x)) /\ (forall x, is_single x -> round x = x) /\
    forall kw, new_visible_mesh p unpack_f f' (Some dst) kw = Ok {| o_mesh := mesh_map round m2; o_filename := dst; o_loaded := true |}.
Proof. exact offset_saved. Qed.
Print Assumptions C103_offset.
Theorem C103_merge : forall L p vs f src other dst o1 o2 m1, new_visible_mesh p unpack_f f (Some src) no_flags = Ok o1 -> new_visible_mesh p unpack_f f (Some other) no_flags = Ok o2 ->
  savable p vs (o_mesh o1) -> savable p vs (o_mesh o2) -> boundable vs (o_mesh o1) -> merge (o_mesh o1) (o_mesh o2) = (m1, Merged) ->
  is_long p (vertnum m1) -> is_long p (indexnum m1) -> vertnum m1 * Z.of_nat vs <= 2 ^ 53 -> can_save f dst -> kind_named (m_kind (o_mesh o1)) dst ->
  exists f' m2, readme_merge (f64 L) p unpack_f pack_f f src other dst = (f', None) /\ update_boundaries (f64 L) m1 = (m2, None) /\ only_writes f f' dst /\
    forall kw, new_visible_mesh p unpack_f f' (Some dst) kw = Ok {| o_mesh := m2; o_filename := dst; o_loaded := true |}.
Proof. exact merge_saved. Qed.
Print Assumptions C103_merge.
(** Meshes that do not fit together are no error: the first one is saved alone. *)
Theorem C103_merge_ignored : forall F (A : arith F) p unpackf packf f src other dst o1 o2,
  new_visible_mesh p unpackf f (Some src) no_flags = Ok o1 -> new_visible_mesh p unpackf f (Some other) no_flags = Ok o2 ->
  canMerge (o_mesh o1) (o_mesh o2) = Ok false ->
  readme_merge A p unpackf packf f src other dst = edit_file A p unpackf packf f src (fun m => (m, None)) dst.
Proof. exact @merge_ignored. Qed.
Print Assumptions C103_merge_ignored.
(** The box of the repository: 1.5 is added to the third coordinate exactly, nothing else changes. *)
Theorem C103_box_offset : forall L f src,
  new_visible_mesh p32 unpack_f f (Some src) no_flags = Ok {| o_mesh := fl evil_box; o_filename := src; o_loaded := true |} ->
  forall dst, can_save f dst -> kind_named k_static_ dst ->
  exists f' r, readme_offset (f64 L) p32 unpack_f pack_f f src [zero_f; zero_f; onehalf_f] dst = (f', None) /\ only_writes f f' dst /\
    (forall kw, new_visible_mesh p32 unpack_f f' (Some dst) kw = Ok {| o_mesh := r; o_filename := dst; o_loaded := true |}) /\
    List.length (vertices r) = List.length (vertices evil_box) /\ index r = index (fl evil_box) /\
    forall j c x, (c < 20)%nat -> nth_error (vertices (fl evil_box)) (j * 20 + c) = Some x ->
      exists y, nth_error (vertices r) (j * 20 + c) = Some y /\
        (c = 2%nat -> val y = (val x + 3 / 2)%R) /\ ((c < 2)%nat -> val y = val x) /\ ((3 <= c)%nat -> rounds_to_single x y /\ (is_single x -> y = x)).
Proof. exact box_offset. Qed.
Print Assumptions C103_box_offset.
Theorem C103_box_merged : forall L f src,
  new_visible_mesh p32 unpack_f f (Some src) no_flags = Ok {| o_mesh := fl evil_box; o_filename := src; o_loaded := true |} ->
  forall dst, can_save f dst -> kind_named k_static_ dst ->
  exists f' r m1, readme_merge (f64 L) p32 unpack_f pack_f f src src dst = (f', None) /\ only_writes f f' dst /\
    (forall kw, new_visible_mesh p32 unpack_f f' (Some dst) kw = Ok {| o_mesh := r; o_filename := dst; o_loaded := true |}) /\
    merge (fl evil_box) (fl evil_box) = (m1, Merged) /\ vertices r = vertices m1 /\ index r = index m1 /\ vertnum r = 50 /\ indexnum r = 72.
Proof. exact box_merged. Qed.
Print Assumptions C103_box_merged.
Example C103_example_order : new_visible_mesh p64 unpack_f fs_duo (Some fn_duo) no_flags = Ok obj_duo /\ savable p64 7 (o_mesh obj_duo) /\ boundable 7 (o_mesh obj_duo) /\
  permutes (List.length (geoms (o_mesh obj_duo))) [1; -2] [1; 0]%nat /\ vertnum (o_mesh obj_duo) * Z.of_nat 7 <= 2 ^ 53 /\ can_save fs_duo fn_duo.
Proof. exact (conj open_duo duo_ready). Qed.
Example C103_example_box : new_visible_mesh p32 unpack_f fs_box (Some (in_objects ++ readme_box)) no_flags =
    Ok {| o_mesh := fl evil_box; o_filename := in_objects ++ readme_box; o_loaded := true |} /\ can_save fs_box dst_box /\ kind_named k_static_ dst_box.
Proof. exact (conj open_box save_box). Qed.

(** * Meshes whose attributes were assigned by hand *)
From Verif Require Import SpecF SpecHand HandFacts WitnessHand.
Open Scope Z_scope.

(** C104. *)
Theorem C104_writable : forall F p (packf : F -> Z) m, snd (export p packf m) = None <-> writable p m.
Proof. exact @writable_iff. Qed.
Print Assumptions C104_writable.
Theorem C104_reload : forall p m bs, export p pack_f m = (bs, None) ->
  (wf p m <-> exists round, (forall x, rounds_to_single x (round x)) /\ (forall x, is_single x -> round x = x) /\ load p unpack_f (m_kind m) bs = Ok (mesh_map round m)).
Proof. exact reload_iff. Qed.
Print Assumptions C104_reload.
Theorem C104_inconsistent_lost : forall p m bs, export p pack_f m = (bs, None) -> ~ wf p m ->
  forall g m', load p unpack_f (m_kind m) bs = Ok m' -> mesh_map (F:=binary64) g m <> m'.
Proof. exact inconsistent_lost. Qed.
Print Assumptions C104_inconsistent_lost.
(** A wrong count need not be noticed by anyone. *)
Theorem C104_wrong_count_refuted : exists m bs m', wf p64 m /\ export p64 pack_f (set_geomnum m 0) = (bs, None) /\ load p64 unpack_f (m_kind m) bs = Ok m' /\
  geoms m <> [] /\ geoms m' = [] /\ index m = Tuple [] /\ index m' = Tuple (repeat 0 8).
Proof. exact wrong_count. Qed.
Print Assumptions C104_wrong_count_refuted.
Theorem C104_rename : forall p f m, wf p m -> indexnum m <> 1 -> (forall s, wf_string p s -> wf_string p (f s)) ->
  exists bs round, (forall x, rounds_to_single x (round x)) /\ (forall x, is_single x -> round x = x) /\
    export p pack_f (rename_names f m) = (bs, None) /\ load p unpack_f (m_kind m) bs = Ok (mesh_map round (rename_names f m)).
Proof. exact rename_saved. Qed.
Print Assumptions C104_rename.
Example C104_example : wf p64 (fl hand_mesh) /\ writable p64 (set_geomnum (fl hand_mesh) 0) /\ ~ wf p64 (set_geomnum (fl hand_mesh) 0).
Proof.
  split; [exact hand_wf|]. split; [apply (writable_iff p64 pack_f); vm_compute; reflexivity|].
  intros (_ & _ & (_ & H) & _). discriminate H.
Qed.
Example C104_rename_example : wf p64 (fl hand_mesh) /\ indexnum (fl hand_mesh) <> 1 /\ forall s, wf_string p64 s -> wf_string p64 (lower s).
Proof. split; [exact hand_wf|]. split; [discriminate|]. unfold wf_string, zlen, lower. intros s. now rewrite map_length. Qed.

(** * A full disk *)
From Coq Require Import Lia.
From Verif Require Import DiskFull DiskFullFacts WitnessObj.
Open Scope Z_scope.

(** C105. *)
Theorem C105_fits : forall F (A : arith F) p packf room B ws f o filename fn ub f' o', writes_to o filename fn ->
  (forall bs, f' (resolve fn) = Some (File bs) -> (list_sum ws <= List.length bs)%nat) ->
  export_room A p packf room B ws f o filename ub = (f', o', Done) <->
  export_obj A p packf f o filename ub = (f', o', None) /\ exists bs, f' (resolve fn) = Some (File bs) /\ (List.length bs <= room)%nat.
Proof. exact @room_done. Qed.
Print Assumptions C105_fits.
Theorem C105_other_errors : forall F (A : arith F) p packf room B ws f o filename ub f' o' e,
  export_room A p packf room B ws f o filename ub = (f', o', Raised e) -> export_obj A p packf f o filename ub = (f', o', Some e).
Proof. exact @room_raised. Qed.
Print Assumptions C105_other_errors.
Theorem C105_full : forall F (A : arith F) p packf room B ws f o filename fn ub f0 o0 bs, writes_to o filename fn ->
  export_obj A p packf f o filename ub = (f0, o0, None) -> f0 (resolve fn) = Some (File bs) -> (room < List.length bs)%nat -> list_sum ws = List.length bs ->
  exists f' o', export_room A p packf room B ws f o filename ub = (f', o', NoSpace) /\
    f' (resolve fn) = Some (File (firstn room bs)) /\ (forall q, q <> resolve fn -> f' q = f0 q) /\
    o_mesh o' = o_mesh o0 /\ o_loaded o' = o_loaded o /\
    (o_filename o' = fn \/ o_filename o' = o_filename o) /\
    ((List.length bs <= B)%nat -> o_filename o' = fn) /\ ((room + B < List.length bs)%nat -> o_filename o' = o_filename o).
Proof. exact @room_full. Qed.
Print Assumptions C105_full.
Theorem C105_unloadable : forall L p room B ws f o filename fn ub f0 o0 bs, writes_to o filename fn -> wf p (o_mesh o) -> indexnum (o_mesh o) <> 1 ->
  kind_named (m_kind (o_mesh o)) fn ->
  export_obj (f64 L) p pack_f f o filename ub = (f0, o0, None) -> f0 (resolve fn) = Some (File bs) -> (room < List.length bs)%nat -> list_sum ws = List.length bs ->
  exists f' o', export_room (f64 L) p pack_f room B ws f o filename ub = (f', o', NoSpace) /\
    forall kw, new_visible_mesh p unpack_f f' (Some fn) kw = Raise EStruct.
Proof. exact room_unloadable. Qed.
Print Assumptions C105_unloadable.
Example C105_example : forall L, writes_to objA (Some fnB) fnB /\ o_filename objA <> fnB /\ exists f0 o0 bs, export_obj (f64 L) p64 pack_f fsA objA (Some fnB) false = (f0, o0, None) /\
  f0 (resolve fnB) = Some (File bs) /\ (10 < List.length bs)%nat /\ list_sum [4%nat; (List.length bs - 4)%nat] = List.length bs.
Proof.
  intros L. split; [reflexivity|]. split; [discriminate|]. destruct (exportB L false) as (f0 & o0 & E). exists f0, o0.
  destruct (ObjFacts.export_success' (f64 L) p64 pack_f objA (Some fnB) fnB fsA false f0 o0 eq_refl E) as (m & bs & (-> & _) & EX & _ & EF & _).
  exists bs. split; [exact E|]. split; [exact EF|].
  assert ((10 <? List.length (fst (export p64 pack_f (o_mesh objA))))%nat = true) as K by (vm_compute; reflexivity).
  rewrite EX in K. apply Nat.ltb_lt in K. cbn [fst] in K. split; [exact K|]. unfold list_sum. cbn [fold_right]. lia.
Qed.

(** * Names on Windows *)
From Coq Require Import Ascii String.
From Verif Require Import WinName SpecWinName WinFacts.
Open Scope list_scope.
Open Scope Z_scope.

(** C106. *)
Theorem C106_kind : forall fn, kind_named (nt_kind_of_name fn) (slashed fn).
Proof. exact nt_kind_named. Qed.
Print Assumptions C106_kind.
Theorem C106_kind_same : forall fn, ~ In backslash fn -> nt_kind_of_name fn = kind_of_name fn.
Proof. exact nt_kind_same. Qed.
Print Assumptions C106_kind_same.
Theorem C106_kind_separators : forall fn fn', slashed fn = slashed fn' -> nt_kind_of_name fn = nt_kind_of_name fn'.
Proof. exact nt_kind_seps. Qed.
Print Assumptions C106_kind_separators.
Theorem C106_kind_everywhere_refuted : exists fn, isStaticMesh (kind_of_name fn) = true /\ isStaticMesh (nt_kind_of_name fn) = false.
Proof. exact nt_kind_differs. Qed.
Print Assumptions C106_kind_everywhere_refuted.
Theorem C106_no_directory : forall fn, nt_dirname fn = [] <-> ~ In slash fn /\ ~ In backslash fn /\ ~ drive_letter fn.
Proof. exact nt_dirname_empty. Qed.
Print Assumptions C106_no_directory.
Theorem C106_drive : forall c t, ~ In slash (c :: t) -> ~ In backslash (c :: t) -> nt_dirname (c :: colon :: t) = [c; colon].
Proof. exact nt_dirname_drive. Qed.
Print Assumptions C106_drive.
Theorem C106_dirname_same : forall fn, ~ In backslash fn -> ~ drive_letter fn -> (forall t, fn <> slash :: slash :: t) -> nt_dirname fn = dirname fn.
Proof. exact nt_dirname_same. Qed.
Print Assumptions C106_dirname_same.
(** The export over any system is the export of the other theorems on the POSIX one. *)
Theorem C106_posix : forall F (A : arith F) p packf f o filename ub, export_on A p packf posix_sys f o filename ub = export_obj A p packf f o filename ub.
Proof. exact @export_on_posix. Qed.
Print Assumptions C106_posix.
Theorem C106_bare_name : forall F (A : arith F) p packf W (S : sys W) o filename fn, windows S -> writes_to o filename fn ->
  ~ In slash fn -> ~ In backslash fn -> ~ drive_letter fn ->
  forall w ub, export_on A p packf S w o filename ub = (w, o, Some EFileNotFound).
Proof. exact @nt_bare. Qed.
Print Assumptions C106_bare_name.
Theorem C106_saved : forall F (A : arith F) p packf W (S : sys W) o filename fn w ub m bs w2, windows S -> writes_to o filename fn -> s_exists S w (nt_dirname fn) = true ->
  prepared_mesh A ub (o_mesh o) m None -> export p packf m = (bs, None) -> s_open S w fn = Ok w2 ->
  export_on A p packf S w o filename ub = (s_store S w2 fn bs, {| o_mesh := m; o_filename := fn; o_loaded := o_loaded o |}, None).
Proof. exact @nt_saved. Qed.
Print Assumptions C106_saved.
Definition win_sys : sys fs := {| s_dirname := nt_dirname; s_exists := exists_; s_makedirs := makedirs; s_open := open_wb;
  s_store := fun f fn bs => update f (resolve fn) (File bs) |}.
Example C106_example : windows win_sys /\ writes_to objA (Some readme_box) readme_box /\ ~ In slash readme_box /\ ~ In backslash readme_box /\ ~ drive_letter readme_box /\
  isStaticMesh (nt_kind_of_name (of_string "objects" ++ backslash :: readme_box)) = true /\ nt_dirname (of_string "objects" ++ backslash :: readme_box) = of_string "objects".
Proof.
  split; [repeat split|]. split; [reflexivity|].
  assert (~ In slash readme_box /\ ~ In backslash readme_box /\ ~ drive_letter readme_box) as H by (apply nt_dirname_empty; reflexivity).
  destruct H as (H1 & H2 & H3). split; [exact H1|]. split; [exact H2|]. split; [exact H3|]. split; reflexivity.
Qed.

(** * Bounds of moved meshes *)
From Verif Require Import RFacts BoundFacts MoveBoundFacts WitnessMerge WitnessBounds SpecBounds SpecMoveBound.
From Verif Require SpecAcc PiFacts WitnessAcc MoveBoundAcc WitnessMoveBound.
Open Scope Z_scope.

(** C107. The box of a lod, taken afresh after translate: the old fresh box moved by the offset, stretched to the origin. *)
Theorem C107_translate_exact : forall vs m m1 mv m2 dx dy dz gi li l lo hi lo2 hi2,
  vertex_size m = Ok (Z.of_nat vs) -> (0 < vs)%nat -> tiled_vertices vs m -> short_offsets m -> bounded_kind m ->
  bounding_attrib m = position_attrib m ->
  update_boundaries exact m = (m1, None) -> translate exact m1 [dx; dy; dz] = (mv, None) -> update_boundaries exact mv = (m2, None) ->
  lod_at m gi li l -> has_box m1 gi li lo hi -> has_box m2 gi li lo2 hi2 ->
  forall i, In i axes -> let d := axis i (dx, dy, dz) in
    (Rmin 0 (axis i lo + d) <= axis i lo2 <= 0)%R /\ (0 <= axis i hi2 <= Rmax 0 (axis i hi + d))%R /\
    ((exists q, In q (lod_positions vs m l) /\ axis i q <= 0)%R -> axis i lo2 = Rmin 0 (axis i lo + d)) /\
    ((exists q, In q (lod_positions vs m l) /\ 0 <= axis i q)%R -> axis i hi2 = Rmax 0 (axis i hi + d)).
Proof. exact translated_exact. Qed.
Print Assumptions C107_translate_exact.
(** It does not move along with a mesh that is moved away from the origin. *)
Theorem C107_stays_at_origin : forall vs m m1 mv m2 dx dy dz gi li l lo hi lo2 hi2,
  vertex_size m = Ok (Z.of_nat vs) -> (0 < vs)%nat -> tiled_vertices vs m -> short_offsets m -> bounded_kind m ->
  bounding_attrib m = position_attrib m ->
  update_boundaries exact m = (m1, None) -> translate exact m1 [dx; dy; dz] = (mv, None) -> update_boundaries exact mv = (m2, None) ->
  lod_at m gi li l -> has_box m1 gi li lo hi -> has_box m2 gi li lo2 hi2 ->
  forall i, In i axes -> (0 < axis i lo + axis i (dx, dy, dz) -> axis i lo2 = 0)%R /\
                         (axis i hi + axis i (dx, dy, dz) < 0 -> axis i hi2 = 0)%R.
Proof. exact not_moved_along. Qed.
Print Assumptions C107_stays_at_origin.
(** In doubles the same holds with rounded sums, as long as no sum overflows. *)
Theorem C107_translate_double : forall L vs m m1 mv m2 dx dy dz gi li l lo hi lo2 hi2,
  vertex_size m = Ok (Z.of_nat vs) -> (0 < vs)%nat -> tiled_vertices vs m -> short_offsets m -> bounded_kind m ->
  bounding_attrib m = position_attrib m ->
  (forall i, In i axes -> is_finite 53 1024 (axis i (dx, dy, dz)) = true) ->
  Forall (fun mt => Forall (fun q => forall i, In i axes -> is_finite 53 1024 (axis i (plus3 (f64 L) (dx, dy, dz) q)) = true)
                           (positions vs m mt)) (mats m) ->
  update_boundaries (f64 L) m = (m1, None) -> translate (f64 L) m1 [dx; dy; dz] = (mv, None) -> update_boundaries (f64 L) mv = (m2, None) ->
  lod_at m gi li l -> has_box m1 gi li lo hi -> has_box m2 gi li lo2 hi2 ->
  box_carried (f64 L) (dx, dy, dz) (lod_positions vs m l) lo hi lo2 hi2.
Proof. exact translated_double. Qed.
Print Assumptions C107_translate_double.
(** After rotate it stays within the ball around the origin that holds the vertices, so within that through the
    furthest corner of the old box. *)
Theorem C107_rotate : forall vs m m1 mv m2 y p r more a gi li l lo hi lo2 hi2,
  vertex_size m = Ok (Z.of_nat vs) -> (0 < vs)%nat -> tiled_vertices vs m -> rotate_ready vs m -> bounded_kind m ->
  bounding_attrib m = Some a ->
  update_boundaries exact m = (m1, None) -> rotate exact m1 (y :: p :: r :: more) = (mv, None) -> update_boundaries exact mv = (m2, None) ->
  lod_at m gi li l -> has_box m1 gi li lo hi -> has_box m2 gi li lo2 hi2 ->
  (forall ray, 0 <= ray -> (forall q, In q (lod_positions vs m l) -> dot q q <= ray * ray) ->
     forall i, In i axes -> - ray <= axis i lo2 <= 0 /\ 0 <= axis i hi2 <= ray)%R /\
  (forall i, In i axes -> - far_corner lo hi <= axis i lo2 <= 0 /\ 0 <= axis i hi2 <= far_corner lo hi)%R.
Proof. exact rotated_ball. Qed.
Print Assumptions C107_rotate.
(** In doubles the same holds up to the error of rotate (C55): [ray] is a radius that holds the lod's vertices, [e] bounds
    the error of the C library's cosine and sine, [D] the angles in degrees. *)
Theorem C107_rotate_double : forall L vs m m1 mv m2 yaw pitch roll more a gi li l lo2 hi2 e D ray,
  vertex_size m = Ok (Z.of_nat vs) -> (0 < vs)%nat -> tiled_vertices vs m -> rotate_ready vs m -> bounded_kind m ->
  bounding_attrib m = Some a ->
  (0 <= e)%R -> SpecAcc.libm_within e L -> SpecAcc.angle_upto D yaw -> SpecAcc.angle_upto D pitch -> SpecAcc.angle_upto D roll ->
  (e + D * Raux.bpow Zaux.radix2 (-58) <= / 16)%R ->
  Forall (fun mt => Forall (fun q => SpecAcc.finite3 q /\ (SpecAcc.norm (SpecAcc.val3 q) <= Raux.bpow Zaux.radix2 1000)%R) (positions vs m mt)) (mats m) ->
  update_boundaries (f64 L) m = (m1, None) -> rotate (f64 L) m1 (yaw :: pitch :: roll :: more) = (mv, None) -> update_boundaries (f64 L) mv = (m2, None) ->
  lod_at m gi li l -> has_box m2 gi li lo2 hi2 ->
  (0 <= ray)%R -> (forall q, In q (lod_positions vs m l) -> (SpecAcc.norm (SpecAcc.val3 q) <= ray)%R) ->
  let far := (ray + (9 * (2 * (e + D * Raux.bpow Zaux.radix2 (-58)) + 6 * SpecAcc.half_ulp) * ray + Raux.bpow Zaux.radix2 (-1069)))%R in
  forall i, In i axes -> SpecAcc.finite (axis i lo2) /\ SpecAcc.finite (axis i hi2) /\
    (- far <= SpecAcc.val (axis i lo2) <= 0)%R /\ (0 <= SpecAcc.val (axis i hi2) <= far)%R.
Proof. exact MoveBoundAcc.rotated_double. Qed.
Print Assumptions C107_rotate_double.
Example C107_rotate_double_example : let m := exm unpack_f in
  (SpecAcc.libm_within (2 * SpecAcc.half_ulp) WitnessAcc.lib_rounded /\ SpecAcc.angle_upto 90 WitnessAcc.b90_ /\
   2 * SpecAcc.half_ulp + 90 * Raux.bpow Zaux.radix2 (-58) <= / 16)%R /\
  Forall (fun mt => Forall (fun q => SpecAcc.finite3 q /\ (SpecAcc.norm (SpecAcc.val3 q) <= 8)%R) (positions 7 m mt)) (mats m) /\
  exists m1 mv m2 a l lo2 hi2, bounding_attrib m = Some a /\
    update_boundaries (f64 WitnessAcc.lib_rounded) m = (m1, None) /\
    rotate (f64 WitnessAcc.lib_rounded) m1 [WitnessAcc.b90_; WitnessAcc.b90_; WitnessAcc.b90_] = (mv, None) /\
    update_boundaries (f64 WitnessAcc.lib_rounded) mv = (m2, None) /\ lod_at m 1 0 l /\ has_box m2 1 0 lo2 hi2 /\
    (forall q, In q (lod_positions 7 m l) -> SpecAcc.norm (SpecAcc.val3 q) <= 8)%R.
Proof.
  split; [split; [exact WitnessAcc.lib_rounded_right|split; [exact WitnessAcc.b90_upto|exact WitnessAcc.acc_small]]|].
  split; [exact WitnessMoveBound.ex_near|exact WitnessMoveBound.ex_turned].
Qed.
(** These calls do succeed. *)
Theorem C107_translate_succeeds : forall F (A : arith F) vs m dx dy dz a gi li l,
  vertex_size m = Ok (Z.of_nat vs) -> (0 < vs)%nat -> tiled_vertices vs m -> short_offsets m -> bounded_kind m ->
  Forall (fun a => in_use a = true -> known_attrib a) (vertex_attributes m) ->
  bounding_attrib m = position_attrib m -> bounding_attrib m = Some a ->
  vartype a = 2 \/ vartype a = 3 -> (attrib_start m a + 3 <= vs)%nat -> lod_at m gi li l ->
  exists m1 mv m2 lo hi lo2 hi2, update_boundaries A m = (m1, None) /\ translate A m1 [dx; dy; dz] = (mv, None) /\
    update_boundaries A mv = (m2, None) /\ has_box m1 gi li lo hi /\ has_box m2 gi li lo2 hi2.
Proof. exact @translate_through. Qed.
Print Assumptions C107_translate_succeeds.
Theorem C107_rotate_succeeds : forall F (A : arith F) vs m y p r more a gi li l,
  vertex_size m = Ok (Z.of_nat vs) -> (0 < vs)%nat -> tiled_vertices vs m -> rotate_ready vs m -> bounded_kind m ->
  Forall (fun a => in_use a = true -> known_attrib a) (vertex_attributes m) -> bounding_attrib m = Some a ->
  can_turn A y p r -> lod_at m gi li l ->
  exists m1 mv m2 lo hi lo2 hi2, update_boundaries A m = (m1, None) /\ rotate A m1 (y :: p :: r :: more) = (mv, None) /\
    update_boundaries A mv = (m2, None) /\ has_box m1 gi li lo hi /\ has_box m2 gi li lo2 hi2.
Proof. exact @rotate_through. Qed.
Print Assumptions C107_rotate_succeeds.
Example C107_example : let m := exm zr in
  (vertex_size m = Ok (Z.of_nat 7) /\ tiled_vertices 7 m /\ rotate_ready 7 m /\ bounded_kind m /\
   Forall (fun a => in_use a = true -> known_attrib a) (vertex_attributes m) /\ bounding_attrib m = position_attrib m /\
   exists a l, bounding_attrib m = Some a /\ vartype a = 2 /\ (attrib_start m a + 3 <= 7)%nat /\ lod_at m 1 0 l /\
     forall i, In i axes -> (exists q, In q (lod_positions 7 m l) /\ axis i q <= 0)%R /\ (exists q, In q (lod_positions 7 m l) /\ 0 <= axis i q)%R) /\
  forall L, Forall (fun mt => Forall (fun q => forall i, In i axes -> is_finite 53 1024 (axis i (plus3 (f64 L) (f_two (f64 L), f_two (f64 L), f_two (f64 L)) q)) = true)
                           (positions 7 (exm unpack_f) mt)) (mats (exm unpack_f)).
Proof.
  split.
  - split; [apply ex_size|]. split; [apply ex_tiled|]. split; [apply ex_ready|]. split; [apply ex_bounded|].
    split; [change (vertex_attributes (exm zr)) with ex_attribs; eapply Forall_impl; [|exact ex_known]; auto|]. split; [reflexivity|].
    destruct ex_straddles as (l & HL & ST). eexists _, l. split; [reflexivity|]. split; [reflexivity|]. split; [cbn; lia|]. auto.
  - intros L.
    assert (forallb (fun mt => forallb (fun q => forallb (fun i => is_finite 53 1024 (axis i (plus3 (f64 L) (f_two (f64 L), f_two (f64 L), f_two (f64 L)) q))) axes)
      (positions 7 (exm unpack_f) mt)) (mats (exm unpack_f)) = true) as H by (vm_compute; reflexivity).
    rewrite forallb_forall in H. apply Forall_forall. intros mt Hm. specialize (H mt Hm). rewrite forallb_forall in H.
    apply Forall_forall. intros q Hq. specialize (H q Hq). rewrite forallb_forall in H. exact H.
Qed.

(** * Objects made by loading *)
From Verif Require Import SpecLoadCost LoadCost LoadCostFacts.
Open Scope Z_scope.

(** C108. [load_counted] (LoadCost.v) is the loader with a count of the geoms, lods, vertex attributes, rigs, bones and
    materials that it has made when it returns or raises. Its result is that of [load]. *)
Theorem C108_same : forall F p (u : Z -> F) k bs, snd (load_counted p u k bs) = load p u k bs.
Proof. exact @counted_same. Qed.
Print Assumptions C108_same.
(** A load that succeeds makes the objects of the mesh and no others, and the file has four bytes for each. *)
Theorem C108_success : forall F p (u : Z -> F) k bs m, snd (load_counted p u k bs) = Ok m ->
  fst (load_counted p u k bs) = mesh_objects m /\ 4 * mesh_objects m <= zlen bs.
Proof. exact @counted_success. Qed.
Print Assumptions C108_success.
(** In any case each byte makes fewer objects than the largest C long plus one. *)
Theorem C108_bound : forall F p (u : Z -> F) k bs, 0 <= fst (load_counted p u k bs) <= long_limit p * zlen bs.
Proof. exact @counted_bounded. Qed.
Print Assumptions C108_bound.
(** The file's length does not bound the objects: a file of 6 + n C longs and one byte, which is refused in the end,
    makes n times 2^31 objects (2^63 with 8-byte longs) first. *)
Theorem C108_small_file_refuted : forall F p (u : Z -> F) k (n : nat), Z.of_nat n < long_limit p -> exists bs,
  zlen bs = (6 + Z.of_nat n) * Z.of_nat (long_bytes p) + 1 /\ load_counted p u k bs = (Z.of_nat n * long_limit p, Raise EStruct).
Proof. exact @counted_bomb. Qed.
Print Assumptions C108_small_file_refuted.
(** The largest count of vertex attributes, or any other, is believed before the first attribute is there. *)
Theorem C108_attributes_refuted : forall F p (u : Z -> F) k n, 0 < n < long_limit p -> exists bs,
  zlen bs = 7 * Z.of_nat (long_bytes p) + 1 /\ load_counted p u k bs = (n, Raise EStruct).
Proof. exact @counted_attribs. Qed.
Print Assumptions C108_attributes_refuted.
Example C108_example :
  (exists m, load_counted p32 (fun b => b) k_skinned_ (ex_file p32 6 k_skinned_) = (mesh_objects m, Ok m) /\ 0 < mesh_objects m) /\
  (exists bs, zlen bs = 29 /\ load_counted p32 (fun b => b) k_skinned_ bs = (2 ^ 31, Raise EStruct)).
Proof.
  split.
  - exists (ex_mesh 6 k_skinned_). split; [vm_compute; reflexivity|vm_compute; reflexivity].
  - exact (counted_bomb p32 (fun b => b) k_skinned_ 1 ltac:(vm_compute; reflexivity)).
Qed.

(** * Lengths of the files of edited meshes *)
From Verif Require Import SpecHist WitnessReorder WitnessHist SpecEditSize EditSizeFacts WitnessEditSize.
Open Scope Z_scope.

(** C109. [journey] is any sequence of calls with the list of the meshes that were merged in (SpecEditSize.v). The new
    file is longer than the old one by the vertex and index arrays of those meshes and by nothing else. *)
Theorem C109_length : forall L p vs m0 ms m b0, savable p vs m0 -> journey (f64 L) p vs m0 ms m ->
  is_long p (vertnum m) -> is_long p (indexnum m) -> vertnum m * Z.of_nat vs <= 2 ^ 53 -> export p pack_f m0 = (b0, None) ->
  exists bs, export p pack_f m = (bs, None) /\ zlen bs = zlen b0 + sumZ array_bytes ms.
Proof. exact journey_length. Qed.
Print Assumptions C109_length.
(** These sequences are the histories of C44. *)
Theorem C109_histories : forall F (A : arith F) p vs m0 m, history A p vs m0 m <-> exists ms, journey A p vs m0 ms m.
Proof. exact @history_journey. Qed.
Print Assumptions C109_histories.
(** A merged file is shorter than the two files together, and no shorter than the first. *)
Theorem C109_merge : forall p vs m other m' b1 b2 b3, savable p vs m -> savable p vs other -> merge m other = (m', Merged) ->
  wf p m' -> export p pack_f m = (b1, None) -> export p pack_f other = (b2, None) -> export p pack_f m' = (b3, None) ->
  zlen b3 < zlen b1 + zlen b2 /\ zlen b1 <= zlen b3.
Proof. exact merge_length. Qed.
Print Assumptions C109_merge.
Example C109_example : forall L, savable p64 7 (fl duo_mesh) /\ (exists b0, export p64 pack_f (fl duo_mesh) = (b0, None)) /\
  journey (f64 L) p64 7 (fl duo_mesh) [fl duo_mesh] (step5 (f64 L) unpack_f) /\ array_bytes (fl duo_mesh) = 180 /\
  is_long p64 (vertnum (step5 (f64 L) unpack_f)) /\ is_long p64 (indexnum (step5 (f64 L) unpack_f)) /\ vertnum (step5 (f64 L) unpack_f) * Z.of_nat 7 <= 2 ^ 53 /\
  exists m', merge (fl duo_mesh) (fl duo_mesh) = (m', Merged).
Proof.
  intros L. split; [exact duo_savable|]. split; [eexists; vm_compute; reflexivity|]. split; [apply duo_journey|]. split; [exact duo_bytes|].
  destruct (duo_history L) as (_ & H1 & H2 & H3 & _). split; [exact H1|]. split; [exact H2|]. split; [exact H3|].
  exists (step1 unpack_f). exact (step1_eq unpack_f).
Qed.

(** * Texts of headers, attributes and meshes *)
From Verif Require Import SpecExn WitnessExn.
From Verif Require SpecText Text TextFacts.
Open Scope Z_scope.

(** C110. The text of a header: five lines with the five numbers. Different headers have different texts. *)
Theorem C110_head : forall h, exists t1 t2 t3 t4 t5,
  SpecText.writes t1 (h_u1 h) /\ SpecText.writes t2 (h_version h) /\ SpecText.writes t3 (h_u3 h) /\
  SpecText.writes t4 (h_u4 h) /\ SpecText.writes t5 (h_u5 h) /\
  Text.head_text h = (SpecText.lit "head.u1 = "%string ++ t1 ++ SpecText.newline :: SpecText.lit "head.version = "%string ++ t2 ++
    SpecText.newline :: SpecText.lit "head.u3 = "%string ++ t3 ++ SpecText.newline :: SpecText.lit "head.u4 = "%string ++ t4 ++
    SpecText.newline :: SpecText.lit "head.u5 = "%string ++ t5)%list.
Proof. exact TextFacts.head_says. Qed.
Print Assumptions C110_head.
Theorem C110_head_lines : forall h, count_occ Ascii.ascii_dec (Text.head_text h) SpecText.newline = 4%nat.
Proof. exact TextFacts.head_lines. Qed.
Print Assumptions C110_head_lines.
Theorem C110_head_distinct : forall a b, Text.head_text a = Text.head_text b <-> a = b.
Proof. exact TextFacts.head_distinct. Qed.
Print Assumptions C110_head_distinct.
(** A decimal numeral has one value. *)
Theorem C110_numeral : forall t a b, SpecText.writes t a -> SpecText.writes t b -> a = b.
Proof. exact TextFacts.writes_inj. Qed.
Print Assumptions C110_numeral.
(** The text of a vertex attribute with known type and usage; [nums] as in Text.v (the version of Python). *)
Theorem C110_attribute : forall (nums : bool) a, known_attrib a -> exists tf to tt ts n k u,
  SpecText.writes tf (flag a) /\ SpecText.writes to (offset a) /\ In (vartype a, n, k) SpecText.types /\ SpecText.writes ts k /\
  In (usage a, u) SpecText.usages /\
  (if nums then SpecText.writes tt (vartype a) else tt = (SpecText.lit "D3DDECLTYPE."%string ++ SpecText.lit n)%list) /\
  Text.attrib_text nums a = Ok (SpecText.lit "flag: "%string ++ tf ++ SpecText.lit ", offset: "%string ++ to ++ SpecText.lit ", vartype: "%string ++ tt ++
    SpecText.lit " of size "%string ++ ts ++ SpecText.lit ", usage: "%string ++ SpecText.lit u)%list.
Proof. exact TextFacts.attrib_says. Qed.
Print Assumptions C110_attribute.
(** Any other attribute has no text: ValueError. *)
Theorem C110_attribute_unknown : forall nums a, ~ known_attrib a <-> Text.attrib_text nums a = Raise EValue.
Proof. exact TextFacts.attrib_refuses. Qed.
Print Assumptions C110_attribute_unknown.
Theorem C110_attribute_distinct : forall nums a b t, Text.attrib_text nums a = Ok t -> Text.attrib_text nums b = Ok t -> a = b.
Proof. exact TextFacts.attrib_distinct. Qed.
Print Assumptions C110_attribute_distinct.
(** The two groups of Python versions never print an attribute alike. *)
Theorem C110_versions_refuted : forall a t t', Text.attrib_text false a = Ok t -> Text.attrib_text true a = Ok t' -> t <> t'.
Proof. exact TextFacts.attrib_versions. Qed.
Print Assumptions C110_versions_refuted.
(** There are loadable files with an attribute that cannot be printed. *)
Theorem C110_loaded_refuted : exists bs m, load p64 unpack_f k_static_ bs = Ok m /\
  exists a, In a (vertex_attributes m) /\ forall nums, Text.attrib_text nums a = Raise EValue.
Proof.
  exists (file_of unknown_type), (fl unknown_type). split; [apply via_file; vm_compute; reflexivity|].
  eexists. split; [left; reflexivity|]. intros []; reflexivity.
Qed.
Print Assumptions C110_loaded_refuted.
(** No mesh can be printed. *)
Theorem C110_mesh_refuted : forall F (m : mesh F) name, Text.mesh_text m name = Raise ENotImplemented.
Proof. exact @TextFacts.mesh_refuses. Qed.
Print Assumptions C110_mesh_refuted.
Example C110_example : let a := {| flag := 0; offset := -12; vartype := 2; usage := 261 |} in known_attrib a /\
  Text.attrib_text false a = Ok (SpecText.lit "flag: 0, offset: -12, vartype: D3DDECLTYPE.FLOAT3 of size 3, usage: UV2"%string) /\
  Text.attrib_text true a = Ok (SpecText.lit "flag: 0, offset: -12, vartype: 2 of size 3, usage: UV2"%string).
Proof. split; [split; cbn; tauto|split; vm_compute; reflexivity]. Qed.
