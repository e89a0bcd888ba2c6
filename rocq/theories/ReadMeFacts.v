(** The programs of the README: what they do as they are printed, and with names that
    have a directory. *)
From Coq Require Import ZArith List Bool Ascii String Lia Permutation Relations Reals.
From Flocq Require Import IEEE754.Binary IEEE754.Bits.
From Verif Require Import PyBase Struct Mesh Arith F64 Edit Obj Spec SpecF CodecBase CodecFacts SpecEdit SpecBounds SpecObj SpecHist TravFacts VertFacts LayoutFacts
  MergeFacts ReorderFacts BoundFacts BoundMergeFacts HistFacts ObjFacts PathFacts SpecLossless LosslessFacts ReadMe SpecReadMe.
Import ListNotations.
Open Scope Z_scope.

(** ** As printed *)
Section Bare.
Context {F : Type} (A : arith F) (p : plat) (unpackf : Z -> F) (packf : F -> Z).
Lemma save_bare f o call dst : dst <> [] -> ~ In slash dst -> exists e, edit_save A p packf f o call dst = (f, Some e) /\
  (snd (call (o_mesh o)) = None -> e = EFileNotFound).
Proof.
  intros N B. unfold edit_save. destruct (call (o_mesh o)) as (m, [e|]); [exists e; split; [reflexivity|discriminate]|]. cbn [snd].
  assert (writes_to {| o_mesh := m; o_filename := o_filename o; o_loaded := o_loaded o |} (Some dst) dst) as W by (destruct dst; [now contradiction N|reflexivity]).
  unfold export_obj. rewrite (bare_name A p packf _ _ _ W B). exists EFileNotFound. auto.
Qed.
(** Whatever the file holds. *)
Theorem file_bare f src call dst : dst <> [] -> ~ In slash dst -> exists e, edit_file A p unpackf packf f src call dst = (f, Some e) /\
  (forall o, new_visible_mesh p unpackf f (Some src) no_flags = Ok o -> snd (call (o_mesh o)) = None -> e = EFileNotFound).
Proof.
  intros N B. unfold edit_file. destruct (new_visible_mesh p unpackf f (Some src) no_flags) as [o|e].
  - destruct (save_bare f o call dst N B) as (e & E & H). exists e. split; [exact E|]. intros o' [= <-]. exact H.
  - exists e. split; [reflexivity|discriminate].
Qed.
Lemma kits_bare : readme_kits <> [] /\ ~ In slash readme_kits.
Proof. split; [discriminate|]. unfold readme_kits. cbn. intuition discriminate. Qed.
Lemma box_offset_bare : readme_box_offset <> [] /\ ~ In slash readme_box_offset.
Proof. split; [discriminate|]. unfold readme_box_offset. cbn. intuition discriminate. Qed.
Lemma box_merged_bare : readme_box_merged <> [] /\ ~ In slash readme_box_merged.
Proof. split; [discriminate|]. unfold readme_box_merged. cbn. intuition discriminate. Qed.
Theorem as_printed f off : (exists e, readme_order A p unpackf packf f readme_kits readme_order_list = (f, Some e)) /\
  (exists e, readme_offset A p unpackf packf f readme_box off readme_box_offset = (f, Some e)) /\
  (exists e, readme_merge A p unpackf packf f readme_box readme_box readme_box_merged = (f, Some e)).
Proof.
  destruct kits_bare as (K1 & K2), box_offset_bare as (O1 & O2), box_merged_bare as (M1 & M2). split; [|split].
  - destruct (file_bare f readme_kits (fun m => change_geoms_order m readme_order_list) readme_kits K1 K2) as (e & E & _). exists e. exact E.
  - destruct (file_bare f readme_box (fun m => translate A m off) readme_box_offset O1 O2) as (e & E & _). exists e. exact E.
  - unfold readme_merge. destruct (new_visible_mesh p unpackf f (Some readme_box) no_flags) as [o|e]; [|exists e; reflexivity].
    destruct (save_bare f o (merge_call (o_mesh o)) readme_box_merged M1 M2) as (e & E & _). exists e. exact E.
Qed.
(** The order of the README has 18 entries, the mesh it is for has 22 geoms. *)
Theorem order_mismatch f name order o : new_visible_mesh p unpackf f (Some name) no_flags = Ok o ->
  List.length order <> List.length (geoms (o_mesh o)) -> readme_order A p unpackf packf f name order = (f, Some EAttribute).
Proof. intros E N. unfold readme_order, edit_file, edit_save. rewrite E. now rewrite (reorder_wrong_length _ _ N). Qed.
(** A mesh that cannot be merged is saved as it is. *)
Theorem merge_ignored f src other dst o1 o2 : new_visible_mesh p unpackf f (Some src) no_flags = Ok o1 -> new_visible_mesh p unpackf f (Some other) no_flags = Ok o2 ->
  canMerge (o_mesh o1) (o_mesh o2) = Ok false ->
  readme_merge A p unpackf packf f src other dst = edit_file A p unpackf packf f src (fun m => (m, None)) dst.
Proof.
  intros E1 E2 C. unfold readme_merge, edit_file. rewrite E1, E2. unfold edit_save, merge_call. now rewrite (merge_incompatible _ _ C).
Qed.
End Bare.

(** ** With a directory *)
Section Saved.
Variables (L : libm) (p : plat) (vs : nat).
Notation obj := (obj (F := binary64)).

Lemma bounds_total (m : mesh binary64) : savable p vs m -> boundable vs m -> exists m', update_boundaries (f64 L) m = (m', None).
Proof.
  intros S (K & B). pose proof (savable_held _ _ _ S) as H. destruct S as (_ & P & Sz & _).
  assert (short_offsets m) as Sh by (apply (short p vs); apply H).
  destruct (has_mat_bounds m) eqn:E.
  - destruct (B (proj1 (has_mat_bounds_spec m) E)) as (a & B1 & B2 & B3).
    apply (update_total (f64 L) vs m a); auto. apply in_range_vin. now apply packed_in_range.
  - apply (update_erased_total (f64 L) (Z.of_nat vs)); auto. intros K'. apply has_mat_bounds_spec in K'. congruence.
Qed.

Lemma save_works f (o : obj) call dst m : call (o_mesh o) = (m, None) -> savable p vs m -> boundable vs m -> vertnum m * Z.of_nat vs <= 2 ^ 53 ->
  can_save f dst -> kind_named (m_kind m) dst ->
  exists f' m' round, edit_save (f64 L) p pack_f f o call dst = (f', None) /\ update_boundaries (f64 L) m = (m', None) /\ only_writes f f' dst /\
    (forall x, rounds_to_single x (round x)) /\ (forall x, is_single x -> round x = x) /\ (mesh_all stored m -> mesh_map round m' = m') /\
    forall kw, new_visible_mesh p unpack_f f' (Some dst) kw = Ok {| o_mesh := mesh_map round m'; o_filename := dst; o_loaded := true |}.
Proof.
  intros EC S B V (T & P & HS & NF & ND) K. destruct (bounds_total m S B) as (m' & EU).
  assert (history (f64 L) p vs m m') as HH.
  { eapply Relation_Operators.rt1n_trans; [eapply by_bounds; exact EU|apply Relation_Operators.rt1n_refl]. }
  destruct (update_frame _ _ _ _ EU) as (_ & HC & _). destruct S as (W & S).
  destruct HC as (EV & EI).
  assert (is_long p (vertnum m) /\ is_long p (indexnum m)) as (LV & LI) by (split; apply W).
  destruct (history_exports L p vs m m' (conj W S) HH) as (S' & bs & _ & _ & _ & EX & _); [now rewrite EV|now rewrite EI|now rewrite EV|].
  set (o1 := {| o_mesh := m; o_filename := o_filename o; o_loaded := o_loaded o |} : obj).
  assert (writes_to o1 (Some dst) dst) as WT.
  { destruct P as (d & s & -> & _ & _ & NE & _). destruct (d ++ s) eqn:E; [|reflexivity]. apply app_eq_nil in E. now destruct E. }
  destruct (export_succeeds' (f64 L) p pack_f f o1 (Some dst) dst true m' bs T WT P HS NF ND EU EX) as (f' & E1 & E2 & _).
  assert (indexnum m <> 1) as NI by (apply (held_counts p vs); apply (savable_held _ _ _ (conj W S))).
  destruct (save_reopen L p f o1 (Some dst) dst true f' _ WT W NI K E1) as (round & R1 & R2 & R3).
  exists f', m', round. split; [unfold edit_save; rewrite EC; fold o1; now rewrite E1|]. split; [exact EU|].
  split; [|split; [exact R1|split; [exact R2|split; [|exact R3]]]].
  2:{ intros HS'. pose proof (stored_reopen L p f o1 (Some dst) dst true f' _ WT W NI K HS' E1 no_flags) as X. rewrite R3 in X. now injection X. }
  intros q Hq. destruct (export_success' (f64 L) p pack_f o1 (Some dst) dst f true f' _ WT E1) as (_ & _ & _ & _ & _ & _ & FR). now apply FR.
Qed.

(** *** The second program *)
Lemma boundable_same (m m' : mesh binary64) : same_header m m' -> boundable vs m -> boundable vs m'.
Proof.
  intros HH. destruct HH as (E1 & E2 & _ & _ & _ & E3 & E4 & _ & _). unfold boundable, bounded_kind, bounding_attrib, attrib_start.
  rewrite E1, E2, E3, E4. auto.
Qed.
Theorem offset_saved f src dst off (o : obj) : new_visible_mesh p unpack_f f (Some src) no_flags = Ok o -> savable p vs (o_mesh o) -> boundable vs (o_mesh o) ->
  (off <> [] -> exists a, position_attrib (o_mesh o) = Some a /\ (attrib_start (o_mesh o) a + List.length off <= vs)%nat) ->
  vertnum (o_mesh o) * Z.of_nat vs <= 2 ^ 53 -> can_save f dst -> kind_named (m_kind (o_mesh o)) dst ->
  exists f' m1 m2 round, readme_offset (f64 L) p unpack_f pack_f f src off dst = (f', None) /\ translate (f64 L) (o_mesh o) off = (m1, None) /\
    update_boundaries (f64 L) m1 = (m2, None) /\ only_writes f f' dst /\
    (forall x, rounds_to_single x (round x)) /\ (forall x, is_single x -> round x = x) /\
    forall kw, new_visible_mesh p unpack_f f' (Some dst) kw = Ok {| o_mesh := mesh_map round m2; o_filename := dst; o_loaded := true |}.
Proof.
  intros E S B P V C K. pose proof S as (W & (T & TI) & Sz & Pos & _). pose proof (savable_held _ _ _ S) as (_ & _ & Fr & _). pose proof (short p vs _ Fr) as Sh.
  destruct (translate_succeeds (f64 L) vs (o_mesh o) off Sz Pos T Sh P) as (m1 & ET).
  destruct (translate_packed (f64 L) vs (o_mesh o) off m1 Sz Pos T Sh ET) as ((HH & (EV & EI) & _) & _).
  assert (savable p vs m1) as S1.
  { apply (history_savable (f64 L) p vs (o_mesh o)); auto.
    - econstructor; [eapply by_translate; exact ET|constructor].
    - rewrite EV. apply W.
    - rewrite EI. apply W.
    - now rewrite EV. }
  pose proof HH as (EK & _).
  destruct (save_works f o (fun m => translate (f64 L) m off) dst m1 ET S1) as (f' & m2 & round & E1 & E2 & E3 & E4 & E5 & _ & E6); auto.
  - now apply (boundable_same (o_mesh o)).
  - now rewrite EV.
  - now rewrite EK.
  - exists f', m1, m2, round. split; [unfold readme_offset, edit_file; now rewrite E|]. split; [exact ET|]. auto.
Qed.

(** *** The first program *)
Theorem order_saved f name order ks (o : obj) : new_visible_mesh p unpack_f f (Some name) no_flags = Ok o -> savable p vs (o_mesh o) -> boundable vs (o_mesh o) ->
  permutes (List.length (geoms (o_mesh o))) order ks -> vertnum (o_mesh o) * Z.of_nat vs <= 2 ^ 53 -> can_save f name ->
  exists f' m1 m2, readme_order (f64 L) p unpack_f pack_f f name order = (f', None) /\ change_geoms_order (o_mesh o) order = (m1, None) /\
    update_boundaries (f64 L) m1 = (m2, None) /\ only_writes f f' name /\
    (forall j k g g', nth_error ks j = Some k -> nth_error (geoms (o_mesh o)) k = Some g -> nth_error (geoms m1) j = Some g' ->
       geom_mats unplaced g' = geom_mats unplaced g /\ Forall2 (same_content vs m1 (o_mesh o)) (mats_of [g']) (mats_of [g])) /\
    forall kw, new_visible_mesh p unpack_f f' (Some name) kw = Ok {| o_mesh := m2; o_filename := name; o_loaded := true |}.
Proof.
  intros E S B PM V C. pose proof S as (W & PK & Sz & Pos & _). pose proof (savable_held _ _ _ S) as HD.
  destruct (arrays_sums vs (o_mesh o) Pos ltac:(apply HD)) as (SV & _).
  assert (vertnum (o_mesh o) <= 2 ^ 53) as V0. { pose proof (proj1 (held_counts p vs _ HD)). nia. }
  destruct (reorder_content vs (o_mesh o) order ks Sz Pos (packed_in_range _ _ PK) ltac:(lia) PM) as (m1 & ET & _ & HH & (EV & EI) & _ & CT).
  assert (savable p vs m1) as S1.
  { apply (history_savable (f64 L) p vs (o_mesh o)); auto.
    - econstructor; [eapply by_reorder; eauto|constructor].
    - rewrite EV. apply W.
    - rewrite EI. apply W.
    - now rewrite EV. }
  pose proof HH as (EK & _). destruct (opened_stored _ _ _ _ _ E) as (_ & ST).
  destruct (save_works f o (fun m => change_geoms_order m order) name m1 ET S1) as (f' & m2 & round & E1 & E2 & E3 & _ & _ & E5 & E6); auto.
  - now apply (boundable_same (o_mesh o)).
  - now rewrite EV.
  - rewrite EK. now apply (opened_kind p unpack_f f name no_flags).
  - rewrite E5 in E6 by (now apply (reorder_all stored) in ET).
    exists f', m1, m2. split; [unfold readme_order, edit_file; now rewrite E|]. auto.
Qed.

(** *** The third program *)
Theorem merge_saved f src other dst (o1 o2 : obj) m1 : new_visible_mesh p unpack_f f (Some src) no_flags = Ok o1 -> new_visible_mesh p unpack_f f (Some other) no_flags = Ok o2 ->
  savable p vs (o_mesh o1) -> savable p vs (o_mesh o2) -> boundable vs (o_mesh o1) -> merge (o_mesh o1) (o_mesh o2) = (m1, Merged) ->
  is_long p (vertnum m1) -> is_long p (indexnum m1) -> vertnum m1 * Z.of_nat vs <= 2 ^ 53 -> can_save f dst -> kind_named (m_kind (o_mesh o1)) dst ->
  exists f' m2, readme_merge (f64 L) p unpack_f pack_f f src other dst = (f', None) /\ update_boundaries (f64 L) m1 = (m2, None) /\ only_writes f f' dst /\
    forall kw, new_visible_mesh p unpack_f f' (Some dst) kw = Ok {| o_mesh := m2; o_filename := dst; o_loaded := true |}.
Proof.
  intros E1 E2 S1 S2 B EM LV LI V C K. destruct (opened_stored _ _ _ _ _ E1) as (_ & ST1), (opened_stored _ _ _ _ _ E2) as (_ & ST2).
  pose proof S1 as (_ & P1 & Sz & _). pose proof S2 as (_ & P2 & _).
  destruct (merge_tables vs _ _ _ Sz (packed_in_range _ _ P1) (packed_in_range _ _ P2) EM) as (_ & HH & _).
  assert (savable p vs m1) as SM.
  { apply (history_savable (f64 L) p vs (o_mesh o1)); auto. econstructor; [eapply by_merge; eauto|constructor]. }
  pose proof HH as (EK & _).
  destruct (save_works f o1 (merge_call (o_mesh o2)) dst m1) as (f' & m2 & round & X1 & X2 & X3 & _ & _ & X5 & X6); auto.
  - unfold merge_call. now rewrite EM.
  - now apply (boundable_same (o_mesh o1)).
  - now rewrite EK.
  - rewrite X5 in X6 by (now apply (merge_all_kept stored) in EM).
    exists f', m2. split; [unfold readme_merge; now rewrite E1, E2|]. auto.
Qed.
End Saved.

(** The order of the README, for a mesh of 18 geoms. *)
Definition readme_ks : list nat := [0; 1; 2; 3; 4; 5; 6; 8; 9; 10; 11; 12; 15; 16; 17; 13; 7; 14]%nat.
Lemma readme_permutes : permutes 18 readme_order_list readme_ks.
Proof.
  split; [|vm_compute].
  - unfold readme_order_list, readme_ks. repeat constructor.
  - apply NoDup_Permutation; [repeat constructor; cbn; lia|repeat constructor; cbn; lia|]. intros x. cbn. lia.
Qed.
