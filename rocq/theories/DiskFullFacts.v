(** Facts about exports to a full disk. *)
From Coq Require Import ZArith List Bool Lia.
From Flocq Require Import IEEE754.Binary IEEE754.Bits.
From Verif Require Import PyBase Struct Mesh Arith F64 Edit Obj Spec SpecF CodecBase CodecFacts SpecObj SpecReadMe FileFacts ObjFacts PathFacts DiskFull.
Import ListNotations.
Open Scope nat_scope.

(** ** The buffer *)
Lemma sent_le B ws : forall pend, sent_after B pend ws <= pend + list_sum ws.
Proof.
  induction ws as [|w t IH]; intros pend; cbn [sent_after list_sum fold_right]; [lia|]. change (fold_right Nat.add 0 t) with (list_sum t).
  destruct (_ <=? _); [specialize (IH (pend + w)); lia|]. destruct (w <=? B); [specialize (IH w); lia|specialize (IH 0); lia].
Qed.
Lemma sent_rest B ws : forall pend, pend <= B -> pend + list_sum ws <= sent_after B pend ws + B.
Proof.
  induction ws as [|w t IH]; intros pend HP; cbn [sent_after list_sum fold_right]; [lia|]. change (fold_right Nat.add 0 t) with (list_sum t).
  destruct (Nat.leb_spec (pend + w) B); [specialize (IH (pend + w)); lia|]. destruct (Nat.leb_spec w B); [specialize (IH w); lia|specialize (IH 0); lia].
Qed.
Lemma sent_small B ws : forall pend, pend + list_sum ws <= B -> sent_after B pend ws = 0.
Proof.
  induction ws as [|w t IH]; intros pend HP; cbn [sent_after]; [reflexivity|]. cbn [list_sum fold_right] in HP. change (fold_right Nat.add 0 t) with (list_sum t) in HP.
  destruct (Nat.leb_spec (pend + w) B); [apply IH; lia|lia].
Qed.

Section Facts.
Context {F : Type} (A : arith F) (p : plat) (packf : F -> Z).
Notation export_room := (export_room A p packf).
Notation export_obj := (export_obj A p packf).

Lemma firstn_enough {X} n (l : list X) : length l <= n -> firstn n l = l.
Proof. apply firstn_all2. Qed.

(** Done exactly when the whole file fits. *)
Theorem room_done room B ws f o filename fn ub f' o' : writes_to o filename fn ->
  (forall bs, f' (resolve fn) = Some (File bs) -> list_sum ws <= length bs) ->
  export_room room B ws f o filename ub = (f', o', Done) <->
  export_obj f o filename ub = (f', o', None) /\ exists bs, f' (resolve fn) = Some (File bs) /\ length bs <= room.
Proof.
  intros W HW. unfold DiskFull.export_room, Obj.export_obj, Obj.export_until. rewrite (writes_to_eq _ _ _ W).
  destruct (if exists_ f (dirname fn) then _ else _) as (f1, [e|]); [split; [discriminate|now intros (H & _)]|].
  destruct (if ub then _ else _) as (m', [e|]); [split; [discriminate|now intros (H & _)]|].
  destruct (open_wb f1 fn) as [f2|e]; [|split; [discriminate|now intros (H & _)]].
  destruct (export p packf m') as (bs, r3). split.
  - destruct (Nat.ltb_spec room (sent_after B 0 ws)) as [?|S]; [discriminate|]. destruct r3 as [e|]; destruct (Nat.ltb_spec room (length bs)) as [?|K]; try discriminate.
    rewrite firstn_all2 by exact K. intros [= <- <-]. split; [reflexivity|]. exists bs. split; [now rewrite update_same|exact K].
  - intros (H & bs' & E & K). destruct r3 as [e|]; [discriminate|]. injection H as <- <-. rewrite update_same in E. injection E as <-.
    specialize (HW bs). rewrite update_same in HW. specialize (HW eq_refl). pose proof (sent_le B ws 0).
    destruct (Nat.ltb_spec room (sent_after B 0 ws)); [lia|]. destruct (Nat.ltb_spec room (length bs)); [lia|]. now rewrite firstn_all2.
Qed.
(** Any other exception is that of an export with room, with the same effects. *)
Theorem room_raised room B ws f o filename ub f' o' e :
  export_room room B ws f o filename ub = (f', o', Raised e) -> export_obj f o filename ub = (f', o', Some e).
Proof.
  unfold DiskFull.export_room, Obj.export_obj, Obj.export_until.
  destruct (if exists_ f _ then _ else _) as (f1, [e1|]); [congruence|].
  destruct (if ub then _ else _) as (m', [e1|]); [congruence|].
  destruct (open_wb f1 _) as [f2|e1]; [|congruence].
  destruct (export p packf m') as (bs, r3).
  destruct (Nat.ltb_spec room (sent_after B 0 ws)) as [?|S]; [discriminate|]. destruct r3 as [e1|]; destruct (Nat.ltb_spec room (length bs)) as [?|K]; try discriminate.
  rewrite firstn_all2 by exact K. congruence.
Qed.
(** A full disk: the file is cut, the bounds are already new, and the name may have changed. *)
Theorem room_full room B ws f o filename fn ub f0 o0 bs : writes_to o filename fn ->
  export_obj f o filename ub = (f0, o0, None) -> f0 (resolve fn) = Some (File bs) -> room < length bs -> list_sum ws = length bs ->
  exists f' o', export_room room B ws f o filename ub = (f', o', NoSpace) /\
    f' (resolve fn) = Some (File (firstn room bs)) /\ (forall q, q <> resolve fn -> f' q = f0 q) /\
    o_mesh o' = o_mesh o0 /\ o_loaded o' = o_loaded o /\
    (o_filename o' = fn \/ o_filename o' = o_filename o) /\
    (length bs <= B -> o_filename o' = fn) /\ (room + B < length bs -> o_filename o' = o_filename o).
Proof.
  intros W H E K S. unfold Obj.export_obj, Obj.export_until in H. unfold DiskFull.export_room. rewrite (writes_to_eq _ _ _ W) in *.
  destruct (if exists_ f (dirname fn) then _ else _) as (f1, [e|]); [discriminate|].
  destruct (if ub then _ else _) as (m', [e|]); [discriminate|].
  destruct (open_wb f1 fn) as [f2|e]; [|discriminate].
  destruct (export p packf m') as (bs', [e|]); [discriminate|]. injection H as <- <-. rewrite update_same in E. injection E as ->.
  pose proof (sent_le B ws 0). pose proof (sent_rest B ws 0 (Nat.le_0_l _)). pose proof (sent_small B ws 0).
  exists (update f2 (resolve fn) (File (firstn room bs))).
  assert (forall q, q <> resolve fn -> update f2 (resolve fn) (File (firstn room bs)) q = update f2 (resolve fn) (File bs) q) as FR by (intros q Hq; now rewrite !update_other by exact Hq).
  destruct (Nat.ltb_spec room (sent_after B 0 ws)); eexists; (split; [try reflexivity|]).
  - split; [now rewrite update_same|]. split; [exact FR|]. cbn. repeat split; auto; intros; try lia.
  - destruct (Nat.ltb_spec room (length bs)); [reflexivity|lia].
  - split; [now rewrite update_same|]. split; [exact FR|]. cbn. repeat split; auto; intros; try lia.
Qed.
End Facts.

(** What is left does not load. *)
Theorem room_unloadable L p room B ws f o filename fn ub f0 o0 bs : writes_to o filename fn -> wf p (o_mesh o) -> (indexnum (o_mesh o) <> 1)%Z ->
  kind_named (m_kind (o_mesh o)) fn ->
  export_obj (f64 L) p pack_f f o filename ub = (f0, o0, None) -> f0 (resolve fn) = Some (File bs) -> room < length bs -> list_sum ws = length bs ->
  exists f' o', export_room (f64 L) p pack_f room B ws f o filename ub = (f', o', NoSpace) /\
    forall kw, new_visible_mesh p unpack_f f' (Some fn) kw = Raise EStruct.
Proof.
  intros W HW HN HK H E K S. destruct (room_full (f64 L) p pack_f room B ws f o filename fn ub f0 o0 bs W H E K S) as (f' & o' & H1 & H2 & _).
  exists f', o'. split; [exact H1|]. intros kw.
  destruct (save_reopen L p f o filename fn ub f0 o0 W HW HN HK H) as (rd & _ & _ & R). specialize (R kw).
  destruct (export_success (f64 L) p pack_f _ _ _ W _ _ _ _ H) as (_ & _ & _ & _ & _ & (N & NS & NR) & _).
  destruct fn as [|c t]; [contradiction|]. unfold new_visible_mesh, first_enter, bf2mesh_init in *. cbn [b_filename b_kind] in *.
  unfold open_rb in *. rewrite NS in *. unfold lookup in *. destruct (snd (resolve (c :: t))) eqn:ES; [contradiction|].
  rewrite E in R. rewrite H2. cbn in *. destruct (load p unpack_f (kind_of_name (c :: t)) bs) as [m|e] eqn:EL; [|discriminate].
  now rewrite (truncated_rejected p unpack_f _ _ _ _ EL K).
Qed.
