(** VisMeshTransform. *)
From Coq Require Import ZArith List Bool Lia.
From Verif Require Import PyBase Struct Mesh Arith Edit OldEdit Trans Spec SpecEdit SpecTrans CodecBase DivFacts TravFacts VertFacts LayoutFacts Old.
Import ListNotations.
Open Scope Z_scope.
Open Scope res_scope.

Lemma norm_index_nonneg n i : 0 <= i -> norm_index n i = if i <? n then Some (Z.to_nat i) else None.
Proof.
  intros H. unfold norm_index. destruct (Z.ltb_spec i 0); [lia|]. destruct (Z.leb_spec 0 i); [|lia]. reflexivity.
Qed.
Lemma py_get_nonneg {B} (l : list B) i : 0 <= i ->
  py_get l i = match nth_error l (Z.to_nat i) with Some x => Ok x | None => Raise EIndex end.
Proof.
  intros H. unfold py_get. rewrite norm_index_nonneg by exact H. destruct (Z.ltb_spec i (zlen l)) as [Hl|Hl]; [reflexivity|].
  assert (nth_error l (Z.to_nat i) = None) as ->; [|reflexivity]. apply nth_error_None. unfold zlen in Hl. lia.
Qed.
Lemma py_set_nonneg {B} (l : list B) i x : 0 <= i ->
  py_set l i x = match nth_error l (Z.to_nat i) with Some _ => Ok (set_nth l (Z.to_nat i) x) | None => Raise EIndex end.
Proof.
  intros H. unfold py_set. rewrite norm_index_nonneg by exact H. destruct (Z.ltb_spec i (zlen l)) as [Hl|Hl].
  - destruct (nth_error l (Z.to_nat i)) eqn:E; [reflexivity|]. apply nth_error_None in E. unfold zlen in Hl. lia.
  - assert (nth_error l (Z.to_nat i) = None) as ->; [|reflexivity]. apply nth_error_None. unfold zlen in Hl. lia.
Qed.
Lemma py_get_bad {B} (l : list B) i : ~ (- zlen l <= i < zlen l) -> py_get l i = Raise EIndex.
Proof.
  intros H. unfold py_get, norm_index. destruct (Z.ltb_spec i 0).
  - destruct (Z.leb_spec 0 (i + zlen l)); [lia|]. reflexivity.
  - destruct (Z.leb_spec 0 i); [|lia]. destruct (Z.ltb_spec i (zlen l)); [lia|]. reflexivity.
Qed.
Lemma py_insert_at {B} (l : list B) i x : 0 <= i <= zlen l -> py_insert l i x = firstn (Z.to_nat i) l ++ x :: skipn (Z.to_nat i) l.
Proof.
  intros H. unfold py_insert. assert (norm_bound (zlen l) i = i) as ->; [|reflexivity].
  unfold norm_bound. destruct (Z.ltb_spec i 0); lia.
Qed.
Lemma firstn_skipn_inserted {B} k (x : B) l : (k <= length l)%nat -> inserted k x l (firstn k l ++ x :: skipn k l).
Proof. intros H. exists (firstn k l), (skipn k l). split; [now rewrite firstn_skipn|]. split; [|reflexivity]. rewrite firstn_length. lia. Qed.

Lemma in_firstn {B} (x : B) k l : In x (firstn k l) -> In x l.
Proof. intros H. rewrite <- (firstn_skipn k l). apply in_or_app. now left. Qed.
Lemma in_skipn {B} (x : B) k l : In x (skipn k l) -> In x l.
Proof. intros H. rewrite <- (firstn_skipn k l). apply in_or_app. now right. Qed.

Section TransFacts.
Context {F : Type}.
Implicit Types (m : mesh F) (g : geom F).

(** ** Sharing *)
Definition coherent (ids : list nat) (gs : list (geom F)) : Prop :=
  length ids = length gs /\
  forall a b i, nth_error ids a = Some i -> nth_error ids b = Some i -> nth_error gs a = nth_error gs b.

Lemma seq_nth_error n k : nth_error (seq 0 n) k = if (k <? n)%nat then Some k else None.
Proof.
  destruct (Nat.ltb_spec k n) as [H|H].
  - rewrite (nth_error_nth' _ 0%nat) by (rewrite seq_length; lia). now rewrite seq_nth.
  - apply nth_error_None. rewrite seq_length. lia.
Qed.
Lemma fresh_coherent m : coherent (fresh m) (geoms m).
Proof.
  split; [apply seq_length|]. intros a b i. unfold fresh. rewrite !seq_nth_error.
  destruct (a <? _)%nat; [|discriminate]. destruct (b <? _)%nat; [|discriminate]. congruence.
Qed.

Lemma nth_inserted {B} k (x : B) l l' j : inserted k x l l' ->
  nth_error l' j = if (j <? k)%nat then nth_error l j else if (j =? k)%nat then Some x else nth_error l (j - 1).
Proof.
  intros (a & b & -> & <- & ->). destruct (Nat.ltb_spec j (length a)) as [H|H].
  - rewrite !nth_error_app1 by exact H. reflexivity.
  - rewrite nth_error_app2 by exact H. destruct (Nat.eqb_spec j (length a)) as [->|H1].
    + now rewrite Nat.sub_diag.
    + rewrite nth_error_app2 by lia. replace (j - length a)%nat with (S (j - 1 - length a)) by lia. reflexivity.
Qed.

Lemma assign_nth ids gs k g j : length ids = length gs ->
  nth_error (assign_geom ids gs k g) j =
  match nth_error ids j, nth_error gs j with
  | Some i, Some h => Some (if Nat.eqb i (nth k ids 0%nat) then g else h)
  | _, _ => None
  end.
Proof.
  intros H. unfold assign_geom. rewrite nth_error_map. generalize (nth k ids 0%nat) as x. intros x. revert gs j H.
  induction ids as [|i ids IH]; intros [|h gs] [|j] H; try discriminate; try reflexivity. cbn. apply IH. now injection H.
Qed.
Lemma assign_length ids gs k g : length ids = length gs -> length (assign_geom ids gs k g) = length gs.
Proof. intros H. unfold assign_geom. rewrite map_length, combine_length. lia. Qed.
Lemma assign_coherent ids gs k g : coherent ids gs -> coherent ids (assign_geom ids gs k g).
Proof.
  intros (L & H). split; [now rewrite assign_length|]. intros a b i Ha Hb. rewrite !assign_nth by exact L. rewrite Ha, Hb.
  rewrite (H a b i Ha Hb). reflexivity.
Qed.
Lemma nth_ext_list {B} (l l' : list B) : (forall k, nth_error l k = nth_error l' k) -> l = l'.
Proof. apply nth_ext_error. Qed.
(** Without sharing only the entry itself changes. *)
Lemma assign_fresh m k g : (k < length (geoms m))%nat -> assign_geom (fresh m) (geoms m) k g = set_nth (geoms m) k g.
Proof.
  intros H. apply nth_ext_list. intros j. rewrite assign_nth by apply seq_length. rewrite nth_set_nth. unfold fresh. rewrite seq_nth_error.
  rewrite seq_nth by exact H. cbn [Nat.add]. destruct (Nat.ltb_spec j (length (geoms m))) as [Hj|Hj].
  - destruct (nth_error (geoms m) j) as [h|] eqn:E; [|apply nth_error_None in E; lia]. now destruct (Nat.eqb j k).
  - assert (nth_error (geoms m) j = None) as -> by (now apply nth_error_None). now destruct (Nat.eqb j k).
Qed.

(** ** copy_geom_id *)
Lemma copy_ok m ids i j g : length ids = length (geoms m) -> 0 <= i -> nth_error (geoms m) (Z.to_nat i) = Some g -> 0 <= j <= zlen (geoms m) ->
  exists m' ids', copy_geom_id m ids i j = (m', ids', None) /\ same_but_geoms m m' /\ geomnum m' = geomnum m + 1 /\
    inserted (Z.to_nat j) g (geoms m) (geoms m') /\ inserted (Z.to_nat j) (nth (Z.to_nat i) ids 0%nat) ids ids'.
Proof.
  intros L Hi Hg Hj. assert (zlen ids = zlen (geoms m)) as LZ by (unfold zlen; lia).
  assert (Z.to_nat i < length (geoms m))%nat as Hl by (apply nth_error_Some; congruence).
  unfold copy_geom_id. rewrite !py_get_nonneg by exact Hi. rewrite Hg. cbn [bind].
  rewrite (nth_error_nth' ids 0%nat) by lia. cbn [bind].
  rewrite !py_insert_at by (unfold zlen in *; lia). eexists. eexists. split; [reflexivity|]. split; [repeat split|]. split; [reflexivity|].
  split; apply firstn_skipn_inserted; unfold zlen in Hj; lia.
Qed.
Lemma copy_bad m ids i j : ~ (- zlen (geoms m) <= i < zlen (geoms m)) ->
  exists m', copy_geom_id m ids i j = (m', ids, Some EIndex) /\ same_but_geoms m m' /\ geomnum m' = geomnum m + 1 /\ geoms m' = geoms m.
Proof.
  intros H. unfold copy_geom_id. rewrite py_get_bad by exact H. cbn [bind]. eexists. split; [reflexivity|]. repeat split.
Qed.

Lemma inserted_forall {B} (P : B -> Prop) k x l l' : inserted k x l l' -> Forall P l -> P x -> Forall P l'.
Proof. intros (a & b & -> & _ & ->) H Hx. apply Forall_app in H. apply Forall_app. split; [apply H|]. constructor; [exact Hx|apply H]. Qed.
Lemma inserted_length {B} k (x : B) l l' : inserted k x l l' -> length l' = S (length l).
Proof. intros (a & b & -> & _ & ->). rewrite !app_length. cbn. lia. Qed.
Lemma inserted_coherent k ids gs ids' gs' i : coherent ids gs -> (i < length gs)%nat ->
  forall g, nth_error gs i = Some g -> inserted k g gs gs' -> inserted k (nth i ids 0%nat) ids ids' -> coherent ids' gs'.
Proof.
  intros (L & C) Hi g Hg IG II. split; [now rewrite (inserted_length _ _ _ _ IG), (inserted_length _ _ _ _ II), L|].
  assert (nth_error ids i = Some (nth i ids 0%nat)) as Hn by (apply nth_error_nth'; lia).
  intros a b x. rewrite (nth_inserted _ _ _ _ a II), (nth_inserted _ _ _ _ b II), (nth_inserted _ _ _ _ a IG), (nth_inserted _ _ _ _ b IG).
  destruct (a <? k)%nat, (b <? k)%nat; try destruct (Nat.eqb_spec a k); try destruct (Nat.eqb_spec b k); intros Ha Hb;
    try rewrite <- Hg; try reflexivity; try (eapply C; eauto; congruence).
Qed.
Theorem copy_wf p m ids i j m' ids' : wf p m -> length ids = length (geoms m) -> copy_geom_id m ids i j = (m', ids', None) ->
  is_long p (geomnum m + 1) -> wf p m'.
Proof.
  intros W L H HL. unfold copy_geom_id in H. destruct (py_get (geoms m) i) as [g|] eqn:EG; [|discriminate]. cbn [bind] in H.
  destruct (py_get ids i) as [n|] eqn:EI; [|discriminate]. cbn [bind] in H. injection H as <- <-.
  destruct W as (W1 & W2 & W3 & W4 & W5). repeat split; try apply W1; try apply W2; try apply W5; auto; cbn [geoms set_geom_table geomnum].
  - destruct HL; lia.
  - apply HL.
  - assert (In g (geoms m)) as Hi. { unfold py_get in EG. destruct (norm_index _ _) as [k|]; [|discriminate]. destruct (nth_error (geoms m) k) eqn:E; [|discriminate]. injection EG as <-. eapply nth_error_In, E. }
    destruct W3 as (_ & W3). unfold py_insert. rewrite app_length. cbn [length].
    pose proof (f_equal (@length _) (firstn_skipn (Z.to_nat (norm_bound (zlen (geoms m)) j)) (geoms m))) as E. rewrite app_length in E.
    destruct (geoms m); [contradiction|]. cbn [length] in W3, E |- *. lia.
  - assert (In g (geoms m)) as Hi. { unfold py_get in EG. destruct (norm_index _ _) as [k|]; [|discriminate]. destruct (nth_error (geoms m) k) eqn:E; [|discriminate]. injection EG as <-. eapply nth_error_In, E. }
    unfold py_insert. rewrite Forall_forall in W4. apply Forall_app. split; [|constructor].
    + apply Forall_forall. intros x Hx. apply W4. eapply in_firstn, Hx.
    + now apply W4.
    + apply Forall_forall. intros x Hx. apply W4. eapply in_skipn, Hx.
Qed.

(** ** order_geoms_by *)
Lemma map_res_nonneg {B} (l : list B) order : Forall (fun i => 0 <= i < zlen l) order ->
  exists xs, map_res (py_get l) order = Ok xs /\ Forall2 (fun i x => nth_error l (Z.to_nat i) = Some x) order xs.
Proof.
  induction 1 as [|i t Hi Ht (xs & E & H)]; [exists []; split; [reflexivity|constructor]|].
  destruct (nth_error l (Z.to_nat i)) as [x|] eqn:Ex; [|apply nth_error_None in Ex; unfold zlen in Hi; lia].
  exists (x :: xs). split; [|now constructor]. cbn [map_res]. rewrite py_get_nonneg by lia. rewrite Ex. cbn [bind]. now rewrite E.
Qed.
Lemma map_res_bad {B} (l : list B) order : Exists (fun i => ~ (- zlen l <= i < zlen l)) order -> map_res (py_get l) order = Raise EIndex.
Proof.
  assert (forall i e, py_get l i = Raise e -> e = EIndex) as G.
  { intros i e H. unfold py_get in H. destruct (norm_index _ _) as [k|]; [destruct (nth_error l k)|]; congruence. }
  induction 1 as [i t Hi|i t Ht IH]; cbn [map_res].
  - now rewrite py_get_bad.
  - destruct (py_get l i) as [x|e] eqn:E; cbn [bind]; [now rewrite IH|]. now rewrite (G i e E).
Qed.
Lemma order_ok m ids order : length ids = length (geoms m) -> Forall (fun i => 0 <= i < zlen (geoms m)) order ->
  exists m' ids', order_geoms_by m ids order = (m', ids', None) /\ same_but_geoms m m' /\ geomnum m' = geomnum m /\
    Forall2 (fun i g => nth_error (geoms m) (Z.to_nat i) = Some g) order (geoms m') /\
    Forall2 (fun i n => nth_error ids (Z.to_nat i) = Some n) order ids'.
Proof.
  intros L H. unfold order_geoms_by. destruct (map_res_nonneg (geoms m) order H) as (gs & E & G). rewrite E. cbn [bind].
  assert (zlen ids = zlen (geoms m)) as LZ by (unfold zlen; lia). rewrite <- LZ in H.
  destruct (map_res_nonneg ids order H) as (js & E' & J). rewrite E'. cbn [bind]. eexists. eexists. split; [reflexivity|]. repeat split; assumption.
Qed.
Lemma order_bad m ids order : Exists (fun i => ~ (- zlen (geoms m) <= i < zlen (geoms m))) order ->
  order_geoms_by m ids order = (m, ids, Some EIndex).
Proof. intros H. unfold order_geoms_by. now rewrite (map_res_bad _ _ H). Qed.
Lemma forall2_length {B C} (R : B -> C -> Prop) l l' : Forall2 R l l' -> length l = length l'.
Proof. induction 1; cbn; congruence. Qed.
Theorem order_wf p m ids order m' ids' : wf p m -> length ids = length (geoms m) -> Forall (fun i => 0 <= i < zlen (geoms m)) order ->
  length order = length (geoms m) -> order_geoms_by m ids order = (m', ids', None) -> wf p m'.
Proof.
  intros W L Ho Hl H. destruct (order_ok m ids order L Ho) as (m1 & ids1 & E & S & N & G & _). rewrite H in E. injection E as <- <-.
  destruct S as (S1 & S2 & S3 & S4 & S5 & S6 & S7 & S8 & S9 & S10 & S11 & S12).
  unfold wf in *. rewrite S1, S2, S3, S4, S5, S6, S7, S8, S9, S10, S11, S12, N.
  destruct W as (W1 & W2 & W3 & W4 & W5). split; [exact W1|]. split; [exact W2|]. split; [|split; [|exact W5]].
  - destruct W3 as (W3 & W3'). split; [exact W3|]. rewrite <- (forall2_length _ _ _ G). congruence.
  - rewrite Forall_forall in W4. clear - G W4. induction G as [|i g t gs Hg _ IH]; constructor; [|exact IH].
    apply W4. eapply nth_error_In, Hg.
Qed.

Theorem copy_fresh m i j g : 0 <= i -> nth_error (geoms m) (Z.to_nat i) = Some g -> 0 <= j <= zlen (geoms m) ->
  exists m' ids', copy_geom_id m (fresh m) i j = (m', ids', None) /\ same_but_geoms m m' /\ geomnum m' = geomnum m + 1 /\
    inserted (Z.to_nat j) g (geoms m) (geoms m') /\ forall p, wf p m -> is_long p (geomnum m + 1) -> wf p m'.
Proof.
  intros Hi Hg Hj. destruct (copy_ok m (fresh m) i j g (seq_length _ _) Hi Hg Hj) as (m' & ids' & E & S & N & I & _).
  exists m', ids'. repeat (split; [assumption|]). intros p W HL. exact (copy_wf p m _ _ _ _ _ W (seq_length _ _) E HL).
Qed.
Theorem order_fresh m order : Forall (fun i => 0 <= i < zlen (geoms m)) order ->
  exists m' ids', order_geoms_by m (fresh m) order = (m', ids', None) /\ same_but_geoms m m' /\ geomnum m' = geomnum m /\
    Forall2 (fun i g => nth_error (geoms m) (Z.to_nat i) = Some g) order (geoms m') /\
    forall p, wf p m -> length order = length (geoms m) -> wf p m'.
Proof.
  intros Ho. destruct (order_ok m (fresh m) order (seq_length _ _) Ho) as (m' & ids' & E & S & N & G & _).
  exists m', ids'. repeat (split; [assumption|]). intros p W HL. exact (order_wf p m _ _ _ _ W (seq_length _ _) Ho HL E).
Qed.

(** Too large a geom count: saving raises IndexError. *)
Lemma seq_raises (f : nat -> writer) : forall n k, (forall i, (i < n)%nat -> snd (f (k + i)%nat) = None) -> snd (f (k + n)%nat) = Some EIndex ->
  forall c, (n < c)%nat -> snd (wall f (seq k c)) = Some EIndex.
Proof.
  induction n as [|n IH]; intros k H1 H2 [|c] Hc; try lia; cbn [seq wall].
  - rewrite Nat.add_0_r in H2. unfold wseq. destruct (f k) as (bs, [e|]); [exact H2|discriminate].
  - pose proof (H1 0%nat ltac:(lia)) as H0. rewrite Nat.add_0_r in H0. destruct (f k) as (bs, o); cbn [snd] in H0; subst o. cbn [wseq].
    assert (snd (wall f (seq (S k) c)) = Some EIndex) as E.
    { apply IH; try lia.
      - intros i Hi. rewrite <- (H1 (S i)) by lia. f_equal. f_equal. lia.
      - rewrite <- H2. f_equal. f_equal. lia. }
    destruct (wall f (seq (S k) c)) as (cs, o). exact E.
Qed.
Lemma wseq_right a b e : snd a = None -> snd b = Some e -> snd (a ;; b) = Some e.
Proof. destruct a as (x, [?|]); cbn; [discriminate|]. destruct b as (y, o). auto. Qed.
Lemma wseq_left a b e : snd a = Some e -> snd (a ;; b) = Some e.
Proof. destruct a as (x, [?|]); cbn; congruence. Qed.
Lemma save_short p pk m : wf_head p (m_head m) -> -128 <= m_u1 m < 128 -> is_long p (geomnum m) ->
  Forall (fun g => is_long p (lodnum g)) (geoms m) -> zlen (geoms m) < geomnum m ->
  exists bs, old_save p pk m = (bs, Some EIndex).
Proof.
  intros (H1 & H2 & H3 & H4 & H5) H6 H7 H8 H9.
  assert (snd (old_save p pk m) = Some EIndex) as E; [|destruct (old_save p pk m) as (bs, o); cbn in E; subst; eauto].
  unfold old_save. apply wseq_right.
  { unfold pack_longs. cbn [forallb]. rewrite <- fits_long_iff in *. rewrite H1, H2, H3, H4, H5. reflexivity. }
  apply wseq_right. { unfold write_byte, fits_schar, in_signed. destruct (Z.leb_spec (- 2 ^ (8 * Z.of_nat 1 - 1)) (m_u1 m)); [|cbn in *; lia].
    destruct (Z.ltb_spec (m_u1 m) (2 ^ (8 * Z.of_nat 1 - 1))); [reflexivity|cbn in *; lia]. }
  apply wseq_right. { unfold write_long. apply fits_long_iff in H7. now rewrite H7. }
  apply wseq_left. apply (seq_raises _ (length (geoms m)) 0).
  - intros i Hi. cbn [Nat.add]. destruct (nth_error (geoms m) i) as [g|] eqn:E; [|apply nth_error_None in E; lia].
    rewrite Forall_forall in H8. unfold write_long. apply nth_error_In, H8, fits_long_iff in E. now rewrite E.
  - cbn [Nat.add]. assert (nth_error (geoms m) (length (geoms m)) = None) as -> by (now apply nth_error_None). reflexivity.
  - unfold zlen in H9. lia.
Qed.
Lemma wf_lodnums p m : wf p m -> Forall (fun g => is_long p (lodnum g)) (geoms m).
Proof. intros W. destruct W as (_ & _ & _ & W4 & _). eapply Forall_impl; [|exact W4]. intros g ((H & _) & _). exact H. Qed.
Theorem copy_bad_save p pk m ids i j : wf p m -> 0 <= geomnum m -> is_long p (geomnum m + 1) -> ~ (- zlen (geoms m) <= i < zlen (geoms m)) ->
  exists m' bs, copy_geom_id m ids i j = (m', ids, Some EIndex) /\ same_but_geoms m m' /\ geoms m' = geoms m /\
    old_save p pk m' = (bs, Some EIndex).
Proof.
  intros W H0 HL H. destruct (copy_bad m ids i j H) as (m' & E & S & N & G).
  destruct (save_short p pk m') as (bs & ES).
  - destruct S as (_ & -> & _). apply W.
  - destruct S as (_ & _ & -> & _). apply W.
  - now rewrite N.
  - rewrite G. now apply wf_lodnums.
  - rewrite G, N. destruct W as (_ & _ & (_ & W) & _). unfold zlen. lia.
  - exists m', bs. auto.
Qed.
Theorem short_order_save p pk m ids order : wf p m -> length ids = length (geoms m) -> Forall (fun i => 0 <= i < zlen (geoms m)) order ->
  (length order < length (geoms m))%nat ->
  exists m' ids' bs, order_geoms_by m ids order = (m', ids', None) /\ old_save p pk m' = (bs, Some EIndex).
Proof.
  intros W L Ho Hl. destruct (order_ok m ids order L Ho) as (m' & ids' & E & S & N & G & _).
  destruct (save_short p pk m') as (bs & ES).
  - destruct S as (_ & -> & _). apply W.
  - destruct S as (_ & _ & -> & _). apply W.
  - rewrite N. apply W.
  - pose proof (wf_lodnums p m W) as WL. rewrite Forall_forall in WL. clear - G WL. induction G as [|i g t gs Hg _ IH]; constructor; [|exact IH].
    apply WL. eapply nth_error_In, Hg.
  - unfold zlen. rewrite N, <- (forall2_length _ _ _ G). destruct W as (_ & _ & (_ & W) & _). lia.
  - exists m', ids', bs. auto.
Qed.

(** ** rename_texture *)
Lemma rename_coherent m ids (g l mt k : Z) path m' o : coherent ids (geoms m) -> rename_texture m ids g l mt k path = (m', o) -> coherent ids (geoms m').
Proof.
  intros C H. unfold rename_texture in H. destruct (do ge <- _; _) as [ge|]; [|now injection H as <- _].
  destruct (norm_index _ _); injection H as <- _; [|exact C]. cbn [geoms set_geoms]. now apply assign_coherent.
Qed.
(** A copy is the same object: the two never differ. *)
Theorem copies_same m i j m1 ids1 (g l mt k : Z) path m2 o : 0 <= i < zlen (geoms m) -> 0 <= j <= zlen (geoms m) ->
  copy_geom_id m (fresh m) i j = (m1, ids1, None) -> rename_texture m1 ids1 g l mt k path = (m2, o) ->
  let a := if i <? j then i else i + 1 in
  nth_error (geoms m2) (Z.to_nat a) = nth_error (geoms m2) (Z.to_nat j).
Proof.
  intros Hi Hj HC HR a. destruct (nth_error (geoms m) (Z.to_nat i)) as [ge|] eqn:EG; [|apply nth_error_None in EG; unfold zlen in Hi; lia].
  destruct (copy_ok m (fresh m) i j ge (seq_length _ _) ltac:(lia) EG Hj) as (m' & ids' & E & _ & _ & IG & II). rewrite HC in E. injection E as <- <-.
  pose proof (inserted_coherent _ _ _ _ _ (Z.to_nat i) (fresh_coherent m) ltac:(unfold zlen in *; lia) ge EG IG II) as C.
  apply (rename_coherent _ _ _ _ _ _ _ _ _ C) in HR. destruct HR as (_ & HR).
  apply (HR _ _ (nth (Z.to_nat i) (fresh m) 0%nat)).
  - rewrite (nth_inserted _ _ _ _ _ II). unfold a. assert (nth_error (fresh m) (Z.to_nat i) = Some (nth (Z.to_nat i) (fresh m) 0%nat)) as En.
    { apply nth_error_nth'. unfold fresh. rewrite seq_length. unfold zlen in Hi. lia. }
    destruct (Z.ltb_spec i j).
    + destruct (Nat.ltb_spec (Z.to_nat i) (Z.to_nat j)); [exact En|lia].
    + destruct (Nat.ltb_spec (Z.to_nat (i + 1)) (Z.to_nat j)); [lia|]. destruct (Nat.eqb_spec (Z.to_nat (i + 1)) (Z.to_nat j)); [lia|].
      replace (Z.to_nat (i + 1) - 1)%nat with (Z.to_nat i) by lia. exact En.
  - rewrite (nth_inserted _ _ _ _ _ II), Nat.ltb_irrefl, Nat.eqb_refl. reflexivity.
Qed.

Lemma map_set_nth {B C} (f : B -> C) l k x y : nth_error l k = Some x -> f y = f x -> map f (set_nth l k y) = map f l.
Proof.
  intros H E. apply nth_ext_list. intros j. rewrite !nth_error_map, nth_set_nth. destruct (Nat.eqb_spec j k) as [->|]; [|reflexivity].
  rewrite H. cbn. now rewrite E.
Qed.
Lemma forall_set_nth {B} (P : B -> Prop) l k y : Forall P l -> P y -> Forall P (set_nth l k y).
Proof. intros H Hy. revert k. induction H as [|x t Hx Ht IH]; intros [|k]; cbn; constructor; auto. Qed.
Lemma at_item_nat {B} (l : list B) k f x : nth_error l k = Some x ->
  at_item l (Z.of_nat k) f = do y <- f x; Ok (set_nth l k y).
Proof.
  intros H. unfold at_item. rewrite py_get_nonneg by lia. rewrite Nat2Z.id, H. cbn [bind]. destruct (f x) as [y|]; [|reflexivity]. cbn [bind].
  rewrite py_set_nonneg by lia. now rewrite Nat2Z.id, H.
Qed.
Lemma at_item_none {B} (l : list B) k f : nth_error l k = None -> at_item l (Z.of_nat k) f = Raise EIndex.
Proof. intros H. unfold at_item. rewrite py_get_nonneg by lia. now rewrite Nat2Z.id, H. Qed.

Section Rename.
Context (m : mesh F) (g l mt k : nat) (path : bytes).
Definition renamed_mat (ma : mat F) : mat F := set_maps ma (set_nth (maps ma) k path).
Definition renamed_lod (lo : lod F) (ma : mat F) : lod F := set_materials lo (set_nth (materials lo) mt (renamed_mat ma)).
Definition renamed_geom (ge : geom F) (lo : lod F) (ma : mat F) : geom F := set_lods ge (set_nth (lods ge) l (renamed_lod lo ma)).
Lemma rename_shape x : map_at m g l mt k = Some x -> exists ge lo ma,
  nth_error (geoms m) g = Some ge /\ nth_error (lods ge) l = Some lo /\ nth_error (materials lo) mt = Some ma /\ nth_error (maps ma) k = Some x /\
  rename_texture m (fresh m) (Z.of_nat g) (Z.of_nat l) (Z.of_nat mt) (Z.of_nat k) path =
    (set_geoms m (set_nth (geoms m) g (renamed_geom ge lo ma)), None).
Proof.
  intros H. unfold map_at, material_at, lod_nth in H. destruct (nth_error (geoms m) g) as [ge|] eqn:EG; [|discriminate].
  destruct (nth_error (lods ge) l) as [lo|] eqn:EL; [|discriminate]. destruct (nth_error (materials lo) mt) as [ma|] eqn:EM; [|discriminate].
  exists ge, lo, ma. repeat (split; [assumption||reflexivity|]). unfold rename_texture, rename_in.
  rewrite py_get_nonneg by lia. rewrite Nat2Z.id, EG. cbn [bind]. rewrite (at_item_nat _ _ _ _ EL), (at_item_nat _ _ _ _ EM).
  rewrite py_set_nonneg by lia. rewrite Nat2Z.id, H. cbn [bind]. rewrite norm_index_nonneg by lia.
  assert (g < length (geoms m))%nat as Hg by (apply nth_error_Some; congruence).
  destruct (Z.ltb_spec (Z.of_nat g) (zlen (geoms m))); [|unfold zlen in *; lia]. rewrite Nat2Z.id, assign_fresh by exact Hg. reflexivity.
Qed.
Theorem rename_ok x : map_at m g l mt k = Some x -> exists m',
  rename_texture m (fresh m) (Z.of_nat g) (Z.of_nat l) (Z.of_nat mt) (Z.of_nat k) path = (m', None) /\
  map_at m' g l mt k = Some path /\
  (forall g' l' mt' k' : nat, (g', l', mt', k') <> (g, l, mt, k) -> map_at m' g' l' mt' k' = map_at m g' l' mt' k') /\
  same_but_geoms m m' /\ geomnum m' = geomnum m /\ map (geom_mats unmapped) (geoms m') = map (geom_mats unmapped) (geoms m).
Proof.
  intros H. destruct (rename_shape x H) as (ge & lo & ma & EG & EL & EM & EK & E). eexists. split; [exact E|].
  split; [|split; [|split; [repeat split|split; [reflexivity|]]]].
  - unfold map_at, material_at, lod_nth. cbn [geoms set_geoms]. rewrite nth_set_nth, Nat.eqb_refl, EG. cbn [lods renamed_geom set_lods].
    rewrite nth_set_nth, Nat.eqb_refl, EL. cbn [materials renamed_lod set_materials]. rewrite nth_set_nth, Nat.eqb_refl, EM.
    cbn [maps renamed_mat set_maps]. now rewrite nth_set_nth, Nat.eqb_refl, EK.
  - intros g' l' mt' k' Hn. unfold map_at, material_at, lod_nth. cbn [geoms set_geoms]. rewrite nth_set_nth. destruct (Nat.eqb_spec g' g) as [->|]; [|reflexivity].
    rewrite EG. cbn [lods renamed_geom set_lods]. rewrite nth_set_nth. destruct (Nat.eqb_spec l' l) as [->|]; [|reflexivity].
    rewrite EL. cbn [materials renamed_lod set_materials]. rewrite nth_set_nth. destruct (Nat.eqb_spec mt' mt) as [->|]; [|reflexivity].
    rewrite EM. cbn [maps renamed_mat set_maps]. rewrite nth_set_nth. destruct (Nat.eqb_spec k' k) as [->|]; [congruence|reflexivity].
  - cbn [geoms set_geoms]. apply (map_set_nth _ _ _ _ _ EG). unfold geom_mats. cbn [lodnum lods renamed_geom set_lods]. f_equal.
    apply (map_set_nth _ _ _ _ _ EL). unfold lod_mats. cbn [lod_min lod_max pivot rignum rigs nodenum nodes matnum materials renamed_lod set_materials]. f_equal.
    apply (map_set_nth _ _ _ _ _ EM). reflexivity.
Qed.
Theorem rename_wf p x : map_at m g l mt k = Some x -> wf p m -> wf_string p path -> forall m',
  rename_texture m (fresh m) (Z.of_nat g) (Z.of_nat l) (Z.of_nat mt) (Z.of_nat k) path = (m', None) -> wf p m'.
Proof.
  intros H W HP m' HR. destruct (rename_shape x H) as (ge & lo & ma & EG & EL & EM & EK & E). rewrite HR in E. injection E as ->.
  destruct W as (W1 & W2 & W3 & W4 & W5). split; [exact W1|]. split; [exact W2|]. split; [|split; [|exact W5]].
  - destruct W3 as (W3 & W3'). split; [exact W3|]. cbn [geoms set_geoms geomnum]. now rewrite set_nth_length.
  - cbn [geoms set_geoms m_head m_kind]. apply forall_set_nth; [exact W4|]. rewrite Forall_forall in W4. destruct (W4 ge (nth_error_In _ _ EG)) as ((G1 & G2) & G3).
    split; [split; [exact G1|]; cbn [lods renamed_geom set_lods]; now rewrite set_nth_length|]. cbn [lods renamed_geom set_lods]. apply forall_set_nth; [exact G3|].
    rewrite Forall_forall in G3. destruct (G3 lo (nth_error_In _ _ EL)) as (L1 & L2 & L3 & L4 & (L5 & L5') & L6).
    split; [exact L1|]. split; [exact L2|]. split; [exact L3|]. split; [exact L4|]. cbn [matnum materials renamed_lod set_materials].
    split; [split; [exact L5|now rewrite set_nth_length]|]. apply forall_set_nth; [exact L6|]. rewrite Forall_forall in L6.
    destruct (L6 ma (nth_error_In _ _ EM)) as (M1 & M2 & M3 & M4 & (M5 & M5') & M6 & M7).
    repeat (split; [assumption|]). split; [split; [exact M5|]; cbn [maps renamed_mat set_maps]; now rewrite set_nth_length|].
    split; [|exact M7]. cbn [maps renamed_mat set_maps]. now apply forall_set_nth.
Qed.
Theorem rename_bad ids : map_at m g l mt k = None ->
  rename_texture m ids (Z.of_nat g) (Z.of_nat l) (Z.of_nat mt) (Z.of_nat k) path = (m, Some EIndex).
Proof.
  intros H. unfold map_at, material_at, lod_nth in H. unfold rename_texture, rename_in. rewrite py_get_nonneg by lia. rewrite Nat2Z.id.
  destruct (nth_error (geoms m) g) as [ge|]; [|reflexivity]. cbn [bind].
  destruct (nth_error (lods ge) l) as [lo|] eqn:EL; [rewrite (at_item_nat _ _ _ _ EL)|now rewrite (at_item_none _ _ _ EL)].
  destruct (nth_error (materials lo) mt) as [ma|] eqn:EM; [rewrite (at_item_nat _ _ _ _ EM)|now rewrite (at_item_none _ _ _ EM)].
  rewrite py_set_nonneg by lia. now rewrite Nat2Z.id, H.
Qed.
End Rename.
End TransFacts.
