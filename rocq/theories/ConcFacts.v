(** Several processes and one file: proofs. *)
From Coq Require Import ZArith List Bool Arith Ascii Sorted Lia.
From Verif Require Import PyBase Struct Mesh Arith F64 Edit Spec CodecBase SpecF F64Facts CodecRaw CodecParam CodecLocal CodecFacts Conc SpecConc.
Import ListNotations.
Open Scope nat_scope.
Open Scope res_scope.

(** ** Reading *)
Lemma nth_eq_firstn {A} (l : list A) n i : i < n -> nth_error (firstn n l) i = nth_error l i.
Proof.
  revert n l. induction i as [|i IH]; intros [|n] [|x l] H; cbn; try reflexivity; try lia. apply IH. lia.
Qed.
Lemma skipn_nth {A} (l : list A) i b : nth_error l i = Some b -> skipn i l = b :: skipn (S i) l.
Proof. revert l. induction i as [|i IH]; intros [|x l] H; cbn in *; try discriminate; [congruence|]. now apply IH. Qed.
Lemma list_ext {A} (l l' : list A) : (forall i, nth_error l i = nth_error l' i) -> l = l'.
Proof.
  revert l'. induction l as [|x l IH]; intros [|y l'] H; [reflexivity| | |].
  - specialize (H 0). discriminate.
  - specialize (H 0). discriminate.
  - f_equal; [specialize (H 0); cbn in H; congruence|]. apply IH. intros i. apply (H (S i)).
Qed.

Lemma contents_in h t : h <> [] -> In (contents_at h t) h.
Proof.
  intros H. unfold contents_at. destruct (Nat.ltb_spec t (length h)) as [L|L]; [now apply nth_In|].
  rewrite nth_overflow by exact L. destruct h as [|x h]; [contradiction|]. clear.
  revert x. induction h as [|y h IH]; intros x; [left; reflexivity|]. right. apply IH.
Qed.
Lemma contents_longest h t : length (contents_at h t) <= longest h.
Proof.
  destruct h as [|x h]; [destruct t; cbn; lia|]. unfold longest.
  assert (In (length (contents_at (x :: h) t)) (map (@length byte) (x :: h))) as I by (apply in_map, contents_in; discriminate).
  pose proof (proj1 (list_max_le (map (@length byte) (x :: h)) _) (le_n _)) as Hm. rewrite Forall_forall in Hm. now apply Hm.
Qed.

(** The bytes fetched are what is seen at each position, up to the first that is missing. *)
Lemma fetch_spec h w : forall fuel i j, j < length (fetch h w i fuel) ->
  nth_error (fetch h w i fuel) j = nth_error (contents_at h (w (i + j))) (i + j).
Proof.
  induction fuel as [|fuel IH]; intros i j H; cbn in *; [lia|].
  destruct (nth_error (contents_at h (w i)) i) as [b|] eqn:E; cbn in H; [|lia].
  destruct j as [|j]; cbn.
  - now rewrite Nat.add_0_r, E.
  - rewrite IH by lia. now replace (i + S j) with (S i + j) by lia.
Qed.
Lemma fetch_end h w : forall fuel i, fuel + i >= longest h -> 
  nth_error (contents_at h (w (i + length (fetch h w i fuel)))) (i + length (fetch h w i fuel)) = None.
Proof.
  induction fuel as [|fuel IH]; intros i H; cbn.
  - rewrite Nat.add_0_r. apply nth_error_None. pose proof (contents_longest h (w i)). lia.
  - destruct (nth_error (contents_at h (w i)) i) as [b|] eqn:E; cbn.
    + specialize (IH (S i) ltac:(lia)). now replace (i + S (length (fetch h w (S i) fuel))) with (S i + length (fetch h w (S i) fuel)) by lia.
    + now rewrite Nat.add_0_r.
Qed.
(** What is fetched, given what each position shows. *)
Lemma fetch_unique h w s : (forall i, i < length s -> nth_error (contents_at h (w i)) i = nth_error s i) ->
  nth_error (contents_at h (w (length s))) (length s) = None -> fetch h w 0 (longest h) = s.
Proof.
  intros H1 H2. pose proof (fetch_spec h w (longest h) 0) as S1. pose proof (fetch_end h w (longest h) 0 ltac:(lia)) as S2. cbn [Nat.add] in *.
  set (r := fetch h w 0 (longest h)) in *.
  assert (length r = length s) as L.
  { destruct (lt_eq_lt_dec (length r) (length s)) as [[L|L]|L]; [|exact L|].
    - rewrite (H1 _ L) in S2. apply nth_error_None in S2. lia.
    - pose proof (S1 _ L) as S3. rewrite H2 in S3. apply nth_error_None in S3. lia. }
  apply list_ext. intros i. destruct (Nat.ltb_spec i (length s)) as [Hi|Hi].
  - rewrite S1 by lia. now apply H1.
  - transitivity (@None byte); [|symmetry]; apply nth_error_None; lia.
Qed.

Section Growing.
Context (bs : bytes) (h : list bytes) (G : growing bs h).
Lemma growing_at : exists n : nat -> nat, (forall t, contents_at h t = firstn (n t) bs /\ n t <= length bs) /\ forall t t', t <= t' -> n t <= n t'.
Proof.
  destruct G as (ns & N & S & B & ->). exists (fun t => nth t ns (last ns 0)).
  assert (forall l, l <> [] -> @last bytes (map (fun n => firstn n bs) l) [] = firstn (last l 0) bs) as HL.
  { induction l as [|x l IH]; intros H; [contradiction|]. destruct l; [reflexivity|]. cbn [map last] in *. now apply IH. }
  assert (forall t, In (nth t ns (last ns 0)) ns) as HI.
  { intros t. destruct (Nat.ltb_spec t (length ns)) as [L|L]; [now apply nth_In|]. rewrite nth_overflow by exact L. clear - N.
    destruct ns as [|x ns]; [contradiction|]. clear. revert x. induction ns as [|y ns IH]; intros x; [left; reflexivity|]. right. apply IH. }
  split.
  - intros t. split.
    + unfold contents_at. change (list byte) with bytes in *. rewrite (HL _ N). exact (map_nth (fun n => firstn n bs) ns _ t).
    + rewrite Forall_forall in B. apply B, HI.
  - clear - S N HI. intros t t' Ht.
    assert (forall ns, StronglySorted le ns -> ns <> [] -> forall i j, i <= j -> j < length ns -> nth i ns (last ns 0) <= nth j ns (last ns 0)) as Q.
    { clear. intros ns S _. generalize (last ns 0) as d. induction S as [|a l S IH F]; intros d i j Hij Hj; cbn in Hj; [lia|].
      destruct i as [|i], j as [|j]; cbn; try lia.
      - rewrite Forall_forall in F. apply F. apply nth_In. lia.
      - apply IH; lia. }
    assert (nth (length ns - 1) ns (last ns 0) = last ns 0) as QL.
    { clear - N. induction ns as [|x ns IH]; [contradiction|]. destruct ns as [|y ns]; [reflexivity|]. specialize (IH ltac:(discriminate)).
      change (last (x :: y :: ns) 0) with (last (y :: ns) 0). replace (length (x :: y :: ns) - 1) with (S (length (y :: ns) - 1)) by (cbn; lia). exact IH. }
    assert (length ns > 0) as Hl by (destruct ns; [contradiction|cbn; lia]).
    destruct (Nat.ltb_spec t' (length ns)) as [L'|L']; [now apply Q|].
    rewrite (nth_overflow ns _ L'). destruct (Nat.ltb_spec t (length ns)) as [L|L]; [|now rewrite nth_overflow].
    rewrite <- QL at 2. apply Q; try assumption; lia.
Qed.

Lemma growing_fetch w : (forall i j, i <= j -> w i <= w j) ->
  exists n, n <= length bs /\ fetch h w 0 (longest h) = firstn n bs /\ (n = length bs <-> in_time bs h w).
Proof.
  intros W. destruct growing_at as (n & Hn & Mn).
  pose proof (fetch_spec h w (longest h) 0) as S1. pose proof (fetch_end h w (longest h) 0 ltac:(lia)) as S2. cbn [Nat.add] in *.
  set (r := fetch h w 0 (longest h)) in *.
  assert (forall j, j < length r -> j < n (w j) /\ nth_error r j = nth_error bs j) as R.
  { intros j Hj. pose proof (S1 j Hj) as E. destruct (Hn (w j)) as (Ec & Bc). rewrite Ec in E.
    assert (j < length (firstn (n (w j)) bs)) as L.
    { apply nth_error_Some. rewrite <- E. now apply nth_error_Some. }
    rewrite firstn_length in L. split; [lia|]. rewrite E. apply nth_eq_firstn. lia. }
  assert (length r <= length bs) as Lr.
  { destruct (length r) as [|l] eqn:E; [lia|]. destruct (R l ltac:(lia)) as (H1 & _). destruct (Hn (w l)). lia. }
  exists (length r). split; [exact Lr|]. split.
  - apply list_ext. intros i. destruct (Nat.ltb_spec i (length r)) as [Hi|Hi].
    + rewrite nth_eq_firstn by lia. now apply R.
    + transitivity (@None byte); [|symmetry]; apply nth_error_None; rewrite ?firstn_length; lia.
  - unfold in_time. split.
    + intros E i Hi. destruct (Hn (w i)) as (-> & B). rewrite firstn_length. destruct (R i ltac:(lia)). lia.
    + intros H. destruct (Nat.eq_dec (length r) (length bs)) as [E|E]; [exact E|exfalso].
      apply nth_error_None in S2. specialize (H (length r) ltac:(lia)). lia.
Qed.
End Growing.

(** A reader that starts after the truncation gets the new mesh or struct.error, and
    which of them is decided by whether every byte was there in time. *)
Theorem load_growing {F} p (u : Z -> F) k bs m h w stat : load p u k bs = Ok m -> growing bs h -> in_order w stat ->
  (in_time bs h w -> load_during p u k h w stat = Ok m) /\
  (~ in_time bs h w -> load_during p u k h w stat = Raise EStruct).
Proof.
  intros HL G (W & St). destruct (growing_fetch bs h G w W) as (n & Ln & Ef & It).
  unfold load in HL. apply bind_ok in HL. destruct HL as ((m', rest) & HB & HL). destruct rest; [|discriminate]. injection HL as ->.
  destruct (local_load_body p u k _ _ _ HB) as (used & Eu & _ & P). rewrite app_nil_r in Eu. subst used.
  unfold load_during. rewrite Ef. split; intros HT.
  - pose proof (proj2 It HT) as ->. rewrite firstn_all, HB. cbn [bind length]. rewrite Nat.sub_0_r.
    destruct (growing_at bs h G) as (k0 & Hk & Mk). destruct (Hk stat) as (-> & Bs). rewrite firstn_length.
    destruct (Nat.eqb_spec (length bs) (Nat.min (k0 stat) (length bs))) as [_|NE]; [reflexivity|exfalso]. apply NE.
    destruct (length bs) as [|l] eqn:El; [lia|]. specialize (HT l ltac:(lia)). destruct (Hk (w l)) as (E1 & B1). rewrite E1, firstn_length in HT.
    pose proof (Mk _ _ (St l)). lia.
  - assert (n < length bs) as Lt by (destruct (Nat.eq_dec n (length bs)) as [E|E]; [exfalso; now apply HT, It|lia]).
    rewrite P; [reflexivity|]. exists (skipn n bs). split; [|symmetry; apply firstn_skipn].
    intros E. apply (f_equal (@length byte)) in E. rewrite skipn_length in E. cbn in E. lia.
Qed.

Lemma in_time_dec bs h w : in_time bs h w \/ ~ in_time bs h w.
Proof.
  unfold in_time. induction (length bs) as [|n IH]; [left; intros i H; lia|].
  destruct IH as [IH|IH]; [|right; intros H; apply IH; intros i Hi; apply H; lia].
  destruct (lt_dec n (length (contents_at h (w n)))) as [L|L]; [left|right].
  - intros i Hi. destruct (Nat.eq_dec i n) as [->|N]; [exact L|apply IH; lia].
  - intros H. apply L, H. lia.
Qed.
Corollary load_growing_or {F} p (u : Z -> F) k bs m h w stat : load p u k bs = Ok m -> growing bs h -> in_order w stat ->
  load_during p u k h w stat = Ok m \/ load_during p u k h w stat = Raise EStruct.
Proof. intros HL G W. destruct (load_growing p u k bs m h w stat HL G W) as (H1 & H2). destruct (in_time_dec bs h w); auto. Qed.

(** A file that does not change while it is read is loaded as usual. *)
Theorem load_still {F} p (u : Z -> F) k bs w stat : load_during p u k [bs] w stat = load p u k bs.
Proof.
  assert (forall t, contents_at [bs] t = bs) as C by (intros [|[|t]]; reflexivity).
  assert (fetch [bs] w 0 (longest [bs]) = bs) as E.
  { apply fetch_unique; [intros i Hi; now rewrite C|rewrite C; now apply nth_error_None]. }
  unfold load_during, load. rewrite E, C. destruct (load_body p u k bs) as [(m, rest)|] eqn:B; [|reflexivity]. cbn [bind].
  destruct (local_load_body p u k _ _ _ B) as (used & -> & _ & _). rewrite app_length.
  destruct rest as [|b rest]; cbn [length].
  - now rewrite (proj2 (Nat.eqb_eq _ _)) by lia.
  - now rewrite (proj2 (Nat.eqb_neq _ _)) by lia.
Qed.

(** A file that has another size by the time it has been read is refused. *)
Theorem load_resized {F} p (u : Z -> F) k bs c m : load p u k bs = Ok m -> length c <> length bs ->
  load_during p u k [bs; c] (fun _ => 0) 1 = Raise EAttribute.
Proof.
  intros HL N. unfold load in HL. apply bind_ok in HL. destruct HL as ((m', rest) & HB & HL). destruct rest; [|discriminate].
  unfold load_during. rewrite (fetch_unique [bs; c] (fun _ => 0) bs); [|reflexivity|now apply nth_error_None].
  rewrite HB. cbn [bind length]. change (contents_at [bs; c] 1) with c. now rewrite Nat.sub_0_r, (proj2 (Nat.eqb_neq _ _)) by lia.
Qed.

(** ** Mixtures of two files *)
(** Meshes that differ in vertices only have files that differ there only. *)
Definition float_bytes {F} (p : plat) (pk : F -> Z) (x : F) : bytes := fst (write_float p pk x).
Lemma write_floats {F} p (pk : F -> Z) l : wall (write_float p pk) l = (flat_map (float_bytes p pk) l, None).
Proof. induction l as [|x l IH]; [reflexivity|]. cbn [wall flat_map]. rewrite IH. reflexivity. Qed.

Lemma wseq_inv a b bs : wseq a b = (bs, None) -> exists x y, a = (x, None) /\ b = (y, None) /\ bs = x ++ y.
Proof. destruct a as (x, [e|]); cbn; [discriminate|]. destruct b as (y, o). intros [= <- ->]. eauto. Qed.
Lemma wseq_prefix a b x : a = (x, None) -> wseq a b = (x ++ fst b, snd b).
Proof. intros ->. destruct b. reflexivity. Qed.
Lemma wseq_assoc a b c : wseq a (wseq b c) = wseq (wseq a b) c.
Proof. destruct a as (x, [e|]), b as (y, [e'|]), c as (z, o); cbn; try reflexivity. now rewrite app_assoc. Qed.

Lemma export_front_back {F} p (pk : F -> Z) (m : mesh F) : exists front back, forall vs,
  export p pk (set_vertices m vs) = wseq front (wseq (wall (write_float p pk) vs) back).
Proof.
  eexists _, _. intros vs. unfold export.
  cbn [m_kind m_head m_u1 geomnum geoms vertattribnum vertex_attributes vertformat vertstride vertnum vertices indexnum index m_u2 set_vertices].
  do 8 rewrite wseq_assoc. reflexivity.
Qed.
Lemma set_vertices_same {F} (m : mesh F) : set_vertices m (vertices m) = m.
Proof. now destruct m. Qed.
Lemma export_split {F} p (pk : F -> Z) (m : mesh F) bs : export p pk m = (bs, None) ->
  exists pre post, forall vs, export p pk (set_vertices m vs) = (pre ++ flat_map (float_bytes p pk) vs ++ post, None).
Proof.
  intros E. destruct (export_front_back p pk m) as (front & back & H). rewrite <- (set_vertices_same m), H, write_floats in E.
  apply wseq_inv in E. destruct E as (pre & y & -> & E & _). apply wseq_inv in E. destruct E as (x & post & _ & -> & _).
  exists pre, post. intros vs. rewrite H, write_floats. reflexivity.
Qed.
Lemma float_bytes_length {F} p (pk : F -> Z) l : length (flat_map (float_bytes p pk) l) = 4 * length l.
Proof.
  induction l as [|x l IH]; [reflexivity|]. cbn [flat_map length]. rewrite app_length, IH. unfold float_bytes, write_float, wput, enc_float. cbn [fst].
  rewrite enc_uint_length. lia.
Qed.
Lemma wf_vertices {F} p (m : mesh F) vs : wf p m -> length vs = length (vertices m) -> wf p (set_vertices m vs).
Proof.
  intros W L. unfold wf in *.
  cbn [m_kind m_head m_u1 geomnum geoms vertattribnum vertex_attributes vertformat vertstride vertnum vertices indexnum index m_u2 set_vertices].
  unfold zlen in *. rewrite L. exact W.
Qed.

(** The front of one file and the back of the other. *)
Lemma export_mixed {F} p (pk : F -> Z) (m : mesh F) b1 b2 vs j : export p pk m = (b1, None) ->
  export p pk (set_vertices m vs) = (b2, None) -> length vs = length (vertices m) -> j <= length vs ->
  exists n, n <= length b1 /\ length b2 = length b1 /\
    export p pk (set_vertices m (firstn j (vertices m) ++ skipn j vs)) = (firstn n b1 ++ skipn n b2, None).
Proof.
  intros E1 E2 L Hj. destruct (export_split p pk m b1 E1) as (pre & post & H). rewrite <- (set_vertices_same m), H in E1. injection E1 as <-.
  rewrite H in E2. injection E2 as <-. exists (length pre + 4 * j). rewrite !app_length, !float_bytes_length. split; [lia|]. split; [lia|].
  rewrite H. f_equal. rewrite flat_map_app, <- app_assoc.
  rewrite <- (firstn_skipn j (vertices m)) at 2. rewrite <- (firstn_skipn j vs) at 2. rewrite !flat_map_app, <- !app_assoc.
  assert (length (pre ++ flat_map (float_bytes p pk) (firstn j (vertices m))) = length pre + 4 * j) as L1.
  { rewrite app_length, float_bytes_length, firstn_length. lia. }
  assert (length (pre ++ flat_map (float_bytes p pk) (firstn j vs)) = length pre + 4 * j) as L2.
  { rewrite app_length, float_bytes_length, firstn_length. lia. }
  rewrite !(app_assoc pre). rewrite <- L1 at 1. rewrite firstn_app, firstn_all, Nat.sub_diag. cbn [firstn]. rewrite app_nil_r.
  rewrite <- L2. rewrite skipn_app, skipn_all, Nat.sub_diag. cbn [skipn app]. rewrite <- !app_assoc. reflexivity.
Qed.

(** A reader that starts before the truncation and goes on after the save. *)
Lemma fetch_mixed b1 b2 n : n <= length b1 -> length b2 = length b1 -> n < length b1 ->
  fetch [b1; []; b2] (fun i => if i <? n then 0 else 2) 0 (longest [b1; []; b2]) = firstn n b1 ++ skipn n b2.
Proof.
  intros Hn L _. assert (length (firstn n b1 ++ skipn n b2) = length b1) as Lm by (rewrite app_length, firstn_length, skipn_length; lia).
  apply fetch_unique.
  - rewrite Lm. intros i Hi. destruct (Nat.ltb_spec i n) as [H|H]; cbn [contents_at nth].
    + rewrite nth_error_app1 by (rewrite firstn_length; lia). symmetry. now apply nth_eq_firstn.
    + unfold contents_at. cbn [nth]. rewrite nth_error_app2 by (rewrite firstn_length; lia). rewrite firstn_length, Nat.min_l by lia.
      rewrite <- (firstn_skipn n b2) at 1. rewrite nth_error_app2 by (rewrite firstn_length; lia). now rewrite firstn_length, Nat.min_l by lia.
  - rewrite Lm. destruct (Nat.ltb_spec (length b1) n) as [H|H]; [lia|]. unfold contents_at. cbn [nth]. apply nth_error_None. lia.
Qed.
Lemma mixed_order n : in_order (fun i => if i <? n then 0 else 2) 2.
Proof.
  split; intros i; [intros j Hij|]; repeat match goal with |- context [?a <? ?b] => destruct (Nat.ltb_spec a b) end; lia.
Qed.
Theorem load_mixed {F} p (u : Z -> F) k b1 b2 n : n < length b1 -> length b2 = length b1 ->
  load_during p u k [b1; []; b2] (fun i => if i <? n then 0 else 2) 2 = load p u k (firstn n b1 ++ skipn n b2).
Proof.
  intros Hn L. unfold load_during, load. rewrite fetch_mixed by lia. destruct (load_body p u k (firstn n b1 ++ skipn n b2)) as [(m, rest)|] eqn:B; [|reflexivity]. cbn [bind].
  destruct (local_load_body p u k _ _ _ B) as (used & E & _ & _). apply (f_equal (@length byte)) in E. rewrite !app_length, firstn_length, skipn_length in *.
  change (contents_at [b1; []; b2] 2) with b2.
  destruct rest as [|b rest]; cbn [length] in *.
  - now rewrite (proj2 (Nat.eqb_eq _ _)) by lia.
  - now rewrite (proj2 (Nat.eqb_neq _ _)) by lia.
Qed.

Theorem read_mixture p m vs b1 b2 j : wf p m -> indexnum m <> 1%Z -> length vs = length (vertices m) -> j <= length vs ->
  export p pack_f m = (b1, None) -> export p pack_f (set_vertices m vs) = (b2, None) ->
  exists w stat, in_order w stat /\
    load_during p unpack_f (m_kind m) [b1; []; b2] w stat =
      Ok (mesh_map (fun x => unpack_f (pack_f x)) (set_vertices m (firstn j (vertices m) ++ skipn j vs))).
Proof.
  intros W N L Hj E1 E2. destruct (export_mixed p pack_f m b1 b2 vs j E1 E2 L Hj) as (n & Hn & Lb & Em).
  assert (length (firstn j (vertices m) ++ skipn j vs) = length (vertices m)) as Lv by (rewrite app_length, firstn_length, skipn_length; lia).
  destruct (export_reload p (set_vertices m (firstn j (vertices m) ++ skipn j vs))) as (bs & Eb & R); [now apply wf_vertices|exact N|].
  rewrite Em in Eb. injection Eb as <-. change (m_kind (set_vertices _ _)) with (m_kind m) in R.
  destruct (Nat.eq_dec n (length b1)) as [->|NE].
  - rewrite firstn_all, <- Lb, skipn_all, app_nil_r in R. exists (fun _ => 0), 0. split; [split; intros; lia|].
    rewrite <- R, <- (load_still p unpack_f (m_kind m) b1 (fun _ => 0) 0). unfold load_during.
    change (contents_at [b1; []; b2] 0) with b1. change (contents_at [b1] 0) with b1.
    rewrite (fetch_unique [b1; []; b2] _ b1), (fetch_unique [b1] _ b1); try reflexivity; try (now apply nth_error_None).
  - exists (fun i => if i <? n then 0 else 2), 2. split; [apply mixed_order|]. rewrite load_mixed by lia. exact R.
Qed.

(** ** Writing *)
Lemma pwrite_nth c off new i : nth_error (pwrite c off new) i =
  match new with [] => nth_error c i
  | _ => if i <? off then if i <? length c then nth_error c i else Some zero
         else if i <? off + length new then nth_error new (i - off) else nth_error c i end.
Proof.
  destruct new as [|b new]; [reflexivity|]. unfold pwrite. set (x := b :: new). clearbody x.
  destruct (Nat.ltb_spec i off) as [H|H].
  - destruct (Nat.ltb_spec i (length c)) as [H'|H'].
    + rewrite nth_error_app1 by (rewrite firstn_length; lia). now apply nth_eq_firstn.
    + rewrite nth_error_app2 by (rewrite firstn_length; lia). rewrite nth_error_app1 by (rewrite repeat_length, firstn_length; lia).
      rewrite firstn_length. rewrite nth_error_repeat; [reflexivity|lia].
  - rewrite nth_error_app2 by (rewrite firstn_length; lia). rewrite nth_error_app2 by (rewrite repeat_length, firstn_length; lia).
    rewrite repeat_length, firstn_length. replace (i - Nat.min off (length c) - (off - length c)) with (i - off) by lia.
    destruct (Nat.ltb_spec i (off + length x)) as [H'|H'].
    + now rewrite nth_error_app1 by lia.
    + rewrite nth_error_app2 by lia. destruct (Nat.ltb_spec i (length c)) as [Hc|Hc].
      * rewrite <- (firstn_skipn (off + length x) c) at 2. rewrite nth_error_app2 by (rewrite firstn_length; lia). f_equal. rewrite firstn_length. lia.
      * transitivity (@None byte); [|symmetry]; apply nth_error_None; rewrite ?skipn_length; lia.
Qed.
Lemma pwrite_length c off new : length (pwrite c off new) = match new with [] => length c | _ => Nat.max (length c) (off + length new) end.
Proof.
  destruct new as [|b new]; [reflexivity|]. unfold pwrite. set (x := b :: new). clearbody x. rewrite !app_length, firstn_length, repeat_length, skipn_length. lia.
Qed.

Section Save.
Context (data : nat -> bytes) (c0 : bytes).
Notation run := (save_run data c0).

Lemma run_snoc l e : run (l ++ [e]) = save_step data (run l) e.
Proof. unfold save_run. now rewrite fold_left_app. Qed.
Lemma opener_snoc l e : last_opener (l ++ [e]) = match e with SOpen i => Some i | SFlush _ _ => last_opener l end.
Proof. unfold last_opener. now rewrite fold_left_app. Qed.

(** Every handle has written the beginning of its data. *)
Lemma saver_inv l i s : d_saver (run l) i = Some s -> s_off s <= length (data i) /\ s_left s = skipn (s_off s) (data i).
Proof.
  revert i s. induction l as [|e l IH] using rev_ind; intros i s; [discriminate|]. rewrite run_snoc. destruct e as [j|j n]; cbn [save_step].
  - cbn [d_saver]. unfold set_saver. destruct (Nat.eqb_spec i j) as [->|_]; [|apply IH]. intros [= <-]. cbn. split; [lia|reflexivity].
  - destruct (d_saver (run l) j) as [t|] eqn:E; [|apply IH]. cbn [d_saver]. unfold set_saver. destruct (Nat.eqb_spec i j) as [->|_]; [|apply IH].
    intros [= <-]. cbn [s_off s_left]. destruct (IH _ _ E) as (H1 & ->). rewrite firstn_length, skipn_length, skipn_skipn.
    split; [lia|]. destruct (Nat.leb_spec n (length (data j) - s_off t)) as [H|H]; [f_equal; lia|].
    rewrite !skipn_all2 by lia. reflexivity.
Qed.
Lemma opener_saver l w : last_opener l = Some w -> exists s, d_saver (run l) w = Some s.
Proof.
  revert w. induction l as [|e l IH] using rev_ind; intros w; [discriminate|]. rewrite run_snoc, opener_snoc. destruct e as [j|j n]; cbn [save_step].
  - intros [= ->]. cbn [d_saver]. unfold set_saver. rewrite Nat.eqb_refl. eauto.
  - intros H. destruct (IH _ H) as (s & E). destruct (d_saver (run l) j) as [t|] eqn:E'; [|eauto]. cbn [d_saver]. unfold set_saver.
    destruct (Nat.eqb w j); eauto.
Qed.
Lemma nth_part (b : bytes) off n i x : nth_error (firstn n (skipn off b)) i = Some x -> nth_error b (off + i) = Some x.
Proof.
  intros H. assert (i < n) as L.
  { assert (i < length (firstn n (skipn off b))) as L by (apply nth_error_Some; congruence). rewrite firstn_length in L. lia. }
  rewrite nth_eq_firstn in H by exact L. rewrite <- H. clear. revert b. induction off as [|o IH]; intros [|y b]; cbn; try reflexivity; [now destruct i|apply IH].
Qed.

(** What the last opener has written is full of bytes from the exports, at their own
    positions. *)
Lemma file_inv l w s : last_opener l = Some w -> d_saver (run l) w = Some s ->
  s_off s <= length (d_file (run l)) /\
  forall i, i < s_off s -> exists j x, nth_error (d_file (run l)) i = Some x /\ nth_error (data j) i = Some x.
Proof.
  revert w s. induction l as [|e l IH] using rev_ind; intros w s; [discriminate|]. rewrite run_snoc, opener_snoc. destruct e as [j|j n]; cbn [save_step].
  - intros [= ->]. cbn [d_saver d_file]. unfold set_saver. rewrite Nat.eqb_refl. intros [= <-]. cbn. split; [lia|]. intros i Hi. lia.
  - intros H. destruct (d_saver (run l) j) as [t|] eqn:E; [|now apply IH]. cbn [d_saver d_file]. unfold set_saver.
    destruct (opener_saver l w H) as (s0 & E0). destruct (IH w s0 H E0) as (I1 & I2). destruct (saver_inv l j t E) as (B & EL).
    set (now := firstn n (s_left t)).
    assert (forall i x, nth_error now i = Some x -> nth_error (data j) (s_off t + i) = Some x) as HN by (intros i x; unfold now; rewrite EL; apply nth_part).
    intros Es.
    assert (s_off s = if w =? j then s_off t + length now else s_off s0) as So.
    { destruct (Nat.eqb_spec w j) as [->|_]; [injection Es as <-; reflexivity|]. rewrite E0 in Es. now injection Es as <-. }
    assert (w =? j = true -> s0 = t) as St by (intros Q; apply Nat.eqb_eq in Q; subst; congruence).
    assert (length (d_file (run l)) <= length (pwrite (d_file (run l)) (s_off t) now)) as Lp by (rewrite pwrite_length; destruct now; lia).
    split.
    + rewrite So. destruct (w =? j); [|lia]. rewrite (St eq_refl) in *. rewrite pwrite_length. destruct now; cbn [length]; lia.
    + intros i Hi. rewrite So in Hi. rewrite pwrite_nth. destruct now as [|b now'] eqn:En.
      { apply I2. destruct (w =? j); [rewrite (St eq_refl) in *; cbn in Hi; lia|exact Hi]. }
      rewrite <- En in *. clear En b now'.
      destruct (Nat.ltb_spec i (s_off t)) as [Hl|Hl].
      * assert (i < s_off s0) as Hi0 by (destruct (w =? j); [now rewrite (St eq_refl)|exact Hi]).
        destruct (Nat.ltb_spec i (length (d_file (run l)))) as [Hc|Hc]; [now apply I2|lia].
      * destruct (Nat.ltb_spec i (s_off t + length now)) as [Hr|Hr].
        -- destruct (nth_error now (i - s_off t)) as [x|] eqn:Ex; [|apply nth_error_None in Ex; lia].
           exists j, x. split; [reflexivity|]. apply HN in Ex. now replace (s_off t + (i - s_off t)) with i in Ex by lia.
        -- apply I2. destruct (w =? j); [lia|exact Hi].
Qed.

Lemma file_length l w n : last_opener l = Some w -> (forall i, length (data i) <= n) -> length (d_file (run l)) <= n.
Proof.
  intros HO Hn. revert w HO. induction l as [|e l IH] using rev_ind; intros w; [discriminate|]. rewrite run_snoc, opener_snoc. destruct e as [j|j k]; cbn [save_step].
  - intros _. cbn. lia.
  - intros H. specialize (IH w H). destruct (d_saver (run l) j) as [t|] eqn:E; [|exact IH]. cbn [d_file]. rewrite pwrite_length.
    destruct (saver_inv l j t E) as (B & EL). specialize (Hn j). destruct (firstn k (s_left t)) as [|b x] eqn:Ef; [exact IH|].
    assert (length (b :: x) <= length (data j) - s_off t) as Lb by (rewrite <- Ef, EL, firstn_length, skipn_length; lia). lia.
Qed.

Lemma finished_off l w : finished (run l) w -> exists s, d_saver (run l) w = Some s /\ s_off s = length (data w).
Proof.
  intros (s & E & H). exists s. split; [exact E|]. destruct (saver_inv l w s E) as (B & EL). rewrite H in EL.
  apply (f_equal (@length byte)) in EL. rewrite skipn_length in EL. cbn in EL. lia.
Qed.

(** Once the export that opened last has finished, every byte in the length of its data
    is a byte of one of the exports. *)
Theorem save_bytes l w : last_opener l = Some w -> finished (run l) w ->
  length (data w) <= length (d_file (run l)) /\
  forall i, i < length (data w) -> exists j x, nth_error (d_file (run l)) i = Some x /\ nth_error (data j) i = Some x.
Proof. intros H F. destruct (finished_off l w F) as (s & E & So). rewrite <- So. exact (file_inv l w s H E). Qed.

(** Exports of the same bytes do not disturb each other. *)
Theorem save_same l w b : (forall i, data i = b) -> last_opener l = Some w -> finished (run l) w -> d_file (run l) = b.
Proof.
  intros Hd H F. destruct (save_bytes l w H F) as (L & HB). pose proof (file_length l w (length b) H ltac:(intros i; now rewrite Hd)) as L2.
  rewrite Hd in L, HB. apply list_ext. intros i. destruct (Nat.ltb_spec i (length b)) as [Hi|Hi].
  - destruct (HB i Hi) as (j & x & E1 & E2). rewrite Hd in E2. congruence.
  - transitivity (@None byte); [|symmetry]; apply nth_error_None; lia.
Qed.

(** An export that nobody else writes beside leaves its own bytes. *)
Theorem save_alone l1 w l2 : (forall e, In e l2 -> exists n, e = SFlush w n) -> finished (run (l1 ++ SOpen w :: l2)) w ->
  d_file (run (l1 ++ SOpen w :: l2)) = data w.
Proof.
  intros Hl F. assert (forall l2, (forall e, In e l2 -> exists n, e = SFlush w n) -> exists s, d_saver (run (l1 ++ SOpen w :: l2)) w = Some s /\
    d_file (run (l1 ++ SOpen w :: l2)) = firstn (s_off s) (data w)) as Q.
  { clear l2 Hl F. induction l2 as [|e l2 IH] using rev_ind; intros Hl.
    - change (l1 ++ [SOpen w]) with (l1 ++ [SOpen w]). rewrite run_snoc. cbn. unfold set_saver. rewrite Nat.eqb_refl. eexists. split; reflexivity.
    - destruct (Hl e) as (n & ->); [apply in_or_app; right; now left|]. destruct IH as (s & E & Ef); [intros e He; apply Hl, in_or_app; now left|].
      replace (l1 ++ SOpen w :: l2 ++ [SFlush w n]) with ((l1 ++ SOpen w :: l2) ++ [SFlush w n]) by (now rewrite <- app_assoc).
      rewrite run_snoc. cbn [save_step]. rewrite E. cbn [d_saver d_file]. unfold set_saver. rewrite Nat.eqb_refl. eexists. split; [reflexivity|]. cbn [s_off].
      destruct (saver_inv _ _ _ E) as (B & ->). rewrite Ef. 
      assert (length (firstn (s_off s) (data w)) = s_off s) as L by (rewrite firstn_length; lia).
      apply list_ext. intros i. rewrite pwrite_nth. set (x := firstn n (skipn (s_off s) (data w))).
      assert (length x = Nat.min n (length (data w) - s_off s)) as Lx by (unfold x; now rewrite firstn_length, skipn_length).
      assert (nth_error (firstn (s_off s + length x) (data w)) i = if i <? s_off s + length x then nth_error (data w) i else None) as Er.
      { destruct (Nat.ltb_spec i (s_off s + length x)); [now apply nth_eq_firstn|]. apply nth_error_None. rewrite firstn_length. lia. }
      rewrite Er. destruct x as [|b x'] eqn:Ex.
      + cbn [length]. rewrite Nat.add_0_r. destruct (Nat.ltb_spec i (s_off s)); [now apply nth_eq_firstn|]. apply nth_error_None. lia.
      + rewrite <- Ex in *. rewrite L. destruct (Nat.ltb_spec i (s_off s)) as [H|H].
        * destruct (Nat.ltb_spec i (s_off s + length x)); [now apply nth_eq_firstn|lia].
        * destruct (Nat.ltb_spec i (s_off s + length x)) as [H'|H'].
          -- destruct (nth_error x (i - s_off s)) as [y|] eqn:Ey; [|apply nth_error_None in Ey; lia].
             pose proof Ey as Q. unfold x in Q. apply nth_part in Q.
             replace (s_off s + (i - s_off s)) with i in Q by lia. now rewrite Q.
          -- apply nth_error_None. lia. }
  destruct (Q l2 Hl) as (s & E & ->). destruct (finished_off _ _ F) as (s' & E' & So). rewrite E in E'. injection E' as <-. rewrite So. apply firstn_all.
Qed.
End Save.

(** Two exports, both complete, in the worst order: front of the one and back of the other. *)
Lemma save_two_mixed a b n c0 : length b = length a -> n <= length a ->
  let l := [SOpen 0; SOpen 1; SFlush 1 n; SFlush 0 (length a); SFlush 1 (length b)] in
  d_file (save_run (two a b) c0 l) = firstn n a ++ skipn n b /\ finished (save_run (two a b) c0 l) 0 /\ finished (save_run (two a b) c0 l) 1.
Proof.
  intros L Hn. cbn. rewrite firstn_all. unfold set_saver. cbn.
  assert (pwrite [] 0 (firstn n b) = firstn n b) as E1.
  { unfold pwrite. destruct (firstn n b) as [|x y] eqn:E; [reflexivity|]. cbn. now rewrite app_nil_r. }
  assert (pwrite (firstn n b) 0 a = a) as E2.
  { clear E1. destruct a as [|x y].
    - cbn in Hn. replace n with 0 by lia. reflexivity.
    - unfold pwrite. cbn [firstn app Nat.sub repeat Nat.add]. rewrite (skipn_all2 (firstn n b)), app_nil_r by (rewrite firstn_length; lia). reflexivity. }
  rewrite E1, E2. rewrite firstn_length, Nat.min_l by lia. rewrite (firstn_all2 (skipn n b)) by (rewrite skipn_length; lia).
  split; [|split].
  - unfold pwrite. destruct (skipn n b) as [|x y] eqn:E.
    + rewrite app_nil_r. apply (f_equal (@length byte)) in E. rewrite skipn_length in E. cbn in E. now rewrite firstn_all2 by lia.
    + rewrite <- E. replace (n - length a) with 0 by lia. cbn [repeat app]. rewrite (skipn_all2 a) by (rewrite skipn_length; lia). now rewrite app_nil_r.
  - eexists. split; [reflexivity|]. cbn. apply skipn_all.
  - eexists. split; [reflexivity|]. cbn. rewrite skipn_skipn. apply skipn_all2. lia.
Qed.
Lemma save_two_tail a b c0 : length b < length a ->
  let l := [SOpen 0; SOpen 1; SFlush 0 (length a); SFlush 1 (length b)] in
  d_file (save_run (two a b) c0 l) = b ++ skipn (length b) a /\ finished (save_run (two a b) c0 l) 0 /\ finished (save_run (two a b) c0 l) 1.
Proof.
  intros L. cbn. rewrite !firstn_all. unfold set_saver. cbn.
  assert (pwrite [] 0 a = a) as E1.
  { unfold pwrite. destruct a as [|x y] eqn:E; [reflexivity|]. cbn. now rewrite app_nil_r. }
  rewrite E1. split; [|split].
  - unfold pwrite. destruct b as [|x y] eqn:E; reflexivity.
  - eexists. split; [reflexivity|]. cbn. apply skipn_all.
  - eexists. split; [reflexivity|]. cbn. apply skipn_all.
Qed.

Theorem save_mixture p m vs b1 b2 j c0 : wf p m -> indexnum m <> 1%Z -> length vs = length (vertices m) -> j <= length vs ->
  export p pack_f m = (b1, None) -> export p pack_f (set_vertices m vs) = (b2, None) ->
  exists l, finished (save_run (two b1 b2) c0 l) 0 /\ finished (save_run (two b1 b2) c0 l) 1 /\
    load p unpack_f (m_kind m) (d_file (save_run (two b1 b2) c0 l)) =
      Ok (mesh_map (fun x => unpack_f (pack_f x)) (set_vertices m (firstn j (vertices m) ++ skipn j vs))).
Proof.
  intros W N L Hj E1 E2. destruct (export_mixed p pack_f m b1 b2 vs j E1 E2 L Hj) as (n & Hn & Lb & Em).
  assert (length (firstn j (vertices m) ++ skipn j vs) = length (vertices m)) as Lv by (rewrite app_length, firstn_length, skipn_length; lia).
  destruct (export_reload p (set_vertices m (firstn j (vertices m) ++ skipn j vs))) as (bs & Eb & R); [now apply wf_vertices|exact N|].
  rewrite Em in Eb. injection Eb as <-. change (m_kind (set_vertices _ _)) with (m_kind m) in R.
  destruct (save_two_mixed b1 b2 n c0 Lb Hn) as (H1 & H2 & H3). eexists. split; [exact H2|]. split; [exact H3|]. rewrite H1. exact R.
Qed.
Theorem save_garbage {F} p (u : Z -> F) k b1 b2 m c0 : load p u k b2 = Ok m -> length b2 < length b1 ->
  exists l, finished (save_run (two b1 b2) c0 l) 0 /\ finished (save_run (two b1 b2) c0 l) 1 /\ last_opener l = Some 1 /\
    load p u k (d_file (save_run (two b1 b2) c0 l)) = Raise EAttribute.
Proof.
  intros HL L. destruct (save_two_tail b1 b2 c0 L) as (H1 & H2 & H3). eexists. split; [exact H2|]. split; [exact H3|]. split; [reflexivity|]. rewrite H1.
  eapply trailing_rejected; [exact HL|]. intros E. apply (f_equal (@length byte)) in E. rewrite skipn_length in E. cbn in E. lia.
Qed.

Theorem read_mixture_round p m vs b1 b2 : wf p m -> indexnum m <> 1%Z -> length vs = length (vertices m) ->
  export p pack_f m = (b1, None) -> export p pack_f (set_vertices m vs) = (b2, None) ->
  exists round, (forall x, rounds_to_single x (round x)) /\ (forall x, is_single x -> round x = x) /\
  forall j, j <= length vs -> exists w stat, in_order w stat /\
    load_during p unpack_f (m_kind m) [b1; []; b2] w stat = Ok (mesh_map round (set_vertices m (firstn j (vertices m) ++ skipn j vs))).
Proof.
  intros W N L E1 E2. exists (fun x => unpack_f (pack_f x)). split; [apply unpack_pack_rounds|]. split; [apply unpack_pack_single|].
  intros j Hj. now apply read_mixture.
Qed.
Theorem save_mixture_round p m vs b1 b2 c0 : wf p m -> indexnum m <> 1%Z -> length vs = length (vertices m) ->
  export p pack_f m = (b1, None) -> export p pack_f (set_vertices m vs) = (b2, None) ->
  exists round, (forall x, rounds_to_single x (round x)) /\ (forall x, is_single x -> round x = x) /\
  forall j, j <= length vs -> exists l, finished (save_run (two b1 b2) c0 l) 0 /\ finished (save_run (two b1 b2) c0 l) 1 /\
    load p unpack_f (m_kind m) (d_file (save_run (two b1 b2) c0 l)) = Ok (mesh_map round (set_vertices m (firstn j (vertices m) ++ skipn j vs))).
Proof.
  intros W N L E1 E2. exists (fun x => unpack_f (pack_f x)). split; [apply unpack_pack_rounds|]. split; [apply unpack_pack_single|].
  intros j Hj. now apply save_mixture.
Qed.
