(** Properties C58, C59: the old mesh class on the files that bf2mesh reads. *)
From Coq Require Import ZArith Bool Ascii String List Lia.
From Verif Require Import PyBase Struct Mesh Spec SpecF CodecBase CodecRaw CodecParam CodecLocal CodecFacts
  Arith F64 F64Facts Obj Col Old SpecOld SpecObj PathFacts FileFacts ObjFacts.
Import ListNotations.
Open Scope Z_scope.
Open Scope res_scope.

Lemma last_cons {A} (x d : A) t : last (x :: t) d = last t x.
Proof.
  revert x d. induction t as [|y t IH]; intros x d; [reflexivity|].
  change (last (y :: t) d = last (y :: t) x). rewrite !IH. reflexivity.
Qed.

Lemma last_in {A} (x : A) t : In (last t x) (x :: t).
Proof.
  revert x. induction t as [|y t IH]; intros x; [left; reflexivity|].
  rewrite last_cons. right. apply IH.
Qed.

(** ** Reading *)
Section Read.
Context {F : Type} (p : plat) (u : Z -> F).
Ltac vs := apply via_bind_same; intros.

Lemma signed16_eq z : to_signed 2 z = signed16 z.
Proof. reflexivity. Qed.

Lemma via_sshort : via signed16 (read_short1 p) (read_sshort p).
Proof. unfold read_short1, read_sshort. vs. apply via_ret. reflexivity. Qed.

Lemma via_old_attrib : via signed_attrib (load_vertattrib p) (old_load_vertattrib p).
Proof.
  unfold load_vertattrib, old_load_vertattrib.
  do 4 (eapply via_bind; [apply via_sshort|intros]). apply via_ret. reflexivity.
Qed.

Lemma old_matrix_eq bs : old_read_matrix4 p u bs = read_matrix4 p u bs.
Proof.
  unfold old_read_matrix4, read_matrix4, read_row4, rbind, read_raw, rret, bind, zlen.
  change (Z.to_nat 16) with 16%nat. change (Z.to_nat 64) with 64%nat.
  destruct (Z.ltb_spec (Z.of_nat (length bs)) 64) as [H|H]; cbn [orb Z.ltb Z.compare].
  - destruct (Z.ltb_spec (Z.of_nat (length bs)) 16); [reflexivity|].
    destruct (Z.ltb_spec (Z.of_nat (length (skipn 16 bs))) 16) as [|H1]; [reflexivity|].
    destruct (Z.ltb_spec (Z.of_nat (length (skipn 16 (skipn 16 bs)))) 16) as [|H2]; [reflexivity|].
    destruct (Z.ltb_spec (Z.of_nat (length (skipn 16 (skipn 16 (skipn 16 bs))))) 16) as [|H3]; [reflexivity|].
    rewrite !skipn_length in *. lia.
  - destruct (Z.ltb_spec (Z.of_nat (length bs)) 16) as [|H0]; [lia|].
    destruct (Z.ltb_spec (Z.of_nat (length (skipn 16 bs))) 16) as [H1|H1]; [rewrite !skipn_length in H1; lia|].
    destruct (Z.ltb_spec (Z.of_nat (length (skipn 16 (skipn 16 bs)))) 16) as [H2|H2]; [rewrite !skipn_length in H2; lia|].
    destruct (Z.ltb_spec (Z.of_nat (length (skipn 16 (skipn 16 (skipn 16 bs))))) 16) as [H3|H3]; [rewrite !skipn_length in H3; lia|].
    clear. do 64 (destruct bs as [|? bs]; [cbn in *; reflexivity|]). reflexivity.
Qed.

Lemma via_ext {A B} (f : A -> B) r r1 r2 : (forall bs, r1 bs = r2 bs) -> via f r r2 -> via f r r1.
Proof. intros E H bs. rewrite E. apply H. Qed.
Lemma via_old_matrix : via (fun x => x) (read_matrix4 p u) (old_read_matrix4 p u).
Proof. eapply via_ext; [apply old_matrix_eq|apply via_refl]. Qed.

Lemma via_map_id {A} (r r' : reader A) n : via (fun x => x) r r' -> via (fun x => x) (read_n r n) (read_n r' n).
Proof.
  intros H. induction n as [|n IH]; simpl; [apply via_ret; reflexivity|].
  eapply via_bind; [exact H|]. intros a. eapply via_bind; [exact IH|]. intros t. apply via_ret. reflexivity.
Qed.

Lemma via_old_rig : via (fun x => x) (load_rig p u) (old_load_rig p u).
Proof.
  unfold load_rig, old_load_rig. vs. eapply via_bind; [apply via_map_id|intros; apply via_ret; reflexivity].
  unfold load_bone, old_load_bone. vs. eapply via_bind; [apply via_old_matrix|intros; apply via_ret; reflexivity].
Qed.

Lemma via_old_node n cur :
  via (fun l => match l with [] => cur | x :: t => [last t x] end)
      (read_n (read_matrix4 p u) n) (old_load_node p u n cur).
Proof.
  revert cur. induction n as [|n IH]; intros cur; cbn [read_n old_load_node]; [apply via_ret; reflexivity|].
  eapply via_bind; [apply via_old_matrix|]. intros a bs. etransitivity; [apply (IH [a] bs)|]. unfold rbind.
  destruct (read_n (read_matrix4 p u) n bs) as [[t rest]|e]; [|reflexivity].
  cbn. destruct t as [|x t]; [reflexivity|].
  f_equal. f_equal. f_equal. symmetry. apply last_cons.
Qed.

Lemma via_old_nodes version bundled skinned l : nodes l = [] ->
  via (with_nodes last_only) (load_nodes_rigs p u version bundled skinned l)
      (old_load_nodes p u version bundled skinned l).
Proof.
  intros HN. unfold load_nodes_rigs, old_load_nodes. do 3 vs. destruct skinned.
  - vs. eapply via_bind; [apply via_map_id, via_old_rig|intros]. apply via_ret.
    unfold with_nodes. cbn. rewrite HN. reflexivity.
  - vs. rewrite HN. eapply (via_bind last_only).
    + destruct bundled; [apply via_ret; reflexivity|]. apply via_old_node.
    + intros. apply via_ret. reflexivity.
Qed.

Lemma via_each_in {A B B'} (g : B -> B') (r : A -> reader B) r' l :
  Forall (fun a => via g (r a) (r' a)) l -> via (map g) (read_each r l) (read_each r' l).
Proof.
  induction 1 as [|a t Ha Ht IH]; simpl; [apply via_ret; reflexivity|].
  eapply via_bind; [apply Ha|]. intros b. eapply via_bind; [exact IH|]. intros t'.
  apply via_ret. reflexivity.
Qed.

Definition fresh_lods (gs : list (geom F)) : Prop := Forall (fun g => Forall (fun l => nodes l = []) (lods g)) gs.
Lemma geoms_fresh n bs gs rest : read_n (load_geom p) n bs = Ok (gs, rest) -> fresh_lods gs.
Proof.
  revert bs gs rest. induction n as [|n IH]; intros bs gs rest H; cbn [read_n] in H.
  - ret H. constructor.
  - do 2 split_get H. ret H. constructor; [|eapply IH; eauto].
    unfold load_geom in G. split_get G. ret G. cbn [lods]. apply Forall_forall. intros x Hx.
    apply repeat_spec in Hx. subst x. reflexivity.
Qed.
Lemma via_old_lods version bundled skinned gs : fresh_lods gs ->
  via (on_lods (with_nodes last_only)) (each_lod (load_nodes_rigs p u version bundled skinned) gs)
      (each_lod (old_load_nodes p u version bundled skinned) gs).
Proof.
  intros H. unfold each_lod, on_lods. apply via_each_in. eapply Forall_impl; [|exact H].
  intros g Hg. eapply via_bind.
  - apply via_each_in. eapply Forall_impl; [|exact Hg]. intros l Hl. apply via_old_nodes. exact Hl.
  - intros. apply via_ret. reflexivity.
Qed.

(** *** Materials and the local variable *)
Notation keep := (with_nodes (F := F) last_only).
Definition has_mats (l : lod F) : bool := match materials l with [] => false | _ => true end.
Fixpoint bound_after (b : bool) (ls : list (lod F)) : option bool :=
  match ls with
  | [] => Some b
  | l :: t => if b || has_mats l then bound_after true t else None
  end.

Lemma old_mats_one v s b l bs :
  old_load_materials p u v s b (keep l) bs =
  match load_materials p u v s l bs with
  | Ok (l', rest) => if b || has_mats l' then Ok ((true, keep l'), rest) else Raise EUnboundLocal
  | Raise e => Raise e
  end.
Proof.
  unfold old_load_materials, load_materials, rbind, bind.
  destruct (read_long p bs) as [[n r1]|e]; [|reflexivity].
  destruct (read_n (load_mat p u v s) (Z.to_nat n) r1) as [[ms r2]|e]; [|reflexivity].
  unfold rret, has_mats. cbn [materials]. destruct ms, b; reflexivity.
Qed.

Lemma bound_app b xs ys : bound_after b (xs ++ ys) =
  match bound_after b xs with Some b' => bound_after b' ys | None => None end.
Proof.
  revert b. induction xs as [|x t IH]; intros b; [reflexivity|]. cbn [app bound_after].
  destruct (b || has_mats x); [apply IH|reflexivity].
Qed.

Definition st_ok {A B} (proj : A -> list (lod F)) (g : A -> B) (old : res (bool * list B * bytes)) (b : bool)
           (new : res (list A * bytes)) : Prop :=
  match new with
  | Ok (l', rest) => old = match bound_after b (flat_map proj l') with
                           | Some b' => Ok ((b', map g l'), rest)
                           | None => Raise EUnboundLocal
                           end
  | Raise _ => forall x, old <> Ok x
  end.

Lemma st_each {A A' B B'} (proj : B -> list (lod F)) (f : A -> A') (g : B -> B')
      (r : A -> reader B) (r' : bool -> A' -> reader (bool * B')) :
  (forall a b bs, match r a bs with
                  | Ok (x, rest) => r' b (f a) bs = match bound_after b (proj x) with
                                                    | Some b' => Ok ((b', g x), rest)
                                                    | None => Raise EUnboundLocal
                                                    end
                  | Raise _ => forall x, r' b (f a) bs <> Ok x
                  end) ->
  forall l b bs, st_ok proj g (read_each_st r' b (map f l) bs) b (read_each r l bs).
Proof.
  intros H l. induction l as [|a t IH]; intros b bs; cbn [map read_each_st read_each].
  - reflexivity.
  - unfold rbind at 1. unfold rbind at 2. specialize (H a b bs).
    destruct (r a bs) as [[x rest]|e]; cbn [bind].
    + rewrite H. destruct (bound_after b (proj x)) as [b'|] eqn:EB; cbn [bind].
      * specialize (IH b' rest). unfold rbind.
        destruct (read_each r t rest) as [[t' rest']|e]; cbn [bind st_ok rret] in *.
        -- rewrite IH. cbn [flat_map]. rewrite bound_app, EB.
           destruct (bound_after b' (flat_map proj t')); reflexivity.
        -- destruct (read_each_st r' b' (map f t) rest) as [[[b2 t2] r2]|]; [|cbn [bind]; discriminate].
           exfalso. eapply IH. reflexivity.
      * unfold rbind. destruct (read_each r t rest) as [[t' rest']|e]; cbn [bind st_ok rret]; [|discriminate].
        cbn [flat_map]. rewrite bound_app, EB. reflexivity.
    + cbn [st_ok]. destruct (r' b (f a) bs) as [[[b2 x2] r2]|]; [|cbn [bind]; discriminate].
      exfalso. eapply H. reflexivity.
Qed.

Lemma st_lods v s b ls bs :
  st_ok (fun l => [l]) keep (read_each_st (old_load_materials p u v s) b (map keep ls) bs) b
        (read_each (load_materials p u v s) ls bs).
Proof.
  apply st_each. intros a b' bs'. rewrite old_mats_one.
  destruct (load_materials p u v s a bs') as [[x rest]|e]; [|discriminate].
  cbn [bound_after]. destruct (b' || has_mats x); reflexivity.
Qed.

Lemma st_geoms v s b gs bs :
  st_ok lods (fun g => {| lodnum := lodnum g; lods := map keep (lods g) |})
        (each_lod_st (old_load_materials p u v s) b (on_lods keep gs) bs) b
        (each_lod (load_materials p u v s) gs bs).
Proof.
  unfold each_lod_st, each_lod, on_lods. apply st_each. intros g b' bs'. cbn [lods lodnum].
  pose proof (st_lods v s b' (lods g) bs') as H. unfold rbind.
  destruct (read_each (load_materials p u v s) (lods g) bs') as [[ls' rest]|e]; cbn [bind st_ok] in *.
  - rewrite H. unfold rret. cbn [lods lodnum].
    replace (flat_map (fun l : lod F => [l]) ls') with ls' by (clear; induction ls'; cbn; congruence).
    destruct (bound_after b' ls'); reflexivity.
  - intros x. destruct (read_each_st (old_load_materials p u v s) b' (map keep (lods g)) bs') as [[[b2 x2] r2]|];
      [|discriminate]. exfalso. eapply H. reflexivity.
Qed.

Lemma bound_true ls : bound_after true ls = Some true.
Proof. induction ls; [reflexivity|assumption]. Qed.
Lemma bound_false ls : (bound_after false ls <> None) <-> match ls with [] => True | l :: _ => materials l <> [] end.
Proof.
  destruct ls as [|l t]; cbn; [intuition discriminate|]. unfold has_mats.
  destruct (materials l); cbn.
  - split; [intros H; contradiction H; reflexivity|intros H; contradiction H; reflexivity].
  - rewrite bound_true. intuition discriminate.
Qed.

(** *** Arrays *)
Lemma old_vertices_of s f n bs l rest : load_vertices p u s f n bs = Ok (l, rest) ->
  old_load_vertices p u s f n bs = Ok (l, rest).
Proof.
  unfold load_vertices, old_load_vertices, read_float, rbind, bind, rret.
  destruct (rlift (data_num s f n) bs) as [[d r1]|e]; [|discriminate].
  destruct (read_items 4 d r1) as [[c r2]|e]; [|discriminate].
  unfold unwrap. destruct (d =? 1); [|auto]. destruct (map (fun b => u (dec_uint p b)) c) as [|x [|y t]]; [auto|discriminate|auto].
Qed.
Lemma new_vertices_of s f n bs l rest : old_load_vertices p u s f n bs = Ok (l, rest) -> length l <> 1%nat ->
  load_vertices p u s f n bs = Ok (l, rest).
Proof.
  unfold load_vertices, old_load_vertices, read_float, rbind, bind, rret.
  destruct (rlift (data_num s f n) bs) as [[d r1]|e]; [|discriminate].
  destruct (read_items 4 d r1) as [[c r2]|e]; [|discriminate].
  unfold unwrap. intros [= <- <-]. destruct (d =? 1); [|auto]. destruct (map (fun b => u (dec_uint p b)) c) as [|x [|y t]]; auto.
  intros H; contradiction H; reflexivity.
Qed.
Lemma via_old_index n : via index_numbers (read_short p n) (old_load_index p n).
Proof.
  unfold read_short, old_load_index. vs. apply via_ret. unfold unwrap, index_numbers.
  destruct (n =? 1); [|reflexivity]. destruct (map (dec_uint p) a) as [|x [|y t]]; reflexivity.
Qed.

(** *** Whole files *)
Lemma via_run {A B} (f : A -> B) r r' bs a rest : via f r r' -> r bs = Ok (a, rest) -> r' bs = Ok (f a, rest).
Proof. intros H E. rewrite H, E. reflexivity. Qed.
Lemma via_inv {A B} (f : A -> B) r r' bs b rest : via f r r' -> r' bs = Ok (b, rest) ->
  exists a, r bs = Ok (a, rest) /\ b = f a.
Proof.
  intros H. rewrite H. destruct (r bs) as [[a r1]|e]; [|discriminate]. cbn. intros [= <- <-]. eauto.
Qed.

Theorem old_load_body_of k bs m rest : load_body p u k bs = Ok (m, rest) ->
  old_load_body p u k bs = match bound_after false (lods_of m) with
                           | Some _ => Ok (old_of m, rest)
                           | None => Raise EUnboundLocal
                           end.
Proof.
  unfold load_body. intros H. do 15 split_get H. ret H.
  unfold old_load_body. do 3 (erewrite rbind_run by eassumption).
  erewrite rbind_run by eassumption. erewrite rbind_run by eassumption.
  erewrite rbind_run by (eapply via_run; [apply (via_n _ _ _ _ via_old_attrib)|eassumption]).
  do 3 (erewrite rbind_run by eassumption).
  erewrite rbind_run by (eapply old_vertices_of; eassumption).
  erewrite rbind_run by eassumption.
  erewrite rbind_run by (eapply via_run; [apply via_old_index|eassumption]).
  erewrite rbind_run by eassumption.
  erewrite rbind_run by (eapply via_run; [apply via_old_lods; eapply geoms_fresh; eassumption|eassumption]).
  pose proof (st_geoms (h_version a) (isSkinnedMesh k) false a12 mid12) as HS.
  rewrite G13 in HS. cbn [st_ok] in HS. unfold rbind at 1. rewrite HS.
  unfold lods_of. cbn [geoms]. destruct (bound_after false (flat_map lods a13)); reflexivity.
Qed.

Theorem new_load_body_of k bs mo rest : old_load_body p u k bs = Ok (mo, rest) -> length (vertices mo) <> 1%nat ->
  exists m, load_body p u k bs = Ok (m, rest) /\ mo = old_of m /\ starts_with_material m.
Proof.
  unfold old_load_body. intros H HL. do 14 split_get H.
  apply rbind_ok in H. destruct H as ([b gs2] & mid14 & G13 & H). ret H.
  cbn [vertices] in HL.
  apply (via_inv _ _ _ _ _ _ (via_n _ _ _ _ (via_old_attrib))) in G4. destruct G4 as (at' & G4 & ->).
  apply new_vertices_of in G8; [|exact HL].
  apply (via_inv _ _ _ _ _ _ (via_old_index _)) in G10. destruct G10 as (ix & G10 & ->).
  apply (via_inv _ _ _ _ _ _ (via_old_lods _ _ _ _ (geoms_fresh _ _ _ _ G2))) in G12. destruct G12 as (gs1 & G12 & ->).
  pose proof (st_geoms (h_version a) (isSkinnedMesh k) false gs1 mid12) as HS. rewrite G13 in HS.
  destruct (each_lod (load_materials p u (h_version a) (isSkinnedMesh k)) gs1 mid12) as [[gs rr]|e] eqn:G14; cbn [st_ok] in HS.
  2:{ exfalso. eapply HS. reflexivity. }
  destruct (bound_after false (flat_map lods gs)) as [b'|] eqn:EB; [|discriminate].
  injection HS as -> -> ->.
  eexists. split; [|split].
  - unfold load_body. do 15 (erewrite rbind_run by eassumption). reflexivity.
  - reflexivity.
  - unfold starts_with_material, lods_of. cbn [geoms]. apply bound_false. rewrite EB. discriminate.
Qed.

(** ** C58 *)
Theorem old_agrees k bs extra m : load p u k bs = Ok m ->
  (starts_with_material m -> old_load p u k (bs ++ extra) = Ok (old_of m)) /\
  (~ starts_with_material m -> old_load p u k (bs ++ extra) = Raise EUnboundLocal).
Proof.
  unfold load. intros H. apply bind_ok in H. destruct H as ([m' rest] & H1 & H2).
  destruct rest; [|discriminate]. injection H2 as ->.
  destruct (local_load_body p u k _ _ _ H1) as (used & -> & R & _). rewrite app_nil_r.
  pose proof (old_load_body_of k _ _ _ (R extra)) as E. unfold old_load, bind.
  rewrite E. unfold starts_with_material. rewrite <- bound_false.
  destruct (bound_after false (lods_of m)) as [b|]; split; intros HB; try reflexivity.
  - contradiction HB. discriminate.
  - contradiction HB. reflexivity.
Qed.

Theorem old_agrees_conv k bs mo : old_load p u k bs = Ok mo -> length (vertices mo) <> 1%nat ->
  exists used extra m, bs = used ++ extra /\ load p u k used = Ok m /\ mo = old_of m /\ starts_with_material m.
Proof.
  unfold old_load. intros H HL. apply bind_ok in H. destruct H as ([m' rest] & H1 & H2). injection H2 as ->.
  apply new_load_body_of in H1; [|exact HL]. destruct H1 as (m & H1 & -> & HS).
  destruct (local_load_body p u k _ _ _ H1) as (used & -> & R & _).
  exists used, rest, m. split; [reflexivity|]. split; [|auto].
  unfold load. specialize (R []). rewrite app_nil_r in R. rewrite R. reflexivity.
Qed.
End Read.

(** ** Writing *)
Definition listed {F} (m : mesh F) : mesh F :=
  {| m_kind := m_kind m; m_head := m_head m; m_u1 := m_u1 m; geomnum := geomnum m;
     geoms := geoms m; vertattribnum := vertattribnum m; vertex_attributes := vertex_attributes m;
     vertformat := vertformat m; vertstride := vertstride m; vertnum := vertnum m;
     vertices := vertices m; indexnum := indexnum m; index := Tuple (index_numbers (index m));
     m_u2 := m_u2 m |}.

Section Listed.
Context (p : plat).

Lemma index_read n bs i rest : is_long p n -> read_short p n bs = Ok (i, rest) ->
  exists cs, wall (write_short p) (index_numbers i) = (cs, None) /\ bs = cs ++ rest.
Proof.
  intros Hn H. destruct i as [v|l].
  - pose proof H as H0. apply read_short_ok in H; [|exact Hn]. destruct H as ((_ & -> & Hv) & _).
    unfold read_short in H0. split_get H0. apply rret_ok in H0. destruct H0 as (HU & ->).
    apply read_items_ok in G. destruct G as (_ & HL & HF & ->).
    destruct a as [|c [|]]; try discriminate HL. cbn in HU. injection HU as <-.
    inversion HF as [|? ? Hc]; subst. exists c. cbn. rewrite app_nil_r. split; [|reflexivity].
    unfold write_short. apply fits_ushort_iff in Hv. rewrite Hv. cbn.
    rewrite app_nil_r. rewrite <- Hc at 1. rewrite enc_dec. reflexivity.
  - apply read_short_ok in H; [|exact Hn]. destruct H as (_ & H & _). apply (H l). reflexivity.
Qed.

Lemma index_write n i : wf_index p n i ->
  exists cs, wall (write_short p) (index_numbers i) = (cs, None) /\
    forall rest, read_short p n (cs ++ rest) = Ok (i, rest).
Proof.
  destruct i as [v|l].
  - intros (_ & -> & Hv). exists (enc_uint p 2 v). cbn. unfold write_short.
    pose proof Hv as Hv'. apply fits_ushort_iff in Hv. rewrite Hv. cbn. rewrite app_nil_r. split; [reflexivity|].
    intros rest. unfold read_short.
    pose proof (read_items_run 2 [enc_uint p 2 v] rest) as R. cbn [flat_map] in R. rewrite app_nil_r in R.
    change (zlen [enc_uint p 2 v]) with 1 in R.
    erewrite rbind_run by (apply R; constructor; [apply enc_uint_length|constructor]).
    cbn. rewrite dec_enc by exact Hv'. reflexivity.
  - intros H. apply read_short_run in H. exact H.
Qed.

Theorem load_body_listed k bs m rest : load_body p raw k bs = Ok (m, rest) ->
  exists cs, export p raw (listed m) = (cs, None) /\ bs = cs ++ rest.
Proof.
  intros H. unfold load_body in H. do 15 split_get H. ret H.
  rd G (rt1_head p). rd G0 (rt1_byte p). rd G1 (rt1_long p).
  apply rt1_geoms0 in G2. destruct G2 as ((L2 & Q2) & cs2 & W2 & ->).
  rd G3 (rt1_long p). rd G4 (rt1_n _ _ _ (Z.to_nat a3) (rt1_vertattrib p)).
  rd G5 (rt1_long p). rd G6 (rt1_long p). rd G7 (rt1_long p).
  apply load_vertices_ok in G8. destruct G8 as (D1 & D2 & D3 & cs8 & W8 & ->).
  rd G9 (rt1_long p).
  apply index_read in G10; [|auto]. destruct G10 as (ci & WI & ->).
  apply rt1_u2 in G11. destruct G11 as (U1 & cu & WU & ->).
  eapply rt1_geoms in G12; [|exact Q2|exact G13].
  destruct G12 as (L3 & R3 & E3 & cg & WG & ->).
  eexists. split.
  - unfold export. cbn [listed m_kind m_head m_u1 geomnum geoms vertattribnum vertex_attributes
      vertformat vertstride vertnum vertices indexnum index m_u2 export_index].
    rewrite E3, WU, WI, WG. wdone.
  - rewrite <- !app_assoc. reflexivity.
Qed.

Ltac wr L Hyp :=
  let cs := fresh "cs" in let W := fresh "W" in let R := fresh "R" in
  destruct (L _ Hyp) as (cs & W & R).
Theorem export_listed k m : raw_wf p m -> m_kind m = k ->
  exists cs, export p raw (listed m) = (cs, None) /\
    forall rest, load_body p raw k (cs ++ rest) = Ok (m, rest).
Proof.
  intros (Hw & Ha) Hk. destruct m as [k' h u1 gn gs van vas vf vst vn vs inn ix u2].
  cbn in Hk. subst k'.
  red in Hw. cbn -[is_long] in Hw.
  destruct Hw as (H1 & H2 & (H3 & H3') & H4 & (H5 & H5') & H6 & H7 & H8 & H9 & H10 & H11 & H12 & H13).
  destruct Ha as (Ha & Hb). cbn in Ha, Hb.
  pose proof (proj2 (raw_geom_iff p _ _ _ _) (conj H4 Ha)) as HG.
  wr (rt2_head p) H1. wr (rt2_byte p) H2. wr (rt2_long p) H3.
  destruct (rt2_geoms0 p gs) as (cg0 & WG0 & RG0).
  { eapply Forall_impl; [|exact HG]. intros g (Hg & _). exact Hg. }
  rewrite H3' in RG0.
  wr (rt2_long p) H5.
  destruct (rt2_n _ _ _ (Z.to_nat van) (rt2_vertattrib p) vas (conj H5' H6)) as (cva & WVA & RVA).
  wr (rt2_long p) H7. wr (rt2_long p) H8. wr (rt2_long p) H9.
  destruct (load_vertices_run p _ _ _ _ H10 H11 Hb) as (cv & WV & RV).
  destruct (index_write inn ix H12) as (ci & WI & RI).
  destruct H12 as (H12 & H12'). wr (rt2_long p) H12.
  assert (exists cs, (if isSkinnedMesh k then wnil else write_long p u2) = (cs, None) /\
     forall rest, (if isSkinnedMesh k then rret 0 else read_long p) (cs ++ rest) = Ok (u2, rest)) as HU.
  { destruct (isSkinnedMesh k).
    - subst u2. exists []. split; reflexivity.
    - wr (rt2_long p) H13. eauto. }
  destruct HU as (cu & WU & RU).
  destruct (rt2_geoms p _ _ _ _ HG) as (c1 & c2 & WN & WM & RN & RM).
  eexists. split.
  - unfold export. cbn [listed m_kind m_head m_u1 geomnum geoms vertattribnum vertex_attributes
        vertformat vertstride vertnum vertices indexnum index m_u2 export_index].
    rewrite WU. wdone.
  - intros rest. rewrite <- !app_assoc. unfold load_body.
    do 15 (erewrite rbind_run by eauto). reflexivity.
Qed.
End Listed.

(** *** The old serialiser writes what bf2mesh would write for the flattened mesh *)
Section Save.
Context {F : Type} (p : plat) (pk : F -> Z).

Lemma pack_head_eq h : wf_head p h ->
  pack_longs p [h_u1 h; h_version h; h_u3 h; h_u4 h; h_u5 h] = export_head p h.
Proof.
  intros (H1 & H2 & H3 & H4 & H5). unfold pack_longs, export_head, write_long. cbn [forallb flat_map].
  rewrite <- fits_long_iff in *. rewrite H1, H2, H3, H4, H5. cbn [andb wput wseq].
  rewrite app_nil_r. reflexivity.
Qed.

Lemma signed16_in z : is_ushort z -> in_signed 2 (signed16 z) = true /\ of_signed 2 (signed16 z) = z.
Proof.
  intros H. rewrite <- signed16_eq. split.
  - unfold in_signed. pose proof (to_signed_range 2 z ltac:(lia) H) as R.
    apply andb_true_iff. rewrite Z.leb_le, Z.ltb_lt. exact R.
  - apply of_to_signed; [lia|exact H].
Qed.

Lemma pack_attrib_eq a : wf_vertattrib a ->
  pack_sshorts p [flag (signed_attrib a); offset (signed_attrib a); vartype (signed_attrib a); usage (signed_attrib a)]
  = export_vertattrib p a.
Proof.
  intros (H1 & H2 & H3 & H4). unfold pack_sshorts, export_vertattrib, write_short.
  cbn [forallb flat_map signed_attrib flag offset vartype usage].
  destruct (signed16_in _ H1) as (-> & ->). destruct (signed16_in _ H2) as (-> & ->).
  destruct (signed16_in _ H3) as (-> & ->). destruct (signed16_in _ H4) as (-> & ->).
  rewrite <- fits_ushort_iff in *. rewrite H1, H2, H3, H4. cbn [andb wput wseq]. rewrite app_nil_r. reflexivity.
Qed.

Lemma wall_seq {A} (w : A -> writer) (l : list A) : forall pre,
  wall (fun i => match nth_error (pre ++ l) i with Some a => w a | None => wraise EIndex end) (seq (length pre) (length l))
  = wall w l.
Proof.
  induction l as [|a t IH]; intros pre; [reflexivity|]. cbn [length seq wall].
  rewrite nth_error_app2, Nat.sub_diag by lia. cbn [nth_error]. f_equal.
  specialize (IH (pre ++ [a])). rewrite <- app_assoc, app_length, Nat.add_1_r in IH. exact IH.
Qed.
Lemma wall_seq0 {A} (w : A -> writer) (l : list A) :
  wall (fun i => match nth_error l i with Some a => w a | None => wraise EIndex end) (seq 0 (length l)) = wall w l.
Proof. apply (wall_seq w l []). Qed.

Lemma wall_const {A B} (w : writer) (l : list A) (l' : list B) : length l = length l' ->
  wall (fun _ => w) l = wall (fun _ => w) l'.
Proof. revert l'. induction l as [|a t IH]; intros [|b t'] H; try discriminate H; [reflexivity|]. cbn. f_equal. apply IH. now injection H. Qed.
Lemma wall_repeat {A} (w : A -> writer) x n : wall w (repeat x n) = wall (fun _ => w x) (seq 0 n).
Proof.
  transitivity (wall (fun _ => w x) (repeat x n)).
  - induction n; cbn; congruence.
  - apply wall_const. rewrite repeat_length, seq_length. reflexivity.
Qed.

Lemma pack_matrix_eq m : wf_matrix m -> pack_matrix p pk m = write_matrix4 p pk m.
Proof.
  intros (H1 & H2). destruct m as [|r0 [|r1 [|r2 [|r3 [|]]]]]; try discriminate H1.
  inversion H2 as [|? ? L0 H3]; subst. inversion H3 as [|? ? L1 H4]; subst.
  inversion H4 as [|? ? L2 H5]; subst. inversion H5 as [|? ? L3 _]; subst.
  unfold pack_matrix, write_matrix4, write_row4. cbn [concat wall seq nth_error].
  rewrite !app_length, L0, L1, L2, L3. cbn [Nat.eqb Nat.add length]. cbn [wput wseq wnil].
  rewrite !flat_map_app, !app_nil_r. reflexivity.
Qed.

Lemma floats_eq l : wput (flat_map (enc_float p pk) l) = wall (write_float p pk) l.
Proof. induction l as [|x t IH]; [reflexivity|]. cbn [wall flat_map]. rewrite <- IH. reflexivity. Qed.

Lemma ushorts_eq l : Forall is_ushort l -> pack_ushorts p l = wall (write_short p) l.
Proof.
  intros H. rewrite wall_write_short by exact H. unfold pack_ushorts.
  assert (forallb fits_ushort l = true) as ->; [|reflexivity].
  apply forallb_forall. intros x Hx. apply fits_ushort_iff. rewrite Forall_forall in H. auto.
Qed.

Lemma old_bone_eq b : wf_bone p b -> old_write_bone p pk b = export_bone p pk b.
Proof. intros (_ & H). unfold old_write_bone, export_bone. rewrite pack_matrix_eq by exact H. reflexivity. Qed.
Lemma old_rig_eq r : wf_rig p r -> old_write_rig p pk r = export_rig p pk r.
Proof.
  intros (_ & H). unfold old_write_rig, export_rig. f_equal. apply wall_ext.
  eapply Forall_impl; [|exact H]. apply old_bone_eq.
Qed.

Lemma old_nodes_eq v b s l : wf_lod p v b s l ->
  old_write_nodes p pk v b s (with_nodes last_only l) = export_nodes p pk v b s (with_nodes all_last l).
Proof.
  intros (_ & _ & _ & H & _). unfold old_write_nodes, export_nodes, with_nodes.
  cbn [lod_min lod_max pivot rignum rigs nodenum nodes]. do 3 f_equal. destruct s.
  - f_equal. apply wall_ext. destruct H as (_ & H & _). eapply Forall_impl; [|exact H]. apply old_rig_eq.
  - f_equal. destruct b; [reflexivity|]. destruct H as (_ & _ & _ & (_ & HL) & HM).
    destruct (nodes l) as [|x t]; cbn [last_only all_last].
    + cbn [length] in HL. rewrite <- HL. reflexivity.
    + rewrite wall_repeat. rewrite <- HL. apply wall_ext. apply Forall_forall. intros _ _.
      apply pack_matrix_eq. rewrite Forall_forall in HM. apply HM. apply last_in.
Qed.

Lemma old_save_eq m : wf p m -> old_save p pk (old_of m) = export p pk (listed (nodes_flattened m)).
Proof.
  intros (H1 & H2 & (H3 & H3') & H4 & (H5 & H5') & H6 & H7 & H8 & H9 & H10 & H11 & H12 & H13).
  unfold old_save, export, old_of, listed, nodes_flattened.
  cbn [m_kind m_head m_u1 geomnum geoms vertattribnum vertex_attributes
        vertformat vertstride vertnum vertices indexnum index m_u2 export_index].
  rewrite pack_head_eq by exact H1. rewrite floats_eq.
  rewrite ushorts_eq.
  2:{ destruct H12 as (_ & H12). destruct (index m); cbn.
      - destruct H12 as (_ & H12). constructor; [exact H12|constructor].
      - apply H12. }
  rewrite <- H3', <- H5'.
  assert (length (on_lods (with_nodes last_only) (geoms m)) = length (geoms m)) as EL
    by (unfold on_lods; apply map_length). rewrite <- EL.
  assert (forall gs : list (geom F), wall (fun i => match nth_error gs i with
                 | Some g => write_long p (lodnum g) | None => wraise EIndex end) (seq 0 (length gs)) =
          wall (export_geom p) gs) as EG by (intros; apply (wall_seq0 (export_geom p))).
  rewrite EG.
  assert (wall (export_geom p) (on_lods (with_nodes last_only) (geoms m)) =
          wall (export_geom p) (on_lods (with_nodes all_last) (geoms m))) as ->.
  { unfold on_lods. rewrite !wall_map. reflexivity. }
  rewrite <- (map_length signed_attrib (vertex_attributes m)).
  rewrite (wall_seq0 (fun a => pack_sshorts p [flag a; offset a; vartype a; usage a])).
  rewrite wall_map. rewrite (wall_ext _ (export_vertattrib p)).
  2:{ eapply Forall_impl; [|exact H6]. apply pack_attrib_eq. }
  do 13 f_equal. f_equal.
  - unfold on_lods. rewrite !wall_map. cbn [lods]. apply wall_ext. eapply Forall_impl; [|exact H4].
    intros g (_ & Hg). rewrite !wall_map. apply wall_ext. eapply Forall_impl; [|exact Hg].
    intros l Hl. apply old_nodes_eq. exact Hl.
  - unfold on_lods. rewrite !wall_map. cbn [lods]. apply wall_ext. apply Forall_forall. intros g _.
    rewrite !wall_map. apply wall_ext. apply Forall_forall. intros l _. reflexivity.
Qed.
End Save.

Section Flat.
Context {F : Type}.
Lemma all_last_length {A} (l : list A) : length (all_last l) = length l.
Proof. destruct l; [reflexivity|]. apply repeat_length. Qed.
Lemma all_last_in {A} (l : list A) x : In x (all_last l) -> In x l.
Proof.
  destruct l as [|a t]; [auto|]. unfold all_last. intros H. apply repeat_spec in H. subst x. apply last_in.
Qed.
Lemma wf_flat p (m : mesh F) : wf p m -> wf p (nodes_flattened m).
Proof.
  intros H. unfold wf, nodes_flattened in *.
  cbn [m_kind m_head m_u1 geomnum geoms vertattribnum vertex_attributes
        vertformat vertstride vertnum vertices indexnum index m_u2].
  destruct H as (H1 & H2 & (H3 & H3') & H4 & H). split; [exact H1|]. split; [exact H2|].
  split; [split; [exact H3|unfold on_lods; rewrite map_length; exact H3']|]. split; [|exact H].
  unfold on_lods. apply Forall_map. eapply Forall_impl; [|exact H4]. intros g ((G1 & G2) & G3).
  split; cbn [lodnum lods]; [split; [exact G1|rewrite map_length; exact G2]|].
  apply Forall_map. eapply Forall_impl; [|exact G3]. intros l (L1 & L2 & L3 & L4 & L5).
  unfold wf_lod, with_nodes. cbn [lod_min lod_max pivot rignum rigs nodenum nodes matnum materials].
  split; [exact L1|]. split; [exact L2|]. split; [exact L3|]. split; [|exact L5].
  destruct (isSkinnedMesh (m_kind m)).
  - destruct L4 as (X1 & X2 & X3 & ->). auto.
  - destruct L4 as (X1 & X2 & X3 & X4). split; [exact X1|]. split; [exact X2|]. split; [exact X3|].
    destruct (isBundledMesh (m_kind m)); [rewrite X4; reflexivity|]. destruct X4 as ((X4 & X5) & X6).
    split; [split; [exact X4|rewrite all_last_length; exact X5]|].
    apply Forall_forall. intros x Hx. apply all_last_in in Hx. rewrite Forall_forall in X6. auto.
Qed.
Lemma all_flat (P : F -> Prop) m : mesh_all P m -> mesh_all P (nodes_flattened m).
Proof.
  intros (H1 & H2). split; [|exact H2]. cbn [geoms nodes_flattened]. unfold on_lods.
  apply Forall_map. eapply Forall_impl; [|exact H1]. intros g Hg. cbn [lods].
  apply Forall_map. eapply Forall_impl; [|exact Hg]. intros l (L1 & L2 & L3 & L4 & L5 & L6).
  unfold lod_all, with_nodes. cbn [lod_min lod_max pivot rignum rigs nodenum nodes matnum materials].
  repeat (split; [assumption|]). split; [|assumption].
  apply Forall_forall. intros x Hx. apply all_last_in in Hx. rewrite Forall_forall in L5. auto.
Qed.

Lemma map_inj_id {A} (f : A -> A) l : map f l = l <-> Forall (fun x => f x = x) l.
Proof.
  split.
  - induction l as [|a t IH]; intros H; constructor; cbn in H; injection H; auto.
  - induction 1 as [|a t Ha Ht IH]; [reflexivity|]. cbn. congruence.
Qed.
Lemma all_last_id {A} (l : list A) : all_last l = l <-> (forall a b, In a l -> In b l -> a = b).
Proof.
  split.
  - destruct l as [|x t]; [intros _ a b []|]. intros H a b Ha Hb. rewrite <- H in Ha, Hb.
    unfold all_last in Ha, Hb. apply repeat_spec in Ha. apply repeat_spec in Hb. congruence.
  - intros H. destruct l as [|x t]; [reflexivity|].
    assert (forall a, In a (x :: t) -> a = last t x) as E.
    { intros a Ha. apply H; [exact Ha|]. apply all_last_in. cbn. left. reflexivity. }
    unfold all_last. clear H. revert E. generalize (last t x) as z. generalize (x :: t) as l. clear.
    intros l z E. induction l as [|a l IH]; [reflexivity|]. cbn. rewrite IH by (intros; apply E; right; assumption).
    f_equal. symmetry. apply E. left. reflexivity.
Qed.
Lemma flat_id (m : mesh F) : nodes_flattened m = m <-> nodes_alike m.
Proof.
  assert (nodes_flattened m = m <-> on_lods (with_nodes all_last) (geoms m) = geoms m) as ->.
  { split; [intros H; apply (f_equal geoms) in H; exact H|]. intros H. unfold nodes_flattened. rewrite H. destruct m; reflexivity. }
  unfold on_lods. rewrite map_inj_id. unfold nodes_alike, lods_of. rewrite Forall_flat_map.
  split; intros H; eapply Forall_impl; try exact H; intros g Hg; cbn beta in *.
  - assert (map (with_nodes all_last) (lods g) = lods g) as E by (destruct g; injection Hg; auto).
    rewrite map_inj_id in E. eapply Forall_impl; [|exact E]. intros l Hl.
    apply all_last_id. apply (f_equal nodes) in Hl. exact Hl.
  - destruct g as [n ls]. cbn [lodnum lods] in *. f_equal. rewrite map_inj_id.
    eapply Forall_impl; [|exact Hg]. intros l Hl. rewrite <- all_last_id in Hl.
    unfold with_nodes. rewrite Hl. destruct l; reflexivity.
Qed.
End Flat.

Lemma map_flat {F G} (f : F -> G) m : mesh_map f (nodes_flattened m) = nodes_flattened (mesh_map f m).
Proof.
  unfold mesh_map, nodes_flattened.
  cbn [m_kind m_head m_u1 geomnum geoms vertattribnum vertex_attributes
        vertformat vertstride vertnum vertices indexnum index m_u2]. f_equal.
  unfold on_lods. rewrite !map_map. apply map_ext. intros g. unfold geom_map. cbn [lodnum lods]. f_equal.
  rewrite !map_map. apply map_ext. intros l. unfold lod_map, with_nodes.
  cbn [lod_min lod_max pivot rignum rigs nodenum nodes matnum materials]. f_equal.
  unfold all_last. destruct (nodes l) as [|x t]; [reflexivity|]. cbn [map length].
  rewrite map_length.
  assert (matrix_map f (last t x) = last (map (matrix_map f) t) (matrix_map f x)) as <-.
  { clear. revert x. induction t as [|y t IH]; intros x; [reflexivity|]. cbn [map].
    destruct t; [reflexivity|]. exact (IH x). }
  cbn [repeat map]. f_equal. clear. induction t as [|y t IH]; [reflexivity|].
  generalize (last (y :: t) x). intros z. cbn [length repeat map]. f_equal.
  generalize (length t). clear. induction n; cbn; congruence.
Qed.

(** ** C59 *)
Theorem old_resave p k bs m : load p unpack_f k bs = Ok m ->
  exists cs, old_save p pack_f (old_of m) = (cs, None) /\ length cs = length bs /\
    load p unpack_f k cs = Ok (nodes_flattened m).
Proof.
  intros H. pose proof (loaded_wf p _ _ _ _ H) as (W & K).
  pose proof H as H0. apply load_inv in H0. destruct H0 as (mr & H0 & E).
  assert (load_body p raw k bs = Ok (mr, [])) as HB.
  { unfold load in H0. apply bind_ok in H0. destruct H0 as ([m' rest] & B1 & B2).
    destruct rest; [injection B2 as ->; exact B1|discriminate]. }
  pose proof (load_raw_ok p k bs mr H0) as ((Wr & Br) & Kr & _).
  rewrite old_save_eq by exact W. rewrite export_via.
  change (mesh_map pack_f (listed (nodes_flattened m))) with (listed (mesh_map pack_f (nodes_flattened m))).
  rewrite map_flat.
  assert (raw_wf p (nodes_flattened (mesh_map pack_f m))) as RW.
  { split; [apply wf_flat; rewrite wf_map; exact W|]. apply all_flat. rewrite mesh_all_map.
    apply mesh_all_true. apply pack_range. }
  destruct (export_listed p k _ RW) as (cs & E1 & R); [exact K|].
  exists cs. split; [exact E1|].
  assert (load p unpack_f k cs = Ok (nodes_flattened m)) as HL.
  { rewrite load_via. unfold load. specialize (R []). rewrite app_nil_r in R. rewrite R. cbn [bind rmap]. f_equal.
    assert (mesh_map (fun x => unpack_f (pack_f x)) m = m) as EM.
    { rewrite E, mesh_map_map. apply (mesh_map_ext is_bits32); [|exact Br].
      intros x Hx. apply unpack_pack_unpack. exact Hx. }
    rewrite map_flat, mesh_map_map, EM. reflexivity. }
  split; [|exact HL].
  apply load_size in HL. apply load_size in H. unfold zlen in *.
  enough (file_size (Z.of_nat (long_bytes p)) (nodes_flattened m) = file_size (Z.of_nat (long_bytes p)) m) as ES by lia.
  clear. unfold file_size, head_size. cbn [nodes_flattened m_kind m_head m_u1 geomnum geoms vertattribnum vertex_attributes
        vertformat vertstride vertnum vertices indexnum index m_u2]. unfold on_lods.
  rewrite !sumZ_map. cbn [lods]. rewrite zlen_map. f_equal; [f_equal|].
  - apply sumZ_ext. intros g _. rewrite sumZ_map. apply sumZ_ext. intros l _.
    unfold nodes_size, with_nodes. cbn [rigs nodes]. unfold zlen. rewrite all_last_length. reflexivity.
  - apply sumZ_ext. intros g _. rewrite sumZ_map. apply sumZ_ext. intros l _. reflexivity.
Qed.

Theorem old_resave_exact p k bs m : load p unpack_f k bs = Ok m ->
  (forall mr, load p raw k bs = Ok mr -> mesh_all (fun b => ~ snan b) mr) ->
  old_save p pack_f (old_of m) = (bs, None) <-> nodes_alike m.
Proof.
  intros H HS. rewrite <- flat_id. split.
  - intros E. destruct (old_resave p k bs m H) as (cs & E1 & _ & L). rewrite E in E1. injection E1 as <-.
    rewrite H in L. injection L as L. symmetry. exact L.
  - intros HF. pose proof (loaded_wf p _ _ _ _ H) as (W & _).
    rewrite old_save_eq by exact W. rewrite HF, export_via.
    apply load_inv in H. destruct H as (mr & H & ->). specialize (HS _ H).
    pose proof (load_raw_ok p k bs mr H) as ((Wr & Br) & _).
    assert (load_body p raw k bs = Ok (mr, [])) as HB.
    { unfold load in H. apply bind_ok in H. destruct H as ([m' rest] & B1 & B2).
      destruct rest; [injection B2 as ->; exact B1|discriminate]. }
    apply load_body_listed in HB. destruct HB as (cs & E & ->). rewrite app_nil_r.
    change (listed (mesh_map unpack_f mr)) with (mesh_map unpack_f (listed mr)). rewrite mesh_map_map.
    rewrite (mesh_map_ext (fun b => is_bits32 b /\ ~ snan b) _ (fun x => x)).
    + rewrite mesh_map_id. exact E.
    + intros x (Hx & Hx'). apply pack_unpack; assumption.
    + assert (mesh_all (fun b => is_bits32 b /\ ~ snan b) mr) as X by (apply mesh_all_and; auto). exact X.
Qed.

(** ** Through the file system *)
Section OldFile.
Context (p : plat).
Notation old_load_mesh := (old_load_mesh p unpack_f).
Notation old_save_mesh := (old_save_mesh p pack_f).
Notation new_visible_mesh := (new_visible_mesh p unpack_f).

Lemma old_kind fn : isCollisionMesh (kind_of_name fn) = false ->
  {| isSkinnedMesh := ext_is fn ".skinnedmesh"; isBundledMesh := ext_is fn ".bundledmesh";
     isStaticMesh := ext_is fn ".staticmesh"; isCollisionMesh := false |} = kind_of_name fn.
Proof. unfold kind_of_name. cbn. intros ->. reflexivity. Qed.

Theorem old_open f fn kw o : new_visible_mesh f (Some fn) kw = Ok o -> isCollisionMesh (m_kind (o_mesh o)) = false ->
  (starts_with_material (o_mesh o) -> old_load_mesh f fn = Ok (old_of (o_mesh o))) /\
  (~ starts_with_material (o_mesh o) -> old_load_mesh f fn = Raise EUnboundLocal).
Proof.
  intros H HC. apply new_ok in H. destruct H as (fn' & file & E & N & O & LD & _). injection E as <-.
  rewrite (load_kind _ _ _ _ _ LD) in HC. unfold Old.old_load_mesh. rewrite O, (old_kind _ HC). cbn [bind].
  destruct (old_agrees p unpack_f _ _ [] _ LD) as (X & Y). rewrite app_nil_r in X, Y. split; assumption.
Qed.

Theorem old_open_save f fn kw o : tree f -> In slash fn -> new_visible_mesh f (Some fn) kw = Ok o ->
  isCollisionMesh (m_kind (o_mesh o)) = false -> starts_with_material (o_mesh o) ->
  exists mo f' o', old_load_mesh f fn = Ok mo /\ old_save_mesh f mo fn = (f', None) /\
    new_visible_mesh f' (Some fn) kw = Ok o' /\ o_mesh o' = nodes_flattened (o_mesh o) /\
    (forall q, path_eqb q (resolve fn) = false -> f' q = f q).
Proof.
  intros T HS H HC HM. destruct (old_open _ _ _ _ H HC) as (OL & _). specialize (OL HM).
  apply new_ok in H. destruct H as (fn' & file & E & N & O & LD & _). injection E as <-.
  apply open_rb_ok in O. destruct O as (_ & NS & LF).
  assert (exists_ f (dirname fn) = true) as ED.
  { apply exists_spec. split.
    + intros X. unfold dirname in X. destruct (path_split fn) as (hd, tl) eqn:E. destruct (path_split_spec _ _ _ E) as (P1 & _ & _ & P4 & _). apply P1. rewrite <- (P4 X). exact HS.
    + destruct (lookup_above_cases _ _ (dirname_above fn)) as [X|(NR & X)]; [rewrite X; eauto|]. exists Dir.
      apply (tree_above f T (parent (resolve fn))); [|exact X]. eapply T; [exact NR|exact LF]. }
  assert (snd (resolve fn) <> []) as NR by (intros X; unfold lookup in LF; rewrite X in LF; discriminate).
  destruct (old_resave p _ _ _ LD) as (cs & S & _ & LD'). rewrite OL.
  eexists. eexists. eexists. split; [reflexivity|].
  split; [unfold Old.old_save_mesh; rewrite ED, (open_wb_file _ _ _ N NS LF), S; reflexivity|].
  split; [|split; [|]].
  - unfold Obj.new_visible_mesh, first_enter, bf2mesh_init. destruct fn as [|c t] eqn:E; [easy|]. rewrite <- E in *. cbn [b_filename b_kind].
    erewrite open_rb_file; [|exact N|exact NS|rewrite lookup_in by exact NR; apply update_same]. cbn [bind]. rewrite LD'. reflexivity.
  - reflexivity.
  - intros q Hq. unfold update. rewrite !Hq. reflexivity.
Qed.

Theorem old_bare_name {F} (pk : F -> Z) f m fn : ~ In slash fn -> Old.old_save_mesh p pk f m fn = (f, Some EFileNotFound).
Proof. intros H. unfold Old.old_save_mesh, dirname. rewrite (path_split_bare _ H). reflexivity. Qed.
End OldFile.
