(** Threads on one mesh object: proofs. *)
From Coq Require Import ZArith List Bool Arith Lia.
From Verif Require Import PyBase Struct Mesh Arith Edit Spec SpecEdit DivFacts TravFacts VertFacts LayoutFacts Thread SpecThread.
Import ListNotations.
Open Scope nat_scope.

Section Facts.
Context {F : Type} (A : arith F).
Implicit Types (m : mesh F).

Lemma set_vertices_id m : set_vertices m (vertices m) = m.
Proof. now destruct m. Qed.
Lemma call_vertex_set m nv c : call_vertex A (set_vertices m nv) c = call_vertex A m c.
Proof. destruct c as [off|[|a [|b [|d r]]]]; reflexivity. Qed.

(** A fitting call maps vertices to vertices of the same size. *)
Lemma fitting_ok vs m c : fitting_call A vs m c -> forall v, length v = vs -> exists v', call_vertex A m c v = Ok v' /\ length v' = vs.
Proof.
  destruct c as [off|r]; intros H v Hv.
  - destruct H as (Ho & Hp). destruct (translate_vertex_ok A m off vs v Ho Hv Hp) as (v' & E). exists v'. split; [exact E|].
    now destruct (translate_vertex_spec A m off vs v v' Ho Hv E).
  - destruct H as ((Ho & Hr & Ha) & y & p & q & more & -> & Ht). cbn [call_vertex]. unfold rotate_vertex.
    destruct Ho as (Hf & Ho). destruct (rotate_fold A m (f_radians A y) (f_radians A p) (f_radians A q) vs) with (l := vertex_attributes m) (v := v) as (v' & E & L & _); auto.
    + now apply can_turn_trig.
    + eauto.
Qed.
Lemma fitting_start vs m c : fitting_call A vs m c -> thread_start m c = TRun (mats m) [].
Proof. destruct c as [off|r]; [reflexivity|]. intros (_ & y & p & q & more & -> & _). reflexivity. Qed.

Lemma fold_res_app {B C} (f : C -> B -> res C) l1 l2 a : fold_res f a (l1 ++ l2) = bind (fold_res f a l1) (fun b => fold_res f b l2).
Proof. revert a. induction l1 as [|x l IH]; intros a; cbn; [reflexivity|]. destruct (f a x); cbn; auto. Qed.
Lemma block_sub {B} k (l : list B) i j n : j < n -> block k (firstn (n * k) (skipn (i * k) l)) j = block k l (i + j).
Proof.
  intros H. unfold block. rewrite skipn_firstn_comm', firstn_firstn, skipn_skipn'. f_equal; [nia|]. f_equal. lia.
Qed.

Section Run.
Context (vs : nat) (m0 : mesh F) (cs : nat -> move_call F).
Hypothesis (Hs : vertex_size m0 = Ok (Z.of_nat vs)) (Hv : 0 < vs) (HT : tiled_vertices vs m0) (Hc : forall i, fitting_call A vs m0 (cs i)).
Notation blk := (block vs).
Let n := length (vertices m0) / vs.
Notation rng l := (map (fun mt : mat F => (vstart mt, vnum mt)) l).

Lemma n_tiles : length (vertices m0) = n * vs /\ tiles 0 (rng (mats m0)) (Z.of_nat n).
Proof.
  destruct HT as (k & E & T). pose proof (tiles_le _ _ _ T) as Hk. unfold zlen in E.
  assert (n = Z.to_nat k) as ->; [|split; [nia|now rewrite Z2Nat.id]]. unfold n. symmetry. apply (Nat.div_unique _ _ _ 0); nia.
Qed.

(** The threads that have finished, in some order, have moved vertex [j] to [v]. *)
Definition hist (ts : nat -> tstate F) (w : list nat) (j : nat) (v : list F) : Prop :=
  exists order, NoDup (order ++ w) /\ (forall i, In i (order ++ w) -> ts i = TDone) /\ moved_by A m0 cs (order ++ w) (blk (vertices m0) j) = Ok v.

Definition shared_ok (ts : nat -> tstate F) (m : mesh F) : Prop :=
  exists nv, m = set_vertices m0 nv /\ length nv = length (vertices m0) /\
  ((nv = vertices m0 /\ forall i, ts i <> TDone) \/ exists w, ts w = TDone /\ forall j, j < n -> hist ts [w] j (blk nv j)).
Definition thread_ok (ts : nat -> tstate F) (i : nat) : Prop :=
  match ts i with
  | TRaised _ => False
  | TDone => True
  | TRun todo new => exists r, new = concat r /\ Forall (fun v => length v = vs) r /\ (forall mt, In mt todo -> In mt (mats m0)) /\
      tiles (Z.of_nat (length r)) (rng todo) (Z.of_nat n) /\
      forall j v, nth_error r j = Some v -> exists u, hist ts [] j u /\ call_vertex A m0 (cs i) u = Ok v
  end.

Lemma moved_length order : forall v v', length v = vs -> moved_by A m0 cs order v = Ok v' -> length v' = vs.
Proof.
  induction order as [|i l IH]; intros v v' Lv H; cbn in H; [now injection H as <-|].
  destruct (fitting_ok vs m0 (cs i) (Hc i) v Lv) as (u & E & Lu). rewrite E in H. cbn in H. eapply IH; eauto.
Qed.
Lemma hist_weaken ts ts' w j v : (forall i, ts i = TDone -> ts' i = TDone) -> hist ts w j v -> hist ts' w j v.
Proof. intros H (o & N & D & E). exists o. split; [exact N|]. split; auto. Qed.
Lemma hist_nil ts w j v : hist ts w j v -> hist ts [] j v.
Proof. intros (o & N & D & E). exists (o ++ w). rewrite !app_nil_r. auto. Qed.
Lemma shared_hist ts m j : shared_ok ts m -> j < n -> hist ts [] j (blk (vertices m) j).
Proof.
  intros (nv & -> & L & [(-> & _)|(w & _ & H)]) Hj.
  - exists []. repeat split; [constructor|intros i []].
  - eapply hist_nil. now apply H.
Qed.

Lemma step_ok m ts i m' ts' : shared_ok ts m -> (forall k, thread_ok ts k) -> threads_step A cs (m, ts) i = (m', ts') ->
  shared_ok ts' m' /\ forall k, thread_ok ts' k.
Proof.
  intros SO TO E. unfold threads_step in E. pose proof (TO i) as Ti. unfold thread_ok in Ti.
  destruct (ts i) as [[|mt todo] new| |e] eqn:Ei; [| | |contradiction].
  - (* the assignment *)
    cbn [thread_step] in E. injection E as <- <-. destruct Ti as (r & -> & Lr & _ & T & Hr). cbn in T.
    assert (length r = n) as Ln by lia. clear T.
    set (ts' := fun j => if j =? i then TDone else ts j).
    assert (forall k, ts k = TDone -> ts' k = TDone) as Mono by (intros k Hk; unfold ts'; now destruct (k =? i)).
    destruct SO as (nv & -> & L & _). destruct n_tiles as (Ln0 & _).
    split.
    + exists (concat r). split; [reflexivity|]. split; [rewrite (concat_length_const vs) by exact Lr; congruence|]. right. exists i.
      split; [unfold ts'; now rewrite Nat.eqb_refl|]. intros j Hj.
      destruct (nth_error r j) as [v|] eqn:Ej; [|apply nth_error_None in Ej; lia].
      destruct (Hr j v Ej) as (u & (o & N & D & Ho) & Hu). rewrite app_nil_r in *.
      assert (Some (blk (concat r) j) = Some v) as Q by (rewrite block_concat by (auto; lia); exact Ej). injection Q as ->.
      exists o. split.
      * rewrite <- (rev_involutive (o ++ [i])). apply NoDup_rev. rewrite rev_app_distr. cbn. constructor; [|now apply NoDup_rev].
        rewrite <- in_rev. intros I. apply D in I. congruence.
      * split.
        -- intros k Hk. apply in_app_or in Hk. destruct Hk as [Hk|[<-|[]]]; [now apply Mono, D|]. unfold ts'. now rewrite Nat.eqb_refl.
        -- unfold moved_by in *. rewrite fold_res_app, Ho. cbn. now rewrite Hu.
    + intros k. unfold thread_ok, ts'. destruct (Nat.eqb_spec k i) as [->|Nk]; [exact I|]. specialize (TO k). unfold thread_ok in TO.
      destruct (ts k) as [td nw| |]; auto. destruct TO as (r' & E1 & E2 & E3 & E4 & E5). exists r'. repeat split; auto.
      intros j v Hj. destruct (E5 j v Hj) as (u & Hu & Cu). exists u. split; [|exact Cu]. eapply hist_weaken; [|exact Hu]. exact Mono.
  - (* a material *)
    destruct Ti as (r & -> & Lr & Hin & T & Hr). cbn [map tiles] in T. destruct T as (Tv & Tn & T).
    pose proof SO as (nv & -> & L & _). pose proof (tiled_vin vs m0 HT) as HV. rewrite Forall_forall in HV.
    assert (mat_vin vs (set_vertices m0 nv) mt) as Hm.
    { specialize (HV mt (Hin mt (or_introl eq_refl))). unfold mat_vin, zlen in *. cbn [vertices set_vertices]. now rewrite L. }
    pose proof (tiles_le _ _ _ T) as Tl.
    cbn [thread_step] in E. rewrite (mat_loop vs) in E by (auto; exact Hs). rewrite call_vertex_set in E.
    destruct (map_res_forall (call_vertex A m0 (cs i)) (fun v => length v = vs) (mat_vertices vs (set_vertices m0 nv) mt)) as (r' & Er & Lr' & Fr').
    { eapply Forall_impl; [|exact (mat_vertices_length vs _ mt Hm)]. cbn. intros v Lv. exact (fitting_ok vs m0 (cs i) (Hc i) v Lv). }
    rewrite Er in E. cbn [bind] in E. injection E as <- <-.
    set (ts' := fun j => if j =? i then TRun todo (concat r ++ concat r') else ts j).
    assert (forall k, ts k = TDone -> ts' k = TDone) as Mono by (intros k Hk; unfold ts'; destruct (Nat.eqb_spec k i) as [->|]; [congruence|exact Hk]).
    split.
    + pose proof SO as (nv' & E' & L' & SO'). exists nv'. split; [exact E'|]. split; [exact L'|]. destruct SO' as [(-> & ND)|(w & Dw & Hw)]; [left|right].
      * split; [reflexivity|]. intros k. unfold ts'. destruct (k =? i); [discriminate|apply ND].
      * exists w. split; [now apply Mono|]. intros j Hj. eapply hist_weaken; [exact Mono|]. now apply Hw.
    + intros k. unfold thread_ok, ts'. destruct (Nat.eqb_spec k i) as [->|Nk].
      * exists (r ++ r'). split; [now rewrite concat_app|]. split; [apply Forall_app; auto|]. split; [intros x Hx; apply Hin; now right|].
        assert (length r' = Z.to_nat (vnum mt)) as Ln' by (rewrite Lr'; unfold mat_vertices; now rewrite map_length, seq_length).
        split; [rewrite app_length, Ln', Nat2Z.inj_add, Z2Nat.id by exact Tn; exact T|].
        intros j v Hj. destruct (Nat.ltb_spec j (length r)) as [Lj|Lj].
        -- rewrite nth_error_app1 in Hj by exact Lj. destruct (Hr j v Hj) as (u & Hu & Cu). exists u. split; [|exact Cu]. eapply hist_weaken; [exact Mono|exact Hu].
        -- rewrite nth_error_app2 in Hj by exact Lj. assert (j - length r < length r') as Lj' by (apply nth_error_Some; congruence).
           apply map_res_ok in Er. pose proof (Forall2_nth _ _ _ Er (j - length r)) as Q. rewrite Hj in Q.
           destruct (nth_error (mat_vertices vs (set_vertices m0 nv) mt) (j - length r)) as [u|] eqn:Eu; [|contradiction].
           exists u. split; [|exact Q]. unfold mat_vertices in Eu. rewrite nth_error_map in Eu.
           rewrite (nth_error_nth' _ 0) in Eu by (rewrite seq_length; lia). rewrite seq_nth in Eu by lia. cbn in Eu. injection Eu as <-.
           replace (Z.to_nat (vstart mt) + (j - length r)) with j by lia.
           eapply hist_weaken; [exact Mono|]. exact (shared_hist ts _ j SO ltac:(lia)).
      * specialize (TO k). unfold thread_ok in TO.
        destruct (ts k) as [td nw| |]; auto. destruct TO as (x & E1 & E2 & E3 & E4 & E5). exists x. repeat split; auto.
        intros j v Hj. destruct (E5 j v Hj) as (u & Hu & Cu). exists u. split; [|exact Cu]. eapply hist_weaken; [|exact Hu]. exact Mono.
  - (* finished already *)
    cbn [thread_step] in E. injection E as <- <-.
    assert (forall k, (if k =? i then TDone else ts k) = ts k) as Same by (intros k; destruct (Nat.eqb_spec k i) as [->|]; auto).
    set (ts' := fun j => if j =? i then TDone else ts j) in *. assert (forall k, ts k = TDone -> ts' k = TDone) as Mono by (intros k Hk; unfold ts'; now rewrite Same).
    split.
    + destruct SO as (nv' & E' & L' & SO'). exists nv'. split; [exact E'|]. split; [exact L'|]. destruct SO' as [(-> & ND)|(w & Dw & Hw)]; [left|right].
      * exfalso. now apply (ND i).
      * exists w. split; [now apply Mono|]. intros j Hj. eapply hist_weaken; [exact Mono|]. now apply Hw.
    + intros k. unfold thread_ok. unfold ts' at 1. rewrite Same. specialize (TO k). unfold thread_ok in TO.
      destruct (ts k) as [td nw| |]; auto. destruct TO as (x & E1 & E2 & E3 & E4 & E5). exists x. repeat split; auto.
      intros j v Hj. destruct (E5 j v Hj) as (u & Hu & Cu). exists u. split; [|exact Cu]. eapply hist_weaken; [|exact Hu]. exact Mono.
Qed.

Lemma run_ok l : let s := threads_run A cs m0 l in shared_ok (snd s) (fst s) /\ forall k, thread_ok (snd s) k.
Proof.
  cbn. unfold threads_run. induction l as [|i l IH] using rev_ind.
  - cbn [fold_left fst snd]. split.
    + exists (vertices m0). split; [symmetry; apply set_vertices_id|]. split; [reflexivity|]. left. split; [reflexivity|]. intros i. rewrite (fitting_start vs) by apply Hc. discriminate.
    + intros k. unfold thread_ok. rewrite (fitting_start vs) by apply Hc. exists []. split; [reflexivity|]. split; [constructor|]. split; [auto|].
      split; [apply n_tiles|]. intros j v Hj. destruct j; discriminate.
  - rewrite fold_left_app. cbn [fold_left]. destruct (fold_left _ l _) as (m, ts) eqn:El. destruct (threads_step A cs (m, ts) i) as (m', ts') eqn:E.
    cbn [fst snd] in *. destruct IH as (H1 & H2). exact (step_ok m ts i m' ts' H1 H2 E).
Qed.

(** After any schedule: nothing but vertices has changed, no call has raised, and every
    vertex has been moved by some of the calls that have finished, each at most once; the
    call that finished last is the last move of every vertex. *)
Theorem threads_result l m' ts : threads_run A cs m0 l = (m', ts) ->
  same_but_vertices m0 m' /\ length (vertices m') = length (vertices m0) /\ (forall i e, ts i <> TRaised e) /\
  ((m' = m0 /\ forall i, ts i <> TDone) \/
   exists w, ts w = TDone /\ forall j, j < length (vertices m0) / vs ->
     exists order, NoDup (order ++ [w]) /\ (forall i, In i (order ++ [w]) -> ts i = TDone) /\
       moved_by A m0 cs (order ++ [w]) (block vs (vertices m0) j) = Ok (block vs (vertices m') j)).
Proof.
  intros E. pose proof (run_ok l) as H. cbn zeta in H. rewrite E in H. cbn [fst snd] in H. destruct H as ((nv & -> & L & H) & TO).
  split; [apply set_vertices_frame|]. split; [exact L|]. split.
  - intros i e Hi. specialize (TO i). unfold thread_ok in TO. now rewrite Hi in TO.
  - destruct H as [(-> & ND)|(w & Dw & Hw)]; [left; split; [apply set_vertices_id|exact ND]|right]. exists w. split; [exact Dw|exact Hw].
Qed.
End Run.

(** ** Serial runs *)
Lemma step_eq cs m ts i m' t : thread_step A (cs i) m (ts i) = (m', t) -> threads_step A cs (m, ts) i = (m', fun j => if j =? i then t else ts j).
Proof. intros E. unfold threads_step. now rewrite E. Qed.
Lemma raised_stays cs m i e : forall q ts, ts i = TRaised e ->
  let s := fold_left (threads_step A cs) (repeat i q) (m, ts) in fst s = m /\ snd s i = TRaised e /\ forall k, k <> i -> snd s k = ts k.
Proof.
  induction q as [|q IH]; intros ts H; cbn [repeat fold_left]; [auto|].
  rewrite (step_eq cs m ts i m (TRaised e)) by (now rewrite H).
  destruct (IH (fun j => if j =? i then TRaised e else ts j)) as (H1 & H2 & H3); [now rewrite Nat.eqb_refl|].
  split; [exact H1|]. split; [exact H2|]. intros k Hk. rewrite H3 by exact Hk. now apply Nat.eqb_neq in Hk as ->.
Qed.
Lemma thread_alone_at c m ms : forall new r,
  fold_res (fun acc mt => bind (map_mat_vertices m (call_vertex A m c) mt) (fun l => Ok (acc ++ l))) new ms = r ->
  forall cs ts i, cs i = c -> ts i = TRun ms new ->
  let s := fold_left (threads_step A cs) (repeat i (S (length ms))) (m, ts) in
  fst s = fst (assign_vertices m r) /\
  snd s i = match r with Ok _ => TDone | Raise e => TRaised e end /\ forall k, k <> i -> snd s k = ts k.
Proof.
  induction ms as [|mt ms IH]; intros new r Hr cs ts i Hci Hi.
  - cbn in Hr. subst r. cbn [length repeat fold_left]. rewrite (step_eq cs m ts i (set_vertices m new) TDone) by (now rewrite Hi).
    cbn [fst snd assign_vertices]. rewrite Nat.eqb_refl. split; [reflexivity|]. split; [reflexivity|].
    intros k Hk. now apply Nat.eqb_neq in Hk as ->.
  - cbn [fold_res] in Hr. cbn [length]. change (repeat i (S (S (length ms)))) with (i :: repeat i (S (length ms))). cbn [fold_left].
    destruct (map_mat_vertices m (call_vertex A m c) mt) as [l|e] eqn:El; cbn [bind] in Hr.
    + rewrite (step_eq cs m ts i m (TRun ms (new ++ l))) by (rewrite Hi, Hci; cbn [thread_step]; now rewrite El).
      specialize (IH (new ++ l) r Hr cs (fun j => if j =? i then TRun ms (new ++ l) else ts j) i Hci). cbv beta in IH. rewrite Nat.eqb_refl in IH. specialize (IH eq_refl).
      cbn zeta in IH. destruct IH as (H1 & H2 & H3). split; [exact H1|]. split; [exact H2|]. intros k Hk. rewrite H3 by exact Hk. now apply Nat.eqb_neq in Hk as ->.
    + rewrite (step_eq cs m ts i m (TRaised e)) by (rewrite Hi, Hci; cbn [thread_step]; now rewrite El).
      subst r. cbn [assign_vertices fst].
      destruct (raised_stays cs m i e (S (length ms)) (fun j => if j =? i then TRaised e else ts j)) as (H1 & H2 & H3); [now rewrite Nat.eqb_refl|].
      split; [exact H1|]. split; [exact H2|]. intros k Hk. rewrite H3 by exact Hk. now apply Nat.eqb_neq in Hk as ->.
Qed.

(** One thread that runs without interruption does what the method does. *)
Theorem thread_alone cs m i : let s := threads_run A cs m (repeat i (S (length (mats m)))) in
  fst s = fst (call_alone A m (cs i)) /\
  snd s i = match snd (call_alone A m (cs i)) with None => TDone | Some e => TRaised e end.
Proof.
  cbn zeta. unfold threads_run. 
  destruct (thread_start m (cs i)) as [todo new| |e] eqn:Es.
  - assert (todo = mats m /\ new = []) as (-> & ->) by (destruct (cs i) as [off|[|a [|b [|d r]]]]; cbn in Es; try discriminate; injection Es; auto).
    destruct (thread_alone_at (cs i) m (mats m) [] _ eq_refl cs (fun k => thread_start m (cs k)) i eq_refl Es) as (H1 & H2 & _).
    rewrite H1, H2. destruct (cs i) as [off|[|a [|b [|d r]]]] eqn:Ec; cbn in Es; try discriminate; cbn [call_alone translate rotate];
      unfold translate; change (all_mats (geoms m)) with (mats m); unfold map_vertices; cbn [call_vertex];
      change (all_mats (geoms m)) with (mats m); destruct (fold_res _ [] (mats m)); auto.
  - destruct (cs i) as [off|[|a [|b [|d r]]]]; discriminate.
  - assert (call_alone A m (cs i) = (m, Some e)) as -> by (destruct (cs i) as [off|[|a [|b [|d r]]]]; cbn in Es |- *; congruence).
    destruct (raised_stays cs m i e (S (length (mats m))) (fun k => thread_start m (cs k)) Es) as (H1 & H2 & _). auto.
Qed.

(** Calls one after the other, in any order of the threads. *)
Lemma call_alone_frame m c : exists nv, fst (call_alone A m c) = set_vertices m nv.
Proof.
  destruct c as [off|[|a [|b [|d r]]]]; cbn [call_alone rotate]; unfold translate, assign_vertices;
    repeat match goal with |- context [match ?x with Ok _ => _ | Raise _ => _ end] => destruct x end; cbn [fst];
    first [now exists (vertices m); rewrite set_vertices_id|eauto].
Qed.
Lemma thread_start_set m nv c : thread_start (set_vertices m nv) c = thread_start m c.
Proof. destruct c as [off|[|a [|b [|d r]]]]; reflexivity. Qed.

Theorem threads_serial cs m : forall l, NoDup l ->
  fst (threads_run A cs m (flat_map (fun i => repeat i (S (length (mats m)))) l)) = fold_left (fun m i => fst (call_alone A m (cs i))) l m.
Proof.
  intros l N. unfold threads_run.
  assert (forall nv ts, (forall i, In i l -> ts i = thread_start m (cs i)) ->
    fst (fold_left (threads_step A cs) (flat_map (fun i => repeat i (S (length (mats m)))) l) (set_vertices m nv, ts)) =
    fold_left (fun m i => fst (call_alone A m (cs i))) l (set_vertices m nv)) as Q.
  { induction N as [|i l Hi N IH]; intros nv ts Ht; [reflexivity|]. cbn [flat_map fold_left]. rewrite fold_left_app.
    pose proof (Ht i (or_introl eq_refl)) as Hti.
    set (m1 := set_vertices m nv) in *.
    assert (exists ts1, fold_left (threads_step A cs) (repeat i (S (length (mats m)))) (m1, ts) = (fst (call_alone A m1 (cs i)), ts1) /\ forall k, k <> i -> ts1 k = ts k) as (ts1 & E & Hk).
    { destruct (fold_left (threads_step A cs) (repeat i (S (length (mats m)))) (m1, ts)) as (m2, ts1) eqn:E. exists ts1.
      destruct (thread_start m (cs i)) as [todo new| |e] eqn:Es.
      - assert (todo = mats m1 /\ new = []) as (-> & ->) by (destruct (cs i) as [off|[|a [|b [|d r]]]]; cbn in Es; try discriminate; injection Es; auto).
        destruct (thread_alone_at (cs i) m1 (mats m1) [] _ eq_refl cs ts i eq_refl Hti) as (H1 & _ & H3).
        change (mats m1) with (mats m) in H1 at 1. change (mats m1) with (mats m) in H3. rewrite E in H1, H3. cbn [fst snd] in H1, H3. split; [|exact H3]. f_equal. rewrite H1.
        destruct (cs i) as [off|[|a [|b [|d r]]]] eqn:Ec; cbn in Es; try discriminate; reflexivity.
      - destruct (cs i) as [off|[|a [|b [|d r]]]]; discriminate.
      - assert (call_alone A m1 (cs i) = (m1, Some e)) as -> by (destruct (cs i) as [off|[|a [|b [|d r]]]]; cbn in Es |- *; congruence).
        destruct (raised_stays cs m1 i e (S (length (mats m))) ts Hti) as (H1 & _ & H3). rewrite E in H1, H3. cbn [fst snd] in *. split; [now rewrite H1|exact H3]. }
    rewrite E. destruct (call_alone_frame m1 (cs i)) as (nv1 & En). rewrite En. unfold m1. change (set_vertices (set_vertices m nv) nv1) with (set_vertices m nv1).
    apply IH. intros k Hin. rewrite Hk; [apply Ht; now right|]. intros ->. contradiction. }
  specialize (Q (vertices m) (fun i => thread_start m (cs i)) ltac:(auto)). now rewrite set_vertices_id in Q.
Qed.

(** ** Lost updates *)
Lemma thread_reads c m ms : forall new nv,
  fold_res (fun acc mt => bind (map_mat_vertices m (call_vertex A m c) mt) (fun l => Ok (acc ++ l))) new ms = Ok nv ->
  forall cs ts i, cs i = c -> ts i = TRun ms new ->
  exists ts', fold_left (threads_step A cs) (repeat i (length ms)) (m, ts) = (m, ts') /\ ts' i = TRun [] nv /\ forall k, k <> i -> ts' k = ts k.
Proof.
  induction ms as [|mt ms IH]; intros new nv Hr cs ts i Hci Hi; cbn in Hr.
  - injection Hr as <-. exists ts. cbn. auto.
  - cbn [length repeat fold_left]. destruct (map_mat_vertices m (call_vertex A m c) mt) as [l|e] eqn:El; cbn [bind] in Hr; [|discriminate].
    rewrite (step_eq cs m ts i m (TRun ms (new ++ l))) by (rewrite Hi, Hci; cbn [thread_step]; now rewrite El).
    destruct (IH (new ++ l) nv Hr cs (fun j => if j =? i then TRun ms (new ++ l) else ts j) i Hci) as (ts' & E & H1 & H2); [now rewrite Nat.eqb_refl|].
    exists ts'. split; [exact E|]. split; [exact H1|]. intros k Hk. rewrite H2 by exact Hk. now apply Nat.eqb_neq in Hk as ->.
Qed.
Lemma call_alone_ok m c m' : call_alone A m c = (m', None) -> exists nv, m' = set_vertices m nv /\ thread_start m c = TRun (mats m) [] /\
  fold_res (fun acc mt => bind (map_mat_vertices m (call_vertex A m c) mt) (fun l => Ok (acc ++ l))) [] (mats m) = Ok nv.
Proof.
  destruct c as [off|[|a [|b [|d r]]]]; cbn [call_alone rotate]; try discriminate; intros H; apply assign_spec in H; destruct H as (nv & H & ->); exists nv; auto.
Qed.

(** Both calls read before either assigns: the first to finish has moved nothing. *)
Theorem threads_lost cs m m0 m1 : call_alone A m (cs 0) = (m0, None) -> call_alone A m (cs 1) = (m1, None) ->
  exists l ts, threads_run A cs m l = (m1, ts) /\ ts 0 = TDone /\ ts 1 = TDone.
Proof.
  intros E0 E1. apply call_alone_ok in E0, E1. destruct E0 as (nv0 & -> & S0 & R0), E1 as (nv1 & -> & S1 & R1).
  destruct (thread_reads (cs 0) m (mats m) [] nv0 R0 cs (fun i => thread_start m (cs i)) 0 eq_refl S0) as (ts1 & H1 & H2 & H3).
  destruct (thread_reads (cs 1) m (mats m) [] nv1 R1 cs ts1 1 eq_refl) as (ts2 & H4 & H5 & H6); [rewrite H3 by lia; exact S1|].
  exists (repeat 0 (length (mats m)) ++ repeat 1 (length (mats m)) ++ [0; 1]). unfold threads_run. rewrite !fold_left_app, H1, H4. cbn [fold_left].
  rewrite (step_eq cs m ts2 0 (set_vertices m nv0) TDone) by (rewrite H6 by lia; now rewrite H2).
  rewrite (step_eq cs _ _ 1 (set_vertices m nv1) TDone) by (cbn; now rewrite H5).
  eexists. split; [reflexivity|]. cbn. auto.
Qed.
End Facts.

(** ** Translations *)
Section Translations.
Context {F : Type} (A : arith F).
Theorem threads_translate vs (m : mesh F) (off : nat -> list F) l m' ts :
  vertex_size m = Ok (Z.of_nat vs) -> 0 < vs -> tiled_vertices vs m -> short_offsets m ->
  (forall i, off i <> [] -> exists a, position_attrib m = Some a /\ attrib_start m a + length (off i) <= vs) ->
  threads_run A (fun i => CTranslate (off i)) m l = (m', ts) ->
  same_but_vertices m m' /\ length (vertices m') = length (vertices m) /\
  forall j, exists order, NoDup order /\ (forall i, In i order -> ts i = TDone) /\ (order = [] -> forall i, ts i <> TDone) /\
    forall c x, c < vs -> nth_error (vertices m) (j * vs + c) = Some x ->
      nth_error (vertices m') (j * vs + c) = Some (fold_left (fun y i => moved A (position_start m) (off i) c y) order x).
Proof.
  intros Hs Hv HT Ho Hp E. destruct (threads_result A vs m (fun i => CTranslate (off i)) Hs Hv HT ltac:(intros i; split; [exact Ho|apply Hp]) l m' ts E) as (H1 & H2 & _ & H3).
  split; [exact H1|]. split; [exact H2|]. intros j. destruct H3 as [(-> & ND)|(w & Dw & Hw)].
  - exists []. split; [constructor|]. split; [intros i []|]. split; [auto|]. cbn. auto.
  - destruct (Nat.ltb_spec j (length (vertices m) / vs)) as [Hj|Hj].
    + destruct (Hw j Hj) as (o & N & D & M). exists (o ++ [w]). split; [exact N|]. split; [exact D|]. split; [intros Q; destruct o; discriminate|].
      intros c x Hc Hx. rewrite <- nth_block in Hx |- * by exact Hc.
      assert (forall order v v', moved_by A m (fun i => CTranslate (off i)) order v = Ok v' -> length v = vs -> nth_error v c = Some x ->
        nth_error v' c = Some (fold_left (fun y i => moved A (position_start m) (off i) c y) order x)) as Q.
      { clear - Ho Hc. intros order. revert x. induction order as [|i order IH]; intros x v v' H Lv Hx; cbn in H |- *; [congruence|].
        destruct (translate_vertex A m (off i) v) as [v1|] eqn:E1; [|discriminate]. cbn in H.
        destruct (translate_vertex_spec A m (off i) vs v v1 Ho Lv E1) as (L1 & N1). apply (IH _ v1 v' H L1). now rewrite N1, Hx. }
      refine (Q _ _ _ M _ Hx). apply block_length.
      pose proof (Nat.div_mod (length (vertices m)) vs ltac:(lia)). nia.
    + exists [w]. split; [repeat constructor; intros []|]. split; [intros i [<-|[]]; exact Dw|]. split; [discriminate|].
      intros c x Hc Hx. exfalso. assert (j * vs + c < length (vertices m)) as L by (apply nth_error_Some; congruence).
      destruct HT as (k & Ek & T). pose proof (tiles_le _ _ _ T). unfold zlen in Ek.
      assert (length (vertices m) / vs = Z.to_nat k) as Eq by (symmetry; apply (Nat.div_unique _ _ _ 0); nia). nia.
Qed.
End Translations.

(** ** Exports *)
Theorem export_meanwhile {F} p (pk : F -> Z) m at_ : (forall i, same_but_vertices m (at_ i)) ->
  export_during p pk at_ = export p pk (at_ 9).
Proof.
  intros H. assert (forall i, exists nv, at_ i = set_vertices m nv) as Q.
  { intros i. exists (vertices (at_ i)). destruct (H i) as (H1 & H2 & H3 & H4). apply mesh_eq; cbn; auto.
    - unfold same_header in *. cbn. intuition congruence.
    - unfold same_counts in *. cbn. intuition congruence. }
  unfold export_during.
  assert (forall i, exists nv, at_ i = set_vertices (at_ 9) nv) as Q'.
  { intros i. destruct (Q i) as (nv & ->), (Q 9) as (nv9 & ->). exists nv. reflexivity. }
  clear Q H. repeat match goal with |- context [at_ ?i] => lazymatch i with 9 => fail | _ => let nv := fresh "nv" in let E := fresh in destruct (Q' i) as (nv & E); rewrite E; clear E end end.
  reflexivity.
Qed.
