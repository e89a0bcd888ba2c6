(** Proofs about file handles. *)
From Coq Require Import ZArith Bool Ascii String List Lia.
From Verif Require Import PyBase Struct Mesh Arith Edit Obj MergeFacts Handle SpecHandle.
Import ListNotations.

Definition pairs (l : list (bytes * bool)) : list event :=
  flat_map (fun x => [Opened (fst x) (snd x); Closed (fst x) (snd x)]) l.
Lemma close_same n w t : close_one n w ((n, w) :: t) = t.
Proof.
  cbn. replace (bytes_eqb n n) with true; [ now rewrite eqb_reflx |].
  symmetry. now apply bytes_eqb_eq.
Qed.
Lemma tidy_pairs l : tidy (pairs l).
Proof.
  induction l as [| [n w] l [H1 H2]]; [ split; [ reflexivity | intros [| k]; cbn; lia ] |].
  cbn [pairs flat_map app fst snd] in *. fold (pairs l) in *. split.
  - unfold open_after. cbn [fold_left]. rewrite close_same. exact H1.
  - intros [| [| k]]; [ cbn; lia | cbn; lia |]. cbn [firstn]. unfold open_after. cbn [fold_left].
    rewrite close_same. apply H2.
Qed.

Section Facts.
Context {F : Type} (A : arith F) (p : plat) (unpackf : Z -> F) (packf : F -> Z).
Implicit Types (o : hobj (F := F)) (c d : code (F := F)).
Definition settled o : Prop := o_loaded (h_obj o) = true /\ exists fn, h_file o = Some (fn, true).

Lemma new_h_obj f fn kw : new_visible_mesh p unpackf f fn kw =
  match fst (new_h p unpackf f fn kw) with Ok o => Ok (h_obj o) | Raise e => Raise e end.
Proof.
  unfold new_visible_mesh, new_h, first_enter, first_enter_h. destruct (b_filename _); [| reflexivity ].
  destruct (open_rb f b); [| reflexivity ]. cbn [bind]. destruct (load _ _ _ _); reflexivity.
Qed.
Lemma new_h_ok f fn kw o ev : new_h p unpackf f fn kw = (Ok o, ev) ->
  settled o /\ exists n, fn = Some n /\ ev = pairs [(n, false)].
Proof.
  unfold new_h, first_enter_h. intro H. destruct fn as [[| x n] |]; try discriminate.
  cbn [bf2mesh_init b_filename b_kind] in H. destruct (open_rb f _); [| discriminate ].
  destruct (load _ _ _ _); [| discriminate ]. injection H as <- <-. split; [ split; [ reflexivity | eexists; reflexivity ] |].
  eexists. split; reflexivity.
Qed.
Lemma new_h_raise f fn kw e ev : new_h p unpackf f fn kw = (Raise e, ev) ->
  match fn with
  | None | Some [] => e = EAttribute /\ ev = []
  | Some n => match open_rb f n with
              | Raise e' => e = e' /\ ev = []
              | Ok file => load p unpackf (kind_of_name n) file = Raise e /\ ev = [Opened n false]
              end
  end.
Proof.
  unfold new_h, first_enter_h. destruct fn as [[| x n] |]; cbn [bf2mesh_init b_filename b_kind]; intro H;
    try (injection H as <- <-; split; reflexivity). destruct (open_rb f _); [| injection H as <- <-; split; reflexivity ].
  destruct (load _ _ _ _); [ discriminate | injection H as <- <-; auto ].
Qed.

Lemma export_h_obj f o fn ub : export_obj A p packf f (h_obj o) fn ub =
  let '(f', o', _, r) := export_h A p packf f o fn ub in (f', h_obj o', r).
Proof.
  unfold export_obj, export_until, export_h.
  destruct (if exists_ f _ then _ else _) as [f1 [e |]]; [ reflexivity |].
  destruct (if ub then _ else _) as [m [e |]]; [ reflexivity |].
  destruct (open_wb f1 _); [| reflexivity ]. destruct (export p packf m) as [bs [e |]]; reflexivity.
Qed.
Lemma export_h_ev f o fn ub f' o' ev r : export_h A p packf f o fn ub = (f', o', ev, r) ->
  (ev = [] \/ ev = pairs [(export_target (h_obj o) fn, true)]) /\ (r = None -> ev <> []) /\
  h_file o' = h_file o /\ o_loaded (h_obj o') = o_loaded (h_obj o).
Proof.
  unfold export_h. destruct (if exists_ f _ then _ else _) as [f1 [e |]];
    [ intro H; injection H as <- <- <- <-; repeat split; auto; discriminate |].
  destruct (if ub then _ else _) as [m [e |]];
    [ intro H; injection H as <- <- <- <-; repeat split; auto; discriminate |].
  destruct (open_wb f1 _); [| intro H; injection H as <- <- <- <-; repeat split; auto; discriminate ].
  destruct (export p packf m) as [bs [e |]]; intro H; injection H as <- <- <- <-; repeat split; auto; discriminate.
Qed.

Lemma enter_settled f o : settled o -> enter_h p unpackf f o = (o, [], None).
Proof. unfold enter_h. intros [H _]. rewrite H. now destruct (o_filename (h_obj o)). Qed.
Lemma exit_settled o : settled o -> exit_h o = (o, [], None).
Proof. unfold exit_h. intros [_ [fn ->]]. reflexivity. Qed.

Notation exec := (exec A p unpackf packf).
Lemma exec_settled c : forall f o f' o' ev r, settled o -> exec c f o = (f', o', ev, r) ->
  settled o' /\ exists l, ev = pairs l.
Proof.
  induction c as [| g c IH | e | fn ub c IH | b IHb c IH]; cbn [Handle.exec]; intros f o f' o' ev r So H.
  - injection H as <- <- <- <-. split; [ assumption | now exists [] ].
  - destruct (g _) as [m [e |]].
    + injection H as <- <- <- <-. split; [ exact So | now exists [] ].
    + eapply IH; [| exact H ]. exact So.
  - injection H as <- <- <- <-. split; [ assumption | now exists [] ].
  - destruct (export_h A p packf f o fn ub) as [[[f1 o1] ev1] r1] eqn:E.
    apply export_h_ev in E as (E1 & _ & E2 & E3).
    assert (S1 : settled o1) by (destruct So as [? [n ?]]; split; [ congruence | exists n; congruence ]).
    assert (exists l, ev1 = pairs l) as [l1 ->] by (destruct E1 as [-> | ->]; [ now exists [] | eexists; reflexivity ]).
    destruct r1 as [e |].
    + injection H as <- <- <- <-. eauto.
    + destruct (exec c f1 o1) as [[[f2 o2] ev2] r2] eqn:E'. injection H as <- <- <- <-.
      apply IH in E' as [S2 [l2 ->]]; [| assumption ]. split; [ assumption |]. exists (l1 ++ l2).
      unfold pairs. now rewrite flat_map_app.
  - rewrite enter_settled in H by assumption. destruct (exec b f o) as [[[f1 o1] ev1] r1] eqn:E.
    apply IHb in E as [S1 [l1 ->]]; [| assumption ]. rewrite exit_settled in H by assumption.
    destruct r1 as [e |].
    + injection H as <- <- <- <-. split; [ assumption |]. exists l1. now rewrite app_nil_r.
    + destruct (exec c f1 o1) as [[[f2 o2] ev2] r2] eqn:E'. injection H as <- <- <- <-.
      apply IH in E' as [S2 [l2 ->]]; [| assumption ]. split; [ assumption |]. exists (l1 ++ l2).
      unfold pairs. now rewrite flat_map_app.
Qed.
Lemma exec_after c : forall d f o, exec (after c d) f o =
  let '(f1, o1, ev1, r1) := exec c f o in
  match r1 with
  | Some e => (f1, o1, ev1, Some e)
  | None => let '(f2, o2, ev2, r2) := exec d f1 o1 in (f2, o2, ev1 ++ ev2, r2)
  end.
Proof.
  induction c as [| g c IH | e | fn ub c IH | b IHb c IH]; intros d f o; cbn [after Handle.exec].
  - now destruct (exec d f o) as [[[? ?] ?] ?].
  - destruct (g _) as [m [e |]]; [ reflexivity | apply IH ].
  - reflexivity.
  - destruct (export_h A p packf f o fn ub) as [[[f1 o1] ev1] [e |]]; [ reflexivity |]. rewrite IH.
    destruct (exec c f1 o1) as [[[f2 o2] ev2] [e |]]; [ reflexivity |].
    destruct (exec d f2 o2) as [[[f3 o3] ev3] r3]. now rewrite app_assoc.
  - destruct (enter_h p unpackf f o) as [[o0 ev0] [e |]]; [ reflexivity |].
    destruct (exec b f o0) as [[[f1 o1] ev1] r1]. destruct (exit_h o1) as [[o2 ev2] [e |]]; [ reflexivity |].
    destruct r1 as [e |]; [ reflexivity |]. rewrite IH.
    destruct (exec c f1 o2) as [[[f3 o3] ev3] [e |]]; [ reflexivity |].
    destruct (exec d f3 o3) as [[[f4 o4] ev4] r4]. now rewrite <- !app_assoc.
Qed.
Lemma exec_unwrapped c : forall f o, settled o -> exec (unwrapped c) f o = exec c f o.
Proof.
  induction c as [| g c IH | e | fn ub c IH | b IHb c IH]; cbn [unwrapped Handle.exec]; intros f o So.
  - reflexivity.
  - destruct (g _) as [m [e |]]; [ reflexivity | now apply IH ].
  - reflexivity.
  - destruct (export_h A p packf f o fn ub) as [[[f1 o1] ev1] [e |]] eqn:E; [ reflexivity |].
    apply export_h_ev in E as (_ & _ & E2 & E3). rewrite IH; [ reflexivity |].
    destruct So as [? [n ?]]; split; [ congruence | exists n; congruence ].
  - rewrite exec_after, IHb, enter_settled by assumption.
    destruct (exec b f o) as [[[f1 o1] ev1] r1] eqn:E. apply exec_settled in E as [S1 _]; [| assumption ].
    rewrite exit_settled by assumption. destruct r1 as [e |]; [ cbn [app]; now rewrite app_nil_r |].
    rewrite IH by assumption. reflexivity.
Qed.

(** A program: open a mesh, then some statements about it. *)
Theorem program_tidy f fn kw o ev c f' o' ev' r : new_h p unpackf f fn kw = (Ok o, ev) ->
  exec c f o = (f', o', ev', r) -> tidy (ev ++ ev').
Proof.
  intros H1 H2. apply new_h_ok in H1 as [S1 (n & -> & ->)]. apply exec_settled in H2 as [_ [l ->]]; [| assumption ].
  apply (tidy_pairs ((n, false) :: l)).
Qed.
Theorem program_unwrapped f fn kw o ev c : new_h p unpackf f fn kw = (Ok o, ev) ->
  forall f1, exec c f1 o = exec (unwrapped c) f1 o.
Proof. intros H f1. symmetry. apply exec_unwrapped. now apply new_h_ok in H. Qed.
End Facts.
