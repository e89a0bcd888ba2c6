(** Property C57: VisibleMesh.vertex_size. *)
From Coq Require Import ZArith List Bool Lia.
From Verif Require Import PyBase Struct Mesh Arith Edit SpecSize.
Import ListNotations.
Open Scope Z_scope.

Lemma decltype_ok v w : decltype_len v = Ok w <-> In (v, w) width_table.
Proof.
  unfold decltype_len, width_table. split.
  - repeat match goal with |- context [?a =? ?b] => destruct (Z.eqb_spec a b) end; intros H; try discriminate; injection H as <-; subst; cbn; tauto.
  - cbn. intuition; match goal with H : _ = _ |- _ => injection H as <- <- end; reflexivity.
Qed.
Lemma decltype_raise v e : decltype_len v = Raise e -> e = EValue.
Proof. unfold decltype_len. repeat match goal with |- context [?a =? ?b] => destruct (a =? b) end; congruence. Qed.

Lemma vertex_size_of_spec l n : vertex_size_of l = Ok n <-> widths (used l) n.
Proof.
  revert n. induction l as [|a t IH]; intros n.
  - cbn. split; [intros H; injection H as <-; constructor|intros H; inversion H; reflexivity].
  - cbn [vertex_size_of used filter]. change USED with 0. destruct (flag a =? 0); [|apply IH].
    destruct (decltype_len (vartype a)) as [w|e] eqn:E; cbn [bind].
    + destruct (vertex_size_of t) as [k|e] eqn:E'; cbn [bind].
      * split.
        -- intros H. injection H as <-. constructor; [now apply decltype_ok|now apply IH].
        -- intros H. inversion H as [|? ? w' n' H1 H2]; subst. apply decltype_ok in H1. apply IH in H2. congruence.
      * split; [discriminate|]. intros H. inversion H as [|? ? w' n' H1 H2]; subst. apply IH in H2. discriminate.
    + split; [discriminate|]. intros H. inversion H as [|? ? w' n' H1 H2]; subst. apply decltype_ok in H1. congruence.
Qed.
Lemma vertex_size_of_raise l : (forall n, ~ widths (used l) n) -> vertex_size_of l = Raise EValue.
Proof.
  intros H. destruct (vertex_size_of l) as [n|e] eqn:E; [now apply vertex_size_of_spec, H in E|]. f_equal. clear H.
  revert e E. induction l as [|a t IH]; intros e; [discriminate|]. cbn [vertex_size_of].
  destruct (flag a =? USED); [|apply IH]. destruct (decltype_len (vartype a)) eqn:D; cbn [bind].
  - destruct (vertex_size_of t); cbn [bind]; [discriminate|apply IH].
  - intros X. injection X as <-. eapply decltype_raise; eauto.
Qed.
Theorem vertex_size_ok {F} (m : mesh F) n : vertex_size m = Ok n <-> widths (used (vertex_attributes m)) n.
Proof. apply vertex_size_of_spec. Qed.
Theorem vertex_size_raise {F} (m : mesh F) : (forall n, ~ widths (used (vertex_attributes m)) n) -> vertex_size m = Raise EValue.
Proof. apply vertex_size_of_raise. Qed.
