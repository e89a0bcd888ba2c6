(** Vocabulary for the statements about threads. *)
From Coq Require Import ZArith List Bool Arith.
From Verif Require Import PyBase Struct Mesh Arith Edit SpecEdit Thread.
Import ListNotations.
Open Scope nat_scope.

Section SpecThread.
Context {F : Type} (A : arith F).
(** Calls that go through on their own (see C18 and C22). *)
Definition fitting_call (vs : nat) (m : mesh F) (c : move_call F) : Prop :=
  match c with
  | CTranslate off => short_offsets m /\
      (off <> [] -> exists a, position_attrib m = Some a /\ (attrib_start m a + List.length off <= vs)%nat)
  | CRotate r => rotate_ready vs m /\ exists y p q more, r = y :: p :: q :: more /\ can_turn A y p q
  end.
(** The vertex [v] moved by the calls of the threads in [order], one after the other. *)
Definition moved_by (m : mesh F) (cs : nat -> move_call F) (order : list nat) (v : list F) : res (list F) :=
  fold_res (fun v i => call_vertex A m (cs i) v) v order.
(** The call as a method of the object. *)
Definition call_alone (m : mesh F) (c : move_call F) : mesh F * option exn :=
  match c with CTranslate off => translate A m off | CRotate r => rotate A m r end.
End SpecThread.
