(** Vocabulary for statements about file handles. *)
From Coq Require Import Bool Ascii List.
From Verif Require Import PyBase Struct Mesh Arith Edit Obj Handle.
Import ListNotations.

(** Handles left open after some events, the last opened first. *)
Fixpoint close_one (n : bytes) (w : bool) (open : list (bytes * bool)) : list (bytes * bool) :=
  match open with
  | [] => []
  | (n', w') :: t => if bytes_eqb n n' && Bool.eqb w w' then t else (n', w') :: close_one n w t
  end.
Definition open_after (evs : list event) : list (bytes * bool) :=
  fold_left (fun open ev => match ev with Opened n w => (n, w) :: open | Closed n w => close_one n w open end) evs [].

(** At no moment more than one handle is open, and at the end none is. *)
Definition tidy (evs : list event) : Prop :=
  open_after evs = [] /\ forall n, (length (open_after (firstn n evs)) <= 1)%nat.

(** The same statements without the with statements around them. *)
Fixpoint after {F} (c d : code (F := F)) : code :=
  match c with
  | Done => d
  | Method g r => Method g (after r d)
  | Fail e => Fail e
  | Export fn ub r => Export fn ub (after r d)
  | With b r => With b (after r d)
  end.
Fixpoint unwrapped {F} (c : code (F := F)) : code :=
  match c with
  | Done => Done
  | Method g r => Method g (unwrapped r)
  | Fail e => Fail e
  | Export fn ub r => Export fn ub (unwrapped r)
  | With b r => after (unwrapped b) (unwrapped r)
  end.
