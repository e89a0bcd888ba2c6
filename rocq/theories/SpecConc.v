(** Vocabulary for the statements about several processes on one file. *)
From Coq Require Import ZArith List Bool Arith Sorted.
From Verif Require Import PyBase Struct Mesh Conc.
Import ListNotations.
Open Scope nat_scope.

(** A reader goes forward in time and asks for the size last. *)
Definition in_order (w : nat -> nat) (stat : nat) : Prop :=
  (forall i j, i <= j -> w i <= w j) /\ forall i, w i <= stat.
(** The contents are longer and longer beginnings of [bs]: a save that has truncated
    the file and has not written everything yet. *)
Definition growing (bs : bytes) (h : list bytes) : Prop :=
  exists ns, ns <> [] /\ StronglySorted le ns /\ Forall (fun n => n <= length bs) ns /\ h = map (fun n => firstn n bs) ns.
(** Every byte was there when it was fetched. *)
Definition in_time (bs : bytes) (h : list bytes) (w : nat -> nat) : Prop :=
  forall i, i < length bs -> i < length (contents_at h (w i)).

(** The export that opened the file last. *)
Definition last_opener (l : list save_event) : option nat :=
  fold_left (fun a e => match e with SOpen i => Some i | SFlush _ _ => a end) l None.
(** Export [i] has opened the file and has written everything. *)
Definition finished (d : disk) (i : nat) : Prop := exists s, d_saver d i = Some s /\ s_left s = [].
(** What two exports write. *)
Definition two (a b : bytes) (i : nat) : bytes := match i with 0 => a | _ => b end.
