(** VisibleMesh.export (visiblemesh.py:202-215) when the disk has room for [room] bytes of
    the file. The file object is an [io.BufferedWriter] (CPython Modules/_io/bufferedio.c);
    what is left in its buffer is sent by the close at the end of the with statement, after
    [self.filename] has been assigned (line 215).

    Simplifications: the room is in bytes and does not change during the call; directories
    need no room; a write that does not fit stores what fits and then fails (ENOSPC). *)
From Coq Require Import ZArith Bool List.
From Verif Require Import PyBase Struct Mesh Arith Edit Obj.
Import ListNotations.
Open Scope nat_scope.

(** How many bytes have been sent to the operating system after writes of the sizes [ws],
    with a buffer of [B] bytes that holds [pend] bytes (_io_BufferedWriter_write_impl):
    what fits is only stored; otherwise the buffer is flushed, and the data is stored if
    it fits now and sent otherwise. *)
Fixpoint sent_after (B pend : nat) (ws : list nat) : nat :=
  match ws with
  | [] => 0
  | w :: t =>
      if pend + w <=? B then sent_after B (pend + w) t
      else if w <=? B then pend + sent_after B w t
      else pend + w + sent_after B 0 t
  end.

(** [NoSpace] is OSError with errno ENOSPC. *)
Inductive outcome := Done | Raised (e : exn) | NoSpace.

Section DiskFull.
Context {F : Type} (A : arith F) (p : plat) (packf : F -> Z).
Definition export_room (room B : nat) (ws : list nat) (f : fs) (o : obj) (filename : option bytes) (update_bounds : bool)
  : fs * obj (F := F) * outcome :=
  let fn := export_target o filename in
  let '(f1, r1) := if exists_ f (dirname fn) then (f, None) else makedirs f (dirname fn) in
  match r1 with
  | Some e => (f1, o, Raised e)
  | None =>
      let '(m', r2) := if update_bounds then update_boundaries A (o_mesh o) else (o_mesh o, None) in
      let o1 := {| o_mesh := m'; o_filename := o_filename o; o_loaded := o_loaded o |} in
      match r2 with
      | Some e => (f1, o1, Raised e)
      | None =>
          match open_wb f1 fn with
          | Raise e => (f1, o1, Raised e)
          | Ok f2 =>
              let '(bs, r3) := export p packf m' in
              let f3 := update f2 (resolve fn) (File (firstn room bs)) in
              let o2 := {| o_mesh := m'; o_filename := fn; o_loaded := o_loaded o |} in
              if room <? sent_after B 0 ws then (f3, o1, NoSpace)      (* a write in __export fails, and so does the close *)
              else match r3 with
                   | Some e => (f3, o1, if room <? length bs then NoSpace else Raised e)
                   | None => (f3, o2, if room <? length bs then NoSpace else Done)
                   end
          end
      end
  end.
End DiskFull.
