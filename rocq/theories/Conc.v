(** Several processes and one file: what a loader gets while the file is being
    written, and what the file holds when several exports write it at the same time.
    The repository takes no lock and writes no temporary file: loading opens the file
    and reads it item by item (visiblemesh.py:70-75, 95-110; io.py) and asks for the
    size by name at the end (lines 112-117); export opens the file with mode 'wb',
    which truncates it, and writes it through the handle's own position
    (lines 213-215).

    Modelled: a file is the list of contents it has one after the other; every byte is
    fetched at some moment and the size is asked for at some moment. A flush of a
    writer's buffer is one step of any size, so all ways in which the python buffers
    and the kernel cut the data are covered. Not modelled: a single read or write that
    is itself torn byte by byte (covered by steps of size one), a file that is renamed
    or removed while it is read, network file systems. *)
From Coq Require Import ZArith List Bool Arith Ascii.
From Verif Require Import PyBase Struct Mesh.
Import ListNotations.
Open Scope nat_scope.
Open Scope res_scope.

(** ** Reading *)

(** Contents at moment [t]; the last contents stay. *)
Definition contents_at (h : list bytes) (t : nat) : bytes := nth t h (last h []).

(** The bytes from position [i] on that a reader fetches, at most [fuel] of them: byte
    [i] at moment [w i]. It meets the end of the file where the contents of that moment
    end. *)
Fixpoint fetch (h : list bytes) (w : nat -> nat) (i fuel : nat) : bytes :=
  match fuel with
  | O => []
  | S k => match nth_error (contents_at h (w i)) i with
           | Some b => b :: fetch h w (S i) k
           | None => []
           end
  end.
(** No contents is longer than this. *)
Definition longest (h : list bytes) : nat := list_max (map (@length byte) h).

(** VisibleMesh.__load, visiblemesh.py:95-117, on a file that changes: the check at the
    end compares the position with the size at moment [stat]. *)
Definition load_during {F} (p : plat) (u : Z -> F) (k : kind) (h : list bytes) (w : nat -> nat) (stat : nat) : res (mesh F) :=
  let s := fetch h w 0 (longest h) in
  do (m, rest) <- load_body p u k s;
  if (length s - length rest =? length (contents_at h stat))%nat then Ok m else Raise EAttribute.

(** ** Writing *)

(** [write] at a position: the bytes there are replaced, a hole is filled with zeros. *)
Definition pwrite (c : bytes) (off : nat) (new : bytes) : bytes :=
  match new with
  | [] => c
  | _ => firstn off c ++ repeat zero (off - length c) ++ new ++ skipn (off + length new) c
  end.

(** An open handle of an export: its position and what it still has to write. *)
Record saver := { s_off : nat; s_left : bytes }.
(** Export [i] opens the file; it flushes [n] bytes. *)
Inductive save_event := SOpen (i : nat) | SFlush (i n : nat).
Record disk := { d_file : bytes; d_saver : nat -> option saver }.
Definition set_saver (s : nat -> option saver) (i : nat) (v : saver) : nat -> option saver :=
  fun j => if (j =? i)%nat then Some v else s j.

(** [data i] is what export [i] writes. *)
Definition save_step (data : nat -> bytes) (d : disk) (e : save_event) : disk :=
  match e with
  | SOpen i => {| d_file := []; d_saver := set_saver (d_saver d) i {| s_off := 0; s_left := data i |} |}
  | SFlush i n =>
      match d_saver d i with
      | None => d
      | Some s =>
          let now := firstn n (s_left s) in
          {| d_file := pwrite (d_file d) (s_off s) now;
             d_saver := set_saver (d_saver d) i {| s_off := s_off s + length now; s_left := skipn n (s_left s) |} |}
      end
  end.
Definition no_saver (c : bytes) : disk := {| d_file := c; d_saver := fun _ => None |}.
Definition save_run (data : nat -> bytes) (c : bytes) (l : list save_event) : disk :=
  fold_left (save_step data) l (no_saver c).
