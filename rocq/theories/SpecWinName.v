(** Vocabulary for names on Windows. *)
From Coq Require Import ZArith List Bool Ascii.
From Verif Require Import PyBase Struct Mesh Arith Edit Obj WinName.
Import ListNotations.

(** The name with '/' for every '\'. *)
Definition to_slash (c : byte) : byte := if Ascii.eqb c backslash then slash else c.
Definition slashed (fn : bytes) : bytes := map to_slash fn.
(** The name begins with a letter (or anything) and a colon. *)
Definition drive_letter (fn : bytes) : Prop := exists c t, fn = c :: colon :: t.
(** A system in which, as on Windows, the empty name does not exist and cannot be created. *)
Definition windows {W} (S : sys W) : Prop :=
  (forall fn, s_dirname S fn = nt_dirname fn) /\ (forall w, s_exists S w [] = false) /\
  (forall w, s_makedirs S w [] = (w, Some EFileNotFound)).
