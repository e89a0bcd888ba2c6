(** Vocabulary for the statements about the programs of the README. *)
From Coq Require Import ZArith Bool List.
From Verif Require Import PyBase Struct Mesh Arith Edit Obj Spec SpecEdit SpecBounds SpecObj.
Import ListNotations.
Open Scope Z_scope.

(** A name under which a file can be written: it names a directory, no file stands where
    a directory has to be, and it is not a directory itself. *)
Definition can_save (f : fs) (dst : bytes) : Prop :=
  tree f /\ proper_name dst /\ In slash dst /\
  (forall q c, q <> resolve dst -> above q (resolve dst) -> lookup f q <> Some (File c)) /\
  lookup f (resolve dst) <> Some Dir.
(** Only the file [dst] and directories above it are new. *)
Definition only_writes (f f' : fs) (dst : bytes) : Prop :=
  forall q, q <> resolve dst -> f' q = f q \/ (f q = None /\ f' q = Some Dir /\ above q (resolve dst)).
(** Bounds can be computed: known attributes, and the mesh has no bounds of materials or
    its vertices have positions of three numbers. *)
Definition boundable {F} (vs : nat) (m : mesh F) : Prop :=
  Forall (fun a => in_use a = true -> known_attrib a) (vertex_attributes m) /\
  (bounded_kind m -> exists a, bounding_attrib m = Some a /\ (vartype a = 2 \/ vartype a = 3) /\ (attrib_start m a + 3 <= vs)%nat).
