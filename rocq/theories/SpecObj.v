(** Specification vocabulary for names, files and mesh objects. *)
From Coq Require Import ZArith List Bool Ascii String.
From Verif Require Import PyBase Struct Mesh Arith Edit Obj.
Import ListNotations.
Open Scope Z_scope.

(** [d] is [c], with capital letters made small. *)
Definition small (c d : byte) : Prop :=
  let n := N_of_ascii c in
  (if (65 <=? n)%N && (n <=? 90)%N then N_of_ascii d = (n + 32)%N else d = c).

(** [fn] is a name with the extension [ext] (given in small letters): a directory part,
    then a stem with some character other than a dot, then a dot and the extension. *)
Definition has_extension (fn : bytes) (ext : string) : Prop :=
  exists d s x, fn = d ++ s ++ dot :: x /\ (d = [] \/ exists d', d = d' ++ [slash]) /\
    ~ In slash s /\ ~ In slash x /\ ~ In dot x /\ (exists c, In c s /\ c <> dot) /\
    Forall2 small x (of_string ext).

(** The name that export(filename) writes to. *)
Definition writes_to {F} (o : obj (F := F)) (filename : option bytes) (fn : bytes) : Prop :=
  match filename with
  | Some (c :: t) => fn = c :: t
  | _ => fn = o_filename o
  end.

(** [q] is [p] or a directory above it. *)
Definition above (q p : path) : Prop := fst q = fst p /\ exists l, snd p = snd q ++ l.

(** The nodes of [g] are those of [f] and some new directories above [p]. *)
Definition dirs_added (p : path) (f g : fs) : Prop :=
  forall q, g q = f q \/ (f q = None /\ g q = Some Dir /\ above q p).

(** Every node of the file system is in a directory. *)
Definition tree (f : fs) : Prop :=
  forall q n, snd q <> [] -> lookup f q = Some n -> lookup f (parent q) = Some Dir.

(** The last component of a name is a proper one. *)
Definition proper_name (fn : bytes) : Prop :=
  exists d s, fn = d ++ s /\ (d = [] \/ exists d', d = d' ++ [slash]) /\ ~ In slash s /\ s <> [] /\ s <> [dot].

(** The kind flags that the name asks for. *)
Definition kind_named (k : kind) (fn : bytes) : Prop :=
  (isSkinnedMesh k = true <-> has_extension fn "skinnedmesh") /\
  (isBundledMesh k = true <-> has_extension fn "bundledmesh") /\
  (isStaticMesh k = true <-> has_extension fn "staticmesh") /\
  (isCollisionMesh k = true <-> has_extension fn "collisionmesh").

(** The same files. *)
Definition same_files (f g : fs) : Prop := forall q, g q = f q.

(** The mesh that export writes: with its bounds updated, or as it is. *)
Definition prepared_mesh {F} (A : arith F) (ub : bool) (m m' : mesh F) (r : option exn) : Prop :=
  if ub then update_boundaries A m = (m', r) else m' = m /\ r = None.
