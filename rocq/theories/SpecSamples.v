(** What the sample readers read, and when a directory has sample files. *)
From Coq Require Import ZArith Bool Ascii String List.
From Verif Require Import PyBase Struct Mesh Obj SpecFormat SpecColFormat Samples.
Import ListNotations.
Open Scope Z_scope.

(** The fields in file order. *)
Definition sample_fields (s : smp_sample Z) : list field :=
  vec_fields (smp_position s) ++ vec_fields (smp_rotation s) ++ [FLong (smp_face_id s)].
Definition smp_face_fields (s : smp_face Z) : list field :=
  vec_fields (smp_v1 s) ++ vec_fields (smp_n1 s) ++ vec_fields (smp_v2 s) ++ vec_fields (smp_n2 s) ++
  vec_fields (smp_v3 s) ++ vec_fields (smp_n3 s).

(** The same fields with the floats given by [f]. *)
Definition triple_as {F} (f : Z -> F) (a : vec3 Z) (b : vec3 F) : Prop :=
  let '(x, y, z) := a in b = (f x, f y, f z).
Definition sample_as {F} (f : Z -> F) (a : smp_sample Z) (b : smp_sample F) : Prop :=
  triple_as f (smp_position a) (smp_position b) /\ triple_as f (smp_rotation a) (smp_rotation b) /\
  smp_face_id b = smp_face_id a.
Definition smp_face_as {F} (f : Z -> F) (a : smp_face Z) (b : smp_face F) : Prop :=
  triple_as f (smp_v1 a) (smp_v1 b) /\ triple_as f (smp_n1 a) (smp_n1 b) /\
  triple_as f (smp_v2 a) (smp_v2 b) /\ triple_as f (smp_n2 a) (smp_n2 b) /\
  triple_as f (smp_v3 a) (smp_v3 b) /\ triple_as f (smp_n3 a) (smp_n3 b).

(** [name], a name without '/', is stem.samp… : the last dot starts the extension. *)
Definition sample_name (name rest : bytes) : Prop :=
  exists stem, name = stem ++ of_string ".samp" ++ rest /\ ~ In dot rest /\ exists c, In c stem /\ c <> dot.
(** What follows '.samp' names a lod: 'les', or '…_GL…' with G and L digits and no earlier '_'. *)
Definition digit (c : ascii) : Prop := In c (list_ascii_of_string "0123456789").
Definition names_lod (rest : bytes) : Prop :=
  rest = of_string "les" \/
  exists a g l b, rest = a ++ "_"%char :: g :: l :: b /\ ~ In "_"%char a /\ digit g /\ digit l.
