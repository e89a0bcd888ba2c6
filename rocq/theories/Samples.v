(** Lightmap samples in deprecated/modmesh.py: the readers of a sample and of a face, and
    LoadBF2Mesh with loadSamples=True. *)
From Coq Require Import ZArith Bool Ascii String List.
From Verif Require Import PyBase Struct Mesh Arith Edit Obj Old Bf2.
Import ListNotations.
Open Scope Z_scope.
Open Scope res_scope.

Section Readers.
Context {F : Type} (p : plat) (unpackf : Z -> F).

(** class smp_sample, modmesh.py:1098-1103. *)
Record smp_sample := { smp_position : vec3 F; smp_rotation : vec3 F; smp_face_id : Z }.
(** smp_sample.read, modmesh.py:1105-1108. The fields that are already set when a later
    read raises are not modelled. *)
Definition read_sample : reader smp_sample :=
  get a <- read_float3 p unpackf;
  get b <- read_float3 p unpackf;
  get c <- read_long p;
  rret {| smp_position := a; smp_rotation := b; smp_face_id := c |}.

(** class smp_face, modmesh.py:1111-1131. *)
Record smp_face := { smp_v1 : vec3 F; smp_n1 : vec3 F; smp_v2 : vec3 F; smp_n2 : vec3 F;
                     smp_v3 : vec3 F; smp_n3 : vec3 F }.
(** smp_face.read, modmesh.py:1133-1141. *)
Definition read_face : reader smp_face :=
  get v1 <- read_float3 p unpackf;
  get n1 <- read_float3 p unpackf;
  get v2 <- read_float3 p unpackf;
  get n2 <- read_float3 p unpackf;
  get v3 <- read_float3 p unpackf;
  get n3 <- read_float3 p unpackf;
  rret {| smp_v1 := v1; smp_n1 := n1; smp_v2 := v2; smp_n2 := n2; smp_v3 := v3; smp_n3 := n3 |}.

(** LoadBF2Sample(filepath), modmesh.py:140-144: the name StdSample is not defined. *)
Definition load_sample (f : fs) (fn : bytes) : res unit :=
  do _ <- open_rb f fn; Raise EName.

(** [int(c)] of a string of one character; only ASCII digits are considered. *)
Definition int_char (c : ascii) : res Z := if digitc c then Ok (Z.of_N (N_of_ascii c) - 48) else Raise EValue.
Definition char_at (s : bytes) (i : nat) : res ascii :=
  match nth_error s i with Some c => Ok c | None => Raise EIndex end.
(** [int(ext.split('_')[1][i])], modmesh.py:132-133. *)
Definition sample_digit (ext : bytes) (i : nat) : res Z :=
  match nth_error (split "_"%char ext) 1 with
  | Some s => do c <- char_at s i; int_char c
  | None => Raise EIndex
  end.

(** One round of the loop, modmesh.py:121-136. The right hand side of an assignment is
    evaluated before the geom and the lod are looked up. *)
Definition sample_of_name (f : fs) (dir name : bytes) : res unit :=
  let ext := splitext_ext name in
  if bytes_eqb (firstn 5 ext) (of_string ".samp") then
    if bytes_eqb ext (of_string ".samples") then load_sample f (path_join dir name)
    else do _ <- sample_digit ext 0;
         do _ <- sample_digit ext 1;
         load_sample f (path_join dir name)
  else Ok tt.
Fixpoint samples_of_names (f : fs) (dir : bytes) (names : list bytes) : res unit :=
  match names with
  | [] => Ok tt
  | n :: t => do _ <- sample_of_name f dir n; samples_of_names f dir t
  end.

(** LoadBF2Mesh(filepath, loadSamples=True), modmesh.py:105-137. [names] is what
    os.listdir gives for the directory of the file; os.listdir('') raises. *)
Definition load_with_samples (f : fs) (fn : bytes) (names : list bytes) : res (mesh F) :=
  do m <- old_load_mesh p unpackf f fn;
  match dirname fn with
  | [] => Raise EFileNotFound
  | dir => do _ <- samples_of_names f dir names; Ok m
  end.
End Readers.
Arguments smp_sample F : clear implicits.
Arguments smp_face F : clear implicits.
