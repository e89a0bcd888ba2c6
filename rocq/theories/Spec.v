(** Specification vocabulary: what the property theorems talk about. Nothing here
    is a model of code in /repo, and no loop of the model is used here. *)
From Coq Require Import ZArith List Bool.
From Verif Require Import PyBase Struct Mesh.
Import ListNotations.
Open Scope Z_scope.

(** ** Applying a function to every float of a mesh *)
Section Map.
Context {F G : Type} (f : F -> G).
Definition vec3_map (v : vec3 F) : vec3 G := let '(x, y, z) := v in (f x, f y, f z).
Definition matrix_map (m : matrix4 F) : matrix4 G := map (map f) m.
Definition bone_map (b : bone F) : bone G :=
  {| bone_id := bone_id b; bone_matrix := matrix_map (bone_matrix b) |}.
Definition rig_map (r : rig F) : rig G :=
  {| bonenum := bonenum r; bones := map bone_map (bones r) |}.
Definition mat_map (m : mat F) : mat G :=
  {| alphamode := alphamode m; fxfile := fxfile m; technique := technique m;
     mapnum := mapnum m; maps := maps m;
     vstart := vstart m; istart := istart m; inum := inum m; vnum := vnum m;
     mat_u4 := mat_u4 m; mat_u5 := mat_u5 m;
     mmin := option_map vec3_map (mmin m); mmax := option_map vec3_map (mmax m) |}.
Definition lod_map (l : lod F) : lod G :=
  {| lod_min := option_map vec3_map (lod_min l); lod_max := option_map vec3_map (lod_max l);
     pivot := option_map vec3_map (pivot l);
     rignum := rignum l; rigs := map rig_map (rigs l);
     nodenum := nodenum l; nodes := map matrix_map (nodes l);
     matnum := matnum l; materials := map mat_map (materials l) |}.
Definition geom_map (g : geom F) : geom G :=
  {| lodnum := lodnum g; lods := map lod_map (lods g) |}.
Definition mesh_map (m : mesh F) : mesh G :=
  {| m_kind := m_kind m; m_head := m_head m; m_u1 := m_u1 m; geomnum := geomnum m;
     geoms := map geom_map (geoms m);
     vertattribnum := vertattribnum m; vertex_attributes := vertex_attributes m;
     vertformat := vertformat m; vertstride := vertstride m; vertnum := vertnum m;
     vertices := map f (vertices m); indexnum := indexnum m; index := index m;
     m_u2 := m_u2 m |}.
End Map.

(** ** Every float of a mesh satisfies [P] *)
Section Floats.
Context {F : Type} (P : F -> Prop).
Definition vec3_all (v : vec3 F) : Prop := let '(x, y, z) := v in P x /\ P y /\ P z.
Definition opt_all {A} (Q : A -> Prop) (o : option A) : Prop :=
  match o with Some a => Q a | None => True end.
Definition matrix_all (m : matrix4 F) : Prop := Forall (Forall P) m.
Definition mat_all (m : mat F) : Prop :=
  opt_all vec3_all (mmin m) /\ opt_all vec3_all (mmax m).
Definition lod_all (l : lod F) : Prop :=
  opt_all vec3_all (lod_min l) /\ opt_all vec3_all (lod_max l) /\ opt_all vec3_all (pivot l) /\
  Forall (fun r => Forall (fun b => matrix_all (bone_matrix b)) (bones r)) (rigs l) /\
  Forall matrix_all (nodes l) /\ Forall mat_all (materials l).
Definition mesh_all (m : mesh F) : Prop :=
  Forall (fun g => Forall lod_all (lods g)) (geoms m) /\ Forall P (vertices m).
End Floats.

(** ** Consistency: what the file format can represent *)
Section Wf.
Context {F : Type} (p : plat).
Definition is_long (z : Z) : Prop := - 2 ^ (8 * Z.of_nat (long_bytes p) - 1) <= z < 2 ^ (8 * Z.of_nat (long_bytes p) - 1).
Definition is_ushort (z : Z) : Prop := 0 <= z < 65536.

(** [n] is a stored count of the list [l]: a non-positive count means "none". *)
Definition counts {A} (n : Z) (l : list A) : Prop := is_long n /\ length l = Z.to_nat n.

Definition wf_string (s : bytes) : Prop := is_long (zlen s).
Definition wf_matrix (m : matrix4 F) : Prop := length m = 4%nat /\ Forall (fun r => length r = 4%nat) m.
Definition wf_head (h : head) : Prop :=
  is_long (h_u1 h) /\ is_long (h_version h) /\ is_long (h_u3 h) /\ is_long (h_u4 h) /\ is_long (h_u5 h).
Definition wf_vertattrib (a : vertattrib) : Prop :=
  is_ushort (flag a) /\ is_ushort (offset a) /\ is_ushort (vartype a) /\ is_ushort (usage a).
Definition wf_bone (b : bone F) : Prop := is_long (bone_id b) /\ wf_matrix (bone_matrix b).
Definition wf_rig (r : rig F) : Prop := counts (bonenum r) (bones r) /\ Forall wf_bone (bones r).

(** [o] is present exactly when [c]. *)
Definition present {A} (c : bool) (o : option A) : Prop :=
  if c then exists a, o = Some a else o = None.

Definition wf_mat (version : Z) (skinned : bool) (m : mat F) : Prop :=
  present (negb skinned) (alphamode m) /\ opt_all is_long (alphamode m) /\
  wf_string (fxfile m) /\ wf_string (technique m) /\
  counts (mapnum m) (maps m) /\ Forall wf_string (maps m) /\
  is_long (vstart m) /\ is_long (istart m) /\ is_long (inum m) /\ is_long (vnum m) /\
  is_long (mat_u4 m) /\ is_long (mat_u5 m) /\
  present (negb skinned && (version =? 11)) (mmin m) /\
  present (negb skinned && (version =? 11)) (mmax m).

Definition wf_lod (version : Z) (bundled skinned : bool) (l : lod F) : Prop :=
  present true (lod_min l) /\ present true (lod_max l) /\ present (version <=? 6) (pivot l) /\
  (if skinned then
     counts (rignum l) (rigs l) /\ Forall wf_rig (rigs l) /\ nodenum l = 0 /\ nodes l = []
   else
     rignum l = 0 /\ rigs l = [] /\ is_long (nodenum l) /\
     (if bundled then nodes l = [] else counts (nodenum l) (nodes l) /\ Forall wf_matrix (nodes l))) /\
  counts (matnum l) (materials l) /\ Forall (wf_mat version skinned) (materials l).

Definition wf_geom (version : Z) (bundled skinned : bool) (g : geom F) : Prop :=
  counts (lodnum g) (lods g) /\ Forall (wf_lod version bundled skinned) (lods g).

(** A bare int in place of the index tuple happens exactly for one index. *)
Definition wf_index (n : Z) (i : pyseq Z) : Prop :=
  is_long n /\
  match i with
  | Scalar v => n = 1 /\ is_ushort v
  | Tuple l => n = zlen l /\ n <> 1 /\ Forall is_ushort l
  end.

Definition wf (m : mesh F) : Prop :=
  let v := h_version (m_head m) in
  let bundled := isBundledMesh (m_kind m) in
  let skinned := isSkinnedMesh (m_kind m) in
  wf_head (m_head m) /\ -128 <= m_u1 m < 128 /\
  counts (geomnum m) (geoms m) /\ Forall (wf_geom v bundled skinned) (geoms m) /\
  counts (vertattribnum m) (vertex_attributes m) /\ Forall wf_vertattrib (vertex_attributes m) /\
  is_long (vertformat m) /\ is_long (vertstride m) /\ is_long (vertnum m) /\
  data_num (vertstride m) (vertformat m) (vertnum m) = Ok (zlen (vertices m)) /\
  length (vertices m) <> 1%nat /\
  wf_index (indexnum m) (index m) /\
  (if skinned then m_u2 m = 0 else is_long (m_u2 m)).
End Wf.

(** 32-bit patterns. *)
Definition is_bits32 (z : Z) : Prop := 0 <= z < 2 ^ 32.

(** ** Number of bytes of a saved mesh, for a C long of [L] bytes *)
Section Size.
Context {F : Type} (L : Z).
Fixpoint sumZ {A} (f : A -> Z) (l : list A) : Z :=
  match l with [] => 0 | a :: t => f a + sumZ f t end.
Definition string_size (s : bytes) : Z := L + zlen s.
Definition nodes_size (version : Z) (bundled skinned : bool) (l : lod F) : Z :=
  24 + (if version <=? 6 then 12 else 0) + L +
  (if skinned then sumZ (fun r => L + zlen (bones r) * (L + 64)) (rigs l)
   else if bundled then 0 else 64 * zlen (nodes l)).
Definition mat_size (version : Z) (skinned : bool) (m : mat F) : Z :=
  (if skinned then 0 else L) + string_size (fxfile m) + string_size (technique m) +
  L + sumZ string_size (maps m) + 6 * L +
  (if negb skinned && (version =? 11) then 24 else 0).
Definition mats_size (version : Z) (skinned : bool) (l : lod F) : Z :=
  L + sumZ (mat_size version skinned) (materials l).
Definition seq_len {A} (s : pyseq A) : Z := match s with Scalar _ => 1 | Tuple l => zlen l end.
(** Everything up to and including the index count. *)
Definition head_size (m : mesh F) : Z :=
  11 * L + 1 + L * zlen (geoms m) + 8 * zlen (vertex_attributes m) + 4 * zlen (vertices m).
Definition file_size (m : mesh F) : Z :=
  let v := h_version (m_head m) in
  let b := isBundledMesh (m_kind m) in let s := isSkinnedMesh (m_kind m) in
  head_size m + 2 * seq_len (index m) + (if s then 0 else L) +
  sumZ (fun g => sumZ (nodes_size v b s) (lods g)) (geoms m) +
  sumZ (fun g => sumZ (mats_size v s) (lods g)) (geoms m).
End Size.

(** ** Single-precision patterns *)
(** Signalling NaN: exponent all ones, payload non-zero with its top bit clear. *)
Definition snan (b : Z) : Prop := (b / 2 ^ 23) mod 256 = 255 /\ 0 < b mod 2 ^ 23 < 2 ^ 22.

(** The same mesh data under another kind. *)
Definition with_kind {F} (k : kind) (m : mesh F) : mesh F :=
  {| m_kind := k; m_head := m_head m; m_u1 := m_u1 m; geomnum := geomnum m;
     geoms := geoms m; vertattribnum := vertattribnum m; vertex_attributes := vertex_attributes m;
     vertformat := vertformat m; vertstride := vertstride m; vertnum := vertnum m;
     vertices := vertices m; indexnum := indexnum m; index := index m; m_u2 := m_u2 m |}.

(** No lod announces node matrices. *)
Definition no_nodes {F} (m : mesh F) : Prop :=
  Forall (fun g => Forall (fun l => nodenum l <= 0) (lods g)) (geoms m).
