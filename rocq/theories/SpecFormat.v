(** The layout of a mesh file, field by field, stated without the
    readers and writers of Struct.v and Mesh.v: the sequence of typed fields of
    a mesh, and what block of bytes holds a field. Floats are 32-bit patterns. *)
From Coq Require Import ZArith NArith List Bool Ascii.
From Coq Require Import Reals.
From Flocq Require Import Core IEEE754.Binary IEEE754.Bits.
From Verif Require Import PyBase Struct Mesh.
Import ListNotations.
Open Scope Z_scope.

(** ** Fields *)
Inductive field :=
| FLong (z : Z)      (* C long *)
| FChar (z : Z)      (* signed char *)
| FShort (z : Z)     (* unsigned short *)
| FSShort (z : Z)    (* signed short *)
| FFloat (b : Z)     (* single, given by its bit pattern *)
| FText (s : bytes). (* bytes of a string *)

(** The unsigned number written by digits in base 256, most significant first. *)
Definition base256 (bs : bytes) : Z :=
  fold_left (fun a b => 256 * a + Z.of_N (N_of_ascii b)) bs 0.
Definition number_of (p : plat) (bs : bytes) : Z :=
  base256 (if big_endian p then bs else rev bs).

(** [bs] is a block of [w] bytes standing for the unsigned number [z] / for the
    signed number [z] in two's complement. *)
Definition holds_unsigned (p : plat) (w : nat) (z : Z) (bs : bytes) : Prop :=
  length bs = w /\ number_of p bs = z.
Definition holds_signed (p : plat) (w : nat) (z : Z) (bs : bytes) : Prop :=
  length bs = w /\ - 2 ^ (8 * Z.of_nat w - 1) <= z < 2 ^ (8 * Z.of_nat w - 1) /\
  (number_of p bs = z \/ number_of p bs = z + 2 ^ (8 * Z.of_nat w)).

Definition holds (p : plat) (f : field) (bs : bytes) : Prop :=
  match f with
  | FLong z => holds_signed p (match long_sz p with Long4 => 4 | Long8 => 8 end) z bs
  | FChar z => holds_signed p 1 z bs
  | FShort z => holds_unsigned p 2 z bs
  | FSShort z => holds_signed p 2 z bs
  | FFloat b => holds_unsigned p 4 b bs
  | FText s => bs = s
  end.

(** [bs] is the fields [fs] one after another, without gaps. *)
Definition laid_out (p : plat) (fs : list field) (bs : bytes) : Prop :=
  exists blocks, Forall2 (holds p) fs blocks /\ bs = concat blocks.

(** ** The fields of a mesh, in file order *)
Definition text_fields (s : bytes) : list field := [FLong (zlen s); FText s].
Definition triple_fields (v : option (vec3 Z)) : list field :=
  match v with Some (x, y, z) => [FFloat x; FFloat y; FFloat z] | None => [] end.
Definition matrix_fields (m : matrix4 Z) : list field := flat_map (map FFloat) m.
Definition head_fields (h : head) : list field :=
  [FLong (h_u1 h); FLong (h_version h); FLong (h_u3 h); FLong (h_u4 h); FLong (h_u5 h)].
Definition attrib_fields (a : vertattrib) : list field :=
  [FShort (flag a); FShort (offset a); FShort (vartype a); FShort (usage a)].
Definition bone_fields (b : bone Z) : list field := FLong (bone_id b) :: matrix_fields (bone_matrix b).
Definition rig_fields (r : rig Z) : list field := FLong (bonenum r) :: flat_map bone_fields (bones r).

(** The first block of a lod: bounds, pivot up to version 6, then rigs or nodes. *)
Definition nodes_fields (version : Z) (k : kind) (l : lod Z) : list field :=
  triple_fields (lod_min l) ++ triple_fields (lod_max l) ++
  (if version <=? 6 then triple_fields (pivot l) else []) ++
  (if isSkinnedMesh k then FLong (rignum l) :: flat_map rig_fields (rigs l)
   else FLong (nodenum l) ::
        (if isBundledMesh k then [] else flat_map matrix_fields (nodes l))).

Definition material_fields (version : Z) (k : kind) (m : mat Z) : list field :=
  (if isSkinnedMesh k then [] else match alphamode m with Some a => [FLong a] | None => [] end) ++
  text_fields (fxfile m) ++ text_fields (technique m) ++
  FLong (mapnum m) :: flat_map text_fields (maps m) ++
  [FLong (vstart m); FLong (istart m); FLong (inum m); FLong (vnum m);
   FLong (mat_u4 m); FLong (mat_u5 m)] ++
  (if isSkinnedMesh k then []
   else if version =? 11 then triple_fields (mmin m) ++ triple_fields (mmax m) else []).

Definition index_fields (i : pyseq Z) : list field :=
  match i with Scalar v => [FShort v] | Tuple l => map FShort l end.

(** All first blocks come before all material blocks. *)
Definition mesh_fields (m : mesh Z) : list field :=
  let k := m_kind m in let v := h_version (m_head m) in
  let ls := flat_map lods (geoms m) in
  head_fields (m_head m) ++ FChar (m_u1 m) ::
  FLong (geomnum m) :: map (fun g => FLong (lodnum g)) (geoms m) ++
  FLong (vertattribnum m) :: flat_map attrib_fields (vertex_attributes m) ++
  FLong (vertformat m) :: FLong (vertstride m) ::
  FLong (vertnum m) :: map FFloat (vertices m) ++
  FLong (indexnum m) :: index_fields (index m) ++
  (if isSkinnedMesh k then [] else [FLong (m_u2 m)]) ++
  flat_map (nodes_fields v k) ls ++
  flat_map (fun l => FLong (matnum l) :: flat_map (material_fields v k) (materials l)) ls.

(** ** The number a pattern stands for: sign bit, 8 bits of exponent, 23 bits of
    fraction. *)
Definition single_value (b : Z) (x : binary64) : Prop :=
  let sign := 2 ^ 31 <=? b in
  let e := (b / 2 ^ 23) mod 256 in
  let m := b mod 2 ^ 23 in
  if e =? 255 then
    if m =? 0 then x = B754_infinity 53 1024 sign else is_nan 53 1024 x = true
  else
    is_finite 53 1024 x = true /\ Bsign 53 1024 x = sign /\
    B2R 53 1024 x = ((if sign then -1 else 1) *
      (if e =? 0 then IZR m * bpow radix2 (-149) else IZR (2 ^ 23 + m) * bpow radix2 (e - 150)))%R.
