(** Specification vocabulary for the editing methods: materials, the vertices and
    indices they own, resolved corners, layouts. Independent of the loops in Edit.v. *)
From Coq Require Import ZArith List Bool Permutation.
From Verif Require Import PyBase Struct Mesh Arith.
Import ListNotations.
Open Scope Z_scope.

Section SpecEdit.
Context {F : Type}.

(** All materials, geom by geom and lod by lod (the order of the file). *)
Definition mats_of (gs : list (geom F)) : list (mat F) :=
  flat_map (fun g => flat_map materials (lods g)) gs.
Definition mats (m : mesh F) : list (mat F) := mats_of (geoms m).

(** [i]-th block of [n] consecutive items. *)
Definition block {B} (n : nat) (l : list B) (i : nat) : list B := firstn n (skipn (i * n) l).

(** The vertices a material owns, [vs] numbers each. *)
Definition mat_vertices (vs : nat) (m : mesh F) (mt : mat F) : list (list F) :=
  map (fun i => block vs (vertices m) (Z.to_nat (vstart mt) + i)) (seq 0 (Z.to_nat (vnum mt))).

Definition index_list (m : mesh F) : list Z :=
  match index m with Scalar v => [v] | Tuple l => l end.
(** The indices a material owns; they count from the material's first vertex. *)
Definition mat_indices (m : mesh F) (mt : mat F) : list Z :=
  firstn (Z.to_nat (inum mt)) (skipn (Z.to_nat (istart mt)) (index_list m)).

(** Corners of the triangles of a material: full data of the vertex behind each index. *)
Definition corner (vs : nat) (m : mesh F) (mt : mat F) (i : Z) : option (list F) :=
  if i <? 0 then None else nth_error (mat_vertices vs m mt) (Z.to_nat i).
Definition corners (vs : nat) (m : mesh F) (mt : mat F) : list (option (list F)) :=
  map (corner vs m mt) (mat_indices m mt).

(** The material's ranges lie inside the arrays. *)
Definition mat_in (vs : nat) (m : mesh F) (mt : mat F) : Prop :=
  0 <= vstart mt /\ 0 <= vnum mt /\ (vstart mt + vnum mt) * Z.of_nat vs <= zlen (vertices m) /\
  0 <= istart mt /\ 0 <= inum mt /\ istart mt + inum mt <= zlen (index_list m).
(** The same for the vertices alone. *)
Definition mat_vin (vs : nat) (m : mesh F) (mt : mat F) : Prop :=
  0 <= vstart mt /\ 0 <= vnum mt /\ (vstart mt + vnum mt) * Z.of_nat vs <= zlen (vertices m).
Definition has_tuple (m : mesh F) : Prop := exists l, index m = Tuple l.
Definition in_range (vs : nat) (m : mesh F) : Prop :=
  has_tuple m /\ Forall (mat_in vs m) (mats m).
(** The material's indices point at its own vertices. *)
Definition mat_closed (m : mesh F) (mt : mat F) : Prop :=
  Forall (fun i => 0 <= i < vnum mt) (mat_indices m mt).
Definition closed (m : mesh F) : Prop := Forall (mat_closed m) (mats m).

(** Consecutive ranges (start, length) from [a] to [b]. *)
Fixpoint tiles (a : Z) (l : list (Z * Z)) (b : Z) : Prop :=
  match l with
  | [] => a = b
  | (s, n) :: t => s = a /\ 0 <= n /\ tiles (a + n) t b
  end.
Definition tiled_vertices (vs : nat) (m : mesh F) : Prop :=
  exists n, zlen (vertices m) = n * Z.of_nat vs /\
            tiles 0 (map (fun mt => (vstart mt, vnum mt)) (mats m)) n.
Definition tiled_indices (m : mesh F) : Prop :=
  exists l, index m = Tuple l /\
            tiles 0 (map (fun mt => (istart mt, inum mt)) (mats m)) (zlen l).
(** The materials tile both arrays in order. *)
Definition packed (vs : nat) (m : mesh F) : Prop := tiled_vertices vs m /\ tiled_indices m.

(** A material without its place in the arrays. *)
Definition unplaced (mt : mat F) : mat F :=
  {| alphamode := alphamode mt; fxfile := fxfile mt; technique := technique mt;
     mapnum := mapnum mt; maps := maps mt; vstart := 0; istart := 0;
     inum := inum mt; vnum := vnum mt;
     mat_u4 := mat_u4 mt; mat_u5 := mat_u5 mt; mmin := mmin mt; mmax := mmax mt |}.
(** ... and without its counts. *)
Definition uncounted (mt : mat F) : mat F :=
  {| alphamode := alphamode mt; fxfile := fxfile mt; technique := technique mt;
     mapnum := mapnum mt; maps := maps mt; vstart := 0; istart := 0; inum := 0; vnum := 0;
     mat_u4 := mat_u4 mt; mat_u5 := mat_u5 mt; mmin := mmin mt; mmax := mmax mt |}.
Definition lod_mats (f : mat F -> mat F) (l : lod F) : lod F :=
  {| lod_min := lod_min l; lod_max := lod_max l; pivot := pivot l;
     rignum := rignum l; rigs := rigs l; nodenum := nodenum l; nodes := nodes l;
     matnum := matnum l; materials := map f (materials l) |}.
Definition geom_mats (f : mat F -> mat F) (g : geom F) : geom F :=
  {| lodnum := lodnum g; lods := map (lod_mats f) (lods g) |}.

(** [m'] is [m] with other geoms and arrays: everything else is unchanged. *)
Definition same_header (m m' : mesh F) : Prop :=
  m_kind m' = m_kind m /\ m_head m' = m_head m /\ m_u1 m' = m_u1 m /\
  geomnum m' = geomnum m /\ vertattribnum m' = vertattribnum m /\
  vertex_attributes m' = vertex_attributes m /\
  vertformat m' = vertformat m /\ vertstride m' = vertstride m /\ m_u2 m' = m_u2 m.
Definition same_counts (m m' : mesh F) : Prop :=
  vertnum m' = vertnum m /\ indexnum m' = indexnum m.

Definition same_but_vertices (m m' : mesh F) : Prop :=
  same_header m m' /\ same_counts m m' /\ geoms m' = geoms m /\ index m' = index m.

(** Attribute that is not marked unused (255). *)
Definition in_use (a : vertattrib) : bool := negb (flag a =? 255).
(** The position attribute (usage 0): the first one in use. *)
Definition position_attrib (m : mesh F) : option vertattrib :=
  find (fun a => (usage a =? 0) && in_use a) (vertex_attributes m).
(** Where an attribute starts in a vertex: byte offset over bytes per number. *)
Definition attrib_start (m : mesh F) (a : vertattrib) : nat := Z.to_nat (offset a / vertformat m).
Definition short_offsets (m : mesh F) : Prop :=
  0 < vertformat m /\ Forall (fun a => 0 <= offset a < 65536) (vertex_attributes m).

Definition position_start (m : mesh F) : nat :=
  match position_attrib m with Some a => attrib_start m a | None => 0%nat end.

(** Component [c] of a vertex whose components from [o] on are moved by [off]. *)
Definition moved (A : arith F) (o : nat) (off : list F) (c : nat) (x : F) : F :=
  if (o <=? c)%nat then match nth_error off (c - o) with Some d => f_add A x d | None => x end else x.
Definition moved_vertex (A : arith F) (o : nat) (off : list F) (v : list F) : list F :=
  map (fun p => moved A o off (fst p) (snd p)) (combine (seq 0 (length v)) v).

(** Attributes that a rotation of the mesh concerns: position (0), normal (3) and
    tangent (6). *)
Definition oriented (a : vertattrib) : bool :=
  in_use a && ((usage a =? 0) || (usage a =? 3) || (usage a =? 6)).
Definition oriented_attribs (m : mesh F) : list vertattrib := filter oriented (vertex_attributes m).

(** Three numbers at [o]. *)
Definition triple (v : list F) (o : nat) (q : vec3 F) : Prop :=
  let '(x, y, z) := q in
  nth_error v o = Some x /\ nth_error v (o + 1) = Some y /\ nth_error v (o + 2) = Some z.
(** 3-component attributes that do not overlap; component outside of an attribute. *)
Definition apart (m : mesh F) (a b : vertattrib) : Prop :=
  (attrib_start m a + 3 <= attrib_start m b \/ attrib_start m b + 3 <= attrib_start m a)%nat.
Definition outside (m : mesh F) (c : nat) (a : vertattrib) : Prop :=
  (c < attrib_start m a \/ attrib_start m a + 3 <= c)%nat.
(** Every attribute that a rotation concerns is a FLOAT3 (type 2) inside the vertex,
    and they do not overlap. *)
Definition rotate_ready (vs : nat) (m : mesh F) : Prop :=
  short_offsets m /\
  Forall (fun a => vartype a = 2 /\ (attrib_start m a + 3 <= vs)%nat) (oriented_attribs m) /\
  ForallOrdPairs (apart m) (oriented_attribs m).

(** Elementary rotations about z, x and y, in whatever arithmetic. *)
Section Rot.
Context (A : arith F).
Notation "x + y" := (f_add A x y). Notation "x - y" := (f_sub A x y). Notation "x * y" := (f_mul A x y).
Definition roll_by (t : F) (v : vec3 F) : vec3 F :=
  let '(x, y, z) := v in (x * f_cos A t - y * f_sin A t, x * f_sin A t + y * f_cos A t, z).
Definition pitch_by (t : F) (v : vec3 F) : vec3 F :=
  let '(x, y, z) := v in (x, y * f_cos A t - z * f_sin A t, y * f_sin A t + z * f_cos A t).
Definition yaw_by (t : F) (v : vec3 F) : vec3 F :=
  let '(x, y, z) := v in (x * f_cos A t + z * f_sin A t, y, z * f_cos A t - x * f_sin A t).
(** Angles in degrees: yaw, pitch, roll; roll is applied first. *)
Definition turn (yaw pitch roll : F) (v : vec3 F) : vec3 F :=
  yaw_by (f_radians A yaw) (pitch_by (f_radians A pitch) (roll_by (f_radians A roll) v)).
(** Angles that can be turned by: none of them is infinite. *)
Definition can_turn (yaw pitch roll : F) : Prop :=
  f_trig A (f_radians A yaw) = true /\ f_trig A (f_radians A pitch) = true /\ f_trig A (f_radians A roll) = true.
End Rot.

(** Python index [i] of a list of [n] items means position [k]. *)
Definition picks (n : nat) (i : Z) (k : nat) : Prop :=
  (k < n)%nat /\ (Z.of_nat k = i \/ Z.of_nat k = i + Z.of_nat n).
(** [order] lists the positions [ks], a permutation of all [n] positions. *)
Definition permutes (n : nat) (order : list Z) (ks : list nat) : Prop :=
  Forall2 (picks n) order ks /\ Permutation ks (seq 0 n).
(** Material [x] of [m'] has the content of material [y] of [m]. *)
Definition same_content (vs : nat) (m' m : mesh F) (x y : mat F) : Prop :=
  unplaced x = unplaced y /\ mat_vertices vs m' x = mat_vertices vs m y /\
  mat_indices m' x = mat_indices m y /\ corners vs m' x = corners vs m y.

(** Attributes with a type and a usage of the enumerations D3DDECLTYPE, D3DDECLUSAGE. *)
Definition known_attrib (a : vertattrib) : Prop :=
  In (vartype a) [0; 1; 2; 3; 4; 17] /\
  In (usage a) [0; 1; 2; 3; 4; 5; 6; 7; 8; 9; 10; 11; 12; 13; 261; 517; 773; 1029].

(** Mesh compatibility. *)
Definition mat_compat (a b : mat F) : Prop :=
  alphamode a = alphamode b /\ fxfile a = fxfile b /\ technique a = technique b /\ maps a = maps b.
Definition compatible (a b : mesh F) : Prop :=
  Forall2 (fun g h => Forall2 (fun l k => Forall2 mat_compat (materials l) (materials k)) (lods g) (lods h))
          (geoms a) (geoms b) /\
  vertex_attributes a = vertex_attributes b.
End SpecEdit.
