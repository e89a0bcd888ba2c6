(** Specification vocabulary for the editing methods of the old mesh class. *)
From Coq Require Import ZArith List Bool.
From Flocq Require Import IEEE754.Binary IEEE754.Bits.
From Verif Require Import PyBase Struct Mesh Arith SpecEdit SpecBounds.
Import ListNotations.
Open Scope Z_scope.

(** Floats per attribute of a declared type (FLOAT1 to FLOAT3, D3DCOLOR, UBYTE4). *)
Definition old_widths : list (Z * nat) := [(0, 1%nat); (1, 2%nat); (2, 3%nat); (4, 1%nat); (5, 3%nat)].

(** [declared f o l e]: the attributes of [l] follow each other without gaps from float
    [o] to float [e] of a vertex, [f] being the bytes per float. *)
Inductive declared (f : Z) : nat -> list vertattrib -> nat -> Prop :=
| declared_nil o : declared f o [] o
| declared_cons o a w l e : In (vartype a, w) old_widths -> offset a = f * Z.of_nat o ->
    declared f (o + w) l e -> declared f o (a :: l) e.

Section SpecOldEdit.
Context {F : Type}.

Definition old_known (a : vertattrib) : Prop :=
  In (vartype a) [0; 1; 2; 3; 4; 5; 17] /\
  In (usage a) [0; 1; 2; 3; 4; 5; 6; 7; 8; 9; 10; 11; 12; 13; 261; 517; 773; 1029].

(** Meshes whose attributes in use are declared in the order in which a vertex holds
    them, without gaps or duplicates, and whose counts are right; [vs] floats per
    vertex. *)
Record canonical (vs : nat) (m : mesh F) : Prop := {
  can_size : (0 < vs)%nat;
  can_short : short_offsets m;
  can_known : Forall old_known (vertex_attributes m);
  can_declared : declared (vertformat m) 0 (filter in_use (vertex_attributes m)) vs;
  can_usages : NoDup (map usage (filter in_use (vertex_attributes m)));
  can_stride : vertstride m = Z.of_nat vs * vertformat m;
  can_vertnum : zlen (vertices m) = vertnum m * Z.of_nat vs;
  can_53 : zlen (vertices m) <= 2 ^ 53 }.

(** The attribute [a] in use of usage [u]. *)
Definition has_attrib (m : mesh F) (u : Z) (a : vertattrib) : Prop :=
  In a (vertex_attributes m) /\ in_use a = true /\ usage a = u.
(** The attribute of usage [u] is there and is a FLOAT3. *)
Definition float3 (m : mesh F) (u : Z) : Prop := exists a, has_attrib m u a /\ vartype a = 2.
Definition has_positions (m : mesh F) : Prop := float3 m 0.

(** The attribute of usage [u] of vertex [j], if there is one. *)
Definition field_of (vs : nat) (m : mesh F) (j : nat) (u : Z) (x : option (list F)) : Prop :=
  (exists a w, has_attrib m u a /\ In (vartype a, w) old_widths /\
     x = Some (firstn w (skipn (attrib_start m a) (block vs (vertices m) j)))) \/
  ((forall a, ~ has_attrib m u a) /\ x = None).
(** [v] has all attributes in use, each with its number of floats. *)
Definition complete (m : mesh F) (v : Z -> option (list F)) : Prop :=
  forall u a w, has_attrib m u a -> In (vartype a, w) old_widths -> exists x, v u = Some x /\ length x = w.
(** [v'] is [v] without the attributes that the mesh does not use. *)
Definition trimmed (m : mesh F) (v v' : Z -> option (list F)) : Prop :=
  forall u, ((exists a, has_attrib m u a) -> v' u = v u) /\ ((forall a, ~ has_attrib m u a) -> v' u = None).

(** Lods and materials have bounds. *)
Definition mat_bounded (mt : mat F) : Prop := mmin mt <> None /\ mmax mt <> None.
Definition lod_bounded (l : lod F) : Prop :=
  lod_min l <> None /\ lod_max l <> None /\ Forall mat_bounded (materials l).

(** All bounds and positions have coordinates that satisfy [P]. *)
Definition coords (P : F -> Prop) (q : vec3 F) : Prop := forall i, In i axes -> P (axis i q).
Definition mat_coords (P : F -> Prop) (vs : nat) (m : mesh F) (mt : mat F) : Prop :=
  (forall q, mmin mt = Some q -> coords P q) /\ (forall q, mmax mt = Some q -> coords P q) /\
  Forall (coords P) (positions vs m mt).
Definition lod_coords (P : F -> Prop) (vs : nat) (m : mesh F) (l : lod F) : Prop :=
  (forall q, lod_min l = Some q -> coords P q) /\ (forall q, lod_max l = Some q -> coords P q) /\
  Forall (mat_coords P vs m) (materials l).

(** As many lods in each geom and materials in each lod. *)
Definition same_nesting (a b : mesh F) : Prop :=
  Forall2 (fun g h => Forall2 (fun l k => length (materials l) = length (materials k)) (lods g) (lods h))
          (geoms a) (geoms b).
(** The [k]-th material of [m'] has the vertices of those of [a] and [b], and the
    triangles of both. *)
Definition mats_joined (vs : nat) (a b m' : mesh F) : Prop :=
  length (mats m') = length (mats a) /\
  forall k x y z, nth_error (mats a) k = Some x -> nth_error (mats b) k = Some y -> nth_error (mats m') k = Some z ->
    vnum z = vnum x + vnum y /\ inum z = inum x + inum y /\
    mat_vertices vs m' z = mat_vertices vs a x ++ mat_vertices vs b y /\
    mat_indices m' z = mat_indices a x ++ map (fun i => i + vnum x) (mat_indices b y).

Context (A : arith F).

(** [lo'], [hi'] are the bounds [lo], [hi] enlarged to contain the points of [l], no
    more than necessary. *)
Definition enlarged (l : list (vec3 F)) (lo hi lo' hi' : vec3 F) : Prop :=
  (forall i, In i axes -> fle A (axis i lo') (axis i lo) /\ fle A (axis i hi) (axis i hi')) /\
  (forall q, In q l -> between A lo' q hi') /\
  (forall i, In i axes -> (axis i lo' = axis i lo \/ exists q, In q l /\ axis i q = axis i lo') /\
                          (axis i hi' = axis i hi \/ exists q, In q l /\ axis i q = axis i hi')).
Definition mat_enlarged (vs : nat) (m : mesh F) (mt mt' : mat F) : Prop :=
  exists lo hi lo' hi', mmin mt = Some lo /\ mmax mt = Some hi /\ mmin mt' = Some lo' /\ mmax mt' = Some hi' /\
    zlen (positions vs m mt) = vnum mt /\ enlarged (positions vs m mt) lo hi lo' hi'.
Definition lod_enlarged (vs : nat) (m : mesh F) (l l' : lod F) : Prop :=
  (exists lo hi lo' hi', lod_min l = Some lo /\ lod_max l = Some hi /\ lod_min l' = Some lo' /\ lod_max l' = Some hi' /\
    enlarged (lod_positions vs m l) lo hi lo' hi') /\
  Forall2 (mat_enlarged vs m) (materials l) (materials l').
(** All bounds of [m] are enlarged in [m'] to contain the vertices of [m']. *)
Definition bounds_enlarged (vs : nat) (m m' : mesh F) : Prop :=
  Forall2 (fun g g' => Forall2 (lod_enlarged vs m') (lods g) (lods g')) (geoms m) (geoms m').

(** Everything except vertices and bounds. *)
Definition same_but_vertices_bounds (m m' : mesh F) : Prop :=
  same_header m m' /\ same_counts m m' /\ index m' = index m /\
  map geom_unbound (geoms m') = map geom_unbound (geoms m).

(** The arithmetic of [sum((x, d))], which starts from zero. *)
Definition sum2 (x d : F) : F := f_add A (f_add A (f_zero A) x) d.
(** Component [c] of a vertex whose three components from [o] on are moved by [off]. *)
Definition shifted (o : nat) (off : list F) (c : nat) (x : F) : F :=
  if (o <=? c)%nat then match nth_error (firstn 3 off) (c - o) with Some d => sum2 x d | None => x end else x.
End SpecOldEdit.

(** A zero of either sign. *)
Definition zero64 (x : binary64) : Prop := exists s, x = B754_zero 53 1024 s.
