(** Specification vocabulary for the output of deprecated/mesh_read.py. *)
From Coq Require Import ZArith List Bool.
From Verif Require Import PyBase Struct Mesh Arith SpecEdit SpecBounds SpecOldEdit Display.
Import ListNotations.
Open Scope Z_scope.

(** [ls] is a full listing of [m]: a section of vertnum + 1 lines for each attribute,
    then the corners [ix], with an empty line after every third. *)
Record mesh_shown {F} (vs : nat) (m : mesh F) (ix : list Z) (ls : list (line F)) : Prop := {
  shown_length : length ls = (length (vertex_attributes m) * S (Z.to_nat (vertnum m)) + 1 + (length ix + length ix / 3))%nat;
  shown_head : forall j a, nth_error (vertex_attributes m) j = Some a ->
    nth_error ls (j * S (Z.to_nat (vertnum m))) = Some (AttribHead (usage a) (vartype a));
  (** The line of vertex [i]: the position in the list of numbers, and the numbers. *)
  shown_row : forall j a i, nth_error (vertex_attributes m) j = Some a -> (i < Z.to_nat (vertnum m))%nat ->
    exists l, nth_error ls (j * S (Z.to_nat (vertnum m)) + 1 + i) = Some l /\
    (in_use a = true -> exists w, In (vartype a, w) old_widths /\
       l = AttribLine (Z.of_nat i) (Z.of_nat (i * vs + attrib_start m a))
             (firstn w (skipn (attrib_start m a) (block vs (vertices m) i)))) /\
    (vartype a = 17 -> l = AttribLine (Z.of_nat i) (Z.of_nat (i * vs + attrib_start m a)) []);
  shown_index : nth_error ls (length (vertex_attributes m) * S (Z.to_nat (vertnum m))) = Some IndexHead;
  (** The line of a corner: the first three numbers of its vertex. *)
  shown_corner : forall k v, nth_error ix k = Some v -> 0 <= v < vertnum m -> (3 <= vs)%nat ->
    nth_error ls (length (vertex_attributes m) * S (Z.to_nat (vertnum m)) + 1 + (k + k / 3)) =
    Some (CornerLine v (firstn 3 (block vs (vertices m) (Z.to_nat v))));
  shown_blank : forall t, (3 * t + 3 <= length ix)%nat ->
    nth_error ls (length (vertex_attributes m) * S (Z.to_nat (vertnum m)) + 1 + (4 * t + 3)) = Some Blank }.

(** The material that [geoms[g].lods[l].materials[k]] means. *)
Definition mat_at {F} (m : mesh F) g l k (mt : mat F) : Prop :=
  exists lo i, lod_at m g l lo /\ picks (length (materials lo)) k i /\ nth_error (materials lo) i = Some mt.

(** [ls] lists the data of the material [mt] of geom [g]. *)
Record material_shown {F} (g : Z) (mt : mat F) (ls : list mline) : Prop := {
  ms_length : length ls = (9 + length (maps mt))%nat;
  ms_head : firstn 5 ls = [MGeom g; MAlpha (alphamode mt); MFx (fxfile mt); MTechnique (technique mt); MMapnum (mapnum mt)];
  ms_map : forall i s, nth_error (maps mt) i = Some s -> nth_error ls (5 + i) = Some (MMap (Z.of_nat i) s);
  ms_tail : skipn (5 + length (maps mt)) ls = [MVnum (vnum mt); MVstart (vstart mt); MInum (inum mt); MIstart (istart mt)] }.
Definition skinned_kind : kind :=
  {| isSkinnedMesh := true; isBundledMesh := false; isStaticMesh := false; isCollisionMesh := false |}.
