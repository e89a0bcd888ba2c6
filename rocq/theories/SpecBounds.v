(** Specification vocabulary for bounding boxes. *)
From Coq Require Import ZArith List Bool.
From Verif Require Import PyBase Struct Mesh Arith SpecEdit.
Import ListNotations.
Open Scope Z_scope.

Section SpecBounds.
Context {F : Type} (A : arith F).

(** Python's [x <= y] on floats (false if either is NaN). *)
Definition fle (x y : F) : Prop := f_lt A x y = true \/ f_eq A x y = true.

Definition axis (i : nat) (v : vec3 F) : F :=
  let '(x, y, z) := v in match i with O => x | S O => y | _ => z end.
Definition axes : list nat := [0; 1; 2]%nat.
Definition between (lo v hi : vec3 F) : Prop :=
  forall i, In i axes -> fle (axis i lo) (axis i v) /\ fle (axis i v) (axis i hi).
Definition origin : vec3 F := (f_zero A, f_zero A, f_zero A).

(** [lo], [hi] is the bounding box of the points of [l]: it contains them and each of
    its six numbers is attained by one of them. *)
Definition box (l : list (vec3 F)) (lo hi : vec3 F) : Prop :=
  (forall q, In q l -> between lo q hi) /\
  (forall i, In i axes -> (exists q, In q l /\ axis i q = axis i lo) /\
                          (exists q, In q l /\ axis i q = axis i hi)).

(** Three numbers of a vertex from [o] on. *)
Definition at3 (v : list F) (o : nat) : option (vec3 F) :=
  match nth_error v o, nth_error v (o + 1), nth_error v (o + 2) with
  | Some x, Some y, Some z => Some (x, y, z)
  | _, _, _ => None
  end.

(** The position attribute that bounds are computed from: the last one in use. (The
    first one, [position_attrib], is the same whenever there is one only.) *)
Definition bounding_attrib (m : mesh F) : option vertattrib :=
  find (fun a => (usage a =? 0) && in_use a) (rev (vertex_attributes m)).
Definition bounding_start (m : mesh F) : nat :=
  match bounding_attrib m with Some a => attrib_start m a | None => 0%nat end.
(** Positions of the vertices of a material. *)
Definition positions (vs : nat) (m : mesh F) (mt : mat F) : list (vec3 F) :=
  flat_map (fun v => match at3 v (bounding_start m) with Some q => [q] | None => [] end)
           (mat_vertices vs m mt).
Definition lod_positions (vs : nat) (m : mesh F) (l : lod F) : list (vec3 F) :=
  flat_map (positions vs m) (materials l).

(** Non-skinned meshes of version 11 have bounds in their materials. *)
Definition bounded_kind (m : mesh F) : Prop :=
  isSkinnedMesh (m_kind m) = false /\ h_version (m_head m) = 11.

(** The bounds of a lod and of its materials are the boxes of the origin and of their
    vertices (every vertex having a position), and the lod's box is that of the
    origin and of the corners of the materials' boxes. *)
Definition lod_boxed (vs : nat) (m : mesh F) (l : lod F) : Prop :=
  exists lo hi los his, lod_min l = Some lo /\ lod_max l = Some hi /\
    map mmin (materials l) = map Some los /\ map mmax (materials l) = map Some his /\
    box (origin :: lod_positions vs m l) lo hi /\
    box (origin :: los ++ his) lo hi /\
    Forall (fun mt => exists a b, mmin mt = Some a /\ mmax mt = Some b /\
              zlen (positions vs m mt) = vnum mt /\ box (origin :: positions vs m mt) a b) (materials l).

(** Everything except the bounds. *)
Definition mat_unbound (mt : mat F) : mat F :=
  {| alphamode := alphamode mt; fxfile := fxfile mt; technique := technique mt;
     mapnum := mapnum mt; maps := maps mt; vstart := vstart mt; istart := istart mt;
     inum := inum mt; vnum := vnum mt; mat_u4 := mat_u4 mt; mat_u5 := mat_u5 mt;
     mmin := None; mmax := None |}.
Definition lod_unbound (l : lod F) : lod F :=
  {| lod_min := None; lod_max := None; pivot := pivot l;
     rignum := rignum l; rigs := rigs l; nodenum := nodenum l; nodes := nodes l;
     matnum := matnum l; materials := map mat_unbound (materials l) |}.
Definition geom_unbound (g : geom F) : geom F :=
  {| lodnum := lodnum g; lods := map lod_unbound (lods g) |}.
Definition same_but_bounds (m m' : mesh F) : Prop :=
  same_header m m' /\ same_counts m m' /\ vertices m' = vertices m /\ index m' = index m /\
  map geom_unbound (geoms m') = map geom_unbound (geoms m).

(** A property of all lods of a mesh. *)
Definition every_lod (P : lod F -> Prop) (m : mesh F) : Prop :=
  Forall (fun g => Forall P (lods g)) (geoms m).

(** Halfway, as computed in the arithmetic. *)
Definition midpoint (lo hi c : vec3 F) : Prop :=
  forall i, In i axes -> axis i c = f_div A (f_add A (axis i lo) (axis i hi)) (f_two A).
(** The lod that [geoms[gi].lods[li]] means. *)
Definition lod_at (m : mesh F) (gi li : Z) (l : lod F) : Prop :=
  exists j k g, picks (length (geoms m)) gi j /\ nth_error (geoms m) j = Some g /\
                picks (length (lods g)) li k /\ nth_error (lods g) k = Some l.
End SpecBounds.
