(** Specification vocabulary for the surface that a mesh describes. *)
From Coq Require Import ZArith List Bool Reals.
From Verif Require Import PyBase Struct Mesh Arith RArith Edit Spec SpecEdit SpecVec.
Import ListNotations.
Open Scope Z_scope.

(** ** Triangles *)
Fixpoint triples {A} (l : list A) : list (A * A * A) :=
  match l with a :: b :: c :: t => (a, b, c) :: triples t | _ => [] end.
Definition on3 {A B} (f : A -> B) (t : A * A * A) : B * B * B := let '(a, b, c) := t in (f a, f b, f c).
(** The directed edges of the triangles. *)
Definition edges {A} (l : list (A * A * A)) : list (A * A) :=
  flat_map (fun t => let '(a, b, c) := t in [(a, b); (b, c); (c, a)]) l.
(** Each edge belongs to exactly two triangles, which run along it in opposite
    directions. *)
Definition closed_surface {A} (l : list (A * A * A)) : Prop :=
  NoDup (edges l) /\ forall a b, In (a, b) (edges l) -> In (b, a) (edges l).

(** ** Vectors *)
Definition minus (u v : vec3 R) : vec3 R :=
  let '(a, b, c) := u in let '(x, y, z) := v in (a - x, b - y, c - z)%R.
Definition plus (u v : vec3 R) : vec3 R :=
  let '(a, b, c) := u in let '(x, y, z) := v in (a + x, b + y, c + z)%R.
Definition triple_product (u v w : vec3 R) : R := scalar_product u (vector_product v w).
(** A rotation about the origin. *)
Record rotation (g : vec3 R -> vec3 R) : Prop := {
  rot_minus : forall u v, g (minus u v) = minus (g u) (g v);
  rot_scalar : forall u v, scalar_product (g u) (g v) = scalar_product u v;
  rot_triple : forall u v w, triple_product (g u) (g v) (g w) = triple_product u v w }.

(** The vector that a triangle faces; its length is twice the area. *)
Definition facing (t : vec3 R * vec3 R * vec3 R) : vec3 R :=
  let '(p, q, r) := t in vector_product (minus q p) (minus r p).
Definition sumR (l : list R) : R := fold_right Rplus 0%R l.
Definition area (l : list (vec3 R * vec3 R * vec3 R)) : R :=
  sumR (map (fun t => sqrt (scalar_product (facing t) (facing t)) / 2)%R l).
(** The volume inside a closed surface: signed volumes of the cones from the origin. *)
Definition volume (l : list (vec3 R * vec3 R * vec3 R)) : R :=
  sumR (map (fun t => let '(p, q, r) := t in triple_product p q r / 6)%R l).

(** ** Meshes *)
(** The triangles of a mesh: for each the data of its three vertices. *)
Definition faces {F} (vs : nat) (m : mesh F) : list (list F * list F * list F) :=
  flat_map (fun mt => triples (map (fun c => match c with Some v => v | None => [] end) (corners vs m mt))) (mats m).
(** Three numbers of a vertex. *)
Definition vec_at (o : nat) (v : list R) : vec3 R := (nth o v 0, nth (o + 1) v 0, nth (o + 2) v 0)%R.
Definition surface (vs : nat) (m : mesh R) : list (vec3 R * vec3 R * vec3 R) :=
  map (on3 (vec_at (position_start m))) (faces vs m).
(** How directly the normals at the three corners of a triangle point to the side that
    it faces. *)
Definition shade (o n : nat) (t : list R * list R * list R) : R * R * R :=
  on3 (fun v => scalar_product (vec_at n v) (facing (on3 (vec_at o) t))) t.
Definition shading (vs : nat) (m : mesh R) (a : vertattrib) : list (R * R * R) :=
  map (shade (position_start m) (attrib_start m a)) (faces vs m).

(** A packed mesh whose indices point at vertices of their material and whose vertices
    have positions. *)
Record drawable {F} (vs : nat) (m : mesh F) : Prop := {
  dr_size : vertex_size m = Ok (Z.of_nat vs);
  dr_pos : (0 < vs)%nat;
  dr_packed : packed vs m;
  dr_closed : closed m;
  dr_ready : rotate_ready vs m;
  dr_position : exists a, position_attrib m = Some a }.
(** Materials made of whole triangles. *)
Definition whole {F} (m : mesh F) : Prop := Forall (fun mt => (Z.to_nat (inum mt) mod 3 = 0)%nat) (mats m).

(** A change of vertices that moves the positions by [g] and [d], turns the other
    directed attributes by [g] and keeps all else. *)
Definition rigid (vs : nat) (m : mesh R) (g : vec3 R -> vec3 R) (d : vec3 R) (h : list R -> list R) : Prop :=
  forall v, length v = vs ->
    length (h v) = vs /\
    vec_at (position_start m) (h v) = plus (g (vec_at (position_start m) v)) d /\
    Forall (fun a => attrib_start m a <> position_start m ->
      vec_at (attrib_start m a) (h v) = g (vec_at (attrib_start m a) v)) (oriented_attribs m) /\
    forall c, Forall (outside m c) (oriented_attribs m) -> nth_error (h v) c = nth_error v c.

(** One call of a method that moves a mesh or rearranges it. *)
Inductive move : mesh R -> mesh R -> Prop :=
| by_translate m dx dy dz m' o : translate exact m [dx; dy; dz] = (m', o) -> move m m'
| by_rotate m rot m' o : rotate exact m rot = (m', o) -> move m m'
| by_bounds m m' o : update_boundaries exact m = (m', o) -> move m m'
| by_center m gi li u m' r : get_lod_center_offset exact m gi li u = (m', r) -> move m m'
| by_reorder m order ks m' : permutes (length (geoms m)) order ks -> sumZ vnum (mats m) <= 2 ^ 53 ->
    change_geoms_order m order = (m', None) -> move m m'.
