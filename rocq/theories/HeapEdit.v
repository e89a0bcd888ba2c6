(** The editing methods executed on a store of mesh and material objects, and programs
    that call them on several meshes.

    The store is the one of Heap.v. A geom object that occurs twice in the geoms of a
    mesh is one [hgeom] listed twice, with the same material addresses.
    Simplification: its lods are two values, so that an update_boundaries that fails
    between two such occurrences changes only the first. *)
From Coq Require Import ZArith List Bool.
From Verif Require Import PyBase Struct Mesh Arith Edit Heap.
Import ListNotations.
Open Scope Z_scope.
Open Scope res_scope.

Section Loops.
Context {F S : Type}.
(** [for material in lod.materials], mutating the materials. *)
Fixpoint heap_mats (f : S -> mat F -> S * mat F * option exn) (l : list nat) (st : store F) (s : S) : store F * S * option exn :=
  match l with
  | [] => (st, s, None)
  | a :: t =>
      let '(s', m', o) := f s (mat_at st a) in
      match o with
      | Some e => (put_mat st a m', s', Some e)
      | None => heap_mats f t (put_mat st a m') s'
      end
  end.
(** [for lod in geom.lods: for material in lod.materials]. *)
Fixpoint heap_lods (f : S -> mat F -> S * mat F * option exn) (ls : list (hlod F)) (st : store F) (s : S) : store F * S * option exn :=
  match ls with
  | [] => (st, s, None)
  | l :: t =>
      match heap_mats f (hl_mats l) st s with
      | (st', s', Some e) => (st', s', Some e)
      | (st', s', None) => heap_lods f t st' s'
      end
  end.
End Loops.

Section Edit.
Context {F : Type} (A : arith F).

(** [self.geoms = gs], the other attributes being [m]. *)
Definition put_all (st : store F) (i : nat) (m : mesh F) (gs : list (hgeom F)) : store F :=
  {| s_mats := s_mats st; s_meshes := set_nth (s_meshes st) i {| hm_mesh := m; hm_geoms := gs |} |}.

(** ** change_geoms_order, visiblemesh.py:251-277 *)
(** The loop of lines 261-273; [gs] is self.geoms and [chosen] new_geoms. *)
Fixpoint heap_order_loop (vs : Z) (verts : list F) (ix : pyseq Z) (gs : list (hgeom F)) (order : list Z)
         (st : store F) (s : list F * list Z) (chosen : list (hgeom F)) : store F * (list F * list Z) * list (hgeom F) * option exn :=
  match order with
  | [] => (st, s, chosen, None)
  | z :: t =>
      match py_get gs z with
      | Raise e => (st, s, chosen, Some e)
      | Ok g =>
          match heap_lods (reorder_mat vs verts ix) (hg_lods g) st s with
          | (st', s', Some e) => (st', s', chosen, Some e)
          | (st', s', None) => heap_order_loop vs verts ix gs t st' s' (chosen ++ [g])
          end
      end
  end.
Definition heap_order (st : store F) (i : nat) (order : list Z) : store F * option exn :=
  let me := mesh_at st i in
  if negb (Nat.eqb (length order) (length (hm_geoms me))) then (st, Some EAttribute)
  else match vertex_size (hm_mesh me) with
       | Raise e => (st, Some e)
       | Ok vs =>
           match heap_order_loop vs (vertices (hm_mesh me)) (index (hm_mesh me)) (hm_geoms me) order st ([], []) [] with
           | (st', _, _, Some e) => (st', Some e)
           | (st', (nv, ni), gs, None) =>
               (put_all st' i (set_index (set_vertices (hm_mesh (mesh_at st' i)) nv) (Tuple ni)) gs, None)     (* 275-277 *)
           end
       end.

(** ** translate and rotate, visiblemesh.py:279-398: line 314 (398) is the only
    assignment to an object. *)
Definition heap_assign (st : store F) (i : nat) (r : mesh F * option exn) : store F * option exn :=
  match r with
  | (_, Some e) => (st, Some e)
  | (m', None) => (put_mesh st i (set_vertices (hm_mesh (mesh_at st i)) (vertices m')), None)
  end.
Definition heap_translate (st : store F) (i : nat) (off : list F) : store F * option exn :=
  heap_assign st i (translate A (tree_of st i) off).
Definition heap_rotate (st : store F) (i : nat) (rotation : list F) : store F * option exn :=
  heap_assign st i (rotate A (tree_of st i) rotation).

(** ** update_boundaries, visiblemesh.py:547-594 *)
Definition heap_bound_lod (m : mesh F) (st : store F) (l : hlod F) : store F * hlod F * option exn :=
  match heap_mats (bound_mat A m) (hl_mats l) st (zero3 A, zero3 A) with
  | (st', _, Some e) => (st', l, Some e)
  | (st', (a, b), None) => (st', {| hl_lod := set_lod_bounds (hl_lod l) a b; hl_mats := hl_mats l |}, None)
  end.
(** The loops over geoms and lods, with the objects after the loop. *)
Fixpoint heap_each {X} (f : store F -> X -> store F * X * option exn) (st : store F) (l : list X) : store F * list X * option exn :=
  match l with
  | [] => (st, [], None)
  | x :: t =>
      match f st x with
      | (st', x', Some e) => (st', x' :: t, Some e)
      | (st', x', None) => let '(st2, t', o) := heap_each f st' t in (st2, x' :: t', o)
      end
  end.
Definition heap_bound_geom (m : mesh F) (st : store F) (g : hgeom F) : store F * hgeom F * option exn :=
  let '(st', ls, o) := heap_each (heap_bound_lod m) st (hg_lods g) in
  (st', {| hg_geom := hg_geom g; hg_lods := ls |}, o).
Definition heap_bounds (st : store F) (i : nat) : store F * option exn :=
  let me := mesh_at st i in
  let '(st', gs, o) := heap_each (heap_bound_geom (hm_mesh me)) st (hm_geoms me) in
  (put_all st' i (hm_mesh me) gs, o).

(** ** get_lod_center_offset, visiblemesh.py:534-544 *)
Definition heap_center (st : store F) (i : nat) (gi li : Z) (update_bounds : bool) : store F * res (vec3 F) :=
  match (do g <- py_get (hm_geoms (mesh_at st i)) gi; py_get (hg_lods g) li) with
  | Raise e => (st, Raise e)
  | Ok _ =>
      let '(st', o) := if update_bounds then heap_bounds st i else (st, None) in
      match o with
      | Some e => (st', Raise e)
      | None => (st', do g <- py_get (hm_geoms (mesh_at st' i)) gi; do l <- py_get (hg_lods g) li; lod_center A (hl_lod l))
      end
  end.

(** ** Programs *)
Inductive call :=
| CMerge (self other : nat)
| COrder (i : nat) (order : list Z)
| CTranslate (i : nat) (off : list F)
| CRotate (i : nat) (rotation : list F)
| CBounds (i : nat)
| CCenter (i : nat) (gi li : Z) (update_bounds : bool).
(** What the caller sees. *)
Inductive outcome := ONone | ONotImplemented | OVec (v : vec3 F) | ORaised (e : exn).
Definition of_merge (r : merge_result) : outcome :=
  match r with Merged => ONone | ReturnedNotImplementedError => ONotImplemented | MergeRaised e => ORaised e end.
Definition of_exn (o : option exn) : outcome := match o with None => ONone | Some e => ORaised e end.
Definition of_res (r : res (vec3 F)) : outcome := match r with Ok v => OVec v | Raise e => ORaised e end.

Definition do_call (st : store F) (c : call) : store F * outcome :=
  match c with
  | CMerge i j => let '(st', r) := heap_merge st i j in (st', of_merge r)
  | COrder i order => let '(st', o) := heap_order st i order in (st', of_exn o)
  | CTranslate i off => let '(st', o) := heap_translate st i off in (st', of_exn o)
  | CRotate i rot => let '(st', o) := heap_rotate st i rot in (st', of_exn o)
  | CBounds i => let '(st', o) := heap_bounds st i in (st', of_exn o)
  | CCenter i gi li u => let '(st', r) := heap_center st i gi li u in (st', of_res r)
  end.
(** The calls one after the other, each exception being caught by the caller. *)
Fixpoint run (st : store F) (cs : list call) : store F * list outcome :=
  match cs with
  | [] => (st, [])
  | c :: t => let '(st1, o) := do_call st c in let '(st2, os) := run st1 t in (st2, o :: os)
  end.
End Edit.
Arguments call : clear implicits. Arguments outcome : clear implicits.
