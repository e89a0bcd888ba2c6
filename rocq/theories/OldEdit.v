(** deprecated/modmesh.py: the editing methods of VisMesh (lines 595-792), on the records of Mesh.v (see Old.v). *)
From Coq Require Import ZArith List Bool Floats.SpecFloat.
From Verif Require Import PyBase Struct Mesh Arith Edit.
Import ListNotations.
Open Scope Z_scope.
Open Scope res_scope.

(** D3DDECLTYPE, modmesh.py:13-20: [D3DDECLTYPE(v)] raises ValueError for other values. *)
Definition old_known_type (v : Z) : bool := ((0 <=? v) && (v <=? 5)) || (v =? 17).
(** D3DDECLTYPE.__len__, modmesh.py:23-31: a dict without a key for FLOAT4. *)
Definition old_type_len (v : Z) : res Z :=
  if v =? 0 then Ok 1
  else if v =? 1 then Ok 2
  else if v =? 2 then Ok 3
  else if v =? 4 then Ok 1
  else if v =? 5 then Ok 3
  else if v =? 17 then Ok 0
  else Raise EKey.

(** [n / x] for an int and a float: ZeroDivisionError for x = 0. *)
Definition py_int_over_float (n : Z) (x : spec_float) : res spec_float :=
  do y <- py_float_of_int n;
  match x with
  | S754_zero _ => Raise EZeroDiv
  | _ => Ok (SFdiv 53 1024 y x)
  end.

Section OldEdit.
Context {F : Type} (A : arith F).

(** Vertex, modmesh.py:59-62: an object with one attribute per usage name. The names
    of D3DDECLUSAGE (lines 36-56) are one-to-one with its numbers, so the number stands
    for the name. *)
Definition vertex := Z -> option (list F).
Definition bare_vertex : vertex := fun _ => None.
Definition setattr (v : vertex) (u : Z) (x : list F) : vertex := fun k => if k =? u then Some x else v k.
Definition getattr (v : vertex) (u : Z) : res (list F) :=
  match v u with Some x => Ok x | None => Raise EAttribute end.

(** Head of the attribute loops of get_vertex and update_vertices, modmesh.py:604-606
    and :656-658: the offset, once type and usage are known to the enums. *)
Definition attrib_offset (m : mesh F) (a : vertattrib) : res Z :=
  do o <- py_int_div (offset a) (vertformat m);
  if negb (old_known_type (vartype a)) then Raise EValue
  else if negb (known_usage (usage a)) then Raise EValue
  else Ok o.

(** get_vertex, modmesh.py:599-621. The test of line 612 never holds: no type name is
    also a usage name. *)
Definition get_vertex (m : mesh F) (i : Z) : res vertex :=
  do size <- py_int_div (vertstride m) (vertformat m);
  fold_res (fun v a =>
    do o <- attrib_offset m a;
    if flag a =? 255 then Ok v
    else if vartype a =? 17 then Ok v
    else
      do n <- old_type_len (vartype a);
      let s := i * size + o in
      Ok (setattr v (usage a) (py_slice (vertices m) s (s + n)))) bare_vertex (vertex_attributes m).

(** [list(self.get_vertices())], modmesh.py:595-597. *)
Definition get_vertices (m : mesh F) : res (list vertex) := map_res (get_vertex m) (zrange (vertnum m)).

(** ** update_boundaries, modmesh.py:624-649 *)
(** Lines 636-649 for one vertex; the state is material.mmin, material.mmax, lod.min,
    lod.max. A POSITION of fewer than three numbers is an IndexError, after the axes that
    it has went into the minima. *)
Definition old_bound_vertex (b : bnds) (v : vertex) : bnds * option exn :=
  let '(m0, m1, m2) := b_mmin b in
  let '(l0, l1, l2) := b_lmin b in
  match v POSITION with
  | None => (b, Some EAttribute)
  | Some [] => (b, Some EIndex)
  | Some [x] =>
      ({| b_mmin := (upd_min A x m0, m1, m2); b_mmax := b_mmax b;
          b_lmin := (upd_min A x l0, l1, l2); b_lmax := b_lmax b |}, Some EIndex)
  | Some [x; y] =>
      ({| b_mmin := (upd_min A x m0, upd_min A y m1, m2); b_mmax := b_mmax b;
          b_lmin := (upd_min A x l0, upd_min A y l1, l2); b_lmax := b_lmax b |}, Some EIndex)
  | Some (x :: y :: z :: _) =>
      ({| b_mmin := vmin3 A (x, y, z) (b_mmin b); b_mmax := vmax3 A (x, y, z) (b_mmax b);
          b_lmin := vmin3 A (x, y, z) (b_lmin b); b_lmax := vmax3 A (x, y, z) (b_lmax b) |}, None)
  end.
Fixpoint old_bound_vertices (b : bnds) (l : list vertex) : bnds * option exn :=
  match l with
  | [] => (b, None)
  | v :: t => match old_bound_vertex b v with
              | (b', None) => old_bound_vertices b' t
              | (b', Some e) => (b', Some e)
              end
  end.

(** Lines 631-649 for one material; [list(None)] is a TypeError. *)
Definition old_bound_mat (vs : list vertex) (lb : vec3 F * vec3 F) (mt : mat F)
  : (vec3 F * vec3 F) * mat F * option exn :=
  match mmin mt, mmax mt with
  | Some a, Some b =>
      let '(r, o) := old_bound_vertices
                       {| b_mmin := a; b_mmax := b; b_lmin := fst lb; b_lmax := snd lb |}
                       (py_slice vs (vstart mt) (vstart mt + vnum mt)) in
      ((b_lmin r, b_lmax r), set_mat_bounds mt (b_mmin r) (b_mmax r), o)
  | _, _ => (lb, mt, Some EType)
  end.
Definition old_bound_lod (vs : list vertex) (l : lod F) : lod F * option exn :=
  match lod_min l, lod_max l with
  | Some a, Some b =>
      let '((a', b'), ms, o) := fold_mut (fun _ lb mt => old_bound_mat vs lb mt) (a, b) (materials l) in
      (set_lod_bounds (set_materials l ms) a' b', o)
  | _, _ => (l, Some EType)
  end.
Definition old_bound_geom (vs : list vertex) (g : geom F) : geom F * option exn :=
  let '(_, ls, o) := fold_mut (fun _ (_ : unit) l => let '(l', o) := old_bound_lod vs l in (tt, l', o))
                              tt (lods g) in
  (set_lods g ls, o).
Definition old_update_boundaries (m : mesh F) : mesh F * option exn :=
  match get_vertices m with
  | Raise e => (m, Some e)
  | Ok vs =>
      let '(_, gs, o) := fold_mut (fun _ (_ : unit) g => let '(g', o) := old_bound_geom vs g in (tt, g', o))
                                  tt (geoms m) in
      (set_geoms m gs, o)
  end.

(** ** update_vertices, modmesh.py:651-672 *)

(** Lines 654-667 for one vertex. The test of line 662 compares a name with a number
    and never holds. *)
Definition vertex_numbers (m : mesh F) (v : vertex) : res (list F) :=
  fold_res (fun acc a =>
    do _ <- attrib_offset m a;
    if flag a =? 255 then Ok acc
    else do x <- getattr v (usage a); Ok (acc ++ x)) [] (vertex_attributes m).

(** Lines 670-671: [int(len(self.vertices) / (self.vertstride / self.vertformat))]. *)
Definition old_vertnum (n stride format : Z) : res Z :=
  do q <- py_truediv stride format; do r <- py_int_over_float n q; py_int r.

Definition update_vertices (m : mesh F) (objects : list vertex) : mesh F * option exn :=
  match map_res (vertex_numbers m) objects with
  | Raise e => (m, Some e)
  | Ok ls =>
      let m1 := set_vertices m (concat ls) in
      match old_vertnum (zlen (concat ls)) (vertstride m) (vertformat m) with
      | Raise e => (m1, Some e)
      | Ok n => old_update_boundaries (set_counts m1 n (indexnum m))
      end
  end.

(** ** translate and rotate, modmesh.py:674-739 *)

(** The loops of both: the vertex objects of each material are changed by [f] and
    appended to a list. The objects are shared, so one that two materials use is changed
    twice: the state is all objects, and the list holds their numbers. *)
Definition edit_each (f : vertex -> res vertex) (s : list vertex * list nat) (k : nat)
  : res (list vertex * list nat) :=
  match nth_error (fst s) k with
  | None => Raise EIndex        (* not reached: [k] is a position of the list *)
  | Some v => do v' <- f v; Ok (set_nth (fst s) k v', snd s ++ [k])
  end.
Definition edit_mat (f : vertex -> res vertex) (s : list vertex * list nat) (mt : mat F)
  : res (list vertex * list nat) :=
  fold_res (edit_each f) s (py_slice (seq 0 (length (fst s))) (vstart mt) (vstart mt + vnum mt)).
Definition edit_vertices (m : mesh F) (f : vertex -> res vertex) : mesh F * option exn :=
  match (do objs <- get_vertices m; fold_res (edit_mat f) (objs, []) (all_mats (geoms m))) with
  | Raise e => (m, Some e)
  | Ok (objs, ks) => update_vertices m (pick objs ks)
  end.

(** Lines 682-688: [tuple([sum(_) for _ in zip( *[position, offset])])]; sum starts from
    the int 0, and zip stops at the shorter one. *)
Definition old_translate (m : mesh F) (off : list F) : mesh F * option exn :=
  edit_vertices m (fun v =>
    do pos <- getattr v POSITION;
    Ok (setattr v POSITION (map (fun ab => f_add A (f_add A (f_zero A) (fst ab)) (snd ab)) (combine pos off)))).

(** Lines 694-739; Rpitch, Ryaw and Rroll (lines 200-238) are those of Edit.v. *)
Definition old_rotate (m : mesh F) (rotation : list F) : mesh F * option exn :=
  match rotation with
  | r0 :: r1 :: r2 :: _ =>
      let turn l := do q <- first3 l;
                    if trig3 A (f_radians A r0) (f_radians A r1) (f_radians A r2) then
                      let '(x, y, z) := rot3 A (f_radians A r0) (f_radians A r1) (f_radians A r2) q in
                      Ok [x; y; z]
                    else Raise EValue in
      edit_vertices m (fun v =>
        do p <- getattr v POSITION;
        do n <- getattr v NORMAL;
        do t <- getattr v TANGENT;
        do p' <- turn p; do n' <- turn n; do t' <- turn t;
        Ok (setattr (setattr (setattr v POSITION p') NORMAL n') TANGENT t'))
  | _ => (m, Some EIndex)
  end.

(** ** merge, modmesh.py:741-792 *)

(** Lines 760-789 for one material; the state is vertices, indices, vstart, istart. *)
Definition old_merge_mat (self other : mesh F) (v1 v2 : list vertex) (gi li mi : nat)
           (s : list vertex * list Z * Z * Z) (mt : mat F)
  : (list vertex * list Z * Z * Z) * mat F * option exn :=
  let '(vs, ix, vst, ist) := s in
  match (do g <- nth_res (geoms other) gi; do l <- nth_res (lods g) li; do om <- nth_res (materials l) mi;
         do i1 <- index_slice (index self) (istart mt) (istart mt + inum mt);
         do i2 <- index_slice (index other) (istart om) (istart om + inum om);
         Ok (om, i1 ++ map (fun i => i + vnum mt) i2)) with
  | Raise e => (s, mt, Some e)
  | Ok (om, mi') =>
      let mv := py_slice v1 (vstart mt) (vstart mt + vnum mt) ++
                py_slice v2 (vstart om) (vstart om + vnum om) in
      ((vs ++ mv, ix ++ mi', vst + zlen mv, ist + zlen mi'),
       set_mat_layout mt vst ist (zlen mi') (zlen mv), None)
  end.
(** [a.merge(a)] behaves as a merge with a copy: a material is read before it is
    assigned to, in its own iteration only. *)
Definition old_merge (self other : mesh F) : mesh F * option exn :=
  if negb (isStaticMesh (m_kind self)) && negb (isStaticMesh (m_kind other)) then (self, Some ENotImplemented)
  else if negb (list_eqb vertattrib_eqb (vertex_attributes self) (vertex_attributes other)) then (self, Some ENotImplemented)
  else if negb (Nat.eqb (length (geoms self)) (length (geoms other))) then (self, Some ENotImplemented)
  else match get_vertices self with
  | Raise e => (self, Some e)
  | Ok v1 =>
  match get_vertices other with
  | Raise e => (self, Some e)
  | Ok v2 =>
      let '((vs, ix, _, _), gs, o) := trav_geoms (old_merge_mat self other v1 v2) ([], [], 0, 0) (geoms self) in
      let m1 := set_geoms self gs in
      match o with
      | Some e => (m1, Some e)
      | None =>
          match update_vertices m1 vs with
          | (m2, Some e) => (m2, Some e)
          | (m2, None) => (set_counts (set_index m2 (Tuple ix)) (vertnum m2) (zlen ix), None)
          end
      end
  end end.

End OldEdit.
