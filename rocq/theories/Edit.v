(** The editing and query methods of VisibleMesh (bf2mesh/visiblemesh.py:91-93,
    251-594) and the [__eq__] methods.

    Methods that assign to the object return the object after the call together with
    the exception, if any. logging calls are modelled only where evaluating their
    arguments can raise. *)
From Coq Require Import ZArith List Bool Ascii.
From Verif Require Import PyBase Struct Mesh Arith.
Import ListNotations.
Open Scope Z_scope.
Open Scope res_scope.

(** bf2types.py:3-4. *)
Definition USED : Z := 0.
Definition UNUSED : Z := 255.

(** [len(D3DDECLTYPE(v))], bf2types.py:8-29; an unknown value is a ValueError. *)
Definition decltype_len (v : Z) : res Z :=
  if v =? 0 then Ok 1          (* FLOAT1 *)
  else if v =? 1 then Ok 2     (* FLOAT2 *)
  else if v =? 2 then Ok 3     (* FLOAT3 *)
  else if v =? 3 then Ok 4     (* FLOAT4 *)
  else if v =? 4 then Ok 1     (* D3DCOLOR *)
  else if v =? 17 then Ok 0    (* UNUSED *)
  else Raise EValue.

(** Members of D3DDECLUSAGE, bf2types.py:34-53. *)
Definition POSITION : Z := 0.
Definition NORMAL : Z := 3.
Definition TANGENT : Z := 6.
Definition known_usage (u : Z) : bool :=
  ((0 <=? u) && (u <=? 13)) || (u =? 261) || (u =? 517) || (u =? 773) || (u =? 1029).

(** Object attribute assignments. *)
Section Setters.
Context {F : Type}.
Definition set_materials (l : lod F) (ms : list (mat F)) : lod F :=
  {| lod_min := lod_min l; lod_max := lod_max l; pivot := pivot l;
     rignum := rignum l; rigs := rigs l; nodenum := nodenum l; nodes := nodes l;
     matnum := matnum l; materials := ms |}.
Definition set_lod_bounds (l : lod F) (a b : vec3 F) : lod F :=
  {| lod_min := Some a; lod_max := Some b; pivot := pivot l;
     rignum := rignum l; rigs := rigs l; nodenum := nodenum l; nodes := nodes l;
     matnum := matnum l; materials := materials l |}.
Definition set_lods (g : geom F) (ls : list (lod F)) : geom F :=
  {| lodnum := lodnum g; lods := ls |}.
Definition set_mat_layout (m : mat F) (vs is inn vn : Z) : mat F :=
  {| alphamode := alphamode m; fxfile := fxfile m; technique := technique m;
     mapnum := mapnum m; maps := maps m;
     vstart := vs; istart := is; inum := inn; vnum := vn;
     mat_u4 := mat_u4 m; mat_u5 := mat_u5 m; mmin := mmin m; mmax := mmax m |}.
Definition set_mat_bounds (m : mat F) (a b : vec3 F) : mat F :=
  {| alphamode := alphamode m; fxfile := fxfile m; technique := technique m;
     mapnum := mapnum m; maps := maps m;
     vstart := vstart m; istart := istart m; inum := inum m; vnum := vnum m;
     mat_u4 := mat_u4 m; mat_u5 := mat_u5 m; mmin := Some a; mmax := Some b |}.
Definition set_geoms (m : mesh F) (gs : list (geom F)) : mesh F :=
  {| m_kind := m_kind m; m_head := m_head m; m_u1 := m_u1 m; geomnum := geomnum m;
     geoms := gs; vertattribnum := vertattribnum m;
     vertex_attributes := vertex_attributes m;
     vertformat := vertformat m; vertstride := vertstride m; vertnum := vertnum m;
     vertices := vertices m; indexnum := indexnum m; index := index m; m_u2 := m_u2 m |}.
Definition set_vertices (m : mesh F) (vs : list F) : mesh F :=
  {| m_kind := m_kind m; m_head := m_head m; m_u1 := m_u1 m; geomnum := geomnum m;
     geoms := geoms m; vertattribnum := vertattribnum m;
     vertex_attributes := vertex_attributes m;
     vertformat := vertformat m; vertstride := vertstride m; vertnum := vertnum m;
     vertices := vs; indexnum := indexnum m; index := index m; m_u2 := m_u2 m |}.
Definition set_index (m : mesh F) (ix : pyseq Z) : mesh F :=
  {| m_kind := m_kind m; m_head := m_head m; m_u1 := m_u1 m; geomnum := geomnum m;
     geoms := geoms m; vertattribnum := vertattribnum m;
     vertex_attributes := vertex_attributes m;
     vertformat := vertformat m; vertstride := vertstride m; vertnum := vertnum m;
     vertices := vertices m; indexnum := indexnum m; index := ix; m_u2 := m_u2 m |}.
Definition set_counts (m : mesh F) (vn inn : Z) : mesh F :=
  {| m_kind := m_kind m; m_head := m_head m; m_u1 := m_u1 m; geomnum := geomnum m;
     geoms := geoms m; vertattribnum := vertattribnum m;
     vertex_attributes := vertex_attributes m;
     vertformat := vertformat m; vertstride := vertstride m; vertnum := vn;
     vertices := vertices m; indexnum := inn; index := index m; m_u2 := m_u2 m |}.
End Setters.

Section Traversal.
Context {F S : Type}.
(** [for lodId, lod in enumerate(geom.lods): for materialId, material in
    enumerate(lod.materials): ...] mutating the materials. *)
Definition trav_lod (f : nat -> S -> mat F -> S * mat F * option exn)
           (s : S) (l : lod F) : S * lod F * option exn :=
  let '(s', ms, o) := fold_mut f s (materials l) in (s', set_materials l ms, o).
Definition trav_geom (f : nat -> nat -> S -> mat F -> S * mat F * option exn)
           (s : S) (g : geom F) : S * geom F * option exn :=
  let '(s', ls, o) := fold_mut (fun li s l => trav_lod (f li) s l) s (lods g) in
  (s', set_lods g ls, o).
Definition trav_geoms (f : nat -> nat -> nat -> S -> mat F -> S * mat F * option exn)
           (s : S) (gs : list (geom F)) : S * list (geom F) * option exn :=
  fold_mut (fun gi s g => trav_geom (f gi) s g) s gs.
End Traversal.

(** All materials in the order of the nested loops. *)
Definition all_mats {F} (gs : list (geom F)) : list (mat F) :=
  flat_map (fun g => flat_map materials (lods g)) gs.

Section Edit.
Context {F : Type} (A : arith F).

(** VisibleMesh.vertex_size, visiblemesh.py:91-93 and :260. *)
Fixpoint vertex_size_of (l : list vertattrib) : res Z :=
  match l with
  | [] => Ok 0
  | a :: t =>
      if flag a =? USED
      then do n <- decltype_len (vartype a); do k <- vertex_size_of t; Ok (n + k)
      else vertex_size_of t
  end.
Definition vertex_size (m : mesh F) : res Z := vertex_size_of (vertex_attributes m).

(** [self.index[a:b]]; a bare int is not subscriptable. *)
Definition index_slice (ix : pyseq Z) (a b : Z) : res (list Z) :=
  match ix with Scalar _ => Raise EType | Tuple l => Ok (py_slice l a b) end.
(** [self.index[i]]. *)
Definition index_get (ix : pyseq Z) (i : Z) : res Z :=
  match ix with Scalar _ => Raise EType | Tuple l => py_get l i end.

(** ** change_geoms_order, visiblemesh.py:251-277 *)

(** Loop body, lines 265-272. State: (new_vertices, new_index). *)
Definition reorder_mat (vs : Z) (verts : list F) (ix : pyseq Z)
           (s : list F * list Z) (m : mat F) : (list F * list Z) * mat F * option exn :=
  let '(nv, ni) := s in
  let a := vstart m * vs in
  let b := a + vnum m * vs in
  let nv' := nv ++ py_slice verts a b in
  match index_slice ix (istart m) (istart m + inum m) with
  | Raise e => (s, m, Some e)
  | Ok sl =>
      let ni' := ni ++ sl in
      match py_int_div (zlen nv') vs with
      | Raise e => (s, m, Some e)
      | Ok q => ((nv', ni'),
                 set_mat_layout m (q - vnum m) (zlen ni' - inum m) (inum m) (vnum m), None)
      end
  end.

(** The loop over [order]. The geom objects live in [store] (their position in the
    old self.geoms is their identity); [chosen] is new_geoms as identities. A geom
    that occurs twice in [order] is the same object and is mutated twice. *)
Fixpoint reorder_loop (vs : Z) (verts : list F) (ix : pyseq Z) (order : list Z)
         (store : list (geom F)) (s : list F * list Z) (chosen : list nat)
  : list (geom F) * (list F * list Z) * list nat * option exn :=
  match order with
  | [] => (store, s, chosen, None)
  | i :: t =>
      match norm_index (zlen store) i with
      | None => (store, s, chosen, Some EIndex)
      | Some k =>
          match nth_error store k with
          | None => (store, s, chosen, Some EIndex)   (* impossible: norm_index is in range *)
          | Some g =>
              let '(s', g', o) := trav_geom (fun _ _ => reorder_mat vs verts ix) s g in
              let store' := set_nth store k g' in
              match o with
              | Some e => (store', s', chosen, Some e)
              | None => reorder_loop vs verts ix t store' s' (chosen ++ [k])
              end
          end
      end
  end.

Definition pick {B} (store : list B) (ks : list nat) : list B :=
  flat_map (fun k => match nth_error store k with Some g => [g] | None => [] end) ks.

(** change_geoms_order. On an exception self.geoms still lists the old objects (some
    already mutated) and the arrays are untouched. Simplification: the result is a
    tree of values, so sharing of a repeated geom *between* later calls is not
    tracked. *)
Definition change_geoms_order (m : mesh F) (order : list Z) : mesh F * option exn :=
  if negb (Nat.eqb (length order) (length (geoms m))) then (m, Some EAttribute)
  else match vertex_size m with
       | Raise e => (m, Some e)
       | Ok vs =>
           match reorder_loop vs (vertices m) (index m) order (geoms m) ([], []) [] with
           | (store, _, _, Some e) => (set_geoms m store, Some e)
           | (store, (nv, ni), chosen, None) =>
               (set_index (set_vertices (set_geoms m (pick store chosen)) nv) (Tuple ni), None)
           end
       end.

(** ** translate, visiblemesh.py:279-314 *)

(** Lines 301-304: the first used POSITION attribute. [None] means that the local
    variable vertoffset stays unbound. *)
Fixpoint position_offset (vf : Z) (l : list vertattrib) : res (option Z) :=
  match l with
  | [] => Ok None
  | a :: t =>
      if (usage a =? POSITION) && negb (flag a =? UNUSED)
      then do o <- py_int_div (offset a) vf; Ok (Some o)
      else position_offset vf t
  end.

(** Lines 306-308: [vertex[vertoffset+valueId] += value]. *)
Fixpoint add_offset (vo : option Z) (k : Z) (off : list F) (v : list F) : res (list F) :=
  match off with
  | [] => Ok v
  | d :: t =>
      match vo with
      | None => Raise EUnboundLocal
      | Some o =>
          do x <- py_get v (o + k);
          do v' <- py_set v (o + k) (f_add A x d);
          add_offset vo (k + 1) t v'
      end
  end.

(** Lines 297-308 for one vertex. *)
Definition translate_vertex (m : mesh F) (off : list F) (v : list F) : res (list F) :=
  do vo <- position_offset (vertformat m) (vertex_attributes m);
  add_offset vo 0 off v.

(** Lines 289-310 for one material, with the per-vertex update [f]; shared by
    translate and rotate (lines 372-394), whose loops are identical. *)
Definition map_mat_vertices (m : mesh F) (f : list F -> res (list F))
           (mt : mat F) : res (list F) :=
  do vs <- vertex_size m;
  let a := vstart mt * vs in
  let mv := py_slice (vertices m) a (a + vnum mt * vs) in
  do starts <- py_range_step (length mv) (Z.to_nat vs);
  fold_res (fun acc i => do v' <- f (py_slice mv i (i + vs)); Ok (acc ++ v')) [] starts.

Definition map_vertices (m : mesh F) (f : list F -> res (list F)) : res (list F) :=
  fold_res (fun acc mt => do l <- map_mat_vertices m f mt; Ok (acc ++ l)) []
           (all_mats (geoms m)).

(** Line 314 is the only assignment to the object. *)
Definition assign_vertices (m : mesh F) (r : res (list F)) : mesh F * option exn :=
  match r with
  | Ok nv => (set_vertices m nv, None)
  | Raise e => (m, Some e)
  end.

Definition translate (m : mesh F) (off : list F) : mesh F * option exn :=
  assign_vertices m (map_vertices m (translate_vertex m off)).

(** ** rotate, visiblemesh.py:316-398 *)

(** Rpitch, lines 321-330. *)
Definition Rpitch (q : vec3 F) (angle : F) : vec3 F :=
  let '(x, y, z) := q in
  (x,
   f_sub A (f_mul A y (f_cos A angle)) (f_mul A z (f_sin A angle)),
   f_add A (f_mul A y (f_sin A angle)) (f_mul A z (f_cos A angle))).
(** Ryaw, lines 334-343. *)
Definition Ryaw (q : vec3 F) (angle : F) : vec3 F :=
  let '(x, y, z) := q in
  (f_add A (f_mul A x (f_cos A angle)) (f_mul A z (f_sin A angle)),
   y,
   f_sub A (f_mul A z (f_cos A angle)) (f_mul A x (f_sin A angle))).
(** Rroll, lines 347-356. *)
Definition Rroll (q : vec3 F) (angle : F) : vec3 F :=
  let '(x, y, z) := q in
  (f_sub A (f_mul A x (f_cos A angle)) (f_mul A y (f_sin A angle)),
   f_add A (f_mul A x (f_sin A angle)) (f_mul A y (f_cos A angle)),
   z).

(** math.sin and math.cos raise a ValueError on an infinite angle. *)
Definition trig3 (yaw pitch roll : F) : bool := f_trig A roll && f_trig A pitch && f_trig A yaw.
(** Line 390. *)
Definition rot3 (yaw pitch roll : F) (q : vec3 F) : vec3 F :=
  Ryaw (Rpitch (Rroll q roll) pitch) yaw.

(** [position[0]], [position[1]], [position[2]] of a slice; shorter data is an
    IndexError. *)
Definition first3 (l : list F) : res (vec3 F) :=
  match l with
  | x :: y :: z :: _ => Ok (x, y, z)
  | _ => Raise EIndex
  end.

(** Lines 385-391 for one attribute. *)
Definition rotate_attrib (m : mesh F) (yaw pitch roll : F) (v : list F) (a : vertattrib)
  : res (list F) :=
  if flag a =? UNUSED then Ok v
  else if (usage a =? POSITION) || (usage a =? NORMAL) || (usage a =? TANGENT) then
    do o <- py_int_div (offset a) (vertformat m);
    do n <- decltype_len (vartype a);
    do q <- first3 (py_slice v o (o + n));
    if trig3 yaw pitch roll then
      let '(x, y, z) := rot3 yaw pitch roll q in
      Ok (py_slice_assign v o (o + n) [x; y; z])
    else Raise EValue
  else Ok v.

Definition rotate_vertex (m : mesh F) (yaw pitch roll : F) (v : list F) : res (list F) :=
  fold_res (rotate_attrib m yaw pitch roll) v (vertex_attributes m).

(** rotate: [rotation] is (yaw, pitch, roll) in degrees; fewer than three items is an
    IndexError (lines 359-362), further items are ignored. *)
Definition rotate (m : mesh F) (rotation : list F) : mesh F * option exn :=
  match rotation with
  | r0 :: r1 :: r2 :: _ =>
      assign_vertices m
        (map_vertices m (rotate_vertex m (f_radians A r0) (f_radians A r1) (f_radians A r2)))
  | _ => (m, Some EIndex)
  end.

(** ** canMerge, visiblemesh.py:400-440 *)

(** [for i, x in enumerate(l): if not f(i, x): return False]. *)
Fixpoint check_all {B} (f : nat -> B -> res bool) (i : nat) (l : list B) : res bool :=
  match l with
  | [] => Ok true
  | x :: t => do b <- f i x; if b then check_all f (S i) t else Ok false
  end.

Definition nth_res {B} (l : list B) (i : nat) : res B :=
  match nth_error l i with Some x => Ok x | None => Raise EIndex end.

Definition option_Z_eqb (a b : option Z) : bool :=
  match a, b with
  | Some x, Some y => x =? y
  | None, None => true
  | _, _ => false
  end.

Fixpoint list_eqb {B} (eqb : B -> B -> bool) (l l' : list B) : bool :=
  match l, l' with
  | [], [] => true
  | x :: t, y :: t' => eqb x y && list_eqb eqb t t'
  | _, _ => false
  end.
Definition bytes_eqb : bytes -> bytes -> bool := list_eqb Ascii.eqb.

(** Lines 413-426. When alphamode differs, the log line formats self's alphamode
    with %d, which is a TypeError when it is None (skinned mesh). *)
Definition mat_compatible (a b : mat F) : res bool :=
  if negb (option_Z_eqb (alphamode a) (alphamode b)) then
    match alphamode a with None => Raise EType | Some _ => Ok false end
  else if negb (bytes_eqb (fxfile a) (fxfile b)) then Ok false
  else if negb (bytes_eqb (technique a) (technique b)) then Ok false
  else if negb (list_eqb bytes_eqb (maps a) (maps b)) then Ok false
  else Ok true.

(** _bf2vertattrib.__eq__, visiblemesh.py:975-981. *)
Definition vertattrib_eqb (a b : vertattrib) : bool :=
  (flag a =? flag b) && (offset a =? offset b) &&
  (vartype a =? vartype b) && (usage a =? usage b).

(** _bf2vertattrib.__str__, visiblemesh.py:983-984: only whether it raises. *)
Definition vertattrib_str (a : vertattrib) : res unit :=
  do _ <- decltype_len (vartype a);
  if known_usage (usage a) then Ok tt else Raise EValue.

(** Lines 430-433: on a mismatch the log line calls str(attrib). *)
Definition attrib_compatible (a b : vertattrib) : res bool :=
  if vertattrib_eqb a b then Ok true
  else do _ <- vertattrib_str a; Ok false.

Definition canMerge (self other : mesh F) : res bool :=
  if negb (Nat.eqb (length (geoms self)) (length (geoms other))) then Ok false
  else
    do b <- check_all (fun gi g =>
      do og <- nth_res (geoms other) gi;
      if negb (Nat.eqb (length (lods g)) (length (lods og))) then Ok false
      else check_all (fun li l =>
        do ol <- nth_res (lods og) li;
        if negb (Nat.eqb (length (materials l)) (length (materials ol))) then Ok false
        else check_all (fun mi mt =>
          do om <- nth_res (materials ol) mi; mat_compatible mt om) 0 (materials l)) 0 (lods g))
      0 (geoms self);
    if negb b then Ok false
    else if negb (Nat.eqb (length (vertex_attributes self)) (length (vertex_attributes other)))
    then Ok false
    else check_all (fun i a =>
           do oa <- nth_res (vertex_attributes other) i; attrib_compatible a oa)
         0 (vertex_attributes self).

(** ** merge, visiblemesh.py:443-532 *)

(** Local variables of merge: new_vertices, new_index, vstart, istart, vertnum,
    indexnum. *)
Record merge_state := { ms_verts : list F; ms_index : list Z;
                        ms_vstart : Z; ms_istart : Z; ms_vertnum : Z; ms_indexnum : Z }.

(** Lines 477-481. *)
Fixpoint merge_indices (ix : pyseq Z) (start shift : Z) (ids : list Z) (acc : list Z) : res (list Z) :=
  match ids with
  | [] => Ok acc
  | i :: t =>
      do v <- index_get ix (start + i);
      let c := v + shift in
      if c >? 65535 then Raise EOverflow
      else merge_indices ix start shift t (acc ++ [c])
  end.

(** Loop body, lines 463-522, with [om] the other material. All raising points come
    before the first assignment to the material. *)
Definition merge_mat (self other : mesh F) (om : res (mat F)) (s : merge_state) (m : mat F)
  : merge_state * mat F * option exn :=
  let r :=
    do vs <- vertex_size self;
    let a := vstart m * vs in
    let nv1 := ms_verts s ++ py_slice (vertices self) a (a + vs * vnum m) in
    do sl <- index_slice (index self) (istart m) (istart m + inum m);
    let ni1 := ms_index s ++ sl in
    do o <- om;
    do ovs <- vertex_size other;
    let b := vstart o * ovs in
    let nv2 := nv1 ++ py_slice (vertices other) b (b + ovs * vnum o) in
    do ni2 <- merge_indices (index other) (istart o) (vnum m) (zrange (inum o)) ni1;
    let vn := vnum m + vnum o in
    let inn := inum m + inum o in
    Ok ({| ms_verts := nv2; ms_index := ni2;
           ms_vstart := ms_vstart s + vn; ms_istart := ms_istart s + inn;
           ms_vertnum := ms_vertnum s + vn; ms_indexnum := ms_indexnum s + inn |},
        set_mat_layout m (ms_vstart s) (ms_istart s) inn vn) in
  match r with
  | Ok (s', m') => (s', m', None)
  | Raise e => (s, m, Some e)
  end.

(** [other.geoms[geomId].lods[lodId].materials[materialId]]. *)
Definition get_mat (m : mesh F) (gi li mi : nat) : res (mat F) :=
  do g <- nth_res (geoms m) gi;
  do l <- nth_res (lods g) li;
  nth_res (materials l) mi.

Inductive merge_result :=
| Merged                       (* returned None after merging *)
| ReturnedNotImplementedError  (* line 448: returned the class, nothing raised *)
| MergeRaised (e : exn).

Definition merge_state0 : merge_state :=
  {| ms_verts := []; ms_index := []; ms_vstart := 0; ms_istart := 0;
     ms_vertnum := 0; ms_indexnum := 0 |}.

(** Body of merge after the canMerge test; [om gi li mi m] is the other material. *)
Definition merge_with (self other : mesh F)
           (om : nat -> nat -> nat -> mat F -> res (mat F)) : mesh F * merge_result :=
  let '(s, gs, o) := trav_geoms (fun gi li mi s m => merge_mat self other (om gi li mi m) s m)
                                merge_state0 (geoms self) in
  match o with
  | Some e => (set_geoms self gs, MergeRaised e)
  | None =>
      let m1 := set_vertices (set_geoms self gs) (ms_verts s) in
      match index self with
      | Scalar _ => (m1, MergeRaised EType)   (* len(self.index) of the log line 527 *)
      | Tuple _ => (set_counts (set_index m1 (Tuple (ms_index s)))
                               (ms_vertnum s) (ms_indexnum s), Merged)
      end
  end.

Definition merge (self other : mesh F) : mesh F * merge_result :=
  match canMerge self other with
  | Raise e => (self, MergeRaised e)
  | Ok false => (self, ReturnedNotImplementedError)
  | Ok true => merge_with self other (fun gi li mi _ => get_mat other gi li mi)
  end.

(** [vmesh.merge(vmesh)]: other *is* self, so the other material is the very object
    being visited, in its current state. *)
Definition merge_self (self : mesh F) : mesh F * merge_result :=
  match canMerge self self with
  | Raise e => (self, MergeRaised e)
  | Ok false => (self, ReturnedNotImplementedError)
  | Ok true => merge_with self self (fun _ _ _ m => Ok m)
  end.

(** ** update_boundaries, visiblemesh.py:547-594 *)

Definition upd_min (p a : F) : F := if f_lt A p a then p else a.
Definition upd_max (p a : F) : F := if f_lt A a p then p else a.
Definition vmin3 (p a : vec3 F) : vec3 F :=
  let '(px, py, pz) := p in let '(ax, ay, az) := a in
  (upd_min px ax, upd_min py ay, upd_min pz az).
Definition vmax3 (p a : vec3 F) : vec3 F :=
  let '(px, py, pz) := p in let '(ax, ay, az) := a in
  (upd_max px ax, upd_max py ay, upd_max pz az).
Definition zero3 : vec3 F := (f_zero A, f_zero A, f_zero A).

(** Lines 567-572: the vertex object's POSITION attribute (the last used attribute
    with that usage wins; every used attribute is decoded). *)
Fixpoint vertex_position (vf : Z) (buf : list F) (l : list vertattrib) (cur : option (list F))
  : res (option (list F)) :=
  match l with
  | [] => Ok cur
  | a :: t =>
      if flag a =? UNUSED then vertex_position vf buf t cur
      else
        do s <- py_int_div (offset a) vf;
        do n <- decltype_len (vartype a);
        if negb (known_usage (usage a)) then Raise EValue
        else vertex_position vf buf t
               (if usage a =? POSITION then Some (py_slice buf s (s + n)) else cur)
  end.

(** The local bounds: material_min, material_max, lod_min, lod_max. *)
Record bnds := { b_mmin : vec3 F; b_mmax : vec3 F; b_lmin : vec3 F; b_lmax : vec3 F }.

(** Condition of lines 557, 574, 590. *)
Definition has_mat_bounds (m : mesh F) : bool :=
  negb (isSkinnedMesh (m_kind m)) && (h_version (m_head m) =? 11).

(** Lines 562-589 for one vertex. *)
Definition bound_vertex (m : mesh F) (mt : mat F) (b : bnds) (i : Z) : res bnds :=
  do vs <- vertex_size m;
  let s := (vstart mt + i) * vs in
  let buf := py_slice (vertices m) s (s + vs) in
  do pos <- vertex_position (vertformat m) buf (vertex_attributes m) None;
  if has_mat_bounds m then
    match pos with
    | None => Raise EAttribute
    | Some l =>
        do q <- first3 l;
        Ok {| b_mmin := vmin3 q (b_mmin b); b_mmax := vmax3 q (b_mmax b);
              b_lmin := vmin3 q (b_lmin b); b_lmax := vmax3 q (b_lmax b) |}
    end
  else Ok b.

(** Lines 556-592 for one material; the state is (lod_min, lod_max). *)
Definition bound_mat (m : mesh F) (lb : vec3 F * vec3 F) (mt : mat F)
  : (vec3 F * vec3 F) * mat F * option exn :=
  match fold_res (bound_vertex m mt)
                 {| b_mmin := zero3; b_mmax := zero3; b_lmin := fst lb; b_lmax := snd lb |}
                 (zrange (vnum mt)) with
  | Raise e => (lb, mt, Some e)
  | Ok b => ((b_lmin b, b_lmax b),
             (if has_mat_bounds m then set_mat_bounds mt (b_mmin b) (b_mmax b) else mt), None)
  end.

(** Lines 551-594 for one lod. *)
Definition bound_lod (m : mesh F) (l : lod F) : lod F * option exn :=
  match fold_mut (fun _ lb mt => bound_mat m lb mt) (zero3, zero3) (materials l) with
  | ((a, b), ms, None) => (set_lod_bounds (set_materials l ms) a b, None)
  | (_, ms, Some e) => (set_materials l ms, Some e)
  end.

Definition bound_geom (m : mesh F) (g : geom F) : geom F * option exn :=
  let '(_, ls, o) := fold_mut (fun _ (_ : unit) l => let '(l', o) := bound_lod m l in (tt, l', o))
                              tt (lods g) in
  (set_lods g ls, o).

Definition update_boundaries (m : mesh F) : mesh F * option exn :=
  let '(_, gs, o) := fold_mut (fun _ (_ : unit) g => let '(g', o) := bound_geom m g in (tt, g', o))
                              tt (geoms m) in
  (set_geoms m gs, o).

(** ** get_lod_center_offset, visiblemesh.py:534-544 *)

(** [(a+b)/2 for a, b in zip(lod.min, lod.max)]; zip(None, ...) is a TypeError. *)
Definition lod_center (l : lod F) : res (vec3 F) :=
  match lod_min l, lod_max l with
  | Some (ax, ay, az), Some (bx, by_, bz) =>
      let mid a b := f_div A (f_add A a b) (f_two A) in
      Ok (mid ax bx, mid ay by_, mid az bz)
  | _, _ => Raise EType
  end.

Definition get_lod_center_offset (m : mesh F) (gi li : Z) (update_bounds : bool)
  : mesh F * res (vec3 F) :=
  match (do g <- py_get (geoms m) gi; py_get (lods g) li) with
  | Raise e => (m, Raise e)
  | Ok _ =>
      let '(m', o) := if update_bounds then update_boundaries m else (m, None) in
      match o with
      | Some e => (m', Raise e)
      | None => (m', do g <- py_get (geoms m') gi; do l <- py_get (lods g) li; lod_center l)
      end
  end.

(** ** Equality methods *)

(** _bf2head.__eq__, visiblemesh.py:629-635. *)
Definition head_eqb (a b : head) : bool :=
  (h_u1 a =? h_u1 b) && (h_version a =? h_version b) && (h_u3 a =? h_u3 b) &&
  (h_u4 a =? h_u4 b) && (h_u5 a =? h_u5 b).

(** _bf2geom.__eq__, visiblemesh.py:784-787. *)
Definition geom_eqb (a b : geom F) : bool :=
  (lodnum a =? lodnum b) && Nat.eqb (length (lods a)) (length (lods b)).

Definition vec3_eqb (a b : vec3 F) : bool :=
  let '(ax, ay, az) := a in let '(bx, by_, bz) := b in
  f_eq A ax bx && f_eq A ay by_ && f_eq A az bz.
(** Tuple (in)equality through [==]; CPython's identity shortcut for items is not
    modelled (it only matters for NaN objects shared by both sides). *)
Definition vec3_opt_eqb (a b : option (vec3 F)) : bool :=
  match a, b with
  | Some x, Some y => vec3_eqb x y
  | None, None => true
  | _, _ => false
  end.
Definition matrix_eqb (a b : matrix4 F) : bool := list_eqb (list_eqb (f_eq A)) a b.

(** ['%d' % x] for a float: OverflowError for infinities, ValueError for NaN. *)
Definition fmt_d (x : F) : res unit :=
  if f_finite A x then Ok tt
  else if f_eq A x x then Raise EOverflow else Raise EValue.
Definition fmt_d3 (v : option (vec3 F)) : res unit :=
  match v with
  | None => Raise EType
  | Some (x, y, z) => do _ <- fmt_d x; do _ <- fmt_d y; fmt_d z
  end.
(** Both argument lists are built ([*a, *b]) before anything is formatted. *)
Definition fmt_d33 (a b : option (vec3 F)) : res unit :=
  match a, b with
  | Some _, Some _ => do _ <- fmt_d3 a; fmt_d3 b
  | _, _ => Raise EType
  end.

(** _bf2mat.__eq__, visiblemesh.py:669-706 (mmax is not compared). The log line for
    mmin formats both tuples with %d. *)
Definition mat_eq (a b : mat F) : res bool :=
  if negb (option_Z_eqb (alphamode a) (alphamode b)) then Ok false
  else if negb (bytes_eqb (fxfile a) (fxfile b)) then Ok false
  else if negb (bytes_eqb (technique a) (technique b)) then Ok false
  else if negb (mapnum a =? mapnum b) then Ok false
  else if negb (list_eqb bytes_eqb (maps a) (maps b)) then Ok false
  else if negb (vstart a =? vstart b) then Ok false
  else if negb (istart a =? istart b) then Ok false
  else if negb (inum a =? inum b) then Ok false
  else if negb (vnum a =? vnum b) then Ok false
  else if negb (mat_u4 a =? mat_u4 b) then Ok false
  else if negb (mat_u5 a =? mat_u5 b) then Ok false
  else if negb (vec3_opt_eqb (mmin a) (mmin b)) then do _ <- fmt_d33 (mmin a) (mmin b); Ok false
  else Ok true.

(** _bf2bone.__eq__, visiblemesh.py:942-949. *)
Definition bone_eqb (a b : bone F) : bool :=
  (bone_id a =? bone_id b) && matrix_eqb (bone_matrix a) (bone_matrix b).

(** _bf2rig.__eq__, visiblemesh.py:911-920. *)
Definition rig_eq (a b : rig F) : res bool :=
  if negb (bonenum a =? bonenum b) then Ok false
  else check_all (fun i x => do y <- nth_res (bones b) i; Ok (bone_eqb x y)) 0 (bones a).

(** The %g log lines of _bf2lod.__eq__ unpack both tuples: TypeError on None. *)
Definition fmt_g33 (a b : option (vec3 F)) : res unit :=
  match a, b with Some _, Some _ => Ok tt | _, _ => Raise EType end.

(** _bf2lod.__eq__, visiblemesh.py:813-847. *)
Definition lod_eq (a b : lod F) : res bool :=
  if negb (vec3_opt_eqb (lod_min a) (lod_min b)) then do _ <- fmt_g33 (lod_min a) (lod_min b); Ok false
  else if negb (vec3_opt_eqb (lod_max a) (lod_max b)) then do _ <- fmt_g33 (lod_max a) (lod_max b); Ok false
  else if negb (vec3_opt_eqb (pivot a) (pivot b)) then do _ <- fmt_g33 (pivot a) (pivot b); Ok false
  else if negb (rignum a =? rignum b) then Ok false
  else
    do r <- check_all (fun i x => do y <- nth_res (rigs b) i; rig_eq x y) 0 (rigs a);
    if negb r then Ok false
    else if negb (nodenum a =? nodenum b) then Ok false
    else
      do n <- check_all (fun i x => do y <- nth_res (nodes b) i; Ok (matrix_eqb x y)) 0 (nodes a);
      if negb n then Ok false
      else if negb (matnum a =? matnum b) then Ok false
      else check_all (fun i x => do y <- nth_res (materials b) i; mat_eq x y) 0 (materials a).
End Edit.
