(** deprecated/modmesh.py: VisMeshTransform (lines 489-555), on the records of Mesh.v
    (see Old.v). Geom objects can be shared: copy_geom_id and order_geoms_by put one
    object into the table several times. [ids] says which object each entry of the table
    is: entries with equal numbers are one object, and have equal geoms. [fresh m] is a
    table without sharing, as the loader makes it. *)
From Coq Require Import ZArith Bool List.
From Verif Require Import PyBase Struct Mesh Arith Edit OldEdit.
Import ListNotations.
Open Scope Z_scope.
Open Scope res_scope.

Section Trans.
Context {F : Type}.

Definition fresh (m : mesh F) : list nat := seq 0 (length (geoms m)).
(** The object behind entry [k] is now [g]. *)
Definition assign_geom (ids : list nat) (gs : list (geom F)) (k : nat) (g : geom F) : list (geom F) :=
  map (fun ig => if Nat.eqb (fst ig) (nth k ids 0%nat) then g else snd ig) (combine ids gs).

(** [l.insert(i, x)]. *)
Definition py_insert {B} (l : list B) (i : Z) (x : B) : list B :=
  let k := Z.to_nat (norm_bound (zlen l) i) in firstn k l ++ x :: skipn k l.
(** [del l[a:b]] on a list. *)
Definition py_del_slice {B} (l : list B) (a b : Z) : list B := py_slice_assign l a b [].
(** [del l[k]] for a position of the list. *)
Definition del_nth {B} (l : list B) (k : nat) : list B := firstn k l ++ skipn (S k) l.

Definition set_geom_table (m : mesh F) (n : Z) (gs : list (geom F)) : mesh F :=
  {| m_kind := m_kind m; m_head := m_head m; m_u1 := m_u1 m; geomnum := n;
     geoms := gs; vertattribnum := vertattribnum m;
     vertex_attributes := vertex_attributes m;
     vertformat := vertformat m; vertstride := vertstride m; vertnum := vertnum m;
     vertices := vertices m; indexnum := indexnum m; index := index m; m_u2 := m_u2 m |}.

(** copy_geom_id, lines 494-496. *)
Definition copy_geom_id (m : mesh F) (ids : list nat) (id_copy id_new : Z) : mesh F * list nat * option exn :=
  match (do g <- py_get (geoms m) id_copy; do i <- py_get ids id_copy; Ok (g, i)) with
  | Raise e => (set_geom_table m (geomnum m + 1) (geoms m), ids, Some e)
  | Ok (g, i) => (set_geom_table m (geomnum m + 1) (py_insert (geoms m) id_new g), py_insert ids id_new i, None)
  end.

(** order_geoms_by, lines 532-535. *)
Definition order_geoms_by (m : mesh F) (ids : list nat) (order : list Z) : mesh F * list nat * option exn :=
  match (do gs <- map_res (py_get (geoms m)) order; do js <- map_res (py_get ids) order; Ok (gs, js)) with
  | Raise e => (m, ids, Some e)
  | Ok (gs, js) => (set_geoms m gs, js, None)
  end.

(** rename_texture, lines 553-555; the path is ASCII text. *)
Definition set_maps (mt : mat F) (l : list bytes) : mat F :=
  {| alphamode := alphamode mt; fxfile := fxfile mt; technique := technique mt;
     mapnum := mapnum mt; maps := l; vstart := vstart mt; istart := istart mt;
     inum := inum mt; vnum := vnum mt; mat_u4 := mat_u4 mt; mat_u5 := mat_u5 mt;
     mmin := mmin mt; mmax := mmax mt |}.
(** [l[i]] replaced by a mutation of it that may raise. *)
Definition at_item {B} (l : list B) (i : Z) (f : B -> res B) : res (list B) :=
  do x <- py_get l i; do y <- f x; py_set l i y.
Definition rename_in (ge : geom F) (l mt k : Z) (path : bytes) : res (geom F) :=
  do ls <- at_item (lods ge) l (fun lo =>
    do ms <- at_item (materials lo) mt (fun ma =>
      do mp <- py_set (maps ma) k path; Ok (set_maps ma mp));
    Ok (set_materials lo ms));
  Ok (set_lods ge ls).
Definition rename_texture (m : mesh F) (ids : list nat) (g l mt k : Z) (path : bytes) : mesh F * option exn :=
  match (do ge <- py_get (geoms m) g; rename_in ge l mt k path) with
  | Raise e => (m, Some e)
  | Ok ge =>
      match norm_index (zlen (geoms m)) g with
      | None => (m, Some EIndex)            (* not reached *)
      | Some a => (set_geoms m (assign_geom ids (geoms m) a ge), None)
      end
  end.

(** delete_geom_id, lines 498-530. [vlist] and [ilist] say that self.vmesh.vertices and
    self.vmesh.index are lists; the loader and the editing methods make them tuples, for
    which [del] is a TypeError. *)
Definition shift_mat (vn inn : Z) (mt : mat F) : mat F :=
  set_mat_layout mt (vstart mt - vn) (istart mt - inn) (inum mt) (vnum mt).
Definition shift_geom (vn inn : Z) (g : geom F) : geom F :=
  set_lods g (map (fun l => set_materials l (map (shift_mat vn inn) (materials l))) (lods g)).
(** Lines 521-526: an object is shifted once for each of its entries after [id]. *)
Definition shift_geoms (ids : list nat) (gs : list (geom F)) (id vn inn : Z) : list (geom F) :=
  fold_left (fun gs k => match nth_error gs k with
                         | Some g => if id <? Z.of_nat k then assign_geom ids gs k (shift_geom vn inn g) else gs
                         | None => gs
                         end) (seq 0 (length gs)) gs.
Definition delete_geom_id (vlist ilist : bool) (m : mesh F) (ids : list nat) (id : Z)
  : mesh F * list nat * option exn :=
  match (do g <- py_get (geoms m) id;
         let ms := flat_map materials (lods g) in
         match ms with
         | [] => Raise EValue                      (* nothing to unpack, line 499 *)
         | _ =>
           let vn := fold_left Z.add (map vnum ms) 0 in
           let inn := fold_left Z.add (map inum ms) 0 in
           do q <- py_truediv (vertstride m) (vertformat m);
           do l0 <- py_get (lods g) 0;
           do m0 <- py_get (materials l0) 0;
           do va <- py_fmul_int q (vstart m0);
           do a <- py_int va;
           do nv <- py_fmul_int q vn;
           do n <- py_int nv;
           Ok (vn, inn, a, n, istart m0)
         end) with
  | Raise e => (m, ids, Some e)
  | Ok (vn, inn, a, n, i) =>
      if negb vlist then (m, ids, Some EType) else
      let m1 := set_counts (set_vertices m (py_del_slice (vertices m) a (a + n)))
                           (vertnum m - vn) (indexnum m) in
      match ilist, index m with
      | true, Tuple ix =>
          let m2 := set_counts (set_index m1 (Tuple (py_del_slice ix i (i + inn))))
                               (vertnum m1) (indexnum m - inn) in
          let gs := shift_geoms ids (geoms m) id vn inn in
          match norm_index (zlen gs) id with
          | None => (set_geoms m2 gs, ids, Some EIndex)    (* not reached *)
          | Some k => (set_geom_table m2 (geomnum m - 1) (del_nth gs k), del_nth ids k, None)
          end
      | _, _ => (m1, ids, Some EType)
      end
  end.

(** edit_vertex, lines 537-551; [u] is the number of the usage named by [vattribute].
    Lines 539-542 come first for every attribute, whatever its flag; lines 550-551 are a
    TypeError on a tuple. *)
Definition assign_all {B} (l : list B) (s : Z) (data : list B) : list B * option exn :=
  fold_left (fun acc id => match acc with
    | (l, None) => match py_set l (s + Z.of_nat (fst id)) (snd id) with
                   | Ok l' => (l', None)
                   | Raise e => (l, Some e)
                   end
    | _ => acc
    end) (combine (seq 0 (length data)) data) (l, None).
Definition edit_vertex_attrib (vlist : bool) (m : mesh F) (id u : Z) (vdata : list F) (l : list F) (a : vertattrib)
  : list F * option exn :=
  match (if negb (known_usage (usage a)) then Raise EValue
         else do o <- py_int_div (offset a) (vertformat m);
              if negb (old_known_type (vartype a)) then Raise EValue
              else do _ <- old_type_len (vartype a); Ok o) with
  | Raise e => (l, Some e)
  | Ok o =>
      if (usage a =? u) && (0 <? vertnum m) then
        match py_int_div (vertstride m) (vertformat m) with
        | Raise e => (l, Some e)
        | Ok size =>
            if (0 <=? id) && (id <? vertnum m) then
              match vdata with
              | [] => (l, None)
              | _ => if vlist then assign_all l (o + id * size) vdata else (l, Some EType)
              end
            else (l, None)
        end
      else (l, None)
  end.
Definition edit_vertex (vlist : bool) (m : mesh F) (id u : Z) (vdata : list F) : mesh F * option exn :=
  let '(l, o) := fold_left (fun acc a => match acc with
                   | (l, None) => edit_vertex_attrib vlist m id u vdata l a
                   | _ => acc
                   end) (vertex_attributes m) (vertices m, None) in
  (set_vertices m l, o).
End Trans.
