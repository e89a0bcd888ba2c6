(** Editing functions of the scripts that use the old mesh class:
    deprecated/box_modify.py (remove_vertice_id, replace_index_id, remove_attribute) and
    deprecated/mesh_order_fix.py (copy_geom_table), on the records of Mesh.v. The
    functions rename_texture and edit_vertex of box_modify.py are those of
    VisMeshTransform (Trans.v). What the functions print is not modelled. [vlist] and
    [ilist] say that vmesh.vertices and vmesh.index are lists, as in Trans.v. *)
From Coq Require Import ZArith Bool List.
From Verif Require Import PyBase Struct Mesh Arith Edit OldEdit Trans.
Import ListNotations.
Open Scope Z_scope.
Open Scope res_scope.

Section Scripts.
Context {F : Type}.

(** remove_vertice_id, box_modify.py:19-33. The number of the vertex is not used: line 23
    tests for 24. *)
Definition remove_vertice_id (m : mesh F) (id : Z) : mesh F * option exn :=
  match (if 24 <? vertnum m
         then do s <- py_int_div (vertstride m) (vertformat m); Ok (py_del_slice (vertices m) (24 * s) (24 * s + s))
         else Ok (vertices m)) with
  | Raise e => (m, Some e)
  | Ok l =>
      match (do s <- py_int_div (vertstride m) (vertformat m); py_int_div (zlen l) s) with
      | Raise e => (set_vertices m l, Some e)
      | Ok n => (set_counts (set_vertices m l) n (indexnum m), None)
      end
  end.

(** replace_index_id, box_modify.py:36-41. Neither number is used: 24 becomes 14. *)
Definition replace_index_id (m : mesh F) (id_original id_replace : Z) : mesh F * option exn :=
  match index m with
  | Scalar _ => (m, Some EType)
  | Tuple l => (set_index m (Tuple (map (fun i => if i =? 24 then 14 else i) l)), None)
  end.

(** remove_attribute, box_modify.py:44-93; [u] is the number of the usage named by
    [attrib_to_remove]. *)
Definition set_offset (a : vertattrib) (o : Z) : vertattrib :=
  {| flag := flag a; offset := o; vartype := vartype a; usage := usage a |}.
Definition set_attribs (m : mesh F) (n : Z) (l : list vertattrib) (stride : Z) : mesh F :=
  {| m_kind := m_kind m; m_head := m_head m; m_u1 := m_u1 m; geomnum := geomnum m;
     geoms := geoms m; vertattribnum := n; vertex_attributes := l;
     vertformat := vertformat m; vertstride := stride; vertnum := vertnum m;
     vertices := vertices m; indexnum := indexnum m; index := index m; m_u2 := m_u2 m |}.
(** Lines 62-67: the numbers of one attribute, last vertex first. *)
Definition del_numbers (l : list F) (n o len size : Z) : list F :=
  fold_left (fun l j => py_del_slice l (o + j * size) (o + j * size + len)) (rev (zrange n)) l.
(** One turn of the loop of lines 52-73. The state: vertices, offset_attrib,
    attrib_id_to_remove. *)
Definition remove_step (vlist : bool) (m : mesh F) (size u : Z) (i : nat) (s : list F * Z * nat) (a : vertattrib)
  : (list F * Z * nat) * vertattrib * option exn :=
  let '(l, oa, id) := s in
  match (if negb (known_usage (usage a)) then Raise EValue
         else do o <- py_int_div (offset a) (vertformat m);
              if negb (old_known_type (vartype a)) then Raise EValue
              else do n <- old_type_len (vartype a); Ok (o, n)) with
  | Raise e => (s, a, Some e)
  | Ok (o, n) =>
      let hit := usage a =? u in
      let oa' := if hit then n * vertformat m else oa in
      let id' := if hit then i else id in
      if hit && (0 <? vertnum m) && negb vlist then ((l, oa', id'), a, Some EType) else
      let l' := if hit then del_numbers l (vertnum m) o n size else l in
      ((l', oa', id'), if negb (oa' =? 0) && negb (o =? 0) then set_offset a (offset a - oa') else a, None)
  end.
Definition remove_attribute (vlist : bool) (m : mesh F) (u : Z) : mesh F * option exn :=
  match py_int_div (vertstride m) (vertformat m) with
  | Raise e => (m, Some e)
  | Ok size =>
      let '((l, _, id), tb, o) := fold_mut (remove_step vlist m size u) (vertices m, 0, 0%nat) (vertex_attributes m) in
      let m1 := set_attribs (set_vertices m l) (vertattribnum m) tb (vertstride m) in
      match o with
      | Some e => (m1, Some e)
      | None =>
          match id with
          | O => (m1, None)
          | _ =>
              match (do a <- nth_res tb id; old_type_len (vartype a)) with
              | Raise e => (m1, Some e)               (* not reached *)
              | Ok n => (set_attribs m1 (zlen (del_nth tb id)) (del_nth tb id) (vertstride m - n * vertformat m), None)
              end
          end
      end
  end.

(** copy_geom_table, mesh_order_fix.py:4-18. The geoms of vmesh2 become geoms of vmesh1
    as well, the objects being shared; the two meshes share no object before. The state:
    vertices and indices of vmesh1. *)
Definition copy_mat (vlist ilist : bool) (m1 m2 : mesh F) (s : list F * pyseq Z) (mt : mat F)
  : (list F * pyseq Z) * mat F * option exn :=
  let '(v, ix) := s in
  match (do q <- py_truediv (vertstride m1) (vertformat m1);
         do va <- py_fmul_int q (vstart mt);
         do a <- py_int va;
         do nv <- py_fmul_int q (vnum mt);
         do n <- py_int nv;
         Ok (a, n)) with
  | Raise e => (s, mt, Some e)
  | Ok (a, n) =>
      if negb vlist then (s, mt, Some EAttribute) else
      let v' := v ++ py_slice (vertices m2) a (a + n) in
      let mt1 := set_mat_layout mt (vstart mt + vertnum m1) (istart mt) (inum mt) (vnum mt) in
      match index_slice (index m2) (istart mt) (istart mt + inum mt) with
      | Raise e => ((v', ix), mt1, Some e)
      | Ok il =>
          let mt2 := set_mat_layout mt1 (vstart mt1) (istart mt + indexnum m1) (inum mt) (vnum mt) in
          match il, ilist, ix with
          | [], _, _ => ((v', ix), mt2, None)
          | _, true, Tuple l => ((v', Tuple (l ++ il)), mt2, None)
          | _, _, _ => ((v', ix), mt1, Some EAttribute)
          end
      end
  end.
(** One turn of the loop of line 5. Entry [k] of vmesh2 was just appended; line 7 takes
    the entry [k + vmesh1.geomnum] of the longer table, which is another one if geomnum is
    not the length of the table. *)
Definition copy_step (vlist ilist : bool) (m1 m2 : mesh F)
           (s : (list F * pyseq Z) * list (geom F) * list (geom F)) (k : nat)
  : ((list F * pyseq Z) * list (geom F) * list (geom F)) * option exn :=
  let '(d, gs1, gs2) := s in
  let table := gs1 ++ firstn (S k) gs2 in
  match norm_index (zlen table) (Z.of_nat k + geomnum m1) with
  | None => (s, Some EIndex)
  | Some p =>
      match nth_error table p with
      | None => (s, Some EIndex)                 (* not reached *)
      | Some g =>
          let '(d', g', o) := trav_geom (fun _ _ => copy_mat vlist ilist m1 m2) d g in
          if (p <? length gs1)%nat then ((d', set_nth gs1 p g', gs2), o)
          else ((d', gs1, set_nth gs2 (p - length gs1) g'), o)
      end
  end.
Fixpoint copy_loop (vlist ilist : bool) (m1 m2 : mesh F) (n k : nat)
         (s : (list F * pyseq Z) * list (geom F) * list (geom F))
  : ((list F * pyseq Z) * list (geom F) * list (geom F)) * nat * option exn :=
  match n with
  | O => (s, k, None)
  | S n' => match copy_step vlist ilist m1 m2 s k with
            | (s', None) => copy_loop vlist ilist m1 m2 n' (S k) s'
            | (s', Some e) => (s', S k, Some e)
            end
  end.
Definition copy_geom_table (vlist ilist : bool) (m1 m2 : mesh F) : mesh F * mesh F * option exn :=
  let '(((v, ix), gs1, gs2), k, o) :=
    copy_loop vlist ilist m1 m2 (length (geoms m2)) 0 ((vertices m1, index m1), geoms m1, geoms m2) in
  let m1' := set_index (set_vertices (set_geoms m1 (gs1 ++ firstn k gs2)) v) ix in
  let m2' := set_geoms m2 gs2 in
  match o with
  | Some e => (m1', m2', Some e)
  | None =>
      let m1'' := set_geom_table m1' (zlen (geoms m1')) (geoms m1') in
      match old_vertnum (zlen v) (vertstride m1) (vertformat m1) with
      | Raise e => (m1'', m2', Some e)
      | Ok n =>
          match ix with
          | Scalar _ => (set_counts m1'' n (indexnum m1), m2', Some EType)
          | Tuple l => (set_counts m1'' n (zlen l), m2', None)
          end
      end
  end.
End Scripts.
