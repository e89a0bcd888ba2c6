(** deprecated/mesh_read.py: what its functions print.

    A printed line is kept as the values that are formatted into it; how Python writes
    a float, an int or bytes is not modelled. The names of D3DDECLUSAGE and D3DDECLTYPE
    are one-to-one with their numbers, so the number stands for the name. *)
From Coq Require Import ZArith List Bool.
From Verif Require Import PyBase Struct Mesh Arith Edit OldEdit Old.
Import ListNotations.
Open Scope Z_scope.
Open Scope res_scope.

Section Display.
Context {F : Type}.

(** The lines of display_mesh_data: 12, 17, 19, 26, 29. *)
Inductive line :=
| AttribHead (usage vartype : Z)
| AttribLine (i start : Z) (data : list F)
| IndexHead
| CornerLine (v : Z) (data : list F)
| Blank.

(** Lines 7-10, in this order. *)
Definition attrib_facts (m : mesh F) (a : vertattrib) : res (Z * Z) :=
  if negb (known_usage (usage a)) then Raise EValue
  else
    do o <- py_int_div (offset a) (vertformat m);
    if negb (old_known_type (vartype a)) then Raise EValue
    else do n <- old_type_len (vartype a); Ok (o, n).

(** Lines 13-17. *)
Fixpoint attrib_rows (m : mesh F) (o n : Z) (is_ : list Z) : list line * option exn :=
  match is_ with
  | [] => ([], None)
  | i :: t =>
      match py_int_div (vertstride m) (vertformat m) with
      | Raise e => ([], Some e)
      | Ok size =>
          let s := o + i * size in
          let '(ls, e) := attrib_rows m o n t in
          (AttribLine i s (py_slice (vertices m) s (s + n)) :: ls, e)
      end
  end.

(** Lines 6-17. *)
Fixpoint attrib_sections (m : mesh F) (l : list vertattrib) : list line * option exn :=
  match l with
  | [] => ([], None)
  | a :: t =>
      match attrib_facts m a with
      | Raise e => ([], Some e)
      | Ok (o, n) =>
          let '(rows, e) := attrib_rows m o n (zrange (vertnum m)) in
          match e with
          | Some e => (AttribHead (usage a) (vartype a) :: rows, Some e)
          | None =>
              let '(ls, e) := attrib_sections m t in
              (AttribHead (usage a) (vartype a) :: rows ++ ls, e)
          end
      end
  end.

(** Lines 21-29; [k] is face_vid. *)
Fixpoint corner_rows (m : mesh F) (k : Z) (l : list Z) : list line * option exn :=
  match l with
  | [] => ([], None)
  | v :: t =>
      match py_int_div (vertstride m) (vertformat m) with
      | Raise e => ([], Some e)
      | Ok size =>
          let s := v * size in
          let row := CornerLine v (py_slice (vertices m) s (s + 3)) in
          if k + 1 =? 3
          then let '(ls, e) := corner_rows m 0 t in (row :: Blank :: ls, e)
          else let '(ls, e) := corner_rows m (k + 1) t in (row :: ls, e)
      end
  end.

(** display_mesh_data, lines 5-29. A bare int cannot be iterated over. *)
Definition display_mesh_data (m : mesh F) : list line * option exn :=
  match attrib_sections m (vertex_attributes m) with
  | (ls, Some e) => (ls, Some e)
  | (ls, None) =>
      match index m with
      | Scalar _ => (ls ++ [IndexHead], Some EType)
      | Tuple ix => let '(rows, e) := corner_rows m 0 ix in (ls ++ IndexHead :: rows, e)
      end
  end.

(** The lines of display_material_data: 32-43. *)
Inductive mline :=
| MGeom (g : Z)
| MAlpha (v : option Z)
| MFx (s : bytes)
| MTechnique (s : bytes)
| MMapnum (n : Z)
| MMap (id : Z) (s : bytes)
| MVnum (n : Z)
| MVstart (n : Z)
| MInum (n : Z)
| MIstart (n : Z).

(** [vmesh.geoms[geom].lods[lod].materials[material]]. *)
Definition material_of (m : mesh F) (g l k : Z) : res (mat F) :=
  do ge <- py_get (geoms m) g; do lo <- py_get (lods ge) l; py_get (materials lo) k.

(** display_material_data, lines 31-43. The material is looked up for every line, each
    time with the same result. *)
Definition display_material_data (m : mesh F) (g l k : Z) : list mline * option exn :=
  match material_of m g l k with
  | Raise e => ([MGeom g], Some e)
  | Ok mt =>
      ([MGeom g; MAlpha (alphamode mt); MFx (fxfile mt); MTechnique (technique mt); MMapnum (mapnum mt)] ++
       map (fun im => MMap (Z.of_nat (fst im)) (snd im)) (combine (seq 0 (length (maps mt))) (maps mt)) ++
       [MVnum (vnum mt); MVstart (vstart mt); MInum (inum mt); MIstart (istart mt)], None)
  end.
End Display.
Arguments line F : clear implicits.

(** The module itself, lines 46-53: what it prints for the skinned mesh of line 46. *)
Definition mesh_read_main {F} (p : plat) (unpackf : Z -> F) (file : bytes) : res (list mline * option exn) :=
  do m <- old_load p unpackf {| isSkinnedMesh := true; isBundledMesh := false; isStaticMesh := false; isCollisionMesh := false |} file;
  Ok (match display_material_data m 17 0 0 with
      | (ls, Some e) => (ls, Some e)
      | (ls, None) => let '(ls', e) := display_material_data m 18 0 0 in (ls ++ ls', e)
      end).
