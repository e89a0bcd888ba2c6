(** The equality methods of deprecated/modmesh.py. VisMesh, bf2rig and bf2bone have none:
    objects of these classes are equal only to themselves. The rig objects of a lod
    therefore get numbers, which stand for their identity. As in ColEq.v the compared
    floats are distinct objects: the shortcut by which Python's comparison of tuples skips
    items that are the same object is not modelled (it matters for NaNs only). The
    printing of differences cannot fail and is left out. *)
From Coq Require Import ZArith List Bool.
From Verif Require Import PyBase Struct Mesh Arith Edit.
Import ListNotations.
Open Scope Z_scope.

(** A bf2lod object, modmesh.py:241-266. The rest of the lod is as in Old.v; of [rignum]
    and [nodenum] the one that is not read is None. [lod.version] is never assigned, so
    its comparison (lines 270-272) never fails. *)
Record olod (F : Type) := { ol_skinned : bool; ol_lod : lod F; ol_rigs : list nat }.
Arguments ol_skinned {F}. Arguments ol_lod {F}. Arguments ol_rigs {F}.
(** A bf2geom object, modmesh.py:446-454. *)
Record ogeom (F : Type) := { og_lodnum : Z; og_lods : list (olod F) }.
Arguments og_lodnum {F}. Arguments og_lods {F}.

(** bf2head.__eq__, modmesh.py:432-443. *)
Definition old_head_eqb (a b : head) : bool :=
  if negb (h_u1 a =? h_u1 b) then false
  else if negb (h_version a =? h_version b) then false
  else if negb (h_u3 a =? h_u3 b) then false
  else if negb (h_u4 a =? h_u4 b) then false
  else if negb (h_u5 a =? h_u5 b) then false
  else true.

(** vertattrib.__eq__, modmesh.py:482-486: with a tuple; *)
Definition attrib_tuple_eqb (a : vertattrib) (t : list Z) : bool :=
  list_eqb Z.eqb [flag a; offset a; vartype a; usage a] t.
(** with another vertattrib: the tuple does not know how to compare itself with it, so
    Python asks the other one to compare itself with the tuple. *)
Definition attrib_attrib_eqb (a b : vertattrib) : bool :=
  attrib_tuple_eqb b [flag a; offset a; vartype a; usage a].

Section Eq.
Context {F : Type} (A : arith F).

(** bf2mat.__eq__, modmesh.py:335-382. *)
Definition old_mat_eqb (a b : mat F) : bool :=
  option_Z_eqb (alphamode a) (alphamode b) && bytes_eqb (fxfile a) (fxfile b) &&
  bytes_eqb (technique a) (technique b) && (mapnum a =? mapnum b) && list_eqb bytes_eqb (maps a) (maps b) &&
  (vstart a =? vstart b) && (istart a =? istart b) && (inum a =? inum b) && (vnum a =? vnum b) &&
  (mat_u4 a =? mat_u4 b) && (mat_u5 a =? mat_u5 b) &&
  vec3_opt_eqb A (mmin a) (mmin b) && vec3_opt_eqb A (mmax a) (mmax b).

Definition rignum_attr (l : olod F) : option Z := if ol_skinned l then Some (rignum (ol_lod l)) else None.
Definition nodenum_attr (l : olod F) : option Z := if ol_skinned l then None else Some (nodenum (ol_lod l)).

(** bf2lod.__eq__, modmesh.py:268-299. *)
Definition old_lod_eqb (a b : olod F) : bool :=
  vec3_opt_eqb A (lod_min (ol_lod a)) (lod_min (ol_lod b)) &&
  vec3_opt_eqb A (lod_max (ol_lod a)) (lod_max (ol_lod b)) &&
  vec3_opt_eqb A (pivot (ol_lod a)) (pivot (ol_lod b)) &&
  option_Z_eqb (rignum_attr a) (rignum_attr b) && list_eqb Nat.eqb (ol_rigs a) (ol_rigs b) &&
  option_Z_eqb (nodenum_attr a) (nodenum_attr b) &&
  list_eqb (matrix_eqb A) (nodes (ol_lod a)) (nodes (ol_lod b)) &&
  (matnum (ol_lod a) =? matnum (ol_lod b)) &&
  list_eqb old_mat_eqb (materials (ol_lod a)) (materials (ol_lod b)).

(** bf2geom.__eq__, modmesh.py:456-460. *)
Definition old_geom_eqb (a b : ogeom F) : bool :=
  if negb (og_lodnum a =? og_lodnum b) then false
  else list_eqb old_lod_eqb (og_lods a) (og_lods b).
End Eq.
