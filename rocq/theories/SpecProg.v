(** Programs over several meshes, with meshes as values. *)
From Coq Require Import ZArith List Bool.
From Verif Require Import PyBase Struct Mesh Arith Edit Heap HeapEdit.
Import ListNotations.
Open Scope Z_scope.

Section Prog.
Context {F : Type} (A : arith F).
(** Mesh [i] is [m] in the store: the objects of a program and nothing shared. *)
Definition separate (st : store F) (ms : list (mesh F)) : Prop :=
  length (s_meshes st) = length ms /\
  (forall i m, nth_error ms i = Some m -> own st i /\ tree_of st i = m) /\
  (forall i j, i <> j -> disjoint st i j).

Definition value (ms : list (mesh F)) (i : nat) : mesh F := nth i ms (hm_mesh mesh_none).
(** A call whose meshes are variables of their own: the result is assigned to one. *)
Definition value_call (ms : list (mesh F)) (c : call F) : list (mesh F) * outcome F :=
  match c with
  | CMerge i j => let '(m, r) := merge (value ms i) (value ms j) in (set_nth ms i m, of_merge r)
  | COrder i order => let '(m, o) := change_geoms_order (value ms i) order in (set_nth ms i m, of_exn o)
  | CTranslate i off => let '(m, o) := translate A (value ms i) off in (set_nth ms i m, of_exn o)
  | CRotate i rot => let '(m, o) := rotate A (value ms i) rot in (set_nth ms i m, of_exn o)
  | CBounds i => let '(m, o) := update_boundaries A (value ms i) in (set_nth ms i m, of_exn o)
  | CCenter i gi li u => let '(m, r) := get_lod_center_offset A (value ms i) gi li u in (set_nth ms i m, of_res r)
  end.
Fixpoint value_run (ms : list (mesh F)) (cs : list (call F)) : list (mesh F) * list (outcome F) :=
  match cs with
  | [] => (ms, [])
  | c :: t => let '(m1, o) := value_call ms c in let '(m2, os) := value_run m1 t in (m2, o :: os)
  end.

(** The calls name existing meshes, and no order names a geom twice. *)
Definition names_once (n : nat) (order : list Z) : Prop :=
  NoDup (map (fun z => if z <? 0 then z + Z.of_nat n else z) order).
Definition call_ok (ms : list (mesh F)) (c : call F) : Prop :=
  match c with
  | CMerge i j => (i < length ms /\ j < length ms)%nat
  | COrder i order => (i < length ms)%nat /\ names_once (length (geoms (value ms i))) order
  | CTranslate i _ | CRotate i _ | CBounds i | CCenter i _ _ _ => (i < length ms)%nat
  end.
End Prog.
