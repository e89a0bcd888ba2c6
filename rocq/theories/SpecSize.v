(** Specification of the number of floats per vertex. *)
From Coq Require Import ZArith List Bool.
From Verif Require Import PyBase Struct Mesh.
Import ListNotations.
Open Scope Z_scope.

(** Floats per attribute of a declared type: FLOAT1 to FLOAT4, D3DCOLOR, UNUSED. *)
Definition width_table : list (Z * Z) := [(0, 1); (1, 2); (2, 3); (3, 4); (4, 1); (17, 0)].
(** [widths l n]: the attributes of [l] have known types, [n] floats in all. *)
Inductive widths : list vertattrib -> Z -> Prop :=
| widths_nil : widths [] 0
| widths_cons a l w n : In (vartype a, w) width_table -> widths l n -> widths (a :: l) (w + n).
(** The attributes that are marked as used (flag 0). *)
Definition used (l : list vertattrib) : list vertattrib := filter (fun a => flag a =? 0) l.
