(** The exceptions that each call may raise. *)
From Coq Require Import ZArith List.
From Verif Require Import PyBase Struct Mesh Edit.
Import ListNotations.
Open Scope Z_scope.

Definition load_exns : list exn := [EStruct; EType; EZeroDiv; EAttribute].
Definition translate_exns : list exn := [EValue; EIndex; EUnboundLocal].
Definition rotate_exns : list exn := [EValue; EIndex].
Definition bounds_exns : list exn := [EValue; EIndex; EAttribute].
Definition center_exns : list exn := [EValue; EIndex; EAttribute].
Definition merge_exns : list exn := [EValue; EIndex; EType; EOverflow].
(** OverflowError: int / int when the quotient exceeds every double, so for more than
    2^1000 vertex numbers only. *)
Definition order_exns : list exn := [EValue; EIndex; EType; EAttribute; EZeroDiv; EOverflow].

Definition export_exns : list exn := [EStruct; EType; EIndex].

(** What every load gives and no editing method changes: a vertex format that can be
    divided by, attribute offsets in the range of a short; and bounds in every lod. *)
Definition formatted {F} (m : mesh F) : Prop :=
  vertformat m <> 0 /\ Forall (fun a => 0 <= offset a < 65536) (vertex_attributes m) /\
  Forall (fun g => Forall (fun l => lod_min l <> None /\ lod_max l <> None) (lods g)) (geoms m).
