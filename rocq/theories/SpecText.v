(** Texts of numbers and of the members of the two enumerations. *)
From Coq Require Import ZArith List String Ascii.
Import ListNotations.
Open Scope Z_scope.

Definition text := list ascii.
Definition lit (s : string) : text := list_ascii_of_string s.
Definition newline : ascii := ascii_of_nat 10.

(** [t] is a decimal numeral with the value [z]. *)
Definition digit (c : ascii) : Prop := (48 <= nat_of_ascii c <= 57)%nat.
Definition value (t : text) : Z := fold_left (fun n c => 10 * n + (Z.of_nat (nat_of_ascii c) - 48)) t 0.
Definition writes (t : text) (z : Z) : Prop :=
  (0 <= z /\ t <> [] /\ Forall digit t /\ value t = z) \/
  (z < 0 /\ exists d, t = "-"%char :: d /\ d <> [] /\ Forall digit d /\ value d = - z).

(** Vertex attribute types: value, name, numbers per vertex. *)
Definition types : list (Z * string * Z) :=
  [(0, "FLOAT1", 1); (1, "FLOAT2", 2); (2, "FLOAT3", 3); (3, "FLOAT4", 4); (4, "D3DCOLOR", 1); (17, "UNUSED", 0)]%string.
(** Vertex attribute usages: value, name. *)
Definition usages : list (Z * string) :=
  [(0, "POSITION"); (1, "BLENDWEIGHT"); (2, "BLENDINDICES"); (3, "NORMAL"); (4, "PSIZE"); (5, "UV1"); (6, "TANGENT"); (7, "BINORMAL");
   (8, "TESSFACTOR"); (9, "POSITIONT"); (10, "COLOR"); (11, "FOG"); (12, "DEPTH"); (13, "SAMPLE");
   (261, "UV2"); (517, "UV3"); (773, "UV4"); (1029, "UV5")]%string.
