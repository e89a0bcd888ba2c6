(** Specification vocabulary for the meshes of deprecated/mock_mesh.py. *)
From Coq Require Import ZArith List Bool Reals.
From Flocq Require Import IEEE754.Binary IEEE754.Bits.
From Verif Require Import PyBase Struct Mesh Arith F64 Col Spec SpecEdit SpecVec SpecSurface Mock.
Import ListNotations.
Open Scope Z_scope.

(** The float literals as single precision patterns and as numbers. *)
Definition lit_bits (x : lit) : Z :=
  match x with
  | Nz => 2147483648
  | Hf n => match n with
            | 0 => 0 | 1 => 1056964608 | 2 => 1065353216 | 3 => 1069547520 | 5 => 1075838976
            | -1 => 3204448256 | -2 => 3212836864 | -3 => 3217031168 | -5 => 3223322624
            | _ => 2143289344
            end
  end.
(** The literals that mock_mesh.py contains, and their doubles. *)
Definition used (x : lit) : Prop := In x [Nz; Hf 0; Hf 1; Hf 2; Hf 3; Hf (-1); Hf (-2); Hf (-3); Hf (-5)].
Definition num64 (x : lit) : binary64 := unpack_f (lit_bits x).
Definition lit_real (x : lit) : R := match x with Nz => 0%R | Hf n => (IZR n / 2)%R end.

(** [m] loaded from a file with the extension .staticmesh. *)
Definition as_static {F} (m : mesh F) : mesh F :=
  {| m_kind := {| isSkinnedMesh := isSkinnedMesh (m_kind m); isBundledMesh := isBundledMesh (m_kind m);
                  isStaticMesh := true; isCollisionMesh := isCollisionMesh (m_kind m) |};
     m_head := m_head m; m_u1 := m_u1 m; geomnum := geomnum m; geoms := geoms m;
     vertattribnum := vertattribnum m; vertex_attributes := vertex_attributes m;
     vertformat := vertformat m; vertstride := vertstride m; vertnum := vertnum m; vertices := vertices m;
     indexnum := indexnum m; index := index m; m_u2 := m_u2 m |}.

(** ** Surfaces *)
(** Three numbers of vertex [v] from number [o] on, [vs] numbers per vertex. *)
Definition three {F} (d : F) (vs : nat) (m : mesh F) (o : nat) (v : Z) : vec3 F :=
  let k := (Z.to_nat v * vs + o)%nat in (nth k (vertices m) d, nth (k + 1) (vertices m) d, nth (k + 2) (vertices m) d).
(** A vertex of a collision mesh. *)
Definition col_corner (l : collod R colface) (v : Z) : vec3 R := nth (Z.to_nat v) (cl_vertices l) (0, 0, 0)%R.
