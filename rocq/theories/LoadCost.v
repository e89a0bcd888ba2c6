(** Loading, with a count of the objects that it makes: the statements of Mesh.v's loader, each list comprehension
    of a constructor adding the number of its calls. The objects are those of the classes _bf2geom, _bf2lod,
    _bf2vertattrib, _bf2rig, _bf2bone and _bf2mat; tuples, strings and matrices are not counted. *)
From Coq Require Import ZArith List Bool.
From Verif Require Import PyBase Struct Mesh.
Import ListNotations.
Open Scope Z_scope.

(** A reader with the number of objects made before it returns or raises. *)
Definition creader (A : Type) := bytes -> Z * res (A * bytes).
Definition cret {A} (a : A) : creader A := fun bs => (0, Ok (a, bs)).
Definition cbind {A B} (r : creader A) (f : A -> creader B) : creader B := fun bs =>
  let '(c, x) := r bs in
  match x with
  | Ok (a, rest) => let '(d, y) := f a rest in (c + d, y)
  | Raise e => (c, Raise e)
  end.
(** A reader that makes none. *)
Definition plain {A} (r : reader A) : creader A := fun bs => (0, r bs).
(** [[C() for i in range(n)]]. *)
Definition make (n : Z) : creader unit := fun bs => (Z.max 0 n, Ok (tt, bs)).
Declare Scope cost_scope.
Notation "'get' x <- e1 ; e2" := (cbind e1 (fun x => e2))
  (at level 200, x pattern, e1 at level 100, e2 at level 200, right associativity) : cost_scope.
Open Scope cost_scope.

Fixpoint cread_n {A} (r : creader A) (n : nat) : creader (list A) :=
  match n with
  | O => cret []
  | S k => get a <- r; get t <- cread_n r k; cret (a :: t)
  end.
Fixpoint cread_each {A B} (r : A -> creader B) (l : list A) : creader (list B) :=
  match l with
  | [] => cret []
  | a :: t => get b <- r a; get t' <- cread_each r t; cret (b :: t')
  end.

Section Cost.
Context {F : Type} (p : plat) (unpackf : Z -> F).
Notation read_long := (plain (read_long p)).
Notation read_float3 := (plain (read_float3 p unpackf)).

(** _bf2geom.load, visiblemesh.py:775-777: the lods are made here. *)
Definition cload_geom : creader (geom F) :=
  get n <- read_long; get _ <- make n;
  cret {| lodnum := n; lods := repeat new_lod (Z.to_nat n) |}.

(** _bf2rig.load, visiblemesh.py:922-928: all bones before the first is read. *)
Definition cload_rig : creader (rig F) :=
  get n <- read_long; get _ <- make n;
  get bs <- cread_n (plain (load_bone p unpackf)) (Z.to_nat n);
  cret {| bonenum := n; bones := bs |}.

(** _bf2lod.load_nodes_rigs, visiblemesh.py:852-874. *)
Definition cload_nodes_rigs (version : Z) (bundled skinned : bool) (l : lod F) : creader (lod F) :=
  get mn <- read_float3;
  get mx <- read_float3;
  get pv <- (if version <=? 6 then get v <- read_float3; cret (Some v) else cret (pivot l));
  if skinned then
    get n <- read_long; get _ <- make n;
    get rs <- cread_n cload_rig (Z.to_nat n);
    cret {| lod_min := Some mn; lod_max := Some mx; pivot := pv;
            rignum := n; rigs := rs; nodenum := nodenum l; nodes := nodes l;
            matnum := matnum l; materials := materials l |}
  else
    get n <- read_long;
    get ns <- (if bundled then cret [] else cread_n (plain (read_matrix4 p unpackf)) (Z.to_nat n));
    cret {| lod_min := Some mn; lod_max := Some mx; pivot := pv;
            rignum := rignum l; rigs := rigs l; nodenum := n; nodes := nodes l ++ ns;
            matnum := matnum l; materials := materials l |}.

(** _bf2lod.load_materials, visiblemesh.py:893-899: all materials before the first is read. *)
Definition cload_materials (version : Z) (skinned : bool) (l : lod F) : creader (lod F) :=
  get n <- read_long; get _ <- make n;
  get ms <- cread_n (plain (load_mat p unpackf version skinned)) (Z.to_nat n);
  cret {| lod_min := lod_min l; lod_max := lod_max l; pivot := pivot l;
          rignum := rignum l; rigs := rigs l; nodenum := nodenum l; nodes := nodes l;
          matnum := n; materials := ms |}.

Definition ceach_lod (r : lod F -> creader (lod F)) (gs : list (geom F)) : creader (list (geom F)) :=
  cread_each (fun g => get ls <- cread_each r (lods g);
                       cret {| lodnum := lodnum g; lods := ls |}) gs.

(** VisibleMesh.__load, visiblemesh.py:95-110; __read_geom_table and __read_vertattrib_table (lines 131-149) make
    all geoms and all attributes before they read the first. *)
Definition cload_body (k : kind) : creader (mesh F) :=
  get h <- plain (load_head p);
  get u1 <- plain (read_byte p);
  get gn <- read_long; get _ <- make gn;
  get gs0 <- cread_n cload_geom (Z.to_nat gn);
  get van <- read_long; get _ <- make van;
  get vas <- cread_n (plain (load_vertattrib p)) (Z.to_nat van);
  get vf <- read_long;
  get vst <- read_long;
  get vn <- read_long;
  get verts <- plain (load_vertices p unpackf vst vf vn);
  get inn <- read_long;
  get idx <- plain (read_short p inn);
  get u2 <- (if isSkinnedMesh k then cret 0 else read_long);
  get gs1 <- ceach_lod (cload_nodes_rigs (h_version h) (isBundledMesh k) (isSkinnedMesh k)) gs0;
  get gs2 <- ceach_lod (cload_materials (h_version h) (isSkinnedMesh k)) gs1;
  cret {| m_kind := k; m_head := h; m_u1 := u1; geomnum := gn; geoms := gs2;
          vertattribnum := van; vertex_attributes := vas;
          vertformat := vf; vertstride := vst; vertnum := vn; vertices := verts;
          indexnum := inn; index := idx; m_u2 := u2 |}.

(** VisibleMesh.__load with the size check, visiblemesh.py:112-117: objects made, and the result. *)
Definition load_counted (k : kind) (file : bytes) : Z * res (mesh F) :=
  let '(c, x) := cload_body k file in
  (c, do (m, rest) <- x;
      match rest with
      | [] => Ok m
      | _ => Raise EAttribute
      end).
End Cost.
