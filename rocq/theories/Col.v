(** The collision meshes of deprecated/modcolmesh.py, with the readers and writers of
    deprecated/modIO.py and Vec3 of deprecated/modVec3.py.

    [bf2colface] objects are mutated and shared by [merge], so a lod refers to its
    faces through a type [R]: faces themselves ([R := colface]) for the loader and the
    serialiser, and addresses in a heap of faces ([R := nat]) for [merge]. Vec3 and
    ystruct objects in the lists are shared too, but no method changes one that is in a
    list. The Vec3 objects min, max, bmin, bmax, which merge mutates, are created by
    [_read] or [__init__] for one attribute of one lod, and no method stores them
    elsewhere; they are values here. Geoms, subgeoms and lods are never shared by any
    method and are values too. A failing [load] on an existing object, whose attributes
    are then partly overwritten, is modelled by the exception only. *)
From Coq Require Import ZArith List Bool.
From Verif Require Import PyBase Struct Mesh Arith Obj.
Import ListNotations.
Open Scope Z_scope.
Open Scope res_scope.

(** ** modIO.py: shorts are signed there (format 'h'); the other helpers are those of
    io.py with lenght=1. *)
Section IO.
Context {F : Type} (p : plat) (unpackf : Z -> F).
(** read_short, modIO.py:27-31. *)
Definition read_sshort : reader Z :=
  get bs <- read_raw 2; rret (to_signed 2 (dec_uint p bs)).
(** write_short, modIO.py:58-62. *)
Definition write_sshort (v : Z) : writer :=
  if in_signed 2 v then wput (enc_uint p 2 (of_signed 2 v)) else wraise EStruct.
(** read_float, modIO.py:9-13. *)
Definition read_float1 : reader F :=
  get bs <- read_raw 4; rret (unpackf (dec_uint p bs)).
End IO.

(** bf2colface, modcolmesh.py:68-75: [_read] sets the attribute [m] (line 87), which
    [__init__] does not create; [None] is an object without it. *)
Record colface := { cf_v1 : Z; cf_v2 : Z; cf_v3 : Z; cf_material : Z; cf_m : option Z }.

Section Types.
Context (F R : Type).
(** ystruct, modcolmesh.py:27-37. *)
Record ystruct := { y_u1 : F; y_u2 : Z; y_u3 : Z; y_u4 : Z; y_u5 : Z }.
(** bf2collod, modcolmesh.py:103-133. *)
Record collod := {
  cl_type : Z;
  cl_facenum : Z; cl_faces : list R;
  cl_vertnum : Z; cl_vertices : list (vec3 F); cl_vertids : list Z;
  cl_min : vec3 F; cl_max : vec3 F; cl_u7 : Z; cl_bmin : vec3 F; cl_bmax : vec3 F;
  cl_ynum : Z; cl_ydata : list ystruct;
  cl_znum : Z; cl_zdata : list Z;
  cl_anum : Z; cl_adata : list Z }.
(** bf2colsubgeom, modcolmesh.py:343-347. *)
Record colsub := { cs_lodnum : Z; cs_lods : list collod }.
(** bf2colgeom, modcolmesh.py:375-379. *)
Record colgeom := { cg_subnum : Z; cg_subs : list colsub }.
(** ColMesh, modcolmesh.py:407-413. *)
Record colmesh := { cm_u1 : Z; cm_version : Z; cm_geomnum : Z; cm_geoms : list colgeom }.
End Types.
Arguments y_u1 {F}. Arguments y_u2 {F}. Arguments y_u3 {F}. Arguments y_u4 {F}. Arguments y_u5 {F}.
Arguments cl_type {F R}. Arguments cl_facenum {F R}. Arguments cl_faces {F R}.
Arguments cl_vertnum {F R}. Arguments cl_vertices {F R}. Arguments cl_vertids {F R}.
Arguments cl_min {F R}. Arguments cl_max {F R}. Arguments cl_u7 {F R}.
Arguments cl_bmin {F R}. Arguments cl_bmax {F R}. Arguments cl_ynum {F R}. Arguments cl_ydata {F R}.
Arguments cl_znum {F R}. Arguments cl_zdata {F R}. Arguments cl_anum {F R}. Arguments cl_adata {F R}.
Arguments cs_lodnum {F R}. Arguments cs_lods {F R}. Arguments cg_subnum {F R}. Arguments cg_subs {F R}.
Arguments cm_u1 {F R}. Arguments cm_version {F R}. Arguments cm_geomnum {F R}. Arguments cm_geoms {F R}.

(** ** Loading *)
Section Load.
Context {F : Type} (p : plat) (unpackf : Z -> F).

(** ystruct._read, modcolmesh.py:39-44. *)
Definition read_ystruct : reader (ystruct F) :=
  get a <- read_float1 p unpackf;
  get b <- read_sshort p;
  get c <- read_sshort p;
  get d <- read_long p;
  get e <- read_long p;
  rret {| y_u1 := a; y_u2 := b; y_u3 := c; y_u4 := d; y_u5 := e |}.

(** bf2colface._read on a new face, modcolmesh.py:83-87: [material] keeps the 0 of
    [__init__]. *)
Definition read_face : reader colface :=
  get a <- read_sshort p;
  get b <- read_sshort p;
  get c <- read_sshort p;
  get m <- read_sshort p;
  rret {| cf_v1 := a; cf_v2 := b; cf_v3 := c; cf_material := 0; cf_m := Some m |}.

(** coltype(value), modcolmesh.py:20-25 and 239: ValueError unless 0..4. *)
Definition to_coltype (z : Z) : res Z :=
  if (0 <=? z) && (z <=? 4) then Ok z else Raise EValue.

(** bf2collod._read on a new lod, modcolmesh.py:237-247 with 261-265, 273-282,
    293-300, 311-315, 323-325 and 333-335. *)
Definition read_collod (version : Z) : reader (collod F colface) :=
  get ct <- (if 9 <=? version then (get z <- read_long p; rlift (to_coltype z)) else rret 0);
  get facenum <- read_long p;
  get faces <- read_n read_face (Z.to_nat facenum);
  get vertnum <- read_long p;
  get vertices <- read_n (read_float3 p unpackf) (Z.to_nat vertnum);
  get vertids <- read_n (read_sshort p) (Z.to_nat vertnum);
  get mn <- read_float3 p unpackf;
  get mx <- read_float3 p unpackf;
  get u7 <- read_byte p;
  get bmn <- read_float3 p unpackf;
  get bmx <- read_float3 p unpackf;
  get ynum <- read_long p;
  get ydata <- read_n read_ystruct (Z.to_nat ynum);
  get znum <- read_long p;
  get zdata <- read_n (read_sshort p) (Z.to_nat znum);
  get ad <- (if 10 <=? version
             then (get anum <- read_long p;
                   get adata <- read_n (read_long p) (Z.to_nat anum); rret (anum, adata))
             else rret (0, []));
  rret {| cl_type := ct; cl_facenum := facenum; cl_faces := faces;
          cl_vertnum := vertnum; cl_vertices := vertices; cl_vertids := vertids;
          cl_min := mn; cl_max := mx; cl_u7 := u7; cl_bmin := bmn; cl_bmax := bmx;
          cl_ynum := ynum; cl_ydata := ydata; cl_znum := znum; cl_zdata := zdata;
          cl_anum := fst ad; cl_adata := snd ad |}.

(** bf2colsubgeom._read, modcolmesh.py:353-357. *)
Definition read_colsub (version : Z) : reader (colsub F colface) :=
  get n <- read_long p;
  get l <- read_n (read_collod version) (Z.to_nat n);
  rret {| cs_lodnum := n; cs_lods := l |}.
(** bf2colgeom._read, modcolmesh.py:385-389. *)
Definition read_colgeom (version : Z) : reader (colgeom F colface) :=
  get n <- read_long p;
  get l <- read_n (read_colsub version) (Z.to_nat n);
  rret {| cg_subnum := n; cg_subs := l |}.
(** ColMesh._read_geoms, modcolmesh.py:433-435 and 441-451. *)
Definition read_colmesh : reader (colmesh F colface) :=
  get u1 <- read_long p;
  get version <- read_long p;
  get n <- read_long p;
  get l <- read_n (read_colgeom version) (Z.to_nat n);
  rret {| cm_u1 := u1; cm_version := version; cm_geomnum := n; cm_geoms := l |}.

(** ColMesh.load, modcolmesh.py:418-420: the rest of the file is not looked at. *)
Definition col_load (file : bytes) : res (colmesh F colface) :=
  do x <- read_colmesh file; Ok (fst x).

(** ColMesh(filename), modcolmesh.py:409-416; no filename is [None] or ''. *)
Definition new_colmesh (f : fs) (filename : option bytes) : res (colmesh F colface) :=
  match filename with
  | None | Some [] => Ok {| cm_u1 := 0; cm_version := 0; cm_geomnum := 0; cm_geoms := [] |}
  | Some fn => do file <- open_rb f fn; col_load file
  end.
End Load.

(** ** Saving *)
Section Save.
Context {F : Type} (p : plat) (packf : F -> Z).

(** ystruct._write, modcolmesh.py:46-51. *)
Definition write_ystruct (y : ystruct F) : writer :=
  write_float p packf (y_u1 y) ;;
  write_sshort p (y_u2 y) ;; write_sshort p (y_u3 y) ;;
  write_long p (y_u4 y) ;; write_long p (y_u5 y).

(** bf2colface._write, modcolmesh.py:89-93. *)
Definition write_face (f : colface) : writer :=
  write_sshort p (cf_v1 f) ;; write_sshort p (cf_v2 f) ;; write_sshort p (cf_v3 f) ;;
  write_sshort p (cf_material f).

(** bf2collod._write, modcolmesh.py:249-259 with 267-271, 284-291, 302-309, 317-321,
    327-331 and 337-341. *)
Definition write_collod (version : Z) (l : collod F colface) : writer :=
  (if 9 <=? version then write_long p (cl_type l) else wnil) ;;
  write_long p (cl_facenum l) ;; wall write_face (cl_faces l) ;;
  write_long p (cl_vertnum l) ;; wall (write_float3 p packf) (cl_vertices l) ;;
  wall (write_sshort p) (cl_vertids l) ;;
  write_float3 p packf (cl_min l) ;; write_float3 p packf (cl_max l) ;;
  write_byte p (cl_u7 l) ;;
  write_float3 p packf (cl_bmin l) ;; write_float3 p packf (cl_bmax l) ;;
  write_long p (cl_ynum l) ;; wall write_ystruct (cl_ydata l) ;;
  write_long p (cl_znum l) ;; wall (write_sshort p) (cl_zdata l) ;;
  (if 10 <=? version then write_long p (cl_anum l) ;; wall (write_long p) (cl_adata l) else wnil).

(** bf2colsubgeom._write, modcolmesh.py:359-363. *)
Definition write_colsub (version : Z) (s : colsub F colface) : writer :=
  write_long p (cs_lodnum s) ;; wall (write_collod version) (cs_lods s).
(** bf2colgeom._write, modcolmesh.py:391-395. *)
Definition write_colgeom (version : Z) (g : colgeom F colface) : writer :=
  write_long p (cg_subnum g) ;; wall (write_colsub version) (cg_subs g).
(** ColMesh._write_geoms, modcolmesh.py:437-439 and 453-459. *)
Definition write_colmesh (m : colmesh F colface) : writer :=
  write_long p (cm_u1 m) ;; write_long p (cm_version m) ;;
  write_long p (cm_geomnum m) ;; wall (write_colgeom (cm_version m)) (cm_geoms m).

(** ColMesh.save, modcolmesh.py:422-427, in the file system of Obj.v. *)
Definition col_save (f : fs) (m : colmesh F colface) (fn : bytes) : fs * option exn :=
  let '(f1, r1) := if exists_ f (dirname fn) then (f, None) else makedirs f (dirname fn) in
  match r1 with
  | Some e => (f1, Some e)
  | None =>
      match open_wb f1 fn with
      | Raise e => (f1, Some e)
      | Ok f2 => let '(bs, r) := write_colmesh m in (update f2 (resolve fn) (File bs), r)
      end
  end.
End Save.

(** ** Editing *)
Section Edit.
Context {F : Type} (A : arith F).

Definition heap := list colface.
Definition face0 : colface := {| cf_v1 := 0; cf_v2 := 0; cf_v3 := 0; cf_material := 0; cf_m := None |}.

(** modcolmesh.py:143-145. *)
Definition face_add (n : Z) (f : colface) : colface :=
  {| cf_v1 := cf_v1 f + n; cf_v2 := cf_v2 f + n; cf_v3 := cf_v3 f + n;
     cf_material := cf_material f; cf_m := cf_m f |}.
Definition heap_add (n : Z) (h : heap) (a : nat) : heap := set_nth h a (face_add n (nth a h face0)).

(** modcolmesh.py:142-147 for [other] not [self]: the faces of [other] are shifted in
    place, one after the other, and the face objects appended to [self.faces]. *)
Fixpoint merge_faces (n : Z) (h : heap) (mine theirs : list nat) : heap * list nat :=
  match theirs with
  | [] => (h, mine)
  | a :: t => merge_faces n (heap_add n h a) (mine ++ [a]) t
  end.

(** modcolmesh.py:151-162 for one vertex: [key] runs over x, y, z and each of the four
    corners is compared and replaced on its own. *)
Definition lower1 (c v : F) : F := if f_lt A v c then v else c.      (* lines 154-155, 159-160 *)
Definition upper1 (c v : F) : F := if f_lt A c v then v else c.      (* lines 156-157, 161-162 *)
Definition lower3 (c v : vec3 F) : vec3 F :=
  let '(cx, cy, cz) := c in let '(x, y, z) := v in (lower1 cx x, lower1 cy y, lower1 cz z).
Definition upper3 (c v : vec3 F) : vec3 F :=
  let '(cx, cy, cz) := c in let '(x, y, z) := v in (upper1 cx x, upper1 cy y, upper1 cz z).

(** bf2collod.merge with another lod, modcolmesh.py:135-173. *)
Definition merge_collod (h : heap) (self other : collod F nat) : heap * collod F nat :=
  let vertices := cl_vertices self ++ cl_vertices other in
  let '(h', faces) := merge_faces (cl_vertnum other) h (cl_faces self) (cl_faces other) in
  (h', {| cl_type := cl_type self;
          cl_facenum := cl_facenum self + cl_facenum other; cl_faces := faces;
          cl_vertnum := cl_vertnum self + cl_vertnum other; cl_vertices := vertices;
          cl_vertids := cl_vertids self ++ cl_vertids other;
          cl_min := fold_left lower3 vertices (cl_min self);
          cl_max := fold_left upper3 vertices (cl_max self);
          cl_u7 := cl_u7 self;
          cl_bmin := fold_left lower3 vertices (cl_bmin self);
          cl_bmax := fold_left upper3 vertices (cl_bmax self);
          cl_ynum := cl_ynum self + cl_ynum other; cl_ydata := cl_ydata self ++ cl_ydata other;
          cl_znum := cl_znum self + cl_znum other; cl_zdata := cl_zdata self ++ cl_zdata other;
          cl_anum := cl_anum self + cl_anum other; cl_adata := cl_adata self ++ cl_adata other |}).

(** [for id, x in enumerate(other.xs): self.xs[id].merge(x)]: IndexError when [self]
    has fewer, after merging those it has. *)
Fixpoint merge_each {X} (mrg : heap -> X -> X -> heap * X * option exn)
         (h : heap) (mine theirs : list X) : heap * list X * option exn :=
  match theirs, mine with
  | [], _ => (h, mine, None)
  | _ :: _, [] => (h, [], Some EIndex)
  | y :: ys, x :: xs =>
      match mrg h x y with
      | (h', x', Some e) => (h', x' :: xs, Some e)
      | (h', x', None) => let '(h'', xs', r) := merge_each mrg h' xs ys in (h'', x' :: xs', r)
      end
  end.
(** bf2colsubgeom.merge, modcolmesh.py:349-351. *)
Definition merge_colsub (h : heap) (self other : colsub F nat) : heap * colsub F nat * option exn :=
  let '(h', l, r) := merge_each (fun h x y => let '(h', x') := merge_collod h x y in (h', x', None))
                                h (cs_lods self) (cs_lods other) in
  (h', {| cs_lodnum := cs_lodnum self; cs_lods := l |}, r).
(** bf2colgeom.merge, modcolmesh.py:381-383. *)
Definition merge_colgeom (h : heap) (self other : colgeom F nat) : heap * colgeom F nat * option exn :=
  let '(h', l, r) := merge_each merge_colsub h (cg_subs self) (cg_subs other) in
  (h', {| cg_subnum := cg_subnum self; cg_subs := l |}, r).
(** ColMesh.merge with another mesh, modcolmesh.py:429-431. *)
Definition col_merge (h : heap) (self other : colmesh F nat) : heap * colmesh F nat * option exn :=
  let '(h', l, r) := merge_each merge_colgeom h (cm_geoms self) (cm_geoms other) in
  (h', {| cm_u1 := cm_u1 self; cm_version := cm_version self; cm_geomnum := cm_geomnum self;
          cm_geoms := l |}, r).

(** The loop of lines 142-147 when [other] is [self]: the list iterated over is the
    list appended to. A state is the next position, the list and the heap; the loop is
    over when no step is possible. [n] is [other.vertnum], already doubled by line 138. *)
Inductive self_step (n : Z) : nat * list nat * heap -> nat * list nat * heap -> Prop :=
| self_step_face i l h a : nth_error l i = Some a ->
    self_step n (i, l, h) (S i, l ++ [a], heap_add n h a).

(** Vec3.__add__, modVec3.py:28-29. *)
Definition vec_add (u v : vec3 F) : vec3 F :=
  let '(x, y, z) := u in let '(a, b, c) := v in (f_add A x a, f_add A y b, f_add A z c).
(** ColMesh.translate, modcolmesh.py:461-466. *)
Definition translate_collod {R} (o : vec3 F) (l : collod F R) : collod F R :=
  {| cl_type := cl_type l; cl_facenum := cl_facenum l; cl_faces := cl_faces l;
     cl_vertnum := cl_vertnum l; cl_vertices := map (fun v => vec_add v o) (cl_vertices l);
     cl_vertids := cl_vertids l;
     cl_min := cl_min l; cl_max := cl_max l; cl_u7 := cl_u7 l; cl_bmin := cl_bmin l; cl_bmax := cl_bmax l;
     cl_ynum := cl_ynum l; cl_ydata := cl_ydata l; cl_znum := cl_znum l; cl_zdata := cl_zdata l;
     cl_anum := cl_anum l; cl_adata := cl_adata l |}.
Definition col_translate {R} (o : vec3 F) (m : colmesh F R) : colmesh F R :=
  {| cm_u1 := cm_u1 m; cm_version := cm_version m; cm_geomnum := cm_geomnum m;
     cm_geoms := map (fun g => {| cg_subnum := cg_subnum g;
       cg_subs := map (fun s => {| cs_lodnum := cs_lodnum s;
         cs_lods := map (translate_collod o) (cs_lods s) |}) (cg_subs g) |}) (cm_geoms m) |}.
End Edit.
