(** File names on Windows: os.path is ntpath there (CPython 3.8 to 3.11, Lib/ntpath.py,
    Lib/genericpath.py). BF2Mesh.__init__ (mesh.py:5-21) uses splitext, VisibleMesh.export
    (visiblemesh.py:202-215) uses dirname, exists and makedirs. The file system is a
    parameter: only the calls of export are modelled, in their order. ASCII names. *)
From Coq Require Import ZArith Bool Ascii String List.
From Verif Require Import PyBase Struct Mesh Arith Edit Obj.
Import ListNotations.
Open Scope nat_scope.

Definition backslash : byte := ascii_of_nat 92.
Definition colon : byte := ":"%char.
Definition is_sep (c : byte) : bool := Ascii.eqb c slash || Ascii.eqb c backslash.

(** [s = fst ++ snd]; [fst] is empty or ends in the last separator. *)
Fixpoint split_sep (s : bytes) : bytes * bytes :=
  match s with
  | [] => ([], [])
  | x :: t =>
      let '(h, tl) := split_sep t in
      match h with
      | [] => if is_sep x then ([x], tl) else ([], x :: tl)
      | _ => (x :: h, tl)
      end
  end.
(** [s.rstrip('\\/')]. *)
Fixpoint rstrip_sep (s : bytes) : bytes :=
  match s with
  | [] => []
  | x :: t => if forallb is_sep s then [] else x :: rstrip_sep t
  end.
(** [normp.find(sep, i) - i] where [s] is the name from position [i] on; -1 is [None]. *)
Fixpoint find_sep (s : bytes) : option nat :=
  match s with
  | [] => None
  | x :: t => if is_sep x then Some 0 else option_map S (find_sep t)
  end.

(** ntpath.splitdrive. *)
Definition starts_sep (s : bytes) : bool := match s with x :: _ => is_sep x | [] => false end.
Definition splitdrive (s : bytes) : bytes * bytes :=
  match s with
  | a :: b :: t =>
      if is_sep a && is_sep b && negb (starts_sep t) then
        match find_sep t with
        | None => ([], s)
        | Some i =>
            match find_sep (skipn (S i) t) with
            | Some 0 => ([], s)
            | Some j => (firstn (2 + S i + j) s, skipn (2 + S i + j) s)
            | None => (s, [])
            end
        end
      else if Ascii.eqb b colon then ([a; b], t) else ([], s)
  | _ => ([], s)
  end.
(** ntpath.split and ntpath.dirname. *)
Definition nt_split (s : bytes) : bytes * bytes :=
  let '(d, q) := splitdrive s in
  let '(h, t) := split_sep q in
  (d ++ match rstrip_sep h with [] => h | h' => h' end, t).
Definition nt_dirname (s : bytes) : bytes := fst (nt_split s).
(** ntpath.splitext(s)[1]; the drive plays no role. *)
Definition nt_ext (s : bytes) : bytes :=
  let base := snd (split_sep s) in
  let '(h, t) := split_last dot base in
  match h with
  | [] => []
  | _ => if all_eqb dot h then [] else dot :: t
  end.

(** BF2Mesh.__init__, mesh.py:5-21. *)
Definition nt_ext_is (fn : bytes) (e : string) : bool := bytes_eqb (lower (nt_ext fn)) (of_string e).
Definition nt_kind_of_name (fn : bytes) : kind :=
  {| isSkinnedMesh := nt_ext_is fn ".skinnedmesh";
     isBundledMesh := nt_ext_is fn ".bundledmesh";
     isStaticMesh := nt_ext_is fn ".staticmesh";
     isCollisionMesh := nt_ext_is fn ".collisionmesh" |}.

(** The calls that export makes. [s_store] is open for writing, all the writes and the close. *)
Record sys (W : Type) := { s_dirname : bytes -> bytes; s_exists : W -> bytes -> bool;
  s_makedirs : W -> bytes -> W * option exn; s_open : W -> bytes -> res W; s_store : W -> bytes -> bytes -> W }.
Arguments s_dirname {W}. Arguments s_exists {W}. Arguments s_makedirs {W}. Arguments s_open {W}. Arguments s_store {W}.

Section Export.
Context {F : Type} (A : arith F) (p : plat) (packf : F -> Z) {W : Type} (S : sys W).
(** export, visiblemesh.py:202-215. *)
Definition export_on (w : W) (o : obj (F := F)) (filename : option bytes) (update_bounds : bool) : W * obj (F := F) * option exn :=
  let fn := export_target o filename in
  let '(w1, r1) := if s_exists S w (s_dirname S fn) then (w, None) else s_makedirs S w (s_dirname S fn) in
  match r1 with
  | Some e => (w1, o, Some e)
  | None =>
      let '(m', r2) := if update_bounds then update_boundaries A (o_mesh o) else (o_mesh o, None) in
      let o1 := {| o_mesh := m'; o_filename := o_filename o; o_loaded := o_loaded o |} in
      match r2 with
      | Some e => (w1, o1, Some e)
      | None =>
          match s_open S w1 fn with
          | Raise e => (w1, o1, Some e)
          | Ok w2 =>
              let '(bs, r3) := export p packf m' in
              match r3 with
              | Some e => (s_store S w2 fn bs, o1, Some e)
              | None => (s_store S w2 fn bs, {| o_mesh := m'; o_filename := fn; o_loaded := o_loaded o |}, None)
              end
          end
      end
  end.
End Export.
Definition posix_sys : sys fs :=
  {| s_dirname := dirname; s_exists := exists_; s_makedirs := makedirs; s_open := open_wb;
     s_store := fun f fn bs => update f (resolve fn) (File bs) |}.
