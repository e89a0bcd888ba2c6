(** Objects and files: filename handling, BF2Mesh.__init__ (bf2mesh/mesh.py),
    VisibleMesh.__init__/__enter__ (visiblemesh.py:28-75), BundledMesh
    (BundledMesh.py) and VisibleMesh.export (visiblemesh.py:202-215) against a
    POSIX-like file system.

    Simplifications: file names are ASCII; there are no symlinks, '..' is an
    ordinary name, relative and absolute names live in separate trees, permissions
    and full disks are not modelled, and the file does not change while one method
    call runs (so [tell()] and [os.stat().st_size] refer to the same contents). *)
From Coq Require Import ZArith Bool Ascii String List.
From Verif Require Import PyBase Struct Mesh Arith Edit.
Import ListNotations.
Open Scope Z_scope.
Open Scope res_scope.

Definition slash : byte := "/"%char.
Definition dot : byte := "."%char.

Fixpoint of_string (s : string) : bytes :=
  match s with EmptyString => [] | String c t => c :: of_string t end.

(** ** os.path *)

(** [str.lower()] on ASCII. *)
Definition lower_char (c : byte) : byte :=
  let n := N_of_ascii c in
  if ((65 <=? n) && (n <=? 90))%N then ascii_of_N (n + 32) else c.
Definition lower (s : bytes) : bytes := map lower_char s.

(** [str.rfind(c) + 1] as a split: [s = fst ++ snd] where [fst] is empty or ends in
    the last [c] (posixpath.split/dirname/splitext, CPython Lib/posixpath.py). *)
Fixpoint split_last (c : byte) (s : bytes) : bytes * bytes :=
  match s with
  | [] => ([], [])
  | x :: t =>
      let '(h, tl) := split_last c t in
      match h with
      | [] => if Ascii.eqb x c then ([x], tl) else ([], x :: tl)
      | _ => (x :: h, tl)
      end
  end.

Definition all_eqb (c : byte) (s : bytes) : bool := forallb (Ascii.eqb c) s.

(** [s.rstrip(c)]. *)
Fixpoint rstrip (c : byte) (s : bytes) : bytes :=
  match s with
  | [] => []
  | x :: t => if all_eqb c s then [] else x :: rstrip c t
  end.

(** os.path.split: (dirname, basename). *)
Definition path_split (s : bytes) : bytes * bytes :=
  let '(h, t) := split_last slash s in
  ((if all_eqb slash h then h else rstrip slash h), t).
Definition dirname (s : bytes) : bytes := fst (path_split s).

(** os.path.splitext(s)[1]: the last dot of the basename starts the extension,
    unless only dots precede it (CPython Lib/genericpath.py _splitext). *)
Definition splitext_ext (s : bytes) : bytes :=
  let base := snd (split_last slash s) in
  let '(h, t) := split_last dot base in      (* h ends in the last dot *)
  match h with
  | [] => []
  | _ => if all_eqb dot h then [] else dot :: t
  end.

(** ** BF2Mesh.__init__, mesh.py:5-21 *)
Definition ext_is (fn : bytes) (e : string) : bool :=
  bytes_eqb (lower (splitext_ext fn)) (of_string e).
Definition kind_of_name (fn : bytes) : kind :=
  {| isSkinnedMesh := ext_is fn ".skinnedmesh";
     isBundledMesh := ext_is fn ".bundledmesh";
     isStaticMesh := ext_is fn ".staticmesh";
     isCollisionMesh := ext_is fn ".collisionmesh" |}.

(** ** File system *)
Inductive node := File (contents : bytes) | Dir.
(** Canonical name: absolute or relative, and the non-empty components other
    than '.'. The tree roots [(_, [])] are directories. *)
Definition path := (bool * list bytes)%type.

Fixpoint components (s : bytes) (cur : bytes) : list bytes :=
  match s with
  | [] => [cur]
  | x :: t => if Ascii.eqb x slash then cur :: components t [] else components t (cur ++ [x])
  end.
Definition resolve (s : bytes) : path :=
  (match s with x :: _ => Ascii.eqb x slash | [] => false end,
   filter (fun c => negb (bytes_eqb c [] || bytes_eqb c [dot])) (components s [])).

Definition path_eqb (a b : path) : bool :=
  Bool.eqb (fst a) (fst b) && list_eqb bytes_eqb (snd a) (snd b).

Definition fs := path -> option node.
Definition lookup (f : fs) (p : path) : option node :=
  match snd p with [] => Some Dir | _ => f p end.
Definition update (f : fs) (p : path) (n : node) : fs :=
  fun q => if path_eqb q p then Some n else f q.
Definition parent (p : path) : path := (fst p, removelast (snd p)).

(** os.path.exists; the empty name does not exist. *)
Definition exists_ (f : fs) (s : bytes) : bool :=
  match s with
  | [] => false
  | _ => match lookup f (resolve s) with Some _ => true | None => false end
  end.

(** The directory in which [p] would be created. *)
Definition in_dir (f : fs) (p : path) : res unit :=
  match lookup f (parent p) with
  | Some Dir => Ok tt
  | Some (File _) => Raise ENotADirectory
  | None => Raise EFileNotFound
  end.

(** os.mkdir. *)
Definition mkdir (f : fs) (s : bytes) : res fs :=
  match s with
  | [] => Raise EFileNotFound
  | _ =>
      match lookup f (resolve s) with
      | Some _ => Raise EFileExists
      | None => do _ <- in_dir f (resolve s); Ok (update f (resolve s) Dir)
      end
  end.

(** os.makedirs(name) with exist_ok=False (CPython Lib/os.py). The recursion is on a
    shorter name, so [fuel = length s + 1] never runs out (a lemma shows it). *)
Fixpoint makedirs_fuel (fuel : nat) (f : fs) (s : bytes) : fs * option exn :=
  match fuel with
  | O => (f, Some EFileNotFound)
  | S fuel' =>
      let '(hd0, tl0) := path_split s in
      let '(hd, tl) := match tl0 with [] => path_split hd0 | _ => (hd0, tl0) end in
      let go g := match mkdir g s with Ok g' => (g', None) | Raise e => (g, Some e) end in
      match hd, tl with
      | _ :: _, _ :: _ =>
          if exists_ f hd then go f
          else match makedirs_fuel fuel' f hd with
               | (g, None) => if bytes_eqb tl [dot] then (g, None) else go g
               | (g, Some EFileExists) => if bytes_eqb tl [dot] then (g, None) else go g
               | (g, Some e) => (g, Some e)
               end
      | _, _ => go f
      end
  end.
Definition makedirs (f : fs) (s : bytes) : fs * option exn := makedirs_fuel (S (length s)) f s.

(** A name ending in '/' can only denote a directory. *)
Definition ends_slash (s : bytes) : bool := Ascii.eqb (last s dot) slash.

(** [open(name, 'rb')] and reading everything. *)
Definition open_rb (f : fs) (s : bytes) : res bytes :=
  match s with
  | [] => Raise EFileNotFound
  | _ => match lookup f (resolve s) with
         | Some (File c) => if ends_slash s then Raise ENotADirectory else Ok c
         | Some Dir => Raise EIsADirectory
         | None => do _ <- in_dir f (resolve s); Raise EFileNotFound
         end
  end.

(** [open(name, 'wb')]: creates or truncates. *)
Definition open_wb (f : fs) (s : bytes) : res fs :=
  match s with
  | [] => Raise EFileNotFound
  | _ => match lookup f (resolve s) with
         | Some Dir => Raise EIsADirectory
         | Some (File _) =>
             if ends_slash s then Raise ENotADirectory
             else Ok (update f (resolve s) (File []))
         | None =>
             do _ <- in_dir f (resolve s);
             if ends_slash s then Raise EIsADirectory
             else Ok (update f (resolve s) (File []))
         end
  end.

(** ** Mesh objects *)
Section Obj.
Context {F : Type} (A : arith F) (p : plat) (unpackf : Z -> F) (packf : F -> Z).

Record obj := { o_mesh : mesh F; o_filename : bytes; o_loaded : bool }.

(** Keyword flags of the constructors. *)
Record flags := { k_skinned : bool; k_bundled : bool; k_static : bool }.

(** What BF2Mesh.__init__ (mesh.py:5-21) leaves in the new object: without a filename
    (None or empty) the attribute [filename] is not set and the flags are the keyword
    arguments. *)
Record base := { b_filename : option bytes; b_kind : kind; b_loaded : bool }.
Definition kind_of_flags (kw : flags) : kind :=
  {| isSkinnedMesh := k_skinned kw; isBundledMesh := k_bundled kw; isStaticMesh := k_static kw;
     isCollisionMesh := false |}.
Definition bf2mesh_init (filename : option bytes) (kw : flags) : base :=
  match filename with
  | None | Some [] => {| b_filename := None; b_kind := kind_of_flags kw; b_loaded := false |}
  | Some fn => {| b_filename := Some fn; b_kind := kind_of_name fn; b_loaded := false |}
  end.

(** __enter__, visiblemesh.py:70-75, as called by __init__ (line 68): reading the
    missing attribute [filename] raises AttributeError. *)
Definition first_enter (f : fs) (b : base) : res obj :=
  match b_filename b with
  | None => Raise EAttribute
  | Some fn =>
      do file <- open_rb f fn;
      do m <- load p unpackf (b_kind b) file;
      Ok {| o_mesh := m; o_filename := fn; o_loaded := true |}
  end.

(** VisibleMesh(filename, ...), visiblemesh.py:28-68. *)
Definition new_visible_mesh (f : fs) (filename : option bytes) (kw : flags) : res obj :=
  first_enter f (bf2mesh_init filename kw).

(** BundledMesh(filename), BundledMesh.py:4-6. *)
Definition new_bundled_mesh (f : fs) (filename : option bytes) : res obj :=
  new_visible_mesh f filename {| k_skinned := false; k_bundled := true; k_static := false |}.

(** __enter__, visiblemesh.py:70-75, on an existing object. *)
Definition enter (f : fs) (o : obj) : res obj :=
  match o_filename o with
  | [] => Ok o
  | fn =>
      if o_loaded o then Ok o
      else do file <- open_rb f fn;
           do m <- load p unpackf (m_kind (o_mesh o)) file;
           Ok {| o_mesh := m; o_filename := fn; o_loaded := true |}
  end.

(** export, visiblemesh.py:202-215. [stop] is where the process dies during the
    writes: [None] runs to the end, [Some n] stops after [n] bytes reached the disk
    (the returned object is then irrelevant). *)
Definition export_target (o : obj) (filename : option bytes) : bytes :=
  match filename with None | Some [] => o_filename o | Some fn => fn end.

Definition export_until (stop : option nat) (f : fs) (o : obj) (filename : option bytes)
           (update_bounds : bool) : fs * obj * option exn :=
  let fn := export_target o filename in
  let '(f1, r1) := if exists_ f (dirname fn) then (f, None) else makedirs f (dirname fn) in
  match r1 with
  | Some e => (f1, o, Some e)
  | None =>
      let '(m', r2) := if update_bounds then update_boundaries A (o_mesh o) else (o_mesh o, None) in
      let o1 := {| o_mesh := m'; o_filename := o_filename o; o_loaded := o_loaded o |} in
      match r2 with
      | Some e => (f1, o1, Some e)
      | None =>
          match open_wb f1 fn with
          | Raise e => (f1, o1, Some e)
          | Ok f2 =>
              let '(bs, r3) := export p packf m' in
              let written := match stop with None => bs | Some n => firstn n bs end in
              let f3 := update f2 (resolve fn) (File written) in
              match r3 with
              | Some e => (f3, o1, Some e)
              | None => (f3, {| o_mesh := m'; o_filename := fn; o_loaded := o_loaded o |}, None)
              end
          end
      end
  end.
Definition export_obj := export_until None.
End Obj.
Arguments o_mesh {F}. Arguments o_filename {F}. Arguments o_loaded {F}.
