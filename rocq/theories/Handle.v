(** File handles: the calls of open and close made by VisibleMesh, and the with statement. *)
From Coq Require Import ZArith Bool Ascii String List.
From Verif Require Import PyBase Struct Mesh Arith Edit Obj.
Import ListNotations.

(** What the operating system sees. *)
Inductive event := Opened (name : bytes) (write : bool) | Closed (name : bytes) (write : bool).

Section Handle.
Context {F : Type} (A : arith F) (p : plat) (unpackf : Z -> F) (packf : F -> Z).

(** The attribute [self.__meshfile] of a VisibleMesh: not set, or the name it was opened by
    and its [closed]. *)
Definition handle := option (bytes * bool).
Record hobj := { h_obj : obj (F := F); h_file : handle }.

(** __enter__, visiblemesh.py:70-75, as called by __init__ (line 68). When load raises,
    line 74 is not reached. The garbage collector, which closes the handle of an object
    that is no longer referred to, is not modelled. *)
Definition first_enter_h (f : fs) (b : base) : res hobj * list event :=
  match b_filename b with
  | None => (Raise EAttribute, [])
  | Some fn =>
      match open_rb f fn with
      | Raise e => (Raise e, [])
      | Ok file =>
          match load p unpackf (b_kind b) file with
          | Raise e => (Raise e, [Opened fn false])
          | Ok m => (Ok {| h_obj := {| o_mesh := m; o_filename := fn; o_loaded := true |};
                           h_file := Some (fn, true) |}, [Opened fn false; Closed fn false])
          end
      end
  end.
(** VisibleMesh(filename, ...), visiblemesh.py:28-68. *)
Definition new_h (f : fs) (filename : option bytes) (kw : flags) : res hobj * list event :=
  first_enter_h f (bf2mesh_init filename kw).

(** __enter__, visiblemesh.py:70-75, on an existing object: what is left of the object,
    the events, the exception. A failing load leaves the new handle open. Attributes that
    a failing load has already set are not modelled. *)
Definition enter_h (f : fs) (o : hobj) : hobj * list event * option exn :=
  match o_filename (h_obj o) with
  | [] => (o, [], None)
  | fn =>
      if o_loaded (h_obj o) then (o, [], None)
      else match open_rb f fn with
           | Raise e => (o, [], Some e)
           | Ok file =>
               match load p unpackf (m_kind (o_mesh (h_obj o))) file with
               | Raise e => ({| h_obj := h_obj o; h_file := Some (fn, false) |}, [Opened fn false], Some e)
               | Ok m => ({| h_obj := {| o_mesh := m; o_filename := fn; o_loaded := true |};
                             h_file := Some (fn, true) |}, [Opened fn false; Closed fn false], None)
               end
           end
  end.

(** __exit__, visiblemesh.py:77-80: it ignores its arguments and returns None. *)
Definition exit_h (o : hobj) : hobj * list event * option exn :=
  match h_file o with
  | None => (o, [], Some EAttribute)
  | Some (fn, true) => (o, [], None)
  | Some (fn, false) => ({| h_obj := h_obj o; h_file := Some (fn, true) |}, [Closed fn false], None)
  end.

(** export, visiblemesh.py:202-215. The with statement of line 213 closes the file however
    its body ends. *)
Definition export_h (f : fs) (o : hobj) (filename : option bytes) (update_bounds : bool)
  : fs * hobj * list event * option exn :=
  let ob := h_obj o in
  let fn := export_target ob filename in
  let '(f1, r1) := if exists_ f (dirname fn) then (f, None) else makedirs f (dirname fn) in
  match r1 with
  | Some e => (f1, o, [], Some e)
  | None =>
      let '(m', r2) := if update_bounds then update_boundaries A (o_mesh ob) else (o_mesh ob, None) in
      let o1 := {| h_obj := {| o_mesh := m'; o_filename := o_filename ob; o_loaded := o_loaded ob |};
                   h_file := h_file o |} in
      match r2 with
      | Some e => (f1, o1, [], Some e)
      | None =>
          match open_wb f1 fn with
          | Raise e => (f1, o1, [], Some e)
          | Ok f2 =>
              let '(bs, r3) := export p packf m' in
              let f3 := update f2 (resolve fn) (File bs) in
              match r3 with
              | Some e => (f3, o1, [Opened fn true; Closed fn true], Some e)
              | None => (f3, {| h_obj := {| o_mesh := m'; o_filename := fn; o_loaded := o_loaded ob |};
                                h_file := h_file o |}, [Opened fn true; Closed fn true], None)
              end
          end
      end
  end.

(** Statements about one mesh object: a method that only edits the mesh (any function), a
    raise statement or failure of other code, export, and [with mesh: body]. *)
Inductive code :=
| Done
| Method (g : mesh F -> mesh F * option exn) (rest : code)
| Fail (e : exn)
| Export (filename : option bytes) (update_bounds : bool) (rest : code)
| With (body rest : code).

(** Execution (Python's language reference for the with statement): the body runs after
    __enter__ has succeeded; __exit__ runs however the body ends; an exception of the body
    goes on because __exit__ returns a false value, and is replaced by one of __exit__. *)
Fixpoint exec (c : code) (f : fs) (o : hobj) : fs * hobj * list event * option exn :=
  match c with
  | Done => (f, o, [], None)
  | Method g rest =>
      let '(m, r) := g (o_mesh (h_obj o)) in
      let o1 := {| h_obj := {| o_mesh := m; o_filename := o_filename (h_obj o); o_loaded := o_loaded (h_obj o) |};
                   h_file := h_file o |} in
      match r with Some e => (f, o1, [], Some e) | None => exec rest f o1 end
  | Fail e => (f, o, [], Some e)
  | Export fn ub rest =>
      let '(f1, o1, ev, r) := export_h f o fn ub in
      match r with
      | Some e => (f1, o1, ev, Some e)
      | None => let '(f2, o2, ev2, r2) := exec rest f1 o1 in (f2, o2, ev ++ ev2, r2)
      end
  | With body rest =>
      let '(o0, ev0, r0) := enter_h f o in
      match r0 with
      | Some e => (f, o0, ev0, Some e)
      | None =>
          let '(f1, o1, ev1, r1) := exec body f o0 in
          let '(o2, ev2, r2) := exit_h o1 in
          match r2, r1 with
          | Some e, _ => (f1, o2, ev0 ++ ev1 ++ ev2, Some e)
          | None, Some e => (f1, o2, ev0 ++ ev1 ++ ev2, Some e)
          | None, None => let '(f3, o3, ev3, r3) := exec rest f1 o2 in (f3, o3, ev0 ++ ev1 ++ ev2 ++ ev3, r3)
          end
      end
  end.
End Handle.
Arguments h_obj {F}. Arguments h_file {F}.
Arguments Done {F}. Arguments Fail {F}. Arguments Export {F}. Arguments With {F}. Arguments Method {F}.
