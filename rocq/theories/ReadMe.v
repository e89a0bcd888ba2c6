(** The three programs of /repo/README.md, with the file names, the order and the offset
    as parameters. The third one is not valid Python as printed (the second [with] has no
    body, README.md:50-53); it is modelled with the body indented, as it is meant. *)
From Coq Require Import ZArith Bool Ascii String List.
From Verif Require Import PyBase Struct Mesh Arith Edit Obj.
Import ListNotations.
Open Scope Z_scope.
Open Scope res_scope.

Section ReadMe.
Context {F : Type} (A : arith F) (p : plat) (unpackf : Z -> F) (packf : F -> Z).
Definition no_flags : flags := {| k_skinned := false; k_bundled := false; k_static := false |}.

(** An editing call on the object and [export(dst)] with its default [update_bounds=True]
    (visiblemesh.py:202). What is left are the files and the exception. *)
Definition edit_save (f : fs) (o : obj) (call : mesh F -> mesh F * option exn) (dst : bytes) : fs * option exn :=
  let '(m, r) := call (o_mesh o) in
  match r with
  | Some e => (f, Some e)
  | None =>
      let '(f', _, r') := export_obj A p packf f {| o_mesh := m; o_filename := o_filename o; o_loaded := o_loaded o |} (Some dst) true in
      (f', r')
  end.
(** The same after [VisibleMesh(src)]. *)
Definition edit_file (f : fs) (src : bytes) (call : mesh F -> mesh F * option exn) (dst : bytes) : fs * option exn :=
  match new_visible_mesh p unpackf f (Some src) no_flags with
  | Raise e => (f, Some e)
  | Ok o => edit_save f o call dst
  end.

(** README.md:8-25. *)
Definition readme_order (f : fs) (name : bytes) (order : list Z) : fs * option exn :=
  edit_file f name (fun m => change_geoms_order m order) name.

(** README.md:28-40. The with statement calls __enter__ on the new object, which is
    loaded already, so it does nothing (see [enter]); __exit__ finds a closed file. *)
Definition readme_offset (f : fs) (src : bytes) (offset : list F) (dst : bytes) : fs * option exn :=
  edit_file f src (fun m => translate A m offset) dst.

(** README.md:43-54. A refused merge returns a class, which the program ignores. *)
Definition merge_call (other m : mesh F) : mesh F * option exn :=
  match merge m other with
  | (m', MergeRaised e) => (m', Some e)
  | (m', _) => (m', None)
  end.
Definition readme_merge (f : fs) (src other dst : bytes) : fs * option exn :=
  match new_visible_mesh p unpackf f (Some src) no_flags with
  | Raise e => (f, Some e)
  | Ok o =>
      match new_visible_mesh p unpackf f (Some other) no_flags with
      | Raise e => (f, Some e)
      | Ok o2 => edit_save f o (merge_call (o_mesh o2)) dst
      end
  end.
End ReadMe.

(** The literals of the README. *)
Definition readme_kits : bytes := of_string "cf_kits.skinnedMesh".
Definition readme_order_list : list Z := [0; 1; 2; 3; 4; 5; 6; 8; 9; 10; 11; 12; 15; 16; 17; 13; 7; 14].
Definition readme_box : bytes := of_string "evil_box.staticMesh".
Definition readme_box_offset : bytes := of_string "evil_box_offset.staticMesh".
Definition readme_box_merged : bytes := of_string "evil_box_merged.staticMesh".
