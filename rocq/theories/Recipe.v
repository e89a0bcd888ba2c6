(** The script deprecated/mesh_merge.py: duplicating a collision mesh beside itself.
    As it stands [main] stops at line 37, a [raise] with no exception to raise again
    (RuntimeError), left over from printing [diff]. Lines 39-49 are modelled here as the
    function they would be without it; the fixed path and positions are its arguments. *)
From Coq Require Import ZArith List Bool.
From Verif Require Import PyBase Struct Mesh Arith Col Vec SpecCol.
Import ListNotations.

Section Recipe.
Context {F : Type} (A : arith F) (neg : F -> F).

(** [copy.deepcopy(colmesh)], mesh_merge.py:25: every face object is copied. The copy of
    the face at [a] is at [length h + a]. Lists, vectors and numbers are values in this
    model, so copying the rest changes nothing. *)
Definition deepcopy (h : heap) (m : colmesh F nat) : heap * colmesh F nat :=
  (h ++ h, faces_map (fun a => (length h + a)%nat) m).

(** [colmesh.geoms[0].subgeoms[0].lods[0]], mesh_merge.py:42. *)
Definition col0 {R} (m : colmesh F R) : res (collod F R) :=
  match cm_geoms m with
  | g :: _ => match cg_subs g with
              | s :: _ => match cs_lods s with l :: _ => Ok l | [] => Raise EIndex end
              | [] => Raise EIndex
              end
  | [] => Raise EIndex
  end.

(** mesh_merge.py:25 and 39-49. The result is the heap, [colmesh] and the exception. *)
Definition duplicate (h : heap) (m : colmesh F nat) (diff : vec3 F) : heap * colmesh F nat * option exn :=
  let '(h1, m2) := deepcopy h m in                                             (* line 25 *)
  match col_merge A h1 m (col_translate A diff m2) with                        (* lines 39-40 *)
  | (h2, m', Some e) => (h2, m', Some e)
  | (h2, m', None) =>
      match col0 m' with                                                       (* line 42 *)
      | Raise e => (h2, m', Some e)
      | Ok l =>
          match vec_divn A (vec_add A (cl_min l) (cl_max l)) (f_two A) with    (* lines 43-44 *)
          | Raise e => (h2, m', Some e)
          | Ok c => (h2, col_translate A (vec_neg neg c) m', None)             (* line 49 *)
          end
      end
  end.
End Recipe.
