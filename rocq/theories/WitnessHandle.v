(** Concrete programs that open files. *)
From Coq Require Import ZArith List Bool Ascii String Lia.
From Flocq Require Import IEEE754.Binary IEEE754.Bits.
From Verif Require Import PyBase Struct Mesh Arith F64 Edit Obj Spec SpecF CodecParam CodecFacts SpecObj PathFacts FileFacts ObjFacts
  Witness WitnessEdit WitnessObj Handle SpecHandle HandleFacts.
Import ListNotations.
Open Scope Z_scope.

Definition hA : hobj (F := binary64) := {| h_obj := objA; h_file := Some (fnA, true) |}.
Lemma openA_h kw : new_h p64 unpack_f fsA (Some fnA) kw = (Ok hA, [Opened fnA false; Closed fnA false]).
Proof.
  pose proof (new_h_obj p64 unpack_f fsA (Some fnA) kw) as H. rewrite openA in H.
  destruct (new_h p64 unpack_f fsA (Some fnA) kw) as [[o | e] ev] eqn:E; [| discriminate ]. cbn [fst] in H.
  injection H as H. unfold new_h, first_enter_h in E. cbn [bf2mesh_init b_filename b_kind fnA of_string] in E.
  destruct (open_rb fsA _); [| discriminate ]. destruct (load _ _ _ _); [| discriminate ].
  injection E as <- <-. cbn [h_obj] in H. unfold hA. rewrite H. reflexivity.
Qed.

(** [with mesh: (with mesh: mesh.export(fnB)); raise ValueError] *)
Definition busy : code (F := binary64) := With (With (Export (Some fnB) true Done) (Fail EValue)) Done.
Lemma busy_runs L : exists f' o', exec (f64 L) p64 unpack_f pack_f busy fsA hA =
  (f', o', [Opened fnB true; Closed fnB true], Some EValue).
Proof.
  destruct (exportB L true) as (f' & o' & E).
  pose proof (export_h_obj (f64 L) p64 pack_f fsA hA (Some fnB) true) as H. change (h_obj hA) with objA in H. rewrite E in H.
  unfold busy. cbn [exec]. rewrite !enter_settled by (split; [ reflexivity | eexists; reflexivity ]). cbv beta iota.
  destruct (export_h (f64 L) p64 pack_f fsA hA (Some fnB) true) as [[[f1 o1] ev1] r1] eqn:E1. injection H as -> -> <-.
  apply export_h_ev in E1 as ([-> | ->] & N & H1 & H2); [ now contradiction N |].
  assert (settled o1) by (split; [ rewrite H2; reflexivity | rewrite H1; eexists; reflexivity ]).
  cbv beta iota. rewrite exit_settled by assumption. cbv beta iota. rewrite exit_settled by assumption.
  do 2 eexists. reflexivity.
Qed.

(** A cut file: the constructor raises and the handle it opened stays open. *)
Definition fs_cut : fs := one_fs "a.StaticMesh" (firstn 100 fileA).
Lemma leak kw : new_h p64 unpack_f fs_cut (Some fnA) kw = (Raise EStruct, [Opened fnA false]).
Proof.
  unfold new_h, first_enter_h.
  change (b_filename (bf2mesh_init (Some fnA) kw)) with (Some fnA).
  change (b_kind (bf2mesh_init (Some fnA) kw)) with (kind_of_name fnA).
  replace (open_rb fs_cut fnA) with (Ok (firstn 100 fileA)).
  - replace (load p64 unpack_f (kind_of_name fnA) (firstn 100 fileA)) with (@Raise (mesh binary64) EStruct); [ reflexivity |].
    replace (kind_of_name fnA) with k_static_ by reflexivity. now rewrite load_via, cut_load.
  - symmetry. unfold open_rb. change (resolve fnA) with (false, [of_string "objects"; of_string "a.StaticMesh"]).
    unfold fs_cut. rewrite lookup_one. reflexivity.
Qed.
Theorem leaks : exists f fn kw e ev, new_h p64 unpack_f f (Some fn) kw = (Raise e, ev) /\ ~ tidy ev.
Proof.
  exists fs_cut, fnA, kw0, EStruct, [Opened fnA false]. split; [ apply leak |]. intros [H _]. discriminate.
Qed.
