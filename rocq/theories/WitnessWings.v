(** Concrete inputs for the theorems about get_wings and Jet. *)
From Coq Require Import ZArith Bool Ascii String List Lia.
From Verif Require Import PyBase Struct Mesh Arith Edit Obj Bf2 SpecBf2 ReFacts Bf2Facts Bf2Dirs WitnessBf2 Bf2Wings SpecWings WingsFacts.
Import ListNotations.

Definition plane : text := lns ["ObjectTemplate.create PlayerControlObject plane"; "ObjectTemplate.create Wing own"; "include plane.tweak"; "include missing.tweak"]%string.
Definition plane_ok : text := lns ["ObjectTemplate.create PlayerControlObject plane"; "ObjectTemplate.create Wing own"; "include plane.tweak"]%string.
Definition plane_tweak : text := lns ["ObjectTemplate.activeSafe Wing left"; "ObjectTemplate.setWingLift 0.25"; "ObjectTemplate.setFlapLift -.5";
  "ObjectTemplate.setWingLift 1e-3"; "ObjectTemplate.setWingLift -1"; "rem ObjectTemplate.create Wing right ObjectTemplate.setFlapLift 2"]%string.
Definition plane_out : list text := map (fun s => chars s) ["ObjectTemplate.activeSafe Wing left"; "ObjectTemplate.setWingLift 0.25"; "ObjectTemplate.setFlapLift -.5";
  "ObjectTemplate.setWingLift 1"; "ObjectTemplate.create Wing right"]%string.
Lemma plane_wings :
  get_wings (two_files "o/plane.con" plane_ok "o/plane.tweak" plane_tweak) (chars "o/plane.con") = (plane_out, None) /\
  get_wings (two_files "o/plane.con" plane "o/plane.tweak" plane_tweak) (chars "o/plane.con") = (plane_out, Some EFileNotFound).
Proof. split; vm_compute; reflexivity. Qed.
Lemma plane_loads :
  jet_load (two_files "o/plane.con" plane_ok "o/plane.tweak" plane_tweak) (chars "o/plane.con") new_jet =
    (MkJet (Some (chars "plane")) (Some (chars "PlayerControlObject")) None, plane_out, None) /\
  jet_load (two_files "o/plane.con" plane "o/plane.tweak" plane_tweak) (chars "o/plane.con") new_jet =
    (MkJet (Some (chars "plane")) (Some (chars "PlayerControlObject")) (Some []), plane_out, Some EFileNotFound).
Proof. split; vm_compute; reflexivity. Qed.
Lemma plane_own : In (chars "ObjectTemplate.create Wing own" ++ [nl]) (lines plane_ok) /\ wing_at (chars "ObjectTemplate.create Wing own" ++ [nl]) (chars "ObjectTemplate.create Wing own") /\
  ~ In (chars "ObjectTemplate.create Wing own") plane_out.
Proof.
  split; [vm_compute; auto|]. split.
  - apply wing_match. eexists. vm_compute. reflexivity.
  - vm_compute. intros H. repeat destruct H as [H|H]; try discriminate; contradiction.
Qed.
