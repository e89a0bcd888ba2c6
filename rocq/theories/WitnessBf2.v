(** Concrete inputs for the theorems about deprecated/bf2.py. *)
From Coq Require Import ZArith Bool Ascii String List Lia.
From Verif Require Import PyBase Struct Mesh Arith Edit Obj Bf2 SpecBf2 ReFacts Bf2Facts Bf2Dirs Bf2Mod Bf2Cells.
Import ListNotations.
Open Scope Z_scope.

Definition lns (l : list string) : text := flat_map (fun s => chars s ++ [nl]) l.
Definition one_file (name : string) (c : text) : fs := fun q => if path_eqb q (resolve (chars name)) then Some (File c) else None.
Definition two_files (n1 : string) (c1 : text) (n2 : string) (c2 : text) : fs :=
  fun q => if path_eqb q (resolve (chars n1)) then Some (File c1) else if path_eqb q (resolve (chars n2)) then Some (File c2) else None.

(** tests/samples/staticmesh/evil_box/evil_box.con *)
Definition evil_box : text := lns ["GeometryTemplate.create StaticMesh evil_box"; ""; "ObjectTemplate.create SimpleObject evil_box";
  "ObjectTemplate.saveInSeparateFile 1"; "ObjectTemplate.creator DECENT-PC:Administrator"; "ObjectTemplate.geometry evil_box"; ""; "include evil_box.tweak"]%string.
Lemma sample_without_root : get_root (one_file "evil_box.con" evil_box) (chars "evil_box.con") = Ok None.
Proof. vm_compute. reflexivity. Qed.
Definition jet : text := lns ["rem ObjectTemplate.create Wing old"; "ObjectTemplate.create PlayerControlObject jet"; "include jet.tweak"]%string.
Definition jet_tweak : text := lns ["ObjectTemplate.create Wheel gear"; "ObjectTemplate.create Engine motor"; "ObjectTemplate.create Wing left"]%string.
Definition jet_fs : fs := two_files "o/jet.con" jet "o/jet.tweak" jet_tweak.
Lemma jet_open : open_rb jet_fs (chars "o/jet.con") = Ok jet.
Proof. vm_compute. reflexivity. Qed.
Lemma jet_root : get_root jet_fs (chars "o/jet.con") = Ok (Some (chars "Wing", chars "old")).
Proof. vm_compute. reflexivity. Qed.
Lemma jet_children : get_child_list jet_fs (chars "o/jet.con") = Ok [chars "ObjectTemplate.create Wing old"; chars "ObjectTemplate.create PlayerControlObject jet";
  chars "ObjectTemplate.create Wheel gear"; chars "ObjectTemplate.create Wing left"].
Proof. vm_compute. reflexivity. Qed.
Lemma spaced_root : get_root (one_file "a.con" (lns ["ObjectTemplate create Wing left"]%string)) (chars "a.con") = Ok (Some (chars "create", chars "Wing")).
Proof. vm_compute. reflexivity. Qed.
(** A directive that includes something else, and one that names another file. *)
Lemma loose_include : get_child_list (one_file "a.con" (lns ["include footweak"]%string)) (chars "a.con") = Raise EFileNotFound /\
  get_child_list (two_files "a.con" (lns ["include foo tweak"]%string) "foo" (lns ["ObjectTemplate.create Wing x"]%string)) (chars "a.con") = Ok [chars "ObjectTemplate.create Wing x"].
Proof. split; vm_compute; reflexivity. Qed.

Lemma mod_root_example : find_mod_root (chars "/games/bf2/mods/pr/objects") = Ok (chars "/games/bf2/mods/pr") /\
  comps (chars "/games/bf2/mods/pr/objects") [[]; chars "games"; chars "bf2"; chars "mods"; chars "pr"; chars "objects"].
Proof. split; [vm_compute; reflexivity|]. pose proof (comps_split (chars "/games/bf2/mods/pr/objects")) as H. exact H. Qed.
Lemma nested_mods : find_mod_root (chars "/home/mods/bf2/mods/pr/objects") = Ok (chars "/home/mods/bf2") /\ find_mod_root (chars "/games/bf2/mods") = Ok (chars "/games/bf2/mods").
Proof. split; vm_compute; reflexivity. Qed.

Definition objects : tree := TDir [(chars "readme.txt", TFile (lns ["ObjectTemplate.create Wing wing"]%string));
  (chars "air", TDir [(chars "wing.con", TFile (lns ["ObjectTemplate.create Wing wing"]%string))]);
  (chars "land", TDir [(chars "wing.tweak", TFile (lns ["ObjectTemplate.create Wing wing"]%string)); (chars "box.con", TFile (lns ["ObjectTemplate.create SimpleObject box"]%string))])].
Lemma objects_named : named objects.
Proof.
  assert (forall c (s : text), named (TFile c)) as NF by (intros; constructor).
  assert (forall n : text, forallb (fun c => negb (Ascii.eqb c "/"%char)) n = true -> ~ In "/"%char n) as NS.
  { intros n H K. rewrite forallb_forall in H. specialize (H _ K). discriminate. }
  unfold objects. repeat (first [apply named_file | apply named_dir | apply Forall_nil | apply Forall_cons | (split; [discriminate|]) | split]; cbn [fst snd]); apply NS; reflexivity.
Qed.
Lemma object_found : get_object_path (chars "/bf2/mods/pr") objects (chars "wing") = Ok (Some (chars "/bf2/mods/pr/objects/air/wing.con")) /\
  get_object_path (chars "/bf2/mods/pr") objects (chars "box") = Ok None.
Proof. split; vm_compute; reflexivity. Qed.

Definition materials_con : text := lns ["MaterialManager.createCell 1 18"; "MaterialManager.damageMod 0.5"; "MaterialManager.createCell 1 2"; "MaterialManager.damageMod 3";
  "MaterialManager.createCell 1 18"; "MaterialManager.damageMod 7"; "MaterialManager.createCell 9 9"; "MaterialManager.damageMod 1e-3"; "MaterialManager.createCell 5 5"; "MaterialManager.damageMod -1"]%string.
Lemma materials_example : parse_settings (fun s => s) (one_file "m.con" materials_con) (chars "m.con") =
  Ok [(1, [(18, chars "0.5"); (2, chars "3")]); (9, [(9, chars "1")])].
Proof. vm_compute. reflexivity. Qed.
Lemma engine_unknown : get_root (one_file "evil_box.con" evil_box) (chars "evil_box.con") = Ok None /\
  forall sep name, ~ is_decl (chars "ObjectTemplate" ++ sep :: chars "create Engine " ++ name) /\ ~ is_decl (chars "ObjectTemplate" ++ sep :: chars "create SimpleObject " ++ name).
Proof.
  split; [exact sample_without_root|]. intros sep name.
  split; intros (sep' & ty & n & (rest & E & _ & T & _)); unfold decl_text in E; rewrite <- !app_assoc in E; apply app_inv_head in E; cbn [app] in E;
    apply cons_inj in E; destruct E as (_ & E); unfold known_types in T; cbn [map In] in T; repeat destruct T as [<-|T]; try discriminate E; contradiction.
Qed.
