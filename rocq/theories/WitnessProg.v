(** Concrete programs over two meshes. *)
From Coq Require Import ZArith List Bool Lia.
From Verif Require Import PyBase Struct Mesh Arith Edit Spec SpecEdit Witness WitnessEdit WitnessMerge WitnessReorder Heap HeapFacts HeapEdit SpecProg ProgFacts.
Import ListNotations.
Open Scope Z_scope.

Definition duos {F} (f : Z -> F) : list (mesh F) := [mesh_map f duo_mesh; mesh_map f duo_mesh].
Lemma stores_separate {F} (ms : list (mesh F)) : separate (store_of ms) ms.
Proof.
  destruct (store_of_ok ms) as (H1 & H2). split; [unfold store_of; cbn; apply alloc_length|]. split; [exact H1|exact H2].
Qed.
Definition tour {F} (f : Z -> F) : list (call F) :=
  [COrder 0 [1; -2]; CMerge 0 1; CMerge 0 0; CTranslate 1 [f 0; f 1; f 2]; CBounds 0; CCenter 1 0 (-1) true; COrder 0 [5]].
Lemma tour_ok {F} (A : arith F) f : separate (store_of (duos f)) (duos f) /\ Forall (call_ok (duos f)) (tour f) /\
  exists o1 o2, snd (value_run A (duos f) (tour f)) = [ONone; ONone; ONone; ONone; o1; o2; ORaised EAttribute].
Proof.
  split; [apply stores_separate|]. split.
  - repeat constructor; cbn; try lia; unfold names_once; cbn; repeat constructor; cbn; intuition discriminate.
  - unfold tour. cbn [value_run].
    set (v1 := value_call A (duos f) (COrder 0 [1; -2])). assert (snd v1 = ONone) as E1 by (vm_compute; reflexivity).
    set (m1 := fst v1) in *. replace v1 with (m1, @ONone F) by (unfold m1; rewrite <- E1; symmetry; apply surjective_pairing). cbn iota.
    set (v2 := value_call A m1 (CMerge 0 1)). assert (snd v2 = ONone) as E2 by (vm_compute; reflexivity).
    set (m2 := fst v2) in *. replace v2 with (m2, @ONone F) by (unfold m2; rewrite <- E2; symmetry; apply surjective_pairing). cbn iota.
    set (v3 := value_call A m2 (CMerge 0 0)). assert (snd v3 = ONone) as E3 by (vm_compute; reflexivity).
    set (m3 := fst v3) in *. replace v3 with (m3, @ONone F) by (unfold m3; rewrite <- E3; symmetry; apply surjective_pairing). cbn iota.
    set (v4 := value_call A m3 (CTranslate 1 [f 0; f 1; f 2])). assert (snd v4 = ONone) as E4 by (vm_compute; reflexivity).
    set (m4 := fst v4) in *. replace v4 with (m4, @ONone F) by (unfold m4; rewrite <- E4; symmetry; apply surjective_pairing). cbn iota.
    assert (sizes m4 = sizes (duos f)) as S4 by (unfold m4, v4; rewrite sizes_call; unfold m3, v3; rewrite sizes_call; unfold m2, v2; rewrite sizes_call; unfold m1, v1; now rewrite sizes_call).
    clearbody m4. pose proof (sizes_call A m4 (CBounds 0)) as S5. destruct (value_call A m4 (CBounds 0)) as (m5, o1).
    pose proof (sizes_call A m5 (CCenter 1 0 (-1) true)) as S6. destruct (value_call A m5 (CCenter 1 0 (-1) true)) as (m6, o2). cbn [fst] in S5, S6. rewrite S5, S4 in S6. clear - S6.
    exists o1, o2. destruct m6 as [|x [|y [|z t]]]; try discriminate. unfold sizes in S6. cbn [map duos] in S6. injection S6 as Hx Hy.
    cbn [value_call value nth]. unfold change_geoms_order. rewrite Hx. reflexivity.
Qed.

(** The first geom twice, then a merge: both geoms are one object, which is merged twice. *)
Lemma shared_geoms {F} (A : arith F) (f : Z -> F) :
  let r := run A (store_of (duos f)) [COrder 0 [0; 0]; CMerge 0 1] in
  let v := value_run A (duos f) [COrder 0 [0; 0]; CMerge 0 1] in
  Forall (fun m => vertnum m = 6) (duos f) /\ snd r = [ONone; ONone] /\ snd v = [ONone; ONone] /\
  vertnum (tree_of (fst r) 0) = 15 /\ vertnum (value (fst v) 0) = 12.
Proof. split; [repeat constructor|]. repeat split; vm_compute; reflexivity. Qed.
