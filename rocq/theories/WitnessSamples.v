(** Examples for Samples.v. *)
From Coq Require Import ZArith Bool Ascii String List Lia.
From Verif Require Import PyBase Struct Mesh Arith F64 Obj SpecFormat SpecColFormat SpecOld Old OldFacts Witness WitnessObj WitnessOld Samples SpecSamples SamplesFacts.
Import ListNotations.
Open Scope Z_scope.

Definition ex_names : list bytes := map of_string ["readme.txt"; "box.samp_00"; "box.samples"]%string.
Lemma ex_names_ok : (forall n, In n ex_names -> ~ In slash n) /\ (forall rest, ~ sample_name (of_string "readme.txt") rest) /\
  sample_name (of_string "box.samp_00") (of_string "_00") /\ names_lod (of_string "_00") /\
  sample_name (of_string "box.samp") [] /\ ~ names_lod [].
Proof.
  split; [|split; [|split; [|split; [|split]]]].
  - intros n H. cbn in H. repeat (destruct H as [<-|H]; [cbn; intros X; repeat (destruct X as [X|X]; [discriminate|]); exact X|]). destruct H.
  - intros rest H. apply sample_name_ext in H; [discriminate|]. cbn. intros X; repeat (destruct X as [X|X]; [discriminate|]); exact X.
  - exists (of_string "box"). split; [reflexivity|]. split; [cbn; intros X; repeat (destruct X as [X|X]; [discriminate|]); exact X|]. exists "b"%char. split; [now left|discriminate].
  - right. exists [], "0"%char, "0"%char, []. cbn. auto 10.
  - exists (of_string "box"). split; [reflexivity|]. split; [auto|]. exists "b"%char. split; [now left|discriminate].
  - intros [X|(a & g & l & b & X & _)]; [discriminate|]. now destruct a.
Qed.
Lemma ex_old_load : exists m, old_load_mesh p64 unpack_f fsA fnA = Ok m.
Proof. eexists. refine (proj1 (old_open p64 fsA fnA kw0 objA (openA kw0) eq_refl) _). apply ex_starts. Qed.
Lemma fnA_slash : In slash fnA.
Proof. cbn. auto 10. Qed.
Lemma ex_sample_read : exists s rest, read_sample p64 unpack_f (repeat "A"%char 40) = Ok (s, rest) /\ length rest = 8%nat.
Proof. destruct (proj2 (sample_needs p64 unpack_f (repeat "A"%char 40))) as (s & H); [vm_compute; lia|]. exists s. eexists. split; [exact H|reflexivity]. Qed.
