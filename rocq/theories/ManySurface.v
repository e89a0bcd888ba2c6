(** The surface of several meshes merged into one. *)
From Coq Require Import ZArith List Bool Lia Reals Lra Permutation.
From Verif Require Import PyBase Struct Mesh Arith RArith Edit Spec SpecEdit SpecVec SpecSurface SpecMany MergeFacts ManyFacts SurfaceFacts.
Import ListNotations.
Open Scope Z_scope.

Lemma merge_whole {F} vs (a b m : mesh F) : vertex_size a = Ok (Z.of_nat vs) -> in_range vs a -> in_range vs b ->
  whole a -> whole b -> merge a b = (m, Merged) -> whole m.
Proof.
  intros Hs Ra Rb Wa Wb H. destruct (merged_nth vs a b m Hs Ra Rb H) as (L1 & L2 & N).
  unfold whole in *. rewrite Forall_forall in *. intros z Hz. apply In_nth_error in Hz. destruct Hz as (k & Hz).
  destruct (nth_from_mats (mats m) (mats a) k z L2 Hz) as (x & Hx).
  destruct (nth_from_mats (mats a) (mats b) k x (eq_sym L1) Hx) as (y & Hy).
  destruct (N k x y z Hx Hy Hz) as (_ & E & _). apply nth_error_In in Hx, Hy.
  assert (0 <= inum x) by (destruct Ra as (_ & Ra); rewrite Forall_forall in Ra; apply (Ra x Hx)).
  assert (0 <= inum y) by (destruct Rb as (_ & Rb); rewrite Forall_forall in Rb; apply (Rb y Hy)).
  specialize (Wa x Hx). specialize (Wb y Hy). rewrite E, Z2Nat.inj_add by assumption.
  rewrite Nat.add_mod, Wa, Wb by lia. reflexivity.
Qed.

Theorem each_measures vs bs : forall a r, drawable vs a -> Forall (drawable vs) bs -> whole a -> Forall whole bs ->
  Forall (fun b => vertformat b = vertformat a) bs -> Forall (compatible a) bs -> merge_each a bs = (r, None) ->
  drawable vs r /\ whole r /\ Permutation (surface vs r) (surface vs a ++ flat_map (surface vs) bs) /\
  area (surface vs r) = (area (surface vs a) + sumR (map (fun b => area (surface vs b)) bs))%R /\
  volume (surface vs r) = (volume (surface vs a) + sumR (map (fun b => volume (surface vs b)) bs))%R.
Proof.
  induction bs as [|b bs IH]; intros a r Da D Wa W V C H.
  - cbn [merge_each] in H. injection H as <-. cbn [map flat_map sumR fold_right]. rewrite app_nil_r. repeat split; auto; lra || apply Da.
  - inversion D as [|? ? Db Dt]; subst. inversion W as [|? ? Wb Wt]; subst. inversion V as [|? ? Vb Vt]; subst. inversion C as [|? ? Cb Ct]; subst.
    cbn [merge_each] in H. assert (in_range vs a) as Ra by (apply packed_in_range, Da). assert (in_range vs b) as Rb by (apply packed_in_range, Db).
    destruct (merge_cases vs a b Cb (dr_size _ _ Da) Ra Rb) as [(_ & m & E & _)|(_ & m & E & _)]; rewrite E in H; [|discriminate].
    destruct (merge_measures vs a b m Da Db Wa Vb E) as (Dm & P & A & Vo & _).
    destruct (merge_keeps vs a b m (dr_size _ _ Da) Ra Rb E) as (_ & _ & _ & Cm & SH & _).
    destruct (IH m r) as (I1 & I2 & I3 & I4 & I5); auto.
    + exact (merge_whole vs a b m (dr_size _ _ Da) Ra Rb Wa Wb E).
    + assert (vertformat m = vertformat a) as -> by (unfold same_header in SH; tauto). exact Vt.
    + eapply Forall_impl; [|exact Ct]. intros c Hc. eapply compatible_trans; [apply compatible_sym; exact Cm|exact Hc].
    + split; [exact I1|]. split; [exact I2|]. cbn [map flat_map]. split.
      { rewrite I3, P, app_assoc. reflexivity. }
      unfold sumR in *. cbn [fold_right]. split; [rewrite I4, A; lra|rewrite I5, Vo; lra].
Qed.
