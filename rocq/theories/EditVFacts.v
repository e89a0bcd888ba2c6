(** VisMeshTransform.edit_vertex. *)
From Coq Require Import ZArith List Bool Lia.
From Verif Require Import PyBase Struct Mesh Arith Edit OldEdit Trans Spec SpecEdit SpecOldEdit SpecTrans DivFacts TravFacts VertFacts Old OldEditFacts TransFacts.
Import ListNotations.
Open Scope Z_scope.
Open Scope res_scope.

Section EditVFacts.
Context {F : Type}.
Implicit Types (m : mesh F).

(** The vertices of a loaded or edited mesh are a tuple: nothing is written. *)
Lemma edit_attrib_tuple m id u d l a : fst (edit_vertex_attrib false m id u d l a) = l.
Proof.
  unfold edit_vertex_attrib. destruct (if negb _ then _ else _) as [o|e]; [|reflexivity]. destruct (_ && _); [|reflexivity].
  destruct (py_int_div _ _); [|reflexivity]. destruct (_ && _); [|reflexivity]. now destruct d.
Qed.
Theorem edit_vertex_tuple m id u d : exists o, edit_vertex false m id u d = (m, o).
Proof.
  unfold edit_vertex.
  assert (forall as_ l o, fst (fold_left (fun acc a => match acc with (l, None) => edit_vertex_attrib false m id u d l a | _ => acc end) as_ (l, o)) = l) as G.
  { induction as_ as [|a t IH]; intros l o; cbn [fold_left]; [reflexivity|]. destruct o; [apply IH|].
    pose proof (edit_attrib_tuple m id u d l a) as E. destruct (edit_vertex_attrib false m id u d l a) as (l', o'). cbn in E. subst l'. apply IH. }
  specialize (G (vertex_attributes m) (vertices m) None). destruct (fold_left _ _ _) as (l, o). cbn in G. subst l. exists o. f_equal. now destruct m.
Qed.

(** [d] written from [s] on. *)
Definition written (s : nat) (d l l' : list F) : Prop :=
  length l' = length l /\
  forall c, nth_error l' c = if (s <=? c)%nat && (c <? s + length d)%nat then nth_error d (c - s) else nth_error l c.
Lemma written_unique s d l a b : written s d l a -> written s d l b -> a = b.
Proof. intros (_ & H) (_ & H'). apply nth_ext_error. intros c. now rewrite H, H'. Qed.
Lemma written_again s d l a b : written s d l a -> written s d a b -> a = b.
Proof.
  intros (_ & H) (_ & H'). apply nth_ext_error. intros c. rewrite H', H. now destruct (_ && _).
Qed.
Lemma assign_written d s l : (s + length d <= length l)%nat -> exists l', assign_all l (Z.of_nat s) d = (l', None) /\ written s d l l'.
Proof.
  unfold assign_all.
  assert (forall k (l : list F), (s + k + length d <= length l)%nat -> exists l',
    fold_left (fun acc id => match acc with
      | (l, None) => match py_set l (Z.of_nat s + Z.of_nat (fst id)) (snd id) with Ok l' => (l', None) | Raise e => (l, Some e) end
      | _ => acc end) (combine (seq k (length d)) d) (l, None) = (l', None) /\ written (s + k) d l l') as G.
  { induction d as [|x d IH]; intros k l0 H; cbn [length seq combine fold_left] in *.
    - exists l0. split; [reflexivity|]. split; [reflexivity|]. intros c. cbn [length]. destruct (Nat.leb_spec (s + k) c), (Nat.ltb_spec c (s + k + 0)); try lia; reflexivity.
    - cbn [fst snd]. rewrite py_set_nonneg by lia. rewrite <- Nat2Z.inj_add, Nat2Z.id.
      destruct (nth_error l0 (s + k)) eqn:E; [|apply nth_error_None in E; lia].
      destruct (IH (S k) (set_nth l0 (s + k) x)) as (l' & E' & L' & H'); [rewrite set_nth_length; lia|]. exists l'. split; [exact E'|].
      rewrite set_nth_length in L'. split; [exact L'|]. intros c. rewrite H', nth_set_nth. cbn [length].
      destruct (Nat.eqb_spec c (s + k)) as [->|Hc].
      + destruct (Nat.leb_spec (s + S k) (s + k)); [lia|]. cbn [andb]. rewrite E. rewrite Nat.leb_refl.
        destruct (Nat.ltb_spec (s + k) (s + k + S (length d))); [|lia]. cbn [andb]. now rewrite Nat.sub_diag.
      + destruct (Nat.leb_spec (s + S k) c), (Nat.leb_spec (s + k) c); try lia; cbn [andb]; [|reflexivity].
        destruct (Nat.ltb_spec c (s + S k + length d)), (Nat.ltb_spec c (s + k + S (length d))); try lia; [|reflexivity].
        replace (c - (s + k))%nat with (S (c - (s + S k))) by lia. reflexivity. }
  intros H. destruct (G 0%nat l) as (l' & E & W); [lia|]. rewrite Nat.add_0_r in W. eauto.
Qed.

Section Edit.
Context (vs : nat) (m : mesh F) (u : Z) (o j : nat) (d : list F).
Hypothesis (C : canonical vs m) (K : Forall (fun a => vartype a <> 3) (vertex_attributes m)).
Hypothesis (U : forall a, In a (vertex_attributes m) -> usage a = u -> attrib_start m a = o).
Hypothesis (D : (o + length d <= vs)%nat) (J : Z.of_nat j < vertnum m).

Lemma vertex_fits : (o + j * vs + length d <= length (vertices m))%nat.
Proof. pose proof (can_vertnum _ _ C) as H. unfold zlen in H. nia. Qed.
Lemma attrib_head a : In a (vertex_attributes m) ->
  (if negb (known_usage (usage a)) then Raise EValue
   else do o <- py_int_div (offset a) (vertformat m);
        if negb (old_known_type (vartype a)) then Raise EValue
        else do _ <- old_type_len (vartype a); Ok o) = Ok (Z.of_nat (attrib_start m a)).
Proof.
  intros H. pose proof (can_short _ _ C) as (Hf & Ho). pose proof (can_known _ _ C) as KN. rewrite Forall_forall in Ho, KN, K.
  destruct (old_known_ok a (KN a H)) as (E1 & E2). rewrite E2, (attrib_start_div m a Hf (Ho a H)). cbn [negb bind]. rewrite E1. cbn [negb].
  destruct (KN a H) as (T & _). specialize (K a H). cbn in T.
  repeat match goal with T : _ \/ _ |- _ => destruct T as [T|T] end; try contradiction; try congruence; rewrite <- T; reflexivity.
Qed.
Lemma edit_attrib_value l a : In a (vertex_attributes m) -> length l = length (vertices m) ->
  edit_vertex_attrib true m (Z.of_nat j) u d l a =
  if usage a =? u then match d with [] => (l, None) | _ => assign_all l (Z.of_nat (o + j * vs)) d end else (l, None).
Proof.
  intros H L. unfold edit_vertex_attrib. rewrite (attrib_head a H). destruct (Z.eqb_spec (usage a) u) as [E|E]; [|reflexivity].
  destruct (Z.ltb_spec 0 (vertnum m)); [|lia]. cbn [andb]. rewrite (can_stride _ _ C), int_div_exact.
  - destruct (Z.leb_spec 0 (Z.of_nat j)); [|lia]. destruct (Z.ltb_spec (Z.of_nat j) (vertnum m)); [|lia]. cbn [andb]. rewrite (U a H E).
    replace (Z.of_nat o + Z.of_nat j * Z.of_nat vs) with (Z.of_nat (o + j * vs)) by lia. reflexivity.
  - pose proof (can_short _ _ C) as (Hf & _). lia.
  - pose proof (vs_small m vs C). lia.
Qed.
Lemma edit_vertex_value : (exists a, In a (vertex_attributes m) /\ usage a = u) ->
  exists l, edit_vertex true m (Z.of_nat j) u d = (set_vertices m l, None) /\ written (o + j * vs) d (vertices m) l.
Proof.
  intros (a0 & Ha0 & Eu). destruct (assign_written d (o + j * vs) (vertices m) vertex_fits) as (T & ET & WT). exists T. split; [|exact WT].
  assert (assign_all T (Z.of_nat (o + j * vs)) d = (T, None)) as EA.
  { destruct (assign_written d (o + j * vs) T) as (T' & ET' & WT'); [rewrite (proj1 WT); apply vertex_fits|].
    rewrite ET'. f_equal. symmetry. eapply written_again; eassumption. }
  unfold edit_vertex. set (step := fun acc a => _).
  assert (forall as_, (forall a, In a as_ -> In a (vertex_attributes m)) -> fold_left step as_ (T, None) = (T, None)) as G1.
  { induction as_ as [|a t IH]; intros H; cbn [fold_left]; [reflexivity|]. unfold step at 2. rewrite edit_attrib_value; [|apply H; now left|apply WT].
    destruct (usage a =? u); [|apply IH; intros; apply H; now right]. rewrite EA. destruct d; apply IH; intros; apply H; now right. }
  assert (forall as_, (forall a, In a as_ -> In a (vertex_attributes m)) -> In a0 as_ -> fold_left step as_ (vertices m, None) = (T, None)) as G2.
  { induction as_ as [|a t IH]; intros H HI; [destruct HI|]. cbn [fold_left]. unfold step at 2. rewrite edit_attrib_value; [|apply H; now left|reflexivity].
    destruct (Z.eqb_spec (usage a) u) as [E|E].
    - rewrite ET. assert ((match d with [] => (vertices m, None) | _ => (T, None) end) = (T, @None exn)) as ->.
      { destruct d; [|reflexivity]. f_equal. eapply written_unique; [|exact WT]. split; [reflexivity|]. intros c. cbn [length].
        destruct (Nat.leb_spec (o + j * vs) c), (Nat.ltb_spec c (o + j * vs + 0)); try lia; reflexivity. }
      apply G1. intros; apply H; now right.
    - destruct HI as [->|HI]; [congruence|]. apply IH; [|exact HI]. intros; apply H; now right. }
  now rewrite G2 by auto.
Qed.
Theorem edit_vertex_ok : (exists a, In a (vertex_attributes m) /\ usage a = u) -> exists m',
  edit_vertex true m (Z.of_nat j) u d = (m', None) /\ same_but_vertices m m' /\ length (vertices m') = length (vertices m) /\
  (forall c, (c < length d)%nat -> number_at vs m' j (o + c) = nth_error d c) /\
  (forall i c, (c < vs)%nat -> ~ (i = j /\ o <= c < o + length d)%nat -> number_at vs m' i c = number_at vs m i c).
Proof.
  intros H. destruct (edit_vertex_value H) as (l & E & L & W). eexists. split; [exact E|]. split; [repeat split|]. split; [exact L|].
  unfold number_at. change (vertices (set_vertices m l)) with l. split.
  - intros c Hc. rewrite W. destruct (Nat.leb_spec (o + j * vs) (j * vs + (o + c))); [|lia]. destruct (Nat.ltb_spec (j * vs + (o + c)) (o + j * vs + length d)); [|lia].
    cbn [andb]. f_equal. lia.
  - intros i c Hc Hn. rewrite W. destruct (Nat.leb_spec (o + j * vs) (i * vs + c)) as [A|A]; [|reflexivity].
    destruct (Nat.ltb_spec (i * vs + c) (o + j * vs + length d)) as [B|B]; [|reflexivity]. destruct Hn.
    assert (i = j) as -> by nia. split; [reflexivity|lia].
Qed.
End Edit.

(** On a tuple, editing an attribute that is there is a TypeError. *)
Theorem edit_vertex_tuple_raises vs m u j d : canonical vs m -> Forall (fun a => vartype a <> 3) (vertex_attributes m) -> d <> [] -> Z.of_nat j < vertnum m ->
  (exists a, In a (vertex_attributes m) /\ usage a = u) -> edit_vertex false m (Z.of_nat j) u d = (m, Some EType).
Proof.
  intros C K Hd J (a0 & Ha0 & Eu). unfold edit_vertex. set (step := fun acc a => _).
  assert (forall as_ l, fold_left step as_ (l, Some EType) = (l, Some EType)) as G1.
  { induction as_ as [|a t IH]; intros l; cbn [fold_left]; [reflexivity|apply IH]. }
  assert (forall as_ l, (forall a, In a as_ -> In a (vertex_attributes m)) -> In a0 as_ -> fold_left step as_ (l, None) = (l, Some EType)) as G2.
  { induction as_ as [|a t IH]; intros l H HI; [destruct HI|]. cbn [fold_left]. unfold step at 2. unfold edit_vertex_attrib.
    rewrite (attrib_head vs m C K a) by (apply H; now left). destruct (Z.eqb_spec (usage a) u) as [E|E].
    - destruct (Z.ltb_spec 0 (vertnum m)); [|lia]. cbn [andb]. rewrite (can_stride _ _ C), int_div_exact.
      + destruct (Z.leb_spec 0 (Z.of_nat j)); [|lia]. destruct (Z.ltb_spec (Z.of_nat j) (vertnum m)); [|lia]. cbn [andb].
        destruct d; [congruence|]. apply G1.
      + pose proof (can_short _ _ C) as (Hf & _). lia.
      + pose proof (vs_small m vs C). lia.
    - destruct HI as [->|HI]; [congruence|]. cbn [andb]. apply IH; [|exact HI]. intros; apply H; now right. }
  rewrite G2 by auto. f_equal. now destruct m.
Qed.
End EditVFacts.
