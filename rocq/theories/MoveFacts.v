(** Rotating after translating, in exact arithmetic. *)
From Coq Require Import ZArith List Bool Lia Reals Lra.
From Verif Require Import PyBase Struct Mesh Arith RArith Edit Spec SpecEdit TravFacts VertFacts RFacts.
Import ListNotations.
Open Scope Z_scope.

Definition vadd (u v : vec) : vec := let '(a, b, c) := u in let '(x, y, z) := v in (a + x, b + y, c + z)%R.
Definition coords (v : vec) : list R := let '(x, y, z) := v in [x; y; z].

Lemma turn_vadd y p r u v : turn exact y p r (vadd u v) = vadd (turn exact y p r u) (turn exact y p r v).
Proof.
  destruct u as ((a, b), c), v as ((x, y'), z). unfold turn, vadd. cbn. apply trip_eq; ring.
Qed.

Section Move.
Implicit Types (m : mesh R) (a : vertattrib).

Lemma triple_nth (l l' : list R) o q i : triple l o q -> triple l' o q -> (o <= i < o + 3)%nat -> nth_error l i = nth_error l' i.
Proof.
  destruct q as ((x, y), z). intros (H1 & H2 & H3) (K1 & K2 & K3) H.
  destruct (Nat.eq_dec i o) as [->|]; [congruence|]. destruct (Nat.eq_dec i (o + 1)) as [->|]; [congruence|].
  replace i with (o + 2)%nat by lia. congruence.
Qed.
Lemma moved_in o d q : let '(x, y, z) := q in let '(dx, dy, dz) := d in
  moved exact o [dx; dy; dz] o x = (x + dx)%R /\ moved exact o [dx; dy; dz] (o + 1) y = (y + dy)%R /\ moved exact o [dx; dy; dz] (o + 2) z = (z + dz)%R.
Proof.
  destruct q as ((x, y), z), d as ((dx, dy), dz). unfold moved.
  destruct (Nat.leb_spec o o), (Nat.leb_spec o (o + 1)), (Nat.leb_spec o (o + 2)); try lia.
  replace (o - o)%nat with 0%nat by lia. replace (o + 1 - o)%nat with 1%nat by lia. replace (o + 2 - o)%nat with 2%nat by lia. now repeat split.
Qed.
Lemma moved_out o (d : vec) c x : (c < o \/ o + 3 <= c)%nat -> moved exact o (coords d) c x = x.
Proof.
  destruct d as ((dx, dy), dz). intros H. unfold moved, coords. destruct (Nat.leb_spec o c); [|reflexivity].
  rewrite (proj2 (nth_error_None _ _)); [reflexivity|]. cbn. lia.
Qed.

Lemma moved_triple vs (l l' : list R) o d j s q : (s + 3 <= vs)%nat ->
  (forall j c x, (c < vs)%nat -> nth_error l (j * vs + c) = Some x -> nth_error l' (j * vs + c) = Some (moved exact o (coords d) c x)) ->
  triple l (j * vs + s) q -> 
  (s = o -> triple l' (j * vs + s) (vadd q d)) /\ ((s + 3 <= o \/ o + 3 <= s)%nat -> triple l' (j * vs + s) q).
Proof.
  intros Hs N H. destruct q as ((x, y), z). unfold triple in *. rewrite <- !Nat.add_assoc in *. destruct H as (H1 & H2 & H3).
  apply N in H1; [|lia]. apply N in H2; [|lia]. apply N in H3; [|lia]. split.
  - intros ->. pose proof (moved_in o d (x, y, z)) as M. destruct d as ((dx, dy), dz). cbn in M. destruct M as (M1 & M2 & M3).
    cbn [coords] in *. rewrite M1 in H1. rewrite M2 in H2. rewrite M3 in H3. cbn [vadd]. auto.
  - intros O. rewrite moved_out in H1, H2, H3 by lia. rewrite <- ?Nat.add_assoc. auto.
Qed.

Lemma apart_pairs m a b l : ForallOrdPairs (apart m) l -> In a l -> In b l -> a = b \/ apart m a b.
Proof.
  induction 1 as [|x l H _ IH]; [contradiction|]. rewrite Forall_forall in H. intros [<-|Ha] [<-|Hb]; auto.
  - right. specialize (H a Ha). unfold apart in *. lia.
Qed.

Theorem rotate_translate vs m a d yaw pitch roll more m1 :
  vertex_size m = Ok (Z.of_nat vs) -> (0 < vs)%nat -> tiled_vertices vs m -> rotate_ready vs m ->
  position_attrib m = Some a -> translate exact m (coords d) = (m1, None) ->
  exists m2 m3, rotate exact m1 (yaw :: pitch :: roll :: more) = (m2, None) /\
    rotate exact m (yaw :: pitch :: roll :: more) = (m3, None) /\
    translate exact m3 (coords (turn exact yaw pitch roll d)) = (m2, None).
Proof.
  intros Hs Hv T RR PA E. pose proof RR as (Ho & HA & HP).
  destruct (translate_packed exact vs m _ m1 Hs Hv T Ho E) as (S1 & L1 & N1).
  destruct (rotate_packed exact vs m1 yaw pitch roll more) as (m2 & E2 & S2 & L2 & O2 & T2).
  { now rewrite (same_size m m1). } { exact Hv. } { now apply (same_tiled vs m). } { now apply (same_ready vs m). } { apply can_turn_exact. }
  destruct (rotate_packed exact vs m yaw pitch roll more Hs Hv T RR (can_turn_exact _ _ _)) as (m3 & E3 & S3 & L3 & O3 & T3).
  exists m2, m3. split; [exact E2|]. split; [exact E3|].
  set (e := turn exact yaw pitch roll d) in *.
  destruct (translate_again exact vs m (coords d) m1 (coords e) m3 Hs Hv T Ho E S3 L3) as (m4 & E4).
  { destruct e as ((?, ?), ?), d as ((?, ?), ?). reflexivity. }
  rewrite E4. f_equal.
  assert (vertex_size m3 = Ok (Z.of_nat vs)) as Hs3 by (now rewrite (same_size m m3)).
  destruct (translate_packed exact vs m3 (coords e) m4 Hs3 Hv (same_tiled vs m m3 S3 L3 T) (same_short m m3 S3 Ho) E4) as (S4 & L4 & N4).
  assert (position_start m = attrib_start m a) as EP by (unfold position_start; now rewrite PA).
  rewrite (same_position m m3 S3), EP in N4. rewrite EP in N1.
  assert (In a (oriented_attribs m)) as Ha.
  { unfold position_attrib in PA. apply find_some in PA. destruct PA as (Hin & HB). apply filter_In. split; [exact Hin|].
    unfold oriented. apply andb_true_iff in HB. destruct HB as (-> & ->). reflexivity. }
  rewrite (same_oriented m m1 S1) in O2, T2.
  apply (mesh_ext2 m m4 m2); [now apply (same_but_trans m m3)|now apply (same_but_trans m m1)|].
  apply (by_component _ _ vs Hv). intros j c Hc.
  destruct (Nat.ltb_spec (j * vs + c) (length (vertices m))) as [Hi|Hi].
  2:{ rewrite !(proj2 (nth_error_None _ _)) by lia. reflexivity. }
  destruct (oriented_dec m c (oriented_attribs m)) as [Out|(b & Hb & Hr)].
  - assert (outside m c a) as Oa by (rewrite Forall_forall in Out; apply Out, Ha).
    destruct (nth_error (vertices m) (j * vs + c)) as [x|] eqn:Ex; [|apply nth_error_None in Ex; lia].
    rewrite (O2 j c Hc) by (eapply Forall_impl; [|exact Out]; intros w; unfold outside; now rewrite (same_start m m1 w S1)).
    rewrite (N1 j c x Hc Ex). rewrite (N4 j c x Hc) by (rewrite (O3 j c Hc Out); exact Ex). unfold outside in Oa.
    now rewrite !moved_out by lia.
  - assert (attrib_start m b + 3 <= vs)%nat as Hw by (rewrite Forall_forall in HA; apply HA, Hb).
    destruct (triple_ex (vertices m) (j * vs + attrib_start m b)) as (q & Q).
    { pose proof (tiled_rows vs m j c Hv T Hc Hi). nia. }
    destruct (moved_triple vs _ _ _ d j _ q Hw N1 Q) as (In1 & Out1).
    pose proof (T3 j b q Hb Q) as Q3. destruct (moved_triple vs _ _ _ e j _ _ Hw N4 Q3) as (In4 & Out4).
    assert (forall q', triple (vertices m1) (j * vs + attrib_start m b) q' -> triple (vertices m2) (j * vs + attrib_start m b) (turn exact yaw pitch roll q')) as T2'.
    { intros q' H. specialize (T2 j b q' Hb). rewrite (same_start m m1 b S1) in T2. auto. }
    destruct (apart_pairs m b a _ HP Hb Ha) as [<-|AP].
    + apply (triple_nth _ _ (j * vs + attrib_start m b) (turn exact yaw pitch roll (vadd q d))); [|apply T2', In1, eq_refl|lia].
      rewrite turn_vadd. apply In4. reflexivity.
    + apply (triple_nth _ _ (j * vs + attrib_start m b) (turn exact yaw pitch roll q)); [apply Out4, AP|apply T2', Out1, AP|lia].
Qed.
End Move.

Theorem rotate_translate_coords vs m a dx dy dz yaw pitch roll more m1 ex ey ez :
  vertex_size m = Ok (Z.of_nat vs) -> (0 < vs)%nat -> tiled_vertices vs m -> rotate_ready vs m ->
  position_attrib m = Some a -> translate exact m [dx; dy; dz] = (m1, None) ->
  turn exact yaw pitch roll (dx, dy, dz) = (ex, ey, ez) ->
  exists m2 m3, rotate exact m1 (yaw :: pitch :: roll :: more) = (m2, None) /\
    rotate exact m (yaw :: pitch :: roll :: more) = (m3, None) /\
    translate exact m3 [ex; ey; ez] = (m2, None).
Proof.
  intros Hs Hv T RR PA E ET. destruct (rotate_translate vs m a (dx, dy, dz) yaw pitch roll more m1 Hs Hv T RR PA E) as (m2 & m3 & E2 & E3 & E4).
  rewrite ET in E4. exists m2, m3. auto.
Qed.
