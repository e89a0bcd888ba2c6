(** Concrete cases for equality of collision meshes, Vec3 and the script mesh_merge. *)
From Coq Require Import ZArith List Bool Lia Reals Lra.
From Flocq Require Import IEEE754.Binary IEEE754.Bits.
From Verif Require Import PyBase Struct Mesh Arith RArith F64 Edit Spec SpecBounds SpecAcc BoundFacts F64Facts Witness WitnessBounds
  Col SpecCol ColFacts ColMergeFacts WitnessCol ColEq SpecColEq ColEqFacts Vec SpecVec VecFacts Recipe SpecRecipe RecipeFacts.
Import ListNotations.
Open Scope Z_scope.

(** ** Equality *)
(** Two lods made by hand: each has one face as its constructor leaves it. *)
Definition hand_lod {F} (x : F) : collod F colface :=
  {| cl_type := 0; cl_facenum := 1; cl_faces := [face0]; cl_vertnum := 1; cl_vertices := [(x, x, x)]; cl_vertids := [0];
     cl_min := (x, x, x); cl_max := (x, x, x); cl_u7 := 0; cl_bmin := (x, x, x); cl_bmax := (x, x, x);
     cl_ynum := 0; cl_ydata := []; cl_znum := 0; cl_zdata := []; cl_anum := 0; cl_adata := [] |}.
Lemma hand_raises {F} (A : arith F) (x : F) : exists l : collod F colface, collod_eq A l l = Raise EAttribute /\
  l = hand_lod x /\ face_eq face0 face0 = Raise EAttribute.
Proof. exists (hand_lod x). repeat split. Qed.
Lemma ex_numbers_col n : col_all number (flc (ex_col 10 n)).
Proof.
  assert (collod_all number (collod_map unpack_f (fun x : colface => x) (ex_collod 10 n))) as C.
  { unfold collod_all, number. cbn -[unpack_f].
    repeat match goal with |- _ /\ _ => split | |- Forall _ _ => constructor end; vm_compute; repeat split. }
  unfold col_all, col_lods. cbn -[unpack_f]. auto.
Qed.
(** Saving and loading makes an equal mesh of one and a different mesh of the other. *)
Lemma ex_saved L n : In n [0; 5] -> exists m out m', col_load p64 unpack_f (ex_cfile 10 n) = Ok m /\ write_colmesh p64 pack_f m = (out, None) /\
  col_load p64 unpack_f out = Ok m' /\ list_eq (colgeom_eq (f64 L)) (cm_geoms m) (cm_geoms m') = Ok (n =? 0).
Proof.
  intros Hn. assert (col_load p64 unpack_f (ex_cfile 10 n) = Ok (flc (ex_col 10 n))) as E by (apply ex_cload; [cbn; auto|exact Hn]).
  destruct (saved_equal L p64 _ _ E (ex_numbers_col n)) as (out & m' & W & R & I). exists (flc (ex_col 10 n)), out, m'.
  split; [exact E|]. split; [exact W|]. split; [exact R|]. destruct (loaded_compare (f64 L) p64 unpack_f _ _ _ _ E R) as (r & Er).
  rewrite Er in I |- *. f_equal. unfold flc in I. rewrite col_faces_map, map_id in I. cbn in I.
  destruct Hn as [<-|[<-|[]]].
  - assert (Ok r = Ok true) as X by (apply I; repeat constructor). now injection X.
  - destruct r; [|reflexivity]. destruct I as (I & _). specialize (I eq_refl). inversion I as [|? ? X _]. discriminate X.
Qed.

(** ** Vec3 *)
(** The vector product of a vector with itself is not zero and not at right angles to it. *)
Lemma cross_itself : exists u : vec3 R, vector_product u u = (0, 0, 0)%R /\ vec_cross exact u u <> (0, 0, 0)%R /\
  scalar_product u (vec_cross exact u u) <> 0%R.
Proof.
  exists (1, 1, 0)%R. unfold vector_product, vec_cross, scalar_product. cbn. split; [repeat f_equal; lra|]. split; [|lra].
  intros H. injection H as H1 H2. lra.
Qed.
Definition d1 : binary64 := unpack_f b1.
Definition d0 : binary64 := unpack_f b0.
Lemma cross_itself_f64 L : exists u : vec3 binary64, finite3 u /\ f_eq (f64 L) (axis 1 (vec_cross (f64 L) u u)) (f_zero (f64 L)) = false /\
  f_eq (f64 L) (vec_dot (f64 L) u (vec_cross (f64 L) u u)) (f_zero (f64 L)) = false.
Proof. exists (d1, d1, d0). split; [repeat split; vm_compute; reflexivity|]. split; vm_compute; reflexivity. Qed.
Lemma cross_sometimes : exists u v : vec3 R, vec_cross exact u v = vector_product u v /\ vector_product u v <> (0, 0, 0)%R.
Proof.
  exists (1, 2, 1)%R, (0, 1, 3)%R. split; [apply exact_cross; cbn; lra|]. unfold vector_product. cbn. intros H. injection H as H1 H2. lra.
Qed.

(** ** The script *)
Open Scope R_scope.
Definition tile_lod : collod R nat :=
  {| cl_type := 0; cl_facenum := 1; cl_faces := [0%nat]; cl_vertnum := 3; cl_vertices := [(0, 0, 0); (2, 0, 0); (0, 2, 2)]; cl_vertids := [0; 0; 0]%Z;
     cl_min := (0, 0, 0); cl_max := (2, 2, 2); cl_u7 := 48; cl_bmin := (0, 0, 0); cl_bmax := (2, 2, 2);
     cl_ynum := 0; cl_ydata := []; cl_znum := 0; cl_zdata := []; cl_anum := 0; cl_adata := [] |}.
Definition tile : colmesh R nat := one 10 tile_lod.
Definition tile_heap : heap := [ex_face 3 0 1 2].
Lemma tile_ok : own_faces tile_heap tile /\ first_lod tile tile_lod /\ Forall faces_ok (col_lods (view tile_heap tile)) /\
  box exact (cl_vertices tile_lod) (cl_min tile_lod) (cl_max tile_lod).
Proof.
  split; [split; [repeat constructor; auto|repeat constructor]|]. split; [do 5 eexists; repeat split|]. split.
  - constructor; [|constructor]. split; [reflexivity|]. repeat constructor; cbn; lia.
  - split.
    + intros q Hq i Hi. rewrite !(fle_val _ _ _ exact_ordered) by exact I. cbn in Hq.
      destruct Hq as [<-|[<-|[<-|[]]]]; destruct Hi as [<-|[<-|[<-|[]]]]; cbn; lra.
    + apply axis_cases; cbn [tile_lod cl_min cl_max cl_vertices axis].
      * split; [exists (0, 0, 0)|exists (2, 0, 0)]; cbn; auto.
      * split; [exists (0, 0, 0)|exists (0, 2, 2)]; cbn; auto.
      * split; [exists (0, 0, 0)|exists (0, 2, 2)]; cbn; auto.
Qed.
(** Boxes that fitted before do not fit afterwards. *)
Lemma duplicate_stale : exists h (m : colmesh R nat) d l0 h' m' l', own_faces h m /\ first_lod m l0 /\ collod_boxed exact l0 /\
  duplicate exact Ropp h m d = (h', m', None) /\ first_lod (view h' m') l' /\ ~ collod_boxed exact l'.
Proof.
  destruct tile_ok as (OF & FL & OK & B).
  destruct (duplicate_centred tile_heap tile (4, 0, 0) tile_lod OF FL OK B) as (h' & m' & l' & lo & hi & E & F1 & _ & _ & _ & IFF).
  exists tile_heap, tile, (4, 0, 0), tile_lod, h', m', l'. split; [exact OF|]. split; [exact FL|]. split; [exact (proj1 B)|]. split; [exact E|]. split; [exact F1|].
  rewrite IFF. clear IFF. intros C. specialize (C 0%nat (or_introl eq_refl)).
  destruct (duplicate_ok exact Ropp (fun _ => True) (fun x => x) tile_heap tile (4, 0, 0) tile_lod exact_ordered) as (h2 & m2 & l2 & c & E2 & _ & F2 & _ & G); auto.
  { cbn. apply not_true_is_false. rewrite Reqb_spec. lra. } { apply col_all_true; auto. } { apply col_all_true; auto. }
  rewrite E in E2. injection E2 as <- <-.
  destruct (mesh_rel_col0 _ _ _ (lod_view tile_heap tile_lod) G eq_refl) as (l3 & E3 & (_ & GR & _)). apply (proj2 (col0_spec _ l')) in F1. rewrite F1 in E3. injection E3 as <-.
  rewrite lod_view_eq in GR. cbn [cl_vertices cl_min cl_max] in GR.
  destruct (GR 0%nat (or_introl eq_refl)) as (_ & _ & X & [Y|(q & Q1 & Q2)] & _).
  - destruct (X (2 + 4, 0 + 0, 0 + 0) ltac:(cbn; auto 10)) as (_ & Z1). rewrite (fle_val _ _ _ exact_ordered) in Z1 by exact I. cbn in Y, Z1. lra.
  - destruct (X (2 + 4, 0 + 0, 0 + 0) ltac:(cbn; auto 10)) as (_ & Z1). rewrite (fle_val _ _ _ exact_ordered) in Z1 by exact I. cbn in Z1.
    cbn in Q1. destruct Q1 as [<-|[<-|[<-|[<-|[<-|[<-|[]]]]]]]; cbn in Q2; lra.
Qed.
