(** A loadable mesh with an attribute that is neither marked used nor unused. *)
From Coq Require Import ZArith List Bool Lia.
From Flocq Require Import IEEE754.Binary IEEE754.Bits.
From Verif Require Import PyBase Struct Mesh Arith F64 Edit Obj Spec SpecEdit SpecSize CodecBase CodecRaw CodecParam CodecFacts Witness.
Import ListNotations.
Open Scope Z_scope.

Definition odd_attribs : list vertattrib :=
  {| flag := 7; offset := 0; vartype := 2; usage := 0 |} :: tl ex_attribs.
Definition odd_mesh : mesh Z :=
  let m := ex_mesh 11 k_static_ in
  {| m_kind := m_kind m; m_head := m_head m; m_u1 := m_u1 m; geomnum := geomnum m;
     geoms := geoms m; vertattribnum := vertattribnum m; vertex_attributes := odd_attribs;
     vertformat := vertformat m; vertstride := vertstride m; vertnum := vertnum m;
     vertices := vertices m; indexnum := indexnum m; index := index m; m_u2 := m_u2 m |}.
Definition odd_file : bytes := fst (export p64 raw odd_mesh).
Lemma odd_load : load p64 unpack_f k_static_ odd_file = Ok (fl odd_mesh).
Proof.
  assert (load p64 raw k_static_ odd_file = Ok odd_mesh) as E by (vm_compute; reflexivity).
  rewrite load_via, E. reflexivity.
Qed.
(** Its position attribute is in use for translate, but is not counted by vertex_size:
    translate returns normally and drops part of the vertices. *)
Definition odd_after {F} (A : arith F) (f : Z -> F) (x y z : F) : list F :=
  let g l := match l with a :: b :: c :: t => f_add A (f a) x :: f_add A (f b) y :: f_add A (f c) z :: map f t | _ => [] end in
  flat_map (fun i => g (firstn 4 (skipn (4 * i) ex_verts))) [0; 1; 2; 3; 4; 5]%nat.
Lemma odd_translate {F} (A : arith F) (f : Z -> F) x y z :
  translate A (mesh_map f odd_mesh) [x; y; z] = (set_vertices (mesh_map f odd_mesh) (odd_after A f x y z), None).
Proof. reflexivity. Qed.
Lemma odd_flag L x y z : exists bs m a m', load p64 unpack_f k_static_ bs = Ok m /\
  position_attrib m = Some a /\ vertex_size m = Ok 4 /\ vertstride m = 7 * vertformat m /\
  translate (f64 L) m [x; y; z] = (m', None) /\ length (vertices m) = 42%nat /\ length (vertices m') = 24%nat.
Proof.
  exists odd_file, (fl odd_mesh), {| flag := 7; offset := 0; vartype := 2; usage := 0 |},
    (set_vertices (fl odd_mesh) (odd_after (f64 L) unpack_f x y z)).
  split; [apply odd_load|]. split; [reflexivity|]. split; [reflexivity|]. split; [reflexivity|].
  split; [apply odd_translate|split; reflexivity].
Qed.
Lemma ex_widths : widths (used ex_attribs) 7.
Proof. change 7 with (3 + (3 + (1 + 0))). repeat (apply widths_cons; [cbn; auto 10|]). constructor. Qed.
Lemma no_width : forall n, ~ widths (used [{| flag := 0; offset := 0; vartype := 5; usage := 0 |}]) n.
Proof. intros n H. inversion H as [|? ? ? ? X]. cbn in X. intuition discriminate. Qed.
