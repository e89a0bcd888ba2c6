(** Proofs about the sample readers and LoadBF2Mesh with loadSamples=True. *)
From Coq Require Import ZArith NArith Bool Ascii String List Lia.
From Verif Require Import PyBase Struct Mesh Arith Edit MergeFacts Spec CodecBase CodecRaw CodecParam Obj SpecFormat FormatFacts SpecColFormat ColFormatFacts
  PathFacts Old Bf2 ReFacts Bf2Facts Bf2Mod Samples SpecSamples.
Import ListNotations.
Open Scope Z_scope.
Open Scope res_scope.

Section Readers.
Context {F : Type} (p : plat) (u : Z -> F).

(** [r] reads exactly the blocks of the fields [fs s], where [conv s] is what is read. *)
Definition reads {S T} (r : reader T) (fs : S -> list field) (conv : S -> T -> Prop) : Prop :=
  forall bs t rest, r bs = Ok (t, rest) <-> exists s used, bs = used ++ rest /\ laid_out p (fs s) used /\ conv s t.

Lemma laid_out_app a b bs : laid_out p (a ++ b) bs <-> exists x y, bs = x ++ y /\ laid_out p a x /\ laid_out p b y.
Proof.
  split.
  - intros (bl & H & ->). apply Forall2_app_inv_l in H. destruct H as (l1 & l2 & H1 & H2 & ->).
    exists (List.concat l1), (List.concat l2). split; [apply concat_app|]. split; eexists; eauto.
  - intros (x & y & -> & (l1 & H1 & ->) & (l2 & H2 & ->)). exists (l1 ++ l2). split; [now apply Forall2_app|]. symmetry. apply concat_app.
Qed.

Lemma float3_reads : reads (read_float3 p u) vec_fields (triple_as u).
Proof.
  intros bs t rest. rewrite (via_float3 p u bs). split.
  - intros H. destruct (read_float3 p raw bs) as [[v r0]|e] eqn:E; [|discriminate]. cbn in H.
    assert (vec3_map u v = t /\ r0 = rest) as (<- & ->) by (split; congruence).
    apply (rt1_float3 p) in E. destruct E as (B & cs & E & ->). exists v, cs. split; [reflexivity|].
    split; [apply (fields_written p _ _ (sized_vec v B)); now rewrite w_vec|]. now destruct v as [[x y] z].
  - intros ([[x y] z] & used & -> & L & ->).
    assert (vec3_all is_bits32 (x, y, z)) as B.
    { cbn [vec_fields] in L. destruct L as (bl & L & _). repeat match goal with H : Forall2 _ (_ :: _) _ |- _ => inversion H; clear H; subst end.
      cbn in *. unfold holds_unsigned in *.
      assert (forall b c, length c = 4%nat /\ number_of p c = b -> is_bits32 b) as K.
      { intros b c (Hl & <-). rewrite number_of_dec. pose proof (dec_uint_range p c). rewrite Hl in H. exact H. }
      cbn [vec3_all]. split; [|split]; eapply K; eassumption. }
    apply (fields_written p _ _ (sized_vec _ B)) in L. rewrite w_vec in L.
    destruct (rt2_float3 p _ B) as (cs & E & R). assert (cs = used) as <- by congruence. now rewrite R.
Qed.
Lemma long_reads : reads (read_long p) (fun z => [FLong z]) (fun z t => t = z).
Proof.
  intros bs t rest. split.
  - intros H. apply (rt1_long p) in H. destruct H as (B & cs & E & ->). exists t, cs. split; [reflexivity|]. split; [|reflexivity].
    apply fields_written; [repeat constructor|]. now rewrite w_one.
  - intros (z & used & -> & L & ->). assert (is_long p z) as B.
    { destruct L as (bl & L & _). inversion L; subst. destruct H1 as (_ & H & _). unfold is_long.
      assert (long_bytes p = match long_sz p with Long4 => 4 | Long8 => 8 end)%nat as -> by (unfold long_bytes; now destruct (long_sz p)). exact H. }
    apply fields_written in L; [|repeat constructor]. rewrite w_one in L.
    destruct (rt2_long p _ B) as (cs & E & R). assert (cs = used) as <- by (cbn in L; congruence). apply R.
Qed.

Lemma reads_bind {S T S' T' S'' T''} (r : reader T) fs conv (r' : reader T') fs' conv' (mk : T -> T' -> T'') (pair : S -> S' -> S'')
  (fs'' : S'' -> list field) (conv'' : S'' -> T'' -> Prop) :
  reads r fs conv -> reads r' fs' conv' ->
  (forall a b, fs'' (pair a b) = fs a ++ fs' b) ->
  (forall a b t, conv'' (pair a b) t <-> exists x y, conv a x /\ conv' b y /\ t = mk x y) ->
  (forall s, exists a b, s = pair a b) ->
  reads (get x <- r; get y <- r'; rret (mk x y)) fs'' conv''.
Proof.
  intros H1 H2 Hf Hc Hs bs t rest. split.
  - intros H. apply rbind_ok in H. destruct H as (x & mid & E1 & H). apply rbind_ok in H. destruct H as (y & mid' & E2 & H).
    apply rret_ok in H. destruct H as (<- & <-). apply H1 in E1. destruct E1 as (a & ua & -> & La & Ca). apply H2 in E2. destruct E2 as (b & ub & -> & Lb & Cb).
    exists (pair a b), (ua ++ ub). split; [now rewrite app_assoc|]. split; [rewrite Hf; apply laid_out_app; eauto|]. apply Hc. eauto.
  - intros (s & used & -> & L & C). destruct (Hs s) as (a & b & ->). rewrite Hf in L. apply laid_out_app in L. destruct L as (ua & ub & -> & La & Lb).
    apply Hc in C. destruct C as (x & y & Ca & Cb & ->). unfold rbind at 1.
    rewrite (proj2 (H1 ((ua ++ ub) ++ rest) x (ub ++ rest))); [|exists a, ua; rewrite app_assoc; auto]. cbn. unfold rbind.
    rewrite (proj2 (H2 (ub ++ rest) y rest)); [|exists b, ub; auto]. reflexivity.
Qed.

Lemma rbind_assoc_ok {A B C} (r : reader A) (f : A -> reader B) (g : B -> reader C) bs : rbind (rbind r f) g bs = rbind r (fun a => rbind (f a) g) bs.
Proof. unfold rbind. destruct (r bs) as [[a rest]|e]; reflexivity. Qed.
Lemma rbind_ext {A B} (r : reader A) (f g : A -> reader B) bs : (forall a bs', f a bs' = g a bs') -> rbind r f bs = rbind r g bs.
Proof. intros H. unfold rbind. destruct (r bs) as [[a rest]|e]; [apply H|reflexivity]. Qed.
Lemma reads_ext {S T} (r r' : reader T) (fs : S -> list field) conv : (forall bs, r bs = r' bs) -> reads r fs conv -> reads r' fs conv.
Proof. intros H R bs t rest. rewrite <- H. apply R. Qed.

Definition two : reader (vec3 F * vec3 F) := get x <- read_float3 p u; get y <- read_float3 p u; rret (x, y).
Definition two_fields (s : vec3 Z * vec3 Z) : list field := vec_fields (fst s) ++ vec_fields (snd s).
Definition two_as (s : vec3 Z * vec3 Z) (t : vec3 F * vec3 F) : Prop := triple_as u (fst s) (fst t) /\ triple_as u (snd s) (snd t).
Lemma two_reads : reads two two_fields two_as.
Proof.
  refine (reads_bind _ _ _ _ _ _ (fun x y => (x, y)) (fun a b => (a, b)) _ _ float3_reads float3_reads _ _ _).
  - reflexivity.
  - intros a b [x y]. unfold two_as. cbn. split; [intros (A & B); eauto|]. intros (x' & y' & A & B & E). apply pair_equal_spec in E. now destruct E as (-> & ->).
  - intros [a b]. eauto.
Qed.
Lemma sample_reads : reads (read_sample p u) sample_fields (sample_as u).
Proof.
  refine (reads_ext _ _ _ _ _ (reads_bind _ _ _ _ _ _ (fun x y => Build_smp_sample (F:=F) (fst x) (snd x) y) (fun a b => Build_smp_sample (F:=Z) (fst a) (snd a) b) _ _ two_reads long_reads _ _ _)).
  - intros bs. unfold two. rewrite rbind_assoc_ok. apply rbind_ext. intros a bs'. rewrite rbind_assoc_ok. reflexivity.
  - intros a b. unfold sample_fields, two_fields. cbn. now rewrite <- app_assoc.
  - intros a b [x y z]. unfold sample_as, two_as. cbn. split.
    + intros (A & B & ->). exists (x, y), b. auto.
    + intros ([x' y'] & z' & (A & B) & -> & E). cbn in *. assert (x = x' /\ y = y' /\ z = b) as (-> & -> & ->) by (inversion E; auto). auto.
  - intros [a b c]. exists (a, b), c. reflexivity.
Qed.
Definition four : reader ((vec3 F * vec3 F) * (vec3 F * vec3 F)) := get x <- two; get y <- two; rret (x, y).
Lemma four_reads : reads four (fun s => two_fields (fst s) ++ two_fields (snd s)) (fun s t => two_as (fst s) (fst t) /\ two_as (snd s) (snd t)).
Proof.
  refine (reads_bind _ _ _ _ _ _ (fun x y => (x, y)) (fun a b => (a, b)) _ _ two_reads two_reads _ _ _).
  - reflexivity.
  - intros a b [x y]. cbn. split; [intros (A & B); eauto|]. intros (x' & y' & A & B & E). apply pair_equal_spec in E. now destruct E as (-> & ->).
  - intros [a b]. eauto.
Qed.
Lemma face_reads : reads (read_face p u) smp_face_fields (smp_face_as u).
Proof.
  refine (reads_ext _ _ _ _ _ (reads_bind _ _ _ _ _ _
    (fun x y => Build_smp_face (F:=F) (fst (fst x)) (snd (fst x)) (fst (snd x)) (snd (snd x)) (fst y) (snd y))
    (fun a b => Build_smp_face (F:=Z) (fst (fst a)) (snd (fst a)) (fst (snd a)) (snd (snd a)) (fst b) (snd b)) _ _ four_reads two_reads _ _ _)).
  - intros bs. unfold read_face, four, two, rbind, rret, bind.
    do 6 (match goal with |- context [read_float3 p u ?b] => destruct (read_float3 p u b) as [[? ?]|?] end; [|reflexivity]). reflexivity.
  - intros a b. unfold smp_face_fields, two_fields. cbn. now rewrite <- !app_assoc.
  - intros a b [x1 x2 x3 x4 x5 x6]. unfold smp_face_as, two_as. cbn. split.
    + intros (A & B & C & D & E & G). exists ((x1, x2), (x3, x4)), (x5, x6). auto 10.
    + intros ([[y1 y2] [y3 y4]] & [y5 y6] & ((A & B) & C & D) & (E & G) & H). cbn in *. inversion H; subst. auto 10.
  - intros [a b c d e g]. exists ((a, b), (c, d)), (e, g). reflexivity.
Qed.

(** Raising: exactly on input that is too short. *)
Definition needs {T} (r : reader T) (n : nat) : Prop := forall bs,
  ((length bs < n)%nat -> r bs = Raise EStruct) /\ ((n <= length bs)%nat -> exists t, r bs = Ok (t, skipn n bs)).
Lemma needs_ret {T} (t : T) : needs (rret t) 0.
Proof. intros bs. split; [lia|]. intros _. exists t. reflexivity. Qed.
Lemma needs_bind {A B} (r : reader A) (f : A -> reader B) n m : needs r n -> (forall a, needs (f a) m) -> needs (rbind r f) (n + m).
Proof.
  intros H1 H2 bs. unfold rbind. destruct (H1 bs) as (A1 & A2). destruct (Nat.lt_ge_cases (length bs) n) as [L|L].
  - rewrite (A1 L). split; [reflexivity|lia].
  - destruct (A2 L) as (t & ->). cbn. destruct (H2 t (skipn n bs)) as (B1 & B2). rewrite skipn_length in *. split; intros; [apply B1; lia|].
    destruct B2 as (t' & ->); [lia|]. exists t'. now rewrite skipn_skipn, Nat.add_comm.
Qed.
Lemma needs_raw n : needs (read_raw (Z.of_nat n)) n.
Proof.
  intros bs. unfold read_raw, zlen. destruct (Z.ltb_spec (Z.of_nat n) 0); [lia|]. destruct (Z.ltb_spec (Z.of_nat (length bs)) (Z.of_nat n)); cbn; split; intros; try lia; auto.
  rewrite Nat2Z.id. eauto.
Qed.
Lemma needs_float3 : needs (read_float3 p u) 12.
Proof. change 12%nat with (12 + 0)%nat. apply needs_bind; [exact (needs_raw 12)|]. intros. apply needs_ret. Qed.
Lemma needs_long : needs (read_long p) (long_bytes p).
Proof. rewrite <- (Nat.add_0_r (long_bytes p)). apply needs_bind; [apply needs_raw|]. intros. apply needs_ret. Qed.
Lemma sample_needs : needs (read_sample p u) (24 + long_bytes p).
Proof.
  replace (24 + long_bytes p)%nat with (12 + (12 + (long_bytes p + 0)))%nat by lia.
  repeat (apply needs_bind; [first [apply needs_float3|apply needs_long]|intros]). apply needs_ret.
Qed.
Lemma face_needs : needs (read_face p u) 72.
Proof.
  change 72%nat with (12 + (12 + (12 + (12 + (12 + (12 + 0))))))%nat.
  repeat (apply needs_bind; [apply needs_float3|intros]). apply needs_ret.
Qed.
Lemma needs_raises {T} (r : reader T) n : needs r n -> forall bs e, r bs = Raise e <-> e = EStruct /\ (length bs < n)%nat.
Proof.
  intros H bs e. destruct (H bs) as (A & B). destruct (Nat.lt_ge_cases (length bs) n) as [L|L].
  - rewrite (A L). split; [intros [= <-]; auto|intros (-> & _); reflexivity].
  - destruct (B L) as (t & ->). split; [discriminate|lia].
Qed.
End Readers.

(** ** Names *)
Lemma ext_of_name name : ~ In slash name -> forall x, splitext_ext name = dot :: x <->
  exists stem, name = stem ++ dot :: x /\ ~ In dot x /\ exists c, In c stem /\ c <> dot.
Proof.
  intros NS x. unfold splitext_ext. assert (split_last slash name = ([], name)) as ->.
  { rewrite <- (app_nil_l name) at 1. apply split_last_app; [exact NS|now left]. }
  cbn [snd]. pose proof (split_last_spec dot name) as S. destruct (split_last dot name) as (h, t) eqn:E. destruct S as (-> & Ht & Hh). split.
  - intros H. destruct h as [|c h0]; [discriminate|]. destruct (all_eqb dot (c :: h0)) eqn:E3; [discriminate|]. apply cons_inj in H. destruct H as (_ & <-).
    destruct Hh as [Hh|(s & Hh)]; [discriminate|]. rewrite Hh in *. exists s. rewrite <- app_assoc. split; [reflexivity|]. split; [exact Ht|].
    assert (~ Forall (fun y => y = dot) s) as N.
    { intros N. assert (all_eqb dot (s ++ [dot]) = true); [|congruence]. apply all_eqb_spec. apply Forall_app. split; [exact N|]. now constructor. }
    clear -N. induction s as [|d s IH]; [exfalso; now apply N|]. destruct (Ascii.eqb_spec d dot) as [->|Hc].
    + destruct IH as (d & H1 & H2); [intros X; apply N; now constructor|]. exists d. split; [now right|exact H2].
    + exists d. split; [now left|exact Hc].
  - intros (s & H1 & H2 & c & H3 & H4).
    assert (split_last dot (h ++ t) = (s ++ [dot], x)) as E'.
    { rewrite H1. change (s ++ dot :: x) with (s ++ [dot] ++ x). rewrite app_assoc. apply split_last_app; [exact H2|]. right. now exists s. }
    rewrite E in E'. apply pair_equal_spec in E'. destruct E' as (-> & ->).
    assert (all_eqb dot (s ++ [dot]) = false) as ->.
    { destruct (all_eqb dot (s ++ [dot])) eqn:A; [|reflexivity]. apply all_eqb_spec in A. apply Forall_app in A. destruct A as (A & _).
      rewrite Forall_forall in A. now elim H4; apply A. }
    destruct s; [destruct H3|reflexivity].
Qed.

Lemma sample_name_ext name rest : ~ In slash name -> sample_name name rest <-> splitext_ext name = of_string ".samp" ++ rest.
Proof.
  intros NS. change (of_string ".samp" ++ rest) with (dot :: of_string "samp" ++ rest). rewrite (ext_of_name name NS). unfold sample_name. split.
  - intros (stem & -> & H1 & H2). exists stem. split; [reflexivity|]. split; [|exact H2]. intros X. apply in_app_iff in X. destruct X as [X|X]; [|auto].
    cbn in X. repeat (destruct X as [X|X]; [discriminate|]). exact X.
  - intros (stem & -> & H1 & H2). exists stem. split; [reflexivity|]. split; [|exact H2]. intros X. apply H1. apply in_app_iff. now right.
Qed.
Lemma is_sample_spec name : ~ In slash name ->
  bytes_eqb (firstn 5 (splitext_ext name)) (of_string ".samp") = true <-> exists rest, sample_name name rest.
Proof.
  intros NS. rewrite bytes_eqb_eq. split.
  - intros H. exists (skipn 5 (splitext_ext name)). apply (sample_name_ext _ _ NS). rewrite <- H. symmetry. apply firstn_skipn.
  - intros (rest & H). apply (sample_name_ext _ _ NS) in H. now rewrite H.
Qed.

Lemma has_slash fn : dirname fn <> [] <-> In slash fn.
Proof.
  unfold dirname, path_split. pose proof (split_last_spec slash fn) as S. destruct (split_last slash fn) as (h, t). destruct S as (-> & Ht & Hh). cbn [fst].
  assert (forall s, rstrip slash s = [] -> Forall (fun y => y = slash) s) as R.
  { destruct s; [constructor|]. cbn [rstrip]. destruct (all_eqb slash (b :: s)) eqn:E; [|discriminate]. intros _. now apply all_eqb_spec. }
  split.
  - intros H. destruct Hh as [->|(s & ->)]; [now elim H|]. apply in_app_iff. left. apply in_app_iff. right. now left.
  - intros H X. apply in_app_iff in H. destruct H as [H|H]; [|auto]. destruct (all_eqb slash h) eqn:E; [now subst h|].
    apply R in X. apply all_eqb_spec in X. congruence.
Qed.

Lemma digit_spec c : digitc c = true <-> digit c.
Proof. apply digit_in. Qed.

(** What follows '.samp' names a lod exactly when both digits are read. *)
Lemma first_us rest : In "_"%char rest -> exists a b, rest = a ++ "_"%char :: b /\ ~ In "_"%char a.
Proof.
  induction rest as [|c r IH]; intros H; [destruct H|]. destruct (Ascii.eqb_spec c "_"%char) as [->|Hc]; [exists [], r; auto|].
  destruct H as [H|H]; [congruence|]. destruct (IH H) as (a & b & -> & N). exists (c :: a), b. split; [reflexivity|]. intros [X|X]; auto.
Qed.
Lemma no_us a : ~ In "_"%char a -> ~ In "_"%char (of_string ".samp" ++ a).
Proof. intros N X. apply in_app_iff in X. destruct X as [X|X]; [|auto]. cbn in X. repeat (destruct X as [X|X]; [discriminate|]). exact X. Qed.
(** The second piece of the split, up to its second character. *)
Lemma piece_one rest a b : rest = a ++ "_"%char :: b -> ~ In "_"%char a ->
  exists s, nth_error (split "_"%char (of_string ".samp" ++ rest)) 1 = Some s /\
    (s = b \/ exists t, b = s ++ "_"%char :: t) /\ ~ In "_"%char s.
Proof.
  intros -> N. rewrite app_assoc, split_cons by now apply no_us. cbn [nth_error].
  destruct (in_dec ascii_dec "_"%char b) as [I|I].
  - destruct (first_us b I) as (x & y & -> & Nx). rewrite split_cons by exact Nx. exists x. cbn. eauto.
  - rewrite split_one by exact I. exists b. cbn. auto.
Qed.
Definition digits_ok (rest : bytes) : Prop := (exists g, sample_digit (of_string ".samp" ++ rest) 0 = Ok g) /\ exists l, sample_digit (of_string ".samp" ++ rest) 1 = Ok l.
Lemma digit_not_us c : digit c -> c <> "_"%char.
Proof. intros H ->. cbn in H. repeat (destruct H as [H|H]; [discriminate|]). exact H. Qed.
Lemma digits_spec rest : digits_ok rest <->
  exists a g l b, rest = a ++ "_"%char :: g :: l :: b /\ ~ In "_"%char a /\ digit g /\ digit l.
Proof.
  unfold digits_ok, sample_digit. split.
  - intros ((g0 & H1) & l0 & H2). destruct (in_dec ascii_dec "_"%char rest) as [I|I].
    + destruct (first_us _ I) as (a & b & E & N). destruct (piece_one rest a b E N) as (s & P & Q & Ns). rewrite P in *.
      unfold char_at in *. destruct s as [|g [|l s']]; [discriminate|discriminate|]. cbn in H1, H2. unfold int_char in *.
      destruct (digitc g) eqn:Dg; [|discriminate]. destruct (digitc l) eqn:Dl; [|discriminate].
      apply digit_spec in Dg. apply digit_spec in Dl.
      destruct Q as [<-|(t & ->)]; eauto 10. exists a, g, l, (s' ++ "_"%char :: t). rewrite E. auto.
    + rewrite split_one in H1 by now apply no_us. discriminate.
  - intros (a & g & l & b & E & N & Dg & Dl). destruct (piece_one rest a _ E N) as (s & P & Q & Ns). rewrite P. unfold char_at, int_char.
    assert (exists s', s = g :: l :: s') as (s' & ->).
    { destruct Q as [-> | (t & Q)]; [eauto|]. destruct s as [|x [|y s']].
      - cbn in Q. apply cons_inj in Q. destruct Q as (-> & _). now elim (digit_not_us _ Dg).
      - cbn in Q. apply cons_inj in Q. destruct Q as (_ & Q). apply cons_inj in Q. destruct Q as (-> & _). now elim (digit_not_us _ Dl).
      - cbn in Q. apply cons_inj in Q. destruct Q as (-> & Q). apply cons_inj in Q. destruct Q as (-> & Q). eauto. }
    apply digit_spec in Dg. apply digit_spec in Dl. cbn. rewrite Dg, Dl. eauto.
Qed.
Lemma sample_digit_raises ext i e : sample_digit ext i = Raise e -> e = EIndex \/ e = EValue.
Proof.
  unfold sample_digit, char_at, int_char. destruct (nth_error (split _ ext) 1) as [s|]; [|let H := fresh in intros H; inversion H; auto].
  destruct (@nth_error byte s i) as [c|]; cbn [bind]; [|let H := fresh in intros H; inversion H; auto]. destruct (digitc c); [discriminate|let H := fresh in intros H; inversion H; auto].
Qed.

Lemma load_sample_raises f fn : exists e, load_sample f fn = Raise e.
Proof. unfold load_sample. destruct (open_rb f fn); cbn; eauto. Qed.
Lemma one_sample f dir name rest : ~ In slash name -> sample_name name rest -> exists e, sample_of_name f dir name = Raise e /\
  (names_lod rest -> Raise e = load_sample f (path_join dir name)) /\ (~ names_lod rest -> e = EIndex \/ e = EValue).
Proof.
  intros NS S. unfold sample_of_name. pose proof (proj2 (is_sample_spec name NS) (ex_intro _ rest S)) as ->.
  apply (sample_name_ext _ _ NS) in S. rewrite S. destruct (load_sample_raises f (path_join dir name)) as (e & L).
  assert (bytes_eqb (of_string ".samp" ++ rest) (of_string ".samples") = true <-> rest = of_string "les") as K.
  { rewrite bytes_eqb_eq. change (of_string ".samples") with (of_string ".samp" ++ of_string "les"). split; [apply app_inv_head|now intros ->]. }
  destruct (bytes_eqb (of_string ".samp" ++ rest) (of_string ".samples")).
  { exists e. split; [exact L|]. split; [auto|]. intros N. elim N. left. now apply K. }
  pose proof (digits_spec rest) as D. unfold digits_ok in D.
  destruct (sample_digit (of_string ".samp" ++ rest) 0) as [g|e0] eqn:E0; cbn [bind].
  2: { exists e0. split; [reflexivity|]. split; [|intros _; exact (sample_digit_raises _ _ _ E0)]. intros [X|X]; [apply K in X; discriminate|].
       apply D in X. destruct X as ((x & X) & _). discriminate. }
  destruct (sample_digit (of_string ".samp" ++ rest) 1) as [l|e1] eqn:E1; cbn [bind].
  2: { exists e1. split; [reflexivity|]. split; [|intros _; exact (sample_digit_raises _ _ _ E1)]. intros [X|X]; [apply K in X; discriminate|].
       apply D in X. destruct X as (_ & (x & X)). discriminate. }
  exists e. split; [exact L|]. split; [auto|]. intros N. elim N. right. apply D. eauto.
Qed.
Lemma no_sample f dir name : ~ In slash name -> ~ (exists rest, sample_name name rest) -> sample_of_name f dir name = Ok tt.
Proof.
  intros NS N. unfold sample_of_name. destruct (bytes_eqb (firstn 5 (splitext_ext name)) (of_string ".samp")) eqn:E; [|reflexivity].
  now apply (is_sample_spec name NS) in E.
Qed.
Lemma no_samples f dir names more : (forall n, In n names -> ~ In slash n) -> (forall n rest, In n names -> ~ sample_name n rest) ->
  samples_of_names f dir (names ++ more) = samples_of_names f dir more.
Proof.
  induction names as [|n t IH]; intros NS N; [reflexivity|]. cbn. rewrite no_sample; cbn.
  - apply IH; intros; [apply NS|apply N]; now right.
  - apply NS. now left.
  - intros (rest & X). apply (N n rest); [now left|exact X].
Qed.

Section Load.
Context {F : Type} (p : plat) (u : Z -> F).
Theorem samples_ok f fn names m : (forall n, In n names -> ~ In slash n) ->
  load_with_samples p u f fn names = Ok m <->
  old_load_mesh p u f fn = Ok m /\ In slash fn /\ forall n rest, In n names -> ~ sample_name n rest.
Proof.
  intros NS. unfold load_with_samples. rewrite <- has_slash. destruct (old_load_mesh p u f fn) as [m0|e]; cbn; [|split; [discriminate|intros ([=] & _)]].
  destruct (dirname fn) as [|d0 dr] eqn:D; [split; [discriminate|now intros (_ & X & _)]|]. split.
  - intros H. destruct (samples_of_names f (d0 :: dr) names) eqn:E; [|discriminate]. split; [exact H|]. split; [discriminate|].
    clear -E NS. induction names as [|n t IH]; intros n' rest I S; [destruct I|]. cbn in E.
    destruct I as [-> | I].
    + destruct (one_sample f (d0 :: dr) n' rest (NS _ (or_introl eq_refl)) S) as (e & X & _). rewrite X in E. discriminate.
    + destruct (sample_of_name f (d0 :: dr) n); [|discriminate]. exact (IH (fun x Hx => NS x (or_intror Hx)) E n' rest I S).
  - intros (H & _ & N). rewrite <- (app_nil_r names), no_samples by assumption. exact H.
Qed.
Theorem samples_raise f fn before name after rest m : (forall n, In n (before ++ name :: after) -> ~ In slash n) ->
  old_load_mesh p u f fn = Ok m -> In slash fn -> (forall n r, In n before -> ~ sample_name n r) -> sample_name name rest ->
  exists e, load_with_samples p u f fn (before ++ name :: after) = Raise e /\
    (names_lod rest -> Raise e = (do _ <- open_rb f (path_join (dirname fn) name); @Raise unit EName)) /\
    (~ names_lod rest -> e = EIndex \/ e = EValue).
Proof.
  intros NS L H N S. unfold load_with_samples. rewrite L. cbn [bind]. apply has_slash in H. destruct (dirname fn) as [|d0 dr] eqn:D; [congruence|].
  destruct (one_sample f (d0 :: dr) name rest) as (e & E & A & B); [apply NS, in_app_iff; right; now left|exact S|].
  exists e. rewrite no_samples; [|intros n I; apply NS, in_app_iff; now left|exact N]. cbn. rewrite E. auto.
Qed.
Theorem samples_no_dir f fn names m : old_load_mesh p u f fn = Ok m -> ~ In slash fn -> load_with_samples p u f fn names = Raise EFileNotFound.
Proof.
  intros L N. unfold load_with_samples. rewrite L. cbn. destruct (dirname fn) eqn:D; [reflexivity|]. elim N. apply has_slash. rewrite D. discriminate.
Qed.
End Load.
Theorem samples_short {F} p (u : Z -> F) bs e :
  (read_sample p u bs = Raise e <-> e = EStruct /\ (length bs < match long_sz p with Long4 => 28 | Long8 => 32 end)%nat) /\
  (read_face p u bs = Raise e <-> e = EStruct /\ (length bs < 72)%nat).
Proof.
  split; [|apply needs_raises, face_needs]. rewrite (needs_raises _ _ (sample_needs p u) bs e). unfold long_bytes. now destruct (long_sz p).
Qed.
