(** The scripts box_modify.py and mesh_order_fix.py. *)
From Coq Require Import ZArith List Bool Lia.
From Verif Require Import PyBase Struct Mesh Arith Edit OldEdit Trans Scripts Spec SpecEdit SpecOldEdit SpecTrans DivFacts TravFacts VertFacts
  LayoutFacts Old OldEditFacts TransFacts DeleteFacts.
Import ListNotations.
Open Scope Z_scope.
Open Scope res_scope.

Section ScriptFacts.
Context {F : Type}.
Implicit Types (m : mesh F).

Lemma int_div_vs m vs : vertformat m <> 0 -> vertstride m = Z.of_nat vs * vertformat m -> Z.of_nat vs <= 2 ^ 53 ->
  py_int_div (vertstride m) (vertformat m) = Ok (Z.of_nat vs).
Proof. intros Hf -> H. apply int_div_exact; lia. Qed.
Lemma int_div_len n vs : (0 < vs)%nat -> 0 <= n -> n * Z.of_nat vs <= 2 ^ 53 -> py_int_div (n * Z.of_nat vs) (Z.of_nat vs) = Ok n.
Proof. intros Hv Hn H. apply int_div_exact; nia. Qed.

(** ** remove_vertice_id *)
Section RemoveVertex.
Context (vs : nat) (m : mesh F).
Hypothesis (Hvs : (0 < vs)%nat) (Hf : vertformat m <> 0) (HS : vertstride m = Z.of_nat vs * vertformat m).
Hypothesis (HN : zlen (vertices m) = vertnum m * Z.of_nat vs) (HB : zlen (vertices m) <= 2 ^ 53) (HV : Z.of_nat vs <= 2 ^ 53).

Lemma vertnum_nonneg : 0 <= vertnum m.
Proof. unfold zlen in HN. nia. Qed.

Theorem remove_few id : vertnum m <= 24 -> remove_vertice_id m id = (m, None).
Proof.
  intros H. unfold remove_vertice_id. destruct (Z.ltb_spec 24 (vertnum m)); [lia|].
  rewrite (int_div_vs m vs) by assumption. cbn [bind]. rewrite HN, int_div_len by (assumption || apply vertnum_nonneg || lia).
  f_equal. now destruct m.
Qed.

Theorem remove_24 id : 24 < vertnum m -> exists m', remove_vertice_id m id = (m', None) /\
  same_header m m' /\ geoms m' = geoms m /\ index m' = index m /\ indexnum m' = indexnum m /\
  vertnum m' = vertnum m - 1 /\ zlen (vertices m') = vertnum m' * Z.of_nat vs /\
  forall j, block vs (vertices m') j = block vs (vertices m) (if (j <? 24)%nat then j else S j).
Proof.
  intros H. unfold remove_vertice_id. destruct (Z.ltb_spec 24 (vertnum m)); [|lia].
  rewrite (int_div_vs m vs) by assumption. cbn [bind].
  set (x := firstn (24 * vs) (vertices m)). set (y := firstn vs (skipn (24 * vs) (vertices m))). set (z := skipn (25 * vs) (vertices m)).
  assert (vertices m = x ++ y ++ z) as E.
  { unfold x, y, z. rewrite <- (firstn_skipn (24 * vs) (vertices m)) at 1. f_equal.
    rewrite <- (firstn_skipn vs (skipn (24 * vs) (vertices m))) at 1. f_equal. rewrite skipn_skipn'. f_equal. lia. }
  assert (length x = 24 * vs)%nat as Lx by (unfold x; rewrite firstn_length; unfold zlen in HN; nia).
  assert (length y = vs)%nat as Ly by (unfold y; rewrite firstn_length, skipn_length; unfold zlen in HN; nia).
  assert (zlen z = (vertnum m - 25) * Z.of_nat vs) as Lz.
  { rewrite E in HN. unfold zlen in *. rewrite !app_length in HN. nia. }
  clearbody x y z.
  assert (py_del_slice (vertices m) (24 * Z.of_nat vs) (24 * Z.of_nat vs + Z.of_nat vs) = x ++ z) as ->.
  { rewrite E. apply del_slice_mid; unfold zlen; lia. }
  assert (zlen (x ++ z) = (vertnum m - 1) * Z.of_nat vs) as L by (unfold zlen in *; rewrite app_length; nia).
  rewrite L, int_div_len by (try assumption; nia).
  eexists. split; [reflexivity|]. split; [repeat split|]. do 4 (split; [reflexivity|]). split; [exact L|].
  intros j. cbn [vertices set_counts set_vertices]. apply nth_ext_error. intros c. rewrite E.
  destruct (Nat.ltb_spec c vs) as [Hc|Hc].
  - rewrite !nth_block by exact Hc. destruct (Nat.ltb_spec j 24).
    + rewrite !nth_error_app1 by (try rewrite Lx; nia). reflexivity.
    + rewrite nth_error_app2 by (rewrite Lx; nia). rewrite nth_error_app2 by (rewrite Lx; nia). rewrite nth_error_app2 by (rewrite Lx, Ly; nia).
      f_equal. rewrite Lx, Ly. nia.
  - unfold block. rewrite !(proj2 (nth_error_None _ _)); [reflexivity| |]; rewrite firstn_length; lia.
Qed.

Lemma tiles_last a l b : tiles a l b -> a < b -> exists p, In p l /\ fst p + snd p = b.
Proof.
  revert a. induction l as [|(s, n) t IH]; intros a; cbn [tiles]; [lia|]. intros (-> & Hn & T) H.
  destruct (Z_lt_dec (a + n) b) as [H1|H1].
  - destruct (IH _ T H1) as (p & Hp & E). exists p. split; [now right|exact E].
  - exists (a, n). split; [now left|]. cbn. apply tiles_le in T. lia.
Qed.
Theorem remove_not_in_range id m' : packed vs m -> 24 < vertnum m -> remove_vertice_id m id = (m', None) -> ~ in_range vs m'.
Proof.
  intros ((n & Ln & T) & _) H E (_ & R). destruct (remove_24 id H) as (m1 & E1 & _ & EG & _ & _ & EN & EL & _).
  rewrite E in E1. injection E1 as <-. assert (n = vertnum m) as -> by nia.
  destruct (tiles_last _ _ _ T) as (p & Hp & Ep); [lia|]. apply in_map_iff in Hp. destruct Hp as (mt & <- & Hm). cbn in Ep.
  rewrite Forall_forall in R. unfold mats in R. rewrite EG in R. destruct (R mt Hm) as (_ & _ & B & _). nia.
Qed.
End RemoveVertex.

(** ** replace_index_id *)
Theorem replace_index_ok m a b l : index m = Tuple l -> exists m' l', replace_index_id m a b = (m', None) /\
  same_header m m' /\ same_counts m m' /\ geoms m' = geoms m /\ vertices m' = vertices m /\ index m' = Tuple l' /\
  length l' = length l /\ forall k i, nth_error l k = Some i -> nth_error l' k = Some (if i =? 24 then 14 else i).
Proof.
  intros E. unfold replace_index_id. rewrite E. do 2 eexists. split; [reflexivity|]. split; [repeat split|]. split; [split; reflexivity|].
  do 2 (split; [reflexivity|]). split; [reflexivity|]. split; [apply map_length|]. intros k i H. rewrite nth_error_map, H. reflexivity.
Qed.

(** ** remove_attribute *)
Definition cut (s w : nat) (b : list F) : list F := firstn s b ++ skipn (s + w) b.

Lemma del_numbers_ok vs s w : (s + w <= vs)%nat -> forall bs tl, Forall (fun b => length b = vs) bs ->
  del_numbers (concat bs ++ tl) (zlen bs) (Z.of_nat s) (Z.of_nat w) (Z.of_nat vs) = concat (map (cut s w) bs) ++ tl.
Proof.
  intros Hs. induction bs as [|b bs IH] using rev_ind; intros tl HL; [reflexivity|].
  apply Forall_app in HL. destruct HL as (HL & Hb). inversion Hb as [|? ? Lb _]; subst.
  unfold del_numbers, zrange, zlen. rewrite app_length. cbn [length]. rewrite Nat2Z.id, Nat.add_1_r, seq_S, map_app, rev_app_distr.
  cbn [map rev app fold_left]. rewrite concat_app. cbn [concat]. rewrite app_nil_r.
  replace ((concat bs ++ b) ++ tl) with ((concat bs ++ firstn s b) ++ firstn w (skipn s b) ++ (skipn (s + w) b ++ tl)).
  - assert (length (concat bs) = (length bs * length b)%nat) as LC by (apply concat_length_const; exact HL).
    rewrite del_slice_mid; [|unfold zlen; rewrite app_length, LC, firstn_length; rewrite Nat.min_l by lia; cbn [Nat.add]; lia|
      unfold zlen; rewrite firstn_length, skipn_length; rewrite Nat.min_l by lia; reflexivity].
    rewrite <- app_assoc. specialize (IH (firstn s b ++ skipn (s + w) b ++ tl) HL).
    unfold del_numbers, zrange, zlen in IH. rewrite Nat2Z.id in IH. rewrite IH, map_app, concat_app. cbn [map concat]. unfold cut at 3.
    now rewrite app_nil_r, <- !app_assoc.
  - rewrite <- !app_assoc. f_equal. rewrite !app_assoc. f_equal. rewrite <- (firstn_skipn s b) at 4. rewrite <- app_assoc. f_equal.
    rewrite <- (firstn_skipn w (skipn s b)) at 2. f_equal. now rewrite skipn_skipn'.
Qed.

Definition moved_attrib m (w : nat) (b : vertattrib) : vertattrib :=
  if (attrib_start m b =? 0)%nat then b else set_offset b (offset b - Z.of_nat w * vertformat m).

Lemma declared_moved f (w : nat) (mv : vertattrib -> vertattrib) vs l :
  (forall b, In b l -> vartype (mv b) = vartype b /\ offset (mv b) = offset b - Z.of_nat w * f) ->
  forall o, declared f (o + w) l vs -> declared f o (map mv l) (vs - w).
Proof.
  induction l as [|b t IH]; intros HI o D.
  - inversion D; subst. replace (o + w - w)%nat with o by lia. constructor.
  - inversion D as [|? ? k ? ? H1 H2 D']; subst. cbn [map]. destruct (HI b (or_introl eq_refl)) as (Et & Eo).
    apply (declared_cons _ _ _ k); [now rewrite Et| |].
    + rewrite Eo, H2. lia.
    + apply IH; [intros x Hx; apply HI; now right|]. now replace (o + k + w)%nat with (o + w + k)%nat by lia.
Qed.

Section RemoveAttrib.
Context (vs : nat) (m : mesh F) (u : Z) (A B : list vertattrib) (a : vertattrib) (w : nat).
Hypothesis (C : canonical vs m) (K4 : Forall (fun b => vartype b <> 3) (vertex_attributes m)).
Hypothesis (EA : vertex_attributes m = A ++ a :: B) (Ha : in_use a = true) (Hu : usage a = u) (Hw : In (vartype a, w) old_widths).
Hypothesis (HO : Forall (fun b => usage b <> u) (A ++ B)).

Lemma type_len_known b : old_known b -> vartype b <> 3 -> exists n, old_type_len (vartype b) = Ok n.
Proof.
  intros (H & _) H3. cbn in H. repeat match goal with H : _ \/ _ |- _ => destruct H as [H|H] end; try contradiction; rewrite <- H in *; try congruence; eexists; reflexivity.
Qed.
Lemma step_head b : In b (vertex_attributes m) -> exists n, old_type_len (vartype b) = Ok n /\
  (if negb (known_usage (usage b)) then Raise EValue
   else do o <- py_int_div (offset b) (vertformat m);
        if negb (old_known_type (vartype b)) then Raise EValue
        else do n <- old_type_len (vartype b); Ok (o, n)) = Ok (Z.of_nat (attrib_start m b), n).
Proof.
  intros H. pose proof (can_short _ _ C) as (Hf & Hs). pose proof (can_known _ _ C) as K. rewrite Forall_forall in Hs, K, K4.
  destruct (type_len_known b (K b H) (K4 b H)) as (n & E). exists n. split; [exact E|].
  destruct (old_known_ok b (K b H)) as (-> & ->). rewrite (attrib_start_div m b Hf (Hs b H)). cbn [negb bind]. now rewrite E.
Qed.
Lemma Hw_pos : (0 < w)%nat.
Proof.
  pose proof Hw as X. cbn in X. repeat match goal with H : _ \/ _ |- _ => destruct H as [H|H] end; try contradiction; apply (f_equal snd) in X; cbn in X; lia.
Qed.
Lemma a_in : In a (vertex_attributes m).
Proof. rewrite EA. apply in_or_app. right. now left. Qed.
Lemma a_part : (attrib_start m a + w <= vs)%nat.
Proof.
  pose proof (can_parts m vs C) as P. rewrite Forall_forall in P. destruct (P a) as (_ & H); [apply filter_In; split; [apply a_in|exact Ha]|].
  destruct (old_widths_len a w Hw) as (_ & _ & <-). exact H.
Qed.

Lemma steps_before vl size l i : forall X, incl X (vertex_attributes m) -> Forall (fun b => usage b <> u) X ->
  fold_mut_from (remove_step vl m size u) i (l, 0, 0%nat) X = ((l, 0, 0%nat), X, None).
Proof.
  intros X. revert i. induction X as [|b t IH]; intros i HI HX; [reflexivity|]. inversion HX; subst. cbn [fold_mut_from].
  unfold remove_step at 1. destruct (step_head b) as (n & _ & ->); [apply HI; now left|].
  destruct (Z.eqb_spec (usage b) (usage a)); [contradiction|]. cbn [andb negb Z.eqb].
  rewrite IH; [reflexivity|intros x Hx; apply HI; now right|assumption].
Qed.
Lemma steps_after vl size l k i : forall X, incl X (vertex_attributes m) -> Forall (fun b => usage b <> u) X ->
  fold_mut_from (remove_step vl m size u) i (l, Z.of_nat w * vertformat m, k) X = ((l, Z.of_nat w * vertformat m, k), map (moved_attrib m w) X, None).
Proof.
  intros X. revert i. induction X as [|b t IH]; intros i HI HX; [reflexivity|]. inversion HX; subst. cbn [fold_mut_from].
  unfold remove_step at 1. destruct (step_head b) as (n & _ & ->); [apply HI; now left|].
  destruct (Z.eqb_spec (usage b) (usage a)); [contradiction|]. cbn [andb].
  pose proof (can_format m vs C). pose proof Hw_pos. destruct (Z.eqb_spec (Z.of_nat w * vertformat m) 0); [nia|]. cbn [negb andb].
  rewrite IH; [|intros x Hx; apply HI; now right|assumption]. cbn [map]. do 2 f_equal. unfold moved_attrib.
  destruct (Nat.eqb_spec (attrib_start m b) 0) as [->|]; [reflexivity|]. destruct (Z.eqb_spec (Z.of_nat (attrib_start m b)) 0); [lia|reflexivity].
Qed.

Definition cut_vertices : list F := concat (map (fun j => cut (attrib_start m a) w (block vs (vertices m) j)) (seq 0 (Z.to_nat (vertnum m)))).
Lemma all_blocks : vertices m = concat (map (block vs (vertices m)) (seq 0 (Z.to_nat (vertnum m)))) /\
  Forall (fun b => length b = vs) (map (block vs (vertices m)) (seq 0 (Z.to_nat (vertnum m)))).
Proof.
  pose proof (can_vertnum _ _ C) as N. pose proof (can_size _ _ C). assert (0 <= vertnum m) by (unfold zlen in N; nia).
  assert (length (vertices m) = Z.to_nat (vertnum m) * vs)%nat as L by (unfold zlen in N; nia). split.
  - rewrite concat_blocks. cbn [Nat.mul skipn]. rewrite <- L. symmetry. apply firstn_all.
  - apply Forall_map, Forall_forall. intros j Hj. apply in_seq in Hj. apply block_length. nia.
Qed.
Lemma removed_numbers : del_numbers (vertices m) (vertnum m) (Z.of_nat (attrib_start m a)) (Z.of_nat w) (Z.of_nat vs) = cut_vertices.
Proof.
  pose proof (can_vertnum _ _ C) as N. pose proof (can_size _ _ C). assert (0 <= vertnum m) by (unfold zlen in N; nia).
  destruct all_blocks as (E & L). pose proof (del_numbers_ok vs (attrib_start m a) w a_part _ [] L) as D. rewrite !app_nil_r, <- E in D.
  unfold zlen in D. rewrite map_length, seq_length, Z2Nat.id in D by assumption. rewrite D, map_map. reflexivity.
Qed.

Lemma incl_A : incl A (vertex_attributes m).
Proof. rewrite EA. intros x Hx. apply in_or_app. now left. Qed.
Lemma incl_B : incl B (vertex_attributes m).
Proof. rewrite EA. intros x Hx. apply in_or_app. right. now right. Qed.
Lemma fold_mut_from_app {X S} (f : nat -> S -> X -> S * X * option exn) l1 l2 : forall i s s' l1',
  fold_mut_from f i s l1 = (s', l1', None) ->
  fold_mut_from f i s (l1 ++ l2) = let '(s'', l2', o) := fold_mut_from f (i + length l1) s' l2 in (s'', l1' ++ l2', o).
Proof.
  induction l1 as [|x t IH]; intros i s s' l1' H; cbn [fold_mut_from app length] in *.
  - injection H as <- <-. rewrite Nat.add_0_r. now destruct (fold_mut_from f i s l2) as ((? & ?) & ?).
  - destruct (f i s x) as ((s1, x'), [e|]); [discriminate|]. destruct (fold_mut_from f (Datatypes.S i) s1 t) as ((s2, t'), o) eqn:E.
    injection H as <- <- ->. rewrite (IH _ _ _ _ E). replace (Datatypes.S i + length t)%nat with (i + Datatypes.S (length t))%nat by lia.
    now destruct (fold_mut_from f (i + Datatypes.S (length t)) s2 l2) as ((? & ?) & ?).
Qed.

Lemma loop_run : fold_mut (remove_step true m (Z.of_nat vs) u) (vertices m, 0, 0%nat) (vertex_attributes m) =
  ((cut_vertices, Z.of_nat w * vertformat m, length A), A ++ moved_attrib m w a :: map (moved_attrib m w) B, None).
Proof.
  pose proof (proj1 (Forall_app _ _ _) HO) as (HA & HB). unfold fold_mut. rewrite EA.
  rewrite (fold_mut_from_app _ _ _ _ _ _ _ (steps_before true (Z.of_nat vs) (vertices m) 0 A incl_A HA)). cbn [Nat.add fold_mut_from].
  unfold remove_step at 1. destruct (step_head a a_in) as (n & En & ->). destruct (old_widths_len a w Hw) as (En' & _ & _).
  rewrite En in En'. injection En' as ->. rewrite Hu, Z.eqb_refl. cbn [andb negb]. rewrite andb_false_r, removed_numbers.
  rewrite steps_after by (assumption || apply incl_B). do 3 f_equal. unfold moved_attrib.
  pose proof (can_format m vs C). pose proof Hw_pos. destruct (Z.eqb_spec (Z.of_nat w * vertformat m) 0); [nia|]. cbn [negb andb].
  destruct (Nat.eqb_spec (attrib_start m a) 0) as [->|]; [reflexivity|]. destruct (Z.eqb_spec (Z.of_nat (attrib_start m a)) 0); [lia|reflexivity].
Qed.
Lemma size_run : py_int_div (vertstride m) (vertformat m) = Ok (Z.of_nat vs).
Proof. apply int_div_vs; [pose proof (can_format m vs C); lia|apply (can_stride _ _ C)|pose proof (vs_small m vs C); lia]. Qed.

Definition removed : mesh F :=
  set_attribs (set_vertices m cut_vertices) (zlen (A ++ B)) (A ++ map (moved_attrib m w) B) (vertstride m - Z.of_nat w * vertformat m).
Theorem remove_run : A <> [] -> remove_attribute true m u = (removed, None).
Proof.
  intros HA. unfold remove_attribute. rewrite size_run, loop_run. destruct (length A) as [|k] eqn:EL; [now destruct A|]. rewrite <- EL.
  assert (nth_res (A ++ moved_attrib m w a :: map (moved_attrib m w) B) (length A) = Ok (moved_attrib m w a)) as ->.
  { unfold nth_res. rewrite nth_error_app2, Nat.sub_diag by lia. reflexivity. }
  cbn [bind]. assert (vartype (moved_attrib m w a) = vartype a) as -> by (unfold moved_attrib; now destruct (_ =? _)%nat).
  destruct (old_widths_len a w Hw) as (-> & _ & _).
  assert (del_nth (A ++ moved_attrib m w a :: map (moved_attrib m w) B) (length A) = A ++ map (moved_attrib m w) B) as ->.
  { unfold del_nth. rewrite firstn_app, Nat.sub_diag, firstn_all, firstn_O, app_nil_r. f_equal.
    rewrite skipn_app, skipn_all2 by lia. now replace (S (length A) - length A)%nat with 1%nat by lia. }
  assert (zlen (A ++ map (moved_attrib m w) B) = zlen (A ++ B)) as -> by (unfold zlen; now rewrite !app_length, map_length). reflexivity.
Qed.
Theorem remove_first_run : A = [] -> remove_attribute true m u =
  (set_attribs (set_vertices m cut_vertices) (vertattribnum m) (moved_attrib m w a :: map (moved_attrib m w) B) (vertstride m), None).
Proof. intros HA. unfold remove_attribute. rewrite size_run, loop_run. subst A. reflexivity. Qed.
Theorem remove_tuple : 0 < vertnum m -> remove_attribute false m u = (m, Some EType).
Proof.
  intros HV. pose proof (proj1 (Forall_app _ _ _) HO) as (HA & HB). unfold remove_attribute. rewrite size_run. unfold fold_mut. rewrite EA.
  rewrite (fold_mut_from_app _ _ _ _ _ _ _ (steps_before false (Z.of_nat vs) (vertices m) 0 A incl_A HA)). cbn [Nat.add fold_mut_from].
  unfold remove_step at 1. destruct (step_head a a_in) as (n & En & ->). rewrite Hu, Z.eqb_refl. cbn [andb negb].
  destruct (Z.ltb_spec 0 (vertnum m)); [|lia]. cbn [andb]. rewrite <- EA. f_equal. now destruct m.
Qed.

(** What becomes of the vertices. *)
Lemma cut_length b : length b = vs -> length (cut (attrib_start m a) w b) = (vs - w)%nat.
Proof. intros L. pose proof a_part. unfold cut. rewrite app_length, firstn_length, skipn_length. lia. Qed.
Lemma cut_lengths : Forall (fun b => length b = (vs - w)%nat) (map (fun j => cut (attrib_start m a) w (block vs (vertices m) j)) (seq 0 (Z.to_nat (vertnum m)))).
Proof. destruct all_blocks as (_ & L). apply Forall_map. rewrite Forall_map in L. eapply Forall_impl; [|exact L]. intros j Hj. now apply cut_length. Qed.
Lemma cut_zlen : zlen cut_vertices = vertnum m * Z.of_nat (vs - w).
Proof.
  pose proof (can_vertnum _ _ C) as N. pose proof (can_size _ _ C). assert (0 <= vertnum m) by (unfold zlen in N; nia).
  unfold zlen, cut_vertices. rewrite (concat_length_const (vs - w)) by apply cut_lengths. rewrite map_length, seq_length. nia.
Qed.
Lemma cut_block j : (j < Z.to_nat (vertnum m))%nat -> block (vs - w) cut_vertices j = cut (attrib_start m a) w (block vs (vertices m) j).
Proof.
  intros Hj. unfold cut_vertices. set (ll := map _ _). assert (nth_error ll j = Some (cut (attrib_start m a) w (block vs (vertices m) j))) as E.
  { unfold ll. rewrite nth_error_map, seq_nth_error. destruct (Nat.ltb_spec j (Z.to_nat (vertnum m))); [reflexivity|lia]. }
  assert (j < length ll)%nat as Hl by (unfold ll; now rewrite map_length, seq_length).
  pose proof (block_concat (vs - w) ll j cut_lengths Hl) as X. rewrite E in X. now injection X.
Qed.

Lemma declared_app f l1 : forall o l2 e, declared f o (l1 ++ l2) e <-> exists c, declared f o l1 c /\ declared f c l2 e.
Proof.
  induction l1 as [|x t IH]; intros o l2 e; cbn [app].
  - split; [intros D; exists o; split; [constructor|exact D]|]. intros (c & D & D'). inversion D; now subst.
  - split.
    + intros D. inversion D as [|? ? k ? ? H1 H2 D']; subst. apply IH in D'. destruct D' as (c & D1 & D2). exists c. split; [|exact D2].
      now apply (declared_cons f o x k).
    + intros (c & D & D2). inversion D as [|? ? k ? ? H1 H2 D1]; subst. apply (declared_cons f o x k); auto. apply IH. eauto.
Qed.
Lemma declared_split : exists o, declared (vertformat m) 0 (filter in_use A) o /\ attrib_start m a = o /\ offset a = vertformat m * Z.of_nat o /\
  declared (vertformat m) (o + w) (filter in_use B) vs.
Proof.
  pose proof (can_declared _ _ C) as D. rewrite EA, filter_app in D. cbn [filter] in D. rewrite Ha in D. apply declared_app in D.
  destruct D as (o & D1 & D2). inversion D2 as [|? ? k ? ? H1 H2 D3]; subst. exists o.
  destruct (old_widths_len a k H1) as (_ & _ & E1). destruct (old_widths_len a w Hw) as (_ & _ & E2). rewrite <- E1, E2 in D3.
  split; [exact D1|]. split; [|now split]. apply start_exact; [apply (can_format m vs C)|exact H2].
Qed.
Lemma before_a b : In b (filter in_use A) -> (attrib_start m b + width b <= attrib_start m a)%nat.
Proof.
  intros H. destruct declared_split as (o & D & -> & _). pose proof (declared_parts m 0 (filter in_use A) o (can_format m vs C) D) as P.
  rewrite Forall_forall in P. now destruct (P b H) as (_ & _ & L).
Qed.
Lemma after_a b : In b (filter in_use B) -> (attrib_start m a + w <= attrib_start m b)%nat.
Proof.
  intros H. destruct declared_split as (o & _ & -> & _ & D). pose proof (declared_parts m _ (filter in_use B) _ (can_format m vs C) D) as P.
  rewrite Forall_forall in P. now destruct (P b H) as (_ & L & _).
Qed.
Lemma used_width b : In b (filter in_use (A ++ B)) -> In (vartype b, width b) old_widths /\ (attrib_start m b + width b <= vs)%nat.
Proof.
  intros H. pose proof (can_parts m vs C) as P. rewrite Forall_forall in P. apply P. rewrite EA. rewrite filter_app in *. cbn [filter]. rewrite Ha.
  apply in_app_or in H. apply in_or_app. destruct H; [now left|right; now right].
Qed.

Lemma moved_after b : In b (filter in_use B) -> moved_attrib m w b = set_offset b (offset b - Z.of_nat w * vertformat m).
Proof.
  intros H. pose proof (after_a b H). pose proof Hw_pos. unfold moved_attrib. destruct (Nat.eqb_spec (attrib_start m b) 0); [lia|reflexivity].
Qed.
Lemma moved_usage b : usage (moved_attrib m w b) = usage b.
Proof. unfold moved_attrib. now destruct (_ =? _)%nat. Qed.
Lemma moved_type b : vartype (moved_attrib m w b) = vartype b.
Proof. unfold moved_attrib. now destruct (_ =? _)%nat. Qed.
Lemma moved_flag b : flag (moved_attrib m w b) = flag b.
Proof. unfold moved_attrib. now destruct (_ =? _)%nat. Qed.
Lemma moved_use b : in_use (moved_attrib m w b) = in_use b.
Proof. unfold in_use. now rewrite moved_flag. Qed.
Lemma filter_moved l : filter in_use (map (moved_attrib m w) l) = map (moved_attrib m w) (filter in_use l).
Proof. induction l as [|b t IH]; [reflexivity|]. cbn [map filter]. rewrite moved_use. destruct (in_use b); cbn [map]; now rewrite IH. Qed.
Lemma moved_start b : In b (filter in_use B) -> attrib_start removed (moved_attrib m w b) = (attrib_start m b - w)%nat.
Proof.
  intros H. rewrite (moved_after b H). pose proof (after_a b H). pose proof (can_format m vs C) as Hf. unfold attrib_start at 1.
  cbn [offset set_offset vertformat removed set_attribs set_vertices].
  replace (offset b - Z.of_nat w * vertformat m) with (offset b + (- Z.of_nat w) * vertformat m) by lia. rewrite Z.div_add by lia. unfold attrib_start. lia.
Qed.

Lemma part_before c b : length c = vs -> In b (filter in_use A) ->
  firstn (width b) (skipn (attrib_start m b) (cut (attrib_start m a) w c)) = firstn (width b) (skipn (attrib_start m b) c).
Proof.
  intros L H. pose proof (before_a b H). pose proof a_part. apply nth_ext_error. intros k. destruct (Nat.ltb_spec k (width b)).
  - rewrite !nth_firstn, !nth_skipn by assumption. unfold cut. rewrite nth_error_app1 by (rewrite firstn_length; lia). apply nth_firstn. lia.
  - rewrite !(proj2 (nth_error_None _ _)); [reflexivity| |]; rewrite firstn_length; lia.
Qed.
Lemma part_after c b : length c = vs -> In b (filter in_use B) ->
  firstn (width b) (skipn (attrib_start m b - w) (cut (attrib_start m a) w c)) = firstn (width b) (skipn (attrib_start m b) c).
Proof.
  intros L H. pose proof (after_a b H). pose proof a_part. apply nth_ext_error. intros k. destruct (Nat.ltb_spec k (width b)).
  - rewrite !nth_firstn, !nth_skipn by assumption. unfold cut. rewrite nth_error_app2 by (rewrite firstn_length; lia).
    rewrite nth_skipn, firstn_length. f_equal. lia.
  - rewrite !(proj2 (nth_error_None _ _)); [reflexivity| |]; rewrite firstn_length; lia.
Qed.

Lemma block_len j : (j < Z.to_nat (vertnum m))%nat -> length (block vs (vertices m) j) = vs.
Proof. intros Hj. destruct all_blocks as (_ & L). rewrite Forall_map, Forall_forall in L. apply L, in_seq. lia. Qed.

(** The numbers of all other attributes are what they were. *)
Theorem removed_fields j u' x : (j < Z.to_nat (vertnum m))%nat -> u' <> u -> field_of vs m j u' x -> field_of (vs - w) removed j u' x.
Proof.
  intros Hj Hu' [(b & k & (Hb & Hi & Hbu) & Hk & ->)|(N & ->)].
  - left. destruct (old_widths_len b k Hk) as (_ & _ & Ek). rewrite EA in Hb. apply in_app_or in Hb. destruct Hb as [Hb|[->|Hb]]; [|congruence|].
    + exists b, k. split; [repeat split; auto; cbn; apply in_or_app; now left|]. split; [exact Hk|].
      cbn [vertices removed set_attribs set_vertices]. rewrite cut_block by exact Hj. f_equal. change (attrib_start removed b) with (attrib_start m b).
      rewrite <- Ek. symmetry. apply part_before; [now apply block_len|]. apply filter_In. now split.
    + assert (In b (filter in_use B)) as HF by (apply filter_In; now split).
      exists (moved_attrib m w b), k. rewrite moved_type. split; [|split; [exact Hk|]].
      { split; [cbn; apply in_or_app; right; now apply in_map|]. split; [now rewrite moved_use|now rewrite moved_usage]. }
      rewrite moved_start by exact HF. cbn [vertices removed set_attribs set_vertices]. rewrite cut_block by exact Hj. f_equal.
      rewrite <- Ek. symmetry. apply part_after; [now apply block_len|exact HF].
  - right. split; [|reflexivity]. intros b (Hb & Hi & Hbu). cbn in Hb. apply in_app_or in Hb. destruct Hb as [Hb|Hb].
    + apply (N b). split; [|now split]. rewrite EA. apply in_or_app. now left.
    + apply in_map_iff in Hb. destruct Hb as (b' & <- & Hb). rewrite moved_use in Hi. rewrite moved_usage in Hbu.
      apply (N b'). split; [|now split]. rewrite EA. apply in_or_app. right. now right.
Qed.
Theorem removed_gone j : field_of (vs - w) removed j u None.
Proof.
  right. split; [|reflexivity]. intros b (Hb & Hi & Hbu). cbn in Hb. rewrite Forall_forall in HO. apply in_app_or in Hb. destruct Hb as [Hb|Hb].
  - apply (HO b); [apply in_or_app; now left|exact Hbu].
  - apply in_map_iff in Hb. destruct Hb as (b' & <- & Hb). rewrite moved_usage in Hbu. apply (HO b'); [apply in_or_app; now right|exact Hbu].
Qed.

Context (HU : Forall (fun b => in_use b = false -> offset b = 0) B) (HX : (w < vs)%nat).
Lemma moved_offset b : In b B -> offset (moved_attrib m w b) = offset b - (if in_use b then Z.of_nat w * vertformat m else 0) /\
  0 <= offset (moved_attrib m w b) <= offset b.
Proof.
  intros H. pose proof (can_short _ _ C) as (Hf & Hs). rewrite Forall_forall in Hs. specialize (Hs b (incl_B b H)). cbv beta in Hs. destruct (in_use b) eqn:E.
  - assert (In b (filter in_use B)) as HF by (apply filter_In; now split). rewrite (moved_after b HF). cbn [offset set_offset]. split; [reflexivity|].
    pose proof (after_a b HF) as HA. unfold attrib_start in HA. pose proof Hw_pos. assert (Z.of_nat w <= offset b / vertformat m) by lia.
    pose proof (Z.mul_div_le (offset b) (vertformat m) Hf). nia.
  - rewrite Forall_forall in HU. pose proof (HU b H E) as E0. unfold moved_attrib, attrib_start. rewrite E0. rewrite Z.div_0_l by lia. cbn [Z.to_nat Nat.eqb].
    rewrite E0. lia.
Qed.
Theorem removed_canonical : canonical (vs - w) removed.
Proof.
  pose proof (can_short _ _ C) as (Hf & Hs). constructor.
  - lia.
  - split; [exact Hf|]. cbn [vertex_attributes removed set_attribs]. rewrite EA in Hs. apply Forall_app in Hs. destruct Hs as (HsA & HsB).
    apply Forall_app. split; [exact HsA|]. apply Forall_map, Forall_forall. intros b Hb. pose proof (Forall_inv_tail HsB) as HsB'. rewrite Forall_forall in HsB'.
    specialize (HsB' b Hb). cbv beta in HsB'. destruct (moved_offset b Hb) as (_ & L). cbv beta. lia.
  - cbn [vertex_attributes removed set_attribs]. pose proof (can_known _ _ C) as K. rewrite EA in K. apply Forall_app in K. destruct K as (KA & KB).
    apply Forall_inv_tail in KB. apply Forall_app. split; [exact KA|]. apply Forall_map. eapply Forall_impl; [|exact KB]. intros b (K1 & K2). split.
    + now rewrite moved_type.
    + now rewrite moved_usage.
  - cbn [vertex_attributes vertformat removed set_attribs set_vertices]. rewrite filter_app, filter_moved. destruct declared_split as (o & D1 & _ & _ & D2).
    apply declared_app. exists o. split; [exact D1|].
    apply declared_moved; [|exact D2]. intros b Hb. split; [apply moved_type|]. now rewrite moved_after.
  - cbn [vertex_attributes removed set_attribs]. rewrite filter_app, filter_moved, map_app, map_map.
    rewrite (map_ext (fun b => usage (moved_attrib m w b)) usage) by (intros b; apply moved_usage). pose proof (can_usages _ _ C) as N. rewrite EA, filter_app in N. cbn [filter] in N. rewrite Ha, map_app in N.
    cbn [map] in N. now apply NoDup_remove_1 in N.
  - cbn [vertstride vertformat removed set_attribs set_vertices]. rewrite (can_stride _ _ C). rewrite Nat2Z.inj_sub by lia. ring.
  - cbn [vertices vertnum removed set_attribs set_vertices]. apply cut_zlen.
  - cbn [vertices removed set_attribs set_vertices]. rewrite cut_zlen. pose proof (can_vertnum _ _ C) as N. pose proof (can_53 _ _ C).
    assert (0 <= vertnum m) by (unfold zlen in N; pose proof (can_size _ _ C); nia). nia.
Qed.

Theorem removed_wf p : wf p m -> vertnum m * Z.of_nat (vs - w) <> 1 -> wf p removed.
Proof.
  intros (W1 & W2 & W3 & W4 & (W5 & W5') & W6 & W7 & W8 & W9 & W10 & W11 & W12 & W13) H1.
  pose proof (can_format m vs C) as Hf. pose proof cut_zlen as Z1. pose proof (can_vertnum _ _ C) as N. pose proof (can_size _ _ C). pose proof (can_53 _ _ C) as H53.
  assert (0 <= vertnum m) by (unfold zlen in N; nia). pose proof (vs_small m vs C) as V.
  assert (Z.abs (Z.of_nat (vs - w) * vertnum m) <= 2 ^ 53) as A3 by nia.
  assert (Z.abs (vertnum m) <= 2 ^ 53) as A2 by nia.
  unfold wf. cbn [m_kind m_head m_u1 geomnum geoms vertattribnum vertex_attributes vertformat vertstride vertnum vertices indexnum index m_u2 removed set_attribs set_vertices].
  split; [exact W1|]. split; [exact W2|]. split; [exact W3|]. split; [exact W4|]. split.
  { rewrite EA, app_length in W5'. cbn [length] in W5'. split; [destruct W5; split; unfold zlen; rewrite app_length; lia|]. unfold zlen. rewrite !app_length, map_length. lia. }
  split; [|split; [exact W7|split; [|split; [exact W9|split; [|split; [|split; [exact W12|exact W13]]]]]]].
  - rewrite EA in W6. apply Forall_app in W6. destruct W6 as (WA & WB). apply Forall_inv_tail in WB. apply Forall_app. split; [exact WA|].
    rewrite Forall_forall in WB. apply Forall_map, Forall_forall. intros b Hb. destruct (WB b Hb) as (B1 & B2 & B3 & B4). destruct (moved_offset b Hb) as (_ & L).
    split; [now rewrite moved_flag|]. split; [unfold is_ushort in *; lia|]. split; [now rewrite moved_type|now rewrite moved_usage].
  - pose proof (can_stride _ _ C) as S. destruct W8. split; nia.
  - rewrite (can_stride _ _ C). replace (Z.of_nat vs * vertformat m - Z.of_nat w * vertformat m) with (Z.of_nat (vs - w) * vertformat m) by (rewrite Nat2Z.inj_sub by lia; ring).
    rewrite data_num_exact; [f_equal; rewrite Z1; ring|lia|lia|exact A2|exact A3].
  - intros E. unfold zlen in Z1. rewrite E in Z1. lia.
Qed.
End RemoveAttrib.

Theorem remove_attribute_ok vs m u A B a w : canonical vs m -> Forall (fun b => vartype b <> 3) (vertex_attributes m) ->
  vertex_attributes m = A ++ a :: B -> A <> [] -> in_use a = true -> usage a = u -> In (vartype a, w) old_widths ->
  Forall (fun b => usage b <> u) (A ++ B) -> Forall (fun b => in_use b = false -> offset b = 0) B -> (w < vs)%nat ->
  exists m', remove_attribute true m u = (m', None) /\ canonical (vs - w) m' /\
    map usage (vertex_attributes m') = map usage (A ++ B) /\ map vartype (vertex_attributes m') = map vartype (A ++ B) /\
    map flag (vertex_attributes m') = map flag (A ++ B) /\ vertattribnum m' = zlen (vertex_attributes m') /\ vertnum m' = vertnum m /\
    vertformat m' = vertformat m /\ m_kind m' = m_kind m /\ m_head m' = m_head m /\ m_u1 m' = m_u1 m /\ geomnum m' = geomnum m /\
    geoms m' = geoms m /\ indexnum m' = indexnum m /\ index m' = index m /\ m_u2 m' = m_u2 m /\
    (forall j u' x, (j < Z.to_nat (vertnum m))%nat -> u' <> u -> field_of vs m j u' x -> field_of (vs - w) m' j u' x) /\
    (forall j, field_of (vs - w) m' j u None) /\
    (forall p, wf p m -> vertnum m * Z.of_nat (vs - w) <> 1 -> wf p m').
Proof.
  intros C K4 EA HA Ha Hu Hw HO HU HX. exists (removed vs m A B a w).
  split; [now apply remove_run|]. split; [now apply (removed_canonical vs m u)|].
  split; [cbn; rewrite !map_app, map_map; f_equal; apply map_ext; intros b; apply moved_usage|].
  split; [cbn; rewrite !map_app, map_map; f_equal; apply map_ext; intros b; apply moved_type|].
  split; [cbn; rewrite !map_app, map_map; f_equal; apply map_ext; intros b; apply moved_flag|].
  split; [cbn; unfold zlen; now rewrite !app_length, map_length|].
  do 10 (split; [reflexivity|]). split; [intros j u' x; now apply removed_fields|]. split; [intros j; now apply removed_gone|].
  intros p; now apply (removed_wf vs m u).
Qed.
(** The first attribute: the numbers go, the table and the stride stay. *)
Theorem remove_attribute_first vs m u B a w : canonical vs m -> Forall (fun b => vartype b <> 3) (vertex_attributes m) ->
  vertex_attributes m = a :: B -> in_use a = true -> usage a = u -> In (vartype a, w) old_widths ->
  Forall (fun b => usage b <> u) B -> 0 < vertnum m ->
  exists m', remove_attribute true m u = (m', None) /\ vertstride m' = vertstride m /\ map usage (vertex_attributes m') = map usage (vertex_attributes m) /\
    vertattribnum m' = vertattribnum m /\ vertnum m' = vertnum m /\ zlen (vertices m') = zlen (vertices m) - vertnum m * Z.of_nat w /\
    forall vs', ~ canonical vs' m'.
Proof.
  intros C K4 EA Ha Hu Hw HO Hv. eexists. split; [now apply (remove_first_run vs m u [] B a w)|]. split; [reflexivity|].
  split; [cbn; rewrite EA; cbn [map]; rewrite moved_usage, map_map; f_equal; apply map_ext; intros b; apply moved_usage|].
  do 2 (split; [reflexivity|]). pose proof (cut_zlen vs m [] B a w C EA Ha Hw) as Z1. pose proof (can_vertnum _ _ C) as N. pose proof (Hw_pos a w Hw).
  pose proof (a_part vs m [] B a w C EA Ha Hw).
  assert (zlen (cut_vertices vs m a w) = zlen (vertices m) - vertnum m * Z.of_nat w) as Z2 by (rewrite Z1, N, Nat2Z.inj_sub by lia; ring).
  split; [exact Z2|]. intros vs' C'. pose proof (can_stride _ _ C) as S1. pose proof (can_stride _ _ C') as S2. pose proof (can_vertnum _ _ C') as N'.
  cbn [vertstride vertformat vertnum vertices set_attribs set_vertices] in S2, N'. pose proof (can_format m vs C). assert (vs' = vs) by nia. subst vs'. nia.
Qed.
End ScriptFacts.
