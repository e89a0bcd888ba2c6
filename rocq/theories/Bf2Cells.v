(** Proofs about Materials.parse_settings. *)
From Coq Require Import ZArith Bool Ascii String List Lia.
From Verif Require Import PyBase Struct Mesh Arith Edit Obj MergeFacts Bf2 SpecBf2 ReFacts Bf2Facts Bf2Dirs.
Import ListNotations.
Open Scope Z_scope.

Definition digits (w : text) : Prop := Forall (fun c => In c digit_chars) w.
Lemma digits_b w : forallb digitc w = true <-> digits w.
Proof. unfold digits. rewrite forallb_forall, Forall_forall. split; intros H c Hc; apply digit_in; auto. Qed.

Section Match.
Context {X : Type}.
Implicit Types (x : X).
(** A repetition followed by a character that cannot continue it. *)
Lemma plus_sep p s (k : text -> option X) x : (forall s' y, k s' = Some y -> exists c t, s' = c :: t /\ p c = false) ->
  plus p s k = Some x <-> exists w s', s = w ++ s' /\ w <> [] /\ forallb p w = true /\ k s' = Some x.
Proof.
  intros C. rewrite plus_some. split.
  - intros (w & s' & H1 & H2 & H3 & H4 & _). exists w, s'. auto.
  - intros (w & s' & -> & NE & F & K). exists w, s'. do 4 (split; [assumption || reflexivity|]). intros w' s1 E F' L. exfalso.
    destruct (C _ _ K) as (c & t & -> & PC). assert (In c w') as I.
    { assert (firstn (S (List.length w)) (w' ++ s1) = firstn (S (List.length w)) w') as A by (rewrite firstn_app; replace (S (List.length w) - List.length w')%nat with O by lia; now rewrite app_nil_r).
      rewrite <- E in A. replace (S (List.length w)) with (List.length w + 1)%nat in A by lia. rewrite firstn_app_2 in A. cbn in A.
      rewrite <- (firstn_skipn (List.length w + 1) w'). rewrite <- A. apply in_or_app. left. apply in_or_app. right. now left. }
    rewrite forallb_forall in F'. specialize (F' c I). congruence.
Qed.
Lemma fractional s g (k : text -> groups -> option X) x : (forall s' g', k s' g' <> None) ->
  rmatch (Seq (Plus digitc) (Seq (Char (Ascii.eqb dot)) (Plus digitc))) s g k = Some x <->
  exists a b rest, s = (a ++ "."%char :: b) ++ rest /\ digits a /\ a <> [] /\ longest digit_chars b rest /\ k rest g = Some x.
Proof.
  intros K. cbn [rmatch]. rewrite plus_sep.
  - split.
    + intros (a & s' & -> & NE & F & H). destruct s' as [|c t]; [discriminate|]. destruct (Ascii.eqb_spec dot c) as [<-|]; [|discriminate].
      apply (plus_longest digitc digit_chars) in H; [|apply digit_in|intros; apply K]. destruct H as (b & rest & -> & L & H).
      exists a, b, rest. split; [now rewrite <- app_assoc|]. split; [now apply digits_b|]. auto.
    + intros (a & b & rest & -> & DA & NE & L & H). exists a, ("."%char :: b ++ rest). split; [now rewrite <- app_assoc|]. split; [exact NE|]. split; [now apply digits_b|].
      change (Ascii.eqb dot "."%char) with true. cbv iota. apply (plus_longest digitc digit_chars); [apply digit_in|intros; apply K|]. eauto.
  - intros s' y H. destruct s' as [|c t]; [discriminate|]. destruct (Ascii.eqb_spec dot c) as [<-|]; [|discriminate]. exists dot, t. auto.
Qed.
Lemma number_match s g (k : text -> groups -> option X) x : (forall s' g', k s' g' <> None) ->
  rmatch (Group 3 (Alt (Group 4 (Seq (Plus digitc) (Seq (Char (Ascii.eqb dot)) (Plus digitc)))) (Group 5 (Plus digitc)))) s g k = Some x <->
  exists n rest tag, s = n ++ rest /\ number_at s n /\ k rest ((3%nat, n) :: (tag, n) :: g) = Some x /\
    ((tag = 4%nat /\ In "."%char n) \/ (tag = 5%nat /\ ~ In "."%char n)).
Proof.
  intros K. assert (forall w, digits w -> ~ In "."%char w) as ND.
  { intros w D I. unfold digits in D. rewrite Forall_forall in D. specialize (D _ I). apply digit_in in D. discriminate. }
  set (k4 := fun (s' : text) (g' : groups) => k s' ((3%nat, taken s s') :: (4%nat, taken s s') :: g')).
  match goal with |- ?l = Some x <-> _ => change l with
    (match rmatch (Seq (Plus digitc) (Seq (Char (Ascii.eqb dot)) (Plus digitc))) s g k4 with
     | Some y => Some y
     | None => plus digitc s (fun s' => k s' ((3%nat, taken s s') :: (5%nat, taken s s') :: g)) end) end.
  assert (forall s' g', k4 s' g' <> None) as K4 by (intros; apply K).
  destruct (rmatch (Seq (Plus digitc) (Seq (Char (Ascii.eqb dot)) (Plus digitc))) s g k4) as [y|] eqn:E.
  - pose proof (proj1 (fractional s g k4 y K4) E) as (a & b & rest & -> & DA & NE & L & H). unfold k4 in H. rewrite taken_app in H. split.
    + intros [= <-]. exists (a ++ "."%char :: b), rest, 4%nat. split; [reflexivity|]. split.
      * exists rest. split; [reflexivity|]. left. exists a, b. auto.
      * split; [exact H|]. left. split; [reflexivity|]. apply in_elt.
    + intros (n & rest' & tag & E' & (rest'' & E'' & NA) & H' & T). assert (rest'' = rest') as -> by (rewrite E' in E''; now apply app_inv_head in E'').
      destruct NA as [(a' & b' & -> & DA' & _ & L')|(L' & NX)].
      * destruct T as [(-> & _)|(_ & T)]; [|exfalso; apply T; apply in_elt].
        rewrite <- !app_assoc in E'. cbn [app] in E'. apply sep_unique in E'; [|now apply ND..]. destruct E' as (<- & E').
        destruct (longest_unique _ _ _ _ _ E' L L') as (<- & <-). exact (eq_trans (eq_sym H) H').
      * exfalso. rewrite <- app_assoc in E'. cbn [app] in E'. destruct L as (NB & FB & _). destruct b as [|b0 b]; [contradiction|]. inversion FB as [|? ? F0 _]. subst.
        assert (longest digit_chars a ("."%char :: (b0 :: b) ++ rest)) as LA.
        { split; [exact NE|]. split; [exact DA|]. intros Q. apply digit_in in Q. discriminate. }
        destruct (longest_unique _ _ _ _ _ E' LA L') as (_ & Q). symmetry in Q. now apply NX in Q.
  - assert (forall a b rest, s = (a ++ "."%char :: b) ++ rest -> digits a -> a <> [] -> longest digit_chars b rest -> False) as NO.
    { intros a b rest ES DA NE L. destruct (k4 rest g) as [y|] eqn:H; [|now apply (K4 rest g)].
      assert (rmatch (Seq (Plus digitc) (Seq (Char (Ascii.eqb dot)) (Plus digitc))) s g k4 = Some y) as Q by (apply fractional; [exact K4|]; exists a, b, rest; auto).
      congruence. }
    rewrite (plus_longest digitc digit_chars); [|apply digit_in|intros; apply K]. split.
    + intros (w & s' & -> & L & H). rewrite taken_app in H. exists w, s', 5%nat. split; [reflexivity|]. split.
      * exists s'. split; [reflexivity|]. right. split; [exact L|]. intros c t -> I.
        destruct L as (NE & F & _).
        assert (exists b rest, c :: t = b ++ rest /\ longest digit_chars b rest) as (b & rest & EB & LB).
        { clear - I. revert c I. induction t as [|d t IH]; intros c I.
          - exists [c], []. split; [reflexivity|]. split; [discriminate|]. auto.
          - destruct (digitc d) eqn:D.
            + apply digit_in in D. destruct (IH d D) as (b & rest & -> & (NB & FB & M)). exists (c :: b), rest. split; [reflexivity|]. split; [discriminate|]. auto.
            + exists [c], (d :: t). split; [reflexivity|]. split; [discriminate|]. split; [auto|]. intros Q. apply digit_in in Q. congruence. }
        apply (NO w b rest); [|exact F|exact NE|exact LB]. rewrite <- app_assoc. cbn. now rewrite EB.
      * split; [exact H|]. right. split; [reflexivity|]. apply ND. apply L.
    + intros (n & rest & tag & -> & (rest'' & E'' & NA) & H & T). apply app_inv_head in E''. subst rest''. destruct NA as [(a & b & -> & DA & NE & L)|(L & _)].
      * exfalso. now apply (NO a b rest).
      * exists n, rest. split; [reflexivity|]. split; [exact L|]. rewrite taken_app. destruct T as [(_ & T)|(-> & _)]; [|exact H].
        exfalso. apply (ND n); [apply L|exact T].
Qed.
Lemma seq_lit w r s g (k : text -> groups -> option X) x :
  rmatch (Seq (lit w) r) s g k = Some x <-> exists s', s = chars w ++ s' /\ rmatch r s' g k = Some x.
Proof.
  change (rmatch (Seq (lit w) r) s g k) with (rmatch (lit w) s g (fun s' g' => rmatch r s' g' k)). rewrite rmatch_lit. split.
  - destruct (strip (chars w) s) as [s'|] eqn:E; [|discriminate]. apply strip_some in E. eauto.
  - intros (s' & -> & H). now rewrite strip_app.
Qed.
Lemma seq_char p r s g (k : text -> groups -> option X) x :
  rmatch (Seq (Char p) r) s g k = Some x <-> exists c s', s = c :: s' /\ p c = true /\ rmatch r s' g k = Some x.
Proof.
  cbn. destruct s as [|c s']; [split; [discriminate|intros (c & s' & E & _); discriminate]|]. destruct (p c) eqn:P.
  - split; [intros H; exists c, s'; auto|]. intros (d & t & E & _ & H). apply cons_inj in E. destruct E as (<- & <-). exact H.
  - split; [discriminate|]. intros (d & t & E & Q & H). apply cons_inj in E. destruct E as (<- & <-). congruence.
Qed.
Lemma seq_digits n r s g (k : text -> groups -> option X) x :
  (forall s' g' y, rmatch r s' g' k = Some y -> exists c t, s' = c :: t /\ digitc c = false) ->
  rmatch (Seq (Group n (Plus digitc)) r) s g k = Some x <-> exists w s', s = w ++ s' /\ w <> [] /\ digits w /\ rmatch r s' ((n, w) :: g) k = Some x.
Proof.
  intros C. cbn [rmatch]. rewrite plus_sep; [|intros s' y; apply C]. split.
  - intros (w & s' & -> & NE & F & H). rewrite taken_app in H. exists w, s'. split; [reflexivity|]. split; [exact NE|]. split; [now apply digits_b|exact H].
  - intros (w & s' & -> & NE & F & H). exists w, s'. split; [reflexivity|]. split; [exact NE|]. split; [now apply digits_b|]. now rewrite taken_app.
Qed.
End Match.

Definition cell_text (c : ascii) (x y : text) (d : ascii) (rest : text) : text :=
  chars "MaterialManager" ++ c :: chars "createCell " ++ x ++ sp :: y ++ nl :: chars "MaterialManager" ++ d :: chars "damageMod " ++ rest.
Lemma match3 s m g : re_match pattern3 s = Some (m, g) <-> exists c x y d n rest tag,
  s = cell_text c x y d (n ++ rest) /\ c <> nl /\ d <> nl /\ x <> [] /\ y <> [] /\ digits x /\ digits y /\ number_at (n ++ rest) n /\
  m = cell_text c x y d n /\ g = [(3%nat, n); (tag, n); (2%nat, y); (1%nat, x)] /\ ((tag = 4%nat /\ In "."%char n) \/ (tag = 5%nat /\ ~ In "."%char n)).
Proof.
  assert (forall c x y d n rest, taken (cell_text c x y d (n ++ rest)) rest = cell_text c x y d n) as TK.
  { intros c x y d n rest. transitivity (taken (cell_text c x y d n ++ rest) rest); [|apply taken_app]. f_equal. unfold cell_text.
    repeat (rewrite <- ?app_assoc; cbn [app]; f_equal). }
  assert (forall r s' g' y (k : text -> groups -> option (text * groups)), rmatch (Seq (lit " ") r) s' g' k = Some y -> exists c t, s' = c :: t /\ digitc c = false) as C1.
  { intros r s' g' y k H. apply seq_lit in H. destruct H as (t & -> & _). exists sp, t. auto. }
  assert (forall r s' g' y (k : text -> groups -> option (text * groups)), rmatch (Seq (Char (Ascii.eqb newline)) r) s' g' k = Some y -> exists c t, s' = c :: t /\ digitc c = false) as C2.
  { intros r s' g' y k H. apply seq_char in H. destruct H as (c & t & -> & E & _). apply Ascii.eqb_eq in E. subst c. exists newline, t. auto. }
  assert (forall s' g', Some (taken s s', g') <> (None : option (text * groups))) as C3 by discriminate.
  unfold re_match, pattern3. split.
  - intros H. apply seq_lit in H. destruct H as (s1 & E1 & H). apply seq_char in H. destruct H as (c & s2 & E2 & Hc & H).
    apply seq_lit in H. destruct H as (s3 & E3 & H). apply seq_digits in H; [|intros s' g' y'; apply C1]. destruct H as (x & s4 & E4 & Nx & Dx & H).
    apply seq_lit in H. destruct H as (s5 & E5 & H). apply seq_digits in H; [|intros s' g' y'; apply C2]. destruct H as (y & s6 & E6 & Ny & Dy & H).
    apply seq_char in H. destruct H as (e & s7 & E7 & He & H). apply seq_lit in H. destruct H as (s8 & E8 & H).
    apply seq_char in H. destruct H as (d & s9 & E9 & Hd & H). apply seq_lit in H. destruct H as (s10 & E10 & H).
    apply number_match in H; [|exact C3]. destruct H as (n & rest & tag & E11 & NA & K & T).
    subst s1 s2 s3 s4 s5 s6 s7 s8 s9 s10. apply Ascii.eqb_eq in He. subst e. apply any_in in Hc, Hd.
    change (s = cell_text c x y d (n ++ rest)) in E1. rewrite E1, TK in K. apply (f_equal (fun o => match o with Some p => p | None => (m, g) end)) in K.
    apply pair_equal_spec in K. destruct K as (K1 & K2). exists c, x, y, d, n, rest, tag. repeat (split; [assumption || (now symmetry)|]). exact T.
  - intros (c & x & y & d & n & rest & tag & E & Hc & Hd & Nx & Ny & Dx & Dy & NA & -> & -> & T).
    apply seq_lit. eexists. split; [exact E|]. apply seq_char. do 2 eexists. split; [reflexivity|]. split; [now apply any_in|].
    apply seq_lit. eexists. split; [reflexivity|]. apply seq_digits; [intros s' g' y'; apply C1|]. do 2 eexists. split; [reflexivity|]. split; [exact Nx|]. split; [exact Dx|].
    apply seq_lit. exists (y ++ nl :: chars "MaterialManager" ++ d :: chars "damageMod " ++ n ++ rest). split; [reflexivity|].
    apply seq_digits; [intros s' g' y'; apply C2|]. do 2 eexists. split; [reflexivity|]. split; [exact Ny|]. split; [exact Dy|].
    apply seq_char. do 2 eexists. split; [reflexivity|]. split; [reflexivity|]. apply seq_lit. eexists. split; [reflexivity|].
    apply seq_char. do 2 eexists. split; [reflexivity|]. split; [now apply any_in|]. apply seq_lit. eexists. split; [reflexivity|].
    apply number_match; [exact C3|]. exists n, rest, tag. split; [reflexivity|]. split; [exact NA|]. split; [|exact T]. now rewrite E, TK.
Qed.

(** ** Cells *)
Lemma int_decimal w : int_of w = decimal w.
Proof.
  unfold int_of. assert (forall n, fold_left (fun n c => 10 * n + (code c - 48)) w n = n * 10 ^ Z.of_nat (List.length w) + decimal w) as G; [|rewrite G; lia].
  induction w as [|c w IH]; intros n; cbn [fold_left decimal List.length]; [lia|]. rewrite IH, Nat2Z.inj_succ, Z.pow_succ_r by lia.
  unfold digit_value, code, nat_of_ascii. rewrite N_nat_Z. ring.
Qed.
Definition key (x : text * groups) : Z * Z := (int_of (group (snd x) 1), int_of (group (snd x) 2)).
Definition num (x : text * groups) : text := group (snd x) 3.
Lemma cell_match s a b n : cell_at s a b n <-> exists x, re_match pattern3 s = Some x /\ key x = (a, b) /\ num x = n.
Proof.
  split.
  - intros (c & x & y & d & rest & E & Hc & Hd & Nx & Ny & Dx & Dy & <- & <- & NA). pose proof NA as (r & ER & _).
    assert (exists tag, (tag = 4%nat /\ In "."%char n) \/ (tag = 5%nat /\ ~ In "."%char n)) as (tag & T) by (destruct (in_dec ascii_dec "."%char n); eauto).
    exists (cell_text c x y d n, [(3%nat, n); (tag, n); (2%nat, y); (1%nat, x)]). split.
    + apply match3. exists c, x, y, d, n, r, tag. rewrite <- ER. auto 12.
    + unfold key, num. cbn [snd]. unfold group. cbn [find fst]. assert (Nat.eqb tag 1 = false /\ Nat.eqb tag 2 = false) as (T1 & T2) by (destruct T as [(-> & _)|(-> & _)]; auto).
      rewrite T1, T2. cbn [find fst snd Nat.eqb]. now rewrite !int_decimal.
  - intros ((m, g) & M & K & N). apply match3 in M. destruct M as (c & x & y & d & n' & rest & tag & E & Hc & Hd & Nx & Ny & Dx & Dy & NA & _ & -> & T).
    unfold key, num, group in K, N. cbn [snd find fst] in K, N. assert (Nat.eqb tag 1 = false /\ Nat.eqb tag 2 = false) as (T1 & T2) by (destruct T as [(-> & _)|(-> & _)]; auto).
    rewrite T1, T2 in K. cbn [find fst snd Nat.eqb] in K, N. subst n'. rewrite !int_decimal in K. apply pair_equal_spec in K. destruct K as (K1 & K2).
    exists c, x, y, d, (n ++ rest). auto 12.
Qed.
Lemma no_match s : re_match pattern3 s = None <-> forall a b n, ~ cell_at s a b n.
Proof.
  split.
  - intros H a b n C. apply cell_match in C. destruct C as (x & E & _). congruence.
  - intros H. destruct (re_match pattern3 s) as [x|] eqn:E; [|reflexivity]. exfalso. apply (H (fst (key x)) (snd (key x)) (num x)). apply cell_match.
    exists x. split; [exact E|]. split; [|reflexivity]. now destruct (key x).
Qed.

(** ** Matches do not overlap *)
Definition clean (w rest : text) : Prop := forall k, (k < List.length w)%nat -> re_match pattern3 (skipn k (w ++ rest)) = None.
Lemma clean_nil rest : clean [] rest. Proof. intros k H. cbn in H. lia. Qed.
Lemma clean_cons c w rest : re_match pattern3 (c :: w ++ rest) = None -> clean w rest -> clean (c :: w) rest.
Proof. intros H C [|k] L; [exact H|]. apply C. cbn in L. lia. Qed.
Lemma clean_app a b rest : clean a (b ++ rest) -> clean b rest -> clean (a ++ b) rest.
Proof.
  intros A B. induction a as [|c a IH]; [exact B|]. cbn [app]. apply clean_cons.
  - specialize (A O ltac:(cbn; lia)). cbn in A |- *. now rewrite <- app_assoc.
  - apply IH. intros k L. apply (A (S k)). cbn. lia.
Qed.
Lemma other_char c s : c <> "M"%char -> re_match pattern3 (c :: s) = None.
Proof.
  intros N. apply no_match. intros a b n (d & x & y & e & r & E & _). apply cons_inj in E. destruct E as (-> & _). now apply N.
Qed.
Lemma clean_other w rest : ~ In "M"%char w -> clean w rest.
Proof.
  induction w as [|c w IH]; intros N; [apply clean_nil|]. apply clean_cons; [|apply IH; intros K; apply N; now right].
  apply other_char. intros ->. apply N. now left.
Qed.
Lemma digits_clean w : digits w -> ~ In "M"%char w.
Proof. intros D I. unfold digits in D. rewrite Forall_forall in D. specialize (D _ I). apply digit_in in D. discriminate. Qed.
Lemma number_clean s n : number_at s n -> ~ In "M"%char n.
Proof.
  intros (r & _ & [(a & b & -> & DA & _ & (_ & DB & _))|((_ & D & _) & _)]).
  - intros K. apply in_app_or in K. destruct K as [K|[K|K]]; [|discriminate|]; revert K; now apply digits_clean.
  - now apply digits_clean.
Qed.
Lemma no_start w s : (forall c r, w ++ s <> chars "MaterialManager" ++ c :: chars "createCell " ++ r) -> re_match pattern3 (w ++ s) = None.
Proof. intros H. apply no_match. intros a b n (c & x & y & d & r & E & _). eapply H. exact E. Qed.
Lemma not_in_list (w : text) : mem "M"%char w = false -> ~ In "M"%char w.
Proof. intros H K. apply mem_in in K. congruence. Qed.
Ltac skip_chars := apply clean_other; apply not_in_list; reflexivity.
Lemma manager_clean rest : clean (chars "aterialManager") rest.
Proof.
  apply (clean_app (chars "aterial") (chars "Manager")); [skip_chars|]. apply (clean_app ["M"%char] (chars "anager")); [|skip_chars].
  apply clean_cons; [|apply clean_nil]. apply (no_start (chars "Manager")). intros c r E. discriminate.
Qed.
Lemma any_clean c s : (forall t, s <> "a"%char :: t) -> clean [c] s.
Proof.
  intros H. apply clean_cons; [|apply clean_nil]. apply (no_start [c]). intros e r E. apply cons_inj in E. destruct E as (_ & E). now apply H in E.
Qed.
Lemma match_clean c x y d n rest : digits x -> digits y -> number_at (n ++ rest) n -> clean (skipn 1 (cell_text c x y d n)) rest.
Proof.
  intros DX DY NA. change (skipn 1 (cell_text c x y d n)) with
    (chars "aterialManager" ++ [c] ++ chars "createCell " ++ x ++ [sp] ++ y ++ [nl] ++ chars "M" ++ chars "aterialManager" ++ [d] ++ chars "damage" ++ chars "M" ++ chars "od " ++ n).
  apply clean_app; [apply manager_clean|]. apply clean_app; [apply any_clean; intros t E; discriminate|].
  apply clean_app; [skip_chars|]. apply clean_app; [now apply clean_other, digits_clean|]. apply clean_app; [skip_chars|].
  apply clean_app; [now apply clean_other, digits_clean|]. apply clean_app; [skip_chars|]. apply clean_app.
  { apply clean_cons; [|apply clean_nil]. apply (no_start (chars "M")). intros e r E. cbn in E. discriminate. }
  apply clean_app; [apply manager_clean|]. apply clean_app; [apply any_clean; intros t E; discriminate|]. apply clean_app; [skip_chars|].
  apply clean_app; [|apply clean_app; [skip_chars|now apply clean_other, (number_clean (n ++ rest))]].
  apply clean_cons; [|apply clean_nil]. apply (no_start (chars "M")). intros e r E. cbn in E. discriminate.
Qed.

(** [finditer] finds every suffix that matches. *)
Fixpoint suffixes (s : text) : list text := s :: match s with [] => [] | _ :: t => suffixes t end.
Definition found (s : text) : list (text * groups) := match re_match pattern3 s with Some x => [x] | None => [] end.
Lemma found_nil : found [] = []. Proof. reflexivity. Qed.
Lemma finditer_skip k s : (forall j, (j < k)%nat -> re_match pattern3 (skipn j s) = None) ->
  finditer_from pattern3 k s = finditer_from pattern3 O (skipn k s) /\ flat_map found (suffixes s) = flat_map found (suffixes (skipn k s)).
Proof.
  revert s. induction k as [|k IH]; intros s H; [split; reflexivity|]. destruct s as [|c s]; [split; reflexivity|]. cbn [skipn].
  destruct (IH s) as (I1 & I2); [intros j L; apply (H (S j)); lia|]. split; [exact I1|]. cbn [suffixes flat_map]. unfold found at 1.
  rewrite (H O ltac:(lia) : re_match pattern3 (c :: s) = None). exact I2.
Qed.
Lemma finditer_all s : finditer pattern3 s = flat_map found (suffixes s).
Proof.
  unfold finditer. remember (List.length s) as n eqn:L. assert (List.length s <= n)%nat as LE by lia. clear L. revert s LE.
  induction n as [|n IH]; intros s LE; [destruct s; [reflexivity|cbn in LE; lia]|]. destruct s as [|c s]; [reflexivity|].
  cbn [finditer_from suffixes flat_map]. unfold found at 1. destruct (re_match pattern3 (c :: s)) as [(m, g)|] eqn:M.
  - cbn [app fst]. f_equal. apply match3 in M. destruct M as (e & x & y & d & k & rest & tag & E & _ & _ & _ & _ & DX & DY & NA & -> & _).
    pose proof (match_clean e x y d k rest DX DY NA) as C.
    assert (s = skipn 1 (cell_text e x y d k) ++ rest) as ES.
    { apply cons_inj with (x := c) (y := "M"%char). rewrite E. unfold cell_text. repeat (rewrite <- ?app_assoc; cbn [app chars skipn]; f_equal). }
    assert (List.length (skipn 1 (cell_text e x y d k)) = pred (List.length (cell_text e x y d k))) as EL by (rewrite skipn_length; lia).
    destruct (finditer_skip (pred (List.length (cell_text e x y d k))) s) as (F1 & F2).
    { intros j LJ. rewrite ES. apply C. rewrite EL. exact LJ. }
    rewrite F1, F2. apply IH. rewrite skipn_length. cbn in LE. lia.
  - apply IH. cbn in LE. lia.
Qed.

(** ** The dictionary *)
Section Cells.
Context {F : Type} (float_of : text -> F).
Definition lookup (c : @cells F) (a t : Z) : option F :=
  match dict_get c a with Some d => dict_get d t | None => None end.
Lemma get_set {V} (d : list (Z * V)) k v j : dict_get (dict_set d k v) j = if k =? j then Some v else dict_get d j.
Proof.
  induction d as [|(i, w) d IH]; cbn [dict_set dict_get]; [destruct (k =? j); reflexivity|].
  destruct (Z.eqb_spec i k) as [->|N]; cbn [dict_get]; [now destruct (k =? j)|]. rewrite IH.
  destruct (Z.eqb_spec i j) as [->|]; [|reflexivity]. destruct (Z.eqb_spec k j) as [->|]; [contradiction|reflexivity].
Qed.
Lemma step_lookup c x a t : lookup (cell_step float_of c x) a t =
  match lookup c a t with Some v => Some v | None => if (fst (key x) =? a) && (snd (key x) =? t) then Some (float_of (num x)) else None end.
Proof.
  unfold lookup, cell_step, key, num. cbn [fst snd]. generalize (int_of (group (snd x) 1)) (int_of (group (snd x) 2)) (float_of (group (snd x) 3)).
  intros i j v. destruct (dict_get c i) as [d|] eqn:E.
  - rewrite E. destruct (dict_get d j) as [w|] eqn:EJ.
    + destruct (dict_get c a) as [d'|] eqn:EA; [destruct (dict_get d' t) eqn:ET; [reflexivity|]|].
      * destruct (Z.eqb_spec i a) as [->|]; [|reflexivity]. destruct (Z.eqb_spec j t) as [->|]; [|reflexivity]. cbn. congruence.
      * destruct (Z.eqb_spec i a) as [->|]; [|reflexivity]. congruence.
    + rewrite get_set. destruct (Z.eqb_spec i a) as [->|]; cbn [andb].
      * rewrite E, get_set. destruct (Z.eqb_spec j t) as [->|]; [now rewrite EJ|]. now destruct (dict_get d t).
      * destruct (dict_get c a) as [d'|]; [now destruct (dict_get d' t)|reflexivity].
  - rewrite get_set, Z.eqb_refl. cbn [dict_get]. rewrite !get_set. destruct (Z.eqb_spec i a) as [->|]; cbn [andb].
    + rewrite E. cbn. now destruct (j =? t).
    + destruct (dict_get c a) as [d'|]; [now destruct (dict_get d' t)|reflexivity].
Qed.
Lemma step_key c x a : dict_get (cell_step float_of c x) a <> None <-> dict_get c a <> None \/ fst (key x) = a.
Proof.
  unfold cell_step, key. cbn [fst snd]. generalize (int_of (group (snd x) 1)) (int_of (group (snd x) 2)) (float_of (group (snd x) 3)).
  intros i j v. destruct (dict_get c i) as [d|] eqn:E.
  - rewrite E. destruct (dict_get d j) as [w|] eqn:EJ.
    + split; [auto|]. intros [H| ->]; congruence.
    + rewrite get_set. destruct (Z.eqb_spec i a) as [->|N]; [split; auto; discriminate|]. split; [auto|]. intros [H|H]; [exact H|contradiction].
  - rewrite get_set, Z.eqb_refl. cbn [dict_get]. rewrite !get_set. destruct (Z.eqb_spec i a) as [->|N]; [split; auto; discriminate|].
    split; [auto|]. intros [H|H]; [exact H|contradiction].
Qed.
Lemma set_keys {V} (d : list (Z * V)) k v : NoDup (map fst d) -> NoDup (map fst (dict_set d k v)) /\ forall i, In i (map fst (dict_set d k v)) -> i = k \/ In i (map fst d).
Proof.
  induction d as [|(i, w) d IH]; cbn; intros N.
  - split; [constructor; [intros []|constructor]|]. intros i [->|[]]. auto.
  - inversion N as [|? ? N1 N2]. subst. destruct (IH N2) as (I1 & I2). destruct (Z.eqb_spec i k) as [->|H]; cbn.
    + split; [exact N|]. intros j [->|K]; auto.
    + split.
      * constructor; [|exact I1]. intros K. apply I2 in K. destruct K; auto.
      * intros j [->|K]; [auto|]. apply I2 in K. destruct K; auto.
Qed.
Lemma set_distinct (c : @cells F) i (d : @damage F) : distinct_keys c -> NoDup (map fst d) -> distinct_keys (dict_set c i d).
Proof.
  intros (N & FA) ND. split; [now apply set_keys|]. clear N. induction FA as [|(k, w) c H FA IH]; cbn; [constructor; auto|].
  destruct (k =? i); constructor; auto.
Qed.
Lemma get_distinct (c : @cells F) i d : distinct_keys c -> dict_get c i = Some d -> NoDup (map fst d).
Proof.
  intros (_ & FA). induction FA as [|(k, w) c H _ IH]; cbn; [discriminate|]. destruct (k =? i); [intros [= <-]; exact H|exact IH].
Qed.
Lemma step_distinct (c : @cells F) x : distinct_keys c -> distinct_keys (cell_step float_of c x).
Proof.
  intros D. unfold cell_step. set (i := int_of (group (snd x) 1)). set (j := int_of _).
  assert (forall c1 : @cells F, distinct_keys c1 -> distinct_keys match dict_get c1 i with None => c1
     | Some d => match dict_get d j with Some _ => c1 | None => dict_set c1 i (dict_set d j (float_of (group (snd x) 3))) end end) as G.
  { intros c1 D1. destruct (dict_get c1 i) as [d|] eqn:E; [|exact D1]. destruct (dict_get d j); [exact D1|].
    apply set_distinct; [exact D1|]. apply set_keys. exact (get_distinct c1 i d D1 E). }
  apply G. destruct (dict_get c i); [exact D|]. apply set_distinct; [exact D|constructor].
Qed.
Lemma get_in {V} (d : list (Z * V)) k v : NoDup (map fst d) -> dict_get d k = Some v <-> In (k, v) d.
Proof.
  induction d as [|(i, w) d IH]; cbn; intros N; [split; [discriminate|intros []]|]. inversion N as [|? ? N1 N2]. subst.
  destruct (Z.eqb_spec i k) as [->|H].
  - split; [intros [= ->]; now left|]. intros [E|K]; [congruence|]. exfalso. apply N1. change k with (fst (k, v)). now apply in_map.
  - rewrite IH by exact N2. split; [auto|]. intros [E|K]; [congruence|exact K].
Qed.
Lemma get_some {V} (d : list (Z * V)) k : dict_get d k <> None <-> In k (map fst d).
Proof.
  induction d as [|(i, w) d IH]; cbn; [split; [congruence|intros []]|]. destruct (Z.eqb_spec i k) as [->|H].
  - split; [auto|discriminate].
  - rewrite IH. split; [auto|]. intros [E|K]; [contradiction|exact K].
Qed.
Lemma entry_lookup (c : @cells F) a t v : distinct_keys c -> entry c a t v <-> lookup c a t = Some v.
Proof.
  intros D. pose proof D as (N & FA). unfold entry, lookup. split.
  - intros (d & I & J). apply (get_in (V := @damage F)) in I; [|exact N]. rewrite I. apply get_in; [|exact J]. exact (get_distinct c a d D I).
  - destruct (dict_get c a) as [d|] eqn:E; [|discriminate]. intros H. pose proof (get_distinct c a d D E) as ND. exists d. split; [now apply get_in|now apply get_in].
Qed.
Lemma fold_lookup l c a t : lookup (fold_left (cell_step float_of) l c) a t =
  match lookup c a t with Some v => Some v | None => option_map (fun x => float_of (num x)) (find (fun x => (fst (key x) =? a) && (snd (key x) =? t)) l) end.
Proof.
  revert c. induction l as [|x l IH]; intros c; cbn [fold_left find]; [now destruct (lookup c a t)|]. rewrite IH, step_lookup.
  destruct (lookup c a t); [reflexivity|]. now destruct ((fst (key x) =? a) && (snd (key x) =? t)).
Qed.
Lemma fold_key l c a : dict_get (fold_left (cell_step float_of) l c) a <> None <-> dict_get c a <> None \/ exists x, In x l /\ fst (key x) = a.
Proof.
  revert c. induction l as [|x l IH]; intros c; cbn [fold_left].
  - split; [auto|]. intros [H|(x & [] & _)]; exact H.
  - rewrite IH, step_key. split.
    + intros [[H|H]|(y & I & H)]; [auto|right; exists x; split; [now left|exact H]|right; exists y; split; [now right|exact H]].
    + intros [H|(y & [->|I] & H)]; eauto.
Qed.
Lemma in_suffixes s u : In u (suffixes s) <-> exists pre, s = pre ++ u.
Proof.
  induction s as [|c s IH]; cbn.
  - split; [intros [<-|[]]; now exists []|]. intros (pre & E). symmetry in E. apply app_eq_nil in E. left. now symmetry.
  - rewrite IH. split.
    + intros [<-|(pre & ->)]; [now exists []|now exists (c :: pre)].
    + intros ([|d pre] & E); cbn in E; [left; now rewrite E|]. apply cons_inj in E. right. exists pre. apply E.
Qed.
Definition is_key (a t : Z) (x : text * groups) : bool := (fst (key x) =? a) && (snd (key x) =? t).
Lemma key_iff a t x : is_key a t x = true <-> key x = (a, t).
Proof. unfold is_key. rewrite andb_true_iff, !Z.eqb_eq. destruct (key x). cbn. rewrite pair_equal_spec. reflexivity. Qed.
Lemma cell_unique s a b n a' b' n' : cell_at s a b n -> cell_at s a' b' n' -> a = a' /\ b = b' /\ n = n'.
Proof.
  intros C C'. apply cell_match in C, C'. destruct C as (x & E & K & N), C' as (x' & E' & K' & N'). assert (x = x') as <- by congruence.
  rewrite K in K'. apply pair_equal_spec in K'. destruct K'. subst. auto.
Qed.
Lemma find_first s a t n : (exists x, find (is_key a t) (flat_map found (suffixes s)) = Some x /\ num x = n) <->
  exists u, first_suffix (fun u => exists n, cell_at u a t n) s u /\ cell_at u a t n.
Proof.
  induction s as [|c s IH].
  - cbn. split; [intros (x & E & _); discriminate|]. intros (u & (pre & E & (k & C) & _) & _). symmetry in E. apply app_eq_nil in E. destruct E as (-> & ->).
    apply cell_match in C. destruct C as (x & E & _). discriminate.
  - cbn [suffixes flat_map]. rewrite find_app || idtac.
    assert (forall l1 l2, find (is_key a t) (l1 ++ l2) = match find (is_key a t) l1 with Some x => Some x | None => find (is_key a t) l2 end) as FA.
    { induction l1 as [|y l1 IHl]; intros l2; [reflexivity|]. cbn. destruct (is_key a t y); [reflexivity|apply IHl]. }
    rewrite FA. destruct (find (is_key a t) (found (c :: s))) as [x|] eqn:E.
    + assert (re_match pattern3 (c :: s) = Some x /\ key x = (a, t)) as (M & K).
      { unfold found in E. destruct (re_match pattern3 (c :: s)) as [z|]; [|discriminate]. cbn in E. destruct (is_key a t z) eqn:KZ; [|discriminate]. injection E as <-. split; [reflexivity|now apply key_iff]. }
      split.
      * intros (y & [= <-] & <-). exists (c :: s). split; [|apply cell_match; eauto]. exists []. split; [reflexivity|]. split; [exists (num x); apply cell_match; eauto|].
        intros pre' s' _ L. cbn in L. lia.
      * intros (u & (pre & ES & (k & C) & FI) & CU). destruct pre as [|d pre].
        -- cbn in ES. subst u. exists x. split; [reflexivity|]. apply cell_match in CU. destruct CU as (y & M' & _ & N). congruence.
        -- exfalso. apply (FI [] (c :: s) eq_refl); [cbn; lia|]. exists (num x). apply cell_match. eauto.
    + assert (forall k, ~ cell_at (c :: s) a t k) as NC.
      { intros k C. apply cell_match in C. destruct C as (x & M & K & _). unfold found in E. rewrite M in E. cbn in E. rewrite (proj2 (key_iff a t x) K) in E. discriminate. }
      rewrite IH. split.
      * intros (u & (pre & -> & H & FI) & CU). exists u. split; [|exact CU]. exists (c :: pre). split; [reflexivity|]. split; [exact H|].
        intros [|d pre'] s' ES L (k & C); cbn in ES.
        -- subst s'. now apply (NC k).
        -- apply cons_inj in ES. destruct ES as (_ & ES). apply (FI pre' s' ES); [cbn in L; lia|]. now exists k.
      * intros (u & ([|d pre] & ES & H & FI) & CU); cbn in ES; [subst u; exfalso; now apply (NC n)|]. apply cons_inj in ES. destruct ES as (_ & ES).
        exists u. split; [|exact CU]. exists pre. split; [exact ES|]. split; [exact H|]. intros pre' s' ES' L. apply (FI (c :: pre') s'); [cbn; now rewrite ES'|cbn; lia].
Qed.
Lemma lines_concat s : concat (lines s) = s.
Proof.
  unfold lines. assert (forall cur, concat (lines_from cur s) = cur ++ s) as G; [|apply G]. induction s as [|c s IH]; intros cur; cbn.
  - destruct cur; cbn; now rewrite ?app_nil_r.
  - destruct (Ascii.eqb c newline); cbn; rewrite IH; now rewrite <- app_assoc.
Qed.
Theorem settings_cells f path bs ls : open_rb f path = Ok bs -> text_lines bs ls ->
  exists c, parse_settings float_of f path = Ok c /\ distinct_keys c /\
    (forall a t v, entry c a t v <-> exists s n, first_suffix (fun s => exists n, cell_at s a t n) (concat ls) s /\ cell_at s a t n /\ v = float_of n) /\
    (forall a, In a (map fst c) <-> exists t n, some_suffix (fun s => cell_at s a t n) (concat ls)).
Proof.
  intros O T. apply text_lines_unique in T. subst ls. rewrite lines_concat. unfold parse_settings, open_text. rewrite O. cbn [rmap bind].
  exists (cells_of_text float_of (universal bs)). split; [reflexivity|].
  assert (distinct_keys (cells_of_text float_of (universal bs))) as D.
  { assert (forall l c, distinct_keys c -> distinct_keys (fold_left (cell_step float_of) l c)) as G.
    { induction l as [|x l IH]; intros c D; [exact D|]. apply IH, step_distinct, D. }
    apply G. split; constructor. }
  split; [exact D|]. split; [intros a t v; rewrite (entry_lookup _ a t v D)|intros a; rewrite <- get_some]; clear D; unfold cells_of_text; rewrite finditer_all; generalize (universal bs); intros s.
  - rewrite fold_lookup. change (lookup [] a t) with (@None F). cbv iota. change (fun x => (fst (key x) =? a) && (snd (key x) =? t)) with (is_key a t). split.
    + destruct (find (is_key a t) (flat_map found (suffixes s))) as [x|] eqn:E; [|discriminate]. cbn. intros [= <-].
      destruct (proj1 (find_first s a t (num x))) as (u & FS & C); [eauto|]. exists u, (num x). auto.
    + intros (u & n & FS & C & ->). destruct (proj2 (find_first s a t n)) as (x & -> & <-); [eauto|]. reflexivity.
  - rewrite fold_key. split.
    + intros [H|(x & I & <-)]; [now destruct H|]. apply in_flat_map in I. destruct I as (u & IU & I). apply in_suffixes in IU. destruct IU as (pre & ->).
      unfold found in I. destruct (re_match pattern3 u) as [z|] eqn:M; [|contradiction]. destruct I as [<-|[]]. exists (snd (key z)), (num z), pre, u. split; [reflexivity|].
      apply cell_match. exists z. split; [exact M|]. split; [|reflexivity]. now destruct (key z).
    + intros (t & n & pre & u & -> & C). right. apply cell_match in C. destruct C as (x & M & K & _). exists x. split; [|now rewrite K].
      apply in_flat_map. exists u. split; [apply in_suffixes; now exists pre|]. unfold found. rewrite M. now left.
Qed.
End Cells.
