(** Proofs about TemplateParser.get_wings and Jet.loadFromCon. *)
From Coq Require Import ZArith Bool Ascii String List Lia.
From Verif Require Import PyBase Struct Mesh Arith Edit Obj Bf2 SpecBf2 ReFacts Bf2Facts Bf2Dirs Bf2Cells Bf2Wings SpecWings.
Import ListNotations.

Section Match.
Context {X : Type}.
Implicit Types (x : X) (k : text -> groups -> option X).

Lemma alt_excl a b s g k x : (forall y z, rmatch a s g k = Some y -> rmatch b s g k = Some z -> False) ->
  rmatch (Alt a b) s g k = Some x <-> rmatch a s g k = Some x \/ rmatch b s g k = Some x.
Proof.
  intros E. change (rmatch (Alt a b) s g k) with (match rmatch a s g k with Some y => Some y | None => rmatch b s g k end).
  destruct (rmatch a s g k) as [y|].
  - split; [auto|]. intros [H|H]; [exact H|]. exfalso. now apply (E y x).
  - split; [auto|]. intros [H|H]; [discriminate|exact H].
Qed.
Lemma seq_alt a b r s g k : rmatch (Seq (Alt a b) r) s g k = rmatch (Alt (Seq a r) (Seq b r)) s g k.
Proof. reflexivity. Qed.
Lemma seq_eps r s g k : rmatch (Seq Eps r) s g k = rmatch r s g k.
Proof. reflexivity. Qed.

Lemma point s g k x : (forall s' g', k s' g' <> None) ->
  rmatch (Seq (Char (Ascii.eqb "."%char)) (Plus digitc)) s g k = Some x <-> exists b rest, s = "."%char :: b ++ rest /\ longest digit_chars b rest /\ k rest g = Some x.
Proof.
  intros K. rewrite seq_char. split.
  - intros (c & s' & -> & E & H). apply Ascii.eqb_eq in E. subst c. apply (plus_longest digitc digit_chars) in H; [|apply digit_in|intros; apply K].
    destruct H as (b & rest & -> & L & H). eauto.
  - intros (b & rest & -> & L & H). exists "."%char, (b ++ rest). split; [reflexivity|]. split; [apply Ascii.eqb_refl|].
    apply (plus_longest digitc digit_chars); [apply digit_in|intros; apply K|]. eauto.
Qed.
Lemma whole_point s g k x : (forall s' g', k s' g' <> None) ->
  rmatch (Seq (star digitc) (Seq (Char (Ascii.eqb "."%char)) (Plus digitc))) s g k = Some x <->
  exists a b rest, s = a ++ "."%char :: b ++ rest /\ digits a /\ longest digit_chars b rest /\ k rest g = Some x.
Proof.
  intros K. unfold star. rewrite seq_alt.
  assert (forall y, rmatch (Seq (Plus digitc) (Seq (Char (Ascii.eqb "."%char)) (Plus digitc))) s g k = Some y <->
    exists a b rest, s = a ++ "."%char :: b ++ rest /\ digits a /\ a <> [] /\ longest digit_chars b rest /\ k rest g = Some y) as P.
  { intros y. change (rmatch (Seq (Plus digitc) (Seq (Char (Ascii.eqb "."%char)) (Plus digitc))) s g k) with
      (rmatch (Seq (Plus digitc) (Seq (Char (Ascii.eqb dot)) (Plus digitc))) s g k).
    rewrite (fractional s g k y K). split; intros (a & b & rest & -> & R); exists a, b, rest; split; auto; now rewrite <- app_assoc. }
  rewrite alt_excl.
  - rewrite P, seq_eps, point by exact K. split.
    + intros [(a & b & rest & -> & D & _ & R)|(b & rest & -> & R)]; [exists a, b, rest; auto|exists [], b, rest; repeat split; auto; apply R || constructor].
    + intros ([|c a] & b & rest & -> & D & L & H); [right; exists b, rest; auto|]. left. exists (c :: a), b, rest. do 2 (split; [auto|]). split; [discriminate|auto].
  - intros y z H1 H2. apply P in H1. destruct H1 as ([|c a] & b & rest & -> & D & NE & _); [contradiction|].
    apply point in H2; [|exact K]. destruct H2 as (b' & r' & E & _). cbn [app] in E. apply cons_inj in E. destruct E as (-> & _).
    inversion D as [|? ? D0 _]. apply digit_in in D0. discriminate.
Qed.
Lemma sign_in c : signc c = true <-> c = "-"%char \/ c = "+"%char.
Proof.
  unfold signc. rewrite orb_true_iff, !Ascii.eqb_eq. split; intros [H|H]; auto.
Qed.
Lemma signed_point s g k x : (forall s' g', k s' g' <> None) ->
  rmatch (Seq (opt signc) (Seq (star digitc) (Seq (Char (Ascii.eqb "."%char)) (Plus digitc)))) s g k = Some x <->
  exists sg a b rest, s = sg ++ a ++ "."%char :: b ++ rest /\ In sg [[]; chars "-"; chars "+"] /\ digits a /\ longest digit_chars b rest /\ k rest g = Some x.
Proof.
  intros K. unfold opt. rewrite seq_alt, alt_excl.
  - rewrite seq_char, seq_eps, whole_point by exact K. split.
    + intros [(c & s' & -> & E & H)|(a & b & rest & -> & R)].
      * apply whole_point in H; [|exact K]. destruct H as (a & b & rest & -> & R). exists [c], a, b, rest. split; [reflexivity|]. split; [|exact R].
        apply sign_in in E. destruct E as [-> | ->]; cbn; auto.
      * exists [], a, b, rest. split; [reflexivity|]. split; [now left|exact R].
    + intros (sg & a & b & rest & -> & I & R). cbn in I. destruct I as [<-|[<-|[<-|[]]]].
      * right. exists a, b, rest. auto.
      * left. exists "-"%char, (a ++ "."%char :: b ++ rest). split; [reflexivity|]. split; [reflexivity|]. apply whole_point; [exact K|]. exists a, b, rest. auto.
      * left. exists "+"%char, (a ++ "."%char :: b ++ rest). split; [reflexivity|]. split; [reflexivity|]. apply whole_point; [exact K|]. exists a, b, rest. auto.
  - intros y z H1 H2. apply seq_char in H1. destruct H1 as (c & s' & -> & E & _). apply sign_in in E. rewrite seq_eps in H2. apply whole_point in H2; [|exact K].
    destruct H2 as ([|d a] & b & rest & E2 & D & _); cbn [app] in E2; apply cons_inj in E2; destruct E2 as (-> & _).
    + destruct E; discriminate.
    + inversion D as [|? ? D0 _]. apply digit_in in D0. destruct E; subst; discriminate.
Qed.
Lemma some_digits c t : In c digit_chars -> exists b rest, c :: t = b ++ rest /\ longest digit_chars b rest.
Proof.
  revert c. induction t as [|d t IH]; intros c I.
  - exists [c], []. split; [reflexivity|]. split; [discriminate|]. auto.
  - destruct (digitc d) eqn:D.
    + apply digit_in in D. destruct (IH d D) as (b & rest & -> & (NB & FB & M)). exists (c :: b), rest. split; [reflexivity|]. split; [discriminate|]. auto.
    + exists [c], (d :: t). split; [reflexivity|]. split; [discriminate|]. split; [auto|]. intros Q. apply digit_in in Q. congruence.
Qed.
Lemma lift_match s g k x : (forall s' g', k s' g' <> None) ->
  rmatch lift s g k = Some x <-> exists n rest, s = n ++ rest /\ lift_at s n /\ k rest g = Some x.
Proof.
  intros K. unfold lift.
  set (A := Seq (opt signc) (Seq (star digitc) (Seq (Char (Ascii.eqb "."%char)) (Plus digitc)))).
  change (rmatch (Alt A (Plus digitc)) s g k) with (match rmatch A s g k with Some y => Some y | None => plus digitc s (fun s' => k s' g) end).
  assert (forall n rest sg a b, s = n ++ rest -> n = sg ++ a ++ "."%char :: b -> s = sg ++ a ++ "."%char :: b ++ rest) as RA.
  { intros n rest sg a b -> ->. now rewrite <- !app_assoc. }
  destruct (rmatch A s g k) as [y|] eqn:E.
  - apply signed_point in E; [|exact K]. destruct E as (sg & a & b & rest & E & I & D & L & H).
    assert (forall n rest', s = n ++ rest' -> lift_at s n -> rest' = rest) as U.
    { intros n rest' E' (r & E'' & LA). assert (r = rest') as -> by (rewrite E' in E''; now apply app_inv_head in E'').
      destruct LA as [(sg' & a' & b' & En & I' & D' & L')|(L' & NX)].
      - pose proof (RA _ _ _ _ _ E' En) as E2. rewrite E in E2.
        assert (forall sg a t, In sg [[]; chars "-"; chars "+"] -> digits a -> forall sg' a' t', In sg' [[]; chars "-"; chars "+"] -> digits a' ->
          sg ++ a ++ "."%char :: t = sg' ++ a' ++ "."%char :: t' -> t = t') as G.
        { assert (forall w, digits w -> ~ In "."%char w) as ND by (intros w Dw Iw; unfold digits in Dw; rewrite Forall_forall in Dw; specialize (Dw _ Iw); apply digit_in in Dw; discriminate).
          assert (forall w c t t', digits w -> c = "-"%char \/ c = "+"%char -> w ++ "."%char :: t <> c :: t') as NS.
          { intros [|d w] c t t' Dw C Q; cbn [app] in Q; apply cons_inj in Q; destruct Q as (<- & _); [destruct C; discriminate|].
            inversion Dw as [|? ? D0 _]. apply digit_in in D0. destruct C; subst; discriminate. }
          clear - ND NS. intros sg a t I D sg' a' t' I' D' Q. cbn in I, I'.
          destruct I as [<-|[<-|[<-|[]]]], I' as [<-|[<-|[<-|[]]]]; cbn [chars list_ascii_of_string app] in Q.
          all: try (apply cons_inj in Q; destruct Q as (Q0 & Q)).
          all: try discriminate Q0.
          all: try (now apply sep_unique in Q; auto).
          all: exfalso.
          all: try (eapply (NS a); [exact D| |exact Q]; auto).
          all: try (symmetry in Q; eapply (NS a'); [exact D'| |exact Q]; auto). }
        pose proof (G _ _ _ I D _ _ _ I' D' E2) as E3. now destruct (longest_unique _ _ _ _ _ E3 L L').
      - exfalso. destruct L' as (NE & F & M). destruct L as (NB & FB & _). destruct b as [|b0 b]; [contradiction|]. inversion FB as [|? ? F0 _]. subst.
        assert (sg = []) as ->.
        { cbn in I. destruct I as [<-|[<-|[<-|[]]]]; [reflexivity| |]; exfalso; destruct n as [|c n]; try contradiction; cbn [app chars list_ascii_of_string] in E';
            apply cons_inj in E'; destruct E' as (<- & _); inversion F as [|? ? Q _]; apply digit_in in Q; discriminate. }
        cbn [app] in E'.
        assert (a <> []) as NA. { intros ->. destruct n as [|c n]; [contradiction|]. cbn [app] in E'. apply cons_inj in E'. destruct E' as (<- & _). inversion F as [|? ? Q _]. apply digit_in in Q. discriminate. }
        assert (longest digit_chars a ("."%char :: (b0 :: b) ++ rest)) as LA.
        { split; [exact NA|]. split; [exact D|]. intros Q. apply digit_in in Q. discriminate. }
        assert (longest digit_chars n rest') as LN by (split; auto).
        destruct (longest_unique _ _ _ _ _ E' LA LN) as (_ & Q). symmetry in Q. now apply NX in Q. }
    split.
    + intros [= <-]. exists (sg ++ a ++ "."%char :: b), rest. rewrite E. split; [now rewrite <- !app_assoc|]. split; [|exact H].
      exists rest. split; [now rewrite <- !app_assoc|]. left. exists sg, a, b. auto.
    + intros (n & rest' & E' & LA & H'). rewrite (U n rest' E' LA) in H'. congruence.
  - assert (forall sg a b rest, s = sg ++ a ++ "."%char :: b ++ rest -> In sg [[]; chars "-"; chars "+"] -> digits a -> longest digit_chars b rest -> False) as NO.
    { intros sg a b rest ES I D L. destruct (k rest g) as [y|] eqn:H; [|now apply (K rest g)].
      assert (rmatch A s g k = Some y) as Q by (apply signed_point; [exact K|]; exists sg, a, b, rest; auto). congruence. }
    rewrite (plus_longest digitc digit_chars); [|apply digit_in|intros; apply K]. split.
    + intros (w & s' & -> & L & H). exists w, s'. split; [reflexivity|]. split; [|exact H]. exists s'. split; [reflexivity|]. right. split; [exact L|].
      intros c t -> I. destruct (some_digits c t I) as (b & rest & EB & LB). apply (NO [] w b rest); [cbn [app]; now rewrite EB|now left|apply L|exact LB].
    + intros (n & rest & E' & (r & E'' & LA) & H). assert (r = rest) as -> by (rewrite E' in E''; now apply app_inv_head in E'').
      destruct LA as [(sg & a & b & En & I & D & L)|(L & _)].
      * exfalso. apply (NO sg a b rest); auto. now apply (RA n).
      * exists n, rest. auto.
Qed.
End Match.

(** ** The pattern *)
Lemma plus_words {X} s g (k : text -> groups -> option X) x : (forall s' g', k s' g' <> None) ->
  rmatch (Plus wordc) s g k = Some x <-> exists w rest, s = w ++ rest /\ longest word_chars w rest /\ k rest g = Some x.
Proof. intros K. cbn [rmatch]. apply (plus_longest wordc word_chars); [apply word_in|intros; apply K]. Qed.

Section Pattern.
Context {X : Type} (k : text -> groups -> option X) (K : forall s' g', k s' g' <> None).
Lemma decl_match s g x :
  rmatch (Seq (lit "ObjectTemplate") (Seq (Char anyc) (Seq (Alt (lit "create") (lit "activeSafe")) (Seq (lit " Wing ") (Plus wordc))))) s g k = Some x <->
  exists sep verb name rest, s = chars "ObjectTemplate" ++ sep :: verb ++ chars " Wing " ++ name ++ rest /\ sep <> nl /\
    In verb [chars "create"; chars "activeSafe"] /\ longest word_chars name rest /\ k rest g = Some x.
Proof.
  assert (forall v s y, rmatch (Seq (lit v) (Seq (lit " Wing ") (Plus wordc))) s g k = Some y <->
    exists name rest, s = chars v ++ chars " Wing " ++ name ++ rest /\ longest word_chars name rest /\ k rest g = Some y) as W.
  { intros v s0 y. rewrite seq_lit. split.
    - intros (s1 & -> & H). apply seq_lit in H. destruct H as (s2 & -> & H). apply plus_words in H; [|exact K]. destruct H as (w & rest & -> & R). eauto.
    - intros (name & rest & -> & R). eexists. split; [reflexivity|]. apply seq_lit. eexists. split; [reflexivity|]. apply plus_words; [exact K|]. eauto. }
  rewrite seq_lit. split.
  - intros (s1 & -> & H). apply seq_char in H. destruct H as (c & s2 & -> & C & H). apply any_in in C. rewrite seq_alt in H. apply alt_excl in H.
    + destruct H as [H|H]; apply W in H; destruct H as (name & rest & -> & L & H).
      * exists c, (chars "create"), name, rest. split; [reflexivity|]. split; [exact C|]. split; [now left|]. auto.
      * exists c, (chars "activeSafe"), name, rest. split; [reflexivity|]. split; [exact C|]. split; [right; now left|]. auto.
    + intros y z H1 H2. apply W in H1, H2. destruct H1 as (n1 & r1 & -> & _), H2 as (n2 & r2 & Q & _). apply cons_inj in Q. destruct Q as (Q & _). discriminate.
  - intros (sep & verb & name & rest & -> & C & I & L & H). eexists. split; [reflexivity|]. apply seq_char. do 2 eexists. split; [reflexivity|]. split; [now apply any_in|].
    rewrite seq_alt. apply alt_excl.
    + intros y z H1 H2. apply W in H1, H2. destruct H1 as (n1 & r1 & E1 & _), H2 as (n2 & r2 & E2 & _). rewrite E1 in E2. apply cons_inj in E2. destruct E2 as (Q & _). discriminate.
    + cbn [In] in I. destruct I as [<-|[<-|[]]]; [left|right]; apply W; eauto.
Qed.
Lemma set_match what s g x :
  rmatch (Seq (lit "ObjectTemplate") (Seq (Char anyc) (Seq (lit what) lift))) s g k = Some x <->
  exists sep n rest, s = chars "ObjectTemplate" ++ sep :: chars what ++ n ++ rest /\ sep <> nl /\ lift_at (n ++ rest) n /\ k rest g = Some x.
Proof.
  rewrite seq_lit. split.
  - intros (s1 & -> & H). apply seq_char in H. destruct H as (c & s2 & -> & C & H). apply any_in in C. apply seq_lit in H. destruct H as (s3 & -> & H).
    apply lift_match in H; [|exact K]. destruct H as (n & rest & E & L & H). subst s3. exists c, n, rest. auto.
  - intros (sep & n & rest & -> & C & L & H). eexists. split; [reflexivity|]. apply seq_char. do 2 eexists. split; [reflexivity|]. split; [now apply any_in|].
    apply seq_lit. eexists. split; [reflexivity|]. apply lift_match; [exact K|]. eauto.
Qed.
End Pattern.

Lemma wing_match s m : (exists g, re_match wing_pattern s = Some (m, g)) <-> wing_at s m.
Proof.
  unfold re_match, wing_pattern. set (k := fun (s' : text) (g : groups) => Some (taken s s', g)).
  assert (forall s' g', k s' g' <> None) as K by discriminate.
  assert (forall u v (a b w1 w2 : text), chars "ObjectTemplate" ++ u :: w1 ++ a = chars "ObjectTemplate" ++ v :: w2 ++ b -> w1 ++ a = w2 ++ b) as HD.
  { intros u v a b w1 w2 Q. apply app_inv_head in Q. apply cons_inj in Q. apply Q. }
  assert (forall g0, rmatch (Alt (Alt (Seq (lit "ObjectTemplate") (Seq (Char anyc) (Seq (Alt (lit "create") (lit "activeSafe")) (Seq (lit " Wing ") (Plus wordc)))))
           (Seq (lit "ObjectTemplate") (Seq (Char anyc) (Seq (lit "setWingLift ") lift))))
      (Seq (lit "ObjectTemplate") (Seq (Char anyc) (Seq (lit "setFlapLift ") lift)))) s [] k = Some (m, g0) <->
    (rmatch (Seq (lit "ObjectTemplate") (Seq (Char anyc) (Seq (Alt (lit "create") (lit "activeSafe")) (Seq (lit " Wing ") (Plus wordc))))) s [] k = Some (m, g0) \/
     rmatch (Seq (lit "ObjectTemplate") (Seq (Char anyc) (Seq (lit "setWingLift ") lift))) s [] k = Some (m, g0)) \/
     rmatch (Seq (lit "ObjectTemplate") (Seq (Char anyc) (Seq (lit "setFlapLift ") lift))) s [] k = Some (m, g0)) as EX.
  { assert (forall y z, rmatch (Seq (lit "ObjectTemplate") (Seq (Char anyc) (Seq (Alt (lit "create") (lit "activeSafe")) (Seq (lit " Wing ") (Plus wordc))))) s [] k = Some y ->
       forall w, In w ["setWingLift "; "setFlapLift "]%string -> rmatch (Seq (lit "ObjectTemplate") (Seq (Char anyc) (Seq (lit w) lift))) s [] k = Some z -> False) as X1.
    { intros y z H1 w W H2. apply decl_match in H1; [|exact K]. apply set_match in H2; [|exact K].
      destruct H1 as (sep & verb & name & rest & E1 & _ & I & _), H2 as (sep' & n & rest' & E2 & _). rewrite E1 in E2. apply HD in E2.
      cbn [In] in I, W. destruct I as [<-|[<-|[]]], W as [<-|[<-|[]]]; apply cons_inj in E2; destruct E2 as (Q & _); discriminate. }
    assert (forall y z, rmatch (Seq (lit "ObjectTemplate") (Seq (Char anyc) (Seq (lit "setWingLift ") lift))) s [] k = Some y ->
      rmatch (Seq (lit "ObjectTemplate") (Seq (Char anyc) (Seq (lit "setFlapLift ") lift))) s [] k = Some z -> False) as X2.
    { intros y z H1 H2. apply set_match in H1, H2; try exact K. destruct H1 as (sep & n & rest & E1 & _), H2 as (sep' & n' & rest' & E2 & _). rewrite E1 in E2. apply HD in E2.
      cbn [chars list_ascii_of_string app] in E2. do 3 (apply cons_inj in E2; destruct E2 as (_ & E2)). apply cons_inj in E2. destruct E2 as (Q & _). discriminate. }
    intros g0. rewrite alt_excl.
    - rewrite alt_excl; [reflexivity|]. intros y z H1 H2. apply (X1 y z H1 "setWingLift "%string); [now left|exact H2].
    - intros y z H1 H2. apply alt_excl in H1.
      + destruct H1 as [H1|H1]; [apply (X1 y z H1 "setFlapLift "%string); [right; now left|exact H2]|now apply (X2 y z)].
      + intros y' z' H3 H4. apply (X1 y' z' H3 "setWingLift "%string); [now left|exact H4]. }
  assert (forall w1 (sep : ascii) (w2 n rest : text), s = w1 ++ sep :: w2 ++ n ++ rest -> taken s rest = w1 ++ sep :: w2 ++ n) as TK.
  { intros w1 sep w2 n rest ->. transitivity (taken ((w1 ++ sep :: w2 ++ n) ++ rest) rest); [|apply taken_app]. f_equal.
    repeat (rewrite <- ?app_assoc; cbn [app]). reflexivity. }
  split.
  - intros (g & H). apply EX in H. destruct H as [[H|H]|H].
    + apply decl_match in H; [|exact K]. destruct H as (sep & verb & name & rest & E & C & I & L & H). unfold k in H.
      rewrite app_assoc in E. rewrite (TK (chars "ObjectTemplate") sep (verb ++ chars " Wing ") name rest) in H by (rewrite E, <- !app_assoc; reflexivity).
      injection H as H _. exists sep, rest. rewrite <- H. split; [rewrite E; repeat (rewrite <- ?app_assoc; cbn [app]); reflexivity|]. split; [exact C|]. left. exists verb, name.
      split; [exact I|]. split; [now rewrite <- app_assoc|exact L].
    + apply set_match in H; [|exact K]. destruct H as (sep & n & rest & E & C & L & H). unfold k in H. rewrite (TK _ _ _ _ _ E) in H. injection H as H _.
      exists sep, rest. rewrite <- H. split; [rewrite E; repeat (rewrite <- ?app_assoc; cbn [app]); reflexivity|]. split; [exact C|]. right. exists (chars "setWingLift "), n.
      split; [now left|]. auto.
    + apply set_match in H; [|exact K]. destruct H as (sep & n & rest & E & C & L & H). unfold k in H. rewrite (TK _ _ _ _ _ E) in H. injection H as H _.
      exists sep, rest. rewrite <- H. split; [rewrite E; repeat (rewrite <- ?app_assoc; cbn [app]); reflexivity|]. split; [exact C|]. right. exists (chars "setFlapLift "), n.
      split; [right; now left|]. auto.
  - intros (sep & rest & E & C & [(verb & name & I & -> & L)|(what & n & I & -> & L)]).
    + exists []. apply EX. left. left. apply decl_match; [exact K|]. exists sep, verb, name, rest.
      assert (s = chars "ObjectTemplate" ++ sep :: verb ++ chars " Wing " ++ name ++ rest) as E' by (rewrite E; repeat (rewrite <- ?app_assoc; cbn [app]); reflexivity).
      split; [exact E'|]. do 3 (split; [assumption|]). unfold k. rewrite (TK (chars "ObjectTemplate") sep (verb ++ chars " Wing ") name rest) by (rewrite E', <- !app_assoc; reflexivity).
      now rewrite <- app_assoc.
    + assert (s = chars "ObjectTemplate" ++ sep :: what ++ n ++ rest) as E' by (rewrite E; repeat (rewrite <- ?app_assoc; cbn [app]); reflexivity).
      exists []. apply EX. cbn [In] in I. destruct I as [<-|[<-|[]]]; [left; right|right]; (apply set_match; [exact K|]; exists sep, n, rest; split; [exact E'|];
        do 2 (split; [assumption|]); unfold k; now rewrite (TK _ _ _ _ _ E')).
Qed.
Theorem wing_unique s m m' : wing_at s m -> wing_at s m' -> m = m'.
Proof. intros H H'. apply wing_match in H, H'. destruct H as (g & H), H' as (g' & H'). congruence. Qed.
Lemma wing_none s : re_match wing_pattern s = None <-> ~ is_wing s.
Proof.
  split.
  - intros H (m & W). apply wing_match in W. destruct W as (g & E). congruence.
  - intros H. destruct (re_match wing_pattern s) as [(m, g)|] eqn:E; [|reflexivity]. exfalso. apply H. exists m. apply wing_match. eauto.
Qed.
Lemma line_wing_model l r : line_wing l r <-> r = match re_search wing_pattern l with Some (m, _) => [m] | None => [] end.
Proof.
  assert (forall m g, re_search wing_pattern l = Some (m, g) -> exists s, first_suffix is_wing l s /\ wing_at s m) as S.
  { intros m g H. apply search_some in H. destruct H as (pre & s & E & M & F). assert (wing_at s m) as W by (apply wing_match; eauto).
    exists s. split; [|exact W]. exists pre. split; [exact E|]. split; [now exists m|]. intros pre' s' E' L. apply wing_none. eauto. }
  assert (re_search wing_pattern l = None -> ~ some_suffix is_wing l) as N.
  { intros H (pre & s & E & W). apply search_none with (pre := pre) (s := s) in H; [|exact E]. now apply wing_none in H. }
  destruct (re_search wing_pattern l) as [(m, g)|] eqn:E.
  - destruct (S m g eq_refl) as (s & FS & W). split.
    + intros [(s' & m' & FS' & W' & ->)|(Q & _)].
      * rewrite (first_suffix_unique _ _ _ _ FS FS') in W. now rewrite (wing_unique _ _ _ W W').
      * exfalso. apply Q. now apply first_some in FS.
    + intros ->. left. eauto.
  - specialize (N eq_refl). split.
    + intros [(s' & m' & FS' & _)|(_ & ->)]; [|reflexivity]. exfalso. apply N. now apply first_some in FS'.
    + intros ->. right. auto.
Qed.
Lemma wing_lines_model ls r : wing_lines ls r <-> r = print_wings ls.
Proof.
  unfold wing_lines, print_wings. split.
  - intros (rs & H & ->). induction H as [|l x ls rs H _ IH]; [reflexivity|]. cbn. apply line_wing_model in H. subst x. now rewrite IH.
  - intros ->. exists (map (fun l => match re_search wing_pattern l with Some (m, _) => [m] | None => [] end) ls). split; [|apply flat_map_concat_map].
    induction ls as [|l ls IH]; constructor; [now apply line_wing_model|exact IH].
Qed.

(** ** Included files *)
Lemma include_model folder l :
  match re_search pattern2 l with
  | Some (m, _) => exists n, py_get (split space m) 1 = Ok n /\ forall p, includes folder l p <-> p = path_join folder n
  | None => ~ some_suffix is_include l
  end.
Proof.
  destruct (re_search pattern2 l) as [(m, g)|] eqn:E; [|now apply search2_none].
  destruct (proj1 (search2 l m)) as (s & w & sep & FS & D & ->); [eauto|]. pose proof D as ((rest & _ & NW & FW & _) & _).
  assert (exists n, included_name w sep n) as (n & IN).
  { destruct (ascii_dec sep sp) as [->|N]; [exists w|exists (w ++ sep :: chars "tweak")]; split; intros; congruence || reflexivity. }
  exists n. split; [now apply (include_split s w sep n D)|]. destruct (included_word w sep n IN NW FW) as (c & t & En & Nc). intros p. split.
  - intros (s' & w' & sep' & n' & FS' & D' & IN' & IF). pose proof (first_suffix_unique _ _ _ _ FS FS') as <-.
    destruct (include_unique _ _ _ _ _ D D') as (<- & <-).
    assert (n' = n) as -> by (apply (include_split s w sep n D) in IN; apply (include_split s w sep n' D) in IN'; congruence).
    symmetry. now apply (path_join_folder folder n p c t).
  - intros ->. exists s, w, sep, n. do 3 (split; [assumption|]). now apply (path_join_folder folder n _ c t).
Qed.
Theorem includes_unique folder l p p' : includes folder l p -> includes folder l p' -> p = p'.
Proof.
  intros H H'. pose proof (include_model folder l) as M. destruct (re_search pattern2 l) as [(m, g)|].
  - destruct M as (n & _ & U). apply U in H, H'. congruence.
  - exfalso. apply M. destruct H as (s & _ & _ & _ & FS & _). now apply first_some in FS.
Qed.
Lemma wings_lines f folder ls out e : wings_of_lines f folder ls = (out, e) <->
  match e with
  | None => exists rs, Forall2 (line_prints f folder) ls rs /\ out = concat rs
  | Some x => exists before l after rs p, ls = before ++ l :: after /\ Forall2 (line_prints f folder) before rs /\ out = concat rs /\ includes folder l p /\ open_rb f p = Raise x
  end.
Proof.
  revert out e. induction ls as [|l ls IH]; intros out e; cbn [wings_of_lines].
  - split.
    + intros [= <- <-]. exists []. auto.
    + destruct e as [x|].
      * intros (be & l & af & rs & p & E & _). destruct be; discriminate.
      * intros (rs & H & ->). inversion H. reflexivity.
  - pose proof (include_model folder l) as M. destruct (re_search pattern2 l) as [(m, g)|].
    + destruct M as (n & Hn & U). rewrite Hn. cbn [bind]. set (q := path_join folder n) in *. unfold open_text.
      assert (some_suffix is_include l) as SI. { destruct (proj2 (U q) eq_refl) as (s & _ & _ & _ & FS & _). now apply first_some in FS. }
      assert (forall r, line_prints f folder l r <-> exists bs, open_rb f q = Ok bs /\ r = print_wings (lines (universal bs))) as LP.
      { intros r. split.
        - intros [(p & bs & ls' & I & O & TL & W)|(N & _)]; [|contradiction]. apply U in I. subst p. exists bs. split; [exact O|]. apply wing_lines_model in W.
          now rewrite <- (text_lines_unique _ _ TL).
        - intros (bs & O & ->). left. exists q, bs, (lines (universal bs)). split; [now apply U|]. split; [exact O|]. split; [apply text_lines_lines|now apply wing_lines_model]. }
      destruct (open_rb f q) as [bs|x] eqn:O; cbn [rmap bind].
      * destruct (wings_of_lines f folder ls) as (out', e') eqn:W. split.
        -- intros [= <- <-]. pose proof (proj1 (IH out' e') eq_refl) as H. destruct e' as [x|].
           ++ destruct H as (be & l' & af & rs & p & -> & F & -> & I & O'). exists (l :: be), l', af, (print_wings (lines (universal bs)) :: rs), p.
              split; [reflexivity|]. split; [constructor; [apply LP; eauto|exact F]|]. auto.
           ++ destruct H as (rs & F & ->). exists (print_wings (lines (universal bs)) :: rs). split; [constructor; [apply LP; eauto|exact F]|reflexivity].
        -- intros H. destruct e as [x|].
           ++ destruct H as ([|l0 be] & l' & af & rs & p & E & F & -> & I & O'); cbn [app] in E; injection E as <- ->.
              ** apply U in I. subst p. congruence.
              ** inversion F as [|? r ? rs' L F']. subst. apply LP in L. destruct L as (bs' & [= <-] & ->).
                 assert ((out', e') = (concat rs', Some x)) as Q by (apply IH; exists be, l', af, rs', p; auto). injection Q as -> ->. reflexivity.
           ++ destruct H as (rs & F & ->). inversion F as [|? r ? rs' L F']. subst. apply LP in L. destruct L as (bs' & [= <-] & ->).
              assert ((out', e') = (concat rs', None)) as Q by (apply IH; exists rs'; auto). injection Q as -> ->. reflexivity.
      * split.
        -- intros [= <- <-]. exists [], l, ls, [], q. split; [reflexivity|]. split; [constructor|]. split; [reflexivity|]. split; [now apply U|exact O].
        -- intros H. destruct e as [y|].
           ++ destruct H as ([|l0 be] & l' & af & rs & p & E & F & -> & I & O'); cbn [app] in E; injection E as <- ->.
              ** apply U in I. subst p. inversion F. assert (y = x) as -> by congruence. reflexivity.
              ** exfalso. inversion F as [|? r ? rs' L F']. subst. apply LP in L. destruct L as (bs' & Q & _). discriminate.
           ++ exfalso. destruct H as (rs & F & ->). inversion F as [|? r ? rs' L F']. subst. apply LP in L. destruct L as (bs' & Q & _). discriminate.
    + assert (forall r, line_prints f folder l r <-> r = []) as LP.
      { intros r. split; [|intros ->; right; auto]. intros [(p & bs & ls' & (s & w & sep & n & FS & _) & _)|(_ & ->)]; [|reflexivity]. exfalso. apply M. now apply first_some in FS. }
      rewrite IH. destruct e as [x|].
      * split.
        -- intros (be & l' & af & rs & p & -> & F & -> & R). exists (l :: be), l', af, ([] :: rs), p. split; [reflexivity|]. split; [constructor; [now apply LP|exact F]|]. auto.
        -- intros ([|l0 be] & l' & af & rs & p & E & F & -> & I & O); cbn [app] in E; injection E as <- ->.
           ++ exfalso. apply M. destruct I as (s & _ & _ & _ & FS & _). now apply first_some in FS.
           ++ inversion F as [|? r ? rs' L F']. subst. apply LP in L. subst r. exists be, l', af, rs', p. auto.
      * split.
        -- intros (rs & F & ->). exists ([] :: rs). split; [constructor; [now apply LP|exact F]|reflexivity].
        -- intros (rs & F & ->). inversion F as [|? r ? rs' L F']. subst. apply LP in L. subst r. exists rs'. auto.
Qed.
Theorem wings_printed f path bs ls out e : open_rb f path = Ok bs -> text_lines bs ls -> get_wings f path = (out, e) <->
  match e with
  | None => exists rs, Forall2 (line_prints f (dirname path)) ls rs /\ out = concat rs
  | Some x => exists before l after rs p, ls = before ++ l :: after /\ Forall2 (line_prints f (dirname path)) before rs /\ out = concat rs /\
      includes (dirname path) l p /\ open_rb f p = Raise x
  end.
Proof. intros O TL. unfold get_wings, open_text. rewrite O. cbn [rmap bind]. rewrite (text_lines_unique _ _ TL). apply wings_lines. Qed.
Theorem wings_unopened f path e : open_rb f path = Raise e -> get_wings f path = ([], Some e).
Proof. intros O. unfold get_wings, open_text. now rewrite O. Qed.

(** The same files are opened as for the list of children. *)
Theorem wings_raise f path e : snd (get_wings f path) = Some e <-> get_child_list f path = Raise e.
Proof.
  unfold get_wings, get_child_list. destruct (open_text f path) as [s|x]; cbn [bind].
  - generalize (lines s). intros ls. induction ls as [|l ls IH]; cbn [wings_of_lines children_of_lines]; [split; discriminate|].
    destruct (re_search pattern2 l) as [(m, g)|].
    + destruct (py_get (split space m) 1) as [n|x]; cbn [bind].
      * destruct (open_text f (path_join (fst (path_split path)) n)) as [t|x]; cbn [bind].
        -- destruct (wings_of_lines f (fst (path_split path)) ls) as (out, e'). cbn [snd] in *. rewrite IH.
           destruct (children_of_lines f (fst (path_split path)) ls); cbn [bind]; split; congruence.
        -- cbn. split; congruence.
      * cbn. split; congruence.
    + cbn [bind]. rewrite IH. destruct (children_of_lines f (fst (path_split path)) ls); cbn [bind]; split; congruence.
  - cbn. split; congruence.
Qed.

(** ** Jet *)
Theorem jet_loads f path j : match get_root f path with
  | Ok (Some (a, b)) => forall out e, get_wings f path = (out, e) ->
      exists w, jet_load f path j = (MkJet (Some b) (Some a) w, out, e) /\ w = match e with None => None | Some _ => jet_wings j end
  | Ok None => jet_load f path j = (j, [], Some EType)
  | Raise e => jet_load f path j = (j, [], Some e) /\ open_rb f path = Raise e
  end.
Proof.
  unfold jet_load. destruct (get_root f path) as [[(a, b)|]|e] eqn:G.
  - intros out e ->. destruct e; eauto.
  - reflexivity.
  - split; [reflexivity|]. destruct (open_rb f path) as [bs|x] eqn:O.
    + destruct (get_root_total f path bs O) as (r & Q). congruence.
    + unfold get_root, open_text in G. rewrite O in G. cbn in G. congruence.
Qed.
Theorem jet_no_wings f path j j' out : jet_load f path j = (j', out, None) -> jet_wings j' = None.
Proof.
  unfold jet_load. destruct (get_root f path) as [[(a, b)|]|e]; try discriminate. destruct (get_wings f path) as (o, [e|]); [discriminate|]. now intros [= <- <-].
Qed.
(** A negative integer is not read. *)
Theorem negative_lift sep what w : In what [chars "setWingLift "; chars "setFlapLift "] -> Forall (fun c => In c digit_chars) w ->
  ~ is_wing (chars "ObjectTemplate" ++ sep :: what ++ "-"%char :: w ++ [nl]).
Proof.
  intros W D (m & sep' & rest & E & _ & [(verb & name & I & -> & _)|(what' & n & I & -> & L)]).
  - rewrite <- app_assoc in E. apply app_inv_head in E. cbn [app] in E. apply cons_inj in E. destruct E as (_ & E). cbn [In] in W, I.
    destruct W as [<-|[<-|[]]], I as [<-|[<-|[]]]; apply cons_inj in E; destruct E as (Q & _); discriminate.
  - rewrite <- app_assoc in E. apply app_inv_head in E. cbn [app] in E. apply cons_inj in E. destruct E as (_ & E). rewrite <- app_assoc in E.
    assert ("-"%char :: w ++ [nl] = n ++ rest) as E'.
    { assert (what = what') as <-; [|now apply app_inv_head in E]. cbn [In] in W, I. destruct W as [<-|[<-|[]]], I as [<-|[<-|[]]]; try reflexivity; exfalso;
        cbn [chars list_ascii_of_string app] in E; do 3 (apply cons_inj in E; destruct E as (_ & E)); apply cons_inj in E; destruct E as (Q & _); discriminate. }
    assert (~ In "."%char ("-"%char :: w ++ [nl])) as ND.
    { intros Q. cbn [In] in Q. destruct Q as [Q|Q]; [discriminate|]. apply in_app_or in Q. destruct Q as [Q|[Q|[]]]; [|discriminate].
      rewrite Forall_forall in D. specialize (D _ Q). apply digit_in in D. discriminate. }
    destruct L as (r & _ & [(sg & a & b & -> & _)|((NE & F & _) & _)]).
    + apply ND. rewrite E'. rewrite <- !app_assoc. cbn [app]. apply in_or_app. right. apply in_or_app. right. now left.
    + destruct n as [|c n]; [contradiction|]. cbn [app] in E'. apply cons_inj in E'. destruct E' as (<- & _). inversion F as [|? ? Q _]. apply digit_in in Q. discriminate.
Qed.
