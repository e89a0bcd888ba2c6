(** Regular expression matching of Bf2.v. *)
From Coq Require Import ZArith Bool Ascii String List Lia.
From Verif Require Import PyBase Struct Mesh Arith Edit Obj Bf2 SpecBf2.
Import ListNotations.
Open Scope Z_scope.

Lemma of_string_chars s : of_string s = chars s.
Proof. induction s as [|c s IH]; [reflexivity|]. cbn. now rewrite IH. Qed.

Lemma taken_app (a b : text) : taken (a ++ b) b = a.
Proof. unfold taken. rewrite app_length, Nat.add_sub. rewrite firstn_app, Nat.sub_diag, firstn_all. apply app_nil_r. Qed.

Lemma same_split {B} (a b c d : list B) : a ++ b = c ++ d -> List.length a = List.length c -> a = c /\ b = d.
Proof.
  revert c. induction a as [|x a IH]; intros [|y c] E L; try discriminate; [auto|]. injection E as <- E. cbn in L.
  destruct (IH c E) as (-> & ->); [lia|auto].
Qed.

(** ** Character classes *)
Lemma by_code (P : ascii -> bool) : forallb (fun n => P (ascii_of_nat n)) (seq 0 256) = true -> forall c, P c = true.
Proof.
  intros H c. rewrite forallb_forall in H. specialize (H (nat_of_ascii c)). rewrite ascii_nat_embedding in H. apply H.
  apply in_seq. pose proof (nat_ascii_bounded c). lia.
Qed.
Definition mem (c : ascii) (l : text) : bool := existsb (Ascii.eqb c) l.
Lemma mem_in c l : mem c l = true <-> In c l.
Proof.
  unfold mem. rewrite existsb_exists. split; [intros (x & H & E); apply Ascii.eqb_eq in E; congruence|].
  intros H. exists c. split; [exact H|apply Ascii.eqb_refl].
Qed.
Lemma word_in c : wordc c = true <-> In c word_chars.
Proof. rewrite <- mem_in. assert (wordc c = mem c word_chars) as ->; [|reflexivity]. apply eqb_prop. revert c. apply by_code. vm_compute. reflexivity. Qed.
Lemma digit_in c : digitc c = true <-> In c digit_chars.
Proof. rewrite <- mem_in. assert (digitc c = mem c digit_chars) as ->; [|reflexivity]. apply eqb_prop. revert c. apply by_code. vm_compute. reflexivity. Qed.
Lemma any_in c : anyc c = true <-> c <> nl.
Proof. unfold anyc. change newline with nl. destruct (Ascii.eqb_spec c nl); cbn; split; congruence. Qed.

(** ** Literals *)
Fixpoint strip (w s : text) : option text :=
  match w with
  | [] => Some s
  | c :: w' => match s with d :: t => if Ascii.eqb c d then strip w' t else None | [] => None end
  end.
Lemma strip_some w : forall s s', strip w s = Some s' <-> s = w ++ s'.
Proof.
  induction w as [|c w IH]; intros s s'; cbn; [split; congruence|]. destruct s as [|d t]; [split; discriminate|].
  destruct (Ascii.eqb_spec c d) as [->|N]; [|split; congruence]. rewrite IH. split; congruence.
Qed.
Lemma strip_app w s : strip w (w ++ s) = Some s. Proof. now apply strip_some. Qed.

Section Match.
Context {X : Type}.
Implicit Types (k : text -> groups -> option X).

Lemma rmatch_lit w s g k : rmatch (lit w) s g k = match strip (chars w) s with Some s' => k s' g | None => None end.
Proof.
  unfold lit. rewrite of_string_chars. generalize (chars w). intros l. revert s. induction l as [|c l IH]; intros s; [reflexivity|].
  cbn. destruct s as [|d t]; [reflexivity|]. destruct (Ascii.eqb c d); [apply IH|reflexivity].
Qed.
Lemma rmatch_alts ws w0 s g k : rmatch (alts (w0 :: ws)) s g k =
  fold_left (fun o w => match o with Some x => Some x | None => match strip (chars w) s with Some s' => k s' g | None => None end end)
            (w0 :: ws) None.
Proof.
  cbn [alts fold_left]. rewrite <- rmatch_lit. generalize (lit w0). revert w0. induction ws as [|w ws IH]; intros w0 r; [reflexivity|].
  cbn [fold_left]. rewrite IH. cbn [rmatch]. now rewrite rmatch_lit. exact w0.
Qed.
Lemma alts_some ws s g k x : (forall w w' s1 s2, In w ws -> In w' ws -> strip (chars w) s = Some s1 -> strip (chars w') s = Some s2 ->
    k s1 g <> None -> k s2 g <> None -> w = w') ->
  forall o, fold_left (fun o w => match o with Some x => Some x | None => match strip (chars w) s with Some s' => k s' g | None => None end end) ws o = Some x <->
  o = Some x \/ (o = None /\ exists w s', In w ws /\ strip (chars w) s = Some s' /\ k s' g = Some x).
Proof.
  induction ws as [|w ws IH]; intros U o; cbn [fold_left].
  - split; [now left|]. intros [H|(_ & w & s' & [] & _)]. exact H.
  - rewrite IH by (intros; eapply U; eauto; now right). destruct o as [y|].
    + split; [intros [H|(H & _)]; [now left|discriminate]|]. intros [H|(H & _)]; [now left|discriminate].
    + destruct (strip (chars w) s) as [s1|] eqn:E.
      * destruct (k s1 g) as [y|] eqn:K.
        -- split.
           ++ intros [H|(H & _)]; [|discriminate]. right. split; [reflexivity|]. exists w, s1. split; [now left|]. split; [exact E|congruence].
           ++ intros [H|(_ & w' & s2 & [<-|H] & E' & K')]; [discriminate| |].
              ** left. congruence.
              ** left. assert (w = w') as <-; [|congruence]. apply (U w w' s1 s2); auto; [now left|now right| |]; congruence.
        -- split.
           ++ intros [H|(_ & w' & s2 & H & E' & K')]; [discriminate|]. right. split; [reflexivity|]. exists w', s2. split; [now right|auto].
           ++ intros [H|(_ & w' & s2 & [<-|H] & E' & K')]; [discriminate|congruence|]. right. split; [reflexivity|]. eauto.
      * split.
        -- intros [H|(_ & w' & s2 & H & E' & K')]; [discriminate|]. right. split; [reflexivity|]. exists w', s2. split; [now right|auto].
        -- intros [H|(_ & w' & s2 & [<-|H] & E' & K')]; [discriminate|congruence|]. right. split; [reflexivity|]. eauto.
Qed.

(** ** Repetition *)
(** Backtracks to the longest prefix after which [k] succeeds. *)
Lemma plus_some p s (k : text -> option X) x : plus p s k = Some x <->
  exists w s', s = w ++ s' /\ w <> [] /\ forallb p w = true /\ k s' = Some x /\
    forall w' s1, s = w' ++ s1 -> forallb p w' = true -> (List.length w < List.length w')%nat -> k s1 = None.
Proof.
  revert x. induction s as [|c t IH]; intros x; cbn.
  - split; [discriminate|]. intros (w & s' & E & N & _). destruct w; [congruence|discriminate].
  - destruct (p c) eqn:P.
    + destruct (plus p t k) as [y|] eqn:E.
      * specialize (IH y). destruct IH as (IH & _). destruct (IH eq_refl) as (w & s' & -> & N & F & K & L). split.
        -- intros [= <-]. exists (c :: w), s'. split; [reflexivity|]. split; [discriminate|]. cbn. rewrite P, F. split; [reflexivity|].
           split; [exact K|]. intros [|d w'] s1 E' F' L'; [cbn in L'; lia|]. injection E' as <- E'. cbn in F'. rewrite P in F'.
           apply (L w' s1 E' F'). cbn in L'. lia.
        -- intros (w1 & s1 & E1 & N1 & F1 & K1 & L1). destruct w1 as [|d w1]; [congruence|]. injection E1 as <- E1. f_equal.
           destruct (Nat.lt_trichotomy (List.length w) (List.length w1)) as [H|[H|H]].
           ++ cbn in F1. rewrite P in F1. rewrite (L w1 s1 E1 F1 H) in K1. discriminate.
           ++ assert (w = w1 /\ s' = s1) as (-> & ->); [|congruence]. 
              now apply same_split.
           ++ exfalso. rewrite (L1 (c :: w) s') in K; [discriminate|reflexivity|cbn; now rewrite P, F|cbn; lia].
      * assert (forall y, ~ exists w s', t = w ++ s' /\ w <> [] /\ forallb p w = true /\ k s' = Some y /\
           forall w' s1, t = w' ++ s1 -> forallb p w' = true -> (List.length w < List.length w')%nat -> k s1 = None) as IH'.
        { intros y H. apply IH in H. discriminate. }
        assert (forall w s1, t = w ++ s1 -> w <> [] -> forallb p w = true -> k s1 = None) as N.
        { assert (forall n w s1, (List.length t - List.length w <= n)%nat -> t = w ++ s1 -> w <> [] -> forallb p w = true -> k s1 = None) as G.
          { induction n as [|n IHn]; intros w s1 Hn E1 N1 F1; destruct (k s1) as [y|] eqn:K; auto; exfalso; apply (IH' y); exists w, s1;
              (split; [exact E1|]); (split; [exact N1|]); (split; [exact F1|]); (split; [exact K|]); intros w' s2 E2 F2 L2.
            - pose proof (f_equal (@List.length ascii) E2) as H. rewrite app_length in H. lia.
            - pose proof (f_equal (@List.length ascii) E2) as H. rewrite app_length in H. apply (IHn w'); auto; [lia|]. destruct w'; [cbn in L2; lia|discriminate]. }
          intros w s1. apply (G (List.length t)). lia. }
        split.
        -- intros K. exists [c], t. split; [reflexivity|]. split; [discriminate|]. cbn. rewrite P. split; [reflexivity|]. split; [exact K|].
           intros [|d w'] s1 E' F' L'; [cbn in L'; lia|]. injection E' as <- E'. cbn in F', L'. rewrite P in F'. apply (N w'); auto.
           destruct w'; [cbn in L'; lia|discriminate].
        -- intros (w & s' & E' & N' & F' & K' & _). destruct w as [|d w]; [congruence|]. injection E' as <- E'. cbn in F'. rewrite P in F'.
           destruct w as [|d w]; [cbn in E'; congruence|]. rewrite (N (d :: w) s' E') in K'; [discriminate|discriminate|exact F'].
    + split; [discriminate|]. intros (w & s' & E & N & F & _). destruct w as [|d w]; [congruence|]. injection E as <- E. cbn in F. rewrite P in F. discriminate.
Qed.
End Match.

(** With a continuation that always succeeds: the longest prefix. *)
Lemma plus_longest {X} p cs s (k : text -> option X) x : (forall c, p c = true <-> In c cs) -> (forall s', k s' <> None) ->
  plus p s k = Some x <-> exists w s', s = w ++ s' /\ longest cs w s' /\ k s' = Some x.
Proof.
  intros C K. rewrite plus_some. unfold longest.
  assert (forall w, forallb p w = true <-> Forall (fun c => In c cs) w) as FB.
  { intros w. rewrite forallb_forall, Forall_forall. split; intros H c Hc; apply C; auto. }
  split; intros (w & s' & E & H).
  - destruct H as (N & F & K' & L). exists w, s'. split; [exact E|]. split; [|exact K']. split; [exact N|]. split; [now apply FB|].
    destruct s' as [|c t]; [exact I|]. intros Hc. apply (K t). apply (L (w ++ [c]) t).
    + now rewrite <- app_assoc.
    + rewrite forallb_app, F. cbn. now rewrite (proj2 (C c) Hc).
    + rewrite app_length. cbn. lia.
  - destruct H as ((N & F & M) & K'). exists w, s'. split; [exact E|]. split; [exact N|]. split; [now apply FB|]. split; [exact K'|].
    intros w' s1 E' F' L'. exfalso. rewrite E in E'. clear -E' F' L' M FB. apply FB in F'.
    revert w' E' F' L'. induction w as [|c w IH]; intros w' E' F' L'.
    + destruct w' as [|d w']; [cbn in L'; lia|]. cbn in E'. subst s'. inversion F' as [|? ? Hd _]. contradiction.
    + destruct w' as [|d w']; [cbn in L'; lia|]. injection E' as <- E'. inversion F'. apply (IH w'); auto. cbn in L'. lia.
Qed.
Lemma longest_unique cs w s w' s' : w ++ s = w' ++ s' -> longest cs w s -> longest cs w' s' -> w = w' /\ s = s'.
Proof.
  intros E (_ & F & M) (_ & F' & M'). revert w' E F'. induction w as [|c w IH]; intros [|d w'] E F'; cbn in E.
  - auto.
  - subst s. inversion F'. contradiction.
  - subst s'. inversion F. contradiction.
  - injection E as <- E. inversion F. inversion F'. destruct (IH ltac:(assumption) w' E ltac:(assumption)) as (-> & ->). auto.
Qed.

(** ** Searching *)
Lemma search_some r l m g : re_search r l = Some (m, g) <->
  exists pre s, l = pre ++ s /\ re_match r s = Some (m, g) /\ forall pre' s', l = pre' ++ s' -> (List.length pre' < List.length pre)%nat -> re_match r s' = None.
Proof.
  induction l as [|c t IH]; cbn [re_search].
  - destruct (re_match r []) as [x|] eqn:E.
    + split.
      * intros [= ->]. exists [], []. split; [reflexivity|]. split; [exact E|]. intros pre' s' _ L. cbn in L. lia.
      * intros (pre & s & E' & M & _). symmetry in E'. apply app_eq_nil in E'. destruct E' as (-> & ->). congruence.
    + split; [discriminate|]. intros (pre & s & E' & M & _). symmetry in E'. apply app_eq_nil in E'. destruct E' as (-> & ->). congruence.
  - destruct (re_match r (c :: t)) as [x|] eqn:E.
    + split.
      * intros [= ->]. exists [], (c :: t). split; [reflexivity|]. split; [exact E|]. intros pre' s' _ L. cbn in L. lia.
      * intros (pre & s & E' & M & L). destruct pre as [|d pre]; [cbn in E'; congruence|]. rewrite (L [] (c :: t)) in E; [discriminate|reflexivity|cbn; lia].
    + rewrite IH. split.
      * intros (pre & s & -> & M & L). exists (c :: pre), s. split; [reflexivity|]. split; [exact M|]. intros [|d pre'] s' E' L'.
        -- cbn in E'. congruence.
        -- injection E' as <- E'. cbn in L'. apply (L pre' s' E'). lia.
      * intros (pre & s & E' & M & L). destruct pre as [|d pre]; [cbn in E'; congruence|]. injection E' as <- E'. exists pre, s. split; [exact E'|].
        split; [exact M|]. intros pre' s' E1 L1. apply (L (c :: pre') s'); [cbn; congruence|cbn; lia].
Qed.
Lemma search_none r l : re_search r l = None <-> forall pre s, l = pre ++ s -> re_match r s = None.
Proof.
  split.
  - intros H. induction l as [|c t IH]; intros pre s E; cbn [re_search] in H.
    + symmetry in E. apply app_eq_nil in E. destruct E as (-> & ->). now destruct (re_match r []).
    + destruct (re_match r (c :: t)) eqn:M; [discriminate|]. destruct pre as [|d pre]; [cbn in E; congruence|]. injection E as <- E. exact (IH H pre s E).
  - intros H. destruct (re_search r l) as [(m, g)|] eqn:E; [|reflexivity]. apply search_some in E. destruct E as (pre & s & E & M & _).
    rewrite (H pre s E) in M. discriminate.
Qed.
Lemma search_dec r l : re_search r l = None \/ exists m g, re_search r l = Some (m, g).
Proof. destruct (re_search r l) as [(m, g)|]; eauto. Qed.
