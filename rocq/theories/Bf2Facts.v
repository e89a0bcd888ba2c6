(** Proofs about deprecated/bf2.py. *)
From Coq Require Import ZArith Bool Ascii String List Lia.
From Verif Require Import PyBase Struct Mesh Arith Edit Obj Bf2 SpecBf2 ReFacts.
Import ListNotations.
Open Scope Z_scope.

Lemma chars_inj a b : chars a = chars b -> a = b.
Proof. intros H. rewrite <- (string_of_list_ascii_of_string a), <- (string_of_list_ascii_of_string b). now rewrite H. Qed.

Lemma cons_inj {B} (x y : B) a b : x :: a = y :: b -> x = y /\ a = b.
Proof. intros [= -> ->]. auto. Qed.

(** ** Separators *)
Lemma sep_unique {B} (c : B) a b x y : a ++ c :: x = b ++ c :: y -> ~ In c a -> ~ In c b -> a = b /\ x = y.
Proof.
  revert b. induction a as [|d a IH]; intros [|e b] E Na Nb; cbn in E.
  - injection E as ->. auto.
  - injection E as -> _. exfalso. apply Nb. now left.
  - injection E as -> _. exfalso. apply Na. now left.
  - injection E as <- E. destruct (IH b E) as (-> & ->); auto; intros H; [apply Na|apply Nb]; now right.
Qed.

Lemma types_no_space : Forall (fun w => ~ In sp (chars w)) object_types.
Proof. repeat constructor; cbn; intros H; repeat destruct H as [H|H]; try discriminate; contradiction. Qed.
Lemma known_no_space ty : In ty known_types -> ~ In sp ty.
Proof.
  intros H. unfold known_types in H. change (In ty (map (fun s => chars s) object_types)) in H. apply in_map_iff in H. destruct H as (w & <- & Hw).
  pose proof types_no_space as T. rewrite Forall_forall in T. auto.
Qed.
Lemma word_no_space w : Forall (fun c => In c word_chars) w -> ~ In sp w.
Proof.
  intros H Hin. rewrite Forall_forall in H. specialize (H sp Hin). apply word_in in H. discriminate.
Qed.

(** ** The declaration pattern *)
Lemma match1 s m : (exists g, re_match pattern1 s = Some (m, g)) <->
  exists sep ty name, declares s sep ty name /\ m = decl_text sep ty name.
Proof.
  unfold re_match, pattern1. cbn [rmatch]. rewrite rmatch_lit.
  destruct (strip (chars "ObjectTemplate") s) as [s1|] eqn:E1.
  2:{ split; [intros (g & H); discriminate|]. intros (sep & ty & name & (rest & -> & _) & _). unfold decl_text in E1.
      rewrite <- app_assoc, strip_app in E1. discriminate. }
  apply strip_some in E1. subst s.
  destruct s1 as [|sep s1].
  { split; [intros (g & H); discriminate|]. intros (sep & ty & name & (rest & E & _) & _). unfold decl_text in E.
    rewrite <- app_assoc in E. apply app_inv_head in E. discriminate. }
  destruct (anyc sep) eqn:A.
  2:{ split; [intros (g & H); discriminate|]. intros (sep' & ty & name & (rest & E & N & _) & _). unfold decl_text in E.
    rewrite <- app_assoc in E. apply app_inv_head in E. injection E as <- _. apply any_in in N. congruence. }
  apply any_in in A. rewrite rmatch_lit. destruct (strip (chars "create ") s1) as [s2|] eqn:E2.
  2:{ split; [intros (g & H); discriminate|]. intros (sep' & ty & name & (rest & E & _) & _). unfold decl_text in E.
    rewrite <- app_assoc in E. apply app_inv_head in E. cbn [app] in E. apply cons_inj in E. destruct E as (<- & E). rewrite E, <- app_assoc, strip_app in E2. discriminate. }
  apply strip_some in E2. subst s1.
  set (k := fun s' g' => rmatch (lit " ") s' ((1%nat, taken s2 s') :: g')
      (fun s'0 g'0 => plus wordc s'0 (fun s'1 => Some (taken (chars "ObjectTemplate" ++ sep :: chars "create " ++ s2) s'1, g'0)))).
  change (rmatch (alts object_types) s2 [] _) with (rmatch (alts object_types) s2 [] k).
  assert (forall s3 x, k s3 [] = Some x <-> exists name rest, s3 = sp :: name ++ rest /\ longest word_chars name rest /\
     x = (taken (chars "ObjectTemplate" ++ sep :: chars "create " ++ s2) rest, [(1%nat, taken s2 s3)])) as HK.
  { intros s3 x. unfold k. rewrite rmatch_lit. destruct (strip (chars " ") s3) as [s4|] eqn:E3.
    - apply strip_some in E3. cbn in E3. subst s3. rewrite (plus_longest _ word_chars) by (try exact word_in; discriminate). split.
      + intros (w & r & -> & L & [= <-]). exists w, r. auto.
      + intros (w & r & E & L & ->). injection E as ->. exists w, r. auto.
    - split; [discriminate|]. intros (w & r & -> & _). discriminate. }
  unfold object_types at 1. rewrite rmatch_alts. fold object_types. split.
  - intros (g & H). apply alts_some in H.
    + destruct H as [H|(_ & w & s3 & Hw & E3 & K)]; [discriminate|]. apply strip_some in E3. subst s2. apply HK in K.
      destruct K as (name & rest & -> & L & K). apply pair_equal_spec in K. destruct K as (-> & ->). exists sep, (chars w), name.
      assert (chars "ObjectTemplate" ++ sep :: chars "create " ++ chars w ++ sp :: name ++ rest = decl_text sep (chars w) name ++ rest) as EQ.
      { unfold decl_text. rewrite <- app_assoc. cbn [app]. rewrite <- app_assoc. cbn [app]. now rewrite <- !app_assoc. }
      rewrite EQ. split; [|apply taken_app]. exists rest. split; [reflexivity|]. split; [exact A|]. split; [|exact L]. now apply (in_map (fun s => chars s)).
    + intros w w' u v Hw Hw' U V KU KV. apply strip_some in U, V. 
      destruct (k u []) as [x|] eqn:X; [|congruence]. destruct (k v []) as [y|] eqn:Y; [|congruence]. apply HK in X, Y.
      destruct X as (n & r & -> & _), Y as (n' & r' & -> & _). pose proof types_no_space as T. rewrite Forall_forall in T.
      rewrite U in V. apply sep_unique in V; auto. apply chars_inj, V.
  - intros (sep' & ty & name & (rest & E & N & Hty & L) & ->). unfold decl_text in E. rewrite <- app_assoc in E. apply app_inv_head in E.
    cbn [app] in E. apply cons_inj in E. destruct E as (<- & E). rewrite <- app_assoc in E. apply app_inv_head in E. subst s2.
    change (In ty (map (fun s => chars s) object_types)) in Hty. apply in_map_iff in Hty. destruct Hty as (w & <- & Hw).
    eexists. apply alts_some.
    + intros w1 w' u v Hw1 Hw' U V KU KV. apply strip_some in U, V. 
      destruct (k u []) as [x|] eqn:X; [|congruence]. destruct (k v []) as [y|] eqn:Y; [|congruence]. apply HK in X, Y.
      destruct X as (n & r & -> & _), Y as (n' & r' & -> & _). pose proof types_no_space as T. rewrite Forall_forall in T.
      rewrite U in V. apply sep_unique in V; auto. apply chars_inj, V.
    + right. split; [reflexivity|]. exists w, (sp :: name ++ rest). split; [exact Hw|]. split; [rewrite <- app_assoc; apply strip_app|].
      apply HK. exists name, rest. split; [reflexivity|]. split; [exact L|]. f_equal. symmetry.
      replace (chars "ObjectTemplate" ++ sep :: chars "create " ++ (chars w ++ sp :: name) ++ rest) with (decl_text sep (chars w) name ++ rest).
      * apply taken_app.
      * unfold decl_text. rewrite <- app_assoc. cbn [app]. now rewrite <- !app_assoc.
Qed.
Lemma match1_none s : re_match pattern1 s = None <-> ~ is_decl s.
Proof.
  split.
  - intros H (sep & ty & name & D). assert (exists g, re_match pattern1 s = Some (decl_text sep ty name, g)) as (g & E) by (apply match1; eauto). congruence.
  - intros H. destruct (re_match pattern1 s) as [(m, g)|] eqn:E; [|reflexivity]. exfalso. apply H.
    destruct (proj1 (match1 s m)) as (sep & ty & name & D & _); [eauto|]. now exists sep, ty, name.
Qed.
Lemma search1 l m : (exists g, re_search pattern1 l = Some (m, g)) <->
  exists s sep ty name, first_suffix is_decl l s /\ declares s sep ty name /\ m = decl_text sep ty name.
Proof.
  split.
  - intros (g & H). apply search_some in H. destruct H as (pre & s & E & M & F).
    destruct (proj1 (match1 s m)) as (sep & ty & name & D & ->); [eauto|]. exists s, sep, ty, name. split; [|auto].
    exists pre. split; [exact E|]. split; [now exists sep, ty, name|]. intros pre' s' E' L. apply match1_none. eauto.
  - intros (s & sep & ty & name & (pre & E & _ & F) & D & ->).
    assert (exists g, re_match pattern1 s = Some (decl_text sep ty name, g)) as (g & M) by (apply match1; eauto).
    exists g. apply search_some. exists pre, s. split; [exact E|]. split; [exact M|]. intros pre' s' E' L. apply match1_none. eauto.
Qed.
Lemma search1_none l : re_search pattern1 l = None <-> ~ some_suffix is_decl l.
Proof.
  rewrite search_none. split.
  - intros H (pre & s & E & D). specialize (H pre s E). apply match1_none in H. auto.
  - intros H pre s E. apply match1_none. intros D. apply H. now exists pre, s.
Qed.

(** ** split *)
Lemma split_from_one c cur s : ~ In c s -> split_from c cur s = [cur ++ s].
Proof.
  revert cur. induction s as [|x s IH]; intros cur N; cbn; [now rewrite app_nil_r|].
  destruct (Ascii.eqb_spec x c) as [->|H]; [exfalso; apply N; now left|]. rewrite IH, <- app_assoc; [reflexivity|]. intros K. apply N. now right.
Qed.
Lemma split_from_cons c cur a s : ~ In c a -> split_from c cur (a ++ c :: s) = (cur ++ a) :: split_from c [] s.
Proof.
  revert cur. induction a as [|x a IH]; intros cur N; cbn.
  - now rewrite Ascii.eqb_refl, app_nil_r.
  - destruct (Ascii.eqb_spec x c) as [->|H]; [exfalso; apply N; now left|]. rewrite IH, <- app_assoc; [reflexivity|]. intros K. apply N. now right.
Qed.
Lemma split_one c s : ~ In c s -> split c s = [s]. Proof. apply split_from_one. Qed.
Lemma split_cons c a s : ~ In c a -> split c (a ++ c :: s) = a :: split c s. Proof. apply split_from_cons. Qed.

Lemma decl_split s sep ty name : declares s sep ty name ->
  exists a b, py_get (split space (decl_text sep ty name)) 1 = Ok a /\ py_get (split space (decl_text sep ty name)) 2 = Ok b /\ reads_as sep ty name a b.
Proof.
  intros (rest & _ & N & T & (_ & W & _)). pose proof (known_no_space _ T) as NT. pose proof (word_no_space _ W) as NW.
  change space with sp. unfold decl_text.
  destruct (Ascii.eqb_spec sep sp) as [->|H].
  - assert (split sp (chars "ObjectTemplate" ++ sp :: chars "create " ++ ty ++ sp :: name) = [chars "ObjectTemplate"; chars "create"; ty; name]) as ->.
    { rewrite split_cons by (cbn; intros K; repeat destruct K as [K|K]; try discriminate; contradiction). f_equal.
      change (chars "create ") with (chars "create" ++ [sp]). rewrite <- app_assoc. cbn [app].
      rewrite split_cons by (cbn; intros K; repeat destruct K as [K|K]; try discriminate; contradiction). f_equal.
      rewrite split_cons by assumption. now rewrite split_one. }
    exists (chars "create"), ty. split; [reflexivity|]. split; [reflexivity|]. split; [congruence|auto].
  - assert (split sp (chars "ObjectTemplate" ++ sep :: chars "create " ++ ty ++ sp :: name) = [chars "ObjectTemplate" ++ sep :: chars "create"; ty; name]) as ->.
    { replace (chars "ObjectTemplate" ++ sep :: chars "create " ++ ty ++ sp :: name)
        with ((chars "ObjectTemplate" ++ sep :: chars "create") ++ sp :: ty ++ sp :: name) by (rewrite <- app_assoc; reflexivity).
      rewrite split_cons.
      - f_equal. rewrite split_cons by assumption. now rewrite split_one.
      - intros K. apply in_app_or in K. destruct K as [K|[K|K]]; [|congruence|]; cbn in K; repeat destruct K as [K|K]; try discriminate; contradiction. }
    exists ty, name. split; [reflexivity|]. split; [reflexivity|]. split; [auto|congruence].
Qed.

(** ** get_root *)
Theorem root_lines ls :
  (exists a b, root_of_lines ls = Ok (Some (a, b)) /\ root_is ls a b) \/
  (root_of_lines ls = Ok None /\ Forall (fun l => ~ some_suffix is_decl l) ls).
Proof.
  induction ls as [|l ls IH]; cbn [root_of_lines]; [right; auto|].
  destruct (re_search pattern1 l) as [(m, g)|] eqn:E.
  - left. destruct (proj1 (search1 l m)) as (s & sep & ty & name & FS & D & ->); [eauto|].
    destruct (decl_split s sep ty name D) as (a & b & -> & -> & RA). cbn. exists a, b. split; [reflexivity|].
    exists [], l, ls, s, sep, ty, name. auto.
  - apply search1_none in E. destruct IH as [(a & b & R & (before & l' & after & s & sep & ty & name & -> & FB & H))|(R & FN)].
    + left. exists a, b. split; [exact R|]. exists (l :: before), l', after, s, sep, ty, name. split; [reflexivity|]. split; [now constructor|exact H].
    + right. auto.
Qed.
Lemma first_suffix_unique P l s s' : first_suffix P l s -> first_suffix P l s' -> s = s'.
Proof.
  intros (p & E & H & F) (p' & E' & H' & F').
  destruct (Nat.lt_trichotomy (List.length p) (List.length p')) as [L|[L|L]].
  - exfalso. now apply (F' p s E L).
  - rewrite E in E'. now apply same_split in E'.
  - exfalso. now apply (F p' s' E' L).
Qed.
Lemma declares_unique s sep ty name sep' ty' name' : declares s sep ty name -> declares s sep' ty' name' -> sep = sep' /\ ty = ty' /\ name = name'.
Proof.
  intros (r & -> & _ & T & L) (r' & E & _ & T' & L'). unfold decl_text in E. rewrite <- !app_assoc in E. apply app_inv_head in E. cbn [app] in E.
  apply cons_inj in E. destruct E as (<- & E). rewrite <- !app_assoc in E. apply app_inv_head in E. cbn [app] in E.
  apply sep_unique in E; auto using known_no_space. destruct E as (-> & E). destruct (longest_unique _ _ _ _ _ E L L') as (-> & _). auto.
Qed.
Lemma first_some P l s : first_suffix P l s -> some_suffix P l.
Proof. intros (p & E & H & _). now exists p, s. Qed.
Lemma root_is_unique ls a b a' b' : root_is ls a b -> root_is ls a' b' -> a = a' /\ b = b'.
Proof.
  intros (be & l & af & s & sep & ty & name & -> & FB & FS & D & RA) (be' & l' & af' & s' & sep' & ty' & name' & E & FB' & FS' & D' & RA').
  assert (be = be' /\ l = l') as (<- & <-).
  { revert be' E FB'. induction be as [|x be IH]; intros [|y be'] E FB'; cbn in E.
    - injection E as -> _. auto.
    - injection E as -> _. inversion FB'. exfalso. eauto using first_some.
    - injection E as -> _. inversion FB. exfalso. eauto using first_some.
    - injection E as <- E. inversion FB. inversion FB'. destruct (IH ltac:(assumption) be' E ltac:(assumption)) as (-> & ->). auto. }
  pose proof (first_suffix_unique _ _ _ _ FS FS') as <-. destruct (declares_unique _ _ _ _ _ _ _ D D') as (<- & <- & <-).
  destruct RA as (R1 & R2), RA' as (R1' & R2'). destruct (Ascii.eqb_spec sep sp) as [H|H].
  - destruct (R2 H), (R2' H). split; congruence.
  - destruct (R1 H), (R1' H). split; congruence.
Qed.

(** ** Lines *)
Lemma lines_from_plain : forall l cur, ~ In nl l -> lines_from cur l = match cur ++ l with [] => [] | _ => [cur ++ l] end.
Proof.
  induction l as [|c l IH]; intros cur N; cbn [lines_from]; [now rewrite app_nil_r|].
  change newline with nl. destruct (Ascii.eqb_spec c nl) as [->|H]; [exfalso; apply N; now left|].
  rewrite IH by (intros K; apply N; now right). now rewrite <- app_assoc.
Qed.
Lemma lines_from_nl : forall l cur s, ~ In nl l -> lines_from cur (l ++ nl :: s) = (cur ++ l ++ [nl]) :: lines s.
Proof.
  induction l as [|c l IH]; intros cur s N; cbn [lines_from app].
  - reflexivity.
  - change newline with nl. destruct (Ascii.eqb_spec c nl) as [->|H]; [exfalso; apply N; now left|].
    rewrite IH by (intros K; apply N; now right). now rewrite <- app_assoc.
Qed.
Lemma plain_split bs : plain bs \/ exists l c r, bs = l ++ c :: r /\ plain l /\ (c = nl \/ c = cr).
Proof.
  induction bs as [|x bs IH].
  - left. split; intros [].
  - destruct (Ascii.eqb_spec x nl) as [->|N1]; [right; exists [], nl, bs; repeat split; auto; intros []|].
    destruct (Ascii.eqb_spec x cr) as [->|N2]; [right; exists [], cr, bs; repeat split; auto; intros []|].
    destruct IH as [(P1 & P2)|(l & c & r & -> & (P1 & P2) & C)].
    + left. split; intros [H|H]; auto.
    + right. exists (x :: l), c, r. split; [reflexivity|]. split; [|exact C]. split; intros [H|H]; auto.
Qed.
Lemma universal_plain l s : plain l -> universal (l ++ s) = l ++ universal s.
Proof.
  intros (N1 & N2). induction l as [|c l IH]; [reflexivity|]. cbn [app universal]. change creturn with cr.
  destruct (Ascii.eqb_spec c cr) as [->|H]; [exfalso; apply N2; now left|]. rewrite IH; auto; intros K; [apply N1|apply N2]; now right.
Qed.
Theorem text_lines_lines bs : text_lines bs (lines (universal bs)).
Proof.
  assert (forall n bs, (List.length bs <= n)%nat -> text_lines bs (lines (universal bs))) as G; [|now apply (G (List.length bs))].
  clear bs. induction n as [|n IH]; intros bs L.
  { destruct bs; [|cbn in L; lia]. constructor. }
  destruct (plain_split bs) as [P|(l & c & r & -> & P & C)].
  - rewrite <- (app_nil_r bs) at 2. rewrite universal_plain by exact P. cbn [universal]. rewrite app_nil_r. unfold lines. rewrite lines_from_plain by apply P.
    cbn [app]. destruct bs as [|x bs]; [constructor|]. constructor; [discriminate|exact P].
  - rewrite app_length in L. cbn in L. rewrite universal_plain by exact P. destruct C as [-> | ->].
    + cbn [universal]. change (Ascii.eqb nl creturn) with false. cbn [andb]. unfold lines. rewrite lines_from_nl by apply P. cbn [app].
      apply (lines_cons l [nl] r); [exact P|now left|]. apply IH. lia.
    + cbn [universal]. change (Ascii.eqb cr creturn) with true. destruct r as [|d r].
      * unfold lines. change newline with nl. rewrite lines_from_nl by apply P. cbn [app]. apply (lines_cons l [cr] []); [exact P| |constructor].
        right. right. split; [reflexivity|]. discriminate.
      * change newline with nl. destruct (Ascii.eqb_spec d nl) as [->|H].
        -- unfold lines. rewrite lines_from_nl by apply P. cbn [app]. apply (lines_cons l [cr; nl] r); [exact P|auto|]. apply IH. cbn in L. lia.
        -- unfold lines. rewrite lines_from_nl by apply P. cbn [app]. apply (lines_cons l [cr] (d :: r)); [exact P| |apply IH; cbn in *; lia].
           right. right. split; [reflexivity|]. intros t K. congruence.
Qed.
