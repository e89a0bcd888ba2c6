(** Proofs about deprecated/bf2.py: included files, mod root, object search. *)
From Coq Require Import ZArith Bool Ascii String List Lia.
From Verif Require Import PyBase Struct Mesh Arith Edit Obj Bf2 SpecBf2 ReFacts Bf2Facts.
Import ListNotations.
Open Scope Z_scope.

(** ** Lines are unique *)
Lemma text_lines_unique bs ls : text_lines bs ls -> ls = lines (universal bs).
Proof.
  induction 1 as [|l N P|l e bs ls P E _ IH].
  - reflexivity.
  - rewrite <- (app_nil_r l) at 2. rewrite universal_plain by exact P. cbn [universal]. rewrite app_nil_r. unfold lines.
    rewrite lines_from_plain by apply P. cbn [app]. destruct l; [congruence|reflexivity].
  - rewrite universal_plain by exact P.
    assert (universal (e ++ bs) = nl :: universal bs) as ->.
    { destruct E as [->|[->|(-> & N)]]; [reflexivity|reflexivity|]. cbn [app universal]. change (Ascii.eqb cr creturn) with true. cbv iota.
      destruct bs as [|d t]; [reflexivity|]. change newline with nl. destruct (Ascii.eqb_spec d nl) as [->|H]; [|reflexivity]. now destruct (N t). }
    unfold lines. rewrite lines_from_nl by apply P. cbn [app]. now rewrite IH.
Qed.

(** ** Inclusion pattern *)
Lemma match2 s m : (exists g, re_match pattern2 s = Some (m, g)) <->
  exists w sep, include_at s w sep /\ m = chars "include " ++ w ++ sep :: chars "tweak".
Proof.
  unfold re_match, pattern2. cbn [rmatch]. rewrite rmatch_lit.
  destruct (strip (chars "include ") s) as [s1|] eqn:E1.
  2:{ split; [intros (g & H); discriminate|]. intros (w & sep & ((rest & -> & _) & _) & _). rewrite strip_app in E1. discriminate. }
  apply strip_some in E1. subst s.
  set (k := fun s' : text => match s' with [] => None | c :: t => if anyc c then rmatch (lit "tweak") t [] (fun s'0 g => Some (taken (chars "include " ++ s1) s'0, g)) else None end).
  assert (forall s', k s' = match s' with [] => None | c :: t => if anyc c then match strip (chars "tweak") t with Some r => Some (taken (chars "include " ++ s1) r, []) | None => None end else None end) as HK.
  { intros s'. unfold k. destruct s' as [|c t]; [reflexivity|]. destruct (anyc c); [|reflexivity]. apply rmatch_lit. }
  assert (forall s' x, k s' = Some x <-> exists sep rest, s' = sep :: chars "tweak" ++ rest /\ sep <> nl /\ x = (taken (chars "include " ++ s1) rest, [])) as HS.
  { intros s' x. rewrite HK. destruct s' as [|c t]; [split; [discriminate|intros (sep & rest & E & _); discriminate]|].
    destruct (anyc c) eqn:A.
    - apply any_in in A. destruct (strip (chars "tweak") t) as [r|] eqn:S.
      + apply strip_some in S. subst t. split.
        * intros [= <-]. exists c, r. auto.
        * intros (sep & rest & E & N & ->). apply cons_inj in E. destruct E as (<- & E). apply app_inv_head in E. now subst.
      + split; [discriminate|]. intros (sep & rest & E & N & ->). apply cons_inj in E. destruct E as (<- & ->). rewrite strip_app in S. discriminate.
    - split; [discriminate|]. intros (sep & rest & E & N & _). apply cons_inj in E. destruct E as (<- & _). apply any_in in N. congruence. }
  assert (forall w, forallb wordc w = true <-> Forall (fun c => In c word_chars) w) as FB.
  { intros w. rewrite forallb_forall, Forall_forall. split; intros H c Hc; apply word_in; auto. }
  change (plus wordc s1 _) with (plus wordc s1 k). split.
  - intros (g & H). apply plus_some in H. destruct H as (w & s' & -> & N & F & K & L). apply HS in K. destruct K as (sep & rest & -> & NS & K).
    apply pair_equal_spec in K. destruct K as (-> & _). exists w, sep. split.
    + split.
      * exists rest. split; [reflexivity|]. split; [exact N|]. split; [now apply FB|exact NS].
      * intros w' sep' (rest' & E' & N' & F' & NS'). apply app_inv_head in E'.
        destruct (le_lt_dec (List.length w') (List.length w)) as [H|H]; [exact H|]. exfalso.
        specialize (L w' _ E' (proj2 (FB w') F') H). assert (exists x, k (sep' :: chars "tweak" ++ rest') = Some x) as (x & X) by (eexists; apply HS; eauto). congruence.
    + transitivity (taken ((chars "include " ++ w ++ sep :: chars "tweak") ++ rest) rest); [|apply taken_app]. f_equal. now rewrite <- !app_assoc.
  - intros (w & sep & ((rest & E & N & F & NS) & L) & ->). apply app_inv_head in E. exists []. apply plus_some.
    exists w, (sep :: chars "tweak" ++ rest). split; [exact E|]. split; [exact N|]. split; [now apply FB|]. split.
    + apply HS. exists sep, rest. split; [reflexivity|]. split; [exact NS|]. f_equal. symmetry.
      transitivity (taken ((chars "include " ++ w ++ sep :: chars "tweak") ++ rest) rest); [|apply taken_app]. f_equal. rewrite E. now rewrite <- !app_assoc.
    + intros w' s' E' F' H. destruct (k s') as [x|] eqn:K; [|reflexivity]. exfalso. apply HS in K. destruct K as (sep' & rest' & -> & NS' & _).
      assert (w' <> []) as N' by (destruct w'; [cbn in H; lia|discriminate]).
      specialize (L w' sep'). cbv beta in L. assert (List.length w' <= List.length w)%nat; [|lia]. apply L. exists rest'.
      split; [now rewrite E'|]. split; [exact N'|]. split; [now apply FB|exact NS'].
Qed.
Lemma match2_none s : re_match pattern2 s = None <-> ~ is_include s.
Proof.
  split.
  - intros H (w & sep & D). assert (exists g, re_match pattern2 s = Some (chars "include " ++ w ++ sep :: chars "tweak", g)) as (g & E) by (apply match2; eauto). congruence.
  - intros H. destruct (re_match pattern2 s) as [(m, g)|] eqn:E; [|reflexivity]. exfalso. apply H.
    destruct (proj1 (match2 s m)) as (w & sep & D & _); [eauto|]. now exists w, sep.
Qed.
Lemma search2 l m : (exists g, re_search pattern2 l = Some (m, g)) <->
  exists s w sep, first_suffix is_include l s /\ include_at s w sep /\ m = chars "include " ++ w ++ sep :: chars "tweak".
Proof.
  split.
  - intros (g & H). apply search_some in H. destruct H as (pre & s & E & M & F).
    destruct (proj1 (match2 s m)) as (w & sep & D & ->); [eauto|]. exists s, w, sep. split; [|auto].
    exists pre. split; [exact E|]. split; [now exists w, sep|]. intros pre' s' E' L. apply match2_none. eauto.
  - intros (s & w & sep & (pre & E & _ & F) & D & ->).
    assert (exists g, re_match pattern2 s = Some (chars "include " ++ w ++ sep :: chars "tweak", g)) as (g & M) by (apply match2; eauto).
    exists g. apply search_some. exists pre, s. split; [exact E|]. split; [exact M|]. intros pre' s' E' L. apply match2_none. eauto.
Qed.
Lemma search2_none l : re_search pattern2 l = None <-> ~ some_suffix is_include l.
Proof.
  rewrite search_none. split.
  - intros H (pre & s & E & D). specialize (H pre s E). apply match2_none in H. auto.
  - intros H pre s E. apply match2_none. intros D. apply H. now exists pre, s.
Qed.
Lemma include_unique s w sep w' sep' : include_at s w sep -> include_at s w' sep' -> w = w' /\ sep = sep'.
Proof.
  intros ((r & E & N & F & NS) & L) ((r' & E' & N' & F' & NS') & L').
  assert (List.length w = List.length w') as H.
  { apply Nat.le_antisymm; [apply (L' w sep)|apply (L w' sep')]; eexists; eauto. }
  rewrite E in E'. apply app_inv_head in E'. apply same_split in E'; [|exact H]. destruct E' as (-> & E'). apply cons_inj in E'. split; [reflexivity|apply E'].
Qed.
Lemma include_split s w sep n : include_at s w sep ->
  py_get (split space (chars "include " ++ w ++ sep :: chars "tweak")) 1 = Ok n <-> included_name w sep n.
Proof.
  intros ((r & _ & _ & F & _) & _). pose proof (word_no_space _ F) as NW. change space with sp.
  change (chars "include ") with (chars "include" ++ [sp]). rewrite <- app_assoc. cbn [app].
  assert (~ In sp (chars "include")) as NI by (cbn; intros K; repeat destruct K as [K|K]; try discriminate; contradiction).
  assert (~ In sp (chars "tweak")) as NK by (cbn; intros K; repeat destruct K as [K|K]; try discriminate; contradiction).
  rewrite split_cons by exact NI. unfold included_name.
  destruct (Ascii.eqb_spec sep sp) as [->|H].
  - rewrite split_cons, split_one by assumption. cbn. split; [intros [= <-]; split; [contradiction|reflexivity]|]. intros (_ & K). now rewrite K.
  - rewrite split_one.
    + cbn. split; [intros [= <-]; split; [reflexivity|contradiction]|]. intros (K & _). now rewrite K.
    + intros K. apply in_app_or in K. destruct K as [K|[K|K]]; [auto|auto|exact (NK K)].
Qed.
Lemma included_word w sep n : included_name w sep n -> w <> [] -> Forall (fun c => In c word_chars) w -> exists c t, n = c :: t /\ c <> "/"%char.
Proof.
  intros (H1 & H2) N F. destruct w as [|c w]; [congruence|]. assert (c <> "/"%char) as NC.
  { inversion F as [|? ? Hc _]. apply word_in in Hc. intros ->. discriminate. }
  destruct (Ascii.eqb_spec sep sp) as [H|H]; [rewrite (H2 H)|rewrite (H1 H)]; cbn [app]; eauto.
Qed.
Lemma path_join_folder d n p c t : n = c :: t -> c <> "/"%char -> path_join d n = p <-> in_folder d n p.
Proof.
  intros -> NC. unfold path_join. change slash with "/"%char. destruct (Ascii.eqb_spec c "/"%char) as [|_]; [contradiction|]. unfold in_folder.
  destruct d as [|x d].
  - split; [intros <-; now left|]. intros [(_ & ->)|[(e & E & _)|(N & _)]]; [reflexivity|now destruct e|exfalso; now apply N].
  - unfold ends_slash. change slash with "/"%char.
    destruct (Ascii.eqb_spec (last (x :: d) dot) "/"%char) as [E|N].
    + pose proof (app_removelast_last dot (l := x :: d) ltac:(discriminate)) as R. rewrite E in R. split.
      * intros <-. right. left. exists (removelast (x :: d)). auto.
      * intros [(K & _)|[(e & _ & ->)|(_ & K & _)]]; [discriminate|reflexivity|]. now destruct (K (removelast (x :: d))).
    + split.
      * intros <-. right. right. split; [discriminate|]. split; [|reflexivity]. intros e K. apply N. rewrite K. apply last_last.
      * intros [(K & _)|[(e & K & _)|(_ & _ & ->)]]; [discriminate| |reflexivity]. exfalso. apply N. rewrite K. apply last_last.
Qed.

(** ** get_child_list *)
Lemma line_decl_model l r : line_decl l r <-> r = match re_search pattern1 l with Some (m, _) => [m] | None => [] end.
Proof.
  unfold line_decl. destruct (re_search pattern1 l) as [(m, g)|] eqn:E.
  - destruct (proj1 (search1 l m)) as (s & sep & ty & name & FS & D & ->); [eauto|]. split.
    + intros [(s' & sep' & ty' & name' & FS' & D' & ->)|(N & _)].
      * pose proof (first_suffix_unique _ _ _ _ FS FS') as <-. now destruct (declares_unique _ _ _ _ _ _ _ D D') as (<- & <- & <-).
      * exfalso. apply N. now apply first_some in FS.
    + intros ->. left. exists s, sep, ty, name. auto.
  - apply search1_none in E. split; [|auto]. intros [(s & _ & _ & _ & FS & _)|(_ & ->)]; [|reflexivity]. exfalso. apply E. now apply first_some in FS.
Qed.
Lemma decls_model ls r : decls ls r <-> r = matches1 ls.
Proof.
  unfold decls, matches1. split.
  - intros (rs & H & ->). induction H as [|l x ls rs H _ IH]; [reflexivity|]. cbn. apply line_decl_model in H. subst x. now rewrite IH.
  - intros ->. exists (map (fun l => match re_search pattern1 l with Some (m, _) => [m] | None => [] end) ls). split; [|apply flat_map_concat_map].
    induction ls as [|l ls IH]; constructor; [now apply line_decl_model|exact IH].
Qed.

Lemma included_iff f folder l inc :
  match re_search pattern2 l with
  | Some (m, _) => bind (py_get (split space m) 1) (fun name => bind (open_text f (path_join folder name)) (fun s => Ok (matches1 (lines s))))
  | None => Ok [] end = Ok inc <->
  ((exists s w sep n p bs ls, first_suffix is_include l s /\ include_at s w sep /\ included_name w sep n /\ in_folder folder n p /\
        open_rb f p = Ok bs /\ text_lines bs ls /\ decls ls inc) \/ (~ some_suffix is_include l /\ inc = [])).
Proof.
  destruct (re_search pattern2 l) as [(m, g)|] eqn:E.
  - destruct (proj1 (search2 l m)) as (s & w & sep & FS & D & ->); [eauto|]. pose proof D as ((rest & _ & NW & FW & _) & _). split.
    + destruct (py_get (split space (chars "include " ++ w ++ sep :: chars "tweak")) 1) as [n|] eqn:G; [|discriminate]. cbn [bind].
      apply (include_split s w sep n D) in G. unfold open_text. destruct (open_rb f (path_join folder n)) as [bs|] eqn:OB; [|discriminate].
      cbn. intros [= <-]. left. exists s, w, sep, n, (path_join folder n), bs, (lines (universal bs)).
      destruct (included_word w sep n G NW FW) as (c & t & En & Nc). do 3 (split; [assumption|]).
      split; [now apply (path_join_folder folder n _ c t)|]. split; [exact OB|]. split; [apply text_lines_lines|now apply decls_model].
    + intros [(s' & w' & sep' & n & p & bs & ls & FS' & D' & IN & IF & OB & TL & DE)|(N & _)].
      * pose proof (first_suffix_unique _ _ _ _ FS FS') as <-. destruct (include_unique _ _ _ _ _ D D') as (<- & <-).
        rewrite (proj2 (include_split s w sep n D) IN). cbn [bind]. destruct (included_word w sep n IN NW FW) as (c & t & En & Nc).
        apply (path_join_folder folder n p c t En Nc) in IF. rewrite IF. unfold open_text. rewrite OB. cbn. rewrite <- (text_lines_unique _ _ TL).
        apply decls_model in DE. now subst.
      * exfalso. apply N. now apply first_some in FS.
  - apply search2_none in E. split; [intros [= <-]; auto|]. intros [(s & _ & _ & _ & _ & _ & _ & FS & _)|(_ & ->)]; [|reflexivity].
    exfalso. apply E. now apply first_some in FS.
Qed.
Lemma children_lines f folder ls r : children_of_lines f folder ls = Ok r <->
  exists rs, Forall2 (line_children f folder) ls rs /\ r = concat rs.
Proof.
  revert r. induction ls as [|l ls IH]; intros r; cbn [children_of_lines].
  - split; [intros [= <-]; exists []; auto|]. intros (rs & H & ->). inversion H. reflexivity.
  - set (inc := match re_search pattern2 l with Some (m, _) => _ | None => Ok [] end). split.
    + destruct inc as [i|] eqn:I; [|discriminate]. cbn [bind]. destruct (children_of_lines f folder ls) as [rest|]; [|discriminate]. cbn [bind].
      intros [= <-]. destruct (proj1 (IH rest) eq_refl) as (rs & H & ->).
      exists ((match re_search pattern1 l with Some (m, _) => [m] | None => [] end ++ i) :: rs). split; [|cbn; now rewrite <- app_assoc].
      constructor; [|exact H]. exists (match re_search pattern1 l with Some (m, _) => [m] | None => [] end), i. split; [now apply line_decl_model|].
      split; [reflexivity|]. apply included_iff. exact I.
    + intros (rs & H & ->). inversion H as [|? x ? rs' (own & i & D & -> & INC) H' E1 E2]. subst. apply included_iff in INC.
      change (inc = Ok i) in INC. rewrite INC. cbn [bind]. rewrite (proj2 (IH (concat rs')) (ex_intro _ rs' (conj H' eq_refl))). cbn [bind concat].
      apply line_decl_model in D. subst own. now rewrite <- app_assoc.
Qed.
Theorem child_list f path bs r : open_rb f path = Ok bs -> get_child_list f path = Ok r <->
  exists ls rs, text_lines bs ls /\ Forall2 (line_children f (dirname path)) ls rs /\ r = concat rs.
Proof.
  intros O. unfold get_child_list, open_text. rewrite O. cbn [rmap bind]. rewrite children_lines. split.
  - intros (rs & H & ->). exists (lines (universal bs)), rs. split; [apply text_lines_lines|]. auto.
  - intros (ls & rs & TL & H & ->). rewrite <- (text_lines_unique _ _ TL). exists rs. auto.
Qed.
Theorem get_root_spec f path bs : open_rb f path = Ok bs -> exists ls, text_lines bs ls /\
  forall r, get_root f path = Ok r <->
    ((exists a b, r = Some (a, b) /\ root_is ls a b) \/ (r = None /\ Forall (fun l => ~ some_suffix is_decl l) ls)).
Proof.
  intros O. exists (lines (universal bs)). split; [apply text_lines_lines|]. intros r. unfold get_root, open_text. rewrite O. cbn [rmap bind].
  assert (forall a b, root_is (lines (universal bs)) a b -> ~ Forall (fun l => ~ some_suffix is_decl l) (lines (universal bs))) as X.
  { intros a b (be & l & af & s & _ & _ & _ & -> & _ & FS & _) N. apply Forall_app in N. destruct N as (_ & N). inversion N as [|? ? N1 _]. apply N1. now apply first_some in FS. }
  destruct (root_lines (lines (universal bs))) as [(a & b & -> & R)|(-> & N)].
  - split.
    + intros [= <-]. left. eauto.
    + intros [(a' & b' & -> & R')|(_ & N)]; [|now destruct (X a b R)]. now destruct (root_is_unique _ _ _ _ _ R R') as (-> & ->).
  - split.
    + intros [= <-]. right. auto.
    + intros [(a' & b' & -> & R')|(-> & _)]; [now destruct (X _ _ R')|reflexivity].
Qed.
Theorem own_child f path a b l : load_from_con f path = Ok (a, b, l) ->
  exists sep ty name, In (decl_text sep ty name) l /\ reads_as sep ty name a b.
Proof.
  unfold load_from_con, get_root, get_child_list. destruct (open_text f path) as [s|]; [|discriminate]. cbn [bind].
  destruct (root_lines (lines s)) as [(a' & b' & -> & R)|(-> & N)]; [|discriminate]. cbn [bind].
  destruct (children_of_lines f _ (lines s)) as [r|] eqn:C; [|discriminate]. cbn [bind]. intros [= <- <- <-].
  apply children_lines in C. destruct C as (rs & C & ->). destruct R as (be & l & af & su & sep & ty & name & E & _ & FS & D & RA).
  rewrite E in C. apply Forall2_app_inv_l in C. destruct C as (r1 & r2 & _ & C & ->). inversion C as [|? x ? r3 (own & inc & LD & -> & _) _]. subst.
  exists sep, ty, name. split; [|exact RA]. rewrite concat_app. apply in_or_app. right. cbn. apply in_or_app. left. apply in_or_app. left.
  assert (line_decl l [decl_text sep ty name]) as LD' by (left; exists su, sep, ty, name; auto). apply line_decl_model in LD, LD'. rewrite LD, <- LD'. now left.
Qed.
Theorem load_without_root f path : get_root f path = Ok None -> load_from_con f path = Raise EType.
Proof. intros H. unfold load_from_con. now rewrite H. Qed.
Theorem lines_determined bs ls ls' : text_lines bs ls -> text_lines bs ls' -> ls = ls'.
Proof. intros H H'. apply text_lines_unique in H, H'. congruence. Qed.
Theorem get_root_total f path bs : open_rb f path = Ok bs -> exists r, get_root f path = Ok r.
Proof.
  intros O. unfold get_root, open_text. rewrite O. cbn [rmap bind].
  destruct (root_lines (lines (universal bs))) as [(a & b & -> & _)|(-> & _)]; eauto.
Qed.
