(** Facts about the file system model: mkdir, makedirs, open. *)
From Coq Require Import ZArith List Bool Ascii String Lia.
From Verif Require Import PyBase Struct Mesh Arith Edit Obj SpecObj MergeFacts LayoutFacts PathFacts.
Import ListNotations.
Open Scope Z_scope.

Lemma list_bytes_eqb a b : list_eqb bytes_eqb a b = true <-> a = b.
Proof.
  revert b. induction a as [|x a IH]; intros [|y b]; cbn; try (split; easy). rewrite andb_true_iff, bytes_eqb_eq, IH.
  split; [intros (-> & ->); reflexivity|]. intros H. now apply cons_eq in H.
Qed.
Lemma path_eqb_eq a b : path_eqb a b = true <-> a = b.
Proof.
  destruct a as (r, a), b as (s, b). unfold path_eqb. cbn [fst snd]. rewrite andb_true_iff, Bool.eqb_true_iff, list_bytes_eqb.
  split; [intros (-> & ->); reflexivity|]. intros H. now apply pair_equal_spec in H.
Qed.
Lemma update_same f p n : update f p n p = Some n.
Proof. unfold update. now rewrite (proj2 (path_eqb_eq p p) eq_refl). Qed.
Lemma update_other f p n q : q <> p -> update f p n q = f q.
Proof. unfold update. intros H. destruct (path_eqb q p) eqn:E; [|reflexivity]. apply path_eqb_eq in E. contradiction. Qed.
Lemma lookup_root f p : snd p = [] -> lookup f p = Some Dir.
Proof. unfold lookup. now intros ->. Qed.
Lemma lookup_in f p : snd p <> [] -> lookup f p = f p.
Proof. unfold lookup. now destruct (snd p). Qed.
Lemma lookup_none f p : lookup f p = None -> snd p <> [] /\ f p = None.
Proof. unfold lookup. now destruct (snd p). Qed.
Lemma path_dec (p q : path) : {p = q} + {p <> q}.
Proof. destruct (path_eqb p q) eqn:E; [left; now apply path_eqb_eq|right]. intros H. apply path_eqb_eq in H. congruence. Qed.

(** ** mkdir *)
Lemma mkdir_ok f s g : mkdir f s = Ok g -> s <> [] /\ lookup f (resolve s) = None /\ lookup f (parent (resolve s)) = Some Dir /\ g = update f (resolve s) Dir.
Proof.
  unfold mkdir. destruct s as [|c t]; [discriminate|]. set (s := c :: t). destruct (lookup f (resolve s)) eqn:E; [discriminate|].
  unfold in_dir. destruct (lookup f (parent (resolve s))) as [[|]|] eqn:E2; cbn; try discriminate.
  intros H. injection H as <-. repeat split; auto. discriminate.
Qed.
Lemma mkdir_succeeds f s : s <> [] -> lookup f (resolve s) = None -> lookup f (parent (resolve s)) = Some Dir ->
  mkdir f s = Ok (update f (resolve s) Dir).
Proof. intros H E1 E2. unfold mkdir. destruct s as [|c t]; [easy|]. rewrite E1. unfold in_dir. now rewrite E2. Qed.

(** ** makedirs *)
Definition go (g : fs) (s : bytes) : fs * option exn := match mkdir g s with Ok g' => (g', None) | Raise e => (g, Some e) end.
Lemma makedirs_step n f s : makedirs_fuel (S n) f s =
  let '(hd, tl) := dir_tail s in
  match hd, tl with
  | _ :: _, _ :: _ =>
      if exists_ f hd then go f s
      else match makedirs_fuel n f hd with
           | (g, None) => if bytes_eqb tl [dot] then (g, None) else go g s
           | (g, Some EFileExists) => if bytes_eqb tl [dot] then (g, None) else go g s
           | (g, Some e) => (g, Some e)
           end
  | _, _ => go f s
  end.
Proof. cbn [makedirs_fuel]. unfold dir_tail. destruct (path_split s) as (hd0, tl0). destruct tl0; reflexivity. Qed.

Lemma above_refl p : above p p.
Proof. split; [reflexivity|]. exists []. now rewrite app_nil_r. Qed.
Lemma above_trans p q r : above p q -> above q r -> above p r.
Proof. intros (H1 & l & E1) (H2 & l' & E2). split; [congruence|]. exists (l ++ l'). rewrite E2, E1. now rewrite app_assoc. Qed.
Lemma dirs_added_refl p f : dirs_added p f f.
Proof. intros q. now left. Qed.
Lemma dirs_added_trans p f g h : dirs_added p f g -> dirs_added p g h -> dirs_added p f h.
Proof.
  intros H1 H2 q. destruct (H1 q) as [E1|(E1 & E2 & A)], (H2 q) as [E3|(E3 & E4 & B)].
  - left. congruence.
  - right. rewrite <- E1. auto.
  - right. rewrite E3. auto.
  - congruence.
Qed.
Lemma dirs_added_above p q f g : above p q -> dirs_added p f g -> dirs_added q f g.
Proof. intros A H r. destruct (H r) as [E|(E1 & E2 & B)]; [now left|]. right. split; [exact E1|]. split; [exact E2|]. eapply above_trans; eassumption. Qed.
Lemma go_added g s h r : go g s = (h, r) -> dirs_added (resolve s) g h.
Proof.
  unfold go. destruct (mkdir g s) as [g'|e] eqn:E; intros H; injection H as <- <-; [|apply dirs_added_refl].
  apply mkdir_ok in E. destruct E as (_ & E & _ & ->). apply lookup_none in E. intros q. destruct (path_dec q (resolve s)) as [->|N].
  - right. rewrite update_same. split; [tauto|]. split; [reflexivity|]. apply above_refl.
  - left. now apply update_other.
Qed.
Lemma hd_above s hd tl : comps s = comps hd ++ comps tl -> rooted s = rooted hd -> above (resolve hd) (resolve s).
Proof. intros H1 H2. rewrite !resolve_eq. split; [now rewrite H2|]. exists (comps tl). exact H1. Qed.

Lemma makedirs_added n : forall f s g r, makedirs_fuel n f s = (g, r) -> dirs_added (resolve s) f g.
Proof.
  induction n as [|n IH]; intros f s g r H; [injection H as <- <-; apply dirs_added_refl|]. rewrite makedirs_step in H.
  destruct (dir_tail s) as (hd, tl) eqn:E. apply dir_tail_spec in E. destruct E as [(N1 & N2 & _ & E1 & E2 & _)|(N & _)].
  - pose proof (hd_above _ _ _ E1 E2) as A. destruct hd as [|c hd]; [easy|]. destruct tl as [|d tl]; [easy|].
    destruct (exists_ f (c :: hd)); [now apply go_added in H|]. destruct (makedirs_fuel n f (c :: hd)) as (g1, o) eqn:E3.
    apply IH in E3. apply (dirs_added_above _ _ _ _ A) in E3.
    assert (forall h r, (if bytes_eqb (d :: tl) [dot] then (g1, None) else go g1 s) = (h, r) -> dirs_added (resolve s) f h) as X.
    { intros h r'. destruct (bytes_eqb (d :: tl) [dot]); intros H'; [injection H' as <- <-; exact E3|].
      apply go_added in H'. eapply dirs_added_trans; eassumption. }
    destruct o as [e|]; [|exact (X _ _ H)]. destruct e; try (injection H as <- <-; exact E3). exact (X _ _ H).
  - assert (go f s = (g, r)) as H' by (destruct N as [->|N]; [exact H|]; destruct hd; [exact H|subst tl; exact H]). now apply go_added in H'.
Qed.

Lemma go_ok g s h : go g s = (h, None) -> s <> [] /\ lookup h (resolve s) = Some Dir.
Proof.
  unfold go. destruct (mkdir g s) as [g'|e] eqn:E; intros H; [|discriminate]. injection H as <-.
  apply mkdir_ok in E. destruct E as (N & E & _ & ->). split; [exact N|]. apply lookup_none in E. rewrite lookup_in by tauto. apply update_same.
Qed.
Lemma exists_spec f s : exists_ f s = true <-> s <> [] /\ exists n, lookup f (resolve s) = Some n.
Proof.
  unfold exists_. destruct s as [|c t]; [split; [discriminate|easy]|]. destruct (lookup f (resolve (c :: t))) as [n|] eqn:E.
  - split; [|reflexivity]. intros _. split; [easy|]. now exists n.
  - split; [discriminate|]. intros (_ & n & H). discriminate.
Qed.

(** When it returns, the directory is there. *)
Lemma makedirs_ok n : forall f s g, (List.length s < n)%nat -> makedirs_fuel n f s = (g, None) ->
  s <> [] /\ exists m, lookup g (resolve s) = Some m.
Proof.
  induction n as [|n IH]; intros f s g L H; [discriminate|]. rewrite makedirs_step in H.
  destruct (dir_tail s) as (hd, tl) eqn:E. apply dir_tail_spec in E. destruct E as [(N1 & N2 & N3 & E1 & E2 & L2)|(N & _)].
  - destruct hd as [|c hd]; [easy|]. destruct tl as [|d tl]; [easy|].
    destruct (exists_ f (c :: hd)) eqn:EX; [apply go_ok in H; destruct H; eauto|]. destruct (makedirs_fuel n f (c :: hd)) as (g1, o) eqn:E3.
    assert (bytes_eqb (d :: tl) [dot] = true -> resolve s = resolve (c :: hd)) as R.
    { intros X. apply bytes_eqb_eq in X. rewrite !resolve_eq, E1, E2, X. f_equal. rewrite <- (app_nil_r (comps (c :: hd))) at 2. reflexivity. }
    assert (s <> []) as NS by (intros ->; cbn in L2; lia).
    destruct o as [e|].
    + destruct e; try discriminate. destruct (bytes_eqb (d :: tl) [dot]) eqn:X; [|apply go_ok in H; destruct H; eauto].
      (* the recursive call failed with FileExistsError although the name does not exist: the directory appears *)
      exfalso. injection H as <-. clear -E3 EX IH L L2.
      assert (forall n f s g, (List.length s < n)%nat -> exists_ f s = false -> makedirs_fuel n f s = (g, Some EFileExists) -> False) as NO.
      { clear. induction n as [|n IH]; intros f s g L EX H; [lia|].
        assert (s <> []) as NS by (intros ->; discriminate). rewrite makedirs_step in H.
        destruct (dir_tail s) as (hd, tl) eqn:E. apply dir_tail_spec in E.
        assert (forall h, lookup h (resolve s) = None -> go h s = (g, Some EFileExists) -> False) as G.
        { intros h E4. unfold go, mkdir. destruct s as [|a s]; [discriminate|]. rewrite E4. unfold in_dir.
          destruct (lookup h (parent (resolve (a :: s)))) as [[|]|]; cbn; discriminate. }
        assert (lookup f (resolve s) = None) as LN.
        { destruct s as [|a s]; [easy|]. unfold exists_ in EX. now destruct (lookup f (resolve (a :: s))). }
        destruct E as [(N1 & N2 & N3 & E1 & E2 & L2)|(N & _)].
        - destruct hd as [|c hd]; [easy|]. destruct tl as [|d tl]; [easy|]. destruct (exists_ f (c :: hd)) eqn:EX2; [now apply (G f)|].
          destruct (makedirs_fuel n f (c :: hd)) as (g1, o) eqn:E3. pose proof (makedirs_added _ _ _ _ _ E3) as AD.
          assert (bytes_eqb (d :: tl) [dot] = false -> lookup g1 (resolve s) = None) as LN1.
          { intros X. destruct (lookup_none _ _ LN) as (X1 & X2). rewrite lookup_in by exact X1. destruct (AD (resolve s)) as [X3|(_ & _ & (_ & l & X3))]; [congruence|].
            exfalso. rewrite !resolve_eq in X3. cbn [snd] in X3. rewrite E1 in X3. rewrite (comps_single _ N3) in X3.
            assert (keep (d :: tl) = true) as K by (apply keep_spec; split; [easy|]; intros Y; rewrite Y in X; discriminate).
            rewrite K in X3. apply (f_equal (@List.length _)) in X3. rewrite !app_length in X3. cbn in X3. lia. }
          destruct o as [e|].
          + destruct e; try discriminate. apply (IH f (c :: hd) g1); [lia|exact EX2|exact E3].
          + destruct (bytes_eqb (d :: tl) [dot]); [discriminate|]. apply (G g1); auto.
        - assert (go f s = (g, Some EFileExists)) as H' by (destruct N as [->|N]; [exact H|]; destruct hd; [exact H|subst tl; exact H]). now apply (G f). }
      apply (NO n f (c :: hd) g1); [lia|exact EX|exact E3].
    + destruct (bytes_eqb (d :: tl) [dot]) eqn:X; [|apply go_ok in H; destruct H; eauto]. injection H as <-.
      split; [exact NS|]. rewrite (R eq_refl). apply IH in E3; [|lia]. apply E3.
  - assert (go f s = (g, None)) as H' by (destruct N as [->|N]; [exact H|]; destruct hd; [exact H|subst tl; exact H]). apply go_ok in H'. destruct H'; eauto.
Qed.

(** ** Creating all missing directories *)
Lemma parent_snoc r l x : parent (r, l ++ [x]) = (r, l).
Proof. unfold parent. cbn [fst snd]. now rewrite removelast_last. Qed.
Lemma tree_above f : tree f -> forall p q, lookup f p = Some Dir -> above q p -> lookup f q = Some Dir.
Proof.
  intros T (r, l) (r', l') H (E & k & E2). cbn [fst snd] in *. subst r' l. revert H.
  induction k as [|x k IH] using rev_ind; intros H; [now rewrite app_nil_r in H|]. apply IH.
  rewrite app_assoc in H. apply T in H; [|now destruct (l' ++ k)]. now rewrite parent_snoc in H.
Qed.
Lemma lookup_above_cases q p : above q p -> q = p \/ (snd p <> [] /\ above q (parent p)).
Proof.
  destruct q as (r, l), p as (r', l'). intros (E & k & E2). cbn [fst snd] in *. subst r' l'.
  destruct k as [|x k] using rev_ind; [left; now rewrite app_nil_r|]. right. split; [now destruct l, k|].
  rewrite app_assoc, parent_snoc. split; [reflexivity|]. now exists k.
Qed.
Theorem makedirs_creates n : forall f s, tree f -> (List.length s < n)%nat -> s <> [] -> lookup f (resolve s) = None ->
  (forall q c, above q (resolve s) -> lookup f q <> Some (File c)) ->
  exists g, makedirs_fuel n f s = (g, None) /\ forall q, above q (resolve s) -> lookup g q = Some Dir.
Proof.
  induction n as [|n IH]; intros f s T L NS LN NF; [lia|]. rewrite makedirs_step.
  destruct (dir_tail s) as (hd, tl) eqn:E. apply dir_tail_spec in E.
  destruct E as [(N1 & N2 & N3 & E1 & E2 & L2)|(N & c & EC)].
  - pose proof (hd_above _ _ _ E1 E2) as AB. destruct hd as [|c hd]; [easy|]. destruct tl as [|d tl]; [easy|].
    set (hd' := c :: hd) in *. set (tl' := d :: tl) in *.
    assert (tl' <> [dot] -> parent (resolve s) = resolve hd' /\ snd (resolve s) = snd (resolve hd') ++ [tl']) as PR.
    { intros X. rewrite !resolve_eq, E1, E2, (comps_single _ N3). assert (keep tl' = true) as -> by (apply keep_spec; split; [exact N2|exact X]).
      now rewrite parent_snoc. }
    destruct (exists_ f hd') eqn:EX.
    + apply exists_spec in EX. destruct EX as (_ & m & EX). assert (m = Dir) as ->.
      { destruct m as [ct|]; [|reflexivity]. exfalso. now apply (NF (resolve hd') ct). }
      assert (tl' <> [dot]) as X.
      { intros X. rewrite resolve_eq, E1, E2, X in LN. change (comps [dot]) with (@nil bytes) in LN. rewrite app_nil_r, <- resolve_eq in LN. congruence. }
      destruct (PR X) as (P1 & P2). unfold go. rewrite mkdir_succeeds by (auto; rewrite P1; exact EX). eexists. split; [reflexivity|].
      intros q Hq. apply lookup_above_cases in Hq. destruct Hq as [->|(Hs & Hq)].
      * apply lookup_none in LN. rewrite lookup_in by tauto. apply update_same.
      * rewrite P1 in Hq. pose proof (tree_above f T _ _ EX Hq) as LQ. unfold lookup in *. destruct (snd q); [reflexivity|].
        rewrite update_other; [exact LQ|]. intros ->. apply lookup_none in LN. destruct LN. congruence.
    + assert (lookup f (resolve hd') = None) as LH.
      { unfold exists_, hd' in EX. fold hd' in EX. destruct (lookup f (resolve hd')); [discriminate|reflexivity]. }
      destruct (IH f hd' T ltac:(lia) ltac:(easy) LH) as (g & Eg & Hg).
      { intros q ct Hq. apply NF. eapply above_trans; eassumption. }
      rewrite Eg. destruct (bytes_eqb tl' [dot]) eqn:X.
      * apply bytes_eqb_eq in X. exists g. split; [reflexivity|]. intros q Hq. apply Hg.
        rewrite resolve_eq, E1, E2, X in Hq. change (comps [dot]) with (@nil bytes) in Hq. now rewrite app_nil_r, <- resolve_eq in Hq.
      * assert (tl' <> [dot]) as X' by (intros Y; apply bytes_eqb_eq in Y; congruence). destruct (PR X') as (P1 & P2).
        assert (lookup g (resolve s) = None) as LG.
        { apply lookup_none in LN. destruct LN as (X1 & X2). rewrite lookup_in by exact X1.
          destruct (makedirs_added _ _ _ _ _ Eg (resolve s)) as [X3|(_ & _ & (_ & l & X3))]; [congruence|]. exfalso. rewrite P2 in X3.
          apply (f_equal (@List.length _)) in X3. rewrite !app_length in X3. cbn in X3. lia. }
        unfold go. rewrite mkdir_succeeds; [|exact NS|exact LG|rewrite P1; apply Hg, above_refl]. eexists. split; [reflexivity|].
        intros q Hq. apply lookup_above_cases in Hq. destruct Hq as [->|(Hs & Hq)].
        -- rewrite lookup_in by (apply lookup_none in LG; tauto). apply update_same.
        -- rewrite P1 in Hq. pose proof (Hg q Hq) as LQ. unfold lookup in *. destruct (snd q); [reflexivity|].
           rewrite update_other; [exact LQ|]. intros ->. apply lookup_none in LG. destruct LG. congruence.
  - assert (match hd with [] => go f s | _ :: _ => match tl with [] => go f s | _ :: _ =>
       if exists_ f hd then go f s else match makedirs_fuel n f hd with
           | (g, None) => if bytes_eqb tl [dot] then (g, None) else go g s
           | (g, Some EFileExists) => if bytes_eqb tl [dot] then (g, None) else go g s
           | (g, Some e) => (g, Some e) end end end = go f s) as -> by (destruct N as [->|N]; [reflexivity|]; destruct hd; [reflexivity|now subst tl]).
    destruct (lookup_none _ _ LN) as (X1 & X2). rewrite resolve_eq in X1. cbn [snd] in X1. rewrite EC in X1. destruct (keep c); [|easy].
    assert (parent (resolve s) = (rooted s, [])) as P1 by (rewrite resolve_eq, EC; reflexivity).
    unfold go. rewrite mkdir_succeeds; [|exact NS|exact LN|rewrite P1; reflexivity]. eexists. split; [reflexivity|].
    intros q Hq. apply lookup_above_cases in Hq. destruct Hq as [->|(Hs & Hq)].
    + rewrite lookup_in by (apply lookup_none in LN; tauto). apply update_same.
    + rewrite P1 in Hq. destruct Hq as (_ & l & Hl). cbn in Hl. destruct (snd q) eqn:Eq; [now apply lookup_root|discriminate].
Qed.
