(** Facts about mesh objects: opening and exporting. *)
From Coq Require Import ZArith List Bool Ascii String Lia.
From Flocq Require Import IEEE754.Binary IEEE754.Bits.
From Verif Require Import PyBase Struct Mesh Arith F64 Edit Obj Spec SpecF SpecEdit SpecBounds SpecObj CodecBase CodecRaw CodecParam CodecFacts
  MergeFacts LayoutFacts BoundFacts CenterFacts SpecObj PathFacts FileFacts.
Import ListNotations.
Open Scope Z_scope.

Section Objects.
Context {F : Type} (A : arith F) (p : plat) (unpackf : Z -> F) (packf : F -> Z).
Notation obj := (obj (F := F)).
Implicit Types (f g : fs) (o : obj) (kw : flags).
Notation new_visible_mesh := (new_visible_mesh p unpackf).
Notation export_until := (export_until A p packf).
Notation export_obj := (export_obj A p packf).

(** ** Opening *)
Lemma kind_of_name_spec fn : kind_named (kind_of_name fn) fn.
Proof. unfold kind_named, kind_of_name. cbn. repeat split; apply has_ext_spec. Qed.
Lemma kind_named_eq k fn : kind_named k fn -> k = kind_of_name fn.
Proof.
  intros (H1 & H2 & H3 & H4). destruct (kind_of_name_spec fn) as (K1 & K2 & K3 & K4). destruct k as [a b c d], (kind_of_name fn) as [a' b' c' d']. cbn in *.
  f_equal; [destruct a, a'|destruct b, b'|destruct c, c'|destruct d, d']; try reflexivity; try (symmetry; tauto); tauto.
Qed.
Lemma load_kind k bs (m : mesh F) : load p unpackf k bs = Ok m -> m_kind m = k.
Proof.
  intros H. rewrite load_via in H. destruct (load p raw k bs) as [r|] eqn:E; [|discriminate]. injection H as <-. cbn.
  unfold load in E. apply bind_ok in E. destruct E as ([m rest] & H1 & H2). destruct rest; [|discriminate]. injection H2 as ->.
  apply load_body_raw_ok in H1. tauto.
Qed.
Lemma new_ok f filename kw o : new_visible_mesh f filename kw = Ok o ->
  exists fn file, filename = Some fn /\ fn <> [] /\ open_rb f fn = Ok file /\ load p unpackf (kind_of_name fn) file = Ok (o_mesh o) /\
    o_filename o = fn /\ o_loaded o = true.
Proof.
  unfold Obj.new_visible_mesh, first_enter, bf2mesh_init. destruct filename as [[|c t]|]; cbn [b_filename b_kind]; try discriminate.
  destruct (open_rb f (c :: t)) as [file|] eqn:E1; [|discriminate]. cbn [bind].
  destruct (load p unpackf _ file) as [m|] eqn:E2; [|discriminate]. cbn [bind]. intros H. injection H as <-.
  exists (c :: t), file. repeat split; auto. discriminate.
Qed.
Theorem opened_kind f fn kw o : new_visible_mesh f (Some fn) kw = Ok o -> kind_named (m_kind (o_mesh o)) fn.
Proof.
  intros H. apply new_ok in H. destruct H as (fn' & file & E & _ & _ & H & _). injection E as <-. rewrite (load_kind _ _ _ H). apply kind_of_name_spec.
Qed.
Theorem flags_ignored f fn kw kw' : fn <> [] -> new_visible_mesh f (Some fn) kw = new_visible_mesh f (Some fn) kw' /\
  new_bundled_mesh p unpackf f (Some fn) = new_visible_mesh f (Some fn) kw.
Proof. intros H. destruct fn as [|c t]; [easy|]. split; reflexivity. Qed.
Theorem no_filename f kw : new_visible_mesh f None kw = Raise EAttribute /\ new_visible_mesh f (Some []) kw = Raise EAttribute /\
  new_bundled_mesh p unpackf f None = Raise EAttribute.
Proof. repeat split. Qed.

(** ** Export *)
Lemma writes_to_eq o filename fn : writes_to o filename fn -> export_target o filename = fn.
Proof. unfold writes_to, export_target. destruct filename as [[|c t]|]; auto. Qed.
Lemma path_split_bare s : ~ In slash s -> path_split s = ([], s).
Proof.
  intros H. unfold path_split. replace (split_last slash s) with (@nil byte, s); [reflexivity|]. symmetry.
  apply (split_last_app slash s H []). now left.
Qed.
Theorem bare_name o filename fn : writes_to o filename fn -> ~ In slash fn -> forall stop f ub,
  export_until stop f o filename ub = (f, o, Some EFileNotFound).
Proof.
  intros W H stop f ub. unfold Obj.export_until. rewrite (writes_to_eq _ _ _ W). unfold dirname. rewrite (path_split_bare _ H). reflexivity.
Qed.

Lemma dirname_above fn : above (resolve (dirname fn)) (resolve fn).
Proof.
  unfold dirname. destruct (path_split fn) as (hd, tl) eqn:E. pose proof (path_split_spec _ _ _ E) as (P1 & P2 & P3 & P4 & _). cbn [fst].
  rewrite !resolve_eq. split; cbn [fst snd]; [|exists (comps tl); exact P2]. destruct hd as [|c hd].
  - rewrite (P4 eq_refl). cbn. destruct tl as [|d tl]; [reflexivity|]. cbn. destruct (Ascii.eqb_spec d slash) as [->|]; [|reflexivity]. exfalso. apply P1. now left.
  - symmetry. now apply P3.
Qed.
Definition prepared (f : fs) (fn : bytes) : fs * option exn := if exists_ f (dirname fn) then (f, None) else makedirs f (dirname fn).
Lemma prepared_added f fn g r : prepared f fn = (g, r) -> dirs_added (resolve fn) f g.
Proof.
  unfold prepared. destruct (exists_ f (dirname fn)); intros H; [injection H as <- <-; apply dirs_added_refl|].
  apply makedirs_added in H. apply (dirs_added_above _ _ _ _ (dirname_above fn) H).
Qed.
Definition mesh_to_write (ub : bool) (o : obj) : mesh F := if ub then fst (update_boundaries A (o_mesh o)) else o_mesh o.
Lemma open_wb_ok f fn g : open_wb f fn = Ok g -> g = update f (resolve fn) (File []) /\ fn <> [] /\ ends_slash fn = false /\
  snd (resolve fn) <> [] /\ (f (resolve fn) = None \/ exists c, f (resolve fn) = Some (File c)).
Proof.
  unfold open_wb. destruct fn as [|c t]; [discriminate|]. set (fn := c :: t). destruct (lookup f (resolve fn)) as [[ct|]|] eqn:E.
  - destruct (ends_slash fn); [discriminate|]. intros H. injection H as <-. split; [reflexivity|]. split; [easy|]. split; [reflexivity|].
    unfold lookup in E. destruct (snd (resolve fn)) eqn:E2; [discriminate|]. split; [easy|]. right. eauto.
  - discriminate.
  - unfold in_dir. destruct (lookup f (parent (resolve fn))) as [[|]|]; cbn; try discriminate. destruct (ends_slash fn); [discriminate|].
    intros H. injection H as <-. split; [reflexivity|]. split; [easy|]. split; [reflexivity|]. apply lookup_none in E. split; [tauto|]. left. tauto.
Qed.
Lemma update_twice f q a b : same_files (update f q b) (update (update f q a) q b).
Proof. intros r. destruct (path_dec r q) as [->|N]; [now rewrite !update_same|]. now rewrite !update_other. Qed.

(** What an export, complete or interrupted, can do. *)
Theorem export_effect o filename fn : writes_to o filename fn -> forall stop f ub f' o' r,
  export_until stop f o filename ub = (f', o', r) ->
  (forall q, q <> resolve fn -> f' q = f q \/ (f q = None /\ f' q = Some Dir /\ above q (resolve fn))) /\
  (f' (resolve fn) = f (resolve fn) \/ (f (resolve fn) = None /\ f' (resolve fn) = Some Dir) \/
   exists n, f' (resolve fn) = Some (File (firstn n (fst (export p packf (mesh_to_write ub o)))))) /\
  (r <> None -> o_filename o' = o_filename o) /\
  (o_mesh o' = o_mesh o \/ o_mesh o' = mesh_to_write ub o) /\ o_loaded o' = o_loaded o.
Proof.
  intros W stop f ub f' o' r. unfold Obj.export_until. rewrite (writes_to_eq _ _ _ W). fold (prepared f fn).
  destruct (prepared f fn) as (f1, [e|]) eqn:EP; apply prepared_added in EP.
  - intros H. injection H as <- <- <-. split; [intros q _; apply EP|]. split; [destruct (EP (resolve fn)) as [X|(X & Y & _)]; auto|]. auto.
  - assert ((if ub then update_boundaries A (o_mesh o) else (o_mesh o, None)) =
      (mesh_to_write ub o, if ub then snd (update_boundaries A (o_mesh o)) else None)) as ->
      by (unfold mesh_to_write; destruct ub; [now destruct (update_boundaries A (o_mesh o))|reflexivity]).
    destruct (if ub then snd (update_boundaries A (o_mesh o)) else None) as [e|].
    + intros H. injection H as <- <- <-. split; [intros q _; apply EP|]. split; [destruct (EP (resolve fn)) as [X|(X & Y & _)]; auto|]. auto.
    + destruct (open_wb f1 fn) as [f2|e] eqn:EO.
      * apply open_wb_ok in EO. destruct EO as (-> & _). destruct (export p packf (mesh_to_write ub o)) as (bs, r3) eqn:EX.
        assert (exists n, match stop with None => bs | Some n => firstn n bs end = firstn n bs) as (n & EN).
        { destruct stop as [n|]; [now exists n|]. exists (List.length bs). now rewrite firstn_all. }
        rewrite EN. assert (forall q, q <> resolve fn -> update (update f1 (resolve fn) (File [])) (resolve fn) (File (firstn n bs)) q = f q \/
          (f q = None /\ update (update f1 (resolve fn) (File [])) (resolve fn) (File (firstn n bs)) q = Some Dir /\ above q (resolve fn))) as FR.
        { intros q Hq. rewrite !update_other by exact Hq. apply EP. }
        cbn [fst]. destruct r3 as [e|]; intros H; injection H as <- <- <-; (split; [exact FR|]; split; [right; right; exists n; apply update_same|]; cbn; auto).
        split; [easy|auto].
      * intros H. injection H as <- <- <-. split; [intros q _; apply EP|]. split; [destruct (EP (resolve fn)) as [X|(X & Y & _)]; auto|]. auto.
Qed.

(** A successful export. *)
Theorem export_success o filename fn : writes_to o filename fn -> forall f ub f' o',
  export_obj f o filename ub = (f', o', None) -> exists bs,
  export p packf (mesh_to_write ub o) = (bs, None) /\ f' (resolve fn) = Some (File bs) /\
  o' = {| o_mesh := mesh_to_write ub o; o_filename := fn; o_loaded := o_loaded o |} /\
  (ub = true -> snd (update_boundaries A (o_mesh o)) = None) /\
  (fn <> [] /\ ends_slash fn = false /\ snd (resolve fn) <> []) /\ exists_ f' (dirname fn) = true.
Proof.
  intros W f ub f' o'. unfold Obj.export_obj, Obj.export_until. rewrite (writes_to_eq _ _ _ W). fold (prepared f fn).
  destruct (prepared f fn) as (f1, [e|]) eqn:EP; [discriminate|].
  assert ((if ub then update_boundaries A (o_mesh o) else (o_mesh o, None)) =
      (mesh_to_write ub o, if ub then snd (update_boundaries A (o_mesh o)) else None)) as ->
      by (unfold mesh_to_write; destruct ub; [now destruct (update_boundaries A (o_mesh o))|reflexivity]).
  destruct (if ub then snd (update_boundaries A (o_mesh o)) else None) as [e|] eqn:EU; [discriminate|].
  destruct (open_wb f1 fn) as [f2|e] eqn:EO; [|discriminate]. apply open_wb_ok in EO. destruct EO as (-> & N & NS & NR & _).
  destruct (export p packf (mesh_to_write ub o)) as (bs, [e|]) eqn:EX; [discriminate|]. intros H. injection H as <- <-.
  exists bs. split; [reflexivity|]. split; [apply update_same|]. split; [reflexivity|]. split; [intros ->; exact EU|]. split; [auto|].
  assert (exists_ f1 (dirname fn) = true) as E1.
  { unfold prepared in EP. destruct (exists_ f (dirname fn)) eqn:E; [now injection EP as <-|]. unfold makedirs in EP.
    apply makedirs_ok in EP; [|lia]. apply exists_spec. exact EP. }
  apply exists_spec in E1. destruct E1 as (N1 & n & L). apply exists_spec. split; [exact N1|].
  unfold lookup in *. destruct (snd (resolve (dirname fn))) as [|x l]; [eauto|].
  destruct (path_dec (resolve (dirname fn)) (resolve fn)) as [E|NE]; [rewrite E; rewrite update_same; eauto|]. rewrite !update_other by exact NE. eauto.
Qed.
Lemma open_wb_file f fn c : fn <> [] -> ends_slash fn = false -> lookup f (resolve fn) = Some (File c) -> open_wb f fn = Ok (update f (resolve fn) (File [])).
Proof. intros N E L. unfold open_wb. destruct fn as [|x t]; [easy|]. now rewrite L, E. Qed.
Lemma update_id f q n : f q = Some n -> forall a, same_files f (update (update f q a) q n).
Proof. intros E a r. destruct (path_dec r q) as [->|N]; [now rewrite update_same|]. now rewrite !update_other. Qed.

(** Exporting onto the file that already holds these bytes. *)
Lemma export_again f o filename fn ub bs : writes_to o filename fn -> fn <> [] -> ends_slash fn = false -> lookup f (resolve fn) = Some (File bs) ->
  exists_ f (dirname fn) = true -> (ub = true -> update_boundaries A (o_mesh o) = (o_mesh o, None)) -> export p packf (o_mesh o) = (bs, None) ->
  exists f', export_obj f o filename ub = (f', {| o_mesh := o_mesh o; o_filename := fn; o_loaded := o_loaded o |}, None) /\ same_files f f'.
Proof.
  intros W N NS L ED EU EX. unfold Obj.export_obj, Obj.export_until. rewrite (writes_to_eq _ _ _ W), ED.
  assert ((if ub then update_boundaries A (o_mesh o) else (o_mesh o, None)) = (o_mesh o, None)) as -> by (destruct ub; [now apply EU|reflexivity]).
  rewrite (open_wb_file _ _ _ N NS L), EX. eexists. split; [reflexivity|]. apply update_id.
  unfold lookup in L. destruct (snd (resolve fn)); [discriminate|exact L].
Qed.

(** Two exports in a row. *)
Theorem export_twice o filename f f1 o1 : export_obj f o filename true = (f1, o1, None) ->
  exists f2, export_obj f1 o1 None true = (f2, o1, None) /\ same_files f1 f2.
Proof.
  intros H. assert (exists fn, writes_to o filename fn) as (fn & W) by (unfold writes_to; destruct filename as [[|c t]|]; eauto).
  destruct (export_success _ _ _ W _ _ _ _ H) as (bs & EX & EF & -> & EU & (N & NS & NR) & ED).
  destruct (export_again f1 {| o_mesh := mesh_to_write true o; o_filename := fn; o_loaded := o_loaded o |} None fn true bs) as (f2 & E2 & SF); auto.
  - reflexivity.
  - unfold lookup. destruct (snd (resolve fn)); [easy|exact EF].
  - intros _. cbn [o_mesh]. unfold mesh_to_write. specialize (EU eq_refl). apply (update_again A (o_mesh o)).
    destruct (update_boundaries A (o_mesh o)). cbn in *. congruence.
  - exists f2. now split.
Qed.

(** ** Entering again *)
Theorem enter_loaded f o : o_loaded o = true -> enter p unpackf f o = Ok o.
Proof. unfold enter. intros ->. now destruct (o_filename o). Qed.
Theorem entered_once f fn kw o : new_visible_mesh f fn kw = Ok o -> forall f', enter p unpackf f' o = Ok o.
Proof. intros H f'. apply enter_loaded. apply new_ok in H. destruct H as (? & ? & _ & _ & _ & _ & _ & H). exact H. Qed.

(** ** Export to a name in an existing or creatable directory *)
Lemma proper_split fn : proper_name fn -> exists hd tl, path_split fn = (hd, tl) /\ ~ In slash tl /\ tl <> [] /\ tl <> [dot].
Proof.
  intros (d & s & -> & Hd & Hs & N1 & N2). unfold path_split. rewrite (split_last_app slash s Hs d Hd). eexists. exists s. split; [reflexivity|]. auto.
Qed.
Lemma proper_dirname fn : proper_name fn -> In slash fn -> dirname fn <> [] /\ resolve (dirname fn) = parent (resolve fn) /\ snd (resolve fn) <> [] /\ fn <> [] /\ ends_slash fn = false.
Proof.
  intros P HS. destruct (proper_split fn P) as (hd & tl & E & T1 & T2 & T3). destruct (path_split_tail _ _ _ E) as (h & Eh & _).
  pose proof (path_split_spec _ _ _ E) as (P1 & P2 & P3 & P4 & _). unfold dirname. rewrite E. cbn [fst].
  assert (hd <> []) as Nh by (intros X; apply T1; now rewrite <- (P4 X)). split; [exact Nh|].
  rewrite (comps_single _ T1), (proj2 (keep_spec tl) (conj T2 T3)) in P2. rewrite !resolve_eq, P2, parent_snoc, (P3 Nh). split; [reflexivity|].
  split; [cbn; now destruct (comps hd)|]. split; [intros ->; easy|]. unfold ends_slash. rewrite Eh.
  destruct tl as [|c t] using rev_ind; [easy|]. rewrite app_assoc, last_last. apply not_true_iff_false. intros X. apply Ascii.eqb_eq in X. subst c.
  apply T1. apply in_app_iff. right. now left.
Qed.
Theorem export_succeeds f o filename fn ub bs : tree f -> writes_to o filename fn -> proper_name fn -> In slash fn ->
  (forall q c, q <> resolve fn -> above q (resolve fn) -> lookup f q <> Some (File c)) ->
  lookup f (resolve fn) <> Some Dir ->
  (ub = true -> snd (update_boundaries A (o_mesh o)) = None) -> export p packf (mesh_to_write ub o) = (bs, None) ->
  exists f', export_obj f o filename ub = (f', {| o_mesh := mesh_to_write ub o; o_filename := fn; o_loaded := o_loaded o |}, None) /\
    f' (resolve fn) = Some (File bs) /\ (forall q, q <> resolve fn -> above q (resolve fn) -> lookup f' q = Some Dir).
Proof.
  intros T W P HS NF ND EU EX. destruct (proper_dirname fn P HS) as (N1 & ER & NR & NN & NE).
  assert (forall q, above q (resolve (dirname fn)) -> q <> resolve fn /\ above q (resolve fn)) as AB.
  { intros q Hq. split; [|eapply above_trans; [exact Hq|apply dirname_above]]. intros ->. rewrite ER in Hq. destruct Hq as (_ & l & E). unfold parent in E. cbn [snd] in E.
    clear - E NR. revert E NR. generalize (snd (resolve fn)). intros x E NR. pose proof (f_equal (@List.length _) (@app_removelast_last bytes x [] NR)) as E2. apply (f_equal (@List.length _)) in E. rewrite app_length in E, E2. cbn [List.length] in E2. lia. }
  assert (exists f1, prepared f fn = (f1, None) /\ lookup f1 (resolve fn) = lookup f (resolve fn) /\
            (forall q, above q (resolve (dirname fn)) -> lookup f1 q = Some Dir)) as (f1 & EP & EL & ED).
  { unfold prepared. destruct (exists_ f (dirname fn)) eqn:E.
    - exists f. split; [reflexivity|]. split; [reflexivity|]. apply exists_spec in E. destruct E as (_ & n & E).
      destruct n as [c|]; [exfalso; apply (NF (resolve (dirname fn)) c); [apply AB, above_refl|apply AB, above_refl|exact E]|].
      intros q Hq. exact (tree_above f T _ _ E Hq).
    - assert (lookup f (resolve (dirname fn)) = None) as LN.
      { destruct (lookup f (resolve (dirname fn))) eqn:L; [|reflexivity]. assert (exists_ f (dirname fn) = true); [|congruence]. apply exists_spec. eauto. }
      destruct (makedirs_creates (S (List.length (dirname fn))) f (dirname fn) T ltac:(lia) N1 LN) as (g & Eg & Hg).
      { intros q c Hq. apply NF; now apply AB. }
      exists g. split; [exact Eg|]. split; [|exact Hg]. apply makedirs_added in Eg. rewrite !lookup_in by exact NR.
      destruct (Eg (resolve fn)) as [X|(_ & _ & X)]; [exact X|]. exfalso. apply (proj1 (AB _ X)). reflexivity. }
  unfold Obj.export_obj, Obj.export_until. rewrite (writes_to_eq _ _ _ W). fold (prepared f fn). rewrite EP.
  assert ((if ub then update_boundaries A (o_mesh o) else (o_mesh o, None)) = (mesh_to_write ub o, None)) as ->.
  { unfold mesh_to_write. destruct ub; [|reflexivity]. specialize (EU eq_refl). destruct (update_boundaries A (o_mesh o)). cbn in *. congruence. }
  assert (open_wb f1 fn = Ok (update f1 (resolve fn) (File []))) as ->.
  { unfold open_wb. destruct fn as [|c t]; [easy|]. rewrite EL. destruct (lookup f (resolve (c :: t))) as [[ct|]|]; [now rewrite NE|easy|].
    unfold in_dir. rewrite <- ER, (ED _ (above_refl _)). cbn [bind]. now rewrite NE. }
  rewrite EX. eexists. split; [reflexivity|]. split; [apply update_same|]. intros q Nq Aq. apply lookup_above_cases in Aq. destruct Aq as [->|(_ & Aq)]; [easy|].
  rewrite <- ER in Aq. pose proof (ED q Aq) as LQ. unfold lookup in *. destruct (snd q); [reflexivity|]. now rewrite !update_other by exact Nq.
Qed.
End Objects.

(** ** Files in IEEE arithmetic *)
Section Files.
Variables (L : libm) (p : plat).
Notation new_visible_mesh := (new_visible_mesh p unpack_f).
Notation export_obj := (export_obj (f64 L) p pack_f).

Lemma open_rb_file f fn c : fn <> [] -> ends_slash fn = false -> lookup f (resolve fn) = Some (File c) -> open_rb f fn = Ok c.
Proof. intros N E H. unfold open_rb. destruct fn; [easy|]. now rewrite H, E. Qed.
Lemma open_rb_ok f fn c : open_rb f fn = Ok c -> fn <> [] /\ ends_slash fn = false /\ lookup f (resolve fn) = Some (File c).
Proof.
  unfold open_rb. destruct fn as [|x t]; [discriminate|]. destruct (lookup f (resolve (x :: t))) as [[ct|]|].
  - destruct (ends_slash (x :: t)); [discriminate|]. intros H. injection H as ->. easy.
  - discriminate.
  - unfold in_dir. destruct (lookup f (parent (resolve (x :: t)))) as [[|]|]; discriminate.
Qed.
Lemma new_file f fn kw c m : fn <> [] -> ends_slash fn = false -> lookup f (resolve fn) = Some (File c) -> load p unpack_f (kind_of_name fn) c = Ok m ->
  new_visible_mesh f (Some fn) kw = Ok {| o_mesh := m; o_filename := fn; o_loaded := true |}.
Proof.
  intros N E H HL. unfold Obj.new_visible_mesh, first_enter, bf2mesh_init. destruct fn as [|x t]; [easy|]. cbn [b_filename b_kind].
  rewrite (open_rb_file _ _ _ N E H). cbn [bind]. now rewrite HL.
Qed.

Lemma written_same ub (o : obj) : wf p (o_mesh o) -> let m' := mesh_to_write (f64 L) ub o in
  wf p m' /\ indexnum m' = indexnum (o_mesh o) /\ m_kind m' = m_kind (o_mesh o).
Proof.
  intros W. cbn zeta. unfold mesh_to_write. destruct ub; [|auto]. destruct (update_boundaries (f64 L) (o_mesh o)) as (m', r) eqn:E.
  split; [exact (update_wf _ _ _ _ _ W E)|]. destruct (update_frame _ _ _ _ E) as (HH & HC & _). cbn [fst].
  destruct HC as (_ & <-), HH as (<- & _). auto.
Qed.
(** Export, then open the file that was written. *)
Theorem save_reopen f (o : obj) filename fn ub f' o' : writes_to o filename fn -> wf p (o_mesh o) -> indexnum (o_mesh o) <> 1 -> kind_named (m_kind (o_mesh o)) fn ->
  export_obj f o filename ub = (f', o', None) ->
  exists round, (forall x, rounds_to_single x (round x)) /\ (forall x, is_single x -> round x = x) /\
  forall kw, new_visible_mesh f' (Some fn) kw = Ok {| o_mesh := mesh_map round (o_mesh o'); o_filename := fn; o_loaded := true |}.
Proof.
  intros W HW0 HN0 HK0 H. destruct (export_success _ p pack_f _ _ _ W _ _ _ _ H) as (bs & EX & EF & -> & _ & (N & NS & NR) & _). cbn [o_mesh] in *.
  destruct (written_same ub o HW0) as (HW & HN & HK). rewrite <- HN in HN0. rewrite <- HK in HK0.
  destruct (export_reload_round p _ HW HN0) as (bs' & rd & R1 & R2 & EX' & LD). exists rd. split; [exact R1|]. split; [exact R2|]. intros kw.
  replace bs' with bs in LD by congruence. rewrite (kind_named_eq _ _ HK0) in LD. apply (new_file _ _ _ bs); auto. now rewrite lookup_in.
Qed.

(** Open, then export over the same file. *)
Theorem open_export f fn kw o file : tree f -> In slash fn -> new_visible_mesh f (Some fn) kw = Ok o ->
  lookup f (resolve fn) = Some (File file) ->
  (forall mr, load p raw (m_kind (o_mesh o)) file = Ok mr -> mesh_all (fun b => ~ snan b) mr) -> indexnum (o_mesh o) <> 1 ->
  exists f', export_obj f o None false = (f', o, None) /\ same_files f f'.
Proof.
  intros T HS H LF SN HN. apply new_ok in H. destruct H as (fn' & file' & E & N & O & LD & EN & EL). injection E as <-.
  apply open_rb_ok in O. destruct O as (_ & NS & O). assert (file' = file) as -> by congruence.
  rewrite (load_kind _ _ _ _ _ LD) in SN. pose proof (reexport_exact p _ _ _ LD SN HN) as EX.
  destruct (export_again (f64 L) p pack_f f o None fn false file) as (f' & E' & SF); auto; try easy.
  - apply exists_spec. split.
    + intros X. unfold dirname in X. destruct (path_split fn) as (hd, tl) eqn:E. destruct (path_split_spec _ _ _ E) as (P1 & _ & _ & P4 & _). apply P1. rewrite <- (P4 X). exact HS.
    + destruct (lookup_above_cases _ _ (dirname_above fn)) as [X|(NR & X)]; [rewrite X; eauto|]. exists Dir.
      apply (tree_above f T (parent (resolve fn))); [|exact X]. eapply T; [exact NR|exact O].
  - exists f'. split; [|exact SF]. rewrite E'. destruct o. cbn in *. now subst.
Qed.

(** A file with a single index is destroyed by an export over it. *)
Theorem single_index_destroyed f fn kw o file : tree f -> In slash fn -> new_visible_mesh f (Some fn) kw = Ok o ->
  lookup f (resolve fn) = Some (File file) -> indexnum (o_mesh o) = 1 ->
  exists f' cut, export_obj f o None false = (f', o, Some EType) /\ f' (resolve fn) = Some (File cut) /\ zlen cut = head_size (Z.of_nat (long_bytes p)) (o_mesh o) /\
    (List.length cut < List.length file)%nat.
Proof.
  intros T HS H LF HN. apply new_ok in H. destruct H as (fn' & file' & E & N & O & LD & EN & EL). injection E as <-.
  apply open_rb_ok in O. destruct O as (_ & NS & O). assert (file' = file) as -> by congruence.
  destruct (single_index_export p _ _ _ LD HN) as (cut & EX & Z & LT & _).
  assert (exists_ f (dirname fn) = true) as ED.
  { apply exists_spec. split.
    + intros X. unfold dirname in X. destruct (path_split fn) as (hd, tl) eqn:E. destruct (path_split_spec _ _ _ E) as (P1 & _ & _ & P4 & _). apply P1. rewrite <- (P4 X). exact HS.
    + destruct (lookup_above_cases _ _ (dirname_above fn)) as [X|(NR & X)]; [rewrite X; eauto|]. exists Dir.
      apply (tree_above f T (parent (resolve fn))); [|exact X]. eapply T; [exact NR|exact O]. }
  unfold Obj.export_obj, Obj.export_until. assert (export_target o None = fn) as -> by exact EN. rewrite ED.
  rewrite (open_wb_file _ _ _ N NS O), EX. eexists. exists cut. split; [destruct o; reflexivity|]. split; [apply update_same|]. auto.
Qed.
End Files.

(** ** In terms of [prepared_mesh] *)
Section Prepared.
Context {F : Type} (A : arith F) (p : plat) (packf : F -> Z).
Notation obj := (obj (F := F)).
Lemma prepared_written ub (o : obj) m r : prepared_mesh A ub (o_mesh o) m r -> mesh_to_write A ub o = m.
Proof. unfold prepared_mesh, mesh_to_write. destruct ub; [now intros ->|]. now intros (-> & _). Qed.
Lemma written_prepared ub (o : obj) : exists r, prepared_mesh A ub (o_mesh o) (mesh_to_write A ub o) r.
Proof. unfold prepared_mesh, mesh_to_write. destruct ub; [|now exists None]. exists (snd (update_boundaries A (o_mesh o))). now destruct (update_boundaries A (o_mesh o)). Qed.
Theorem export_succeeds' f (o : obj) filename fn ub m bs : tree f -> writes_to o filename fn -> proper_name fn -> In slash fn ->
  (forall q c, q <> resolve fn -> above q (resolve fn) -> lookup f q <> Some (File c)) ->
  lookup f (resolve fn) <> Some Dir ->
  prepared_mesh A ub (o_mesh o) m None -> export p packf m = (bs, None) ->
  exists f', export_obj A p packf f o filename ub = (f', {| o_mesh := m; o_filename := fn; o_loaded := o_loaded o |}, None) /\
    f' (resolve fn) = Some (File bs) /\ (forall q, q <> resolve fn -> above q (resolve fn) -> lookup f' q = Some Dir).
Proof.
  intros T W P HS NF ND PM EX. pose proof (prepared_written _ _ _ _ PM) as E. rewrite <- E in *. apply (export_succeeds A p packf); auto.
  intros ->. cbn in PM. now rewrite PM.
Qed.
Theorem export_effect' (o : obj) filename fn ub : writes_to o filename fn -> exists m r, prepared_mesh A ub (o_mesh o) m r /\
  forall stop f f' o' e, export_until A p packf stop f o filename ub = (f', o', e) ->
  (forall q, q <> resolve fn -> f' q = f q \/ (f q = None /\ f' q = Some Dir /\ above q (resolve fn))) /\
  (f' (resolve fn) = f (resolve fn) \/ (f (resolve fn) = None /\ f' (resolve fn) = Some Dir) \/
   exists n, f' (resolve fn) = Some (File (firstn n (fst (export p packf m))))).
Proof.
  intros W. destruct (written_prepared ub o) as (r & PM). exists (mesh_to_write A ub o), r. split; [exact PM|]. intros stop f f' o' e H.
  destruct (export_effect A p packf _ _ _ W _ _ _ _ _ _ H) as (H1 & H2 & _). auto.
Qed.
Theorem export_failed (o : obj) filename f ub f' o' e : export_obj A p packf f o filename ub = (f', o', Some e) ->
  o_filename o' = o_filename o /\ o_loaded o' = o_loaded o /\ (o_mesh o' = o_mesh o \/ exists r, prepared_mesh A ub (o_mesh o) (o_mesh o') r).
Proof.
  intros H. assert (exists fn, writes_to o filename fn) as (fn & W) by (unfold writes_to; destruct filename as [[|c t]|]; eauto).
  destruct (export_effect A p packf _ _ _ W _ _ _ _ _ _ H) as (_ & _ & H1 & H2 & H3). split; [now apply H1|]. split; [exact H3|].
  destruct H2 as [H2|H2]; [now left|right]. rewrite H2. apply written_prepared.
Qed.
Theorem export_success' (o : obj) filename fn f ub f' o' : writes_to o filename fn ->
  export_obj A p packf f o filename ub = (f', o', None) -> exists m bs,
  prepared_mesh A ub (o_mesh o) m None /\ export p packf m = (bs, None) /\
  o' = {| o_mesh := m; o_filename := fn; o_loaded := o_loaded o |} /\ f' (resolve fn) = Some (File bs) /\
  (forall q, q <> resolve fn -> f' q = f q \/ (f q = None /\ f' q = Some Dir /\ above q (resolve fn))).
Proof.
  intros W H. destruct (export_success A p packf _ _ _ W _ _ _ _ H) as (bs & EX & EF & EO & EU & _). exists (mesh_to_write A ub o), bs.
  split. { destruct (written_prepared ub o) as (r & PM). destruct ub; [|now split]. specialize (EU eq_refl). cbn in PM |- *. rewrite PM in EU. cbn in EU. congruence. }
  split; [exact EX|]. split; [exact EO|]. split; [exact EF|].
  apply (export_effect A p packf _ _ _ W _ _ _ _ _ _ H).
Qed.
End Prepared.
