(** Facts about names on Windows. *)
From Coq Require Import ZArith List Bool Ascii String Lia.
From Verif Require Import PyBase Struct Mesh Arith Edit Obj SpecObj MergeFacts LayoutFacts PathFacts ObjFacts WinName SpecWinName.
Import ListNotations.
Open Scope nat_scope.

Lemma sep_slash x : is_sep x = Ascii.eqb (to_slash x) slash.
Proof. unfold is_sep, to_slash. destruct (Ascii.eqb_spec x backslash) as [->|N]; [reflexivity|]. now rewrite orb_false_r. Qed.
Lemma to_slash_id x : is_sep x = false -> to_slash x = x.
Proof. unfold is_sep, to_slash. rewrite orb_false_iff. now intros (_ & ->). Qed.
Lemma slashed_id fn : ~ In backslash fn -> slashed fn = fn.
Proof.
  unfold slashed. induction fn as [|x t IH]; intros H; [reflexivity|]. cbn [map]. rewrite IH by (intros X; apply H; now right). f_equal.
  unfold to_slash. destruct (Ascii.eqb_spec x backslash) as [->|_]; [|reflexivity]. exfalso. apply H. now left.
Qed.
Lemma split_sep_slashed s : let '(h, t) := split_sep s in split_last slash (slashed s) = (slashed h, t) /\ s = h ++ t.
Proof.
  induction s as [|x s IH]; [split; reflexivity|]. cbn [split_sep slashed map split_last]. fold (slashed s). destruct (split_sep s) as (h, t). destruct IH as (-> & ->).
  destruct h as [|y h]; cbn [slashed map].
  - rewrite <- sep_slash. destruct (is_sep x) eqn:E; [split; reflexivity|]. rewrite to_slash_id by exact E. split; reflexivity.
  - split; reflexivity.
Qed.
Lemma nt_ext_slashed fn : nt_ext fn = splitext_ext (slashed fn).
Proof.
  unfold nt_ext, splitext_ext. pose proof (split_sep_slashed fn) as H. destruct (split_sep fn) as (h, t). destruct H as (-> & _). reflexivity.
Qed.
Lemma nt_kind_slashed fn : nt_kind_of_name fn = kind_of_name (slashed fn).
Proof. unfold nt_kind_of_name, kind_of_name, nt_ext_is, ext_is. now rewrite !nt_ext_slashed. Qed.
Theorem nt_kind_named fn : kind_named (nt_kind_of_name fn) (slashed fn).
Proof. rewrite nt_kind_slashed. apply kind_of_name_spec. Qed.
Theorem nt_kind_same fn : ~ In backslash fn -> nt_kind_of_name fn = kind_of_name fn.
Proof. intros H. now rewrite nt_kind_slashed, slashed_id. Qed.
Theorem nt_kind_seps fn fn' : slashed fn = slashed fn' -> nt_kind_of_name fn = nt_kind_of_name fn'.
Proof. intros H. now rewrite !nt_kind_slashed, H. Qed.
Theorem nt_kind_differs : exists fn, isStaticMesh (kind_of_name fn) = true /\ isStaticMesh (nt_kind_of_name fn) = false.
Proof. exists (of_string "objects" ++ backslash :: of_string ".staticMesh"). split; reflexivity. Qed.

(** ** dirname *)
Lemma rstrip_sep_nil s : rstrip_sep s = [] -> forallb is_sep s = true.
Proof. destruct s as [|x t]; [reflexivity|]. cbn [rstrip_sep]. destruct (forallb is_sep (x :: t)); [reflexivity|discriminate]. Qed.
Lemma split_sep_none s : fst (split_sep s) = [] <-> forallb (fun c => negb (is_sep c)) s = true.
Proof.
  induction s as [|x s IH]; [split; reflexivity|]. cbn [split_sep forallb]. destruct (split_sep s) as (h, t). cbn [fst] in IH. destruct h as [|y h].
  - destruct (is_sep x); cbn; [split; discriminate|]. exact IH.
  - cbn [fst]. split; [discriminate|]. rewrite andb_true_iff. intros (_ & H). apply IH in H. discriminate.
Qed.
Lemma no_sep_iff s : forallb (fun c => negb (is_sep c)) s = true <-> ~ In slash s /\ ~ In backslash s.
Proof.
  rewrite forallb_forall. split.
  - intros H. split; intros X; apply H in X; discriminate X.
  - intros (H1 & H2) x Hx. unfold is_sep. destruct (Ascii.eqb_spec x slash) as [->|_]; [contradiction|]. destruct (Ascii.eqb_spec x backslash) as [->|_]; [contradiction|]. reflexivity.
Qed.
Lemma head_nil d h : d ++ match rstrip_sep h with [] => h | h' => h' end = [] <-> d = [] /\ h = [].
Proof.
  split.
  - intros H. apply app_eq_nil in H. destruct H as (-> & H). split; [reflexivity|]. destruct (rstrip_sep h); [exact H|discriminate].
  - intros (-> & ->). reflexivity.
Qed.
Lemma no_sep_drive s : forallb (fun c => negb (is_sep c)) s = true -> splitdrive s = match s with a :: b :: t => if Ascii.eqb b colon then ([a; b], t) else ([], s) | _ => ([], s) end.
Proof. destruct s as [|a [|b t]]; try reflexivity. cbn [forallb]. intros H. apply andb_true_iff in H. destruct H as (H & _). unfold splitdrive. now destruct (is_sep a). Qed.
Lemma splitdrive_nil s d q : splitdrive s = (d, q) -> d = [] -> q = s.
Proof.
  unfold splitdrive. destruct s as [|a [|b t]]; try congruence.
  destruct (is_sep a && is_sep b && negb (starts_sep t)).
  - destruct (find_sep t); [|congruence]. destruct (find_sep _) as [[|j]|]; [congruence| |congruence]. intros [= <- _]. discriminate.
  - destruct (Ascii.eqb b colon); [|congruence]. intros [= <- _]. discriminate.
Qed.
Theorem nt_dirname_empty fn : nt_dirname fn = [] <-> ~ In slash fn /\ ~ In backslash fn /\ ~ drive_letter fn.
Proof.
  unfold nt_dirname, nt_split. destruct (splitdrive fn) as (d, q) eqn:E. pose proof (split_sep_none q) as SN. destruct (split_sep q) as (h, t). cbn [fst] in *.
  rewrite head_nil. split.
  - intros (-> & ->). pose proof (splitdrive_nil _ _ _ E eq_refl) as ->. destruct SN as (SN & _). specialize (SN eq_refl). pose proof SN as SN'. apply no_sep_iff in SN'.
    destruct SN' as (H1 & H2). split; [exact H1|]. split; [exact H2|]. intros (c & r & ->). rewrite (no_sep_drive _ SN) in E. cbn in E. discriminate.
  - intros (H1 & H2 & H3). assert (forallb (fun c => negb (is_sep c)) fn = true) as N by (now apply no_sep_iff). rewrite (no_sep_drive _ N) in E.
    assert (d = [] /\ q = fn) as (-> & ->).
    { destruct fn as [|a [|b r]]; try (injection E as <- <-; now split). destruct (Ascii.eqb_spec b colon) as [->|_]; [|injection E as <- <-; now split]. exfalso. apply H3. now exists a, r. }
    split; [reflexivity|]. now apply SN.
Qed.
(** 'c:name' is in the current directory of the drive. *)
Theorem nt_dirname_drive c t : ~ In slash (c :: t) -> ~ In backslash (c :: t) -> nt_dirname (c :: colon :: t) = [c; colon].
Proof.
  intros H1 H2. assert (forallb (fun x => negb (is_sep x)) (c :: colon :: t) = true) as N.
  { apply no_sep_iff. split; intros [X|[X|X]]; try discriminate X; [apply H1; now left|apply H1; now right|apply H2; now left|apply H2; now right]. }
  unfold nt_dirname, nt_split. rewrite (no_sep_drive _ N). change (Ascii.eqb colon colon) with true. cbn [forallb] in N. rewrite !andb_true_iff in N. destruct N as (_ & _ & N).
  apply split_sep_none in N. destruct (split_sep t) as (h, r). cbn in N. subst h. reflexivity.
Qed.
(** Names with '/' only, without a drive and not of a network share. *)
Lemma rstrip_slashed s : ~ In backslash s -> rstrip_sep s = rstrip slash s /\ forallb is_sep s = all_eqb slash s.
Proof.
  induction s as [|x t IH]; intros H; [split; reflexivity|]. destruct IH as (I1 & I2); [intros X; apply H; now right|].
  assert (is_sep x = Ascii.eqb slash x) as E.
  { unfold is_sep. rewrite Ascii.eqb_sym. destruct (Ascii.eqb_spec x backslash) as [->|_]; [exfalso; apply H; now left|]. apply orb_false_r. }
  assert (forallb is_sep (x :: t) = all_eqb slash (x :: t)) as E2 by (unfold all_eqb in *; cbn [forallb]; now rewrite E, I2).
  split; [|exact E2]. cbn [rstrip_sep rstrip]. rewrite E2, I1. reflexivity.
Qed.
Lemma rstrip_all s : all_eqb slash s = true -> rstrip slash s = [].
Proof. destruct s as [|x t]; [reflexivity|]. cbn [rstrip]. now intros ->. Qed.
Theorem nt_dirname_same fn : ~ In backslash fn -> ~ drive_letter fn -> (forall t, fn <> slash :: slash :: t) -> nt_dirname fn = dirname fn.
Proof.
  intros H1 H2 H3. assert (splitdrive fn = ([], fn)) as E.
  { unfold splitdrive. destruct fn as [|a [|b t]]; try reflexivity.
    assert (is_sep a && is_sep b = false) as ->.
    { apply not_true_iff_false. rewrite andb_true_iff. intros (Ha & Hb). unfold is_sep in *. apply orb_true_iff in Ha, Hb. rewrite !Ascii.eqb_eq in *.
      destruct Ha as [->| ->]; [|apply H1; now left]. destruct Hb as [->| ->]; [|apply H1; right; now left]. now apply (H3 t). }
    cbn [andb]. destruct (Ascii.eqb_spec b colon) as [->|_]; [|reflexivity]. exfalso. apply H2. now exists a, t. }
  unfold nt_dirname, nt_split, dirname, path_split. rewrite E. pose proof (split_sep_slashed fn) as S. rewrite (slashed_id fn H1) in S.
  destruct (split_sep fn) as (h, t). destruct S as (S & Sf). rewrite S. cbn [fst app].
  assert (~ In backslash h) as Hh by (intros X; apply H1; rewrite Sf; apply in_app_iff; now left). rewrite (slashed_id h Hh).
  destruct (rstrip_slashed h Hh) as (R & R'). rewrite R. destruct (all_eqb slash h) eqn:EA; [now rewrite (rstrip_all h EA)|].
  destruct (rstrip slash h) eqn:ER; [|reflexivity]. assert (rstrip_sep h = []) as X by congruence. apply rstrip_sep_nil in X. congruence.
Qed.

(** ** export *)
Section Export.
Context {F : Type} (A : arith F) (p : plat) (packf : F -> Z).
Theorem export_on_posix f o filename ub : export_on A p packf posix_sys f o filename ub = export_obj A p packf f o filename ub.
Proof.
  unfold export_on, export_obj, export_until. cbn [s_exists s_dirname s_makedirs s_open s_store posix_sys].
  destruct (if exists_ f _ then _ else _) as (f1, [e|]); [reflexivity|]. destruct (if ub then _ else _) as (m', [e|]); [reflexivity|].
  destruct (open_wb f1 _); [|reflexivity]. now destruct (export p packf m') as (bs, [e|]).
Qed.
(** A bare name fails on Windows, too; a drive letter is enough to get past the check. *)
Theorem nt_bare {W} (S : sys W) o filename fn : windows S -> writes_to o filename fn -> ~ In slash fn -> ~ In backslash fn -> ~ drive_letter fn ->
  forall w ub, export_on A p packf S w o filename ub = (w, o, Some EFileNotFound).
Proof.
  intros (D & E & M) WT H1 H2 H3 w ub. unfold export_on. rewrite (writes_to_eq _ _ _ WT), D.
  rewrite (proj2 (nt_dirname_empty fn)) by auto. now rewrite E, M.
Qed.
Theorem nt_saved {W} (S : sys W) o filename fn w ub m bs w2 : windows S -> writes_to o filename fn -> s_exists S w (nt_dirname fn) = true ->
  prepared_mesh A ub (o_mesh o) m None -> export p packf m = (bs, None) -> s_open S w fn = Ok w2 ->
  export_on A p packf S w o filename ub = (s_store S w2 fn bs, {| o_mesh := m; o_filename := fn; o_loaded := o_loaded o |}, None).
Proof.
  intros (D & _) WT HE PM EX EO. unfold export_on. rewrite (writes_to_eq _ _ _ WT), D, HE. unfold prepared_mesh in PM.
  assert ((if ub then update_boundaries A (o_mesh o) else (o_mesh o, None)) = (m, None)) as -> by (destruct ub; [exact PM|now destruct PM as (-> & _)]).
  now rewrite EO, EX.
Qed.
End Export.
