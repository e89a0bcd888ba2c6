(** Facts about file names and directories. *)
From Coq Require Import ZArith List Bool Ascii String Lia.
From Verif Require Import PyBase Struct Mesh Arith Edit Obj SpecObj MergeFacts LayoutFacts.
Import ListNotations.
Open Scope Z_scope.

(** ** Splitting *)
Definition ends (c : byte) (h : bytes) : Prop := h = [] \/ exists h', h = h' ++ [c].
Lemma split_last_spec c s : let '(h, t) := split_last c s in s = h ++ t /\ ~ In c t /\ ends c h.
Proof.
  induction s as [|x s IH]; cbn [split_last]; [split; [reflexivity|split; [easy|now left]]|].
  destruct (split_last c s) as (h, t). destruct IH as (-> & Ht & Hh). destruct h as [|y h].
  - destruct (Ascii.eqb_spec x c) as [->|Hx].
    + split; [reflexivity|]. split; [exact Ht|]. right. now exists [].
    + split; [reflexivity|]. split; [|now left]. intros [H|H]; [now apply Hx|now apply Ht].
  - split; [reflexivity|]. split; [exact Ht|]. right. destruct Hh as [Hh|(h' & Hh)]; [discriminate|].
    exists (x :: h'). now rewrite Hh.
Qed.
Lemma split_last_app c t : ~ In c t -> forall h, ends c h -> split_last c (h ++ t) = (h, t).
Proof.
  intros Ht. assert (split_last c t = ([], t)) as E.
  { induction t as [|x t IH]; [reflexivity|]. cbn [split_last]. rewrite IH by (intros H; apply Ht; now right).
    destruct (Ascii.eqb_spec x c) as [->|_]; [|reflexivity]. exfalso. apply Ht. now left. }
  intros h [->|(h' & ->)]; [exact E|]. rewrite <- app_assoc.
  induction h' as [|x h' IH].
  - cbn. rewrite E. now rewrite Ascii.eqb_refl.
  - change ((x :: h') ++ [c] ++ t) with (x :: (h' ++ [c] ++ t)). cbn [split_last]. rewrite IH. now destruct h'.
Qed.
Lemma all_eqb_spec c s : all_eqb c s = true <-> Forall (fun x => x = c) s.
Proof.
  unfold all_eqb. rewrite forallb_forall, Forall_forall. split; intros H x Hx; specialize (H x Hx).
  - symmetry. now apply Ascii.eqb_eq.
  - rewrite H. apply Ascii.eqb_refl.
Qed.
Lemma all_repeat (c : byte) (s : bytes) : Forall (fun x => x = c) s -> s = repeat c (List.length s).
Proof. induction 1 as [|x s -> _ IH]; [reflexivity|]. cbn. now rewrite <- IH. Qed.
Lemma rstrip_spec c s : exists n, s = rstrip c s ++ repeat c n /\ (rstrip c s = [] \/ exists l x, rstrip c s = l ++ [x] /\ x <> c).
Proof.
  induction s as [|x s IH]; [exists 0%nat; split; [reflexivity|now left]|]. cbn [rstrip].
  destruct (all_eqb c (x :: s)) eqn:E.
  - apply all_eqb_spec, all_repeat in E. exists (List.length (x :: s)). split; [exact E|now left].
  - destruct IH as (n & E2 & H). exists n. split; [cbn; now rewrite <- E2|]. right.
    destruct H as [H|(l & y & H & Hy)].
    + exists [], x. rewrite H. split; [reflexivity|]. intros ->. rewrite H in E2. cbn in E2.
      assert (all_eqb c (c :: s) = true) as X; [|congruence]. apply all_eqb_spec. constructor; [reflexivity|].
      rewrite E2. apply Forall_forall. intros y Hy. now apply repeat_spec in Hy.
    + exists (x :: l), y. rewrite H. now split.
Qed.

(** ** The extension *)
Lemma lower_small c : small c (lower_char c).
Proof.
  unfold small, lower_char. destruct ((65 <=? N_of_ascii c)%N && (N_of_ascii c <=? 90)%N) eqn:E; [|reflexivity].
  apply andb_true_iff in E. rewrite !N.leb_le in E. rewrite N_ascii_embedding; [reflexivity|lia].
Qed.
Lemma small_lower c d : small c d -> lower_char c = d.
Proof.
  unfold small, lower_char. destruct ((65 <=? N_of_ascii c)%N && (N_of_ascii c <=? 90)%N); [|easy].
  intros <-. apply ascii_N_embedding.
Qed.
Lemma lower_spec x y : lower x = y <-> Forall2 small x y.
Proof.
  split.
  - intros <-. induction x; constructor; [apply lower_small|exact IHx].
  - induction 1 as [|c d x y H _ IH]; [reflexivity|]. unfold lower in *. cbn [map]. rewrite IH. now rewrite (small_lower c d).
Qed.
Lemma has_ext_spec fn e : ext_is fn (String "." e) = true <-> has_extension fn e.
Proof.
  unfold ext_is. rewrite bytes_eqb_eq. unfold has_extension, splitext_ext. change (of_string (String "." e)) with (dot :: of_string e).
  pose proof (split_last_spec slash fn) as S. destruct (split_last slash fn) as (d, base) eqn:E. destruct S as (-> & Hb & Hd). cbn [snd].
  pose proof (split_last_spec dot base) as S. destruct (split_last dot base) as (h, x) eqn:E2. destruct S as (-> & Hx & Hh). split.
  - intros H. destruct h as [|c h0]; [discriminate|]. destruct (all_eqb dot (c :: h0)) eqn:E3; [discriminate|].
    destruct Hh as [Hh|(s & Hh)]; [discriminate|]. rewrite Hh in *. clear Hh c h0.
    exists d, s, x. rewrite <- app_assoc. split; [reflexivity|]. split; [exact Hd|].
    split; [intros HI; apply Hb; rewrite <- app_assoc; apply in_app_iff; now left|].
    split; [intros HI; apply Hb; apply in_app_iff; now right|]. split; [exact Hx|]. split.
    + assert (~ Forall (fun y => y = dot) s) as N.
      { intros N. assert (all_eqb dot (s ++ [dot]) = true); [|congruence]. apply all_eqb_spec. apply Forall_app. split; [exact N|]. now constructor. }
      clear -N. induction s as [|c s IH]; [exfalso; now apply N|]. destruct (Ascii.eqb_spec c dot) as [->|Hc].
      * destruct IH as (c & H1 & H2); [intros X; apply N; now constructor|]. exists c. split; [now right|exact H2].
      * exists c. split; [now left|exact Hc].
    + apply lower_spec. unfold lower in H. cbn [map] in H. now apply cons_eq in H.
  - intros (d' & s & x' & H1 & H2 & H3 & H4 & H5 & (c & H6 & H7) & H8).
    assert (split_last slash (d ++ h ++ x) = (d', s ++ dot :: x')) as E'.
    { rewrite H1. apply split_last_app; [|exact H2]. intros X. apply in_app_iff in X. destruct X as [X|[X|X]]; [now apply H3|discriminate|now apply H4]. }
    rewrite E in E'. apply pair_equal_spec in E'. destruct E' as (<- & E').
    assert (split_last dot (h ++ x) = (s ++ [dot], x')) as E3.
    { rewrite E'. change (s ++ dot :: x') with (s ++ [dot] ++ x'). rewrite app_assoc. apply split_last_app; [exact H5|]. right. now exists s. }
    rewrite E2 in E3. apply pair_equal_spec in E3. destruct E3 as (-> & ->).
    assert (all_eqb dot (s ++ [dot]) = false) as E4.
    { apply not_true_iff_false. intros X. apply all_eqb_spec in X. apply Forall_app in X. destruct X as (X & _). rewrite Forall_forall in X. apply H7. now apply X. }
    destruct (s ++ [dot]) eqn:E5; [now destruct s|]. rewrite E4. unfold lower. cbn [map]. f_equal. now apply lower_spec.
Qed.
Lemma ext_unique fn e e' : has_extension fn e -> has_extension fn e' -> e = e'.
Proof.
  intros H H'. apply has_ext_spec in H, H'. unfold ext_is in *. apply bytes_eqb_eq in H, H'. rewrite H in H'.
  change (of_string (String "." e)) with (dot :: of_string e) in H'. change (of_string (String "." e')) with (dot :: of_string e') in H'.
  apply cons_eq in H'. destruct H' as (_ & H'). clear H. revert e' H'. induction e as [|c e IH]; intros [|c' e'] H; try discriminate; [reflexivity|].
  cbn in H. apply cons_eq in H. destruct H as (-> & H). f_equal. now apply IH.
Qed.

(** ** Components *)
Lemma components_app a b : forall cur, components (a ++ slash :: b) cur = components a cur ++ components b [].
Proof.
  induction a as [|x a IH]; intros cur; cbn [app components].
  - now rewrite Ascii.eqb_refl.
  - destruct (Ascii.eqb x slash); [|apply IH]. cbn [app]. now rewrite IH.
Qed.
Lemma components_single a : ~ In slash a -> forall cur, components a cur = [cur ++ a].
Proof.
  induction a as [|x a IH]; intros H cur; cbn [components]; [now rewrite app_nil_r|].
  destruct (Ascii.eqb_spec x slash) as [->|_]; [exfalso; apply H; now left|].
  rewrite IH by (intros X; apply H; now right). now rewrite <- app_assoc.
Qed.
Definition keep (c : bytes) : bool := negb (bytes_eqb c [] || bytes_eqb c [dot]).
Definition comps (s : bytes) : list bytes := filter keep (components s []).
Definition rooted (s : bytes) : bool := match s with x :: _ => Ascii.eqb x slash | [] => false end.
Lemma resolve_eq s : resolve s = (rooted s, comps s).
Proof. reflexivity. Qed.
Lemma keep_spec c : keep c = true <-> c <> [] /\ c <> [dot].
Proof.
  unfold keep. rewrite negb_true_iff, orb_false_iff. split; intros (H1 & H2); split.
  - intros X. apply (not_true_iff_false (bytes_eqb c [])) in H1. apply H1. now apply bytes_eqb_eq.
  - intros X. apply (not_true_iff_false (bytes_eqb c [dot])) in H2. apply H2. now apply bytes_eqb_eq.
  - apply not_true_iff_false. intros X. apply H1. now apply bytes_eqb_eq.
  - apply not_true_iff_false. intros X. apply H2. now apply bytes_eqb_eq.
Qed.
Lemma comps_app a b : comps (a ++ slash :: b) = comps a ++ comps b.
Proof. unfold comps. rewrite components_app. now rewrite filter_app. Qed.
Lemma comps_nil : comps [] = [].
Proof. reflexivity. Qed.
Lemma comps_slashes a n : comps (a ++ repeat slash n) = comps a.
Proof.
  revert a. induction n as [|n IH]; intros a; cbn [repeat]; [now rewrite app_nil_r|]. rewrite comps_app.
  change (repeat slash n) with ([] ++ repeat slash n). rewrite IH. now rewrite comps_nil, app_nil_r.
Qed.
Lemma comps_all (s : bytes) : Forall (fun x => x = slash) s -> comps s = [].
Proof. intros H. rewrite (all_repeat _ _ H). change (repeat slash (List.length s)) with ([] ++ repeat slash (List.length s)). now rewrite comps_slashes. Qed.
Lemma comps_single t : ~ In slash t -> comps t = if keep t then [t] else [].
Proof. intros H. unfold comps. rewrite components_single by exact H. reflexivity. Qed.
Lemma comps_join h t : ends slash h -> comps (h ++ t) = comps h ++ comps t.
Proof.
  intros [->|(h' & ->)]; [reflexivity|]. rewrite <- app_assoc. cbn [app]. rewrite comps_app. f_equal.
  change [slash] with (repeat slash 1). now rewrite comps_slashes.
Qed.
Lemma rooted_app a b : a <> [] -> rooted (a ++ b) = rooted a.
Proof. now destruct a. Qed.

(** ** os.path.split *)
Lemma path_split_spec s hd tl : path_split s = (hd, tl) ->
  ~ In slash tl /\ comps s = comps hd ++ comps tl /\ (hd <> [] -> rooted s = rooted hd) /\ (hd = [] -> s = tl) /\
  (List.length hd + List.length tl <= List.length s)%nat /\
  (tl = [] -> s = [] \/ (Forall (fun x => x = slash) s /\ hd = s) \/ (exists l x, hd = l ++ [x] /\ x <> slash /\ List.length hd < List.length s)%nat) /\
  (tl <> [] -> hd <> [] -> List.length hd < List.length s)%nat.
Proof.
  unfold path_split. pose proof (split_last_spec slash s) as S. destruct (split_last slash s) as (h, t). destruct S as (-> & Ht & Hh).
  intros H. apply pair_equal_spec in H. destruct H as (<- & ->). split; [exact Ht|].
  destruct (all_eqb slash h) eqn:E.
  - apply all_eqb_spec in E. split; [now apply comps_join|]. split; [intros H; now apply rooted_app|]. split; [now intros ->|].
    split; [rewrite app_length; lia|]. split; [|intros H _; rewrite app_length; destruct tl; [easy|cbn; lia]].
    intros ->. rewrite app_nil_r. right. left. now split.
  - destruct (rstrip_spec slash h) as (n & Eh & Hr). destruct Hr as [Hr|(l & x & Hr & Hx)].
    { exfalso. rewrite Hr in Eh. cbn in Eh. assert (all_eqb slash h = true); [|congruence]. apply all_eqb_spec. rewrite Eh.
      apply Forall_forall. intros y Hy. now apply repeat_spec in Hy. }
    set (r := rstrip slash h) in *. assert (r <> []) as Nr by (rewrite Hr; now destruct l).
    assert (0 < n)%nat as Hn.
    { destruct n; [|lia]. cbn in Eh. rewrite app_nil_r in Eh. destruct Hh as [Hh|(h' & Hh)].
      - congruence.
      - rewrite Hh, Hr in Eh. apply app_inj_tail in Eh. destruct Eh as (_ & Eh). congruence. }
    split; [rewrite comps_join by exact Hh; rewrite Eh at 1; now rewrite comps_slashes|].
    split; [intros _; rewrite Eh, <- app_assoc; now apply rooted_app|]. split; [easy|].
    assert (List.length h = List.length r + n)%nat as Lh by (rewrite Eh at 1; rewrite app_length, repeat_length; reflexivity).
    split; [rewrite app_length; lia|]. split; [|intros _ _; rewrite app_length; lia].
    intros ->. right. right. exists l, x. rewrite app_nil_r. split; [exact Hr|]. split; [exact Hx|]. lia.
Qed.
Lemma path_split_tail s hd tl : path_split s = (hd, tl) -> exists h, s = h ++ tl /\ ends slash h.
Proof.
  unfold path_split. pose proof (split_last_spec slash s) as S. destruct (split_last slash s) as (h, t). destruct S as (-> & Ht & Hh).
  intros H. apply pair_equal_spec in H. destruct H as (_ & ->). eauto.
Qed.
Definition dir_tail (s : bytes) : bytes * bytes :=
  let '(hd0, tl0) := path_split s in match tl0 with [] => path_split hd0 | _ => (hd0, tl0) end.
Lemma dir_tail_spec s hd tl : dir_tail s = (hd, tl) ->
  (hd <> [] /\ tl <> [] /\ ~ In slash tl /\ comps s = comps hd ++ comps tl /\ rooted s = rooted hd /\ (List.length hd < List.length s)%nat) \/
  ((hd = [] \/ tl = []) /\ exists c, comps s = if keep c then [c] else []).
Proof.
  unfold dir_tail. destruct (path_split s) as (hd0, tl0) eqn:E. pose proof (path_split_spec _ _ _ E) as (P1 & P2 & P3 & P4 & P5 & P6 & P7).
  destruct tl0 as [|c t].
  - intros E2. pose proof (path_split_spec _ _ _ E2) as (Q1 & Q2 & Q3 & Q4 & Q5 & Q6 & Q7).
    rewrite comps_nil, app_nil_r in P2. destruct (P6 eq_refl) as [->|[(Hs & ->)|(l & x & Hl & Hx & Hlen)]].
    + unfold path_split in E. cbn in E. apply pair_equal_spec in E. destruct E as (<- & _). cbn in E2. apply pair_equal_spec in E2. destruct E2 as (<- & <-).
      right. split; [now left|]. exists []. reflexivity.
    + right. assert (tl = []) as ->.
      { destruct (path_split_tail _ _ _ E2) as (h & Eh & _). destruct tl as [|c t]; [reflexivity|]. exfalso. apply Q1. left.
        rewrite Eh in Hs. apply Forall_app in Hs. destruct Hs as (_ & Hs). now inversion Hs. }
      split; [now right|]. exists []. rewrite comps_all by exact Hs. reflexivity.
    + assert (tl <> []) as Ntl.
      { intros ->. destruct (path_split_tail _ _ _ E2) as (h & Eh & He). rewrite app_nil_r in Eh. subst h.
        destruct He as [He|(h' & He)]; [rewrite Hl in He; now destruct l|]. rewrite Hl in He. apply app_inj_tail in He. now destruct He. }
      destruct hd as [|a hd].
      * right. split; [now left|]. exists tl. rewrite P2, Q2, comps_nil. cbn [app]. now apply comps_single.
      * left. split; [easy|]. split; [exact Ntl|]. split; [exact Q1|]. split; [congruence|]. split; [|lia].
        rewrite P3 by (rewrite Hl; now destruct l). now apply Q3.
  - intros H. apply pair_equal_spec in H. destruct H as (<- & <-). destruct hd0 as [|a hd].
    + right. split; [now left|]. exists (c :: t). rewrite (P4 eq_refl). now apply comps_single.
    + left. split; [easy|]. split; [easy|]. split; [exact P1|]. split; [exact P2|]. split; [now apply P3|]. apply P7; easy.
Qed.
