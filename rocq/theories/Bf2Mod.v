(** Proofs about find_mod_root and get_object_path. *)
From Coq Require Import ZArith Bool Ascii String List Lia.
From Verif Require Import PyBase Struct Mesh Arith Edit Obj MergeFacts Bf2 SpecBf2 ReFacts Bf2Facts Bf2Dirs.
Import ListNotations.
Open Scope Z_scope.

(** ** find_mod_root *)
Lemma split_not_nil c s : split c s <> [].
Proof. unfold split. generalize (@nil ascii). induction s as [|x s IH]; intros cur; cbn; [discriminate|]. destruct (Ascii.eqb x c); [discriminate|apply IH]. Qed.
Lemma comps_split cwd : comps cwd (split "/"%char cwd).
Proof.
  assert (forall cur, ~ In "/"%char cur -> comps (cur ++ cwd) (split_from "/"%char cur cwd)) as G; [|apply (G []); intros []].
  induction cwd as [|x s IH]; intros cur N; cbn; [rewrite app_nil_r; now constructor|].
  destruct (Ascii.eqb_spec x "/"%char) as [->|H].
  - constructor; [exact N|]. apply (IH []). intros [].
  - replace (cur ++ x :: s) with ((cur ++ [x]) ++ s) by now rewrite <- app_assoc. apply IH. intros K. apply in_app_or in K. destruct K as [K|[K|[]]]; auto.
Qed.
Lemma comps_unique s a : comps s a -> a = split "/"%char s.
Proof. induction 1 as [x N|x r l N H IH]; [now rewrite split_one|]. rewrite split_cons by exact N. now rewrite IH. Qed.
Lemma comps_join l : l <> [] -> Forall (fun x => ~ In "/"%char x) l -> comps (join_with "/"%char l) l.
Proof.
  induction l as [|x l IH]; [contradiction|]. intros _ F. inversion F as [|? ? N F']. subst. destruct l as [|y l]; [now constructor|].
  cbn [join_with]. constructor; [exact N|]. apply IH; [discriminate|exact F'].
Qed.
Lemma comps_name s l : comps s l -> s = join_with "/"%char l /\ Forall (fun x => ~ In "/"%char x) l /\ l <> [].
Proof.
  induction 1 as [x N|x r l N H (-> & F & NE)]; [split; [reflexivity|split; [auto|discriminate]]|].
  split; [destruct l; [contradiction|reflexivity]|]. split; [auto|discriminate].
Qed.
Lemma index_ok x l i : index_of x l = Ok i <-> exists pre post, l = pre ++ x :: post /\ ~ In x pre /\ i = List.length pre.
Proof.
  revert i. induction l as [|y l IH]; intros i; cbn [index_of].
  - split; [discriminate|]. intros (pre & post & E & _). now destruct pre.
  - destruct (bytes_eqb y x) eqn:E.
    + apply bytes_eqb_eq in E. subst y. split.
      * intros [= <-]. exists [], l. auto.
      * intros ([|z pre] & post & E & N & ->); [reflexivity|]. exfalso. apply N. left. cbn in E. congruence.
    + assert (y <> x) as NE by (intros ->; rewrite (proj2 (bytes_eqb_eq x x) eq_refl) in E; discriminate). split.
      * destruct (index_of x l) as [n|] eqn:I; [|discriminate]. cbn. intros [= <-]. destruct (proj1 (IH n) eq_refl) as (pre & post & -> & N & ->).
        exists (y :: pre), post. split; [reflexivity|]. split; [intros [K|K]; auto|reflexivity].
      * intros ([|z pre] & post & E' & N & ->); cbn in E'; [congruence|]. injection E' as <- ->.
        rewrite (proj2 (IH (List.length pre))); [reflexivity|]. exists pre, post. split; [reflexivity|]. split; [|reflexivity]. intros K. apply N. now right.
Qed.
Lemma index_raise x l e : index_of x l = Raise e <-> e = EValue /\ ~ In x l.
Proof.
  induction l as [|y l IH]; cbn [index_of].
  - split; [intros [= <-]; auto|]. intros (-> & _). reflexivity.
  - destruct (bytes_eqb y x) eqn:E.
    + apply bytes_eqb_eq in E. subst y. split; [discriminate|]. intros (_ & N). exfalso. apply N. now left.
    + assert (y <> x) as NE by (intros ->; rewrite (proj2 (bytes_eqb_eq x x) eq_refl) in E; discriminate).
      destruct (index_of x l) as [n|e'] eqn:I; cbn.
      * split; [discriminate|]. intros (_ & N). apply index_ok in I. destruct I as (pre & post & -> & _). exfalso. apply N. right. apply in_elt.
      * split.
        -- intros [= ->]. destruct (proj1 IH eq_refl) as (-> & N). split; [reflexivity|]. intros [K|K]; auto.
        -- intros (-> & N). apply IH. split; [reflexivity|]. intros K. apply N. now right.
Qed.
Theorem mod_root cwd parts r : comps cwd parts -> find_mod_root cwd = Ok r <->
  exists pre post, parts = pre ++ chars "mods" :: post /\ ~ In (chars "mods") pre /\ comps r (pre ++ chars "mods" :: firstn 1 post).
Proof.
  intros C. pose proof C as C'. apply comps_name in C'. destruct C' as (_ & F & _). apply comps_unique in C. unfold find_mod_root. change slash with "/"%char.
  rewrite <- C, of_string_chars.
  assert (forall pre post, parts = pre ++ chars "mods" :: post -> firstn (List.length pre + 2) parts = pre ++ chars "mods" :: firstn 1 post) as FN.
  { intros pre post ->. rewrite firstn_app. replace (List.length pre + 2 - List.length pre)%nat with 2%nat by lia. cbn [firstn]. f_equal. apply firstn_all2. lia. }
  assert (forall pre post, parts = pre ++ chars "mods" :: post -> Forall (fun x => ~ In "/"%char x) (pre ++ chars "mods" :: firstn 1 post)) as FF.
  { intros pre post E. rewrite <- (FN pre post E). apply Forall_forall. intros x H. rewrite Forall_forall in F. apply F.
    rewrite <- (firstn_skipn (List.length pre + 2) parts). apply in_or_app. now left. }
  split.
  - destruct (index_of (chars "mods") parts) as [i|] eqn:I; [|discriminate]. cbn [bind]. intros [= <-]. apply index_ok in I.
    destruct I as (pre & post & E & N & ->). exists pre, post. split; [exact E|]. split; [exact N|]. unfold text. rewrite (FN _ _ E). apply comps_join; [now destruct pre|].
    now apply FF.
  - intros (pre & post & E & N & CR). rewrite (proj2 (index_ok _ _ (List.length pre))) by eauto. cbn [bind]. unfold text. rewrite (FN _ _ E).
    apply comps_name in CR. destruct CR as (-> & _). reflexivity.
Qed.
Theorem mod_root_raises cwd parts e : comps cwd parts -> find_mod_root cwd = Raise e <-> e = EValue /\ ~ In (chars "mods") parts.
Proof.
  intros C. apply comps_unique in C. unfold find_mod_root. change slash with "/"%char. rewrite <- C, of_string_chars. rewrite <- index_raise.
  destruct (index_of (chars "mods") parts); cbn [bind]; split; intros H; try discriminate; injection H as <-; reflexivity.
Qed.
Theorem comps_total s : exists l, comps s l /\ forall l', comps s l' -> l' = l.
Proof. exists (split "/"%char s). split; [apply comps_split|]. apply comps_unique. Qed.

(** ** get_object_path *)
Fixpoint files (t : tree) : list (list bytes * text) :=
  match t with
  | TFile _ => []
  | TDir es =>
      flat_map (fun e => match snd e with TFile s => [([fst e], s)] | TDir _ => [] end) es ++
      (fix sub (l : list (bytes * tree)) := match l with [] => [] | e :: u => map (fun x => (fst e :: fst x, snd x)) (files (snd e)) ++ sub u end) es
  end.
Definition below (l : list (bytes * tree)) := flat_map (fun e => map (fun x : list bytes * text => (fst e :: fst x, snd x)) (files (snd e))) l.
Lemma files_dir es : files (TDir es) = flat_map (fun e => match snd e with TFile s => [([fst e], s)] | TDir _ => [] end) es ++ below es.
Proof. reflexivity. Qed.
Definition walk_below root dir (l : list (bytes * tree)) := flat_map (fun e => walk root (path_join dir (fst e)) (snd e)) l.
Lemma walk_dir root dir es : walk root dir (TDir es) =
  flat_map (fun e => match snd e with
     | TFile s => [(path_join (path_join (path_join root (of_string "objects")) dir) (fst e), fst e, s)] | TDir _ => [] end) es ++ walk_below root dir es.
Proof. reflexivity. Qed.

Fixpoint tree_induction (P : tree -> Prop) (HF : forall s, P (TFile s)) (HD : forall es, Forall (fun e => P (snd e)) es -> P (TDir es)) (t : tree) : P t :=
  match t with
  | TFile s => HF s
  | TDir es => HD es ((fix go (l : list (bytes * tree)) : Forall (fun e => P (snd e)) l :=
      match l with [] => Forall_nil _ | e :: u => Forall_cons e (tree_induction P HF HD (snd e)) (go u) end) es)
  end.

Lemma files_at t : named t -> forall p s, In (p, s) (files t) <-> file_at t p s.
Proof.
  induction t as [c|es IH] using tree_induction; intros NT p s.
  - split; [intros []|]. intros H. inversion H.
  - rewrite files_dir. inversion NT as [|? N]. subst. rewrite in_app_iff. unfold below. rewrite !in_flat_map. rewrite Forall_forall in IH, N. split.
    + intros [((n, t) & H & K)|((n, t) & H & K)]; cbn [fst snd] in K.
      * destruct t; [|contradiction]. destruct K as [K|[]]. injection K as <- <-. now constructor.
      * apply in_map_iff in K. destruct K as ((q, u) & E & K). cbn in E. injection E as <- <-. econstructor; [exact H|].
        apply (IH _ H); [|exact K]. now apply (N _ H).
    + intros H. inversion H as [? n ? HI|? n t q ? HI HA]; subst.
      * left. exists (n, TFile s). split; [exact HI|]. now left.
      * right. exists (n, t). split; [exact HI|]. cbn. apply in_map_iff. exists (q, s). split; [reflexivity|]. apply (IH _ HI); [|exact HA]. now apply (N _ HI).
Qed.
Lemma file_at_cons t p s : file_at t p s -> p <> [].
Proof. destruct 1; discriminate. Qed.

Definition good_dir (d : bytes) : Prop := (exists t, d = "/"%char :: t) /\ last d dot <> "/"%char.
Lemma join_abs a d : good_dir d -> path_join a d = d.
Proof. intros ((t & ->) & _). reflexivity. Qed.
Lemma join_good d n : good_dir d -> n <> [] -> ~ In "/"%char n -> path_join d n = d ++ "/"%char :: n /\ good_dir (d ++ "/"%char :: n).
Proof.
  intros ((t & E) & L) NE NS. split.
  - unfold path_join. change slash with "/"%char. assert (ends_slash d = false) as ES.
    { unfold ends_slash. change slash with "/"%char. now apply Ascii.eqb_neq. }
    rewrite ES. destruct n as [|c n]; [contradiction|]. destruct (Ascii.eqb_spec c "/"%char) as [->|_]; [exfalso; apply NS; now left|]. now rewrite E.
  - split; [rewrite E; cbn; eauto|]. intros K. apply NS.
    assert (last (d ++ "/"%char :: n) dot = last n dot) as LE.
    { clear -NE. induction d as [|x d IH]; cbn.
      - now destruct n.
      - rewrite IH. now destruct d. }
    rewrite LE in K. destruct (exists_last NE) as (m & z & ->). rewrite last_last in K. subst z. apply in_or_app. right. now left.
Qed.
Lemma walk_files root t : named t -> forall dir, good_dir dir ->
  walk root dir t = map (fun x => (dir ++ flat_map (fun n => "/"%char :: n) (fst x), last (fst x) [], snd x)) (files t).
Proof.
  induction t as [c|es IH] using tree_induction; intros NT dir G; [reflexivity|].
  rewrite walk_dir, files_dir, map_app. inversion NT as [|? N]. subst. f_equal.
  - clear IH NT. induction N as [|(n, t) es (N1 & N2 & _) _ IHes]; [reflexivity|]. cbn [flat_map fst snd]. rewrite IHes. destruct t as [s|]; [|reflexivity].
    cbn in N1, N2. rewrite map_app. cbn. rewrite app_nil_r. now rewrite (join_abs _ _ G), (proj1 (join_good _ _ G N1 N2)).
  - unfold walk_below, below. clear NT. induction N as [|(n, t) es (N1 & N2 & N3) _ IHes]; [reflexivity|]. cbn [flat_map fst snd]. inversion IH as [|? ? I1 I2]. subst.
    rewrite (IHes I2). rewrite map_app. f_equal. cbn in N1, N2, N3. destruct (join_good _ _ G N1 N2) as (-> & G'). cbn in I1. rewrite (I1 N3 _ G'). rewrite map_map.
    apply map_ext_in. intros (p, s) H. cbn. apply (files_at t N3) in H. apply file_at_cons in H. destruct p as [|x p]; [contradiction|]. now rewrite <- app_assoc.
Qed.

Lemma ordered_app {B} (R : B -> B -> Prop) a b : ForallOrdPairs R a -> ForallOrdPairs R b -> (forall x y, In x a -> In y b -> R x y) -> ForallOrdPairs R (a ++ b).
Proof.
  intros A HB H. induction A as [|x a F A IH]; [exact HB|]. cbn. constructor.
  - apply Forall_app. split; [exact F|]. apply Forall_forall. intros y Hy. apply H; [now left|exact Hy].
  - apply IH. intros u v Hu Hv. apply H; [now right|exact Hv].
Qed.
Lemma files_ordered t : named t -> ForallOrdPairs (fun x y => earlier t (fst x) (fst y)) (files t).
Proof.
  induction t as [c|es IH] using tree_induction; intros NT; [constructor|]. rewrite files_dir. inversion NT as [|? N]. subst. apply ordered_app.
  - assert (forall pre l, es = pre ++ l -> ForallOrdPairs (fun x y => earlier (TDir es) (fst x) (fst y))
        (flat_map (fun e => match snd e with TFile s => [([fst e], s)] | TDir _ => [] end) l)) as G; [|apply (G [] es eq_refl)].
    intros pre l. revert pre. clear. induction l as [|(n, t) l IH]; intros pre E; [constructor|]. cbn [flat_map]. destruct t as [s|]; cbn [app fst snd].
    + constructor.
      * apply Forall_forall. intros x H. apply in_flat_map in H. destruct H as ((m, u) & H & K). cbn in K. destruct u; [|contradiction]. destruct K as [<-|[]].
        apply in_split in H. destruct H as (b & c & ->). rewrite E. constructor.
      * apply (IH (pre ++ [(n, TFile s)])). now rewrite <- app_assoc.
    + apply (IH (pre ++ [(n, TDir entries)])). now rewrite <- app_assoc.
  - assert (forall pre l, es = pre ++ l -> Forall (fun e => ForallOrdPairs (fun x y => earlier (snd e) (fst x) (fst y)) (files (snd e))) l ->
       ForallOrdPairs (fun x y => earlier (TDir es) (fst x) (fst y)) (below l)) as G.
    { intros pre l. revert pre. induction l as [|(n, t) l IHl]; intros pre E FO; [constructor|]. inversion FO as [|? ? F1 F2]. subst.
      unfold below. cbn [flat_map]. apply ordered_app.
      - cbn [fst snd] in *. clear -F1. induction F1 as [|(p, s) r F _ IHr]; [constructor|]. cbn. constructor; [|exact IHr].
        rewrite Forall_map. eapply Forall_impl; [|exact F]. intros (q, u) H. cbn in *. apply earlier_in with (t := t); [apply in_elt|exact H].
      - apply (IHl (pre ++ [(n, t)])); [now rewrite <- app_assoc|exact F2].
      - intros x y Hx Hy. apply in_map_iff in Hx. destruct Hx as ((p, s) & <- & Hx). fold (below l) in Hy. unfold below in Hy. apply in_flat_map in Hy.
        destruct Hy as ((m, u) & Hm & Hy). apply in_map_iff in Hy. destruct Hy as ((q, v) & <- & Hy). cbn [fst snd] in *.
        apply Forall_app in N. destruct N as (_ & N). inversion N as [|? ? (_ & _ & N1) N2]. subst. rewrite Forall_forall in N2. pose proof (N2 _ Hm) as (_ & _ & N3).
        apply in_split in Hm. destruct Hm as (b & c & ->). apply (earlier_dirs pre n t b m u c p s q v).
        + now apply files_at.
        + now apply files_at. }
    apply (G [] es eq_refl). rewrite Forall_forall in IH, N |- *. intros e H. apply (IH _ H). now apply N.
  - intros x y Hx Hy. apply in_flat_map in Hx. destruct Hx as ((n, t) & Hn & K). cbn in K. destruct t; [|contradiction]. destruct K as [<-|[]]. cbn [fst].
    unfold below in Hy. apply in_flat_map in Hy. destruct Hy as ((m, u) & Hm & Hy). apply in_map_iff in Hy. destruct Hy as ((q, v) & <- & Hy). cbn [fst snd] in *.
    rewrite Forall_forall in N. eapply earlier_file; [exact Hn|exact Hm|]. apply files_at; [|exact Hy]. apply (N _ Hm).
Qed.

Lemma last_split c s e : last (split c s) [] = e <-> ~ In c e /\ (s = e \/ exists stem, s = stem ++ c :: e).
Proof.
  assert (forall s cur, ~ In c cur -> last (split_from c cur s) [] = e <-> ~ In c e /\ (cur ++ s = e \/ exists stem, cur ++ s = stem ++ c :: e)) as G; [|apply (G s []); intros []].
  clear s. induction s as [|x s IH]; intros cur N; cbn [split_from].
  - rewrite app_nil_r. cbn. split; [intros <-; auto|]. intros (_ & [->|(stem & ->)]); [reflexivity|]. exfalso. apply N. apply in_elt.
  - destruct (Ascii.eqb_spec x c) as [->|H].
    + assert (last (cur :: split_from c [] s) [] = last (split_from c [] s) []) as LE.
      { pose proof (split_not_nil c s) as NN. unfold split in NN. destruct (split_from c [] s); [contradiction|reflexivity]. }
      unfold text in *. rewrite LE, (IH []) by intros []. cbn [app]. split.
      * intros (NE & [->|(stem & ->)]); (split; [exact NE|]); right; [now exists cur|]. exists (cur ++ c :: stem). now rewrite <- app_assoc.
      * intros (NE & [<-|(stem & E)]); [exfalso; apply NE; apply in_elt|]. split; [exact NE|].
        assert (forall cur stem, ~ In c cur -> cur ++ c :: s = stem ++ c :: e -> s = e \/ exists stem', s = stem' ++ c :: e) as K; [|now apply (K cur stem)].
        clear. induction cur as [|y cur IH]; intros [|z stem] N E; cbn in E.
        -- injection E as ->. now left.
        -- injection E as <- ->. right. now exists stem.
        -- injection E as -> _. exfalso. apply N. now left.
        -- injection E as -> E. apply (IH stem); [|exact E]. intros K. apply N. now right.
    + rewrite IH.
      * now rewrite <- app_assoc.
      * intros K. apply in_app_or in K. destruct K as [K|[K|[]]]; auto.
Qed.
Lemma template_con n : template_file n = true <-> con_file n.
Proof.
  unfold template_file, con_file. rewrite !of_string_chars. change dot with "."%char. rewrite orb_true_iff, !bytes_eqb_eq. rewrite !last_split.
  assert (~ In "."%char (chars "con")) as N1 by (cbn; intros K; repeat destruct K as [K|K]; try discriminate; contradiction).
  assert (~ In "."%char (chars "tweak")) as N2 by (cbn; intros K; repeat destruct K as [K|K]; try discriminate; contradiction).
  split.
  - intros [(_ & H)|(_ & H)]; eexists; (split; [|exact H]); [now left|right; now left].
  - intros (e & [<-|[<-|[]]] & H); [left|right]; auto.
Qed.
Lemma names_model name s : names_object name s <-> exists a, root_of_lines (lines (universal s)) = Ok (Some (a, name)).
Proof.
  split.
  - intros (ls & a & T & R). pose proof (text_lines_unique _ _ T) as ->. exists a.
    destruct (root_lines (lines (universal s))) as [(a' & b' & -> & R')|(_ & N)].
    + now destruct (root_is_unique _ _ _ _ _ R R') as (-> & ->).
    + exfalso. destruct R as (be & l & af & su & _ & _ & _ & E & _ & FS & _). rewrite E in N. apply Forall_app in N. destruct N as (_ & N). inversion N as [|? ? N1 _]. apply N1. now apply first_some in FS.
  - intros (a & E). exists (lines (universal s)), a. split; [apply text_lines_lines|].
    destruct (root_lines (lines (universal s))) as [(a' & b' & E' & R')|(E' & _)]; [|congruence]. congruence.
Qed.
Lemma first_object_spec name dir l : (exists r, first_object name (map (fun x => (dir ++ flat_map (fun n => "/"%char :: n) (fst x), last (fst x) [], snd x)) l) = Ok r /\
  ((exists pre p s post, l = pre ++ (p, s) :: post /\ con_file (last p []) /\ names_object name s /\ r = Some (dir ++ flat_map (fun n => "/"%char :: n) p) /\
      Forall (fun x => ~ (con_file (last (fst x) []) /\ names_object name (snd x))) pre) \/
   (r = None /\ Forall (fun x => ~ (con_file (last (fst x) []) /\ names_object name (snd x))) l))).
Proof.
  induction l as [|(p, s) l (r & E & IH)]; cbn [map first_object fst snd]; [exists None; auto|].
  assert (~ (con_file (last p []) /\ names_object name s) ->
     (exists pre p0 s0 post, (p, s) :: l = pre ++ (p0, s0) :: post /\ con_file (last p0 []) /\ names_object name s0 /\ r = Some (dir ++ flat_map (fun n => "/"%char :: n) p0) /\
      Forall (fun x => ~ (con_file (last (fst x) []) /\ names_object name (snd x))) pre) \/
     (r = None /\ Forall (fun x => ~ (con_file (last (fst x) []) /\ names_object name (snd x))) ((p, s) :: l))) as SKIP.
  { intros N. destruct IH as [(pre & p0 & s0 & post & -> & C & NO & -> & F)|(-> & F)].
    - left. exists ((p, s) :: pre), p0, s0, post. repeat (split; [try assumption; reflexivity|]). constructor; assumption.
    - right. split; [reflexivity|]. constructor; assumption. }
  destruct (template_file (last p [])) eqn:T.
  - apply template_con in T. destruct (root_lines (lines (universal s))) as [(a & b & R & _)|(R & _)]; rewrite R; cbn [bind].
    + destruct (bytes_eqb b name) eqn:B.
      * apply bytes_eqb_eq in B. subst b. eexists. split; [reflexivity|]. left. exists [], p, s, l. split; [reflexivity|]. split; [exact T|].
        split; [apply names_model; eauto|]. auto.
      * exists r. split; [exact E|]. apply SKIP. intros (_ & K). apply names_model in K. destruct K as (a' & K). rewrite R in K. injection K as _ ->.
        rewrite (proj2 (bytes_eqb_eq name name) eq_refl) in B. discriminate.
    + exists r. split; [exact E|]. apply SKIP. intros (_ & K). apply names_model in K. destruct K as (a' & K). congruence.
  - exists r. split; [exact E|]. apply SKIP. intros (K & _). apply template_con in K. congruence.
Qed.
Lemma good_objects root : good_dir root -> path_join root (chars "objects") = root ++ chars "/objects" /\ good_dir (root ++ chars "/objects").
Proof. intros G. apply (join_good root (chars "objects") G); [discriminate|]. cbn. intros K. repeat destruct K as [K|K]; try discriminate; contradiction. Qed.

(** The result is the path of the first file, in the order of the walk, that qualifies. *)
Theorem object_path root objects name : (exists t, root = "/"%char :: t) -> (forall e, root <> e ++ ["/"%char]) -> named objects ->
  exists r, get_object_path root objects name = Ok r /\
    match r with
    | Some q => exists p s, file_at objects p s /\ con_file (last p []) /\ names_object name s /\ q = full_name root p /\
        forall p' s', file_at objects p' s' -> con_file (last p' []) -> names_object name s' -> (p', s') = (p, s) \/ earlier objects p p'
    | None => forall p s, file_at objects p s -> con_file (last p []) -> ~ names_object name s
    end.
Proof.
  intros A Z N. assert (good_dir root) as G.
  { split; [exact A|]. intros K. destruct A as (t & E). assert (root <> []) as NE by (rewrite E; discriminate).
    destruct (exists_last NE) as (m & z & E'). rewrite E', last_last in K. subst z. now apply (Z m). }
  destruct (good_objects root G) as (J & G'). unfold get_object_path. rewrite of_string_chars, J. rewrite (walk_files root objects N _ G').
  destruct (first_object_spec name (root ++ chars "/objects") (files objects)) as (r & E & H). exists r. split; [exact E|].
  destruct H as [(pre & p & s & post & EF & C & NO & -> & F)|(-> & F)].
  - exists p, s. assert (In (p, s) (files objects)) as I by (rewrite EF; apply in_elt). split; [now apply files_at|]. split; [exact C|]. split; [exact NO|].
    split; [unfold full_name; now rewrite <- app_assoc|]. intros p' s' FA C' NO'. apply (files_at objects N) in FA. rewrite EF in FA. apply in_app_or in FA.
    destruct FA as [FA|[FA|FA]].
    + rewrite Forall_forall in F. now destruct (F _ FA).
    + left. now symmetry.
    + right. pose proof (files_ordered objects N) as O. rewrite EF in O. clear -O FA. induction pre as [|x pre IH]; cbn in O.
      * inversion O as [|? ? O1 _]. subst. rewrite Forall_forall in O1. exact (O1 _ FA).
      * inversion O. auto.
  - intros p s FA C NO. apply (files_at objects N) in FA. rewrite Forall_forall in F. now destruct (F _ FA).
Qed.
