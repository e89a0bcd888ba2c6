(** Texts of headers and vertex attributes: what they say, and that they tell different objects apart. *)
From Coq Require Import ZArith List Bool Lia String Ascii Decimal DecimalString DecimalZ.
From Verif Require Import PyBase Mesh Edit SpecEdit SpecText Text.
Import ListNotations.
Open Scope list_scope.
Open Scope Z_scope.

(** * Numbers *)
Lemma value_acc d acc : fold_left (fun n c => 10 * n + (Z.of_nat (nat_of_ascii c) - 48)) (list_ascii_of_string (NilEmpty.string_of_uint d)) (Z.pos acc) = Z.pos (Pos.of_uint_acc d acc).
Proof.
  revert acc. induction d as [|d IH|d IH|d IH|d IH|d IH|d IH|d IH|d IH|d IH|d IH]; intros acc; [reflexivity|..];
    cbn [NilEmpty.string_of_uint list_ascii_of_string fold_left Pos.of_uint_acc]; rewrite <- IH; f_equal;
    match goal with |- context [Z.of_nat (nat_of_ascii ?c)] => let v := eval vm_compute in (Z.of_nat (nat_of_ascii c)) in change (Z.of_nat (nat_of_ascii c)) with v end; lia.
Qed.
Lemma value_uint d : value (list_ascii_of_string (NilEmpty.string_of_uint d)) = Z.of_uint d.
Proof.
  unfold value, Z.of_uint. induction d as [|d IH|d IH|d IH|d IH|d IH|d IH|d IH|d IH|d IH|d IH]; [reflexivity|exact IH|..];
    cbn [NilEmpty.string_of_uint list_ascii_of_string fold_left Pos.of_uint]; (etransitivity; [|cbn [Z.of_N]; apply value_acc]); reflexivity.
Qed.
Lemma digits_uint d : Forall digit (list_ascii_of_string (NilEmpty.string_of_uint d)).
Proof. induction d; cbn [NilEmpty.string_of_uint list_ascii_of_string]; constructor; auto; unfold digit; cbn; lia. Qed.
Lemma to_int_nil z : Z.to_int z <> Pos Nil /\ Z.to_int z <> Neg Nil.
Proof. split; intros E; pose proof (DecimalZ.of_to z) as H; rewrite E in H; cbn in H; subst z; discriminate. Qed.
Lemma uint_text d : d <> Nil -> list_ascii_of_string (NilZero.string_of_uint d) <> [] /\ Forall digit (list_ascii_of_string (NilZero.string_of_uint d)) /\
  value (list_ascii_of_string (NilZero.string_of_uint d)) = Z.of_uint d.
Proof.
  intros H. replace (NilZero.string_of_uint d) with (NilEmpty.string_of_uint d) by (destruct d; [easy|reflexivity..]).
  split; [destruct d; [easy|discriminate..]|]. split; [apply digits_uint|apply value_uint].
Qed.
Lemma num_writes z : writes (num z) z.
Proof.
  unfold num, writes. destruct (to_int_nil z) as (N1 & N2). pose proof (DecimalZ.of_to z) as H. destruct (Z.to_int z) as [d|d] eqn:E; cbn [NilZero.string_of_int].
  - destruct (uint_text d) as (U1 & U2 & U3); [congruence|]. left. cbn [Z.of_int] in H. rewrite U3, H. split; [|auto].
    rewrite <- H. unfold Z.of_uint. lia.
  - destruct (uint_text d) as (U1 & U2 & U3); [congruence|]. right. split.
    + destruct z; [discriminate E|discriminate E|lia].
    + cbn [list_ascii_of_string]. eexists. split; [reflexivity|]. split; [exact U1|]. split; [exact U2|]. rewrite U3. cbn [Z.of_int] in H. lia.
Qed.
Lemma writes_inj t a b : writes t a -> writes t b -> a = b.
Proof.
  assert (~ digit "-"%char) as ND by (unfold digit; cbn; lia).
  intros [(A1 & A2 & A3 & A4)|(A1 & d & A2 & A3 & A4 & A5)] [(B1 & B2 & B3 & B4)|(B1 & e & B2 & B3 & B4 & B5)].
  - congruence.
  - subst t. inversion A3. contradiction.
  - subst t. inversion B3. contradiction.
  - subst t. injection B2 as ->. lia.
Qed.
Lemma num_inj a b : num a = num b -> a = b.
Proof. intros E. eapply writes_inj; [apply num_writes|]. rewrite E. apply num_writes. Qed.
Lemma num_chars z c : In c (num z) -> digit c \/ c = "-"%char.
Proof.
  destruct (num_writes z) as [(_ & _ & H & _)|(_ & d & -> & _ & H & _)]; rewrite Forall_forall in H; intros I; [left; auto|].
  destruct I as [<-|I]; auto.
Qed.
Lemma num_free z c : (nat_of_ascii c < 45)%nat -> ~ In c (num z).
Proof. intros H I. apply num_chars in I. destruct I as [I| ->]; [unfold digit in I; lia|cbn in H; lia]. Qed.

(** * Cutting at a separator *)
Lemma cut (c : ascii) a b r s : ~ In c a -> ~ In c b -> a ++ c :: r = b ++ c :: s -> a = b /\ r = s.
Proof.
  revert b. induction a as [|x a IH]; intros [|y b] Ha Hb E; cbn in E.
  - injection E as <-. auto.
  - injection E as <- _. exfalso. apply Hb. now left.
  - injection E as -> _. exfalso. apply Ha. now left.
  - injection E as <- E. destruct (IH b) as (-> & ->); [intros I; apply Ha; now right|intros I; apply Hb; now right|exact E|auto].
Qed.
Lemma lit_inj s t : lit s = lit t -> s = t.
Proof. unfold lit. intros E. rewrite <- (string_of_list_ascii_of_string s), E. apply string_of_list_ascii_of_string. Qed.

(** * Headers *)
Lemma head_text_is h : head_text h = lit "head.u1 = " ++ num (h_u1 h) ++ newline :: lit "head.version = " ++ num (h_version h) ++
  newline :: lit "head.u3 = " ++ num (h_u3 h) ++ newline :: lit "head.u4 = " ++ num (h_u4 h) ++ newline :: lit "head.u5 = " ++ num (h_u5 h).
Proof. unfold head_text. cbn [join]. rewrite <- !app_assoc. reflexivity. Qed.
Theorem head_says h : exists t1 t2 t3 t4 t5,
  writes t1 (h_u1 h) /\ writes t2 (h_version h) /\ writes t3 (h_u3 h) /\ writes t4 (h_u4 h) /\ writes t5 (h_u5 h) /\
  head_text h = lit "head.u1 = " ++ t1 ++ newline :: lit "head.version = " ++ t2 ++
    newline :: lit "head.u3 = " ++ t3 ++ newline :: lit "head.u4 = " ++ t4 ++ newline :: lit "head.u5 = " ++ t5.
Proof. do 5 eexists. do 5 (split; [apply num_writes|]). apply head_text_is. Qed.
Theorem head_distinct a b : head_text a = head_text b <-> a = b.
Proof.
  split; [|now intros ->]. rewrite !head_text_is. intros E.
  assert (forall z, ~ In newline (num z)) as NN by (intros z; apply num_free; cbn; lia).
  apply app_inv_head in E. apply cut in E; auto. destruct E as (E1 & E).
  apply app_inv_head in E. apply cut in E; auto. destruct E as (E2 & E).
  apply app_inv_head in E. apply cut in E; auto. destruct E as (E3 & E).
  apply app_inv_head in E. apply cut in E; auto. destruct E as (E4 & E).
  apply app_inv_head in E. apply num_inj in E1, E2, E3, E4, E. destruct a, b. cbn in *. congruence.
Qed.

(** * Attributes *)
Lemma type_known v : In v [0; 1; 2; 3; 4; 17] -> exists n k, In (v, n, k) types /\ type_name v = Ok n /\ decltype_len v = Ok k.
Proof. intros H. repeat destruct H as [<-|H]; try destruct H; do 2 eexists; (split; [cbn; tauto|split; reflexivity]). Qed.
Lemma type_unknown v : ~ In v [0; 1; 2; 3; 4; 17] -> type_name v = Raise EValue.
Proof.
  intros H. unfold type_name. repeat match goal with |- context [?a =? ?b] => destruct (Z.eqb_spec a b) as [->|]; [exfalso; apply H; cbn; tauto|] end. reflexivity.
Qed.
Lemma usage_known u : In u [0; 1; 2; 3; 4; 5; 6; 7; 8; 9; 10; 11; 12; 13; 261; 517; 773; 1029] -> exists n, In (u, n) usages /\ usage_name u = Ok n.
Proof. intros H. repeat destruct H as [<-|H]; try destruct H; eexists; (split; [cbn; tauto|reflexivity]). Qed.
Lemma usage_unknown u : ~ In u [0; 1; 2; 3; 4; 5; 6; 7; 8; 9; 10; 11; 12; 13; 261; 517; 773; 1029] -> usage_name u = Raise EValue.
Proof.
  intros H. unfold usage_name. repeat match goal with |- context [?a =? ?b] => destruct (Z.eqb_spec a b) as [->|]; [exfalso; apply H; cbn; tauto|] end. reflexivity.
Qed.
Theorem attrib_says (nums : bool) a : known_attrib a -> exists tf to tt ts n k u,
  writes tf (flag a) /\ writes to (offset a) /\ In (vartype a, n, k) types /\ writes ts k /\ In (usage a, u) usages /\
  (if nums then writes tt (vartype a) else tt = lit "D3DDECLTYPE." ++ lit n) /\
  attrib_text nums a = Ok (lit "flag: " ++ tf ++ lit ", offset: " ++ to ++ lit ", vartype: " ++ tt ++ lit " of size " ++ ts ++ lit ", usage: " ++ lit u).
Proof.
  intros (H1 & H2). destruct (type_known _ H1) as (n & k & T1 & T2 & T3). destruct (usage_known _ H2) as (u & U1 & U2).
  exists (num (flag a)), (num (offset a)), (type_text nums (vartype a) n), (num k), n, k, u.
  do 2 (split; [apply num_writes|]). split; [exact T1|]. split; [apply num_writes|]. split; [exact U1|].
  split; [unfold type_text; destruct nums; [apply num_writes|reflexivity]|].
  unfold attrib_text. now rewrite T2, T3, U2.
Qed.
Lemma known_dec a : {known_attrib a} + {~ known_attrib a}.
Proof.
  unfold known_attrib. destruct (in_dec Z.eq_dec (vartype a) [0; 1; 2; 3; 4; 17]); [|right; tauto].
  destruct (in_dec Z.eq_dec (usage a) [0; 1; 2; 3; 4; 5; 6; 7; 8; 9; 10; 11; 12; 13; 261; 517; 773; 1029]); [left|right]; tauto.
Qed.
Theorem attrib_refuses nums a : ~ known_attrib a <-> attrib_text nums a = Raise EValue.
Proof.
  split.
  - intros H. unfold attrib_text. destruct (in_dec Z.eq_dec (vartype a) [0; 1; 2; 3; 4; 17]) as [I|I].
    + destruct (type_known _ I) as (n & k & _ & -> & ->). cbn [bind]. rewrite usage_unknown; [reflexivity|]. intros J. apply H. now split.
    + now rewrite type_unknown.
  - intros E K. destruct (attrib_says nums a K) as (? & ? & ? & ? & ? & ? & ? & _ & _ & _ & _ & _ & _ & E'). congruence.
Qed.
Lemma type_text_free nums v n k : In (v, n, k) types -> ~ In " "%char (type_text nums v n).
Proof.
  intros H. unfold type_text. destruct nums; [apply num_free; cbn; lia|].
  repeat destruct H as [E|H]; try destruct H; injection E as <- <- <-; cbn; intros I; repeat destruct I as [I|I]; try discriminate I; exact I.
Qed.
Lemma type_text_inj nums v n k v' n' k' : In (v, n, k) types -> In (v', n', k') types -> type_text nums v n = type_text nums v' n' -> v = v'.
Proof.
  intros H H'. unfold type_text. destruct nums; [apply num_inj|]. intros E. apply app_inv_head in E. apply lit_inj in E. subst n'.
  repeat destruct H as [E|H]; try destruct H; injection E as <- <- <-; repeat destruct H' as [E|H']; try destruct H'; injection E; intros; subst; try reflexivity; discriminate.
Qed.
Lemma usage_inj u u' n : In (u, n) usages -> In (u', n) usages -> u = u'.
Proof.
  intros H H'. repeat destruct H as [E|H]; try destruct H; injection E as <- <-; repeat destruct H' as [E|H']; try destruct H'; injection E; intros; subst; try reflexivity; discriminate.
Qed.
Theorem attrib_distinct nums a b t : attrib_text nums a = Ok t -> attrib_text nums b = Ok t -> a = b.
Proof.
  intros Ea Eb.
  destruct (known_dec a) as [(Ka1 & Ka2)|K]; [|apply (attrib_refuses nums) in K; congruence].
  destruct (known_dec b) as [(Kb1 & Kb2)|K]; [|apply (attrib_refuses nums) in K; congruence].
  destruct (type_known _ Ka1) as (n & k & T1 & T2 & T3). destruct (usage_known _ Ka2) as (u & U1 & U2).
  destruct (type_known _ Kb1) as (n' & k' & T1' & T2' & T3'). destruct (usage_known _ Kb2) as (u' & U1' & U2').
  unfold attrib_text in *. rewrite T2, T3, U2 in Ea. rewrite T2', T3', U2' in Eb. cbn [bind] in *. rewrite <- Eb in Ea. injection Ea as E. clear Eb.
  assert (forall z, ~ In ","%char (num z)) as NC by (intros z; apply num_free; cbn; lia).
  apply cut in E; auto. destruct E as (E1 & E). apply (app_inv_head (lit " offset: ")) in E.
  apply cut in E; auto. destruct E as (E2 & E). apply (app_inv_head (lit " vartype: ")) in E.
  apply cut in E; try eapply type_text_free; eauto. destruct E as (E3 & E). apply (app_inv_head (lit "of size ")) in E.
  apply cut in E; auto. destruct E as (E4 & E). apply (app_inv_head (lit " usage: ")) in E. apply lit_inj in E. subst u'.
  apply num_inj in E1, E2. apply (type_text_inj nums _ _ _ _ _ _ T1 T1') in E3. pose proof (usage_inj _ _ _ U1 U1') as E5.
  destruct a, b. cbn in *. congruence.
Qed.
(** The text of an attribute depends on the version of Python. *)
Theorem attrib_versions a t t' : attrib_text false a = Ok t -> attrib_text true a = Ok t' -> t <> t'.
Proof.
  intros Ea Eb. destruct (known_dec a) as [(Ka1 & Ka2)|K]; [|apply (attrib_refuses true) in K; congruence].
  destruct (type_known _ Ka1) as (n & k & T1 & T2 & T3). destruct (usage_known _ Ka2) as (u & U1 & U2).
  unfold attrib_text in *. rewrite T2, T3, U2 in Ea, Eb. cbn [bind] in *. intros <-. rewrite <- Eb in Ea. injection Ea as E.
  apply app_inv_head in E. apply (app_inv_head (lit ", offset: ")) in E. apply app_inv_head in E. apply (app_inv_head (lit ", vartype: ")) in E.
  apply (cut " "%char (type_text false (vartype a) n) (type_text true (vartype a) n)) in E; try (eapply type_text_free; eassumption). destruct E as (E & _). unfold type_text in E.
  assert (In "D"%char (num (vartype a))) as I by (rewrite <- E; now left). apply num_chars in I. destruct I as [I|I]; [unfold digit in I; cbn in I; lia|discriminate].
Qed.
(** The text of a header has five lines. *)
Theorem head_lines h : count_occ ascii_dec (head_text h) newline = 4%nat.
Proof.
  rewrite head_text_is. assert (forall z, count_occ ascii_dec (num z) newline = 0%nat) as NZ.
  { intros z. apply count_occ_not_In. apply num_free. cbn. lia. }
  assert (forall x, newline :: x = [newline] ++ x) as NL by reflexivity.
  rewrite (NL (lit "head.version = " ++ _)), (NL (lit "head.u3 = " ++ _)), (NL (lit "head.u4 = " ++ _)), (NL (lit "head.u5 = " ++ _)). rewrite !count_occ_app, !NZ. reflexivity.
Qed.
Theorem mesh_refuses {F} (m : mesh F) name : mesh_text m name = Raise ENotImplemented.
Proof. reflexivity. Qed.
