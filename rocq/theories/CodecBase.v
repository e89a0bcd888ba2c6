(** Facts about the byte-level readers and writers of Struct.v. *)
From Coq Require Import ZArith NArith List Bool Ascii Lia.
From Verif Require Import PyBase Struct Mesh Spec.
Import ListNotations.
Open Scope Z_scope.
Open Scope res_scope.

Lemma skipn_skipn {A} (x y : nat) (l : list A) : skipn x (skipn y l) = skipn (x + y) l.
Proof.
  revert l. induction y as [|y IH]; intros l.
  - rewrite Nat.add_0_r. reflexivity.
  - destruct l; [rewrite !skipn_nil; reflexivity|].
    rewrite Nat.add_succ_r. simpl. apply IH.
Qed.

(** ** Integers and bytes *)
Lemma Z_of_byte_range b : 0 <= Z_of_byte b < 256.
Proof.
  unfold Z_of_byte. pose proof (N_ascii_bounded b). lia.
Qed.

Lemma Z_of_byte_of_Z v : Z_of_byte (byte_of_Z v) = v mod 256.
Proof.
  unfold Z_of_byte, byte_of_Z.
  assert (0 <= v mod 256 < 256) by (apply Z.mod_pos_bound; lia).
  rewrite N_ascii_embedding; rewrite ?Z2N.id; lia.
Qed.

Lemma byte_of_Z_of_byte b x : byte_of_Z (Z_of_byte b + 256 * x) = b.
Proof.
  unfold byte_of_Z.
  replace (Z_of_byte b + 256 * x) with (Z_of_byte b + x * 256) by lia.
  rewrite Z_mod_plus_full, Z.mod_small by apply Z_of_byte_range.
  unfold Z_of_byte. rewrite N2Z.id. apply ascii_N_embedding.
Qed.

Lemma pow8_S n : 2 ^ (8 * Z.of_nat (S n)) = 256 * 2 ^ (8 * Z.of_nat n).
Proof.
  replace (8 * Z.of_nat (S n)) with (8 + 8 * Z.of_nat n) by lia.
  rewrite Z.pow_add_r by lia. reflexivity.
Qed.

Lemma le_decode_encode n v : le_decode (le_encode n v) = v mod 2 ^ (8 * Z.of_nat n).
Proof.
  revert v; induction n as [|n IH]; intros v.
  - simpl. rewrite Z.mod_1_r. reflexivity.
  - cbn [le_encode le_decode]. rewrite IH, Z_of_byte_of_Z, pow8_S.
    assert (0 < 2 ^ (8 * Z.of_nat n)) by (apply Z.pow_pos_nonneg; lia).
    rewrite Z.rem_mul_r by lia. reflexivity.
Qed.

Lemma le_encode_decode bs : le_encode (length bs) (le_decode bs) = bs.
Proof.
  induction bs as [|b t IH]; [reflexivity|].
  cbn [length le_encode le_decode]. rewrite byte_of_Z_of_byte. f_equal.
  replace ((Z_of_byte b + 256 * le_decode t) / 256) with (le_decode t); [exact IH|].
  pose proof (Z_of_byte_range b).
  replace (Z_of_byte b + 256 * le_decode t) with (Z_of_byte b + le_decode t * 256) by lia.
  rewrite Z_div_plus_full by lia. rewrite Z.div_small by lia. lia.
Qed.

Lemma le_encode_length n v : length (le_encode n v) = n.
Proof. revert v; induction n; intros; simpl; auto. Qed.

Lemma le_decode_range bs : 0 <= le_decode bs < 2 ^ (8 * Z.of_nat (length bs)).
Proof.
  induction bs as [|b t IH]; [simpl; lia|].
  cbn [length le_decode]. rewrite pow8_S. pose proof (Z_of_byte_range b). lia.
Qed.

Lemma order_bytes_length p bs : length (order_bytes p bs) = length bs.
Proof. unfold order_bytes. destruct (big_endian p); rewrite ?rev_length; auto. Qed.
Lemma order_bytes_invol p bs : order_bytes p (order_bytes p bs) = bs.
Proof. unfold order_bytes. destruct (big_endian p); rewrite ?rev_involutive; auto. Qed.

Lemma enc_uint_length p n v : length (enc_uint p n v) = n.
Proof. unfold enc_uint. rewrite order_bytes_length, le_encode_length. reflexivity. Qed.

Lemma dec_enc p n v : 0 <= v < 2 ^ (8 * Z.of_nat n) -> dec_uint p (enc_uint p n v) = v.
Proof.
  intros H. unfold dec_uint, enc_uint.
  rewrite order_bytes_invol, le_decode_encode. apply Z.mod_small; auto.
Qed.

Lemma enc_dec p bs : enc_uint p (length bs) (dec_uint p bs) = bs.
Proof.
  unfold dec_uint, enc_uint.
  rewrite <- (order_bytes_length p bs), le_encode_decode. apply order_bytes_invol.
Qed.

Lemma dec_uint_range p bs : 0 <= dec_uint p bs < 2 ^ (8 * Z.of_nat (length bs)).
Proof. unfold dec_uint. rewrite <- (order_bytes_length p bs). apply le_decode_range. Qed.

(** Two's complement. *)
Lemma half_pow n : (0 < n)%nat -> 2 ^ (8 * Z.of_nat n) = 2 * 2 ^ (8 * Z.of_nat n - 1).
Proof.
  intros. rewrite <- Z.pow_succ_r by lia. f_equal. lia.
Qed.

Lemma to_signed_range n v : (0 < n)%nat -> 0 <= v < 2 ^ (8 * Z.of_nat n) ->
  - 2 ^ (8 * Z.of_nat n - 1) <= to_signed n v < 2 ^ (8 * Z.of_nat n - 1).
Proof.
  intros Hn Hv. unfold to_signed. rewrite half_pow in * by auto.
  destruct (Z.ltb_spec v (2 ^ (8 * Z.of_nat n - 1))); lia.
Qed.

Lemma of_to_signed n v : (0 < n)%nat -> 0 <= v < 2 ^ (8 * Z.of_nat n) ->
  of_signed n (to_signed n v) = v.
Proof.
  intros Hn Hv. unfold of_signed, to_signed.
  destruct (Z.ltb_spec v (2 ^ (8 * Z.of_nat n - 1))).
  - apply Z.mod_small; auto.
  - replace (v - 2 ^ (8 * Z.of_nat n)) with (v + (-1) * 2 ^ (8 * Z.of_nat n)) by lia.
    rewrite Z_mod_plus_full. apply Z.mod_small; auto.
Qed.

Lemma of_signed_range n v : 0 <= of_signed n v < 2 ^ (8 * Z.of_nat n).
Proof. unfold of_signed. apply Z.mod_pos_bound. apply Z.pow_pos_nonneg; lia. Qed.

Lemma to_of_signed n v : (0 < n)%nat ->
  - 2 ^ (8 * Z.of_nat n - 1) <= v < 2 ^ (8 * Z.of_nat n - 1) ->
  to_signed n (of_signed n v) = v.
Proof.
  intros Hn Hv. unfold of_signed, to_signed.
  pose proof (half_pow n Hn).
  assert (0 < 2 ^ (8 * Z.of_nat n - 1)) by (apply Z.pow_pos_nonneg; lia).
  destruct (Z.le_gt_cases 0 v).
  - rewrite Z.mod_small by lia.
    destruct (Z.ltb_spec v (2 ^ (8 * Z.of_nat n - 1))); lia.
  - replace (v mod 2 ^ (8 * Z.of_nat n)) with (v + 2 ^ (8 * Z.of_nat n)).
    + destruct (Z.ltb_spec (v + 2 ^ (8 * Z.of_nat n)) (2 ^ (8 * Z.of_nat n - 1))); lia.
    + apply Z.mod_unique with (-1); lia.
Qed.

Lemma long_bytes_pos p : (0 < long_bytes p)%nat.
Proof. unfold long_bytes. destruct (long_sz p); lia. Qed.

Lemma fits_long_iff p v : fits_long p v = true <-> is_long p v.
Proof. unfold fits_long, in_signed, is_long. rewrite andb_true_iff, Z.leb_le, Z.ltb_lt. tauto. Qed.
Lemma fits_ushort_iff v : fits_ushort v = true <-> is_ushort v.
Proof.
  unfold fits_ushort, in_unsigned, is_ushort. rewrite andb_true_iff, Z.leb_le, Z.ltb_lt.
  change (2 ^ (8 * Z.of_nat 2)) with 65536. tauto.
Qed.

Lemma fits_schar_iff v : fits_schar v = true <-> -128 <= v < 128.
Proof.
  unfold fits_schar, in_signed. rewrite andb_true_iff, Z.leb_le, Z.ltb_lt.
  change (2 ^ (8 * Z.of_nat 1 - 1)) with 128. tauto.
Qed.

(** ** Inversion of the two monads *)
Lemma bind_ok {A B} (x : res A) (f : A -> res B) b :
  bind x f = Ok b -> exists a, x = Ok a /\ f a = Ok b.
Proof. destruct x; simpl; intros; [eauto|discriminate]. Qed.

Lemma rbind_ok {A B} (r : reader A) (f : A -> reader B) bs b rest :
  rbind r f bs = Ok (b, rest) ->
  exists a mid, r bs = Ok (a, mid) /\ f a mid = Ok (b, rest).
Proof.
  unfold rbind. intros H. apply bind_ok in H. destruct H as [[a mid] [H1 H2]]. eauto.
Qed.

Lemma rret_ok {A} (a b : A) bs rest : rret a bs = Ok (b, rest) -> a = b /\ bs = rest.
Proof. unfold rret. intros H. injection H as H1 H2. auto. Qed.

Lemma rbind_run {A B} (r : reader A) (f : A -> reader B) bs a mid :
  r bs = Ok (a, mid) -> rbind r f bs = f a mid.
Proof. unfold rbind. intros ->. reflexivity. Qed.

Lemma wseq_ok a b : wseq (a, None) (b, None) = (a ++ b, None).
Proof. reflexivity. Qed.

(** ** Codec relations *)
(** Reading then writing reproduces the consumed bytes; the value satisfies [P]. *)
Definition rt1 {A} (r : reader A) (w : A -> writer) (P : A -> Prop) : Prop :=
  forall bs a rest, r bs = Ok (a, rest) ->
    P a /\ exists cs, w a = (cs, None) /\ bs = cs ++ rest.
(** Writing then reading gives the value back. *)
Definition rt2 {A} (r : reader A) (w : A -> writer) (P : A -> Prop) : Prop :=
  forall a, P a -> exists cs, w a = (cs, None) /\ forall rest, r (cs ++ rest) = Ok (a, rest).

Lemma read_raw_ok n bs a rest :
  read_raw n bs = Ok (a, rest) -> 0 <= n /\ bs = a ++ rest /\ length a = Z.to_nat n.
Proof.
  unfold read_raw. destruct (Z.ltb_spec n 0); [discriminate|].
  destruct (Z.ltb_spec (zlen bs) n); [discriminate|].
  simpl. intros [= <- <-]. split; [lia|]. split.
  - symmetry; apply firstn_skipn.
  - rewrite firstn_length. unfold zlen in *. lia.
Qed.

Lemma read_raw_run n a rest :
  Z.of_nat (length a) = n -> read_raw n (a ++ rest) = Ok (a, rest).
Proof.
  intros <-. unfold read_raw, zlen. rewrite app_length.
  destruct (Z.ltb_spec (Z.of_nat (length a)) 0); [lia|].
  destruct (Z.ltb_spec (Z.of_nat (length a + length rest)) (Z.of_nat (length a))); [lia|].
  simpl. rewrite Nat2Z.id, firstn_app, skipn_app, firstn_all, skipn_all, Nat.sub_diag.
  simpl. rewrite app_nil_r. reflexivity.
Qed.

Section P.
Context (p : plat).

Lemma rt1_long : rt1 (read_long p) (write_long p) (is_long p).
Proof.
  intros bs a rest H. unfold read_long in H. apply rbind_ok in H.
  destruct H as (c & mid & H1 & H2). injection H2 as <- <-.
  apply read_raw_ok in H1. destruct H1 as (_ & -> & Hlen). rewrite Nat2Z.id in Hlen.
  pose proof (dec_uint_range p c) as Hr. rewrite Hlen in Hr.
  assert (is_long p (to_signed (long_bytes p) (dec_uint p c))) as Hl.
  { unfold is_long. apply to_signed_range; [apply long_bytes_pos|auto]. }
  split; [exact Hl|]. exists c. split; [|reflexivity].
  unfold write_long. apply fits_long_iff in Hl. rewrite Hl.
  rewrite of_to_signed by (auto using long_bytes_pos).
  rewrite <- Hlen. rewrite enc_dec. reflexivity.
Qed.

Lemma rt2_long : rt2 (read_long p) (write_long p) (is_long p).
Proof.
  intros a Ha. exists (enc_uint p (long_bytes p) (of_signed (long_bytes p) a)).
  split.
  - unfold write_long. apply fits_long_iff in Ha. rewrite Ha. reflexivity.
  - intros rest. unfold read_long.
    erewrite rbind_run; [|apply read_raw_run; rewrite enc_uint_length; reflexivity].
    unfold rret. rewrite dec_enc by apply of_signed_range.
    rewrite to_of_signed; auto using long_bytes_pos.
Qed.

Lemma rt1_short1 : rt1 (read_short1 p) (write_short p) is_ushort.
Proof.
  intros bs a rest H. unfold read_short1 in H. apply rbind_ok in H.
  destruct H as (c & mid & H1 & H2). injection H2 as <- <-.
  apply read_raw_ok in H1. destruct H1 as (_ & -> & Hlen). change (Z.to_nat 2) with 2%nat in Hlen.
  pose proof (dec_uint_range p c) as Hr. rewrite Hlen in Hr.
  assert (is_ushort (dec_uint p c)) as Hl by exact Hr.
  split; [exact Hl|]. exists c. split; [|reflexivity].
  unfold write_short. apply fits_ushort_iff in Hl. rewrite Hl.
  rewrite <- Hlen, enc_dec. reflexivity.
Qed.

Lemma rt2_short1 : rt2 (read_short1 p) (write_short p) is_ushort.
Proof.
  intros a Ha. exists (enc_uint p 2 a). split.
  - unfold write_short. apply fits_ushort_iff in Ha. rewrite Ha. reflexivity.
  - intros rest. unfold read_short1.
    erewrite rbind_run; [|apply read_raw_run; rewrite enc_uint_length; reflexivity].
    unfold rret. rewrite dec_enc by exact Ha. reflexivity.
Qed.

Lemma rt1_byte : rt1 (read_byte p) (write_byte p) (fun z => -128 <= z < 128).
Proof.
  intros bs a rest H. unfold read_byte in H. apply rbind_ok in H.
  destruct H as (c & mid & H1 & H2). injection H2 as <- <-.
  apply read_raw_ok in H1. destruct H1 as (_ & -> & Hlen). change (Z.to_nat 1) with 1%nat in Hlen.
  pose proof (dec_uint_range p c) as Hr. rewrite Hlen in Hr.
  assert (-128 <= to_signed 1 (dec_uint p c) < 128) as Hl by (apply (to_signed_range 1); auto; lia).
  split; [exact Hl|]. exists c. split; [|reflexivity].
  unfold write_byte. apply fits_schar_iff in Hl. rewrite Hl.
  rewrite of_to_signed by (auto; lia).
  rewrite <- Hlen, enc_dec. reflexivity.
Qed.

Lemma rt2_byte : rt2 (read_byte p) (write_byte p) (fun z => -128 <= z < 128).
Proof.
  intros a Ha. exists (enc_uint p 1 (of_signed 1 a)). split.
  - unfold write_byte. apply fits_schar_iff in Ha. rewrite Ha. reflexivity.
  - intros rest. unfold read_byte.
    erewrite rbind_run; [|apply read_raw_run; rewrite enc_uint_length; reflexivity].
    unfold rret. rewrite dec_enc by apply of_signed_range.
    rewrite to_of_signed; auto.
Qed.

Lemma rt1_string : rt1 (read_string p) (write_string p) (wf_string p).
Proof.
  intros bs a rest H. unfold read_string in H. apply rbind_ok in H.
  destruct H as (n & mid & H1 & H2).
  apply rt1_long in H1. destruct H1 as (Hn & cs & Hw & ->).
  apply read_raw_ok in H2. destruct H2 as (Hn0 & -> & Hlen).
  assert (zlen a = n) as Ha by (unfold zlen; lia).
  split; [unfold wf_string; rewrite Ha; exact Hn|].
  exists (cs ++ a). split; [|rewrite <- app_assoc; reflexivity].
  unfold write_string. rewrite Ha, Hw. reflexivity.
Qed.

Lemma rt2_string : rt2 (read_string p) (write_string p) (wf_string p).
Proof.
  intros a Ha. destruct (rt2_long _ Ha) as (cs & Hw & Hr).
  exists (cs ++ a). split.
  - unfold write_string. rewrite Hw. reflexivity.
  - intros rest. unfold read_string. rewrite <- app_assoc.
    erewrite rbind_run by apply Hr. apply read_raw_run. reflexivity.
Qed.

(** ** Lists *)
Lemma rt1_n {A} (r : reader A) w P n :
  rt1 r w P -> rt1 (read_n r n) (wall w) (fun l => length l = n /\ Forall P l).
Proof.
  intros Hr. induction n as [|n IH]; intros bs l rest H; simpl in H.
  - injection H as <- <-. split; [split; [reflexivity|constructor]|].
    exists []. split; reflexivity.
  - apply rbind_ok in H. destruct H as (a & mid & H1 & H).
    apply rbind_ok in H. destruct H as (t & mid' & H2 & H). injection H as <- <-.
    apply Hr in H1. destruct H1 as (Ha & cs & Hw & ->).
    apply IH in H2. destruct H2 as ((Hl & Hf) & ds & Hw2 & ->).
    split; [split; [simpl; congruence|constructor; auto]|].
    exists (cs ++ ds). simpl. rewrite Hw, Hw2. split; [reflexivity|apply app_assoc].
Qed.

Lemma rt2_n {A} (r : reader A) w P n :
  rt2 r w P -> rt2 (read_n r n) (wall w) (fun l => length l = n /\ Forall P l).
Proof.
  intros Hr l (<- & Hf). induction Hf as [|a t Ha Ht (ds & Hw2 & Hr2)].
  - exists []. split; reflexivity.
  - destruct (Hr a Ha) as (cs & Hw & Hr1).
    exists (cs ++ ds). simpl. rewrite Hw, Hw2. split; [reflexivity|].
    intros rest. rewrite <- app_assoc.
    erewrite rbind_run by apply Hr1. erewrite rbind_run by apply Hr2. reflexivity.
Qed.

Lemma rt1_each {A B} (r : A -> reader B) (w : B -> writer) (Q : A -> Prop) (R : A -> B -> Prop) :
  (forall a bs b rest, Q a -> r a bs = Ok (b, rest) ->
     R a b /\ exists cs, w b = (cs, None) /\ bs = cs ++ rest) ->
  forall l bs l' rest, Forall Q l -> read_each r l bs = Ok (l', rest) ->
    Forall2 R l l' /\ exists cs, wall w l' = (cs, None) /\ bs = cs ++ rest.
Proof.
  intros Hr l. induction l as [|a t IH]; intros bs l' rest HQ H; simpl in H.
  - injection H as <- <-. split; [constructor|]. exists []. split; reflexivity.
  - apply rbind_ok in H. destruct H as (b & mid & H1 & H).
    apply rbind_ok in H. destruct H as (t' & mid' & H2 & H). injection H as <- <-.
    inversion HQ as [|? ? HQa HQt]; subst.
    apply Hr in H1; [|auto]. destruct H1 as (Ha & cs & Hw & ->).
    apply IH in H2; [|auto]. destruct H2 as (Hf & ds & Hw2 & ->).
    split; [constructor; auto|].
    exists (cs ++ ds). simpl. rewrite Hw, Hw2. split; [reflexivity|apply app_assoc].
Qed.

Lemma rt2_each {A B C} (r : A -> reader B) (w : C -> writer) (pre : C -> A) (post : C -> B)
      (l : list C) :
  Forall (fun x => exists cs, w x = (cs, None) /\
                   forall rest, r (pre x) (cs ++ rest) = Ok (post x, rest)) l ->
  exists cs, wall w l = (cs, None) /\
    forall rest, read_each r (map pre l) (cs ++ rest) = Ok (map post l, rest).
Proof.
  induction 1 as [|x t (cs & Hw & Hr) Ht (ds & Hw2 & Hr2)].
  - exists []. split; reflexivity.
  - exists (cs ++ ds). simpl. rewrite Hw, Hw2. split; [reflexivity|].
    intros rest. rewrite <- app_assoc.
    erewrite rbind_run by apply Hr. erewrite rbind_run by apply Hr2. reflexivity.
Qed.

Lemma wall_ext {A} (w w' : A -> writer) l :
  Forall (fun a => w a = w' a) l -> wall w l = wall w' l.
Proof. induction 1; simpl; congruence. Qed.

Lemma wall_map {A B} (f : A -> B) (w : B -> writer) l : wall w (map f l) = wall (fun a => w (f a)) l.
Proof. induction l; simpl; congruence. Qed.

(** ** Items *)
Lemma pieces_concat w k bs :
  length bs = (w * k)%nat ->
  flat_map (fun x => x) (pieces w k bs) = bs /\
  length (pieces w k bs) = k /\ Forall (fun c => length c = w) (pieces w k bs).
Proof.
  revert bs. induction k as [|k IH]; intros bs H; simpl.
  - rewrite Nat.mul_0_r in H. apply length_zero_iff_nil in H. subst. auto.
  - destruct (IH (skipn w bs)) as (H1 & H2 & H3).
    { rewrite skipn_length. lia. }
    rewrite H1, firstn_skipn. split; [auto|]. split; [congruence|].
    constructor; [|auto]. rewrite firstn_length. lia.
Qed.

Lemma pieces_of_concat w (l : list bytes) :
  Forall (fun c => length c = w) l -> pieces w (length l) (flat_map (fun x => x) l) = l.
Proof.
  induction 1 as [|c t Hc Ht IH]; simpl; [reflexivity|].
  rewrite firstn_app, skipn_app, Hc, Nat.sub_diag. simpl.
  rewrite <- Hc, firstn_all, skipn_all. simpl. rewrite app_nil_r.
  f_equal. rewrite Hc. exact IH.
Qed.

Lemma read_items_ok w n bs l rest :
  read_items w n bs = Ok (l, rest) ->
  0 <= n /\ length l = Z.to_nat n /\ Forall (fun c => length c = w) l /\
  bs = flat_map (fun x => x) l ++ rest.
Proof.
  unfold read_items. destruct (Z.ltb_spec n 0); [discriminate|].
  intros Hr. apply rbind_ok in Hr. destruct Hr as (c & mid & H1 & H2).
  injection H2 as <- <-. apply read_raw_ok in H1. destruct H1 as (_ & -> & Hlen).
  destruct (pieces_concat w (Z.to_nat n) c) as (E1 & E2 & E3).
  { rewrite Hlen. lia. }
  rewrite E1. auto.
Qed.

Lemma read_items_run w l rest :
  Forall (fun c => length c = w) l ->
  read_items w (zlen l) (flat_map (fun x => x) l ++ rest) = Ok (l, rest).
Proof.
  intros H. unfold read_items, zlen.
  destruct (Z.ltb_spec (Z.of_nat (length l)) 0); [lia|].
  erewrite rbind_run.
  - unfold rret. rewrite Nat2Z.id. rewrite pieces_of_concat by auto. reflexivity.
  - apply read_raw_run. rewrite <- Nat2Z.inj_mul. f_equal.
    clear -H. induction H; simpl; [lia|]. rewrite app_length. lia.
Qed.

(** Writing 4-byte / 2-byte items one after another. *)
Lemma wall_write_float (l : list Z) :
  wall (write_float p (fun z => z)) l = (flat_map (enc_uint p 4) l, None).
Proof.
  induction l as [|x t IH]; [reflexivity|]. simpl. rewrite IH. reflexivity.
Qed.

Lemma wall_write_short l : Forall is_ushort l ->
  wall (write_short p) l = (flat_map (enc_uint p 2) l, None).
Proof.
  induction 1 as [|x t Hx Ht IH]; [reflexivity|]. simpl. rewrite IH.
  unfold write_short. apply fits_ushort_iff in Hx. rewrite Hx. reflexivity.
Qed.

Lemma flat_map_enc_dec w (l : list bytes) : Forall (fun c => length c = w) l ->
  flat_map (enc_uint p w) (map (dec_uint p) l) = flat_map (fun x => x) l.
Proof.
  induction 1 as [|c t Hc Ht IH]; [reflexivity|]. simpl. rewrite IH.
  f_equal. rewrite <- Hc. apply enc_dec.
Qed.

Lemma map_dec_enc w (l : list Z) : Forall (fun z => 0 <= z < 2 ^ (8 * Z.of_nat w)) l ->
  map (dec_uint p) (map (enc_uint p w) l) = l.
Proof.
  induction 1 as [|c t Hc Ht IH]; [reflexivity|]. simpl. rewrite IH. f_equal. apply dec_enc; auto.
Qed.
End P.
