(** Facts about the number of objects that loading makes. *)
From Coq Require Import ZArith List Bool Lia.
From Flocq Require Import IEEE754.Bits.
From Verif Require Import PyBase Struct Mesh Spec CodecBase CodecFacts F64 SpecLoadCost LoadCost.
Import ListNotations.
Open Scope Z_scope.

(** ** Without the count it is the loader *)
Definition erases {A} (c : creader A) (r : reader A) : Prop := forall bs, snd (c bs) = r bs.
Lemma er_ret {A} (a : A) : erases (cret a) (rret a). Proof. now intros bs. Qed.
Lemma er_plain {A} (r : reader A) : erases (plain r) r. Proof. now intros bs. Qed.
Lemma er_bind {A B} (c : creader A) r (f : A -> creader B) g : erases c r -> (forall a, erases (f a) (g a)) -> erases (cbind c f) (rbind r g).
Proof.
  intros H1 H2 bs. unfold cbind, rbind, bind. rewrite <- (H1 bs). destruct (c bs) as (n & [(a & rest)|e]); cbn; [|reflexivity].
  rewrite <- (H2 a rest). now destruct (f a rest).
Qed.
Lemma er_make {B} n (f : unit -> creader B) g : erases (f tt) g -> erases (cbind (make n) f) g.
Proof. intros H bs. unfold cbind, make. rewrite <- (H bs). now destruct (f tt bs). Qed.
Lemma er_n {A} (c : creader A) r n : erases c r -> erases (cread_n c n) (read_n r n).
Proof. intros H. induction n as [|n IH]; cbn [cread_n read_n]; [apply er_ret|]. apply er_bind; [exact H|intros a]. apply er_bind; [exact IH|intros t; apply er_ret]. Qed.
Lemma er_each {A B} (c : A -> creader B) r l : (forall a, erases (c a) (r a)) -> erases (cread_each c l) (read_each r l).
Proof. intros H. induction l as [|a t IH]; cbn [cread_each read_each]; [apply er_ret|]. apply er_bind; [apply H|intros b]. apply er_bind; [exact IH|intros t'; apply er_ret]. Qed.
Ltac er := repeat (first [apply er_ret | apply er_plain | apply er_make | apply er_n | (apply er_each; intros ?) | (apply er_bind; [|intros ?]) | match goal with |- erases (if ?b then _ else _) _ => destruct b end]).

(** ** Bytes read pay for objects *)
Definition shr {A} (r : reader A) : Prop := forall bs a rest, r bs = Ok (a, rest) -> zlen rest <= zlen bs.
Lemma shr_ret {A} (a : A) : shr (rret a). Proof. intros bs x rest H. injection H as _ <-. lia. Qed.
Lemma shr_raise {A} e : shr (@rraise A e). Proof. intros bs x rest H. discriminate. Qed.
Lemma shr_lift {A} (x : res A) : shr (rlift x). Proof. intros bs a rest H. unfold rlift in H. destruct x; cbn in H; [injection H as _ <-; lia|discriminate]. Qed.
Lemma shr_raw n : shr (read_raw n).
Proof. intros bs a rest H. apply read_raw_ok in H. destruct H as (_ & -> & _). unfold zlen. rewrite app_length. lia. Qed.
Lemma shr_bind {A B} (r : reader A) (f : A -> reader B) : shr r -> (forall a, shr (f a)) -> shr (rbind r f).
Proof. intros H1 H2 bs b rest H. apply rbind_ok in H. destruct H as (a & mid & E1 & E2). apply H1 in E1. apply H2 in E2. lia. Qed.
Lemma shr_n {A} (r : reader A) n : shr r -> shr (read_n r n).
Proof. intros H. induction n as [|n IH]; cbn [read_n]; [apply shr_ret|]. apply shr_bind; [exact H|intros a]. apply shr_bind; [exact IH|intros t; apply shr_ret]. Qed.
Ltac shrink := repeat (first [apply shr_ret | apply shr_raise | apply shr_lift | apply shr_raw | apply shr_n | (apply shr_bind; [|intros ?]) | match goal with |- shr (match ?b with _ => _ end) => destruct b end]).

Section Cheap.
Context {F : Type} (p : plat) (unpackf : Z -> F).
Lemma shr_long : shr (read_long p). Proof. unfold read_long. shrink. Qed.
Lemma shr_byte : shr (read_byte p). Proof. unfold read_byte. shrink. Qed.
Lemma shr_short n : shr (read_short p n). Proof. unfold read_short, read_items. shrink. Qed.
Lemma shr_float3 : shr (read_float3 p unpackf). Proof. unfold read_float3. shrink. Qed.
Lemma shr_matrix : shr (read_matrix4 p unpackf). Proof. unfold read_matrix4, read_row4. shrink. Qed.
Lemma shr_string : shr (read_string p). Proof. unfold read_string. apply shr_bind; [apply shr_long|intros; apply shr_raw]. Qed.
Lemma shr_head : shr (load_head p). Proof. unfold load_head. repeat (apply shr_bind; [apply shr_long|intros ?]). apply shr_ret. Qed.
Lemma shr_attrib : shr (load_vertattrib p). Proof. unfold load_vertattrib, read_short1. shrink. Qed.
Lemma shr_vertices a b c : shr (load_vertices p unpackf a b c). Proof. unfold load_vertices, read_float, read_items. shrink. Qed.
Lemma shr_bone : shr (load_bone p unpackf). Proof. unfold load_bone. apply shr_bind; [apply shr_long|intros ?]. apply shr_bind; [apply shr_matrix|intros ?]. apply shr_ret. Qed.
Lemma shr_mat v s : shr (load_mat p unpackf v s).
Proof.
  unfold load_mat. apply shr_bind; [destruct s; [apply shr_ret|apply shr_bind; [apply shr_long|intros; apply shr_ret]]|intros ?].
  do 2 (apply shr_bind; [apply shr_string|intros ?]). apply shr_bind; [apply shr_long|intros ?]. apply shr_bind; [apply shr_n, shr_string|intros ?].
  do 6 (apply shr_bind; [apply shr_long|intros ?]). apply shr_bind; [|intros ?; apply shr_ret].
  destruct (negb s && (v =? 11)); [|apply shr_ret]. do 2 (apply shr_bind; [apply shr_float3|intros ?]). apply shr_ret.
Qed.

Let M := long_limit p.
Lemma limit_pos : 0 < M. Proof. apply Z.pow_pos_nonneg; [lia|]. unfold long_bytes. destruct (long_sz p); lia. Qed.
Definition cheap {A} (c : creader A) : Prop := forall bs,
  0 <= fst (c bs) <= M * zlen bs /\
  forall a rest, snd (c bs) = Ok (a, rest) -> zlen rest <= zlen bs /\ fst (c bs) <= M * (zlen bs - zlen rest).
Lemma zlen_nonneg {A} (l : list A) : 0 <= zlen l. Proof. unfold zlen. lia. Qed.
Lemma ch_ret {A} (a : A) : cheap (cret a).
Proof. intros bs. cbn. pose proof limit_pos. pose proof (zlen_nonneg bs). split; [nia|]. intros x rest E. injection E as _ <-. split; nia. Qed.
Lemma ch_plain {A} (r : reader A) : shr r -> cheap (plain r).
Proof.
  intros H bs. cbn. pose proof limit_pos. pose proof (zlen_nonneg bs). split; [nia|]. intros x rest E. apply H in E. split; [exact E|]. nia.
Qed.
Lemma ch_bind {A B} (c : creader A) (f : A -> creader B) : cheap c -> (forall a, cheap (f a)) -> cheap (cbind c f).
Proof.
  intros H1 H2 bs. unfold cbind. destruct (H1 bs) as (X1 & X2). destruct (c bs) as (n & [(a & mid)|e]); cbn [fst snd] in *.
  - destruct (X2 a mid eq_refl) as (L1 & L2). destruct (H2 a mid) as (Y1 & Y2). destruct (f a mid) as (d & y). cbn [fst snd] in *.
    split; [nia|]. intros b rest E. destruct (Y2 b rest E) as (L3 & L4). split; [lia|nia].
  - split; [exact X1|]. discriminate.
Qed.
Lemma ch_count {B} (f : Z -> creader B) : (forall n, cheap (f n)) -> cheap (cbind (plain (read_long p)) (fun n => cbind (make n) (fun _ => f n))).
Proof.
  intros H bs. unfold cbind, plain, make. destruct (read_long p bs) as [(n & mid)|e] eqn:E; cbn [fst snd].
  - assert (zlen mid + 1 <= zlen bs /\ Z.max 0 n <= M) as (L1 & L2).
    { pose proof (rt1_long p bs n mid E) as (R & cs & W & ->). unfold is_long in R. fold (long_limit p) in R. fold M in R. pose proof limit_pos.
      split; [|lia]. unfold read_long in E. apply rbind_ok in E. destruct E as (c & m2 & E1 & E2). injection E2 as _ <-.
      apply read_raw_ok in E1. destruct E1 as (_ & E1 & E3). rewrite E1. unfold zlen. rewrite app_length, E3.
      unfold long_bytes. destruct (long_sz p); lia. }
    pose proof limit_pos as PM. destruct (H n mid) as (Y1 & Y2). destruct (f n mid) as (d & y). cbn [fst snd] in *.
    split; [nia|]. intros b rest E2. destruct (Y2 b rest E2) as (L3 & L4). split; [lia|nia].
  - pose proof limit_pos. pose proof (zlen_nonneg bs). split; [nia|]. discriminate.
Qed.
Lemma ch_n {A} (c : creader A) n : cheap c -> cheap (cread_n c n).
Proof. intros H. induction n as [|n IH]; cbn [cread_n]; [apply ch_ret|]. apply ch_bind; [exact H|intros a]. apply ch_bind; [exact IH|intros t; apply ch_ret]. Qed.
Lemma ch_each {A B} (c : A -> creader B) l : (forall a, cheap (c a)) -> cheap (cread_each c l).
Proof. intros H. induction l as [|a t IH]; cbn [cread_each]; [apply ch_ret|]. apply ch_bind; [apply H|intros b]. apply ch_bind; [exact IH|intros t'; apply ch_ret]. Qed.
Hint Resolve shr_long shr_byte shr_short shr_float3 shr_matrix shr_string shr_head shr_attrib shr_vertices shr_bone shr_mat : shr.
Ltac ch := repeat (first [apply ch_ret | (apply ch_plain; auto with shr; fail) | (apply ch_count; intros ?) | apply ch_n | (apply ch_each; intros ?) | (apply ch_bind; [|intros ?])
  | match goal with |- cheap (if ?b then _ else _) => destruct b end]).
Lemma ch_body k : cheap (cload_body p unpackf k).
Proof.
  unfold cload_body, ceach_lod, cload_geom, cload_nodes_rigs, cload_materials, cload_rig. ch.
Qed.
Theorem counted_bounded k bs : 0 <= fst (load_counted p unpackf k bs) <= long_limit p * zlen bs.
Proof. unfold load_counted. pose proof (ch_body k bs) as (H & _). destruct (cload_body p unpackf k bs). exact H. Qed.
Theorem counted_same k bs : snd (load_counted p unpackf k bs) = load p unpackf k bs.
Proof.
  unfold load_counted, load. assert (erases (cload_body p unpackf k) (load_body p unpackf k)) as E.
  { unfold cload_body, load_body, ceach_lod, each_lod, cload_geom, load_geom, cload_nodes_rigs, load_nodes_rigs, cload_materials, load_materials, cload_rig, load_rig. er. }
  rewrite <- (E bs). now destruct (cload_body p unpackf k bs).
Qed.
End Cheap.

(** ** What a successful load makes and how many bytes pay for it *)
Definition hoare {A} (c : creader A) (Q : Z -> A -> Z -> Prop) : Prop :=
  forall bs a rest, snd (c bs) = Ok (a, rest) -> Q (fst (c bs)) a (zlen bs - zlen rest).
Lemma h_weak {A} (c : creader A) (Q1 Q2 : Z -> A -> Z -> Prop) : hoare c Q1 -> (forall n a d, Q1 n a d -> Q2 n a d) -> hoare c Q2.
Proof. intros H1 H2 bs a rest E. apply H2, H1, E. Qed.
Lemma h_ret {A} (a : A) (Q : Z -> A -> Z -> Prop) : Q 0 a 0 -> hoare (cret a) Q.
Proof. intros H bs x rest E. cbn in *. injection E as <- <-. now rewrite Z.sub_diag. Qed.
Lemma h_plain {A} (r : reader A) (Q : Z -> A -> Z -> Prop) : shr r -> (forall a d, 0 <= d -> Q 0 a d) -> hoare (plain r) Q.
Proof. intros S H bs a rest E. cbn in *. apply H. apply S in E. lia. Qed.
Lemma h_bind {A B} (c : creader A) (f : A -> creader B) (Q1 : Z -> A -> Z -> Prop) (Q : Z -> B -> Z -> Prop) :
  hoare c Q1 -> (forall n a d, Q1 n a d -> hoare (f a) (fun m b e => Q (n + m) b (d + e))) -> hoare (cbind c f) Q.
Proof.
  intros H1 H2 bs b rest E. unfold cbind in *. specialize (H1 bs). destruct (c bs) as (n & [(a & mid)|e]); cbn [fst snd] in *; [|discriminate].
  specialize (H2 _ _ _ (H1 a mid eq_refl) mid). destruct (f a mid) as (m & y). cbn [fst snd] in *. specialize (H2 b rest E).
  now replace (zlen bs - zlen rest) with (zlen bs - zlen mid + (zlen mid - zlen rest)) by lia.
Qed.
Lemma h_make n (Q : Z -> unit -> Z -> Prop) : Q (Z.max 0 n) tt 0 -> hoare (make n) Q.
Proof. intros H bs x rest E. cbn in *. injection E as <- <-. now rewrite Z.sub_diag. Qed.
Lemma h_n {A} (c : creader A) (f g : A -> Z) (P : A -> Prop) k :
  hoare c (fun n a d => n = f a /\ P a /\ 4 * g a <= d) ->
  hoare (cread_n c k) (fun n l d => n = sumZ f l /\ Forall P l /\ 4 * sumZ g l <= d /\ length l = k).
Proof.
  intros H. induction k as [|k IH]; cbn [cread_n]; [apply h_ret; cbn; auto with zarith|].
  eapply h_bind; [exact H|intros n a d (Q1 & Q2 & Q3)]. eapply h_bind; [exact IH|intros m l e (R1 & R2 & R3 & R4)]. apply h_ret. cbn [sumZ length]. repeat split; auto; lia.
Qed.
Lemma h_each {A B} (c : A -> creader B) (f0 g0 : A -> Z) (P0 : A -> Prop) (f g : B -> Z) (P : B -> Prop) l :
  (forall a, P0 a -> hoare (c a) (fun n b d => n + f0 a = f b /\ P b /\ 4 * (g b - g0 a) <= d)) -> Forall P0 l ->
  hoare (cread_each c l) (fun n l' d => n + sumZ f0 l = sumZ f l' /\ Forall P l' /\ 4 * (sumZ g l' - sumZ g0 l) <= d).
Proof.
  intros H. induction l as [|a t IH]; intros HP; cbn [cread_each]; [apply h_ret; cbn; auto with zarith|]. inversion HP as [|? ? HP1 HP2]; subst.
  eapply h_bind; [apply (H a HP1)|intros n b d (Q1 & Q2 & Q3)]. eapply h_bind; [apply (IH HP2)|intros m l' e (R1 & R2 & R3)]. apply h_ret. cbn [sumZ length]. repeat split; auto; lia.
Qed.
Lemma sumZ_const {A} (l : list A) : sumZ (fun _ => 1) l = zlen l. Proof. unfold zlen. induction l as [|a t IH]; cbn [sumZ length]; lia. Qed.
Lemma sumZ_nil {A} (l : list A) : sumZ (fun _ => 0) l = 0. Proof. induction l as [|a t IH]; cbn [sumZ]; lia. Qed.
Lemma sumZ_plus {A} (f g : A -> Z) (l : list A) : sumZ (fun a => f a + g a) l = sumZ f l + sumZ g l. Proof. induction l as [|a t IH]; cbn [sumZ]; lia. Qed.

Section Exact.
Context {F : Type} (p : plat) (unpackf : Z -> F).
Lemma h_long (Q : Z -> Z -> Z -> Prop) : (forall a d, 4 <= d -> Q 0 a d) -> hoare (plain (read_long p)) Q.
Proof.
  intros H bs a rest E. cbn in *. apply H. unfold read_long in E. apply rbind_ok in E. destruct E as (c & m2 & E1 & E2). injection E2 as _ <-.
  apply read_raw_ok in E1. destruct E1 as (_ & -> & E3). unfold zlen. rewrite app_length, E3. unfold long_bytes. destruct (long_sz p); lia.
Qed.
Lemma h_attrib : hoare (plain (load_vertattrib p)) (fun n (_ : vertattrib) d => n = 0 /\ True /\ 4 * 1 <= d).
Proof.
  intros bs a rest E. cbn in *. unfold load_vertattrib, read_short1 in E.
  repeat match goal with H : rbind _ _ _ = Ok _ |- _ => apply rbind_ok in H; destruct H as (? & ? & ? & ?)
    | H : rret _ _ = Ok _ |- _ => injection H as <- <- | H : read_raw _ _ = Ok _ |- _ => apply read_raw_ok in H; destruct H as (_ & -> & ?) end.
  unfold zlen. rewrite !app_length. lia.
Qed.
Definition eats4 {A} (r : reader A) : Prop := forall bs a rest, r bs = Ok (a, rest) -> 4 <= zlen bs - zlen rest.
Lemma eats_first {A B} (r : reader A) (f : A -> reader B) : eats4 r -> (forall a, shr (f a)) -> eats4 (rbind r f).
Proof. intros H1 H2 bs b rest H. apply rbind_ok in H. destruct H as (a & mid & E1 & E2). apply H1 in E1. apply H2 in E2. lia. Qed.
Lemma eats_then {A B} (r : reader A) (f : A -> reader B) : shr r -> (forall a, eats4 (f a)) -> eats4 (rbind r f).
Proof. intros H1 H2 bs b rest H. apply rbind_ok in H. destruct H as (a & mid & E1 & E2). apply H1 in E1. apply H2 in E2. lia. Qed.
Lemma eats_long : eats4 (read_long p).
Proof. intros bs a rest E. exact (h_long (fun _ _ d => 4 <= d) ltac:(auto) bs a rest E). Qed.
Lemma h_eats {A} (r : reader A) : eats4 r -> hoare (plain r) (fun n _ d => n = 0 /\ True /\ 4 * 1 <= d).
Proof. intros H bs a rest E. cbn [plain snd fst] in *. apply H in E. repeat split; auto; lia. Qed.
Lemma h_bone : hoare (plain (load_bone p unpackf)) (fun n (_ : bone F) d => n = 0 /\ True /\ 4 * 1 <= d).
Proof. apply h_eats. unfold load_bone. apply eats_first; [apply eats_long|intros ?]. apply shr_bind; [apply shr_matrix|intros ?; apply shr_ret]. Qed.
Lemma h_mat v s : hoare (plain (load_mat p unpackf v s)) (fun n (_ : mat F) d => n = 0 /\ True /\ 4 * 1 <= d).
Proof.
  apply h_eats. unfold load_mat.
  apply eats_then; [destruct s; [apply shr_ret|apply shr_bind; [apply shr_long|intros; apply shr_ret]]|intros ?].
  apply eats_first; [apply eats_first; [apply eats_long|intros; apply shr_raw]|intros ?].
  apply shr_bind; [apply shr_string|intros ?]. apply shr_bind; [apply shr_long|intros ?]. apply shr_bind; [apply shr_n, shr_string|intros ?].
  do 6 (apply shr_bind; [apply shr_long|intros ?]). apply shr_bind; [|intros ?; apply shr_ret].
  destruct (negb s && (v =? 11)); [|apply shr_ret]. do 2 (apply shr_bind; [apply shr_float3|intros ?]). apply shr_ret.
Qed.
Lemma h_count {A} (c : creader A) (f g : A -> Z) (P : A -> Prop) :
  hoare c (fun n a d => n = f a /\ P a /\ 4 * g a <= d) -> forall (B : Type) (w : Z -> list A -> B) (Q : Z -> B -> Z -> Prop),
  (forall k n l d, n = zlen l + sumZ f l -> Forall P l -> 4 + 4 * sumZ g l <= d -> Q n (w k l) d) ->
  hoare (cbind (plain (read_long p)) (fun k => cbind (make k) (fun _ => cbind (cread_n c (Z.to_nat k)) (fun l => cret (w k l))))) Q.
Proof.
  intros H B w Q HQ. eapply h_bind; [apply (h_long (fun n _ d => n = 0 /\ 4 <= d)); auto|intros n0 k d0 (-> & Hd)].
  eapply h_bind; [apply (h_make k (fun n _ d => n = Z.max 0 k /\ d = 0)); auto|intros n1 u d1 (-> & ->)].
  eapply h_bind; [apply h_n, H|intros n2 l d2 (-> & HF & Hg & Hl)]. apply h_ret. apply HQ; [|exact HF|lia]. unfold zlen. lia.
Qed.
Lemma h_rig : hoare (cload_rig p unpackf) (fun n (r : rig F) d => n = zlen (bones r) /\ True /\ 4 * rig_objects r <= d).
Proof.
  apply (h_count _ (fun _ => 0) (fun _ => 1) (fun _ => True) h_bone). intros k n l d -> _ H.
  unfold rig_objects. cbn [bones]. rewrite sumZ_nil, sumZ_const in *. repeat split; lia.
Qed.
Lemma h_geom : hoare (cload_geom p) (fun n (g : geom F) d => n = zlen (lods g) /\ Forall (fun l => rigs l = []) (lods g) /\ 4 * 1 <= d).
Proof.
  unfold cload_geom. eapply h_bind; [apply (h_long (fun n _ d => n = 0 /\ 4 <= d)); auto|intros n0 k d0 (-> & Hd)].
  eapply h_bind; [apply (h_make k (fun n _ d => n = Z.max 0 k /\ d = 0)); auto|intros n1 u d1 (-> & ->)].
  apply h_ret. cbn [lods]. unfold zlen. rewrite repeat_length. repeat split; [lia| |lia]. apply Forall_forall. intros l H. apply repeat_spec in H. now subst.
Qed.
Lemma h_nodes v b s (l : lod F) : rigs l = [] ->
  hoare (cload_nodes_rigs p unpackf v b s l) (fun n l' d => n + 1 = 1 + sumZ rig_objects (rigs l') /\ True /\ 4 * (1 + sumZ rig_objects (rigs l') - 0) <= d).
Proof.
  intros HR. unfold cload_nodes_rigs.
  eapply h_bind; [apply (h_plain _ (fun n _ d => n = 0 /\ 0 <= d)); [apply shr_float3|auto]|intros n0 x0 d0 (-> & H0)].
  eapply h_bind; [apply (h_plain _ (fun n _ d => n = 0 /\ 0 <= d)); [apply shr_float3|auto]|intros n1 x1 d1 (-> & H1)].
  eapply (h_bind _ _ (fun n _ d => n = 0 /\ 0 <= d)); [|intros n2 x2 d2 (-> & H2)].
  { destruct (v <=? 6); [|apply h_ret; split; lia]. eapply h_bind; [apply (h_plain _ (fun n _ d => n = 0 /\ 0 <= d)); [apply shr_float3|auto]|intros n3 x3 d3 (-> & H3)]. apply h_ret. split; lia. }
  destruct s.
  - apply (h_count _ (fun r => zlen (bones r)) rig_objects (fun _ => True) h_rig). intros k n rs d -> _ H. cbn [rigs].
    assert (sumZ rig_objects rs = zlen rs + sumZ (fun r => zlen (bones r)) rs) by (unfold rig_objects; rewrite sumZ_plus, sumZ_const; reflexivity).
    repeat split; lia.
  - eapply h_bind; [apply (h_long (fun n _ d => n = 0 /\ 4 <= d)); auto|intros n3 k d3 (-> & H3)].
    eapply (h_bind _ _ (fun n _ d => n = 0 /\ 0 <= d)); [|intros n4 x4 d4 (-> & H4)].
    { destruct b; [apply h_ret; split; lia|]. eapply h_weak; [apply (h_n _ (fun _ => 0) (fun _ => 0) (fun _ => True))|].
      - apply h_plain; [apply shr_matrix|]. repeat split; lia.
      - cbn beta. intros n a d (-> & _ & H & _). rewrite !sumZ_nil in *. split; lia. }
    apply h_ret. cbn [rigs]. rewrite HR. cbn [sumZ]. repeat split; lia.
Qed.
Lemma h_mats v s (l : lod F) : True ->
  hoare (cload_materials p unpackf v s l) (fun n l' d => n + (1 + sumZ rig_objects (rigs l)) = lod_objects l' /\ True /\ 4 * (lod_objects l' - (1 + sumZ rig_objects (rigs l))) <= d).
Proof.
  intros _. apply (h_count _ (fun _ => 0) (fun _ => 1) (fun _ => True) (h_mat v s)). intros k n ms d -> _ H. unfold lod_objects. cbn [rigs materials].
  rewrite sumZ_nil, sumZ_const in *. repeat split; lia.
Qed.
Lemma h_lods (c : lod F -> creader (lod F)) (f0 g0 f g : lod F -> Z) (P0 P : lod F -> Prop) gs :
  (forall a, P0 a -> hoare (c a) (fun n b d => n + f0 a = f b /\ P b /\ 4 * (g b - g0 a) <= d)) -> Forall (fun x => Forall P0 (lods x)) gs ->
  hoare (ceach_lod c gs) (fun n gs' d => n + sumZ (fun x => 1 + sumZ f0 (lods x)) gs = sumZ (fun x => 1 + sumZ f (lods x)) gs' /\
    Forall (fun x => Forall P (lods x)) gs' /\ 4 * (sumZ (fun x => 1 + sumZ g (lods x)) gs' - sumZ (fun x => 1 + sumZ g0 (lods x)) gs) <= d).
Proof.
  intros H HG. unfold ceach_lod. apply (h_each _ (fun x => 1 + sumZ f0 (lods x)) (fun x => 1 + sumZ g0 (lods x)) (fun x => Forall P0 (lods x))
    (fun x => 1 + sumZ f (lods x)) (fun x => 1 + sumZ g (lods x)) (fun x => Forall P (lods x))); [|exact HG].
  intros x HP. eapply h_bind; [apply (h_each _ f0 g0 P0 f g P _ H HP)|intros n l d (Q1 & Q2 & Q3)]. apply h_ret. cbn [lods]. repeat split; [lia|exact Q2|lia].
Qed.
Theorem h_body k : hoare (cload_body p unpackf k) (fun n (m : mesh F) d => n = mesh_objects m /\ 4 * mesh_objects m <= d).
Proof.
  unfold cload_body.
  eapply h_bind; [apply (h_plain _ (fun n _ d => n = 0 /\ 0 <= d)); [apply shr_head|auto]|intros ? hd d0 (-> & H0)].
  eapply h_bind; [apply (h_plain _ (fun n _ d => n = 0 /\ 0 <= d)); [apply shr_byte|auto]|intros ? u1 d1 (-> & H1)].
  eapply h_bind; [apply (h_long (fun n _ d => n = 0 /\ 4 <= d)); auto|intros ? gn d2 (-> & H2)].
  eapply h_bind; [apply (h_make gn (fun n _ d => n = Z.max 0 gn /\ d = 0)); auto|intros ? u d3 (-> & ->)].
  eapply h_bind; [apply (h_n _ (fun g => zlen (lods g)) (fun _ => 1) (fun g => Forall (fun l => rigs l = []) (lods g))), h_geom|intros ? gs0 d4 (-> & HR & H4 & L4)].
  eapply h_bind; [apply (h_long (fun n _ d => n = 0 /\ 4 <= d)); auto|intros ? van d5 (-> & H5)].
  eapply h_bind; [apply (h_make van (fun n _ d => n = Z.max 0 van /\ d = 0)); auto|intros ? u' d6 (-> & ->)].
  eapply h_bind; [apply (h_n _ (fun _ => 0) (fun _ => 1) (fun _ => True)), h_attrib|intros ? vas d7 (-> & _ & H7 & L7)].
  do 3 (eapply h_bind; [apply (h_long (fun n _ d => n = 0 /\ 4 <= d)); auto|intros ? ? ? (-> & ?)]).
  eapply h_bind; [apply (h_plain _ (fun n _ d => n = 0 /\ 0 <= d)); [apply shr_vertices|auto]|intros ? vs dv (-> & Hv)].
  eapply h_bind; [apply (h_long (fun n _ d => n = 0 /\ 4 <= d)); auto|intros ? inn ? (-> & ?)].
  eapply h_bind; [apply (h_plain _ (fun n _ d => n = 0 /\ 0 <= d)); [apply shr_short|auto]|intros ? idx di (-> & Hi)].
  eapply (h_bind _ _ (fun n _ d => n = 0 /\ 0 <= d)); [|intros ? u2 du (-> & Hu)].
  { destruct (isSkinnedMesh k); [apply h_ret; split; lia|]. apply h_long. intros; split; lia. }
  eapply h_bind; [apply (h_lods _ (fun _ => 1) (fun _ => 0) (fun l => 1 + sumZ rig_objects (rigs l)) (fun l => 1 + sumZ rig_objects (rigs l)) (fun l => rigs l = []) (fun _ => True)); [intros x Hx; apply h_nodes, Hx|exact HR]|intros n1 gs1 dn (E1 & P1 & D1)].
  eapply h_bind; [apply (h_lods _ (fun l => 1 + sumZ rig_objects (rigs l)) (fun l => 1 + sumZ rig_objects (rigs l)) lod_objects lod_objects (fun _ => True) (fun _ => True)); [intros x Hx; apply h_mats, Hx|exact P1]|intros n2 gs2 dm (E2 & P2 & D2)].
  apply h_ret. unfold mesh_objects. cbn [vertex_attributes geoms].
  change (sumZ geom_objects gs2) with (sumZ (fun x => 1 + sumZ lod_objects (lods x)) gs2).
  rewrite !sumZ_nil, !sumZ_const in *.
  assert (sumZ (fun x : geom F => 1 + sumZ (fun _ => 1) (lods x)) gs0 = zlen gs0 + sumZ (fun g => zlen (lods g)) gs0) as X1.
  { rewrite sumZ_plus, sumZ_const. f_equal. clear. induction gs0 as [|g t IH]; cbn [sumZ]; [reflexivity|]. now rewrite sumZ_const, IH. }
  assert (sumZ (fun x : geom F => 1 + sumZ (fun _ => 0) (lods x)) gs0 = zlen gs0) as X2.
  { rewrite sumZ_plus, sumZ_const. clear. assert (sumZ (fun a : geom F => sumZ (fun _ => 0) (lods a)) gs0 = 0); [|lia]. induction gs0 as [|g t IH]; cbn [sumZ]; [reflexivity|]. now rewrite sumZ_nil, IH. }
  unfold zlen in *. split; lia.
Qed.
Theorem counted_success k bs m : snd (load_counted p unpackf k bs) = Ok m ->
  fst (load_counted p unpackf k bs) = mesh_objects m /\ 4 * mesh_objects m <= zlen bs.
Proof.
  unfold load_counted. pose proof (h_body k bs) as H. destruct (cload_body p unpackf k bs) as (n & [(m' & [|b rest])|e]); cbn [fst snd bind] in *; intros E; try discriminate.
  injection E as ->. destruct (H m [] eq_refl) as (H1 & H2). split; [exact H1|]. change (@zlen byte []) with 0 in H2. lia.
Qed.
End Exact.

(** ** A small file that makes many objects *)
Section Bomb.
Context {F : Type} (p : plat) (unpackf : Z -> F).
Lemma long_file z : is_long p z -> exists cs, length cs = long_bytes p /\ forall rest, read_long p (cs ++ rest) = Ok (z, rest).
Proof.
  intros H. destruct (rt2_long p z H) as (cs & W & R). exists cs. split; [|exact R].
  specialize (R []). unfold read_long in R. apply rbind_ok in R. destruct R as (c & m2 & E1 & E2). injection E2 as _ ->.
  apply read_raw_ok in E1. destruct E1 as (_ & E & E3). rewrite Nat2Z.id in E3. rewrite !app_nil_r in E. now subst.
Qed.
Lemma cb_plain {A B} (r : reader A) (f : A -> creader B) bs a mid : r bs = Ok (a, mid) -> cbind (plain r) f bs = f a mid.
Proof. intros H. unfold cbind, plain. rewrite H. now destruct (f a mid). Qed.
Lemma cb_some {A B} (c : creader A) (f : A -> creader B) bs n a mid : c bs = (n, Ok (a, mid)) -> cbind c f bs = (n + fst (f a mid), snd (f a mid)).
Proof. intros H. unfold cbind. rewrite H. now destruct (f a mid). Qed.
Lemma cb_fail {A B} (r : reader A) (f : A -> creader B) bs e : r bs = Raise e -> cbind (plain r) f bs = (0, Raise e).
Proof. intros H. unfold cbind, plain. now rewrite H. Qed.
Lemma bomb_geoms cs z : (forall rest, read_long p (cs ++ rest) = Ok (z, rest)) -> 0 <= z -> forall k rest,
  exists gs : list (geom F), cread_n (cload_geom p) k (concat (repeat cs k) ++ rest) = (Z.of_nat k * z, Ok (gs, rest)).
Proof.
  intros R Hz k rest. induction k as [|k (gs & IH)]; [now exists []|]. cbn [cread_n repeat concat]. rewrite <- app_assoc.
  erewrite cb_some.
  2:{ unfold cload_geom. erewrite cb_plain by apply R. unfold cbind, make, cret. rewrite Z.max_r by exact Hz. reflexivity. }
  erewrite cb_some by exact IH. cbn [fst snd cret]. eexists. f_equal. lia.
Qed.
Theorem counted_bomb (kd : kind) (k : nat) : Z.of_nat k < long_limit p -> exists bs,
  zlen bs = (6 + Z.of_nat k) * Z.of_nat (long_bytes p) + 1 /\ load_counted p unpackf kd bs = (Z.of_nat k * long_limit p, Raise EStruct).
Proof.
  intros Hk. assert (0 < long_limit p) as HL by (apply limit_pos).
  destruct (long_file 0) as (c0 & L0 & R0); [unfold is_long; fold (long_limit p); lia|].
  destruct (long_file (Z.of_nat k)) as (c1 & L1 & R1); [unfold is_long; fold (long_limit p); lia|].
  destruct (long_file (long_limit p - 1)) as (c2 & L2 & R2); [unfold is_long; fold (long_limit p); lia|].
  destruct (rt2_byte p 0) as (cb & _ & RB); [lia|].
  assert (length cb = 1%nat) as LB.
  { specialize (RB []). unfold read_byte in RB. apply rbind_ok in RB. destruct RB as (c & m2 & E1 & E2). injection E2 as _ ->.
    apply read_raw_ok in E1. destruct E1 as (_ & E & E3). rewrite !app_nil_r in E. now subst. }
  exists (c0 ++ c0 ++ c0 ++ c0 ++ c0 ++ cb ++ c1 ++ concat (repeat c2 k) ++ []). split.
  - unfold zlen. rewrite !app_length, L0, L1, LB. cbn [length].
    assert (length (concat (repeat c2 k)) = (k * long_bytes p)%nat) as ->; [|nia].
    clear -L2. induction k as [|k IH]; [reflexivity|]. cbn [repeat concat]. rewrite app_length, IH, L2. lia.
  - unfold load_counted, cload_body.
    erewrite cb_plain. 2:{ unfold load_head. do 5 (erewrite rbind_run by apply R0). reflexivity. }
    erewrite cb_plain by apply RB. erewrite cb_plain by apply R1.
    destruct (bomb_geoms c2 (long_limit p - 1) R2 ltac:(lia) k []) as (gs & G).
    erewrite cb_some by reflexivity. erewrite cb_some by (rewrite Nat2Z.id; exact G).
    assert (read_long p [] = Raise EStruct) as N by (unfold read_long, read_raw, long_bytes; destruct (long_sz p); reflexivity).
    rewrite (cb_fail _ _ _ _ N). cbn [fst snd bind]. f_equal. lia.
Qed.
Theorem counted_attribs (kd : kind) n : 0 < n < long_limit p -> exists bs,
  zlen bs = 7 * Z.of_nat (long_bytes p) + 1 /\ load_counted p unpackf kd bs = (n, Raise EStruct).
Proof.
  intros Hn.
  destruct (long_file 0) as (c0 & L0 & R0); [unfold is_long; fold (long_limit p); lia|].
  destruct (long_file n) as (c1 & L1 & R1); [unfold is_long; fold (long_limit p); lia|].
  destruct (rt2_byte p 0) as (cb & _ & RB); [lia|].
  assert (length cb = 1%nat) as LB.
  { specialize (RB []). unfold read_byte in RB. apply rbind_ok in RB. destruct RB as (c & m2 & E1 & E2). injection E2 as _ ->.
    apply read_raw_ok in E1. destruct E1 as (_ & E & E3). rewrite !app_nil_r in E. now subst. }
  exists (c0 ++ c0 ++ c0 ++ c0 ++ c0 ++ cb ++ c0 ++ c1 ++ []). split.
  - unfold zlen. rewrite !app_length, L0, L1, LB. cbn [length]. lia.
  - unfold load_counted, cload_body.
    erewrite cb_plain. 2:{ unfold load_head. do 5 (erewrite rbind_run by apply R0). reflexivity. }
    erewrite cb_plain by apply RB. erewrite cb_plain by apply R0.
    erewrite cb_some by reflexivity. erewrite cb_some by reflexivity.
    erewrite cb_plain by apply R1. erewrite cb_some by reflexivity.
    destruct (Z.to_nat n) as [|j] eqn:J; [lia|]. cbn [cread_n].
    assert (load_vertattrib p [] = Raise EStruct) as N by reflexivity.
    unfold cbind at 1 2 3. unfold plain at 1 2 3. rewrite N. cbn [fst snd bind]. f_equal. lia.
Qed.
End Bomb.
