(** Specification vocabulary for deprecated/bf2.py. *)
From Coq Require Import ZArith Bool Ascii String List.
From Verif Require Import PyBase Struct Obj Bf2.
Import ListNotations.

Notation chars := list_ascii_of_string.
Definition nl : ascii := "010"%char.
Definition cr : ascii := "013"%char.
Definition sp : ascii := " "%char.

Definition word_chars : list ascii := chars "0123456789ABCDEFGHIJKLMNOPQRSTUVWXYZ_abcdefghijklmnopqrstuvwxyz".
Definition digit_chars : list ascii := chars "0123456789".
(** [w] is a non-empty prefix of [w ++ rest] of characters of [cs], and the longest one. *)
Definition longest (cs w rest : list ascii) : Prop :=
  w <> [] /\ Forall (fun c => In c cs) w /\ match rest with c :: _ => ~ In c cs | [] => True end.

(** The file contents [bs] have the lines [ls] (each with a newline at the end, except
    possibly the last); lines end in LF, CR LF or CR. *)
Definition plain (l : list ascii) : Prop := ~ In nl l /\ ~ In cr l.
Inductive text_lines : list ascii -> list (list ascii) -> Prop :=
| lines_end : text_lines [] []
| lines_last l : l <> [] -> plain l -> text_lines l [l]
| lines_cons l e bs ls : plain l -> (e = [nl] \/ e = [cr; nl] \/ e = [cr] /\ (forall t, bs <> nl :: t)) ->
    text_lines bs ls -> text_lines (l ++ e ++ bs) ((l ++ [nl]) :: ls).

(** [s] starts with the declaration of an object [name] of a type [ty] that is known to
    the parser; [d] is the text of the declaration. *)
Definition known_types : list (list ascii) :=
  map chars ["PlayerControlObject"; "Wing"; "Wheel"; "Spring"; "RotationalBundle"; "EngineSimpleObject"]%string.
Definition decl_text (sep : ascii) (ty name : list ascii) : list ascii :=
  chars "ObjectTemplate" ++ sep :: chars "create " ++ ty ++ sp :: name.
Definition declares (s : list ascii) (sep : ascii) (ty name : list ascii) : Prop :=
  exists rest, s = decl_text sep ty name ++ rest /\ sep <> nl /\ In ty known_types /\ longest word_chars name rest.
(** [s] is [P] for the first suffix of [l] that satisfies it. *)
Definition first_suffix (P : list ascii -> Prop) (l s : list ascii) : Prop :=
  exists pre, l = pre ++ s /\ P s /\ forall pre' s', l = pre' ++ s' -> (List.length pre' < List.length pre)%nat -> ~ P s'.
Definition some_suffix (P : list ascii -> Prop) (l : list ascii) : Prop := exists pre s, l = pre ++ s /\ P s.
Definition is_decl (s : list ascii) : Prop := exists sep ty name, declares s sep ty name.
(** What the parser takes for the type and the name. *)
Definition reads_as (sep : ascii) (ty name a b : list ascii) : Prop :=
  (sep <> sp -> a = ty /\ b = name) /\ (sep = sp -> a = chars "create" /\ b = ty).
(** The first declaration in the lines [ls] reads as [a], [b]. *)
Definition root_is (ls : list (list ascii)) (a b : list ascii) : Prop :=
  exists before l after s sep ty name, ls = before ++ l :: after /\ Forall (fun x => ~ some_suffix is_decl x) before /\
    first_suffix is_decl l s /\ declares s sep ty name /\ reads_as sep ty name a b.

(** The texts of the declarations of some lines. *)
Definition line_decl (l : list ascii) (r : list (list ascii)) : Prop :=
  (exists s sep ty name, first_suffix is_decl l s /\ declares s sep ty name /\ r = [decl_text sep ty name]) \/
  (~ some_suffix is_decl l /\ r = []).
Definition decls (ls : list (list ascii)) (r : list (list ascii)) : Prop :=
  exists rs, Forall2 line_decl ls rs /\ r = concat rs.
(** [s] starts with the inclusion of [w]; [w] is as long as possible. *)
Definition include_at (s w : list ascii) (sep : ascii) : Prop :=
  let fits w sep := exists rest, s = chars "include " ++ w ++ sep :: chars "tweak" ++ rest /\ w <> [] /\ Forall (fun c => In c word_chars) w /\ sep <> nl in
  fits w sep /\ forall w' sep', fits w' sep' -> (List.length w' <= List.length w)%nat.
Definition is_include (s : list ascii) : Prop := exists w sep, include_at s w sep.
Definition included_name (w : list ascii) (sep : ascii) (n : list ascii) : Prop :=
  (sep <> sp -> n = w ++ sep :: chars "tweak") /\ (sep = sp -> n = w).

(** [p] is the name of [n] in the folder [d]. *)
Definition in_folder (d n p : list ascii) : Prop :=
  (d = [] /\ p = n) \/ (exists e, d = e ++ ["/"%char] /\ p = d ++ n) \/
  (d <> [] /\ (forall e, d <> e ++ ["/"%char]) /\ p = d ++ "/"%char :: n).
(** What a line contributes to the list of children: its own declaration, then those of
    the file that it includes. *)
Definition line_children (f : fs) (folder l : list ascii) (r : list (list ascii)) : Prop :=
  exists own inc, line_decl l own /\ r = own ++ inc /\
    ((exists s w sep n p bs ls, first_suffix is_include l s /\ include_at s w sep /\ included_name w sep n /\ in_folder folder n p /\
        open_rb f p = Ok bs /\ text_lines bs ls /\ decls ls inc) \/
     (~ some_suffix is_include l /\ inc = [])).

(** The components of a name. *)
Inductive comps : list ascii -> list (list ascii) -> Prop :=
| comps_one x : ~ In "/"%char x -> comps x [x]
| comps_more x r l : ~ In "/"%char x -> comps r l -> comps (x ++ "/"%char :: r) (x :: l).

Local Open Scope Z_scope.
(** Value of a digit and of a sequence of digits. *)
Definition digit_value (c : ascii) : Z := Z.of_nat (nat_of_ascii c) - 48.
Fixpoint decimal (s : list ascii) : Z :=
  match s with [] => 0 | c :: t => digit_value c * 10 ^ Z.of_nat (List.length t) + decimal t end.
(** [s] starts with a decimal number [n]; [n] is as long as possible. *)
Definition number_at (s n : list ascii) : Prop :=
  exists rest, s = n ++ rest /\
    ((exists a b, n = a ++ "."%char :: b /\ Forall (fun c => In c digit_chars) a /\ a <> [] /\ longest digit_chars b rest) \/
     (longest digit_chars n rest /\ forall c t, rest = "."%char :: c :: t -> ~ In c digit_chars)).
(** [s] starts with a cell of the attacker's material [a] and the target's [b], with
    damage modifier [n]. *)
Definition cell_at (s : list ascii) (a b : Z) (n : list ascii) : Prop :=
  exists c x y d rest, s = chars "MaterialManager" ++ c :: chars "createCell " ++ x ++ sp :: y ++ nl :: chars "MaterialManager" ++ d :: chars "damageMod " ++ rest /\
    c <> nl /\ d <> nl /\ x <> [] /\ y <> [] /\ Forall (fun c => In c digit_chars) x /\ Forall (fun c => In c digit_chars) y /\
    decimal x = a /\ decimal y = b /\ number_at rest n.

(** The file with the components [p] in a directory tree has the contents [s]. *)
Inductive file_at : tree -> list (list ascii) -> list ascii -> Prop :=
| at_here es n s : In (n, TFile s) es -> file_at (TDir es) [n] s
| at_below es n t p s : In (n, t) es -> file_at t p s -> file_at (TDir es) (n :: p) s.
(** Entries have names: not empty and without slash. *)
Inductive named : tree -> Prop :=
| named_file s : named (TFile s)
| named_dir es : Forall (fun e => fst e <> [] /\ ~ In "/"%char (fst e) /\ named (snd e)) es -> named (TDir es).
Definition full_name (root : list ascii) (p : list (list ascii)) : list ascii :=
  root ++ chars "/objects" ++ flat_map (fun n => "/"%char :: n) p.
Definition con_file (n : list ascii) : Prop :=
  exists e, In e [chars "con"; chars "tweak"] /\ (n = e \/ exists stem, n = stem ++ "."%char :: e).
(** A file whose first declaration is taken for the object [name]. *)
Definition names_object (name s : list ascii) : Prop := exists ls a, text_lines s ls /\ root_is ls a name.
(** The file [p] is met before the file [q]: the files of a directory come before those
    of its subdirectories; otherwise the order of the entries decides. *)
Inductive earlier : tree -> list (list ascii) -> list (list ascii) -> Prop :=
| earlier_files a n s b m u c : earlier (TDir (a ++ (n, TFile s) :: b ++ (m, TFile u) :: c)) [n] [m]
| earlier_file es n s m t q u : In (n, TFile s) es -> In (m, t) es -> file_at t q u -> earlier (TDir es) [n] (m :: q)
| earlier_dirs a n t b m u c p s q v : file_at t p s -> file_at u q v -> earlier (TDir (a ++ (n, t) :: b ++ (m, u) :: c)) (n :: p) (m :: q)
| earlier_in es n t p q : In (n, t) es -> earlier t p q -> earlier (TDir es) (n :: p) (n :: q).
(** The dictionary of cells: keys occur once; [entry c a t v]: the attacker [a] has the
    modifier [v] against the target [t]. *)
Definition distinct_keys {F} (c : list (Z * list (Z * F))) : Prop := NoDup (map fst c) /\ Forall (fun e => NoDup (map fst (snd e))) c.
Definition entry {F} (c : list (Z * list (Z * F))) (a t : Z) (v : F) : Prop := exists d, In (a, d) c /\ In (t, v) d.
