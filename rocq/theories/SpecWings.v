(** Specification vocabulary for TemplateParser.get_wings. *)
From Coq Require Import ZArith Bool Ascii String List.
From Verif Require Import PyBase Struct Obj Bf2 SpecBf2.
Import ListNotations.

(** [s] starts with a number [n] that the parser reads: a decimal fraction with or
    without sign and integer part, or digits without sign. *)
Definition lift_at (s n : list ascii) : Prop :=
  exists rest, s = n ++ rest /\
    ((exists sg a b, n = sg ++ a ++ "."%char :: b /\ In sg [[]; chars "-"; chars "+"] /\ Forall (fun c => In c digit_chars) a /\ longest digit_chars b rest) \/
     (longest digit_chars n rest /\ forall c t, rest = "."%char :: c :: t -> ~ In c digit_chars)).
(** [s] starts with the statement [m] about wings. *)
Definition wing_at (s m : list ascii) : Prop :=
  exists sep rest, s = m ++ rest /\ sep <> nl /\
    ((exists verb name, In verb [chars "create"; chars "activeSafe"] /\ m = chars "ObjectTemplate" ++ sep :: verb ++ chars " Wing " ++ name /\ longest word_chars name rest) \/
     (exists what n, In what [chars "setWingLift "; chars "setFlapLift "] /\ m = chars "ObjectTemplate" ++ sep :: what ++ n /\ lift_at (n ++ rest) n)).
Definition is_wing (s : list ascii) : Prop := exists m, wing_at s m.
(** The first statement about wings of a line; those of some lines. *)
Definition line_wing (l : list ascii) (r : list (list ascii)) : Prop :=
  (exists s m, first_suffix is_wing l s /\ wing_at s m /\ r = [m]) \/ (~ some_suffix is_wing l /\ r = []).
Definition wing_lines (ls r : list (list ascii)) : Prop := exists rs, Forall2 line_wing ls rs /\ r = concat rs.

(** The line [l] of a file in [folder] includes the file [p]. *)
Definition includes (folder l p : list ascii) : Prop :=
  exists s w sep n, first_suffix is_include l s /\ include_at s w sep /\ included_name w sep n /\ in_folder folder n p.
(** What is printed for a line that includes no file or one that can be read. *)
Definition line_prints (f : fs) (folder l : list ascii) (r : list (list ascii)) : Prop :=
  (exists p bs ls, includes folder l p /\ open_rb f p = Ok bs /\ text_lines bs ls /\ wing_lines ls r) \/
  (~ some_suffix is_include l /\ r = []).
