(** deprecated/bf2.py: TemplateParser.get_wings and class Jet. The simplifications of
    Bf2.v apply; what is printed is a list of texts, one per call of print. *)
From Coq Require Import ZArith Bool Ascii String List.
From Verif Require Import PyBase Struct Mesh Arith Edit Obj Bf2.
Import ListNotations.
Open Scope Z_scope.

(** [x?] and [x*] of a single character, greedy. *)
Definition opt (p : ascii -> bool) : re := Alt (Char p) Eps.
Definition star (p : ascii -> bool) : re := Alt (Plus p) Eps.
Definition signc (c : ascii) : bool := Ascii.eqb "-" c || Ascii.eqb "+" c.       (* [-+] *)
(** [-+]?\d*\.\d+|\d+ *)
Definition lift : re :=
  Alt (Seq (opt signc) (Seq (star digitc) (Seq (Char (Ascii.eqb ".")) (Plus digitc)))) (Plus digitc).
(** pattern3, line 87. No group is read, so none is kept. *)
Definition wing_pattern : re :=
  Alt (Alt (Seq (lit "ObjectTemplate") (Seq (Char anyc) (Seq (Alt (lit "create") (lit "activeSafe")) (Seq (lit " Wing ") (Plus wordc)))))
           (Seq (lit "ObjectTemplate") (Seq (Char anyc) (Seq (lit "setWingLift ") lift))))
      (Seq (lit "ObjectTemplate") (Seq (Char anyc) (Seq (lit "setFlapLift ") lift))).

(** What the loop over the lines of an included file prints, lines 102-105. *)
Definition print_wings (ls : list text) : list text :=
  flat_map (fun l => match re_search wing_pattern l with Some (m, _) => [m] | None => [] end) ls.
(** get_wings, lines 83-105: what is printed, and the exception that ends the call. The
    list [wings] and pattern1 are not used; the result is always None. *)
Fixpoint wings_of_lines (f : fs) (folder : bytes) (ls : list text) : list text * option exn :=
  match ls with
  | [] => ([], None)
  | l :: t =>
      match re_search pattern2 l with
      | Some (m, _) =>
          match bind (py_get (split space m) 1) (fun name => open_text f (path_join folder name)) with
          | Ok s => let '(out, e) := wings_of_lines f folder t in (print_wings (lines s) ++ out, e)
          | Raise e => ([], Some e)
          end
      | None => wings_of_lines f folder t
      end
  end.
Definition get_wings (f : fs) (path : bytes) : list text * option exn :=
  match open_text f path with
  | Ok s => wings_of_lines f (fst (path_split path)) (lines s)
  | Raise e => ([], Some e)
  end.

(** class Jet, lines 164-174. *)
Record jet := MkJet { jet_name : option text; jet_type : option text; jet_wings : option (list text) }.
Definition new_jet : jet := MkJet None None (Some []).
(** Jet.loadFromCon, lines 171-174: the object after the call, what is printed, and the
    exception. Unpacking None is a TypeError; the targets of line 173 are assigned
    before get_wings runs. *)
Definition jet_load (f : fs) (path : bytes) (j : jet) : jet * list text * option exn :=
  match get_root f path with
  | Raise e => (j, [], Some e)
  | Ok None => (j, [], Some EType)
  | Ok (Some (ty, name)) =>
      let j1 := MkJet (Some name) (Some ty) (jet_wings j) in
      match get_wings f path with
      | (out, Some e) => (j1, out, Some e)
      | (out, None) => (MkJet (Some name) (Some ty) None, out, None)
      end
  end.
