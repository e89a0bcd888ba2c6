(** deprecated/bf2.py: mod root, .con/.tweak parsing, material cells.

    Simplifications: files and names are ASCII (so [\w], [\d] are the ASCII classes)
    and decode without errors; os.getcwd() is given; a directory tree lists entries
    in the order os.walk yields them and does not change during a call; [float(s)]
    of a decimal literal is a parameter. TemplateParser.get_wings and class Jet are in
    Bf2Wings.v. *)
From Coq Require Import ZArith Bool Ascii String List.
From Verif Require Import PyBase Struct Mesh Arith Edit Obj.
Import ListNotations.
Open Scope Z_scope.
Open Scope res_scope.

Definition text := list ascii.

(** ** The part of Python's [re] that the patterns use *)

Definition code (c : ascii) : Z := Z.of_N (N_of_ascii c).
Definition newline : ascii := "010"%char.
Definition creturn : ascii := "013"%char.
Definition space : ascii := " "%char.
Definition digitc (c : ascii) : bool := (48 <=? code c) && (code c <=? 57).              (* \d *)
Definition wordc (c : ascii) : bool :=                                                     (* \w *)
  digitc c || (65 <=? code c) && (code c <=? 90) || (97 <=? code c) && (code c <=? 122) || (code c =? 95).
Definition anyc (c : ascii) : bool := negb (Ascii.eqb c newline).                          (* . *)

(** [Plus p] is a greedy [x+] of single characters; [Group n r] captures. *)
Inductive re :=
| Eps
| Char (p : ascii -> bool)
| Seq (a b : re)
| Alt (a b : re)
| Plus (p : ascii -> bool)
| Group (n : nat) (a : re).
Definition lit (s : string) : re := fold_right (fun c r => Seq (Char (Ascii.eqb c)) r) Eps (of_string s).
Definition alts (l : list string) : re :=
  match l with [] => Eps | s :: t => fold_left (fun r s => Alt r (lit s)) t (lit s) end.

Definition groups := list (nat * text).
(** What was consumed between [s] and its suffix [s']. *)
Definition taken (s s' : text) : text := firstn (List.length s - List.length s') s.

Section Match.
Context {X : Type}.
Fixpoint plus (p : ascii -> bool) (s : text) (k : text -> option X) : option X :=
  match s with
  | c :: t => if p c then match plus p t k with Some x => Some x | None => k t end else None
  | [] => None
  end.
(** Backtracking: first alternative first, longest repetition first. *)
Fixpoint rmatch (r : re) (s : text) (g : groups) (k : text -> groups -> option X) : option X :=
  match r with
  | Eps => k s g
  | Char p => match s with c :: t => if p c then k t g else None | [] => None end
  | Seq a b => rmatch a s g (fun s' g' => rmatch b s' g' k)
  | Alt a b => match rmatch a s g k with Some x => Some x | None => rmatch b s g k end
  | Plus p => plus p s (fun s' => k s' g)
  | Group n a => rmatch a s g (fun s' g' => k s' ((n, taken s s') :: g'))
  end.
End Match.
(** A match: its text and its groups. *)
Definition re_match (r : re) (s : text) : option (text * groups) :=
  rmatch r s [] (fun s' g => Some (taken s s', g)).
(** [re.search]. *)
Fixpoint re_search (r : re) (s : text) : option (text * groups) :=
  match re_match r s with
  | Some x => Some x
  | None => match s with [] => None | _ :: t => re_search r t end
  end.
(** [re.finditer] for a pattern that matches no empty text; [skip] characters belong to
    the match before. *)
Fixpoint finditer_from (r : re) (skip : nat) (s : text) : list (text * groups) :=
  match s with
  | [] => []
  | _ :: t =>
      match skip with
      | S n => finditer_from r n t
      | O => match re_match r s with
             | Some x => x :: finditer_from r (pred (List.length (fst x))) t
             | None => finditer_from r O t
             end
      end
  end.
Definition finditer (r : re) (s : text) : list (text * groups) := finditer_from r O s.
(** [match.group(n)] of a group that took part. *)
Definition group (g : groups) (n : nat) : text :=
  match find (fun x => Nat.eqb (fst x) n) g with Some x => snd x | None => [] end.

(** ** Text files *)
(** Universal newlines: "\r\n" and "\r" become "\n". *)
Fixpoint universal (s : text) : text :=
  match s with
  | [] => []
  | c :: t =>
      if Ascii.eqb c creturn then
        match t with
        | d :: u => if Ascii.eqb d newline then newline :: universal u else newline :: universal t
        | [] => [newline]
        end
      else c :: universal t
  end.
(** [for line in file]: lines keep their newline. *)
Fixpoint lines_from (cur : text) (s : text) : list text :=
  match s with
  | [] => match cur with [] => [] | _ => [cur] end
  | c :: t => if Ascii.eqb c newline then (cur ++ [c]) :: lines_from [] t else lines_from (cur ++ [c]) t
  end.
Definition lines (s : text) : list text := lines_from [] s.
Definition open_text (f : fs) (path : bytes) : res text := rmap universal (open_rb f path).

(** [s.split(c)]. *)
Fixpoint split_from (c : ascii) (cur s : text) : list text :=
  match s with
  | [] => [cur]
  | x :: t => if Ascii.eqb x c then cur :: split_from c [] t else split_from c (cur ++ [x]) t
  end.
Definition split (c : ascii) (s : text) : list text := split_from c [] s.
(** [sep.join(l)]. *)
Fixpoint join_with (c : ascii) (l : list text) : text :=
  match l with
  | [] => []
  | [x] => x
  | x :: t => x ++ c :: join_with c t
  end.
(** [os.path.join(a, b)]. *)
Definition path_join (a b : bytes) : bytes :=
  match b with
  | x :: _ => if Ascii.eqb x slash then b
              else match a with [] => b | _ => if ends_slash a then a ++ b else a ++ slash :: b end
  | [] => match a with [] => b | _ => if ends_slash a then a ++ b else a ++ slash :: b end
  end.

(** ** TemplateParser, bf2.py:33-110 *)

(** Lines 39-47; no comma follows 'Engine'. *)
Definition object_types : list string :=
  ["PlayerControlObject"; "Wing"; "Wheel"; "Spring"; "RotationalBundle"; "EngineSimpleObject"]%string.
(** r'ObjectTemplate.create (' + '|'.join(types) + ') (\w)+', lines 54-55. The group
    of a single [\w] is never read. *)
Definition pattern1 : re :=
  Seq (lit "ObjectTemplate") (Seq (Char anyc) (Seq (lit "create ") (Seq (Group 1 (alts object_types)) (Seq (lit " ") (Plus wordc))))).
(** r'include (\w)+.tweak', line 70. *)
Definition pattern2 : re := Seq (lit "include ") (Seq (Plus wordc) (Seq (Char anyc) (lit "tweak"))).

(** get_root, lines 53-63, on the lines of the file; [None] is Python's None. *)
Fixpoint root_of_lines (ls : list text) : res (option (text * text)) :=
  match ls with
  | [] => Ok None
  | l :: t =>
      match re_search pattern1 l with
      | Some (m, _) =>
          do ty <- py_get (split space m) 1;
          do name <- py_get (split space m) 2;
          Ok (Some (ty, name))
      | None => root_of_lines t
      end
  end.
Definition get_root (f : fs) (path : bytes) : res (option (text * text)) :=
  do s <- open_text f path; root_of_lines (lines s).

(** get_child_list, lines 65-82. [get_root_folder] is os.path.split(path)[0]. *)
Definition matches1 (ls : list text) : list text :=
  flat_map (fun l => match re_search pattern1 l with Some (m, _) => [m] | None => [] end) ls.
Fixpoint children_of_lines (f : fs) (folder : bytes) (ls : list text) : res (list text) :=
  match ls with
  | [] => Ok []
  | l :: t =>
      let own := match re_search pattern1 l with Some (m, _) => [m] | None => [] end in
      do included <- match re_search pattern2 l with
                     | Some (m, _) =>
                         do name <- py_get (split space m) 1;
                         do s <- open_text f (path_join folder name);
                         Ok (matches1 (lines s))
                     | None => Ok []
                     end;
      do rest <- children_of_lines f folder t;
      Ok (own ++ included ++ rest)
  end.
Definition get_child_list (f : fs) (path : bytes) : res (list text) :=
  do s <- open_text f path; children_of_lines f (fst (path_split path)) (lines s).

(** GameObject.loadFromCon, lines 157-161: [(type, name, childs_created)]. Unpacking
    None is a TypeError. *)
Definition load_from_con (f : fs) (path : bytes) : res (text * text * list text) :=
  do r <- get_root f path;
  match r with
  | None => Raise EType
  | Some (ty, name) => do l <- get_child_list f path; Ok (ty, name, l)
  end.

(** ** Mod, bf2.py:6-27 *)

(** [list.index(x)]. *)
Fixpoint index_of (x : text) (l : list text) : res nat :=
  match l with
  | [] => Raise EValue
  | y :: t => if bytes_eqb y x then Ok O else do n <- index_of x t; Ok (S n)
  end.
(** find_mod_root, lines 11-14. *)
Definition find_mod_root (cwd : bytes) : res bytes :=
  let parts := split slash cwd in
  do i <- index_of (of_string "mods") parts;
  Ok (join_with slash (firstn (i + 2) parts)).

(** Directory trees; entries in the order of os.walk. *)
Inductive tree := TFile (contents : text) | TDir (entries : list (bytes * tree)).
(** os.walk(top) top-down, lines 17-18, as the list of the files with the path that
    lines 21-22 give them, and their contents. *)
Fixpoint walk (root dir : bytes) (t : tree) : list (bytes * bytes * text) :=
  match t with
  | TFile _ => []
  | TDir es =>
      flat_map (fun e => match snd e with
                         | TFile s => [(path_join (path_join (path_join root (of_string "objects")) dir) (fst e), fst e, s)]
                         | TDir _ => [] end) es ++
      (fix sub (l : list (bytes * tree)) : list (bytes * bytes * text) :=
         match l with
         | [] => []
         | e :: u => walk root (path_join dir (fst e)) (snd e) ++ sub u
         end) es
  end.
(** Line 20: filename.split('.')[-1] in ['con', 'tweak']. *)
Definition template_file (name : bytes) : bool :=
  let e := last (split dot name) [] in bytes_eqb e (of_string "con") || bytes_eqb e (of_string "tweak").
(** get_object_path, lines 16-26; [objects] is what is at root/objects. *)
Fixpoint first_object (name : text) (l : list (bytes * bytes * text)) : res (option bytes) :=
  match l with
  | [] => Ok None
  | (p, fn, s) :: t =>
      if template_file fn then
        do r <- root_of_lines (lines (universal s));
        match r with
        | Some (_, n) => if bytes_eqb n name then Ok (Some p) else first_object name t
        | None => first_object name t
        end
      else first_object name t
  end.
Definition get_object_path (root : bytes) (objects : tree) (name : text) : res (option bytes) :=
  first_object name (walk root (path_join root (of_string "objects")) objects).

(** ** Materials, bf2.py:113-150 *)
Definition pattern3 : re :=
  Seq (lit "MaterialManager") (Seq (Char anyc) (Seq (lit "createCell ") (Seq (Group 1 (Plus digitc)) (Seq (lit " ")
  (Seq (Group 2 (Plus digitc)) (Seq (Char (Ascii.eqb newline)) (Seq (lit "MaterialManager") (Seq (Char anyc) (Seq (lit "damageMod ")
  (Group 3 (Alt (Group 4 (Seq (Plus digitc) (Seq (Char (Ascii.eqb dot)) (Plus digitc)))) (Group 5 (Plus digitc))))))))))))).
(** [int(s)] of digits. *)
Definition int_of (s : text) : Z := fold_left (fun n c => 10 * n + (code c - 48)) s 0.

Section Cells.
Context {F : Type} (float_of : text -> F).
(** Dictionaries in insertion order. *)
Definition damage := list (Z * F).
Definition cells := list (Z * damage).
Fixpoint dict_get {V} (d : list (Z * V)) (k : Z) : option V :=
  match d with [] => None | (i, v) :: t => if i =? k then Some v else dict_get t k end.
Fixpoint dict_set {V} (d : list (Z * V)) (k : Z) (v : V) : list (Z * V) :=
  match d with
  | [] => [(k, v)]
  | (i, w) :: t => if i =? k then (k, v) :: t else (i, w) :: dict_set t k v
  end.
(** Lines 138-149. *)
Definition cell_step (c : cells) (x : text * groups) : cells :=
  let attacker := int_of (group (snd x) 1) in
  let target := int_of (group (snd x) 2) in
  let c1 := match dict_get c attacker with Some _ => c | None => dict_set c attacker [] end in
  match dict_get c1 attacker with
  | None => c1
  | Some d => match dict_get d target with
              | Some _ => c1
              | None => dict_set c1 attacker (dict_set d target (float_of (group (snd x) 3)))
              end
  end.
Definition cells_of_text (s : text) : cells := fold_left cell_step (finditer pattern3 s) [].
Definition parse_settings (f : fs) (path : bytes) : res cells :=
  do s <- open_text f path; Ok (cells_of_text s).
End Cells.
