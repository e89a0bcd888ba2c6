(** The [__str__] methods of headers, vertex attributes and meshes.
    Simplifications: fields are ints (the default [None] of fields that were never set is left out). Python 3.11, in
    which [len] of a D3DDECLTYPE raises, is left out. [enums_as_numbers] says whether [str] of an IntEnum member is its
    number (Python 3.11 and later) or [Class.MEMBER] (before). *)
From Coq Require Import ZArith List String Ascii DecimalString DecimalZ.
From Verif Require Import PyBase Mesh Edit SpecText.
Import ListNotations.
Open Scope Z_scope.

(** [str(n)] of an int. *)
Definition num (z : Z) : text := list_ascii_of_string (NilZero.string_of_int (Z.to_int z)).

(** [sep.join(l)]. *)
Fixpoint join (sep : text) (l : list text) : text :=
  match l with [] => [] | [t] => t | t :: r => (t ++ sep ++ join sep r)%list end.

(** _bf2head.__str__, visiblemesh.py:637-643. *)
Definition head_text (h : head) : text :=
  join [newline] [(lit "head.u1 = " ++ num (h_u1 h))%list; (lit "head.version = " ++ num (h_version h))%list;
                  (lit "head.u3 = " ++ num (h_u3 h))%list; (lit "head.u4 = " ++ num (h_u4 h))%list; (lit "head.u5 = " ++ num (h_u5 h))%list].

(** Names of the members of D3DDECLTYPE, bf2types.py:8-19; [D3DDECLTYPE(v)] of another value is a ValueError. *)
Definition type_name (v : Z) : res string :=
  if v =? 0 then Ok "FLOAT1"%string else if v =? 1 then Ok "FLOAT2"%string else if v =? 2 then Ok "FLOAT3"%string
  else if v =? 3 then Ok "FLOAT4"%string else if v =? 4 then Ok "D3DCOLOR"%string else if v =? 17 then Ok "UNUSED"%string else Raise EValue.
(** [D3DDECLUSAGE(u).name], bf2types.py:34-53. *)
Definition usage_name (u : Z) : res string :=
  if u =? 0 then Ok "POSITION"%string else if u =? 1 then Ok "BLENDWEIGHT"%string else if u =? 2 then Ok "BLENDINDICES"%string
  else if u =? 3 then Ok "NORMAL"%string else if u =? 4 then Ok "PSIZE"%string else if u =? 5 then Ok "UV1"%string
  else if u =? 6 then Ok "TANGENT"%string else if u =? 7 then Ok "BINORMAL"%string else if u =? 8 then Ok "TESSFACTOR"%string
  else if u =? 9 then Ok "POSITIONT"%string else if u =? 10 then Ok "COLOR"%string else if u =? 11 then Ok "FOG"%string
  else if u =? 12 then Ok "DEPTH"%string else if u =? 13 then Ok "SAMPLE"%string else if u =? 261 then Ok "UV2"%string
  else if u =? 517 then Ok "UV3"%string else if u =? 773 then Ok "UV4"%string else if u =? 1029 then Ok "UV5"%string else Raise EValue.

(** [str] of a member of D3DDECLTYPE. *)
Definition type_text (enums_as_numbers : bool) (v : Z) (n : string) : text :=
  if enums_as_numbers then num v else (lit "D3DDECLTYPE." ++ lit n)%list.

(** _bf2vertattrib.__str__, visiblemesh.py:983-984. *)
Definition attrib_text (enums_as_numbers : bool) (a : vertattrib) : res text :=
  do n <- type_name (vartype a);
  do k <- decltype_len (vartype a);
  do u <- usage_name (usage a);
  Ok (lit "flag: " ++ num (flag a) ++ lit ", offset: " ++ num (offset a) ++ lit ", vartype: " ++ type_text enums_as_numbers (vartype a) n ++
      lit " of size " ++ num k ++ lit ", usage: " ++ lit u)%list.

(** VisibleMesh.__str__, visiblemesh.py:82-89: it collects some texts and raises. *)
Definition mesh_text {F} (m : mesh F) (filename : text) : res text :=
  let retstr := [filename; (lit "header:" ++ newline :: head_text (m_head m))%list; (lit "u1: " ++ num (m_u1 m))%list] in
  Raise ENotImplemented.
