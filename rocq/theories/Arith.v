(** Float arithmetic used by the editing code, as a record of operations so that
    the same model runs on IEEE doubles (F64.v) and on exact reals (RArith.v). *)
Record arith (F : Type) := {
  f_zero : F;                 (* 0.0 *)
  f_two : F;                  (* the 2 of (a+b)/2, visiblemesh.py:542 *)
  f_add : F -> F -> F;
  f_sub : F -> F -> F;
  f_mul : F -> F -> F;
  f_div : F -> F -> F;
  f_lt : F -> F -> bool;      (* < ; a > b is f_lt b a *)
  f_eq : F -> F -> bool;      (* == *)
  f_finite : F -> bool;       (* neither infinite nor NaN *)
  f_trig : F -> bool;         (* math.sin and math.cos accept it: not infinite *)
  f_sin : F -> F;             (* math.sin *)
  f_cos : F -> F;             (* math.cos *)
  f_radians : F -> F          (* math.radians *)
}.
Arguments f_zero {F}. Arguments f_two {F}. Arguments f_add {F}. Arguments f_sub {F}.
Arguments f_mul {F}. Arguments f_div {F}. Arguments f_lt {F}. Arguments f_eq {F}.
Arguments f_finite {F}. Arguments f_trig {F}. Arguments f_sin {F}. Arguments f_cos {F}. Arguments f_radians {F}.
