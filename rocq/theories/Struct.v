(** Python's [struct] module in native mode, as used by bf2mesh/io.py, and the
    read_*/write_* helpers of that file.

    Native mode means: byte order and size of C long are those of the platform;
    they are parameters ([plat]). Every format string in io.py has items of one
    type only, so native alignment never inserts padding. A file object opened
    for reading is the list of bytes that remain after the current position
    ([fo.read(n)] returns fewer bytes at end of file, in which case
    [Struct.unpack] raises struct.error). *)
From Coq Require Import ZArith NArith List Bool Ascii Lia.
From Verif Require Import PyBase.
Import ListNotations.
Open Scope Z_scope.
Open Scope res_scope.

Definition byte := ascii.
Definition bytes := list byte.

Inductive long_size := Long4 | Long8.   (* Windows / 32-bit  vs  64-bit Unix *)
Record plat := { long_sz : long_size; big_endian : bool }.
Definition long_bytes (p : plat) : nat :=
  match long_sz p with Long4 => 4%nat | Long8 => 8%nat end.

(** ** Integers as bytes *)
Definition byte_of_Z (z : Z) : byte := ascii_of_N (Z.to_N (z mod 256)).
Definition Z_of_byte (b : byte) : Z := Z.of_N (N_of_ascii b).

Fixpoint le_encode (n : nat) (v : Z) : bytes :=
  match n with
  | O => []
  | S k => byte_of_Z v :: le_encode k (v / 256)
  end.
Fixpoint le_decode (bs : bytes) : Z :=
  match bs with
  | [] => 0
  | b :: t => Z_of_byte b + 256 * le_decode t
  end.

Definition order_bytes (p : plat) (bs : bytes) : bytes :=
  if big_endian p then rev bs else bs.
Definition enc_uint (p : plat) (n : nat) (v : Z) : bytes := order_bytes p (le_encode n v).
Definition dec_uint (p : plat) (bs : bytes) : Z := le_decode (order_bytes p bs).

(** Two's complement at [n] bytes. *)
Definition to_signed (n : nat) (v : Z) : Z :=
  if v <? 2 ^ (8 * Z.of_nat n - 1) then v else v - 2 ^ (8 * Z.of_nat n).
Definition of_signed (n : nat) (v : Z) : Z := v mod 2 ^ (8 * Z.of_nat n).
Definition in_signed (n : nat) (v : Z) : bool :=
  (- 2 ^ (8 * Z.of_nat n - 1) <=? v) && (v <? 2 ^ (8 * Z.of_nat n - 1)).
Definition in_unsigned (n : nat) (v : Z) : bool :=
  (0 <=? v) && (v <? 2 ^ (8 * Z.of_nat n)).

(** Range of a C long / unsigned short / signed char: what [struct.pack] accepts. *)
Definition fits_long (p : plat) (v : Z) : bool := in_signed (long_bytes p) v.
Definition fits_ushort (v : Z) : bool := in_unsigned 2 v.
Definition fits_schar (v : Z) : bool := in_signed 1 v.

(** ** Reading *)
Definition reader (A : Type) := bytes -> res (A * bytes).

Definition rret {A} (a : A) : reader A := fun bs => Ok (a, bs).
Definition rbind {A B} (r : reader A) (f : A -> reader B) : reader B :=
  fun bs => do (a, rest) <- r bs; f a rest.
Notation "'get' x <- e1 ; e2" := (rbind e1 (fun x => e2))
  (at level 200, x pattern, e1 at level 100, e2 at level 200, right associativity) : res_scope.
Definition rraise {A} (e : exn) : reader A := fun _ => Raise e.
Definition rlift {A} (x : res A) : reader A :=
  fun bs => do a <- x; Ok (a, bs).

(** [fo.read(n)] followed by an [unpack] that needs exactly [n] bytes. *)
Definition read_raw (n : Z) : reader bytes := fun bs =>
  if (n <? 0) || (zlen bs <? n) then Raise EStruct
  else Ok (firstn (Z.to_nat n) bs, skipn (Z.to_nat n) bs).

(** Cut [bs] into [k] pieces of [n] bytes. *)
Fixpoint pieces (n k : nat) (bs : bytes) : list bytes :=
  match k with
  | O => []
  | S k' => firstn n bs :: pieces n k' (skipn n bs)
  end.

(** What read_int/read_float/read_long/read_short/read_byte return: a bare value
    when lenght==1 (io.py:9, 17, 31, 39, 55), otherwise a tuple. *)
Inductive pyseq (A : Type) := Scalar (a : A) | Tuple (l : list A).
Arguments Scalar {A} a.
Arguments Tuple {A} l.

(** [struct.Struct('{}X'.format(n)).unpack(fo.read(size))] for an item type of
    [w] bytes; a negative count is a struct.error ("bad char in struct format").
    io.py:4-56. *)
Definition read_items (w : nat) (n : Z) : reader (list bytes) :=
  if n <? 0 then rraise EStruct
  else get bs <- read_raw (Z.of_nat w * n); rret (pieces w (Z.to_nat n) bs).

(** The [if lenght==1: return unpacked[0]] convention. *)
Definition unwrap {A} (n : Z) (l : list A) : pyseq A :=
  if n =? 1 then match l with [x] => Scalar x | _ => Tuple l end else Tuple l.

Section Readers.
Context {F : Type} (p : plat) (unpackf : Z -> F).

(** read_long(fo), io.py:26-32 with lenght=1. *)
Definition read_long : reader Z :=
  get bs <- read_raw (Z.of_nat (long_bytes p));
  rret (to_signed (long_bytes p) (dec_uint p bs)).

(** read_short(fo), io.py:34-40 with lenght=1 (format 'H'). *)
Definition read_short1 : reader Z :=
  get bs <- read_raw 2; rret (dec_uint p bs).

(** read_short(fo, n), io.py:34-40. *)
Definition read_short (n : Z) : reader (pyseq Z) :=
  get l <- read_items 2 n; rret (unwrap n (map (dec_uint p) l)).

(** read_byte(fo), io.py:50-56 with lenght=1 (format 'b'). *)
Definition read_byte : reader Z :=
  get bs <- read_raw 1; rret (to_signed 1 (dec_uint p bs)).

(** read_float(fo, n), io.py:12-18; [unpackf] turns the 32-bit pattern into the
    Python float. *)
Definition read_float (n : Z) : reader (pyseq F) :=
  get l <- read_items 4 n; rret (unwrap n (map (fun b => unpackf (dec_uint p b)) l)).

(** read_float3(fo), io.py:20-24. *)
Definition read_float3 : reader (F * F * F) :=
  get bs <- read_raw 12;
  rret (unpackf (dec_uint p (firstn 4 bs)),
        unpackf (dec_uint p (firstn 4 (skipn 4 bs))),
        unpackf (dec_uint p (firstn 4 (skipn 8 bs)))).

(** One row of read_matrix4: '4f'. *)
Definition read_row4 : reader (list F) :=
  get bs <- read_raw 16;
  rret (map (fun b => unpackf (dec_uint p b)) (pieces 4 4 bs)).

(** read_matrix4(fo), io.py:58-68. *)
Definition read_matrix4 : reader (list (list F)) :=
  get r0 <- read_row4;
  get r1 <- read_row4;
  get r2 <- read_row4;
  get r3 <- read_row4;
  rret [r0; r1; r2; r3].

(** read_string(fo), io.py:42-48: a long count, then that many bytes; a negative
    count is a struct.error. *)
Definition read_string : reader bytes :=
  get n <- read_long; read_raw n.

(** [for i in range(n): l.append(r(fo))]. *)
Fixpoint read_n {A} (r : reader A) (n : nat) : reader (list A) :=
  match n with
  | O => rret []
  | S k => get a <- r; get t <- read_n r k; rret (a :: t)
  end.

(** [for obj in objs: obj.load(fo)] for a reader that updates an object. *)
Fixpoint read_each {A B} (r : A -> reader B) (l : list A) : reader (list B) :=
  match l with
  | [] => rret []
  | a :: t => get b <- r a; get t' <- read_each r t; rret (b :: t')
  end.
End Readers.

(** ** Writing: the bytes written so far and the exception, if one was raised.
    [fo.write] appends to the file, so an exception leaves the bytes already
    written in the file. *)
Definition writer := (bytes * option exn)%type.
Definition wnil : writer := ([], None).
Definition wput (bs : bytes) : writer := (bs, None).
Definition wraise (e : exn) : writer := ([], Some e).
Definition wseq (a b : writer) : writer :=
  match a with
  | (bs, None) => let '(cs, o) := b in (bs ++ cs, o)
  | (bs, Some e) => (bs, Some e)
  end.
Notation "a ;; b" := (wseq a b) (at level 61, right associativity) : res_scope.

Fixpoint wall {A} (w : A -> writer) (l : list A) : writer :=
  match l with
  | [] => wnil
  | a :: t => w a ;; wall w t
  end.

Section Writers.
Context {F : Type} (p : plat) (packf : F -> Z).

(** write_long, io.py:71-73: struct.error when out of range. *)
Definition write_long (v : Z) : writer :=
  if fits_long p v then wput (enc_uint p (long_bytes p) (of_signed (long_bytes p) v))
  else wraise EStruct.

(** write_long(None): "required argument is not an integer". *)
Definition write_long_opt (v : option Z) : writer :=
  match v with Some z => write_long z | None => wraise EStruct end.

(** write_short, io.py:75-77 (format 'H'). *)
Definition write_short (v : Z) : writer :=
  if fits_ushort v then wput (enc_uint p 2 v) else wraise EStruct.

(** write_byte, io.py:83-85 (format 'b'). *)
Definition write_byte (v : Z) : writer :=
  if fits_schar v then wput (enc_uint p 1 (of_signed 1 v)) else wraise EStruct.

(** One native 'f' item. CPython's native packer converts the double to float with
    a C cast, so it never raises for a float (overflow gives infinity). *)
Definition enc_float (x : F) : bytes := enc_uint p 4 (packf x).

(** write_float, io.py:87-93. *)
Definition write_float (x : F) : writer := wput (enc_float x).

(** write_float3(fo, *v), io.py:79-81. *)
Definition write_float3 (v : F * F * F) : writer :=
  let '(x, y, z) := v in wput (enc_float x ++ enc_float y ++ enc_float z).

(** write_float3(fo, *None): TypeError from unpacking None. *)
Definition write_float3_opt (v : option (F * F * F)) : writer :=
  match v with Some t => write_float3 t | None => wraise EType end.

(** One row of write_matrix4: '4f' packed with *value[row] (struct.error unless
    the row has 4 items, IndexError if the row is missing). *)
Definition write_row4 (m : list (list F)) (row : nat) : writer :=
  match nth_error m row with
  | None => wraise EIndex
  | Some r => if Nat.eqb (length r) 4 then wput (flat_map enc_float r) else wraise EStruct
  end.

(** write_matrix4, io.py:95-99. *)
Definition write_matrix4 (m : list (list F)) : writer :=
  wall (write_row4 m) (seq 0 4).

(** write_string, io.py:101-105. *)
Definition write_string (s : bytes) : writer :=
  write_long (zlen s) ;; wput s.
End Writers.
