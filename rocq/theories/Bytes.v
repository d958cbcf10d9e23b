(** Bytes, byte order, and the numbers stored in binary files.

    Models numpy's [tofile] / [frombuffer] / [byteswap] and [struct.unpack], as used in
    /repo/src/pymech/neksuite and /repo/src/pymech/simsonsuite.py. *)
From Coq Require Import Lia.
From Flocq Require Import Core.Core IEEE754.BinarySingleNaN IEEE754.Binary IEEE754.Bits.
From Verif Require Import Base Float.
Open Scope Z_scope.

Notation byte := Ascii.ascii (only parsing).
Definition bytes := list Ascii.ascii.
Definition byte_of (z : Z) : Ascii.ascii := Ascii.ascii_of_N (Z.to_N z).
Definition byte_val (c : Ascii.ascii) : Z := Z.of_N (Ascii.N_of_ascii c).

(** The order of the bytes of a word. *)
Inductive order := Little | Big.
#[global] Instance order_eq_dec : EqDecision order.
Proof. solve_decision. Defined.
(** [sys.byteorder] as a string, and [emode] of readnek as the string stored in [data.endian]. *)
Definition order_name (o : order) : string := match o with Little => "little" | Big => "big" end.

(** The [n] low bytes of [z], least significant first, and back. *)
Fixpoint to_le (n : nat) (z : Z) : bytes :=
  match n with O => [] | S n => byte_of (z mod 256) :: to_le n (z / 256) end.
Fixpoint from_le (l : bytes) : Z :=
  match l with [] => 0 | c :: l => byte_val c + 256 * from_le l end.
Definition to_order (o : order) (l : bytes) : bytes := match o with Little => l | Big => rev l end.
Definition word (o : order) (n : nat) (z : Z) : bytes := to_order o (to_le n z).
Definition unword (o : order) (l : bytes) : Z := from_le (to_order o l).

(** Signed 32-bit integers (numpy int32, struct 'i'). *)
Definition i32_of_u (z : Z) : Z := if z <? 2 ^ 31 then z else z - 2 ^ 32.
Definition i32_bytes (o : order) (z : Z) : bytes := word o 4 (z mod 2 ^ 32).
Definition i32_read (o : order) (l : bytes) : Z := i32_of_u (unword o l).
Definition f32_bytes (o : order) (x : f32) : bytes := word o 4 (bits_of_b32 x).
Definition f32_read (o : order) (l : bytes) : f32 := b32_of_bits (unword o l).
Definition f64_bytes (o : order) (x : f64) : bytes := word o 8 (bits_of_b64 x).
Definition f64_read (o : order) (l : bytes) : f64 := b64_of_bits (unword o l).

(** NaNs with a given sign and payload. The default is never used for payloads that fit. *)
Definition nan64 (s : bool) (pl : Z) : f64 :=
  match Bool.bool_dec (nan_pl 53 (Z.to_pos pl)) true with
  | left H => B754_nan 53 1024 s (Z.to_pos pl) H
  | right _ => proj1_sig default_nan_pl64
  end.
Definition nan32 (s : bool) (pl : Z) : f32 :=
  match Bool.bool_dec (nan_pl 24 (Z.to_pos pl)) true with
  | left H => B754_nan 24 128 s (Z.to_pos pl) H
  | right _ => proj1_sig default_nan_pl32
  end.
(** float64 -> float32 ([astype(np.float32)]): nearest even, overflow to infinity; a NaN keeps its
    sign and the high part of its payload and becomes quiet. *)
Definition narrow (x : f64) : f32 :=
  match x with
  | B754_zero _ _ s => B754_zero 24 128 s
  | B754_infinity _ _ s => B754_infinity 24 128 s
  | B754_nan _ _ s pl _ => nan32 s (Z.lor (Z.shiftr (Zpos pl) 29) (2 ^ 22))
  | B754_finite _ _ s m e _ => binary_normalize 24 128 _ _ mode_NE (cond_Zopp s (Zpos m)) e s
  end.
(** float32 -> float64: exact; a NaN becomes quiet. *)
Definition widen (x : f32) : f64 :=
  match x with
  | B754_zero _ _ s => B754_zero 53 1024 s
  | B754_infinity _ _ s => B754_infinity 53 1024 s
  | B754_nan _ _ s pl _ => nan64 s (Z.lor (Z.shiftl (Zpos pl) 29) (2 ^ 51))
  | B754_finite _ _ s m e _ => binary_normalize 53 1024 _ _ mode_NE (cond_Zopp s (Zpos m)) e s
  end.

(** A number together with the precision of the array that holds it. *)
Inductive dtype := D64 | D32.
Inductive fval := V64 (x : f64) | V32 (x : f32).
Definition zeroV (d : dtype) : fval :=
  match d with D64 => V64 (B754_zero 53 1024 false) | D32 => V32 (B754_zero 24 128 false) end.
(** Assignment into an array of precision [d] / [astype]. *)
Definition cast (d : dtype) (v : fval) : fval :=
  match d, v with
  | D64, V64 x => V64 x | D64, V32 x => V64 (widen x)
  | D32, V32 x => V32 x | D32, V64 x => V32 (narrow x)
  end.
Definition to64 (v : fval) : f64 := match v with V64 x => x | V32 x => widen x end.
Definition fval_bytes (o : order) (v : fval) : bytes :=
  match v with V64 x => f64_bytes o x | V32 x => f32_bytes o x end.
(** The item size and reader of a numpy / struct real type: 'f' for 4 bytes, 'd' for 8. *)
Definition dsize (d : dtype) : nat := match d with D64 => 8 | D32 => 4 end.
Definition fval_read (o : order) (d : dtype) (l : bytes) : fval :=
  match d with D64 => V64 (f64_read o l) | D32 => V32 (f32_read o l) end.

(** [infile.read(n)]: at most [n] bytes; everything if [n] is negative. *)
Definition py_read (n : Z) (l : bytes) : bytes * bytes :=
  if n <? 0 then (l, []) else (take (Z.to_nat n) l, drop (Z.to_nat n) l).
(** [infile.seek(n, os.SEEK_CUR)] with [n >= 0]. *)
Definition py_skip (n : Z) (l : bytes) : bytes := drop (Z.to_nat n) l.

(** Cut into [n] words of [k] bytes. *)
Fixpoint chunks (k n : nat) (l : bytes) : list bytes :=
  match n with O => [] | S n => take k l :: chunks k n (drop k l) end.
(** [np.frombuffer(l, dtype=o+d, count=n)]: ValueError if the buffer is too small. *)
Definition frombuffer (o : order) (d : dtype) (n : nat) (l : bytes) : res (list fval) :=
  if (length l <? n * dsize d)%nat then Raise ValueError
  else Ok (fval_read o d <$> chunks (dsize d) n l).
(** [struct.unpack(o + n*"i", l)]: the buffer must have exactly the right size. *)
Definition unpack_i32 (o : order) (n : Z) (l : bytes) : res (list Z) :=
  if Z.of_nat (length l) =? 4 * Z.max 0 n then Ok (i32_read o <$> chunks 4 (Z.to_nat n) l) else Raise StructError.
(** [struct.unpack(o + "f", l)[0]], as a Python float. *)
Definition unpack_f32 (o : order) (l : bytes) : res f64 :=
  if (length l =? 4)%nat then Ok (widen (f32_read o l)) else Raise StructError.

(** A sequence of writes, stopping at the first exception: what is in the file, and the outcome. *)
Fixpoint write_all (l : list (res bytes)) : bytes * res unit :=
  match l with
  | [] => ([], Ok tt)
  | Ok b :: l => let '(f, r) := write_all l in (b ++ f, r)
  | Raise e :: _ => ([], Raise e)
  end.
