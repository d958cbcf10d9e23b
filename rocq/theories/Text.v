(** Text: Python's formatting of integers and floats, [split], [int] and [float].

    Used by /repo/src/pymech/neksuite/field.py, mesh.py and map.py. Text is a list of ASCII
    characters. Simplification: [int] and [float] here reject underscores between digits and
    non-ASCII digits, which Python accepts; none of the modelled writers produces them. *)
From Coq Require Import Lia Ascii.
From Flocq Require Import Core.Core IEEE754.BinarySingleNaN IEEE754.Binary IEEE754.Bits.
From Verif Require Import Base Float Bytes.
Open Scope Z_scope.

Definition str (s : string) : bytes := String.list_ascii_of_string s.
Definition sp : Ascii.ascii := " "%char.

(** ** Formatting of integers ([%d], [{:d}]) *)
Definition digit (d : Z) : Ascii.ascii := byte_of (48 + d).
(** The last [n] decimal digits of [z]. *)
Fixpoint digits_n (n : nat) (z : Z) : bytes :=
  match n with O => [] | S n => digits_n n (z / 10) ++ [digit (z mod 10)] end.
(** The number of decimal digits of [z >= 0], at least one. *)
Fixpoint ndigits_aux (fuel : nat) (z : Z) : nat :=
  match fuel with O => 1%nat | S k => if z <? 10 then 1%nat else S (ndigits_aux k (z / 10)) end.
Definition ndigits (z : Z) : nat := ndigits_aux (S (Z.to_nat (Z.log2 z))) z.
Definition dec_nat (z : Z) : bytes := digits_n (ndigits z) z.
Definition dec_int (z : Z) : bytes := if z <? 0 then "-"%char :: dec_nat (- z) else dec_nat z.
(** [%0nd] of a number that is not negative. *)
Definition dec_pad0 (w : nat) (z : Z) : bytes := digits_n (Nat.max w (ndigits z)) z.
(** Padding to a minimum width: [{:>w}] / [%w] and [ljust]. Longer text is not cut. *)
Definition rjust (w : nat) (s : bytes) : bytes := replicate (w - length s) sp ++ s.
Definition ljust (w : nat) (s : bytes) : bytes := s ++ replicate (w - length s) sp.

(** ** Formatting of floats ([%.pE], [{:.pe}]): correctly rounded, ties to even *)
Definition pow10 (k : Z) : Z := 10 ^ Z.max 0 k.
(** The decimal exponent of [num/den]: 10^k <= num/den < 10^(k+1). *)
Definition dexp (num den : Z) : Z :=
  let k := Z.of_nat (ndigits num) - Z.of_nat (ndigits den) in
  if den * pow10 k <=? num * pow10 (- k) then k else k - 1.
Definition div_even (n d : Z) : Z :=
  let q := n / d in let r := n mod d in
  if 2 * r <? d then q else if d <? 2 * r then q + 1 else if Z.even q then q else q + 1.
(** [num/den] as M * 10^(k-p) with 10^p <= M < 10^(p+1). *)
Definition decimal (p : nat) (num den : Z) : Z * Z :=
  let k := dexp num den in
  let P := Z.of_nat p in
  let M := div_even (num * pow10 (P - k)) (den * pow10 (k - P)) in
  if M =? 10 ^ (P + 1) then (10 ^ P, k + 1) else (M, k).
Definition dec_exp (k : Z) : bytes :=
  (if k <? 0 then "-"%char else "+"%char) :: dec_pad0 2 (Z.abs k).
Definition sci (upper : bool) (p : nat) (M k : Z) : bytes :=
  let ds := digits_n (S p) M in
  take 1 ds ++ match p with O => [] | _ => "."%char :: drop 1 ds end ++
  (if upper then "E"%char else "e"%char) :: dec_exp k.
Definition sign_txt (s : bool) : bytes := if s then ["-"%char] else [].
(** The fraction num/den of a finite number. *)
Definition frac_of (m : positive) (e : Z) : Z * Z := (Zpos m * 2 ^ Z.max 0 e, 2 ^ Z.max 0 (- e)).
Definition fmt_e (upper : bool) (p : nat) (x : f64) : bytes :=
  match x with
  | B754_nan _ _ _ _ _ => str (if upper then "NAN" else "nan")
  | B754_infinity _ _ s => sign_txt s ++ str (if upper then "INF" else "inf")
  | B754_zero _ _ s => sign_txt s ++ sci upper p 0 0
  | B754_finite _ _ s m e _ =>
    let '(num, den) := frac_of m e in let '(M, k) := decimal p num den in
    sign_txt s ++ sci upper p M k
  end.

(** ** Reading *)
Definition is_space (c : Ascii.ascii) : bool :=
  let v := byte_val c in (v =? 32) || ((9 <=? v) && (v <=? 13)).
(** [s.split()] *)
Fixpoint split (l : bytes) : list bytes :=
  match l with
  | [] => []
  | c :: l' =>
    if is_space c then split l' else
    match l' with
    | [] => [[c]]
    | c' :: _ => if is_space c' then [c] :: split l' else
        match split l' with t :: ts => (c :: t) :: ts | [] => [[c]] end
    end
  end.
Fixpoint lstrip (l : bytes) : bytes :=
  match l with c :: l' => if is_space c then lstrip l' else l | [] => [] end.
Definition strip (l : bytes) : bytes := rev (lstrip (rev (lstrip l))).
Definition digit_val (c : Ascii.ascii) : option Z :=
  let v := byte_val c - 48 in if (0 <=? v) && (v <=? 9) then Some v else None.
Definition is_digit (c : Ascii.ascii) : bool := match digit_val c with Some _ => true | None => false end.
(** The number read from digits, after the number [acc]. *)
Fixpoint read_digits (acc : Z) (l : bytes) : option Z :=
  match l with
  | [] => Some acc
  | c :: l => match digit_val c with Some d => read_digits (10 * acc + d) l | None => None end
  end.
Definition read_sign (l : bytes) : bool * bytes :=
  match l with
  | c :: l' => if Ascii.eqb c "-"%char then (true, l') else if Ascii.eqb c "+"%char then (false, l') else (false, l)
  | [] => (false, [])
  end.
(** [int(s)] *)
Definition py_int (l : bytes) : res Z :=
  let '(s, ds) := read_sign (strip l) in
  match ds with
  | [] => Raise ValueError
  | _ => match read_digits 0 ds with Some z => Ok (if s then - z else z) | None => Raise ValueError end
  end.
Fixpoint span_digits (l : bytes) : bytes * bytes :=
  match l with
  | c :: l' => if is_digit c then let '(a, b) := span_digits l' in (c :: a, b) else ([], l)
  | [] => ([], [])
  end.
(** Decimal to binary: nearest, ties to even, overflow to infinity. The quotient is computed with
    1081 fractional bits, the last one sticky. *)
Definition dec_to_f64 (s : bool) (M E : Z) : f64 :=
  if M =? 0 then B754_zero 53 1024 s
  else if 0 <=? E then binary_normalize 53 1024 _ _ mode_NE (cond_Zopp s (M * 10 ^ E)) 0 s
  else
    let n := M * 2 ^ 1080 in let d := 10 ^ (- E) in
    let m := 2 * (n / d) + (if n mod d =? 0 then 0 else 1) in
    binary_normalize 53 1024 _ _ mode_NE (cond_Zopp s m) (- 1081) s.
Definition lower (c : Ascii.ascii) : Ascii.ascii :=
  let v := byte_val c in if (65 <=? v) && (v <=? 90) then byte_of (v + 32) else c.
Definition bytes_eqb (a b : bytes) : bool := bool_decide (a = b).
(** The decimal number denoted by a text without sign: (M, E) for M * 10^E. *)
Definition read_decimal (l : bytes) : option (Z * Z) :=
  let '(ip, r1) := span_digits l in
  let '(fp, r2) := match r1 with c :: r => if Ascii.eqb c "."%char then span_digits r else ([], r1) | [] => ([], []) end in
  match ip ++ fp with
  | [] => None
  | ds =>
    M ← read_digits 0 ds;
    match r2 with
    | [] => Some (M, - Z.of_nat (length fp))
    | c :: r => if Ascii.eqb (lower c) "e"%char then
        let '(s, es) := read_sign r in
        match es with [] => None | _ =>
          k ← read_digits 0 es; Some (M, (if s : bool then - k else k) - Z.of_nat (length fp)) end
      else None
    end
  end.
(** [float(s)] *)
Definition py_float (l : bytes) : res f64 :=
  let '(s, t) := read_sign (strip l) in
  let w := lower <$> t in
  if bytes_eqb w (str "inf") || bytes_eqb w (str "infinity") then Ok (B754_infinity 53 1024 s)
  else if bytes_eqb w (str "nan") then Ok (nan64 s (2 ^ 51))
  else match read_decimal t with Some (M, E) => Ok (dec_to_f64 s M E) | None => Raise ValueError end.
