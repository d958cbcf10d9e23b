(** The two instances of [arith]: IEEE-754 binary64 with round to nearest even
    (numpy's float64 arithmetic, via Flocq) and the real numbers. *)
From Verif Require Import Base.
From Coq Require Import Reals Lia Lra.
From Flocq Require Import Core.Core IEEE754.BinarySingleNaN IEEE754.Binary IEEE754.Bits.
Open Scope Z_scope.

Definition f64 := binary64.
Definition f32 := binary32.

#[global] Instance prec53 : FLX.Prec_gt_0 53 := eq_refl.
#[global] Instance emax1024 : Prec_lt_emax 53 1024 := eq_refl.
#[global] Instance prec24 : FLX.Prec_gt_0 24 := eq_refl.
#[global] Instance emax128 : Prec_lt_emax 24 128 := eq_refl.

(** int -> float64 (nearest even). *)
Definition f64_of_Z (z : Z) : f64 := binary_normalize 53 1024 _ _ mode_NE z 0 false.
(** Comparisons are false on NaN. *)
Definition f64_ltb (x y : f64) : bool :=
  match b64_compare x y with Some Lt => true | _ => false end.
Definition f64_leb (x y : f64) : bool :=
  match b64_compare x y with Some Lt | Some Eq => true | _ => false end.
Definition f64_eqb (x y : f64) : bool :=
  match b64_compare x y with Some Eq => true | _ => false end.
(** Python's int(x): NaN raises ValueError, infinities OverflowError, otherwise
    truncation towards zero. *)
Definition f64_trunc (x : f64) : res Z :=
  match x with
  | B754_nan _ _ _ _ _ => Raise ValueError
  | B754_infinity _ _ _ => Raise OverflowError
  | _ => Ok (Btrunc 53 1024 x)
  end.

Definition A64 : arith :=
  Base.Arith
    (f64)
    (f64_of_Z)
    (b64_plus mode_NE)
    (b64_minus mode_NE)
    (b64_mult mode_NE)
    (b64_div mode_NE)
    (b64_opp)
    (b64_abs)
    (b64_sqrt mode_NE)
    (f64_ltb)
    (f64_leb)
    (f64_eqb)
    (is_nan 53 1024)
    (f64_trunc).

Definition Rltb (x y : R) : bool := if Rlt_dec x y then true else false.
Definition Rleb (x y : R) : bool := if Rle_dec x y then true else false.
Definition Reqb (x y : R) : bool := if Req_EM_T x y then true else false.

(** Exact arithmetic: what the geometry formulas mean. *)
Definition AR : arith :=
  Base.Arith
    (R)
    (IZR)
    (Rplus)
    (Rminus)
    (Rmult)
    (Rdiv)
    (Ropp)
    (Rabs)
    (R_sqrt.sqrt)
    (Rltb)
    (Rleb)
    (Reqb)
    (λ _, false)
    (λ x, Ok (Ztrunc x)).
