(** The default functions of [gen_circle] (meshtools.py 1571-1612), over the real numbers. *)
From Coq Require Import Lia Reals.
From Verif Require Import Base Float Refine.
Open Scope R_scope.

(** Lines 1572-1576. *)
Definition default_curvature (x : R) : R := sin (1 / 2 * PI * x) ^ 2.
(** Lines 1580-1593. *)
Definition square_spacing (r s : R) (ns : nat) : R := s * r * R_sqrt.sqrt 2 / INR ns.
Definition width (r s : R) : R := 1 / 2 * r * (1 - s) * R_sqrt.sqrt 2.
Definition err_stretching (curvature_fun : R → R) (r s len_new len_ref : R) : res R :=
  let! q := divide len_new (width r s) in
  let eta := curvature_fun q in
  let total_width := r * (1 - 1 / 2 * R_sqrt.sqrt 2 * s) in
  Ok (q * ((1 - eta) * width r s + eta * total_width) - len_ref).
(** Lines 1595-1606: the secant method; the fuel is the number of iterations that remain. Returns l1. *)
Fixpoint secant (fuel : nat) (err : R → res R) (l0 l1 f0 : R) : res R :=
  match fuel with
  | O => Ok l1
  | S fuel =>
    if Rltb (/ 1000000000000) (Rabs f0) then
      let! f1 := err l1 in
      let! q := divide (l1 - l0) (f1 - f0) in
      secant fuel err l1 (l1 - q * f1) f1
    else Ok l1
  end.
Definition first_length (curvature_fun : R → R) (r s : R) (ns : nat) : res R :=
  let err len := err_stretching curvature_fun r s len (square_spacing r s ns) in
  let! f0 := err 1 in
  secant (Z.to_nat 10000) err 1 0 f0.
(** Lines 1608-1618. Simplification: the power is that of a positive alpha. *)
Definition exponential_spacing (l1 w alpha : R) (no : nat) (x : R) : R :=
  if Rltb (Rabs (alpha - 1)) (/ 1000000000000) then x else l1 / w * (Rpower alpha (x * INR no) - 1) / (alpha - 1).
Definition default_bl_fun (curvature_fun : R → R) (r s : R) (ns no : nat) : res (R → R) :=
  let! l1 := first_length curvature_fun r s ns in
  let! alpha := exponential_refinement_parameter l1 (width r s) no (/ 100000000000000) in
  Ok (exponential_spacing l1 (width r s) alpha no).
