(** [exponential_refinement_parameter] of /repo/src/pymech/meshtools.py (1240-1317), over the real numbers. *)
From Coq Require Import Lia Reals.
From Verif Require Import Base Float.
Open Scope R_scope.

(** [math.log], and division of Python floats. Simplification: real numbers, so no rounding, overflow or NaN. *)
Definition log (x : R) : res R := if Rlt_dec 0 x then Ok (ln x) else Raise ValueError.
Definition divide (x y : R) : res R := if Req_EM_T y 0 then Raise ZeroDivisionError else Ok (x / y).
Definition nR (n : nat) : R := INR n.

(** Lines 1271-1287. The powers of [x - 1] are those of the source. *)
Definition eps_approx : R := 2 / 1000000.
Definition err (l0 ltot : R) (n : nat) (x : R) : res R :=
  if Rltb (Rabs (x - 1)) eps_approx then
    let! q := divide (nR n * l0) ltot in
    let! a := log q in
    let! b := log (1 + (nR n - 1) / 2 * (x - 1) + (nR n - 1) * (nR n - 2) / 6 * (x - 1) ^ 2
                     + (nR n - 1) * (nR n - 2) * (nR n - 3) / 24 * (x - 1) ^ 3) in
    Ok (a + b)
  else
    let! q := divide (x ^ n - 1) (x - 1) in
    let! q := divide (q * l0) ltot in
    log q.
(** Lines 1289-1302. *)
Definition err_prime (n : nat) (x : R) : res R :=
  if Rltb (Rabs (x - 1)) eps_approx then
    Ok (1 / 2 * (nR n - 1) + (nR n - 1) * (nR n - 5) / 12 * (x - 1))
  else
    divide ((nR n - 1) / 2 + (nR n - 1) * (nR n - 2) / 3 * (x - 1) + (nR n - 1) * (nR n - 2) * (nR n - 3) / 8 * (x - 1) ^ 2)
           (1 + (nR n - 1) / 2 * (x - 1) + (nR n - 1) * (nR n - 2) / 6 * (x - 1) ^ 2).
(** Lines 1304-1317: the loop, with the number of iterations that remain before maxiter. *)
Definition newton (l0 ltot : R) (n : nat) (alpha : R) : res R :=
  let! fx := err l0 ltot n alpha in
  let! fpx := err_prime n alpha in
  let! q := divide fx fpx in
  Ok (alpha - q).
Fixpoint solve (fuel : nat) (l0 ltot : R) (n : nat) (tol alpha residual : R) : res R :=
  match fuel with
  | O => Ok alpha
  | S fuel =>
    if Rltb tol residual then
      let! alpha1 := newton l0 ltot n alpha in
      solve fuel l0 ltot n tol alpha1 (Rabs (alpha1 - alpha))
    else Ok alpha
  end.
Definition exponential_refinement_parameter (l0 ltot : R) (n : nat) (tol : R) : res R :=
  solve (Z.to_nat 10000) l0 ltot n tol 1 1.
