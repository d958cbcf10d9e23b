(** Exponential spacing. *)
From Coq Require Import Lia Reals.
From Verif Require Import Base.
Open Scope R_scope.

(** The total length of [n] elements of lengths l0, alpha*l0, ..., alpha^(n-1)*l0. *)
Fixpoint total_length (l0 alpha : R) (n : nat) : R :=
  match n with O => 0 | S n => total_length l0 alpha n + alpha ^ n * l0 end.
