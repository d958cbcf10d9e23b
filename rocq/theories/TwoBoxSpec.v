(** Two boxes side by side, as one box. *)
From Coq Require Import Lia Reals.
From Verif Require Import Base Mesh Core Float MeshSpec BoxSpec.
Open Scope Z_scope.

Section Spec.
Context (nx1 nx2 ny : nat).
(** The number of the cell (i, j) of the wide box: the elements of the left box come first. *)
Definition number (i j : nat) : nat := (if decide (i < nx1) then i + nx1 * j else nx1 * ny + (i - nx1 + nx2 * j))%nat.
(** The sides that the cells of column [i] see: bottom and top of their own box, left of the left and right of the right box. *)
Definition seen (a b : sides) (i : nat) : sides :=
  let own := if decide (i < nx1)%nat then a else b in Sides (s_bottom own) (s_right b) (s_top own) (s_left a).
(** Entry of face [f] of the cell (i, j) in the wide box. *)
Definition is_wide_bc (a b : sides) (i j f : nat) (r : bcrec R) : Prop :=
  let '(t, (i', j', f')) := cell_face (nx1 + nx2) ny (seen a b i) i j f in
  bt r = t ∧ (is_conn t → points (A:=AR) r (number i' j') f').
(** The vertical grid lines of the wide box. *)
Definition line (x0 x1 x2 : R) (i : nat) : R :=
  (if decide (i ≤ nx1)%nat then x0 + INR i * ((x1 - x0) / INR nx1) else x1 + INR (i - nx1) * ((x2 - x1) / INR nx2))%R.
Definition row (y0 y1 : R) (j : nat) : R := (y0 + INR j * ((y1 - y0) / INR ny))%R.
End Spec.
