(** The disc that gen_circle is expected to build. Independent of its model. *)
From Coq Require Import Lia Reals.
From Verif Require Import Base Mesh MeshSpec.
Open Scope R_scope.

(** A straight element with four vertices (x first, then y); [place] gives the vertex of each corner: [place a b] is the
    one that is second in y if a = 1 and second in x if b = 1. *)
Definition has_corners (e : elem R) (place : nat → nat → R * R) : Prop :=
  eshape e = (2, 2, 1)%nat ∧ length (pos e) = 3%nat ∧
  ∀ a b, (a < 2)%nat → (b < 2)%nat → point e 0 a b = Some ((place a b).1, (place a b).2, 0).

(** A point turned by q quarters about the origin. *)
Fixpoint quarters (q : nat) (p : R * R) : R * R :=
  match q with O => p | S q => let '(x, y) := quarters q p in (- y, x) end.

(** Half the side of the square whose diagonal is s times that of the circle of radius r. *)
Definition half_side (r s : R) : R := s * r / R_sqrt.sqrt 2.
(** Where along a line divided in n the point number i is: between 0 and 1. *)
Definition along (i n : nat) : R := INR i / INR n.
(** A vertex of the square, and a vertex of its right side. *)
Definition square_point (r s : R) (ns i j : nat) : R * R :=
  (half_side r s * (2 * along i ns - 1), half_side r s * (2 * along j ns - 1)).
Definition polar (d theta : R) : R * R := (d * cos theta, d * sin theta).
(** The vertex number j of the quarter of the circle around the positive x axis, between -pi/4 and pi/4. *)
Definition arc_point (r : R) (ns j : nat) : R * R := polar r (PI / 2 * (along j ns - 1 / 2)).
(** The vertex at the height j of the quarter around the positive x axis, eta of the way from the square to the circle,
    for a mix of gamma parts of an arc and 1 - gamma parts of a straight line: its polar coordinates are the mix of those
    of the point eta of the way from the square to the circle in the direction a, and of the point eta of the way from
    the square to the largest square inside the circle in the direction b. *)
Definition mixed_point (r s : R) (ns j : nat) (eta gamma : R) : R * R :=
  let a := PI / 2 * (along j ns - 1 / 2) in
  let b := atan (2 * along j ns - 1) in
  let on_arc := half_side r s / cos a + eta * (r - half_side r s / cos a) in
  let on_line := (half_side r s + eta * (half_side r 1 - half_side r s)) / cos b in
  polar (gamma * on_arc + (1 - gamma) * on_line) (gamma * a + (1 - gamma) * b).

(** The curvature of an element: none, or edge 1 an arc of radius r. *)
Definition straight (e : elem R) : Prop := ∀ k, (k < 12)%nat → ccurv e !! k = Some ""%string.
Definition arc_right (r : R) (e : elem R) : Prop :=
  ccurv e !! 1%nat = Some "C"%string ∧ (∃ rest, curv e !! 1%nat = Some (r :: rest)) ∧ ∀ k, (k < 12)%nat → k ≠ 1%nat → ccurv e !! k = Some ""%string.
