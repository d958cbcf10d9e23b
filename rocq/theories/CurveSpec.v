(** Rotations, edges and circles in the plane and in space. *)
From Coq Require Import Lia Reals.
From Verif Require Import Base Mesh Float.
Open Scope Z_scope.

(** ** Points of the real plane and space *)
Definition pt : Type := R * R * R.
Definition dist2_plane (p q : pt) : R := let '(a, b, _) := p in let '(x, y, _) := q in ((a - x) ^ 2 + (b - y) ^ 2)%R.
Definition dist2_space (p q : pt) : R := let '(a, b, c) := p in let '(x, y, z) := q in ((a - x) ^ 2 + (b - y) ^ 2 + (c - z) ^ 2)%R.
(** The rotation by [theta] about the axis through (x0, y0) in direction z. *)
Definition rotation (x0 y0 theta : R) (p : pt) : pt :=
  let '(x, y, z) := p in
  (x0 + (cos theta * (x - x0) - sin theta * (y - y0)), y0 + (sin theta * (x - x0) + cos theta * (y - y0)), z)%R.

(** ** The edges of an element *)
(** The corners of a face in the plane of x and y, counter-clockwise, and the twelve edges: four at the lower z, four
    at the upper z, four between. *)
Definition corner (k : nat) : nat * nat := match (k mod 4)%nat with 0 => (0, 0) | 1 => (0, 1) | 2 => (1, 1) | _ => (1, 0) end%nat.
Definition corner_at {N} (e : elem N) (level k : nat) : option (N * N * N) := let '(iy, ix) := corner k in point e level iy ix.
Definition ends {N} (e : elem N) (iedge : nat) (p1 p2 : N * N * N) : Prop :=
  (iedge < 4 ∧ corner_at e 0 iedge = Some p1 ∧ corner_at e 0 (iedge + 1) = Some p2 ∨
   4 <= iedge < 8 ∧ corner_at e 1 iedge = Some p1 ∧ corner_at e 1 (iedge + 1) = Some p2 ∨
   8 <= iedge < 12 ∧ corner_at e 0 iedge = Some p1 ∧ corner_at e 1 iedge = Some p2)%nat.
(** The type of the curvature of an edge, and its five numbers. *)
Definition edge_type {N} (e : elem N) (iedge : nat) (t : string) : Prop := ccurv e !! iedge = Some t.
Definition edge_row {N} (e : elem N) (iedge : nat) (r : list N) : Prop := curv e !! iedge = Some r.

(** ** Circles *)
(** [v] is the middle of an arc of radius |r| from [p1] to [p2], no longer than half of the circle and on the right
    hand of someone who goes from [p1] to [p2] if r is positive, on the left hand if it is negative. *)
Definition cross_plane (p1 p2 v : pt) : R :=
  let '(a, b, _) := p1 in let '(x, y, _) := p2 in let '(u, w, _) := v in ((x - a) * (w - b) - (y - b) * (u - a))%R.
Definition middle_of (p q : pt) : pt := let '(a, b, c) := p in let '(x, y, z) := q in ((a + x) / 2, (b + y) / 2, (c + z) / 2)%R.
Definition arc_middle (r : R) (p1 p2 v : pt) : Prop :=
  (∃ c, dist2_plane c p1 = (r ^ 2)%R ∧ dist2_plane c p2 = (r ^ 2)%R ∧ dist2_plane c v = (r ^ 2)%R) ∧
  dist2_plane v p1 = dist2_plane v p2 ∧ (dist2_plane v (middle_of p1 p2) <= r ^ 2)%R ∧ (r * cross_plane p1 p2 v <= 0)%R ∧ v.2 = (middle_of p1 p2).2.
(** Seen from [m], the directions to [p1] and [p2] make an angle whose sine is at most 0.0002. *)
Definition cross2_space (p1 p2 m : pt) : R :=
  let '(a, b, c) := p1 in let '(x, y, z) := p2 in let '(u, v, w) := m in
  (((b - v) * (z - w) - (c - w) * (y - v)) ^ 2 + ((c - w) * (x - u) - (a - u) * (z - w)) ^ 2 + ((a - u) * (y - v) - (b - v) * (x - u)) ^ 2)%R.
Definition nearly_aligned (p1 p2 m : pt) : Prop := (cross2_space p1 p2 m <= (2 / 10000) ^ 2 * (dist2_space p1 m * dist2_space p2 m))%R.

(** ** Elements *)
(** The arrays of the curvature have the sizes given to them when an element is made. *)
Definition wf_curves {N} (e : elem N) : Prop :=
  length (curv e) = 12%nat ∧ Forall (λ r, length r = 5%nat) (curv e) ∧ length (ccurv e) = 12%nat.
(** Everything but positions and curvature is the same. *)
Definition same_data {N} (e e' : elem N) : Prop :=
  eshape e' = eshape e ∧ vel e' = vel e ∧ pres e' = pres e ∧ temp e' = temp e ∧ scal e' = scal e ∧ bcs e' = bcs e.
(** Every point and every stored midpoint is moved by [g]; other kinds of curvature are not changed. *)
Definition moved (g : pt → pt) (e e' : elem R) : Prop :=
  same_data e e' ∧ ccurv e' = ccurv e ∧ length (curv e') = length (curv e) ∧
  (∀ k j i p, point e k j i = Some p → point e' k j i = Some (g p)) ∧
  (∀ i a b c d f, ccurv e !! i = Some "m"%string → curv e !! i = Some [a; b; c; d; f] →
     let '(a', b', c') := g (a, b, c) in curv e' !! i = Some [a'; b'; c'; d; f]) ∧
  (∀ i, ccurv e !! i ≠ Some "m"%string → curv e' !! i = curv e !! i).

(** ** Transformations of the plane *)
(** The edges that [map2D] is asked to curve. *)
Definition to_curve {N} (curvature boundary_curvature : bool) (e : elem N) (i : nat) : Prop :=
  curvature = true ∨ (∃ t, ccurv e !! i = Some t ∧ t ≠ ""%string) ∨
  boundary_curvature = true ∧ ∃ row r, bcs e !! 0%nat = Some row ∧ row !! i = Some r ∧ bt r ≠ ""%string ∧ bt r ≠ "E"%string.
(** [e'] is the image of the two-dimensional element [e]: corners go to their images, and so do the middles [mid i] of
    the edges to be curved; the other edges stay as they are. *)
Definition mapped {N} (f : N → N → N * N) (curvature boundary_curvature : bool) (mid : nat → N * N * N) (e e' : elem N) : Prop :=
  same_data e e' ∧ length (curv e') = 12%nat ∧ length (ccurv e') = 12%nat ∧
  (∀ j i x y z, point e 0 j i = Some (x, y, z) → point e' 0 j i = Some ((f x y).1, (f x y).2, z)) ∧
  (∀ i, (i < 4)%nat → to_curve curvature boundary_curvature e i →
     ccurv e' !! i = Some "m"%string ∧ ∃ x y z row, mid i = (x, y, z) ∧ curv e !! i = Some row ∧ curv e' !! i = Some ((f x y).1 :: (f x y).2 :: drop 2 row)) ∧
  (∀ i, (4 <= i)%nat ∨ ¬ to_curve curvature boundary_curvature e i → ccurv e' !! i = ccurv e !! i ∧ curv e' !! i = curv e !! i).
(** A two-dimensional element with conditions for one field at least. *)
Definition element2d {N} (e : elem N) : Prop :=
  eshape e = (2, 2, 1)%nat ∧ length (pos e) = 3%nat ∧ (∀ c, c ∈ pos e → length c = 4%nat) ∧ wf_curves e ∧
  ∃ row, bcs e !! 0%nat = Some row ∧ length row = 6%nat.
