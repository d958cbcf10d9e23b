(** What the result of [extrude_mid] is expected to look like. Independent of the model of extrude_mid. *)
From Verif Require Import Base Mesh Core Curve MeshSpec ExtrudeSpec.
From Coq Require Import Lia.
Open Scope Z_scope.

Section Spec.
Context {A : arith}.
Notation N := (num A).
Implicit Types (m : hexa N) (e : elem N) (r : bcrec N).

(** Products of natural numbers are exact up to [bnd]. *)
Definition mul_law (bnd : Z) : Prop :=
  ∀ x y, 0 <= x <= bnd → 0 <= y <= bnd → x * y <= bnd → nmul (nofZ (a:=A) x) (nofZ y) = nofZ (x * y).

(** A corner of a 2D element is given by its indices (j, i) in y and x. It is low if the splitting function is not
    positive there. *)
Definition low (f : N → N → N) e (j i : nat) : bool :=
  match point e 0 j i with Some (x, y, _) => nleb (f x y) (nofZ 0) | None => false end.
Definition low_corners (f : N → N → N) e : nat :=
  length (List.filter (λ c, low f e (fst c) (snd c)) [(0, 0); (0, 1); (1, 0); (1, 1)]%nat).
(** The cut goes from one side of the element to the opposite one. *)
Definition cut_across (f : N → N → N) e : Prop :=
  (low f e 0 0 = low f e 1 0 ∧ low f e 0 1 = low f e 1 1 ∧ low f e 0 0 ≠ low f e 0 1) ∨
  (low f e 0 0 = low f e 0 1 ∧ low f e 1 0 = low f e 1 1 ∧ low f e 0 0 ≠ low f e 1 0).
(** The two ends of side (edge, face) n. *)
Definition side_ends (n : nat) : (nat * nat) * (nat * nat) :=
  nth n [((0, 0), (0, 1)); ((0, 1), (1, 1)); ((1, 0), (1, 1)); ((0, 0), (1, 0))]%nat ((0, 0), (0, 0))%nat.
Definition side_low (f : N → N → N) e (n : nat) : bool * bool :=
  let '((j, i), (j', i')) := side_ends n in (low f e j i, low f e j' i').
(** A side is cut if one end is low and the other is not. *)
Definition side_cut (f : N → N → N) e (n : nat) : Prop := (n < 4)%nat ∧ fst (side_low f e n) ≠ snd (side_low f e n).
(** The middle of the cut side that ends in a corner. *)
Definition cut_point (f : N → N → N) e (j i : nat) (p : vec (A:=A)) : Prop :=
  ∃ n e', side_cut f e n ∧ (fst (side_ends n) = (j, i) ∨ snd (side_ends n) = (j, i)) ∧ edge_mid e n = Ok (p, e').

(** The six elements made of one element and four layers, between z_0 and z_4, seen along the cut:
<<
      low            high
   4  +-------+-------+
      |   5   |   4   |
   3  +-------+_      |
      |     3   \_    |
   2  +---------------+
      |     2   _/    |
   1  +-------+/      |
      |   0   |   1   |
   0  +-------+-------+
>>
    For element n, at its bottom (0) or top (1) and at its low or high side: is the vertex at the cut (true) or at the
    corner (false), and which z? *)
Definition place (n level : nat) (is_low : bool) : bool * nat :=
  match n, level, is_low with
  | 0, 0, true => (false, 0) | 0, 0, false => (true, 0)
  | 0, _, true => (false, 1) | 0, _, false => (true, 1)
  | 1, 0, true => (true, 0) | 1, 0, false => (false, 0)
  | 1, _, true => (true, 1) | 1, _, false => (false, 2)
  | 2, 0, true => (false, 1) | 2, 0, false => (true, 1)
  | 2, _, true => (false, 2) | 2, _, false => (false, 2)
  | 3, 0, true => (false, 2) | 3, 0, false => (false, 2)
  | 3, _, true => (false, 3) | 3, _, false => (true, 3)
  | 4, 0, true => (true, 3) | 4, 0, false => (false, 2)
  | 4, _, true => (true, 4) | 4, _, false => (false, 4)
  | _, 0, true => (false, 3) | _, 0, false => (true, 3)
  | _, _, true => (false, 4) | _, _, false => (true, 4)
  end%nat.
Definition is_sixth (f : N → N → N) e2 (zz : nat → N) (n : nat) e : Prop :=
  eshape e = (2, 2, 2)%nat ∧
  ∀ level j i, (level < 2)%nat → (j < 2)%nat → (i < 2)%nat →
    let '(at_cut, h) := place n level (low f e2 j i) in
    ∃ x y z, (if at_cut then cut_point f e2 j i (x, y, z) else point e2 0 j i = Some (x, y, z)) ∧
      point e level j i = Some (x, y, zz h).
(** The number of element n made of element i and of the k-th four layers. *)
Definition sixth (nel2d k i n : nat) : nat := (6 * (i + nel2d * k) + n)%nat.
Definition is_mid_stack (f : N → N → N) m (z : list N) m3 : Prop :=
  let q := ((length z - 1) / 4)%nat in
  ndim m3 = 3%nat ∧ nel m3 = (6 * nel m * q)%nat ∧ length (elems m3) = nel m3 ∧ lr1 m3 = [2; 2; 2]%nat ∧
  nbc m3 = nbc m ∧ ncurv m3 = curved_total m3 ∧
  ∀ k i e2 n, (k < q)%nat → elems m !! i = Some e2 → (n < 6)%nat →
    ∃ e, elems m3 !! sixth (nel m) k i n = Some e ∧ is_sixth f e2 (λ h, nth (4 * k + h) z (nofZ 0)) n e.

(** What the code can work on: the arrays of curvature have their size and no side has curvature s. *)
Definition curvature_ok e : Prop :=
  length (ccurv e) = 12%nat ∧ length (curv e) = 12%nat ∧ (∀ row, row ∈ curv e → length row = 5%nat) ∧
  ∀ c, (c < 4)%nat → ccurv e !! c ≠ Some "s"%string.
Definition no_arcs e : Prop := ∀ c, (c < 4)%nat → ccurv e !! c ≠ Some "C"%string.
(** The sides that are not cut are not connected. *)
Definition free_sides (f : N → N → N) m : Prop :=
  ∀ i e b n r, elems m !! i = Some e → in_mesh m i b n → get_bc m i b n = Some r → ¬ side_cut f e n → ¬ is_conn (bt r).
(** Connected elements of the 2D mesh share the ends and the middle of the side. *)
Definition same_side e n e' n' : Prop :=
  let '((j1, i1), (j2, i2)) := side_ends n in let '((j1', i1'), (j2', i2')) := side_ends n' in
  (point e 0 j1 i1 = point e' 0 j1' i1' ∧ point e 0 j2 i2 = point e' 0 j2' i2' ∨
   point e 0 j1 i1 = point e' 0 j2' i2' ∧ point e 0 j2 i2 = point e' 0 j1' i1') ∧
  ∃ p a a', edge_mid e n = Ok (p, a) ∧ edge_mid e' n' = Ok (p, a').
Definition shared_sides m : Prop :=
  ∀ i b n r j n' e e', in_mesh m i b n → get_bc m i b n = Some r → bt r = "E"%string → points r j n' →
    in_mesh m j b n' → elems m !! i = Some e → elems m !! j = Some e' → same_side e n e' n'.

(** The vertices of a face of a 3D element, as (level, j, i). *)
Definition face_vertices (g : nat) : list (nat * nat * nat) :=
  nth g [[(0, 0, 0); (1, 0, 0); (0, 0, 1); (1, 0, 1)]; [(0, 0, 1); (1, 0, 1); (0, 1, 1); (1, 1, 1)];
         [(0, 1, 0); (1, 1, 0); (0, 1, 1); (1, 1, 1)]; [(0, 0, 0); (1, 0, 0); (0, 1, 0); (1, 1, 0)];
         [(0, 0, 0); (0, 1, 0); (0, 0, 1); (0, 1, 1)]; [(1, 0, 0); (1, 1, 0); (1, 0, 1); (1, 1, 1)]]%nat [].
Definition face_points e (g : nat) : list (option (N * N * N)) := (λ '(l, j, i), point e l j i) <$> face_vertices g.
(** Internal faces have the same vertices as the faces they name. *)
Definition conforming m : Prop :=
  ∀ i b g r j g' e e', in_mesh m i b g → get_bc m i b g = Some r → bt r = "E"%string → points r j g' →
    in_mesh m j b g' → elems m !! i = Some e → elems m !! j = Some e' →
    face_points e g ≡ₚ face_points e' g' ∧ Forall is_Some (face_points e g).

(** The conditions: the sides carry those of the 2D mesh, the two ends those given; the other faces are internal. *)
Definition outer_entry (f : N → N → N) m (q : nat) (c1 c2 : nat → string) (k i n b g : nat) e2 (t : string) : Prop :=
  (side_cut f e2 g → ∃ r, get_bc m i b g = Some r ∧ t = bt r) ∧
  ((g < 4)%nat → side_low f e2 g = (true, true) → n ∈ [0; 2; 3; 5]%nat → ∃ r, get_bc m i b g = Some r ∧ t = bt r) ∧
  ((g < 4)%nat → side_low f e2 g = (false, false) → n ∈ [1; 4]%nat → ∃ r, get_bc m i b g = Some r ∧ t = bt r) ∧
  (g = 4%nat → k = 0%nat → n ∈ [0; 1]%nat → t = c1 b) ∧
  (g = 5%nat → k = (q - 1)%nat → n ∈ [4; 5]%nat → t = c2 b) ∧
  (¬ side_cut f e2 g → ¬ ((g < 4)%nat ∧ side_low f e2 g = (true, true) ∧ n ∈ [0; 2; 3; 5]%nat) →
   ¬ ((g < 4)%nat ∧ side_low f e2 g = (false, false) ∧ n ∈ [1; 4]%nat) →
   ¬ (g = 4%nat ∧ k = 0%nat ∧ n ∈ [0; 1]%nat) → ¬ (g = 5%nat ∧ k = (q - 1)%nat ∧ n ∈ [4; 5]%nat) → t = "E"%string).
End Spec.
