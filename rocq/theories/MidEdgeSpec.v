(** The edges of the elements that [extrude_mid] makes: which curve each of them is expected to be. *)
From Verif Require Import Base Mesh Core Curve MeshSpec MidSpec.
From Coq Require Import Lia.
Open Scope Z_scope.

Section Spec.
Context {A : arith}.
Notation N := (num A).
Implicit Types (m : hexa N) (e : elem N).

(** An edge is straight, or it is given by a point in its middle (type m). *)
Definition plain_edge e (c : nat) : Prop := ccurv e !! c = Some ""%string ∨ ccurv e !! c = Some "m"%string.
(** A 2D element whose sides are so; its edges in z are straight. *)
Definition plain_sides e : Prop := (∀ c, (c < 4)%nat → plain_edge e c) ∧ (∀ c, (8 ≤ c < 12)%nat → ccurv e !! c = Some ""%string).
Definition edge_middle e (c : nat) : option (N * N * N) :=
  match ccurv e !! c, curv e !! c with
  | Some "m"%string, Some (x :: y :: z :: _) => Some (x, y, z)
  | _, _ => None
  end.
(** The type of an edge with a point in its middle, or without. *)
Definition type_of (o : option (N * N * N)) : string := match o with Some _ => "m"%string | None => ""%string end.
(** The point in the middle of an edge of a 2D element, also of a straight one. *)
Definition middle_of e (n : nat) : N * N * N := match edge_mid e n with Ok (v, _) => v | Raise _ => (nofZ 0, nofZ 0, nofZ 0) end.
Definition corner_of e (j i : nat) : N * N * N := match point e 0 j i with Some p => p | None => (nofZ 0, nofZ 0, nofZ 0) end.

(** What is to be known of a 2D element: which corners are low, where the corners are, where the middles of the four sides
    are, and which sides are bent. *)
Record cut_elem := CutElem { is_low : nat → nat → bool; at_corner : nat → nat → N * N * N; at_middle : nat → N * N * N; bent : nat → option (N * N * N) }.
Definition pick4 {X} (a b c d : X) (j i : nat) : X := match j, i with 0, 0 => a | 0, _ => b | _, 0 => c | _, _ => d end%nat.
Definition pick_side {X} (a b c d : X) (n : nat) : X := match n with 0 => a | 1 => b | 2 => c | _ => d end%nat.
Definition cut_of (f : N → N → N) e : cut_elem :=
  CutElem (pick4 (low f e 0 0) (low f e 0 1) (low f e 1 0) (low f e 1 1))
    (pick4 (corner_of e 0 0) (corner_of e 0 1) (corner_of e 1 0) (corner_of e 1 1))
    (pick_side (middle_of e 0) (middle_of e 1) (middle_of e 2) (middle_of e 3))
    (pick_side (edge_middle e 0) (edge_middle e 1) (edge_middle e 2) (edge_middle e 3)).

(** The half of a cut side at the low end and the half at the high end: their middles. [lo] and [hi] are the ends of the
    side, [mid] is its middle: half way to the middle, and a quarter of the height of the side above that. *)
Definition side_halves (lo mid hi : N * N * N) : (N * N) * (N * N) :=
  let '(xl, yl, _) := lo in let '(xm, ym, _) := mid in let '(xh, yh, _) := hi in
  let height := ndiv (nsub (nmul (nsub xh xl) (nsub yl ym)) (nmul (nsub xl xm) (nsub yh yl))) (nadd (nsq (nsub xh xl)) (nsq (nsub yh yl))) in
  let q := ndiv height (nofZ 4) in
  ((nadd (nmul (nlit 1 2) (nadd xl xm)) (nmul q (nsub yh yl)), nsub (nmul (nlit 1 2) (nadd yl ym)) (nmul q (nsub xh xl))),
   (nadd (nmul (nlit 1 2) (nadd xm xh)) (nmul q (nsub yh yl)), nsub (nmul (nlit 1 2) (nadd ym yh)) (nmul q (nsub xh xl)))).
(** The middle of the cut between the cut points ma and mb: it bends by the mean of what the low and the high side bend. *)
Definition bend (ma mb mhi ha hb mlo la lb : N * N * N) : N * N :=
  let h (v : vec (A:=A)) := vmul v (nlit 1 2) in
  let '(x, y, _) := vadd (h (vadd ma mb)) (h (vsub (vadd (vsub mhi (h (vadd ha hb))) mlo) (h (vadd la lb)))) in (x, y).

(** The low side, the high side and the two cut sides. *)
Definition sides_of (d : cut_elem) : nat * nat * nat * nat :=
  (if is_low d 0 0 then (if is_low d 1 0 then (3, 1, 0, 2) else (0, 2, 3, 1))
   else if is_low d 1 0 then (2, 0, 3, 1) else (1, 3, 0, 2))%nat.
Definition end_of (d : cut_elem) (want_low : bool) (n : nat) : N * N * N :=
  let '((j, i), (j', i')) := side_ends n in if Bool.eqb (is_low d j i) want_low then at_corner d j i else at_corner d j' i'.
Definition half_of (d : cut_elem) (far : bool) (n : nat) : option (N * N) :=
  mid ← bent d n; let '(near, distant) := side_halves (end_of d true n) mid (end_of d false n) in Some (if far then distant else near).
Definition whole_side (d : cut_elem) (n : nat) : option (N * N) := '(x, y, _) ← bent d n; Some (x, y).
Definition cut_middle (d : cut_elem) : option (N * N) :=
  let '(lo, hi, a, b) := sides_of d in
  match bent d lo, bent d hi with
  | None, None => None
  | _, _ => Some (bend (at_middle d a) (at_middle d b) (at_middle d hi) (end_of d false a) (end_of d false b)
                       (at_middle d lo) (end_of d true a) (end_of d true b))
  end.
Definition cut_side_at (d : cut_elem) (j i : nat) : nat :=
  let '(_, _, a, b) := sides_of d in if bool_decide ((side_ends a).1 = (j, i) ∨ (side_ends a).2 = (j, i)) then a else b.

(** Edge c of element n: which part of which side it is, or the cut, or a straight edge; and its z. [zz] gives the five z. *)
Definition expected (d : cut_elem) (zz : nat → N) (n c : nat) : option (N * N * N) :=
  match edge_ends c with
  | None => None
  | Some ((l, j, i), (l', j', i')) =>
    let '(k, h) := place n l (is_low d j i) in let '(k', h') := place n l' (is_low d j' i') in
    let z := if (h =? h')%nat then zz h else nmul (nlit 1 2) (nadd (zz (Nat.min h h')) (zz (Nat.max h h'))) in
    let curve :=
      if (c <? 8)%nat then
        let s := (c mod 4)%nat in
        if Bool.eqb (is_low d j i) (is_low d j' i') then (if k then cut_middle d else whole_side d s)
        else if k || k' then half_of d (if is_low d j i then k else k') s
        else whole_side d s
      else if Bool.eqb k k' then None else half_of d true (cut_side_at d j i) in
    '(x, y) ← curve; Some (x, y, z)
  end.

(** ** Edges that two elements share *)
Definition xy (p : N * N * N) : N * N := (fst (fst p), snd (fst p)).
(** Edge c of a 3D element runs from p to q. *)
Definition edge_at e (c : nat) (p q : N * N * N) : Prop :=
  ∃ l j i l' j' i', edge_ends c = Some ((l, j, i), (l', j', i')) ∧ point e l j i = Some p ∧ point e l' j' i' = Some q.
(** Two edges with the same ends are the same curve. *)
Definition edges_fit m : Prop :=
  ∀ i i' e e' c c' p q, elems m !! i = Some e → elems m !! i' = Some e' → (c < 12)%nat → (c' < 12)%nat →
    edge_at e c p q → edge_at e' c' p q ∨ edge_at e' c' q p →
    plain_edge e c ∧ ccurv e !! c = ccurv e' !! c' ∧ edge_middle e c = edge_middle e' c'.
(** The same in a 2D mesh, seen from above. *)
Definition side_at e (n : nat) (P Q : N * N) : Prop :=
  let '((j, i), (j', i')) := side_ends n in P = xy (corner_of e j i) ∧ Q = xy (corner_of e j' i').
Definition same_side_ends e n e' n' : Prop := ∃ P Q, side_at e n P Q ∧ (side_at e' n' P Q ∨ side_at e' n' Q P).
Definition sides_agree m : Prop :=
  ∀ e e' n n', e ∈ elems m → e' ∈ elems m → (n < 4)%nat → (n' < 4)%nat → same_side_ends e n e' n' →
    xy <$> edge_middle e n = xy <$> edge_middle e' n'.
(** The points where sides are cut are no corners, and different sides are cut in different points. *)
Definition cuts_apart (f : N → N → N) m : Prop :=
  ∀ e e' n, e ∈ elems m → e' ∈ elems m → side_cut f e n →
    (∀ j i, (j < 2)%nat → (i < 2)%nat → xy (middle_of e n) ≠ xy (corner_of e' j i)) ∧
    (∀ n', side_cut f e' n' → xy (middle_of e n) = xy (middle_of e' n') → same_side_ends e n e' n').
(** No element has its corners among those of another. *)
Definition no_twins m : Prop :=
  ∀ i i' e e', elems m !! i = Some e → elems m !! i' = Some e' →
    (∀ j k, (j < 2)%nat → (k < 2)%nat → ∃ j' k', (j' < 2)%nat ∧ (k' < 2)%nat ∧ xy (corner_of e j k) = xy (corner_of e' j' k')) → i = i'.
End Spec.
