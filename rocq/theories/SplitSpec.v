(** What the result of [extrude_refine] is expected to look like. Independent of the model of extrude_refine. *)
From Verif Require Import Base Mesh Core Tools Curve MeshSpec MergeSpec ExtrudeSpec MidSpec.
From Coq Require Import Lia.
Open Scope Z_scope.

(** The parts of the 2D mesh: inside the k-th line, cut by it, and outside of all. *)
Inductive part := Inner (k : nat) | Middle (k : nat) | Outer.
Global Instance part_eq_dec : EqDecision part.
Proof. solve_decision. Defined.
(** Their order in the new mesh. *)
Definition parts (n : nat) : list part := Outer :: (range n ≫= λ k, [Inner k; Middle k]).

(** How many layers of the finest mesh make one layer of part k, and one layer of the finer side of its outer boundary. The
    part number h is the finest. *)
Definition coarse (h : Z) (k : nat) : nat := Z.to_nat (2 ^ Z.abs (Z.of_nat k - h)).
Definition coarse_mid (h : Z) (k : nat) : nat := if decide (Z.of_nat k < h) then coarse h (k + 1) else coarse h k.
(** [zl] has every s-th value of [z]. *)
Definition sampled {B} (s : nat) (z zl : list B) : Prop := ∀ p, zl !! p = z !! (s * p)%nat.

Section Spec.
Context {A : arith}.
Notation N := (num A).
Implicit Types (m : hexa N) (e : elem N) (r : bcrec N) (f : N → N → N).

Definition all_corners (p : N → bool) f e : bool :=
  forallb (λ '(j, i), match point e 0 j i with Some (x, y, _) => p (f x y) | None => false end) [(0, 0); (0, 1); (1, 0); (1, 1)]%nat.
(** An element belongs to the first function that is not positive in all its corners: inside if it is nowhere positive,
    in the middle otherwise. *)
Fixpoint part_from (k : nat) (fs : list (N → N → N)) e : part :=
  match fs with
  | [] => Outer
  | f :: fs => if all_corners (λ v, nleb v (nofZ 0)) f e then Inner k
               else if all_corners (λ v, nltb (nofZ 0) v) f e then part_from (S k) fs e else Middle k
  end.
Definition part_of := part_from 0.

(** [es3] are the elements [es2] swept through zl. *)
Definition slabs (es2 : list (elem N)) (zl : list N) (es3 : list (elem N)) : Prop :=
  length es3 = (length es2 * (length zl - 1))%nat ∧
  ∀ k i e2 z1 z2, zl !! k = Some z1 → zl !! (k + 1)%nat = Some z2 → es2 !! i = Some e2 →
    ∃ e, es3 !! (i + length es2 * k)%nat = Some e ∧ is_slab e2 z1 z2 e.
(** [es3] are the elements [es2] cut into six for every four layers of zl. *)
Definition sixths f (es2 : list (elem N)) (zl : list N) (es3 : list (elem N)) : Prop :=
  let q := ((length zl - 1) / 4)%nat in
  length es3 = (6 * length es2 * q)%nat ∧
  ∀ k i e2 n, (k < q)%nat → es2 !! i = Some e2 → (n < 6)%nat →
    ∃ e, es3 !! sixth (length es2) k i n = Some e ∧ is_sixth f e2 (λ h, nth (4 * k + h) zl (nofZ 0)) n e.

(** The part of the new mesh made of the elements [es2] of one part of the 2D mesh. The finer side of a middle element is
    the inner one, unless the finest part is further outside. *)
Definition finer (h : Z) (k : nat) f : N → N → N := λ x y, if decide (Z.of_nat k < h) then nopp (f x y) else f x y.
Definition is_part (fs : list (N → N → N)) (h : Z) (z : list N) (es2 : list (elem N)) (p : part) (es3 : list (elem N)) : Prop :=
  match p with
  | Inner k => ∃ zl, sampled (coarse h k) z zl ∧ slabs es2 zl es3
  | Middle k => ∃ zl f, sampled (coarse_mid h k) z zl ∧ fs !! k = Some f ∧ sixths (finer h k f) es2 zl es3
  | Outer => ∃ zl, sampled (coarse h (length fs)) z zl ∧ slabs es2 zl es3
  end.
Definition is_refined (fs : list (N → N → N)) (h : Z) m (z : list N) m3 : Prop :=
  ndim m3 = 3%nat ∧ length (elems m3) = nel m3 ∧ lr1 m3 = [2; 2; 2]%nat ∧ nbc m3 = nbc m ∧ ncurv m3 = curved_total m3 ∧
  ∃ block : part → list (elem N), elems m3 = parts (length fs) ≫= block ∧
    ∀ p, p ∈ parts (length fs) → is_part fs h z (filter (λ e, part_of fs e = p) (elems m)) p (block p).

(** A splitting function with its parameter. *)
Definition with_par {P} (F : N → N → P → N) (p : P) : N → N → N := λ x y, F x y p.
(** A splitting function gives a number in every corner. *)
Definition defined_at f e : Prop := ∀ j i x y z, point e 0 j i = Some (x, y, z) → nisnan (f x y) = false.
(** The middle elements can be cut. *)
Definition cuttable (fs : list (N → N → N)) (h : Z) m : Prop := ∀ k f e, fs !! k = Some f → e ∈ elems m → part_of fs e = Middle k →
  curvature_ok e ∧ no_arcs e ∧ cut_across (finer h k f) e.

(** ** The conditions of the new mesh *)
(** The condition of face f of an element. *)
Definition entry e (b f : nat) : option (bcrec N) := row ← bcs e !! b; row !! f.
(** The type [t] of a face made of side f of the 2D element [e2]: that of the side, unless the side connects to an element of
    another part. *)
Definition side_type (fs : list (N → N → N)) m e2 (b f : nat) (t : string) : Prop :=
  ∃ r2, entry e2 b f = Some r2 ∧ (¬ is_conn (bt r2) → t = bt r2) ∧
    (is_conn (bt r2) → ∀ j g e', elems m !! j = Some e' → points r2 j g →
       t = if decide (part_of fs e' = part_of fs e2) then bt r2 else "con"%string).
(** Layer k of nl of a swept element: the given conditions are at both ends, between the layers are internal faces. *)
Definition slab_type (fs : list (N → N → N)) m (c1 c2 : nat → string) (nl k : nat) e2 (b f : nat) (t : string) : Prop :=
  ((f < 4)%nat → side_type fs m e2 b f t) ∧
  (f = 4%nat → t = if decide (k = 0%nat) then c1 b else "E"%string) ∧
  (f = 5%nat → t = if decide (k = nl - 1)%nat then c2 b else "E"%string).
(** Piece n of layer k of q of an element that is cut. *)
Definition sixth_type (fs : list (N → N → N)) m (c1 c2 : nat → string) (q : nat) (fn : N → N → N) (k n : nat) e2 (b f : nat) (t : string) : Prop :=
  let outer_low := (f < 4)%nat ∧ side_low fn e2 f = (true, true) ∧ n ∈ [0; 2; 3; 5]%nat in
  let outer_high := (f < 4)%nat ∧ side_low fn e2 f = (false, false) ∧ n ∈ [1; 4]%nat in
  let first := f = 4%nat ∧ k = 0%nat ∧ n ∈ [0; 1]%nat in
  let last := f = 5%nat ∧ k = (q - 1)%nat ∧ n ∈ [4; 5]%nat in
  (side_cut fn e2 f ∨ outer_low ∨ outer_high → side_type fs m e2 b f t) ∧ (first → t = c1 b) ∧ (last → t = c2 b) ∧
  (¬ side_cut fn e2 f → ¬ outer_low → ¬ outer_high → ¬ first → ¬ last → t = "E"%string).
(** Merging the parts connects faces that are at the same place. *)
Definition same_place (tol : N) e (f : nat) e' (f' : nat) : Prop :=
  ∃ c c' s s', face_center e (Z.of_nat f) = Ok c ∧ face_center e' (Z.of_nat f') = Ok c' ∧
    smallest_edge e = Ok s ∧ smallest_edge e' = Ok s' ∧ nleb (nsqrt (dist2 c c')) (nmul tol (pymin s s')) = true.
Definition joined (per : Prop) m3 e (f : nat) r : Prop :=
  (bt r = "E"%string ∧ ∃ j g e', elems m3 !! j = Some e' ∧ (g < 6)%nat ∧ points r j g ∧
     (same_place (nlit 1 100) e f e' g ∨ same_place (nlit 1 100) e' g e f)) ∨
  (bt r = "P"%string ∧ per).
Definition part_types (fs : list (N → N → N)) (h : Z) m (nz : nat) (c1 c2 : nat → string) (ok : elem N → nat → bcrec N → Prop)
    (p : part) (es3 : list (elem N)) : Prop :=
  let es2 := filter (λ e, part_of fs e = p) (elems m) in
  let slabs_ok nl := ∀ k i e2 e b (f : nat) r, (k < nl)%nat → es2 !! i = Some e2 → es3 !! (i + length es2 * k)%nat = Some e →
    (b < nbc m)%nat → (f < 6)%nat → entry e b f = Some r → slab_type fs m c1 c2 nl k e2 b f (bt r) ∨ ok e f r in
  match p with
  | Inner k => slabs_ok (nz / coarse h k)%nat
  | Outer => slabs_ok (nz / coarse h (length fs))%nat
  | Middle k => let q := (nz / (4 * coarse_mid h k))%nat in
      ∀ fn k' i n e2 e b (f : nat) r, fs !! k = Some fn → (k' < q)%nat → es2 !! i = Some e2 → (n < 6)%nat → es3 !! sixth (length es2) k' i n = Some e →
        (b < nbc m)%nat → (f < 6)%nat → entry e b f = Some r → sixth_type fs m c1 c2 q (finer h k fn) k' n e2 b f (bt r) ∨ ok e f r
  end.
(** All the parts, with [block p] the elements of part p in the new mesh. *)
Definition has_types (fs : list (N → N → N)) (h : Z) m (nz : nat) (c1 c2 : nat → string) m3 (block : part → list (elem N)) : Prop :=
  let per := some_periodic m ∨ ∃ b, (b < nbc m)%nat ∧ c1 b = "P"%string in
  ∀ p, p ∈ parts (length fs) → part_types fs h m nz c1 c2 (joined per m3) p (block p).

(** The number of elements made of one element. *)
Definition copies (n : nat) (h : Z) (nz : nat) (p : part) : nat :=
  match p with
  | Inner k => nz / coarse h k
  | Middle k => 6 * (nz / (4 * coarse_mid h k))
  | Outer => nz / coarse h n
  end%nat.
End Spec.
