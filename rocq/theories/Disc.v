(** [gen_circle] of /repo/src/pymech/meshtools.py (1522-1795). *)
From Verif Require Import Base Mesh Core Tools.
From Coq Require Import Lia.
Open Scope Z_scope.

(** The functions and the constant of Python's math module. *)
Record trig (N : Type) := Trig { cosf : N → N; sinf : N → N; atanf : N → N; pi : N }.
Arguments cosf {N}. Arguments sinf {N}. Arguments atanf {N}. Arguments pi {N}. Arguments Trig {N}.

Section disc.
Context {A : arith} (T : trig (num A)).
Local Notation N := (num A).
Implicit Types (e : elem N) (m : hexa N).

Definition half : N := nlit 1 2.
Definition nof (n : nat) : N := nofZ (Z.of_nat n).
(** [i / n] for integers. Simplification: the division by zero of Python is not modelled; n is not 0 where it is used. *)
Definition frac (i n : nat) : N := ndiv (nof i) (nof n).
(** Lines 1665-1673: the coordinates of the grid lines of the square; [c] is s * r * sqrt(2) (line 1664). *)
Definition diagonal (r s : N) : N := nmul (nmul s r) (nsqrt (nofZ 2)).
Definition square_coord (c : N) (ns i : nat) : N := nmul c (nsub (frac i ns) half).
(** Lines 1697-1746: the corner number [j] along the square and [i] along the radius of the quarter of the O mesh. The
    code computes the four corners of an element with the same formulas. *)
Definition o_corner (curvature_fun bl_fun : N → N) (r c : N) (ns no j i : nat) : N * N :=
  let one := nofZ 1 in
  let alpha := nmul (nmul half (pi T)) (nsub (frac j ns) half) in
  let beta := atanf T (nsub (ndiv (nofZ (2 * Z.of_nat j)) (nof ns)) one) in
  let l_sa := ndiv (nmul half c) (cosf T alpha) in
  let l_sb := ndiv (nmul half c) (cosf T beta) in
  let l_c := nsub r l_sa in
  let l_h := nsub (ndiv (nmul (nmul half (nsqrt (nofZ 2))) r) (cosf T beta)) l_sb in
  let eta := bl_fun (frac i no) in
  let gamma := curvature_fun eta in
  let d_c := nadd l_sa (nmul eta l_c) in
  let d_h := nadd l_sb (nmul eta l_h) in
  let theta := nadd (nmul gamma alpha) (nmul (nsub one gamma) beta) in
  let d := nadd (nmul gamma d_c) (nmul (nsub one gamma) d_h) in
  (nmul d (cosf T theta), nmul d (sinf T theta)).
Definition set_corners (p00 p01 p10 p11 : N * N) e : elem N :=
  set_pos [[p00.1; p01.1; p10.1; p11.1]; [p00.2; p01.2; p10.2; p11.2]; nth 2 (pos e) []] e.

(** Lines 1629-1657: build_connectivity. The entries are those of gen_box. *)
Definition disc_connect (ni nj nbc : nat) m : hexa N :=
  foldl (λ m x, let '(i, j, b) := x in box_internal ni nj m (b, i, j)) m (prod3 (range ni) (range nj) (range nbc)).
(** Lines 1614-1626: apply_bcs. Only the type is set. [bcb], [bcr], [bct], [bcl] are the four conditions, per field. *)
Definition disc_bcs (ni nj : nat) (bcb bcr bct bcl : list string) m (b : nat) : hexa N :=
  let at_ (l : list string) := set_bt (u3 (nth b l ""%string)) in
  let m := foldl (λ m i, alter_bc (at_ bct) (elnum i (nj - 1) ni) b 2 (alter_bc (at_ bcb) (elnum i 0 ni) b 0 m)) m (range ni) in
  foldl (λ m j, alter_bc (at_ bcl) (elnum 0 j ni) b 3 (alter_bc (at_ bcr) (elnum (ni - 1) j ni) b 1 m)) m (range nj).
Definition disc_block (byteorder : string) (ni nj : nat) (place : nat → nat → elem N → elem N) (var : list nat) (nbc : nat)
    (internal_bcs : bool) (bcb bcr bct bcl : list string) : hexa N :=
  let m := new_hexa (nofZ 0) byteorder 2 (ni * nj) PyList [2; 2; 1]%nat var nbc in
  let m := foldl (λ m x, let '(i, j) := x in set_elems (alter (place i j) (elnum i j ni) (elems m)) m) m (prod2 (range ni) (range nj)) in
  let m := if internal_bcs then disc_connect ni nj nbc m else m in
  foldl (disc_bcs ni nj bcb bcr bct bcl) m (range nbc).
(** Lines 1659-1691. *)
Definition disc_square (byteorder : string) (r s : N) (ns : nat) (var : list nat) (bc : list string) (internal_bcs : bool) : hexa N :=
  let c := diagonal r s in
  let con := replicate (length bc) "con"%string in
  disc_block byteorder ns ns
    (λ i j e, set_corners (square_coord c ns i, square_coord c ns j) (square_coord c ns (i + 1), square_coord c ns j)
                          (square_coord c ns i, square_coord c ns (j + 1)) (square_coord c ns (i + 1), square_coord c ns (j + 1)) e)
    var (length bc) internal_bcs con con con con.
(** Lines 1693-1775. *)
Definition disc_curve (r : N) (ns no : nat) m : hexa N :=
  foldl (λ m j, set_elems (alter (λ e, set_curv (alter (<[0%nat := r]>) 1%nat (curv e)) (set_ccurv (<[1%nat := "C"%string]> (ccurv e)) e))
                             (elnum (no - 1) j no) (elems m)) m) m (range ns).
Definition disc_o (byteorder : string) (curvature_fun bl_fun : N → N) (r s : N) (ns no : nat) (var : list nat) (bc : list string)
    (internal_bcs : bool) : hexa N :=
  let c := diagonal r s in
  let con := replicate (length bc) "con"%string in
  let corner := o_corner curvature_fun bl_fun r c ns no in
  disc_curve r ns no (disc_block byteorder no ns
    (λ i j e, set_corners (corner j i) (corner j (i + 1)%nat) (corner (j + 1)%nat i) (corner (j + 1)%nat (i + 1)%nat) e)
    var (length bc) internal_bcs con bc con con).
(** Lines 1777-1792; merge is called with its default arguments. *)
Definition disc_merge (internal_bcs : bool) (self other : hexa N) : res (hexa N) :=
  let '(m, x) := merge (nlit 1 100) true (negb internal_bcs) self other in
  let! _ := x in Ok m.
(** [gen_circle] for given functions (both arguments not None) and ns, no >= 1. *)
Definition gen_circle (byteorder : string) (r s : N) (ns no : nat) (curvature_fun bl_fun : N → N) (var : list nat) (bc : list string)
    (internal_bcs : bool) : res (hexa N) :=
  let cost := cosf T (nmul half (pi T)) in
  let sint := sinf T (nmul half (pi T)) in
  let sq := disc_square byteorder r s ns var bc internal_bcs in
  let o := disc_o byteorder curvature_fun bl_fun r s ns no var bc internal_bcs in
  let! sq := disc_merge internal_bcs sq o in
  let! o := rotate_2d cost sint (nofZ 0) (nofZ 0) o in
  let! sq := disc_merge internal_bcs sq o in
  let! o := rotate_2d cost sint (nofZ 0) (nofZ 0) o in
  let! sq := disc_merge internal_bcs sq o in
  let! o := rotate_2d cost sint (nofZ 0) (nofZ 0) o in
  disc_merge internal_bcs sq o.
End disc.
