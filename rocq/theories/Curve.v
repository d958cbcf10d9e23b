(** Curved edges: [edge_mid], [edge_circle] and [map2D] of /repo/src/pymech/meshtools.py. *)
From Verif Require Import Base Mesh Core.
From Coq Require Import Lia.
Open Scope Z_scope.

Section curve.
Context {A : arith}.
Local Notation N := (num A).
Implicit Types (e : elem N) (m : hexa N).

(** ** [edge_mid] (meshtools.py 886-975) *)
(** The ends of an edge, as indices (z, y, x) (meshtools.py 901-937 and 992-1027). *)
Definition edge_ends (iedge : nat) : option ((nat * nat * nat) * (nat * nat * nat)) :=
  nth_error [ ((0, 0, 0), (0, 0, 1)); ((0, 0, 1), (0, 1, 1)); ((0, 1, 1), (0, 1, 0)); ((0, 1, 0), (0, 0, 0));
              ((1, 0, 0), (1, 0, 1)); ((1, 0, 1), (1, 1, 1)); ((1, 1, 1), (1, 1, 0)); ((1, 1, 0), (1, 0, 0));
              ((0, 0, 0), (1, 0, 0)); ((0, 0, 1), (1, 0, 1)); ((0, 1, 1), (1, 1, 1)); ((0, 1, 0), (1, 1, 0)) ]%nat iedge.
Definition vec : Type := N * N * N.
Definition vadd (p q : vec) : vec := let '(a, b, c) := p in let '(x, y, z) := q in (nadd a x, nadd b y, nadd c z).
Definition vsub (p q : vec) : vec := let '(a, b, c) := p in let '(x, y, z) := q in (nsub a x, nsub b y, nsub c z).
Definition vmul (p : vec) (k : N) : vec := let '(a, b, c) := p in (nmul a k, nmul b k, nmul c k).
Definition vdiv (p : vec) (k : N) : vec := let '(a, b, c) := p in (ndiv a k, ndiv b k, ndiv c k).
Definition two : N := nofZ 2.
(** The point in the middle of a circle arc (meshtools.py 950-965). *)
Definition arc_mid (radius : N) (p1 p2 : vec) : vec :=
  let '(x1, y1, z1) := p1 in let '(x2, y2, z2) := p2 in
  let dx := nsub x2 x1 in let dy := nsub y2 y1 in
  let dmid := nsub (nabs radius) (nsqrt (nsub (nsub (nsq radius) (ndiv (nsq dx) (nofZ 4))) (ndiv (nsq dy) (nofZ 4)))) in
  let k := ndiv (nmul (ndiv dmid (nsqrt (nadd (nsq dx) (nsq dy)))) radius) (nabs radius) in
  (nadd (ndiv (nadd x2 x1) two) (nmul k dy), nsub (ndiv (nadd y2 y1) two) (nmul k dx), ndiv (nadd z2 z1) two).
(** The point on a sphere (meshtools.py 966-973). *)
Definition sphere_mid (radius : N) (center p1 p2 : vec) : vec :=
  let dist := vsub (vdiv (vadd p2 p1) two) center in
  let '(a, b, c) := dist in
  vadd center (vdiv (vmul dist radius) (nsqrt (nadd (nadd (nsq a) (nsq b)) (nsq c)))).
(** [curv[iedge][0:3] = v] *)
Definition put3 (iedge : nat) (v : vec) e : elem N :=
  let '(a, b, c) := v in set_curv (alter (λ row, a :: b :: c :: drop 3 row) iedge (curv e)) e.
(** The midpoint, and the element afterwards: the three numbers returned for a circle arc are written over the first
    three numbers of the element's curvature, of which [midpoint] is a view. Other types than m, C, s and none
    return that view. An index that is not one of the twelve edges raises UnboundLocalError if the arrays are that
    long; the arrays of an element have twelve rows. *)
Definition edge_mid e (iedge : nat) : res (vec * elem N) :=
  let! row := of_opt IndexError (curv e !! iedge) in
  let! t := of_opt IndexError (ccurv e !! iedge) in
  match row with
  | [c0; c1; c2; c3; c4] =>
    if String.eqb t "m" then Ok ((c0, c1, c2), e) else
    let! (i1, i2) := of_opt UnboundLocalError (edge_ends iedge) in
    let '(z1, y1, x1) := i1 in let '(z2, y2, x2) := i2 in
    let! p1 := of_opt IndexError (point e z1 y1 x1) in
    let! p2 := of_opt IndexError (point e z2 y2 x2) in
    if String.eqb t "" then Ok (vdiv (vadd p1 p2) two, e)
    else if String.eqb t "C" then let v := arc_mid c0 p1 p2 in Ok (v, put3 iedge v e)
    else if String.eqb t "s" then Ok (sphere_mid c4 (c0, c1, c2) p1 p2, e)
    else Ok ((c0, c1, c2), e)
  | _ => Raise ValueError
  end.

(** ** [edge_circle] (meshtools.py 979-1062) *)
Definition norm2 (v : vec) : N := let '(a, b, c) := v in nadd (nadd (nsq a) (nsq b)) (nsq c).
(** The signed radius and the centre of the circle through three points (meshtools.py 1029-1055). *)
Definition circle (pos1 pos2 midpoint : vec) : N * vec :=
  let side1 := vsub midpoint pos1 in let side2 := vsub pos2 midpoint in let side3 := vsub pos1 pos2 in
  let d1 := nsqrt (norm2 side1) in let d2 := nsqrt (norm2 side2) in let d3 := nsqrt (norm2 side3) in
  let sper := ndiv (nadd (nadd d1 d2) d3) two in
  let area := nsqrt (nmul (nmul (nmul sper (nsub sper d1)) (nsub sper d2)) (nsub sper d3)) in
  if nltb (nmul (nmul (nlit 1 10000) d1) d2) area then
    let radius := ndiv (nmul (nmul d1 d2) d3) (nmul (nofZ 4) area) in
    let alpha1 := ndiv (nmul (nsq d2) (nsub (nadd (nsq d1) (nsq d3)) (nsq d2))) two in
    let alpha2 := ndiv (nmul (nsq d3) (nsub (nadd (nsq d2) (nsq d1)) (nsq d3))) two in
    let alpha3 := ndiv (nmul (nsq d1) (nsub (nadd (nsq d3) (nsq d2)) (nsq d1))) two in
    let center := vdiv (vadd (vadd (vmul pos1 alpha1) (vmul midpoint alpha2)) (vmul pos2 alpha3)) (nmul (nofZ 8) (nsq area)) in
    let '(s1x, s1y, _) := side1 in let '(s2x, s2y, _) := side2 in let '(s3x, s3y, _) := side3 in
    (if nltb (nsub (nmul (nsub s1x s3x) (nsub s2y s1y)) (nmul (nsub s1x s2x) (nsub s3y s1y))) (nofZ 0) then nopp radius else radius, center)
  else (nofZ 0, (nofZ 0, nofZ 0, nofZ 0)).
(** The numbers returned, and the element afterwards: [curv] is a view of the element's array. *)
Definition edge_circle e (iedge : nat) (midpoint : vec) : res (list N * elem N) :=
  let! (i1, i2) := of_opt UnboundLocalError (edge_ends iedge) in
  let '(z1, y1, x1) := i1 in let '(z2, y2, x2) := i2 in
  let! p1 := of_opt IndexError (point e z1 y1 x1) in
  let! p2 := of_opt IndexError (point e z2 y2 x2) in
  let '(radius, (a, b, c)) := circle p1 p2 midpoint in
  let! row := of_opt IndexError (curv e !! iedge) in
  let new := [radius; a; b; c] in
  Ok (new, set_curv (<[iedge := new ++ drop 4 row]> (curv e)) e).

(** ** [map2D] (meshtools.py 1801-1856) *)
(** [pos[0, 0, i, j] = a] and [pos[1, 0, i, j] = b]. *)
Definition put_xy (p : nat) (a b : N) e : elem N :=
  set_pos (alter (<[p := b]>) 1%nat (alter (<[p := a]>) 0%nat (pos e))) e.
(** The vertices (meshtools.py 1831-1837); [el] is the element of the argument, [me] that of the result. *)
Definition map_vertex (f : N → N → N * N) (el : elem N) (me : elem N) (x : nat * nat) : res (elem N) :=
  let '(i, j) := x in
  let! p := of_opt IndexError (point el 0 i j) in
  let '(px, py, _) := p in let '(a, b) := f px py in
  Ok (put_xy (flat (eshape me) 0 i j) a b me).
(** The edges (meshtools.py 1845-1855): the element of the argument may change. *)
Definition needs_mid (curvature boundary_curvature : bool) e (iedge : nat) : res bool :=
  if curvature then Ok true else
  let! t := of_opt IndexError (ccurv e !! iedge) in
  if negb (String.eqb t "") then Ok true else
  if boundary_curvature then
    let! r := ebc e 0 iedge in Ok (negb (String.eqb (bt r) "" || String.eqb (bt r) "E"))
  else Ok false.
Definition put_mid (iedge : nat) (a b : N) e : elem N :=
  set_curv (alter (λ row, a :: b :: drop 2 row) iedge (curv e)) (set_ccurv (<[iedge := "m"%string]> (ccurv e)) e).
Definition map_edge (f : N → N → N * N) (curvature boundary_curvature : bool) (s : elem N * elem N) (iedge : nat)
    : res (elem N * elem N) :=
  let '(el, me) := s in
  let! b := needs_mid curvature boundary_curvature el iedge in
  if b then
    let! (mid, el) := edge_mid el iedge in
    let '(xm, ym, _) := mid in let '(a, b) := f xm ym in
    Ok (el, put_mid iedge a b me)
  else Ok (el, me).
Definition map_elem (f : N → N → N * N) (curvature boundary_curvature : bool) (el : elem N) : res (elem N * elem N) :=
  let! me := foldM (map_vertex f el) el (prod2 (range 2) (range 2)) in
  foldM (map_edge f curvature boundary_curvature) (el, me) (range 4).
(** The argument afterwards and the new mesh. Simplification: the transformation is a function on numbers that
    neither raises nor has other effects; nothing is returned of an argument that is left half changed by an
    exception. *)
Definition map2D m (f : N → N → N * N) (curvature boundary_curvature : bool) : res (hexa N * hexa N) :=
  let! l := mapR (map_elem f curvature boundary_curvature) (elems m) in
  Ok (set_elems (fst <$> l) m, set_elems (snd <$> l) m).
End curve.
