(** [extrude_mid] of /repo/src/pymech/meshtools.py (384-880). *)
From Verif Require Import Base Mesh Core Tools Curve.
From Coq Require Import Lia.
Open Scope Z_scope.

Section mid.
Context {A : arith}.
Local Notation N := (num A).
Implicit Types (e : elem N) (m : hexa N) (r : bcrec N).

(** Which corners, as pairs (j, i) of indices in y and x, are low and which are high
    (meshtools.py 482-504); [f] is the splitting function with its parameter. Simplification: [f] is a function on
    numbers that neither raises nor has other effects. *)
Definition mid_scan (f : N → N → N) e (s : list (nat * nat) * list (nat * nat)) (c : nat * nat)
    : res (list (nat * nat) * list (nat * nat)) :=
  let '(lo, hi) := s in let '(jj, ii) := c in
  let! p := of_opt IndexError (point e 0 jj ii) in
  let '(x, y, _) := p in
  if nleb (f x y) (nofZ 0) then
    if (1 <? length lo)%nat then Raise ValueError else Ok (lo ++ [c], hi)
  else
    if (1 <? length hi)%nat then Raise ValueError else Ok (lo, hi ++ [c]).
Definition mid_split (f : N → N → N) e : res (list (nat * nat) * list (nat * nat)) :=
  let! (lo, hi) := foldM (mid_scan f e) ([], []) [(0, 0); (1, 0); (0, 1); (1, 1)]%nat in
  if (length lo =? 2)%nat && (length hi =? 2)%nat then Ok (lo, hi) else Raise ValueError.

(** The edges (meshtools.py 514-541): [iedgehi], [iedgelo], [iedgelat] and [iedgeconlat]. With two low corners the
    last case is the low corner (0, 1). *)
Record cutsides := Cut { s_hi : nat; s_lo : nat; s_l0 : nat; s_l1 : nat; s_c0 : nat; s_c1 : nat }.
Definition mid_sides (lo hi : list (nat * nat)) : cutsides :=
  if bool_decide (lo !! 0%nat = Some (0, 0)%nat) then
    if bool_decide (hi !! 0%nat = Some (0, 1)%nat) then Cut 1 3 0 2 9 10 else Cut 2 0 3 1 11 10
  else if bool_decide (lo !! 0%nat = Some (1, 0)%nat) then Cut 0 2 3 1 8 9
  else Cut 3 1 0 2 8 11.

(** The vertices of one of the six elements (meshtools.py 463-465 and 543-599): what is written over the zeros at the low and the
    high corners, at the bottom and at the top, and the z there. *)
Definition vert : Type := list (@vec A) * N.
Definition mid_at (lo hi : list (nat * nat)) (vlo vhi : vert) (c : nat * nat) : @vec A :=
  let pick l (v : vert) := find (λ x, bool_decide (fst x = c)) (zip l (fst v)) in
  match pick hi vhi with
  | Some (_, (x, y, _)) => (x, y, snd vhi)
  | None => match pick lo vlo with Some (_, (x, y, _)) => (x, y, snd vlo) | None => (nofZ 0, nofZ 0, nofZ 0) end
  end.
Definition mid_pos (lo hi : list (nat * nat)) (blo bhi tlo thi : vert) : list (list N) :=
  let pts := (mid_at lo hi blo bhi <$> prod2 (range 2) (range 2)) ++ (mid_at lo hi tlo thi <$> prod2 (range 2) (range 2)) in
  [(λ p : vec, fst (fst p)) <$> pts; (λ p : vec, snd (fst p)) <$> pts; snd <$> pts].
Definition set_pos3 (p : list (list N)) e : elem N :=
  Elem (2, 2, 2)%nat p (vel e) (pres e) (temp e) (scal e) (curv e) (ccurv e) (bcs e).
(** The six copies of the element with their vertices; [zz n] is z[k + n]. *)
Definition mid_six (lo hi : list (nat * nat)) (plo pmid phi : list (@vec A)) (zz : nat → N) e : list (elem N) :=
  (λ p, set_pos3 p e) <$>
    [mid_pos lo hi (plo, zz 0) (pmid, zz 0) (plo, zz 1) (pmid, zz 1);
     mid_pos lo hi (pmid, zz 0) (phi, zz 0) (pmid, zz 1) (phi, zz 2);
     mid_pos lo hi (plo, zz 1) (pmid, zz 1) (plo, zz 2) (phi, zz 2);
     mid_pos lo hi (plo, zz 2) (phi, zz 2) (plo, zz 3) (pmid, zz 3);
     mid_pos lo hi (pmid, zz 3) (phi, zz 2) (pmid, zz 4) (phi, zz 4);
     mid_pos lo hi (plo, zz 3) (pmid, zz 3) (plo, zz 4) (pmid, zz 4)]%nat.

(** ** Curvature *)
Definition ctype e (i : nat) : string := nth i (ccurv e) ""%string.
Definition set_type (i : nat) (t : string) e : elem N := set_ccurv (<[i := t]> (ccurv e)) e.
Definition alter_row (g : list N → list N) (i : nat) e : elem N := set_curv (alter g i (curv e)) e.
(** [row[:4] = v] *)
Definition put4 (v : list N) (row : list N) : list N := v ++ drop 4 row.
Definition one_half : N := nlit 1 2.
(** The middle of the edge between the two halves (meshtools.py 623-628). *)
Definition cut_mid (m0 m1 midhi h0 h1 midlo l0 l1 : @vec A) : @vec A :=
  let h v := vmul v one_half in
  vadd (h (vadd m0 m1)) (h (vsub (vadd (vsub midhi (h (vadd h0 h1))) midlo) (h (vadd l0 l1)))).
(** Lines 617-662: the edge between the halves; [e] is the element of the argument, which may change. *)
Definition mid_cut (s : cutsides) (plo pmid phi : list (@vec A)) (z : N) e (e0 e1 : elem N)
    : res (elem N * elem N * elem N) :=
  let thi := ctype e (s_hi s) in let tlo := ctype e (s_lo s) in
  if String.eqb thi "" && String.eqb tlo "" then Ok (e, e0, e1) else
  let! (mhi, e) := edge_mid e (s_hi s) in
  let! (mlo, e) := edge_mid e (s_lo s) in
  match plo, pmid, phi with
  | [l0; l1], [m0; m1], [h0; h1] =>
    let v := cut_mid m0 m1 mhi h0 h1 mlo l0 l1 in
    if String.eqb thi "m" || String.eqb tlo "m" then
      Ok (e, put3 (s_hi s) v (set_type (s_hi s) "m" e0), put3 (s_lo s) v (set_type (s_lo s) "m" e1))
    else if String.eqb thi "C" || String.eqb tlo "C" then
      let '(x, y, _) := v in
      let! (new, e0) := edge_circle e0 (s_hi s) (x, y, z) in
      let radius := nth 0 new (nofZ 0) in
      if neqb radius (nofZ 0) then
        let zero := put4 (replicate 4 (nofZ 0)) in
        Ok (e, alter_row zero (s_hi s) (set_type (s_hi s) "" e0), alter_row zero (s_lo s) (set_type (s_lo s) "" e1))
      else
        let cv := [radius; nofZ 0; nofZ 0; nofZ 0] in
        Ok (e, alter_row (put4 cv) (s_hi s) (set_type (s_hi s) "C" e0),
              alter_row (put4 (nopp <$> cv)) (s_lo s) (set_type (s_lo s) "C" e1))
    else
      let row := nmul (nofZ 0) <$> nth (s_hi s) (curv e) [] in
      Ok (e, alter_row (λ _, row) (s_hi s) (set_type (s_hi s) "" e0), alter_row (λ _, row) (s_lo s) (set_type (s_lo s) "" e1))
  | _, _, _ => Raise IndexError
  end.
(** The middle of the two halves of a curved side (meshtools.py 666-688). *)
Definition half_mids (lo mid hi : @vec A) : (N * N) * (N * N) :=
  let '(xl, yl, _) := lo in let '(xm, ym, _) := mid in let '(xh, yh, _) := hi in
  let dmid := ndiv (nsub (nmul (nsub xh xl) (nsub yl ym)) (nmul (nsub xl xm) (nsub yh yl)))
                (nadd (nsq (nsub xh xl)) (nsq (nsub yh yl))) in
  let q := ndiv dmid (nofZ 4) in
  ((nadd (nmul one_half (nadd xl xm)) (nmul q (nsub yh yl)), nsub (nmul one_half (nadd yl ym)) (nmul q (nsub xh xl))),
   (nadd (nmul one_half (nadd xm xh)) (nmul q (nsub yh yl)), nsub (nmul one_half (nadd ym yh)) (nmul q (nsub xh xl)))).
(** Lines 664-693 for one side. *)
Definition put2 (v : N * N) (row : list N) : list N := fst v :: snd v :: drop 2 row.
Definition mid_side e (edge : nat) (lo mid hi : @vec A) (e0 e1 : elem N) : res (elem N * elem N) :=
  if String.eqb (ctype e edge) "m" then
    let '(q0, q1) := half_mids lo mid hi in Ok (alter_row (put2 q0) edge e0, alter_row (put2 q1) edge e1)
  else if String.eqb (ctype e edge) "C" then
    let! (_, e1) := edge_mid e1 edge in Ok (e0, set_type edge "m" e1)
  else Ok (e0, e1).
(** Lines 695-706: edges 4 to 7 repeat edges 0 to 3. *)
Definition dup4 {B} (l : list B) : list B := take 4 l ++ take 4 l ++ drop 8 l.
Definition mid_dup e : elem N := set_curv (dup4 (curv e)) (set_ccurv (dup4 (ccurv e)) e).
(** [l[a:a+4] = v] *)
Definition put_at {B} (a : nat) (v l : list B) : list B := take a l ++ v ++ drop (a + 4) l.
(** Lines 708-715. *)
Definition mid_spread (l : list (elem N)) : list (elem N) :=
  match l with
  | [e0; e1; e2; e3; e4; e5] =>
    let e2 := set_curv (put_at 0 (take 4 (curv e0)) (curv e2)) (set_ccurv (put_at 0 (take 4 (ccurv e0)) (ccurv e2)) e2) in
    let e3 := set_curv (put_at 4 (take 4 (curv e0)) (curv e3)) (set_ccurv (put_at 4 (take 4 (ccurv e0)) (ccurv e3)) e3) in
    let e5 := set_curv (curv e0) (set_ccurv (ccurv e0) e5) in
    let e4 := set_curv (curv e1) (set_ccurv (ccurv e1) e4) in
    [e0; e1; e2; e3; e4; e5]
  | _ => l
  end.
(** Lines 717-749 for one edge: the z of the stored midpoints. *)
Definition put_z (i : nat) (z : N) e : elem N := alter_row (set_third z) i e.
Definition mid_zs (s : cutsides) (zz : nat → N) (l : list (elem N)) (ic : nat) : list (elem N) :=
  match l with
  | [e0; e1; e2; e3; e4; e5] =>
    let m0 := String.eqb (ctype e0 ic) "m" in let m1 := String.eqb (ctype e1 ic) "m" in
    let on (b : bool) (f : elem N → elem N) e := if b then f e else e in
    let two_z a b e := put_z (ic + 4)%nat b (put_z ic a e) in
    let '(top1, bot4) :=
      if (ic =? s_hi s)%nat then (Some (zz 2%nat), Some (zz 2%nat))
      else if (ic =? s_lo s)%nat then (Some (zz 1%nat), Some (zz 3%nat))
      else if (ic =? s_l0 s)%nat || (ic =? s_l1 s)%nat then
        (Some (nmul one_half (nadd (zz 1%nat) (zz 2%nat))), Some (nmul one_half (nadd (zz 2%nat) (zz 3%nat))))
      else (None, None) in
    let opt (i : nat) (o : option N) e := match o with Some z => put_z i z e | None => e end in
    [on m0 (two_z (zz 0%nat) (zz 1%nat)) e0;
     on m1 (λ e, opt (ic + 4)%nat top1 (put_z ic (zz 0%nat) e)) e1;
     on m0 (two_z (zz 1%nat) (zz 2%nat)) e2;
     on m0 (two_z (zz 2%nat) (zz 3%nat)) e3;
     on m1 (λ e, opt ic bot4 (put_z (ic + 4)%nat (zz 4%nat) e)) e4;
     on m0 (two_z (zz 3%nat) (zz 4%nat)) e5]
  | _ => l
  end.
(** Lines 751-764 for one side. *)
Definition copy_edge (src dst : nat) (e : elem N) (e' : elem N) : elem N :=
  set_curv (<[dst := nth src (curv e) []]> (curv e')) (set_type dst (ctype e src) e').
Definition mid_con (l : list (elem N)) (x : nat * nat) : list (elem N) :=
  let '(lat, con) := x in
  match l with
  | [e0; e1; e2; e3; e4; e5] => [e0; e1; copy_edge (lat + 4) con e1 e2; copy_edge lat con e4 e3; e4; e5]
  | _ => l
  end.

(** ** Boundary conditions *)
(** Lines 769-816: the internal faces of the six elements: the element, its face, and what is assigned. *)
Definition mid_links (nel2d iel : nat) (s : cutsides) : list (nat * nat * (bcrec N → bcrec N)) :=
  let I := Z.of_nat iel in let up := 6 * Z.of_nat nel2d in
  let hi := Z.of_nat (s_hi s) in let lo := Z.of_nat (s_lo s) in
  [(0, 4, set_end "E" iel 5 (I + 1 + 5 - up) 6); (0, 5, set_end "E" iel 6 (I + 1 + 2) 5);
   (1, 4, set_end "E" (iel + 1) 5 (I + 1 + 4 - up) 6); (1, 5, set_end "E" (iel + 1) 6 (I + 1 + 2) (hi + 1));
   (2, 4, set_end "E" (iel + 2) 5 (I + 1) 6); (2, 5, set_end "E" (iel + 2) 6 (I + 1 + 3) 5);
   (3, 4, set_end "E" (iel + 3) 5 (I + 1 + 2) 6); (3, 5, set_end "E" (iel + 3) 6 (I + 1 + 5) 5);
   (4, 4, set_end "E" (iel + 4) 5 (I + 1 + 3) (hi + 1)); (4, 5, set_end "E" (iel + 4) 6 (I + 1 + 1 + up) 5);
   (5, 4, set_end "E" (iel + 5) 5 (I + 1 + 3) 6); (5, 5, set_end "E" (iel + 5) 6 (I + 1 + up) 5);
   (0, s_hi s, link "E" (I + 1 + 1) (lo + 1)); (1, s_lo s, link "E" (I + 1) (hi + 1));
   (2, s_hi s, link "E" (I + 1 + 1) 6); (3, s_hi s, link "E" (I + 1 + 4) 5);
   (4, s_lo s, link "E" (I + 1 + 5) (hi + 1)); (5, s_hi s, link "E" (I + 1 + 4) (lo + 1))]%nat.
(** Lines 818-830 for one side and one of the six elements. *)
Definition mid_ref (nel2d kk iell : nat) r : bcrec N :=
  if String.eqb (bt r) "P" || String.eqb (bt r) "E" then
    let connected_i := nsub (bp3 r) (nofZ 1) in
    let connected_iel := nadd (nmul (nofZ 6) (nadd connected_i (nofZ (Z.of_nat (nel2d * kk))))) (nofZ (Z.of_nat iell)) in
    set_bp3 (nadd connected_iel (nofZ 1)) r
  else r.
(** Lines 768-830 for one field. *)
Definition mid_bcs (internal_bcs : bool) (nel2d iel kk : nat) (s : cutsides) (l : list (elem N)) (b : nat) : list (elem N) :=
  let l := if internal_bcs
           then foldl (λ l x, let '(n, f, g) := x in alter (alter_ebc g b f) n l) l (mid_links nel2d iel s)
           else l in
  imap (λ iell e, alter_ebc (mid_ref nel2d kk iell) b (s_l1 s) (alter_ebc (mid_ref nel2d kk iell) b (s_l0 s) e)) l.

(** ** One element of the argument and one group of four layers (meshtools.py 460-830) *)
(** The element of the argument afterwards and the six new elements. Curvature s raises: the code reads the fifth
    character of the string. Simplification: an element whose curvature arrays do not have twelve rows raises. *)
Definition mid_block (f : N → N → N) (internal_bcs : bool) (nel2d nb kk i : nat) (zz : nat → N) e
    : res (elem N * list (elem N)) :=
  if negb ((length (curv e) =? 12) && (length (ccurv e) =? 12))%nat then Raise IndexError else
  let iel := (6 * (i + nel2d * kk))%nat in
  let! (lo, hi) := mid_split f e in
  let s := mid_sides lo hi in
  let pt c := of_opt IndexError (point e 0 (fst c) (snd c)) in
  let! plo := mapR pt lo in
  let! phi := mapR pt hi in
  let! (m0, e') := edge_mid e (s_l0 s) in
  let! (m1, e') := edge_mid e' (s_l1 s) in
  let pmid := [m0; m1] in
  let six := mid_six lo hi plo pmid phi zz e in
  if existsb (λ ic, String.eqb (ctype e' ic) "s") (range 4) then Raise IndexError else
  match six, plo, phi with
  | e0 :: e1 :: rest, [l0; l1], [h0; h1] =>
    let! (e', e0, e1) := mid_cut s plo pmid phi (zz 0%nat) e' e0 e1 in
    let! (e0, e1) := mid_side e' (s_l0 s) l0 m0 h0 e0 e1 in
    let! (e0, e1) := mid_side e' (s_l1 s) l1 m1 h1 e0 e1 in
    let l := mid_spread (mid_dup <$> (e0 :: e1 :: rest)) in
    let l := foldl (mid_zs s zz) l (range 4) in
    let l := foldl mid_con l [(s_l0 s, s_c0 s); (s_l1 s, s_c1 s)] in
    Ok (e', foldl (mid_bcs internal_bcs nel2d iel kk s) l (range nb))
  | _, _, _ => Raise IndexError
  end.

(** ** The mesh *)
(** Lines 440-443. *)
Definition mid_copies m (n : nat) : res (hexa N) :=
  foldM (λ m3 _, let '(m3, r) := merge (nlit 1 100) true true m3 m in let! _ := r in Ok m3) m (range (n - 1)).
(** Lines 832-869 for one element of the argument and one field. *)
Definition mid_end (nel2d nel3d : nat) (bc1 bc2 : list string) m (x : nat * nat) : res (hexa N) :=
  let '(ii, b) := x in
  let i := (6 * ii)%nat in let i1 := (i + nel3d - 6 * nel2d + 5)%nat in
  match bc1 !! b, bc2 !! b with
  | Some c1, Some c2 =>
    let first a z := if String.eqb c1 "P" then set_end (u3 c1) a 5 (Z.of_nat z + 1) 6 else set_end (u3 c1) a 5 0 0 in
    let last a z := if String.eqb c2 "P" then set_end (u3 c2) a 6 (Z.of_nat z + 1) 5 else set_end (u3 c2) a 6 0 0 in
    let m := alter_bc (first i i1) i b 4 m in
    let m := alter_bc (first (i + 1)%nat (i1 - 1)%nat) (i + 1) b 4 m in
    let m := alter_bc (last i1 i) i1 b 5 m in
    Ok (alter_bc (last (i1 - 1)%nat (i + 1)%nat) (i1 - 1) b 5 m)
  | _, _ => Raise IndexError
  end.
(** Lines 871-877. *)
Definition count_curved (l : list (elem N)) : Z :=
  foldl (λ n e, foldl (λ n c, if String.eqb (ctype e c) "" then n else n + 1) n (range 12)) 0 l.
(** [extrude_mid]: the argument afterwards and the new mesh. Simplifications: an element list whose length is not
    [nel] raises; no layer at all, on which the code returns a structure that announces no element, raises; nothing
    is returned of an argument that is left half changed by an exception. *)
Definition extrude_mid m (z : list N) (bc1 bc2 : list string) (f : N → N → N) (internal_bcs : bool)
    : res (hexa N * hexa N) :=
  if negb (ndim m =? 2)%nat then Raise ValueError else
  if negb (bool_decide (lr1kind m = PyList ∧ lr1 m = [2; 2; 1]%nat)) then Raise ValueError else
  let! v0 := of_opt IndexError (var m !! 0%nat) in
  if (v0 <? 2)%nat then Raise ValueError else
  if one_sided_periodic bc1 bc2 then Raise ValueError else
  let nz := (length z - 1)%nat in
  if (length z =? 0)%nat || negb (nz mod 4 =? 0)%nat || (nz =? 0)%nat then Raise ValueError else
  if negb (length (elems m) =? nel m)%nat then Raise IndexError else
  let q := (nz / 4)%nat in
  let! m3 := mid_copies m (6 * q) in
  let nel3d := (nel m * 6 * q)%nat in
  let! (es, new) := foldM (λ s kk, let '(es, acc) := s in
      let zz n := nth (4 * kk + n) z (nofZ 0) in
      let! l := mapR (λ x, mid_block f internal_bcs (nel m) (nbc m) kk (fst x) zz (snd x)) (enumerate es) in
      Ok (fst <$> l, acc ++ concat (snd <$> l))) (elems m, []) (range q) in
  let m3 := Hexa 3 nel3d 0 (nbc m) [3; 0; 0; 0; 0]%nat PyList [2; 2; 2]%nat (time m3) (istep m3) (wdsz m3) (endian m3)
              new (elmap m3) in
  let! m3 := foldM (mid_end (nel m) nel3d bc1 bc2) m3 (prod2 (range (nel m)) (range (nbc m))) in
  Ok (set_elems es m, set_ncurv (count_curved (elems m3)) m3).
End mid.
