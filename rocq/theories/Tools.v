(** Model of the mesh operations of /repo/src/pymech/meshtools.py: extrude,
    delete_internal_bcs, generate_internal_bcs, keep_elements, rotate_2d, gen_box. *)
From Verif Require Import Base Mesh Core.
From Coq Require Import Lia.

Section Tools.
Context {A : arith}.
Notation N := (num A).
Implicit Types (e : elem N) (m : hexa N) (r : bcrec N).

(** [delete_internal_bcs] (meshtools.py 1068-1089): the mesh afterwards and the
    number of deleted conditions. *)
Definition delete_bc r : res (bcrec N * Z) :=
  Ok (if String.eqb (bt r) "E" then (zero_bc (nofZ 0), 1) else (r, 0)).
Definition delete_internal_bcs m : res (hexa N * Z) :=
  upd_loop (λ _, delete_bc) (m, 0)
    ((λ '(b, i, f), (i, b, f)) <$> prod3 (range (nbc m)) (range (length (elems m))) (range 6)).

(** ** generate_internal_bcs (meshtools.py 1095-1173) *)

(** Lines 1111-1117. *)
Definition gib_scales m : res (list N) :=
  mapR (λ e, let! s := smallest_edge e in
             if nleb s (nofZ 0) then Raise ValueError else Ok s) (elems m).
(** Lines 1121-1128: face centres and the faces that already have a condition. *)
Definition gib_centres m : res (list (list (N * N * N * bool))) :=
  mapR (λ i, let! e := of_opt IndexError (elems m !! i) in
    mapR (λ f, let! c := face_center e (Z.of_nat f) in
               let! r := ebc e 0 f in
               Ok (c, negb (String.eqb (bt r) ""))) (range (2 * ndim m)))
    (range (nel m)).

(** Lines 1150-1163 for one field: the connection is written in both directions. *)
Definition link_full (iel iface ciel ciface : nat) r : bcrec N :=
  Bc "E" (Z.of_nat iel + 1) (Z.of_nat iface + 1)
     (nofZ (Z.of_nat ciel + 1)) (nofZ (Z.of_nat ciface + 1)) (bp5 r) (bp6 r) (bp7 r).
Definition gib_connect (i1 f1 i2 f2 : nat) m (b : nat) : hexa N :=
  alter_bc (link_full i2 f2 i1 f1) i2 b f2 (alter_bc (link_full i1 f1 i2 f2) i1 b f1 m).

(** The loop state: mesh, table [lc] (indexed by element and face), counter. *)
Definition gib_state : Type := hexa N * list (list bool) * Z.
Definition lc_get (lc : list (list bool)) (i f : nat) : bool :=
  default true (row ← lc !! i; row !! f).
Definition lc_set (i f : nat) (lc : list (list bool)) : list (list bool) :=
  alter (<[f := true]>) i lc.

(** Lines 1142-1149. *)
Definition gib_close (tol : N) (scales : list N) (fc : list (list (N * N * N)))
    (i1 f1 i2 f2 : nat) : bool :=
  match scales !! i1, scales !! i2, fc !! i1 ≫= (.!! f1), fc !! i2 ≫= (.!! f2) with
  | Some s1, Some s2, Some c1, Some c2 =>
      nleb (nsqrt (dist2 c1 c2)) (nmul tol (pymin s1 s2))
  | _, _, _, _ => false
  end.

(** Lines 1139-1172: look for the first unconnected face close to (i1, f1); the
    candidates are visited in order and the search stops at the first match. *)
Fixpoint gib_search (tol : N) scales fc (i1 f1 : nat) (s : gib_state) (cands : list (nat * nat))
    : gib_state :=
  match cands with
  | [] => s
  | (i2, f2) :: cands =>
    let '(m, lc, n) := s in
    if negb (lc_get lc i2 f2) && gib_close tol scales fc i1 f1 i2 f2 then
      (foldl (gib_connect i1 f1 i2 f2) m (range (nbc m)),
       lc_set i2 f2 (lc_set i1 f1 lc), n + Z.of_nat (nbc m))
    else gib_search tol scales fc i1 f1 s cands
  end.

(** [generate_internal_bcs]: the mesh afterwards and the returned number. Element
    lists are assumed to have the length [nel] (otherwise Python raises IndexError). *)
Definition generate_internal_bcs (tol : N) m : res (hexa N * Z) :=
  if negb (length (elems m) =? nel m)%nat then Raise IndexError else
  let! scales := gib_scales m in
  let! tab := gib_centres m in
  let fc := (λ row : list (N * N * N * bool), row.*1) <$> tab in
  let lc := (λ row : list (N * N * N * bool), row.*2) <$> tab in
  let nface := (2 * ndim m)%nat in
  let '(m', _, n) := foldl (λ s x, let '(i1, f1) := x in
      if lc_get (s.1.2) i1 f1 then s
      else gib_search tol scales fc i1 f1 s (prod2 (range2 (S i1) (nel m)) (range nface)))
    ((m, lc, 0) : gib_state) (prod2 (range (nel m)) (range nface)) in
  Ok (m', n).

(** ** keep_elements (meshtools.py 1179-1234) *)

(** [elems.sort()] (line 1195): insertion sort. Simplification: element numbers are
    non-negative (a negative number is a Python index from the end). *)
Fixpoint insert_sorted (x : nat) (l : list nat) : list nat :=
  match l with
  | [] => [x]
  | y :: l' => if (x <=? y)%nat then x :: l else y :: insert_sorted x l'
  end.
Definition sort_nat (l : list nat) : list nat := foldr insert_sorted [] l.

(** Lines 1197-1210: tables [kept] and [offsets] (integers; they are exact in the
    float64 array used by the code). *)
Definition ke_step (nel : nat) (s : list bool * list Z * Z * Z) (iel : nat)
    : res (list bool * list Z * Z * Z) :=
  let '(kept, offs, last, cur) := s in
  if (nel <=? iel)%nat then Raise ValueError
  else let cur' := cur + (Z.of_nat iel - last - 1) in
       Ok (<[iel := true]> kept, <[iel := cur']> offs, Z.of_nat iel, cur').
Definition ke_tables (nel : nat) (els : list nat) : res (list bool * list Z) :=
  let! s := foldM (ke_step nel) (replicate nel false, replicate nel 0, -1, 0) els in
  Ok (s.1.1.1, s.1.1.2).

(** Lines 1213-1226. *)
Definition ke_face (kept : list bool) (offs : list Z) (ext : string)
    (x : nat * nat * nat) r : res (bcrec N * Z) :=
  let '(iel, b, f) := x in
  let! off := of_opt IndexError (offs !! iel) in
  let r1 := set_bel (Z.of_nat iel - off + 1) r in
  if bool_decide (bt r = "E"%string ∨ bt r = "P"%string) then
    let! c := ntrunc (bp3 r) in
    let! k := of_opt IndexError (py_get kept (c - 1)) in
    if k then
      let! o := of_opt IndexError (py_get offs (c - 1)) in
      Ok (set_bp3 (nsub (bp3 r) (nofZ o)) r1, 0)
    else Ok (set_bp4 (nofZ 0) (set_bp3 (nofZ 0) (set_bt (u3 ext) r1)), 0)
  else Ok (r1, 0).

Definition keep_elements m (els : list nat) (ext : string) : res (hexa N) :=
  let els := sort_nat els in
  let! t := ke_tables (nel m) els in
  let '(kept, offs) := t in
  let! s := upd_loop (ke_face kept offs ext) (m, 0)
              (prod3 els (range (nbc m)) (range (2 * ndim m))) in
  let! news := mapR (λ i, of_opt IndexError (elems (fst s) !! i)) els in
  update_ncurv (set_nel (length news) (set_elems news (fst s))).

(** ** rotate_2d (meshtools.py 1322-1350); [cost], [sint] are cos(theta), sin(theta);
    the arguments x0 and y0 are not used by the code. *)
Definition rot_x (cost sint x y : N) : N := nsub (nmul cost x) (nmul sint y).
Definition rot_y (cost sint x y : N) : N := nadd (nmul sint x) (nmul cost y).
Definition rotate_elem (cost sint : N) e : res (elem N) :=
  match pos e with
  | xs :: ys :: rest =>
    let e1 := set_pos (zip_with (rot_x cost sint) xs ys
                       :: zip_with (rot_y cost sint) xs ys :: rest) e in
    foldM (λ e edge,
      let! c := of_opt IndexError (ccurv e !! edge) in
      if String.eqb c "m" then
        let! row := of_opt IndexError (curv e !! edge) in
        match row with
        | x :: y :: rest =>
            Ok (set_curv (<[edge := rot_x cost sint x y :: rot_y cost sint x y :: rest]> (curv e)) e)
        | _ => Raise IndexError
        end
      else Ok e) e1 (range 12)
  | _ => Raise IndexError
  end.
Definition rotate_2d (cost sint : N) (x0 y0 : N) m : res (hexa N) :=
  let! l := mapR (rotate_elem cost sint) (elems m) in
  Ok (set_elems l m).

(** ** gen_box (meshtools.py 1356-1516) *)

(** Lines 1396-1401. *)
Definition box_nbc (var : list nat) : res nat :=
  let! v1 := of_opt IndexError (var !! 1%nat) in
  let! v3 := of_opt IndexError (var !! 3%nat) in
  let! v4 := of_opt IndexError (var !! 4%nat) in
  Ok ((if 0 <? v1 then 1 else 0) + (if 0 <? v3 then 1 else 0) + v4)%nat.

Definition elnum (i j ni : nat) : nat := (i + ni * j)%nat.

(** Lines 1427-1437: the corner coordinates of cell (i, j). *)
Definition cell_coord (lo len : N) (i n : nat) : N :=
  nadd lo (ndiv (nmul len (nofZ (Z.of_nat i))) (nofZ (Z.of_nat n))).
Definition box_pos (x0 x1 y0 y1 : N) e : elem N :=
  set_pos [[x0; x1; x0; x1]; [y0; y0; y1; y1]; nth 2 (pos e) []] e.

(** One boundary-condition entry: lines like 1444-1448. *)
Definition box_link (t : string) (iel iface ciel ciface : nat) r : bcrec N :=
  Bc t (Z.of_nat iel) (Z.of_nat iface) (nofZ (Z.of_nat ciel)) (nofZ (Z.of_nat ciface))
     (bp5 r) (bp6 r) (bp7 r).
(** Lines like 1478-1483. *)
Definition box_bc (t : string) (iel iface ciel ciface : nat) r : bcrec N :=
  if String.eqb t "P" then box_link (u3 t) iel iface ciel ciface r
  else set_bface (Z.of_nat iface) (set_bel (Z.of_nat iel) (set_bt (u3 t) r)).

(** Lines 1440-1469: the internal conditions of cell (i, j) in field b. *)
Definition box_internal (nx ny : nat) m (x : nat * nat * nat) : hexa N :=
  let '(b, i, j) := x in
  let el := elnum i j nx in
  let m := if negb (j =? 0)%nat
           then alter_bc (box_link "E" (el + 1) 1 (elnum i (j - 1) nx + 1) 3) el b 0 m else m in
  let m := if negb (i =? nx - 1)%nat
           then alter_bc (box_link "E" (el + 1) 2 (elnum (i + 1) j nx + 1) 4) el b 1 m else m in
  let m := if negb (j =? ny - 1)%nat
           then alter_bc (box_link "E" (el + 1) 3 (elnum i (j + 1) nx + 1) 1) el b 2 m else m in
  if negb (i =? 0)%nat
  then alter_bc (box_link "E" (el + 1) 4 (elnum (i - 1) j nx + 1) 2) el b 3 m else m.

(** Lines 1473-1493 for one i; 1494-1514 for one j. *)
Definition box_bottom_top (nx ny b : nat) (bymin bymax : string) m (i : nat) : hexa N :=
  let el0 := elnum i 0 nx in
  let el1 := elnum i (ny - 1) nx in
  alter_bc (box_bc bymax (el1 + 1) 3 (el0 + 1) 1) el1 b 2
    (alter_bc (box_bc bymin (el0 + 1) 1 (el1 + 1) 3) el0 b 0 m).
Definition box_left_right (nx b : nat) (bxmin bxmax : string) m (j : nat) : hexa N :=
  let el0 := elnum 0 j nx in
  let el1 := elnum (nx - 1) j nx in
  alter_bc (box_bc bxmax (el1 + 1) 2 (el0 + 1) 4) el1 b 1
    (alter_bc (box_bc bxmin (el0 + 1) 4 (el1 + 1) 2) el0 b 3 m).

(** Lines 1472-1514 for one field. *)
Definition box_boundary (nx ny : nat) (xmin xmax ymin ymax : list string) m (b : nat) : res (hexa N) :=
  match xmin !! b, xmax !! b, ymin !! b, ymax !! b with
  | Some cx0, Some cx1, Some cy0, Some cy1 =>
      Ok (foldl (box_left_right nx b cx0 cx1)
           (foldl (box_bottom_top nx ny b cy0 cy1) m (range nx)) (range ny))
  | _, _, _, _ => Raise IndexError
  end.

(** [gen_box]. With nx = 0 or ny = 0 and at least one field the loops of lines
    1472-1514 index an empty element list (IndexError). *)
Definition gen_box (byteorder : string) (nx ny : nat) (xmin xmax ymin ymax : N) (var : list nat)
    (bxmin bxmax bymin bymax : option (list string)) (internal_bcs : bool) : res (hexa N) :=
  let! nbc := box_nbc var in
  let per := replicate nbc "P"%string in
  let cxmin := default per bxmin in
  let cxmax := default per bxmax in
  let cymin := default per bymin in
  let cymax := default per bymax in
  let box := new_hexa (nofZ 0) byteorder 2 (nx * ny) PyList [2; 2; 1]%nat var nbc in
  let lx := nsub xmax xmin in
  if nleb lx (nofZ 0) then Raise ValueError else
  let ly := nsub ymax ymin in
  if nleb ly (nofZ 0) then Raise ValueError else
  let box := foldl (λ m x, let '(i, j) := x in
      set_elems (alter (box_pos (cell_coord xmin lx i nx) (cell_coord xmin lx (i + 1) nx)
                                (cell_coord ymin ly j ny) (cell_coord ymin ly (j + 1) ny))
                   (elnum i j nx) (elems m)) m)
    box (prod2 (range nx) (range ny)) in
  let box := if internal_bcs
             then foldl (box_internal nx ny) box (prod3 (range nbc) (range nx) (range ny))
             else box in
  if (0 <? nbc)%nat && ((nx =? 0) || (ny =? 0))%nat
     && negb ((nx =? 0) && (ny =? 0))%nat then Raise IndexError
  else foldM (box_boundary nx ny cxmin cxmax cymin cymax) box (range nbc).

(** ** extrude (meshtools.py 12-154) *)

(** Lines 43-49. *)
Definition one_sided_periodic (bc1 bc2 : list string) : bool :=
  existsb (λ '(a, b), (String.eqb a "P" && negb (String.eqb b "P"))
                      || (negb (String.eqb a "P") && String.eqb b "P")) (zip bc1 bc2).

(** Lines 68-73: the offset copies. *)
Definition extrude_copies m (nz : nat) : res (list (elem N)) :=
  foldM (λ acc k, let! ma := offset_connectivity (Z.of_nat ((k + 1) * nel m)) 0 m in
                  Ok (acc ++ elems ma)) [] (range (nz - 1)).

(** Lines 80-88: the 3D position array of a copy of element [e2] between z1 and z2. *)
Definition extrude_pos (z1 z2 : N) (e2 : elem N) (e : elem N) : elem N :=
  let p := match pos e2 with
           | px :: py :: _ => [px ++ px; py ++ py; replicate 4 z1 ++ replicate 4 z2]
           | _ => pos e2
           end in
  Elem (2, 2, 2)%nat p (vel e) (pres e) (temp e) (scal e) (curv e) (ccurv e) (bcs e).

(** Lines 91-102 for one edge. *)
Definition set_third (z : N) (row : list N) : list N := <[2%nat := z]> row.
Definition extrude_curv_edge (z1 z2 : N) (e : elem N) (ic : nat) : elem N :=
  let t := nth ic (ccurv e) ""%string in
  let row := nth ic (curv e) [] in
  let cc := <[(ic + 4)%nat := t]> (ccurv e) in
  let cv := <[(ic + 4)%nat := row]> (curv e) in
  let cv := if String.eqb t "m"
            then alter (set_third z2) (ic + 4)%nat (alter (set_third z1) ic cv) else cv in
  set_curv cv (set_ccurv cc e).
Definition extrude_elem (z1 z2 : N) (e2 : elem N) (e : elem N) : elem N :=
  foldl (extrude_curv_edge z1 z2) (extrude_pos z1 z2 e2 e) (range 4).

(** Lines 107-126 for one element and one field. *)
Definition set_side (iel : nat) r : bcrec N :=
  let r1 := set_bel (Z.of_nat iel + 1) r in
  if String.eqb (bt r1) "E"
  then set_bp3 (nadd (bp3 r1) (nofZ (Z.of_nat iel - bel r1 + 1))) r1 else r1.
Definition set_end (t : string) (iel : nat) (iface ciel ciface : Z) r : bcrec N :=
  Bc t (Z.of_nat iel + 1) iface (nofZ ciel) (nofZ ciface) (bp5 r) (bp6 r) (bp7 r).
Definition extrude_internal (nel2d : nat) m (x : nat * nat) : hexa N :=
  let '(iel, b) := x in
  let m := alter_bc (set_end "E" iel 5 (Z.of_nat iel - Z.of_nat nel2d + 1) 6) iel b 4 m in
  let m := alter_bc (set_end "E" iel 6 (Z.of_nat iel + Z.of_nat nel2d + 1) 5) iel b 5 m in
  foldl (λ m f, alter_bc (set_side iel) iel b f m) m (range 4).

(** Lines 130-151 for one element and one field. *)
Definition extrude_end (nel2d nz : nat) (bc1 bc2 : list string) m (x : nat * nat) : res (hexa N) :=
  let '(i, b) := x in
  let i1 := (i + (nz - 1) * nel2d)%nat in
  match bc1 !! b, bc2 !! b with
  | Some c1, Some c2 =>
    let m := alter_bc (if String.eqb c1 "P"
                       then set_end (u3 c1) i 5 (Z.of_nat i1 + 1) 6
                       else set_end (u3 c1) i 5 0 0) i b 4 m in
    Ok (alter_bc (if String.eqb c2 "P"
                  then set_end (u3 c2) i1 6 (Z.of_nat i + 1) 5
                  else set_end (u3 c2) i1 6 0 0) i1 b 5 m)
  | _, _ => Raise IndexError
  end.

(** [extrude]. Simplification: a list of fewer than two z values (no layer), on which
    the code returns a structure with a non-positive element count, raises here. *)
Definition extrude m (z : list N) (obc1 obc2 : option (list string)) (internal_bcs : bool)
    : res (hexa N) :=
  let per := replicate (nbc m) "P"%string in
  let bc1 := default per obc1 in
  let bc2 := default per obc2 in
  if negb (ndim m =? 2)%nat then Raise ValueError else
  if negb (bool_decide (lr1kind m = PyList ∧ lr1 m = [2; 2; 1]%nat)) then Raise ValueError else
  match var m !! 0%nat with
  | None => Raise IndexError
  | Some v0 =>
    if (v0 <? 2)%nat then Raise ValueError else
    if one_sided_periodic bc1 bc2 then Raise ValueError else
    if (length z <? 2)%nat then Raise ValueError else
    let! first := (if internal_bcs then Ok m
                   else let! d := delete_internal_bcs m in Ok (fst d)) in
    let nz := (length z - 1)%nat in
    let nel2d := nel m in
    let! copies := extrude_copies m nz in
    let m3 := Hexa 3 (nel2d * nz) (2 * Z.of_nat nz * ncurv m) (nbc m) [3;0;0;0;0]%nat PyList
                [2;2;2]%nat (time m) (istep m) (wdsz m) (endian m)
                (elems first ++ copies) (elmap m) in
    if negb (length (elems m) =? nel2d)%nat then Raise IndexError else
    let m3 := foldl (λ m3 x, let '(k, i) := x in
        match elems m !! i with
        | None => m3
        | Some e2 => set_elems (alter (extrude_elem (nth k z (nofZ 0)) (nth (k + 1) z (nofZ 0)) e2)
                                  (i + nel2d * k)%nat (elems m3)) m3
        end) m3 (prod2 (range nz) (range nel2d)) in
    let m3 := if internal_bcs
              then foldl (extrude_internal nel2d) m3
                     (prod2 (range (length (elems m3))) (range (nbc m)))
              else m3 in
    foldM (extrude_end nel2d nz bc1 bc2) m3 (prod2 (range nel2d) (range (nbc m)))
  end.

End Tools.
