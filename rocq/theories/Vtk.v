(** Conversion to VTK: [hexa2vtk] of /repo/src/pymech/vtksuite.py (25-178). *)
From Coq Require Import Lia.
From Verif Require Import Base Mesh Field.
Open Scope Z_scope.

(** What is handed to VTK (vtksuite.py 147-173): cell types, offsets, the cell array, the points and the data
    at the points. Rows of numbers; pressure and temperature are kept as rows of one number. *)
Record vtk (N : Type) := Vtk {
  vt_types : list Z; vt_offsets : list Z; vt_cells : list Z; vt_points : list (list N);
  vt_vel : option (list (list N)); vt_pres : option (list (list N)); vt_temp : option (list (list N)); vt_scal : option (list (list N)) }.
Arguments Vtk {N}. Arguments vt_types {N}. Arguments vt_offsets {N}. Arguments vt_cells {N}. Arguments vt_points {N}.
Arguments vt_vel {N}. Arguments vt_pres {N}. Arguments vt_temp {N}. Arguments vt_scal {N}.

(** [a[i] = x] *)
Definition put {A} (i : Z) (x : A) (l : list A) : res (list A) :=
  let! p := of_opt IndexError (py_pos (length l) i) in Ok (<[p := x]> l).
(** [a[i, :] = row] for rows of [w] numbers; numpy repeats a single number. *)
Definition put_row {N} (w i : nat) (row : list N) (l : list (list N)) : res (list (list N)) :=
  if (length row =? w)%nat then put (Z.of_nat i) row l
  else match row with [x] => put (Z.of_nat i) (replicate w x) l | _ => Raise ValueError end.
(** [elem.pos[:, ez, ey, ex]] and the same for the other arrays. *)
Definition column {N} (e : elem N) (k : fkind) (ez ey ex : nat) : res (list N) :=
  let '(lx, ly, lz) := eshape e in
  if (ez <? lz)%nat && (ey <? ly)%nat && (ex <? lx)%nat
  then mapR (λ a, of_opt IndexError (a !! flat (eshape e) ez ey ex)) (get_f k e) else Raise IndexError.
(** [list(enumerate(range(0, n, s)))] and its length. *)
Definition steps (n s : nat) : nat := ((n + s - 1) / s)%nat.
Definition enum_steps (n s : nat) : list (nat * nat) := (λ k, (k, k * s)%nat) <$> range (steps n s).

Section hexa2vtk.
Context {N : Type} (zero : N).
(** One array (vtksuite.py 108-117, 121-138): made when there is something to store, filled when [fill] holds.
    Simplification: Python fills the five arrays in one loop, here each has its own. *)
Definition vtk_array (m : hexa N) (k : fkind) (made fill : bool) (w npts nix niy nppel : nat)
    (grid : list (nat * ((nat * nat) * (nat * nat) * (nat * nat)))) : res (option (list (list N))) :=
  if negb made then Ok None else
  let a := replicate npts (replicate w zero) in
  if negb fill then Ok (Some a) else
  rmap Some (foldM (λ a '(iel, ((iz, ez), (iy, ey), (ix, ex))),
    let! e := of_opt IndexError (elems m !! iel) in
    let! c := column e k ez ey ex in
    put_row w (iel * nppel + ix + iy * nix + iz * (nix * niy))%nat c a) a grid).
(** One cell (vtksuite.py 143-151). *)
Definition vtk_cell (nd nvert nix niy nppel : nat) (st : Z * list Z) (p : nat * (nat * nat * nat)) : res (Z * list Z) :=
  let '(ice, ce) := st in let '(iel, (iz, iy, ix)) := p in
  let ice := ice + Z.of_nat nvert + 1 in
  let! ce := foldM (λ ce face,
    let cell_id := Z.of_nat (iel * nppel + ix + iy * nix + (iz + face) * nix * niy) in
    let f := Z.of_nat face in
    let! ce := put (ice + f * 4 + 1) cell_id ce in
    let! ce := put (ice + f * 4 + 2) (cell_id + 1) ce in
    let! ce := put (ice + f * 4 + 3) (cell_id + Z.of_nat nix + 1) ce in
    put (ice + f * 4 + 4) (cell_id + Z.of_nat nix) ce) ce (range (nd - 1)) in
  Ok (ice, ce).
(** Simplifications: sizes of zero are rejected here (Python may fail later); [ce] is an array of float64 in
    which these integers are exact. The cell types are VTK_HEXAHEDRON = 12 and VTK_QUAD = 9. *)
Definition hexa2vtk (downsample : bool) (m : hexa N) : res (vtk N) :=
  let '(lx, ly, lz) := lr1_triple (lr1 m) in
  if existsb (λ n, n =? 0)%nat [lx; ly; lz] then Raise ValueError else
  (* [range(0, n, 0)] *)
  if downsample && ((lx =? 1) || (ly =? 1))%nat then Raise ValueError else
  let '(ixs, iys, izs) := if downsample then (lx - 1, ly - 1, Nat.max (lz - 1) 1)%nat else (1, 1, 1)%nat in
  let nix := steps lx ixs in let niy := steps ly iys in let niz := steps lz izs in
  let nppel := (nix * niy * niz)%nat in
  let nepel := ((nix - 1) * (niy - 1) * Nat.max (niz - 1) 1)%nat in
  let ncell := (nel m * nepel)%nat in
  let '(nvert, ctype) := if (ndim m =? 3)%nat then (8%nat, 12) else (4%nat, 9) in
  let v k := nth k (var m) 0%nat in
  (* vtksuite.py 105-106 *)
  let ce := concat (replicate ncell (Z.of_nat nvert :: replicate nvert 0)) in
  let npts := (nvert * ncell)%nat in
  let grid := prod2 (range (nel m)) (prod3 (enum_steps lz izs) (enum_steps ly iys) (enum_steps lx ixs)) in
  let arr k made fill w := vtk_array m k made fill w npts nix niy nppel grid in
  let! r := arr FPos (negb (v 0 =? 0))%nat (v 0 =? 3)%nat 3%nat in
  let! u := arr FVel (negb (v 1 =? 0))%nat (v 1 =? 3)%nat 3%nat in
  let! p := arr FPres (v 2 =? 1)%nat (v 2 =? 1)%nat 1%nat in
  let! t := arr FTemp (v 3 =? 1)%nat (v 3 =? 1)%nat 1%nat in
  let! s := arr FScal (negb (v 4 =? 0))%nat (negb (v 4 =? 0))%nat (v 4%nat) in
  let cells := prod2 (range (nel m)) (prod3 (range (Nat.max (niz - 1) 1)) (range (niy - 1)) (range (nix - 1))) in
  let! (_, ce) := if (v 0 =? 3)%nat then foldM (vtk_cell (ndim m) nvert nix niy nppel) (- (Z.of_nat nvert + 1), ce) cells
                  else Ok (- (Z.of_nat nvert + 1), ce) in
  match r with
  | None => Raise UnboundLocalError
  | Some r => Ok (Vtk (replicate ncell ctype) ((λ i, Z.of_nat (nvert * i)) <$> range ncell) ce r u p t s)
  end.
End hexa2vtk.
