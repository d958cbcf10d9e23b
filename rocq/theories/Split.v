(** [extrude_refine] of /repo/src/pymech/meshtools.py (158-378). *)
From Verif Require Import Base Mesh Core Tools Curve Mid.
From Coq Require Import Lia.
Open Scope Z_scope.

Section refine.
Context {A : arith}.
Local Notation N := (num A).
(** The parameters of the splitting functions. *)
Context {P : Type}.
Implicit Types (e : elem N) (m : hexa N).

(** [2 ** abs(x)] *)
Definition pow2 (x : Z) : Z := 2 ^ Z.abs x.
(** [z[::s]] for s > 0. *)
Definition every {B} (s : nat) (l : list B) : list B := omap (λ p, l !! (s * p)%nat) (range (length l)).
(** [max] and [min] of a list that is not empty. *)
Definition pymax_list (x : N) (l : list N) : N := foldl (λ a b, if nltb a b then b else a) x l.
Definition pymin_list (x : N) (l : list N) : N := foldl pymin x l.
(** Lines 264-288 for one element: 0 for the internal, 1 for the middle and 2 for the external part. Simplification: as in
    [mid_scan] the splitting function is a function on numbers that neither raises nor has other effects. *)
Definition refine_class (f : N → N → N) e : res nat :=
  let! rs := mapR (λ c : nat * nat, let! p := of_opt IndexError (point e 0 (fst c) (snd c)) in
                     let '(x, y, _) := p in Ok (f x y)) [(0, 0); (1, 0); (0, 1); (1, 1)]%nat in
  match rs with
  | r :: rs => Ok (if nleb (pymax_list r rs) (nofZ 0) then 0 else if nltb (nofZ 0) (pymin_list r rs) then 2 else 1)%nat
  | [] => Raise ValueError
  end.
(** [funpar[k]] *)
Definition refine_par (funpar : option (list P)) (k : nat) : res P :=
  match funpar with None => Raise TypeError | Some l => of_opt IndexError (l !! k) end.
(** Lines 255-300 for one splitting function: the internal and the middle part, and what is left. *)
Definition refine_split (internal_bcs : bool) (funpar : option (list P)) (ext : hexa N) (k : nat) (f : N → N → P → N)
    : res (hexa N * hexa N * hexa N) :=
  let! cs := mapR (λ i, let! e := of_opt IndexError (elems ext !! i) in
                        let! p := refine_par funpar k in refine_class (λ x y, f x y p) e) (range (nel ext)) in
  let part c := List.filter (λ i, nth i cs 3 =? c)%nat (range (nel ext)) in
  let con := if internal_bcs then "con"%string else ""%string in
  let! i := keep_elements ext (part 0%nat) con in
  let! m := keep_elements ext (part 1%nat) con in
  let! x := keep_elements ext (part 2%nat) con in
  Ok (i, m, x).
(** Lines 312-356 for one splitting function: the two meshes are extruded. *)
Definition refine_extrude (z : list N) (bc1 bc2 : list string) (imesh_high : Z) (internal_bcs : bool) (funpar : option (list P))
    (k : nat) (f : N → N → P → N) (int mid : hexa N) : res (hexa N * hexa N) :=
  let nz := Z.of_nat (length z) - 1 in
  let level := Z.of_nat k - imesh_high in
  let n_local := nz / pow2 level in
  let z_local := every (Z.to_nat (pow2 level)) z in
  let low := Z.of_nat k <? imesh_high in
  let n_mid := if low then 2 * n_local else n_local in
  let z_mid := if low then every (Z.to_nat (pow2 (level + 1))) z else z_local in
  if negb (n_mid mod 4 =? 0) then Raise ValueError else
  let! i3 := extrude int z_local (Some bc1) (Some bc2) internal_bcs in
  let! p := refine_par funpar k in
  let fl x y := if low then nopp (f x y p) else f x y p in
  let! (_, m3) := extrude_mid mid z_mid bc1 bc2 fl internal_bcs in
  Ok (i3, m3).
(** The default tolerance of merge. *)
Definition refine_merge (internal_bcs : bool) (m3 part : hexa N) : res (hexa N) :=
  let '(m3, r) := merge (nlit 1 100) true (negb internal_bcs) m3 part in let! _ := r in Ok m3.
(** [extrude_refine]. The last two cases of what is in the code after the test of [fun] cannot be reached: [len(None)]
    raises first (lines 228-248). *)
Definition extrude_refine m (z : list N) (obc1 obc2 : option (list string)) (ofun : option (list (N → N → P → N)))
    (funpar : option (list P)) (imesh_high : Z) (internal_bcs : bool) : res (hexa N) :=
  let per := replicate (nbc m) "P"%string in
  let bc1 := default per obc1 in
  let bc2 := default per obc2 in
  if negb (ndim m =? 2)%nat then Raise ValueError else
  if negb (bool_decide (lr1kind m = PyList ∧ lr1 m = [2; 2; 1]%nat)) then Raise ValueError else
  let! v0 := of_opt IndexError (var m !! 0%nat) in
  if (v0 <? 2)%nat then Raise ValueError else
  if one_sided_periodic bc1 bc2 then Raise ValueError else
  match ofun with
  | None => Raise TypeError
  | Some funs =>
    let nsplit := length funs in
    if match funpar with Some l => negb (length l =? nsplit)%nat | None => false end then Raise ValueError else
    let nz := Z.of_nat (length z) - 1 in
    if negb (nz mod pow2 (imesh_high + 1) =? 0) || negb (nz mod pow2 (Z.of_nat nsplit - imesh_high + 1) =? 0)
    then Raise ValueError else
    let! ext := (if internal_bcs then Ok m else let! d := delete_internal_bcs m in Ok (fst d)) in
    let! (parts, ext) := foldM (λ s x, let '(parts, ext) := s in let '(k, f) := x in
        let! (im, x) := refine_split internal_bcs funpar ext k f in Ok (parts ++ [im], x)) ([], ext) (enumerate funs) in
    let! ext := update_ncurv ext in
    let! parts := mapR (λ p, let! a := update_ncurv (fst p) in let! b := update_ncurv (snd p) in Ok (a, b)) parts in
    let! parts3 := mapR (λ x, let '((k, f), (i, m)) := x in
        refine_extrude z bc1 bc2 imesh_high internal_bcs funpar k f i m) (zip (enumerate funs) parts) in
    let! m3 := extrude ext (every (Z.to_nat (pow2 (Z.of_nat nsplit - imesh_high))) z) (Some bc1) (Some bc2) internal_bcs in
    let! m3 := foldM (refine_merge internal_bcs) m3 (parts3 ≫= λ p, [fst p; snd p]) in
    update_ncurv m3
  end.
End refine.
