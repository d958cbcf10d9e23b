(** What printing an element or a mesh shows. *)
From Verif Require Import Base Mesh Core.

Section Repr.
Context {A : arith}.
Notation N := (num A).

(** [Elem.centroid] (core.py 143-145): the mean over all points of an element, by component. numpy adds the numbers of a
    long row in another order, which makes no difference over the reals, where the theorems are stated. An empty array gives
    nan, like this division. *)
Definition mean (c : list N) : N := ndiv (foldl nadd (nofZ 0) c) (nofZ (Z.of_nat (length c))).
Definition centroid (e : elem N) : list N := mean <$> pos e.

(** How Python prints numbers, and numpy an array with the three coordinates, is a parameter. *)
Context (show_Z : Z → string) (show_N : N → string) (show_vec : list N → string).
Local Open Scope string_scope.
(** [Elem.__repr__] (core.py 139-141). *)
Definition elem_repr (e : elem N) : string := "<elem centered at " ++ show_vec (centroid e) ++ ">".
(** A pair of Python floats. *)
Definition pair_repr (p : N * N) : string := "(" ++ show_N p.1 ++ ", " ++ show_N p.2 ++ ")".
(** [DataLims.__repr__] (core.py 60-66), the three lines. *)
Definition lims_repr (d : limdict A) : res (list string) :=
  let! x := of_opt IndexError (l_pos d !! 0%nat) in
  let! y := of_opt IndexError (l_pos d !! 1%nat) in
  let! z := of_opt IndexError (l_pos d !! 2%nat) in
  Ok ["* x:         " ++ pair_repr x; "* y:         " ++ pair_repr y; "* z:         " ++ pair_repr z].
(** [HexaData.__repr__] (core.py 252-270). Simplification: the indentation of the text in the source, which dedent removes,
    is left out. The parts of the f-string are evaluated from left to right. *)
Definition hexa_repr (m : hexa N) : res (list string) :=
  let! d := lims m in
  let! ls := lims_repr d in
  let! e0 := of_opt IndexError (elems m !! 0%nat) in
  let! e1 := of_opt IndexError (last (elems m)) in
  Ok ("<pymech.core.HexaData>" :: ("Dimensions:    " ++ show_Z (Z.of_nat (ndim m))) :: ("Precision:     " ++ show_Z (wdsz m) ++ " bytes") :: "Mesh limits:" ::
      app (append "  " <$> ls)
      ["Time:"; "  * time:      " ++ show_N (time m); "  * istep:     " ++ show_Z (istep m); "Elements:"; "  * nel:       " ++ show_Z (Z.of_nat (nel m));
       "  * elem:      [" ++ elem_repr e0; "                ..."; "                " ++ elem_repr e1 ++ "]"; ""]).
End Repr.
