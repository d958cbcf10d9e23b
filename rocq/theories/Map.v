(** Partition maps: [readma2] of /repo/src/pymech/neksuite/map.py (8-100). *)
From Coq Require Import Lia Ascii.
From Flocq Require Import Core.Core IEEE754.BinarySingleNaN IEEE754.Binary IEEE754.Bits.
From Verif Require Import Base Float Mesh Bytes Text Field.
Open Scope Z_scope.

(** [np.frombuffer(l, dtype=o+"i", count=n)]. *)
Definition ints (o : order) (n : nat) (l : bytes) : res (list Z) :=
  if (length l <? n * 4)%nat then Raise ValueError else Ok (i32_read o <$> chunks 4 n l).
(** [readma2]: the vertices of each element and the ranks, both as float64 arrays (map.py 84-86).
    Simplification: [npts / nel] is the float64 quotient of the two numbers rounded to float64, which is
    Python's result as long as they are at most 2^53. The tag (map.py 62-76) is that of field files. *)
Definition readma2 (file : bytes) : res (list (list f64) * list f64) :=
  let '(hb, l) := py_read 132 file in
  let! t := of_opt IndexError (split hb !! 1%nat) in let! ne := py_int t in
  let! t := of_opt IndexError (split hb !! 5%nat) in let! np := py_int t in
  let '(tb, l) := py_read 4 l in
  let! o := read_tag tb in
  if ne =? 0 then Raise ZeroDivisionError else
  let! nv := ntrunc (a:=A64) (ndiv (a:=A64) (f64_of_Z np) (f64_of_Z ne)) in
  let '(buf, _) := py_read ((nv + 1) * 4 * ne) l in
  if (ne <? 0) || (nv <? 0) then Raise ValueError else
  let k := Z.to_nat (nv + 1) in
  let! recs := mapR (λ iel, ints o k (drop (k * 4 * iel) buf)) (range (Z.to_nat ne)) in
  Ok ((λ r, f64_of_Z <$> drop 1 r) <$> recs, (λ r, f64_of_Z (nth 0 r 0)) <$> recs).
