(** What [open_dataset] should show of a field written with [writenek]. *)
From Coq Require Import Lia Ascii Reals.
From Flocq Require Import Core.Core IEEE754.BinarySingleNaN IEEE754.Binary IEEE754.Bits.
From Verif Require Import Base Float Mesh Bytes Field FieldSpec Re2 Dataset DatasetSpec.
Open Scope Z_scope.

(** The variables of a dataset: their names, and which component of which field they show. Pressure, temperature and
    scalars are there if the field has them. *)
Definition shown (m : mesh) : list (string * fkind * nat) :=
  [("xmesh", FPos, 0); ("ymesh", FPos, 1); ("zmesh", FPos, 2); ("ux", FVel, 0); ("uy", FVel, 1); ("uz", FVel, 2)]%string%nat ++
  (if (nvar m FPres =? 0)%nat then [] else [("pressure"%string, FPres, 0%nat)]) ++
  (if (nvar m FTemp =? 0)%nat then [] else [("temperature"%string, FTemp, 0%nat)]) ++
  ((λ i, (scalar_name i, FScal, i)) <$> seq 0 (nvar m FScal)).
(** The number of points of an element. *)
Definition points_of (m : mesh) : nat := foldr Nat.mul 1%nat (lr1 m).
(** The values of component [c] of field [k] of element [p], as [r] leaves them; zero if the field is not stored. *)
Definition shown_values (r : f64 → f64) (m : mesh) (p : nat) (k : fkind) (c : nat) : list f64 :=
  if (c <? nvar m k)%nat then (λ v, r (to64 v)) <$> default [] (cell m p k c) else replicate (points_of m) z64.
(** The points of element [p] are all combinations of the coordinates [xs], [ys] and [zs], once [r] has been applied to
    the coordinates; a two-dimensional field has no third coordinate, and 0 stands for it. *)
Definition box_of (r : f64 → f64) (m : mesh) (p : nat) (xs ys zs : list f64) : Prop :=
  lr1 m = [length xs; length ys; length zs] ∧
  shown_values r m p FPos 0 = ((λ '(z, y, x), x) <$> prod3 zs ys xs) ∧
  shown_values r m p FPos 1 = ((λ '(z, y, x), y) <$> prod3 zs ys xs) ∧
  shown_values r m p FPos 2 = ((λ '(z, y, x), z) <$> prod3 zs ys xs).
(** The dataset of element [p]. *)
Definition dataset_of (r : f64 → f64) (m : mesh) (p : nat) (xs ys zs : list f64) (d : dset) : Prop :=
  ds_x d = xs ∧ ds_y d = ys ∧ ds_z d = zs ∧
  ds_vars d = (λ '(n, k, c), (n, shown_values r m p k c)) <$> shown m.
