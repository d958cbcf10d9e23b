(** What [open_dataset] should accept, and the coordinates it should give. *)
From Coq Require Import Lia Ascii Reals.
From Coq Require Import Sorted.
From Flocq Require Import Core.Core IEEE754.BinarySingleNaN IEEE754.Binary IEEE754.Bits.
From Verif Require Import Base Float Mesh Field Dataset.
Open Scope Z_scope.

(** The extensions of Nek5000 field files: .fld, and .f with five digits. *)
Definition ascii_digit (c : Z) : bool := (48 <=? c) && (c <=? 57).
Definition nek_name (p : path) : Prop :=
  ∃ stem ext, p = stem ++ ascii_path ".f" ++ ext ∧
    (ext = ascii_path "ld" ∨ length ext = 5%nat ∧ Forall (λ c, ascii_digit c = true) ext).
(** Regular expressions treat the decimal digits of all scripts as digits, those of ASCII among them. *)
Definition digits_of_unicode (decimal : Z → bool) : Prop := ∀ c, ascii_digit c = true → decimal c = true.

(** The value of a number. *)
Definition val (x : f64) : R := B2R 53 1024 x.
Definition increasing (l : list f64) : Prop := StronglySorted (λ x y, (val x < val y)%R) l.
(** Numbers that are not too large, and different after rounding to eight digits. *)
Definition moderate (x : f64) : Prop := is_finite 53 1024 x = true ∧ (Rabs (val x) <= bpow radix2 990)%R.
Definition distinct8 (l : list f64) : Prop :=
  ∀ i j x y, l !! i = Some x → l !! j = Some y → i ≠ j → val (np_round8 x) ≠ val (np_round8 y).
(** An element whose points are all combinations of the coordinates [xs], [ys] and [zs]. *)
Definition tensor (e : elem f64) (xs ys zs : list f64) : Prop :=
  eshape e = (length xs, length ys, length zs) ∧
  pos e = [ (λ '(z, y, x), x) <$> prod3 zs ys xs; (λ '(z, y, x), y) <$> prod3 zs ys xs; (λ '(z, y, x), z) <$> prod3 zs ys xs ] ∧
  length (vel e) = 3%nat.
