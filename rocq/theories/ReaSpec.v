(** What the theorems about rea files say, in terms of the public attributes of the meshes. *)
From Coq Require Import Lia Ascii Reals Lra.
From Flocq Require Import Core.Core IEEE754.BinarySingleNaN IEEE754.Binary IEEE754.Bits.
From Verif Require Import Base Float Mesh Bytes Text TextProofs Decimal Field Re2 Re2Spec Rea.
Open Scope Z_scope.

(** [y] is the float64 nearest to a closest decimal number to [x] with [n] significant digits;
    infinities and NaN stay what they are. *)
Definition rounded (n : nat) (x y : f64) : Prop :=
  (is_nan 53 1024 x = true → is_nan 53 1024 y = true) ∧
  (∀ s, x = B754_infinity 53 1024 s → y = x) ∧
  (is_finite 53 1024 x = true → ∃ d, closest n (B2R 53 1024 x) d ∧ nearest64 (Bsign 53 1024 x) d y).
(** Printable ASCII characters other than the blank. *)
Definition plain (c : ascii) : Prop := 33 <= byte_val c <= 126.
Definition plain_text (n : nat) (s : string) : Prop := Forall plain (str s) ∧ (length (str s) ≤ n)%nat.
(** A coordinate whose text leaves a blank in a column of 14 characters: not a negative number with an
    exponent of three digits. *)
Definition leaves_blank (x : f64) : Prop :=
  is_finite 53 1024 x = true → (B2R 53 1024 x < 0)%R → (bpow ten (-99) <= - B2R 53 1024 x <= 9 * bpow ten 99)%R.
(** The numbers of a condition fit their columns. *)
Definition numbers_fit (ne : Z) (x : bcrec f64) : Prop :=
  if ne <? 10 ^ 3 then -99 <= bel x <= 999 ∧ -99 <= bface x <= 999
  else if ne <? 10 ^ 6 then -99999 <= bel x <= 999999
  else - 2 ^ 31 <= bel x < 2 ^ 31 ∧ 0 <= bface x <= 9 ∧ Forall leaves_blank [bp3 x; bp4 x; bp5 x; bp6 x; bp7 x].
Record rea_elem (nd nb : nat) (ne : Z) (e : elem f64) : Prop := {
  ra_pos : ∀ c z y x, (c < nd)%nat → (nd = 2%nat → z = false) → ∃ v, corner e c z y x = Ok v ∧ leaves_blank v;
  ra_curv : length (curv e) = 12%nat ∧ Forall (λ r, length r = 5%nat) (curv e);
  ra_ccurv : length (ccurv e) = 12%nat ∧ Forall (plain_text 3) (ccurv e);
  ra_bcs : length (bcs e) = nb ∧ Forall (λ r, length r = 6%nat) (bcs e);
  ra_cond : ∀ b f r x, bcs e !! b = Some r → r !! f = Some x → plain_text 2 (bt x) ∧ numbers_fit ne x
}.
(** A mesh with consistent arrays (of any polynomial order), at least one field of conditions and the
    right number of curved edges. *)
Record rea_mesh (m : mesh64) : Prop := {
  rw_ndim : ndim m = 2%nat ∨ ndim m = 3%nat;
  rw_nel : length (elems m) = nel m ∧ Z.of_nat (nel m) < 10 ^ 9;
  rw_nbc : (1 ≤ nbc m)%nat;
  rw_ncurv : ncurv m = Z.of_nat (n_curves m);
  rw_elems : Forall (rea_elem (ndim m) (nbc m) (Z.of_nat (nel m))) (elems m)
}.

(** Digits of the numbers of a condition. *)
Definition bc_digits (ne : Z) : nat := if ne <? 10 ^ 6 then 7 else 12.
(** Is the condition written as "E", with nothing connected? *)
Definition unconnected (x : bcrec f64) : bool :=
  (bool_decide (bt x = ""%string) || bool_decide (bt x = "E"%string)) && f64_eqb (bp3 x) z64.
(** The condition [x] of face [f] of element [p] (from 0) is read as [x']. *)
Definition cond_read (ne : Z) (p f : nat) (x x' : bcrec f64) : Prop :=
  if unconnected x then x' = zero_bc z64
  else
    bt x' = (if bool_decide (bt x = ""%string) then "E"%string else bt x) ∧
    (if (10 ^ 3 <=? ne) && (ne <? 10 ^ 6) || bool_decide (bt x = ""%string)
     then bel x' = Z.of_nat p + 1 ∧ bface x' = Z.of_nat f + 1
     else bel x' = bel x ∧ bface x' = bface x) ∧
    rounded (bc_digits ne) (bp3 x) (bp3 x') ∧ rounded (bc_digits ne) (bp4 x) (bp4 x') ∧
    rounded (bc_digits ne) (bp5 x) (bp5 x') ∧ rounded (bc_digits ne) (bp6 x) (bp6 x') ∧
    rounded (bc_digits ne) (bp7 x) (bp7 x').
Record elem_read (nd nb : nat) (ne : Z) (p : nat) (e e' : elem f64) : Prop := {
  er_shape : eshape e' = (2, 2, nd - 1)%nat;
  er_pos : ∀ c z y x, (c < nd)%nat → (nd = 2%nat → z = false) →
    ∃ v v', corner e c z y x = Ok v ∧ corner e' c z y x = Ok v' ∧ rounded 7 v v';
  er_ccurv : ccurv e' = ccurv e;
  er_curv : ∀ j t row, ccurv e !! j = Some t → t ≠ ""%string → curv e !! j = Some row →
    ∃ row', curv e' !! j = Some row' ∧ Forall2 (rounded 7) row row';
  er_bcs : ∀ b f r x, (b < nb)%nat → (f < 2 * nd)%nat → bcs e !! b = Some r → r !! f = Some x →
    ∃ r' x', bcs e' !! b = Some r' ∧ r' !! f = Some x' ∧ cond_read ne p f x x'
}.
Record mesh_read (m m' : mesh64) : Prop := {
  mr_ndim : ndim m' = ndim m; mr_nel : nel m' = nel m; mr_nbc : nbc m' = nbc m; mr_ncurv : ncurv m' = ncurv m;
  mr_lr1 : lr1 m' = [2; 2; ndim m - 1]%nat;
  mr_length : length (elems m') = length (elems m);
  mr_elems : ∀ p e, elems m !! p = Some e → ∃ e', elems m' !! p = Some e' ∧
    elem_read (ndim m) (nbc m) (Z.of_nat (nel m)) p e e'
}.
(** The conditions say consistently whether something is connected: a condition without a type has no
    connected element, and one of type "E" has one. *)
Definition consistent_types (m : mesh64) : Prop := ∀ p b f x, (f < 2 * ndim m)%nat → get_bc m p b f = Some x →
  (bt x = ""%string → f64_eqb (bp3 x) z64 = true) ∧ (bt x = "E"%string → f64_eqb (bp3 x) z64 = false).
(** The mesh without its conditions. *)
Definition bcs_blind (m : mesh64) : mesh64 := set_elems (set_bcs [] <$> elems m) m.
(** The meshes differ only in conditions that had no type: these have become "E" with the numbers (from 1)
    of the element and the face. *)
Record typed_only (m m' : mesh64) : Prop := {
  to_shape : bcs_blind m' = bcs_blind m;
  to_bcs : ∀ p b f x, get_bc m p b f = Some x → ∃ x', get_bc m' p b f = Some x' ∧
    (x' = x ∨ bt x = ""%string ∧ x' = Bc "E" (Z.of_nat p + 1) (Z.of_nat f + 1) (bp3 x) (bp4 x) (bp5 x) (bp6 x) (bp7 x))
}.
