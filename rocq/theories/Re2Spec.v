(** What the theorems about re2 files say, in terms of the public attributes of the meshes. *)
From Coq Require Import Lia Ascii.
From Flocq Require Import Core.Core IEEE754.BinarySingleNaN IEEE754.Binary IEEE754.Bits.
From Verif Require Import Base Float Mesh Bytes Text Field Re2.
Open Scope Z_scope.

Definition ascii_text (l : bytes) : Prop := Forall (λ c, byte_val c < 128) l.
(** A curvature type as Nek knows them: none, or one ASCII character. *)
Definition curve_type (s : string) : Prop := s = ""%string ∨ ∃ c, s = String c "" ∧ byte_val c < 128.
(** A boundary condition type: at most three ASCII characters, the last one neither white space nor
    NUL (numpy drops trailing NULs by itself). *)
Definition bc_type (s : string) : Prop :=
  ascii_text (str s) ∧ (length (str s) ≤ 3)%nat ∧
  ∀ c, last (str s) = Some c → is_space_str c = false ∧ c ≠ Ascii.zero.

(** A mesh of linear elements with consistent array shapes, whose number of elements fits the columns
    of the header. *)
Record re2_elem (nd nb : nat) (e : elem f64) : Prop := {
  re_shape : eshape e = (2, 2, nd - 1)%nat;
  re_pos : ∀ c, (c < nd)%nat → ∃ a, pos e !! c = Some a ∧ length a = (4 * (nd - 1))%nat;
  re_curv : length (curv e) = 12%nat ∧ Forall (λ r, length r = 5%nat) (curv e);
  re_ccurv : length (ccurv e) = 12%nat ∧ Forall curve_type (ccurv e);
  re_bcs : length (bcs e) = nb ∧ Forall (λ r, length r = 6%nat) (bcs e);
  re_types : ∀ b f r x, bcs e !! b = Some r → r !! f = Some x → bc_type (bt x)
}.
Record re2_mesh (m : mesh64) : Prop := {
  rm_ndim : ndim m = 2%nat ∨ ndim m = 3%nat;
  rm_lr1 : lr1kind m = PyList ∧ lr1 m = [2; 2; ndim m - 1]%nat;
  rm_var : head (var m) = Some (ndim m);
  rm_nel : length (elems m) = nel m ∧ Z.of_nat (nel m) < 10 ^ 8;
  rm_elems : Forall (re2_elem (ndim m) (nbc m)) (elems m)
}.

(** The vertices, curved edges and external conditions of [m'] are those of [m]. *)
Definition external (t : string) : Prop := t ≠ ""%string ∧ t ≠ "E"%string.
Definition is_external (t : string) : bool := negb (bool_decide (t = ""%string)) && negb (bool_decide (t = "E"%string)).
Definition same_vertices (nd : nat) (e' e : elem f64) : Prop :=
  ∀ c kz ky kx, (c < nd)%nat → (kz < nd - 1)%nat → (ky < 2)%nat → (kx < 2)%nat →
    ∃ x, pos_at e c kz ky kx = Ok x ∧ pos_at e' c kz ky kx = Ok x.
Definition same_curves (e' e : elem f64) : Prop :=
  ccurv e' = ccurv e ∧ ∀ i t, ccurv e !! i = Some t → t ≠ ""%string → curv e' !! i = curv e !! i.
(** [p] is the position of the element in the list: the numbers stored with an external condition are
    those of its own element and face, counted from one; other conditions become empty. *)
Definition same_conditions (nd nb p : nat) (e' e : elem f64) : Prop :=
  ∀ b f r x, (b < nb)%nat → (f < 2 * nd)%nat → bcs e !! b = Some r → r !! f = Some x →
    ∃ r', bcs e' !! b = Some r' ∧
      r' !! f = Some (if is_external (bt x)
        then Bc (bt x) (Z.of_nat p + 1) (Z.of_nat f + 1) (bp3 x) (bp4 x) (bp5 x) (bp6 x) (bp7 x)
        else zero_bc z64).
Definition same_mesh (m' m : mesh64) : Prop :=
  ndim m' = ndim m ∧ nel m' = nel m ∧ lr1 m' = lr1 m ∧ head (var m') = head (var m) ∧
  length (elems m') = length (elems m) ∧
  ∀ p e, elems m !! p = Some e → ∃ e', elems m' !! p = Some e' ∧
    same_vertices (ndim m) e' e ∧ same_curves e' e ∧ same_conditions (ndim m) (nbc m) p e' e.
(** The number of curved edges, and of external conditions of field [b]. *)
Definition n_curves (m : mesh64) : nat :=
  sum_list ((λ e, length (filter (λ t, t ≠ ""%string) (ccurv e))) <$> elems m).
Definition n_external (m : mesh64) (b : nat) : nat :=
  sum_list ((λ e, length (filter (λ x, is_external (bt x) = true)
                            (take (2 * ndim m) (default [] (bcs e !! b))))) <$> elems m).
(** The offset at which the tables of conditions of fields [0 .. k-1] end. *)
Definition re2_offset (m : mesh64) (k : nat) : nat :=
  (84 + nel m * (8 * (ndim m * 2 ^ ndim m + 1)) + (8 + 64 * n_curves m) +
   sum_list ((λ b, 8 + 64 * n_external m b) <$> seq 0 k))%nat.
