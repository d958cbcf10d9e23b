(** What the mesh reduced to some of its elements is expected to look like. Independent of the
    model of keep_elements. *)
From Verif Require Import Base Mesh Core MeshSpec.
From Coq Require Import Lia.

(** The new number of a kept element: the number of kept elements before it. *)
Definition new_number (els : list nat) (i : nat) : nat :=
  length (filter (λ j, (j < i)%nat) els).

Section Spec.
Context {A : arith}.
Notation N := (num A).
Implicit Types (m : hexa N) (e : elem N) (r : bcrec N).

(** The entry [r'] of the reduced mesh for the entry [r] of element i of a mesh
    of n elements: connections to kept
    elements follow the new numbers, connections to other elements become [ext]. *)
Definition keep_entry (n : nat) (els : list nat) (ext : string) (i : nat) r r' : Prop :=
  bel r' = Z.of_nat (new_number els i) + 1 ∧ bface r' = bface r ∧
  bp5 r' = bp5 r ∧ bp6 r' = bp6 r ∧ bp7 r' = bp7 r ∧
  (¬ is_conn (bt r) → bt r' = bt r ∧ bp3 r' = bp3 r ∧ bp4 r' = bp4 r) ∧
  (is_conn (bt r) → ∀ j, (j < n)%nat → bp3 r = nofZ (Z.of_nat j + 1) →
     (j ∈ els → bt r' = bt r ∧ bp3 r' = nofZ (Z.of_nat (new_number els j) + 1) ∧ bp4 r' = bp4 r) ∧
     (j ∉ els → bt r' = u3 ext ∧ bp3 r' = nofZ 0 ∧ bp4 r' = nofZ 0)).

(** Every connected entry names an element of the mesh, exactly. *)
Definition refs_in_mesh m : Prop :=
  ∀ i b f r, in_mesh m i b f → get_bc m i b f = Some r → is_conn (bt r) →
    ∃ j, (j < nel m)%nat ∧ bp3 r = nofZ (Z.of_nat j + 1).

(** [m'] is [m] reduced to the elements [els]. *)
Definition is_subset m (els : list nat) (ext : string) m' : Prop :=
  ndim m' = ndim m ∧ nbc m' = nbc m ∧ lr1 m' = lr1 m ∧ var m' = var m ∧
  nel m' = length els ∧ length (elems m') = length els ∧
  (∀ i, i ∈ els → ∃ e e', elems m !! i = Some e ∧ elems m' !! new_number els i = Some e' ∧
     set_bcs [] e' = set_bcs [] e) ∧
  (∀ i b f r, i ∈ els → in_mesh m i b f → get_bc m i b f = Some r →
     ∃ r', get_bc m' (new_number els i) b f = Some r' ∧ keep_entry (nel m) els ext i r r').
End Spec.
