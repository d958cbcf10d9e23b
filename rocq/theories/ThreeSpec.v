(** Three meshes merged in two steps (C79). *)
From Coq Require Import Lia.
From Verif Require Import Base Mesh Core MeshSpec MergeSpec OrderSpec.
Open Scope Z_scope.

Section Spec.
Context {A : arith}.
Notation N := (num A).
Implicit Types (m a b c : hexa N).

Definition no_periodic m : Prop := ∀ i f (k : nat) r, in_mesh m i k f → get_bc m i k f = Some r → bt r ≠ "P"%string.
(** The three meshes have the same dimension, order and number of fields; the sizes fit. *)
Definition all_compatible (bnd : Z) a b c : Prop :=
  ndim a = ndim b ∧ ndim b = ndim c ∧ head (lr1 a) = head (lr1 b) ∧ head (lr1 b) = head (lr1 c) ∧ is_Some (head (lr1 a)) ∧
  nbc a = nbc b ∧ nbc b = nbc c ∧ Z.of_nat (nel a + nel b + nel c) <= bnd ∧ 6 <= bnd.
(** Each face of the three meshes meets at most one face of the other two. *)
Definition at_most_one tol ie a b c : Prop :=
  unique_contacts tol ie a b ∧ unique_contacts tol ie a c ∧ unique_contacts tol ie b c ∧
  (∀ x y z, contact tol ie a b x y → contact tol ie a c z y → False) ∧
  (∀ x y z, contact tol ie a b x y → contact tol ie b c z x → False) ∧
  (∀ x y z, contact tol ie a c x y → contact tol ie b c x z → False).
(** The same elements in the same order, with the same geometry, curvature, fields and numbers; the same header; the same
    conditions, and the same connections, in all the fields. *)
Definition same_mesh m1 m2 : Prop :=
  renumbered (λ k, k) m1 m2 ∧ elmap m2 = elmap m1 ∧
  set_elems [] m2 = set_elems [] m1.
End Spec.
