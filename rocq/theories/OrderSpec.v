(** The same mesh with other element numbers. *)
From Coq Require Import Lia.
From Verif Require Import Base Mesh Core MeshSpec MergeSpec.
Open Scope Z_scope.

(** The number in (b, a) of the element that has number [k] in (a, b), where a has [n1] and b has [n2] elements. *)
Definition swapped (n1 n2 k : nat) : nat := (if decide (k < n1) then n2 + k else k - n1)%nat.

(** [m2] is [m1] with other element numbers: element [k] of [m1] is element [σ k] of [m2], with the same geometry, curvature and
    fields; its faces have the same conditions; and where a face of [m1] is connected to face [g] of element [j], the face of
    [m2] is connected to face [g] of element [σ j]. *)
Definition renumbered {A : arith} (σ : nat → nat) (m1 m2 : hexa (num A)) : Prop :=
  nel m2 = nel m1 ∧ nbc m2 = nbc m1 ∧ ndim m2 = ndim m1 ∧ ncurv m2 = ncurv m1 ∧
  (∀ k, (k < nel m1)%nat → (σ k < nel m1)%nat) ∧ (∀ k k', (k < nel m1)%nat → (k' < nel m1)%nat → σ k = σ k' → k = k') ∧
  (∀ k, (k < nel m1)%nat → ∃ e1 e2, elems m1 !! k = Some e1 ∧ elems m2 !! σ k = Some e2 ∧ same_elem e1 e2) ∧
  ∀ k b f, in_mesh m1 k b f → ∃ r1 r2, get_bc m1 k b f = Some r1 ∧ get_bc m2 (σ k) b f = Some r2 ∧ bt r2 = bt r1 ∧
    (is_conn (bt r1) → ∃ j g, in_mesh m1 j b g ∧ points r1 j g ∧ points r2 (σ j) g).
