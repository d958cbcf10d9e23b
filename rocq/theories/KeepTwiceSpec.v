(** Taking some of the elements twice, and meshes that are the same. *)
From Coq Require Import Lia.
From Verif Require Import Base Mesh Core MeshSpec KeepSpec.
Open Scope Z_scope.

(** The elements [els] whose new numbers are in [sub]. *)
Definition chosen (els sub : list nat) : list nat := filter (λ i, new_number els i ∈ sub) els.

(** The same elements with the same conditions (for two dimensions, the two unused places of a row of conditions are left out). *)
Definition same_in_mesh {N : Type} (m m' : hexa N) : Prop :=
  ndim m = ndim m' ∧ nbc m = nbc m' ∧ nel m = nel m' ∧ lr1 m = lr1 m' ∧ var m = var m' ∧ ncurv m = ncurv m' ∧
  (∀ k, (k < nel m)%nat → ∃ e e', elems m !! k = Some e ∧ elems m' !! k = Some e' ∧ set_bcs [] e = set_bcs [] e') ∧
  ∀ k b f, (k < nel m ∧ b < nbc m ∧ f < 2 * ndim m)%nat → get_bc m k b f = get_bc m' k b f.
