(** Meshes made by any sequence of operations. *)
From Coq Require Import Lia.
From Verif Require Import Base Mesh Core Tools MeshSpec MergeSpec.
Open Scope Z_scope.

Section Spec.
Context {A : arith} (bnd : Z) (tol : num A).
Notation N := (num A).
Implicit Types (m o : hexa N) (e : elem N).

(** A mesh that is ready for any operation: connected faces are paired, in the same way in all the fields, and
    connected faces coincide within the tolerance; no element is degenerate; the arrays are complete. *)
Record sound m : Prop := {
  so_connected : connected_mesh m;
  so_valid : valid_connectivity tol m;
  so_edges : ∀ e s, e ∈ elems m → smallest_edge e = Ok s → nltb (nofZ 0) s = true;
  so_curves : ∀ e, e ∈ elems m → length (ccurv e) = 12%nat;
  so_fields : (0 < nbc m)%nat;
  so_size : Z.of_nat (nel m) <= bnd
}.
(** When two meshes can be merged: they have the same dimension, order and number of fields, their sizes fit, each face
    meets at most one face of the other mesh, and periodic faces meet periodic faces. *)
Definition mergeable (ie : bool) m o : Prop :=
  compatible bnd m o ∧ unique_contacts tol ie m o ∧ periodic_meets_periodic tol ie m o.

(** The meshes that can be made from given ones: by merging, by taking some of the elements, and by deleting and
    generating internal conditions, in any order, any number of times. *)
Inductive built (given : hexa N → Prop) : hexa N → Prop :=
| built_given m : given m → built given m
| built_merge m o m' n ie : built given m → built given o → mergeable ie m o → merge tol ie false m o = (m', Ok n) → built given m'
| built_keep m m' els ext : built given m → NoDup els → ¬ is_conn (u3 ext) → keep_elements m els ext = Ok m' → built given m'
| built_delete m m' n : built given m → delete_internal_bcs m = Ok (m', n) → built given m'
| built_generate m m' n : built given m → generate_internal_bcs tol m = Ok (m', n) → built given m'.
End Spec.
