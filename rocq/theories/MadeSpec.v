(** Meshes made by any sequence of operations, including extrusion (C78). Over the real numbers. *)
From Coq Require Import Reals.
From Verif Require Import Base Mesh Core Tools Float FloatLaws MeshSpec MergeSpec HistorySpec CurveSpec ExtrudeSpec ExtrudeReal P_ExtrudeReal.
Open Scope Z_scope.

Section Spec.
Context (bnd : Z) (tol : R).
Implicit Types (m o : hexa R).

(** When a mesh can be extruded: it is flat and linear, the positions are at least two and consecutive ones differ, the size fits, the
    conditions of the ends are given for every field, periodic at both ends or at none and in all the fields or in none, and
    connected faces are close enough for the thinnest layer. *)
Definition extrudable m (z : list R) (obc1 obc2 : option (list string)) : Prop :=
  linear2d (A:=AR) m ∧ (∀ e, e ∈ elems m → planar e) ∧ (2 ≤ length z)%nat ∧
  (∀ k z1 z2, z !! k = Some z1 → z !! (k + 1)%nat = Some z2 → z1 ≠ z2) ∧
  Z.of_nat (nel m * (length z - 1)) <= bnd ∧ close_in_layers tol z m ∧
  ∃ c1 c2, conditions_given (nbc m) obc1 c1 ∧ conditions_given (nbc m) obc2 c2 ∧
    ∀ b, (b < nbc m)%nat → end_condition (c1 b) ∧ end_condition (c2 b) ∧ (c1 b = "P"%string ↔ c2 b = "P"%string) ∧
      (c1 b = "P"%string ↔ c1 0%nat = "P"%string).

(** The meshes that can be made from given ones: by merging, by taking some of the elements, by deleting and generating internal
    conditions, by rotating, and by extruding, in any order, any number of times. *)
Inductive made (given : hexa R → Prop) : hexa R → Prop :=
| made_given m : given m → made given m
| made_merge m o m' n ie : made given m → made given o → mergeable (A:=AR) bnd tol ie m o → merge (A:=AR) tol ie false m o = (m', Ok n) → made given m'
| made_keep m m' els ext : made given m → NoDup els → ¬ is_conn (u3 ext) → keep_elements (A:=AR) m els ext = Ok m' → made given m'
| made_delete m m' n : made given m → delete_internal_bcs (A:=AR) m = Ok (m', n) → made given m'
| made_generate m m' n : made given m → generate_internal_bcs (A:=AR) tol m = Ok (m', n) → made given m'
| made_rotate m m' theta x0 y0 : made given m → (∀ e, e ∈ elems m → wf_curves e) → rotate_2d (A:=AR) (cos theta) (sin theta) x0 y0 m = Ok m' → made given m'
| made_extrude m m' z obc1 obc2 : made given m → extrudable m z obc1 obc2 → extrude (A:=AR) m z obc1 obc2 true = Ok m' → made given m'.
End Spec.
