(** C75: the order in which meshes are merged. *)
From Coq Require Import Lia.
From Verif Require Import Base Mesh Core Tools Float FloatLaws GeoLaws MeshLemmas MeshSpec MergeSpec Samples P_Merge OrderSpec MergeOrder.
Open Scope Z_scope.

(** Merging b into a and merging a into b glue the same number of faces and give the same mesh, but for the numbers of the
    elements: those of the mesh that is extended come first.  The meshes are as in C26, and no element has an edge of length 0. *)
Theorem C75_merge_order {A : arith} (bnd : Z) (a b : hexa (num A)) tol ie :
  arith_laws A bnd → geo_laws A → compatible bnd a b → (0 < nbc a)%nat → connected_mesh a → connected_mesh b →
  unique_contacts tol ie a b → periodic_meets_periodic tol ie a b →
  (∀ e s, e ∈ elems a ∨ e ∈ elems b → smallest_edge e = Ok s → nltb (nofZ 0) s = true) →
  ∃ m1 m2 n, merge tol ie false a b = (m1, Ok n) ∧ merge tol ie false b a = (m2, Ok n) ∧
    renumbered (swapped (nel a) (nel b)) m1 m2 ∧ renumbered (swapped (nel b) (nel a)) m2 m1.
Proof.
  intros LA G Hc Hnb Ca Cb Hun Hpp Hpos.
  destruct (C26_merge_glues bnd a b tol ie LA Hc Hnb Ca Cb Hun Hpp) as (m1 & n & E1 & A1 & G1 & _).
  assert (∀ e s, e ∈ elems b ∨ e ∈ elems a → smallest_edge e = Ok s → nltb (nofZ 0) s = true) as Hpos' by (intros e s [He|He]; apply Hpos; auto).
  pose proof (compatible_swap bnd a b Hc) as Hc'. pose proof (unique_swap G a b tol ie Hun Hpos) as Hun'. pose proof (periodic_swap G a b tol ie Hpos Hpp) as Hpp'.
  destruct (C26_merge_glues bnd b a tol ie LA Hc' ltac:(destruct Hc as (_ & _ & _ & <- & _); done) Cb Ca Hun' Hpp') as (m2 & n' & E2 & A2 & G2 & _).
  pose proof (same_count G a b tol ie Hpos m1 m2 n n' G1 G2) as ->. exists m1, m2, n. split; [done|]. split; [done|]. split.
  - by eapply (order_renumbered bnd LA G a b tol ie Hc Hnb Ca Cb Hun Hpos).
  - eapply (order_renumbered bnd LA G b a tol ie Hc'); eauto. destruct Hc as (_ & _ & _ & <- & _). done.
Qed.
Print Assumptions C75_merge_order.

(** In float64 arithmetic, with up to 2^53 elements. *)
Theorem C75_merge_order_float64 (a b : hexa (num A64)) tol ie :
  compatible (A:=A64) bnd64 a b → (0 < nbc a)%nat → connected_mesh (A:=A64) a → connected_mesh (A:=A64) b →
  unique_contacts (A:=A64) tol ie a b → periodic_meets_periodic (A:=A64) tol ie a b →
  (∀ e s, e ∈ elems a ∨ e ∈ elems b → smallest_edge (A:=A64) e = Ok s → nltb (a:=A64) (nofZ 0) s = true) →
  ∃ m1 m2 n, merge (A:=A64) tol ie false a b = (m1, Ok n) ∧ merge (A:=A64) tol ie false b a = (m2, Ok n) ∧
    renumbered (A:=A64) (swapped (nel a) (nel b)) m1 m2 ∧ renumbered (A:=A64) (swapped (nel b) (nel a)) m2 m1.
Proof. apply (C75_merge_order bnd64); [apply A64_laws|apply A64_geo]. Qed.
Print Assumptions C75_merge_order_float64.

(** Two periodic boxes meet the hypotheses; the left end of the merged mesh is periodic with its right end, whichever box comes
    first, and has number 1 or 3. *)
Lemma two_ok_order l r : two_okb l r = true → ∃ m1 m2 n, merge (A:=A64) tol64 false false l r = (m1, Ok n) ∧ merge (A:=A64) tol64 false false r l = (m2, Ok n) ∧
    renumbered (A:=A64) (swapped (nel l) (nel r)) m1 m2 ∧ renumbered (A:=A64) (swapped (nel r) (nel l)) m2 m1.
Proof. intros H. destruct (two_okb_ok l r H) as (H1 & H2 & H3 & H4 & H5 & H6 & _ & _ & H9). by apply C75_merge_order_float64. Qed.
Example C75_sample : ∃ m1 m2 n, merge (A:=A64) tol64 false false per_l per_r = (m1, Ok n) ∧ merge (A:=A64) tol64 false false per_r per_l = (m2, Ok n) ∧
    renumbered (A:=A64) (swapped (nel per_l) (nel per_r)) m1 m2 ∧ renumbered (A:=A64) (swapped (nel per_r) (nel per_l)) m2 m1.
Proof. apply two_ok_order. vm_compute. reflexivity. Qed.
Example C75_sample_values :
  match merge (A:=A64) tol64 false false per_l per_r, merge (A:=A64) tol64 false false per_r per_l with
  | (m1, Ok n), (m2, Ok n') => n = 1 ∧ n' = 1 ∧ bc_view m1 0 0 3 = Some ("P", Ok 4, Ok 2)%string ∧ bc_view m2 2 0 3 = Some ("P", Ok 2, Ok 2)%string ∧
      swapped (nel per_l) (nel per_r) 0 = 2%nat ∧ swapped (nel per_l) (nel per_r) 3 = 1%nat
  | _, _ => False end.
Proof. vm_compute. split_and!; reflexivity. Qed.
