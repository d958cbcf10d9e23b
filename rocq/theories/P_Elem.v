(** C19-C22: extrema, smallest_edge, face_center. *)
From Coq Require Import Lia Reals Lra.
From Verif Require Import Base Mesh Core Tools Float FloatLaws MeshLemmas MeshSpec CheckProofs
  LimsProofs ElemProofs Samples.
Open Scope Z_scope.

(** C19, for meshes of at least two elements, in float64: every component of every
    variable gets a pair (lo, hi); lo and hi are values of the component and, unless they
    are NaN, bound all its values. A NaN extremum is reported only if NaN occurs. *)
Theorem C19_lims_are_extrema_partial (m : hexa (num A64)) e0 e1 l np nv nq nt ns :
  elems m = e0 :: e1 :: l → all_uniform (A:=A64) (elems m) np nv nq nt ns →
  ∃ d, lims (A:=A64) m = Ok d ∧ dict_extrema (A:=A64) (elems m) np nv nq nt ns d.
Proof.
  unfold lims. intros -> H. exact (data_lims_spec A64_order e0 e1 l np nv nq nt ns H).
Qed.
Print Assumptions C19_lims_are_extrema_partial.
(** Missing: meshes with a single element, on which the code raises. *)
Theorem C19_single_element_refuted : ∃ (m : hexa (num A64)) e,
  elems m = [e] ∧ all_uniform (A:=A64) (elems m) 3 3 0 0 0 ∧ lims (A:=A64) m = Raise TypeError.
Proof.
  exists (new_hexa (zf 0 : num A64) "little" 2 1 PyList [2; 2; 1]%nat [2; 1; 0; 0; 0]%nat 1).
  eexists. split; [reflexivity|]. split; [|reflexivity].
  split_and!; intros e He; apply elem_of_list_singleton in He as ->; (split; [reflexivity|]);
    intros c Hc; cbn in Hc; set_solver.
Qed.
Print Assumptions C19_single_element_refuted.
Theorem C19_fewer_than_two_raise {A : arith} (m : hexa (num A)) :
  (length (elems m) < 2)%nat → lims m = Raise TypeError.
Proof. unfold lims, data_lims. destruct (elems m) as [|e [|e' l]]; cbn; [done|done|lia]. Qed.
Print Assumptions C19_fewer_than_two_raise.

Example C19_box : rmap (λ d, (l_pos (A:=A64) d).*1) (lims (A:=A64) box21) = Ok [zf 0; zf 0; zf 0] ∧
  all_uniform (A:=A64) (elems box21) 3 3 0 0 0.
Proof.
  split; [vm_compute; reflexivity|].
  assert (forallb (λ e : elem (num A64),
    ((length (pos e) =? 3) && (length (vel e) =? 3) && (length (pres e) =? 0) && (length (temp e) =? 0)
      && (length (scal e) =? 0))%nat && forallb (λ c : list f64, negb (length c =? 0)%nat)
      (pos e ++ vel e)) (elems box21) = true) as H by (vm_compute; reflexivity).
  split_and!; intros e He; pose proof (forallb_elem _ _ H e He) as He'; cbv beta in He';
    apply andb_prop in He' as [He1 He2]; rewrite !andb_true_iff, !Nat.eqb_eq in He1;
    (split; [tauto|]); intros c Hc ->.
  1,2: (by assert ([] ∈ pos e ++ vel e) as Hin by (apply elem_of_app; auto);
       specialize (forallb_elem _ _ He2 [] Hin)).
  all: destruct He1 as ((((_ & _) & H1) & H2) & H3);
    first [apply nil_length_inv in H1; rewrite H1 in Hc; by apply elem_of_nil in Hc
          |apply nil_length_inv in H2; rewrite H2 in Hc; by apply elem_of_nil in Hc
          |apply nil_length_inv in H3; rewrite H3 in Hc; by apply elem_of_nil in Hc].
Qed.

(** C20. A history of assignments: each raises and the object stays the same. *)
Fixpoint assign_all {N} (o : obj N) (h : list (string * aval N)) : obj N * list (res unit) :=
  match h with
  | [] => (o, [])
  | (s, v) :: h => let '(o1, r) := setattr o s v in
                   let '(o2, rs) := assign_all o1 h in (o2, r :: rs)
  end.
Lemma lims_object_made {A : arith} (d : limdict A) o : lims_object d = Ok o →
  attr o "_initialized" = Some (AvBool true) ∧ attr o "pos" = Some (AvLims (l_pos d)) ∧
  attr o "vel" = Some (AvLims (l_vel d)) ∧ attr o "pres" = Some (AvLims (l_pres d)) ∧
  attr o "temp" = Some (AvLims (l_temp d)) ∧ attr o "scal" = Some (AvLims (l_scal d)).
Proof. unfold lims_object. cbn. intros [= <-]. cbn. done. Qed.
Theorem C20_lims_immutable {A : arith} (d : limdict A) (h : list (string * aval (num A))) :
  ∃ o, lims_object d = Ok o ∧
    attr o "pos" = Some (AvLims (l_pos d)) ∧ attr o "vel" = Some (AvLims (l_vel d)) ∧
    attr o "pres" = Some (AvLims (l_pres d)) ∧ attr o "temp" = Some (AvLims (l_temp d)) ∧
    attr o "scal" = Some (AvLims (l_scal d)) ∧
    (assign_all o h).1 = o ∧ ∀ r, r ∈ (assign_all o h).2 → r = Raise AttributeError.
Proof.
  destruct (lims_object d) as [o|] eqn:E; [|discriminate].
  destruct (lims_object_made d o E) as (Hi & H1 & H2 & H3 & H4 & H5).
  exists o. split; [done|]. do 5 (split; [done|]).
  clear -Hi. induction h as [|[s v] h [IH1 IH2]]; cbn.
  - split; [done|]. intros r Hr. by apply elem_of_nil in Hr.
  - unfold setattr. rewrite Hi. destruct (assign_all o h) as [o2 rs]. cbn in *.
    split; [done|]. intros r [->|Hr]%elem_of_cons; auto.
Qed.
Print Assumptions C20_lims_immutable.
(** The protection covers assignment only: [del lims._initialized] removes it. *)
Theorem C20_del_reopens {A : arith} (d : limdict A) v : ∃ o, lims_object d = Ok o ∧
  (delattr o "_initialized").2 = Ok tt ∧
  (setattr (delattr o "_initialized").1 "pos" v).2 = Ok tt.
Proof. eexists. split; [reflexivity|]. split; reflexivity. Qed.
Print Assumptions C20_del_reopens.

(** C21. What the method returns: the smallest of the distances between the pairs of
    [measured2]/[measured3], which include two diagonals per z-face instead of the two edges
    in y direction. *)
Theorem C21_smallest_measured (e : elem (num AR)) lx ly lz :
  wf_geom_elem e → eshape e = (lx, ly, lz) →
  ∃ s, smallest_edge (A:=AR) e = Ok s ∧
    smallest_of e (if (1 <? lz)%nat then measured3 else measured2) s.
Proof. exact (smallest_edge_measured e lx ly lz). Qed.
Print Assumptions C21_smallest_measured.
(** For boxes whose y extent is not the shortest the result is the shortest edge. *)
Theorem C21_smallest_edge_partial (e : elem (num AR)) lx ly lz x0 dx y0 dy z0 dz :
  wf_geom_elem e → eshape e = (lx, ly, lz) → is_box e x0 dx y0 dy z0 dz →
  (0 <= dx)%R → (0 <= dy)%R → (0 <= dz)%R →
  ((if (1 <? lz)%nat then Rmin dx dz else dx) <= dy)%R →
  ∃ s, smallest_edge (A:=AR) e = Ok s ∧
    smallest_of e (if (1 <? lz)%nat then edges3 else edges2) s.
Proof.
  intros Hw Es Hb H1 H2 H3 H4.
  destruct (smallest_edge_box e lx ly lz x0 dx y0 dy z0 dz Hw Es Hb H1 H2 H3) as (s & Hs & _ & H).
  eauto.
Qed.
Print Assumptions C21_smallest_edge_partial.
(** In general it is not: a cell of size 2 x 1 has an edge of length 1 but 2 is returned. *)
Definition flat_cell : elem (num AR) :=
  Elem (2, 2, 1)%nat [[0; 2; 0; 2]; [0; 0; 1; 1]; [0; 0; 0; 0]]%R [] [] [] [] [] [] [].
Lemma flat_cell_wf : wf_geom_elem (A:=AR) flat_cell.
Proof.
  exists 2%nat, 2%nat, 1%nat. split; [done|]. split; [lia|]. split; [done|].
  intros c Hc. cbn in Hc. rewrite !elem_of_cons, elem_of_nil in Hc.
  by destruct Hc as [->|[->|[->|[]]]].
Qed.
Lemma flat_cell_box : is_box flat_cell 0 2 0 1 0 0.
Proof.
  intros v p Hp Hv. do 8 (destruct v as [|v]; [cbn in Hp; first [discriminate|injection Hp as <-; cbn;
    apply f_equal2; [apply f_equal2; ring|ring]]|]). lia.
Qed.
Theorem C21_smallest_edge_refuted : ∃ (e : elem (num AR)) s,
  wf_geom_elem (A:=AR) e ∧ smallest_edge (A:=AR) e = Ok s ∧ ¬ smallest_of e edges2 s.
Proof.
  destruct (smallest_edge_box flat_cell 2 2 1 0 2 0 1 0 0 flat_cell_wf eq_refl flat_cell_box)
    as (s & Hs & Es & _); [lra..|]. cbn in Es.
  exists flat_cell, s. split; [exact flat_cell_wf|]. split; [done|]. intros [_ H].
  specialize (H 0%nat 2%nat (0, 0, 0)%R (0, 1, 0)%R). rewrite Es in H.
  assert (2 <= distR (0, 0, 0) (0, 1, 0))%R as H2.
  { apply H; [set_solver|reflexivity|reflexivity]. }
  unfold distR in H2. replace ((0 - 0) ^ 2 + (1 - 0) ^ 2 + (0 - 0) ^ 2)%R with 1%R in H2 by ring.
  rewrite R_sqrt.sqrt_1 in H2. lra.
Qed.
Print Assumptions C21_smallest_edge_refuted.

(** C22. *)
Theorem C22_face_center (e : elem (num AR)) (i : nat) : wf_geom_elem e → (i < 6)%nat →
  length (face_corner_points e i) = 4%nat ∧
  face_center (A:=AR) e (Z.of_nat i) = Ok
    ((sumR ((λ p, p.1.1) <$> face_corner_points e i) / 4)%R,
     (sumR ((λ p, p.1.2) <$> face_corner_points e i) / 4)%R,
     (sumR ((λ p, p.2) <$> face_corner_points e i) / 4)%R).
Proof. exact (face_center_corners e i). Qed.
Print Assumptions C22_face_center.
Theorem C22_other_faces_raise {A : arith} (e : elem (num A)) (i : Z) : ¬ (0 <= i < 6) →
  ∃ ex, face_center e i = Raise ex.
Proof. exact (face_center_raises e i). Qed.
Print Assumptions C22_other_faces_raise.
Example C22_flat_cell : face_corner_points flat_cell 1 =
  [(2, 0, 0); (2, 0, 0); (2, 1, 0); (2, 1, 0)]%R.
Proof. reflexivity. Qed.
