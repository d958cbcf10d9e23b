(** C23, C24: check_connectivity and check_bcs_present. *)
From Verif Require Import Base Mesh Core Tools Float FloatLaws MeshLemmas MeshSpec CheckProofs Samples.
From Coq Require Import Lia.
From Flocq Require Import Core.Core IEEE754.BinarySingleNaN IEEE754.Binary IEEE754.Bits.
Open Scope Z_scope.

(** The mesh code is generic in the arithmetic: [A64] is numpy's float64. *)
Theorem C23_check_connectivity_iff {A : arith} (tol : num A) (m : hexa (num A)) :
  wf_mesh m → check_connectivity tol m = Ok true ↔ valid_connectivity tol m.
Proof. exact (check_connectivity_iff tol m). Qed.
Print Assumptions C23_check_connectivity_iff.

Theorem C23_never_false {A : arith} (tol : num A) (m : hexa (num A)) :
  check_connectivity tol m = Ok true ∨ ∃ ex, check_connectivity tol m = Raise ex.
Proof.
  pose proof (check_connectivity_never_false tol m) as H.
  destruct (check_connectivity tol m) as [[]|ex]; [by left|done|right; eauto].
Qed.
Print Assumptions C23_never_false.

(** In float64, without NaN, "not further apart than" is "at most as far apart as". *)
Definition no_nan_distance (tol : f64) (m : hexa (num A64)) : Prop :=
  ∀ i f j g e e' c c' s s',
    elems m !! i = Some e → elems m !! j = Some e' →
    face_center e (Z.of_nat f) = Ok c → face_center e' (Z.of_nat g) = Ok c' →
    smallest_edge e = Ok s → smallest_edge e' = Ok s' →
    nisnan (a:=A64) (nmul (a:=A64) tol (pymin s s')) = false ∧
    nisnan (a:=A64) (nsqrt (dist2 (A:=A64) c' c)) = false.
Definition within_place (tol : f64) (m : hexa (num A64)) (i f j g : nat) : Prop :=
  ∃ e e' c c' s s',
    elems m !! i = Some e ∧ elems m !! j = Some e' ∧
    face_center e (Z.of_nat f) = Ok c ∧ face_center e' (Z.of_nat g) = Ok c' ∧
    smallest_edge e = Ok s ∧ smallest_edge e' = Ok s' ∧
    f64_leb (nsqrt (a:=A64) (dist2 (A:=A64) c' c)) (nmul (a:=A64) tol (pymin s s')) = true.
Definition valid_connectivity_le (tol : f64) (m : hexa (num A64)) : Prop :=
  ∀ i b f r, in_mesh m i b f → get_bc m i b f = Some r → is_conn (bt r) →
  ∃ j g r', (j < nel m ∧ g < 6)%nat ∧ names r j g ∧
    get_bc m j b g = Some r' ∧ bt r' = bt r ∧ names r' i f ∧
    (bt r = "E"%string → within_place tol m i f j g).

Lemma f64_ltb_leb (x y : f64) : is_nan 53 1024 x = false → is_nan 53 1024 y = false →
  f64_ltb x y = negb (f64_leb y x).
Proof.
  intros Hx Hy. unfold f64_ltb, f64_leb, b64_compare.
  rewrite (Bcompare_swap 53 1024 x y).
  assert (Bcompare 53 1024 x y ≠ None) as H.
  { destruct (is_finite 53 1024 x) eqn:Fx; [destruct (is_finite 53 1024 y) eqn:Fy|].
    - by rewrite Bcompare_correct.
    - destruct x as [[]|[]| |[]], y as [[]|[]| |[]]; done.
    - destruct x as [[]|[]| |[]], y as [[]|[]| |[]]; done. }
  destruct (Bcompare 53 1024 x y) as [[]|]; try done.
Qed.

Theorem C23_check_connectivity_float64 (tol : f64) (m : hexa (num A64)) :
  wf_mesh m → no_nan_distance tol m →
  check_connectivity (A:=A64) tol m = Ok true ↔ valid_connectivity_le tol m.
Proof.
  intros Hw Hn. rewrite (check_connectivity_iff (A:=A64) tol m Hw).
  unfold valid_connectivity, valid_connectivity_le.
  assert (∀ i f j g, same_place (A:=A64) tol m i f j g ↔ within_place tol m i f j g) as HE.
  { intros i f j g.
    split; intros (e & e' & c & c' & s & s' & H1 & H2 & H3 & H4 & H5 & H6 & H7);
      exists e, e', c, c', s, s'; repeat (split; [done|]);
      destruct (Hn i f j g e e' c c' s s') as [N1 N2]; try done;
      pose proof (f64_ltb_leb _ _ N1 N2) as HL.
    - change (f64_ltb (nmul (a:=A64) tol (pymin s s')) (nsqrt (a:=A64) (dist2 (A:=A64) c' c)) = false) in H7.
      rewrite HL in H7. by apply negb_false_iff in H7.
    - change (f64_ltb (nmul (a:=A64) tol (pymin s s')) (nsqrt (a:=A64) (dist2 (A:=A64) c' c)) = false).
      rewrite HL. by rewrite H7. }
  split; intros H i b f r Hi Hr Hc; destruct (H i b f r Hi Hr Hc) as (j & g & r' & Q1 & Q2 & Q3 & Q4 & Q5 & Q6);
    exists j, g, r'; repeat (split; [done|]); intros HEq; apply HE; auto.
Qed.
Print Assumptions C23_check_connectivity_float64.

(** The hypotheses are met: a 2 x 1 box, accepted; the same box with one reference
    changed, rejected; and valid connectivity of the first follows from the theorem. *)
Example C23_box_wf : wf_mesh box21.
Proof. apply wf_meshb_ok. vm_compute. reflexivity. Qed.
Example C23_box_valid : valid_connectivity (A:=A64) tol64 box21.
Proof. apply C23_check_connectivity_iff; [exact C23_box_wf|exact box21_checked]. Qed.
Definition box21_broken : hexa (num A64) := alter_bc (set_bp4 (zf 3 : num A64)) 0 0 1 box21.
Example C23_broken_rejected : check_connectivity (A:=A64) tol64 box21_broken = Raise ValueError.
Proof. vm_compute. reflexivity. Qed.

(** Finding: with NaN coordinates, internal faces that are not at the same place are
    accepted: the comparison "distance > maximum" is false on NaN. *)
Definition nan64 : f64 := ndiv (a:=A64) (zf 0) (zf 0).
Definition box21_nan : hexa (num A64) :=
  set_elems (alter (λ e : elem (num A64), set_pos [[nan64; zf 7; zf 7; zf 7]; [zf 0; zf 0; zf 1; zf 1];
    [zf 0; zf 0; zf 0; zf 0]] e) 1%nat (elems box21)) box21.
Definition place_leb (tol : f64) (m : hexa (num A64)) (i f j g : nat) : bool :=
  match elems m !! i, elems m !! j with
  | Some e, Some e' =>
    match face_center (A:=A64) e (Z.of_nat f), face_center (A:=A64) e' (Z.of_nat g),
          smallest_edge (A:=A64) e, smallest_edge (A:=A64) e' with
    | Ok c, Ok c', Ok s, Ok s' =>
        f64_leb (nsqrt (a:=A64) (dist2 (A:=A64) c' c)) (nmul (a:=A64) tol (pymin s s'))
    | _, _, _, _ => false
    end
  | _, _ => false
  end.
Lemma within_place_leb tol m i f j g : within_place tol m i f j g → place_leb tol m i f j g = true.
Proof.
  intros (e & e' & c & c' & s & s' & H1 & H2 & H3 & H4 & H5 & H6 & H7).
  unfold place_leb. by rewrite H1, H2, H3, H4, H5, H6.
Qed.
Theorem C23_nan_refuted : ∃ (m : hexa (num A64)),
  wf_mesh m ∧ check_connectivity (A:=A64) tol64 m = Ok true ∧ ¬ valid_connectivity_le tol64 m.
Proof.
  exists box21_nan. split; [apply wf_meshb_ok; vm_compute; reflexivity|].
  split; [vm_compute; reflexivity|]. intros H.
  assert (bc_view box21_nan 0 0 1 = Some ("E"%string, Ok 2, Ok 4)) as Hv by (vm_compute; reflexivity).
  unfold bc_view in Hv. destruct (get_bc box21_nan 0 0 1) as [r|] eqn:Hr; [|done].
  cbn [fmap option_fmap option_map] in Hv. injection Hv as Ht H3 H4.
  destruct (H 0 0 1 r)%nat as (j & g & r' & _ & [N3 N4] & _ & _ & _ & Hp); [..|done|by left|].
  { unfold in_mesh. vm_compute. lia. }
  specialize (Hp Ht).
  assert (Ok 2 = Ok (Z.of_nat j + 1)) as Hj by (rewrite <- H3; exact N3). injection Hj as Hj.
  assert (Ok 4 = Ok (Z.of_nat g + 1)) as Hg by (rewrite <- H4; exact N4). injection Hg as Hg.
  assert (j = 1)%nat as -> by lia. assert (g = 3)%nat as -> by lia.
  apply within_place_leb in Hp.
  assert (place_leb tol64 box21_nan 0 1 1 3 = false) as Hf by (vm_compute; reflexivity).
  congruence.
Qed.
Print Assumptions C23_nan_refuted.

Theorem C24_check_bcs_present_iff {A : arith} (m : hexa (num A)) : wf_bcs m →
  (check_bcs_present m = Ok true ↔
     ∀ i b f r, in_mesh m i b f → get_bc m i b f = Some r → bt r ≠ ""%string) ∧
  (check_bcs_present m = Ok true ∨ check_bcs_present m = Raise ValueError).
Proof. exact (check_bcs_present_iff m). Qed.
Print Assumptions C24_check_bcs_present_iff.

Example C24_box : check_bcs_present (A:=A64) box21 = Ok true.
Proof. vm_compute. reflexivity. Qed.
Example C24_box_missing :
  check_bcs_present (A:=A64) (alter_bc (set_bt "") 1 0 2 box21) = Raise ValueError.
Proof. vm_compute. reflexivity. Qed.
