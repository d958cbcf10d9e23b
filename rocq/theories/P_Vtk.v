(** Theorems about the conversion to VTK: C49, C53, C54, C55. *)
From Coq Require Import Lia.
From Verif Require Import Base Mesh MeshLemmas Field Vtk VtkSpec VtkProofs.
Open Scope Z_scope.

(** ** C49 *)
(** Every three-dimensional field with positions is converted. There is one hexahedron for every sub-cell of
    every element, given by the numbers of its eight corners in the order of VTK, and the points and the data
    at these numbers are those of the field at the points that are kept. *)
Theorem C49_hexa2vtk {N} (zero : N) ds m lx ly lz vu vp vt vs : vtk_mesh m lx ly lz vu vp vt vs →
  let n := (kept ds lx, kept ds ly, kept ds lz) in
  ∃ g, hexa2vtk zero ds m = Ok g ∧
    vt_types g = replicate (length (all_cells (nel m) n)) 12 ∧
    vt_cells g = concat ((λ '(iel, (kz, ky, kx)), 8 :: (Z.of_nat <$> corner_points n iel kz ky kx)) <$> all_cells (nel m) n) ∧
    rows_hold ds m lx ly lz FPos 3 (Some (vt_points g)) ∧ rows_hold ds m lx ly lz FVel vu (vt_vel g) ∧
    rows_hold ds m lx ly lz FPres vp (vt_pres g) ∧ rows_hold ds m lx ly lz FTemp vt (vt_temp g) ∧ rows_hold ds m lx ly lz FScal vs (vt_scal g).
Proof.
  intros Hm n. destruct (hexa2vtk_ok zero ds m lx ly lz vu vp vt vs Hm) as (g & E & E1 & E2 & E3 & E4 & E5 & E6). exists g.
  split; [done|]. unfold n. rewrite all_cells_length. done.
Qed.
Print Assumptions C49_hexa2vtk.
(** The cells are those of all elements and sub-cells, each once. *)
Theorem C49_cells_once ne nx ny nz : NoDup (all_cells ne (nx, ny, nz)) ∧
  ∀ iel kz ky kx, (iel, (kz, ky, kx)) ∈ all_cells ne (nx, ny, nz) ↔ (iel < ne ∧ kz < nz - 1 ∧ ky < ny - 1 ∧ kx < nx - 1)%nat.
Proof.
  unfold all_cells. split.
  - apply NoDup_prod2; [apply NoDup_ListNoDup, seq_NoDup|]. apply NoDup_prod3; apply NoDup_ListNoDup, seq_NoDup.
  - intros iel kz ky kx. rewrite elem_of_prod2, elem_of_prod3. unfold range. rewrite !elem_of_seq. lia.
Qed.
Print Assumptions C49_cells_once.
(** Every cell refers to eight different points, all of its own element, and within the array of points. *)
Theorem C49_corners {N} (zero : N) ds m lx ly lz vu vp vt vs g iel kz ky kx : vtk_mesh m lx ly lz vu vp vt vs →
  hexa2vtk zero ds m = Ok g →
  let n := (kept ds lx, kept ds ly, kept ds lz) in let np := (kept ds lx * kept ds ly * kept ds lz)%nat in
  (iel, (kz, ky, kx)) ∈ all_cells (nel m) n →
  NoDup (corner_points n iel kz ky kx) ∧ length (corner_points n iel kz ky kx) = 8%nat ∧
  Forall (λ p, (iel * np <= p < (iel + 1) * np)%nat ∧ (p < length (vt_points g))%nat) (corner_points n iel kz ky kx).
Proof.
  intros Hm Hg n np Hc. destruct (hexa2vtk_ok zero ds m lx ly lz vu vp vt vs Hm) as (g' & E & _ & _ & _ & HL & _). rewrite Hg in E.
  assert (g = g') as -> by congruence. apply C49_cells_once in Hc. pose proof (vm_size _ _ _ _ _ _ _ _ Hm) as (Sx & Sy & Sz).
  set (nx := kept ds lx) in *. set (ny := kept ds ly) in *. set (nz := kept ds lz) in *.
  pose proof (room nx ny nz (kept_ge ds lx Sx) (kept_ge ds ly Sy) (kept_ge ds lz Sz)) as HR.
  split; [|split; [done|]].
  - unfold corner_points. apply NoDup_fmap_2_strong; [|vm_compute; rewrite ?NoDup_cons; repeat split; first [apply NoDup_nil_2|set_solver]].
    intros [[dx dy] dz] [[dx' dy'] dz'] H H' Ep.
    assert ((dx <= 1 ∧ dy <= 1 ∧ dz <= 1) ∧ dx' <= 1 ∧ dy' <= 1 ∧ dz' <= 1)%nat as [B B'].
    { unfold hex_corners in H, H'. set_unfold in H. set_unfold in H'. split; [clear H'|clear H]; intuition (simplify_eq; lia). }
    apply point_no_inj in Ep as (_ & E1 & E2 & E3); try lia. repeat f_equal; lia.
  - unfold corner_points. rewrite Forall_fmap. apply Forall_forall. intros [[dx dy] dz] H. cbn [compose].
    assert (dx <= 1 ∧ dy <= 1 ∧ dz <= 1)%nat as B by (unfold hex_corners in H; set_unfold in H; intuition (simplify_eq; lia)).
    assert (iel * np <= point_no n iel (kz + dz) (ky + dy) (kx + dx) < (iel + 1) * np)%nat as X by (apply (point_no_lt nx ny nz (nel m)); lia).
    split; [exact X|]. rewrite HL. fold np in HR.
    assert ((iel + 1) * np <= nel m * np)%nat by (apply Nat.mul_le_mono_r; lia).
    assert (nel m * np <= nel m * (8 * ((nx - 1) * (ny - 1) * (nz - 1))))%nat by (by apply Nat.mul_le_mono_l). lia.
Qed.
Print Assumptions C49_corners.

(** ** C53 *)
(** A two-dimensional field loses its geometry: all points are at the origin and all cells refer to the first. *)
Theorem C53_two_dimensions_refuted {N} (zero : N) ds m g : ndim m = 2%nat → nth 0 (var m) 0%nat = 2%nat → hexa2vtk zero ds m = Ok g →
  ∃ n, vt_types g = replicate n 9 ∧ vt_cells g = concat (replicate n [4; 0; 0; 0; 0]) ∧ vt_points g = replicate (4 * n) [zero; zero; zero].
Proof. apply hexa2vtk_2d. Qed.
Print Assumptions C53_two_dimensions_refuted.

(** ** C54 *)
(** The array of points has one entry for each point that is kept only if every element has two in each direction;
    otherwise the array is longer, and the entries that belong to no element are points at the origin. *)
Theorem C54_points_iff {N} (zero : N) ds m lx ly lz vu vp vt vs g : vtk_mesh m lx ly lz vu vp vt vs → (0 < nel m)%nat →
  hexa2vtk zero ds m = Ok g → let nx := kept ds lx in let ny := kept ds ly in let nz := kept ds lz in
  length (vt_points g) = (nel m * (nx * ny * nz))%nat ↔ nx = 2%nat ∧ ny = 2%nat ∧ nz = 2%nat.
Proof.
  intros Hm Hn Hg nx ny nz. destruct (hexa2vtk_ok zero ds m lx ly lz vu vp vt vs Hm) as (g' & E & _ & _ & _ & HL & _). rewrite Hg in E.
  assert (g = g') as -> by congruence. rewrite HL. fold nx ny nz. pose proof (vm_size _ _ _ _ _ _ _ _ Hm) as (Sx & Sy & Sz).
  pose proof (kept_ge ds lx Sx) as Kx. pose proof (kept_ge ds ly Sy) as Ky. pose proof (kept_ge ds lz Sz) as Kz. fold nx ny nz in Kx, Ky, Kz.
  rewrite Nat.mul_assoc, (Nat.mul_comm 8), <- Nat.mul_assoc, Nat.mul_cancel_l by lia. clearbody nx ny nz.
  split; [|intros (-> & -> & ->); done]. intros EE.
  assert (∃ a b c, nx = a + 2 ∧ ny = b + 2 ∧ nz = c + 2)%nat as (a & b & c & -> & -> & ->) by (exists (nx - 2)%nat, (ny - 2)%nat, (nz - 2)%nat; lia).
  replace (a + 2 - 1)%nat with (a + 1)%nat in EE by lia. replace (b + 2 - 1)%nat with (b + 1)%nat in EE by lia. replace (c + 2 - 1)%nat with (c + 1)%nat in EE by lia.
  assert (7 * (a * b * c) + 6 * (a * b) + 6 * (a * c) + 6 * (b * c) + 4 * a + 4 * b + 4 * c = 0)%nat as X by lia.
  assert (a = 0 ∧ b = 0 ∧ c = 0)%nat by lia. lia.
Qed.
Print Assumptions C54_points_iff.
Theorem C54_spurious_points_refuted {N} (zero : N) ds m lx ly lz vu vp vt vs g j : vtk_mesh m lx ly lz vu vp vt vs →
  hexa2vtk zero ds m = Ok g → (nel m * (kept ds lx * kept ds ly * kept ds lz) <= j < length (vt_points g))%nat →
  vt_points g !! j = Some [zero; zero; zero].
Proof.
  intros Hm Hg Hj. destruct (hexa2vtk_ok zero ds m lx ly lz vu vp vt vs Hm) as (g' & E & _ & _ & _ & HL & HZ & _). rewrite Hg in E.
  assert (g = g') as -> by congruence. apply HZ. by rewrite <- HL.
Qed.
Print Assumptions C54_spurious_points_refuted.

(** ** C55 *)
(** Cell [i] begins at entry [9 i] of the cell array, but its offset is [8 i]. *)
Theorem C55_offsets_refuted {N} (zero : N) ds m lx ly lz vu vp vt vs g : vtk_mesh m lx ly lz vu vp vt vs → hexa2vtk zero ds m = Ok g →
  ∀ i c, all_cells (nel m) (kept ds lx, kept ds ly, kept ds lz) !! i = Some c →
    let '(iel, (kz, ky, kx)) := c in
    take 9 (drop (9 * i) (vt_cells g)) = 8 :: (Z.of_nat <$> corner_points (kept ds lx, kept ds ly, kept ds lz) iel kz ky kx) ∧
    vt_offsets g !! i = Some (Z.of_nat (8 * i)).
Proof.
  intros Hm Hg i [iel [[kz ky] kx]] Hc. destruct (hexa2vtk_ok zero ds m lx ly lz vu vp vt vs Hm) as (g' & E & _ & EO & EC & _). rewrite Hg in E.
  assert (g = g') as -> by congruence. split.
  - rewrite EC. apply (concat_nine _ i). rewrite list_lookup_fmap, Hc. done.
    apply Forall_fmap, Forall_forall. intros [? [[? ?] ?]] _. done.
  - rewrite EO. apply lookup_lt_Some in Hc as Hi. rewrite all_cells_length in Hi. unfold range.
    by rewrite list_lookup_fmap, lookup_seq_lt by done.
Qed.
Print Assumptions C55_offsets_refuted.

(** ** Samples *)
(** One element of 3 by 2 by 2 points with positions and pressure. *)
Definition sample_vtk : hexa Z :=
  let a k := (λ i, 100 * k + Z.of_nat i) <$> range 12 in
  Hexa 3 1 0 0 [3; 0; 1; 0; 0]%nat PyList [3; 2; 2]%nat 0 0 8 "little"
    [Elem (3, 2, 2)%nat [a 1; a 2; a 3] [a 0; a 0; a 0] [a 4] [] [] [] [] []] [1].
Example C49_sample : vtk_mesh sample_vtk 3 2 2 0 1 0 0.
Proof.
  split; try reflexivity; [lia|lia|]. apply Forall_singleton. split; [reflexivity|]. intros k. split; [|by destruct k].
  destruct k; cbn; repeat (apply List.Forall_cons; [reflexivity|]); apply List.Forall_nil.
Qed.
Example C49_sample_result : match hexa2vtk 0 false sample_vtk with
  | Ok g => vt_cells g = [8; 0; 1; 4; 3; 6; 7; 10; 9; 8; 1; 2; 5; 4; 7; 8; 11; 10] ∧ vt_offsets g = [0; 8] ∧ length (vt_points g) = 16%nat ∧
      vt_points g !! 4%nat = Some [104; 204; 304] ∧ vt_points g !! 15%nat = Some [0; 0; 0]
  | Raise _ => False end.
Proof. vm_compute. done. Qed.
Example C53_sample : match hexa2vtk 7 false (Hexa 2 1 0 0 [2; 2; 1; 0; 0]%nat PyList [3; 3; 1]%nat 0 0 8 "little"
    [new_elem 5 [2; 2; 1; 0; 0]%nat (3, 3, 1)%nat 0] [1]) with Ok g => vt_points g = replicate 16 [7; 7; 7] | Raise _ => False end.
Proof. vm_compute. done. Qed.
