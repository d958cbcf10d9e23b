(** C64: generate_internal_bcs undoes delete_internal_bcs. *)
From Coq Require Import Lia Reals Lra.
From Verif Require Import Base Mesh Core Tools Float FloatLaws MeshSpec GibSpec MeshLemmas CheckProofs OpsProofs GeoLaws BoxSpec BoxProofs Samples Restore RestoreBox P_Box.
Open Scope Z_scope.

(** In a mesh whose internal conditions connect exactly the inner faces that lie at the same place, generate_internal_bcs
    brings back what delete_internal_bcs removed: the very same mesh. *)
Theorem C64_restored {A : arith} (bnd : Z) (m : hexa (num A)) tol : arith_laws A bnd →
  Z.of_nat (nel m) <= bnd → 6 <= bnd → wf_mesh m → (1 ≤ nbc m)%nat →
  (∀ e s, e ∈ elems m → smallest_edge e = Ok s → nleb s (nofZ 0) = false) → connected_by_place tol m →
  ∃ m0 k n, delete_internal_bcs m = Ok (m0, k) ∧ generate_internal_bcs tol m0 = Ok (m, n).
Proof. intros LA Hn H6 Hw Hb Hs HC. by apply (restore bnd LA). Qed.
Print Assumptions C64_restored.

(** All the boxes of gen_box are such meshes, over the real numbers, unless they are so flat that neighbouring faces
    in the direction y are within the tolerance: without internal conditions gen_box makes the mesh that
    delete_internal_bcs makes of the one with them, and generate_internal_bcs makes the latter of the former. The
    number returned counts the inner sides of the grid, in each field. *)
Theorem C64_box bo nx ny (xmin xmax ymin ymax tol : R) var bxmin bxmax bymin bymax nb (sd : nat → sides) m0 m1 :
  fields_of var nb → (1 ≤ nb)%nat → (1 ≤ nx)%nat → (1 ≤ ny)%nat → (xmin < xmax)%R → (ymin < ymax)%R →
  (∀ b, (b < nb)%nat → sides_ok (sd b) ∧
     sides_of (given nb bxmin) (given nb bxmax) (given nb bymin) (given nb bymax) b = Some (sd b)) →
  (0 <= tol < 1 / 2)%R → (tol * ((xmax - xmin) / INR nx) < (ymax - ymin) / INR ny)%R →
  gen_box (A:=AR) bo nx ny xmin xmax ymin ymax var bxmin bxmax bymin bymax false = Ok m0 →
  gen_box (A:=AR) bo nx ny xmin xmax ymin ymax var bxmin bxmax bymin bymax true = Ok m1 →
  let sides := ((nx - 1) * ny + nx * (ny - 1))%nat in
  generate_internal_bcs (A:=AR) tol m0 = Ok (m1, Z.of_nat nb * Z.of_nat sides) ∧
  ∃ k, delete_internal_bcs (A:=AR) m1 = Ok (m0, k).
Proof.
  intros Hf Hnb Hnx Hny Hx Hy Hsd Ht Hty E0 E1. cbv zeta. apply fields_of_nbc in Hf.
  assert (nleb (a:=AR) (nsub (a:=AR) xmax xmin) (nofZ (a:=AR) 0) = false) as Lx by (cbn; unfold Rleb; destruct (Rle_dec _ _); [lra|done]).
  assert (nleb (a:=AR) (nsub (a:=AR) ymax ymin) (nofZ (a:=AR) 0) = false) as Ly by (cbn; unfold Rleb; destruct (Rle_dec _ _); [lra|done]).
  rewrite (gen_box_eq (A:=AR) bo nx ny xmin xmax ymin ymax var bxmin bxmax bymin bymax nb sd) in E0; try done; [|intros b Hb; by apply Hsd].
  rewrite (gen_box_eq (A:=AR) bo nx ny xmin xmax ymin ymax var bxmin bxmax bymin bymax nb sd) in E1; try done; [|intros b Hb; by apply Hsd].
  injection E0 as <-. injection E1 as <-.
  assert (∀ b, (b < nb)%nat → sides_ok (sd b)) as Hok by (intros b Hb; by apply Hsd).
  pose proof (box_connected nx ny xmin xmax ymin ymax Hnx Hny Hx Hy bo var nb sd Hok Hnb tol Ht Hty) as HC.
  set (m1 := box3 (A:=AR) bo nx ny xmin xmax ymin ymax var nb sd true) in *.
  set (m0 := box3 (A:=AR) bo nx ny xmin xmax ymin ymax var nb sd false) in *.
  pose proof (box3_wf (A:=AR) bo nx ny xmin xmax ymin ymax var nb sd Hnx Hny true) as Hw. fold m1 in Hw.
  destruct (box3_grid (A:=AR) bo nx ny xmin xmax ymin ymax var nb sd true) as (HG & G4 & _). fold m1 in HG, G4. pose proof HG as (G1 & G2 & _).
  assert (cleared (A:=AR) m1 m0) as HCl.
  { destruct (box3_strip (A:=AR) bo nx ny xmin xmax ymin ymax var nb sd true) as [S1 B1].
    destruct (box3_strip (A:=AR) bo nx ny xmin xmax ymin ymax var nb sd false) as [S0 B0].
    split; [unfold m0, m1; congruence|]. split; [unfold m0, m1; congruence|]. intros k b f r Hr.
    destruct (box_bc_dom nx ny xmin xmax ymin ymax Hnx Hny bo var nb sd true k b f r Hr) as (i & j & Hi & Hj & Hb & Hf6 & ->).
    destruct (on_boundary_dec nx ny Hnx Hny nb Hnb i j f) as [Ho|Ho], (Nat.lt_ge_cases f 4) as [Hf4|Hf4].
    2-4: idtac.
    3: { destruct (box3_entry_no_internal (A:=AR) bo nx ny xmin xmax ymin ymax var nb sd Hnx Hny i j b f Hi Hj Hb Hf4) as [_ H2].
         pose proof (box_entry_inner nx ny xmin xmax ymin ymax Hnx Hny bo var nb sd Hnb i j b f Hi Hj Hb Hf4 Ho) as H3.
         destruct (next_cell i j f) as [[i' j'] f']. unfold m1 in Hr. rewrite Hr in H3. apply (inj Some) in H3 as ->. apply (H2 Ho). }
    all: destruct (box_entry_outer nx ny xmin xmax ymin ymax Hnx Hny bo var nb sd Hok Hnb false i j b f Hi Hj Hb Hf6) as (r' & Hr' & Hr0 & HE & _); [lia || done|].
    all: unfold m1 in Hr; rewrite Hr in Hr'; apply (inj Some) in Hr' as <-; apply String.eqb_neq in HE as ->; exact Hr0. }
  destruct (delete_spec m1 (proj1 Hw)) as (m0' & k & E0 & S0 & B0 & _ & D0).
  assert (m0' = m0) as ->.
  { destruct HCl as (S1 & B1 & D1). apply mesh_ext; [congruence|congruence|]. intros i b f. destruct (get_bc m1 i b f) as [r|] eqn:Hr; [by rewrite (D0 _ _ _ _ Hr), (D1 _ _ _ _ Hr)|].
    transitivity (@None (bcrec R)); [|symmetry]; apply eq_None_not_Some; intros Hs; apply get_bc_dom in Hs; unfold bc_dom in Hs; rewrite ?B0, ?B1 in Hs; apply get_bc_dom in Hs; rewrite Hr in Hs; by destruct Hs. }
  split; [|by exists k].
  set (bnd := Z.of_nat (nel m1) + 6).
  destruct (restore_from bnd (AR_laws bnd) m1 m0 tol) as (n & p & Eg & -> & Hp); try done; [unfold bnd; lia|unfold bnd; lia|lia| |].
  { intros e s He Es. destruct HG as (_ & _ & G3 & _ & _ & G6). apply elem_of_list_lookup in He as (q & Hq).
    assert (q < nx * ny)%nat as Hlt by (rewrite <- G3; by eapply lookup_lt_Some). apply elnum_div in Hlt as (i & j & Hi & Hj & ->).
    destruct (G6 i j Hi Hj) as (e' & He' & Hc). unfold elnum in Hq. rewrite He' in Hq. apply (inj Some) in Hq as <-.
    rewrite (box_edge nx ny xmin xmax ymin ymax Hnx Hny Hx Hy e' i j (proj2 Hw e' (elem_of_list_lookup_2 _ _ _ He')) Hc) in Es. injection Es as <-.
    cbn. unfold Rleb. destruct (Rle_dec _ _) as [Hle|]; [|done]. pose proof (dx_pos nx ny xmin xmax Hnx Hny Hx). lra. }
  rewrite Eg, G4. repeat f_equal. apply box_count; try done.
  intros i j f Hi Hj Hf4. unfold forward. cbn [fst snd].
  destruct (on_boundary_dec nx ny Hnx Hny nb Hnb i j f) as [Ho|Ho].
  - destruct (p (elnum i j nx) f) as [[q g]|] eqn:Ep.
    + exfalso. apply Hp in Ep as (_ & _ & HL). unfold linked in HL.
      destruct (box_entry_outer nx ny xmin xmax ymin ymax Hnx Hny bo var nb sd Hok Hnb false i j 0 f Hi Hj ltac:(lia) ltac:(lia)) as (r' & Hr' & _ & HE & _); [done|].
      fold m1 in Hr'. rewrite HL in Hr'. apply (inj Some) in Hr' as <-. by apply HE.
    + destruct f as [|[|[|[|f]]]]; [done| | |done|lia]; cbn [on_boundary] in Ho; by rewrite (proj2 (Nat.eqb_eq _ _) Ho).
  - pose proof (box_entry_inner nx ny xmin xmax ymin ymax Hnx Hny bo var nb sd Hnb i j 0 f Hi Hj ltac:(lia) Hf4 Ho) as HE.
    pose proof (next_cell_ok nx ny Hnx Hny i j f Hi Hj Hf4 Ho) as HN. destruct (next_cell i j f) as [[i' j'] f'] eqn:EN. destruct HN as (Hi' & Hj' & Hf' & _ & _ & _ & _).
    assert (p (elnum i j nx) f = Some (elnum i' j' nx, f')) as ->.
    { apply Hp. rewrite G1, G2. split; [split; [unfold elnum; nia|lia]|]. split; [split; [unfold elnum; nia|lia]|]. exact HE. }
    clear -EN Ho Hi Hj Hi' Hj' Hf4. unfold elnum.
    destruct f as [|[|[|[|f]]]]; [| | | |lia]; cbn [next_cell on_boundary] in *; injection EN as <- <- <-.
    + apply Nat.ltb_ge. nia.
    + rewrite (proj2 (Nat.eqb_neq _ _) Ho). apply Nat.ltb_lt. lia.
    + rewrite (proj2 (Nat.eqb_neq _ _) Ho). apply Nat.ltb_lt. nia.
    + apply Nat.ltb_ge. lia.
Qed.
Print Assumptions C64_box.

(** The hypotheses are met: three by two cells with an inlet, an outlet, walls, and the default tolerance. *)
Example C64_box_sample : ∃ m0 m1,
  gen_box (A:=AR) "little" 3 2 0%R 3%R 0%R 1%R [2; 2; 1; 0; 0]%nat (Some ["v"]%string) (Some ["O"]%string) (Some ["W"]%string) (Some ["W"]%string) false = Ok m0 ∧
  gen_box (A:=AR) "little" 3 2 0%R 3%R 0%R 1%R [2; 2; 1; 0; 0]%nat (Some ["v"]%string) (Some ["O"]%string) (Some ["W"]%string) (Some ["W"]%string) true = Ok m1 ∧
  generate_internal_bcs (A:=AR) (1 / 1000)%R m0 = Ok (m1, 7) ∧ connected_by_place (A:=AR) (1 / 1000)%R m1.
Proof.
  assert (fields_of [2; 2; 1; 0; 0]%nat 1) as Hf by (do 6 eexists; split; [reflexivity|done]).
  set (sd := λ _ : nat, Sides "W" "O" "W" "v").
  assert (∀ b, (b < 1)%nat → sides_ok (sd b) ∧ sides_of ["v"] ["O"] ["W"] ["W"] b = Some (sd b))%string as Hsd.
  { intros b Hb. assert (b = 0)%nat as -> by lia. split; [|done]. unfold sides_ok, side_condition. cbn. repeat split; done. }
  assert (∀ x : R, (0 < x)%R → nleb (a:=AR) (nsub (a:=AR) x 0%R) (nofZ (a:=AR) 0) = false) as Hlt.
  { intros x Hx. cbn. unfold Rleb. destruct (Rle_dec _ _); [lra|done]. }
  assert (∀ internal, gen_box (A:=AR) "little" 3 2 0%R 3%R 0%R 1%R [2; 2; 1; 0; 0]%nat (Some ["v"]%string) (Some ["O"]%string) (Some ["W"]%string) (Some ["W"]%string) internal =
    Ok (box3 (A:=AR) "little" 3 2 0%R 3%R 0%R 1%R [2; 2; 1; 0; 0]%nat 1 sd internal)) as HB.
  { intros internal. apply (gen_box_eq (A:=AR)); first [lia|reflexivity|apply Hlt; lra|intros b Hb; by apply Hsd]. }
  assert (1 / 1000 * ((3 - 0) / INR 3) < (1 - 0) / INR 2)%R as Hty by (cbn [INR]; lra).
  do 2 eexists. split; [apply HB|]. split; [apply HB|]. split.
  - refine (proj1 (C64_box "little" 3 2 0 3 0 1 (1 / 1000) [2; 2; 1; 0; 0]%nat (Some ["v"]%string) (Some ["O"]%string) (Some ["W"]%string) (Some ["W"]%string)
      1 sd _ _ Hf _ _ _ _ _ Hsd _ Hty (HB false) (HB true))); (lia || lra).
  - apply box_connected; first [lia|exact Hty|lra|intros b Hb; by apply Hsd].
Qed.

(** Finding: connections depend on the numbering. Four flat cells (2000 wide, 1/2 high), numbered by columns: face 1 of
    element 0 and face 3 of element 2 are the same side of the grid, yet face 1 of element 0 is connected to face 1 of
    the element above it, for their centres are closer than the tolerance times the width of the cells, which is what
    smallest_edge measures (C21). Delete and generate give another mesh. *)
Definition flat_rows : hexa (num A64) := ok_or empty64
  (gen_box (A:=A64) "little" 2 2 (zf 0) (zf 4000) (zf 0) (zf 1) [2; 2; 1; 0; 0]%nat (Some ["v"]%string) (Some ["O"]%string) (Some ["W"]%string) (Some ["W"]%string) false).
Definition flat : hexa (num A64) :=
  set_elems (match elems flat_rows with [a; b; c; d] => [a; c; b; d] | l => l end) flat_rows.
Theorem C64_flat_refuted : ∃ m n, wf_mesh (A:=A64) flat ∧ generate_internal_bcs (A:=A64) tol64 flat = Ok (m, n) ∧
  (∃ e e' x y z x' y' z', elems flat !! 0%nat = Some e ∧ elems flat !! 2%nat = Some e' ∧
    face_center (A:=A64) e 1 = Ok (x, y, z) ∧ face_center (A:=A64) e' 3 = Ok (x', y', z') ∧
    neqb (a:=A64) x x' = true ∧ neqb (a:=A64) y y' = true ∧ neqb (a:=A64) z z' = true) ∧
  (bc_view flat 0 0 1 = Some ("", Ok 0, Ok 0))%string ∧ (bc_view flat 2 0 3 = Some ("", Ok 0, Ok 0))%string ∧
  (bc_view m 0 0 1 = Some ("E", Ok 2, Ok 2))%string ∧ check_connectivity (A:=A64) tol64 m = Ok true.
Proof.
  assert (match generate_internal_bcs (A:=A64) tol64 flat with
    | Ok (m, n) => Some (bc_view m 0 0 1, check_connectivity (A:=A64) tol64 m)
    | Raise _ => None end = Some (Some ("E", Ok 2, Ok 2), Ok true))%string as H by (vm_compute; reflexivity).
  revert H. destruct (generate_internal_bcs (A:=A64) tol64 flat) as [[m n]|]; intros H; [|done]. apply (inj Some) in H.
  pose proof (f_equal fst H) as H1. pose proof (f_equal snd H) as H2. exists m, n.
  split; [apply wf_meshb_ok; vm_compute; reflexivity|]. split; [reflexivity|].
  split; [|split; [vm_compute; reflexivity|split; [vm_compute; reflexivity|split; [exact H1|exact H2]]]].
  assert (match elems flat !! 0%nat, elems flat !! 2%nat with
    | Some e, Some e' => match face_center (A:=A64) e 1, face_center (A:=A64) e' 3 with
      | Ok (x, y, z), Ok (x', y', z') => neqb (a:=A64) x x' && neqb (a:=A64) y y' && neqb (a:=A64) z z' | _, _ => false end
    | _, _ => false end = true) as H' by (vm_compute; reflexivity).
  revert H'. destruct (elems flat !! 0%nat) as [e|]; [|done]. destruct (elems flat !! 2%nat) as [e'|]; [|done].
  destruct (face_center (A:=A64) e 1) as [[[x y] z]|] eqn:Ec; [|done]. destruct (face_center (A:=A64) e' 3) as [[[x' y'] z']|] eqn:Ec'; [|done].
  intros ((Hx & Hy)%andb_true_iff & Hz)%andb_true_iff. exists e, e', x, y, z, x', y', z'. done.
Qed.
Print Assumptions C64_flat_refuted.
