(** C27, C28, C29: offset_connectivity, update_ncurv, get_points, delete_internal_bcs. *)
From Verif Require Import Base Mesh Core Tools Float FloatLaws MeshLemmas MeshSpec OpsProofs Samples.
From Coq Require Import Lia.
Open Scope Z_scope.

(** C27. In float64, for references up to 2^53. *)
Theorem C27_offset_shifts_exactly (offset : Z) (k : nat) (m : hexa (num A64)) :
  wf_bcs m → refs_within (A:=A64) bnd64 offset k m →
  ∃ m', offset_connectivity (A:=A64) offset k m = Ok m' ∧ same_but_bcs (A:=A64) m m' ∧
    ∀ i b f r, get_bc m i b f = Some r →
      ∃ r', get_bc m' i b f = Some r' ∧ offset_entry (A:=A64) bnd64 offset k m i b f r r'.
Proof.
  intros Hw Hr. destruct (offset_connectivity_spec (A:=A64) _ _ k m A64_laws Hw Hr) as (m' & E & S & B & H).
  exists m'. split; [done|]. split; [by apply same_but_bcs_of|done].
Qed.
Print Assumptions C27_offset_shifts_exactly.

Theorem C27_offset_roundtrip (offset : Z) (k : nat) (m : hexa (num A64)) :
  wf_bcs m → refs_within (A:=A64) bnd64 offset k m → 0 <= offset →
  ∃ m', offset_connectivity (A:=A64) offset k m = Ok m' ∧
        offset_connectivity (A:=A64) (- offset) k m' = Ok m.
Proof. exact (offset_connectivity_inverse (A:=A64) _ _ k m A64_laws). Qed.
Print Assumptions C27_offset_roundtrip.

(** The hypotheses are met by the 2 x 1 box: its references are 1 or 2. Shifting by 5
    turns the reference 2 of its first element into 7. *)
Example C27_box_hyps k : wf_bcs box21 ∧ refs_within (A:=A64) bnd64 5 k box21.
Proof.
  split; [apply wf_bcsb_ok; vm_compute; reflexivity|].
  apply small_refsb_ok; [vm_compute; reflexivity|lia].
Qed.
Example C27_box_shift : (bc_view (ok_or box21 (offset_connectivity (A:=A64) 5 0 box21)) 0 0 1,
    bc_view (ok_or box21 (offset_connectivity (A:=A64) 5 2 box21)) 0 0 1) =
  (Some ("E"%string, Ok 7, Ok 4), Some ("E"%string, Ok 2, Ok 4)).
Proof. vm_compute. reflexivity. Qed.

(** C28. *)
Theorem C28_update_ncurv {A : arith} (m : hexa (num A)) :
  (∀ e, e ∈ elems m → length (ccurv e) = 12%nat) →
  update_ncurv m = Ok (set_ncurv (Z.of_nat (length
    (List.filter (λ c, negb (String.eqb c "")) (elems m ≫= ccurv)))) m).
Proof. exact (update_ncurv_spec m). Qed.
Print Assumptions C28_update_ncurv.

Theorem C28_get_points {A : arith} (m : hexa (num A)) lx ly lz :
  lr1 m = [lx; ly; lz] → length (elems m) = nel m →
  (∀ e, e ∈ elems m → length (pos e) = 3%nat ∧
     ∀ c, c ∈ pos e → length c = (lx * ly * lz)%nat) →
  ∃ pts, get_points m = Ok pts ∧ length pts = nel m ∧
    ∀ i e, elems m !! i = Some e →
      ∃ row, pts !! i = Some row ∧ length row = (lx * ly * lz)%nat ∧
        ∀ p, (p < lx * ly * lz)%nat → ∃ x y z,
          row !! p = Some (x, y, z) ∧ (pos e !! 0%nat ≫= (.!! p)) = Some x ∧
          (pos e !! 1%nat ≫= (.!! p)) = Some y ∧ (pos e !! 2%nat ≫= (.!! p)) = Some z.
Proof. exact (get_points_spec m lx ly lz). Qed.
Print Assumptions C28_get_points.

Definition curved : hexa (num A64) :=
  set_elems (alter (set_ccurv (<[1%nat := "m"%string]> (<[3%nat := "C"%string]>
    (replicate 12 ""%string)))) 1%nat (elems box21)) box21.
Example C28_curved : (∀ e, e ∈ elems curved → length (ccurv e) = 12%nat) ∧
  rmap ncurv (update_ncurv (A:=A64) curved) = Ok 2.
Proof.
  split; [|vm_compute; reflexivity].
  assert (forallb (λ e : elem (num A64), (length (ccurv e) =? 12)%nat) (elems curved) = true) as H
    by (vm_compute; reflexivity).
  intros e He. apply Nat.eqb_eq. exact (forallb_elem _ _ H e He).
Qed.
Example C28_points_box : rmap length (get_points (A:=A64) box21) = Ok 2%nat.
Proof. vm_compute. reflexivity. Qed.

(** C29. *)
Theorem C29_delete_internal {A : arith} (m : hexa (num A)) : wf_bcs m →
  ∃ m' n, delete_internal_bcs m = Ok (m', n) ∧ same_but_bcs m m' ∧
    n = count_bcs (λ r, String.eqb (bt r) "E") m ∧
    (∀ i b f r, get_bc m i b f = Some r → bt r ≠ "E"%string → get_bc m' i b f = Some r) ∧
    (∀ i b f r, get_bc m i b f = Some r → bt r = "E"%string →
       get_bc m' i b f = Some (zero_bc (nofZ 0))) ∧
    delete_internal_bcs m' = Ok (m', 0).
Proof.
  intros Hw. destruct (delete_spec m Hw) as (m' & n & E & S & B & C & H).
  exists m', n. split; [done|]. split; [by apply same_but_bcs_of|]. split; [done|].
  split; [|split; [|by eapply delete_idempotent]].
  - intros i b f r Hr Ht. rewrite (H _ _ _ _ Hr). by apply String.eqb_neq in Ht as ->.
  - intros i b f r Hr Ht. rewrite (H _ _ _ _ Hr). by rewrite Ht.
Qed.
Print Assumptions C29_delete_internal.
Example C29_box : rmap snd (delete_internal_bcs (A:=A64) box21) = Ok 2.
Proof. vm_compute. reflexivity. Qed.
