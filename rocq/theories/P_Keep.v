(** C32 and the part of C33 about keep_elements. *)
From Coq Require Import Lia Reals Lra.
From Flocq Require Import Core.Core IEEE754.BinarySingleNaN IEEE754.Binary IEEE754.Bits.
From Verif Require Import Base Mesh Core Tools Float FloatLaws MeshLemmas MeshSpec CheckProofs
  OpsProofs GeoLaws ExtrudeSpec KeepSpec KeepProofs Samples.
Open Scope Z_scope.

(** C32. Any list of distinct valid element numbers, in any order. *)
Theorem C32_keep_elements {A : arith} (bnd : Z) (m : hexa (num A)) els ext :
  arith_laws A bnd → wf_mesh m → NoDup els → (∀ i, i ∈ els → (i < nel m)%nat) →
  (∀ e, e ∈ elems m → length (ccurv e) = 12%nat) →
  refs_in_mesh m → Z.of_nat (nel m) <= bnd →
  ∃ m', keep_elements m els ext = Ok m' ∧ is_subset m els ext m' ∧ wf_mesh m' ∧ ncurv m' = curved_total m'.
Proof.
  intros LA Hw Hn Hlt Hcc Hr Hb.
  destruct (keep_spec bnd LA m els ext Hw Hn Hlt Hcc Hr Hb) as (m' & E & Hs & _ & Hw' & Hnc).
  exists m'. split_and!; try done. rewrite Hnc. unfold curved_total. f_equal. clear.
  induction (elems m') as [|e l IH]; [done|]. cbn [sum_list_with]. rewrite bind_cons.
  rewrite List.filter_app, app_length, IH. done.
Qed.
Print Assumptions C32_keep_elements.

(** The kept elements are numbered 0, 1, ... in increasing order. *)
Theorem C32_order els i j : i ∈ els → j ∈ els → (i < j)%nat → (new_number els i < new_number els j)%nat.
Proof.
  intros Hi Hj Hij. unfold new_number.
  apply elem_of_list_split in Hi as (l1 & l2 & ->). rewrite !filter_app, !app_length.
  rewrite (filter_cons_True (λ k, (k < j)%nat) i) by done. rewrite (filter_cons_False (λ k, (k < i)%nat) i) by lia. cbn [length].
  assert (∀ l, length (filter (λ k, (k < i)%nat) l) ≤ length (filter (λ k, (k < j)%nat) l))%nat as H.
  { induction l as [|x l IH]; [done|]. rewrite !filter_cons. repeat case_decide; cbn; lia. }
  pose proof (H l1). pose proof (H l2). lia.
Qed.
Theorem C32_numbers els : NoDup els →
  (∀ i, i ∈ els → (new_number els i < length els)%nat) ∧
  (∀ p, (p < length els)%nat → ∃ i, i ∈ els ∧ new_number els i = p).
Proof. split; [apply new_number_lt|]. intros p Hp. by apply new_number_onto. Qed.
Print Assumptions C32_numbers.

(** Valid connectivity stays valid. *)
Theorem C32_keep_valid {A : arith} (bnd : Z) (m m' : hexa (num A)) els ext (tol : num A) :
  arith_laws A bnd → wf_mesh m → NoDup els → (∀ i, i ∈ els → (i < nel m)%nat) →
  (∀ e, e ∈ elems m → length (ccurv e) = 12%nat) →
  paired m → valid_connectivity tol m → ¬ is_conn (u3 ext) →
  Z.of_nat (nel m) <= bnd → 6 <= bnd →
  keep_elements m els ext = Ok m' →
  valid_connectivity tol m' ∧ paired m' ∧ check_connectivity tol m' = Ok true.
Proof.
  intros LA Hw Hn Hlt Hcc Hp Hv Hext Hb H6 E.
  assert (refs_in_mesh m) as Hr.
  { intros i b f r Hi Hr Hc. destruct (Hp i b f r Hi Hr Hc) as (j & g & _ & (Hj & _) & [P3 _] & _). eauto. }
  destruct (keep_spec bnd LA m els ext Hw Hn Hlt Hcc Hr Hb) as (m0 & E0 & Hs & _ & Hw' & _).
  rewrite E in E0. injection E0 as <-.
  destruct (subset_valid bnd LA m els ext m' tol Hn Hlt (proj1 Hw) Hp Hv Hs Hext Hb H6) as [Hv' Hp'].
  split; [done|]. split; [done|]. by apply check_connectivity_iff.
Qed.
Print Assumptions C32_keep_valid.

(** A number that is not an element number is rejected. *)
Theorem C32_invalid_number_rejected {A : arith} (m : hexa (num A)) els ext i :
  i ∈ els → (nel m ≤ i)%nat → keep_elements m els ext = Raise ValueError.
Proof.
  intros Hi Hge. unfold keep_elements, ke_tables.
  assert (∀ s l, i ∈ l → foldM (ke_step (nel m)) s l = Raise ValueError) as H.
  { intros s l. revert s. induction l as [|x l IH]; intros s Hin; [by apply elem_of_nil in Hin|].
    cbn [foldM]. unfold ke_step at 1. destruct s as [[[kept offs] last] cur].
    destruct (Nat.leb_spec (nel m) x); [done|]. cbn [rbind]. apply IH.
    apply elem_of_cons in Hin as [->|?]; [lia|done]. }
  rewrite H; [done|]. by rewrite sort_nat_perm.
Qed.
Print Assumptions C32_invalid_number_rejected.

(** A 4 x 1 box reduced to elements 3, 0 and 1: the connection between 0 and 1 is kept, the
    faces that were connected to element 2 become walls. *)
Definition box41 : hexa (num A64) := ok_or empty64
  (gen_box (A:=A64) "little" 4 1 (zf 0) (zf 4) (zf 0) (zf 1) [2;1;0;0;0]%nat
     (Some ["W"]%string) (Some ["W"]%string) None None true).
Definition kept41 : hexa (num A64) := ok_or empty64 (keep_elements (A:=A64) box41 [3; 0; 1]%nat "SYM").
Example C32_sample_hyps : wf_mesh box41 ∧ NoDup [3; 0; 1]%nat ∧ (∀ i, i ∈ [3; 0; 1]%nat → (i < nel box41)%nat) ∧
  paired (A:=A64) box41 ∧ valid_connectivity (A:=A64) tol64 box41.
Proof.
  assert (wf_mesh box41) as Hw by (apply wf_meshb_ok; vm_compute; reflexivity).
  split; [exact Hw|]. split; [apply (bool_decide_unpack _); vm_compute; exact I|].
  split; [change (nel box41) with 4%nat; set_solver by lia|].
  split; [apply pairedb_ok; vm_compute; reflexivity|].
  apply check_connectivity_iff; [exact Hw|vm_compute; reflexivity].
Qed.
Example C32_sample_view :
  bc_view kept41 0 0 1 = Some ("E"%string, Ok 2, Ok 4) ∧ bc_view kept41 1 0 1 = Some ("SYM"%string, Ok 0, Ok 0) ∧
  bc_view kept41 2 0 3 = Some ("SYM"%string, Ok 0, Ok 0) ∧ bc_view kept41 2 0 0 = Some ("P"%string, Ok 3, Ok 3) ∧
  new_number [3; 0; 1]%nat 3 = 2%nat.
Proof. vm_compute. split_and!; reflexivity. Qed.

(** C33 for keep_elements: the element map keeps the numbers of all the elements. *)
Theorem C33_keep_elmap_refuted :
  Permutation (elmap box41) [1; 2; 3; 4]%Z ∧
  ∃ m', keep_elements (A:=A64) box41 [3; 0; 1]%nat "SYM" = Ok m' ∧ nel m' = 3%nat ∧ elmap m' = [1; 2; 3; 4].
Proof.
  split; [vm_compute; reflexivity|].
  assert (match keep_elements (A:=A64) box41 [3; 0; 1]%nat "SYM" with
    | Ok m' => (nel m' =? 3)%nat && bool_decide (elmap m' = [1; 2; 3; 4])
    | Raise _ => false end = true) as H by (vm_compute; reflexivity).
  destruct (keep_elements _ _ _) as [m'|]; [|done]. exists m'. split; [done|].
  rewrite andb_true_iff, Nat.eqb_eq, bool_decide_eq_true in H. done.
Qed.
Print Assumptions C33_keep_elmap_refuted.

(** The elements must be distinct: a repeated number duplicates the element and breaks the
    connectivity. *)
Theorem C32_repeated_refuted :
  ∃ m', keep_elements (A:=A64) box41 [0; 0; 1]%nat "SYM" = Ok m' ∧
    ∃ ex, check_connectivity (A:=A64) tol64 m' = Raise ex.
Proof.
  assert (match keep_elements (A:=A64) box41 [0; 0; 1]%nat "SYM" with
    | Ok m' => match check_connectivity (A:=A64) tol64 m' with Ok _ => false | Raise _ => true end
    | Raise _ => false end = true) as H by (vm_compute; reflexivity).
  destruct (keep_elements _ _ _) as [m'|]; [|done]. exists m'. split; [done|].
  destruct (check_connectivity _ _) as [|ex]; [done|]. eauto.
Qed.
Print Assumptions C32_repeated_refuted.
