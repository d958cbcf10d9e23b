(** C66: a mesh saved as re2 gets its internal conditions back. *)
From Coq Require Import Lia.
From Verif Require Import Base Float FloatLaws Mesh Core Tools Bytes Text Field FieldSpec FieldProofs Re2 Re2Spec Re2Proofs MeshSpec GibSpec MeshLemmas CheckProofs Samples Restore Reload ReloadSample.
Open Scope Z_scope.

(** A re2 file has no internal conditions. For a mesh whose internal conditions connect exactly the inner faces lying at
    the same place, and which carries nothing else that the format leaves out, generate_internal_bcs after reading brings
    back the mesh: the shape, positions, curved edges and all the conditions of each element, and the verdict of
    check_connectivity, for any tolerance. *)
Theorem C66_reload native m tol : re2_mesh m → asked_order native (endian m) = native →
  wf_mesh (A:=A64) m → (1 ≤ nbc m)%nat →
  (∀ e s, e ∈ elems m → smallest_edge (A:=A64) e = Ok s → nleb (a:=A64) s (nofZ (a:=A64) 0) = false) →
  connected_by_place (A:=A64) tol m → plain_conditions m → in_plane m →
  ∃ file m0 m' n, writere2 native m = (Some file, Ok tt) ∧ readre2 native file = Ok m0 ∧
    generate_internal_bcs (A:=A64) tol m0 = Ok (m', n) ∧
    ndim m' = ndim m ∧ nel m' = nel m ∧ nbc m' = nbc m ∧ ncurv m' = Z.of_nat (n_curves m) ∧ length (elems m') = length (elems m) ∧
    (∀ p e, elems m !! p = Some e → ∃ e', elems m' !! p = Some e' ∧ same_element e' e) ∧
    ∀ tol', check_connectivity (A:=A64) tol' m' = Ok true ↔ check_connectivity (A:=A64) tol' m = Ok true.
Proof.
  intros Hm Ho Hw Hb Hs HC HP Hz. destruct (reload native m tol Hm Hw Hb Hs HC HP Hz) as (m' & n & EG & HA & Hn & HE).
  exists (re2_file native m), (norm_mesh native m), m', n. rewrite writere2_ok, out_order_asked, Ho by done.
  split; [done|]. split; [by apply read_re2_file; [|left]|]. split; [done|]. pose proof HA as (A1 & A2 & A3 & A4).
  split; [done|]. split; [done|]. split; [done|]. split; [done|]. split; [exact (Forall2_length _ _ _ A4)|]. split; [done|].
  intros tol'. by apply alike_check.
Qed.
Print Assumptions C66_reload.

(** The hypotheses are met by a block of two layers of two by two elements, which has 12 inner faces. *)
Example C66_sample : re2_mesh block ∧ asked_order Little (endian block) = Little ∧ wf_mesh (A:=A64) block ∧ nbc block = 1%nat ∧ nel block = 8%nat ∧
  (∀ e s, e ∈ elems block → smallest_edge (A:=A64) e = Ok s → nleb (a:=A64) s (nofZ (a:=A64) 0) = false) ∧
  connected_by_place (A:=A64) tol64 block ∧ plain_conditions block ∧ in_plane block ∧ check_connectivity (A:=A64) tol64 block = Ok true.
Proof.
  assert (wf_mesh (A:=A64) block) as Hw by (apply wf_meshb_ok; vm_compute; reflexivity).
  split; [apply re2_meshb_ok; vm_compute; reflexivity|]. split; [vm_compute; reflexivity|]. split; [done|].
  split; [vm_compute; reflexivity|]. split; [vm_compute; reflexivity|].
  split; [apply edgesb_ok; vm_compute; reflexivity|]. split; [apply connectedb_ok; [done|vm_compute; reflexivity]|].
  split; [apply plainb_ok; [done|vm_compute; reflexivity]|].
  split; [intros H; assert (ndim block = 3%nat) as H3 by (vm_compute; reflexivity); rewrite H in H3; discriminate|vm_compute; reflexivity].
Qed.
