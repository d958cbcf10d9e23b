(** Theorems about SIMSON fields: torn files (C62), passive scalars (C63). *)
From Coq Require Import Lia Ascii Reals Lra.
From Flocq Require Import Core.Core IEEE754.BinarySingleNaN IEEE754.Binary IEEE754.Bits.
From Verif Require Import Base Float FloatLaws Mesh Bytes BytesProofs Text Field Re2 Simson SimsonSpec SimsonProofs SimsonMore P_Simson.
Open Scope Z_scope.

(** ** C62 *)
(** A file cut before the end of its last row is never read: an exception is raised, and neither a mesh nor an error code is returned. *)
Theorem C62_torn_raises native fft pi cos o d file nx ny nz k : dns_ok d → dns_file o d file → d_sizes d = (nx, ny, nz) → (0 < ny)%nat →
  (k < dns_length d)%nat → ∃ x, readdns native fft pi cos (take k file) = Raise x.
Proof.
  intros Hd Hf HS Hy Hk. pose proof (readdns_torn native fft pi cos o d file k Hd Hf) as H. rewrite HS in H. by apply H.
Qed.
Print Assumptions C62_torn_raises.
(** The file is read exactly as a whole file when no row is cut, so the length named is the right one. *)
Theorem C62_read_iff native fft pi cos o d file nx ny nz k : dns_ok d → dns_file o d file → d_sizes d = (nx, ny, nz) → (0 < ny)%nat →
  ∃ m, readdns native fft pi cos file = Ok (inr m) ∧ (readdns native fft pi cos (take k file) = Ok (inr m) ↔ (dns_length d ≤ k)%nat).
Proof.
  intros Hd Hf HS Hy. exists (dns_mesh native o fft pi cos d). split; [by apply readdns_ok|]. split.
  - intros E. destruct (Nat.le_gt_cases (dns_length d) k) as [H|H]; [done|].
    destruct (C62_torn_raises native fft pi cos o d file nx ny nz k Hd Hf HS Hy H) as [x Ex]. rewrite Ex in E. done.
  - intros Hk. apply readdns_ok; [done|]. pose proof (dns_file_take o d file k Hd Hf) as H. rewrite HS in H. by apply H.
Qed.
Print Assumptions C62_read_iff.
(** The same field in the two byte orders gives the same mesh, but for the recorded byte order. *)
Definition with_endian (s : string) (m : mesh64) : mesh64 :=
  Hexa (ndim m) (nel m) (ncurv m) (nbc m) (var m) (lr1kind m) (lr1 m) (time m) (istep m) (wdsz m) s (elems m) (elmap m).
Theorem C62_byte_order native fft pi cos d f1 f2 : dns_ok d → dns_file Little d f1 → dns_file Big d f2 →
  ∃ m, readdns native fft pi cos f1 = Ok (inr (with_endian "little" m)) ∧ readdns native fft pi cos f2 = Ok (inr (with_endian "big" m)).
Proof.
  intros Hd H1 H2. exists (dns_mesh native Little fft pi cos d). rewrite (readdns_ok _ _ _ _ _ _ _ Hd H1), (readdns_ok _ _ _ _ _ _ _ Hd H2).
  unfold dns_mesh. destruct (d_sizes d) as [[nx ny] nz]. done.
Qed.
Print Assumptions C62_byte_order.
(** The sample of C47, a boundary layer with four planes of two lines of two numbers: 732 bytes up to the end of the last row. *)
Example C62_sample x : (dns_length (sample_dns 4 x), d_sizes (sample_dns 4 x)) = (732, (2, 2, 4))%nat.
Proof. reflexivity. Qed.
(** One byte less is too short; the marker after the last row is not needed. *)
Example C62_sample_cut : let file := sample_dns_file Little 4 z64 in
  (length file, match readdns Little (λ _ _ _, []) z64 (λ x, x) (take 731 file) with Raise _ => true | _ => false end,
   match readdns Little (λ _ _ _, []) z64 (λ x, x) (take 732 file) with Ok (inr m) => true | _ => false end) = (740%nat, true, true).
Proof. vm_compute. reflexivity. Qed.

(** ** C63 *)
(** A file with passive scalars is not read: the binary Prandtl number is taken for the text of a number. *)
Theorem C63_scalars_refuted native fft pi cos o n re flag bx bz t e pr rest : (1 ≤ n ≤ 100)%nat → - 2 ^ 31 <= flag < 2 ^ 31 → junk 8 e → moderate pr →
  readdns native fft pi cos (scalar_file o n re flag bx bz t e pr rest) = Raise ValueError.
Proof. apply scalars_raise. Qed.
Print Assumptions C63_scalars_refuted.
(** Three quarters is such a number, and so is a negative one. *)
Example C63_sample : moderate (b64_of_bits 4604930618986332160) ∧ moderate (f64_of_Z (-7)).
Proof.
  split; (split; [vm_compute; reflexivity|]).
  - replace (B2R 53 1024 (b64_of_bits 4604930618986332160)) with (3 / 4)%R by (vm_compute; lra).
    rewrite Rabs_right by lra. unfold bpow. vm_compute (Z.pow_pos radix2 15). vm_compute (Z.pow_pos radix2 17). lra.
  - replace (B2R 53 1024 (f64_of_Z (-7))) with (-7)%R by (vm_compute; lra).
    rewrite Rabs_left by lra. unfold bpow. vm_compute (Z.pow_pos radix2 15). vm_compute (Z.pow_pos radix2 17). lra.
Qed.
