(** Theorems about SIMSON files: C47, C48. *)
From Coq Require Import Lia Ascii.
From Flocq Require Import Core.Core IEEE754.BinarySingleNaN IEEE754.Binary IEEE754.Bits.
From Verif Require Import Base Float FloatLaws Mesh Bytes BytesProofs Text Field Re2 Simson SimsonSpec SimsonProofs.
Open Scope Z_scope.

(** ** C47 *)
(** The planes have different places exactly when there are at most two of them. *)
Theorem C47_planes_distinct_iff nz : NoDup (fplane nz <$> range nz) ↔ (nz <= 2)%nat.
Proof.
  split.
  - intros HN. destruct (Nat.le_gt_cases nz 2) as [H|H]; [done|exfalso].
    destruct (fplane_last nz _ ltac:(lia) eq_refl) as [H1 H2]. set (k := fplane nz (nz - 1)) in *.
    assert (∀ i, (i < nz)%nat → (fplane nz <$> range nz) !! i = Some (fplane nz i)) as X.
    { intros i Hi. unfold range. by rewrite list_lookup_fmap, lookup_seq_lt. }
    pose proof (NoDup_lookup _ k (nz - 1)%nat k HN) as Y. rewrite !X, H2 in Y by lia. specialize (Y eq_refl eq_refl). lia.
  - intros H. destruct nz as [|[|[|nz]]]; [| | |lia]; vm_compute; rewrite ?NoDup_cons, ?NoDup_singleton; repeat split; try apply NoDup_nil_2; set_solver.
Qed.
Print Assumptions C47_planes_distinct_iff.
(** With three planes or more, what the file holds in one of its planes has no influence on the result: two
    files that differ in that plane only, for all three components, are read as the same mesh. The transform,
    and pi and the cosine, are arbitrary. *)
Theorem C47_plane_lost_refuted native fft pi cos o nx ny nz : (3 <= nz)%nat →
  ∃ k, (k < nz)%nat ∧ ∀ d d' file file', d_sizes d = (nx, ny, nz) → dns_ok d → dns_ok d' → same_but_plane k d d' →
    dns_file o d file → dns_file o d' file' →
    ∃ m, readdns native fft pi cos file = Ok (inr m) ∧ readdns native fft pi cos file' = Ok (inr m).
Proof.
  intros Hz. exists (fplane nz (nz - 1)). split; [apply fplane_lt; lia|]. intros d d' file file' HS Hd Hd' (Hb & Ht & Hs & Hst & Hr) Hf Hf'.
  eexists. split; [by apply (readdns_ok native fft pi cos o d)|]. rewrite (readdns_ok native fft pi cos o d' file' Hd' Hf').
  f_equal. f_equal. unfold dns_mesh, buffer. rewrite Hs, HS, Hb, Ht, Hst.
  assert (∀ c, stored nx ny nz (d_row d') c = stored nx ny nz (d_row d) c) as X.
  { intros c. apply (stored_eq nx ny nz _ _ c _ Hz eq_refl). intros iz iy. apply Hr. }
  by rewrite !X.
Qed.
Print Assumptions C47_plane_lost_refuted.
(** Every file in this format is read. The planes beyond the middle, and the planes before the place of the last
    one, reach the transform in the places given; missing are the planes from there to the middle. *)
Definition place (nz iz : nat) : nat := if (2 * iz <=? nz)%nat then iz else (nz / 2 * 3 - (iz + 1))%nat.
Theorem C47_kept_partial native o d file nx ny nz : d_sizes d = (nx, ny, nz) → dns_ok d → dns_file o d file → Z.of_nat (nx * nz) <= 2 ^ 53 →
  ∃ fou : nat → fourier,
    (∀ fft pi cos, ∃ m, readdns native fft pi cos file = Ok (inr m) ∧ lr1 m = [nx; ny; nz] ∧ time m = d_time d ∧
       vel <$> elems m = [[fft (fou 0%nat) nx nz; fft (fou 1%nat) nx nz; fft (fou 2%nat) nx nz]]) ∧
    ∀ c iz, (iz < nz)%nat → (nz <= 2 ∨ nz < 2 * iz ∨ iz < place nz (nz - 1))%nat →
      ∃ p, fou c !! place nz iz = Some p ∧ stored_plane d c iz p.
Proof.
  intros HS Hd Hf Hn. exists (buffer d). split.
  - intros fft pi cos. eexists. split; [by apply (readdns_ok native fft pi cos o d)|]. unfold dns_mesh, buffer. by rewrite HS.
  - change place with fplane. intros c iz Hi Hc. unfold buffer, stored_plane. rewrite HS.
    exists ((λ iy, dns_line nx (Z.of_nat nx * Z.of_nat nz) c (d_row d c iz iy)) <$> range ny). split.
    + apply (stored_at nx ny nz (d_row d) c iz Hi). intros j Hj E. symmetry in E.
      destruct Hc as [Hc|[Hc|Hc]].
      * rewrite !fplane_small in E by lia. lia.
      * destruct (fplane_meet nz iz j Hj E). lia.
      * destruct (fplane_meet nz iz j Hj E) as [H1 H2]. pose proof (fplane_high nz j ltac:(lia) H2) as H3. rewrite <- E in H3.
        unfold fplane at 2 in H3. rewrite (proj2 (Nat.leb_le _ _) H1) in H3. lia.
    + split; [exact (eq_trans (fmap_length _ _) (seq_length _ _))|]. intros iy r Hr. apply list_lookup_fmap_inv in Hr as (iy' & -> & Hr).
      apply lookup_seq in Hr as [-> _]. rewrite <- Nat2Z.inj_mul. by apply dns_line_stored.
Qed.
Print Assumptions C47_kept_partial.
(** A channel flow (type 1) and a boundary layer (type 4) with four planes of two lines. *)
Definition sample_dns (fl : Z) (x : f64) : dns :=
  Dns z64 0 (f64_of_Z 2, f64_of_Z 3) (f64_of_Z 5) (2, 2, 4)%nat 0 fl (f64_of_Z 1) []
      (λ c iz iy, if (iz =? 2)%nat then [x; x] else [f64_of_Z (Z.of_nat c); f64_of_Z (Z.of_nat (iz + iy))]).
Definition eight : bytes := replicate 8 Ascii.zero.
Definition sample_dns_file (o : order) (fl : Z) (x : f64) : bytes :=
  let d := sample_dns fl x in
  i32_bytes o 44 ++ f64_bytes o z64 ++ i32_bytes o 0 ++ f64_bytes o (f64_of_Z 2) ++ f64_bytes o (f64_of_Z 3) ++
  f64_bytes o (f64_of_Z 5) ++ eight ++ eight ++ i32_bytes o (Z.of_nat 2) ++ i32_bytes o (Z.of_nat 2) ++ i32_bytes o (Z.of_nat 4) ++
  i32_bytes o 0 ++ eight ++ i32_bytes o fl ++ f64_bytes o (f64_of_Z 1) ++ eight ++
  (flow_groups fl ≫= λ n, numbers o (replicate n x) ++ eight) ++ (all_rows d ≫= λ r, numbers o r ++ eight).
Lemma sample_stream o rows : stream o rows (rows ≫= λ r, numbers o r ++ eight).
Proof.
  induction rows as [|r rows IH]; [done|]. cbn [stream mbind list_bind]. exists eight, (rows ≫= λ r, numbers o r ++ eight).
  split; [by rewrite <- app_assoc|]. split; [by right|done].
Qed.
Lemma sample_flow o x ns : flow_bytes o ns (ns ≫= λ n, numbers o (replicate n x) ++ eight).
Proof.
  induction ns as [|n ns IH]; [constructor|]. cbn [mbind list_bind]. rewrite <- app_assoc. constructor; [apply replicate_length|done|done].
Qed.
Example C47_sample o fl x : - 2 ^ 31 <= fl < 2 ^ 31 → dns_ok (sample_dns fl x) ∧ dns_file o (sample_dns fl x) (sample_dns_file o fl x).
Proof.
  intros H. split.
  - unfold dns_ok, sample_dns. cbn [d_sizes d_star d_flag d_sym d_flow d_row]. unfold size31. repeat (split; [first [lia|vm_compute; reflexivity|exact H]|]).
    intros c iz iy. destruct (iz =? 2)%nat; reflexivity.
  - unfold dns_file. cbn [sample_dns d_sizes]. exists eight, eight, eight, eight, (flow_groups fl ≫= λ n, numbers o (replicate n x) ++ eight), (all_rows (sample_dns fl x) ≫= λ r, numbers o r ++ eight).
    repeat (split; [reflexivity|]). split; [apply sample_flow|]. split; [apply sample_stream|]. reflexivity.
Qed.
(** Plane 2 of the four is the one that is lost. *)
Example C47_sample_lost : fplane 4 (4 - 1) = 2%nat ∧ ∀ x y, same_but_plane 2 (sample_dns 4 x) (sample_dns 4 y).
Proof.
  split; [reflexivity|]. intros x y. repeat (split; [reflexivity|]). intros c iz iy H. cbn [sample_dns d_row].
  by rewrite (proj2 (Nat.eqb_neq _ _) H).
Qed.

(** ** C48 *)
(** A plane file of two dimensions is read as it was written, in either byte order, whatever follows. *)
Theorem C48_readplane o p : plane_ok p →
  ∃ x y d, readplane (plane_bytes o p) = Ok (Plane [x; y] d [Z.of_nat (p_n0 p); Z.of_nat (p_n1 p)] 2) ∧
    fastest (p_n0 p) (p_n1 p) (p_x p) x ∧ fastest (p_n0 p) (p_n1 p) (p_y p) y ∧ fastest (p_n0 p) (p_n1 p) (p_d p) d.
Proof.
  intros H. do 3 eexists. split; [by apply readplane_ok|]. destruct H as (_ & _ & H & _).
  apply Forall_cons in H as [H1 H]. apply Forall_cons in H as [H2 H]. apply Forall_cons in H as [H3 H].
  split; [|split]; by apply reshape_fastest.
Qed.
Print Assumptions C48_readplane.
(** A file that ends before its last number is rejected. *)
Theorem C48_torn o p k : plane_ok p → (0 < p_n0 p)%nat → (0 < p_n1 p)%nat → (k < length (plane_body o p))%nat →
  ∃ x, readplane (take k (plane_body o p)) = Raise x.
Proof. apply readplane_torn. Qed.
Print Assumptions C48_torn.
(** No file of one or three dimensions is read: those that begin with the marker of one or three sizes raise an
    exception, and no other file gives coordinates of another dimension than two. *)
Theorem C48_1d_3d_refuted file x d nn nd : readplane file = Ok (Plane x d nn nd) → nd = 2.
Proof. apply readplane_dims. Qed.
Print Assumptions C48_1d_3d_refuted.
Theorem C48_1d_3d_raise_refuted o n rest : n = 1 ∨ n = 3 → ∃ x, readplane (i32_bytes o (4 * n) ++ rest) = Raise x.
Proof. apply readplane_1d_3d. Qed.
Print Assumptions C48_1d_3d_raise_refuted.
(** Two by three points. *)
Definition sample_plane : plane_file :=
  let m := i32_bytes Little 8 in let v k := f64_of_Z <$> [k; 1; 2; 3; 4; 5] in
  PlaneFile 2 3 (v 7) (v 8) (v 9) (m, m, m, m, m, m) m.
Example C48_sample : plane_ok sample_plane ∧ (0 < p_n0 sample_plane)%nat ∧ (0 < p_n1 sample_plane)%nat.
Proof.
  split; [|cbn; lia]. unfold plane_ok, size31. split; [cbn; lia|]. split; [cbn; lia|].
  split; repeat (apply List.Forall_cons; [reflexivity|]); apply List.Forall_nil.
Qed.
(** A file of one dimension with two points: the record of two coordinates, then that of the values. *)
Example C48_sample_1d : ∃ x, readplane (i32_bytes Little 4 ++ i32_bytes Little 2 ++ i32_bytes Little 4 ++
  i32_bytes Little 16 ++ numbers Little (f64_of_Z <$> [1; 2]) ++ i32_bytes Little 16 ++
  i32_bytes Little 16 ++ numbers Little (f64_of_Z <$> [3; 4]) ++ i32_bytes Little 16) = Raise x.
Proof. apply (C48_1d_3d_raise_refuted Little 1). by left. Qed.
