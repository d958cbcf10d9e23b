(** C65: the grid of SIMSON fields. *)
From Coq Require Import Lia Reals Lra.
From Flocq Require Import Core.Core IEEE754.BinarySingleNaN IEEE754.Binary IEEE754.Bits.
From Verif Require Import Base Float FloatLaws FloatOps Mesh MeshLemmas Bytes Text Field Re2 Simson SimsonSpec SimsonProofs DnsGrid P_Simson.
Open Scope R_scope.

(** What np.cos is assumed to do: a finite angle gives a finite number between -1 and 1. *)
Definition bounded_cos (cos : f64 → f64) : Prop :=
  ∀ t, is_finite 53 1024 t = true → is_finite 53 1024 (cos t) = true ∧ Rabs (B2R 53 1024 (cos t)) <= 1.

(** The header of the file and the grid that the simulation used: uniform in x, starting at 0; uniform in z, with the
    middle point at 0; at y = (1 - cos t) / delta-star for uniform angles t from 0 to pi. All up to rounding errors, of at most five units. *)
Theorem C65_grid native fft pi cos o d file nx ny nz : dns_ok d → dns_file o d file → d_sizes d = (nx, ny, nz) → (2 <= ny)%nat →
  ordinary (d_box d).1 → ordinary (d_box d).2 → ordinary (d_star d) → ordinary pi → bounded_cos cos →
  ∃ m e, readdns native fft pi cos file = Ok (inr m) ∧
    nel m = 1%nat ∧ elems m = [e] ∧ lr1 m = [nx; ny; nz] ∧ eshape e = (nx, ny, nz) ∧ ndim m = (if (nz =? 1)%nat then 2 else 3)%nat ∧
    var m = [ndim m; ndim m; 0; 0; 0]%nat ∧ time m = d_time d ∧ endian m = order_name o ∧
    ∀ iz iy ix, (iz < nz)%nat → (iy < ny)%nat → (ix < nx)%nat → ∃ x y z t, point e iz iy ix = Some (x, y, z) ∧
      close 3 x (B2R 53 1024 (d_box d).1 * INR ix / INR nx) ∧
      close 3 t (B2R 53 1024 pi * INR iy / INR (ny - 1)) ∧ close 5 y ((1 - B2R 53 1024 (cos t)) / B2R 53 1024 (d_star d)) ∧
      close 3 z (B2R 53 1024 (d_box d).2 * (INR iz / INR nz - 1 / 2)).
Proof.
  intros Hd Hf HS Hy Hx Hz Hds Hpi Hcos. pose proof Hd as Hd'. unfold dns_ok in Hd'. rewrite HS in Hd'. destruct Hd' as (P1 & P2 & P3 & P4 & P5 & _).
  unfold size31 in *. do 2 eexists. split; [by apply readdns_ok|]. unfold dns_mesh. rewrite HS. cbn [nel elems lr1 ndim var time endian].
  split; [reflexivity|]. split; [reflexivity|]. split; [reflexivity|]. split; [reflexivity|].
  split; [destruct (Nat.eqb_spec nz 1) as [->|Hn]; [reflexivity|]; by rewrite (proj2 (Z.ltb_lt _ _)) by lia|].
  split; [reflexivity|]. split; [reflexivity|]. split; [reflexivity|].
  intros iz iy ix Hiz Hiy Hix.
  unfold point. cbn [eshape pos]. cbn [lr1_triple new_elem eshape nth].
  rewrite (proj2 (Nat.ltb_lt _ _) Hiz), (proj2 (Nat.ltb_lt _ _) Hiy), (proj2 (Nat.ltb_lt _ _) Hix). cbn [andb]. unfold dns_geometry, flat.
  do 4 eexists. split.
  { cbn [lookup list_lookup mbind option_bind]. change (lr1_triple [nx; ny; nz]) with (nx, ny, nz). cbv beta iota.
    do 3 (rewrite tabulate_lookup by done; cbn [mbind option_bind]). reflexivity. }
  rewrite !INR_IZR_INZ.
  pose proof (uniform _ (Z.of_nat nx) (Z.of_nat ix) Hx ltac:(lia) ltac:(lia)) as Ux.
  pose proof (uniform _ (Z.of_nat ny - 1) (Z.of_nat iy) Hpi ltac:(lia) ltac:(lia)) as Ut.
  pose proof (centred _ (Z.of_nat nz) (Z.of_nat iz) Hz ltac:(lia) ltac:(lia)) as Uz.
  assert (IZR (Z.of_nat nx) ≠ 0 ∧ IZR (Z.of_nat nz) ≠ 0) as [N1 N2] by (split; apply not_0_IZR; lia).
  assert (IZR (Z.of_nat (ny - 1)) ≠ 0) as N3 by (apply not_0_IZR; lia).
  apply near_close in Ux; [|lia]. apply near_close in Uz; [|lia]. apply near_close in Ut; [|lia].
  assert (∀ k, INR k + 1 = INR (k + 1)) as Hk by (intros k; by rewrite Nat.add_1_r, S_INR).
  assert (∀ k v r r', close (INR k + 1) v r → r = r' → ∀ c, c = INR (k + 1) → close c v r') as Hcl by (intros k v r r' H <- c ->; by rewrite <- Hk).
  split; [apply (Hcl _ _ _ _ Ux); [field; done|cbn; lra]|].
  split; [apply (Hcl _ _ _ _ Ut); [rewrite Nat2Z.inj_sub by lia; change (Z.of_nat 1) with 1%Z; rewrite Nat2Z.inj_sub in N3 by lia; field; exact N3|cbn; lra]|].
  split; [|apply (Hcl _ _ _ _ Uz); [field; done|cbn; lra]].
  destruct Ut as [Ft _]. destruct (Hcos _ Ft) as [Fc Bc].
  pose proof (near_close 4 _ _ ltac:(lia) (wall_distance _ _ Hds Fc Bc)) as Uy. apply (Hcl _ _ _ _ Uy); [reflexivity|cbn; lra].
Qed.
Print Assumptions C65_grid.
(** The hypotheses are met by the sample of C47: two by two by four points, a box of 2 by 3, delta-star 1. *)
Lemma ordinary_int n : (1 <= n < 2 ^ 31)%Z → ordinary (f64_of_Z n).
Proof.
  intros Hn. destruct (small_isr n ltac:(lia)) as [F V]. destruct (within_int n Hn) as [A B]. split; [done|]. rewrite V.
  split; [apply (Rle_trans _ (bpow radix2 (-31))); [apply bpow_le; lia|done]|apply (Rle_trans _ (bpow radix2 31)); [done|apply bpow_le; lia]].
Qed.
Example C65_sample : let d := sample_dns 4 z64 in dns_ok d ∧ dns_file Big d (sample_dns_file Big 4 z64) ∧ d_sizes d = (2, 2, 4)%nat ∧
  ordinary (d_box d).1 ∧ ordinary (d_box d).2 ∧ ordinary (d_star d) ∧ ordinary (f64_of_Z 3) ∧ bounded_cos (λ _, f64_of_Z (-1)).
Proof.
  cbv zeta. destruct (C47_sample Big 4 z64 ltac:(lia)) as [H1 H2]. split; [done|]. split; [done|]. split; [done|].
  split; [apply ordinary_int; lia|]. split; [apply ordinary_int; lia|]. split; [apply ordinary_int; lia|]. split; [apply ordinary_int; lia|].
  intros t _. destruct (of_Z_isr (-1) ltac:(lia)) as [F V]. split; [done|]. rewrite V, <- abs_IZR. change (Z.abs (-1)) with 1%Z. lra.
Qed.

(** Finding: a field with a single line in y has no y coordinates: pi is divided by zero, and all of them are nan. *)
Theorem C65_one_line_nan native fft pi cos o d file nx nz : dns_ok d → dns_file o d file → d_sizes d = (nx, 1, nz)%nat → ordinary pi →
  (∀ t, is_nan 53 1024 t = true → is_nan 53 1024 (cos t) = true) →
  ∃ m e, readdns native fft pi cos file = Ok (inr m) ∧ elems m = [e] ∧
    ∀ iz ix, (iz < nz)%nat → (ix < nx)%nat → ∃ x y z, point e iz 0 ix = Some (x, y, z) ∧ is_nan 53 1024 y = true.
Proof.
  intros Hd Hf HS Hpi Hcos. do 2 eexists. split; [by apply readdns_ok|]. unfold dns_mesh. rewrite HS. cbn [elems]. split; [reflexivity|].
  intros iz ix Hiz Hix. unfold point. cbn [eshape pos]. cbn [lr1_triple new_elem eshape nth].
  rewrite (proj2 (Nat.ltb_lt _ _) Hiz), (proj2 (Nat.ltb_lt 0 1) ltac:(lia)), (proj2 (Nat.ltb_lt _ _) Hix). cbn [andb]. unfold dns_geometry, flat.
  do 3 eexists. split.
  { cbn [lookup list_lookup mbind option_bind]. change (lr1_triple [nx; 1%nat; nz]) with (nx, 1%nat, nz). cbv beta iota.
    do 3 (rewrite tabulate_lookup by (done || lia); cbn [mbind option_bind]). reflexivity. }
  change (f64_of_Z (Z.of_nat 1 - 1)) with (f64_of_Z 0). change (f64_of_Z (Z.of_nat 0)) with (f64_of_Z 0).
  assert (is_nan 53 1024 (nmul (a:=A64) (ndiv (a:=A64) pi (f64_of_Z 0)) (f64_of_Z 0)) = true) as Hn.
  { destruct Hpi as [F [P _]]. destruct pi as [s|s|s pl|s m e He]; done. }
  apply Hcos in Hn. revert Hn. generalize (cos (nmul (a:=A64) (ndiv (a:=A64) pi (f64_of_Z 0)) (f64_of_Z 0))). intros c Hc.
  destruct c as [s|s|s pl Hpl|s m e He]; try done.
  generalize (ndiv (a:=A64) (f64_of_Z 2) (d_star d)). intros b. destruct b; reflexivity.
Qed.
Print Assumptions C65_one_line_nan.
