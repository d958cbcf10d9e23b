(** Both arithmetic instances satisfy the laws used by the index-level theorems. *)
From Verif Require Import Base Float.
From Coq Require Import Reals Lia Lra.
From Flocq Require Import Core.Core IEEE754.BinarySingleNaN IEEE754.Binary IEEE754.Bits.
Open Scope Z_scope.

Lemma AR_laws bnd : arith_laws AR bnd.
Proof.
  split; cbn; intros.
  - by rewrite Ztrunc_IZR.
  - by rewrite plus_IZR.
  - by rewrite minus_IZR.
Qed.

Definition bnd64 : Z := 2 ^ 53.

Lemma round64_int z : Z.abs z <= bnd64 →
  round radix2 (FLT_exp (3 - 1024 - 53) 53) (round_mode mode_NE) (IZR z) = IZR z.
Proof.
  intros Hz. apply round_generic; [apply valid_rnd_round_mode|].
  destruct (Z.eq_dec (Z.abs z) bnd64) as [E|E].
  - assert (z = bnd64 ∨ z = - bnd64) as [->| ->] by (unfold bnd64 in *; lia).
    + change (IZR bnd64) with (bpow radix2 53). apply generic_format_bpow. unfold FLT_exp. lia.
    + rewrite opp_IZR. apply generic_format_opp.
      change (IZR bnd64) with (bpow radix2 53). apply generic_format_bpow. unfold FLT_exp. lia.
  - apply generic_format_FLT. apply FLT_spec with (Float radix2 z 0).
    + unfold F2R. cbn. ring.
    + cbn. unfold bnd64 in *. lia.
    + cbn. lia.
Qed.

Lemma int_lt_max z : Z.abs z <= bnd64 → (Rabs (IZR z) < bpow radix2 1024)%R.
Proof.
  intros Hz. rewrite <- abs_IZR. apply Rle_lt_trans with (bpow radix2 53).
  - change (bpow radix2 53) with (IZR bnd64). by apply IZR_le.
  - apply bpow_lt. lia.
Qed.

Lemma f64_of_Z_correct z : Z.abs z <= bnd64 →
  B2R 53 1024 (f64_of_Z z) = IZR z ∧ is_finite 53 1024 (f64_of_Z z) = true ∧
  Bsign 53 1024 (f64_of_Z z) = (z <? 0).
Proof.
  intros Hz. unfold f64_of_Z.
  pose proof (binary_normalize_correct 53 1024 _ _ mode_NE z 0 false) as H.
  unfold F2R in H. cbn [Fnum Fexp bpow] in H. rewrite Rmult_1_r in H.
  change (SpecFloat.emin 53 1024) with (3 - 1024 - 53) in H.
  change (SpecFloat.fexp 53 1024) with (FLT_exp (3 - 1024 - 53) 53) in H.
  rewrite (round64_int z Hz) in H.
  rewrite Rlt_bool_true in H by (by apply int_lt_max).
  destruct H as (H1 & H2 & H3). split; [done|]. split; [done|].
  rewrite H3. destruct (Rcompare_spec (IZR z) 0) as [Hlt|Heq|Hgt].
  - apply lt_IZR in Hlt. symmetry. by apply Z.ltb_lt.
  - apply eq_IZR in Heq. by subst.
  - apply lt_IZR in Hgt. symmetry. apply Z.ltb_ge. lia.
Qed.

Lemma f64_eq_of_Z (x : f64) z : Z.abs z <= bnd64 →
  is_finite 53 1024 x = true → B2R 53 1024 x = IZR z → Bsign 53 1024 x = (z <? 0) →
  x = f64_of_Z z.
Proof.
  intros Hz Hf Hr Hs. destruct (f64_of_Z_correct z Hz) as (H1 & H2 & H3).
  apply B2R_Bsign_inj; congruence.
Qed.

Lemma f64_trunc_of_Z z : Z.abs z <= bnd64 → f64_trunc (f64_of_Z z) = Ok z.
Proof.
  intros Hz. destruct (f64_of_Z_correct z Hz) as (H1 & H2 & _).
  pose proof (Btrunc_correct 53 1024 emax1024 (f64_of_Z z)) as H.
  rewrite H1 in H.
  assert (Btrunc 53 1024 (f64_of_Z z) = z) as HE.
  { apply eq_IZR. rewrite H. unfold round, F2R, scaled_mantissa, cexp, FIX_exp. cbn.
    rewrite !Rmult_1_r. by rewrite Ztrunc_IZR. }
  unfold f64_trunc. destruct (f64_of_Z z); cbn in H2; try discriminate; by rewrite HE.
Qed.

Lemma A64_laws : arith_laws A64 bnd64.
Proof.
  split.
  - exact f64_trunc_of_Z.
  - intros x y Hx Hy Hs. cbn.
    destruct (f64_of_Z_correct x Hx) as (Rx & Fx & Sx).
    destruct (f64_of_Z_correct y Hy) as (Ry & Fy & Sy).
    pose proof (Bplus_correct 53 1024 prec53 emax1024 binop_nan_pl64 mode_NE _ _ Fx Fy) as H.
    rewrite Rx, Ry, <- plus_IZR in H.
    change (SpecFloat.fexp 53 1024) with (FLT_exp (3 - 1024 - 53) 53) in H.
    rewrite (round64_int _ Hs) in H.
    rewrite Rlt_bool_true in H by (by apply int_lt_max).
    destruct H as (H1 & H2 & H3).
    apply f64_eq_of_Z; [done|done|done|].
    etransitivity; [exact H3|]. rewrite Sx, Sy.
    destruct (Rcompare_spec (IZR (x + y)) 0) as [Hlt|Heq|Hgt].
    + apply lt_IZR in Hlt. symmetry. by apply Z.ltb_lt.
    + apply eq_IZR in Heq. destruct (Z.ltb_spec x 0), (Z.ltb_spec y 0), (Z.ltb_spec (x+y) 0); cbn; lia || done.
    + apply lt_IZR in Hgt. symmetry. apply Z.ltb_ge. lia.
  - intros x y Hx Hy Hs. cbn.
    destruct (f64_of_Z_correct x Hx) as (Rx & Fx & Sx).
    destruct (f64_of_Z_correct y Hy) as (Ry & Fy & Sy).
    pose proof (Bminus_correct 53 1024 prec53 emax1024 binop_nan_pl64 mode_NE _ _ Fx Fy) as H.
    rewrite Rx, Ry, <- minus_IZR in H.
    change (SpecFloat.fexp 53 1024) with (FLT_exp (3 - 1024 - 53) 53) in H.
    rewrite (round64_int _ Hs) in H.
    rewrite Rlt_bool_true in H by (by apply int_lt_max).
    destruct H as (H1 & H2 & H3).
    apply f64_eq_of_Z; [done|done|done|].
    etransitivity; [exact H3|]. rewrite Sx, Sy.
    destruct (Rcompare_spec (IZR (x - y)) 0) as [Hlt|Heq|Hgt].
    + apply lt_IZR in Hlt. symmetry. by apply Z.ltb_lt.
    + apply eq_IZR in Heq. destruct (Z.ltb_spec x 0), (Z.ltb_spec y 0), (Z.ltb_spec (x-y) 0); cbn; lia || done.
    + apply lt_IZR in Hgt. symmetry. apply Z.ltb_ge. lia.
Qed.
