(** Numbers written with a fixed number of significant digits: what is written is the closest decimal
    number, and what is read back is the float64 nearest to it. *)
From Coq Require Import Lia Ascii Reals Lra.
From Flocq Require Import Core.Core IEEE754.BinarySingleNaN IEEE754.Binary IEEE754.Bits.
From Verif Require Import Base Float FloatLaws Bytes BytesProofs Text TextProofs.
Open Scope Z_scope.

(** [d] has at most [n] significant decimal digits. *)
Definition decimal_number (n : nat) (d : R) : Prop := ∃ M k, Z.abs M < 10 ^ Z.of_nat n ∧ d = (IZR M * bpow ten k)%R.
(** [d] is a closest such number to [x]. *)
Definition closest (n : nat) (x d : R) : Prop :=
  decimal_number n d ∧ ∀ d', decimal_number n d' → (Rabs (d - x) <= Rabs (d' - x))%R.

Lemma decimal_opp n d : decimal_number n d → decimal_number n (- d).
Proof. intros (M & k & H & ->). exists (- M), k. split; [by rewrite Z.abs_opp|]. rewrite opp_IZR. ring. Qed.
Lemma closest_opp n x d : closest n x d → closest n (- x) (- d).
Proof.
  intros [H1 H2]. split; [by apply decimal_opp|]. intros d' Hd'. specialize (H2 (- d')%R (decimal_opp _ _ Hd')).
  replace (- d - - x)%R with (- (d - x))%R by ring. replace (d' - - x)%R with (- (- d' - x))%R by ring. by rewrite !Rabs_Ropp.
Qed.
Lemma closest_self n x d : decimal_number n x → closest n x d → d = x.
Proof.
  intros Hx [_ H]. specialize (H x Hx). rewrite Rminus_eq_0, Rabs_R0 in H. pose proof (Rabs_pos (d - x)).
  assert (Rabs (d - x) = 0)%R as E by lra. destruct (Req_dec (d - x) 0) as [?|N]; [lra|]. by apply Rabs_no_R0 in N.
Qed.
Lemma decimal_zero n : decimal_number n 0.
Proof. exists 0, 0. split; [apply Z.pow_pos_nonneg; lia|ring]. Qed.
Lemma closest_zero n : closest n 0 0.
Proof. split; [apply decimal_zero|]. intros d' _. rewrite Rminus_0_r, Rabs_R0. apply Rabs_pos. Qed.
(** The closest multiple of the last digit's unit is closest of all. *)
Lemma closest_core p v E Q : (bpow ten E <= v < bpow ten (E + 1))%R → 0 <= Q <= 10 ^ (Z.of_nat p + 1) →
  (Rabs (IZR Q * bpow ten (E - Z.of_nat p) - v) <= / 2 * bpow ten (E - Z.of_nat p))%R → closest (S p) v (IZR Q * bpow ten (E - Z.of_nat p)).
Proof.
  intros [V1 V2] [Q1 Q2] HE. set (q := bpow ten (E - Z.of_nat p)) in *.
  assert (0 < q)%R as Hq by apply bpow_gt_0.
  assert (bpow ten E = IZR (10 ^ Z.of_nat p) * q)%R as EE.
  { unfold q. rewrite IZR_pow10, <- bpow_plus by lia. f_equal. lia. }
  assert (∀ N, (Rabs (IZR Q * q - v) <= Rabs (IZR N * q - v))%R) as HN.
  { intros N. destruct (Z.eq_dec N Q) as [->|Ne]; [lra|]. eapply Rle_trans; [exact HE|].
    apply Rabs_le_inv in HE. destruct (Z.lt_total N Q) as [L|[L|L]]; [|done|].
    - assert (IZR N + 1 <= IZR Q)%R as HI by (rewrite <- plus_IZR; apply IZR_le; lia).
      assert ((IZR N + 1) * q <= IZR Q * q)%R by (apply Rmult_le_compat_r; lra). rewrite Rabs_left1; lra.
    - assert (IZR Q + 1 <= IZR N)%R as HI by (rewrite <- plus_IZR; apply IZR_le; lia).
      assert ((IZR Q + 1) * q <= IZR N * q)%R by (apply Rmult_le_compat_r; lra). rewrite Rabs_right; lra. }
  split.
  - destruct (Z.eq_dec Q (10 ^ (Z.of_nat p + 1))) as [->|Ne].
    + exists 1, (E + 1). split; [rewrite Nat2Z.inj_succ; change (Z.abs 1) with (10 ^ 0); apply Z.pow_lt_mono_r; lia|].
      unfold q. rewrite IZR_pow10, <- bpow_plus by lia. rewrite Rmult_1_l. f_equal. lia.
    + exists Q, (E - Z.of_nat p). split; [rewrite Nat2Z.inj_succ; unfold Z.succ; lia|done].
  - intros d' (M' & k' & HM & ->). rewrite Nat2Z.inj_succ in HM. unfold Z.succ in HM.
    destruct (Z.le_gt_cases (E - Z.of_nat p) k') as [Hk|Hk].
    + replace (IZR M' * bpow ten k')%R with (IZR (M' * 10 ^ (k' - (E - Z.of_nat p))) * q)%R; [apply HN|].
      unfold q. rewrite mult_IZR, IZR_pow10, Rmult_assoc, <- bpow_plus by lia. do 2 f_equal. lia.
    + assert (IZR M' * bpow ten k' <= bpow ten E)%R as Hd.
      { assert (IZR M' <= bpow ten (Z.of_nat p + 1))%R as HI by (rewrite <- IZR_pow10 by lia; apply IZR_le; lia).
        apply Rle_trans with (bpow ten (Z.of_nat p + 1) * bpow ten k')%R; [apply Rmult_le_compat_r; [apply bpow_ge_0|done]|].
        rewrite <- bpow_plus. apply bpow_le. lia. }
      eapply Rle_trans; [apply (HN (10 ^ Z.of_nat p))|]. rewrite <- EE. rewrite !Rabs_left1; lra.
Qed.

(** The decimal number written for [x]. *)
Lemma written p x : is_finite 53 1024 x = true → ∃ M k,
  let d := (if Bsign 53 1024 x then - (IZR M * bpow ten (k - Z.of_nat p)) else IZR M * bpow ten (k - Z.of_nat p))%R in
  0 <= M < 10 ^ (Z.of_nat p + 1) ∧ (B2R 53 1024 x ≠ 0%R → 10 ^ Z.of_nat p <= M) ∧ (B2R 53 1024 x = 0%R → M = 0 ∧ k = 0) ∧
  (∀ up, fmt_e up p x = sign_txt (Bsign 53 1024 x) ++ sci up p M k) ∧
  closest (S p) (B2R 53 1024 x) d ∧ (Rabs (d - B2R 53 1024 x) <= / 2 * bpow ten (- Z.of_nat p) * Rabs (B2R 53 1024 x))%R ∧
  txt_value p x = dec_to_f64 (Bsign 53 1024 x) M (k - Z.of_nat p) ∧
  nearest64 (Bsign 53 1024 x) d (txt_value p x).
Proof.
  intros Hf. destruct x as [s|s|s pl H|s m e H]; [|done|done|].
  - exists 0, 0. cbn [Bsign B2R fmt_e txt_value]. set (d := if s then _ else _ : R).
    assert (d = 0%R) as Ed by (unfold d; destruct s; ring).
    split; [split; [lia|apply Z.pow_pos_nonneg; lia]|]. split; [done|]. split; [done|]. split; [done|]. 
    split; [rewrite Ed; apply closest_zero|]. split; [rewrite Ed, Rminus_0_r, Rabs_R0; lra|].
    assert (dec_to_f64 s 0 (0 - Z.of_nat p) = B754_zero 53 1024 s) as Ez by done.
    split; [done|]. rewrite <- Ez. unfold d. apply dec_to_f64_nearest. lia.
  - pose proof (frac_of_spec m e) as HF. cbn [Bsign B2R fmt_e txt_value].
    destruct (frac_of m e) as [num den]. destruct HF as (Hn & Hd & HF).
    destruct (decimal p num den) as [M k] eqn:ED. destruct (decimal_full p num den M k Hn Hd ED) as (HM & _ & Hk & HA).
    exists M, k. pose proof (Z.pow_nonneg 10 (Z.of_nat p) ltac:(lia)). set (d := if s then _ else _ : R). split; [lia|]. split; [lia|].
    assert (F2R (Float radix2 (cond_Zopp s (Z.pos m)) e) = (if s then - (IZR num / IZR den) else IZR num / IZR den))%R as EV.
    { rewrite cond_Zopp_F2R, HF. done. }
    pose proof (Rdiv_lt_0_compat (IZR num) (IZR den) ltac:(by apply IZR_lt) ltac:(by apply IZR_lt)) as Hpos.
    rewrite EV. split; [intros E0; exfalso; destruct s; lra|]. split; [done|].
    pose proof (dexp_spec num den Hn Hd) as HX. set (v := (IZR num / IZR den)%R) in *. set (E := dexp num den) in *.
    assert (closest (S p) v (IZR M * bpow ten (k - Z.of_nat p))) as HC.
    { destruct Hk as [->|[-> ->]]; [apply closest_core; [done|lia|done]|].
      replace (IZR (10 ^ Z.of_nat p) * bpow ten (E + 1 - Z.of_nat p))%R with (IZR (10 ^ (Z.of_nat p + 1)) * bpow ten (E - Z.of_nat p))%R in *.
      - apply closest_core; [done|split; [apply Z.pow_nonneg|]; lia|done].
      - rewrite !IZR_pow10, <- !bpow_plus by lia. f_equal. lia. }
    assert (Rabs (IZR M * bpow ten (k - Z.of_nat p) - v) <= / 2 * bpow ten (- Z.of_nat p) * v)%R as HR.
    { eapply Rle_trans; [exact HA|]. rewrite Rmult_assoc. apply Rmult_le_compat_l; [lra|].
      replace (E - Z.of_nat p) with (- Z.of_nat p + E) by lia. rewrite bpow_plus. apply Rmult_le_compat_l; [apply bpow_ge_0|lra]. }
    split; [unfold d; destruct s; [by apply closest_opp|done]|].
    split; [|split; [done|unfold d; apply dec_to_f64_nearest; lia]].
    unfold d. destruct s.
    + replace (- (IZR M * bpow ten (k - Z.of_nat p)) - - v)%R with (- (IZR M * bpow ten (k - Z.of_nat p) - v))%R by ring.
      rewrite !Rabs_Ropp. rewrite (Rabs_pos_eq v) by lra. done.
    + rewrite (Rabs_pos_eq v) by lra. done.
Qed.

(** Numbers with few digits are read back exactly. *)
Lemma nearest64_self x y : is_finite 53 1024 x = true → nearest64 (Bsign 53 1024 x) (B2R 53 1024 x) y → y = x.
Proof.
  intros Hx [H _]. assert (rnd64 (B2R 53 1024 x) = B2R 53 1024 x) as E.
  { unfold rnd64. apply round_generic; [apply valid_rnd_N|]. apply generic_format_B2R. }
  rewrite E in H. destruct H as (H1 & H2 & H3); [apply abs_B2R_lt_emax|]. by apply B2R_Bsign_inj.
Qed.
Lemma txt_exact p x : is_finite 53 1024 x = true → decimal_number (S p) (B2R 53 1024 x) → txt_value p x = x.
Proof.
  intros Hx Hd. destruct (written p x Hx) as (M & k & _ & _ & _ & _ & HC & _ & _ & HN).
  apply (closest_self _ _ _ Hd) in HC. rewrite HC in HN. by apply nearest64_self.
Qed.

(** A number other than zero is not read back as zero. *)
Lemma rnd64_nonzero d : (bpow radix2 (-1075) < Rabs d)%R → rnd64 d ≠ 0%R.
Proof.
  intros Hd E. assert (Valid_exp (SpecFloat.fexp 53 1024)) as HV by (apply (fexp_correct 53 1024); reflexivity).
  pose proof (error_le_half_ulp radix2 (SpecFloat.fexp 53 1024) (λ x, negb (Z.even x)) d) as H. fold (rnd64 d) in H.
  change (round radix2 (SpecFloat.fexp 53 1024) ZnearestE d) with (rnd64 d) in H. rewrite E in H.
  replace (0 - d)%R with (- d)%R in H by ring. rewrite Rabs_Ropp in H.
  change (SpecFloat.fexp 53 1024) with (FLT_exp (-1074) 53) in H.
  destruct (Rlt_or_le (Rabs d) (bpow radix2 (-1074 + 53))) as [L|L].
  - rewrite (ulp_FLT_small radix2 (-1074) 53) in H by done. change (-1075) with (-1 + -1074) in Hd. rewrite bpow_plus in Hd. change (bpow radix2 (-1)) with (/ 2)%R in Hd. lra.
  - assert (Prec_gt_0 53) as HP by done.
    pose proof (ulp_FLT_le radix2 (-1074) 53 d) as HU. assert (ulp radix2 (FLT_exp (-1074) 53) d <= Rabs d * bpow radix2 (1 - 53))%R as HU'.
    { apply HU. eapply Rle_trans; [|exact L]. apply bpow_le. lia. }
    assert (bpow radix2 (1 - 53) <= 1)%R as H1 by (apply (bpow_le radix2 (1 - 53) 0); lia).
    pose proof (bpow_gt_0 radix2 (-1075)). assert (Rabs d * bpow radix2 (1 - 53) <= Rabs d * 1)%R by (apply Rmult_le_compat_l; lra). lra.
Qed.
Lemma min_subnormal x : is_finite 53 1024 x = true → B2R 53 1024 x ≠ 0%R → (bpow radix2 (-1074) <= Rabs (B2R 53 1024 x))%R.
Proof.
  destruct x as [s|s|s pl H|s m e H]; try done. intros _ _. cbn [B2R]. rewrite <- F2R_Zabs, abs_cond_Zopp. cbn [Z.abs].
  apply andb_true_iff in H as [H _]. apply Zeq_bool_eq in H. unfold FLT_exp, SpecFloat.fexp, SpecFloat.emin in H.
  assert (-1074 <= e) as He by lia. apply Rle_trans with (bpow radix2 e); [by apply bpow_le|].
  unfold F2R. cbn [Fnum Fexp]. rewrite <- (Rmult_1_l (bpow radix2 e)) at 1. apply Rmult_le_compat_r; [apply bpow_ge_0|]. apply IZR_le. lia.
Qed.
Lemma eqb_zero_false y : B2R 53 1024 y ≠ 0%R ∨ (∃ s, y = B754_infinity 53 1024 s) → f64_eqb y (B754_zero 53 1024 false) = false.
Proof. intros [H|[s ->]]; [|by destruct s]. destruct y as [s|s|s pl H'|s m e H']; try done; by destruct s. Qed.
Lemma txt_zero p x : (1 ≤ p)%nat → f64_eqb (txt_value p x) (B754_zero 53 1024 false) = f64_eqb x (B754_zero 53 1024 false).
Proof.
  intros Hp. destruct (is_finite 53 1024 x) eqn:Hf; [|by destruct x].
  destruct (Req_dec (B2R 53 1024 x) 0) as [E|Ne].
  { destruct x as [s|s|s pl H|s m e H]; try done. cbn [B2R] in E. exfalso.
    apply eq_0_F2R in E. by destruct s. }
  rewrite (eqb_zero_false x) by (by left). apply eqb_zero_false.
  destruct (written p x Hf) as (M & k & _ & _ & _ & _ & _ & HR & _ & [HN1 HN2]). set (d := if Bsign 53 1024 x then _ else _ : R) in *.
  assert (bpow ten (- Z.of_nat p) <= / 10)%R as HT by (change (/ 10)%R with (bpow ten (-1)); apply bpow_le; lia).
  pose proof (min_subnormal x Hf Ne) as HM. set (v := B2R 53 1024 x) in *.
  pose proof (bpow_gt_0 radix2 (-1074)) as HG.
  assert (Rabs (d - v) <= / 20 * Rabs v)%R as HR'.
  { eapply Rle_trans; [exact HR|]. apply Rmult_le_compat_r; lra. }
  assert (bpow radix2 (-1075) < Rabs d)%R as HD.
  { change (-1075) with (-1 + -1074). rewrite bpow_plus. change (bpow radix2 (-1)) with (/ 2)%R.
    pose proof (Rabs_triang_inv v d) as T. rewrite (Rabs_minus_sym v d) in T. lra. }
  destruct (Rlt_or_le (Rabs (rnd64 d)) (bpow radix2 1024)) as [L|L].
  - left. destruct (HN1 L) as (_ & -> & _). by apply rnd64_nonzero.
  - right. eexists. by apply HN2.
Qed.

(** Writing again a number that was read back gives the same text. *)
Lemma same_decimal p M k M' k' : (p ≤ 14)%nat → 10 ^ Z.of_nat p <= M < 10 ^ (Z.of_nat p + 1) → 10 ^ Z.of_nat p <= M' < 10 ^ (Z.of_nat p + 1) →
  (Rabs (IZR M' * bpow ten (k' - Z.of_nat p) - IZR M * bpow ten (k - Z.of_nat p)) <= bpow radix2 (-52) * (IZR M * bpow ten (k - Z.of_nat p)))%R →
  M' = M ∧ k' = k.
Proof.
  intros Hp [A1 A2] [B1 B2] H. set (P := Z.of_nat p) in *. set (q := bpow ten (k - P)) in *.
  assert (0 < q)%R as Hq by apply bpow_gt_0.
  assert (bpow ten P * bpow radix2 (-52) <= / 40)%R as HT.
  { apply Rle_trans with (bpow ten 14 * bpow radix2 (-52))%R; [apply Rmult_le_compat_r; [apply bpow_ge_0|]; apply bpow_le; lia|].
    rewrite <- (IZR_pow10 14) by lia. change (-52) with (- (52)). rewrite bpow_opp. change (bpow radix2 52) with (IZR (2 ^ 52)).
    apply (Rmult_le_reg_r (IZR (2 ^ 52) * 40)); [apply Rmult_lt_0_compat; [apply IZR_lt; lia|lra]|].
    replace (IZR (10 ^ 14) * / IZR (2 ^ 52) * (IZR (2 ^ 52) * 40))%R with (IZR (10 ^ 14) * 40)%R.
    2:{ field. apply not_0_IZR. lia. }
    replace (/ 40 * (IZR (2 ^ 52) * 40))%R with (IZR (2 ^ 52)) by field. rewrite <- mult_IZR. apply IZR_le. vm_compute. discriminate. }
  pose proof (bpow_gt_0 radix2 (-52)) as HG. set (u := bpow radix2 (-52)) in *.
  assert (bpow ten P = IZR (10 ^ P)) as EP by (by rewrite IZR_pow10 by lia).
  assert (0 < 10 ^ P) as HPP by (apply Z.pow_pos_nonneg; lia).
  assert (IZR (10 ^ (P + 1)) = 10 * IZR (10 ^ P))%R as EP1 by (rewrite Z.pow_add_r, mult_IZR by lia; change (10 ^ 1) with 10; ring).
  assert (0 <= M ∧ 0 <= M') as [A0 B0] by lia. apply IZR_le in A1, B1, A0, B0. assert (IZR M + 1 <= IZR (10 ^ (P + 1)))%R as A3 by (rewrite <- plus_IZR; apply IZR_le; lia).
  assert (IZR M' + 1 <= IZR (10 ^ (P + 1)))%R as B3 by (rewrite <- plus_IZR; apply IZR_le; lia).
  rewrite EP1 in A3, B3. rewrite EP in HT. set (T := IZR (10 ^ P)) in *.
  apply Rabs_le_inv in H. destruct H as [H1 H2].
  assert (u * (IZR M * q) <= / 4 * q)%R as HU.
  { rewrite <- Rmult_assoc. apply Rmult_le_compat_r; [lra|]. apply Rle_trans with (u * (10 * T))%R; [apply Rmult_le_compat_l; lra|lra]. }
  destruct (Z.lt_total k' k) as [L|[L|L]].
  - exfalso. assert (bpow ten (k' - P) <= / 10 * q)%R as Hq'.
    { unfold q. change (/ 10)%R with (bpow ten (-1)). rewrite <- bpow_plus. apply bpow_le. lia. }
    pose proof (bpow_gt_0 ten (k' - P)) as G'.
    assert (IZR M' * bpow ten (k' - P) <= (10 * T - 1) * (/ 10 * q))%R as HM'.
    { apply Rmult_le_compat; lra. }
    assert (T * q <= IZR M * q)%R as HM by (apply Rmult_le_compat_r; lra).
    assert (u * (IZR M * q) <= u * (T * q) + (IZR M * q - T * q) )%R as HX.
    { assert (u <= 1)%R by (apply (bpow_le radix2 (-52) 0); lia).
      assert (u * (IZR M * q - T * q) <= 1 * (IZR M * q - T * q))%R by (apply Rmult_le_compat_r; lra). lra. }
    assert (u * (T * q) <= / 40 * q)%R by (rewrite <- Rmult_assoc; apply Rmult_le_compat_r; lra). lra.
  - subst k'. split; [|done]. fold q in H1, H2.
    assert (IZR M' - IZR M < 1)%R as C1 by (apply (Rmult_lt_reg_r q); [done|lra]).
    assert (-1 < IZR M' - IZR M)%R as C2 by (apply (Rmult_lt_reg_r q); [done|lra]).
    rewrite <- minus_IZR in C1, C2. apply lt_IZR in C1, C2. lia.
  - exfalso. assert (10 * q <= bpow ten (k' - P))%R as Hq'.
    { unfold q. change 10%R with (bpow ten 1). rewrite <- bpow_plus. apply bpow_le. lia. }
    assert (T * (10 * q) <= IZR M' * bpow ten (k' - P))%R as HM'.
    { apply Rmult_le_compat; [apply IZR_le; apply Z.pow_nonneg; lia|lra|lra|done]. }
    assert (IZR M * q <= (10 * T - 1) * q)%R by (apply Rmult_le_compat_r; lra). lra.
Qed.
Lemma rnd64_close d : (bpow radix2 (-1022) <= Rabs d)%R → (Rabs (rnd64 d - d) <= bpow radix2 (-53) * Rabs d)%R.
Proof.
  intros Hd. assert (Valid_exp (SpecFloat.fexp 53 1024)) as HV by (apply (fexp_correct 53 1024); reflexivity).
  pose proof (error_le_half_ulp radix2 (SpecFloat.fexp 53 1024) (λ x, negb (Z.even x)) d) as H.
  change (round radix2 (SpecFloat.fexp 53 1024) ZnearestE d) with (rnd64 d) in H.
  change (SpecFloat.fexp 53 1024) with (FLT_exp (-1074) 53) in H. assert (Prec_gt_0 53) as HP by done.
  assert (ulp radix2 (FLT_exp (-1074) 53) d <= Rabs d * bpow radix2 (1 - 53))%R as HU by (by apply ulp_FLT_le).
  change (1 - 53) with (1 + -53) in HU. rewrite bpow_plus in HU. change (bpow radix2 1) with 2%R in HU. lra.
Qed.
Lemma ten_307 : (bpow radix2 (-1022) <= / 2 * bpow ten (-307))%R.
Proof.
  change (-1022) with (- (1 + 1021)). change (-307) with (- (307)). rewrite !bpow_opp, bpow_plus. change (bpow radix2 1) with 2%R.
  rewrite Rinv_mult. apply Rmult_le_compat_l; [lra|].
  apply Rinv_le_contravar; [apply bpow_gt_0|]. rewrite <- (IZR_pow10 307) by lia. rewrite <- (IZR_Zpower radix2 1021) by lia.
  apply IZR_le. vm_compute. discriminate.
Qed.
Theorem txt_stable p x : (p ≤ 14)%nat → is_finite 53 1024 x = true → is_finite 53 1024 (txt_value p x) = true →
  B2R 53 1024 x = 0%R ∨ (bpow ten (-307) <= Rabs (B2R 53 1024 x))%R →
  (∀ up, fmt_e up p (txt_value p x) = fmt_e up p x) ∧ txt_value p (txt_value p x) = txt_value p x.
Proof.
  intros Hp Hx Hy [H0|H0].
  { destruct x as [s|s|s pl H|s m e H]; try done. cbn [B2R] in H0. exfalso. apply eq_0_F2R in H0. by destruct s. }
  assert (B2R 53 1024 x ≠ 0)%R as Nx. { intros E. rewrite E, Rabs_R0 in H0. pose proof (bpow_gt_0 ten (-307)). lra. }
  destruct (written p x Hx) as (M & k & M1 & M2 & _ & MT & MC & MR & MV & [HN1 HN2]). specialize (M2 Nx).
  set (d := if Bsign 53 1024 x then _ else _ : R) in *.
  set (y := txt_value p x) in *. set (v := B2R 53 1024 x) in *.
  assert (Rabs (rnd64 d) < bpow radix2 1024)%R as HL.
  { destruct (Rlt_or_le (Rabs (rnd64 d)) (bpow radix2 1024)) as [L|L]; [done|]. by rewrite (HN2 L) in Hy. }
  destruct (HN1 HL) as (_ & Ey & Sy).
  set (D := (IZR M * bpow ten (k - Z.of_nat p))%R) in *.
  assert (0 < D)%R as HD. { apply Rmult_lt_0_compat; [apply IZR_lt; pose proof (Z.pow_pos_nonneg 10 (Z.of_nat p)); lia|apply bpow_gt_0]. }
  assert (Rabs d = D) as Ed. { unfold d. destruct (Bsign 53 1024 x); [rewrite Rabs_Ropp|]; apply Rabs_pos_eq; lra. }
  assert (/ 2 * bpow ten (-307) <= D)%R as HD2.
  { rewrite <- Ed. assert (Rabs (d - v) <= / 2 * Rabs v)%R as HR'.
    { eapply Rle_trans; [exact MR|]. apply Rmult_le_compat_r; [apply Rabs_pos|].
      assert (bpow ten (- Z.of_nat p) <= 1)%R by (apply (bpow_le ten _ 0); lia). lra. }
    pose proof (Rabs_triang_inv v d) as T. rewrite (Rabs_minus_sym v d) in T. lra. }
  pose proof ten_307 as HT. assert (Rabs (rnd64 d - d) <= bpow radix2 (-53) * D)%R as HC by (rewrite <- Ed; apply rnd64_close; lra).
  assert (bpow radix2 (-53) <= / 4)%R as H53 by (apply (bpow_le radix2 (-53) (-2)); lia).
  assert (bpow radix2 (-53) * D <= / 4 * D)%R as HC4 by (apply Rmult_le_compat_r; lra).
  assert (B2R 53 1024 y ≠ 0)%R as Ny.
  { rewrite Ey. intros E. rewrite E in HC. replace (0 - d)%R with (- d)%R in HC by ring. rewrite Rabs_Ropp, Ed in HC. lra. }
  destruct (written p y Hy) as (M' & k' & M1' & M2' & _ & MT' & [_ MC'] & _ & MV' & _). specialize (M2' Ny). rewrite Sy in *.
  set (d' := (if Bsign 53 1024 x then - (IZR M' * bpow ten (k' - Z.of_nat p)) else IZR M' * bpow ten (k' - Z.of_nat p))%R) in *.
  assert (Rabs (d' - d) <= bpow radix2 (-52) * D)%R as HDD.
  { specialize (MC' d (proj1 MC)). rewrite Ey in MC'. rewrite (Rabs_minus_sym d) in MC'.
    pose proof (Rabs_triang (d' - rnd64 d) (rnd64 d - d)) as T. replace (d' - rnd64 d + (rnd64 d - d))%R with (d' - d)%R in T by ring.
    change (-52) with (1 + -53). rewrite bpow_plus. change (bpow radix2 1) with 2%R. lra. }
  assert (M' = M ∧ k' = k) as [-> ->].
  { apply (same_decimal p M k M' k'); [done|lia|lia|]. fold D. unfold d', d in HDD. destruct (Bsign 53 1024 x); [|exact HDD].
    replace (- (IZR M' * bpow ten (k' - Z.of_nat p)) - - D)%R with (- (IZR M' * bpow ten (k' - Z.of_nat p) - D))%R in HDD by ring.
    by rewrite Rabs_Ropp in HDD. }
  split; [intros up; rewrite MT, MT'; done|]. rewrite MV', MV. done.
Qed.
