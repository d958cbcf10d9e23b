(** Facts about text: reading inverts formatting, accuracy of decimal numerals. *)
From Coq Require Import Lia Reals Lra Ascii.
From Flocq Require Import Core.Core IEEE754.BinarySingleNaN IEEE754.Binary IEEE754.Bits.
From Flocq Require Import Round_odd.
From Verif Require Import Base Float Bytes BytesProofs Text.
Open Scope Z_scope.

Definition no_space (l : bytes) : Prop := Forall (λ c, is_space c = false) l.

Lemma digit_val_digit d : 0 <= d <= 9 → digit_val (digit d) = Some d.
Proof.
  intros H. unfold digit_val, digit. rewrite byte_val_of by lia.
  replace (48 + d - 48) with d by lia. rewrite (proj2 (Z.leb_le 0 d)), (proj2 (Z.leb_le d 9)) by lia. done.
Qed.
Lemma is_digit_digit d : 0 <= d <= 9 → is_digit (digit d) = true.
Proof. intros H. unfold is_digit. by rewrite digit_val_digit. Qed.
Lemma digit_no_space d : 0 <= d <= 9 → is_space (digit d) = false.
Proof. intros H. unfold is_space, digit. rewrite byte_val_of by lia. lia. Qed.
Lemma mod10 z : 0 <= z mod 10 <= 9.
Proof. pose proof (Z.mod_pos_bound z 10). lia. Qed.

Lemma digits_n_length n z : length (digits_n n z) = n.
Proof. revert z. induction n as [|n IH]; intros z; cbn; [done|]. rewrite app_length, IH. cbn. lia. Qed.
Lemma digits_n_digits n z : Forall (λ c, is_digit c = true) (digits_n n z).
Proof.
  revert z. induction n as [|n IH]; intros z; cbn; [done|]. apply Forall_app. split; [done|].
  apply Forall_singleton. apply is_digit_digit, mod10.
Qed.
Lemma digits_n_no_space n z : no_space (digits_n n z).
Proof.
  revert z. induction n as [|n IH]; intros z; cbn; [apply Forall_nil_2|]. apply Forall_app. split; [apply IH|].
  apply Forall_singleton. apply digit_no_space, mod10.
Qed.
Lemma read_digits_app a l1 l2 : read_digits a (l1 ++ l2) = b ← read_digits a l1; read_digits b l2.
Proof.
  revert a. induction l1 as [|c l1 IH]; intros a; cbn; [done|]. destruct (digit_val c); [|done]. apply IH.
Qed.
Lemma read_digits_n a n z : 0 <= z → read_digits a (digits_n n z) = Some (a * 10 ^ Z.of_nat n + z mod 10 ^ Z.of_nat n).
Proof.
  revert a z. induction n as [|n IH]; intros a z Hz.
  - cbn [digits_n read_digits]. change (10 ^ Z.of_nat 0) with 1. rewrite Z.mod_1_r. f_equal. lia.
  - cbn [digits_n]. rewrite read_digits_app, IH by (apply Z.div_pos; lia). cbn [mbind option_bind read_digits].
    rewrite digit_val_digit by apply mod10. cbn [read_digits]. f_equal.
    rewrite Nat2Z.inj_succ, Z.pow_succ_r by lia. rewrite Z.rem_mul_r by lia. lia.
Qed.

Lemma ndigits_aux_spec fuel z : 0 <= z < 10 ^ Z.of_nat fuel →
  z < 10 ^ Z.of_nat (ndigits_aux fuel z) ∧ (ndigits_aux fuel z = 1%nat ∨ 10 ^ (Z.of_nat (ndigits_aux fuel z) - 1) <= z) ∧ (1 ≤ ndigits_aux fuel z)%nat.
Proof.
  revert z. induction fuel as [|k IH]; intros z Hz.
  - change (10 ^ Z.of_nat 0) with 1 in Hz. cbn [ndigits_aux]. change (10 ^ Z.of_nat 1) with 10. split; [lia|]. split; [by left|lia].
  - cbn [ndigits_aux]. destruct (Z.ltb_spec z 10).
    { change (10 ^ Z.of_nat 1) with 10. split; [lia|]. split; [by left|lia]. }
    rewrite Nat2Z.inj_succ, Z.pow_succ_r in Hz by lia.
    destruct (IH (z / 10)) as (H1 & H2 & H3).
    { split; [apply Z.div_pos; lia|apply Z.div_lt_upper_bound; lia]. }
    set (n := ndigits_aux k (z / 10)) in *. rewrite Nat2Z.inj_succ, Z.pow_succ_r by lia.
    pose proof (Z.div_mod z 10 ltac:(lia)) as Hd. pose proof (Z.mod_pos_bound z 10 ltac:(lia)) as Hm.
    split; [lia|]. split; [right|lia]. replace (Z.succ (Z.of_nat n) - 1) with (Z.of_nat n) by lia.
    destruct H2 as [->|H2]; [change (10 ^ Z.of_nat 1) with 10; lia|].
    replace (Z.of_nat n) with (Z.succ (Z.of_nat n - 1)) by lia. rewrite Z.pow_succ_r by lia. lia.
Qed.
Lemma ndigits_spec z : 0 <= z →
  z < 10 ^ Z.of_nat (ndigits z) ∧ (ndigits z = 1%nat ∨ 10 ^ (Z.of_nat (ndigits z) - 1) <= z) ∧ (1 ≤ ndigits z)%nat.
Proof.
  intros Hz. apply ndigits_aux_spec. split; [done|].
  destruct (Z.eq_dec z 0) as [->|Hnz]; [cbn; lia|].
  pose proof (Z.log2_spec z ltac:(lia)) as [_ H]. pose proof (Z.log2_nonneg z).
  rewrite Nat2Z.inj_succ, Z2Nat.id by lia. eapply Z.lt_le_trans; [exact H|].
  apply Z.pow_le_mono_l. lia.
Qed.
Lemma ndigits_le n z : 0 <= z < 10 ^ Z.of_nat n → (1 ≤ n)%nat → (ndigits z ≤ n)%nat.
Proof.
  intros Hz Hn. destruct (ndigits_spec z) as (_ & H2 & H3); [lia|]. destruct H2 as [->|H2]; [lia|].
  assert (10 ^ (Z.of_nat (ndigits z) - 1) < 10 ^ Z.of_nat n) as H by lia. apply Z.pow_lt_mono_r_iff in H; lia.
Qed.
Lemma dec_nat_spec z : 0 <= z → read_digits 0 (dec_nat z) = Some z ∧ dec_nat z ≠ [] ∧ no_space (dec_nat z) ∧ length (dec_nat z) = ndigits z.
Proof.
  intros Hz. destruct (ndigits_spec z Hz) as (H1 & _ & H3). unfold dec_nat. split.
  - rewrite read_digits_n by done. rewrite Z.mod_small by lia. done.
  - split; [|split; [apply digits_n_no_space|apply digits_n_length]].
    intros E. apply (f_equal length) in E. rewrite digits_n_length in E. cbn [length] in E. lia.
Qed.
Lemma dec_pad0_spec w z : 0 <= z → read_digits 0 (dec_pad0 w z) = Some z ∧ dec_pad0 w z ≠ [] ∧ no_space (dec_pad0 w z) ∧ length (dec_pad0 w z) = Nat.max w (ndigits z).
Proof.
  intros Hz. destruct (ndigits_spec z Hz) as (H1 & _ & H3). unfold dec_pad0. split.
  - rewrite read_digits_n by done. rewrite Z.mod_small; [done|]. split; [done|].
    eapply Z.lt_le_trans; [exact H1|]. apply Z.pow_le_mono_r; lia.
  - split; [|split; [apply digits_n_no_space|apply digits_n_length]].
    intros E. apply (f_equal length) in E. rewrite digits_n_length in E. cbn [length] in E. lia.
Qed.
Lemma digit_not_sign c : is_digit c = true → Ascii.eqb c "-"%char = false ∧ Ascii.eqb c "+"%char = false.
Proof.
  unfold is_digit, digit_val. intros H. split; apply Ascii.eqb_neq; intros ->; done.
Qed.
Lemma digits_all_digit z n c l : digits_n n z = c :: l → is_digit c = true.
Proof. intros H. pose proof (digits_n_digits n z) as F. rewrite H in F. by apply Forall_cons in F as [? _]. Qed.

(** Whitespace. *)
Lemma lstrip_no_space l : no_space l → lstrip l = l.
Proof. destruct l as [|c l]; intros H; [done|]. apply Forall_cons in H as [H _]. cbn. by rewrite H. Qed.
Lemma lstrip_spaces n l : lstrip (replicate n sp ++ l) = lstrip l.
Proof. induction n as [|n IH]; cbn; [done|]. exact IH. Qed.
Lemma strip_padded n k l : no_space l → l ≠ [] → strip (replicate n sp ++ l ++ replicate k sp) = l.
Proof.
  intros H Hl. unfold strip. rewrite lstrip_spaces.
  destruct l as [|c l]; [done|]. pose proof H as H'. apply Forall_cons in H' as [Hc _].
  cbn [app lstrip]. rewrite Hc. change (c :: l ++ replicate k sp) with ((c :: l) ++ replicate k sp).
  rewrite rev_app_distr. assert (rev (replicate k sp) = replicate k sp) as ->.
  { change (@rev Ascii.ascii) with (@rev Ascii.ascii). rewrite rev_alt. rewrite <- reverse_replicate at 1. unfold reverse.
    rewrite !rev_append_rev, !app_nil_r. by rewrite rev_involutive. }
  rewrite lstrip_spaces, lstrip_no_space; [by rewrite rev_involutive|].
  unfold no_space. by apply Forall_rev.
Qed.
Lemma strip_rjust w l : no_space l → l ≠ [] → strip (rjust w l) = l.
Proof.
  intros H Hl. pose proof (strip_padded (w - length l) 0 l H Hl) as E. cbn [replicate] in E. by rewrite app_nil_r in E.
Qed.
Lemma strip_id l : no_space l → l ≠ [] → strip l = l.
Proof. intros H Hl. pose proof (strip_padded 0 0 l H Hl) as E. cbn [replicate app] in E. by rewrite app_nil_r in E. Qed.
Lemma split_spaces n l : split (replicate n sp ++ l) = split l.
Proof. induction n as [|n IH]; cbn [replicate app split]; [done|]. exact IH. Qed.
Lemma split_word w l : no_space w → w ≠ [] → split (w ++ sp :: l) = w :: split l.
Proof.
  intros H Hw. induction w as [|c w IH]; [done|]. apply Forall_cons in H as [Hc H].
  destruct w as [|c' w].
  - cbn [app split]. rewrite Hc. done.
  - cbn [app]. cbn [split]. rewrite Hc. pose proof H as H'. apply Forall_cons in H' as [Hc' _]. rewrite Hc'.
    change (c' :: w ++ sp :: l) with ((c' :: w) ++ sp :: l) in *.
    specialize (IH H ltac:(done)). cbn [app split] in IH. rewrite Hc' in IH. rewrite IH. done.
Qed.
Lemma split_rjust n w l : no_space w → w ≠ [] → split (rjust n w ++ sp :: l) = w :: split l.
Proof. intros H Hw. unfold rjust. rewrite <- app_assoc, split_spaces. by apply split_word. Qed.
Lemma split_last w k : no_space w → w ≠ [] → split (w ++ replicate k sp) = [w].
Proof.
  intros H Hw. destruct k as [|k].
  - cbn [replicate]. rewrite app_nil_r. induction w as [|c w IH]; [done|]. apply Forall_cons in H as [Hc H].
    cbn [split]. rewrite Hc. destruct w as [|c' w]; [done|]. pose proof H as H'. apply Forall_cons in H' as [Hc' _].
    rewrite Hc'. rewrite IH by done. done.
  - cbn [replicate]. rewrite split_word by done. pose proof (split_spaces k []) as E. rewrite app_nil_r in E. rewrite E. done.
Qed.

(** Integers. *)
Lemma dec_int_spec z : no_space (dec_int z) ∧ dec_int z ≠ [] ∧
  read_sign (dec_int z) = (z <? 0, dec_nat (Z.abs z)).
Proof.
  unfold dec_int. destruct (Z.ltb_spec z 0).
  - destruct (dec_nat_spec (- z)) as (_ & _ & H2 & _); [lia|]. split; [|split; [done|]].
    + apply Forall_cons. split; [done|exact H2].
    + cbn [read_sign]. rewrite (Ascii.eqb_refl "-"%char). by replace (Z.abs z) with (- z) by lia.
  - destruct (dec_nat_spec z) as (_ & H1 & H2 & _); [lia|]. split; [done|]. split; [done|].
    replace (Z.abs z) with z by lia. unfold dec_nat in *. destruct (digits_n (ndigits z) z) as [|c l] eqn:E; [done|].
    cbn [read_sign]. destruct (digit_not_sign c) as [-> ->]; [by eapply digits_all_digit|]. done.
Qed.
Lemma py_int_token z : py_int (dec_int z) = Ok z.
Proof.
  destruct (dec_int_spec z) as (H1 & H2 & H3). unfold py_int.
  rewrite strip_id, H3 by done.
  destruct (dec_nat_spec (Z.abs z)) as (R & N & _); [lia|]. destruct (dec_nat (Z.abs z)); [done|]. rewrite R.
  f_equal. destruct (Z.ltb_spec z 0); lia.
Qed.
Lemma py_int_rjust w z : py_int (rjust w (dec_int z)) = Ok z.
Proof.
  destruct (dec_int_spec z) as (H1 & H2 & H3). unfold py_int. rewrite strip_rjust by done. rewrite H3.
  destruct (dec_nat_spec (Z.abs z)) as (R & N & _); [lia|]. destruct (dec_nat (Z.abs z)); [done|]. rewrite R.
  f_equal. destruct (Z.ltb_spec z 0); lia.
Qed.
Lemma rjust_length w l : length (rjust w l) = Nat.max w (length l).
Proof. unfold rjust. rewrite app_length, replicate_length. lia. Qed.
Lemma ljust_length w l : length (ljust w l) = Nat.max w (length l).
Proof. unfold ljust. rewrite app_length, replicate_length. lia. Qed.

(** Powers of ten. *)
Definition ten : radix := Build_radix 10 eq_refl.
Lemma IZR_pow10 k : 0 <= k → IZR (10 ^ k) = bpow ten k.
Proof. intros H. by rewrite <- (IZR_Zpower ten k H). Qed.
Lemma pow10_pos k : 0 < pow10 k.
Proof. unfold pow10. apply Z.pow_pos_nonneg; lia. Qed.
Lemma pow10_bpow k : IZR (pow10 k) = (IZR (pow10 (- k)) * bpow ten k)%R.
Proof.
  unfold pow10. rewrite !IZR_pow10 by lia. rewrite <- bpow_plus. f_equal. lia.
Qed.
Lemma dexp_spec num den : 0 < num → 0 < den →
  (bpow ten (dexp num den) <= IZR num / IZR den < bpow ten (dexp num den + 1))%R.
Proof.
  intros Hn Hd. unfold dexp. destruct (ndigits_spec num) as (A1 & A2 & A3); [lia|]. destruct (ndigits_spec den) as (B1 & B2 & B3); [lia|].
  set (a := ndigits num) in *. set (b := ndigits den) in *. set (k := Z.of_nat a - Z.of_nat b).
  assert (0 < IZR den)%R as Hd' by (by apply IZR_lt). assert (0 < IZR num)%R as Hn' by (by apply IZR_lt).
  assert (bpow ten (Z.of_nat a - 1) <= IZR num < bpow ten (Z.of_nat a))%R as [N1 N2].
  { rewrite <- !IZR_pow10 by lia. split; [|by apply IZR_lt]. apply IZR_le. destruct A2 as [->|A2]; [cbn; lia|done]. }
  assert (bpow ten (Z.of_nat b - 1) <= IZR den < bpow ten (Z.of_nat b))%R as [D1 D2].
  { rewrite <- !IZR_pow10 by lia. split; [|by apply IZR_lt]. apply IZR_le. destruct B2 as [->|B2]; [cbn; lia|done]. }
  assert (IZR num / IZR den < bpow ten (k + 1))%R as HU.
  { apply Rmult_lt_reg_r with (IZR den); [done|]. unfold Rdiv. rewrite Rmult_assoc, Rinv_l, Rmult_1_r by lra.
    apply Rlt_le_trans with (bpow ten (Z.of_nat a)); [done|].
    replace (Z.of_nat a) with ((k + 1) + (Z.of_nat b - 1)) by (unfold k; lia). rewrite bpow_plus.
    apply Rmult_le_compat_l; [apply bpow_ge_0|done]. }
  assert (bpow ten (k - 1) <= IZR num / IZR den)%R as HL.
  { apply Rmult_le_reg_r with (IZR den); [done|]. unfold Rdiv. rewrite (Rmult_assoc (IZR num)), Rinv_l, Rmult_1_r by lra.
    apply Rle_trans with (bpow ten (Z.of_nat a - 1)); [|done].
    replace (Z.of_nat a - 1) with ((k - 1) + Z.of_nat b) by (unfold k; lia). rewrite bpow_plus.
    apply Rmult_le_compat_l; [apply bpow_ge_0|lra]. }
  pose proof (pow10_pos (- k)) as Hp. apply IZR_lt in Hp.
  assert (den * pow10 k <= num * pow10 (- k) ↔ (bpow ten k <= IZR num / IZR den)%R) as Hiff.
  { split; intros H.
    - apply IZR_le in H. rewrite !mult_IZR, (pow10_bpow k) in H.
      apply Rmult_le_reg_r with (IZR den); [done|]. unfold Rdiv. rewrite (Rmult_assoc (IZR num)), Rinv_l, Rmult_1_r by lra.
      apply Rmult_le_reg_r with (IZR (pow10 (- k))); [done|]. lra.
    - apply le_IZR. rewrite !mult_IZR, (pow10_bpow k).
      apply (Rmult_le_compat_r (IZR den)) in H; [|lra]. unfold Rdiv in H. rewrite (Rmult_assoc (IZR num)), Rinv_l, Rmult_1_r in H by lra.
      apply (Rmult_le_compat_r (IZR (pow10 (- k)))) in H; [|lra]. lra. }
  destruct (Z.leb_spec (den * pow10 k) (num * pow10 (- k))) as [H|H].
  - apply Hiff in H. split; done.
  - replace (k - 1 + 1) with k by lia. split; [done|]. apply Rnot_le_lt. intros H'. apply Hiff in H'. lia.
Qed.
Lemma div_even_spec n d : 0 < d → (Rabs (IZR (div_even n d) - IZR n / IZR d) <= / 2)%R.
Proof.
  intros Hd. unfold div_even. pose proof (Z.div_mod n d ltac:(lia)) as E. pose proof (Z.mod_pos_bound n d Hd) as B.
  set (q := n / d) in *. set (r := n mod d) in *.
  assert (0 < IZR d)%R as Hd' by (by apply IZR_lt).
  assert (IZR n / IZR d = IZR q + IZR r / IZR d)%R as ->.
  { rewrite E, plus_IZR, mult_IZR. field. lra. }
  assert (∀ t, IZR r = t * IZR d → IZR r / IZR d = t)%R as Ht.
  { intros t ->. field. lra. }
  set (t := (IZR r / IZR d)%R) in *. assert (IZR r = t * IZR d)%R as Er by (unfold t; field; lra).
  clearbody t. destruct B as [B1 B2]. apply IZR_le in B1. apply IZR_lt in B2. rewrite Er in B1, B2.
  assert (0 <= t < 1)%R as Hb.
  { split; [apply Rmult_le_reg_r with (IZR d); [done|lra]|apply Rmult_lt_reg_r with (IZR d); [done|lra]]. }
  destruct (Z.ltb_spec (2 * r) d) as [H1|H1].
  - apply IZR_lt in H1. rewrite mult_IZR, Er in H1. assert (t < / 2)%R by (apply Rmult_lt_reg_r with (IZR d); [done|lra]). apply Rabs_le. split; lra.
  - apply IZR_le in H1. rewrite mult_IZR, Er in H1. assert (/ 2 <= t)%R by (apply Rmult_le_reg_r with (IZR d); [done|lra]).
    destruct (Z.ltb_spec d (2 * r)) as [H2|H2].
    + rewrite plus_IZR. apply Rabs_le. split; lra.
    + apply IZR_le in H2. rewrite mult_IZR, Er in H2. assert (t <= / 2)%R by (apply Rmult_le_reg_r with (IZR d); [done|lra]).
      destruct (Z.even q); [|rewrite plus_IZR]; apply Rabs_le; split; lra.
Qed.
Lemma decimal_full p num den M k : 0 < num → 0 < den → decimal p num den = (M, k) →
  10 ^ Z.of_nat p <= M < 10 ^ (Z.of_nat p + 1) ∧
  (Rabs (IZR M * bpow ten (k - Z.of_nat p) - IZR num / IZR den) <= / 2 * bpow ten (k - Z.of_nat p))%R ∧
  (k = dexp num den ∨ (k = dexp num den + 1 ∧ M = 10 ^ Z.of_nat p)) ∧
  (Rabs (IZR M * bpow ten (k - Z.of_nat p) - IZR num / IZR den) <= / 2 * bpow ten (dexp num den - Z.of_nat p))%R.
Proof.
  intros Hn Hd E. unfold decimal in E. destruct (dexp_spec num den Hn Hd) as [L U].
  set (k0 := dexp num den) in *. set (P := Z.of_nat p) in *. assert (0 <= P) as HP by lia.
  set (Q := div_even (num * pow10 (P - k0)) (den * pow10 (k0 - P))) in *.
  pose proof (pow10_pos (k0 - P)) as Hp. pose proof (pow10_pos (P - k0)) as Hp'.
  assert (0 < den * pow10 (k0 - P)) as Hdd by lia.
  pose proof (div_even_spec (num * pow10 (P - k0)) _ Hdd) as HQ. fold Q in HQ.
  assert (0 < IZR den)%R as Hd' by (by apply IZR_lt). assert (0 < IZR (pow10 (k0 - P)))%R as Hpp by (by apply IZR_lt).
  set (v := (IZR num / IZR den)%R) in *.
  assert (IZR (num * pow10 (P - k0)) / IZR (den * pow10 (k0 - P)) = v * bpow ten (P - k0))%R as Ey.
  { rewrite !mult_IZR, (pow10_bpow (P - k0)). replace (- (P - k0)) with (k0 - P) by lia. unfold v. field. lra. }
  rewrite Ey in HQ. clear Ey.
  assert (bpow ten P <= v * bpow ten (P - k0) < bpow ten (P + 1))%R as [Y1 Y2].
  { pose proof (bpow_gt_0 ten (P - k0)) as G. split.
    - replace P with (k0 + (P - k0)) at 1 by lia. rewrite bpow_plus. apply Rmult_le_compat_r; lra.
    - replace (P + 1) with ((k0 + 1) + (P - k0)) by lia. rewrite bpow_plus. apply Rmult_lt_compat_r; lra. }
  rewrite <- (IZR_pow10 P) in Y1 by lia. rewrite <- (IZR_pow10 (P + 1)) in Y2 by lia.
  apply Rabs_le_inv in HQ. destruct HQ as [Q1 Q2].
  assert (10 ^ P <= Q) as B1.
  { apply Z.lt_succ_r, lt_IZR. unfold Z.succ. rewrite plus_IZR. lra. }
  assert (Q <= 10 ^ (P + 1)) as B2.
  { apply Z.lt_succ_r, lt_IZR. unfold Z.succ. rewrite plus_IZR. lra. }
  assert (Rabs (IZR Q * bpow ten (k0 - P) - v) <= / 2 * bpow ten (k0 - P))%R as HE.
  { pose proof (bpow_gt_0 ten (k0 - P)) as G.
    assert (v = v * bpow ten (P - k0) * bpow ten (k0 - P))%R as Ev.
    { rewrite Rmult_assoc, <- bpow_plus. replace (P - k0 + (k0 - P)) with 0 by lia. cbn [bpow]. ring. }
    rewrite Ev at 1. rewrite <- Rmult_minus_distr_r, Rabs_mult, (Rabs_right (bpow _ _)) by lra.
    apply Rmult_le_compat_r; [lra|]. apply Rabs_le. lra. }
  destruct (Z.eqb_spec Q (10 ^ (P + 1))) as [EQ|NQ]; injection E as <- <-.
  - rewrite EQ in HE.
    assert (IZR (10 ^ P) * bpow ten (k0 + 1 - P) = IZR (10 ^ (P + 1)) * bpow ten (k0 - P))%R as ->.
    { rewrite !IZR_pow10 by lia. rewrite <- !bpow_plus. f_equal. lia. }
    split; [|split; [|split; [by right|done]]].
    + split; [lia|]. apply Z.pow_lt_mono_r; lia.
    + eapply Rle_trans; [exact HE|]. apply Rmult_le_compat_l; [lra|]. apply bpow_le. lia.
  - split; [lia|]. split; [done|]. split; [by left|done].
Qed.
Lemma decimal_spec p num den M k : 0 < num → 0 < den → decimal p num den = (M, k) →
  10 ^ Z.of_nat p <= M < 10 ^ (Z.of_nat p + 1) ∧
  (Rabs (IZR M * bpow ten (k - Z.of_nat p) - IZR num / IZR den) <= / 2 * bpow ten (k - Z.of_nat p))%R ∧
  (k = dexp num den ∨ (k = dexp num den + 1 ∧ M = 10 ^ Z.of_nat p)).
Proof. intros Hn Hd E. destruct (decimal_full p num den M k Hn Hd E) as (A & B & C & _). done. Qed.

(** The numerals written by [%.pE] and [{:.pe}]. *)
Lemma dec_exp_spec k : read_sign (dec_exp k) = (k <? 0, dec_pad0 2 (Z.abs k)) ∧ no_space (dec_exp k).
Proof.
  destruct (dec_pad0_spec 2 (Z.abs k)) as (_ & _ & H & _); [lia|].
  unfold dec_exp. destruct (k <? 0); (split; [done|apply Forall_cons; split; done]).
Qed.
Lemma span_digits_app l r : Forall (λ c, is_digit c = true) l → (∀ c r', r = c :: r' → is_digit c = false) →
  span_digits (l ++ r) = (l, r).
Proof.
  induction l as [|c l IH]; intros H Hr.
  - cbn [app]. destruct r as [|c r]; [done|]. cbn [span_digits]. by rewrite (Hr c r eq_refl).
  - apply Forall_cons in H as [Hc H]. cbn [app span_digits]. rewrite Hc, IH by done. done.
Qed.
Lemma sci_spec up p M k : 0 <= M < 10 ^ (Z.of_nat p + 1) →
  read_decimal (sci up p M k) = Some (M, k - Z.of_nat p) ∧ no_space (sci up p M k) ∧
  ∃ c l, sci up p M k = c :: l ∧ is_digit c = true.
Proof.
  intros HM. destruct (dec_exp_spec k) as [Hs Hsp].
  pose proof (digits_n_digits (S p) M) as Hd. pose proof (digits_n_length (S p) M) as Hl.
  pose proof (digits_n_no_space (S p) M) as Hns.
  assert (read_digits 0 (digits_n (S p) M) = Some M) as Hr.
  { rewrite read_digits_n by lia. rewrite Z.mod_small; [done|]. rewrite Nat2Z.inj_succ. unfold Z.succ. lia. }
  unfold sci. destruct (digits_n (S p) M) as [|c ds]; [done|]. cbn [length] in Hl. injection Hl as Hl.
  cbn [take drop]. rewrite take_0. change (drop 0 ds) with ds.
  apply Forall_cons in Hd as [Hc Hd]. apply Forall_cons in Hns as [Hcs Hns].
  set (E := (if up then "E"%char else "e"%char)).
  assert (lower E = "e"%char) as HE by (by destruct up).
  assert (is_digit E = false) as HE2 by (by destruct up).
  assert (is_space E = false) as HE3 by (by destruct up).
  destruct (dec_pad0_spec 2 (Z.abs k)) as (K1 & K2 & K3 & _); [lia|].
  assert (∀ fp : bytes, length fp = p →
    match c :: fp with [] => None | _ => M ← read_digits 0 (c :: fp);
      match E :: dec_exp k with [] => Some (M, - Z.of_nat (length fp))
      | c :: r => if Ascii.eqb (lower c) "e"%char then let '(s, es) := read_sign r in
         match es with [] => None | _ => k ← read_digits 0 es; Some (M, (if s : bool then - k else k) - Z.of_nat (length fp)) end
        else None end end =
    (M ← read_digits 0 (c :: fp); Some (M, k - Z.of_nat p))) as Hfin.
  { intros fp Hfp. destruct (read_digits 0 (c :: fp)) as [M'|]; [|done]. cbn [mbind option_bind].
    rewrite HE, Ascii.eqb_refl, Hs. destruct (dec_pad0 2 (Z.abs k)); [done|]. rewrite K1. cbn [mbind option_bind].
    do 2 f_equal. rewrite Hfp. destruct (Z.ltb_spec k 0); lia. }
  split; [|split].
  - unfold read_decimal. destruct p as [|p].
    + destruct ds; [|done]. cbn [app].
      change (c :: E :: dec_exp k) with ([c] ++ E :: dec_exp k).
      rewrite span_digits_app; [|by apply Forall_singleton|by intros ? ? [= <- <-]].
      assert (Ascii.eqb E "."%char = false) as -> by (by destruct up).
      cbn [app]. etransitivity; [exact (Hfin [] eq_refl)|]. rewrite Hr. done.
    + cbn [app]. change (c :: "."%char :: ds ++ E :: dec_exp k) with ([c] ++ "."%char :: ds ++ E :: dec_exp k).
      rewrite span_digits_app; [|by apply Forall_singleton|by intros ? ? [= <- <-]].
      rewrite (Ascii.eqb_refl "."%char).
      rewrite span_digits_app; [|done|by intros ? ? [= <- <-]].
      change ([c] ++ ds) with (c :: ds). etransitivity; [exact (Hfin ds Hl)|]. rewrite Hr. done.
  - cbn [app]. apply Forall_cons. split; [done|]. apply Forall_app. split.
    + destruct p; [apply Forall_nil_2|]. apply Forall_cons. split; done.
    + apply Forall_cons. split; done.
  - cbn [app]. eauto.
Qed.
Lemma sci_length up p M k : (1 ≤ p)%nat → Z.abs k < 1000 →
  length (sci up p M k) = (p + 4 + Nat.max 2 (ndigits (Z.abs k)))%nat ∧ (ndigits (Z.abs k) ≤ 3)%nat.
Proof.
  intros Hp Hk. split; [|apply ndigits_le; [split; [lia|]; change (10 ^ Z.of_nat 3) with 1000; lia|lia]].
  unfold sci. pose proof (digits_n_length (S p) M) as Hl.
  destruct (digits_n (S p) M) as [|c ds]; [done|]. cbn [length] in Hl. injection Hl as Hl.
  cbn [take drop]. rewrite take_0. change (drop 0 ds) with ds. destruct p; [lia|].
  destruct (dec_pad0_spec 2 (Z.abs k)) as (_ & _ & _ & K4); [lia|].
  cbn [app length]. rewrite app_length. cbn [length]. unfold dec_exp. cbn [length]. rewrite K4. lia.
Qed.

(** ** Floats *)
(** What [float] reads from the text [%.pE] writes. *)
Definition txt_value (p : nat) (x : f64) : f64 :=
  match x with
  | B754_nan _ _ _ _ _ => nan64 false (2 ^ 51)
  | B754_infinity _ _ s => B754_infinity 53 1024 s
  | B754_zero _ _ s => B754_zero 53 1024 s
  | B754_finite _ _ s m e _ =>
    let '(num, den) := frac_of m e in let '(M, k) := decimal p num den in dec_to_f64 s M (k - Z.of_nat p)
  end.
Lemma lower_digit c : is_digit c = true → lower c = c.
Proof.
  unfold is_digit, digit_val, lower. intros H.
  destruct ((0 <=? byte_val c - 48) && (byte_val c - 48 <=? 9)) eqn:E; [|done].
  apply andb_true_iff in E as [E1 E2]. apply Z.leb_le in E1, E2.
  destruct (Z.leb_spec 65 (byte_val c)); [lia|done].
Qed.
Lemma frac_of_spec m e : let '(num, den) := frac_of m e in 0 < num ∧ 0 < den ∧
  (IZR num / IZR den = F2R (Float radix2 (Zpos m) e))%R.
Proof.
  unfold frac_of. assert (0 < 2 ^ Z.max 0 e) by (apply Z.pow_pos_nonneg; lia).
  assert (0 < 2 ^ Z.max 0 (- e)) by (apply Z.pow_pos_nonneg; lia).
  split; [lia|]. split; [done|]. rewrite mult_IZR. unfold F2R. cbn [Fnum Fexp].
  assert (∀ k, 0 <= k → IZR (2 ^ k) = bpow radix2 k) as HB.
  { intros k Hk. by rewrite <- (IZR_Zpower radix2 k Hk). }
  rewrite !HB by lia. pose proof (bpow_gt_0 radix2 (Z.max 0 (- e))).
  replace (Z.max 0 e) with (e + Z.max 0 (- e)) by lia. rewrite bpow_plus. field. lra.
Qed.
Lemma read_sign_txt s l : (∃ c l', l = c :: l' ∧ Ascii.eqb c "-"%char = false ∧ Ascii.eqb c "+"%char = false) →
  read_sign (sign_txt s ++ l) = (s, l).
Proof.
  intros (c & l' & -> & H1 & H2). destruct s; cbn [sign_txt app read_sign].
  - by rewrite (Ascii.eqb_refl "-"%char).
  - by rewrite H1, H2.
Qed.
Lemma sign_txt_no_space s : no_space (sign_txt s).
Proof. destruct s; [|apply Forall_nil_2]. apply Forall_cons. split; [done|apply Forall_nil_2]. Qed.
Lemma num_text up p M k s : 0 <= M < 10 ^ (Z.of_nat p + 1) →
  no_space (sign_txt s ++ sci up p M k) ∧ sign_txt s ++ sci up p M k ≠ [] ∧
  (let '(s', t) := read_sign (sign_txt s ++ sci up p M k) in
  let w := lower <$> t in
  if bytes_eqb w (str "inf") || bytes_eqb w (str "infinity") then Ok (B754_infinity 53 1024 s')
  else if bytes_eqb w (str "nan") then Ok (nan64 s' (2 ^ 51))
  else match read_decimal t with Some (M, E) => Ok (dec_to_f64 s' M E) | None => Raise ValueError end)
  = Ok (dec_to_f64 s M (k - Z.of_nat p)).
Proof.
  intros HM. destruct (sci_spec up p M k HM) as (R & NS & c & l & E & Hc).
  split; [apply Forall_app; split; [apply sign_txt_no_space|done]|]. split; [rewrite E; by destruct s|].
  rewrite read_sign_txt; [|exists c, l; split; [done|by apply digit_not_sign]]. rewrite R.
  rewrite E, fmap_cons, lower_digit by done.
  assert (∀ c' l', is_digit c' = false → bytes_eqb (c :: (lower <$> l)) (c' :: l') = false) as HN.
  { intros c' l' Hc'. unfold bytes_eqb. apply bool_decide_eq_false_2. intros [= -> _]. by rewrite Hc in Hc'. }
  cbv zeta.
  rewrite (HN "i"%char (str "nf") eq_refl : bytes_eqb _ (str "inf") = false).
  rewrite (HN "i"%char (str "nfinity") eq_refl : bytes_eqb _ (str "infinity") = false).
  rewrite (HN "n"%char (str "an") eq_refl : bytes_eqb _ (str "nan") = false). done.
Qed.
Lemma fmt_e_text up p x : no_space (fmt_e up p x) ∧ fmt_e up p x ≠ [] ∧
  ∀ l, strip l = fmt_e up p x → py_float l = Ok (txt_value p x).
Proof.
  destruct x as [s|s|s pl H|s m e H]; cbn [fmt_e txt_value].
  - destruct (num_text up p 0 0 s) as (A & B & C); [split; [lia|apply Z.pow_pos_nonneg; lia]|].
    split; [done|]. split; [done|]. intros l E. unfold py_float. rewrite E. exact C.
  - split; [|split].
    + apply Forall_app. split; [apply sign_txt_no_space|]. destruct up; repeat (apply Forall_cons; split; [done|]); apply Forall_nil_2.
    + by destruct s, up.
    + intros l E. unfold py_float. rewrite E. rewrite read_sign_txt; [|destruct up; eexists _, _; done]. by destruct up.
  - split; [|split].
    + destruct up; repeat (apply Forall_cons; split; [done|]); apply Forall_nil_2.
    + by destruct up.
    + intros l E. unfold py_float. rewrite E. by destruct up.
  - pose proof (frac_of_spec m e) as HF. destruct (frac_of m e) as [num den]. destruct HF as (Hn & Hd & HF).
    destruct (decimal p num den) as [M k] eqn:ED. destruct (decimal_spec p num den M k Hn Hd ED) as (HM & _).
    destruct (num_text up p M k s) as (A & B & C); [split; [|lia]; pose proof (Z.pow_nonneg 10 (Z.of_nat p)); lia|].
    split; [done|]. split; [done|]. intros l E. unfold py_float. rewrite E. exact C.
Qed.
Lemma py_float_fmt up p x : py_float (fmt_e up p x) = Ok (txt_value p x).
Proof. destruct (fmt_e_text up p x) as (A & B & C). apply C. by apply strip_id. Qed.
Lemma py_float_rjust up p w x : py_float (rjust w (fmt_e up p x)) = Ok (txt_value p x).
Proof. destruct (fmt_e_text up p x) as (A & B & C). apply C. by apply strip_rjust. Qed.

(** Decimal to binary is correct rounding. *)
Lemma cond_Zopp_F2R s m e : F2R (Float radix2 (cond_Zopp s m) e) = (if s then - F2R (Float radix2 m e) else F2R (Float radix2 m e))%R.
Proof. destruct s; cbn [cond_Zopp]; [apply F2R_Zopp|done]. Qed.
(** The binary64 number nearest to [v] (ties to even; [s] is the sign). *)
Definition rnd64 (v : R) : R := round radix2 (SpecFloat.fexp 53 1024) ZnearestE v.
Definition nearest64 (s : bool) (v : R) (f : f64) : Prop :=
  ((Rabs (rnd64 v) < bpow radix2 1024)%R → is_finite 53 1024 f = true ∧ B2R 53 1024 f = rnd64 v ∧ Bsign 53 1024 f = s) ∧
  ((bpow radix2 1024 <= Rabs (rnd64 v))%R → f = B754_infinity 53 1024 s).
Lemma normalize_nearest s m e : 0 < m →
  nearest64 s (if s then - F2R (Float radix2 m e) else F2R (Float radix2 m e))
    (binary_normalize 53 1024 eq_refl eq_refl mode_NE (cond_Zopp s m) e s).
Proof.
  intros Hm. pose proof (binary_normalize_correct 53 1024 eq_refl eq_refl mode_NE (cond_Zopp s m) e s) as H.
  rewrite !cond_Zopp_F2R in H. cbn [round_mode] in H.
  assert (0 < F2R (Float radix2 m e))%R as Hp by (by apply F2R_gt_0).
  set (f := binary_normalize _ _ _ _ _ _ _ _) in *. set (v := if s then _ else _) in *.
  unfold nearest64. change (round radix2 (SpecFloat.fexp 53 1024) ZnearestE v) with (rnd64 v) in H.
  destruct (Rlt_bool_spec (Rabs (rnd64 v)) (bpow radix2 1024)) as [Hl|Hl].
  - split; [intros _|lra]. destruct H as (H1 & H2 & H3). split; [done|]. split; [done|]. rewrite H3. unfold v.
    destruct s; [rewrite Rcompare_Lt by lra|rewrite Rcompare_Gt by lra]; done.
  - split; [lra|intros _]. assert (Rlt_bool v 0 = s) as Hs.
    { unfold v. destruct s; [apply Rlt_bool_true|apply Rlt_bool_false]; lra. }
    rewrite Hs in H. cbn in H. destruct f; cbn in H; try done. by injection H as <-.
Qed.
Lemma sticky_odd M E : 0 <= M → E < 0 →
  let n := M * 2 ^ 1080 in let d := 10 ^ (- E) in
  F2R (Float radix2 (2 * (n / d) + (if n mod d =? 0 then 0 else 1)) (- 1081))
  = round radix2 (FIX_exp (- 1081)) Zrnd_odd (IZR M * bpow ten E).
Proof.
  intros HM HE n d. unfold round, scaled_mantissa. change (cexp radix2 (FIX_exp (-1081)) (IZR M * bpow ten E)) with (- 1081).
  f_equal. f_equal.
  assert (0 < d) as Hd by (apply Z.pow_pos_nonneg; lia). assert (0 < IZR d)%R as Hd' by (by apply IZR_lt).
  pose proof (Z.div_mod n d ltac:(lia)) as En. pose proof (Z.mod_pos_bound n d Hd) as B.
  set (q := n / d) in *. set (r := n mod d) in *.
  assert (IZR M * bpow ten E * bpow radix2 (- - 1081) = 2 * IZR q + 2 * IZR r / IZR d)%R as ->.
  { assert (IZR n = IZR M * bpow radix2 1080)%R as E1.
    { unfold n. rewrite mult_IZR. f_equal. }
    assert (bpow ten E = / IZR d)%R as E2.
    { unfold d. rewrite IZR_pow10 by lia. rewrite <- bpow_opp. f_equal. lia. }
    rewrite E2. change (- - 1081) with (1080 + 1). rewrite bpow_plus. change (bpow radix2 1) with 2%R.
    assert (IZR n = IZR d * IZR q + IZR r)%R as E3 by (rewrite <- mult_IZR, <- plus_IZR; by f_equal).
    transitivity (2 * (IZR M * bpow radix2 1080) / IZR d)%R; [field; lra|]. rewrite <- E1, E3. field. lra. }
  set (t := (2 * IZR r / IZR d)%R).
  assert (t * IZR d = 2 * IZR r)%R as Et by (unfold t; field; lra). clearbody t.
  destruct B as [B1 B2]. apply IZR_le in B1. apply IZR_lt in B2.
  assert (0 <= t < 2)%R as Ht.
  { split; [apply Rmult_le_reg_r with (IZR d)|apply Rmult_lt_reg_r with (IZR d)]; lra. }
  destruct (Z.eqb_spec r 0) as [E0|N0].
  - assert (t = 0)%R as ->. { apply Rmult_eq_reg_r with (IZR d); [|lra]. rewrite Et, E0. ring. }
    replace (2 * IZR q + 0)%R with (IZR (2 * q)) by (rewrite mult_IZR; ring).
    unfold Zrnd_odd. rewrite Zfloor_IZR. destruct Req_EM_T; [lia|done].
  - assert (0 < t)%R as Ht0.
    { destruct (Rle_lt_or_eq_dec 0 t ltac:(lra)) as [|<-]; [done|]. exfalso. apply N0. apply eq_IZR. lra. }
    destruct (Rlt_le_dec t 1) as [H1|H1].
    + assert (Zfloor (2 * IZR q + t) = 2 * q) as EF.
      { apply Zfloor_imp. rewrite plus_IZR, mult_IZR. lra. }
      assert (Zceil (2 * IZR q + t) = 2 * q + 1) as EC.
      { apply Zceil_imp. rewrite minus_IZR, plus_IZR, mult_IZR. lra. }
      unfold Zrnd_odd. rewrite EF, EC. destruct Req_EM_T as [E0|_]; [rewrite mult_IZR in E0; lra|].
      rewrite Z.even_mul. done.
    + assert (Zfloor (2 * IZR q + t) = 2 * q + 1) as EF.
      { apply Zfloor_imp. rewrite !plus_IZR, mult_IZR. lra. }
      unfold Zrnd_odd. rewrite EF. destruct Req_EM_T as [E0|_]; [done|].
      rewrite Z.even_add, Z.even_mul. done.
Qed.
Lemma dec_to_f64_nearest s M E : 0 <= M →
  nearest64 s (if s then - (IZR M * bpow ten E) else IZR M * bpow ten E) (dec_to_f64 s M E).
Proof.
  intros HM. unfold dec_to_f64. destruct (Z.eqb_spec M 0) as [->|HM0].
  { replace (if s then (- (0 * bpow ten E))%R else (0 * bpow ten E)%R) with 0%R by (destruct s; ring).
    assert (rnd64 0 = 0)%R as E0 by apply round_0, _. unfold nearest64. rewrite E0, Rabs_R0. split; [intros _; done|].
    intros H. pose proof (bpow_gt_0 radix2 1024). lra. }
  destruct (Z.leb_spec 0 E) as [HE|HE].
  - assert (0 < 10 ^ E) as HP by (apply Z.pow_pos_nonneg; lia).
    assert (F2R (Float radix2 (M * 10 ^ E) 0) = IZR M * bpow ten E)%R as <-.
    { unfold F2R. cbn [Fnum Fexp bpow]. rewrite mult_IZR, IZR_pow10 by done. ring. }
    apply normalize_nearest. lia.
  - cbv zeta. assert (0 < 10 ^ (- E)) as HP by (apply Z.pow_pos_nonneg; lia).
    pose proof (sticky_odd M E HM HE) as HS. cbv zeta in HS.
    set (m := 2 * _ + _) in *.
    assert (0 < m) as Hm.
    { unfold m. assert (0 < 2 ^ 1080) as H2 by (by apply Z.pow_pos_nonneg).
      pose proof (Z.div_pos (M * 2 ^ 1080) (10 ^ (- E)) ltac:(lia) HP) as Hq.
      pose proof (Z.div_mod (M * 2 ^ 1080) (10 ^ (- E)) ltac:(lia)) as Ed.
      destruct (Z.eqb_spec ((M * 2 ^ 1080) mod 10 ^ (- E)) 0) as [E0|]; [|lia].
      rewrite E0 in Ed. assert (0 < M * 2 ^ 1080) by lia. nia. }
    pose proof (normalize_nearest s m (- 1081) Hm) as HN. rewrite HS in HN.
    set (v := (IZR M * bpow ten E)%R) in *.
    assert (∀ x, rnd64 (- x) = (- rnd64 x)%R) as Hopp by (intros; apply round_NE_opp).
    assert (rnd64 (round radix2 (FIX_exp (-1081)) Zrnd_odd v) = rnd64 v) as Hodd.
    { apply round_N_odd; [done|apply _|exact (exists_NE_FLT radix2 (-1074) 53 (or_intror eq_refl))|apply _|apply _|].
      intros e. unfold FIX_exp, SpecFloat.fexp, SpecFloat.emin. lia. }
    unfold nearest64 in *. destruct s; [rewrite Hopp in *|]; rewrite Hodd in HN; exact HN.
Qed.

Lemma finite_exp m e k : SpecFloat.bounded 53 1024 m e = true →
  (bpow ten k <= F2R (Float radix2 (Zpos m) e) < bpow ten (k + 1))%R → - 324 <= k <= 308.
Proof.
  intros Hb [L U].
  assert (F2R (Float radix2 (Zpos m) e) < bpow radix2 1024)%R as HU by (by apply (bounded_lt_emax 53 1024)).
  assert (bpow radix2 (- 1074) <= F2R (Float radix2 (Zpos m) e))%R as HL.
  { apply Rle_trans with (bpow radix2 e).
    - apply bpow_le. apply andb_true_iff in Hb as [Hb _]. apply Zeq_bool_eq in Hb.
      unfold SpecFloat.fexp, SpecFloat.emin in Hb. lia.
    - unfold F2R. cbn [Fnum Fexp]. rewrite <- (Rmult_1_l (bpow radix2 e)) at 1.
      apply Rmult_le_compat_r; [apply bpow_ge_0|]. apply IZR_le. lia. }
  assert (bpow radix2 1024 <= bpow ten 309)%R as B1.
  { rewrite <- (IZR_Zpower radix2 1024), <- (IZR_Zpower ten 309) by lia. apply IZR_le. by vm_compute. }
  assert (bpow ten (- 324) <= bpow radix2 (- 1074))%R as B2.
  { change (bpow ten (Z.opp 324) <= bpow radix2 (Z.opp 1074))%R. rewrite !bpow_opp. apply Rinv_le; [apply bpow_gt_0|].
    rewrite <- (IZR_Zpower radix2 1074), <- (IZR_Zpower ten 324) by lia. apply IZR_le. by vm_compute. }
  split.
  - assert (- 324 < k + 1); [|lia]. apply (lt_bpow ten). lra.
  - assert (k < 309); [|lia]. apply (lt_bpow ten). lra.
Qed.
Lemma fmt_e_length up p x : (1 ≤ p)%nat → (length (fmt_e up p x) ≤ p + 8)%nat.
Proof.
  intros Hp. destruct x as [s|s|s pl H|s m e H]; cbn [fmt_e].
  - rewrite app_length. destruct (sci_length up p 0 0 Hp) as [-> E]; [lia|]. change (ndigits (Z.abs 0)) with 1%nat.
    destruct s; cbn [sign_txt length]; lia.
  - destruct s, up; cbn; lia.
  - destruct up; cbn; lia.
  - pose proof (frac_of_spec m e) as HF. destruct (frac_of m e) as [num den]. destruct HF as (Hn & Hd & HF).
    destruct (decimal p num den) as [M k] eqn:ED. destruct (decimal_spec p num den M k Hn Hd ED) as (_ & _ & Hk).
    pose proof (dexp_spec num den Hn Hd) as HX. rewrite HF in HX. pose proof (finite_exp m e _ H HX).
    rewrite app_length. destruct (sci_length up p M k Hp) as [-> E]; [lia|]. destruct s; cbn [sign_txt length]; lia.
Qed.
(** The value read back: the binary64 nearest to a decimal of [p+1] digits that is within half a
    unit of its last digit of [x]. *)
Lemma txt_value_spec p x : is_finite 53 1024 x = true →
  ∃ M k, 0 <= M < 10 ^ (Z.of_nat p + 1) ∧ (B2R 53 1024 x ≠ 0%R → 10 ^ Z.of_nat p <= M) ∧ (B2R 53 1024 x = 0%R → M = 0) ∧
    let d := (if Bsign 53 1024 x then - (IZR M * bpow ten (k - Z.of_nat p)) else IZR M * bpow ten (k - Z.of_nat p))%R in
    (∀ up, fmt_e up p x = sign_txt (Bsign 53 1024 x) ++ sci up p M k) ∧
    (Rabs (d - B2R 53 1024 x) <= / 2 * bpow ten (k - Z.of_nat p))%R ∧
    txt_value p x = dec_to_f64 (Bsign 53 1024 x) M (k - Z.of_nat p) ∧
    nearest64 (Bsign 53 1024 x) d (txt_value p x).
Proof.
  intros Hf. destruct x as [s|s|s pl H|s m e H]; [|done|done|].
  - exists 0, 0. cbn [Bsign B2R fmt_e txt_value].
    split; [split; [lia|apply Z.pow_pos_nonneg; lia]|]. split; [done|]. split; [done|].
    set (d := if s then _ else _ : R).
    assert (d = 0%R) as Ed by (unfold d; destruct s; ring). split; [done|].
    assert (dec_to_f64 s 0 (0 - Z.of_nat p) = B754_zero 53 1024 s) as Ez by done.
    split; [|split; [done|]].
    + rewrite Ed, Rminus_0_r, Rabs_R0. pose proof (bpow_gt_0 ten (0 - Z.of_nat p)). lra.
    + rewrite <- Ez. unfold d. apply dec_to_f64_nearest. lia.
  - pose proof (frac_of_spec m e) as HF. cbn [Bsign B2R fmt_e txt_value].
    destruct (frac_of m e) as [num den]. destruct HF as (Hn & Hd & HF).
    destruct (decimal p num den) as [M k] eqn:ED. destruct (decimal_spec p num den M k Hn Hd ED) as (HM & HA & Hk).
    exists M, k. pose proof (Z.pow_nonneg 10 (Z.of_nat p) ltac:(lia)). split; [lia|]. split; [lia|].
    assert (F2R (Float radix2 (cond_Zopp s (Z.pos m)) e) = (if s then - (IZR num / IZR den) else IZR num / IZR den))%R as EV.
    { rewrite cond_Zopp_F2R, HF. done. }
    rewrite EV. split.
    { intros E0. exfalso. pose proof (Rdiv_lt_0_compat (IZR num) (IZR den) ltac:(by apply IZR_lt) ltac:(by apply IZR_lt)).
      destruct s; lra. }
    split; [done|]. split; [|split; [done|apply dec_to_f64_nearest; lia]].
    destruct s; [|done].
    replace (- (IZR M * bpow ten (k - Z.of_nat p)) - - (IZR num / IZR den))%R with (- (IZR M * bpow ten (k - Z.of_nat p) - IZR num / IZR den))%R by ring.
    rewrite Rabs_Ropp. done.
Qed.
