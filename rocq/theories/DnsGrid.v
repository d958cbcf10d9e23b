(** Rounding errors of products and quotients, for the grid of SIMSON fields. *)
From Coq Require Import Lia Reals Lra.
From Flocq Require Import Core.Core Relative IEEE754.BinarySingleNaN IEEE754.Binary IEEE754.Bits.
From Verif Require Import Base Float FloatLaws FloatOps Mesh MeshLemmas Simson.
Open Scope R_scope.

(** [x] is a finite number that differs from [r] by at most [k] times 2^-53 of [r]. *)
Definition close (k : R) (x : f64) (r : R) : Prop :=
  is_finite 53 1024 x = true ∧ Rabs (B2R 53 1024 x - r) <= k * bpow radix2 (-53) * Rabs r.
(** Lengths and other constants whose size is far from the limits of the format. *)
Definition ordinary (x : f64) : Prop :=
  is_finite 53 1024 x = true ∧ bpow radix2 (-500) <= Rabs (B2R 53 1024 x) <= bpow radix2 500.

Notation u := (bpow radix2 (-53)).
Lemma u_pos : 0 < u <= 1 / 1024.
Proof. split; [apply bpow_gt_0|]. apply (Rle_trans _ (bpow radix2 (-10))); [apply bpow_le; lia|]. unfold bpow. change (Z.pow_pos radix2 10) with 1024%Z. lra. Qed.
Lemma bpow_m1 : bpow radix2 (-1) = / 2.
Proof. unfold bpow. change (Z.pow_pos radix2 1) with 2%Z. done. Qed.
Lemma bpow_1 : bpow radix2 1 = 2.
Proof. unfold bpow. change (Z.pow_pos radix2 1) with 2%Z. done. Qed.
Definition mid (r : R) : Prop := r = 0 ∨ bpow radix2 (-1000) <= Rabs r <= bpow radix2 1000.
(** [k] roundings away from [r]. *)
Definition near (k : nat) (x : f64) (r : R) : Prop :=
  is_finite 53 1024 x = true ∧ ∃ e, B2R 53 1024 x = r * e ∧ (1 - u) ^ k <= e <= (1 + u) ^ k.

Lemma rn_rel r : (r = 0 ∨ bpow radix2 (-1001) <= Rabs r) → ∃ e, rn r = r * e ∧ 1 - u <= e <= 1 + u.
Proof.
  intros [->|H]; [exists 1; rewrite rn_0; pose proof u_pos; split; lra|].
  destruct (relative_error_N_FLT_ex radix2 (-1074) 53 ltac:(lia) (λ x, negb (Z.even x)) r) as (e & He & E).
  { refine (Rle_trans _ _ _ _ H). apply bpow_le. lia. }
  exists (1 + e). unfold rn. split; [exact E|].
  replace (/ 2 * bpow radix2 (- (53) + 1)) with u in He; [apply Rabs_le_inv in He; lra|].
  rewrite <- bpow_m1, <- bpow_plus. done.
Qed.
Lemma rn_fits r : (r = 0 ∨ bpow radix2 (-1001) <= Rabs r) → Rabs r <= bpow radix2 1001 → fits r.
Proof.
  intros H1 H2. destruct (rn_rel r H1) as (e & E & He). unfold fits. rewrite E, Rabs_mult.
  pose proof u_pos. assert (Rabs e <= 2) by (apply Rabs_le; lra).
  apply (Rle_lt_trans _ (bpow radix2 1001 * 2)).
  - apply Rmult_le_compat; try apply Rabs_pos; done.
  - rewrite <- bpow_1, <- bpow_plus. apply bpow_lt. lia.
Qed.
Lemma pow_bounds k : (k <= 10)%nat → 1 / 2 <= (1 - u) ^ k ∧ (1 + u) ^ k <= 2.
Proof.
  intros Hk. pose proof u_pos as Hu. split.
  - assert (∀ n, 1 - INR n * u <= (1 - u) ^ n) as Hn.
    { induction n as [|n IH]; [cbn; lra|]. rewrite S_INR. change ((1 - u) ^ S n) with ((1 - u) * (1 - u) ^ n).
      pose proof (pos_INR n). assert (0 <= INR n * (u * u)) by (apply Rmult_le_pos; nra).
      assert (0 <= (1 - u) * ((1 - u) ^ n - (1 - INR n * u))) by (apply Rmult_le_pos; lra). nra. }
    specialize (Hn k). assert (INR k <= 10) by (replace 10 with (INR 10) by (cbn; lra); by apply le_INR). nra.
  - assert (∀ n, (n <= 10)%nat → (1 + u) ^ n <= 1 + 2 * INR n * u) as Hn.
    { induction n as [|n IH]; [cbn; lra|]. intros Hn. specialize (IH ltac:(lia)). rewrite S_INR. change ((1 + u) ^ S n) with ((1 + u) * (1 + u) ^ n).
      assert (INR n <= 10) by (replace 10 with (INR 10) by (cbn; lra); apply le_INR; lia). pose proof (pos_INR n). nra. }
    specialize (Hn k Hk). assert (INR k <= 10) by (replace 10 with (INR 10) by (cbn; lra); by apply le_INR). nra.
Qed.
Lemma pow_prod j k e f : (1 - u) ^ j <= e <= (1 + u) ^ j → (1 - u) ^ k <= f <= (1 + u) ^ k →
  (1 - u) ^ (j + k) <= e * f <= (1 + u) ^ (j + k).
Proof.
  intros He Hf. rewrite !pow_add. pose proof u_pos.
  assert (0 <= (1 - u) ^ j) by (apply pow_le; lra). assert (0 <= (1 - u) ^ k) by (apply pow_le; lra).
  split; apply Rmult_le_compat; lra.
Qed.
Lemma mid_scale r e : mid r → 1 / 2 <= e <= 2 → (r * e = 0 ∨ bpow radix2 (-1001) <= Rabs (r * e)) ∧ Rabs (r * e) <= bpow radix2 1001.
Proof.
  intros [->|[H1 H2]] He.
  - split; [left; lra|]. rewrite Rmult_0_l, Rabs_R0. apply bpow_ge_0.
  - rewrite Rabs_mult, (Rabs_right e) by lra.
    replace (bpow radix2 (-1001)) with (bpow radix2 (-1000) * (1 / 2)) by (replace (1 / 2) with (bpow radix2 (-1)) by (rewrite bpow_m1; lra); by rewrite <- bpow_plus).
    replace (bpow radix2 1001) with (bpow radix2 1000 * 2) by (rewrite <- bpow_1; by rewrite <- bpow_plus).
    pose proof (Rabs_pos r). pose proof (bpow_ge_0 radix2 (-1000)). split; [right|]; apply Rmult_le_compat; lra.
Qed.
Lemma near_exact x r : isr x r → near 0 x r.
Proof. intros [F V]. split; [done|]. exists 1. rewrite V, !pow_O. split; lra. Qed.
Lemma near_round j x r r' v : (j <= 9)%nat → mid r → (∃ e, r' = r * e ∧ (1 - u) ^ j <= e <= (1 + u) ^ j) →
  (fits r' → isr x (rn r')) → v = S j → near v x r.
Proof.
  intros Hj Hm (e & -> & He) Hx ->. destruct (pow_bounds j ltac:(lia)) as [B1 B2].
  destruct (mid_scale r e Hm ltac:(lra)) as [M1 M2]. destruct (Hx (rn_fits _ M1 M2)) as [F V].
  destruct (rn_rel _ M1) as (f & E & Hf). split; [done|]. exists (e * f). rewrite V, E. split; [ring|].
  replace (S j) with (j + 1)%nat by lia. apply pow_prod; [done|]. rewrite !pow_1. lra.
Qed.
Lemma near_mul j k x y r s : near j x r → near k y s → mid (r * s) → (j + k <= 9)%nat → near (S (j + k)) (nmul (a:=A64) x y) (r * s).
Proof.
  intros (Fx & e & Ex & He) (Fy & f & Ey & Hf) Hm Hk.
  apply (near_round (j + k) _ _ (B2R 53 1024 x * B2R 53 1024 y)); [lia|done| | |done].
  - exists (e * f). rewrite Ex, Ey. split; [ring|]. by apply pow_prod.
  - apply mul_isr; by apply isr_self.
Qed.
Lemma near_div j x y r s : near j x r → isr y s → s ≠ 0 → mid (r / s) → (j <= 9)%nat → near (S j) (ndiv (a:=A64) x y) (r / s).
Proof.
  intros (Fx & e & Ex & He) Hy Hs Hm Hk.
  apply (near_round j _ _ (B2R 53 1024 x / s)); [lia|done| | |done].
  - exists e. rewrite Ex. split; [field; done|done].
  - apply div_isr; [by apply isr_self|done|done].
Qed.
Lemma near_sub x y r s : isr x r → isr y s → mid (r - s) → near 1 (nsub (a:=A64) x y) (r - s).
Proof.
  intros Hx Hy Hm. apply (near_round 0 _ _ (r - s)); [lia|done| | |done].
  - exists 1. rewrite !pow_O. split; lra.
  - by apply sub_isr.
Qed.
Lemma near_close k x r : (k <= 4)%nat → near k x r → close (INR k + 1) x r.
Proof.
  intros Hk (F & e & E & He). split; [done|]. rewrite E. replace (r * e - r) with ((e - 1) * r) by ring. rewrite Rabs_mult.
  apply Rmult_le_compat_r; [apply Rabs_pos|]. pose proof u_pos as Hu. apply Rabs_le.
  set (v := u) in *. clearbody v.
  do 5 (destruct k as [|k]; [cbn -[Rmult] in *; split; nra|]). lia.
Qed.

(** ** Sizes *)
Definition within (e : Z) (r : R) : Prop := bpow radix2 (- e) <= Rabs r <= bpow radix2 e.
Lemma within_mul e f r s : within e r → within f s → within (e + f) (r * s).
Proof.
  intros [A B] [C D]. unfold within. rewrite Rabs_mult. replace (- (e + f))%Z with (- e + - f)%Z by lia. rewrite !bpow_plus.
  pose proof (bpow_ge_0 radix2 (- e)). pose proof (bpow_ge_0 radix2 (- f)). pose proof (Rabs_pos r). pose proof (Rabs_pos s).
  split; apply Rmult_le_compat; done.
Qed.
Lemma within_nz e r : within e r → r ≠ 0.
Proof. intros [A _] ->. rewrite Rabs_R0 in A. pose proof (bpow_gt_0 radix2 (- e)). lra. Qed.
Lemma within_inv e r : within e r → within e (/ r).
Proof.
  intros H. pose proof (within_nz _ _ H) as Hn. destruct H as [A B]. unfold within. rewrite Rabs_inv.
  pose proof (Rabs_pos_lt r Hn). rewrite bpow_opp. split.
  - apply Rinv_le; done.
  - rewrite <- (Rinv_inv (bpow radix2 e)), <- bpow_opp. apply Rinv_le; [apply bpow_gt_0|done].
Qed.
Lemma within_div e f r s : within e r → within f s → within (e + f) (r / s).
Proof. intros A B. apply within_mul; [done|]. by apply within_inv. Qed.
Lemma within_mid e r : within e r → (e <= 1000)%Z → mid r.
Proof. intros [A B] He. right. split; [apply (Rle_trans _ (bpow radix2 (- e))); [apply bpow_le; lia|done]|apply (Rle_trans _ (bpow radix2 e)); [done|apply bpow_le; lia]]. Qed.
Lemma within_int n : (1 <= n < 2 ^ 31)%Z → within 31 (IZR n).
Proof.
  intros [A B]. unfold within. assert (1 <= IZR n) by (by apply (IZR_le 1)). rewrite Rabs_right by lra. split.
  - apply (Rle_trans _ 1); [|done]. apply (bpow_le radix2 _ 0). lia.
  - replace (bpow radix2 31) with (IZR (2 ^ 31)) by (by rewrite <- (IZR_Zpower radix2)). apply IZR_le. lia.
Qed.
Lemma ordinary_isr x : ordinary x → isr x (B2R 53 1024 x) ∧ within 500 (B2R 53 1024 x).
Proof. intros [F W]. split; [by apply isr_self|exact W]. Qed.
Lemma small_isr (n : Z) : (0 <= n < 2 ^ 31)%Z → isr (f64_of_Z n) (IZR n).
Proof. intros H. apply of_Z_isr. lia. Qed.

(** A uniform grid: [l / n * i]. *)
Lemma uniform l n i : ordinary l → (1 <= n < 2 ^ 31)%Z → (0 <= i < 2 ^ 31)%Z →
  near 2 (nmul (a:=A64) (ndiv (a:=A64) l (f64_of_Z n)) (f64_of_Z i)) (B2R 53 1024 l / IZR n * IZR i).
Proof.
  intros Hl Hn Hi. destruct (ordinary_isr l Hl) as [Il Wl]. pose proof (within_int n Hn) as Wn.
  pose proof (within_div _ _ _ _ Wl Wn) as Wd.
  apply (near_mul 1 0); [|by apply near_exact, small_isr| |lia].
  - apply (near_div 0); [by apply near_exact|apply small_isr; lia|by apply (within_nz 31)| |lia]. apply (within_mid _ _ Wd). lia.
  - destruct (decide (i = 0)%Z) as [->|Hi0]; [left; ring|]. pose proof (within_int i ltac:(lia)) as Wi.
    apply (within_mid _ _ (within_mul _ _ _ _ Wd Wi)). lia.
Qed.

(** Halves of integers are exact. *)
Lemma half_exact n : (Z.abs n < 2 ^ 53)%Z → rn (IZR n / 2) = IZR n / 2 ∧ fits (IZR n / 2).
Proof.
  intros Hn. assert (rn (IZR n / 2) = IZR n / 2) as E.
  { unfold rn. apply round_generic; [apply valid_rnd_round_mode|]. apply generic_format_FLT.
    apply (FLT_spec radix2 (-1074) 53 _ (Float radix2 n (-1))); [|exact Hn|cbn; lia].
    unfold F2R. cbn [Fnum Fexp]. rewrite bpow_m1. lra. }
  split; [done|]. unfold fits. rewrite E. unfold Rdiv. rewrite Rabs_mult, (Rabs_right (/ 2)) by lra. rewrite <- abs_IZR.
  apply (Rle_lt_trans _ (bpow radix2 53)).
  - apply IZR_lt in Hn. change (2 ^ 53)%Z with (radix2 ^ 53)%Z in Hn. rewrite (IZR_Zpower radix2) in Hn by lia.
    assert (0 <= IZR (Z.abs n)) by (apply (IZR_le 0); lia). lra.
  - apply bpow_lt. lia.
Qed.
Lemma centred l n i : ordinary l → (1 <= n < 2 ^ 31)%Z → (0 <= i < n)%Z →
  near 2 (nmul (a:=A64) (ndiv (a:=A64) l (f64_of_Z n)) (nsub (a:=A64) (f64_of_Z i) (ndiv (a:=A64) (f64_of_Z n) (f64_of_Z 2))))
    (B2R 53 1024 l / IZR n * (IZR i - IZR n / 2)).
Proof.
  intros Hl Hn Hi. destruct (ordinary_isr l Hl) as [Il Wl]. pose proof (within_int n Hn) as Wn.
  pose proof (within_div _ _ _ _ Wl Wn) as Wd. destruct (half_exact n ltac:(lia)) as [E1 F1]. destruct (half_exact (2 * i - n) ltac:(lia)) as [E2 F2].
  assert (IZR i - IZR n / 2 = IZR (2 * i - n) / 2) as Eh by (rewrite minus_IZR, mult_IZR; lra).
  assert (isr (ndiv (a:=A64) (f64_of_Z n) (f64_of_Z 2)) (IZR n / 2)) as I1.
  { rewrite <- E1. apply div_isr; [apply small_isr; lia|apply small_isr; lia|lra|done]. }
  assert (isr (nsub (a:=A64) (f64_of_Z i) (ndiv (a:=A64) (f64_of_Z n) (f64_of_Z 2))) (IZR i - IZR n / 2)) as I2.
  { replace (IZR i - IZR n / 2) with (rn (IZR i - IZR n / 2)) by (by rewrite Eh). apply sub_isr; [apply small_isr; lia|done|by rewrite Eh]. }
  apply (near_mul 1 0); [|by apply near_exact| |lia].
  - apply (near_div 0); [by apply near_exact|apply small_isr; lia|by apply (within_nz 31)| |lia]. apply (within_mid _ _ Wd). lia.
  - rewrite Eh. destruct (decide (2 * i - n = 0)%Z) as [->|H0]; [left; lra|].
    assert (within 31 (IZR (2 * i - n))) as W.
    { unfold within. rewrite <- abs_IZR. pose proof (within_int (Z.abs (2 * i - n)) ltac:(lia)) as W. unfold within in W.
      by rewrite <- abs_IZR, Z.abs_eq in W by lia. }
    assert (within 1 2) as W2.
    { unfold within. rewrite Rabs_right by lra. rewrite bpow_1. change (- (1))%Z with (-1)%Z. rewrite bpow_m1. lra. }
    apply (within_mid _ _ (within_mul _ _ _ _ Wd (within_div _ _ _ _ W W2))). lia.
Qed.

(** One minus a number of the format: zero or at least 2^-53. *)
Lemma one_minus c : is_finite 53 1024 c = true → Rabs (B2R 53 1024 c) <= 1 → mid (1 - B2R 53 1024 c) ∧ (1 - B2R 53 1024 c = 0 ∨ within 53 (1 - B2R 53 1024 c)).
Proof.
  intros F Hc. apply Rabs_le_inv in Hc. set (r := B2R 53 1024 c) in *.
  assert (1 - r = 0 ∨ within 53 (1 - r)) as H.
  { destruct (Req_dec r 1) as [->|Hr]; [left; lra|right].
    assert (Valid_exp (FLT_exp (-1074) 53)) as HV by (apply FLT_exp_valid; done).
    assert (r <= 1 - u) as Hp.
    { assert (r <= Ulp.pred radix2 (FLT_exp (-1074) 53) (bpow radix2 0)) as Hp.
      { apply Ulp.pred_ge_gt; [done|apply generic_format_B2R|apply generic_format_bpow; unfold FLT_exp; lia|]. change (bpow radix2 0) with 1. lra. }
      rewrite Ulp.pred_bpow in Hp. exact Hp. }
    unfold within. pose proof u_pos. rewrite Rabs_right by lra. split; [change (- (53))%Z with (-53)%Z; lra|].
    apply (Rle_trans _ 2); [lra|]. rewrite <- bpow_1. apply bpow_le. lia. }
  split; [|done]. destruct H as [->|H]; [by left|apply (within_mid _ _ H); lia].
Qed.
Lemma wall_distance ds c : ordinary ds → is_finite 53 1024 c = true → Rabs (B2R 53 1024 c) <= 1 →
  near 4 (ndiv (a:=A64) (nmul (a:=A64) (ndiv (a:=A64) (f64_of_Z 2) ds) (nsub (a:=A64) (f64_of_Z 1) c)) (f64_of_Z 2)) ((1 - B2R 53 1024 c) / B2R 53 1024 ds).
Proof.
  intros Hd F Hc. destruct (ordinary_isr ds Hd) as [Id Wd]. pose proof (within_nz _ _ Wd) as Hn. destruct (one_minus c F Hc) as [M1 M2].
  set (r := B2R 53 1024 c) in *. set (s := B2R 53 1024 ds) in *.
  assert (within 1 2) as W2.
  { unfold within. rewrite Rabs_right by lra. rewrite bpow_1. change (- (1))%Z with (-1)%Z. rewrite bpow_m1. lra. }
  pose proof (within_div _ _ _ _ W2 Wd) as W3.
  assert (mid (2 / s * (1 - r))) as M3 by (destruct M2 as [->|W]; [left; ring|apply (within_mid _ _ (within_mul _ _ _ _ W3 W)); lia]).
  assert (mid ((1 - r) / s)) as M4 by (destruct M2 as [->|W]; [left; unfold Rdiv; ring|apply (within_mid _ _ (within_div _ _ _ _ W Wd)); lia]).
  replace ((1 - r) / s) with (2 / s * (1 - r) / 2) in * by (field; done).
  apply (near_div 3); [|apply small_isr; lia|lra|done|lia].
  apply (near_mul 1 1); [| |done|lia].
  - apply (near_div 0); [apply near_exact, small_isr; lia|done|done|apply (within_mid _ _ W3); lia|lia].
  - apply near_sub; [apply small_isr; lia|by apply isr_self|done].
Qed.

(** ** Entries of tables *)
Lemma bind_range_lookup {B} (f : nat → list B) n L i j : (∀ i, (i < n)%nat → length (f i) = L) → (i < n)%nat → (j < L)%nat →
  (range n ≫= f) !! (i * L + j)%nat = f i !! j.
Proof.
  intros Hf Hi Hj. unfold range. assert (∀ s, (seq s n ≫= f) !! (i * L + j)%nat = f (s + i)%nat !! j ∨ ¬ (s + n <= n)%nat) as H.
  { clear -Hf Hi Hj. intros s. destruct (decide (s = 0)%nat) as [->|]; [left|right; lia]. cbn [plus].
    enough (∀ n' s i, (s + n' <= n)%nat → (i < n')%nat → (seq s n' ≫= f) !! (i * L + j)%nat = f (s + i)%nat !! j) as H by (apply (H n 0%nat i); lia).
    clear Hi i. induction n' as [|n' IH]; intros s i Hs Hi; [lia|]. cbn [seq mbind list_bind]. destruct i as [|i].
    - rewrite lookup_app_l; [by rewrite Nat.add_0_r|]. rewrite Hf by lia. lia.
    - rewrite lookup_app_r; rewrite Hf by lia; [|lia]. replace (S i * L + j - L)%nat with (i * L + j)%nat by lia.
      rewrite IH by lia. do 2 f_equal. lia. }
  destruct (H 0%nat) as [E|E]; [exact E|lia].
Qed.
Lemma bind_range_length {B} (f : nat → list B) n L : (∀ i, (i < n)%nat → length (f i) = L) → length (range n ≫= f) = (n * L)%nat.
Proof.
  intros Hf. unfold range. enough (∀ n' s, (s + n' <= n)%nat → length (seq s n' ≫= f) = (n' * L)%nat) as H by (apply (H n 0%nat); lia).
  induction n' as [|n' IH]; intros s Hs; [done|]. cbn [seq mbind list_bind]. rewrite app_length, Hf, IH by lia. lia.
Qed.
Lemma tabulate_lookup nx ny nz f iz iy ix : (iz < nz)%nat → (iy < ny)%nat → (ix < nx)%nat →
  tabulate nx ny nz f !! ((iz * ny + iy) * nx + ix)%nat = Some (f iz iy ix).
Proof.
  intros Hz Hy Hx. unfold tabulate, prod3. rewrite list_lookup_fmap.
  replace ((iz * ny + iy) * nx + ix)%nat with (iz * (ny * nx) + (iy * nx + ix))%nat by lia.
  assert (∀ i : nat, length (range ny ≫= λ b : nat, (λ c : nat, (i, b, c)) <$> range nx) = (ny * nx)%nat) as HL.
  { intros i. apply bind_range_length. intros b _. unfold range; by rewrite fmap_length, seq_length. }
  rewrite (bind_range_lookup _ _ (ny * nx)); [|intros i _; apply HL|done|nia].
  rewrite (bind_range_lookup _ _ nx); [|intros b _; unfold range; by rewrite fmap_length, seq_length|done|done].
  rewrite list_lookup_fmap, lookup_range by done. done.
Qed.
