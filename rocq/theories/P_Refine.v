(** C43: exponential_refinement_parameter. *)
From Coq Require Import Lia Reals Lra Psatz.
From Verif Require Import Base Float Refine RefineSpec.
Open Scope R_scope.

Lemma total_length_geometric l0 alpha n : total_length l0 alpha n * (alpha - 1) = (alpha ^ n - 1) * l0.
Proof. induction n as [|n IH]; cbn [total_length Rpow_def.pow]; [ring|]. rewrite Rmult_plus_distr_r, IH. ring. Qed.
Lemma newton_inv l0 ltot n a a' : newton l0 ltot n a = Ok a' → eps_approx <= Rabs (a - 1) →
  ltot ≠ 0 ∧ 0 < total_length l0 a n / ltot ∧
  ∃ fpx, fpx ≠ 0 ∧ err_prime n a = Ok fpx ∧ a - a' = ln (total_length l0 a n / ltot) / fpx.
Proof.
  intros H Ha. unfold newton, err in H. assert (Rltb (Rabs (a - 1)) eps_approx = false) as E.
  { unfold Rltb. destruct (Rlt_dec _ _); [lra|done]. }
  rewrite E in H. unfold divide, log in H. assert (a - 1 ≠ 0) as Hn. { intros X. rewrite X, Rabs_R0 in Ha. unfold eps_approx in Ha. lra. }
  destruct (Req_EM_T (a - 1) 0) as [|_]; [done|]. cbn [rbind] in H. destruct (Req_EM_T ltot 0) as [|Hl]; [done|]. cbn [rbind] in H.
  assert ((a ^ n - 1) / (a - 1) * l0 / ltot = total_length l0 a n / ltot) as Q.
  { f_equal. apply (Rmult_eq_reg_r (a - 1)); [|done]. rewrite total_length_geometric. field. done. }
  rewrite Q in H. destruct (Rlt_dec 0 (total_length l0 a n / ltot)) as [Hp|]; [|done]. cbn [rbind] in H.
  destruct (err_prime n a) as [fpx|]; [|done]. cbn [rbind] in H. destruct (Req_EM_T fpx 0) as [|Hf]; [done|]. cbn [rbind] in H.
  split; [done|]. split; [done|]. exists fpx. split; [done|]. split; [done|]. assert (a' = a - ln (total_length l0 a n / ltot) / fpx) as -> by congruence. ring.
Qed.
(** The number that the iteration leaves as it is, outside the interval of approximation, solves the equation. *)
Theorem C43_stationary l0 ltot n alpha : newton l0 ltot n alpha = Ok alpha → eps_approx <= Rabs (alpha - 1) → total_length l0 alpha n = ltot.
Proof.
  intros H Ha. destruct (newton_inv _ _ _ _ _ H Ha) as (Hl & Hp & fpx & Hf & _ & E).
  assert (ln (total_length l0 alpha n / ltot) = 0) as X. { apply (Rmult_eq_reg_r (/ fpx)); [|by apply Rinv_neq_0_compat]. rewrite Rmult_0_l. fold (ln (total_length l0 alpha n / ltot) / fpx). lra. }
  rewrite <- ln_1 in X. apply ln_inv in X; [|done|lra]. apply (Rmult_eq_reg_r (/ ltot)); [|by apply Rinv_neq_0_compat].
  rewrite Rinv_r by done. exact X.
Qed.
Print Assumptions C43_stationary.
(** The loop ends after at most 10000 steps, either with an exception of one of them, or with the result of the last
    one. If it did not use up all the steps, the last one was not longer than tol. *)
Lemma solve_run fuel l0 ltot n tol a res0 alpha : solve fuel l0 ltot n tol a res0 = Ok alpha →
  alpha = a ∧ (res0 <= tol ∨ fuel = 0%nat) ∨
  ∃ k prev, (k < fuel)%nat ∧ newton l0 ltot n prev = Ok alpha ∧ ((S k < fuel)%nat → Rabs (alpha - prev) <= tol).
Proof.
  revert a res0. induction fuel as [|fuel IH]; intros a res0; cbn [solve]; [intros H; left; split; [congruence|by right]|].
  unfold Rltb. destruct (Rlt_dec tol res0) as [Hr|Hr]; [|intros H; left; split; [congruence|left; lra]].
  destruct (newton l0 ltot n a) as [a1|] eqn:E; [|done]. cbn [rbind]. intros H. right.
  destruct (IH _ _ H) as [[-> Hd]|(k & prev & Hk & Hnw & Hd)].
  - destruct Hd as [Hd|Hd].
    + exists 0%nat, a. split; [lia|]. split; [done|]. intros _. exact Hd.
    + exists 0%nat, a. split; [lia|]. split; [done|]. intros. lia.
  - exists (S k), prev. split; [lia|]. split; [done|]. intros. apply Hd. lia.
Qed.
(** So: a result that is not 1 is within tol of a number prev for which the logarithm of (total length / ltot) is at
    most tol times the slope used, unless the 10000 steps were used up. *)
Theorem C43_converged l0 ltot n tol alpha : tol < 1 → exponential_refinement_parameter l0 ltot n tol = Ok alpha →
  ∃ k prev, (k < Z.to_nat 10000)%nat ∧ newton l0 ltot n prev = Ok alpha ∧
    ((S k < Z.to_nat 10000)%nat → Rabs (alpha - prev) <= tol ∧
      (eps_approx <= Rabs (prev - 1) → ∃ slope, err_prime n prev = Ok slope ∧ 0 < total_length l0 prev n / ltot ∧
         Rabs (ln (total_length l0 prev n / ltot)) <= tol * Rabs slope)).
Proof.
  intros Ht H. unfold exponential_refinement_parameter in H. apply solve_run in H as [[_ [H|H]]|(k & prev & Hk & Hn & Hd)]; [lra|lia|].
  exists k, prev. split; [done|]. split; [done|]. intros Hk2. specialize (Hd Hk2). split; [done|]. intros Ha.
  destruct (newton_inv _ _ _ _ _ Hn Ha) as (_ & Hp & fpx & Hf & Ef & E). exists fpx. split; [done|]. split; [done|].
  assert (ln (total_length l0 prev n / ltot) = (prev - alpha) * fpx) as -> by (rewrite E; field; done).
  rewrite Rabs_mult, <- Rabs_Ropp. replace (- (prev - alpha)) with (alpha - prev) by ring. apply Rmult_le_compat_r; [apply Rabs_pos|done].
Qed.
Print Assumptions C43_converged.
(** Equal lengths: the answer is 1, at once. *)
Lemma newton_1 l0 ltot n : (2 <= n)%nat → ltot ≠ 0 → 0 < INR n * l0 / ltot → newton l0 ltot n 1 = Ok (1 - ln (INR n * l0 / ltot) / ((INR n - 1) / 2)).
Proof.
  intros Hn Hl Hp. assert (2 <= INR n) as Hn2 by (apply (le_INR 2); lia). unfold newton, err, err_prime, nR. replace (1 - 1) with 0 by ring. rewrite Rabs_R0.
  assert (Rltb 0 eps_approx = true) as ->. { unfold Rltb, eps_approx. destruct (Rlt_dec _ _); [done|lra]. }
  unfold divide, log. destruct (Req_EM_T ltot 0); [done|]. cbn [rbind]. destruct (Rlt_dec 0 (INR n * l0 / ltot)); [|done]. cbn [rbind].
  match goal with |- context [Rlt_dec 0 ?x] => replace x with 1 by field end. destruct (Rlt_dec 0 1); [|lra]. cbn [rbind]. rewrite ln_1.
  match goal with |- context [Req_EM_T ?x 0] => replace x with ((INR n - 1) / 2) by field; destruct (Req_EM_T ((INR n - 1) / 2) 0) as [X|]; [lra|] end.
  cbn [rbind]. f_equal. field. lra.
Qed.
Theorem C43_uniform l0 ltot n tol : (2 <= n)%nat → ltot ≠ 0 → INR n * l0 = ltot → 0 <= tol → exponential_refinement_parameter l0 ltot n tol = Ok 1.
Proof.
  intros Hn Hl E Ht. unfold exponential_refinement_parameter. destruct (Z.to_nat 10000) as [|[|f]] eqn:F; [lia|lia|]. clear F.
  cbn [solve]. unfold Rltb at 1. destruct (Rlt_dec tol 1) as [|]; [|done].
  rewrite newton_1; [|done|done|rewrite E; unfold Rdiv; rewrite Rinv_r by done; lra]. cbn [rbind]. rewrite E. replace (ltot / ltot) with 1 by (field; done). rewrite ln_1.
  assert (2 <= INR n) as Hn2 by (apply (le_INR 2); lia). replace (1 - 0 / ((INR n - 1) / 2)) with 1 by (field; lra). replace (1 - 1) with 0 by ring. rewrite Rabs_R0.
  unfold Rltb. destruct (Rlt_dec tol 0); [lra|done].
Qed.
Print Assumptions C43_uniform.
(** A single element always raises ZeroDivisionError, although any alpha would do when l0 = ltot. *)
Theorem C43_one_element_refuted l0 ltot tol : 0 < l0 → 0 < ltot → tol < 1 → exponential_refinement_parameter l0 ltot 1 tol = Raise ZeroDivisionError.
Proof.
  intros H0 Hl Ht. unfold exponential_refinement_parameter. destruct (Z.to_nat 10000) as [|f] eqn:F; [lia|]. clear F.
  cbn [solve]. unfold Rltb at 1. destruct (Rlt_dec tol 1) as [|]; [|done]. unfold newton, err, err_prime, nR. replace (1 - 1) with 0 by ring. rewrite Rabs_R0.
  assert (Rltb 0 eps_approx = true) as ->. { unfold Rltb, eps_approx. destruct (Rlt_dec _ _); [done|lra]. }
  unfold divide, log. destruct (Req_EM_T ltot 0); [lra|]. cbn [rbind]. assert (0 < INR 1 * l0 / ltot) as Hp. { apply Rdiv_lt_0_compat; [cbn; lra|done]. }
  destruct (Rlt_dec 0 (INR 1 * l0 / ltot)); [|done]. cbn [rbind].
  match goal with |- context [Rlt_dec 0 ?x] => replace x with 1 by (cbn; field) end. destruct (Rlt_dec 0 1); [|lra]. cbn [rbind].
  match goal with |- context [Req_EM_T ?x 0] => replace x with 0 by (cbn; field); destruct (Req_EM_T 0 0) as [X|]; [|done] end. done.
Qed.
Print Assumptions C43_one_element_refuted.
(** Three elements of lengths 1, 2 and 4: the iteration is stationary at 2. *)
Example C43_sample : newton 1 7 3 2 = Ok 2 ∧ eps_approx <= Rabs (2 - 1) ∧ total_length 1 2 3 = 7.
Proof.
  assert (Rabs (2 - 1) = 1) as Ea by (rewrite Rabs_pos_eq; lra). assert (Rltb 1 eps_approx = false) as El. { unfold Rltb, eps_approx. destruct (Rlt_dec _ _); [lra|done]. }
  split; [|split; [rewrite Ea; unfold eps_approx; lra|cbn; lra]]. unfold newton, err, err_prime. rewrite Ea, El. unfold divide, log, nR.
  destruct (Req_EM_T (2 - 1) 0); [lra|]. cbn [rbind]. destruct (Req_EM_T 7 0); [lra|]. cbn [rbind]. replace ((2 ^ 3 - 1) / (2 - 1) * 1 / 7) with 1 by field.
  destruct (Rlt_dec 0 1); [|lra]. cbn [rbind]. rewrite ln_1.
  match goal with |- context [Req_EM_T ?x 0] => replace x with (7 / 3) by (cbn; field); destruct (Req_EM_T (7 / 3) 0); [lra|] end. cbn [rbind].
  match goal with |- context [Req_EM_T ?x 0] => destruct (Req_EM_T x 0) as [X|] end; [cbn in X; lra|]. cbn [rbind]. f_equal. cbn. field.
Qed.
