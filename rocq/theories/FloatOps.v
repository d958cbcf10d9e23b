(** The value of the result of each float64 operation. *)
From Coq Require Import Lia Reals Lra.
From Flocq Require Import Core.Core IEEE754.BinarySingleNaN IEEE754.Binary IEEE754.Bits.
From Verif Require Import Base Float FloatLaws.
Open Scope Z_scope.

Definition rn (r : R) : R := round radix2 (FLT_exp (-1074) 53) (round_mode mode_NE) r.
(** [x] is a finite number with value [r]. *)
Definition isr (x : f64) (r : R) : Prop := is_finite 53 1024 x = true ∧ B2R 53 1024 x = r.
Definition fits (r : R) : Prop := (Rabs (rn r) < bpow radix2 1024)%R.
Lemma isr_self x : is_finite 53 1024 x = true → isr x (B2R 53 1024 x).
Proof. done. Qed.
Lemma rn_isr x r : isr x r → rn r = r.
Proof. intros [_ <-]. apply round_generic; [apply valid_rnd_round_mode|]. apply generic_format_B2R. Qed.
Lemma fits_isr x r : isr x r → fits r.
Proof. intros H. unfold fits. rewrite (rn_isr x r H). destruct H as [_ <-]. apply abs_B2R_lt_emax. Qed.
Lemma rn_0 : rn 0 = 0%R.
Proof. apply round_0, valid_rnd_round_mode. Qed.
Lemma rn_opp r : rn (- r) = (- rn r)%R.
Proof. unfold rn. cbn [round_mode]. apply round_NE_opp. Qed.
Lemma mul_isr x y a b : isr x a → isr y b → fits (a * b) → isr (nmul (a:=A64) x y) (rn (a * b)).
Proof.
  intros [Fx Vx] [Fy Vy] HF. pose proof (Bmult_correct 53 1024 prec53 emax1024 binop_nan_pl64 mode_NE x y) as H. rewrite Vx, Vy in H.
  rewrite Rlt_bool_true in H by exact HF. destruct H as (H1 & H2 & _). rewrite Fx, Fy in H2. split; [exact H2|exact H1].
Qed.
Lemma add_isr x y a b : isr x a → isr y b → fits (a + b) → isr (nadd (a:=A64) x y) (rn (a + b)).
Proof.
  intros [Fx Vx] [Fy Vy] HF. pose proof (Bplus_correct 53 1024 prec53 emax1024 binop_nan_pl64 mode_NE x y Fx Fy) as H. rewrite Vx, Vy in H.
  rewrite Rlt_bool_true in H by exact HF. destruct H as (H1 & H2 & _). split; [exact H2|exact H1].
Qed.
Lemma sub_isr x y a b : isr x a → isr y b → fits (a - b) → isr (nsub (a:=A64) x y) (rn (a - b)).
Proof.
  intros [Fx Vx] [Fy Vy] HF. pose proof (Bminus_correct 53 1024 prec53 emax1024 binop_nan_pl64 mode_NE x y Fx Fy) as H. rewrite Vx, Vy in H.
  rewrite Rlt_bool_true in H by exact HF. destruct H as (H1 & H2 & _). split; [exact H2|exact H1].
Qed.
Lemma div_isr x y a b : isr x a → isr y b → b ≠ 0%R → fits (a / b) → isr (ndiv (a:=A64) x y) (rn (a / b)).
Proof.
  intros [Fx Vx] [Fy Vy] Hb HF. pose proof (Bdiv_correct 53 1024 prec53 emax1024 binop_nan_pl64 mode_NE x y) as H. rewrite Vx, Vy in H.
  specialize (H Hb). rewrite Rlt_bool_true in H by exact HF. destruct H as (H1 & H2 & _). rewrite Fx in H2. split; [exact H2|exact H1].
Qed.
Lemma of_Z_isr z : Z.abs z <= 2 ^ 53 → isr (f64_of_Z z) (IZR z).
Proof. intros H. destruct (f64_of_Z_correct z H) as (A & B & _). done. Qed.
