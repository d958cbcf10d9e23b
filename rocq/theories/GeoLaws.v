(** The geometric laws needed for meshes built by the tools: a face coincides with itself,
    for any non-negative tolerance, in both arithmetics (including overflow and NaN). *)
From Coq Require Import Lia Reals Lra.
From Flocq Require Import Core.Core IEEE754.BinarySingleNaN IEEE754.Binary IEEE754.Bits.
From Verif Require Import Base Mesh Core Float FloatLaws MeshSpec.
Open Scope Z_scope.

Record geo_laws (A : arith) : Prop := {
  geo_self : ∀ (tol s s' : num A) (c : num A * num A * num A), nleb (nofZ 0) tol = true →
    nltb (nmul tol (pymin (nsqrt s) (nsqrt s'))) (nsqrt (dist2 c c)) = false;
  geo_sym : ∀ (c c' : num A * num A * num A) (t : num A),
    nleb (nsqrt (dist2 c c')) t = nleb (nsqrt (dist2 c' c)) t;
  geo_le : ∀ x y : num A, nleb x y = true → nltb y x = false;
  geo_min : ∀ x y : num A, nltb (nofZ 0) x = true → nltb (nofZ 0) y = true → pymin x y = pymin y x
}.

Lemma smallest_edge_sqrt {A : arith} (e : elem (num A)) s : smallest_edge e = Ok s → ∃ x, s = nsqrt x.
Proof.
  unfold smallest_edge. destruct (eshape e) as [[? ?] ?].
  repeat match goal with |- rbind ?x _ = _ → _ => destruct x; cbn [rbind]; [|discriminate] end.
  case_match.
  - repeat match goal with |- rbind ?x _ = _ → _ => destruct x; cbn [rbind]; [|discriminate] end.
    intros [= <-]. eauto.
  - intros [= <-]. eauto.
Qed.

Lemma AR_geo : geo_laws AR.
Proof.
  split.
  - intros tol s s' [[x y] z] Ht. unfold dist2, nsq, pymin. cbn in *. unfold Rleb, Rltb in *.
    destruct (Rle_dec 0 tol) as [Ht'|]; [|done].
    replace ((x - x) * (x - x) + (y - y) * (y - y) + (z - z) * (z - z))%R with 0%R by ring.
    rewrite R_sqrt.sqrt_0.
    destruct (Rlt_dec (R_sqrt.sqrt s') (R_sqrt.sqrt s));
      (destruct (Rlt_dec _ 0) as [H|]; [|done]); exfalso.
    + pose proof (R_sqrt.sqrt_pos s'). nra.
    + pose proof (R_sqrt.sqrt_pos s). nra.
  - intros [[x y] z] [[x' y'] z'] t. unfold dist2, nsq. cbn. do 2 f_equal. ring.
  - cbn. unfold Rleb, Rltb. intros x y. destruct (Rle_dec x y), (Rlt_dec y x); try done. lra.
  - intros x y _ _. unfold pymin. cbn. unfold Rltb. destruct (Rlt_dec y x), (Rlt_dec x y); try done; lra.
Qed.

(** ** float64 *)
(** Zero, positive or NaN. *)
Definition nonneg64 (x : f64) : Prop :=
  match x with
  | B754_zero _ _ _ => True | B754_nan _ _ _ _ _ => True
  | B754_infinity _ _ s => s = false | B754_finite _ _ s _ _ _ => s = false
  end.
Definition zero_or_nan (x : f64) : Prop :=
  match x with B754_zero _ _ _ => True | B754_nan _ _ _ _ _ => True | _ => False end.

Lemma zero_of_B2R (x : f64) : is_finite 53 1024 x = true → B2R 53 1024 x = 0%R → zero_or_nan x.
Proof.
  destruct x as [|?|?|s m e H]; cbn; try done. intros _ HR. exfalso.
  apply (F2R_neq_0 radix2 (Float radix2 (cond_Zopp s (Zpos m)) e)) in HR; [done|].
  cbn. by destruct s.
Qed.
Lemma nonneg_of_B2R (x : f64) : is_finite 53 1024 x = true → (0 <= B2R 53 1024 x)%R → nonneg64 x.
Proof.
  destruct x as [|?|?|s m e H]; try done. intros _ HR. destruct s; [|done]. exfalso.
  change (0 <= F2R (Float radix2 (Zneg m) e))%R in HR.
  assert (F2R (Float radix2 (Zneg m) e) < 0)%R; [by apply F2R_lt_0|lra].
Qed.

Lemma minus_self (x : f64) : zero_or_nan (b64_minus mode_NE x x).
Proof.
  destruct (is_finite 53 1024 x) eqn:F.
  - pose proof (Bminus_correct 53 1024 prec53 emax1024 (binop_nan_pl64) mode_NE x x F F) as H.
    rewrite Rminus_eq_0, round_0 in H by apply valid_rnd_round_mode.
    rewrite Rabs_R0, Rlt_bool_true in H by apply bpow_gt_0.
    destruct H as (H1 & H2 & _). by apply zero_of_B2R.
  - destruct x as [|[]|?|]; try done; by vm_compute.
Qed.
Lemma mult_zero (x : f64) : zero_or_nan x → zero_or_nan (b64_mult mode_NE x x).
Proof. destruct x as [s|s|s p H|s m e H]; try done. Qed.
Lemma plus_zero (x y : f64) : zero_or_nan x → zero_or_nan y → zero_or_nan (b64_plus mode_NE x y).
Proof.
  destruct x as [s|s|s p H|s m e H], y as [s'|s'|s' p' H'|s' m' e' H']; try done.
  intros _ _. destruct s, s'; done.
Qed.
Lemma sqrt_zero (x : f64) : zero_or_nan x → zero_or_nan (b64_sqrt mode_NE x).
Proof. destruct x as [s|s|s p H|s m e H]; try done. Qed.

Lemma sqrt_nonneg (x : f64) : nonneg64 (b64_sqrt mode_NE x).
Proof.
  destruct x as [s|s|s p H|s m e H]; try done; [by destruct s|].
  pose proof (Bsqrt_correct 53 1024 prec53 emax1024 (unop_nan_pl64) mode_NE (B754_finite 53 1024 s m e H))
    as (H1 & H2 & H3).
  destruct s.
  - change (b64_sqrt mode_NE (B754_finite 53 1024 true m e H)) with
      (Bsqrt 53 1024 prec53 emax1024 unop_nan_pl64 mode_NE (B754_finite 53 1024 true m e H)).
    cbn. done.
  - apply nonneg_of_B2R; [exact H2|]. rewrite H1 at 1.
    apply round_ge_generic; [typeclasses eauto|apply valid_rnd_round_mode|apply generic_format_0|].
    apply R_sqrt.sqrt_pos.
Qed.
Lemma mult_nonneg (x y : f64) : nonneg64 x → nonneg64 y → nonneg64 (b64_mult mode_NE x y).
Proof.
  intros Hx Hy.
  destruct (is_finite 53 1024 x) eqn:Fx; [destruct (is_finite 53 1024 y) eqn:Fy|].
  - assert (∀ z : f64, is_finite 53 1024 z = true → nonneg64 z → (0 <= B2R 53 1024 z)%R) as Hnn.
    { intros [s|s|s p H|s m e H]; try done; cbn; [lra|]. intros _ ->. cbn.
      by apply F2R_ge_0. }
    pose proof (Bmult_correct 53 1024 prec53 emax1024 binop_nan_pl64 mode_NE x y) as H.
    destruct (Rlt_bool _ _).
    + destruct H as (H1 & H2 & _). rewrite Fx, Fy in H2. apply nonneg_of_B2R; [exact H2|].
      change (b64_mult mode_NE x y) with (Bmult 53 1024 prec53 emax1024 binop_nan_pl64 mode_NE x y).
      rewrite H1.
      apply round_ge_generic; [typeclasses eauto|apply valid_rnd_round_mode|apply generic_format_0|].
      apply Rmult_le_pos; by apply Hnn.
    + change (b64_mult mode_NE x y) with (Bmult 53 1024 prec53 emax1024 binop_nan_pl64 mode_NE x y).
      destruct x as [s|s|s p Hh|s m e Hh], y as [s'|s'|s' p' Hh'|s' m' e' Hh']; try done.
      cbn in Hx, Hy. subst. cbn [Bsign xorb] in H. unfold binary_overflow in H. cbn in H.
      destruct (Bmult _ _ _ _ _ _ _ _); try done. cbn in H. by injection H as ->.
  - destruct y as [s'|s'|s' p' Hh'|s' m' e' Hh']; try done;
      destruct x as [s|s|s p Hh|s m e Hh]; try done; cbn in *; subst; done.
  - destruct x as [s|s|s p Hh|s m e Hh]; try done;
      destruct y as [s'|s'|s' p' Hh'|s' m' e' Hh']; try done; cbn in *; subst; done.
Qed.
Lemma ltb_nonneg_zero (a z : f64) : nonneg64 a → zero_or_nan z → f64_ltb a z = false.
Proof.
  destruct a as [s|s|s p H|s m e H], z as [s'|s'|s' p' H'|s' m' e' H']; try done;
    intros Ha _; cbn in Ha; subst; try done; unfold f64_ltb, b64_compare; cbn; try (by destruct s).
Qed.
Lemma leb_nonneg (x : f64) : f64_leb (f64_of_Z 0) x = true → nonneg64 x.
Proof.
  change (f64_of_Z 0) with (B754_zero 53 1024 false).
  destruct x as [s|s|s p H|s m e H]; try done; destruct s; done.
Qed.

(** (x - y)^2 = (y - x)^2 in float64, up to the payload of a NaN. *)
Definition eqn (x y : f64) : Prop := x = y ∨ (is_nan 53 1024 x = true ∧ is_nan 53 1024 y = true).

Lemma mult_opp (x y : f64) : is_finite 53 1024 x = true → is_finite 53 1024 y = true →
  B2R 53 1024 y = (- B2R 53 1024 x)%R →
  b64_mult mode_NE x x = b64_mult mode_NE y y.
Proof.
  intros Fx Fy HR.
  change (b64_mult mode_NE) with (Bmult 53 1024 prec53 emax1024 binop_nan_pl64 mode_NE).
  pose proof (Bmult_correct 53 1024 prec53 emax1024 binop_nan_pl64 mode_NE x x) as H1.
  pose proof (Bmult_correct 53 1024 prec53 emax1024 binop_nan_pl64 mode_NE y y) as H2.
  assert (xorb (Bsign 53 1024 x) (Bsign 53 1024 x) = xorb (Bsign 53 1024 y) (Bsign 53 1024 y)) as HX
    by (by rewrite !xorb_nilpotent).
  rewrite HR, Rmult_opp_opp in H2. rewrite <- HX in H2.
  destruct (Rlt_bool _ _).
  - destruct H1 as (A1 & A2 & A3), H2 as (B1 & B2 & B3). rewrite Fx in A2. rewrite Fy in B2.
    cbn in A2, B2. apply B2R_Bsign_inj; [done|done|congruence|]. rewrite A3, B3; [done|..].
    + destruct (Bmult _ _ _ _ _ _ y y); done.
    + destruct (Bmult _ _ _ _ _ _ x x); done.
  - apply B2FF_inj. congruence.
Qed.

Lemma nan_plus (x y : f64) : is_nan 53 1024 x = true ∨ is_nan 53 1024 y = true →
  is_nan 53 1024 (b64_plus mode_NE x y) = true.
Proof. destruct x, y; intros [H|H]; done. Qed.
Lemma nan_mult (x y : f64) : is_nan 53 1024 x = true ∨ is_nan 53 1024 y = true →
  is_nan 53 1024 (b64_mult mode_NE x y) = true.
Proof. destruct x, y; intros [H|H]; done. Qed.
Lemma nan_sqrt (x : f64) : is_nan 53 1024 x = true → is_nan 53 1024 (b64_sqrt mode_NE x) = true.
Proof. by destruct x. Qed.

Lemma sub_sq_sym (x y : f64) :
  eqn (b64_mult mode_NE (b64_minus mode_NE x y) (b64_minus mode_NE x y))
      (b64_mult mode_NE (b64_minus mode_NE y x) (b64_minus mode_NE y x)).
Proof.
  destruct (is_finite 53 1024 x) eqn:Fx; [destruct (is_finite 53 1024 y) eqn:Fy|].
  - left.
    change (b64_minus mode_NE) with (Bminus 53 1024 prec53 emax1024 binop_nan_pl64 mode_NE).
    pose proof (Bminus_correct 53 1024 prec53 emax1024 binop_nan_pl64 mode_NE x y Fx Fy) as H1.
    pose proof (Bminus_correct 53 1024 prec53 emax1024 binop_nan_pl64 mode_NE y x Fy Fx) as H2.
    cbn [round_mode] in H1, H2.
    replace (B2R 53 1024 y - B2R 53 1024 x)%R with (- (B2R 53 1024 x - B2R 53 1024 y))%R in H2 by ring.
    rewrite round_NE_opp, Rabs_Ropp in H2.
    destruct (Rlt_bool _ _).
    + destruct H1 as (A1 & A2 & _), H2 as (B1 & B2 & _). apply mult_opp; congruence.
    + destruct H1 as (A1 & _), H2 as (B1 & _). unfold binary_overflow in A1, B1. cbn in A1, B1.
      destruct (Bminus _ _ _ _ _ _ x y) as [|s| |]; try done.
      destruct (Bminus _ _ _ _ _ _ y x) as [|s'| |]; try done. by destruct s, s'.
  - destruct y as [s'|s'|s' p' H'|s' m' e' H']; try done.
    + left. destruct x as [s|s|s p H|s m e H]; try done; by destruct s'.
    + right. destruct x as [s|s|s p H|s m e H]; done.
  - destruct x as [s|s|s p H|s m e H]; try done.
    + destruct y as [s'|s'|s' p' H'|s' m' e' H']; try (left; by destruct s).
      destruct s, s'; first [by left | by right].
    + right. destruct y as [s'|s'|s' p' H'|s' m' e' H']; done.
Qed.
Lemma eqn_plus (x x' y y' : f64) : eqn x x' → eqn y y' →
  eqn (b64_plus mode_NE x y) (b64_plus mode_NE x' y').
Proof.
  intros [->|[H1 H2]] [->|[H3 H4]]; [by left|right..]; split; apply nan_plus; auto.
Qed.
Lemma eqn_sqrt (x x' : f64) : eqn x x' → eqn (b64_sqrt mode_NE x) (b64_sqrt mode_NE x').
Proof. intros [->|[H1 H2]]; [by left|right]. split; by apply nan_sqrt. Qed.
Lemma dist2_sym64 (c c' : f64 * f64 * f64) : eqn (dist2 (A:=A64) c c') (dist2 (A:=A64) c' c).
Proof.
  destruct c as [[x y] z], c' as [[x' y'] z']. unfold dist2, nsq.
  apply eqn_plus; [apply eqn_plus|]; apply sub_sq_sym.
Qed.
Lemma eqn_leb (x x' t : f64) : eqn x x' → f64_leb x t = f64_leb x' t.
Proof.
  intros [->|[H1 H2]]; [done|]. destruct x as [| |s p H|]; try done.
  destruct x' as [| |s' p' H'|]; try done.
Qed.
Lemma leb_ltb_false (x y : f64) : f64_leb x y = true → f64_ltb y x = false.
Proof.
  unfold f64_leb, f64_ltb, b64_compare. rewrite (Bcompare_swap 53 1024 x y).
  by destruct (Bcompare 53 1024 x y) as [[]|].
Qed.

Lemma positive_cases (x : f64) : f64_ltb (f64_of_Z 0) x = true →
  x = B754_infinity 53 1024 false ∨ ∃ m e H, x = B754_finite 53 1024 false m e H.
Proof.
  change (f64_of_Z 0) with (B754_zero 53 1024 false).
  destruct x as [s|s|s p H|s m e H]; try done; destruct s; try done; eauto.
Qed.
Lemma min_sym64 (x y : f64) : f64_ltb (f64_of_Z 0) x = true → f64_ltb (f64_of_Z 0) y = true →
  pymin (A:=A64) x y = pymin (A:=A64) y x.
Proof.
  intros Hx Hy. unfold pymin. change (nltb (a:=A64)) with f64_ltb.
  assert (f64_ltb y x = true → f64_ltb x y = false) as H1.
  { unfold f64_ltb, b64_compare. rewrite (Bcompare_swap 53 1024 x y).
    by destruct (Bcompare 53 1024 x y) as [[]|]. }
  destruct (f64_ltb y x) eqn:E1; [by rewrite H1|]. clear H1.
  destruct (f64_ltb x y) eqn:E2; [done|].
  apply positive_cases in Hx as [->|(m & e & H & ->)]; apply positive_cases in Hy as [->|(m' & e' & H' & ->)]; try done.
  unfold f64_ltb, b64_compare in E1, E2. rewrite Bcompare_correct in E1, E2 by done.
  destruct (Rcompare_spec (B2R 53 1024 (B754_finite 53 1024 false m e H)) (B2R 53 1024 (B754_finite 53 1024 false m' e' H')))
    as [C|C|C].
  - done.
  - by apply B2R_inj.
  - rewrite Rcompare_Lt in E1 by done. done.
Qed.

Lemma A64_geo : geo_laws A64.
Proof.
  split.
  - intros tol s s' [[x y] z] Ht. apply leb_nonneg in Ht.
    apply ltb_nonneg_zero.
    + apply mult_nonneg; [done|]. unfold pymin. destruct (nltb _ _); apply sqrt_nonneg.
    + apply sqrt_zero. unfold dist2, nsq.
      apply plus_zero; [apply plus_zero|]; apply mult_zero, minus_self.
  - intros c c' t. apply eqn_leb, eqn_sqrt, dist2_sym64.
  - exact leb_ltb_false.
  - exact min_sym64.
Qed.
