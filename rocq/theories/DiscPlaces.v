(** Where the faces of the blocks of the disc lie, and how far apart they are. *)
From Coq Require Import Lia Reals Lra.
From Verif Require Import Base Mesh Float FloatLaws DiscSpec P_Disc.
Open Scope R_scope.

(** ** sin lies above its chord *)
Lemma sin_chord u : 0 <= u <= 1 → u <= sin (PI / 2 * u).
Proof.
  intros Hu. destruct (Req_EM_T u 0) as [->|H0]; [rewrite Rmult_0_r, sin_0; lra|].
  destruct (Req_EM_T u 1) as [->|H1]; [rewrite Rmult_1_r, sin_PI2; lra|].
  destruct (Rle_or_lt u (sin (PI / 2 * u))) as [|Hlt]; [done|exfalso].
  pose (f x := sin (PI / 2 * x) - x). pose (f' x := PI / 2 * cos (PI / 2 * x) - 1).
  assert (∀ x, derivable_pt_lim f x (f' x)) as Hd.
  { intros x. unfold f, f'. apply (derivable_pt_lim_minus (λ x, sin (PI / 2 * x)) (λ x, x)); [|apply derivable_pt_lim_id].
    replace (PI / 2 * cos (PI / 2 * x)) with (cos (PI / 2 * x) * (PI / 2 * 1)) by ring.
    apply (derivable_pt_lim_comp (λ x, PI / 2 * x) sin); [|apply derivable_pt_lim_sin].
    apply (derivable_pt_lim_scal (λ x, x) (PI / 2) x 1). apply derivable_pt_lim_id. }
  destruct (MVT_cor2 f f' 0 u) as (c & Ec & Hc); [lra|intros; apply Hd|].
  destruct (MVT_cor2 f f' u 1) as (d & Ed & Hd'); [lra|intros; apply Hd|].
  assert (f 0 = 0) as F0 by (unfold f; rewrite Rmult_0_r, sin_0; ring). assert (f 1 = 0) as F1 by (unfold f; rewrite Rmult_1_r, sin_PI2; ring).
  assert (f u < 0) as Fu by (unfold f; lra). rewrite F0 in Ec. rewrite F1 in Ed.
  assert (f' c < 0) as Nc by nra. assert (0 < f' d) as Nd by nra.
  assert (cos (PI / 2 * d) < cos (PI / 2 * c)) as Hcos. { pose proof PI_RGT_0. apply cos_decreasing_1; nra. }
  unfold f' in Nc, Nd. pose proof PI_RGT_0. nra.
Qed.
Lemma sqrt2_bounds : 7 / 5 < R_sqrt.sqrt 2 < 3 / 2.
Proof.
  pose proof (R_sqrt.sqrt_pos 2) as P. pose proof (R_sqrt.sqrt_sqrt 2 ltac:(lra)) as S. split; nra.
Qed.
Lemma cos_sin_4 a : cos a - sin a = R_sqrt.sqrt 2 * sin (PI / 4 - a).
Proof.
  rewrite sin_minus, cos_PI4, sin_PI4. pose proof sqrt2_bounds. field. lra.
Qed.
Lemma cos_sin_4' a : cos a + sin a = R_sqrt.sqrt 2 * sin (PI / 4 + a).
Proof.
  rewrite sin_plus, cos_PI4, sin_PI4. pose proof sqrt2_bounds. field. lra.
Qed.

Lemma dist_bounds u v D : 0 <= D → u * u + v * v <= D * D →
  (- D <= u <= D) ∧ (- D <= v <= D) ∧ (- (3 / 2 * D) <= u + v <= 3 / 2 * D) ∧ (- (3 / 2 * D) <= u - v <= 3 / 2 * D).
Proof.
  intros HD H. assert (∀ x k, 0 <= k → x * x <= k * k → - k <= x <= k) as A.
  { intros x k Hk Hx. split; apply Rnot_lt_le; intros L; nra. }
  pose proof (Rle_0_sqr u) as U. pose proof (Rle_0_sqr v) as V. pose proof (Rle_0_sqr (u + v)) as W. pose proof (Rle_0_sqr (u - v)) as X. pose proof (Rle_0_sqr D) as Y.
  unfold Rsqr in *. split; [apply A; lra|]. split; [apply A; lra|]. split; apply A; lra.
Qed.

Lemma along_nonneg i n : 0 <= along i n.
Proof.
  unfold along, Rdiv. destruct n as [|n]; [cbn; rewrite Rinv_0; lra|]. apply Rmult_le_pos; [apply pos_INR|]. left. apply Rinv_0_lt_compat, lt_0_INR. lia.
Qed.
Lemma along_le_1 i n : (i ≤ n)%nat → (1 ≤ n)%nat → along i n <= 1.
Proof.
  intros H Hn. unfold along. apply (Rmult_le_reg_r (INR n)); [apply lt_0_INR; lia|]. rewrite Rmult_1_l. unfold Rdiv. rewrite Rmult_assoc, Rinv_l by (apply not_0_INR; lia).
  rewrite Rmult_1_r. by apply le_INR.
Qed.

Inductive place := Side (q j : nat) | Seam (q i : nat) | Arc (q j : nat).

Section places.
Context (r s : R) (ns no : nat) (cf bf : R → R).
Definition hs : R := half_side r s.
Definition hc : R := half_side r 1.
Definition vertex (j i : nat) : R * R := mixed_point r s ns j (bf (along i no)) (cf (bf (along i no))).
(** A vertex on the lower edge of the quarter: (c, -c). *)
Definition diag (i : nat) : R := hs + bf (along i no) * (hc - hs).
Definition middle (p p' : R * R) : R * R := ((p.1 + p'.1) / 2, (p.2 + p'.2) / 2).
Definition base (P : place) : R * R :=
  match P with
  | Side _ j => middle (square_point r s ns ns j) (square_point r s ns ns (j + 1))
  | Seam _ i => middle (diag i, - diag i) (diag (i + 1), - diag (i + 1))
  | Arc _ j => middle (arc_point r ns j) (arc_point r ns (j + 1))
  end.
Definition quarter_of (P : place) : nat := match P with Side q _ | Seam q _ | Arc q _ => q end.
Definition at_place (P : place) : R * R := quarters (quarter_of P) (base P).
Definition on_mesh (P : place) : Prop :=
  (quarter_of P < 4)%nat ∧ match P with Side _ j | Arc _ j => (j < ns)%nat | Seam _ i => (i < no)%nat end.
(** What is known of the size of an element with a face at that place; [sq]: the element belongs to the square. *)
Definition size_at (sq : bool) (P : place) (sz : R) : Prop :=
  if sq then sz <= 2 * hs / INR ns else
  match P with
  | Side _ _ => True
  | Seam _ i => sz <= 3 / 2 * (diag (i + 1) - diag i)
  | Arc _ _ => sz < 40 * (r / INR ns) ∧ sz < 40 * ((1 - s) * r)
  end.

Hypothesis (Hr : 0 < r) (Hs : 0 < s < 1) (Hns : (1 ≤ ns)%nat) (Hno : (1 ≤ no)%nat).
Hypothesis (bf0 : bf 0 = 0) (bf1 : bf 1 = 1) (rising : ∀ i, (i < no)%nat → bf (along i no) < bf (along (i + 1) no)).

Lemma hc_bounds : 2 / 3 * r < hc < 5 / 7 * r.
Proof.
  unfold hc, half_side. pose proof sqrt2_bounds as B. rewrite Rmult_1_l. assert (r = r / R_sqrt.sqrt 2 * R_sqrt.sqrt 2) as E by (field; lra).
  set (x := r / R_sqrt.sqrt 2) in *. assert (0 < x) by (apply Rdiv_lt_0_compat; lra). split; nra.
Qed.
Lemma hs_hc : hs = s * hc.
Proof. unfold hs, hc, half_side, Rdiv. ring. Qed.
Lemma hs_pos : 0 < hs < hc.
Proof. pose proof hc_bounds. rewrite hs_hc. split; nra. Qed.
Lemma ns_pos : 0 < INR ns. Proof. apply lt_0_INR. lia. Qed.
Lemma diag_rising i i' : (i < i' ≤ no)%nat → diag i < diag i'.
Proof.
  intros [H H']. induction i' as [|i' IH]; [lia|]. pose proof hs_pos.
  assert (diag i' < diag (S i')) as Hd. { unfold diag. pose proof (rising i' ltac:(lia)) as R. rewrite Nat.add_1_r in R. nra. }
  destruct (decide (i = i')) as [->|]; [done|]. eapply Rlt_trans; [apply IH; lia|done].
Qed.
Lemma diag_start : diag 0 = hs.
Proof. unfold diag. rewrite along_0, bf0. ring. Qed.

(** Facts about the three kinds of places. *)
Lemma side_facts q j : (j < ns)%nat → ∃ t, base (Side q j) = (hs, t) ∧ t = (2 * INR j + 1) * (hs / INR ns) - hs ∧ - (hs - hs / INR ns) <= t <= hs - hs / INR ns.
Proof.
  intros Hj. pose proof ns_pos as Hp. pose proof hs_pos as Hh. exists ((2 * INR j + 1) * (hs / INR ns) - hs). split_and!.
  - cbn [base middle]. unfold middle, square_point. cbn [fst snd]. fold hs. rewrite along_n by done. unfold along. rewrite plus_INR. change (INR 1) with 1.
    apply pair_equal_spec. split; [field|field; lra].
  - done.
  - assert (0 < hs / INR ns) by (apply Rdiv_lt_0_compat; lra). pose proof (pos_INR j). nra.
  - assert (hs = INR ns * (hs / INR ns)) as E by (field; lra). assert (0 < hs / INR ns) by (apply Rdiv_lt_0_compat; lra).
    assert (INR j + 1 <= INR ns). { rewrite <- S_INR. apply le_INR. lia. } nra.
Qed.
Lemma seam_facts q i : (i < no)%nat → ∃ m, base (Seam q i) = (m, - m) ∧ m = (diag i + diag (i + 1)) / 2 ∧ hs <= diag i ∧ diag i < diag (i + 1).
Proof.
  intros Hi. exists ((diag i + diag (i + 1)) / 2). split; [cbn [base]; unfold middle; cbn [fst snd]; apply pair_equal_spec; split; field|]. split; [done|].
  split; [|apply diag_rising; lia]. destruct i as [|i]; [rewrite diag_start; lra|]. left. rewrite <- diag_start. apply diag_rising. lia.
Qed.
Lemma arc_angle j : (j ≤ ns)%nat → let a := PI / 2 * (along j ns - 1 / 2) in
  - (PI / 4) <= a <= PI / 4 ∧ PI / 4 - a = PI / 2 * (1 - along j ns) ∧ PI / 4 + a = PI / 2 * along j ns.
Proof.
  intros Hj a. pose proof (along_nonneg j ns). pose proof (along_le_1 j ns Hj Hns). pose proof PI_RGT_0. unfold a. split; [split; nra|]. split; lra.
Qed.
Lemma arc_x j : (j ≤ ns)%nat → hc <= (arc_point r ns j).1.
Proof.
  intros Hj. destruct (arc_angle j Hj) as (Ha & _). cbn [arc_point polar fst]. set (a := PI / 2 * (along j ns - 1 / 2)) in *.
  assert (cos (PI / 4) <= cos a) as Hc.
  { pose proof PI_RGT_0. destruct (Rle_or_lt 0 a) as [L|L]; [apply cos_decr_1; lra|]. rewrite <- (cos_neg a). apply cos_decr_1; lra. }
  rewrite cos_PI4 in Hc. unfold hc, half_side. assert (1 * r / R_sqrt.sqrt 2 = r * (1 / R_sqrt.sqrt 2)) as -> by (unfold Rdiv; ring). nra.
Qed.
Lemma arc_low j : (j ≤ ns)%nat → 7 / 5 * r * (1 - along j ns) <= (arc_point r ns j).1 - (arc_point r ns j).2 ∧ 7 / 5 * r * along j ns <= (arc_point r ns j).1 + (arc_point r ns j).2.
Proof.
  intros Hj. destruct (arc_angle j Hj) as (Ha & E1 & E2). cbn [arc_point polar fst snd]. unfold arc_point, polar. cbn [fst snd]. set (a := PI / 2 * (along j ns - 1 / 2)) in *.
  pose proof (along_nonneg j ns) as H0. pose proof (along_le_1 j ns Hj Hns) as H1. set (u := along j ns) in *. pose proof sqrt2_bounds as B.
  pose proof (sin_chord u ltac:(lra)) as C1. pose proof (sin_chord (1 - u) ltac:(lra)) as C2. rewrite <- E2 in C1. rewrite <- E1 in C2.
  assert (r * cos a - r * sin a = r * (R_sqrt.sqrt 2 * sin (PI / 4 - a))) as -> by (rewrite <- cos_sin_4; ring).
  assert (r * cos a + r * sin a = r * (R_sqrt.sqrt 2 * sin (PI / 4 + a))) as -> by (rewrite <- cos_sin_4'; ring).
  split; rewrite (Rmult_comm (7 / 5)), Rmult_assoc; (apply Rmult_le_compat_l; [lra|]); nra.
Qed.
Lemma arc_facts q j : (j < ns)%nat → ∃ x y, base (Arc q j) = (x, y) ∧ hc <= x ∧ 7 / 10 * (r / INR ns) <= x - y ∧ 7 / 10 * (r / INR ns) <= x + y.
Proof.
  intros Hj. cbn [base]. unfold middle. eexists _, _. split; [reflexivity|].
  pose proof (arc_x j ltac:(lia)) as X1. pose proof (arc_x (j + 1) ltac:(lia)) as X2.
  pose proof (arc_low j ltac:(lia)) as [L1 L2]. pose proof (arc_low (j + 1) ltac:(lia)) as [L3 L4].
  pose proof ns_pos as Hp.
  assert (along (j + 1) ns = along j ns + / INR ns) as Ea. { unfold along, Rdiv. rewrite plus_INR. change (INR 1) with 1. ring. }
  assert (0 <= along j ns) by apply along_nonneg. assert (along (j + 1) ns <= 1) by (apply along_le_1; lia).
  assert (0 < / INR ns) by (by apply Rinv_0_lt_compat). unfold Rdiv. rewrite Ea in *. set (u := along j ns) in *. set (w := / INR ns) in *.
  split; [lra|]. split; nra.
Qed.

(** Faces at different places are not taken for the same. *)
Lemma places_apart (fl fl' : bool) (P P' : place) (sz sz' D : R) : on_mesh P → on_mesh P' → P ≠ P' →
  size_at fl P sz → size_at fl' P' sz' →
  (match P with Side _ _ => fl = false | _ => fl = false end) →
  (match P' with Side _ _ => fl' = true | Arc q' _ => fl' = false ∧ (match P with Arc q _ => q ≠ q' | _ => True end) | Seam _ _ => fl' = false end) →
  0 <= D → D <= sz / 100 → D <= sz' / 100 →
  ((at_place P).1 - (at_place P').1) * ((at_place P).1 - (at_place P').1) + ((at_place P).2 - (at_place P').2) * ((at_place P).2 - (at_place P').2) <= D * D → False.
Proof.
  intros [Q I] [Q' I'] Hne S S' F F' HD D1 D2 H. apply dist_bounds in H as (Hx & Hy & Hp & Hm); [|done].
  pose proof hc_bounds as Bh. pose proof hs_pos as Bs. pose proof hs_hc as Eh. pose proof ns_pos as Bn.
  assert (0 < hs / INR ns) as Pu by (apply Rdiv_lt_0_compat; lra). assert (0 < r / INR ns) as Pr by (apply Rdiv_lt_0_compat; lra).
  assert (2 / 3 * ((1 - s) * r) <= hc - hs) as Gap. { rewrite Eh. nra. }
  assert (0 < (1 - s) * r) as Pg by nra. unfold at_place in *.
  destruct P as [q j|q i|q j], P' as [q' j'|q' i'|q' j']; cbn [quarter_of] in *; cbn [size_at] in S, S'; rewrite ?F in S.
  - rewrite F' in S'. unfold size_at in S'. destruct (side_facts q j I) as (t & E & Et & Bt). destruct (side_facts q' j' I') as (t' & E' & Et' & Bt'). rewrite E, E' in *.
    assert (2 * hs / INR ns = 2 * (hs / INR ns)) as Ew by (unfold Rdiv; ring). rewrite Ew in S'. set (u := hs / INR ns) in *.
    destruct (decide (q = q')) as [<-|Hq].
    + assert (t - t' <= - 2 * u ∨ t - t' >= 2 * u) as [T|T].
      { destruct (Nat.lt_trichotomy j j') as [L|[->|L]]; [left|done|right]; apply le_INR in L; rewrite S_INR in L; nra. }
      all: destruct q as [|[|[|[|q]]]]; [| | | |lia]; cbn [quarters fst snd] in *; lra.
    + destruct q as [|[|[|[|q]]]], q' as [|[|[|[|q']]]]; try lia; cbn [quarters fst snd] in *; lra.
  - unfold size_at in S'. rewrite F' in S'. destruct (side_facts q j I) as (t & E & Et & Bt). destruct (seam_facts q' i' I') as (m & E' & Em & B1 & B2). rewrite E, E' in *.
    destruct q as [|[|[|[|q]]]], q' as [|[|[|[|q']]]]; try lia; cbn [quarters fst snd] in *; lra.
  - unfold size_at in S'. destruct F' as [-> _]. destruct (side_facts q j I) as (t & E & Et & Bt). destruct (arc_facts q' j' I') as (x & y & E' & B1 & B2 & B3). rewrite E, E' in *.
    destruct q as [|[|[|[|q]]]], q' as [|[|[|[|q']]]]; try lia; cbn [quarters fst snd] in *; lra.
  - unfold size_at in S. destruct (side_facts q' j' I') as (t & E & Et & Bt). destruct (seam_facts q i I) as (m & E' & Em & B1 & B2). rewrite E, E' in *.
    destruct q as [|[|[|[|q]]]], q' as [|[|[|[|q']]]]; try lia; cbn [quarters fst snd] in *; lra.
  - unfold size_at in S. rewrite F' in S'. unfold size_at in S'. destruct (seam_facts q i I) as (m & E & Em & B1 & B2). destruct (seam_facts q' i' I') as (m' & E' & Em' & B1' & B2'). rewrite E, E' in *.
    destruct (decide (q = q')) as [<-|Hq].
    + assert (m - m' <= - ((diag (i + 1) - diag i) / 2) ∨ m - m' >= (diag (i + 1) - diag i) / 2) as [T|T].
      { destruct (Nat.lt_trichotomy i i') as [L|[->|L]]; [left|done|right].
        - assert (diag (i + 1) <= diag i'). { destruct (decide (i + 1 = i')%nat) as [->|]; [lra|left; apply diag_rising; lia]. } lra.
        - assert (diag (i' + 1) <= diag i). { destruct (decide (i' + 1 = i)%nat) as [->|]; [lra|left; apply diag_rising; lia]. } lra. }
      all: destruct q as [|[|[|[|q]]]]; [| | | |lia]; cbn [quarters fst snd] in *; lra.
    + destruct q as [|[|[|[|q]]]], q' as [|[|[|[|q']]]]; try lia; cbn [quarters fst snd] in *; lra.
  - unfold size_at in S. destruct F' as [-> _]. unfold size_at in S'. destruct (seam_facts q i I) as (m & E & Em & B1 & B2). destruct (arc_facts q' j' I') as (x & y & E' & B1' & B2' & B3). rewrite E, E' in *.
    destruct q as [|[|[|[|q]]]], q' as [|[|[|[|q']]]]; try lia; cbn [quarters fst snd] in *; lra.
  - unfold size_at in S. destruct (side_facts q' j' I') as (t & E & Et & Bt). destruct (arc_facts q j I) as (x & y & E' & B1 & B2 & B3). rewrite E, E' in *.
    destruct q as [|[|[|[|q]]]], q' as [|[|[|[|q']]]]; try lia; cbn [quarters fst snd] in *; lra.
  - unfold size_at in S. destruct (seam_facts q' i' I') as (m & E & Em & B1 & B2). destruct (arc_facts q j I) as (x & y & E' & B1' & B2' & B3). rewrite E, E' in *.
    destruct q as [|[|[|[|q]]]], q' as [|[|[|[|q']]]]; try lia; cbn [quarters fst snd] in *; lra.
  - unfold size_at in S. destruct F' as [-> Hq]. destruct (arc_facts q j I) as (x & y & E & B1 & B2 & B3). destruct (arc_facts q' j' I') as (x' & y' & E' & B1' & B2' & B3'). rewrite E, E' in *.
    destruct q as [|[|[|[|q]]]], q' as [|[|[|[|q']]]]; try lia; cbn [quarters fst snd] in *; lra.
Qed.
End places.
