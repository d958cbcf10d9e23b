(** C67: the disc of gen_circle is completely and correctly connected, over the real numbers. *)
From Coq Require Import Lia Reals Lra.
From Verif Require Import Base Mesh Core Tools Float FloatLaws MeshLemmas MeshSpec CheckProofs GeoLaws BoxSpec BoxProofs MergeSpec
  Disc DiscSpec DiscDefaults DiscProofs DiscPlaces DiscJoin DiscParts DiscWhole P_Disc.
Open Scope Z_scope.

(** The face on the circle: face 1 of the last element of row j of quarter q. *)
Definition circle_face (ns no q j : nat) : nat * nat := ((ns * ns + q * (no * ns) + (no - 1 + no * j))%nat, 1%nat).
(** Faces x and y are connected to each other in field b, and their centres coincide. *)
Definition connected_at (m : hexa R) (b : nat) (x y : nat * nat) : Prop :=
  linked (A:=AR) m b x "E" y ∧ linked (A:=AR) m b y "E" x ∧
  ∃ e e' c, elems m !! x.1 = Some e ∧ elems m !! y.1 = Some e' ∧ face_center (A:=AR) e (Z.of_nat x.2) = Ok c ∧ face_center (A:=AR) e' (Z.of_nat y.2) = Ok c.

(** The functions have the ends that gen_circle asks for, and the layers do not overlap; the elements at the circle are not
    more than 40 times as long as they are wide (the tolerance of merge is one hundredth of the smallest edge). *)
Theorem C67_joined bo r s ns no (cf bf : R → R) var bc : (0 < r)%R → (0 < s < 1)%R → (1 ≤ ns)%nat → (1 ≤ no)%nat →
  bf 0%R = 0%R → bf 1%R = 1%R → cf 0%R = 0%R → cf 1%R = 1%R →
  (∀ i, (i < no)%nat → (bf (along i no) < bf (along (i + 1) no))%R) →
  let vertex j i := mixed_point r s ns j (bf (along i no)) (cf (bf (along i no))) in
  (∀ j, (j < ns)%nat → let d := dist (vertex j (no - 1)%nat) (vertex j no) in (d < 40 * (r / INR ns) ∧ d < 40 * ((1 - s) * r))%R) →
  (0 < length bc)%nat → (∀ t, t ∈ bc → u3 t ≠ "P"%string ∧ u3 t ≠ "E"%string) →
  ∃ m : hexa R, gen_circle TR bo r s ns no cf bf var bc true = Ok m ∧ nel m = (ns * ns + 4 * (no * ns))%nat ∧ nbc m = length bc ∧
    (∀ q j b t, (q < 4)%nat → (j < ns)%nat → bc !! b = Some t →
       ∃ rc, get_bc m (circle_face ns no q j).1 b (circle_face ns no q j).2 = Some rc ∧ bt rc = u3 t) ∧
    (∀ x b, (x.1 < nel m)%nat → (x.2 < 4)%nat → (b < length bc)%nat → (∀ q j, (q < 4)%nat → (j < ns)%nat → x ≠ circle_face ns no q j) →
       ∃ y, y ≠ x ∧ (y.1 < nel m)%nat ∧ (y.2 < 4)%nat ∧ connected_at m b x y) ∧
    ∀ tol, (0 <= tol)%R → check_connectivity (A:=AR) tol m = Ok true.
Proof.
  intros Hr Hs Hns Hno B0 B1 C0 C1 Hris vertex Hmod Hbc Hty.
  destruct (disc_described r s ns no cf bf bc Hr Hs Hns Hno B0 B1 C0 C1 Hris Hmod Hbc Hty bo var) as (m' & F & E & D & [A1 A2] & Hn).
  pose (m := m' : hexa R). destruct (ds_joined _ _ _ _ _ _ _ _ D) as ((W & P & U & _) & NP & J). destruct (ds_dim _ _ _ _ _ _ _ _ D) as (Dd & Dl & Db).
  exists m. split; [exact E|]. split; [exact Hn|]. split; [exact Db|].
  assert (∀ i b f, (i < nel m')%nat → (b < length bc)%nat → (f < 4)%nat → in_mesh (A:=AR) m' i b f) as HI.
  { intros i b f Hi Hb Hf. split; [done|]. split; [rewrite Db; done|]. rewrite Dd. cbn. lia. }
  assert (∀ i b f, in_mesh (A:=AR) m' i b f → is_Some (get_bc m' i b f)) as HG.
  { intros i b f (Hi & Hb & Hf). rewrite Dd in Hf. cbn in Hf. apply (wf_get_bc (A:=AR) m'); [by destruct W|done|done|lia]. }
  assert (∀ (r : bcrec (num AR)) j g, points (A:=AR) r j g → names (A:=AR) r j g) as Hpn.
  { intros r0 j0 g0 [E3 E4]. unfold names. rewrite E3, E4. split; apply (law_trunc AR _ (AR_laws (Z.abs (Z.of_nat j0 + 1) + Z.abs (Z.of_nat g0 + 1)))); lia. }
  assert (∀ i b f rc, in_mesh (A:=AR) m' i b f → get_bc m' i b f = Some rc → is_conn (bt rc) → ∃ j g rc', in_mesh (A:=AR) m' j b g ∧ points (A:=AR) rc j g ∧
    get_bc m' j b g = Some rc' ∧ bt rc = "E"%string ∧ bt rc' = "E"%string ∧ points (A:=AR) rc' i f ∧ (i, f) ≠ (j, g) ∧ ∃ c, centre m' (i, f) c ∧ centre m' (j, g) c) as HP.
  { intros i b f rc Hin Hrc Hc. destruct (P i b f rc Hin Hrc Hc) as (j & g & rc' & Hin' & Hp & Hrc' & Ht & Hp'). exists j, g, rc'.
    assert (bt rc = "E"%string) as HE. { destruct Hc as [|HX]; [done|]. by apply NP in Hrc. }
    split; [done|]. split; [done|]. split; [done|]. split; [done|]. split; [by rewrite Ht|]. split; [done|].
    destruct Hin as (Hi & Hb & Hf). assert (in_mesh (A:=AR) m' i 0 f) as Hin0 by (split_and!; [done|lia|done]).
    destruct (HG i 0%nat f Hin0) as [r0 Hr0].
    destruct (U i b f rc r0 ltac:(by split_and!) Hrc Hr0 ltac:(by left)) as (T1 & T3 & T4).
    refine (J (i, f) (j, g) r0 Hin0 Hr0 _ _); [congruence|]. destruct Hp as [Hp3 Hp4]. split; cbn [fst snd]; congruence. }
  split; [|split].
  - intros q j b t Hq Hj Ht. destruct (proj2 (A1 (false, Arc q j))) as [y Hy]; [by split|]. pose proof (A2 _ _ _ _ Hy) as ->.
    destruct (ds_face _ _ _ _ _ _ _ _ D _ _ Hy) as (_ & _ & Hb & _). destruct (Hb b (lookup_lt_Some _ _ _ Ht)) as (rc & Hrc & Et).
    exists rc. split; [exact Hrc|]. cbn [type_at snd] in Et. refine (eq_trans Et _). f_equal. rewrite nth_lookup, Ht. done.
  - intros x b Hx1 Hx2 Hb Hno'. destruct (HG x.1 0%nat x.2) as [r0 Hr0]; [by apply HI|]. destruct (HG x.1 b x.2) as [rc Hrc]; [by apply HI|].
    destruct (decide (bt r0 = "E"%string)) as [HE|HE].
    + destruct (U _ _ _ rc r0 (HI x.1 b x.2 Hx1 Hb Hx2) Hrc Hr0) as (T1 & T3 & T4); [right; by left|].
      destruct (HP _ _ _ _ (HI x.1 b x.2 Hx1 Hb Hx2) Hrc) as (j & g & rc' & Hin' & Hp & Hrc' & _ & Ht' & Hp' & Hne & c & (e & He & Hc) & (e' & He' & Hc')); [left; congruence|].
      exists (j, g). destruct Hin' as (I1 & _ & I3). rewrite Dd in I3. cbn in I3. split; [intros <-; apply Hne; done|]. split; [done|]. split; [cbn; lia|].
      split; [exists rc; split; [exact Hrc|]; split; [exact (eq_trans T1 HE)|exact Hp]|]. split; [exists rc'; split; [exact Hrc'|]; split; [exact Ht'|exact Hp']|]. exists e, e', c. done.
    + destruct (ds_open _ _ _ _ _ _ _ _ D x r0 Hx1 Hx2 Hr0 HE) as [p Hp]. exfalso. assert (open_at ns no 4 p) as Ho by (apply A1; eauto).
      destruct p as [fl [q j|q i|q j]]; unfold open_at in Ho; cbn [fst snd] in Ho; [lia|lia|]. apply (Hno' q j); [lia|lia|]. exact (A2 _ _ _ _ Hp).
  - intros tol Ht. apply (check_connectivity_iff (A:=AR)); [exact W|]. intros i b f rc Hin Hrc Hc.
    destruct (HP _ _ _ _ Hin Hrc Hc) as (j & g & rc' & Hin' & Hp & Hrc' & Te & Ht' & Hp' & _ & c & (e & He & Hfc) & (e' & He' & Hfc')).
    exists j, g, rc'. destruct Hin' as (I1 & _ & I3). rewrite Dd in I3. cbn in I3. split; [split; [done|lia]|]. split; [by apply Hpn|]. split; [done|]. split; [congruence|]. split; [by apply Hpn|].
    intros _. destruct W as [_ Hgm]. destruct (smallest_edge_Ok (A:=AR) e (Hgm e (elem_of_list_lookup_2 _ _ _ He))) as [z Hz]. destruct (smallest_edge_Ok (A:=AR) e' (Hgm e' (elem_of_list_lookup_2 _ _ _ He'))) as [z' Hz'].
    exists e, e', c, c, z, z'. repeat (split; [done|]).
    destruct (smallest_edge_sqrt _ _ Hz) as [w ->]. destruct (smallest_edge_sqrt _ _ Hz') as [w' ->]. apply (geo_self AR AR_geo). cbn. unfold Rleb. by destruct (Rle_dec 0 tol).
Qed.
Print Assumptions C67_joined.

(** The condition on the outer elements always holds when ns < 20 and s < 19/20, for functions with values between 0 and 1. *)
Open Scope R_scope.
Lemma cos_low a : - (PI / 4) <= a <= PI / 4 → 1 / R_sqrt.sqrt 2 <= cos a.
Proof.
  intros Ha. rewrite <- cos_PI4. pose proof PI_RGT_0. destruct (Rle_dec 0 a); [apply cos_decr_1; lra|]. rewrite <- (cos_neg a). apply cos_decr_1; lra.
Qed.
Lemma atan_low t : -1 <= t <= 1 → - (PI / 4) <= atan t <= PI / 4.
Proof.
  intros Ht. rewrite <- atan_1, <- atan_opp. assert (∀ x y, x <= y → atan x <= atan y) as M. { intros x y [H| ->]; [left; by apply atan_increasing|lra]. }
  split; apply M; lra.
Qed.
Lemma mixed_within r s ns j eta gamma : 0 < r → 0 < s < 1 → (j ≤ ns)%nat → (1 ≤ ns)%nat → 0 <= eta <= 1 → 0 <= gamma <= 1 →
  let p := mixed_point r s ns j eta gamma in p.1 * p.1 + p.2 * p.2 <= r * r.
Proof.
  intros Hr Hs Hj Hns He Hg. unfold mixed_point. cbv zeta. set (t := along j ns). assert (0 <= t <= 1) as Ht. { split; [apply along_nonneg|by apply along_le_1]. }
  set (a := PI / 2 * (t - 1 / 2)). set (b := atan (2 * t - 1)). pose proof PI_RGT_0 as Hpi. pose proof sqrt2_bounds as Hq. pose proof (R_sqrt.sqrt_sqrt 2 ltac:(lra)) as Hqq. set (q := R_sqrt.sqrt 2) in *.
  assert (1 / q <= cos a) as Ca by (apply cos_low; unfold a; nra). assert (1 / q <= cos b) as Cb by (apply cos_low, atan_low; lra).
  assert (0 < 1 / q) as Hq0. { apply Rdiv_lt_0_compat; lra. }
  assert (∀ c x, 1 / q <= c → 0 <= x → 0 <= x / q / c <= x) as Hdiv.
  { intros c x Hc Hx. assert (0 < c) by lra. assert (x / q <= x * c) as H1. { replace (x / q) with (x * (1 / q)) by (field; lra). apply Rmult_le_compat_l; lra. }
    assert (0 <= x / q) as H2. { replace (x / q) with (x * (1 / q)) by (field; lra). apply Rmult_le_pos; lra. }
    split; [apply Rmult_le_pos; [done|left; by apply Rinv_0_lt_compat]|]. apply (Rmult_le_reg_r c); [done|]. replace (x / q / c * c) with (x / q) by (field; lra). lra. }
  set (u := half_side r s / cos a + eta * (r - half_side r s / cos a)). set (v := (half_side r s + eta * (half_side r 1 - half_side r s)) / cos b).
  assert (0 <= u <= r) as Hu. { pose proof (Hdiv (cos a) (s * r) Ca ltac:(nra)) as H1. unfold u, half_side. fold q. set (w := s * r / q / cos a) in *. assert (0 <= w <= r) by nra. nra. }
  assert (0 <= v <= r) as Hv.
  { assert (v = (s * r + eta * (1 * r - s * r)) / q / cos b) as -> by (unfold v, half_side; fold q; field; lra).
    assert (0 <= s * r <= r) by nra. set (w := s * r) in *. assert (0 <= w + eta * (1 * r - w) <= r) as Hw by nra. destruct (Hdiv (cos b) _ Cb (proj1 Hw)). lra. }
  unfold polar. cbn [fst snd]. set (d := gamma * u + (1 - gamma) * v). assert (0 <= d <= r) as Hd by (unfold d; nra). set (th := gamma * a + (1 - gamma) * b).
  pose proof (sin2_cos2 th) as H. unfold Rsqr in H. replace (d * cos th * (d * cos th) + d * sin th * (d * sin th)) with (d * d * (sin th * sin th + cos th * cos th)) by ring. rewrite H. nra.
Qed.
Lemma dist_within r p p' : 0 < r → p.1 * p.1 + p.2 * p.2 <= r * r → p'.1 * p'.1 + p'.2 * p'.2 <= r * r → dist p p' <= 2 * r.
Proof.
  intros Hr H1 H2. unfold dist. rewrite <- (R_sqrt.sqrt_square (2 * r)) by lra. apply R_sqrt.sqrt_le_1_alt.
  pose proof (Rle_0_sqr (p.1 + p'.1)) as A. pose proof (Rle_0_sqr (p.2 + p'.2)) as B. unfold Rsqr in *. lra.
Qed.
Lemma rising_within n (g : nat → R) : (∀ i, (i < n)%nat → g i < g (i + 1)%nat) → ∀ i, (i ≤ n)%nat → g 0%nat <= g i <= g n.
Proof.
  intros H. assert (∀ k i, (i + k ≤ n)%nat → g i <= g (i + k)%nat) as M.
  { induction k as [|k IH]; intros i Hi; [rewrite Nat.add_0_r; lra|]. eapply Rle_trans; [apply IH; lia|]. replace (i + S k)%nat with (i + k + 1)%nat by lia. left. apply H. lia. }
  intros i Hi. split; [apply (M i 0%nat); lia|]. replace n with (i + (n - i))%nat by lia. apply M. lia.
Qed.
Theorem C67_usual bo r s ns no (cf bf : R → R) var bc : 0 < r → 0 < s < 19 / 20 → (1 ≤ ns < 20)%nat → (1 ≤ no)%nat →
  bf 0 = 0 → bf 1 = 1 → cf 0 = 0 → cf 1 = 1 → (∀ x, 0 <= x <= 1 → 0 <= cf x <= 1) →
  (∀ i, (i < no)%nat → bf (along i no) < bf (along (i + 1) no)) →
  (0 < length bc)%nat → (∀ t, t ∈ bc → u3 t ≠ "P"%string ∧ u3 t ≠ "E"%string) →
  ∃ m : hexa R, gen_circle TR bo r s ns no cf bf var bc true = Ok m ∧ nel m = (ns * ns + 4 * (no * ns))%nat ∧
    (∀ q j b t, (q < 4)%nat → (j < ns)%nat → bc !! b = Some t →
       ∃ rc, get_bc m (circle_face ns no q j).1 b (circle_face ns no q j).2 = Some rc ∧ bt rc = u3 t) ∧
    (∀ x b, (x.1 < nel m)%nat → (x.2 < 4)%nat → (b < length bc)%nat → (∀ q j, (q < 4)%nat → (j < ns)%nat → x ≠ circle_face ns no q j) →
       ∃ y, y ≠ x ∧ (y.1 < nel m)%nat ∧ (y.2 < 4)%nat ∧ connected_at m b x y) ∧
    ∀ tol, 0 <= tol → check_connectivity (A:=AR) tol m = Ok true.
Proof.
  intros Hr Hs Hns Hno B0 B1 C0 C1 Hcf Hris Hbc Hty.
  assert (∀ i, (i ≤ no)%nat → 0 <= bf (along i no) <= 1) as Hbf.
  { intros i Hi. pose proof (rising_within no (λ i, bf (along i no)) Hris i Hi) as H. cbn beta in H. rewrite along_0, along_n, B0, B1 in H by done. done. }
  destruct (C67_joined bo r s ns no cf bf var bc Hr ltac:(lra) ltac:(lia) Hno B0 B1 C0 C1 Hris) as (m & E1 & E2 & _ & E3); [|done|done|].
  - intros j Hj d.
    assert (d <= 2 * r) as Hd. { unfold d. apply dist_within; [done| |]; apply mixed_within; try lra; try lia; try apply Hbf; try lia; apply Hcf, Hbf; lia. }
    assert (0 < INR ns < 20) as Hn. { split; [apply lt_0_INR; lia|]. replace 20 with (INR 20) by (cbn; lra). apply lt_INR. lia. }
    split; [|nra]. apply (Rle_lt_trans _ _ _ Hd). apply (Rmult_lt_reg_r (INR ns)); [lra|]. replace (40 * (r / INR ns) * INR ns) with (40 * r) by (field; lra). nra.
  - exists m. done.
Qed.
Print Assumptions C67_usual.
Lemma default_curvature_within x : 0 <= default_curvature x <= 1.
Proof. unfold default_curvature. set (t := 1 / 2 * PI * x). pose proof (SIN_bound t). cbn. nra. Qed.
(** The disc of C46_sample. *)
Example C67_sample : ∃ m : hexa R, gen_circle TR "little" 1 (1 / 2) 2 2 default_curvature (λ x, x) [2; 2; 1; 0; 0]%nat ["W"%string] true = Ok m ∧ nel m = 20%nat ∧
  check_connectivity (A:=AR) 0 m = Ok true ∧ (∃ rc, get_bc m 5 0 1 = Some rc ∧ bt rc = "W"%string) ∧ ∃ y, y ≠ (0%nat, 3%nat) ∧ connected_at m 0 (0%nat, 3%nat) y.
Proof.
  destruct C46_sample as (_ & _ & _ & _ & D0 & D1).
  assert (∀ i, (i < 2)%nat → along i 2 < along (i + 1) 2) as Hris. { intros i Hi. unfold along. destruct i as [|[|i]]; [| |lia]; cbn; lra. }
  assert (∀ t, t ∈ ["W"%string] → u3 t ≠ "P"%string ∧ u3 t ≠ "E"%string) as Ht. { intros t Ht. apply elem_of_list_singleton in Ht as ->. done. }
  assert (0 < length ["W"%string])%nat as Hl by (cbn; lia).
  destruct (C67_usual "little" 1 (1 / 2) 2 2 default_curvature (λ x, x) [2; 2; 1; 0; 0]%nat ["W"%string] ltac:(lra) ltac:(lra) ltac:(lia) ltac:(lia) eq_refl eq_refl D0 D1
    (λ x _, default_curvature_within x) Hris Hl Ht) as (m & E & En & Ho & Hi & Hc).
  exists m. split; [exact E|]. split; [exact En|]. split; [apply Hc; lra|]. split; [exact (Ho 0%nat 0%nat 0%nat "W"%string ltac:(lia) ltac:(lia) eq_refl)|].
  destruct (Hi (0%nat, 3%nat) 0%nat) as (y & Hy & _ & _ & Hy'); [rewrite En; cbn; lia|cbn; lia|cbn; lia|intros q j _ _; unfold circle_face; congruence|]. exists y. split; [exact Hy|exact Hy'].
Qed.
