(** C46: gen_circle. *)
From Coq Require Import Lia Reals Lra.
From Verif Require Import Base Float FloatLaws Mesh Core Tools Refine RefineSpec P_Refine DiscDefaults Disc DiscSpec DiscProofs MeshSpec ExtrudeSpec BoxProofs.
Open Scope Z_scope.

(** In any arithmetic: the number of elements, and the numbering. *)
Theorem C46_elements {A : arith} (T : trig (num A)) bo r s ns no cf bf var bc ib m : (1 ≤ no)%nat →
  gen_circle T bo r s ns no cf bf var bc ib = Ok m →
  nel m = (ns * ns + 4 * no * ns)%nat ∧ length (elems m) = nel m ∧ elmap m = ((λ i, Z.of_nat i + 1) <$> range (nel m)) ∧
  ndim m = 2%nat ∧ nbc m = length bc ∧ Mesh.var m = var ∧ lr1 m = [2; 2; 1]%nat.
Proof.
  intros Hno H. destruct (gen_circle_inv T bo r s ns no cf bf var bc ib m Hno H) as [R Hn Hm (l0 & l1 & l2 & l3 & l4 & E & B0 & B1 & B2 & B3 & B4)].
  split; [lia|]. split; [rewrite E, !app_length, (proj1 B0), (proj1 B1), (proj1 B2), (proj1 B3), (proj1 B4); lia|]. split; [by rewrite Hn|].
  unfold set_elmap, set_nel, set_elems, new_hexa in R. cbn in R. injection R. intros. done.
Qed.
Print Assumptions C46_elements.
(** The counter of curved edges is 0, although 4 * ns edges are curved. *)
Theorem C46_ncurv_refuted {A : arith} (T : trig (num A)) bo r s ns no cf bf var bc ib m : (1 ≤ no)%nat → (1 ≤ ns)%nat →
  gen_circle T bo r s ns no cf bf var bc ib = Ok m → curved_total m = 4 * Z.of_nat ns ∧ ncurv m = 0 ∧ ncurv m ≠ curved_total m.
Proof.
  intros Hno Hns H. pose proof (gen_circle_inv T bo r s ns no cf bf var bc ib m Hno H) as D. pose proof (disc_curved _ _ _ _ _ _ _ _ _ Hno D) as C.
  destruct D as [R _ _ _]. assert (ncurv m = 0) as N by (unfold set_elmap, set_nel, set_elems, new_hexa in R; cbn in R; injection R; intros; done). split; [done|]. split; [done|]. lia.
Qed.
Print Assumptions C46_ncurv_refuted.
(** It returns, for conditions that are neither internal nor periodic. *)
Theorem C46_returns {A : arith} (T : trig (num A)) bnd bo r s ns no cf bf var bc ib : arith_laws A bnd → (1 ≤ no)%nat →
  (∀ t, t ∈ bc → u3 t ≠ "P"%string ∧ u3 t ≠ "E"%string) → Z.of_nat (ns * ns + 4 * no * ns) <= bnd →
  ∃ m, gen_circle T bo r s ns no cf bf var bc ib = Ok m.
Proof. intros LA Hno Hb Hn. apply (gen_circle_returns T bnd); [done|done|done|]. lia. Qed.
Print Assumptions C46_returns.

(** ** Over the real numbers *)
Open Scope R_scope.
Definition TR : trig (num AR) := Trig cos sin atan PI.
Lemma sqrt2_half : R_sqrt.sqrt 2 = 2 / R_sqrt.sqrt 2.
Proof. assert (0 < R_sqrt.sqrt 2) by (apply sqrt_lt_R0; lra). apply (Rmult_eq_reg_r (R_sqrt.sqrt 2)); [|lra]. rewrite sqrt_sqrt by lra. field. lra. Qed.
Lemma nof_INR n : nof (A:=AR) n = INR n.
Proof. unfold nof. cbn. by rewrite INR_IZR_INZ. Qed.
Lemma frac_along i n : frac (A:=AR) i n = along i n.
Proof. unfold frac. rewrite !nof_INR. done. Qed.
Lemma half_R : half (A:=AR) = 1 / 2.
Proof. unfold half, nlit. cbn. lra. Qed.
Lemma diagonal_R r s : diagonal (A:=AR) r s = 2 * half_side r s.
Proof. unfold diagonal, half_side. cbn. rewrite sqrt2_half at 1. unfold Rdiv. ring. Qed.
Lemma square_corner_R r s ns j i : square_corner (A:=AR) r s ns j i = square_point r s ns i j.
Proof.
  unfold square_corner, square_point, square_coord. rewrite !frac_along, half_R, diagonal_R. cbn [AR nmul nsub num]. apply pair_equal_spec. split; lra.
Qed.
Lemma o_corner_R cf bf r s ns no j i : o_corner TR cf bf r (diagonal (A:=AR) r s) ns no j i =
  mixed_point r s ns j (bf (along i no)) (cf (bf (along i no))).
Proof.
  unfold o_corner. cbv zeta. rewrite !frac_along, half_R, diagonal_R. unfold mixed_point, polar. cbv zeta.
  assert (ndiv (a:=AR) (nofZ (2 * Z.of_nat j)) (nof ns) = 2 * along j ns) as ->.
  { rewrite nof_INR. cbn. unfold along. rewrite mult_IZR, <- INR_IZR_INZ. unfold Rdiv. ring. }
  cbn [AR nadd nsub nmul ndiv nofZ nsqrt num TR cosf sinf atanf pi].
  set (e := bf (along i no)). set (g := cf e). replace (1 / 2 * PI * (along j ns - 1 / 2)) with (PI / 2 * (along j ns - 1 / 2)) by lra.
  set (a := PI / 2 * (along j ns - 1 / 2)). set (b := atan (2 * along j ns - 1)).
  replace (1 / 2 * R_sqrt.sqrt 2 * r) with (half_side r 1) by (unfold half_side; rewrite sqrt2_half at 2; unfold Rdiv; lra).
  assert (half_side r 1 / cos b - 1 / 2 * (2 * half_side r s) / cos b = (half_side r 1 - half_side r s) / cos b) as -> by (unfold Rdiv; lra).
  replace (1 / 2 * (2 * half_side r s)) with (half_side r s) by lra.
  assert (half_side r s / cos b + e * ((half_side r 1 - half_side r s) / cos b) = (half_side r s + e * (half_side r 1 - half_side r s)) / cos b) as -> by (unfold Rdiv; ring).
  done.
Qed.
Lemma turn_quarter p : turn (A:=AR) (cos (1 / 2 * PI)) (sin (1 / 2 * PI)) p = quarters 1 p.
Proof.
  replace (1 / 2 * PI) with (PI / 2) by lra. unfold turn, rot_x, rot_y. rewrite cos_PI2, sin_PI2. destruct p as [x y]. cbn [AR nadd nsub nmul num fst snd quarters].
  apply pair_equal_spec. split; ring.
Qed.
Lemma times_quarters q p : times q (turn (A:=AR) (cos (1 / 2 * PI)) (sin (1 / 2 * PI))) p = quarters q p.
Proof. induction q as [|q IH]; [done|]. cbn [times]. rewrite IH, turn_quarter. cbn [quarters]. done. Qed.
Lemma corners_R e (p00 p01 p10 p11 : R * R) place : corners (A:=AR) e p00 p01 p10 p11 →
  place 0%nat 0%nat = p00 → place 0%nat 1%nat = p01 → place 1%nat 0%nat = p10 → place 1%nat 1%nat = p11 → has_corners e place.
Proof.
  intros [C1 C2] H0 H1 H2 H3. split; [done|]. split; [change (num AR) with R in *; rewrite C2; done|]. intros a b Ha Hb. unfold point. change (num AR) with R in *. rewrite C1, C2.
  destruct a as [|[|a]], b as [|[|b]]; try lia; rewrite ?H0, ?H1, ?H2, ?H3; done.
Qed.

(** Where the elements are, and which edges are curved. *)
Theorem C46_places bo r s ns no cf bf var bc ib (m : hexa R) : (1 ≤ no)%nat → gen_circle TR bo r s ns no cf bf var bc ib = Ok m →
  (∀ i j, (i < ns)%nat → (j < ns)%nat → ∃ e, elems m !! (i + ns * j)%nat = Some e ∧
     has_corners e (λ a b, square_point r s ns (i + b) (j + a)) ∧ straight e) ∧
  (∀ q i j, (q < 4)%nat → (i < no)%nat → (j < ns)%nat → ∃ e, elems m !! (ns * ns + q * (no * ns) + (i + no * j))%nat = Some e ∧
     has_corners e (λ a b, let eta := bf (along (i + b) no) in quarters q (mixed_point r s ns (j + a) eta (cf eta))) ∧
     if (i =? no - 1)%nat then arc_right r e else straight e).
Proof.
  intros Hno H. destruct (gen_circle_inv TR bo r s ns no cf bf var bc ib m Hno H) as [_ _ _ (l0' & l1' & l2' & l3' & l4' & E & B0 & B1 & B2 & B3 & B4)].
  pose (l0 := l0' : list (elem R)). pose (l1 := l1' : list (elem R)). pose (l2 := l2' : list (elem R)). pose (l3 := l3' : list (elem R)). pose (l4 := l4' : list (elem R)).
  assert (length l0 = ns * ns)%nat as L0 by exact (proj1 B0). assert (length l1 = no * ns)%nat as L1 by exact (proj1 B1). assert (length l2 = no * ns)%nat as L2 by exact (proj1 B2). assert (length l3 = no * ns)%nat as L3 by exact (proj1 B3).
  assert (elems m = l0 ++ l1 ++ l2 ++ l3 ++ l4) as E' by exact E. clear E. rename E' into E.
  assert (∀ e : elem R, ccurv e = replicate 12 ""%string → straight e) as HS. { intros e He k Hk. rewrite He. by apply lookup_replicate_2. }
  split.
  - intros i j Hi Hj. destruct (proj2 B0 i j Hi Hj) as (e & He & C & C1 & _). exists e.
    split; [rewrite E, lookup_app_l; [exact He|]; rewrite L0; apply elnum_lt; done|]. split; [|by apply HS].
    eapply corners_R; [exact C|rewrite square_corner_R, ?Nat.add_0_r; done..].
  - intros q i j Hq Hi Hj.
    assert (∃ l, blocked (A:=AR) l no ns (λ j i, times q (turn (A:=AR) (cosf TR (nmul (a:=AR) half (pi TR))) (sinf TR (nmul (a:=AR) half (pi TR)))) (o_corner TR cf bf r (diagonal (A:=AR) r s) ns no j i)) (outer_curves no r) ∧
      elems m !! (ns * ns + q * (no * ns) + (i + no * j))%nat = l !! elnum i j no) as (l & B & El).
    { pose proof (elnum_lt no ns i j Hi Hj) as Hlt. unfold elnum in *.
      assert (∀ p, elems m !! (ns * ns + p)%nat = (l1 ++ l2 ++ l3 ++ l4) !! p) as G. { intros p. rewrite E, <- L0. by rewrite lookup_app_r, Nat.add_comm, Nat.add_sub by lia. }
      rewrite <- Nat.add_assoc, G.
      destruct q as [|[|[|[|q]]]]; [exists l1; split; [exact B1|]|exists l2; split; [exact B2|]|exists l3; split; [exact B3|]|exists l4; split; [exact B4|]|lia].
      - rewrite lookup_app_l; [done|rewrite L1; lia].
      - rewrite lookup_app_r, lookup_app_l; [rewrite L1; f_equal; lia|rewrite L1, L2; lia|rewrite L1; lia].
      - rewrite lookup_app_r, lookup_app_r, lookup_app_l; [rewrite L1, L2; f_equal; lia|rewrite L1, L2, L3; lia|rewrite L1, L2; lia|rewrite L1; lia].
      - rewrite lookup_app_r, lookup_app_r, lookup_app_r; [rewrite L1, L2, L3; f_equal; lia|rewrite L1, L2, L3; lia|rewrite L1, L2; lia|rewrite L1; lia]. }
    destruct (proj2 B i j Hi Hj) as (e & He & C & C1 & C2). exists e. split; [rewrite El; exact He|]. split.
    + cbn [TR cosf sinf pi] in C. change (nmul (a:=AR) half PI) with (half (A:=AR) * PI) in C. rewrite half_R, !times_quarters, !o_corner_R in C.
      eapply corners_R; [exact C|rewrite ?Nat.add_0_r; done..].
    + unfold outer_curves in C1, C2. destruct (_ =? _)%nat; [|by apply HS]. split; [exact (f_equal (.!! 1%nat) C1)|]. split.
      * eexists. exact (f_equal (.!! 1%nat) C2).
      * intros k Hk Hk1. refine (eq_trans (f_equal (.!! k) C1) _). cbn [outer_curve fst]. rewrite list_lookup_insert_ne by done. by apply lookup_replicate_2.
Qed.
Print Assumptions C46_places.

(** The blocks fit together, and the outer edges lie on the circle, if the functions have the ends that are asked for:
    bf and cf map 0 to 0 and 1 to 1. *)
Lemma along_0 n : along 0 n = 0.
Proof. unfold along. cbn. unfold Rdiv. ring. Qed.
Lemma along_n n : (1 ≤ n)%nat → along n n = 1.
Proof. intros Hn. unfold along. field. apply not_0_INR. lia. Qed.
Lemma on_square r s ns j : (1 ≤ ns)%nat → mixed_point r s ns j 0 0 = square_point r s ns ns j.
Proof.
  intros Hn. unfold mixed_point, square_point, polar. cbv zeta. rewrite along_n by done. set (t := 2 * along j ns - 1). set (h := half_side r s).
  rewrite !Rmult_0_l, !Rplus_0_l, Rplus_0_r, Rminus_0_r, !Rmult_1_l.
  assert (0 < cos (atan t)) as Hc. { pose proof (atan_bound t). apply cos_gt_0; lra. }
  apply pair_equal_spec. split; [field; lra|]. transitivity (h * tan (atan t)); [unfold tan; field; lra|]. rewrite tan_atan. done.
Qed.
Lemma on_circle r s ns j : mixed_point r s ns j 1 1 = arc_point r ns j.
Proof. unfold mixed_point, arc_point. cbv zeta. f_equal; ring. Qed.
Lemma seam r s ns eta gamma : (1 ≤ ns)%nat → quarters 1 (mixed_point r s ns 0 eta gamma) = mixed_point r s ns ns eta gamma.
Proof.
  intros Hn. unfold mixed_point, polar. cbv zeta. rewrite along_0, along_n by done. cbn [quarters].
  replace (2 * 0 - 1) with (- (1)) by ring. replace (2 * 1 - 1) with 1 by ring. rewrite atan_opp, atan_1.
  replace (PI / 2 * (0 - 1 / 2)) with (- (PI / 4)) by field. replace (PI / 2 * (1 - 1 / 2)) with (PI / 4) by field.
  replace (gamma * - (PI / 4) + (1 - gamma) * - (PI / 4)) with (- (PI / 4)) by ring. replace (gamma * (PI / 4) + (1 - gamma) * (PI / 4)) with (PI / 4) by ring.
  rewrite cos_neg, sin_neg. rewrite cos_PI4, sin_PI4. apply pair_equal_spec. split; ring.
Qed.
Theorem C46_conforming r s ns no (cf bf : R → R) : (1 ≤ ns)%nat → (1 ≤ no)%nat → bf 0 = 0 → bf 1 = 1 → cf 0 = 0 → cf 1 = 1 →
  let vertex j i := mixed_point r s ns j (bf (along i no)) (cf (bf (along i no))) in
  (∀ j, vertex j 0%nat = square_point r s ns ns j) ∧
  (∀ i, quarters 1 (vertex 0%nat i) = vertex ns i) ∧
  (∀ j, vertex j no = arc_point r ns j) ∧
  (∀ j, let '(x, y) := arc_point r ns j in x * x + y * y = r * r).
Proof.
  intros Hns Hno B0 B1 C0 C1 vertex. unfold vertex. split_and!.
  - intros j. rewrite along_0, B0, C0. by apply on_square.
  - intros i. by apply seam.
  - intros j. rewrite along_n, B1, C1 by done. apply on_circle.
  - intros j. cbn [arc_point polar]. unfold arc_point, polar. set (t := PI / 2 * _). pose proof (sin2_cos2 t) as H. unfold Rsqr in H.
    replace (r * cos t * (r * cos t) + r * sin t * (r * sin t)) with (r * r * (sin t * sin t + cos t * cos t)) by ring. rewrite H. ring.
Qed.
Print Assumptions C46_conforming.
(** The default functions. The curvature has those ends; the spacing starts at 0, and ends at 1 if the factor solves the
    equation of C43. *)
Theorem C46_default_ends (cf bl : R → R) r s ns no : (1 ≤ no)%nat → default_bl_fun cf r s ns no = Ok bl →
  default_curvature 0 = 0 ∧ default_curvature 1 = 1 ∧
  ∃ l1 alpha, first_length cf r s ns = Ok l1 ∧ exponential_refinement_parameter l1 (width r s) no (/ 100000000000000) = Ok alpha ∧
    (0 < alpha → bl 0 = 0 ∧ (total_length l1 alpha no = width r s → width r s ≠ 0 → bl 1 = 1)).
Proof.
  intros Hno H. unfold default_bl_fun in H. destruct (first_length cf r s ns) as [l1|] eqn:E1; [|done]. cbn [rbind] in H.
  destruct (exponential_refinement_parameter _ _ _ _) as [alpha|] eqn:E2; [|done]. cbn [rbind] in H. assert (bl = exponential_spacing l1 (width r s) alpha no) as -> by congruence.
  split; [unfold default_curvature; replace (1 / 2 * PI * 0) with 0 by ring; rewrite sin_0; ring|].
  split; [unfold default_curvature; replace (1 / 2 * PI * 1) with (PI / 2) by field; rewrite sin_PI2; ring|].
  exists l1, alpha. split; [done|]. split; [done|]. intros Ha. unfold exponential_spacing, Rltb.
  destruct (Rlt_dec _ _) as [Hlt|Hge]; [done|]. assert (alpha - 1 ≠ 0) as Hn. { intros X. rewrite X, Rabs_R0 in Hge. apply Hge. lra. }
  split; [rewrite Rmult_0_l, Rpower_O by done; unfold Rdiv; ring|].
  intros Ht Hw. rewrite Rmult_1_l, Rpower_pow by done. pose proof (total_length_geometric l1 alpha no) as G. rewrite Ht in G.
  replace (l1 / width r s * (alpha ^ no - 1) / (alpha - 1)) with ((alpha ^ no - 1) * l1 / (width r s * (alpha - 1))) by (field; split; done). rewrite <- G. field. split; done.
Qed.
Print Assumptions C46_default_ends.
(** With one layer the default spacing always raises. *)
Theorem C46_default_one_layer_refuted (cf bl : R → R) r s ns : default_bl_fun cf r s ns 1 ≠ Ok bl.
Proof.
  unfold default_bl_fun. destruct (first_length cf r s ns) as [l1|]; [|done]. cbn [rbind]. unfold exponential_refinement_parameter.
  destruct (Z.to_nat 10000) as [|f] eqn:F; [lia|]. clear F. cbn [solve]. unfold Rltb at 1. destruct (Rlt_dec (/ 100000000000000) 1) as [|X]; [|lra].
  unfold newton, err, err_prime, nR. replace (1 - 1) with 0 by ring. rewrite Rabs_R0. assert (Rltb 0 eps_approx = true) as ->. { unfold Rltb, eps_approx. destruct (Rlt_dec _ _); [done|lra]. }
  unfold divide at 1. destruct (Req_EM_T (width r s) 0); [done|]. cbn [rbind]. unfold log at 1. destruct (Rlt_dec 0 (INR 1 * l1 / width r s)); [|done]. cbn [rbind].
  unfold log. match goal with |- context [Rlt_dec 0 ?x] => replace x with 1 by (cbn; field) end. destruct (Rlt_dec 0 1); [|lra]. cbn [rbind].
  unfold divide. match goal with |- context [Req_EM_T ?x 0] => replace x with 0 by (cbn; field); destruct (Req_EM_T 0 0) as [X|]; [|done] end. done.
Qed.
Print Assumptions C46_default_one_layer_refuted.

(** A disc of 2*2 + 4*2*2 elements, over the real numbers, with walls; the spacing is uniform. *)
Example C46_sample : ∃ m, gen_circle TR "little" 1 (1 / 2) 2 2 default_curvature (λ x, x) [2; 2; 1; 0; 0]%nat ["W"%string] true = Ok m ∧ nel m = 20%nat ∧ curved_total m = 8%Z ∧
  (default_curvature 0 = 0 ∧ default_curvature 1 = 1).
Proof.
  destruct (C46_returns TR 1000 "little" 1 (1 / 2) 2 2 default_curvature (λ x, x) [2; 2; 1; 0; 0]%nat ["W"%string] true (AR_laws 1000)) as [m E]; [lia| |cbn; lia|].
  - intros t Ht. apply elem_of_list_singleton in Ht as ->. done.
  - exists m. split; [exact E|]. split; [exact (proj1 (C46_elements TR _ _ _ 2 2 _ _ _ _ _ m ltac:(lia) E))|]. split; [exact (proj1 (C46_ncurv_refuted TR _ _ _ 2 2 _ _ _ _ _ m ltac:(lia) ltac:(lia) E))|].
    split; [unfold default_curvature; replace (1 / 2 * PI * 0) with 0 by ring; rewrite sin_0; ring|unfold default_curvature; replace (1 / 2 * PI * 1) with (PI / 2) by field; rewrite sin_PI2; ring].
Qed.
