(** smallest_edge and face_center over the real numbers. *)
From Coq Require Import Lia Reals Lra.
From Verif Require Import Base Mesh Core Float MeshLemmas MeshSpec CheckProofs LimsProofs.
Open Scope Z_scope.

(** A corner of an element: 0 is the first, 1 the last index in each direction. *)
Definition last_if (b : bool) (n : nat) : nat := if b then (n - 1)%nat else 0%nat.
Definition corner {N} (e : elem N) (c : bool * bool * bool) : option (N * N * N) :=
  let '(lx, ly, lz) := eshape e in
  let '(bx, by', bz) := c in point e (last_if bz lz) (last_if by' ly) (last_if bx lx).
(** Nek5000's faces: 0 is y-low, 1 x-high, 2 y-high, 3 x-low, 4 z-low, 5 z-high. *)
Definition on_face (i : nat) (c : bool * bool * bool) : bool :=
  let '(bx, by', bz) := c in
  match i with
  | 0%nat => negb by' | 1%nat => bx | 2%nat => by' | 3%nat => negb bx | 4%nat => negb bz | 5%nat => bz
  | _ => false
  end.
Definition all_corners : list (bool * bool * bool) :=
  prod3 [false; true] [false; true] [false; true].
Definition face_corner_points {N} (e : elem N) (i : nat) : list (N * N * N) :=
  omap (corner e) (List.filter (on_face i) all_corners).
Definition sumR (l : list R) : R := foldr Rplus 0%R l.

Lemma point_py_corner (A : arith) (e : elem (num A)) lx ly lz (kz ky kx : Z) (bz by' bx : bool) :
  wf_geom_elem e → eshape e = (lx, ly, lz) →
  kx = (if bx then -1 else 0) → ky = (if by' then -1 else 0) → kz = (if bz then -1 else 0) →
  point_py e kz ky kx = of_opt IndexError (corner e (bx, by', bz)).
Proof.
  intros (lx' & ly' & lz' & Es & (Hx & Hy & Hz) & _) Es' -> -> ->. rewrite Es in Es'.
  injection Es' as -> -> ->. unfold point_py, corner. rewrite Es.
  assert (∀ n (b : bool), (1 ≤ n)%nat → py_pos n (if b then -1 else 0) = Some (last_if b n)) as H.
  { intros n [] Hn; [by rewrite py_pos_m1|by rewrite py_pos_0]. }
  rewrite !H by lia. done.
Qed.

Lemma face_center_corners (e : elem (num AR)) (i : nat) : wf_geom_elem e → (i < 6)%nat →
  length (face_corner_points e i) = 4%nat ∧
  face_center (A:=AR) e (Z.of_nat i) = Ok
    ((sumR ((λ p, p.1.1) <$> face_corner_points e i) / 4)%R,
     (sumR ((λ p, p.1.2) <$> face_corner_points e i) / 4)%R,
     (sumR ((λ p, p.2) <$> face_corner_points e i) / 4)%R).
Proof.
  intros Hw Hi. pose proof Hw as (lx & ly & lz & Es & (Hx & Hy & Hz) & _).
  assert (∀ b, ∃ p, corner e b = Some p) as HC.
  { intros [[bx by'] bz]. unfold corner. rewrite Es.
    destruct (point_Some e (last_if bz lz) (last_if by' ly) (last_if bx lx) lx ly lz) as [p Hp]; try done;
      try (unfold last_if; destruct bx, by', bz; lia). eauto. }
  destruct (HC (false, false, false)) as [[[x1 y1] z1] E1].
  destruct (HC (false, false, true)) as [[[x2 y2] z2] E2].
  destruct (HC (false, true, false)) as [[[x3 y3] z3] E3].
  destruct (HC (false, true, true)) as [[[x4 y4] z4] E4].
  destruct (HC (true, false, false)) as [[[x5 y5] z5] E5].
  destruct (HC (true, false, true)) as [[[x6 y6] z6] E6].
  destruct (HC (true, true, false)) as [[[x7 y7] z7] E7].
  destruct (HC (true, true, true)) as [[[x8 y8] z8] E8].
  unfold face_center, face_corner_points.
  assert (i = 0 ∨ i = 1 ∨ i = 2 ∨ i = 3 ∨ i = 4 ∨ i = 5)%nat as Hcases by lia.
  destruct Hcases as [->|[->|[->|[->|[->| ->]]]]];
  match goal with |- context [face_corners ?i] =>
    let v := eval vm_compute in (face_corners i) in change (face_corners i) with v end;
  match goal with |- context [List.filter ?f ?l] =>
    let v := eval vm_compute in (List.filter f l) in change (List.filter f l) with v end;
  cbn [mapR omap list_omap];
  repeat match goal with
  | |- context [point_py e ?a ?b ?c] =>
      rewrite (point_py_corner AR e lx ly lz a b c (a =? -1) (b =? -1) (c =? -1) Hw Es eq_refl eq_refl eq_refl);
      cbn [Z.eqb Pos.eqb]
  end;
  rewrite ?E1, ?E2, ?E3, ?E4, ?E5, ?E6, ?E7, ?E8;
  cbn [of_opt rbind fmap list_fmap length sumR foldr fst snd];
  (split; [reflexivity|]); unfold mean4, nlit; cbn;
  (apply f_equal; apply f_equal2; [apply f_equal2; field|field]).
Qed.

Lemma face_center_raises {A : arith} (e : elem (num A)) (i : Z) : ¬ (0 <= i < 6) →
  ∃ ex, face_center e i = Raise ex.
Proof.
  intros Hi. unfold face_center. destruct (face_corners i) eqn:E; [|eauto].
  exfalso. apply Hi, face_corners_range. eauto.
Qed.

(** ** smallest_edge *)
Definition distR (p q : R * R * R) : R :=
  let '(x1, y1, z1) := p in let '(x2, y2, z2) := q in
  R_sqrt.sqrt ((x2 - x1) ^ 2 + (y2 - y1) ^ 2 + (z2 - z1) ^ 2)%R.

Lemma dist2_distR p q : R_sqrt.sqrt (dist2 (A:=AR) p q) = distR p q.
Proof. destruct p as [[? ?] ?], q as [[? ?] ?]. unfold dist2, nsq, distR. cbn. f_equal. ring. Qed.
Lemma dist2_nonneg p q : (0 <= dist2 (A:=AR) p q)%R.
Proof. destruct p as [[? ?] ?], q as [[? ?] ?]. unfold dist2, nsq. cbn.
  apply Rplus_le_le_0_compat; [apply Rplus_le_le_0_compat|]; apply Rle_0_sqr. Qed.

(** The vertices (first two points in each direction) and the pairs that are compared. *)
Definition vertex {N} (e : elem N) (v : nat) : option (N * N * N) :=
  point e (v / 4) ((v / 2) mod 2) (v mod 2).
Definition edges2 : list (nat * nat) := [(0, 1); (2, 3); (0, 2); (1, 3)]%nat.
Definition edges3 : list (nat * nat) :=
  [(0, 1); (2, 3); (0, 2); (1, 3); (4, 5); (6, 7); (4, 6); (5, 7); (0, 4); (1, 5); (2, 6); (3, 7)]%nat.
Definition measured2 : list (nat * nat) := [(0, 1); (1, 2); (2, 3); (3, 0)]%nat.
Definition measured3 : list (nat * nat) :=
  [(0, 1); (1, 2); (2, 3); (3, 0); (4, 5); (5, 6); (6, 7); (7, 4); (0, 4); (1, 5); (2, 6); (3, 7)]%nat.

(** [s] is the smallest of the distances between the listed vertex pairs. *)
Definition smallest_of (e : elem R) (pairs : list (nat * nat)) (s : R) : Prop :=
  (∃ u v p q, (u, v) ∈ pairs ∧ vertex e u = Some p ∧ vertex e v = Some q ∧ s = distR p q) ∧
  ∀ u v p q, (u, v) ∈ pairs → vertex e u = Some p → vertex e v = Some q → (s <= distR p q)%R.

Lemma npmin_list_R (x : R) (l : list R) :
  (npmin_list (A:=AR) x l ∈ x :: l) ∧ ∀ y, y ∈ x :: l → (npmin_list (A:=AR) x l <= y)%R.
Proof.
  destruct (fold_npmin AR_order l [x] x (is_min_single AR_order x)) as [H1 [H2|H2]]; [done|].
  split; [exact H1|]. intros y Hy. destruct (H2 y Hy) as [_ Hle]. cbn in Hle. unfold Rleb in Hle.
  unfold npmin_list. by destruct (Rle_dec _ _).
Qed.

Lemma smallest_edge_measured (e : elem (num AR)) lx ly lz :
  wf_geom_elem e → eshape e = (lx, ly, lz) →
  ∃ s, smallest_edge (A:=AR) e = Ok s ∧
    smallest_of e (if (1 <? lz)%nat then measured3 else measured2) s.
Proof.
  intros Hw Es. pose proof Hw as (lx' & ly' & lz' & Es' & (Hx & Hy & Hz) & _).
  rewrite Es in Es'. injection Es' as <- <- <-.
  assert (∀ z y x : nat, (x < 2)%nat → (y < 2)%nat → (z < lz)%nat →
    ∃ p, point e z y x = Some p ∧ point_py (A:=AR) e (Z.of_nat z) (Z.of_nat y) (Z.of_nat x) = Ok p) as HP.
  { intros z y x ? ? ?. destruct (point_Some (A:=AR) e z y x lx ly lz) as [p Hp]; [done|done|lia..|].
    exists p. split; [done|]. unfold point_py. rewrite Es, !py_pos_nonneg by lia.
    destruct (Z.ltb_spec (Z.of_nat z) (Z.of_nat lz)); [|lia].
    destruct (Z.ltb_spec (Z.of_nat y) (Z.of_nat ly)); [|lia].
    destruct (Z.ltb_spec (Z.of_nat x) (Z.of_nat lx)); [|lia].
    rewrite !Nat2Z.id, Hp. done. }
  assert (∀ (l : list (nat * nat)) (D : list R) (d : R),
    Forall2 (λ uv d, ∃ p q, vertex e uv.1 = Some p ∧ vertex e uv.2 = Some q ∧ d = dist2 (A:=AR) p q) l D →
    d ∈ D → (∀ y, y ∈ D → (d <= y)%R) → smallest_of e l (R_sqrt.sqrt d)) as HS.
  { intros l D d HF Hin Hmin. split.
    - apply elem_of_list_lookup in Hin as [k Hk].
      destruct (Forall2_lookup_r _ _ _ _ _ HF Hk) as ([u v] & Huv & p & q & Hp & Hq & ->).
      exists u, v, p, q. split; [by eapply elem_of_list_lookup_2|]. split; [done|]. split; [done|].
      apply dist2_distR.
    - intros u v p q Huv Hp Hq. apply elem_of_list_lookup in Huv as [k Hk].
      destruct (Forall2_lookup_l _ _ _ _ _ HF Hk) as (d' & Hd' & p' & q' & Hp' & Hq' & ->). cbn in Hp', Hq'.
      rewrite Hp in Hp'. injection Hp' as <-. rewrite Hq in Hq'. injection Hq' as <-.
      rewrite <- dist2_distR. apply R_sqrt.sqrt_le_1_alt, Hmin. by eapply elem_of_list_lookup_2. }
  destruct (HP 0 0 0)%nat as (p1 & V1 & Q1); [lia..|]. change (Z.of_nat 0) with 0 in Q1.
  destruct (HP 0 0 1)%nat as (p2 & V2 & Q2); [lia..|]. change (Z.of_nat 0) with 0 in Q2. change (Z.of_nat 1) with 1 in Q2.
  destruct (HP 0 1 0)%nat as (p3 & V3 & Q3); [lia..|]. change (Z.of_nat 0) with 0 in Q3. change (Z.of_nat 1) with 1 in Q3.
  destruct (HP 0 1 1)%nat as (p4 & V4 & Q4); [lia..|]. change (Z.of_nat 0) with 0 in Q4. change (Z.of_nat 1) with 1 in Q4.
  unfold smallest_edge. rewrite Es, Q1. cbn [rbind]. rewrite Q2. cbn [rbind]. rewrite Q3. cbn [rbind].
  rewrite Q4. cbn [rbind].
  assert (∀ u v p q, vertex e u = Some p → vertex e v = Some q →
    (λ (uv : nat * nat) d, ∃ p q, vertex e uv.1 = Some p ∧ vertex e uv.2 = Some q ∧ d = dist2 (A:=AR) p q)
      (u, v) (dist2 (A:=AR) p q)) as HF by (cbn; eauto 10).
  destruct (Nat.ltb_spec 1 lz) as [Hlz|Hlz].
  - destruct (HP 1 0 0)%nat as (p5 & V5 & Q5); [lia..|]. change (Z.of_nat 0) with 0 in Q5. change (Z.of_nat 1) with 1 in Q5.
    destruct (HP 1 0 1)%nat as (p6 & V6 & Q6); [lia..|]. change (Z.of_nat 0) with 0 in Q6. change (Z.of_nat 1) with 1 in Q6.
    destruct (HP 1 1 0)%nat as (p7 & V7 & Q7); [lia..|]. change (Z.of_nat 0) with 0 in Q7. change (Z.of_nat 1) with 1 in Q7.
    destruct (HP 1 1 1)%nat as (p8 & V8 & Q8); [lia..|]. change (Z.of_nat 1) with 1 in Q8.
    rewrite Q5. cbn [rbind]. rewrite Q6. cbn [rbind]. rewrite Q7. cbn [rbind]. rewrite Q8. cbn [rbind].
    eexists. split; [done|].
    destruct (npmin_list_R (dist2 (A:=AR) p1 p2) [dist2 (A:=AR) p2 p3; dist2 (A:=AR) p3 p4; dist2 (A:=AR) p4 p1;
      dist2 (A:=AR) p5 p6; dist2 (A:=AR) p6 p7; dist2 (A:=AR) p7 p8; dist2 (A:=AR) p8 p5; dist2 (A:=AR) p1 p5;
      dist2 (A:=AR) p2 p6; dist2 (A:=AR) p3 p7; dist2 (A:=AR) p4 p8]) as [M1 M2].
    eapply HS; [|exact M1|exact M2]. repeat (apply Forall2_cons; split; [by apply HF|]). apply Forall2_nil. done.
  - eexists. split; [done|].
    destruct (npmin_list_R (dist2 (A:=AR) p1 p2) [dist2 (A:=AR) p2 p3; dist2 (A:=AR) p3 p4; dist2 (A:=AR) p4 p1]) as [M1 M2].
    eapply HS; [|exact M1|exact M2]. repeat (apply Forall2_cons; split; [by apply HF|]). apply Forall2_nil. done.
Qed.

(** When no y-edge is shorter than an x-edge of its cell and the compared diagonals are not
    shorter than an edge, the result is the shortest edge. This holds for boxes. *)
Definition is_box (e : elem R) (x0 dx y0 dy z0 dz : R) : Prop :=
  ∀ v p, vertex e v = Some p → (v < 8)%nat →
    p = ((x0 + (if (v mod 2 =? 1)%nat then dx else 0))%R,
         (y0 + (if ((v / 2) mod 2 =? 1)%nat then dy else 0))%R,
         (z0 + (if (v / 4 =? 1)%nat then dz else 0))%R).

Lemma sqrt_sq_le (a b : R) : (0 <= a)%R → (a ^ 2 <= b)%R → (a <= R_sqrt.sqrt b)%R.
Proof.
  intros Ha H. rewrite <- (R_sqrt.sqrt_pow2 a) by done. by apply R_sqrt.sqrt_le_1_alt.
Qed.
Lemma sqrt_eq_sq (a b : R) : (0 <= a)%R → b = (a ^ 2)%R → R_sqrt.sqrt b = a.
Proof. intros Ha ->. by apply R_sqrt.sqrt_pow2. Qed.

Lemma vertex_some (e : elem (num AR)) lx ly lz v : wf_geom_elem e → eshape e = (lx, ly, lz) →
  (v < (if (1 <? lz)%nat then 8 else 4))%nat → ∃ p, vertex e v = Some p.
Proof.
  intros Hw Es Hv. pose proof Hw as (lx' & ly' & lz' & Es' & (Hx & Hy & Hz) & _).
  rewrite Es in Es'. injection Es' as <- <- <-.
  destruct (point_Some (A:=AR) e (v / 4) ((v / 2) mod 2) (v mod 2) lx ly lz) as [p Hp]; [done..| | | |eauto].
  - pose proof (Nat.mod_upper_bound v 2). lia.
  - pose proof (Nat.mod_upper_bound (v / 2) 2). lia.
  - destruct (Nat.ltb_spec 1 lz).
    + apply Nat.lt_le_trans with 2%nat; [|lia]. apply Nat.div_lt_upper_bound; lia.
    + rewrite Nat.div_small by lia. lia.
Qed.

Lemma smallest_edge_box (e : elem (num AR)) lx ly lz x0 dx y0 dy z0 dz :
  wf_geom_elem e → eshape e = (lx, ly, lz) → is_box e x0 dx y0 dy z0 dz →
  (0 <= dx)%R → (0 <= dy)%R → (0 <= dz)%R →
  ∃ s, smallest_edge (A:=AR) e = Ok s ∧ s = (if (1 <? lz)%nat then Rmin dx dz else dx) ∧
    ((if (1 <? lz)%nat then Rmin dx dz else dx) <= dy →
     smallest_of e (if (1 <? lz)%nat then edges3 else edges2) s)%R.
Proof.
  intros Hw Es Hbox Hdx Hdy Hdz.
  destruct (smallest_edge_measured e lx ly lz Hw Es) as (s & Hs & Hatt & Hbnd).
  exists s. split; [done|].
  assert (∀ v, (v < (if (1 <? lz)%nat then 8 else 4))%nat → ∃ p, vertex e v = Some p) as HV.
  { intros v. by apply vertex_some with lx ly. }
  assert (∀ u v p q, vertex e u = Some p → vertex e v = Some q → (u < 8)%nat → (v < 8)%nat →
    distR p q = R_sqrt.sqrt (
      ((if (v mod 2 =? 1)%nat then dx else 0) - (if (u mod 2 =? 1)%nat then dx else 0)) ^ 2 +
      ((if ((v / 2) mod 2 =? 1)%nat then dy else 0) - (if ((u / 2) mod 2 =? 1)%nat then dy else 0)) ^ 2 +
      ((if (v / 4 =? 1)%nat then dz else 0) - (if (u / 4 =? 1)%nat then dz else 0)) ^ 2)%R) as HD.
  { intros u v p q Hp Hq Hu Hv. rewrite (Hbox _ _ Hp Hu), (Hbox _ _ Hq Hv). unfold distR. f_equal. ring. }
  destruct (Nat.ltb_spec 1 lz) as [Hlz|Hlz].
  - destruct (HV 0%nat) as [p0 V0]; [lia|]. destruct (HV 1%nat) as [p1 V1]; [lia|].
    destruct (HV 4%nat) as [p4 V4]; [lia|].
    assert (s <= dx)%R as B1.
    { eapply Rle_trans; [apply (Hbnd 0 1 p0 p1)%nat; [set_solver|done|done]|].
      rewrite (HD 0 1 p0 p1)%nat by (done || lia). cbn. apply Req_le, sqrt_eq_sq; [lra|ring]. }
    assert (s <= dz)%R as B2.
    { eapply Rle_trans; [apply (Hbnd 0 4 p0 p4)%nat; [unfold measured3; set_solver|done|done]|].
      rewrite (HD 0 4 p0 p4)%nat by (done || lia). cbn. apply Req_le, sqrt_eq_sq; [lra|ring]. }
    assert (s = Rmin dx dz) as Es'.
    { apply Rle_antisym; [by apply Rmin_glb|].
      destruct Hatt as (u & v & p & q & Huv & Hp & Hq & ->).
      unfold measured3 in Huv. rewrite !elem_of_cons, elem_of_nil in Huv.
      pose proof (Rmin_l dx dz). pose proof (Rmin_r dx dz).
      assert (0 <= Rmin dx dz)%R by (by apply Rmin_glb).
      assert (Rmin dx dz ^ 2 <= dx ^ 2)%R by (apply pow_incr; lra).
      assert (Rmin dx dz ^ 2 <= dz ^ 2)%R by (apply pow_incr; lra).
      assert (0 <= dy ^ 2)%R by nra.
      destruct_or! Huv; try done; injection Huv as -> ->;
        rewrite (HD _ _ _ _ Hp Hq) by lia; cbn -[Rpow_def.pow]; apply sqrt_sq_le; try done;
        unfold Rminus; nra. }
    split; [done|]. intros Hmin. rewrite Es'. split.
    + destruct (Rle_dec dx dz) as [Hle|Hle].
      * exists 0%nat, 1%nat, p0, p1. split; [set_solver|]. split; [done|]. split; [done|].
        rewrite (HD 0 1 p0 p1)%nat by (done || lia). cbn -[Rpow_def.pow]. rewrite Rmin_left by done.
        symmetry. apply sqrt_eq_sq; [done|ring].
      * exists 0%nat, 4%nat, p0, p4. split; [unfold edges3; set_solver|]. split; [done|]. split; [done|].
        rewrite (HD 0 4 p0 p4)%nat by (done || lia). cbn -[Rpow_def.pow]. rewrite Rmin_right by lra.
        symmetry. apply sqrt_eq_sq; [done|ring].
    + intros u v p q Huv Hp Hq. unfold edges3 in Huv. rewrite !elem_of_cons, elem_of_nil in Huv.
      pose proof (Rmin_l dx dz). pose proof (Rmin_r dx dz).
      assert (0 <= Rmin dx dz)%R by (by apply Rmin_glb).
      assert (Rmin dx dz ^ 2 <= dx ^ 2)%R by (apply pow_incr; lra).
      assert (Rmin dx dz ^ 2 <= dz ^ 2)%R by (apply pow_incr; lra).
      assert (Rmin dx dz ^ 2 <= dy ^ 2)%R by (apply pow_incr; lra).
      destruct_or! Huv; try done; injection Huv as -> ->;
        rewrite (HD _ _ _ _ Hp Hq) by lia; cbn -[Rpow_def.pow]; apply sqrt_sq_le; try done; nra.
  - destruct (HV 0%nat) as [p0 V0]; [lia|]. destruct (HV 1%nat) as [p1 V1]; [lia|].
    assert (s <= dx)%R as B1.
    { eapply Rle_trans; [apply (Hbnd 0 1 p0 p1)%nat; [set_solver|done|done]|].
      rewrite (HD 0 1 p0 p1)%nat by (done || lia). cbn. apply Req_le, sqrt_eq_sq; [lra|ring]. }
    assert (0 <= dy ^ 2)%R by nra.
    assert (s = dx) as Es'.
    { apply Rle_antisym; [done|].
      destruct Hatt as (u & v & p & q & Huv & Hp & Hq & ->).
      unfold measured2 in Huv. rewrite !elem_of_cons, elem_of_nil in Huv.
      destruct_or! Huv; try done; injection Huv as -> ->;
        rewrite (HD _ _ _ _ Hp Hq) by lia; cbn -[Rpow_def.pow]; apply sqrt_sq_le; try done; nra. }
    split; [done|]. intros Hmin. rewrite Es'. split.
    + exists 0%nat, 1%nat, p0, p1. split; [set_solver|]. split; [done|]. split; [done|].
      rewrite (HD 0 1 p0 p1)%nat by (done || lia). cbn -[Rpow_def.pow].
      symmetry. apply sqrt_eq_sq; [done|ring].
    + intros u v p q Huv Hp Hq. unfold edges2 in Huv. rewrite !elem_of_cons, elem_of_nil in Huv.
      assert (dx ^ 2 <= dy ^ 2)%R by (apply pow_incr; lra).
      destruct_or! Huv; try done; injection Huv as -> ->;
        rewrite (HD _ _ _ _ Hp Hq) by lia; cbn -[Rpow_def.pow]; apply sqrt_sq_le; try done; nra.
Qed.
