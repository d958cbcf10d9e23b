(** Proofs about [extrude_mid]: sizes, outer faces, and validity over the reals. *)
From Coq Require Import Lia Reals Lra.
From Flocq Require Import Core.Core IEEE754.BinarySingleNaN IEEE754.Binary IEEE754.Bits.
From Verif Require Import Base Mesh Core Tools Curve Mid Float FloatLaws MeshLemmas MeshSpec CheckProofs OpsProofs GeoLaws BoxProofs
  ExtrudeSpec ExtrudeProofs MidSpec MidProofs MidBlock MidMesh MidResult MidGeo MidFaces MidEntry MidConform.
Open Scope Z_scope.

(** ** Products *)
Lemma AR_mul bnd : mul_law (A:=AR) bnd.
Proof. intros x y _ _ _. cbn. by rewrite mult_IZR. Qed.
Lemma A64_mul : mul_law (A:=A64) bnd64.
Proof.
  intros x y [Hx Hx'] [Hy Hy'] Hxy. cbn. assert (Z.abs (x * y) <= bnd64) as Hs by (rewrite Z.abs_eq by nia; done).
  destruct (f64_of_Z_correct x ltac:(lia)) as (Rx & Fx & Sx).
  destruct (f64_of_Z_correct y ltac:(lia)) as (Ry & Fy & Sy).
  pose proof (Bmult_correct 53 1024 prec53 emax1024 binop_nan_pl64 mode_NE (f64_of_Z x) (f64_of_Z y)) as H.
  rewrite Rx, Ry, <- mult_IZR in H.
  change (SpecFloat.fexp 53 1024) with (FLT_exp (3 - 1024 - 53) 53) in H.
  rewrite (round64_int _ Hs) in H.
  rewrite Rlt_bool_true in H by (by apply int_lt_max).
  destruct H as (H1 & H2 & H3).
  assert (is_finite 53 1024 (Bmult 53 1024 prec53 emax1024 binop_nan_pl64 mode_NE (f64_of_Z x) (f64_of_Z y)) = true) as Hf.
  { rewrite H2. by rewrite Fx, Fy. }
  apply f64_eq_of_Z; [done|done|done|].
  etransitivity; [apply H3; by destruct (Bmult _ _ _ _ _ _ _ _)|]. rewrite Sx, Sy.
  destruct (Z.ltb_spec x 0), (Z.ltb_spec y 0), (Z.ltb_spec (x * y) 0); cbn; lia || done.
Qed.

Section final.
Context {A : arith}.
Notation N := (num A).
Implicit Types (e : elem N) (r : bcrec N).

Lemma curvature_workable f e : four_points e → curvature_ok e → low_corners f e = 2%nat → workable f e.
Proof.
  intros H4 (C1 & C2 & C3 & C4) Hl. split; [done|]. split; [done|]. split; [done|].
  destruct (orient f e) eqn:E; [done|]. apply orient_None in E. done.
Qed.
Lemma cut_low f e : cut_across f e → low_corners f e = 2%nat.
Proof.
  unfold cut_across, low_corners. cbn [List.filter fst snd].
  destruct (low f e 0 0), (low f e 1 0), (low f e 0 1), (low f e 1 1); cbn; intros [(? & ? & ?)|(? & ? & ?)]; done.
Qed.
Lemma linear_four m e : wf_mesh m → linear2d m → e ∈ elems m → four_points e.
Proof. intros Hw (_ & _ & _ & _ & L5) He. split; [by apply L5|by apply (proj2 Hw)]. Qed.
Lemma mid_pos_geom lo hi blo bhi tlo thi e : wf_geom_elem (set_pos3 (A:=A) (mid_pos lo hi blo bhi tlo thi) e).
Proof.
  exists 2%nat, 2%nat, 2%nat. split; [done|]. split; [lia|]. split; [done|]. cbn [pos set_pos3]. intros c Hc. unfold mid_pos in Hc.
  rewrite !elem_of_cons, elem_of_nil in Hc. destruct Hc as [->|[->|[->|[]]]]; by rewrite fmap_length, app_length, !fmap_length.
Qed.

Section mesh.
Context (f : N → N → N) (ib : bool) (z : list N) (q : nat) (c1 c2 : nat → string) (m m3 : hexa N).
Hypothesis Hw : wf_mesh m.
Hypothesis Hres : mid_result f ib z q c1 c2 m m3.
Lemma new_facts p y : elems m3 !! p = Some y → ∃ k i j e l x, (k < q)%nat ∧ (j < 6)%nat ∧ elems m !! i = Some e ∧ p = sixth (nel m) k i j ∧
  block f ib (nel m) (nbc m) k i (zk z k) e l ∧ l !! j = Some x ∧ strip_elem y = strip_elem x ∧ length <$> bcs y = length <$> bcs e ∧
  length (ccurv y) = 12%nat ∧ wf_geom_elem y ∧ eshape y = (2, 2, 2)%nat.
Proof using Hw Hres.
  intros Hy. pose proof Hres as (R1 & R2 & R3 & _ & _ & _ & _ & _ & Hel).
  assert (p < 6 * nel m * q)%nat as Hp by (rewrite <- R2, <- R3; by eapply lookup_lt_Some).
  destruct (sixth_div (nel m) q p Hp) as (k & i & j & (Hk & Hi & Hj) & ->).
  destruct (lookup_lt_is_Some_2 (elems m) i) as [e He]; [destruct Hw as [(_ & Hlen & _) _]; lia|].
  destruct (Hel k i e Hk He) as (l & Hbl & Hl). destruct (Hl j Hj) as (x & y' & Hx & Hy' & Exy & Bxy & _).
  rewrite Hy in Hy'. apply (inj Some) in Hy' as <-.
  exists k, i, j, e, l, x. split_and!; try done.
  - pose proof Hbl as (lo & hi & m0 & m1 & a0 & a1 & _ & _ & _ & F & _). destruct (Forall2_lookup_r _ _ _ _ _ F Hx) as (x0 & Hx0 & S1 & S2 & S3 & S4).
    rewrite Bxy, S4. unfold six_of, mid_six in Hx0. rewrite list_lookup_fmap in Hx0. apply fmap_Some in Hx0 as (? & _ & ->). done.
  - pose proof Hbl as (lo & hi & m0 & m1 & a0 & a1 & _ & _ & _ & F & _). destruct (Forall2_lookup_r _ _ _ _ _ F Hx) as (x0 & Hx0 & S1 & S2 & S3 & S4).
    transitivity (length (ccurv x)); [|done]. f_equal. exact (f_equal ccurv Exy).
  - pose proof Hbl as (lo & hi & m0 & m1 & a0 & a1 & _ & _ & _ & F & _). destruct (Forall2_lookup_r _ _ _ _ _ F Hx) as (x0 & Hx0 & S1 & S2 & S3 & S4).
    assert (wf_geom_elem x0) as G.
    { unfold six_of, mid_six in Hx0. rewrite list_lookup_fmap in Hx0. apply fmap_Some in Hx0 as (p & Hp' & ->). apply elem_of_list_lookup_2 in Hp'.
      rewrite !elem_of_cons, elem_of_nil in Hp'. destruct Hp' as [->|[->|[->|[->|[->|[->|[]]]]]]]; apply mid_pos_geom. }
    unfold wf_geom_elem in *. assert (eshape y = eshape x0 ∧ pos y = pos x0) as [-> ->]; [|done].
    split; [rewrite <- S1; exact (f_equal eshape Exy)|rewrite <- S2; exact (f_equal pos Exy)].
  - pose proof Hbl as (lo & hi & m0 & m1 & a0 & a1 & _ & _ & _ & F & _). destruct (Forall2_lookup_r _ _ _ _ _ F Hx) as (x0 & Hx0 & S1 & S2 & S3 & S4).
    transitivity (eshape x); [exact (f_equal eshape Exy)|]. rewrite S1. unfold six_of, mid_six in Hx0. rewrite list_lookup_fmap in Hx0. apply fmap_Some in Hx0 as (? & _ & ->). done.
Qed.
Lemma new_wf : wf_mesh m3.
Proof using Hw Hres.
  pose proof Hres as (R1 & R2 & R3 & _ & R5 & _). split.
  - split; [by right|]. split; [done|]. intros y Hy. apply elem_of_list_lookup in Hy as [p Hy].
    destruct (new_facts p y Hy) as (k & i & j & e & l & x & _ & _ & He & _ & _ & _ & _ & Bc & _).
    destruct Hw as [(_ & _ & Hrows) _]. destruct (Hrows e) as [N1 N2]; [by eapply elem_of_list_lookup_2|].
    split; [rewrite R5, <- N1; apply (f_equal (@length _)) in Bc; by rewrite !fmap_length in Bc|].
    intros row Hrow. apply (elem_of_list_fmap_1 length) in Hrow. rewrite Bc in Hrow. apply elem_of_list_fmap in Hrow as (row' & -> & Hr'). by apply N2.
  - intros y Hy. apply elem_of_list_lookup in Hy as [p Hy]. by destruct (new_facts p y Hy) as (k & i & j & e & l & x & _ & _ & _ & _ & _ & _ & _ & _ & _ & G & _).
Qed.
Lemma new_stack : (∀ e, e ∈ elems m → four_points e) → (∀ e, e ∈ elems m → cut_across f e) → length z = (4 * q + 1)%nat → is_mid_stack f m z m3.
Proof using Hw Hres.
  intros H4 Hcut Hz. pose proof Hres as (R1 & R2 & R3 & R4 & R5 & R6 & R7 & R8 & Hel). unfold is_mid_stack.
  assert ((length z - 1) / 4 = q)%nat as ->. { rewrite Hz. replace (4 * q + 1 - 1)%nat with (q * 4)%nat by lia. apply Nat.div_mul. lia. }
  cbv zeta. split; [done|]. split; [done|]. split; [done|]. split; [done|]. split; [done|]. split.
  - rewrite R7. apply count_curved_total. intros y Hy. apply elem_of_list_lookup in Hy as [p Hy].
    by destruct (new_facts p y Hy) as (k & i & j & e & l & x & _ & _ & _ & _ & _ & _ & _ & _ & C & _).
  - intros k i e j Hk He Hj. destruct (Hel k i e Hk He) as (l & Hbl & Hl). destruct (Hl j Hj) as (x & y & Hx & Hy & Exy & _).
    exists y. split; [done|]. assert (e ∈ elems m) as Hin by (by eapply elem_of_list_lookup_2).
    pose proof (block_sixth f ib (nel m) (nbc m) k i (zk z k) e l j x (H4 e Hin) (Hcut e Hin) Hbl Hx) as [S1 S2].
    assert (eshape y = eshape x ∧ pos y = pos x) as [Y1 Y2] by (split; [exact (f_equal eshape Exy)|exact (f_equal pos Exy)]).
    split; [congruence|]. intros lv j' i' ? ? ?. specialize (S2 lv j' i' ltac:(done) ltac:(done) ltac:(done)).
    destruct (place _ _ _) as [at_cut h]. destruct S2 as (px & py & pz & Q1 & Q2). exists px, py, pz. split; [done|].
    unfold zk in Q2. rewrite <- Q2. unfold point. by rewrite Y1, Y2.
Qed.
End mesh.

(** ** Outer faces *)
Section outer.
Context (f : N → N → N) (z : list N) (q : nat) (c1 c2 : nat → string) (m m3 : hexa N).
Hypothesis Hw : wf_mesh m.
Hypothesis Hcut : ∀ e, e ∈ elems m → cut_across f e.
Hypothesis Hres : mid_result f true z q c1 c2 m m3.
Hypothesis Hcond : ∀ b, (b < nbc m)%nat → end_condition (c1 b) ∧ end_condition (c2 b) ∧ (c1 b = "P"%string ↔ c2 b = "P"%string).
Lemma sides_all s g : good_sides s → (g < 4)%nat → g = s_hi s ∨ g = s_lo s ∨ g = s_l0 s ∨ g = s_l1 s.
Proof.
  intros [(H1 & H2 & H3 & H4) Hnd] Hg. rewrite !NoDup_cons, !not_elem_of_cons in Hnd. lia.
Qed.
Lemma outer_none lo hi j : (lo, hi) ∈ cuts → (j < 6)%nat →
  (j ∈ [0; 2; 3; 5]%nat ↔ touching (mid_sides lo hi) j (s_lo (mid_sides lo hi)) = None) ∧
  (j ∈ [1; 4]%nat ↔ touching (mid_sides lo hi) j (s_hi (mid_sides lo hi)) = None).
Proof.
  intros Hin Hj. unfold cuts in Hin. rewrite !elem_of_cons, elem_of_nil in Hin.
  destruct Hin as [Hin|[Hin|[Hin|[Hin|[]]]]]; injection Hin as -> ->; sides; rewrite !elem_of_cons, !elem_of_nil;
    (destruct j as [|[|[|[|[|[|]]]]]]; [| | | | | |lia]); repeat split; intros Hj'; first [reflexivity|exfalso; lia|lia|discriminate Hj'].
Qed.
Lemma new_outer k i e j b g r' : (k < q)%nat → elems m !! i = Some e → (j < 6)%nat → (b < nbc m)%nat → (g < 6)%nat →
  get_bc m3 (sixth (nel m) k i j) b g = Some r' → outer_entry f m q c1 c2 k i j b g e (bt r').
Proof using Hw Hcut Hres Hcond.
  intros Hk He Hj Hb Hg Hr'. destruct (get_new f z q c1 c2 m m3 Hw Hcut Hres k i e j b g Hk He Hj Hb Hg) as (r & r0 & Hr & Hr0 & HE).
  rewrite Hr' in Hr0. apply (inj Some) in Hr0 as <-. destruct (Hcond b Hb) as ((U1 & N1) & (U2 & N2) & HPP).
  destruct (sides_spec f m Hcut i e He) as (lo & hi & Ho & Hin & Es & Hsc & Hlo & Hhi & B1 & B2).
  destruct (splits_sound lo hi) as [Hgs _]; [unfold splits; apply elem_of_app; by left|]. rewrite <- Es in Hgs.
  destruct (touching_ends lo hi j Hin Hj) as ((d4 & j4 & g4 & T4 & D4) & (d5 & j5 & g5 & T5 & D5) & T0 & T1). rewrite <- Es in T4, T5, T0, T1.
  assert (side_cut f e g → bt r' = bt r) as Hside.
  { intros Hc. apply Hsc in Hc as Hl. destruct Hc as [Hg4 _].
    destruct HE as [(d & j' & g' & Et & _)|[(-> & _)|[(-> & _)|[(_ & ->)|(_ & _ & ->)]]]]; [|lia|lia|apply mid_ref_bt|done].
    destruct Hl as [-> | ->]; congruence. }
  unfold outer_entry. split_and!.
  - intros Hc. exists r. split; [done|]. by apply Hside.
  - intros Hg4 Hl Hn. exists r. split; [done|]. assert (g = s_lo (sides_of f e)) as ->.
    { destruct (sides_all (sides_of f e) g Hgs Hg4) as [-> |[-> |Hx]]; [congruence|done|]. exfalso. apply Hsc in Hx as [_ Hx]. by rewrite Hl in Hx. }
    destruct (outer_none lo hi j Hin Hj) as [X _]. apply X in Hn as X'. clear X. rename X' into X. rewrite <- Es in X.
    destruct HE as [(d & j' & g' & Et & _)|[(? & _)|[(? & _)|[(_ & ->)|(_ & _ & ->)]]]]; [congruence|lia|lia|apply mid_ref_bt|done].
  - intros Hg4 Hl Hn. exists r. split; [done|]. assert (g = s_hi (sides_of f e)) as ->.
    { destruct (sides_all (sides_of f e) g Hgs Hg4) as [-> |[-> |Hx]]; [done|congruence|]. exfalso. apply Hsc in Hx as [_ Hx]. by rewrite Hl in Hx. }
    destruct (outer_none lo hi j Hin Hj) as [_ X]. apply X in Hn as X'. clear X. rename X' into X. rewrite <- Es in X.
    destruct HE as [(d & j' & g' & Et & _)|[(? & _)|[(? & _)|[(_ & ->)|(_ & _ & ->)]]]]; [congruence|lia|lia|apply mid_ref_bt|done].
  - intros -> -> Hn. rewrite !elem_of_cons, elem_of_nil in Hn. assert (d4 = 0%nat) as -> by (apply D4; lia).
    destruct HE as [(d & j' & g' & Et & Hd & _)|[(_ & _ & _ & T & _)|[(? & _)|[(Hl & _)|(Hl & _ & _)]]]].
    + rewrite T4 in Et. injection Et as <- _ _. lia.
    + congruence.
    + lia.
    + exfalso. destruct Hgs as [(_ & _ & ? & ?) _]. lia.
    + exfalso. lia.
  - intros -> -> Hn. rewrite !elem_of_cons, elem_of_nil in Hn. assert (d5 = 2%nat) as -> by (apply D5; lia).
    destruct HE as [(d & j' & g' & Et & Hd & _)|[(? & _)|[(_ & _ & _ & T & _)|[(Hl & _)|(Hl & _ & _)]]]].
    + rewrite T5 in Et. injection Et as <- _ _. lia.
    + lia.
    + congruence.
    + exfalso. destruct Hgs as [(_ & _ & ? & ?) _]. lia.
    + exfalso. lia.
  - intros O1 O2 O3 O4 O5. destruct HE as [(d & j' & g' & Et & Hd & T & _)|[(-> & -> & Hj' & _)|[(-> & -> & Hj' & _)|[(Hl & _)|(Hl & Et & _)]]]]; [done|exfalso..].
    + apply O4. split; [done|]. split; [done|]. rewrite !elem_of_cons. tauto.
    + apply O5. split; [done|]. split; [done|]. rewrite !elem_of_cons. tauto.
    + by apply O1, Hsc.
    + rewrite Es in Et. destruct (outer_none lo hi j Hin Hj) as [X Y]. destruct Hl as [-> | ->].
      * apply O2. split; [done|]. split; [done|]. apply X. by rewrite <- Es in *.
      * apply O3. split; [done|]. split; [done|]. apply Y. by rewrite <- Es in *.
Qed.
End outer.

(** ** Centres of faces *)
Definition mean_of (l : list (N * N * N)) : option (N * N * N) :=
  match l with
  | [(x1,y1,z1); (x2,y2,z2); (x3,y3,z3); (x4,y4,z4)] => Some (mean4 x1 x2 x3 x4, mean4 y1 y2 y3 y4, mean4 z1 z2 z3 z4)
  | _ => None
  end.
Lemma center_points e g l : eshape e = (2, 2, 2)%nat → (g < 6)%nat → face_points e g = Some <$> l → face_center e (Z.of_nat g) = of_opt ValueError (mean_of l).
Proof.
  intros Hs Hg Hl. assert (∀ kz ky kx z y x, py_pos 2 kz = Some z → py_pos 2 ky = Some y → py_pos 2 kx = Some x → point_py e kz ky kx = of_opt IndexError (point e z y x)) as Hp.
  { intros kz ky kx z y x H1 H2 H3. unfold point_py. by rewrite Hs, H1, H2, H3. }
  assert (∃ p1 p2 p3 p4, l = [p1; p2; p3; p4]) as (p1 & p2 & p3 & p4 & ->).
  { apply (f_equal (@length _)) in Hl. unfold face_points in Hl. rewrite !fmap_length in Hl.
    assert (length (face_vertices g) = 4%nat) as E4 by (destruct g as [|[|[|[|[|[|]]]]]]; [done..|lia]). rewrite E4 in Hl.
    destruct l as [|? [|? [|? [|? [|]]]]]; try done. eauto 10. }
  unfold face_points in Hl. unfold face_center.
  destruct g as [|[|[|[|[|[|]]]]]]; [| | | | | |lia]; cbn -[point] in Hl; injection Hl as E1 E2 E3 E4;
    match goal with |- context [face_corners ?z] => let v := eval vm_compute in (face_corners z) in change (face_corners z) with v end; cbn [mapR];
    repeat (erewrite Hp; [|reflexivity|reflexivity|reflexivity]);
    change (Z.to_nat (Z.of_nat 2 + -1)) with 1%nat; change (Z.to_nat 0) with 0%nat; rewrite E1, E2, E3, E4; cbn [of_opt rbind];
    destruct p1 as [[? ?] ?], p2 as [[? ?] ?], p3 as [[? ?] ?], p4 as [[? ?] ?]; reflexivity.
Qed.
End final.

Lemma mean_perm (l l' : list (R * R * R)) : l ≡ₚ l' → mean_of (A:=AR) l = mean_of (A:=AR) l'.
Proof.
  intros H. assert (∀ g : R * R * R → R, foldr (λ p s, g p + s)%R 0%R l = foldr (λ p s, g p + s)%R 0%R l') as Hs.
  { intros g. apply (foldr_permutation (=) (λ p s, g p + s)%R 0%R); [|done]. intros j1 a1 j2 a2 b _ _ _. lra. }
  assert (length l = length l') as Hlen by (by apply Permutation_length).
  destruct l as [|p1 [|p2 [|p3 [|p4 [|]]]]]; destruct l' as [|q1 [|q2 [|q3 [|q4 [|]]]]]; try done; cbn;
    try (destruct p1 as [[? ?] ?]; try destruct p2 as [[? ?] ?]; try destruct p3 as [[? ?] ?]; try destruct p4 as [[? ?] ?];
         destruct q1 as [[? ?] ?]; try destruct q2 as [[? ?] ?]; try destruct q3 as [[? ?] ?]; try destruct q4 as [[? ?] ?]; done).
  pose proof (Hs (λ p, fst (fst p))) as H1. pose proof (Hs (λ p, snd (fst p))) as H2. pose proof (Hs snd) as H3. cbn in H1, H2, H3.
  destruct p1 as [[? ?] ?], p2 as [[? ?] ?], p3 as [[? ?] ?], p4 as [[? ?] ?], q1 as [[? ?] ?], q2 as [[? ?] ?], q3 as [[? ?] ?], q4 as [[? ?] ?].
  cbn in *. unfold mean4. cbn. f_equal. f_equal; [f_equal|]; f_equal; lra.
Qed.
(** Over the reals, a mesh whose connected faces are paired and have the same vertices passes the check. *)
Lemma conforming_valid (m : hexa (num AR)) (tol : R) bnd : wf_mesh (A:=AR) m → ndim m = 3%nat → (∀ e, e ∈ elems m → eshape e = (2, 2, 2)%nat) →
  paired (A:=AR) m → conforming (A:=AR) m → 6 <= bnd → Z.of_nat (nel m) <= bnd → (0 <= tol)%R → valid_connectivity (A:=AR) tol m.
Proof.
  intros Hw Hd Hs Hp Hc H6 Hbnd Ht i b f r Hin Hr Hcn.
  destruct (Hp i b f r Hin Hr Hcn) as (j & g & r' & Hin' & P & Hr' & T & P').
  pose proof Hin as (Hi & _ & Hf). pose proof Hin' as (Hj & _ & Hg). rewrite Hd in Hf, Hg.
  assert (∀ (r : bcrec (num AR)) j g, points (A:=AR) r j g → names (A:=AR) r j g) as Hpn.
  { intros r0 j0 g0 [E3 E4]. unfold names. rewrite E3, E4. split; apply (law_trunc AR _ (AR_laws (Z.abs (Z.of_nat j0 + 1) + Z.abs (Z.of_nat g0 + 1)))); lia. }
  exists j, g, r'. split; [split; [done|lia]|]. split; [by apply Hpn|]. split; [done|]. split; [done|]. split; [by apply Hpn|].
  intros HE. pose proof Hw as [(_ & Hlen & _) Hgm].
  destruct (lookup_lt_is_Some_2 (elems m) i) as [e He]; [lia|]. destruct (lookup_lt_is_Some_2 (elems m) j) as [e' He']; [lia|].
  assert (e ∈ elems m) as Ie by (by eapply elem_of_list_lookup_2). assert (e' ∈ elems m) as Ie' by (by eapply elem_of_list_lookup_2).
  destruct (Hc i b f r j g e e' Hin Hr HE P Hin' He He') as [Hperm Hsome].
  assert (∃ l, face_points (A:=AR) e f = Some <$> l) as [l Hl].
  { clear -Hsome. induction (face_points (A:=AR) e f) as [|o os IH]; [by exists []|]. apply Forall_cons in Hsome as [[p ->] Hsome].
    destruct (IH Hsome) as [l ->]. by exists (p :: l). }
  rewrite Hl in Hperm. symmetry in Hperm. apply Permutation_sym in Hperm as Hperm'.
  assert (∃ l', face_points (A:=AR) e' g = Some <$> l' ∧ l ≡ₚ l') as (l' & Hl' & Hll).
  { destruct (Permutation_map_inv _ _ Hperm) as (l' & E & Q). exists l'. split; [done|done]. }
  pose proof (center_points e f l (Hs e Ie) ltac:(lia) Hl) as C1. pose proof (center_points e' g l' (Hs e' Ie') ltac:(lia) Hl') as C2.
  rewrite (mean_perm l l' Hll) in C1.
  assert (∃ c, mean_of (A:=AR) l' = Some c) as [c Hcc].
  { assert (length l' = 4%nat) as L4. { apply (f_equal (@length _)) in Hl'. unfold face_points in Hl'. rewrite !fmap_length in Hl'. rewrite <- Hl'.
      destruct g as [|[|[|[|[|[|]]]]]]; [done..|lia]. }
    destruct l' as [|[[? ?] ?] [|[[? ?] ?] [|[[? ?] ?] [|[[? ?] ?] [|]]]]]; try done. cbn. eauto. }
  rewrite Hcc in C1, C2.
  destruct (smallest_edge_Ok (A:=AR) e (Hgm e Ie)) as [s Hse]. destruct (smallest_edge_Ok (A:=AR) e' (Hgm e' Ie')) as [s1 Hse1].
  exists e, e', c, c, s, s1. repeat (split; [done|]).
  destruct (smallest_edge_sqrt _ _ Hse) as [x ->]. destruct (smallest_edge_sqrt _ _ Hse1) as [x1 ->].
  apply (geo_self AR AR_geo). cbn. unfold Rleb. by destruct (Rle_dec 0 tol).
Qed.
