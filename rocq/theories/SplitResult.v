(** Proofs about [extrude_refine]: extruding the parts and merging them. *)
From Verif Require Import Base Mesh Core Tools Curve Mid Split MeshLemmas MeshSpec CheckProofs OpsProofs GeoLaws LimsProofs
  KeepSpec KeepProofs MergeSpec MergeProofs MergeTotal MergeTypes DiscProofs ExtrudeSpec ExtrudeProofs P_Extrude MidSpec MidProofs MidBlock MidMesh MidResult MidEntry
  MidFinal MidFaces SplitSpec SplitProofs SplitFlat.
From Coq Require Import Lia.
Open Scope Z_scope.

(** ** Numbers of layers *)
Lemma coarse_pos h k : (0 < coarse h k)%nat.
Proof. unfold coarse. assert (0 < 2 ^ Z.abs (Z.of_nat k - h)) by (apply Z.pow_pos_nonneg; lia). lia. Qed.
Lemma coarse_Z h k : Z.of_nat (coarse h k) = pow2 (Z.of_nat k - h).
Proof. unfold coarse, pow2. rewrite Z2Nat.id; [done|]. apply Z.pow_nonneg. lia. Qed.
Lemma coarse_mid_pos h k : (0 < coarse_mid h k)%nat.
Proof. unfold coarse_mid. case_decide; apply coarse_pos. Qed.
Lemma pow2_divide a b : 0 <= a <= Z.abs b → (2 ^ a | pow2 b).
Proof.
  intros H. unfold pow2. replace (Z.abs b) with (a + (Z.abs b - a)) by lia. rewrite Z.pow_add_r by lia. by exists (2 ^ (Z.abs b - a)); rewrite Z.mul_comm.
Qed.
Lemma pow2_nz x : pow2 x ≠ 0.
Proof. unfold pow2. assert (0 < 2 ^ Z.abs x) by (apply Z.pow_pos_nonneg; lia). lia. Qed.
Section layers.
Context (n : nat) (h : Z) (nz : nat).
Hypothesis H1 : Z.of_nat nz mod pow2 (h + 1) = 0.
Hypothesis H2 : Z.of_nat nz mod pow2 (Z.of_nat n - h + 1) = 0.
Lemma layers_divide a : 0 <= a <= Z.abs (h + 1) ∨ 0 <= a <= Z.abs (Z.of_nat n - h + 1) → (2 ^ a | Z.of_nat nz).
Proof using H1 H2.
  intros [H|H].
  - transitivity (pow2 (h + 1)); [by apply pow2_divide|]. apply Z.mod_divide; [apply pow2_nz|done].
  - transitivity (pow2 (Z.of_nat n - h + 1)); [by apply pow2_divide|]. apply Z.mod_divide; [apply pow2_nz|done].
Qed.
Lemma coarse_layers k : (k ≤ n)%nat → ∃ c, nz = (coarse h k * c)%nat.
Proof using H1 H2.
  intros Hk. destruct (layers_divide (Z.abs (Z.of_nat k - h))) as [c Hc]; [lia|].
  exists (Z.to_nat c). apply Nat2Z.inj. rewrite Nat2Z.inj_mul, coarse_Z. unfold pow2.
  assert (0 < 2 ^ Z.abs (Z.of_nat k - h)) by (apply Z.pow_pos_nonneg; lia). rewrite Z2Nat.id by nia. lia.
Qed.
Lemma coarse_mid_layers k : (k < n)%nat → ∃ q, nz = (coarse_mid h k * (4 * q))%nat.
Proof using H1 H2.
  intros Hk. set (a := if decide (Z.of_nat k < h) then h - Z.of_nat k - 1 else Z.of_nat k - h).
  assert (0 <= a) as Ha by (unfold a; case_decide; lia).
  assert (Z.of_nat (coarse_mid h k) = 2 ^ a) as Ec.
  { unfold coarse_mid, a. case_decide; rewrite coarse_Z; unfold pow2; f_equal; lia. }
  destruct (layers_divide (a + 2)) as [c Hc]. { unfold a in *. case_decide; lia. }
  rewrite Z.pow_add_r in Hc by lia. assert (0 < 2 ^ a) by (apply Z.pow_pos_nonneg; lia). change (2 ^ 2) with 4 in Hc.
  exists (Z.to_nat c). apply Nat2Z.inj. rewrite !Nat2Z.inj_mul, Ec. rewrite Z2Nat.id by nia. lia.
Qed.
End layers.

Section result.
Context {A : arith}.
Notation N := (num A).
Implicit Types (m : hexa N) (e : elem N) (r : bcrec N) (f : N → N → N).
Notation bare := (set_bcs (N:=N) []).

(** ** Elements without their conditions *)
Lemma edge_mid_bare e e' n v a : bare e = bare e' → edge_mid e n = Ok (v, a) → ∃ a', edge_mid e' n = Ok (v, a').
Proof.
  intros Hb. pose proof (f_equal ccurv Hb) as Hc. pose proof (f_equal curv Hb) as Hv. cbn in Hc, Hv.
  assert (∀ k j i, point e' k j i = point e k j i) as Hp.
  { intros k j i. change (point (bare e') k j i = point (bare e) k j i). by rewrite Hb. }
  unfold edge_mid. rewrite <- Hc, <- Hv. intros H.
  destruct (curv e !! n) as [row|]; [|done]. cbn [of_opt rbind] in *. destruct (ccurv e !! n) as [t|]; [|done]. cbn [of_opt rbind] in *.
  destruct row as [|x0 [|x1 [|x2 [|x3 [|x4 [|]]]]]]; try done.
  destruct (String.eqb t "m"). { injection H as <- <-. eauto. }
  destruct (edge_ends n) as [[[[k1 j1] i1] [[k2 j2] i2]]|]; [|done]. cbn [of_opt rbind] in *. rewrite !Hp.
  destruct (point e k1 j1 i1) as [p1|]; [|done]. destruct (point e k2 j2 i2) as [p2|]; [|done]. cbn [of_opt rbind] in *.
  destruct (String.eqb t ""). { injection H as <- <-. eauto. }
  destruct (String.eqb t "C"). { injection H as <- <-. eauto. }
  destruct (String.eqb t "s"); injection H as <- <-; eauto.
Qed.
Lemma low_bare f e e' j i : bare e = bare e' → low f e' j i = low f e j i.
Proof. intros H. change (low f (bare e') j i = low f (bare e) j i). by rewrite H. Qed.
Lemma side_low_bare f e e' n : bare e = bare e' → side_low f e' n = side_low f e n.
Proof. intros H. unfold side_low. destruct (side_ends n) as [[a b] [c d]]. by rewrite !(low_bare f e e') by done. Qed.
Lemma sixth_bare f e e' zz n y y' : bare e = bare e' → bare y = bare y' → is_sixth f e zz n y → is_sixth f e' zz n y'.
Proof.
  intros He Hy [S1 S2]. split; [rewrite <- S1; exact (eq_sym (f_equal eshape Hy))|].
  intros lv j i Hl Hj Hi. specialize (S2 lv j i Hl Hj Hi). rewrite (low_bare f e e') by done.
  destruct (place _ _ _) as [at_cut h]. destruct S2 as (x & yy & z & P1 & P2). exists x, yy, z. split.
  - destruct at_cut.
    + destruct P1 as (a & e1 & (C1 & C2) & C3 & C4). destruct (edge_mid_bare e e' a _ e1 He C4) as [e2 C5].
      exists a, e2. split; [|done]. split; [done|]. by rewrite (side_low_bare f e e').
    + rewrite <- P1. change (point (bare e') 0 j i = point (bare e) 0 j i). by rewrite He.
  - rewrite <- P2. change (point (bare y') lv j i = point (bare y) lv j i). by rewrite Hy.
Qed.
Lemma slab_bare e e' z1 z2 y y' : bare e = bare e' → bare y = bare y' → is_slab e z1 z2 y → is_slab e' z1 z2 y'.
Proof. intros He Hy H. change (is_slab (bare e') z1 z2 (bare y')). rewrite <- He, <- Hy. exact H. Qed.
Lemma bare_lookup (l l' : list (elem N)) (i : nat) x : bare <$> l = bare <$> l' → l !! i = Some x → ∃ x', l' !! i = Some x' ∧ bare x = bare x'.
Proof.
  intros H Hx. apply (f_equal (lookup i)) in H. rewrite !list_lookup_fmap, Hx in H. destruct (l' !! i) as [x'|]; [|done].
  exists x'. split; [done|]. by apply (inj Some) in H.
Qed.
Lemma bare_length (l l' : list (elem N)) : bare <$> l = bare <$> l' → length l' = length l.
Proof. intros H. apply (f_equal length) in H. by rewrite !fmap_length in H. Qed.
Lemma slabs_bare es2 es2' zl es3 es3' : bare <$> es2 = bare <$> es2' → bare <$> es3 = bare <$> es3' →
  slabs es2 zl es3 → slabs es2' zl es3'.
Proof.
  intros H2 H3 [S1 S2]. split; [by rewrite (bare_length _ _ H2), (bare_length _ _ H3)|].
  intros k i e z1 z2 Hz1 Hz2 He. destruct (bare_lookup es2' es2 i e (eq_sym H2) He) as (e0 & He0 & E0).
  destruct (S2 k i e0 z1 z2 Hz1 Hz2 He0) as (y & Hy & Hs). rewrite (bare_length _ _ H2).
  destruct (bare_lookup _ _ _ _ H3 Hy) as (y' & Hy' & Ey). exists y'. split; [done|]. by eapply slab_bare; [symmetry|..].
Qed.
Lemma sixths_bare f es2 es2' zl es3 es3' : bare <$> es2 = bare <$> es2' → bare <$> es3 = bare <$> es3' →
  sixths f es2 zl es3 → sixths f es2' zl es3'.
Proof.
  intros H2 H3 [S1 S2]. split; [by rewrite (bare_length _ _ H2), (bare_length _ _ H3)|].
  intros k i e n Hk He Hn. destruct (bare_lookup es2' es2 i e (eq_sym H2) He) as (e0 & He0 & E0).
  destruct (S2 k i e0 n Hk He0 Hn) as (y & Hy & Hs). rewrite (bare_length _ _ H2).
  destruct (bare_lookup _ _ _ _ H3 Hy) as (y' & Hy' & Ey). exists y'. split; [done|]. by eapply sixth_bare; [symmetry|..].
Qed.

(** ** Extruded parts *)
Context (bnd : Z) (LA : arith_laws A bnd) (LM : mul_law (A:=A) bnd).
Context (nb : nat) (bc1 bc2 : list string) (c1 c2 : nat → string) (ib : bool) (fl : Prop).
Hypothesis G1 : conditions_given nb (Some bc1) c1.
Hypothesis G2 : conditions_given nb (Some bc2) c2.
Hypothesis HP : ∀ b, (b < nb)%nat → c1 b = "P"%string ↔ c2 b = "P"%string.
Definition ends : Prop := ∀ b, (b < nb)%nat → end_condition (c1 b) ∧ end_condition (c2 b).
Definition piece m : Prop := wf_mesh m ∧ ndim m = 3%nat ∧ lr1 m = [2; 2; 2]%nat ∧ nbc m = nb ∧
  (∀ e, e ∈ elems m → length (ccurv e) = 12%nat) ∧ (ends → fl → conn_refs m).

Lemma extrude_piece m z nz : good bnd m → (fl → ib = true ∨ flat m) → nbc m = nb → length z = (nz + 1)%nat → (1 ≤ nz)%nat → Z.of_nat (nel m * nz) <= bnd →
  ∃ m3, extrude m z (Some bc1) (Some bc2) ib = Ok m3 ∧ piece m3 ∧ slabs (elems m) z (elems m3) ∧ nel m3 = (nel m * nz)%nat.
Proof using LA G1 G2 HP.
  intros Hgood Hfl Hnb Hz Hnz Hbnd. pose proof Hgood as (Hw & Hlin & Hp & _). assert (length z - 1 = nz)%nat as Ez by lia.
  assert (∀ k, (k < length z - 1)%nat → refs_within bnd (Z.of_nat (k * nel m)) 0 m) as Hrefs.
  { rewrite Ez. apply paired_refs; [apply Hlin|done|done]. }
  rewrite <- Hnb in G1, G2.
  destruct (C34_extrude_stack bnd m z (Some bc1) (Some bc2) ib c1 c2 LA Hw Hlin ltac:(lia) Hrefs G1 G2) as (m3 & E & Hw3 & Hst).
  { intros b Hb. apply HP. lia. }
  exists m3. split; [done|]. pose proof Hst as (S1 & S2 & S3 & S4 & S5 & S6 & Sel). cbv zeta in S2, Sel. rewrite Ez in S2.
  pose proof Hw as [(_ & Hlen & _) _]. pose proof Hlin as (L1 & _ & _ & _ & L5).
  split; [|split; [|done]].
  - split; [done|]. split; [done|]. split; [done|]. split; [congruence|]. split.
    + intros y Hy. apply elem_of_list_lookup in Hy as [p Hy].
      assert (p < nel m * nz)%nat as Hpl by (rewrite <- S2, <- S3; by eapply lookup_lt_Some).
      assert (0 < nel m)%nat as Hn0 by lia.
      pose proof (Nat.div_mod_eq p (nel m)) as Hdm. pose proof (Nat.mod_upper_bound p (nel m) ltac:(lia)) as Hmod.
      assert (p / nel m < nz)%nat as Hdv by (apply Nat.div_lt_upper_bound; lia).
      destruct (lookup_lt_is_Some_2 (elems m) (p mod nel m)) as [e He]; [lia|].
      destruct (lookup_lt_is_Some_2 z (p / nel m)) as [z1 Hz1]; [lia|].
      destruct (lookup_lt_is_Some_2 z (p / nel m + 1)) as [z2 Hz2]; [lia|].
      destruct (Sel _ _ e z1 z2 Hz1 Hz2 He) as (y' & Hy' & (_ & _ & _ & _ & Hc)).
      replace (p mod nel m + nel m * (p / nel m))%nat with p in Hy' by lia. rewrite Hy in Hy'. apply (inj Some) in Hy' as <-.
      destruct (L5 e) as (_ & Hcl & _); [by eapply elem_of_list_lookup_2|].
      destruct (Hc 11%nat ltac:(lia)) as [H11 _]. destruct (Hc 12%nat ltac:(lia)) as [H12 _].
      rewrite (lookup_ge_None_2 (ccurv e) 12) in H12 by lia. apply lookup_ge_None in H12.
      destruct (lookup_lt_is_Some_2 (ccurv e) 11) as [t Ht]; [lia|]. rewrite Ht in H11. apply lookup_lt_Some in H11. lia.
    + intros He Hff. destruct ib eqn:Hib.
      2: { destruct (Hfl Hff) as [?|Hflat]; [done|]. rewrite Hnb in G1, G2. by eapply (extrude_flat bnd LA nb bc1 bc2 c1 c2 G1 G2 HP He m z nz). }
      destruct (C35_extrude_faces bnd m m3 z (Some bc1) (Some bc2) c1 c2 LA Hw Hlin Hp ltac:(lia) ltac:(by rewrite Ez) G1 G2) as [Fs Fe];
        [intros b Hb; destruct (He b) as [? ?]; [lia|]; split_and!; try done; apply HP; lia|done|].
      rewrite Ez in Fs, Fe. intros p b f r (Hpl & Hb & Hf) Hr Hc. rewrite S2 in Hpl. rewrite S1 in Hf. rewrite S5 in Hb.
      pose proof (Nat.div_mod_eq p (nel m)) as Hdm. pose proof (Nat.mod_upper_bound p (nel m) ltac:(lia)) as Hmod.
      assert (p / nel m < nz)%nat as Hdv by (apply Nat.div_lt_upper_bound; lia).
      set (k := (p / nel m)%nat) in *. set (i := (p mod nel m)%nat) in *. replace p with (i + nel m * k)%nat in Hr by lia.
      assert (∀ i' k' g, (i' < nel m)%nat → (k' < nz)%nat → (g < 6)%nat → in_mesh m3 (i' + nel m * k') b g) as Hin.
      { intros i' k' g Hi' Hk' Hg. unfold in_mesh. rewrite S1, S2, S5. split_and!; [nia|done|lia]. }
      destruct (decide (f < 4)%nat) as [Hf4|Hf4].
      * destruct (Fs k i b f Hdv) as (r' & Hr' & (q & Hq & Ht & _ & Hpt)); [unfold in_mesh; rewrite L1; lia|].
        rewrite Hr in Hr'. apply (inj Some) in Hr' as <-. rewrite Ht in Hc.
        destruct (Hp i b f q) as (j & g & _ & (Hj & _ & Hg) & Hpq & _); [unfold in_mesh; rewrite L1; lia|done|done|].
        exists (j + nel m * k)%nat, g. rewrite L1 in Hg. split; [apply Hin; lia|]. by apply Hpt.
      * destruct (Fe k i b f Hdv ltac:(lia) Hb ltac:(lia)) as (r' & Hr' & (_ & _ & Hen)).
        rewrite Hr in Hr'. apply (inj Some) in Hr' as <-. destruct (He b ltac:(lia)) as [[_ N1] [_ N2]].
        destruct (decide (f = 4)%nat) as [Ef|Ef]; [destruct (decide (k = 0)%nat) as [Ek|Ek]|destruct (decide (k = nz - 1)%nat) as [Ek|Ek]];
          destruct Hen as [Ht Hpt].
        -- rewrite Ht in Hc. destruct Hc as [Hc|Hc]; [done|]. eexists _, 5%nat. split; [|by apply Hpt]. apply Hin; lia.
        -- eexists _, 5%nat. split; [|exact Hpt]. apply Hin; lia.
        -- rewrite Ht in Hc. destruct Hc as [Hc|Hc]; [done|]. eexists _, 4%nat. split; [|by apply Hpt].
           pose proof (Hin i 0%nat 4%nat ltac:(lia) ltac:(lia) ltac:(lia)) as Hi0. by rewrite Nat.mul_0_r, Nat.add_0_r in Hi0.
        -- eexists _, 4%nat. split; [|exact Hpt]. apply Hin; lia.
  - split; [by rewrite S3, S2, Hlen, Ez|]. rewrite Hlen. exact Sel.
Qed.

Lemma mid_piece m z f q : good bnd m → (fl → ib = true ∨ flat m) → nbc m = nb → length z = (4 * q + 1)%nat → (1 ≤ q)%nat → Z.of_nat (6 * nel m * q) <= bnd →
  (∀ e, e ∈ elems m → curvature_ok e ∧ no_arcs e ∧ cut_across f e) →
  ∃ m' m3, extrude_mid m z bc1 bc2 f ib = Ok (m', m3) ∧ piece m3 ∧ sixths f (elems m) z (elems m3) ∧ nel m3 = (6 * nel m * q)%nat.
Proof using LA LM G1 G2 HP.
  intros Hgood Hfl Hnb Hz Hq Hbnd He. pose proof Hgood as (Hw & Hlin & Hp & _).
  assert (∀ k, (k < 6 * q)%nat → refs_within bnd (Z.of_nat (k * nel m)) 0 m) as Hrefs.
  { apply paired_refs; [apply Hlin|done|]. etransitivity; [|exact Hbnd]. lia. }
  destruct G1 as [L1 C1]. destruct G2 as [L2 C2]. rewrite <- Hnb in L1, C1, L2, C2.
  assert (∀ e, e ∈ elems m → four_points e) as H4 by (intros e Hin; by eapply linear_four).
  assert (∀ e, e ∈ elems m → cut_across f e) as Hcut by (intros e Hin; by apply He).
  destruct (result_ok bnd m z bc1 bc2 f ib c1 c2 q LA Hw Hlin) as (es & m3 & E & _ & Hres); try done.
  { intros e Hin. destruct (He e Hin) as (Hc & _ & Hx). apply curvature_workable; [by apply H4|done|by apply cut_low]. }
  { intros b Hb. by split; [apply C1|apply C2]. }
  { intros b Hb. apply HP. lia. }
  { left. intros e Hin. by apply He. }
  exists (set_elems es m), m3. split; [done|]. pose proof Hres as (R1 & R2 & R3 & R4 & R5 & _).
  pose proof (new_stack f ib z q c1 c2 m m3 Hw Hres H4 Hcut Hz) as (_ & _ & _ & _ & _ & _ & Sel).
  pose proof Hw as [(_ & Hlen & _) _]. pose proof Hlin as (D2 & _).
  assert ((length z - 1) / 4 = q)%nat as Eq. { rewrite Hz. replace (4 * q + 1 - 1)%nat with (q * 4)%nat by lia. apply Nat.div_mul. lia. }
  split; [|split; [|done]].
  - split; [by eapply new_wf|]. split; [done|]. split; [done|]. split; [congruence|]. split.
    + intros y Hy. apply elem_of_list_lookup in Hy as [p Hy].
      by destruct (new_facts f ib z q c1 c2 m m3 Hw Hres p y Hy) as (k & i & j & e & l & x & _ & _ & _ & _ & _ & _ & _ & _ & C & _).
    + intros Hen Hff. destruct ib eqn:Hib.
      2: { destruct (Hfl Hff) as [?|Hflat]; [done|]. by eapply (mid_flat bnd LA LM nb bc1 bc2 c1 c2). }
      intros p b g r (Hpl & Hb & Hg) Hr Hc. rewrite R2 in Hpl. rewrite R1 in Hg. rewrite R5 in Hb.
      destruct (sixth_div (nel m) q p Hpl) as (k & i & j & (Hk & Hi & Hj) & ->).
      destruct (lookup_lt_is_Some_2 (elems m) i) as [e Hei]; [lia|].
      assert (∀ k' i' j' g', (k' < q)%nat → (i' < nel m)%nat → (j' < 6)%nat → (g' < 6)%nat → in_mesh m3 (sixth (nel m) k' i' j') b g') as Hin3.
      { intros. unfold in_mesh. rewrite R1, R2, R5. split_and!; [by apply sixth_lt|done|lia]. }
      destruct (sides_spec f m Hcut i e Hei) as (lo & hi & Ho & Hin & Es & Hsc & Hlo & Hhi & B1 & B2).
      destruct (get_new f z q c1 c2 m m3 Hw Hcut Hres k i e j b g Hk Hei Hj Hb ltac:(lia)) as (r0 & r' & Hr0 & Hr' & HE).
      rewrite Hr in Hr'. apply (inj Some) in Hr' as <-. destruct (Hen b ltac:(lia)) as [(U1 & N1) (U2 & N2)].
      destruct HE as [(d & j' & g' & Et & Hd & T & Hpt)|[(-> & -> & Hj' & T & Hpt)|[(-> & -> & Hj' & T & Hpt)|[(Hl & ->)|(Hl & _ & ->)]]]].
      * rewrite Es in Et. destruct (touching_sym lo hi j g d j' g' Hin Hj ltac:(lia) Et) as (_ & J' & G' & _).
        eexists _, _. split; [|exact Hpt]. apply Hin3; lia || done.
      * rewrite T, U1 in Hc. destruct Hc as [?|Hc]; [done|]. eexists _, _. split; [|by apply Hpt]. apply Hin3; lia.
      * rewrite T, U2 in Hc. destruct Hc as [?|Hc]; [done|]. eexists _, _. split; [|by apply Hpt]. apply Hin3; lia.
      * rewrite mid_ref_bt in Hc. assert (side_cut f e g) as Hcg by (by apply Hsc).
        destruct (Hp i b g r0) as (p2 & g2 & _ & (Hp2 & _ & Hg2) & Hpt & _); [unfold in_mesh; rewrite D2; destruct Hcg; lia|done|done|].
        rewrite D2 in Hg2. exists (sixth (nel m) k p2 j), g2. split; [apply Hin3; lia|]. by eapply mid_ref_points.
      * assert (g < 4)%nat as Hg4 by (destruct Hl; lia).
        destruct (Hp i b g r0) as (p2 & g2 & _ & (Hp2 & _ & Hg2) & Hpt & _); [unfold in_mesh; rewrite D2; lia|done|done|].
        rewrite D2 in Hg2. exists p2, g2. split; [|done]. unfold in_mesh. rewrite R1, R2, R5. split_and!; [nia|done|lia].
  - split; [by rewrite R3, R2, Hlen, Eq|]. rewrite Hlen. exact Sel.
Qed.

(** ** Merging *)
Definition box m : Prop := ndim m = 3%nat ∧ lr1 m = [2; 2; 2]%nat ∧ length (elems m) = nel m.
Lemma piece_box m : piece m → box m.
Proof. intros ([(_ & Hl & _) _] & ? & ? & _). done. Qed.
Lemma merge_ok_append tol ie ia (self other m' : hexa N) n : merge tol ie ia self other = (m', Ok n) → box self → box other → is_append self other m'.
Proof.
  intros E (D1 & L1 & _) (D2 & L2 & _). destruct (merge_append self other) as [m0|ex] eqn:Ea.
  - pose proof (merge_strip tol ie ia self other m0 Ea) as Hs. rewrite E in Hs. cbn [fst] in Hs.
    destruct Hs as [S _]; [congruence|congruence|by rewrite L1|].
    destruct (merge_append_inv self other m0 Ea) as (add & Sa & _ & ->).
    by eapply (is_append_of self other add).
  - exfalso. unfold merge in E. rewrite Ea, L1, L2, D1, D2 in E. by cbn in E.
Qed.
Lemma append_geo (self other m' : hexa N) : is_append self other m' → box self → box other →
  box m' ∧ nbc m' = nbc self ∧ geo m' = geo self ++ geo other.
Proof.
  intros (F1 & _ & _ & F4 & (l1 & l2 & El & Fl1 & Fl2)) (D1 & L1 & N1) (D2 & L2 & N2).
  assert (∀ l l' : list (elem N), Forall2 same_elem l l' → bare <$> l' = bare <$> l) as Hb.
  { intros l l' Hf. induction Hf as [|x y l l' Hxy Hf IH]; [done|]. cbn. by rewrite IH, Hxy. }
  assert (length l1 = length (elems self)) as E1 by (symmetry; by eapply Forall2_length).
  assert (length l2 = length (elems other)) as E2 by (symmetry; by eapply Forall2_length).
  split; [split; [|split]|split].
  - rewrite <- D1. exact (f_equal ndim F4).
  - rewrite <- L1. exact (f_equal lr1 F4).
  - rewrite El, app_length. lia.
  - exact (f_equal nbc F4).
  - unfold geo. rewrite El, fmap_app. f_equal; by apply Hb.
Qed.
Lemma merges_ok l : ∀ m m', foldM (refine_merge ib) m l = Ok m' → box m → (∀ p, p ∈ l → box p) →
  box m' ∧ nbc m' = nbc m ∧ geo m' = geo m ++ (l ≫= geo).
Proof.
  induction l as [|p l IH]; intros m m' E Hm Hl.
  - cbn in E. injection E as <-. split; [done|]. split; [done|]. by rewrite app_nil_r.
  - cbn [foldM] in E. unfold refine_merge at 1 in E. destruct (merge _ _ _ m p) as [m1 [n|]] eqn:Em; [|done]. cbn [rbind] in E.
    destruct (append_geo m p m1) as (B1 & N1 & Eg); [by eapply merge_ok_append; [done|done|apply Hl; left]|done|apply Hl; left|].
    destruct (IH m1 m' E B1) as (B2 & N2 & E2); [intros; apply Hl; by right|].
    split; [done|]. split; [congruence|]. rewrite E2, Eg, bind_cons. by rewrite app_assoc.
Qed.
Lemma merges_total l : 6 <= bnd → ∀ m, wf_mesh m → box m → nbc m = nb → conn_refs m →
  (∀ p, p ∈ l → wf_mesh p ∧ box p ∧ nbc p = nb ∧ conn_refs p) → Z.of_nat (nel m + sum_list_with nel l) <= bnd →
  ∃ m', foldM (refine_merge ib) m l = Ok m' ∧ wf_mesh m' ∧ conn_refs m'.
Proof using LA.
  intros H6. induction l as [|p l IH]; intros m Wm Hm Nm Cm Hl Hb.
  - exists m. done.
  - destruct (Hl p) as (Wp & Hp & Np & Cp); [left|]. cbn [sum_list_with] in Hb.
    pose proof Hm as (D1 & L1 & _). pose proof Hp as (D2 & L2 & _).
    destruct (merge_total bnd m p (nlit 1 100) true (negb ib) LA Wm Wp) as (m1 & n & E & Ha & W1 & C1); try done; try congruence.
    { by rewrite L1. }
    { lia. }
    destruct (append_geo m p m1 Ha Hm Hp) as (B1 & N1 & Eg).
    destruct (IH m1 W1 B1) as (m' & E' & W' & C'); [congruence|done|intros; apply Hl; by right| |].
    { pose proof Ha as (F1 & _). rewrite F1. lia. }
    exists m'. split; [|done]. cbn [foldM]. unfold refine_merge at 1. rewrite E. exact E'.
Qed.

(** ** The types of the conditions *)
Lemma get_entry m i e b (f : nat) : elems m !! i = Some e → get_bc m i b f = entry e b f.
Proof. intros H. unfold get_bc. by rewrite H. Qed.
Lemma extrude_types m z nz m3 k i b (f : nat) r : good bnd m → nbc m = nb → length z = (nz + 1)%nat → (1 ≤ nz)%nat → Z.of_nat (nel m * nz) <= bnd →
  ends → extrude m z (Some bc1) (Some bc2) true = Ok m3 → (k < nz)%nat → (i < nel m)%nat → (b < nb)%nat → (f < 6)%nat →
  get_bc m3 (i + nel m * k) b f = Some r →
  ((f < 4)%nat → ∃ r0, get_bc m i b f = Some r0 ∧ bt r = bt r0) ∧
  (f = 4%nat → bt r = if decide (k = 0%nat) then c1 b else "E"%string) ∧
  (f = 5%nat → bt r = if decide (k = nz - 1)%nat then c2 b else "E"%string).
Proof using LA G1 G2 HP.
  intros (Hw & Hlin & Hp & _) Hnb Hz Hnz Hbnd He E Hk Hi Hb Hf Hr. assert (length z - 1 = nz)%nat as Ez by lia. rewrite <- Hnb in G1, G2.
  destruct (C35_extrude_faces bnd m m3 z (Some bc1) (Some bc2) c1 c2 LA Hw Hlin Hp ltac:(lia) ltac:(by rewrite Ez) G1 G2) as [Fs Fe];
    [intros b' Hb'; destruct (He b') as [? ?]; [lia|]; split_and!; try done; apply HP; lia|done|].
  rewrite Ez in Fs, Fe. pose proof Hlin as (L1 & _). split_and!; intros Hf'.
  - destruct (Fs k i b f Hk) as (r' & Hr' & (q & Hq & Ht & _)); [unfold in_mesh; rewrite L1; lia|].
    rewrite Hr in Hr'. apply (inj Some) in Hr' as <-. eauto.
  - subst f. destruct (Fe k i b 4%nat Hk Hi ltac:(lia) ltac:(lia)) as (r' & Hr' & (_ & _ & Hen)).
    rewrite Hr in Hr'. apply (inj Some) in Hr' as <-. rewrite decide_True in Hen by done. destruct (decide (k = 0%nat)); by apply Hen.
  - subst f. destruct (Fe k i b 5%nat Hk Hi ltac:(lia) ltac:(lia)) as (r' & Hr' & (_ & _ & Hen)).
    rewrite Hr in Hr'. apply (inj Some) in Hr' as <-. rewrite decide_False in Hen by lia. destruct (decide (k = nz - 1)%nat); by apply Hen.
Qed.
Lemma mid_types m z f q m' m3 k i j e b (g : nat) r : good bnd m → nbc m = nb → length z = (4 * q + 1)%nat → (1 ≤ q)%nat → Z.of_nat (6 * nel m * q) <= bnd →
  (∀ e, e ∈ elems m → curvature_ok e ∧ no_arcs e ∧ cut_across f e) → ends → extrude_mid m z bc1 bc2 f true = Ok (m', m3) →
  (k < q)%nat → elems m !! i = Some e → (j < 6)%nat → (b < nb)%nat → (g < 6)%nat → get_bc m3 (sixth (nel m) k i j) b g = Some r →
  outer_entry f m q c1 c2 k i j b g e (bt r).
Proof using LA LM G1 G2 HP.
  intros (Hw & Hlin & Hp & _) Hnb Hz Hq Hbnd He Hen E.
  assert (∀ k, (k < 6 * q)%nat → refs_within bnd (Z.of_nat (k * nel m)) 0 m) as Hrefs.
  { apply paired_refs; [apply Hlin|done|]. etransitivity; [|exact Hbnd]. lia. }
  destruct G1 as [L1 C1]. destruct G2 as [L2 C2]. rewrite <- Hnb in L1, C1, L2, C2.
  assert (∀ e, e ∈ elems m → four_points e) as H4 by (intros e' Hin; by eapply linear_four).
  assert (∀ e, e ∈ elems m → cut_across f e) as Hcut by (intros e' Hin; by apply He).
  destruct (result_ok bnd m z bc1 bc2 f true c1 c2 q LA Hw Hlin) as (es & M & E' & _ & Hres); try done.
  { intros e' Hin. destruct (He e' Hin) as (Hc & _ & Hx). apply curvature_workable; [by apply H4|done|by apply cut_low]. }
  { intros b' Hb'. by split; [apply C1|apply C2]. }
  { intros b' Hb'. apply HP. lia. }
  { left. intros e' Hin. by apply He. }
  rewrite E in E'. injection E' as _ <-. intros Hk Hei Hj Hb Hg Hr.
  eapply (new_outer f z q c1 c2 m m3 Hw Hcut Hres); try done; [|lia].
  intros b' Hb'. destruct (Hen b') as [? ?]; [lia|]. split_and!; try done; apply HP; lia.
Qed.

(** Merging: what is changed is joined to a face of the final mesh. *)
Lemma changed_joined (per : Prop) (m1 m2 : hexa N) b x r e : box m1 → geo m1 `prefix_of` geo m2 → elems m2 !! x.1 = Some e → (x.1 < nel m1)%nat →
  changed_entry (nlit 1 100) per m1 b x r → joined per m2 e x.2 r.
Proof.
  intros (D1 & _ & Nl) [tl Hg] He Hx [(Ht & y & (Hy & _ & Hf) & Hp & Htt)|H]; [|by right]. left. split; [done|].
  assert (∀ i d, elems m1 !! i = Some d → ∃ d', elems m2 !! i = Some d' ∧ strip_elem d' = strip_elem d) as Hpre.
  { intros i d Hd. apply (f_equal (lookup i)) in Hg. unfold geo in Hg. rewrite lookup_app_l in Hg.
    2: { rewrite fmap_length. by eapply lookup_lt_Some. }
    rewrite !list_lookup_fmap, Hd in Hg. destruct (elems m2 !! i) as [d'|]; [|done]. cbn in Hg. apply (inj Some) in Hg. eauto. }
  destruct (lookup_lt_is_Some_2 (elems m1) y.1) as [ey Hey]; [lia|]. destruct (lookup_lt_is_Some_2 (elems m1) x.1) as [ex Hex]; [lia|].
  destruct (Hpre _ _ Hey) as (ey' & Hey' & Ty). destruct (Hpre _ _ Hex) as (ex' & Hex' & Tx). rewrite He in Hex'. apply (inj Some) in Hex' as <-.
  exists y.1, y.2, ey'. rewrite D1 in Hf. split; [done|]. split; [lia|]. split; [done|].
  destruct Htt as [(a & a' & c & c' & s & s' & A1 & A2 & F1 & F2 & S1 & S2 & H)|(a & a' & c & c' & s & s' & A1 & A2 & F1 & F2 & S1 & S2 & H)]; [left|right].
  - rewrite Hex in A1. rewrite Hey in A2. apply (inj Some) in A1 as <-. apply (inj Some) in A2 as <-. exists c, c', s, s'.
    by rewrite (face_center_strip _ _ _ Tx), (face_center_strip _ _ _ Ty), (smallest_edge_strip _ _ Tx), (smallest_edge_strip _ _ Ty).
  - rewrite Hey in A1. rewrite Hex in A2. apply (inj Some) in A1 as <-. apply (inj Some) in A2 as <-. exists c, c', s, s'.
    by rewrite (face_center_strip _ _ _ Tx), (face_center_strip _ _ _ Ty), (smallest_edge_strip _ _ Tx), (smallest_edge_strip _ _ Ty).
Qed.
Lemma merges_types (per : Prop) l : ∀ m m', foldM (refine_merge ib) m l = Ok m' → box m → (∀ p, p ∈ l → box p) →
  (some_periodic m → per) → (∀ p, p ∈ l → some_periodic p → per) →
  ∀ x e0 e b (f : nat) r, (elems m ++ (l ≫= elems)) !! x = Some e0 → elems m' !! x = Some e → entry e b f = Some r →
    ∃ r0, entry e0 b f = Some r0 ∧ (((x < nel m)%nat ∧ r = r0) ∨ ((nel m ≤ x)%nat ∧ bt r = bt r0) ∨ joined per m' e f r).
Proof.
  induction l as [|p l IH]; intros m m' E Hm Hl Hper Hlper x e0 e b f r He0 He Hr.
  { cbn in E. injection E as <-. rewrite app_nil_r, He in He0. apply (inj Some) in He0 as <-. exists r. split; [done|]. left. split; [|done].
    destruct Hm as (_ & _ & <-). by eapply lookup_lt_Some. }
  cbn [foldM] in E. unfold refine_merge at 1 in E. destruct (merge _ _ _ m p) as [m1 [n|]] eqn:Em; [|done]. cbn [rbind] in E.
  assert (box p) as Hp by (apply Hl; left). pose proof Hm as (_ & _ & Lm). pose proof Hp as (_ & _ & Lp).
  destruct (append_geo m p m1) as (B1 & N1 & Eg); [by eapply merge_ok_append|done|done|].
  assert (nel m1 = (nel m + nel p)%nat) as Ln.
  { destruct B1 as (_ & _ & <-). apply (f_equal length) in Eg. unfold geo in Eg. rewrite app_length, !fmap_length in Eg. lia. }
  pose proof (merge_types (nlit 1 100) true (negb ib) m p m1 n Em Lm) as Hty. cbv zeta in Hty.
  assert (some_periodic m ∨ some_periodic p → per) as Hmp by (intros [H|H]; [by apply Hper|apply (Hlper p); [left|done]]).
  assert (∀ b x r, changed_entry (nlit 1 100) (some_periodic m ∨ some_periodic p) m1 b x r → changed_entry (nlit 1 100) per m1 b x r) as Hch.
  { intros b' x' r'. by apply changed_strip. }
  assert (∀ p, p ∈ l → box p) as Hl' by (intros; apply Hl; by right).
  destruct (merges_ok l m1 m' E B1 Hl') as (_ & _ & Eg').
  assert (∃ e1, (elems m1 ++ (l ≫= elems)) !! x = Some e1 ∧ ((nel m1 ≤ x)%nat → e1 = e0)) as (e1 & He1 & Heq).
  { rewrite bind_cons, app_assoc in He0. destruct (decide (x < nel m1)%nat) as [Hx|Hx].
    - destruct B1 as (_ & _ & B1). destruct (lookup_lt_is_Some_2 (elems m1) x) as [e1 He1]; [lia|]. exists e1. split; [|lia]. by rewrite lookup_app_l_Some with (x:=e1).
    - exists e0. split; [|done]. destruct B1 as (_ & _ & B1). rewrite lookup_app_r in He0 by (rewrite app_length; lia). rewrite lookup_app_r by lia.
      rewrite <- He0. f_equal. rewrite app_length. lia. }
  destruct (IH m1 m' E B1 Hl') with (x := x) (e0 := e1) (e := e) (b := b) (f := f) (r := r) as (r1 & Hr1 & Hcase); try done.
  { intros (i & b' & f' & r' & Hr' & Ht'). destruct (Hty (i, f') b' r' Hr') as [H1 H2]. cbn [fst snd] in *. destruct (decide (i < nel m)%nat) as [Hi|Hi].
    - destruct (H1 Hi) as (r0 & Hr0 & [->|[[Hc _]|[_ Hc]]]); [|congruence|by apply Hmp]. apply Hper. by exists i, b', f', r0.
    - destruct H2 as (r0 & Hr0 & [Hs|[[Hc _]|[_ Hc]]]); [lia| |congruence|by apply Hmp]. apply (Hlper p); [left|]. exists (i - nel m)%nat, b', f', r0.
      split; [done|]. rewrite <- Ht'. symmetry. exact (f_equal bt Hs). }
  { intros q Hq. apply Hlper. by right. }
  destruct (decide (nel m1 ≤ x)%nat) as [Hx|Hx].
  { rewrite (Heq Hx) in Hr1. exists r1. split; [done|]. destruct Hcase as [[? _]|[[_ H]|H]]; [lia| |by right; right]. right. left. split; [lia|done]. }
  pose proof B1 as Bx. destruct B1 as (_ & _ & B1). rewrite lookup_app_l in He1 by lia. rewrite <- (get_entry m1 x e1) in Hr1 by done.
  destruct (Hty (x, f) b r1 Hr1) as [H1 H2]. cbn [fst snd] in H1, H2.
  assert (changed_entry (nlit 1 100) per m1 b (x, f) r1 → joined per m' e f r1) as Hj.
  { apply (changed_joined per m1 m' b (x, f) r1 e); cbn [fst]; [done|eexists; exact Eg'|done|lia]. }
  destruct (decide (x < nel m)%nat) as [Hxm|Hxm].
  - destruct (H1 Hxm) as (r0 & Hr0 & Hc). rewrite bind_cons, lookup_app_l in He0 by lia. rewrite (get_entry m x e0) in Hr0 by done. exists r0. split; [done|].
    destruct Hcase as [[_ ->]|[[? _]|H]]; [|lia|by right; right]. destruct Hc as [->|Hc]; [by left|right; right]. by apply Hj, Hch.
  - destruct H2 as (r0 & Hr0 & Hc); [lia|]. rewrite bind_cons, lookup_app_r, lookup_app_l in He0 by lia. rewrite Lm in He0.
    rewrite (get_entry p _ e0) in Hr0 by done. exists r0. split; [done|].
    destruct Hcase as [[_ ->]|[[? _]|H]]; [|lia|by right; right]. destruct Hc as [Hs|Hc]; [right; left; split; [lia|exact (f_equal bt Hs)]|right; right]. by apply Hj, Hch.
Qed.
End result.
