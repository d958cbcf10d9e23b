(** Proofs about [extrude] and [extrude_mid] without internal conditions: what the connected faces name. *)
From Verif Require Import Base Mesh Core Tools Curve Mid Split MeshLemmas MeshSpec CheckProofs OpsProofs GeoLaws BoxProofs MergeSpec
  ExtrudeSpec ExtrudeProofs MidSpec MidProofs MidBlock MidMesh MidResult MidGeo MidFaces MidEntry SplitSpec SplitProofs.
From Coq Require Import Lia.
Open Scope Z_scope.

Section flat.
Context {A : arith}.
Notation N := (num A).
Implicit Types (e : elem N) (r : bcrec N) (m : hexa N).

(** The faces a 2D mesh does not use are not connected. *)
Definition flat m : Prop := ∀ i b (f : nat) r, get_bc m i b f = Some r → (4 ≤ f)%nat → ¬ is_conn (bt r).
Lemma flat_alter g i b (f : nat) m : (∀ r, ¬ is_conn (bt r) → ¬ is_conn (bt (g r))) → flat m → flat (alter_bc g i b f m).
Proof.
  intros Hg H i' b' f' r. rewrite get_bc_alter. case_decide as Hd; [|apply H].
  destruct (get_bc m i' b' f') as [q|] eqn:E; [|done]. cbn. intros Hr Hf. apply (inj Some) in Hr as <-. apply Hg. by eapply H.
Qed.
Lemma flat_upd (g : nat * nat * nat → bcrec N → res (bcrec N * Z)) s l s' :
  (∀ x r rd, g x r = Ok rd → ¬ is_conn (bt r) → ¬ is_conn (bt rd.1)) → upd_loop g s l = Ok s' → flat s.1 → flat s'.1.
Proof.
  intros Hg H H0. unfold upd_loop in H. eapply (foldM_inv _ (λ s', flat s'.1)); [..|exact H]; [done|].
  intros s1 [[i b] f] s2 _ H1 Hs. unfold upd_step in Hs.
  destruct (get_bc (fst s1) i b f) as [q|] eqn:Eq; [|done]. cbn [of_opt rbind] in Hs.
  destruct (g (i, b, f) q) as [rd|] eqn:Er; [|done]. cbn [rbind] in Hs. injection Hs as <-. cbn [fst].
  intros i' b' f' r. rewrite get_bc_alter. case_decide as Hd; [|apply H1]. injection Hd as -> -> ->. rewrite Eq. cbn.
  intros Hr Hf. apply (inj Some) in Hr as <-. apply (Hg _ _ _ Er). by apply (H1 i b f).
Qed.
Lemma flat_elems m m' : elems m' = elems m → flat m → flat m'.
Proof. intros E H i b f r. unfold get_bc. rewrite E. apply H. Qed.
Lemma flat_ncurv m m' : update_ncurv m = Ok m' → flat m → flat m'.
Proof. unfold update_ncurv. destruct (foldM _ _ _); [|done]. cbn [rbind]. intros H. injection H as <-. by apply flat_elems. Qed.
Lemma flat_delete m d n : wf_bcs m → delete_internal_bcs m = Ok (d, n) →
  (∀ i b (f : nat) r, get_bc m i b f = Some r → (4 ≤ f)%nat → bt r ≠ "P"%string) → flat d.
Proof.
  intros Hw E H. destruct (delete_spec m Hw) as (d' & n' & E' & _ & Hb & _ & Hd). rewrite E in E'. injection E' as <- <-.
  intros i b f r Hr Hf. destruct (get_bc m i b f) as [q|] eqn:Eq.
  - rewrite (Hd _ _ _ _ Eq) in Hr. apply (inj Some) in Hr as <-. destruct (String.eqb_spec (bt q) "E"); [by intros [?|?]|].
    intros [?|?]; [done|]. by eapply H.
  - rewrite (get_bc_None _ _ _ _ _ Hb Eq) in Hr. done.
Qed.
Lemma flat_keep m els ext m' : ¬ is_conn (u3 ext) → keep_elements m els ext = Ok m' → flat m → flat m'.
Proof.
  intros Hext. unfold keep_elements. destruct (ke_tables _ _) as [[kept offs]|]; [|done]. cbn [rbind].
  destruct (upd_loop _ _ _) as [s|] eqn:E; [|done]. cbn [rbind]. destruct (mapR _ _) as [news|] eqn:En; [|done]. cbn [rbind].
  intros Hu Hm. apply (flat_ncurv _ _ Hu). assert (flat (fst s)) as Hs.
  { eapply flat_upd; [|exact E|exact Hm]. intros [[i b] f] r rd Hg. unfold ke_face in Hg. destruct (of_opt _ _); [|done]. cbn [rbind] in Hg.
    case_bool_decide; [|by injection Hg as <-]. destruct (ntrunc _); [|done]. cbn [rbind] in Hg.
    destruct (of_opt _ _) as [[|]|]; [| |done]; cbn [rbind] in Hg; [|injection Hg as <-; intros _; exact Hext].
    destruct (of_opt _ _); [|done]. cbn [rbind] in Hg. by injection Hg as <-. }
  intros p b f r Hr Hf. unfold get_bc in Hr. cbn [elems set_nel set_elems] in Hr. destruct (news !! p) as [e|] eqn:He; [|done]. apply mapR_Ok in En.
  destruct (Forall2_lookup_r _ _ _ _ _ En He) as (i & _ & Hi). destruct (elems (fst s) !! i) as [e'|] eqn:E'; [|done].
  cbn in Hi. injection Hi as <-. apply (Hs i b f r); [|done]. unfold get_bc. by rewrite E'.
Qed.
Context {P : Type}.
Lemma flat_split (ib : bool) funpar m k (F : N → N → P → N) i md x : refine_split ib funpar m k F = Ok (i, md, x) → flat m → flat i ∧ flat md ∧ flat x.
Proof.
  unfold refine_split. destruct (mapR _ _) as [cs|]; [|done]. cbn [rbind]. cbv zeta. rewrite con_external.
  destruct (keep_elements m _ _) as [a|] eqn:E1; [|done]. cbn [rbind].
  destruct (keep_elements m (List.filter (λ i, nth i cs 3 =? 1)%nat _) _) as [b|] eqn:E2; [|done]. cbn [rbind].
  destruct (keep_elements m (List.filter (λ i, nth i cs 3 =? 2)%nat _) _) as [c|] eqn:E3; [|done]. cbn [rbind]. intros H Hm. injection H as <- <- <-.
  pose proof (con_conn ib) as Hc. split; [|split]; [exact (flat_keep _ _ _ _ Hc E1 Hm)|exact (flat_keep _ _ _ _ Hc E2 Hm)|exact (flat_keep _ _ _ _ Hc E3 Hm)].
Qed.
Lemma flat_splits (ib : bool) funpar l : ∀ acc m acc' m',
  foldM (λ s x, let '(parts, ext) := s in let '(k, f) := x in
        let! (im, x) := refine_split ib funpar ext k f in Ok (parts ++ [im], x)) (acc, m) (l : list (nat * (N → N → P → N))) = Ok (acc', m') →
  flat m → (∀ q, q ∈ acc → flat (fst q) ∧ flat (snd q)) → flat m' ∧ ∀ q, q ∈ acc' → flat (fst q) ∧ flat (snd q).
Proof.
  induction l as [|[k F] l IH]; intros acc m acc' m' E Hm Ha.
  { cbn in E. injection E as <- <-. done. }
  cbn [foldM] in E. destruct (refine_split ib funpar m k F) as [[[i md] x]|] eqn:Es; [|done]. cbn [rbind] in E.
  destruct (flat_split _ _ _ _ _ _ _ _ Es Hm) as (F1 & F2 & F3). apply (IH _ _ _ _ E F3).
  intros q. rewrite elem_of_app, elem_of_list_singleton. intros [Hq|Hq]; [by apply Ha|]. by subst q.
Qed.

(** ** Extruded parts *)
Context (bnd : Z) (LA : arith_laws A bnd) (LM : mul_law (A:=A) bnd).
Context (nb : nat) (bc1 bc2 : list string) (c1 c2 : nat → string).
Hypothesis G1 : conditions_given nb (Some bc1) c1.
Hypothesis G2 : conditions_given nb (Some bc2) c2.
Hypothesis HP : ∀ b, (b < nb)%nat → c1 b = "P"%string ↔ c2 b = "P"%string.
Hypothesis He : ∀ b, (b < nb)%nat → end_condition (c1 b) ∧ end_condition (c2 b).
Lemma extrude_flat m z nz m3 : good bnd m → flat m → nbc m = nb → length z = (nz + 1)%nat → (1 ≤ nz)%nat → Z.of_nat (nel m * nz) <= bnd →
  extrude m z (Some bc1) (Some bc2) false = Ok m3 → conn_refs m3.
Proof using LA G1 G2 HP He.
  intros (Hw & Hlin & Hp & _) Hfl Hnb Hz Hnz Hbnd E. assert (length z - 1 = nz)%nat as Ez by lia. rewrite <- Hnb in G1, G2, HP, He.
  assert (∀ k, (k < length z - 1)%nat → refs_within bnd (Z.of_nat (k * nel m)) 0 m) as Hrefs.
  { rewrite Ez. apply paired_refs; [apply Hlin|done|done]. }
  destruct G1 as [L1 C1]. destruct G2 as [L2 C2]. pose proof Hlin as (N2 & _).
  destruct (extrude_eq bnd LA m z (Some bc1) (Some bc2) c1 c2 Hw Hlin ltac:(lia) Hrefs L1 L2 C1 C2 HP false) as (first & lay & (kd & Ed) & Hs & Hb & Hlay & E').
  rewrite E in E'. injection E' as E'.
  destruct (m3_fields bnd LA m z c1 c2 Hw Hrefs false first lay Hs Hb Hlay) as (F1 & F2 & _ & F4 & _). rewrite <- E' in F1, F2, F4. rewrite Ez in F2.
  intros p b f r (Hpl & Hbb & Hf) Hr Hc. rewrite F2 in Hpl. rewrite F1 in Hf. rewrite F4 in Hbb.
  pose proof (Nat.div_mod_eq p (nel m)) as Hdm. pose proof (Nat.mod_upper_bound p (nel m) ltac:(lia)) as Hmod.
  assert (p / nel m < nz)%nat as Hdv by (apply Nat.div_lt_upper_bound; lia).
  set (k := (p / nel m)%nat) in *. set (i := (p mod nel m)%nat) in *. replace p with (i + nel m * k)%nat in Hr by lia.
  assert (∀ i' k' g, (i' < nel m)%nat → (k' < nz)%nat → (g < 6)%nat → in_mesh m3 (i' + nel m * k') b g) as Hin.
  { intros i' k' g Hi' Hk' Hg. unfold in_mesh. rewrite F1, F2, F4. split_and!; [nia|done|lia]. }
  pose proof (m3_get bnd LA m z (Some bc1) (Some bc2) c1 c2 Hw ltac:(lia) Hrefs L1 L2 false first lay Hs Hb Hlay i k b f Hmod ltac:(lia) Hbb) as Hg.
  rewrite <- E', Hr in Hg. destruct (wf_get_bc m i b f (proj1 Hw) Hmod Hbb) as [q Hq]; [lia|].
  assert (∃ q1, get_bc (lay k) i b f = Some q1 ∧ (is_conn (bt q1) → (f < 4)%nat → ∃ j g, (j < nel m)%nat ∧ (g < 4)%nat ∧ points q1 (j + nel m * k) g) ∧
    (is_conn (bt q1) → is_conn (bt q))) as (q1 & Hq1 & Hpt & Hcq).
  { specialize (Hlay k ltac:(lia)). assert ((f < 4)%nat → in_mesh m i b f) as Hif by (intros ?; unfold in_mesh; rewrite N2; lia).
    assert (is_conn (bt q) → (f < 4)%nat → ∃ j g, (j < nel m)%nat ∧ (g < 4)%nat ∧ points q j g) as Hpq.
    { intros Hcc Hf4. destruct (Hp i b f q (Hif Hf4) Hq Hcc) as (j & g & _ & (Hj & _ & Hg') & Hpq & _). rewrite N2 in Hg'. exists j, g. split_and!; [done|lia|done]. }
    unfold is_layer in Hlay. case_decide as Hk0.
    - rewrite Hlay. destruct (delete_spec m (proj1 Hw)) as (d' & n' & Ed' & _ & _ & _ & Hd). rewrite Ed in Ed'. injection Ed' as <- <-.
      eexists. split; [by apply Hd|]. destruct (String.eqb_spec (bt q) "E") as [Et|Et].
      + split; [by intros [?|?]|by intros [?|?]].
      + split; [|done]. rewrite Hk0, Nat.mul_0_r. intros Hcc Hf4. destruct (Hpq Hcc Hf4) as (j & g & ? & ? & ?). exists j, g. by rewrite Nat.add_0_r.
    - destruct (offset_connectivity_spec bnd _ 0 m LA (proj1 Hw) (Hrefs k ltac:(lia))) as (m' & Em & _ & _ & Hoe).
      rewrite Hlay in Em. injection Em as Em. destruct (Hoe i b f q Hq) as (q1 & Hq1 & O). rewrite <- Em in Hq1.
      destruct O as (O1 & _ & O4 & _ & _ & _ & O3 & _). exists q1. split; [done|]. rewrite O1. split; [|done].
      intros Hcc Hf4. destruct (Hpq Hcc Hf4) as (j & g & Hj & Hg' & [P3 P4]). exists j, g. split; [done|]. split; [done|]. split; [|by rewrite O4].
      rewrite (O3 (conj (Hif Hf4) Hcc) (Z.of_nat j + 1)).
      + rewrite bool_decide_true by lia. f_equal. lia.
      + nia.
      + done. }
  rewrite Hq1 in Hg. cbn [fmap option_fmap option_map] in Hg. apply (inj Some) in Hg. destruct (He b Hbb) as [[U1 N1] [U2 N3]]. rewrite Ez in Hg.
  unfold h_end in Hg. cbv zeta in Hg. destruct (decide (f = 4 ∧ k = 0)%nat) as [[-> Hk0]|Hn4].
  { destruct (String.eqb_spec (c1 b) "P") as [Ep|Ep]; rewrite Hg in Hc; cbn [set_end bt] in Hc; rewrite U1 in Hc; [|by destruct Hc].
    exists (i + nel m * (nz - 1))%nat, 5%nat. split; [apply Hin; lia|]. rewrite Hg. split; cbn [set_end bp3 bp4]; f_equal; lia. }
  destruct (decide (f = 5 ∧ k = nz - 1)%nat) as [[-> Hk0]|Hn5].
  { destruct (String.eqb_spec (c2 b) "P") as [Ep|Ep]; rewrite Hg in Hc; cbn [set_end bt] in Hc; rewrite U2 in Hc; [|by destruct Hc].
    exists (i + nel m * 0)%nat, 4%nat. split; [apply Hin; lia|]. rewrite Hg. split; cbn [set_end bp3 bp4]; f_equal; lia. }
  subst r. destruct (decide (f < 4)%nat) as [Hf4|Hf4].
  - destruct (Hpt Hc Hf4) as (j & g & Hj & Hg' & Hpp). exists (j + nel m * k)%nat, g. split; [apply Hin; lia|done].
  - exfalso. apply (Hfl i b f q Hq); [lia|]. by apply Hcq.
Qed.
Lemma mid_flat m z f q m3 : good bnd m → flat m → nbc m = nb → (1 ≤ q)%nat → Z.of_nat (6 * nel m * q) <= bnd →
  (∀ e, e ∈ elems m → cut_across f e) → mid_result f false z q c1 c2 m m3 → conn_refs m3.
Proof using LA LM G1 G2 HP He.
  intros (Hw & Hlin & Hp & _) Hfl Hnb Hq Hbnd Hcut Hres.
  pose proof Hres as (R1 & R2 & R3 & R4 & R5 & _ & _ & _ & Hel). pose proof Hw as [(_ & Hlen & _) _]. pose proof Hlin as (D2 & _).
  intros p b g r (Hpl & Hb & Hg) Hr Hc. rewrite R2 in Hpl. rewrite R1 in Hg. rewrite R5 in Hb.
  destruct (sixth_div (nel m) q p Hpl) as (k & i & j & (Hk & Hi & Hj) & ->).
  destruct (lookup_lt_is_Some_2 (elems m) i) as [e Hei]; [lia|].
  assert (∀ k' i' j' g', (k' < q)%nat → (i' < nel m)%nat → (j' < 6)%nat → (g' < 6)%nat → in_mesh m3 (sixth (nel m) k' i' j') b g') as Hin3.
  { intros. unfold in_mesh. rewrite R1, R2, R5. split_and!; [by apply sixth_lt|done|lia]. }
  destruct (Hel k i e Hk Hei) as (l & (lo & hi & m0 & m1 & a0 & a1 & Ho & E0 & E1 & F & HF) & Hl).
  destruct (Hl j Hj) as (x & y & _ & _ & _ & _ & Hget). rewrite Hget in Hr by done. rewrite HF in Hr by done.
  destruct (wf_get_bc m i b g (proj1 Hw) Hi Hb) as [r0 Hr0]; [lia|].
  assert (get_bc m i b g = (row ← bcs e !! b; row !! g)) as E by (unfold get_bc; by rewrite Hei).
  rewrite <- E, Hr0 in Hr. cbn [fmap option_fmap option_map] in Hr. apply (inj Some) in Hr. destruct (He b ltac:(lia)) as [[U1 N1] [U2 N3]].
  assert (is_conn (bt r0) → (g < 4)%nat → ∃ j' g', (j' < nel m)%nat ∧ (g' < 4)%nat ∧ points r0 j' g') as Hpq.
  { intros Hcc Hf4. destruct (Hp i b g r0) as (j' & g' & _ & (Hj' & _ & Hg') & Hpq & _); [unfold in_mesh; rewrite D2; lia|done|done|].
    rewrite D2 in Hg'. exists j', g'. split_and!; [done|lia|done]. }
  unfold mend in Hr. destruct (decide (g = 4 ∧ k = 0 ∧ (j = 0 ∨ j = 1))%nat) as [(-> & -> & Hj')|H4].
  { destruct (String.eqb_spec (c1 b) "P") as [Ep|Ep]; rewrite <- Hr in Hc; cbn [set_end bt] in Hc; rewrite U1 in Hc; [|by destruct Hc].
    exists (sixth (nel m) (q - 1) i (5 - j)), 5%nat. split; [apply Hin3; lia|]. rewrite <- Hr. by split. }
  destruct (decide (g = 5 ∧ k = q - 1 ∧ (j = 5 ∨ j = 4))%nat) as [(-> & -> & Hj')|H5].
  { destruct (String.eqb_spec (c2 b) "P") as [Ep|Ep]; rewrite <- Hr in Hc; cbn [set_end bt] in Hc; rewrite U2 in Hc; [|by destruct Hc].
    exists (sixth (nel m) 0 i (5 - j)), 4%nat. split; [apply Hin3; lia|]. rewrite <- Hr. by split. }
  unfold mid_upd in Hr. destruct (decide (g = s_l0 (mid_sides lo hi) ∨ g = s_l1 (mid_sides lo hi))) as [Hl'|Hl'].
  - rewrite <- Hr, mid_ref_bt in Hc. destruct (splits_sound lo hi) as [[(B1 & B2 & B3 & B4) _] _]; [by eapply orient_splits|].
    destruct (Hpq Hc ltac:(destruct Hl'; lia)) as (p2 & g2 & Hp2 & Hg2 & Hpt).
    exists (sixth (nel m) k p2 j), g2. split; [apply Hin3; lia|]. rewrite <- Hr. by eapply mid_ref_points.
  - rewrite <- Hr in Hc. destruct (decide (g < 4)%nat) as [Hg4|Hg4]; [|exfalso; apply (Hfl i b g r0 Hr0); [lia|done]].
    destruct (Hpq Hc Hg4) as (p2 & g2 & Hp2 & Hg2 & Hpt). exists p2, g2. split; [|by rewrite <- Hr].
    unfold in_mesh. rewrite R1, R2, R5. split_and!; [nia|done|lia].
Qed.
End flat.
