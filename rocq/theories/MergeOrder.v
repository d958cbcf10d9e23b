(** The order of merging. *)
From Coq Require Import Lia.
From Verif Require Import Base Mesh Core MeshLemmas GeoLaws MeshSpec MergeSpec CheckProofs MidConform OrderSpec.
Open Scope Z_scope.

(** ** Where a face leads to is unique *)
Lemma leads_end_unique (P K : nat * nat → nat * nat → Prop) : (∀ z w w', P z w → P z w' → w = w') → (∀ z w w', K z w → K z w' → w = w') →
  ∀ z w w', leads P K z w → (∀ v, ¬ K w v) → leads P K z w' → (∀ v, ¬ K w' v) → w = w'.
Proof.
  intros FP FK z w w' H. revert w'. induction H as [z w HP|z u v w HP HK _ IH]; intros w' He H' He'.
  - inversion H' as [? ? HP'|? u v ? HP' HK']; subst; [by eapply FP|]. pose proof (FP _ _ _ HP HP') as ->. by destruct (He v).
  - inversion H' as [? ? HP'|? u' v' ? HP' HK' H'']; subst.
    + pose proof (FP _ _ _ HP HP') as ->. by destruct (He' v).
    + pose proof (FP _ _ _ HP HP') as ->. pose proof (FK _ _ _ HK HK') as ->. by apply IH.
Qed.
Lemma leads_map (P K P' K' : nat * nat → nat * nat → Prop) (g : nat * nat → nat * nat) : (∀ z w, P z w → P' (g z) (g w)) → (∀ z w, K z w → K' (g z) (g w)) →
  ∀ z w, leads P K z w → leads P' K' (g z) (g w).
Proof. intros HP HK z w. induction 1 as [z w H|z u v w H1 H2 _ IH]; [by apply leads_partner, HP|]. apply (leads_on _ _ _ (g u) (g v)); auto. Qed.

Section Order.
Context {A : arith}.
Notation N := (num A).
Context (bnd : Z) (LA : arith_laws A bnd) (G : geo_laws A) (self other : hexa N) (tol : N) (ie : bool).
Context (Hcmp : compatible bnd self other) (Cs : connected_mesh self) (Co : connected_mesh other).
Context (Hun : unique_contacts tol ie self other).
Context (Hpos : ∀ e s, e ∈ elems self ∨ e ∈ elems other → smallest_edge e = Ok s → nltb (nofZ 0) s = true).
Notation n1 := (nel self).
Notation n2 := (nel other).

Lemma compatible_swap : compatible bnd other self.
Proof. destruct Hcmp as (H1 & H2 & [l H3] & H4 & H5 & H6). split_and!; try done. - exists l. congruence. - lia. Qed.
Lemma contact_swap x y : contact tol ie self other x y ↔ contact tol ie other self y x.
Proof.
  split.
  - intros (F1 & F2 & (e & e' & c & c' & s & s' & D1 & D2 & D3 & D4 & D5 & D6 & D7)). split_and!; try done. exists e', e, c', c, s', s. split_and!; try done.
    rewrite <- (geo_sym A G c c'). rewrite (geo_min A G s' s); [done| |]; eapply Hpos; try done; [left|right]; by eapply elem_of_list_lookup_2.
  - intros (F1 & F2 & (e & e' & c & c' & s & s' & D1 & D2 & D3 & D4 & D5 & D6 & D7)). split_and!; try done. exists e', e, c', c, s', s. split_and!; try done.
    rewrite <- (geo_sym A G c c'). rewrite (geo_min A G s' s); [done| |]; eapply Hpos; try done; [right|left]; by eapply elem_of_list_lookup_2.
Qed.
Lemma unique_swap : unique_contacts tol ie other self.
Proof. destruct Hun as [U1 U2]. split; [intros x y y' A1 A2; apply (U2 y y' x)|intros x x' y A1 A2; apply (U1 y x x')]; by apply contact_swap. Qed.
Lemma periodic_swap : periodic_meets_periodic tol ie self other → periodic_meets_periodic tol ie other self.
Proof. intros H x y Hc. apply contact_swap in Hc. symmetry. by apply H. Qed.

(** ** Numbers *)
Notation σ := (swapped n1 n2).
Definition σf (z : nat * nat) : nat * nat := (σ z.1, z.2).
Lemma swapped_low k : (k < n1)%nat → σ k = (n2 + k)%nat. Proof. intros H. unfold swapped. by rewrite decide_True. Qed.
Lemma swapped_high k : σ (n1 + k)%nat = k. Proof. unfold swapped. rewrite decide_False by lia. lia. Qed.
Lemma σf_low z : (z.1 < n1)%nat → σf z = shifted n2 z. Proof. intros H. unfold σf, shifted. by rewrite swapped_low. Qed.
Lemma σf_high z : σf (shifted n1 z) = z. Proof. unfold σf, shifted. cbn [fst snd]. rewrite swapped_high. by destruct z. Qed.

Lemma points_unique (m : hexa N) b (r : bcrec N) (x y : nat * nat) : ndim m = ndim self → (nel m ≤ n1 + n2)%nat → in_mesh m x.1 b x.2 → in_mesh m y.1 b y.2 → points r x.1 x.2 → points r y.1 y.2 → x = y.
Proof.
  intros Hd Hn (X1 & _ & X2) (Y1 & _ & Y2) P1 P2. destruct Hcmp as (_ & _ & _ & _ & H5 & H6). assert (2 * ndim m ≤ 6)%nat as H3.
  { destruct Cs as (((Hd3 & _) & _) & _). rewrite Hd. destruct Hd3 as [->| ->]; lia. }
  destruct (MidConform.points_inj bnd r x.1 x.2 y.1 y.2 LA) as [E1 E2]; try done; try lia. destruct x, y. cbn in *. by subst.
Qed.

(** ** Contacts and partners *)
Context (C C' : list ((nat * nat) * (nat * nat))).
Context (HC : ∀ x y, (x, y) ∈ C ↔ contact tol ie self other x y) (HC' : ∀ x y, (x, y) ∈ C' ↔ contact tol ie other self x y).
Lemma swap_in x y : (x, y) ∈ C ↔ (y, x) ∈ C'. Proof. rewrite HC, HC'. apply contact_swap. Qed.
Lemma in_contact_swap z w : in_contact n1 C z w → in_contact n2 C' (σf z) (σf w).
Proof.
  intros (x & y & Hin & E). assert (y.1 < n1)%nat as Hy. { apply HC in Hin as (_ & [[Hy _] _] & _). exact Hy. }
  exists y, x. split; [by apply swap_in|]. destruct E as [E|E]; injection E as -> ->; rewrite σf_high, (σf_low y) by done; [by right|by left].
Qed.
Lemma in_contact_back z w : (z.1 < n1 + n2)%nat → in_contact n2 C' (σf z) w → ∃ v, in_contact n1 C z v.
Proof.
  intros Hz (y & x & Hin & E). apply swap_in in Hin. assert (x.1 < n2 ∧ y.1 < n1)%nat as [Hx Hy]. { apply HC in Hin as ([[Hx _] _] & [[Hy _] _] & _). done. }
  destruct (decide (z.1 < n1)%nat) as [Hlt|Hge].
  - rewrite σf_low in E by done. destruct E as [E|E]; apply (f_equal fst) in E; cbn [fst] in E; pose proof (f_equal fst E) as E1; pose proof (f_equal snd E) as E2; cbn [fst snd shifted] in E1, E2.
    + assert (z = y) as -> by (destruct z, y; cbn in *; f_equal; lia). exists (shifted n1 x), x, y. auto.
    + exfalso. rewrite <- E1 in Hx. lia.
  - assert (z = shifted n1 (z.1 - n1, z.2)%nat) as Ez by (destruct z; unfold shifted; cbn in *; f_equal; lia). rewrite Ez in E |- *. rewrite σf_high in E. destruct E as [E|E]; apply (f_equal fst) in E; cbn [fst] in E; pose proof (f_equal fst E) as E1; pose proof (f_equal snd E) as E2; cbn [fst snd shifted] in E1, E2.
    + exfalso. lia.
    + assert ((z.1 - n1, z.2)%nat = x) as -> by (destruct z, x; cbn in *; f_equal; lia). exists y, x, y. auto.
Qed.
Lemma partners_swap z w : partners self other z w → partners other self (σf z) (σf w).
Proof.
  intros [(Hz & Hw & HL)|(x & y & Hx & Hy & -> & -> & HL)].
  - right. exists z, w. rewrite (σf_low z), (σf_low w) by (by apply Hz || by apply Hw). done.
  - left. rewrite !σf_high. done.
Qed.
Lemma partners_fun z w w' : partners self other z w → partners self other z w' → w = w'.
Proof.
  intros [(Hz & Hw & (r & Hr & Ht & Hp))|(x & y & Hx & Hy & -> & -> & (r & Hr & Ht & Hp))] [(Hz' & Hw' & (r' & Hr' & Ht' & Hp'))|(x' & y' & Hx' & Hy' & E & -> & (r' & Hr' & Ht' & Hp'))].
  - rewrite Hr in Hr'. apply (inj Some) in Hr' as <-. eapply (points_unique self 0); eauto. lia.
  - exfalso. destruct Hz as [Hz _]. rewrite E in Hz. cbn in Hz. lia.
  - exfalso. destruct Hz' as [Hz' _]. cbn in Hz'. lia.
  - assert (x = x') as <-. { destruct x, x'. unfold shifted in E. cbn in E. injection E as E1 ->. f_equal. lia. }
    rewrite Hr in Hr'. apply (inj Some) in Hr' as <-. f_equal. eapply (points_unique other 0); eauto; [|lia]. by destruct Hcmp as (-> & _).
Qed.
Lemma contact_fun z w w' : in_contact n1 C z w → in_contact n1 C z w' → w = w'.
Proof.
  intros (x & y & Hin & E) (x' & y' & Hin' & E'). apply HC in Hin, Hin'. assert (y.1 < n1 ∧ y'.1 < n1)%nat as [Hy Hy'].
  { destruct Hin as (_ & [[Hy _] _] & _), Hin' as (_ & [[Hy' _] _] & _). done. }
  destruct Hun as [U1 U2]. assert (∀ p q p' q' : nat * nat, (p, q) = (p', q') → p = p' ∧ q = q') as Hpair by (intros p q p' q' Hpq; by injection Hpq).
  destruct E as [E|E], E' as [E'|E']; apply Hpair in E as [-> ->]; apply Hpair in E' as [E' ->].
  - assert (x = x') as <-. { unfold shifted in E'. destruct x, x'. cbn [fst snd] in E'. injection E' as E1 ->. f_equal. lia. } by apply (U1 x).
  - exfalso. rewrite <- E' in Hy'. cbn in Hy'. lia.
  - exfalso. rewrite E' in Hy. cbn in Hy. lia.
  - subst y'. f_equal. by apply (U2 x x' y).
Qed.
End Order.


(** ** The merged meshes *)
Section Merged.
Context {A : arith}.
Notation N := (num A).
Context (bnd : Z) (LA : arith_laws A bnd) (G : geo_laws A) (self other : hexa N) (tol : N) (ie : bool).
Context (Hcmp : compatible bnd self other) (Hnb : (0 < nbc self)%nat) (Cs : connected_mesh self) (Co : connected_mesh other).
Context (Hun : unique_contacts tol ie self other).
Context (Hpos : ∀ e s, e ∈ elems self ∨ e ∈ elems other → smallest_edge e = Ok s → nltb (nofZ 0) s = true).
Notation n1 := (nel self).
Notation n2 := (nel other).
Notation σ := (swapped n1 n2).
Notation σf := (σf self other).
Context (m1 m2 : hexa N) (k1 k2 : Z) (A1 : is_append self other m1) (A2 : is_append other self m2).
Context (G1 : is_glued tol ie self other m1 k1) (G2 : is_glued tol ie other self m2 k2).

Lemma dims1 : nel m1 = (n1 + n2)%nat ∧ nbc m1 = nbc self ∧ ndim m1 = ndim self.
Proof. destruct A1 as (E & _ & _ & E' & _). split; [done|]. split; [exact (f_equal nbc E')|exact (f_equal ndim E')]. Qed.
Lemma dims2 : nel m2 = (n1 + n2)%nat ∧ nbc m2 = nbc self ∧ ndim m2 = ndim self.
Proof.
  destruct A2 as (E & _ & _ & E' & _). destruct Hcmp as (H1 & _ & _ & H4 & _). split; [lia|]. split; [rewrite H4; exact (f_equal nbc E')|rewrite H1; exact (f_equal ndim E')].
Qed.
Lemma Hpos' : ∀ e s, e ∈ elems other ∨ e ∈ elems self → smallest_edge e = Ok s → nltb (nofZ 0) s = true.
Proof. intros e s [He|He]; apply Hpos; auto. Qed.
(** Both sides of a periodic face, in both results. *)
Lemma leads_same C C' z w w' : (∀ x y, (x, y) ∈ C ↔ contact tol ie self other x y) → (∀ x y, (x, y) ∈ C' ↔ contact tol ie other self x y) →
  leads_to_end self other C z w → (w.1 < n1 + n2)%nat → leads_to_end other self C' (σf z) w' → w' = σf w.
Proof.
  intros HC HC' [L1 E1] Hw [L2 E2]. symmetry. eapply (leads_end_unique (partners other self) (in_contact n2 C')); [| | |  |exact L2|exact E2].
  - intros x y y'. apply (partners_fun bnd LA other self (compatible_swap bnd self other Hcmp) Co).
  - intros x y y'. apply (contact_fun other self tol ie (unique_swap G self other tol ie Hun Hpos) C' HC').
  - eapply leads_map; [| |exact L1]; [apply partners_swap|by apply (in_contact_swap G self other tol ie Hpos)].
  - intros v Hv. apply (in_contact_back G self other tol ie Hpos C C' HC HC') in Hv as [v' Hv]; [|done]. by apply (E1 v').
Qed.
Lemma leads_range C z w : leads_to_end self other C z w → (w.1 < n1 + n2)%nat.
Proof.
  intros [L _]. assert (∀ z w, partners self other z w → (w.1 < n1 + n2)%nat) as HP.
  { intros z0 w0 [(_ & [H _] & _)|(x & y & _ & [H _] & _ & -> & _)]; cbn; lia. }
  induction L; eauto.
Qed.
Lemma same_count : k2 = k1.
Proof.
  destruct G1 as (C & ND & -> & HC & _), G2 as (C' & ND' & -> & HC' & _). f_equal.
  assert (C' ≡ₚ (λ p, (p.2, p.1)) <$> C) as ->; [|by rewrite fmap_length]. apply NoDup_Permutation; [done| |].
  - apply NoDup_fmap_2; [|done]. intros [a b] [c d] E. by injection E as -> ->.
  - intros [x y]. rewrite elem_of_list_fmap, <- (swap_in G self other tol ie Hpos C C' HC HC'). split; [intros H; by exists (y, x)|]. intros ([a b] & E & H). by injection E as -> ->.
Qed.
Lemma same_elem_both (e e1 e2 : elem N) : same_elem e e1 → same_elem e e2 → same_elem e1 e2.
Proof. unfold same_elem. congruence. Qed.
Lemma same_elements k : (k < nel m1)%nat → ∃ e1 e2, elems m1 !! k = Some e1 ∧ elems m2 !! σ k = Some e2 ∧ same_elem e1 e2.
Proof.
  destruct dims1 as (-> & _). intros Hk. destruct A1 as (_ & _ & _ & _ & l1 & l2 & -> & F1 & F2), A2 as (_ & _ & _ & _ & l1' & l2' & -> & F1' & F2').
  assert (length (elems self) = n1) as Ls by apply Cs. assert (length (elems other) = n2) as Lo by apply Co.
  pose proof (Forall2_length _ _ _ F1). pose proof (Forall2_length _ _ _ F1'). destruct (decide (k < n1)%nat) as [Hlt|Hge].
  - rewrite swapped_low by done. destruct (lookup_lt_is_Some_2 (elems self) k) as [e He]; [lia|].
    destruct (Forall2_lookup_l _ _ _ _ _ F1 He) as (e1 & He1 & S1), (Forall2_lookup_l _ _ _ _ _ F2' He) as (e2 & He2 & S2). exists e1, e2.
    split; [by apply lookup_app_l_Some|]. split; [|by eapply same_elem_both]. rewrite lookup_app_r by lia. rewrite <- He2. f_equal. lia.
  - replace k with (n1 + (k - n1))%nat by lia. rewrite swapped_high. destruct (lookup_lt_is_Some_2 (elems other) (k - n1)) as [e He]; [lia|].
    destruct (Forall2_lookup_l _ _ _ _ _ F2 He) as (e1 & He1 & S1), (Forall2_lookup_l _ _ _ _ _ F1' He) as (e2 & He2 & S2). exists e1, e2.
    split; [|split; [by apply lookup_app_l_Some|by eapply same_elem_both]]. rewrite lookup_app_r by lia. rewrite <- He1. f_equal. lia.
Qed.
Definition same_entry (b : nat) (z : nat * nat) : Prop := ∃ r1 r2, get_bc m1 z.1 b z.2 = Some r1 ∧ get_bc m2 (σ z.1) b z.2 = Some r2 ∧ bt r2 = bt r1 ∧
    (is_conn (bt r1) → ∃ j g, in_mesh m1 j b g ∧ points r1 j g ∧ points r2 (σ j) g).
Lemma periodic_dec (m : hexa N) z : periodic m z ∨ ¬ periodic m z.
Proof.
  unfold periodic. destruct (get_bc m z.1 0 z.2) as [r|] eqn:E; [|right; by intros (r & Hr & _)].
  destruct (decide (bt r = "P"%string)) as [HP|HP]; [left; by exists r|right; intros (r' & Hr' & HP'); congruence].
Qed.
Lemma leads_face C z w : leads_to_end self other C z w → (w.1 < n1 + n2 ∧ w.2 < 2 * ndim self)%nat.
Proof.
  intros [L _]. destruct Hcmp as (Hd & _). assert (∀ z w, partners self other z w → (w.1 < n1 + n2 ∧ w.2 < 2 * ndim self)%nat) as HP.
  { intros z0 w0 [(_ & (H & _ & H') & _)|(x & y & _ & (H & _ & H') & _ & -> & _)]; cbn; lia. }
  induction L; eauto.
Qed.
Lemma entry_self y b : in_mesh self y.1 b y.2 → same_entry b y.
Proof.
  intros Hi. pose proof Hi as (Hy & Hb & Hf). destruct Hcmp as (Hd & _ & _ & Hnn & _). destruct dims1 as (D1 & D2 & D3), dims2 as (D4 & D5 & D6).
  destruct G1 as (C & _ & _ & HC & Hg & Hka & _ & Hpa & _), G2 as (C' & _ & _ & HC' & Hg' & _ & Hkb & _ & Hpb). unfold same_entry. rewrite swapped_low by done.
  destruct (decide (y ∈ C.*2)) as [Hin|Hout].
  - apply elem_of_list_fmap in Hin as ([x y'] & Ey & Hin). cbn in Ey. subst y'. destruct (Hg x y b Hin) as [_ (r1 & Hr1 & Ht1 & Hp1)]; [lia|].
    pose proof (proj1 (swap_in G self other tol ie Hpos C C' HC HC' x y) Hin) as Hin'.
    destruct (Hg' y x b Hin') as [(r2 & Hr2 & Ht2 & Hp2) _]; [lia|]. exists r1, r2. split; [done|]. split; [exact Hr2|]. split; [congruence|]. intros _.
    apply HC in Hin as ([[X1 X2] _] & _). exists (n1 + x.1)%nat, x.2. split; [split; [|split]; lia|]. split; [exact Hp1|]. by rewrite swapped_high.
  - assert (∀ x, (x, y) ∉ C) as Hno. { intros x Hx. apply Hout, elem_of_list_fmap. by exists (x, y). }
    assert (∀ x, (y, x) ∉ C') as Hno'. { intros x Hx. apply (Hno x). by apply (swap_in G self other tol ie Hpos C C' HC HC'). }
    destruct Cs as (Ws & Ps & Us & Ns). destruct (periodic_dec self y) as [HP|HP].
    + assert (in_mesh self y.1 0 y.2) as Hi0 by (split; [|split]; lia). destruct (Hpa y Hno HP Hi0) as (w & HL & Hlk). destruct (Hpb y Hno' HP Hi0) as (w' & HL' & Hlk').
      pose proof (leads_face C y w HL) as [W1 W2]. rewrite <- (σf_low self other y Hy) in HL'. pose proof (leads_same C C' y w w' HC HC' HL W1 HL') as ->.
      destruct (Hlk b) as (r1 & Hr1 & Ht1 & Hp1); [lia|]. destruct (Hlk' b) as (r2 & Hr2 & Ht2 & Hp2); [lia|]. exists r1, r2. split; [done|]. split; [exact Hr2|]. split; [congruence|]. intros _.
      exists w.1, w.2. split; [split; [|split]; lia|]. split; [done|]. exact Hp2.
    + destruct (wf_get_bc self y.1 b y.2 (proj1 Ws) Hy Hb) as [r Hr]; [destruct (proj1 (proj1 Ws)); lia|].
      pose proof (Hka y b r Hno Hr HP) as Hr1. destruct (Hkb y b r Hno' Hi Hr HP) as (r2 & Hr2 & (S1 & _) & S2). exists r, r2. split; [done|]. split; [exact Hr2|]. split; [done|].
      intros Hc. destruct (Ps y.1 b y.2 r Hi Hr Hc) as (j & g & _ & (J1 & J2 & J3) & Q & _). exists j, g. split; [split; [|split]; lia|]. split; [done|]. rewrite swapped_low by done. by apply S2.
Qed.
Lemma entry_other x b : in_mesh other x.1 b x.2 → same_entry b (shifted n1 x).
Proof.
  intros Hi. pose proof Hi as (Hx & Hb & Hf). destruct Hcmp as (Hd & _ & _ & Hnn & _). destruct dims1 as (D1 & D2 & D3), dims2 as (D4 & D5 & D6).
  destruct G1 as (C & _ & _ & HC & Hg & _ & Hkb & _ & Hpb), G2 as (C' & _ & _ & HC' & Hg' & Hka & _ & Hpa & _). unfold same_entry, shifted. cbn [fst snd]. rewrite swapped_high.
  destruct (decide (x ∈ C.*1)) as [Hin|Hout].
  - apply elem_of_list_fmap in Hin as ([x' y] & Ey & Hin). cbn in Ey. subst x'. destruct (Hg x y b Hin) as [(r1 & Hr1 & Ht1 & Hp1) _]; [lia|].
    pose proof (proj1 (swap_in G self other tol ie Hpos C C' HC HC' x y) Hin) as Hin'.
    destruct (Hg' y x b Hin') as [_ (r2 & Hr2 & Ht2 & Hp2)]; [lia|]. exists r1, r2. split; [exact Hr1|]. split; [done|]. split; [congruence|]. intros _.
    apply HC in Hin as (_ & [[Y1 Y2] _] & _). exists y.1, y.2. split; [split; [|split]; lia|]. split; [exact Hp1|]. by rewrite swapped_low.
  - assert (∀ y, (x, y) ∉ C) as Hno. { intros y Hy. apply Hout, elem_of_list_fmap. by exists (x, y). }
    assert (∀ y, (y, x) ∉ C') as Hno'. { intros y Hy. apply (Hno y). by apply (swap_in G self other tol ie Hpos C C' HC HC'). }
    destruct Co as (Wo & Po & Uo & No). destruct (periodic_dec other x) as [HP|HP].
    + assert (in_mesh other x.1 0 x.2) as Hi0 by (split; [|split]; lia). destruct (Hpb x Hno HP Hi0) as (w & HL & Hlk). destruct (Hpa x Hno' HP Hi0) as (w' & HL' & Hlk').
      pose proof (leads_face C _ w HL) as [W1 W2]. rewrite <- (σf_high self other x) in HL'. pose proof (leads_same C C' _ w w' HC HC' HL W1 HL') as ->.
      destruct (Hlk b) as (r1 & Hr1 & Ht1 & Hp1); [lia|]. destruct (Hlk' b) as (r2 & Hr2 & Ht2 & Hp2); [lia|]. exists r1, r2. split; [exact Hr1|]. split; [done|]. split; [congruence|]. intros _.
      exists w.1, w.2. split; [split; [|split]; lia|]. split; [done|]. exact Hp2.
    + destruct (wf_get_bc other x.1 b x.2 (proj1 Wo) Hx Hb) as [r Hr]; [destruct (proj1 (proj1 Wo)); lia|].
      pose proof (Hka x b r Hno' Hr HP) as Hr2. destruct (Hkb x b r Hno Hi Hr HP) as (r1 & Hr1 & (S1 & _) & S2). exists r1, r. split; [exact Hr1|]. split; [done|]. split; [done|].
      rewrite S1. intros Hc. destruct (Po x.1 b x.2 r Hi Hr Hc) as (j & g & _ & (J1 & J2 & J3) & Q & _). exists (n1 + j)%nat, g. split; [split; [|split]; lia|]. split; [by apply S2|]. by rewrite swapped_high.
Qed.
Lemma order_renumbered : renumbered σ m1 m2.
Proof.
  destruct dims1 as (D1 & D2 & D3), dims2 as (D4 & D5 & D6). split_and!; try congruence.
  - destruct A1 as (_ & -> & _), A2 as (_ & -> & _). lia.
  - intros k. rewrite D1. unfold swapped. case_decide; lia.
  - intros k k'. rewrite D1. unfold swapped. repeat case_decide; lia.
  - exact same_elements.
  - intros k b f (H1 & H2 & H3). rewrite D1 in H1. rewrite D2 in H2. rewrite D3 in H3. destruct Hcmp as (Hd & _ & _ & Hnn & _). destruct (decide (k < n1)%nat) as [Hlt|Hge].
    + apply (entry_self (k, f) b). split; [|split]; cbn; lia.
    + pose proof (entry_other (k - n1, f)%nat b) as E. unfold shifted, same_entry in E. cbn [fst snd] in E. replace (n1 + (k - n1))%nat with k in E by lia. apply E. split; [|split]; lia.
Qed.
End Merged.
