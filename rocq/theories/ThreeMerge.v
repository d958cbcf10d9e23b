(** Merging three meshes without periodic faces: the grouping does not matter. *)
From Coq Require Import Lia.
From Verif Require Import Base Mesh Core MeshLemmas GeoLaws MeshSpec MergeSpec CheckProofs OrderSpec P_Merge ThreeSpec.
Open Scope Z_scope.

Section View.
Context {A : arith}.
Notation N := (num A).
Implicit Types (m : hexa N) (x y z w : nat * nat) (s : string + nat * nat).

(** The condition of a face, or the face to which it is connected. *)
Definition state m (b : nat) z s : Prop :=
  ∃ r, get_bc m z.1 b z.2 = Some r ∧
    match s with inl t => bt r = t ∧ t ≠ "E"%string | inr w => bt r = "E"%string ∧ points r w.1 w.2 ∧ in_mesh m w.1 b w.2 end.
Definition moved (n : nat) s : string + nat * nat := match s with inl t => inl t | inr w => inr (shifted n w) end.
Lemma shifted_twice n n' z : shifted n (shifted n' z) = shifted (n + n') z.
Proof. unfold shifted. cbn [fst snd]. f_equal. lia. Qed.
Lemma moved_twice n n' s : moved n (moved n' s) = moved (n + n') s.
Proof. destruct s; cbn [moved]; [done|]. by rewrite shifted_twice. Qed.
Lemma shifted_inj n z z' : shifted n z = shifted n z' → z = z'.
Proof. destruct z, z'. unfold shifted. cbn [fst snd]. intros E. injection E as E1 E2. f_equal; lia. Qed.
Lemma state_total m b z : connected_mesh m → no_periodic m → in_mesh m z.1 b z.2 → ∃ s, state m b z s.
Proof.
  intros (W & P & _) NP Hin. pose proof Hin as (H1 & H2 & H3). destruct (wf_get_bc m z.1 b z.2 (proj1 W) H1 H2) as [r Hr]; [destruct (proj1 (proj1 W)); lia|].
  destruct (decide (bt r = "E"%string)) as [HE|HE].
  - destruct (P _ _ _ r Hin Hr ltac:(by left)) as (j & g & _ & Hj & Hp & _). by exists (inr (j, g)), r.
  - by exists (inl (bt r)), r.
Qed.
Lemma free_state ie m z : free_face ie m z ↔ (z.1 < nel m ∧ z.2 < 2 * ndim m)%nat ∧ ∃ t, state m 0 z (inl t) ∧ (ie = true → t ≠ ""%string).
Proof.
  unfold free_face, state. split; intros [H1 H2]; (split; [done|]).
  - destruct H2 as (r & Hr & HE & Hi). exists (bt r). split; [by exists r|done].
  - destruct H2 as (t & (r & Hr & Ht & HE) & Hi). exists r. subst t. done.
Qed.
Lemma state_kind m b z t w : state m b z (inl t) → state m b z (inr w) → False.
Proof. intros (r & Hr & H1 & H2) (r' & Hr' & H3 & _). congruence. Qed.
Lemma same_elem_sym (e e' : elem N) : same_elem e e' → same_elem e' e.
Proof. unfold same_elem. congruence. Qed.
Lemma same_geo (e e' : elem N) : same_elem e e' → (∀ f, face_center e' f = face_center e f) ∧ smallest_edge e' = smallest_edge e.
Proof.
  unfold same_elem. intros E. pose proof (f_equal pos E) as E1. pose proof (f_equal eshape E) as E2. cbn [set_bcs pos eshape] in E1, E2.
  split; [intros f|]; destruct e, e'; cbn in E1, E2; subst; reflexivity.
Qed.
Lemma touching_same tol (s s' o o' : hexa N) x x' y y' : x'.2 = x.2 → y'.2 = y.2 →
  (∀ e, elems s !! y.1 = Some e → ∃ e', elems s' !! y'.1 = Some e' ∧ same_elem e e') →
  (∀ e, elems o !! x.1 = Some e → ∃ e', elems o' !! x'.1 = Some e' ∧ same_elem e e') →
  touching tol s o x y → touching tol s' o' x' y'.
Proof.
  intros Ex Ey Hs Ho (e & f & c & d & p & q & D1 & D2 & D3 & D4 & D5 & D6 & D7). destruct (Ho e D1) as (e' & E1 & S1). destruct (Hs f D2) as (f' & E2 & S2).
  destruct (same_geo _ _ S1) as [G1 G2]. destruct (same_geo _ _ S2) as [G3 G4]. exists e', f', c, d, p, q. rewrite Ex, Ey, G1, G2, G3, G4. done.
Qed.
End View.

Section One.
Context {A : arith}.
Notation N := (num A).
Context (bnd : Z) (self other m' : hexa N) (tol : N) (ie : bool) (k : Z).
Context (Hcmp : compatible bnd self other) (Cs : connected_mesh self) (Co : connected_mesh other).
Context (Ns : no_periodic self) (No : no_periodic other).
Context (HA : is_append self other m') (HG : is_glued tol ie self other m' k).
Notation n1 := (nel self).
Notation n2 := (nel other).

Lemma one_dims : nel m' = (n1 + n2)%nat ∧ nbc m' = nbc self ∧ ndim m' = ndim self ∧ nbc other = nbc self ∧ ndim other = ndim self.
Proof. destruct HA as (E & _ & _ & E' & _). destruct Hcmp as (H1 & _ & _ & H4 & _). split; [done|]. split; [exact (f_equal nbc E')|]. split; [exact (f_equal ndim E')|done]. Qed.
Lemma not_periodic (m : hexa N) (z : nat * nat) : no_periodic m → (0 < nbc m)%nat → (z.1 < nel m ∧ z.2 < 2 * ndim m)%nat → ¬ periodic m z.
Proof. intros H H0 [H1 H2] (r & Hr & Ht). by apply (H z.1 z.2 0%nat r). Qed.
Lemma contact_range x y : contact tol ie self other x y → (x.1 < n2 ∧ x.2 < 2 * ndim self)%nat ∧ (y.1 < n1 ∧ y.2 < 2 * ndim self)%nat.
Proof. destruct one_dims as (_ & _ & _ & _ & D). intros ([[? ?] _] & [[? ?] _] & _). rewrite <- D at 1. done. Qed.
Lemma one_glued b x y : contact tol ie self other x y → (b < nbc self)%nat → state m' b (shifted n1 x) (inr y) ∧ state m' b y (inr (shifted n1 x)).
Proof.
  intros Hc Hb. destruct one_dims as (D1 & D2 & D3 & _). destruct (contact_range x y Hc) as [[X1 X2] [Y1 Y2]].
  destruct HG as (C & _ & _ & HC & Hg & _). apply HC in Hc. destruct (Hg x y b Hc) as [(r & Hr & Ht & Hp) (r' & Hr' & Ht' & Hp')]; [by rewrite D2|].
  split; [exists r|exists r']; (split; [done|]); (split; [done|]); (split; [done|]); unfold in_mesh, shifted; cbn [fst snd]; rewrite D1, D2, D3; lia.
Qed.
Lemma one_self b y s : (∀ x, ¬ contact tol ie self other x y) → in_mesh self y.1 b y.2 → state self b y s → state m' b y s.
Proof.
  intros Hno Hin (r & Hr & Hs). pose proof Hin as (H1 & H2 & H3). destruct one_dims as (D1 & D2 & D3 & _). destruct HG as (C & _ & _ & HC & _ & Hk & _).
  exists r. split.
  - apply Hk; [intros x Hx; by apply (Hno x), HC|done|]. apply not_periodic; [done|lia|done].
  - destruct s as [t|w]; [done|]. destruct Hs as (S1 & S2 & (S3 & S4 & S5)). split; [done|]. split; [done|]. unfold in_mesh. rewrite D1, D2, D3. lia.
Qed.
Lemma one_other b x s : (∀ y, ¬ contact tol ie self other x y) → in_mesh other x.1 b x.2 → state other b x s → state m' b (shifted n1 x) (moved n1 s).
Proof.
  intros Hno Hin (r & Hr & Hs). pose proof Hin as (H1 & H2 & H3). destruct one_dims as (D1 & D2 & D3 & D4 & D5). destruct HG as (C & _ & _ & HC & _ & _ & Hk & _).
  destruct (Hk x b r) as (r' & Hr' & (T & _) & Hp); [intros y Hy; by apply (Hno y), HC|done|done|apply not_periodic; [done|lia|done]|].
  exists r'. split; [done|]. destruct s as [t|w]; cbn [moved]; [by rewrite T|]. destruct Hs as (S1 & S2 & (S3 & S4 & S5)). split; [by rewrite T|].
  split; [apply Hp; [by left|done|done]|]. unfold in_mesh, shifted. cbn [fst snd]. rewrite D1, D2, D3. lia.
Qed.
Lemma self_dec y : (∃ x, contact tol ie self other x y) ∨ ∀ x, ¬ contact tol ie self other x y.
Proof.
  destruct HG as (C & _ & _ & HC & _). destruct (decide (y ∈ C.*2)) as [H|H].
  - left. apply elem_of_list_fmap in H as ([x y'] & -> & H). exists x. by apply HC.
  - right. intros x Hx. apply H, elem_of_list_fmap. exists (x, y). split; [done|]. by apply HC.
Qed.
Lemma other_dec x : (∃ y, contact tol ie self other x y) ∨ ∀ y, ¬ contact tol ie self other x y.
Proof.
  destruct HG as (C & _ & _ & HC & _). destruct (decide (x ∈ C.*1)) as [H|H].
  - left. apply elem_of_list_fmap in H as ([x' y] & -> & H). exists y. by apply HC.
  - right. intros y Hy. apply H, elem_of_list_fmap. exists (x, y). split; [done|]. by apply HC.
Qed.
Lemma one_no_periodic : no_periodic m'.
Proof.
  destruct one_dims as (D1 & D2 & D3 & D4 & D5). intros i f b r (H1 & H2 & H3) Hr HP. rewrite D1 in H1. rewrite D2 in H2. rewrite D3 in H3.
  assert (∃ s, state m' b (i, f) s ∧ s ≠ inl "P"%string) as (s & (r' & Hr' & Hs) & Hn).
  { destruct (decide (i < n1)%nat) as [Hlt|Hge].
    - destruct (self_dec (i, f)) as [[x Hx]|Hno]; [exists (inr (shifted n1 x)); split; [by apply one_glued|done]|].
      assert (in_mesh self i b f) as Hin by done. destruct (state_total self b (i, f) Cs Ns Hin) as [s Hs]. exists s. split; [by apply one_self|].
      intros ->. destruct Hs as (r0 & Hr0 & Ht & _). by eapply (Ns i f b r0).
    - assert ((i, f) = shifted n1 (i - n1, f)%nat) as E by (unfold shifted; cbn [fst snd]; f_equal; lia). rewrite E.
      assert (in_mesh other (i - n1) b f) as Hin by (split; [|split]; lia). destruct (other_dec (i - n1, f)%nat) as [[y Hy]|Hno]; [exists (inr y); split; [by apply one_glued|done]|].
      destruct (state_total other b (i - n1, f)%nat Co No Hin) as [s Hs]. exists (moved n1 s). split; [by apply one_other|].
      destruct s as [t|w]; [|done]. cbn [moved]. intros Et. injection Et as ->. destruct Hs as (r0 & Hr0 & Ht & _). by eapply (No (i - n1)%nat f b r0). }
  cbn [fst snd] in Hr'. rewrite Hr in Hr'. assert (r' = r) as -> by congruence. destruct s as [t|w]; [destruct Hs; congruence|]. destruct Hs as [Hs _]. congruence.
Qed.
Lemma elem_self i e : elems self !! i = Some e → ∃ e', elems m' !! i = Some e' ∧ same_elem e e'.
Proof.
  destruct HA as (_ & _ & _ & _ & l1 & l2 & -> & F & _). intros He. destruct (Forall2_lookup_l _ _ _ _ _ F He) as (e' & He' & S). exists e'. split; [|done]. by apply lookup_app_l_Some.
Qed.
Lemma elem_self_back i e' : (i < n1)%nat → elems m' !! i = Some e' → ∃ e, elems self !! i = Some e ∧ same_elem e' e.
Proof.
  intros Hi He'. destruct (lookup_lt_is_Some_2 (elems self) i) as [e He]; [by rewrite (proj1 (proj2 (proj1 (proj1 Cs))))|]. destruct (elem_self i e He) as (e2 & He2 & S).
  exists e. split; [done|]. rewrite He' in He2. assert (e2 = e') as -> by congruence. by apply same_elem_sym.
Qed.
Lemma elem_other i e : elems other !! i = Some e → ∃ e', elems m' !! (n1 + i)%nat = Some e' ∧ same_elem e e'.
Proof.
  pose proof (proj1 (proj2 (proj1 (proj1 Cs)))) as L. destruct HA as (_ & _ & _ & _ & l1 & l2 & -> & F1 & F). intros He. destruct (Forall2_lookup_l _ _ _ _ _ F He) as (e' & He' & S). exists e'. split; [|done].
  apply Forall2_length in F1. rewrite lookup_app_r by lia. by replace (n1 + i - length l1)%nat with i by lia.
Qed.
Lemma elem_other_back i e' : (i < n2)%nat → elems m' !! (n1 + i)%nat = Some e' → ∃ e, elems other !! i = Some e ∧ same_elem e' e.
Proof.
  intros Hi He'. destruct (lookup_lt_is_Some_2 (elems other) i) as [e He]; [by rewrite (proj1 (proj2 (proj1 (proj1 Co))))|]. destruct (elem_other i e He) as (e2 & He2 & S).
  exists e. split; [done|]. rewrite He' in He2. assert (e2 = e') as -> by congruence. by apply same_elem_sym.
Qed.
Context (Hnb : (0 < nbc self)%nat).
Lemma free_self y : (y.1 < n1)%nat → free_face ie m' y ↔ free_face ie self y ∧ ∀ x, ¬ contact tol ie self other x y.
Proof.
  intros Hy. destruct one_dims as (D1 & D2 & D3 & D4 & D5). rewrite !free_state, D1, D3. split.
  - intros ([_ H2] & t & Ht & Hi). assert (∀ x, ¬ contact tol ie self other x y) as Hno.
    { intros x Hx. exact (state_kind _ _ _ _ _ Ht (proj2 (one_glued 0 x y Hx Hnb))). }
    split; [|done]. split; [done|]. assert (in_mesh self y.1 0 y.2) as Hin by done. destruct (state_total self 0 y Cs Ns Hin) as [s Hs]. pose proof (one_self 0 y s Hno Hin Hs) as Hs'.
    destruct s as [t'|w]; [|destruct (state_kind _ _ _ _ _ Ht Hs')]. exists t'. split; [done|]. destruct Ht as (r & Hr & <- & _), Hs' as (r' & Hr' & <- & _). assert (r = r') as <- by (apply (inj Some); exact (eq_trans (eq_sym Hr) Hr')). exact Hi.
  - intros (([_ H2] & t & Ht & Hi) & Hno). split; [lia|]. exists t. split; [|done]. by apply one_self.
Qed.
Lemma free_other x : (x.1 < n2)%nat → free_face ie m' (shifted n1 x) ↔ free_face ie other x ∧ ∀ y, ¬ contact tol ie self other x y.
Proof.
  intros Hx. destruct one_dims as (D1 & D2 & D3 & D4 & D5). rewrite !free_state, D1, D3, D5. cbn [shifted fst snd]. split.
  - intros ([_ H2] & t & Ht & Hi). assert (∀ y, ¬ contact tol ie self other x y) as Hno.
    { intros y Hy. exact (state_kind _ _ _ _ _ Ht (proj1 (one_glued 0 x y Hy Hnb))). }
    split; [|done]. split; [done|]. assert (in_mesh other x.1 0 x.2) as Hin by (split; [|split]; lia). destruct (state_total other 0 x Co No Hin) as [s Hs]. pose proof (one_other 0 x s Hno Hin Hs) as Hs'.
    destruct s as [t'|w]; [|destruct (state_kind _ _ _ _ _ Ht Hs')]. cbn [moved] in Hs'. exists t'. split; [done|]. destruct Ht as (r & Hr & <- & _), Hs' as (r' & Hr' & <- & _). assert (r = r') as <- by (apply (inj Some); exact (eq_trans (eq_sym Hr) Hr')). exact Hi.
  - intros (([_ H2] & t & Ht & Hi) & Hno). split; [lia|]. exists t. split; [|done]. apply (one_other 0 x (inl t)); [done| |done]. split; [|split]; lia.
Qed.
End One.

Section Three.
Context {A : arith}.
Notation N := (num A).
Context (bnd : Z) (a b c ab bc m1 m2 : hexa N) (tol : N) (ie : bool) (k1 k2 k3 k4 : Z).
Context (Hcmp : all_compatible bnd a b c) (Hnb : (0 < nbc a)%nat) (Ca : connected_mesh a) (Cb : connected_mesh b) (Cc : connected_mesh c).
Context (Na : no_periodic a) (Nb : no_periodic b) (Nc : no_periodic c) (Hone : at_most_one tol ie a b c).
Context (Aab : is_append a b ab) (Gab : is_glued tol ie a b ab k1) (Cab : connected_mesh ab).
Context (Abc : is_append b c bc) (Gbc : is_glued tol ie b c bc k3) (Cbc : connected_mesh bc).
Notation na := (nel a).
Notation nb := (nel b).
Notation nc := (nel c).

Lemma cmp_ab : compatible bnd a b. Proof. destruct Hcmp as (? & ? & ? & ? & ? & ? & ? & ? & ?). split_and!; try done. lia. Qed.
Lemma cmp_bc : compatible bnd b c. Proof. destruct Hcmp as (? & ? & E & ? & ? & ? & ? & ? & ?). split_and!; try done; [by rewrite <- E|lia]. Qed.
Lemma heads : nbc ab = nbc a ∧ ndim ab = ndim a ∧ lr1 ab = lr1 a ∧ nbc bc = nbc b ∧ ndim bc = ndim b ∧ lr1 bc = lr1 b ∧ nel ab = (na + nb)%nat ∧ nel bc = (nb + nc)%nat.
Proof.
  destruct Aab as (E1 & _ & _ & E & _), Abc as (E1' & _ & _ & E' & _). split_and!; try done.
  - exact (f_equal nbc E). - exact (f_equal ndim E). - exact (f_equal lr1 E). - exact (f_equal nbc E'). - exact (f_equal ndim E'). - exact (f_equal lr1 E').
Qed.
Lemma cmp_ab_c : compatible bnd ab c.
Proof. destruct Hcmp as (? & ? & ? & ? & ? & ? & ? & ? & ?), heads as (K1 & K2 & K3 & _ & _ & _ & K7 & _). unfold compatible. rewrite K1, K2, K3, K7. split_and!; try congruence; done. Qed.
Lemma cmp_a_bc : compatible bnd a bc.
Proof. destruct Hcmp as (? & ? & ? & ? & ? & ? & ? & ? & ?), heads as (_ & _ & _ & K1 & K2 & K3 & _ & K7). unfold compatible. rewrite K1, K2, K3, K7. split_and!; try done. lia. Qed.
Lemma nb_b : (0 < nbc b)%nat. Proof. by destruct Hcmp as (_ & _ & _ & _ & _ & <- & _). Qed.
Lemma Nab : no_periodic ab. Proof. exact (one_no_periodic bnd a b ab tol ie k1 cmp_ab Ca Cb Na Nb Aab Gab). Qed.
Lemma Nbc : no_periodic bc. Proof. exact (one_no_periodic bnd b c bc tol ie k3 cmp_bc Cb Cc Nb Nc Abc Gbc). Qed.

Lemma low_or_high n n' (z : nat * nat) : (z.1 < n + n')%nat → (z.1 < n)%nat ∨ ∃ z', z = shifted n z' ∧ (z'.1 < n')%nat.
Proof.
  intros H. destruct (decide (z.1 < n)%nat) as [|Hge]; [by left|]. right. exists (z.1 - n, z.2)%nat. destruct z as [i f]. cbn [fst snd] in *.
  split; [unfold shifted; cbn [fst snd]; f_equal; lia|lia].
Qed.
(** ** The contacts of the second steps are contacts of the given meshes *)
Lemma contact_ab_c x y : contact tol ie ab c x y ↔ contact tol ie a c x y ∨ ∃ y', y = shifted na y' ∧ contact tol ie b c x y'.
Proof.
  destruct heads as (_ & _ & _ & _ & _ & _ & H7 & _). destruct Hone as (_ & _ & _ & O1 & O2 & O3). split.
  - intros (Fx & Fy & T). assert (y.1 < na + nb)%nat as Hy by (rewrite <- H7; apply Fy). apply low_or_high in Hy as [Hy|(y' & -> & Hy)].
    + left. apply (free_self bnd a b ab tol ie k1 cmp_ab Ca Na Aab Gab Hnb) in Fy as [Fy _]; [|done]. split_and!; try done.
      eapply touching_same; [done|done| |intros e He; exists e; split; [exact He|done]|exact T]. intros e. by apply (elem_self_back a b).
    + right. exists y'. split; [done|]. apply (free_other bnd a b ab tol ie k1 cmp_ab Cb Nb Aab Gab Hnb) in Fy as [Fy _]; [|done]. split_and!; try done.
      eapply touching_same; [done| | |intros e He; exists e; split; [exact He|done]|exact T]; [done|]. intros e. by apply (elem_other_back a b).
  - intros [H|(y' & -> & H)].
    + pose proof H as (Fx & Fy & T). split; [done|]. split; [apply (free_self bnd a b ab tol ie k1 cmp_ab Ca Na Aab Gab Hnb); [apply Fy|]; split; [done|]; intros x' Hx'; by eapply O1|].
      eapply touching_same; [done|done| |intros e He; exists e; split; [exact He|done]|exact T]. intros e. by apply (elem_self a b).
    + pose proof H as (Fx & Fy & T). split; [done|]. split; [apply (free_other bnd a b ab tol ie k1 cmp_ab Cb Nb Aab Gab Hnb); [apply Fy|]; split; [done|]; intros x' Hx'; by eapply O2|].
      eapply touching_same; [done| | |intros e He; exists e; split; [exact He|done]|exact T]; [done|]. intros e. by apply (elem_other a b).
Qed.
Lemma contact_a_bc x y : contact tol ie a bc x y ↔ contact tol ie a b x y ∨ ∃ x', x = shifted nb x' ∧ contact tol ie a c x' y.
Proof.
  destruct heads as (_ & _ & _ & _ & _ & _ & _ & H7). destruct Hone as (_ & _ & _ & O1 & O2 & O3). pose proof nb_b as Hnb'. split.
  - intros (Fx & Fy & T). assert (x.1 < nb + nc)%nat as Hx by (rewrite <- H7; apply Fx). apply low_or_high in Hx as [Hx|(x' & -> & Hx)].
    + left. apply (free_self bnd b c bc tol ie k3 cmp_bc Cb Nb Abc Gbc Hnb') in Fx as [Fx _]; [|done]. split_and!; try done.
      eapply touching_same; [done|done|intros e He; exists e; split; [exact He|done]| |exact T]. intros e. by apply (elem_self_back b c).
    + right. exists x'. split; [done|]. apply (free_other bnd b c bc tol ie k3 cmp_bc Cc Nc Abc Gbc Hnb') in Fx as [Fx _]; [|done]. split_and!; try done.
      eapply touching_same; [|done|intros e He; exists e; split; [exact He|done]| |exact T]; [done|]. intros e. by apply (elem_other_back b c).
  - intros [H|(x' & -> & H)].
    + pose proof H as (Fx & Fy & T). split; [apply (free_self bnd b c bc tol ie k3 cmp_bc Cb Nb Abc Gbc Hnb'); [apply Fx|]; split; [done|]; intros z Hz; by eapply O2|]. split; [done|].
      eapply touching_same; [done|done|intros e He; exists e; split; [exact He|done]| |exact T]. intros e. by apply (elem_self b c).
    + pose proof H as (Fx & Fy & T). split; [apply (free_other bnd b c bc tol ie k3 cmp_bc Cc Nc Abc Gbc Hnb'); [apply Fx|]; split; [done|]; intros z Hz; by eapply O3|]. split; [done|].
      eapply touching_same; [|done|intros e He; exists e; split; [exact He|done]| |exact T]; [done|]. intros e. by apply (elem_other b c).
Qed.
Lemma not_both (x y y' : nat * nat) : contact tol ie a c x y → contact tol ie b c x y' → False.
Proof. destruct Hone as (_ & _ & _ & _ & _ & O3). apply O3. Qed.
Lemma unique_ab_c : unique_contacts tol ie ab c.
Proof.
  destruct Hone as (U1 & U2 & U3 & O1 & O2 & O3). split.
  - intros x y y' [H|(z & -> & H)]%contact_ab_c [H'|(z' & -> & H')]%contact_ab_c.
    + by apply (proj1 U2 x).
    + destruct (O3 _ _ _ H H').
    + destruct (O3 _ _ _ H' H).
    + f_equal. by apply (proj1 U3 x).
  - intros x x' y [H|(z & -> & H)]%contact_ab_c [H'|(z' & E & H')]%contact_ab_c.
    + by apply (proj2 U2 x x' y).
    + exfalso. subst y. destruct H as (_ & [[Hy _] _] & _). cbn in Hy. lia.
    + exfalso. destruct H' as (_ & [[Hy _] _] & _). cbn in Hy. lia.
    + apply shifted_inj in E as <-. by apply (proj2 U3 x x' z).
Qed.
Lemma unique_a_bc : unique_contacts tol ie a bc.
Proof.
  destruct Hone as (U1 & U2 & U3 & O1 & O2 & O3). split.
  - intros x y y' [H|(z & -> & H)]%contact_a_bc [H'|(z' & E & H')]%contact_a_bc.
    + by apply (proj1 U1 x).
    + exfalso. subst x. destruct H as ([[Hy _] _] & _). cbn in Hy. lia.
    + exfalso. destruct H' as ([[Hy _] _] & _). cbn in Hy. lia.
    + apply shifted_inj in E as <-. by apply (proj1 U2 z).
  - intros x x' y [H|(z & -> & H)]%contact_a_bc [H'|(z' & -> & H')]%contact_a_bc.
    + by apply (proj2 U1 x x' y).
    + destruct (O1 _ _ _ H H').
    + destruct (O1 _ _ _ H' H).
    + f_equal. by apply (proj2 U2 z z' y).
Qed.
Lemma no_periodic_meets (s o : hexa N) : no_periodic s → no_periodic o → (0 < nbc s)%nat → (0 < nbc o)%nat → periodic_meets_periodic tol ie s o.
Proof. intros H1 H2 B1 B2 x y ([Hx _] & [Hy _] & _). split; intros H; exfalso; [exact (not_periodic o x H2 B2 Hx H)|exact (not_periodic s y H1 B1 Hy H)]. Qed.
Context (A1 : is_append ab c m1) (G1 : is_glued tol ie ab c m1 k2).
Context (A2 : is_append a bc m2) (G2 : is_glued tol ie a bc m2 k4).

(** ** The entries *)
Lemma entries (i : nat) z : (z.1 < na + nb + nc)%nat → (i < nbc a)%nat → (z.2 < 2 * ndim a)%nat → ∃ s, state m1 i z s ∧ state m2 i z s.
Proof.
  intros Hz Hi Hf. destruct heads as (B1 & D1 & _ & B2 & D2 & _ & L1 & L2). destruct Hone as (U1 & U2 & U3 & O1 & O2 & O3).
  assert (ndim b = ndim a ∧ ndim c = ndim a ∧ nbc b = nbc a ∧ nbc c = nbc a) as (Db & Dc & Bb & Bc) by (destruct Hcmp as (? & ? & _ & _ & _ & ? & ? & _); split_and!; congruence).
  pose proof cmp_ab as Q1. pose proof cmp_bc as Q2. pose proof cmp_ab_c as Q3. pose proof cmp_a_bc as Q4. pose proof Nab as Nab. pose proof Nbc as Nbc.
  apply low_or_high in Hz as [Hz|(x & -> & Hx)]; [apply low_or_high in Hz as [Hz|(y & -> & Hy)]|].
  - assert (in_mesh a z.1 i z.2) as Hin by done. assert (in_mesh ab z.1 i z.2) as Hin' by (split; [|split]; lia).
    destruct (self_dec a b ab tol ie k1 Gab z) as [[x Hx]|Hno].
    { exists (inr (shifted na x)). split.
      - eapply (one_self bnd ab c m1); eauto; [|by eapply (one_glued bnd a b ab)]. intros x' [H|(z' & -> & _)]%contact_ab_c; [by eapply O1|cbn in Hz; lia].
      - eapply (one_glued bnd a bc m2); eauto. apply contact_a_bc. by left. }
    destruct (self_dec a bc m2 tol ie k4 G2 z) as [[x Hx]|Hno'].
    { pose proof Hx as [H|(x' & -> & H)]%contact_a_bc; [by destruct (Hno x)|]. exists (inr (shifted na (shifted nb x'))). split; [|by eapply (one_glued bnd a bc m2)].
      rewrite shifted_twice, <- L1. eapply (one_glued bnd ab c m1); eauto; [apply contact_ab_c; by left|lia]. }
    destruct (state_total a i z Ca Na Hin) as [s Hs]. exists s. split; [|by eapply (one_self bnd a bc m2)].
    eapply (one_self bnd ab c m1); eauto; [|by eapply (one_self bnd a b ab)]. intros x' [H|(z' & -> & _)]%contact_ab_c; [|cbn in Hz; lia].
    apply (Hno' (shifted nb x')), contact_a_bc. right. by exists x'.
  - cbn [shifted fst snd] in Hf. assert (in_mesh b y.1 i y.2) as Hin by (split; [|split]; lia). assert (in_mesh ab (shifted na y).1 i (shifted na y).2) as Hin' by (unfold shifted; split; [|split]; cbn; lia).
    assert (in_mesh bc y.1 i y.2) as Hin2 by (split; [|split]; lia).
    destruct (other_dec a b ab tol ie k1 Gab y) as [[w Hw]|Hno].
    { exists (inr w). split.
      - eapply (one_self bnd ab c m1); eauto; [|by eapply (one_glued bnd a b ab)]. intros x' [H|(z' & E & H)]%contact_ab_c; [destruct H as (_ & [[H _] _] & _); cbn in H; lia|].
        apply shifted_inj in E as <-. by eapply O2.
      - eapply (one_glued bnd a bc m2); eauto. apply contact_a_bc. by left. }
    assert (∀ w, ¬ contact tol ie a bc y w) as Hno2.
    { intros w [H|(z' & -> & _)]%contact_a_bc; [by eapply Hno|]. cbn in Hy. lia. }
    destruct (self_dec b c bc tol ie k3 Gbc y) as [[x Hx]|Hno'].
    { exists (inr (shifted (na + nb) x)). split.
      - rewrite <- L1. eapply (one_glued bnd ab c m1); eauto; [apply contact_ab_c; right; by exists y|lia].
      - rewrite <- shifted_twice. eapply (one_other bnd a bc m2 tol ie k4 Q4 Nbc A2 G2 i y (inr (shifted nb x))); [done|done|]. eapply (one_glued bnd b c bc); eauto. lia. }
    destruct (state_total b i y Cb Nb Hin) as [s Hs]. exists (moved na s). split.
    + eapply (one_self bnd ab c m1); eauto; [|by eapply (one_other bnd a b ab)]. intros x' [H|(z' & E & H)]%contact_ab_c; [destruct H as (_ & [[H _] _] & _); cbn in H; lia|].
      apply shifted_inj in E as <-. by eapply Hno'.
    + eapply (one_other bnd a bc m2); eauto. by eapply (one_self bnd b c bc).
  - cbn [shifted fst snd] in Hf. assert (in_mesh c x.1 i x.2) as Hin by (split; [|split]; lia). assert (in_mesh bc (shifted nb x).1 i (shifted nb x).2) as Hin' by (unfold shifted; split; [|split]; cbn; lia).
    rewrite <- L1. destruct (other_dec ab c m1 tol ie k2 G1 x) as [[y Hy]|Hno].
    + exists (inr y). split; [eapply (one_glued bnd ab c m1); eauto; lia|]. rewrite L1, <- shifted_twice. pose proof Hy as [H|(y' & -> & H)]%contact_ab_c.
      * eapply (one_glued bnd a bc m2); eauto. apply contact_a_bc. right. by exists x.
      * eapply (one_other bnd a bc m2 tol ie k4 Q4 Nbc A2 G2 i (shifted nb x) (inr y')); [|done|eapply (one_glued bnd b c bc); eauto; lia].
        intros w [H'|(z' & E & H')]%contact_a_bc; [destruct H' as ([[H' _] _] & _); cbn in H'; lia|]. apply shifted_inj in E as <-. by eapply O3.
    + destruct (state_total c i x Cc Nc Hin) as [s Hs]. exists (moved (nel ab) s). split; [by eapply (one_other bnd ab c m1)|].
      rewrite L1, <- shifted_twice, <- moved_twice. eapply (one_other bnd a bc m2); eauto.
      * intros w [H'|(z' & E & H')]%contact_a_bc; [destruct H' as ([[H' _] _] & _); cbn in H'; lia|]. apply shifted_inj in E as <-. apply (Hno w), contact_ab_c. by left.
      * eapply (one_other bnd b c bc); eauto. intros y Hy. apply (Hno (shifted na y)), contact_ab_c. right. by exists y.
Qed.
(** ** The number of glued faces *)
Lemma counts : k1 + k2 = k3 + k4.
Proof.
  pose proof Gab as (C1 & ND1 & Q1 & HC1 & _). pose proof G1 as (C2 & ND2 & Q2 & HC2 & _). pose proof Gbc as (C3 & ND3 & Q3 & HC3 & _). pose proof G2 as (C4 & ND4 & Q4 & HC4 & _).
  set (f1 := λ p : (nat * nat) * (nat * nat), (shifted na p.1, p.2)). set (f2 := λ p : (nat * nat) * (nat * nat), (shifted (na + nb) p.1, p.2)).
  set (f3 := λ p : (nat * nat) * (nat * nat), (shifted (na + nb) p.1, shifted na p.2)). set (f4 := λ p : (nat * nat) * (nat * nat), (shifted na p.1, p.2)).
  assert (∀ x y, contact tol ie a b x y → (x.1 < nb ∧ y.1 < na)%nat) as Rab by (intros x y ([[? _] _] & [[? _] _] & _); done).
  assert (∀ x y, contact tol ie a c x y → (x.1 < nc ∧ y.1 < na)%nat) as Rac by (intros x y ([[? _] _] & [[? _] _] & _); done).
  assert (∀ x y, contact tol ie b c x y → (x.1 < nc ∧ y.1 < nb)%nat) as Rbc by (intros x y ([[? _] _] & [[? _] _] & _); done).
  assert (∀ p q : (nat * nat) * (nat * nat), p.1 = q.1 → p.2 = q.2 → p = q) as Hpq by (intros [] []; cbn; congruence).
  assert ((f1 <$> C1) ++ (f2 <$> C2) ≡ₚ (f3 <$> C3) ++ (f4 <$> C4)) as HP.
  { apply NoDup_Permutation.
    - apply NoDup_app. split; [apply NoDup_fmap_2; [|done]; intros p q E; apply Hpq; [exact (shifted_inj _ _ _ (f_equal fst E))|exact (f_equal snd E)]|]. split.
      + intros p (q & -> & Hq)%elem_of_list_fmap (q' & E & _)%elem_of_list_fmap. destruct q as [x y]. apply HC1, Rab in Hq as [Hx _]. apply (f_equal (λ p, p.1.1)) in E. cbn in E. lia.
      + apply NoDup_fmap_2; [|done]. intros p q E. apply Hpq; [exact (shifted_inj _ _ _ (f_equal fst E))|exact (f_equal snd E)].
    - apply NoDup_app. split; [apply NoDup_fmap_2; [|done]; intros p q E; apply Hpq; [exact (shifted_inj _ _ _ (f_equal fst E))|exact (shifted_inj _ _ _ (f_equal snd E))]|]. split.
      + intros p (q & -> & Hq)%elem_of_list_fmap (q' & E & Hq')%elem_of_list_fmap. destruct q' as [x y]. apply HC4 in Hq' as (_ & [[Hy _] _] & _). apply (f_equal (λ p, p.2.1)) in E. cbn in E. lia.
      + apply NoDup_fmap_2; [|done]. intros p q E. apply Hpq; [exact (shifted_inj _ _ _ (f_equal fst E))|exact (f_equal snd E)].
    - intros p. rewrite !elem_of_app, !elem_of_list_fmap. split.
      + intros [([x y] & -> & H%HC1)|([x y] & -> & H%HC2)].
        * right. exists (x, y). split; [done|]. apply HC4, contact_a_bc. by left.
        * apply contact_ab_c in H as [H|(y' & -> & H)].
          -- right. exists (shifted nb x, y). unfold f2, f4. cbn [fst snd]. rewrite shifted_twice. split; [done|]. apply HC4, contact_a_bc. right. by exists x.
          -- left. exists (x, y'). split; [done|]. by apply HC3.
      + intros [([x y] & -> & H%HC3)|([x y] & -> & H%HC4)].
        * right. exists (x, shifted na y). split; [done|]. apply HC2, contact_ab_c. right. by exists y.
        * apply contact_a_bc in H as [H|(x' & -> & H)].
          -- left. exists (x, y). split; [done|]. by apply HC1.
          -- right. exists (x', y). unfold f2, f4. cbn [fst snd]. rewrite shifted_twice. split; [done|]. apply HC2, contact_ab_c. by left. }
  apply Permutation_length in HP. rewrite !app_length, !fmap_length in HP. lia.
Qed.
(** ** The meshes *)
Lemma same_elements k : (k < na + nb + nc)%nat → ∃ e1 e2, elems m1 !! k = Some e1 ∧ elems m2 !! k = Some e2 ∧ same_elem e1 e2.
Proof.
  intros Hk. destruct heads as (_ & _ & _ & _ & _ & _ & L1 & L2).
  assert (∀ e e1 e2 e3 e4 : elem N, same_elem e e1 → same_elem e1 e2 → same_elem e e3 → same_elem e3 e4 → same_elem e2 e4) as Hs by (unfold same_elem; intros; congruence).
  assert (∀ m : hexa N, connected_mesh m → ∀ i, (i < nel m)%nat → ∃ e, elems m !! i = Some e) as Hl.
  { intros m Cm i Hi. apply lookup_lt_is_Some_2. by rewrite (proj1 (proj2 (proj1 (proj1 Cm)))). }
  destruct (decide (k < na)%nat) as [H1|H1]; [|destruct (decide (k < na + nb)%nat) as [H2|H2]].
  - destruct (Hl a Ca k H1) as [e He]. destruct (elem_self a b ab Aab k e He) as (e1 & He1 & S1). destruct (elem_self ab c m1 A1 k e1 He1) as (e2 & He2 & S2).
    destruct (elem_self a bc m2 A2 k e He) as (e4 & He4 & S4). exists e2, e4. split; [done|]. split; [done|]. exact (Hs e e1 e2 e e4 S1 S2 eq_refl S4).
  - destruct (Hl b Cb (k - na)%nat ltac:(lia)) as [e He]. destruct (elem_other a b ab Ca Aab _ e He) as (e1 & He1 & S1). destruct (elem_self ab c m1 A1 _ e1 He1) as (e2 & He2 & S2).
    destruct (elem_self b c bc Abc _ e He) as (e3 & He3 & S3). destruct (elem_other a bc m2 Ca A2 _ e3 He3) as (e4 & He4 & S4). replace (na + (k - na))%nat with k in He2, He4 by lia.
    exists e2, e4. split; [done|]. split; [done|]. exact (Hs e e1 e2 e3 e4 S1 S2 S3 S4).
  - destruct (Hl c Cc (k - (na + nb))%nat ltac:(lia)) as [e He]. destruct (elem_other ab c m1 Cab A1 _ e He) as (e2 & He2 & S2). rewrite L1 in He2.
    destruct (elem_other b c bc Cb Abc _ e He) as (e3 & He3 & S3). destruct (elem_other a bc m2 Ca A2 _ e3 He3) as (e4 & He4 & S4).
    replace (na + nb + (k - (na + nb)))%nat with k in He2 by lia. replace (na + (nb + (k - (na + nb))))%nat with k in He4 by lia.
    exists e2, e4. split; [done|]. split; [done|]. exact (Hs e e e2 e3 e4 eq_refl S2 S3 S4).
Qed.
Lemma three_same : same_mesh m1 m2.
Proof.
  destruct heads as (B1 & D1 & _ & B2 & D2 & _ & L1 & L2).
  pose proof A1 as (N1 & K1 & E1 & R1 & _). pose proof A2 as (N2 & K2 & E2 & R2 & _).
  pose proof Aab as (_ & K3 & E3 & R3 & _). pose proof Abc as (_ & K4 & E4 & R4 & _).
  rewrite L1 in N1. rewrite L2 in N2.
  assert (nbc m1 = nbc a ∧ ndim m1 = ndim a) as [X1 X2] by (rewrite <- B1, <- D1; split; [exact (f_equal nbc R1)|exact (f_equal ndim R1)]).
  assert (nbc m2 = nbc a ∧ ndim m2 = ndim a) as [X3 X4] by (split; [exact (f_equal nbc R2)|exact (f_equal ndim R2)]).
  assert (elmap m2 = elmap m1) as HE.
  { rewrite E1, E2, E3, E4, L1, fmap_app, <- app_assoc. f_equal. f_equal. rewrite <- list_fmap_compose. apply list_fmap_ext. intros _ k _. cbn. lia. }
  assert (ncurv m2 = ncurv m1) as HK by lia. assert (nel m2 = nel m1) as HN by lia.
  split; [|split; [done|]].
  - split; [done|]. split; [congruence|]. split; [congruence|]. split; [done|]. split; [done|]. split; [done|]. split.
    + intros k Hk. apply same_elements. lia.
    + intros k i f (H1 & H2 & H3). destruct (entries i (k, f)) as (s & (r1 & Hr1 & Hs1) & (r2 & Hr2 & Hs2)); [cbn; lia|lia|cbn; lia|]. exists r1, r2. split; [done|]. split; [done|].
      destruct s as [t|w].
      * destruct Hs1 as [T1 T3], Hs2 as [T2 _]. split; [congruence|]. intros [HC|HC]; [congruence|]. exfalso.
        eapply (one_no_periodic bnd ab c m1 tol ie k2 cmp_ab_c Cab Cc Nab Nc A1 G1 k f i r1); [split; [|split]; lia|done|done].
      * destruct Hs1 as (T1 & P1 & I1), Hs2 as (T2 & P2 & _). split; [congruence|]. intros _. by exists w.1, w.2.
  - assert (∀ x y : hexa N, nel x = nel y → ncurv x = ncurv y → elmap x = elmap y →
      set_elmap [] (set_ncurv 0 (set_nel 0 (set_elems [] x))) = set_elmap [] (set_ncurv 0 (set_nel 0 (set_elems [] y))) → set_elems [] x = set_elems [] y) as Hx.
    { intros [] []. cbn. intros -> -> -> E. injection E as -> -> -> -> -> -> -> -> ->. reflexivity. }
    apply Hx; [done|done|done|]. congruence.
Qed.
End Three.
