(** Taking some of the elements twice. *)
From Coq Require Import Lia.
From Verif Require Import Base Mesh Core Tools MeshLemmas MeshSpec CheckProofs ExtrudeSpec KeepSpec KeepProofs P_Keep KeepTwiceSpec.
Open Scope Z_scope.

Lemma new_number_mono els i j : i ∈ els → j ∈ els → (new_number els i < new_number els j ↔ i < j)%nat.
Proof.
  intros Hi Hj. split; [|by apply C32_order]. intros H. destruct (Nat.lt_trichotomy i j) as [|[->|Hlt]]; [done|lia|].
  pose proof (C32_order els j i Hj Hi Hlt). lia.
Qed.
Lemma new_number_inj els i j : i ∈ els → j ∈ els → new_number els i = new_number els j → i = j.
Proof.
  intros Hi Hj E. destruct (Nat.lt_trichotomy i j) as [H|[H|H]]; [|done|]; [pose proof (C32_order els i j Hi Hj H)|pose proof (C32_order els j i Hj Hi H)]; lia.
Qed.
Lemma in_chosen els sub i : i ∈ chosen els sub ↔ i ∈ els ∧ new_number els i ∈ sub.
Proof. unfold chosen. rewrite elem_of_list_filter. tauto. Qed.
Lemma chosen_map els sub : NoDup els → NoDup sub → (∀ p, p ∈ sub → (p < length els)%nat) → new_number els <$> chosen els sub ≡ₚ sub.
Proof.
  intros Hn Hs Hlt. apply NoDup_Permutation; [|done|].
  - apply NoDup_fmap_2_strong; [|by apply NoDup_filter]. intros i j Hi Hj. apply in_chosen in Hi as [Hi _], Hj as [Hj _]. by apply new_number_inj.
  - intros p. rewrite elem_of_list_fmap. split.
    + intros (i & -> & Hi). by apply in_chosen in Hi as [_ Hi].
    + intros Hp. destruct (new_number_onto els p Hn (Hlt p Hp)) as (i & Hi & <-). exists i. split; [done|]. by apply in_chosen.
Qed.
Lemma chosen_number els sub i : NoDup els → NoDup sub → (∀ p, p ∈ sub → (p < length els)%nat) → i ∈ els →
  new_number sub (new_number els i) = new_number (chosen els sub) i.
Proof.
  intros Hn Hs Hlt Hi. rewrite <- (new_number_perm _ _ _ (chosen_map els sub Hn Hs Hlt)).
  assert (∀ k, k ∈ chosen els sub → k ∈ els) as Hin by (intros k Hk; by apply in_chosen in Hk as [Hk _]).
  change (length (filter (λ p, (p < new_number els i)%nat) (new_number els <$> chosen els sub)) = length (filter (λ j, (j < i)%nat) (chosen els sub))). revert Hin. induction (chosen els sub) as [|k l IH]; intros Hin; [done|]. cbn [fmap list_fmap].
  assert (k ∈ els) as Hk by (apply Hin; left). pose proof (new_number_mono els k i Hk Hi) as Hm.
  assert (∀ k, k ∈ l → k ∈ els) as Hin' by (intros; apply Hin; by right). destruct (decide (k < i)%nat) as [Hki|Hki].
  - rewrite (filter_cons_True (λ p, (p < new_number els i)%nat)) by (by apply Hm). rewrite (filter_cons_True (λ j, (j < i)%nat)) by done. cbn [length]. f_equal. by apply IH.
  - rewrite (filter_cons_False (λ p, (p < new_number els i)%nat)) by (by rewrite Hm). rewrite (filter_cons_False (λ j, (j < i)%nat)) by done. by apply IH.
Qed.
Lemma chosen_length els sub : NoDup els → NoDup sub → (∀ p, p ∈ sub → (p < length els)%nat) → length (chosen els sub) = length sub.
Proof. intros Hn Hs Hlt. rewrite <- (chosen_map els sub Hn Hs Hlt) at 2. by rewrite fmap_length. Qed.

Section Twice.
Context {A : arith}.
Notation N := (num A).
Context (bnd : Z) (LA : arith_laws A bnd) (m : hexa N) (els sub : list nat) (ext : string).
Context (W : wf_mesh m) (Hn : NoDup els) (Hlt : ∀ i, i ∈ els → (i < nel m)%nat) (R : refs_in_mesh m) (Hext : ¬ is_conn (u3 ext)).
Context (Hs : NoDup sub) (Hslt : ∀ p, p ∈ sub → (p < length els)%nat).
Context (m1 m2 m3 : hexa N) (S1 : is_subset m els ext m1) (S2 : is_subset m1 sub ext m2) (S3 : is_subset m (chosen els sub) ext m3).

Lemma get_first i b f : i ∈ els → in_mesh m i b f → ∃ r r1, get_bc m i b f = Some r ∧ get_bc m1 (new_number els i) b f = Some r1 ∧ keep_entry (nel m) els ext i r r1.
Proof.
  intros Hi Hin. pose proof Hin as (H1 & H2 & H3). destruct (wf_get_bc m i b f (proj1 W) H1 H2) as [r Hr]; [destruct (proj1 (proj1 W)); lia|].
  destruct S1 as (_ & _ & _ & _ & _ & _ & _ & H). destruct (H i b f r Hi Hin Hr) as (r1 & Hr1 & Hk). by exists r, r1.
Qed.
Lemma refs_first : refs_in_mesh m1.
Proof.
  intros p b f r1 (H1 & H2 & H3) Hr1 Hc. destruct S1 as (D1 & D2 & _ & _ & D3 & _ & _ & _). rewrite D3 in H1. rewrite D2 in H2. rewrite D1 in H3.
  destruct (new_number_onto els p Hn H1) as (i & Hi & <-). assert (in_mesh m i b f) as Hin by (split; [by apply Hlt|done]).
  destruct (get_first i b f Hi Hin) as (r & r1' & Hr & Hr1' & (_ & _ & _ & _ & _ & K1 & K2)). assert (r1' = r1) as -> by congruence.
  destruct (decide (bt r = "E"%string ∨ bt r = "P"%string)) as [Hcr|Hcr].
  - destruct (R i b f r Hin Hr Hcr) as (j & Hj & Ej). destruct (K2 Hcr j Hj Ej) as [K3 K4]. destruct (decide (j ∈ els)) as [Hje|Hje].
    + destruct (K3 Hje) as (_ & E & _). exists (new_number els j). split; [rewrite D3; by apply new_number_lt|done].
    + destruct (K4 Hje) as (E & _). by rewrite E in Hc.
  - destruct (K1 Hcr) as (E & _). by rewrite E in Hc.
Qed.
Lemma twice_entry i b f : i ∈ chosen els sub → in_mesh m i b f → ∃ r, get_bc m2 (new_number (chosen els sub) i) b f = Some r ∧ get_bc m3 (new_number (chosen els sub) i) b f = Some r.
Proof.
  intros Hi Hin. pose proof Hi as Hi'. apply in_chosen in Hi' as [He Hp]. destruct (get_first i b f He Hin) as (r & r1 & Hr & Hr1 & K).
  pose proof Hin as (H1 & H2 & H3). pose proof S1 as (D1 & D2 & _ & _ & D3 & _ & _ & _).
  assert (in_mesh m1 (new_number els i) b f) as Hin1 by (split; [rewrite D3; by apply new_number_lt|split; congruence]).
  destruct S2 as (_ & _ & _ & _ & _ & _ & _ & E2), S3 as (_ & _ & _ & _ & _ & _ & _ & E3).
  destruct (E2 _ b f r1 Hp Hin1 Hr1) as (r2 & Hr2 & K2). destruct (E3 i b f r Hi Hin Hr) as (r3 & Hr3 & K3). rewrite chosen_number in Hr2 by done.
  exists r3. split; [|done]. rewrite Hr2. f_equal. clear Hr2 Hr3 E2 E3 Hin1.
  unfold keep_entry in K, K2, K3. rewrite chosen_number in K2 by done. destruct K as (A0 & A1 & A2 & A3 & A4 & A5 & A6), K2 as (B0 & B1 & B2 & B3 & B4 & B5 & B6), K3 as (C0 & C1 & C2 & C3 & C4 & C5 & C6).
  assert (bt r2 = bt r3 ∧ bp3 r2 = bp3 r3 ∧ bp4 r2 = bp4 r3) as (X1 & X2 & X3).
  { destruct (decide (bt r = "E"%string ∨ bt r = "P"%string)) as [Hcr|Hcr].
    - destruct (R i b f r Hin Hr Hcr) as (j & Hj & Ej). destruct (A6 Hcr j Hj Ej) as [A7 A8], (C6 Hcr j Hj Ej) as [C7 C8]. destruct (decide (j ∈ els)) as [Hje|Hje].
      + destruct (A7 Hje) as (P1 & P2 & P3). destruct (B6 ltac:(rewrite P1; exact Hcr) (new_number els j) ltac:(rewrite D3; by apply new_number_lt) P2) as [B7 B8].
        destruct (decide (new_number els j ∈ sub)) as [Hjs|Hjs].
        * destruct (B7 Hjs) as (Q1 & Q2 & Q3). destruct (C7 ltac:(by apply in_chosen)) as (Q4 & Q5 & Q6). rewrite Q1, Q2, Q3, Q4, Q5, Q6, P1, P3, chosen_number by done. done.
        * destruct (B8 Hjs) as (Q1 & Q2 & Q3). destruct (C8 ltac:(by intros [_ ?]%in_chosen)) as (Q4 & Q5 & Q6). rewrite Q1, Q2, Q3, Q4, Q5, Q6. done.
      + destruct (A8 Hje) as (P1 & P2 & P3). destruct (B5 ltac:(by rewrite P1)) as (Q1 & Q2 & Q3). destruct (C8 ltac:(by intros [? _]%in_chosen)) as (Q4 & Q5 & Q6). rewrite Q1, Q2, Q3, Q4, Q5, Q6. done.
    - destruct (A5 Hcr) as (P1 & P2 & P3), (C5 Hcr) as (Q4 & Q5 & Q6). destruct (B5 ltac:(by rewrite P1)) as (Q1 & Q2 & Q3). rewrite Q1, Q2, Q3, Q4, Q5, Q6. done. }
  destruct r2, r3. cbn in *. congruence.
Qed.
Lemma twice_elem i : i ∈ chosen els sub → ∃ e2 e3, elems m2 !! new_number (chosen els sub) i = Some e2 ∧ elems m3 !! new_number (chosen els sub) i = Some e3 ∧ set_bcs [] e2 = set_bcs [] e3.
Proof.
  intros Hi. pose proof Hi as Hi'. apply in_chosen in Hi' as [He Hp]. destruct S1 as (_ & _ & _ & _ & _ & _ & E1 & _), S2 as (_ & _ & _ & _ & _ & _ & E2 & _), S3 as (_ & _ & _ & _ & _ & _ & E3 & _).
  destruct (E1 i He) as (e & e1 & X1 & X2 & X3), (E2 _ Hp) as (e1' & e2 & Y1 & Y2 & Y3), (E3 i Hi) as (e' & e3 & Z1 & Z2 & Z3). rewrite chosen_number in Y2 by done.
  exists e2, e3. split; [done|]. split; [done|]. assert (e1' = e1) as -> by congruence. assert (e' = e) as -> by congruence. congruence.
Qed.
Lemma twice_same : wf_mesh m2 → wf_mesh m3 → ncurv m2 = curved_total m2 → ncurv m3 = curved_total m3 → same_in_mesh m2 m3.
Proof.
  intros W2 W3 N2 N3. pose proof S1 as (D1 & D2 & D3 & D4 & D5 & D6 & _). pose proof S2 as (F1 & F2 & F3 & F4 & F5 & F6 & _). pose proof S3 as (G1 & G2 & G3 & G4 & G5 & G6 & _).
  pose proof (chosen_length els sub Hn Hs Hslt) as Hcl. assert (NoDup (chosen els sub)) as Hnc by (by apply NoDup_filter).
  assert (∀ k, (k < nel m2)%nat → ∃ e2 e3, elems m2 !! k = Some e2 ∧ elems m3 !! k = Some e3 ∧ set_bcs [] e2 = set_bcs [] e3) as HE.
  { intros k Hk. destruct (new_number_onto (chosen els sub) k Hnc) as (i & Hi & <-); [rewrite Hcl, <- F5; exact Hk|]. by apply twice_elem. }
  split_and!; try congruence.
  - rewrite N2, N3. unfold curved_total. f_equal. assert (ccurv <$> elems m2 = ccurv <$> elems m3) as Ecc.
    { apply list_eq. intros k. rewrite !list_lookup_fmap. destruct (decide (k < nel m2)%nat) as [Hk|Hk].
      - destruct (HE k Hk) as (e2 & e3 & -> & -> & E). cbn. f_equal. exact (f_equal ccurv E).
      - rewrite !lookup_ge_None_2; [done|lia|lia]. }
    assert (∀ l : list (elem N), sum_list_with curved_edges l = sum_list_with (λ c, length (List.filter (λ c, negb (String.eqb c "")) c)) (ccurv <$> l)) as Hl.
    { induction l as [|e l IH]; [done|]. cbn. by rewrite IH. }
    by rewrite !Hl, Ecc.
  - exact HE.
  - intros k b f (H1 & H2 & H3). destruct (new_number_onto (chosen els sub) k Hnc) as (i & Hi & <-); [rewrite Hcl, <- F5; exact H1|].
    destruct (twice_entry i b f Hi) as (r & -> & ->); [|done]. pose proof Hi as Hi'. apply in_chosen in Hi' as [He _]. split; [by apply Hlt|split; congruence].
Qed.
End Twice.
