(** C76: keep_elements twice, with all elements, and after a merge. *)
From Coq Require Import Lia.
From Verif Require Import Base Mesh Core Tools Float FloatLaws MeshLemmas MeshSpec CheckProofs GeoLaws ExtrudeSpec KeepSpec KeepProofs P_Keep MergeSpec Samples P_Merge KeepTwiceSpec KeepTwice.
Open Scope Z_scope.

(** Taking some of the elements of a mesh and then some of those gives the same mesh as taking these at once. *)
Theorem C76_keep_twice {A : arith} (bnd : Z) (m : hexa (num A)) els sub ext :
  arith_laws A bnd → wf_mesh m → (∀ e, e ∈ elems m → length (ccurv e) = 12%nat) → refs_in_mesh m → Z.of_nat (nel m) <= bnd →
  ¬ is_conn (u3 ext) → NoDup els → (∀ i, i ∈ els → (i < nel m)%nat) → NoDup sub → (∀ p, p ∈ sub → (p < length els)%nat) →
  ∃ m1 m2 m3, keep_elements m els ext = Ok m1 ∧ keep_elements m1 sub ext = Ok m2 ∧ keep_elements m (chosen els sub) ext = Ok m3 ∧ same_in_mesh m2 m3.
Proof.
  intros LA W Hcc R Hb Hext Hn Hlt Hs Hslt. destruct (C32_keep_elements bnd m els ext LA W Hn Hlt Hcc R Hb) as (m1 & E1 & S1 & W1 & _).
  pose proof S1 as (_ & _ & _ & _ & D5 & D6 & D7 & _). assert (length els ≤ nel m)%nat as Hle.
  { rewrite <- (seq_length (nel m) 0). apply submseteq_length, NoDup_submseteq; [done|]. intros i Hi. apply elem_of_seq. specialize (Hlt i Hi). lia. }
  assert (∀ e, e ∈ elems m1 → length (ccurv e) = 12%nat) as Hcc1.
  { intros e1 He1. apply elem_of_list_lookup in He1 as [k Hk]. pose proof (lookup_lt_Some _ _ _ Hk) as Hkl. destruct (new_number_onto els k Hn) as (i & Hi & <-); [lia|].
    destruct (D7 i Hi) as (e & e' & X1 & X2 & X3). assert (e' = e1) as -> by congruence. pose proof (f_equal ccurv X3) as X4. cbn in X4. rewrite X4. apply Hcc. by eapply elem_of_list_lookup_2. }
  destruct (C32_keep_elements bnd m1 sub ext LA W1 Hs) as (m2 & E2 & S2 & W2 & N2); [by rewrite D5|done|eapply (refs_first m els); eassumption|rewrite D5; lia|].
  destruct (C32_keep_elements bnd m (chosen els sub) ext LA W) as (m3 & E3 & S3 & W3 & N3); [by apply NoDup_filter|intros i Hi; apply in_chosen in Hi as [Hi _]; by apply Hlt|done..|].
  exists m1, m2, m3. split_and!; try done. by eapply (twice_same m els sub ext W Hn Hlt R Hext Hs Hslt m1).
Qed.
Print Assumptions C76_keep_twice.

Lemma new_number_seq n i : (i ≤ n)%nat → new_number (seq 0 n) i = i.
Proof.
  intros Hi. replace n with (i + (n - i))%nat by lia. rewrite seq_app, new_number_app, new_number_below, new_number_above, seq_length; [lia| |]; intros j Hj; apply elem_of_seq in Hj; lia.
Qed.
(** Taking all the elements, in any order, gives the mesh back, if its counters are right. *)
Theorem C76_keep_all {A : arith} (bnd : Z) (m : hexa (num A)) els ext :
  arith_laws A bnd → wf_mesh m → (∀ e, e ∈ elems m → length (ccurv e) = 12%nat) → refs_in_mesh m → Z.of_nat (nel m) <= bnd →
  els ≡ₚ seq 0 (nel m) → ncurv m = curved_total m →
  (∀ i b f r, in_mesh m i b f → get_bc m i b f = Some r → bel r = Z.of_nat i + 1) →
  ∃ m', keep_elements m els ext = Ok m' ∧ same_in_mesh m m'.
Proof.
  intros LA W Hcc R Hb Hp Hc Hbel. assert (∀ i, i ∈ els ↔ (i < nel m)%nat) as Hin by (intros i; rewrite Hp, elem_of_seq; lia).
  destruct (C32_keep_elements bnd m els ext LA W) as (m' & E & S & W' & N'); [rewrite Hp; apply NoDup_seq|by apply Hin|done..|].
  exists m'. split; [done|]. destruct S as (D1 & D2 & D3 & D4 & D5 & D6 & D7 & D8). rewrite Hp, seq_length in D5, D6.
  assert (∀ i, (i ≤ nel m)%nat → new_number els i = i) as Hnum by (intros i Hi; rewrite (new_number_perm _ _ _ Hp); by apply new_number_seq).
  assert (∀ k, (k < nel m)%nat → ∃ e e', elems m !! k = Some e ∧ elems m' !! k = Some e' ∧ set_bcs [] e = set_bcs [] e') as HE.
  { intros k Hk. destruct (D7 k) as (e & e' & X1 & X2 & X3); [by apply Hin|]. rewrite Hnum in X2 by lia. by exists e, e'. }
  split_and!; try congruence.
  - rewrite Hc, N'. unfold curved_total. f_equal. assert (ccurv <$> elems m = ccurv <$> elems m') as Ecc.
    { apply list_eq. intros k. rewrite !list_lookup_fmap. destruct (decide (k < nel m)%nat) as [Hk|Hk].
      - destruct (HE k Hk) as (e2 & e3 & -> & -> & X). cbn. f_equal. exact (f_equal ccurv X).
      - rewrite !lookup_ge_None_2; [done|lia|]. destruct W as [(_ & -> & _) _]. lia. }
    assert (∀ l : list (elem (num A)), sum_list_with curved_edges l = sum_list_with (λ c, length (List.filter (λ c, negb (String.eqb c "")) c)) (ccurv <$> l)) as Hl.
    { induction l as [|e l IH]; [done|]. cbn. by rewrite IH. }
    by rewrite !Hl, Ecc.
  - exact HE.
  - intros k b f Hi. pose proof Hi as (H1 & H2 & H3). destruct (wf_get_bc m k b f (proj1 W) H1 H2) as [r Hr]; [destruct (proj1 (proj1 W)); lia|]. rewrite Hr.
    destruct (D8 k b f r) as (r' & Hr' & K); [by apply Hin|done|done|]. rewrite Hnum in Hr' by lia. rewrite Hr'. f_equal.
    destruct K as (K0 & K1 & K2 & K3 & K4 & K5 & K6). rewrite Hnum in K0 by lia. rewrite <- (Hbel k b f r Hi Hr) in K0.
    assert (bt r' = bt r ∧ bp3 r' = bp3 r ∧ bp4 r' = bp4 r) as (X1 & X2 & X3).
    { destruct (decide (bt r = "E"%string ∨ bt r = "P"%string)) as [Hcr|Hcr]; [|by apply K5].
      destruct (R k b f r Hi Hr Hcr) as (j & Hj & Ej). destruct (K6 Hcr j Hj Ej) as [K7 _]. destruct K7 as (Y1 & Y2 & Y3); [by apply Hin|]. rewrite Hnum in Y2 by lia. by rewrite Y2, Ej. }
    destruct r, r'. cbn in *. congruence.
Qed.
Print Assumptions C76_keep_all.

(** Taking the first elements of a merged mesh gives the first mesh back: its elements; at the faces that were glued the
    condition [ext]; the conditions of the other faces, unless these were periodic. *)
Theorem C76_merge_undone {A : arith} (bnd : Z) (a b : hexa (num A)) tol ie ext :
  arith_laws A bnd → compatible bnd a b → (0 < nbc a)%nat → connected_mesh a → connected_mesh b →
  unique_contacts tol ie a b → periodic_meets_periodic tol ie a b → (∀ e, e ∈ elems a ∨ e ∈ elems b → length (ccurv e) = 12%nat) →
  ∃ m n m', merge tol ie false a b = (m, Ok n) ∧ keep_elements m (seq 0 (nel a)) ext = Ok m' ∧
    nel m' = nel a ∧ nbc m' = nbc a ∧ ndim m' = ndim a ∧ ncurv m' = curved_total a ∧
    (∀ k, (k < nel a)%nat → ∃ e e', elems a !! k = Some e ∧ elems m' !! k = Some e' ∧ set_bcs [] e' = set_bcs [] e) ∧
    ∀ y c r, in_mesh a y.1 c y.2 → get_bc a y.1 c y.2 = Some r → ∃ r', get_bc m' y.1 c y.2 = Some r' ∧
      ((∃ x, contact tol ie a b x y) → bt r' = u3 ext) ∧
      ((∀ x, ¬ contact tol ie a b x y) → ¬ periodic a y → bt r' = bt r ∧ bp3 r' = bp3 r ∧ bp4 r' = bp4 r) ∧
      ((∀ x, ¬ contact tol ie a b x y) → periodic a y → bt r' = "P"%string ∨ bt r' = u3 ext).
Proof.
  intros LA Hc Hnb Ca Cb Hun Hpp Hcc. destruct (C26_merge_glues bnd a b tol ie LA Hc Hnb Ca Cb Hun Hpp) as (m & n & EM & HA & HG & W & P).
  pose proof HA as (D1 & _ & _ & D2 & l1 & l2 & El & F1 & F2). assert (nbc m = nbc a ∧ ndim m = ndim a) as [Dn Dd] by (split; [exact (f_equal nbc D2)|exact (f_equal ndim D2)]).
  pose proof Hc as (Hd & _ & _ & Hbb & Hbn & H6). assert (length (elems a) = nel a) as La by apply Ca. pose proof (Forall2_length _ _ _ F1) as Ll.
  assert (∀ e, e ∈ elems m → length (ccurv e) = 12%nat) as Hccm.
  { rewrite El. intros e He. apply elem_of_app in He as [He|He]; apply elem_of_list_lookup in He as [k Hk].
    - destruct (Forall2_lookup_r _ _ _ _ _ F1 Hk) as (e0 & H0 & HS). pose proof (f_equal ccurv HS) as HS'. cbn in HS'. rewrite HS'. apply Hcc. left. by eapply elem_of_list_lookup_2.
    - destruct (Forall2_lookup_r _ _ _ _ _ F2 Hk) as (e0 & H0 & HS). pose proof (f_equal ccurv HS) as HS'. cbn in HS'. rewrite HS'. apply Hcc. right. by eapply elem_of_list_lookup_2. }
  assert (refs_in_mesh m) as R. { intros i c f r Hi Hr Hcn. destruct (P i c f r Hi Hr Hcn) as (j & g & _ & (Hj & _) & [P3 _] & _). eauto. }
  assert (∀ i, i ∈ seq 0 (nel a) ↔ (i < nel a)%nat) as Hin by (intros i; rewrite elem_of_seq; lia).
  destruct (C32_keep_elements bnd m (seq 0 (nel a)) ext LA W) as (m' & E & S & W' & N'); [apply NoDup_seq|intros i Hi; apply Hin in Hi; lia|done|done|lia|].
  exists m, n, m'. split; [done|]. split; [done|]. destruct S as (S1 & S2 & _ & _ & S5 & S6 & S7 & S8). rewrite seq_length in S5, S6.
  assert (∀ k, (k < nel a)%nat → ∃ e e', elems a !! k = Some e ∧ elems m' !! k = Some e' ∧ set_bcs [] e' = set_bcs [] e) as HE.
  { intros k Hk. destruct (S7 k) as (e & e' & X1 & X2 & X3); [by apply Hin|]. rewrite new_number_seq in X2 by lia. destruct (lookup_lt_is_Some_2 (elems a) k) as [e0 He0]; [lia|].
    destruct (Forall2_lookup_l _ _ _ _ _ F1 He0) as (e1 & He1 & HS). assert (e1 = e) as -> by (rewrite El, lookup_app_l in X1 by lia; congruence). exists e0, e'. split_and!; try done. unfold same_elem in HS. congruence. }
  split_and!; try congruence.
  - rewrite N'. unfold curved_total. f_equal. assert (ccurv <$> elems m' = ccurv <$> elems a) as Ecc.
    { apply list_eq. intros k. rewrite !list_lookup_fmap. destruct (decide (k < nel a)%nat) as [Hk|Hk].
      - destruct (HE k Hk) as (e2 & e3 & -> & -> & X). cbn. f_equal. exact (f_equal ccurv X).
      - rewrite !lookup_ge_None_2; [done|lia|lia]. }
    assert (∀ l : list (elem (num A)), sum_list_with curved_edges l = sum_list_with (λ c, length (List.filter (λ c, negb (String.eqb c "")) c)) (ccurv <$> l)) as Hl.
    { induction l as [|e l IH]; [done|]. cbn. by rewrite IH. }
    by rewrite !Hl, Ecc.
  - exact HE.
  - intros y c r Hi Hr. pose proof Hi as (H1 & H2 & H3). destruct HG as (C & _ & _ & HC & Hg & Hka & _ & Hpa & _).
    assert (in_mesh m y.1 c y.2) as Him by (split; [|split]; lia).
    destruct (wf_get_bc m y.1 c y.2 (proj1 W)) as [rm Hrm]; [lia|lia|destruct (proj1 (proj1 W)); lia|].
    destruct (S8 y.1 c y.2 rm) as (r' & Hr' & K); [by apply Hin|done|done|]. rewrite new_number_seq in Hr' by lia. exists r'. split; [done|].
    destruct K as (_ & _ & _ & _ & _ & K5 & K6).
    assert (is_conn (bt rm) → ∀ j, (j < nel m)%nat → bp3 rm = nofZ (Z.of_nat j + 1) → (j < nel a)%nat ∧ bt r' = bt rm ∧ bp3 r' = bp3 rm ∧ bp4 r' = bp4 rm ∨ (nel a ≤ j)%nat ∧ bt r' = u3 ext) as K7.
    { intros Hcn j Hj Ej. destruct (K6 Hcn j Hj Ej) as [K8 K9]. destruct (decide (j < nel a)%nat) as [Hja|Hja].
      - left. split; [done|]. destruct K8 as (Y1 & Y2 & Y3); [by apply Hin|]. rewrite new_number_seq in Y2 by lia. by rewrite Y2, Ej.
      - right. split; [lia|]. by destruct K9 as (Y1 & _); [by rewrite Hin|]. }
    split_and!.
    + intros [x Hx]. pose proof (proj2 (HC x y) Hx) as Hxy. destruct (Hg x y c Hxy) as [_ (r1 & Hr1 & Ht1 & [Hp1 _])]; [lia|]. assert (r1 = rm) as -> by congruence.
      apply HC in Hxy as ([[X1 _] _] & _). destruct (K7 ltac:(by left) (nel a + x.1)%nat) as [[Hl _]|[_ Hl]]; [lia|exact Hp1|lia|done].
    + intros Hno HP. assert (∀ x, (x, y) ∉ C) as Hno' by (intros x Hx; by apply (Hno x), HC). pose proof (Hka y c r Hno' Hr HP) as Hr1. assert (rm = r) as -> by congruence.
      destruct (decide (bt r = "E"%string ∨ bt r = "P"%string)) as [Hcr|Hcr]; [|by apply K5]. destruct Ca as (_ & Pa & _). destruct (Pa y.1 c y.2 r Hi Hr Hcr) as (j & g & _ & (Hj & _) & [P3 _] & _).
      destruct (K7 Hcr j) as [[_ Hl]|[Hl _]]; [lia|done|done|lia].
    + intros Hno HP. assert (∀ x, (x, y) ∉ C) as Hno' by (intros x Hx; by apply (Hno x), HC). destruct (Hpa y Hno' HP) as (w & _ & Hlk); [split; [|split]; lia|].
      destruct (Hlk c) as (r1 & Hr1 & Ht1 & Hp1); [lia|]. assert (r1 = rm) as -> by congruence. assert (is_conn (bt rm)) as Hcn by (by right).
      destruct (R y.1 c y.2 rm Him Hrm Hcn) as (j & Hj & Ej). destruct (K7 Hcn j Hj Ej) as [(_ & Hl & _)|[_ Hl]]; [left; congruence|by right].
Qed.
Print Assumptions C76_merge_undone.

(** The hypotheses are met, in float64, by the two periodic boxes of C26. *)
Definition curves12 (m : hexa (num A64)) : bool := forallb (λ e : elem (num A64), (length (ccurv e) =? 12)%nat) (elems m).
Lemma curves12_ok m : curves12 m = true → ∀ e, e ∈ elems m → length (ccurv e) = 12%nat.
Proof. intros H e He. apply Nat.eqb_eq. unfold curves12 in H. rewrite forallb_forall in H. apply H. by apply elem_of_list_In. Qed.
Lemma sample_twice l r : two_okb l r = true → curves12 l = true → nel l = 2%nat →
  ∃ m1 m2 m3, keep_elements (A:=A64) l [1; 0]%nat "W" = Ok m1 ∧ keep_elements (A:=A64) m1 [1]%nat "W" = Ok m2 ∧ keep_elements (A:=A64) l (chosen [1; 0] [1])%nat "W" = Ok m3 ∧ same_in_mesh m2 m3.
Proof.
  intros H Hcc Hn. destruct (two_okb_ok l r H) as ((_ & _ & _ & _ & Hb & _) & _ & (W & P & _) & _). apply (C76_keep_twice (A:=A64) bnd64); try done.
  - apply A64_laws. - by apply curves12_ok. - intros i b f q Hi Hr Hc. destruct (P i b f q Hi Hr Hc) as (j & g & _ & (Hj & _) & [P3 _] & _). eauto.
  - unfold bnd64 in *. lia. - intros [Hx|Hx]; vm_compute in Hx; discriminate. - repeat constructor; set_solver.
  - intros i Hi. rewrite Hn. set_unfold in Hi. lia. - apply NoDup_singleton. - intros p Hp. set_unfold in Hp. cbn. lia.
Qed.
Example C76_sample_twice : ∃ m1 m2 m3, keep_elements (A:=A64) per_l [1; 0]%nat "W" = Ok m1 ∧ keep_elements (A:=A64) m1 [1]%nat "W" = Ok m2 ∧
  keep_elements (A:=A64) per_l (chosen [1; 0] [1])%nat "W" = Ok m3 ∧ same_in_mesh m2 m3.
Proof. apply (sample_twice per_l per_r); vm_compute; reflexivity. Qed.
Example C76_sample_values : chosen [1; 0]%nat [1]%nat = [1]%nat ∧
  match keep_elements (A:=A64) per_l [1]%nat "W", keep_elements (A:=A64) per_l [1; 0]%nat "W", merge (A:=A64) tol64 false false per_l per_r with
  | Ok m3, Ok m4, (m, Ok 1) => nel m3 = 1%nat ∧ bc_view m3 0 0 3 = Some ("W", Ok 0, Ok 0)%string ∧ bc_view m4 0 0 3 = bc_view per_l 0 0 3 ∧
      match keep_elements (A:=A64) m [0; 1]%nat "W" with
      | Ok m' => bc_view m' 1 0 1 = Some ("W", Ok 0, Ok 0)%string ∧ bc_view m' 0 0 1 = bc_view per_l 0 0 1 ∧ bc_view m' 0 0 3 = Some ("W", Ok 0, Ok 0)%string
      | _ => False end
  | _, _, _ => False end.
Proof. split; [vm_compute; reflexivity|]. vm_compute. split_and!; reflexivity. Qed.
Lemma sample_undone l r ext : two_okb l r = true → curves12 l = true → curves12 r = true → ∃ m n m', merge (A:=A64) tol64 false false l r = (m, Ok n) ∧
  keep_elements (A:=A64) m (seq 0 (nel l)) ext = Ok m' ∧ nel m' = nel l.
Proof.
  intros H H1 H2. destruct (two_okb_ok l r H) as (A1 & A2 & A3 & A4 & A5 & A6 & _).
  destruct (C76_merge_undone (A:=A64) bnd64 l r tol64 false ext) as (m & n & m' & E1 & E2 & E3 & _); try done; [apply A64_laws|intros e [He|He]; [by apply (curves12_ok l)|by apply (curves12_ok r)]|]. by exists m, n, m'.
Qed.
Example C76_sample_undone : ∃ m n m', merge (A:=A64) tol64 false false per_l per_r = (m, Ok n) ∧ keep_elements (A:=A64) m (seq 0 (nel per_l)) "W" = Ok m' ∧ nel m' = nel per_l.
Proof. apply sample_undone; vm_compute; reflexivity. Qed.
Definition belb (m : hexa (num A64)) : bool := forallb (λ '(i, b, f), match get_bc m i b f with Some r => Z.eqb (bel r) (Z.of_nat i + 1) | None => true end)
  (prod3 (range (nel m)) (range (nbc m)) (range (2 * ndim m))) && Z.eqb (ncurv m) (curved_total m).
Lemma sample_all l r ext : two_okb l r = true → curves12 l = true → belb l = true → nel l = 2%nat → ∃ m', keep_elements (A:=A64) l [1; 0]%nat ext = Ok m' ∧ same_in_mesh l m'.
Proof.
  intros H Hcc Hbe Hn. destruct (two_okb_ok l r H) as ((_ & _ & _ & _ & Hb & _) & _ & (W & P & _) & _). unfold belb in Hbe. apply andb_true_iff in Hbe as [Hbe Hnc]. apply (C76_keep_all (A:=A64) bnd64); try done.
  - apply A64_laws. - by apply curves12_ok. - intros i b f q Hi Hr Hc. destruct (P i b f q Hi Hr Hc) as (j & g & _ & (Hj & _) & [P3 _] & _). eauto.
  - unfold bnd64 in *. lia. - rewrite Hn. apply perm_swap. - by apply Z.eqb_eq.
  - intros i b f q (H1 & H2 & H3) Hq. assert ((i, b, f) ∈ prod3 (range (nel l)) (range (nbc l)) (range (2 * ndim l))) as Hin by (apply elem_of_prod3; rewrite !elem_of_range; done).
    pose proof (forallb_elem _ _ Hbe (i, b, f) Hin) as H'. cbv beta iota in H'. rewrite Hq in H'. by apply Z.eqb_eq.
Qed.
Example C76_sample_all : ∃ m', keep_elements (A:=A64) per_l [1; 0]%nat "W" = Ok m' ∧ same_in_mesh per_l m'.
Proof. apply (sample_all per_l per_r); vm_compute; reflexivity. Qed.
