(** offset_connectivity, delete_internal_bcs, update_ncurv, get_points. *)
From Verif Require Import Base Mesh Core Tools MeshLemmas MeshSpec CheckProofs.
From Coq Require Import Lia.

#[local] Arguments strip : simpl never.
#[local] Arguments bshape : simpl never.

Section Proofs.
Context {A : arith}.
Notation N := (num A).
Implicit Types (m : hexa N) (e : elem N) (r : bcrec N).

Lemma same_but_bcs_of m m' : strip m' = strip m → bshape m' = bshape m → same_but_bcs m m'.
Proof.
  intros Hs Hb. split.
  - apply (f_equal (set_elems [])) in Hs. by destruct m, m'.
  - assert (strip_elem <$> elems m' = strip_elem <$> elems m) as He.
    { change (elems (strip m') = elems (strip m)). by rewrite Hs. }
    unfold bshape in Hb.
    apply Forall2_same_length_lookup. split.
    { apply (f_equal length) in He. by rewrite !fmap_length in He. }
    intros i e e' E E'. split.
    + apply (f_equal (.!! i)) in He. rewrite !list_lookup_fmap, E, E' in He. by apply (inj Some) in He.
    + apply (f_equal (.!! i)) in Hb. rewrite !list_lookup_fmap, E, E' in Hb. cbn in Hb.
      apply (inj Some) in Hb. apply Forall2_same_length_lookup. split.
      { apply (f_equal length) in Hb. by rewrite !fmap_length in Hb. }
      intros b row row' R R'. apply (f_equal (.!! b)) in Hb.
      rewrite !list_lookup_fmap, R, R' in Hb. cbn in Hb. congruence.
Qed.

Lemma wf_bcs_shape m m' : wf_bcs m → strip m' = strip m → bshape m' = bshape m → wf_bcs m'.
Proof.
  intros (Hd & Hl & Hw) Hs Hb. apply strip_fields in Hs as (E1 & E2 & _ & E4 & _ & _ & _ & _ & E5).
  split; [by rewrite E1|]. split; [congruence|].
  intros e' He'. apply elem_of_list_lookup in He' as [i Hi]. unfold bshape in Hb.
  apply (f_equal (.!! i)) in Hb. rewrite !list_lookup_fmap, Hi in Hb.
  destruct (elems m !! i) as [e|] eqn:E; [|done]. cbn in Hb. apply (inj Some) in Hb.
  destruct (Hw e) as [W1 W2]; [by eapply elem_of_list_lookup_2|].
  split.
  - apply (f_equal length) in Hb. rewrite !fmap_length in Hb. congruence.
  - intros row' Hr'. apply (elem_of_list_fmap_1 length) in Hr'. rewrite Hb in Hr'.
    apply elem_of_list_fmap in Hr' as (row & -> & Hr). auto.
Qed.
Lemma wf_mesh_shape m m' : wf_mesh m → strip m' = strip m → bshape m' = bshape m → wf_mesh m'.
Proof.
  intros [Hw Hg] Hs Hb. split; [by eapply wf_bcs_shape|].
  intros e' He'. apply elem_of_list_lookup in He' as [i Hi].
  destruct (strip_elem_lookup m' m i e' Hs Hi) as (e & He & Hse).
  assert (wf_geom_elem e) as (lx & ly & lz & Hes) by (apply Hg; by eapply elem_of_list_lookup_2).
  exists lx, ly, lz. unfold strip_elem, set_bcs in Hse. injection Hse as H1 H2 _ _ _ _ _ _.
  by rewrite <- H1, <- H2.
Qed.

Lemma nofZ_inj bnd (LA : arith_laws A bnd) z z' : Z.abs z <= bnd → Z.abs z' <= bnd →
  nofZ (a:=A) z = nofZ z' → z = z'.
Proof.
  intros Hz Hz' H. assert (Ok z = Ok z') as [= ->]; [|done].
  rewrite <- (law_trunc _ _ LA z), <- (law_trunc _ _ LA z') by done. congruence.
Qed.

(** ** offset_connectivity *)
Lemma offset_connectivity_spec bnd offset k m : arith_laws A bnd → wf_bcs m →
  refs_within bnd offset k m →
  ∃ m', offset_connectivity offset k m = Ok m' ∧ strip m' = strip m ∧ bshape m' = bshape m ∧
    ∀ i b f r, get_bc m i b f = Some r →
      ∃ r', get_bc m' i b f = Some r' ∧ offset_entry bnd offset k m i b f r r'.
Proof.
  intros LA Hw [Hoff Hrefs]. pose proof Hw as (Hd & Hlen & Hrows).
  unfold offset_connectivity.
  set (l1 := prod3 (range (length (elems m))) _ _).
  set (l2 := prod3 (range2 k (length (elems m))) _ _).
  assert (NoDup l1) as N1 by (apply NoDup_prod3; apply NoDup_range).
  assert (NoDup l2) as N2 by (apply NoDup_prod3; (apply NoDup_range || apply NoDup_range2)).
  assert (∀ i b f, (i, b, f) ∈ l1 ↔ in_mesh m i b f) as In1.
  { intros. unfold l1, in_mesh. rewrite elem_of_prod3, !elem_of_range. lia. }
  assert (∀ i b f, (i, b, f) ∈ l2 ↔ in_mesh m i b f ∧ (k ≤ i)%nat) as In2.
  { intros. unfold l2, in_mesh. rewrite elem_of_prod3, elem_of_range2, !elem_of_range. lia. }
  assert (∀ i b f, in_mesh m i b f → is_Some (get_bc m i b f)) as HS.
  { intros i b f (? & ? & ?). apply wf_get_bc; [done..|lia]. }
  destruct (upd_loop_ok (λ _, offset_bc3 offset k) m 0 l1 N1) as (m1 & n1 & E1).
  { intros i b f Hin. apply In1 in Hin. destruct (HS i b f Hin) as [r Hr]. exists r.
    unfold offset_bc3. case_bool_decide as Hc; [|eauto].
    destruct (Hrefs i b f r Hin Hr Hc) as (z & -> & Hz & _).
    rewrite (law_trunc _ _ LA) by done. cbn. eauto. }
  rewrite E1. cbn [rbind].
  destruct (upd_loop_spec _ _ _ _ _ _ N1 E1) as [U1 U2].
  destruct (upd_loop_strip _ _ _ _ E1) as [S1 B1]. cbn [fst] in S1, B1.
  destruct (upd_loop_ok (λ _, offset_bc1 offset k) m1 n1 l2 N2) as (m2 & n2 & E2).
  { intros i b f Hin. apply In2 in Hin as [Hin _].
    destruct (U2 i b f) as (r & rd & _ & _ & ->); [by apply In1|]. unfold offset_bc1. eauto. }
  rewrite E2. cbn [rbind fst]. exists m2.
  destruct (upd_loop_spec _ _ _ _ _ _ N2 E2) as [V1 V2].
  destruct (upd_loop_strip _ _ _ _ E2) as [S2 B2]. cbn [fst] in S2, B2.
  split; [done|]. split; [congruence|]. split; [congruence|].
  intros i b f r Hr.
  (* after the first loop *)
  assert (∃ r1, get_bc m1 i b f = Some r1 ∧ bt r1 = bt r ∧ bel r1 = bel r ∧ bface r1 = bface r ∧
     bp4 r1 = bp4 r ∧ bp5 r1 = bp5 r ∧ bp6 r1 = bp6 r ∧ bp7 r1 = bp7 r ∧
     (in_mesh m i b f ∧ is_conn (bt r) → ∀ z, Z.abs z <= bnd → bp3 r = nofZ z →
        bp3 r1 = nofZ (if bool_decide (Z.of_nat k < z) then z + offset else z)) ∧
     (¬ (in_mesh m i b f ∧ is_conn (bt r)) → bp3 r1 = bp3 r)) as
     (r1 & Hr1 & Q1 & Q2 & Q3 & Q4 & Q5 & Q6 & Q7 & Q8 & Q9).
  { destruct (decide ((i, b, f) ∈ l1)) as [Hin|Hin].
    - destruct (U2 i b f Hin) as (r0 & rd & Hr0 & Hg & Hrd).
      rewrite Hr in Hr0. injection Hr0 as <-. exists rd.1. split; [done|].
      apply In1 in Hin. unfold offset_bc3 in Hg. case_bool_decide as Hc.
      + destruct (Hrefs i b f r Hin Hr Hc) as (z & Ez & Hz & Hzo).
        rewrite Ez in Hg. rewrite (law_trunc _ _ LA) in Hg by done. cbn in Hg.
        injection Hg as <-. cbn [fst].
        assert (∀ z', Z.abs z' <= bnd → bp3 r = nofZ z' → z' = z) as Hinj.
        { intros z' Hz' Ez'. apply (nofZ_inj bnd LA); [done..|congruence]. }
        destruct (Z.ltb_spec (Z.of_nat k) z) as [Hlt|Hge]; cbn; repeat (split; [done|]).
        * rewrite (law_add _ _ LA) by auto. split; [|unfold is_conn; tauto].
          intros _ z' Hz' Ez'. rewrite (Hinj z' Hz' Ez'), bool_decide_true by done. done.
        * split; [|done]. intros _ z' Hz' Ez'.
          rewrite (Hinj z' Hz' Ez'), bool_decide_false by lia. done.
      + injection Hg as <-. cbn. repeat (split; [done|]). split; [unfold is_conn; tauto|done].
    - exists r. rewrite U1 by done. repeat (split; [done|]). split; [|done].
      intros [H _]. by apply In1 in H. }
  destruct (decide ((i, b, f) ∈ l2)) as [Hin|Hin].
  - destruct (V2 i b f Hin) as (r0 & rd & Hr0 & Hg & Hrd).
    rewrite Hr1 in Hr0. injection Hr0 as <-. exists rd.1. split; [done|].
    apply In2 in Hin as [Hin Hki]. unfold offset_bc1 in Hg. injection Hg as <-. cbn [fst].
    unfold offset_entry. rewrite Q2.
    destruct (Z.ltb_spec (Z.of_nat k) (bel r)).
    + rewrite bool_decide_true by done. cbn. done.
    + rewrite bool_decide_false by (intros (_ & _ & ?); lia). done.
  - exists r1. rewrite V1 by done. split; [done|]. unfold offset_entry. rewrite Q2.
    rewrite bool_decide_false; [done|]. intros (H & H' & _). apply Hin, In2. done.
Qed.

Lemma get_bc_None m m' i b f : bshape m' = bshape m → get_bc m i b f = None → get_bc m' i b f = None.
Proof.
  intros Hb Hn. destruct (get_bc m' i b f) eqn:E; [|done].
  assert (is_Some (get_bc m i b f)) as [? ?]; [|congruence].
  apply get_bc_dom. unfold bc_dom. rewrite <- Hb. apply get_bc_dom. rewrite E. eauto.
Qed.

Lemma in_mesh_strip m m' i b f : strip m' = strip m → in_mesh m' i b f ↔ in_mesh m i b f.
Proof.
  intros Hs. apply strip_fields in Hs as (E1 & E2 & _ & E4 & _). unfold in_mesh.
  by rewrite E1, E2, E4.
Qed.

Lemma bcrec_ext r r' : bt r' = bt r → bel r' = bel r → bface r' = bface r → bp3 r' = bp3 r →
  bp4 r' = bp4 r → bp5 r' = bp5 r → bp6 r' = bp6 r → bp7 r' = bp7 r → r' = r.
Proof. destruct r, r'; cbn; intros; by subst. Qed.

(** Shifting up and back is the identity. *)
Lemma offset_connectivity_inverse bnd offset k m : arith_laws A bnd → wf_bcs m →
  refs_within bnd offset k m → 0 <= offset →
  ∃ m', offset_connectivity offset k m = Ok m' ∧ offset_connectivity (- offset) k m' = Ok m.
Proof.
  intros LA Hw Hrefs Hpos.
  destruct (offset_connectivity_spec bnd offset k m LA Hw Hrefs) as (m1 & E1 & S1 & B1 & H1).
  exists m1. split; [done|].
  destruct Hrefs as [Hoff Hrefs].
  assert (wf_bcs m1) as Hw1 by (by eapply wf_bcs_shape).
  assert (refs_within bnd (- offset) k m1) as Hrefs1.
  { split; [lia|]. intros i b f r1 Hin Hr1 Hc. apply (in_mesh_strip _ _ _ _ _ S1) in Hin.
    destruct (get_bc m i b f) as [r|] eqn:Hr; [|apply (get_bc_None m m1) in Hr; congruence].
    destruct (H1 i b f r Hr) as (r1' & Hr1' & T & _ & _ & _ & _ & _ & Q & _).
    assert (r1' = r1) as -> by congruence. rewrite T in Hc.
    destruct (Hrefs i b f r Hin Hr Hc) as (z & Ez & Hz & Hzo).
    rewrite (Q (conj Hin Hc) z Hz Ez). case_bool_decide; eexists; (split; [done|]); auto with lia. }
  destruct (offset_connectivity_spec bnd (- offset) k m1 LA Hw1 Hrefs1) as (m2 & E2 & S2 & B2 & H2).
  rewrite E2. f_equal. apply mesh_ext; [congruence|congruence|].
  intros i b f. destruct (get_bc m i b f) as [r|] eqn:Hr.
  2: { apply (get_bc_None m); [congruence|done]. }
  destruct (H1 i b f r Hr) as (r1 & Hr1 & T1 & T2 & T3 & T4 & T5 & T6 & T7 & T8 & T9).
  destruct (H2 i b f r1 Hr1) as (r2 & Hr2 & W1 & W2 & W3 & W4 & W5 & W6 & W7 & W8 & W9).
  rewrite (in_mesh_strip _ _ _ _ _ S1), T1 in W7, W8.
  rewrite Hr2. f_equal. apply bcrec_ext; try congruence.
  - rewrite W9, T9. rewrite (bool_decide_ext _ _
      (and_iff_compat_r _ (in_mesh_strip m m1 i b f S1))).
    repeat case_bool_decide; try lia; naive_solver lia.
  - destruct (decide (in_mesh m i b f ∧ is_conn (bt r))) as [[Hin Hc]|Hn].
    + destruct (Hrefs i b f r Hin Hr Hc) as (z & Ez & Hz & Hzo).
      specialize (T7 (conj Hin Hc) z Hz Ez).
      destruct (bool_decide_reflect (Z.of_nat k < z)) as [Hk|Hk].
      * specialize (Hzo Hk). rewrite (W7 (conj Hin Hc) (z + offset)) by (done || lia).
        rewrite bool_decide_true by lia. rewrite Ez. f_equal. lia.
      * rewrite (W7 (conj Hin Hc) z) by (done || lia). rewrite bool_decide_false by lia. done.
    + rewrite W8, T8; done.
Qed.

(** ** delete_internal_bcs *)
Definition all_entries m (i b f : nat) : Prop := (i < nel m ∧ b < nbc m ∧ f < 6)%nat.

Lemma filter_count_bind {X Y} (p : Y → bool) (g : X → list Y) l :
  Z.of_nat (length (List.filter p (l ≫= g))) =
  foldr Z.add 0 ((λ x, Z.of_nat (length (List.filter p (g x)))) <$> l).
Proof.
  induction l as [|x l IH]; cbn; [done|].
  rewrite List.filter_app, app_length. cbn in IH. lia.
Qed.

Lemma foldr_add_bind {X Y} (d : Y → Z) (g : X → list Y) l :
  foldr Z.add 0 (d <$> (l ≫= g)) = foldr Z.add 0 ((λ x, foldr Z.add 0 (d <$> g x)) <$> l).
Proof.
  induction l as [|x l IH]; cbn; [done|]. rewrite fmap_app.
  assert (∀ l1 l2, foldr Z.add 0 (l1 ++ l2) = foldr Z.add 0 l1 + foldr Z.add 0 l2) as H.
  { induction l1; intros; cbn; [done|]. rewrite IHl1. lia. }
  rewrite H. cbn in IH. lia.
Qed.

Lemma foldr_add_ext {X} (d d' : X → Z) l : (∀ x, x ∈ l → d x = d' x) →
  foldr Z.add 0 (d <$> l) = foldr Z.add 0 (d' <$> l).
Proof.
  intros H. f_equal. apply list_fmap_ext. intros i x Hx. apply H. by eapply elem_of_list_lookup_2.
Qed.

Lemma foldr_add_zero {X} l : foldr Z.add 0 ((λ _ : X, 0) <$> l) = 0.
Proof. induction l; cbn; lia. Qed.
Lemma foldr_add_add {X} (d d' : X → Z) l :
  foldr Z.add 0 ((λ x, d x + d' x) <$> l) = foldr Z.add 0 (d <$> l) + foldr Z.add 0 (d' <$> l).
Proof. induction l; cbn; lia. Qed.
(** Exchange of sums. *)
Lemma foldr_add_swap {X Y} (d : X → Y → Z) l1 l2 :
  foldr Z.add 0 ((λ x, foldr Z.add 0 ((λ y, d x y) <$> l2)) <$> l1) =
  foldr Z.add 0 ((λ y, foldr Z.add 0 ((λ x, d x y) <$> l1)) <$> l2).
Proof.
  induction l1 as [|x l1 IH]; cbn; [by rewrite foldr_add_zero|].
  rewrite foldr_add_add. etransitivity; [apply Z.add_cancel_l, IH|done].
Qed.

(** Summing over the positions of a list is summing over the list. *)
Lemma foldr_add_range {X} (d : nat → Z) (h : X → Z) (l : list X) n :
  length l = n → (∀ i x, l !! i = Some x → d i = h x) →
  foldr Z.add 0 (d <$> range n) = foldr Z.add 0 (h <$> l).
Proof.
  intros <- H. unfold range.
  assert (∀ k, (∀ i x, l !! i = Some x → d (k + i)%nat = h x) →
     foldr Z.add 0 (d <$> seq k (length l)) = foldr Z.add 0 (h <$> l)) as Hk.
  { clear H. induction l as [|x l IH]; intros k H; cbn; [done|].
    rewrite <- (H 0%nat x) by done. rewrite Nat.add_0_r. f_equal.
    apply IH. intros i y Hi. rewrite <- (H (S i) y) by done. f_equal. lia. }
  apply Hk. intros. cbn. eauto.
Qed.

Lemma count_bcs_sum p m : wf_bcs m →
  count_bcs p m = foldr Z.add 0 ((λ i, foldr Z.add 0 ((λ b, foldr Z.add 0 ((λ f,
     match get_bc m i b f with Some r => if p r then 1 else 0 | None => 0 end)
     <$> range 6)) <$> range (nbc m))) <$> range (nel m)).
Proof.
  intros (Hd & Hlen & Hw). unfold count_bcs. rewrite filter_count_bind. symmetry.
  apply foldr_add_range; [done|]. intros i e Hi.
  destruct (Hw e) as [Hb Hrow]; [by eapply elem_of_list_lookup_2|].
  rewrite filter_count_bind. apply foldr_add_range; [done|]. intros b row Hb'.
  specialize (Hrow row). rewrite <- Hrow by (by eapply elem_of_list_lookup_2). clear Hrow.
  transitivity (foldr Z.add 0 ((λ r : bcrec N, if p r then 1 else 0) <$> row)).
  - apply foldr_add_range; [done|]. intros f r Hf. unfold get_bc. rewrite Hi. cbn.
    rewrite Hb'. cbn. by rewrite Hf.
  - cbn. clear. induction row as [|r row IH]; cbn; [done|]. destruct (p r); cbn in *; lia.
Qed.

Lemma delete_spec m : wf_bcs m →
  ∃ m' n, delete_internal_bcs m = Ok (m', n) ∧ strip m' = strip m ∧ bshape m' = bshape m ∧
    n = count_bcs (λ r, String.eqb (bt r) "E") m ∧
    ∀ i b f r, get_bc m i b f = Some r →
      get_bc m' i b f = Some (if String.eqb (bt r) "E" then zero_bc (nofZ 0) else r).
Proof.
  intros Hw. pose proof Hw as (Hd & Hlen & Hrows). unfold delete_internal_bcs.
  set (l := _ <$> prod3 _ _ _).
  assert (NoDup l) as Hnd.
  { apply NoDup_fmap_2; [|apply NoDup_prod3; apply NoDup_range].
    intros [[? ?] ?] [[? ?] ?]. by intros [= -> -> ->]. }
  assert (∀ i b f, (i, b, f) ∈ l ↔ all_entries m i b f) as Hin.
  { intros i b f. unfold l. rewrite elem_of_list_fmap. unfold all_entries. split.
    - intros ([[b' i'] f'] & [= -> -> ->] & H). apply elem_of_prod3 in H.
      rewrite !elem_of_range in H. lia.
    - intros H. exists (b, i, f). split; [done|]. apply elem_of_prod3. rewrite !elem_of_range. lia. }
  destruct (upd_loop_ok (λ _, delete_bc) m 0 l Hnd) as (m' & n & E).
  { intros i b f H. apply Hin in H as (? & ? & ?).
    destruct (wf_get_bc m i b f) as [r Hr]; [done..|]. unfold delete_bc. eauto. }
  exists m', n. split; [done|].
  destruct (upd_loop_spec _ _ _ _ _ _ Hnd E) as [U1 U2].
  destruct (upd_loop_strip _ _ _ _ E) as [S1 B1]. cbn [fst] in S1, B1.
  split; [done|]. split; [done|]. split.
  - rewrite (upd_loop_count (λ _, delete_bc) m 0 l m' n (λ '(i, b, f),
      match get_bc m i b f with Some r => if String.eqb (bt r) "E" then 1 else 0 | None => 0 end)
      Hnd E).
    2: { intros i b f r rd _ Hr. unfold delete_bc. intros [= <-]. rewrite Hr. by destruct (String.eqb _ _). }
    rewrite count_bcs_sum by done. rewrite Z.add_0_l. unfold l.
    rewrite <- list_fmap_compose.
    unfold prod3. rewrite foldr_add_bind.
    rewrite Hlen. rewrite (foldr_add_swap _ (range (nel m))).
    apply foldr_add_ext. intros b _. rewrite foldr_add_bind.
    apply foldr_add_ext. intros i _. rewrite <- list_fmap_compose. done.
  - intros i b f r Hr.
    assert (all_entries m i b f) as Hall.
    { apply get_bc_Some_shape in Hr as (e & row & He & Hb & Hf).
      destruct (Hrows e) as [W1 W2]; [by eapply elem_of_list_lookup_2|].
      apply lookup_lt_Some in He. apply lookup_lt_Some in Hf.
      rewrite (W2 row) in Hf by (by eapply elem_of_list_lookup_2).
      apply lookup_lt_Some in Hb. unfold all_entries. lia. }
    apply Hin in Hall. destruct (U2 i b f Hall) as (r0 & rd & Hr0 & Hg & ->).
    rewrite Hr in Hr0. injection Hr0 as <-. unfold delete_bc in Hg. injection Hg as <-.
    by destruct (String.eqb _ _).
Qed.

(** Nothing is left to delete. *)
Lemma count_bcs_zero p m : wf_bcs m → (∀ i b f r, get_bc m i b f = Some r → p r = false) →
  count_bcs p m = 0.
Proof.
  intros Hw H. rewrite count_bcs_sum by done.
  rewrite (foldr_add_ext _ (λ _, 0)); [apply foldr_add_zero|]. intros i _.
  rewrite (foldr_add_ext _ (λ _, 0)); [apply foldr_add_zero|]. intros b _.
  rewrite (foldr_add_ext _ (λ _, 0)); [apply foldr_add_zero|]. intros f _.
  destruct (get_bc m i b f) as [r|] eqn:E; [|done]. by rewrite (H i b f r E).
Qed.

Lemma delete_idempotent m m' n : wf_bcs m → delete_internal_bcs m = Ok (m', n) →
  delete_internal_bcs m' = Ok (m', 0).
Proof.
  intros Hw E. destruct (delete_spec m Hw) as (m1 & n1 & E1 & S1 & B1 & _ & H1).
  rewrite E in E1. injection E1 as <- <-.
  assert (wf_bcs m') as Hw' by (by eapply wf_bcs_shape).
  assert (∀ i b f r, get_bc m' i b f = Some r → String.eqb (bt r) "E" = false) as Hno.
  { intros i b f r Hr. destruct (get_bc m i b f) as [r0|] eqn:E0.
    - rewrite (H1 _ _ _ _ E0) in Hr. injection Hr as <-.
      destruct (String.eqb (bt r0) "E") eqn:Et; [done|done].
    - apply (get_bc_None m m') in E0; congruence. }
  destruct (delete_spec m' Hw') as (m2 & n2 & E2 & S2 & B2 & C2 & H2).
  rewrite E2. f_equal. f_equal.
  - apply mesh_ext; [congruence|congruence|]. intros i b f.
    destruct (get_bc m' i b f) as [r|] eqn:Er.
    + rewrite (H2 _ _ _ _ Er). by rewrite (Hno _ _ _ _ Er).
    + by apply (get_bc_None m' m2).
  - rewrite C2. by apply count_bcs_zero.
Qed.

(** ** update_ncurv *)
Lemma update_ncurv_spec m : (∀ e, e ∈ elems m → length (ccurv e) = 12%nat) →
  update_ncurv m = Ok (set_ncurv (Z.of_nat (length
    (List.filter (λ c, negb (String.eqb c "")) (elems m ≫= ccurv)))) m).
Proof.
  intros H. unfold update_ncurv.
  set (inner := λ (el : elem N) (n : Z) (iedge : nat),
    let! c := of_opt IndexError (ccurv el !! iedge) in
    Ok (if String.eqb c "" then n else n + 1)).
  assert (∀ el n, length (ccurv el) = 12%nat → foldM (inner el) n (range 12) =
     Ok (n + Z.of_nat (length (List.filter (λ c, negb (String.eqb c "")) (ccurv el))))) as Hin.
  { intros el n Hl. unfold inner, range.
    assert (∀ l k n, (∀ i, ccurv el !! (k + i)%nat = l !! i) → foldM (λ n iedge,
       let! c := of_opt IndexError (ccurv el !! iedge) in
       Ok (if String.eqb c "" then n else n + 1)) n (seq k (length l)) =
       Ok (n + Z.of_nat (length (List.filter (λ c, negb (String.eqb c "")) l)))) as Hg.
    { induction l as [|c l IH]; intros k n0 Hc; cbn; [f_equal; lia|].
      pose proof (Hc 0%nat) as Hc0. rewrite Nat.add_0_r in Hc0. rewrite Hc0. cbn.
      rewrite IH.
      - destruct (String.eqb c ""); cbn; f_equal; lia.
      - intros i. etransitivity; [|exact (Hc (S i))]. f_equal. lia. }
    rewrite <- Hl. apply Hg. done. }
  assert (∀ l n, (∀ e, e ∈ l → length (ccurv e) = 12%nat) →
    foldM (λ n el, foldM (inner el) n (range 12)) n l =
    Ok (n + Z.of_nat (length (List.filter (λ c, negb (String.eqb c "")) (l ≫= ccurv))))) as Ho.
  { induction l as [|e l IH]; intros n Hl; cbn [foldM mbind list_bind]; [cbn; f_equal; lia|].
    rewrite Hin by (apply Hl; left). cbn [rbind]. rewrite IH by (intros; apply Hl; by right).
    rewrite List.filter_app, app_length. f_equal. cbn. lia. }
  change (rbind (foldM (λ n el, foldM (inner el) n (range 12)) 0 (elems m))
    (λ n, Ok (set_ncurv n m)) = Ok (set_ncurv (Z.of_nat (length
    (List.filter (λ c, negb (String.eqb c "")) (elems m ≫= ccurv)))) m)).
  rewrite Ho by done. cbn [rbind]. by rewrite Z.add_0_l.
Qed.

(** ** get_points *)
Lemma get_points_spec m lx ly lz : lr1 m = [lx; ly; lz] → length (elems m) = nel m →
  (∀ e, e ∈ elems m → length (pos e) = 3%nat ∧
     ∀ c, c ∈ pos e → length c = (lx * ly * lz)%nat) →
  ∃ pts, get_points m = Ok pts ∧ length pts = nel m ∧
    ∀ i e, elems m !! i = Some e →
      ∃ row, pts !! i = Some row ∧ length row = (lx * ly * lz)%nat ∧
        ∀ p, (p < lx * ly * lz)%nat → ∃ x y z,
          row !! p = Some (x, y, z) ∧ (pos e !! 0%nat ≫= (.!! p)) = Some x ∧
          (pos e !! 1%nat ≫= (.!! p)) = Some y ∧ (pos e !! 2%nat ≫= (.!! p)) = Some z.
Proof.
  intros Hlr Hlen Hpos. unfold get_points. rewrite Hlr. set (n := (lx * ly * lz)%nat) in *.
  rewrite firstn_all2 by lia.
  assert (∀ e, e ∈ elems m → ∃ row, elem_points n e = Ok row ∧ length row = n ∧
     ∀ p, (p < n)%nat → ∃ x y z,
          row !! p = Some (x, y, z) ∧ (pos e !! 0%nat ≫= (.!! p)) = Some x ∧
          (pos e !! 1%nat ≫= (.!! p)) = Some y ∧ (pos e !! 2%nat ≫= (.!! p)) = Some z) as He.
  { intros e He. destruct (Hpos e He) as [H3 Hc]. unfold elem_points.
    destruct (pos e) as [|px [|py [|pz []]]]; try discriminate.
    assert (∀ c, c ∈ [px; py; pz] → broadcast n c = Ok c) as Hb.
    { intros c Hin. unfold broadcast. rewrite (Hc c Hin), Nat.eqb_refl. done. }
    rewrite (Hb px), (Hb py), (Hb pz) by set_solver. cbn [rbind].
    eexists. split; [done|].
    pose proof (Hc px ltac:(set_solver)) as Lx. pose proof (Hc py ltac:(set_solver)) as Ly.
    pose proof (Hc pz ltac:(set_solver)) as Lz.
    split; [rewrite !zip_with_length; lia|]. intros p Hp.
    destruct (lookup_lt_is_Some_2 px p) as [x Hx]; [lia|].
    destruct (lookup_lt_is_Some_2 py p) as [y Hy]; [lia|].
    destruct (lookup_lt_is_Some_2 pz p) as [z Hz]; [lia|].
    exists x, y, z. cbn. split; [|done].
    rewrite lookup_zip_with, lookup_zip_with, Hx. cbn. rewrite Hy. cbn. rewrite Hz. done. }
  assert (∃ pts, mapR (elem_points n) (elems m) = Ok pts) as [pts Hpts].
  { clear -He. induction (elems m) as [|e l IH]; cbn; [eauto|].
    destruct (He e) as (row & -> & _); [left|]. cbn.
    destruct IH as [pts ->]; [intros; apply He; by right|]. cbn. eauto. }
  rewrite Hpts. cbn [rbind]. exists pts. rewrite Hlen, Nat.sub_diag. cbn. rewrite app_nil_r.
  split; [done|]. apply mapR_Ok in Hpts. split; [by rewrite <- (Forall2_length _ _ _ Hpts)|].
  intros i e Hi. destruct (Forall2_lookup_l _ _ _ _ _ Hpts Hi) as (row & Hrow & Hok).
  exists row. split; [done|]. destruct (He e) as (row' & Hok' & H); [by eapply elem_of_list_lookup_2|].
  rewrite Hok in Hok'. injection Hok' as <-. done.
Qed.
End Proofs.
