(** Proofs about [extrude_mid]: all elements and all layers, then the conditions at the two ends. *)
From Coq Require Import Lia.
From Verif Require Import Base Mesh Core Tools Curve Mid MeshLemmas MeshSpec CheckProofs OpsProofs GeoLaws BoxProofs
  ExtrudeSpec ExtrudeProofs MidSpec MidProofs MidBlock.
Open Scope Z_scope.

Lemma mapR_exists {X Y} (g : X → res Y) (l : list X) : (∀ x, x ∈ l → ∃ y, g x = Ok y) → ∃ l', mapR g l = Ok l'.
Proof.
  induction l as [|x l IH]; intros H; [by exists []|]. destruct (H x) as [y Hy]; [by left|].
  destruct IH as [l' Hl']; [intros; apply H; by right|]. exists (y :: l'). cbn [mapR]. by rewrite Hy, Hl'.
Qed.
Lemma concat_lookup {X} d (ls : list (list X)) i n : (∀ x, x ∈ ls → length x = d) → (n < d)%nat →
  List.concat ls !! (d * i + n)%nat = (x ← ls !! i; x !! n).
Proof.
  revert i. induction ls as [|x ls IH]; intros i H Hn; [by rewrite !lookup_nil|]. cbn [List.concat].
  assert (length x = d) as Hx by (apply H; by left). destruct i as [|i].
  - rewrite Nat.mul_0_r, Nat.add_0_l, lookup_app_l by lia. done.
  - rewrite lookup_app_r by lia. replace (d * S i + n - length x)%nat with (d * i + n)%nat by lia. cbn. apply IH; [|done].
    intros y Hy. apply H. by right.
Qed.
Lemma concat_length {X} d (ls : list (list X)) : (∀ x, x ∈ ls → length x = d) → length (List.concat ls) = (d * length ls)%nat.
Proof.
  induction ls as [|x ls IH]; intros H; [cbn; lia|]. cbn [List.concat length]. rewrite app_length, IH by (intros; apply H; by right).
  rewrite (H x) by (by left). lia.
Qed.

Section mesh.
Context {A : arith}.
Notation N := (num A).
Implicit Types (e : elem N) (r : bcrec N).

(** What the code can work on. *)
Definition workable (f : N → N → N) e : Prop := four_points e ∧ rows_ok e ∧ no_s e ∧ is_Some (orient f e).
Lemma low_geo f e e' j i : same_geo e e' → low f e' j i = low f e j i.
Proof. intros H. unfold low. by rewrite (point_geo e e'). Qed.
Lemma orient_geo f e e' : same_geo e e' → orient f e' = orient f e.
Proof. intros H. unfold orient. by rewrite !(low_geo f e e'). Qed.
Lemma corner_geo e e' c : same_geo e e' → corner e' c = corner e c.
Proof. intros H. unfold corner. by rewrite (point_geo e e'). Qed.
Lemma workable_evolved f e e' : evolved e e' → workable f e → workable f e'.
Proof.
  intros (H1 & H2 & H3 & _) (W1 & W2 & W3 & W4). split; [by eapply same_four|]. split; [done|].
  split; [unfold no_s; by rewrite H2|]. by rewrite (orient_geo f e e').
Qed.

(** The block made of element i and of the k-th four layers, in terms of the element as it was given. *)
Definition block (f : N → N → N) (ib : bool) (nel2d nb kk i : nat) (zz : nat → N) e (l : list (elem N)) : Prop :=
  ∃ lo hi m0 m1 a0 a1, orient f e = Some (lo, hi) ∧ edge_mid e (s_l0 (mid_sides lo hi)) = Ok (m0, a0) ∧
    edge_mid e (s_l1 (mid_sides lo hi)) = Ok (m1, a1) ∧ block_fact ib nel2d nb kk i zz e lo hi m0 m1 l.
Lemma block_length f ib n nb k i zz e l : block f ib n nb k i zz e l → length l = 6%nat.
Proof. intros (lo & hi & m0 & m1 & a0 & a1 & _ & _ & _ & H & _). by apply Forall2_length in H as <-. Qed.
Lemma block_evolved f ib n nb k i zz e e' l : evolved e e' → no_arcs e → four_points e → rows_ok e →
  block f ib n nb k i zz e' l → block f ib n nb k i zz e l.
Proof.
  intros (G & C & R & V & _) Ha H4 Hr (lo & hi & m0 & m1 & a0 & a1 & Ho & E0 & E1 & F1 & F2). rewrite (orient_geo f e e' G) in Ho.
  destruct (splits_sound lo hi (orient_splits f e lo hi Ho)) as ([(_ & _ & B3 & B4) _] & _).
  assert (∀ c m a, (c < 4)%nat → edge_mid e' c = Ok (m, a) → ∃ a', edge_mid e c = Ok (m, a')) as Hm.
  { intros c m a Hc Em. destruct (edge_mid_side e c Hr H4 Hc) as (v & b & Ev & _).
    destruct (edge_mid_ext e e' c v b G C (V c (Ha c Hc)) Ev) as [b' Ev']. rewrite Ev' in Em. injection Em as -> _. eauto. }
  destruct (Hm _ _ _ B3 E0) as [b0 E0']. destruct (Hm _ _ _ B4 E1) as [b1 E1'].
  exists lo, hi, m0, m1, b0, b1. split; [done|]. split; [done|]. split; [done|]. split.
  - unfold six_of, mid_six in *. pose proof G as (_ & _ & Gb).
    rewrite (list_fmap_ext (corner e') (corner e) lo), (list_fmap_ext (corner e') (corner e) hi) in F1 by (intros; by apply corner_geo).
    rewrite Forall2_fmap_l in F1. rewrite Forall2_fmap_l. eapply Forall2_impl; [exact F1|]. intros p x. cbn. by rewrite Gb.
  - intros m b g Hm' Hb. rewrite F2 by done. by destruct G as (_ & _ & ->).
Qed.

(** One group of four layers. *)
Lemma layer_ok f ib n nb kk zz (es : list (elem N)) : (∀ e, e ∈ es → workable f e) →
  ∃ l, mapR (λ x, mid_block f ib n nb kk (fst x) zz (snd x)) (enumerate es) = Ok l ∧ length l = length es ∧
    ∀ i e, es !! i = Some e → ∃ e' b, l !! i = Some (e', b) ∧ evolved e e' ∧ block f ib n nb kk i zz e b.
Proof.
  intros H.
  assert (∀ i e, es !! i = Some e → ∃ e' b, mid_block f ib n nb kk i zz e = Ok (e', b) ∧ evolved e e' ∧ block f ib n nb kk i zz e b) as Hb.
  { intros i e He. destruct (H e) as (W1 & W2 & W3 & [[lo hi] W4]); [by eapply elem_of_list_lookup_2|].
    destruct (block_ok f ib n nb kk i zz e lo hi W1 W2 W3 W4) as (m0 & m1 & a0 & a1 & e' & b & E0 & E1 & E & Hev & Hf).
    exists e', b. split; [done|]. split; [done|]. exists lo, hi, m0, m1, a0, a1. done. }
  destruct (mapR_exists (λ x, mid_block f ib n nb kk (fst x) zz (snd x)) (enumerate es)) as [l Hl].
  { intros [i e] Hx. apply enumerate_lookup in Hx. destruct (Hb i e Hx) as (e' & b & E & _). eauto. }
  exists l. split; [done|]. apply mapR_Ok in Hl. split; [rewrite <- (Forall2_length _ _ _ Hl); unfold enumerate; by rewrite imap_length|].
  intros i e He. destruct (Hb i e He) as (e' & b & E & Hev & Hbl). exists e', b. split; [|done].
  assert (enumerate es !! i = Some (i, e)) as Hx by (unfold enumerate; by rewrite list_lookup_imap, He).
  destruct (Forall2_lookup_l _ _ _ _ _ Hl Hx) as (y & Hy & Ey). cbn in Ey. rewrite E in Ey. injection Ey as <-. done.
Qed.
(** A group in which an element is not cut in two halves. *)
Lemma layer_bad f ib n nb kk zz (es : list (elem N)) : (∀ e, e ∈ es → four_points e ∧ rows_ok e ∧ no_s e) →
  (∃ e, e ∈ es ∧ orient f e = None) →
  mapR (λ x, mid_block f ib n nb kk (fst x) zz (snd x)) (enumerate es) = Raise ValueError.
Proof.
  intros H Hx. unfold enumerate. generalize 0%nat. assert (∀ g : nat → nat, mapR (λ x, mid_block f ib n nb kk (fst x) zz (snd x)) (imap (λ i b, (g i, b)) es) = Raise ValueError) as Hg.
  2: { intros _. apply (Hg id). }
  induction es as [|e es IH]; intros g; [by destruct Hx as (e & He & _); apply elem_of_nil in He|]. cbn [imap mapR]. cbn [fst snd].
  destruct (H e) as (W1 & W2 & W3); [by left|]. destruct (orient f e) as [[lo hi]|] eqn:Eo.
  - destruct (block_ok f ib n nb kk (g 0%nat) zz e lo hi W1 W2 W3 Eo) as (m0 & m1 & a0 & a1 & e' & b & _ & _ & -> & _). cbn [rbind].
    replace (imap ((λ i b, (g i, b)) ∘ S) es) with (imap (λ i (b : elem N), ((g ∘ S) i, b)) es) by done.
    rewrite (IH ltac:(intros; apply H; by right)); [done|]. destruct Hx as (x & Hx & Ex). exists x. split; [|done].
    apply elem_of_cons in Hx as [->|]; [congruence|done].
  - by rewrite (block_bad f ib n nb kk (g 0%nat) zz e W1 W2 Eo).
Qed.

Lemma sixth_lt n q k i j : (i < n)%nat → (k < q)%nat → (j < 6)%nat → (sixth n k i j < 6 * n * q)%nat.
Proof. intros Hi Hk Hj. unfold sixth. pose proof (elnum_lt n q i k Hi Hk) as H. unfold elnum in H. lia. Qed.
Lemma sixth_inj n k i j k' i' j' : (i < n)%nat → (i' < n)%nat → (j < 6)%nat → (j' < 6)%nat →
  sixth n k i j = sixth n k' i' j' → k = k' ∧ i = i' ∧ j = j'.
Proof.
  intros Hi Hi' Hj Hj' E. unfold sixth in E. assert (i + n * k = i' + n * k')%nat as E' by lia.
  apply (elnum_inj n i k i' k') in E' as [-> ->]; [|done|done]. split_and!; lia.
Qed.
Lemma sixth_div n q p : (p < 6 * n * q)%nat → ∃ k i j, (k < q ∧ i < n ∧ j < 6)%nat ∧ p = sixth n k i j.
Proof.
  intros H. assert (p / 6 < n * q)%nat as Hd by (apply Nat.div_lt_upper_bound; lia).
  apply elnum_div in Hd as (i & k & Hi & Hk & E). unfold elnum in E.
  exists k, i, (p mod 6)%nat. split; [split_and!; [done|done|apply Nat.mod_upper_bound; lia]|].
  unfold sixth. rewrite <- E. apply Nat.div_mod. lia.
Qed.

(** All groups. *)
Definition mid_step (f : N → N → N) (ib : bool) (n nb : nat) (z : list N) (s : list (elem N) * list (elem N)) (kk : nat)
    : res (list (elem N) * list (elem N)) :=
  let '(es, acc) := s in
  let zz n := nth (4 * kk + n) z (nofZ 0) in
  let! l := mapR (λ x, mid_block f ib n nb kk (fst x) zz (snd x)) (enumerate es) in
  Ok (fst <$> l, acc ++ concat (snd <$> l)).
Definition zk (z : list N) (k h : nat) : N := nth (4 * k + h) z (nofZ 0).
Lemma layers_ok f ib nb z (es0 : list (elem N)) q : (∀ e, e ∈ es0 → workable f e) → ((∀ e, e ∈ es0 → no_arcs e) ∨ (q ≤ 1)%nat) →
  ∃ es new, foldM (mid_step f ib (length es0) nb z) (es0, []) (range q) = Ok (es, new) ∧ Forall2 evolved es0 es ∧
    length new = (6 * length es0 * q)%nat ∧
    ∀ k i e, (k < q)%nat → es0 !! i = Some e → ∃ l, block f ib (length es0) nb k i (zk z k) e l ∧
      ∀ j, (j < 6)%nat → new !! sixth (length es0) k i j = l !! j.
Proof.
  intros H Ha. induction q as [|q IH].
  { exists es0, []. split; [done|]. split; [|split; [cbn; lia|intros; lia]]. apply Forall_Forall2_diag, Forall_forall. intros e He. apply evolved_refl, (H e He). }
  destruct IH as (es & new & Ef & Hev & Hlen & Hb); [destruct Ha; [by left|right; lia]|].
  unfold range. rewrite seq_S, foldM_app. change (seq 0 q) with (range q). rewrite Ef. cbn [rbind foldM]. rewrite Nat.add_0_l.
  assert (length es = length es0) as Les by (symmetry; by eapply Forall2_length).
  unfold mid_step at 1. cbv zeta.
  destruct (layer_ok f ib (length es0) nb q (λ h, nth (4 * q + h) z (nofZ 0)) es) as (l & -> & Ll & Hl).
  { intros e' He'. apply elem_of_list_lookup in He' as [i He']. destruct (Forall2_lookup_r _ _ _ _ _ Hev He') as (e & He & Hee).
    eapply workable_evolved; [exact Hee|]. apply H. by eapply elem_of_list_lookup_2. }
  cbn [rbind].
  assert (∀ x, x ∈ snd <$> l → length x = 6%nat) as H6.
  { intros x Hx. apply elem_of_list_fmap in Hx as ([e' b] & -> & Hx). apply elem_of_list_lookup in Hx as [i Hx].
    destruct (lookup_lt_is_Some_2 es i) as [e He]; [rewrite <- Ll; by apply lookup_lt_Some in Hx|].
    destruct (Hl i e He) as (e'' & b' & E' & _ & Hbl). rewrite Hx in E'. injection E' as <- <-. cbn. by eapply block_length. }
  eexists _, _. split; [reflexivity|]. split; [|split].
  - apply Forall2_same_length_lookup. split; [by rewrite fmap_length, Ll|]. intros i x y Hx Hy.
    destruct (Forall2_lookup_l _ _ _ _ _ Hev Hx) as (e & He & Hxe). destruct (Hl i e He) as (e' & b & E' & Hee & _).
    rewrite list_lookup_fmap, E' in Hy. cbn in Hy. apply (inj Some) in Hy as <-. by eapply evolved_trans.
  - rewrite app_length, Hlen, (concat_length 6) by done. rewrite fmap_length, Ll, Les. lia.
  - intros k i e Hk He. assert (i < length es0)%nat as Hi by (by eapply lookup_lt_Some). destruct (decide (k = q)) as [->|Hkq].
    + destruct (Forall2_lookup_l _ _ _ _ _ Hev He) as (e1 & He1 & Hee1). destruct (Hl i e1 He1) as (e' & b & E' & _ & Hbl).
      exists b. split.
      * destruct (H e) as (W1 & W2 & _); [by eapply elem_of_list_lookup_2|].
        destruct Ha as [Ha|Hq]; [eapply block_evolved; [exact Hee1| |done|done|exact Hbl]; apply Ha; by eapply elem_of_list_lookup_2|].
        assert (q = 0%nat) as -> by lia. cbn in Ef. injection Ef as <- <-. rewrite He in He1. apply (inj Some) in He1 as <-. done.
      * intros j Hj. unfold sixth. rewrite lookup_app_r by (rewrite Hlen; nia). rewrite Hlen.
        replace (6 * (i + length es0 * q) + j - 6 * length es0 * q)%nat with (6 * i + j)%nat by nia.
        rewrite (concat_lookup 6) by done. by rewrite list_lookup_fmap, E'.
    + destruct (Hb k i e ltac:(lia) He) as (b & Hbl & Hnew). exists b. split; [done|]. intros j Hj.
      rewrite lookup_app_l; [by apply Hnew|]. rewrite Hlen. apply sixth_lt; [done|lia|done].
Qed.

Implicit Types (m : hexa N).
(** ** The copies of the argument: only the counters and the map of elements are used *)
Lemma copies_ok bnd m n : arith_laws A bnd → wf_bcs m → lr1 m ≠ [] → (∀ k, (k < n)%nat → refs_within bnd (Z.of_nat (k * nel m)) 0 m) → (1 ≤ n)%nat →
  ∃ m3, mid_copies m n = Ok m3 ∧ elmap m3 = (range n ≫= λ k, (λ x, x + Z.of_nat (k * nel m)) <$> elmap m) ∧
    time m3 = time m ∧ istep m3 = istep m ∧ wdsz m3 = wdsz m ∧ endian m3 = endian m.
Proof.
  intros LA Hw Hl Hr Hn. unfold mid_copies.
  assert (∀ k, (k ≤ n - 1)%nat → ∃ m3, foldM (λ m3 (_ : nat), let '(m3, r) := merge (nlit 1 100) true true m3 m in let! _ := r in Ok m3) m (range k) = Ok m3 ∧
    ndim m3 = ndim m ∧ lr1 m3 = lr1 m ∧ nel m3 = (S k * nel m)%nat ∧
    elmap m3 = (range (S k) ≫= λ k, (λ x, x + Z.of_nat (k * nel m)) <$> elmap m) ∧
    time m3 = time m ∧ istep m3 = istep m ∧ wdsz m3 = wdsz m ∧ endian m3 = endian m) as H.
  2: { destruct (H (n - 1)%nat) as (m3 & E & _ & _ & _ & Em & R); [lia|]. exists m3. split; [done|]. split; [|done].
       by replace (S (n - 1)) with n in Em by lia. }
  induction k as [|k IH]; intros Hk.
  - exists m. split; [done|]. split_and!; try done; [lia|]. cbn. rewrite app_nil_r. symmetry. rewrite <- (list_fmap_id (elmap m)) at 2.
    apply list_fmap_ext. intros _ x _. cbn. lia.
  - destruct IH as (m3 & E & D & L & Nn & Em & R1 & R2 & R3 & R4); [lia|].
    unfold range at 1. rewrite seq_S, foldM_app. change (seq 0 k) with (range k). rewrite E. cbn [rbind foldM].
    unfold merge. rewrite D, Nat.eqb_refl. cbn [negb]. rewrite L. destruct (lr1 m) as [|l1 ls] eqn:El; [done|]. rewrite Nat.eqb_refl. cbn [negb].
    unfold merge_append. rewrite Nn.
    destruct (offset_connectivity_spec bnd _ 0 m LA Hw (Hr (S k) ltac:(lia))) as (add & -> & _). cbn [rbind]. rewrite orb_true_r. cbn [rbind].
    eexists. split; [reflexivity|]. cbn [ndim lr1 nel elmap time istep wdsz endian set_elems set_elmap set_ncurv set_nel].
    split_and!; try done; [cbn; lia|]. rewrite Em.
    change (range (S (S k))) with (seq 0 (S (S k))). rewrite (seq_S (S k)), bind_app. cbn [Nat.add mbind list_bind]. by rewrite app_nil_r.
Qed.

(** ** The ends *)
Definition mend (n q : nat) (c1 c2 : string) (k i j g : nat) r : bcrec N :=
  if decide (g = 4 ∧ k = 0 ∧ (j = 0 ∨ j = 1))%nat then
    if String.eqb c1 "P" then set_end (u3 c1) (sixth n k i j) 5 (Z.of_nat (sixth n (q - 1) i (5 - j)) + 1) 6 r
    else set_end (u3 c1) (sixth n k i j) 5 0 0 r
  else if decide (g = 5 ∧ k = q - 1 ∧ (j = 5 ∨ j = 4))%nat then
    if String.eqb c2 "P" then set_end (u3 c2) (sixth n k i j) 6 (Z.of_nat (sixth n 0 i (5 - j)) + 1) 5 r
    else set_end (u3 c2) (sixth n k i j) 6 0 0 r
  else r.
Definition mend_step (n q : nat) (c1 c2 : nat → string) m (x : nat * nat) : hexa N :=
  let '(ii, b) := x in
  let first j := mend n q (c1 b) (c2 b) 0 ii j 4 in let last j := mend n q (c1 b) (c2 b) (q - 1) ii j 5 in
  alter_bc (last 4%nat) (sixth n (q - 1) ii 4) b 5 (alter_bc (last 5%nat) (sixth n (q - 1) ii 5) b 5
    (alter_bc (first 1%nat) (sixth n 0 ii 1) b 4 (alter_bc (first 0%nat) (sixth n 0 ii 0) b 4 m))).
Lemma alter_bc_ext (g g' : bcrec N → bcrec N) i b f m : (∀ r, g r = g' r) → alter_bc g i b f m = alter_bc g' i b f m.
Proof.
  intros H. unfold alter_bc, set_elems. f_equal. apply list_alter_ext; [|done]. intros e He. unfold alter_ebc, set_bcs. f_equal.
  unfold alter_bcs. apply list_alter_ext; [|done]. intros row Hrow. by apply list_alter_ext.
Qed.
Lemma mid_end_eq n q bc1 bc2 c1 c2 m ii b : (1 ≤ q)%nat → (ii < n)%nat → bc1 !! b = Some (c1 b) → bc2 !! b = Some (c2 b) →
  mid_end n (n * 6 * q) bc1 bc2 m (ii, b) = Ok (mend_step n q c1 c2 m (ii, b)).
Proof.
  intros Hq Hii H1 H2. unfold mid_end, mend_step. rewrite H1, H2. cbv zeta. f_equal.
  assert (6 * ii + n * 6 * q - 6 * n + 5 = sixth n (q - 1) ii 5)%nat as E5.
  { unfold sixth. destruct q as [|q]; [lia|]. replace (S q - 1)%nat with q by lia. nia. }
  rewrite !E5. assert (sixth n (q - 1) ii 5 - 1 = sixth n (q - 1) ii 4)%nat as -> by (unfold sixth; generalize (ii + n * (q - 1))%nat; lia).
  assert (6 * ii = sixth n 0 ii 0)%nat as -> by (unfold sixth; rewrite ?Nat.mul_0_r; lia).
  assert (sixth n 0 ii 0 + 1 = sixth n 0 ii 1)%nat as -> by (unfold sixth; rewrite ?Nat.mul_0_r; lia).
  assert (∀ j, (j = 0 ∨ j = 1)%nat → ∀ r, mend n q (c1 b) (c2 b) 0 ii j 4 r =
    (if String.eqb (c1 b) "P" then set_end (u3 (c1 b)) (sixth n 0 ii j) 5 (Z.of_nat (sixth n (q - 1) ii (5 - j)) + 1) 6
     else set_end (u3 (c1 b)) (sixth n 0 ii j) 5 0 0) r) as M1.
  { intros j Hj r. unfold mend. rewrite decide_True by done. by destruct (String.eqb _ _). }
  assert (∀ j, (j = 5 ∨ j = 4)%nat → ∀ r, mend n q (c1 b) (c2 b) (q - 1) ii j 5 r =
    (if String.eqb (c2 b) "P" then set_end (u3 (c2 b)) (sixth n (q - 1) ii j) 6 (Z.of_nat (sixth n 0 ii (5 - j)) + 1) 5
     else set_end (u3 (c2 b)) (sixth n (q - 1) ii j) 6 0 0) r) as M2.
  { intros j Hj r. unfold mend. rewrite decide_False by lia. rewrite (decide_True (P := 5%nat = 5%nat ∧ _)) by auto. by destruct (String.eqb (c2 b) "P"). }
  rewrite (alter_bc_ext (mend n q (c1 b) (c2 b) (q - 1) ii 4 5) _ _ _ _ _ (M2 4%nat ltac:(lia))).
  rewrite (alter_bc_ext (mend n q (c1 b) (c2 b) (q - 1) ii 5 5) _ _ _ _ _ (M2 5%nat ltac:(lia))).
  rewrite (alter_bc_ext (mend n q (c1 b) (c2 b) 0 ii 1 4) _ _ _ _ _ (M1 1%nat ltac:(lia))).
  rewrite (alter_bc_ext (mend n q (c1 b) (c2 b) 0 ii 0 4) _ _ _ _ _ (M1 0%nat ltac:(lia))). reflexivity.
Qed.
Lemma mid_ends_eq n q bc1 bc2 c1 c2 nb m : (1 ≤ q)%nat → (∀ b, (b < nb)%nat → bc1 !! b = Some (c1 b) ∧ bc2 !! b = Some (c2 b)) →
  foldM (mid_end n (n * 6 * q) bc1 bc2) m (prod2 (range n) (range nb)) = Ok (foldl (mend_step n q c1 c2) m (prod2 (range n) (range nb))).
Proof.
  intros Hq Hb. assert (∀ x, x ∈ prod2 (range n) (range nb) → (fst x < n ∧ snd x < nb)%nat) as Hx.
  { intros [i b] Hx. apply elem_of_prod2 in Hx. by rewrite !elem_of_range in Hx. }
  revert m Hx. generalize (prod2 (range n) (range nb)). induction l as [|[i b] l IH]; intros m Hx; [done|]. cbn [foldM foldl].
  destruct (Hx (i, b)) as [Hi Hbb]; [by left|]. cbn in Hi, Hbb. destruct (Hb b Hbb).
  rewrite (mid_end_eq n q bc1 bc2 c1 c2) by done. cbn [rbind]. apply IH. intros; apply Hx; by right.
Qed.
Lemma mend_step_get n q c1 c2 m i b k0 i0 j0 b0 g0 : (i < n)%nat → (i0 < n)%nat → (j0 < 6)%nat → (1 ≤ q)%nat →
  get_bc (mend_step n q c1 c2 m (i, b)) (sixth n k0 i0 j0) b0 g0 =
  if decide ((i, b) = (i0, b0)) then mend n q (c1 b0) (c2 b0) k0 i0 j0 g0 <$> get_bc m (sixth n k0 i0 j0) b0 g0
  else get_bc m (sixth n k0 i0 j0) b0 g0.
Proof.
  intros Hi Hi0 Hj Hq. unfold mend_step. rewrite !get_bc_alter.
  assert (∀ k j g, (j < 6)%nat → (sixth n k0 i0 j0, b0, g0) = (sixth n k i j, b, g) ↔ (i, b) = (i0, b0) ∧ k0 = k ∧ j0 = j ∧ g0 = g) as Hk.
  { intros k j g Hj'. split; [|by intros ([= -> ->] & -> & -> & ->)]. intros E. assert (b0 = b ∧ g0 = g) as [-> ->] by (split; congruence).
    assert (sixth n k0 i0 j0 = sixth n k i j) as E' by congruence.
    apply sixth_inj in E' as (-> & -> & ->); done. }
  assert (∀ k j g (X : Type) (x y : X), (j < 6)%nat → (if decide ((sixth n k0 i0 j0, b0, g0) = (sixth n k i j, b, g)) then x else y) =
    if decide ((i, b) = (i0, b0) ∧ k0 = k ∧ j0 = j ∧ g0 = g) then x else y) as Hd.
  { intros k j g X x y Hj'. destruct (decide ((sixth n k0 i0 j0, b0, g0) = _)) as [E|E], (decide (_ ∧ _)) as [E'|E']; try done; exfalso; [apply E'|apply E]; by apply (Hk k j g Hj'). }
  rewrite !Hd by lia. clear Hk Hd. destruct (decide ((i, b) = (i0, b0))) as [[= -> ->]|Hne].
  - set (v := get_bc m _ _ _). clearbody v.
    destruct (decide (g0 = 4 ∧ k0 = 0 ∧ (j0 = 0 ∨ j0 = 1))%nat) as [(-> & -> & Hj0)|H4].
    + rewrite (decide_False (P := _ ∧ _ ∧ j0 = 4%nat ∧ _)) by (intros (_ & _ & _ & ?); lia).
      rewrite (decide_False (P := _ ∧ _ ∧ j0 = 5%nat ∧ _)) by (intros (_ & _ & _ & ?); lia).
      destruct Hj0 as [-> | ->].
      * rewrite decide_False by (intros (_ & _ & ? & _); lia). by rewrite decide_True by done.
      * rewrite decide_True by done. by rewrite decide_False by (intros (_ & _ & ? & _); lia).
    + rewrite (decide_False (P := _ ∧ _ ∧ j0 = 1%nat ∧ _)) by (intros (_ & -> & -> & ->); apply H4; lia).
      rewrite (decide_False (P := _ ∧ _ ∧ j0 = 0%nat ∧ _)) by (intros (_ & -> & -> & ->); apply H4; lia).
      destruct (decide (g0 = 5 ∧ k0 = q - 1 ∧ (j0 = 5 ∨ j0 = 4))%nat) as [(-> & -> & Hj0)|H5].
      * destruct Hj0 as [-> | ->].
        -- rewrite decide_False by (intros (_ & _ & ? & _); lia). by rewrite decide_True by done.
        -- rewrite decide_True by done. by rewrite decide_False by (intros (_ & _ & ? & _); lia).
      * rewrite !decide_False by (intros (_ & -> & -> & ->); apply H5; lia). apply fmap_id_opt.
        intros r. unfold mend. by rewrite !decide_False.
  - rewrite !decide_False by tauto. done.
Qed.
Lemma mend_all n q c1 c2 m nb k0 i0 j0 b0 g0 : (i0 < n)%nat → (j0 < 6)%nat → (1 ≤ q)%nat → (b0 < nb)%nat →
  get_bc (foldl (mend_step n q c1 c2) m (prod2 (range n) (range nb))) (sixth n k0 i0 j0) b0 g0 =
  mend n q (c1 b0) (c2 b0) k0 i0 j0 g0 <$> get_bc m (sixth n k0 i0 j0) b0 g0.
Proof.
  intros Hi Hj Hq Hb.
  apply (foldl_view_in (mend_step n q c1 c2) (λ m, get_bc m (sixth n k0 i0 j0) b0 g0)
    (fmap (mend n q (c1 b0) (c2 b0) k0 i0 j0 g0)) (λ _, True) _ m (i0, b0)); try done.
  - apply NoDup_prod2; apply NoDup_range.
  - apply elem_of_prod2. by rewrite !elem_of_range.
  - intros m' [i b] _ Hin Hne. apply elem_of_prod2 in Hin as [Hin _]. apply elem_of_range in Hin.
    rewrite mend_step_get by done. by rewrite decide_False.
  - intros m' _. rewrite mend_step_get by done. by rewrite decide_True.
Qed.
Lemma mend_strip n q c1 c2 m l : strip (foldl (mend_step n q c1 c2) m l) = strip m ∧ bshape (foldl (mend_step n q c1 c2) m l) = bshape m.
Proof.
  apply (foldl_inv _ (λ m', strip m' = strip m ∧ bshape m' = bshape m)); [done|]. intros m' [i b] _ [S B]. unfold mend_step.
  by rewrite !strip_alter, !bshape_alter.
Qed.
End mesh.
