(** Proofs about merge: it returns whenever all connected entries of both meshes name faces of their mesh. *)
From Verif Require Import Base Mesh Core Tools MeshLemmas MeshSpec CheckProofs OpsProofs GeoLaws MergeSpec MergeProofs.
From Coq Require Import Lia.

Section Loop.
Context {A : arith}.
Notation N := (num A).
Implicit Types (r : bcrec N) (x y z w : nat * nat) (M : hexa N).
Context (m0 : hexa N) (n1 : nat) (tol : N) (ie : bool) (bnd : Z).
Hypothesis LA : arith_laws A bnd.
Hypothesis Hw : wf_mesh m0.
Hypothesis Hn1 : (n1 ≤ nel m0)%nat.
Hypothesis Hbn : Z.of_nat (nel m0) <= bnd.
Hypothesis H6 : 6 <= bnd.
Hypothesis Hnb : (0 < nbc m0)%nat.

Definition tinv M : Prop := strip M = strip m0 ∧ bshape M = bshape m0 ∧ conn_refs M.
Definition isconn M z : Prop := ∃ r, get_bc M z.1 0 z.2 = Some r ∧ is_conn (bt r).

Lemma tinv_in M i b f : tinv M → in_mesh M i b f ↔ in_mesh m0 i b f.
Proof. intros (S & _). destruct (strip_fields _ _ S) as (F1 & F2 & _ & F4 & _). unfold in_mesh. by rewrite F1, F2, F4. Qed.
Lemma alter_tinv t j g i b f M z : is_conn t → in_mesh m0 j b g → tinv M →
  tinv (alter_bc (link t (Z.of_nat j + 1) (Z.of_nat g + 1)) i b f M) ∧
  (isconn M z → isconn (alter_bc (link t (Z.of_nat j + 1) (Z.of_nat g + 1)) i b f M) z).
Proof.
  intros Ht Hj HI. pose proof HI as (S & B & C). split; [split_and!|].
  - by rewrite strip_alter.
  - by rewrite bshape_alter.
  - intros i' b' f' r Hi Hr Hc. rewrite get_bc_alter in Hr.
    assert (in_mesh M i' b' f') as Hi'.
    { revert Hi. destruct (strip_fields _ _ (strip_alter (link t (Z.of_nat j + 1) (Z.of_nat g + 1)) i b f M)) as (F1 & F2 & _ & F4 & _).
      unfold in_mesh. by rewrite F1, F2, F4. }
    assert (∀ i b f, in_mesh m0 i b f → in_mesh (alter_bc (link t (Z.of_nat j + 1) (Z.of_nat g + 1)) i b f M) i b f) as Hin.
    { intros i2 b2 f2 H. apply (tinv_in M) in H; [|done].
      destruct (strip_fields _ _ (strip_alter (link t (Z.of_nat j + 1) (Z.of_nat g + 1)) i2 b2 f2 M)) as (F1 & F2 & _ & F4 & _).
      unfold in_mesh. by rewrite F1, F2, F4. }
    assert (∀ j b' g, in_mesh M j b' g → in_mesh (alter_bc (link t (Z.of_nat j + 1) (Z.of_nat g + 1)) i b f M) j b' g) as Hin'.
    { intros i2 b2 f2 H.
      destruct (strip_fields _ _ (strip_alter (link t (Z.of_nat i2 + 1) (Z.of_nat f2 + 1)) i b f M)) as (F1 & F2 & _ & F4 & _).
      unfold in_mesh. by rewrite F1, F2, F4. }
    destruct (strip_fields _ _ (strip_alter (link t (Z.of_nat j + 1) (Z.of_nat g + 1)) i b f M)) as (F1 & F2 & _ & F4 & _).
    case_decide as Hd.
    + destruct (get_bc M i' b' f') as [q|]; [|done]. apply (inj Some) in Hr. subst r.
      exists j, g. split; [|done]. destruct Hd as (<- & <- & <-) || (simplify_eq).
      apply (tinv_in M) in Hj; [|done]. unfold in_mesh in *. by rewrite F1, F2, F4.
    + destruct (C i' b' f' r Hi' Hr Hc) as (j' & g' & Hj' & Hp). exists j', g'. split; [|done].
      unfold in_mesh in *. by rewrite F1, F2, F4.
  - intros (r & Hr & Hc). unfold isconn. rewrite get_bc_alter, Hr. case_decide; [|by exists r].
    cbn. eexists. split; [reflexivity|]. done.
Qed.
Lemma two_tinv t j g j' g' i f i' f' M z : is_conn t →
  (j < nel m0 ∧ g < 2 * ndim m0)%nat → (j' < nel m0 ∧ g' < 2 * ndim m0)%nat → tinv M →
  let M' := foldl (λ m b, alter_bc (link t (Z.of_nat j + 1) (Z.of_nat g + 1)) i' b f'
      (alter_bc (link t (Z.of_nat j' + 1) (Z.of_nat g' + 1)) i b f m)) M (range (nbc m0)) in
  tinv M' ∧ (isconn M z → isconn M' z).
Proof.
  intros Ht Hj Hj' HI M'.
  apply (foldl_inv _ (λ M1, tinv M1 ∧ (isconn M z → isconn M1 z))); [done|].
  intros M1 b Hb [H1 H2]. apply elem_of_range in Hb.
  destruct (alter_tinv t j' g' i b f M1 z Ht) as [A1 A2]; [unfold in_mesh; lia|done|].
  destruct (alter_tinv t j g i' b f' _ z Ht (conj (proj1 Hj) (conj Hb (proj2 Hj))) A1) as [B1 B2]. tauto.
Qed.

Lemma relink_ok M x y r0 r1 z : tinv M → inm m0 x → inm m0 y → get_bc M x.1 0 x.2 = Some r0 → get_bc M y.1 0 y.2 = Some r1 →
  is_conn (bt r0) → is_conn (bt r1) → ∃ M', relink_periodic (nbc m0) r0 r1 M = Ok M' ∧ tinv M' ∧ (isconn M z → isconn M' z).
Proof.
  intros HI [Ix Fx] [Iy Fy] Hr0 Hr1 C0 C1. pose proof HI as (S & B & C).
  destruct (C x.1 0%nat x.2 r0) as (j0 & g0 & J0 & P0a & P0b); [by apply tinv_in|done|done|].
  destruct (C y.1 0%nat y.2 r1) as (j1 & g1 & J1 & P1a & P1b); [by apply tinv_in|done|done|].
  apply tinv_in in J0, J1; [|done..]. destruct J0 as (J0 & _ & G0), J1 as (J1 & _ & G1).
  unfold relink_periodic. rewrite P0a, P0b, P1a, P1b.
  assert (2 * ndim m0 ≤ 6)%nat as Hnd by (destruct (proj1 (proj1 Hw)); lia).
  rewrite !(law_trunc A bnd LA) by lia. cbn [rbind].
  pose proof (strip_fields _ _ S) as (_ & _ & _ & _ & _ & _ & _ & _ & Flen). destruct Hw as [(_ & Hlen & _) _].
  rewrite !(py_pos_nat m0 n1 Hn1 Hnb) by lia. eexists. split; [reflexivity|].
  apply two_tinv; [by right|done|done|done].
Qed.

Lemma inner_total x bc0 s : inm m0 x → tinv s.1 → (bc0 = "P"%string → isconn s.1 x) →
  ∃ s', loopS (merge_inner tol ie (nbc m0) bc0 x.1 x.2) s (prod2 (range n1) (range (2 * ndim m0))) = (s', Ok tt) ∧ tinv s'.1.
Proof.
  intros Ix HI Hb.
  destruct (loopS_ok (merge_inner tol ie (nbc m0) bc0 x.1 x.2) (λ _ s, tinv s.1 ∧ (bc0 = "P"%string → isconn s.1 x)) s
    (prod2 (range n1) (range (2 * ndim m0)))) as (s' & E & H & _); [done| |by exists s'].
  intros dn y rest [M n] El [HM Hp]. cbn [fst] in *.
  assert (y ∈ prod2 (range n1) (range (2 * ndim m0))) as Hy. { rewrite El. apply elem_of_app. right. left. }
  destruct y as [y1 y2]. apply elem_of_prod2 in Hy. rewrite !elem_of_range in Hy. destruct Hy as [Y1 Y2].
  assert (inm m0 (y1, y2)) as Iy by (unfold inm; cbn; lia).
  pose proof HM as (S & B & C).
  assert (wf_mesh M) as Hwm by (by apply (wf_mesh_shape m0)).
  pose proof (strip_fields _ _ S) as (F1 & F2 & _ & F4 & _ & _ & _ & _ & Flen).
  destruct Hw as [(Hd & Hlen & _) _]. assert (2 * ndim m0 ≤ 6)%nat as Hnd by (destruct Hd; lia).
  destruct Ix as [Ix1 Ix2].
  destruct (wf_get_bc M x.1 0 x.2) as [r0 Hr0]; [apply Hwm|lia..|].
  destruct (wf_get_bc M y1 0 y2) as [r1 Hr1]; [apply Hwm|lia..|].
  destruct (lookup_lt_is_Some_2 (elems M) x.1) as [e0 He0]; [lia|].
  destruct (lookup_lt_is_Some_2 (elems M) y1) as [e1 He1]; [lia|].
  unfold merge_inner. rewrite He0, He1, Hr0, Hr1. destruct (eligible ie (bt r1)); [|by eexists].
  destruct (faces_close_Ok M n1 tol Hwm ltac:(lia) ltac:(lia) e0 e1 x.2 y2) as [c Ec];
    [by eapply elem_of_list_lookup_2|by eapply elem_of_list_lookup_2|lia|lia|].
  rewrite Ec. destruct c; [|by eexists].
  assert (∃ M1, (if String.eqb bc0 "P" && String.eqb (bt r1) "P" then relink_periodic (nbc m0) r0 r1 M else Ok M) = Ok M1 ∧
    tinv M1 ∧ (isconn M x → isconn M1 x)) as (M1 & -> & T1 & P1).
  { destruct (String.eqb_spec bc0 "P") as [Eb|]; [|by exists M]. destruct (String.eqb_spec (bt r1) "P") as [E1|]; [|by exists M].
    cbn [andb]. destruct (Hp Eb) as (q & Hq & Cq). rewrite Hr0 in Hq. apply (inj Some) in Hq as <-.
    apply (relink_ok M x (y1, y2) r0 r1); try done; by right. }
  eexists. split; [reflexivity|]. cbn [fst].
  destruct (two_tinv "E" x.1 x.2 y1 y2 x.1 x.2 y1 y2 M1 x) as [T2 P2]; [by left|done|done|done|].
  split; [exact T2|]. intros Eb. apply P2, P1, Hp, Eb.
Qed.

Lemma outer_total M0 k : tinv M0 → ∃ M n, loopS (merge_outer tol ie (nbc m0) n1 (2 * ndim m0)) (M0, k)
    (prod2 (range2 n1 (nel m0)) (range (2 * ndim m0))) = ((M, n), Ok tt) ∧ tinv M.
Proof.
  intros H0. destruct (loopS_ok (merge_outer tol ie (nbc m0) n1 (2 * ndim m0)) (λ _ s, tinv s.1) (M0, k)
    (prod2 (range2 n1 (nel m0)) (range (2 * ndim m0)))) as ([M n] & E & H); [done| |by exists M, n].
  intros dn x rest [M n] El HM. cbn [fst] in *.
  assert ((x : nat * nat) ∈ prod2 (range2 n1 (nel m0)) (range (2 * ndim m0))) as Hx. { rewrite El. apply elem_of_app. right. left. }
  destruct x as [x1 x2]. apply elem_of_prod2 in Hx. rewrite elem_of_range in Hx. unfold range2 in Hx. rewrite elem_of_seq in Hx.
  assert (inm m0 (x1, x2)) as Ix by (unfold inm; cbn; lia).
  pose proof HM as (S & B & C). assert (wf_mesh M) as Hwm by (by apply (wf_mesh_shape m0)).
  pose proof (strip_fields _ _ S) as (F1 & F2 & _ & F4 & _).
  assert (2 * ndim m0 ≤ 6)%nat as Hnd by (destruct (proj1 (proj1 Hw)); lia).
  destruct (wf_get_bc M x1 0 x2) as [r0 Hr0]; [apply Hwm|lia..|].
  unfold merge_outer. cbn [fst]. rewrite Hr0. destruct (eligible ie (bt r0)); [|by eexists].
  destruct (inner_total (x1, x2) (bt r0) (M, n)) as (s' & E & HI); [done|done| |by exists s'].
  intros Eb. exists r0. split; [done|by right].
Qed.
End Loop.

Section Final.
Context {A : arith}.
Notation N := (num A).
Implicit Types (r : bcrec N) (x y z w : nat * nat).

Lemma conn_refs_within (bnd k : Z) (m : hexa N) : conn_refs m → 0 <= k → Z.of_nat (nel m) + k <= bnd → refs_within bnd k 0 m.
Proof.
  intros C Hk Hb. split; [lia|]. intros i b f r Hi Hr Hc. destruct (C i b f r Hi Hr Hc) as (j & g & (Hj & _) & P & _).
  exists (Z.of_nat j + 1). split; [done|]. split; lia.
Qed.
Lemma paired_conn_refs (m : hexa N) : paired m → conn_refs m.
Proof. intros P i b f r Hi Hr Hc. destruct (P i b f r Hi Hr Hc) as (j & g & _ & Hj & Hp & _). eauto. Qed.

Lemma merge_total (bnd : Z) (self other : hexa N) tol ie ia :
  arith_laws A bnd → wf_mesh self → wf_mesh other → ndim self = ndim other → nbc self = nbc other →
  head (lr1 self) = head (lr1 other) → is_Some (head (lr1 self)) → Z.of_nat (nel self + nel other) <= bnd → 6 <= bnd →
  conn_refs self → conn_refs other →
  ∃ m' n, merge tol ie ia self other = (m', Ok n) ∧ is_append self other m' ∧ wf_mesh m' ∧ conn_refs m'.
Proof.
  intros LA Ws Wo Hd Hb Hl Hs Hbn H6 Cs Co.
  assert (refs_within bnd (Z.of_nat (nel self)) 0 other) as Hr by (apply conn_refs_within; [done|lia|lia]).
  destruct (merge_append_spec bnd self other LA (proj1 Wo) Hr) as (add & E & S & B & Ea).
  set (m0 := appended _ _ _ _ _) in E.
  pose proof (m0_fields self other add m0 eq_refl) as (F1 & F2 & F3 & F4).
  pose proof (m0_wf self other add m0 bnd Ws Wo Hd Hb Hbn S B eq_refl) as W0.
  assert (conn_refs m0) as C0.
  { intros i b f r Hi Hr' Hc. pose proof Hi as (Hi1 & Hi2 & Hi3).
    destruct (decide (i < nel self)%nat) as [Hlt|Hge].
    - rewrite (get_self self other add m0 bnd Ws Hd Hb Hbn eq_refl i b f Hlt) in Hr'.
      destruct (Cs i b f r) as (j & g & Hj & P); [unfold in_mesh in *; rewrite F1, F3 in *; lia|done|done|].
      exists j, g. split; [|done]. unfold in_mesh in *. rewrite F1, F2, F3 in *. lia.
    - replace i with (nel self + (i - nel self))%nat in Hr' by lia.
      rewrite (get_other self other add m0 Ws eq_refl) in Hr'. set (i' := (i - nel self)%nat) in *.
      assert (in_mesh other i' b f) as Hi' by (unfold in_mesh in *; rewrite F1, F2, F3 in *; lia).
      destruct (wf_get_bc other i' b f) as [q Hq]; [apply Wo|unfold in_mesh in Hi'; destruct (proj1 (proj1 Wo)); lia..|].
      destruct (Ea i' b f q Hq) as (q' & Hq' & (O1 & O2 & O3 & O4 & O5 & O6 & O7 & O8 & _)). rewrite Hr' in Hq'. apply (inj Some) in Hq' as <-.
      rewrite O1 in Hc. destruct (Co i' b f q Hi' Hq Hc) as (j & g & Hj & P3 & P4). exists (nel self + j)%nat, g. split.
      + unfold in_mesh in *. rewrite F1, F2, F3 in *. lia.
      + pose proof (proj1 Hj) as Hj1. split; [|by rewrite O3]. rewrite (O7 (conj Hi' Hc) (Z.of_nat j + 1)); [|lia|done].
        rewrite bool_decide_true by lia. f_equal. lia. }
  assert (∀ m', strip m' = strip m0 → bshape m' = bshape m0 → conn_refs m' → is_append self other m' ∧ wf_mesh m' ∧ conn_refs m') as Hfin.
  { intros m' S' B' C'. split; [|split; [|done]].
    - eapply (is_append_of self other add m0); try done.
    - by apply (wf_mesh_shape m0). }
  unfold merge. rewrite (proj2 (Nat.eqb_eq _ _) Hd). cbn [negb]. destruct Hs as [l0 Hl0].
  destruct (lr1 self) as [|a ?]; [done|]. destruct (lr1 other) as [|a' ?]; [done|].
  cbn in Hl. injection Hl as <-. rewrite Nat.eqb_refl. cbn [negb]. rewrite E.
  destruct (_ || _) eqn:En.
  { exists m0, 0. split; [done|]. by apply Hfin. }
  apply orb_false_iff in En as [En _]. apply Nat.eqb_neq in En. assert (Nat.min (nbc self) (nbc other) = nbc m0) as Emin by (rewrite F3; lia).
  rewrite Emin in En |- *.
  destruct (outer_total m0 (nel self) tol ie bnd LA W0) with (M0 := m0) (k := 0) as (M & n & -> & T1 & T2 & T3);
    [rewrite F2; lia|rewrite F2; lia|done|lia|done|].
  exists M, n. split; [done|]. by apply Hfin.
Qed.
End Final.
