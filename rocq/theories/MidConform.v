(** Proofs about [extrude_mid]: connected faces have the same vertices. *)
From Coq Require Import Lia.
From Verif Require Import Base Mesh Core Tools Curve Mid MeshLemmas MeshSpec CheckProofs OpsProofs GeoLaws BoxProofs
  ExtrudeSpec ExtrudeProofs MidSpec MidProofs MidBlock MidMesh MidResult MidGeo MidFaces MidEntry.
Open Scope Z_scope.

Section conform.
Context {A : arith}.
Notation N := (num A).
Notation vec := (vec (A:=A)).
Implicit Types (e : elem N) (r : bcrec N).

Lemma points_inj bnd r j g j' g' : arith_laws A bnd → Z.of_nat j + 1 <= bnd → Z.of_nat j' + 1 <= bnd → (g < 6)%nat → (g' < 6)%nat → 6 <= bnd →
  points r j g → points r j' g' → j = j' ∧ g = g'.
Proof.
  intros LA Hj Hj' Hg Hg' H6 [P1 P2] [Q1 Q2]. rewrite P1 in Q1. rewrite P2 in Q2.
  apply (f_equal ntrunc) in Q1, Q2. rewrite !(law_trunc A bnd LA) in Q1, Q2 by lia. injection Q1 as Q1. injection Q2 as Q2. lia.
Qed.
Lemma side_faces (x : elem N) g v : (g < 4)%nat → (∀ l j i, (l < 2)%nat → (j < 2)%nat → (i < 2)%nat → point x l j i = Some (v l (j, i))) →
  face_points x g = Some <$> [v 0 (fst (side_ends g)); v 1 (fst (side_ends g)); v 0 (snd (side_ends g)); v 1 (snd (side_ends g))]%nat.
Proof.
  intros Hg Hv. unfold face_points, face_vertices. destruct g as [|[|[|[|]]]]; [| | | |lia]; cbn -[point]; by rewrite !Hv by lia.
Qed.

Section mesh.
Context (f : N → N → N) (z : list N) (q : nat) (c1 c2 : nat → string) (m m3 : hexa N).
Hypothesis Hw : wf_mesh m.
Hypothesis Hlin : linear2d m.
Hypothesis Hcut : ∀ e, e ∈ elems m → cut_across f e.
Hypothesis Hres : mid_result f true z q c1 c2 m m3.
Hypothesis Hq : (1 ≤ q)%nat.
Hypothesis Hcond : ∀ b, (b < nbc m)%nat → end_condition (c1 b) ∧ end_condition (c2 b) ∧ (c1 b = "P"%string ↔ c2 b = "P"%string).

Lemma new_elem i e : elems m !! i = Some e → ∃ lo hi m0 m1 a0 a1, orient f e = Some (lo, hi) ∧ (lo, hi) ∈ cuts ∧ sides_of f e = mid_sides lo hi ∧
  edge_mid e (s_l0 (mid_sides lo hi)) = Ok (m0, a0) ∧ edge_mid e (s_l1 (mid_sides lo hi)) = Ok (m1, a1) ∧
  ∀ k j, (k < q)%nat → (j < 6)%nat → ∃ y, elems m3 !! sixth (nel m) k i j = Some y ∧ eshape y = (2, 2, 2)%nat ∧
    ∀ l j' i', (l < 2)%nat → (j' < 2)%nat → (i' < 2)%nat → point y l j' i' = Some (vtx e lo hi m0 m1 (zk z k) j l (j', i')).
Proof using Hcut Hres Hq.
  intros He. assert (cut_across f e) as Hc by (apply Hcut; by eapply elem_of_list_lookup_2).
  destruct Hres as (_ & _ & _ & _ & _ & _ & _ & _ & Hel).
  destruct (Hel 0%nat i e ltac:(lia) He) as (l0 & (lo & hi & m0 & m1 & a0 & a1 & Ho & E0 & E1 & _) & _).
  destruct (cut_sides f e lo hi Hc Ho) as (Hin & _).
  exists lo, hi, m0, m1, a0, a1. split; [done|]. split; [done|]. split; [unfold sides_of; by rewrite Ho|]. split; [done|]. split; [done|].
  intros k j Hk Hj. destruct (Hel k i e Hk He) as (l & (lo' & hi' & m0' & m1' & a0' & a1' & Ho' & E0' & E1' & F & _) & Hl).
  rewrite Ho in Ho'. injection Ho' as <- <-. rewrite E0 in E0'. injection E0' as <- <-. rewrite E1 in E1'. injection E1' as <- <-.
  destruct (Hl j Hj) as (x & y & Hx & Hy & Exy & _ & _). exists y. split; [done|].
  destruct (Forall2_lookup_r _ _ _ _ _ F Hx) as (x0 & Hx0 & S1 & S2 & _).
  assert (eshape y = eshape x ∧ pos y = pos x) as [Y1 Y2].
  { split; [exact (f_equal eshape Exy)|exact (f_equal pos Exy)]. }
  assert (eshape x0 = (2, 2, 2)%nat) as Hs0.
  { unfold six_of, mid_six in Hx0. rewrite list_lookup_fmap in Hx0. apply fmap_Some in Hx0 as (? & _ & ->). done. }
  split; [congruence|]. intros l' j' i' ? ? ?. rewrite <- (six_point e lo hi m0 m1 (zk z k) j x0 l' j' i') by done.
  unfold point. by rewrite Y1, Y2, S1, S2.
Qed.

Lemma new_conforming bnd : arith_laws A bnd → mul_law (A:=A) bnd → paired m → free_sides f m → shared_sides m →
  (∀ e, e ∈ elems m → four_points e) →
  Z.of_nat (6 * nel m * q) <= bnd → conforming m3.
Proof using Hw Hlin Hcut Hres Hq Hcond.
  intros LA LM Hp Hfree Hsh H4 Hbnd p b g r' p' g' y y' (Hpp & Hb & Hg) Hr' HE P (Hpp' & _ & Hg') Hy Hy'.
  pose proof Hres as (R1 & R2 & _ & _ & R5 & _). rewrite R2 in Hpp, Hpp'. rewrite R5 in Hb. rewrite R1 in Hg, Hg'.
  assert (6 <= bnd) as H6 by (destruct (nel m); [lia|]; destruct q; lia).
  assert (∀ r j g j' g', (j < 6 * nel m * q)%nat → (j' < 6 * nel m * q)%nat → (g < 6)%nat → (g' < 6)%nat → points r j g → points r j' g' → j = j' ∧ g = g') as Hinj.
  { intros. eapply (points_inj bnd); try done; lia. }
  destruct (sixth_div (nel m) q p Hpp) as (k & i & j & (Hk & Hi & Hj) & ->).
  pose proof Hw as [(_ & Hlen & _) _]. destruct (lookup_lt_is_Some_2 (elems m) i) as [e He]; [lia|].
  assert (g < 6)%nat as Hg6 by lia. assert (g' < 6)%nat as Hg6' by lia. pose proof Hlin as (L1 & _).
  destruct (new_elem i e He) as (lo & hi & m0 & m1 & a0 & a1 & Ho & Hin & Es & E0 & E1 & Hel).
  destruct (Hel k j Hk Hj) as (y0 & Hy0 & Sy & Py). rewrite Hy in Hy0. apply (inj Some) in Hy0 as <-.
  destruct (sides_spec f m Hcut i e He) as (lo' & hi' & Ho' & _ & _ & Hsc & Hlo & Hhi & B1 & B2).
  rewrite Ho in Ho'. injection Ho' as <- <-.
  assert (Forall is_Some (face_points y g)) as Hsome.
  { apply Forall_forall. intros o Hox. unfold face_points in Hox. apply elem_of_list_fmap in Hox as ([[l' j'] i'] & -> & Hx).
    apply face_vertices_lt in Hx as (? & ? & ?). rewrite Py by done. eauto. }
  split; [|done].
  destruct (get_new f z q c1 c2 m m3 Hw Hcut Hres k i e j b g Hk He Hj Hb Hg6) as (r & r0 & Hr & Hr0 & HEn). rewrite Hr' in Hr0. apply (inj Some) in Hr0 as <-.
  destruct (Hcond b Hb) as ((U1 & N1) & (U2 & N2) & HPP).
  destruct HEn as [(d & j' & g'' & Et & Hd & T & P')|[(-> & -> & Hj' & T & _)|[(-> & -> & Hj' & T & _)|[(Hl & ->)|(Hl & _ & ->)]]]].
  - rewrite Es in Et. destruct (touching_sym lo hi j g d j' g'' Hin Hj Hg6 Et) as (D & J' & G' & Et' & D0 & D2).
    assert (sixth (nel m) (k + d - 1) i j' < 6 * nel m * q)%nat as Hlt by (apply sixth_lt; [done|lia|done]).
    destruct (Hinj r' p' g' _ g'' Hpp' Hlt Hg6' G' P P') as [-> ->].
    destruct (Hel (k + d - 1)%nat j' ltac:(lia) J') as (y0 & Hy0 & _ & Py'). rewrite Hy' in Hy0. apply (inj Some) in Hy0 as <-.
    set (Z := λ x, nth (4 * k + x - 4) z (nofZ 0)).
    rewrite (face_points_toks e lo hi m0 m1 (zk z k) Z j y g 1 Hin Py); [|intros h; unfold zk, Z; f_equal; lia].
    rewrite (face_points_toks e lo hi m0 m1 (zk z (k + d - 1)) Z j' y' g'' d Hin Py'); [|intros h; unfold zk, Z; f_equal; lia].
    apply fmap_Permutation. by eapply touching_toks.
  - exfalso. congruence.
  - exfalso. congruence.
  - rewrite mid_ref_bt in HE. assert (side_cut f e g) as Hcg by (by apply Hsc). assert (g < 4)%nat as Hg4 by apply Hcg.
    assert (in_mesh m i b g) as Hing. { split_and!; [done|done|]. rewrite L1. lia. }
    destruct (Hp i b g r Hing Hr (or_introl HE)) as (p2 & g2 & r2 & Hin2 & P2 & Hr2 & T2 & P3). pose proof Hin2 as (Hp2 & _ & Hg2). rewrite L1 in Hg2.
    pose proof (mid_ref_points bnd (nel m) q k j r p2 g2 LA LM (or_introl HE) P2 Hp2 Hk Hj Hbnd) as P'.
    destruct (Hinj _ p' g' _ g2 Hpp' (sixth_lt _ _ _ _ _ Hp2 Hk Hj) Hg6' ltac:(lia) P P') as [-> ->].
    destruct (lookup_lt_is_Some_2 (elems m) p2) as [e2 He2]; [lia|].
    destruct (new_elem p2 e2 He2) as (lo2 & hi2 & n0 & n1 & b0 & b1 & Ho2 & Hin2' & Es2 & F0 & F1 & Hel2).
    destruct (Hel2 k j Hk Hj) as (y0 & Hy0 & _ & Py'). rewrite Hy' in Hy0. apply (inj Some) in Hy0 as <-.
    destruct (sides_spec f m Hcut p2 e2 He2) as (lo2' & hi2' & Ho2' & _ & _ & Hsc2 & _). rewrite Ho2 in Ho2'. injection Ho2' as <- <-.
    assert (g2 = s_l0 (sides_of f e2) ∨ g2 = s_l1 (sides_of f e2)) as Hl2.
    { destruct (decide (g2 = s_l0 (sides_of f e2) ∨ g2 = s_l1 (sides_of f e2))) as [H|H]; [done|]. exfalso.
      refine (Hfree p2 e2 b g2 r2 He2 Hin2 Hr2 _ _); [by rewrite Hsc2|rewrite T2; by left]. }
    rewrite (side_faces y g (vtx e lo hi m0 m1 (zk z k) j) Hg4 Py). rewrite (side_faces y' g2 (vtx e2 lo2 hi2 n0 n1 (zk z k) j) ltac:(lia) Py').
    apply fmap_Permutation.
    pose proof (Hsh i b g r p2 g2 e e2 Hing Hr HE P2 Hin2 He He2) as Hss.
    destruct (cut_sides f e lo hi (Hcut e ltac:(by eapply elem_of_list_lookup_2)) Ho) as (_ & Hlow & _).
    destruct (cut_sides f e2 lo2 hi2 (Hcut e2 ltac:(by eapply elem_of_list_lookup_2)) Ho2) as (_ & Hlow2 & _).
    pose proof (H4 e ltac:(by eapply elem_of_list_lookup_2)) as F4. pose proof (H4 e2 ltac:(by eapply elem_of_list_lookup_2)) as F4'.
    unfold same_side in Hss.
    pose proof (λ c, side_mid_of lo hi m0 m1 g c Hin ltac:(by rewrite <- Es)) as M. pose proof (λ c, side_mid_of lo2 hi2 n0 n1 g2 c Hin2' ltac:(by rewrite <- Es2)) as M2.
    assert (mid_of (mid_sides lo hi) m0 m1 g = mid_of (mid_sides lo2 hi2) n0 n1 g2) as Emid.
    { assert (∃ p a a', edge_mid e g = Ok (p, a) ∧ edge_mid e2 g2 = Ok (p, a')) as (pm & a & a' & Eg & Eg2).
      { destruct (side_ends g) as [[? ?] [? ?]]. destruct (side_ends g2) as [[? ?] [? ?]]. exact (proj2 Hss). }
      unfold mid_of. rewrite Es in Hl. rewrite Es2 in Hl2.
      transitivity pm.
      - destruct (decide (g = s_l0 (mid_sides lo hi))) as [Eq|Nq]; [rewrite bool_decide_true by done|rewrite bool_decide_false by done].
        + rewrite Eq, E0 in Eg. injection Eg as -> _. done.
        + destruct Hl as [?|Eq]; [done|]. rewrite Eq, E1 in Eg. injection Eg as -> _. done.
      - symmetry. destruct (decide (g2 = s_l0 (mid_sides lo2 hi2))) as [Eq|Nq]; [rewrite bool_decide_true by done|rewrite bool_decide_false by done].
        + rewrite Eq, F0 in Eg2. injection Eg2 as -> _. done.
        + destruct Hl2 as [?|Eq]; [done|]. rewrite Eq, F1 in Eg2. injection Eg2 as -> _. done. }
    assert (∀ c c' l, (c = fst (side_ends g) ∨ c = snd (side_ends g)) → (c' = fst (side_ends g2) ∨ c' = snd (side_ends g2)) →
      (fst c < 2 ∧ snd c < 2)%nat → (fst c' < 2 ∧ snd c' < 2)%nat → 
      point e 0 (fst c) (snd c) = point e2 0 (fst c') (snd c') → vtx e lo hi m0 m1 (zk z k) j l c = vtx e2 lo2 hi2 n0 n1 (zk z k) j l c') as Hv.
    { intros [cj ci] [cj' ci'] l Hc Hc' [B3 B4] [B5 B6] Hpt. cbn [fst snd] in *. unfold vtx. rewrite <- Hlow, <- Hlow2 by done. unfold low. rewrite Hpt.
      rewrite (M _ Hc), (M2 _ Hc'), Emid.
      assert (corner e (cj, ci) = corner e2 (cj', ci')) as -> by (unfold corner; cbn [fst snd]; by rewrite Hpt). done. }
    assert (∀ g, (g < 4)%nat → (fst (fst (side_ends g)) < 2 ∧ snd (fst (side_ends g)) < 2)%nat ∧ (fst (snd (side_ends g)) < 2 ∧ snd (snd (side_ends g)) < 2)%nat) as Hb4.
    { intros g0 Hg0. destruct g0 as [|[|[|[|]]]]; [| | | |lia]; cbn; lia. }
    destruct (Hb4 g Hg4) as [X1 X2]. destruct (Hb4 g2 ltac:(lia)) as [X3 X4]. clear Hb4 M M2.
    destruct (side_ends g) as [[ja ia] [jb ib]]. destruct (side_ends g2) as [[ja2 ia2] [jb2 ib2]]. cbn [fst snd] in *.
    destruct Hss as [[[Ea Eb]|[Ea Eb]] _].
    + rewrite !(Hv (ja, ia) (ja2, ia2)) by auto. rewrite !(Hv (jb, ib) (jb2, ib2)) by auto. done.
    + rewrite !(Hv (ja, ia) (jb2, ib2)) by auto. rewrite !(Hv (jb, ib) (ja2, ia2)) by auto.
      apply (Permutation_app_comm [_; _] [_; _]).
  - exfalso. refine (Hfree i e b g r He _ Hr _ _); [|apply lowhigh_not_cut; destruct Hl as [-> | ->]; auto|by left].
    split_and!; [done|done|]. rewrite L1. lia.
Qed.
End mesh.
End conform.
