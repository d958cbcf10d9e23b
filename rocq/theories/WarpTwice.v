(** The result of map2D is determined by what it does to vertices and edges; two transformations in turn (C81). *)
From Coq Require Import Lia.
From Verif Require Import Base Mesh MeshLemmas MeshSpec CheckProofs Core Tools Curve CurveSpec CurveProofs P_Curve WarpSpec WarpJoin.
Open Scope Z_scope.

Section twice.
Context {A : arith}.
Notation N := (num A).
Implicit Types (e : elem N) (m : hexa N).

Lemma pos_points e e' : eshape e = (2, 2, 1)%nat → eshape e' = (2, 2, 1)%nat → wf_geom_elem e → wf_geom_elem e' →
  (∀ j i p, point e 0 j i = Some p → point e' 0 j i = Some p) → pos e' = pos e.
Proof.
  intros Hs Hs' (lx & ly & lz & E & _ & Lp & Lc) (lx' & ly' & lz' & E' & _ & Lp' & Lc') H.
  rewrite Hs in E. injection E as <- <- <-. rewrite Hs' in E'. injection E' as <- <- <-. cbn in Lc, Lc'.
  destruct (pos e) as [|xs [|ys [|zs [|]]]] eqn:Ep; try done. destruct (pos e') as [|xs' [|ys' [|zs' [|]]]] eqn:Ep'; try done.
  assert (length xs = 4%nat) as L1 by (apply Lc; repeat constructor). assert (length ys = 4%nat) as L2 by (apply Lc; repeat constructor). assert (length zs = 4%nat) as L3 by (apply Lc; repeat constructor).
  assert (length xs' = 4%nat) as L1' by (apply Lc'; repeat constructor). assert (length ys' = 4%nat) as L2' by (apply Lc'; repeat constructor). assert (length zs' = 4%nat) as L3' by (apply Lc'; repeat constructor).
  clear Lc Lc' Lp Lp'.
  destruct xs as [|x0 [|x1 [|x2 [|x3 [|]]]]]; try done. destruct ys as [|y0 [|y1 [|y2 [|y3 [|]]]]]; try done. destruct zs as [|z0 [|z1 [|z2 [|z3 [|]]]]]; try done.
  destruct xs' as [|x0' [|x1' [|x2' [|x3' [|]]]]]; try done. destruct ys' as [|y0' [|y1' [|y2' [|y3' [|]]]]]; try done. destruct zs' as [|z0' [|z1' [|z2' [|z3' [|]]]]]; try done.
  unfold point in H. rewrite Hs, Hs', Ep, Ep' in H.
  pose proof (H 0%nat 0%nat _ eq_refl) as Q0. pose proof (H 0%nat 1%nat _ eq_refl) as Q1. pose proof (H 1%nat 0%nat _ eq_refl) as Q2. pose proof (H 1%nat 1%nat _ eq_refl) as Q3. cbn in Q0, Q1, Q2, Q3. congruence.
Qed.

Section one.
Context (cv bcv : bool).
Lemma to_curve_dec e i : element2d e → (i < 4)%nat → to_curve cv bcv e i ∨ ¬ to_curve cv bcv e i.
Proof. intros He Hi. destruct (needs_mid_ok cv bcv (curv e) e i He Hi) as ([|] & _ & H); [left; by apply H|right; intros X; apply H in X; done]. Qed.
Lemma mapped_unique f mid e e1 e2 : element2d e → mapped f cv bcv mid e e1 → mapped f cv bcv mid e e2 → wf_geom_elem e1 → wf_geom_elem e2 → e1 = e2.
Proof.
  intros He (D1 & C1 & K1 & P1 & M1 & U1) (D2 & C2 & K2 & P2 & M2 & U2) W1 W2. pose proof He as (Hs & _). 
  destruct D1 as (a1 & a2 & a3 & a4 & a5 & a6), D2 as (b1 & b2 & b3 & b4 & b5 & b6).
  assert (pos e1 = pos e2) as Ep.
  { apply pos_points; [by rewrite b1|by rewrite a1|done|done|]. assert (∀ j i p, point e2 0 j i = Some p → ∃ q, point e 0 j i = Some q) as X.
    { intros j i p Hp. assert (wf_geom_elem e) as W by (by apply element2d_wf).
      assert (j < 2 ∧ i < 2)%nat as [Hj Hi]. { unfold point in Hp. rewrite b1, Hs in Hp. destruct (j <? 2)%nat eqn:E1, (i <? 2)%nat eqn:E2; try discriminate. apply Nat.ltb_lt in E1, E2. done. }
      by apply (point_Some e 0 j i 2 2 1 W Hs); lia. }
    intros j i p Hp. destruct (X j i p Hp) as ([[x y] z] & Hq). rewrite (P2 j i x y z Hq) in Hp. by rewrite (P1 j i x y z Hq). }
  assert (∀ i, curv e1 !! i = curv e2 !! i ∧ ccurv e1 !! i = ccurv e2 !! i) as Q.
  { intros i. assert ((i < 4)%nat ∧ to_curve cv bcv e i ∨ ((4 <= i)%nat ∨ ¬ to_curve cv bcv e i)) as [[Hi Ht]|Hn].
    { destruct (decide (i < 4)%nat) as [Hi|Hi]; [|right; left; lia]. destruct (to_curve_dec e i He Hi); [by left|by right; right]. }
    - destruct (M1 i Hi Ht) as (E1 & x & y & z & row & Em & Er & Ec). destruct (M2 i Hi Ht) as (E2 & x' & y' & z' & row' & Em' & Er' & Ec').
      rewrite Em in Em'. injection Em' as <- <- <-. rewrite Er in Er'. apply (inj Some) in Er' as <-. rewrite Ec, Ec', E1, E2. done.
    - destruct (U1 i Hn) as [E1 E1']. destruct (U2 i Hn) as [E2 E2']. rewrite E1, E1', E2, E2'. done. }
  assert (curv e1 = curv e2) as Ec by (apply list_eq; intros i; apply Q). assert (ccurv e1 = ccurv e2) as Ek by (apply list_eq; intros i; apply Q).
  destruct e1, e2. cbn in *. congruence.
Qed.
Lemma mapped_to_curve f mid e e1 i : element2d e → mapped f cv bcv mid e e1 → (i < 4)%nat → to_curve cv bcv e1 i ↔ to_curve cv bcv e i.
Proof.
  intros He (D1 & C1 & K1 & P1 & M1 & U1) Hi. destruct D1 as (_ & _ & _ & _ & _ & Db). split.
  - intros [H|[(t & H & Ht)|(H & H')]]; [by left| |right; right; split; [done|]; by rewrite <- Db].
    destruct (to_curve_dec e i He Hi) as [X|X]; [done|]. rewrite (proj1 (U1 i (or_intror X))) in H. exfalso. apply X. right. left. by exists t.
  - intros X. right. left. exists "m"%string. split; [|done]. by apply M1.
Qed.
Lemma mapped_2d f mid e e1 : element2d e → mapped f cv bcv mid e e1 → wf_geom_elem e1 → element2d e1.
Proof.
  intros He (D1 & C1 & K1 & P1 & M1 & U1) (lx & ly & lz & E & _ & Lp & Lc). pose proof He as (Hs & _ & _ & (W1 & W2 & W3) & row & Hb). destruct D1 as (Ds & _ & _ & _ & _ & Db).
  rewrite Ds, Hs in E. injection E as <- <- <-. split; [congruence|]. split; [done|]. split; [exact Lc|]. split; [|exists row; by rewrite Db].
  split; [done|]. split; [|done]. apply Forall_lookup. intros i r Hr.
  assert ((i < 4)%nat ∧ to_curve cv bcv e i ∨ ((4 <= i)%nat ∨ ¬ to_curve cv bcv e i)) as [[Hi Ht]|Hn].
  { destruct (decide (i < 4)%nat) as [Hi|Hi]; [|right; left; lia]. destruct (to_curve_dec e i He Hi); [by left|by right; right]. }
  - destruct (M1 i Hi Ht) as (_ & x & y & z & row' & _ & Er & Ec). rewrite Ec in Hr. apply (inj Some) in Hr as <-. pose proof (proj1 (Forall_lookup _ _) W2 i row' Er) as L. cbn in L |- *. rewrite drop_length, L. done.
  - rewrite (proj2 (U1 i Hn)) in Hr. exact (proj1 (Forall_lookup _ _) W2 i r Hr).
Qed.
(** The second transformation acts on the images of the first. *)
Lemma mapped_twice f g e e1 e2 : element2d e → mapped f cv bcv (emid e) e e1 → wf_geom_elem e1 → mapped g cv bcv (emid e1) e1 e2 →
  mapped (λ x y, g (f x y).1 (f x y).2) cv bcv (emid e) e e2.
Proof.
  intros He M W M'. pose proof (mapped_2d f _ e e1 He M W) as He1. assert (∀ i, (i < 4)%nat → to_curve cv bcv e1 i ↔ to_curve cv bcv e i) as HT by (intros i; by eapply mapped_to_curve).
  pose proof M as ((a1 & a2 & a3 & a4 & a5 & a6) & C1 & K1 & P1 & M1 & U1). destruct M' as ((b1 & b2 & b3 & b4 & b5 & b6) & C2 & K2 & P2 & M2 & U2).
  split; [unfold same_data; split_and!; congruence|]. split; [done|]. split; [done|]. split.
  { intros j i x y z Hp. rewrite (P2 j i _ _ _ (P1 j i x y z Hp)). done. }
  split.
  - intros i Hi Ht. destruct (M1 i Hi Ht) as (E1 & x & y & z & row & Em & Er & Ec). destruct (M2 i Hi) as (E2 & x' & y' & z' & row' & Em' & Er' & Ec'); [by apply HT|].
    split; [done|]. exists x, y, z, row. split; [done|]. split; [done|]. rewrite Ec in Er'. apply (inj Some) in Er' as <-.
    pose proof He as (_ & _ & _ & (_ & W2 & _) & _). pose proof (proj1 (Forall_lookup _ _) W2 i row Er) as L. cbn in L. destruct row as [|r0 [|r1 [|r2 [|r3 [|r4 [|]]]]]]; try done. cbn [drop] in Ec, Ec' |- *.
    assert (emid e1 i = ((f x y).1, (f x y).2, r2)) as Emm. { unfold emid, edge_mid. rewrite Ec, E1. done. }
    rewrite Emm in Em'. injection Em' as <- <- <-. exact Ec'.
  - intros i Hn. assert ((4 <= i)%nat ∨ ¬ to_curve cv bcv e1 i) as Hn'. { destruct (decide (4 <= i)%nat) as [|H4]; [by left|]. destruct Hn as [|Hn]; [by left|]. right. intros X. apply Hn, HT; [lia|done]. }
    destruct (U1 i Hn) as [E1 E1']. destruct (U2 i Hn') as [E2 E2']. by rewrite E2, E2', E1, E1'.
Qed.
Lemma map_elem_full f e : element2d e → ∃ el me, map_elem f cv bcv e = Ok (el, me) ∧ mapped f cv bcv (emid e) e me ∧ wf_geom_elem me ∧
  el = set_curv (curv el) e ∧ (∀ i, (i < 4)%nat → to_curve cv bcv e i → curv el !! i = arg_row e i) ∧ (∀ i, (4 <= i)%nat ∨ ¬ to_curve cv bcv e i → curv el !! i = curv e !! i).
Proof.
  intros He. destruct (map_elem_ok f cv bcv e He) as (el & me & E & M & D1 & _ & D3 & D4). exists el, me. split; [done|]. split; [done|]. split; [by eapply map_elem_wf|]. done.
Qed.
(** What happens to the argument does not depend on the transformation. *)
Lemma map_arg f g e el me el' me' : element2d e → map_elem f cv bcv e = Ok (el, me) → map_elem g cv bcv e = Ok (el', me') → el = el'.
Proof.
  intros He E E'. destruct (map_elem_full f e He) as (el1 & me1 & E1 & _ & _ & D1 & D2 & D3). rewrite E in E1. injection E1 as <- <-.
  destruct (map_elem_full g e He) as (el2 & me2 & E2 & _ & _ & D1' & D2' & D3'). rewrite E' in E2. injection E2 as <- <-.
  rewrite D1, D1'. f_equal. apply list_eq. intros i.
  assert ((i < 4)%nat ∧ to_curve cv bcv e i ∨ ((4 <= i)%nat ∨ ¬ to_curve cv bcv e i)) as [[Hi Ht]|Hn].
  { destruct (decide (i < 4)%nat) as [Hi|Hi]; [|right; left; lia]. destruct (to_curve_dec e i He Hi); [by left|by right; right]. }
  - by rewrite D2, D2'.
  - by rewrite D3, D3'.
Qed.
Lemma map_elem_twice f g e el e1 : element2d e → map_elem f cv bcv e = Ok (el, e1) →
  ∃ el1 e2, map_elem g cv bcv e1 = Ok (el1, e2) ∧ map_elem (λ x y, g (f x y).1 (f x y).2) cv bcv e = Ok (el, e2) ∧ el1 = e1 ∧ element2d e1.
Proof.
  intros He E. destruct (map_elem_full f e He) as (el' & e1' & E' & M & W & _). rewrite E in E'. injection E' as <- <-.
  pose proof (mapped_2d f _ e e1 He M W) as He1. destruct (map_elem_full g e1 He1) as (el1 & e2 & E1 & M1 & W1 & D1 & D2 & D3).
  destruct (map_elem_full (λ x y, g (f x y).1 (f x y).2) e He) as (el0 & e2' & E2 & M2 & W2 & _).
  exists el1, e2. split; [done|]. split.
  { rewrite E2. f_equal. f_equal; [exact (map_arg _ _ e _ _ _ _ He E2 E)|]. exact (mapped_unique _ _ e _ _ He M2 (mapped_twice f g e e1 e2 He M W M1) W2 W1). }
  split; [|done]. rewrite D1. assert (curv el1 = curv e1) as ->; [|by destruct e1]. apply list_eq. intros i. 
  assert ((i < 4)%nat ∧ to_curve cv bcv e1 i ∨ ((4 <= i)%nat ∨ ¬ to_curve cv bcv e1 i)) as [[Hi Ht]|Hn].
  { destruct (decide (i < 4)%nat) as [Hi|Hi]; [|right; left; lia]. destruct (to_curve_dec e1 i He1 Hi); [by left|by right; right]. }
  - rewrite D2 by done. unfold arg_row. rewrite decide_False; [done|]. apply (mapped_to_curve f _ e e1 i He M Hi) in Ht. destruct M as (_ & _ & _ & _ & M & _). by destruct (M i Hi Ht) as [-> _].
  - by apply D3.
Qed.
End one.

(** The identity leaves an element as it is if its edges are straight or have stored middles. *)
Lemma map_elem_id f e : element2d e → (∀ i, (i < 4)%nat → edge_type e i "" ∨ edge_type e i "m") → (∀ x y, f x y = (x, y)) →
  map_elem f false false e = Ok (e, e).
Proof.
  intros He Hty Hf. destruct (map_elem_full false false f e He) as (el & me & E & M & W & D1 & D2 & D3).
  assert (∀ i, (i < 4)%nat → to_curve false false e i → ccurv e !! i = Some "m"%string) as Hm.
  { intros i Hi [H|[(t & H & Ht)|(H & _)]]; [done| |done]. destruct (Hty i Hi) as [X|X]; [|exact X]. unfold edge_type in X. congruence. }
  rewrite E. f_equal. f_equal.
  - rewrite D1. assert (curv el = curv e) as ->; [|by destruct e]. apply list_eq. intros i.
    assert ((i < 4)%nat ∧ to_curve false false e i ∨ ((4 <= i)%nat ∨ ¬ to_curve false false e i)) as [[Hi Ht]|Hn].
    { destruct (decide (i < 4)%nat) as [Hi|Hi]; [|right; left; lia]. destruct (to_curve_dec false false e i He Hi); [by left|by right; right]. }
    + rewrite D2 by done. unfold arg_row. rewrite decide_False; [done|]. by rewrite (Hm i Hi Ht).
    + by apply D3.
  - eapply (mapped_unique false false f (emid e) e); try done; [|by apply element2d_wf].
    pose proof He as (_ & _ & _ & (W1 & W2 & W3) & _). split; [done|]. split; [done|]. split; [done|]. split; [intros j i x y z Hp; by rewrite Hf|]. split; [|done].
    intros i Hi Ht. pose proof (Hm i Hi Ht) as Hmi. split; [done|]. destruct (lookup_lt_is_Some_2 (curv e) i ltac:(lia)) as [row Hr].
    pose proof (proj1 (Forall_lookup _ _) W2 i row Hr) as L. cbn in L. destruct row as [|r0 [|r1 [|r2 [|r3 [|r4 [|]]]]]]; try done.
    exists r0, r1, r2, [r0; r1; r2; r3; r4]. split; [unfold emid, edge_mid; by rewrite Hr, Hmi|]. split; [done|]. by rewrite Hf.
Qed.
End twice.
