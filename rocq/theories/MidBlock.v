(** Proofs about [extrude_mid]: the result for one element and four layers, then all of them. *)
From Coq Require Import Lia.
From Verif Require Import Base Mesh Core Tools Curve Mid MeshLemmas MeshSpec CheckProofs OpsProofs GeoLaws BoxProofs
  ExtrudeSpec ExtrudeProofs MidSpec MidProofs.
Open Scope Z_scope.

Section block.
Context {A : arith}.
Notation N := (num A).
Implicit Types (e : elem N) (r : bcrec N).

Definition no_s e : Prop := ∀ c, (c < 4)%nat → ccurv e !! c ≠ Some "s"%string.
Definition corner e (c : nat * nat) : vec (A:=A) := default (nofZ 0, nofZ 0, nofZ 0) (point e 0 (fst c) (snd c)).
Lemma corner_point e j i : four_points e → (j < 2)%nat → (i < 2)%nat → point e 0 j i = Some (corner e (j, i)).
Proof. intros H Hj Hi. unfold corner. cbn [fst snd]. by destruct (four_point e j i H Hj Hi) as [p ->]. Qed.
Lemma corners_ok e l : four_points e → (∀ c, c ∈ l → (fst c < 2 ∧ snd c < 2)%nat) →
  mapR (λ c, of_opt IndexError (point e 0 (fst c) (snd c))) l = Ok (corner e <$> l).
Proof.
  intros H Hl. apply mapR_total. intros [j i] Hc. destruct (Hl _ Hc) as [Hj Hi]. cbn [fst snd] in *. by rewrite (corner_point e j i).
Qed.
(** Every way of separating two corners from the other two. *)
Definition splits : list (list (nat * nat) * list (nat * nat)) :=
  cuts ++ [([(0,0); (1,1)], [(1,0); (0,1)]); ([(1,0); (0,1)], [(0,0); (1,1)])]%nat.
Lemma orient_splits f e lo hi : orient f e = Some (lo, hi) → (lo, hi) ∈ splits.
Proof.
  unfold orient, splits, cuts. intros H.
  destruct (low f e 0 0), (low f e 1 0), (low f e 0 1), (low f e 1 1); try done; injection H as <- <-; cbn [app]; repeat (first [by left|right]).
Qed.
Lemma splits_sound lo hi : (lo, hi) ∈ splits → good_sides (mid_sides lo hi) ∧ length lo = 2%nat ∧ length hi = 2%nat ∧
  (∀ c, c ∈ lo ∨ c ∈ hi → (fst c < 2 ∧ snd c < 2)%nat).
Proof.
  unfold splits, cuts. cbn [app]. rewrite !elem_of_cons, elem_of_nil.
  assert (∀ l : list (nat * nat), forallb (λ c, (fst c <? 2)%nat && (snd c <? 2)%nat) l = true → ∀ c, c ∈ l → (fst c < 2 ∧ snd c < 2)%nat) as Hf.
  { intros l Hl c Hc. apply elem_of_list_In in Hc. rewrite forallb_forall in Hl. specialize (Hl c Hc). apply andb_true_iff in Hl.
    rewrite !Nat.ltb_lt in Hl. done. }
  assert (∀ s, bool_decide ((s_hi s < 4 ∧ s_lo s < 4 ∧ s_l0 s < 4 ∧ s_l1 s < 4)%nat ∧ NoDup [s_hi s; s_lo s; s_l0 s; s_l1 s]) = true → good_sides s) as Hg.
  { intros s Hs. by apply bool_decide_eq_true in Hs. }
  intros [H|[H|[H|[H|[H|[H|[]]]]]]]; injection H as -> ->;
    (split; [apply Hg; vm_compute; reflexivity|]; split; [reflexivity|]; split; [reflexivity|];
     intros c [Hc|Hc]; revert c Hc; apply Hf; reflexivity).
Qed.

Lemma edge_mid_ext e e' n v a : same_geo e e' → ccurv e' = ccurv e → curv e' !! n = curv e !! n → edge_mid e n = Ok (v, a) →
  ∃ a', edge_mid e' n = Ok (v, a').
Proof.
  intros Hg Hc Hv. unfold edge_mid. rewrite Hc, Hv. intros H.
  destruct (curv e !! n) as [row|]; [|done]. cbn [of_opt rbind] in *. destruct (ccurv e !! n) as [t|]; [|done]. cbn [of_opt rbind] in *.
  destruct row as [|c0 [|c1 [|c2 [|c3 [|c4 [|]]]]]]; try done.
  destruct (String.eqb t "m"). { injection H as <- <-. eauto. }
  destruct (edge_ends n) as [[[[k1 j1] i1] [[k2 j2] i2]]|]; [|done]. cbn [of_opt rbind] in *. rewrite !(point_geo e e' _ _ _ Hg).
  destruct (point e k1 j1 i1) as [p1|]; [|done]. destruct (point e k2 j2 i2) as [p2|]; [|done]. cbn [of_opt rbind] in *.
  destruct (String.eqb t ""). { injection H as <- <-. eauto. }
  destruct (String.eqb t "C"). { injection H as <- <-. eauto. }
  destruct (String.eqb t "s"); injection H as <- <-; eauto.
Qed.

(** What is known of the six elements. *)
Definition six_of e lo hi (m0 m1 : vec (A:=A)) (zz : nat → N) : list (elem N) := mid_six lo hi (corner e <$> lo) [m0; m1] (corner e <$> hi) zz e.
Definition block_fact (ib : bool) (nel2d nb kk i : nat) (zz : nat → N) e lo hi (m0 m1 : vec (A:=A)) (l : list (elem N)) : Prop :=
  let s := mid_sides lo hi in
  Forall2 (λ e0 e1, eshape e1 = eshape e0 ∧ pos e1 = pos e0 ∧ length (ccurv e1) = 12%nat ∧ length <$> bcs e1 = length <$> bcs e0)
    (six_of e lo hi m0 m1 zz) l ∧
  ∀ n b f, (n < 6)%nat → (b < nb)%nat →
    lget l n b f = mid_upd ib nel2d (6 * (i + nel2d * kk)) kk s n f <$> (row ← bcs e !! b; row !! f).
Lemma block_ok f ib nel2d nb kk i zz e lo hi : four_points e → rows_ok e → no_s e → orient f e = Some (lo, hi) →
  ∃ m0 m1 a0 a1 e' l, edge_mid e (s_l0 (mid_sides lo hi)) = Ok (m0, a0) ∧ edge_mid e (s_l1 (mid_sides lo hi)) = Ok (m1, a1) ∧
    mid_block f ib nel2d nb kk i zz e = Ok (e', l) ∧ evolved e e' ∧ block_fact ib nel2d nb kk i zz e lo hi m0 m1 l.
Proof.
  intros H4 Hr Hs Ho. pose proof (splits_sound lo hi (orient_splits f e lo hi Ho)) as (Hg & Ll & Lh & Hc).
  unfold block_fact, six_of. set (s := mid_sides lo hi) in *. pose proof Hg as [(B1 & B2 & B3 & B4) Hnd].
  assert (s_l0 s ≠ s_l1 s) as Hne.
  { intros E. do 2 apply NoDup_cons in Hnd as [_ Hnd]. apply NoDup_cons in Hnd as [Hnd _]. apply Hnd. rewrite E. by left. }
  destruct (edge_mid_side e (s_l0 s) Hr H4 B3) as (m0 & a0 & E0 & T0). pose proof T0 as (G0 & C0 & R0 & V0 & _).
  destruct (edge_mid_side e (s_l1 s) Hr H4 B4) as (m1 & a1 & E1 & _).
  destruct (edge_mid_side a0 (s_l1 s) R0 (same_four _ _ G0 H4) B4) as (m1' & a1' & E1' & T1).
  assert (m1' = m1) as ->.
  { destruct (edge_mid_ext e a0 (s_l1 s) m1 a1 G0 C0 (V0 _ (not_eq_sym Hne)) E1) as [a' E']. rewrite E' in E1'. injection E1'. done. }
  pose proof (evolved_trans _ _ _ (touched_evolved _ _ _ B3 T0) (touched_evolved _ _ _ B4 T1)) as T. pose proof T as (G1 & C1 & R1 & _).
  exists m0, m1, a0, a1.
  unfold mid_block. destruct Hr as (Hr1 & Hr2 & Hr3). rewrite Hr1, Hr2. cbn [Nat.eqb andb negb].
  rewrite (mid_split_eq f e H4), Ho. cbn [of_opt rbind]. fold s.
  rewrite (corners_ok e lo H4) by auto. cbn [rbind]. rewrite (corners_ok e hi H4) by auto. cbn [rbind].
  rewrite E0. cbn [rbind]. rewrite E1'. cbn [rbind].
  assert (existsb (λ ic, String.eqb (ctype a1' ic) "s") (range 4) = false) as ->.
  { apply not_true_iff_false. intros H. apply existsb_exists in H as (ic & Hin & H). apply String.eqb_eq in H.
    apply elem_of_list_In, elem_of_range in Hin. unfold ctype in H. rewrite C1 in H.
    destruct (lookup_lt_is_Some_2 (ccurv e) ic) as [t Et]; [lia|]. rewrite (nth_lookup_Some _ _ _ _ Et) in H. subst t. by apply (Hs ic). }
  set (six := mid_six lo hi (corner e <$> lo) [m0; m1] (corner e <$> hi) zz e).
  assert (∃ l0 l1 h0 h1, corner e <$> lo = [l0; l1] ∧ corner e <$> hi = [h0; h1]) as (l0 & l1 & h0 & h1 & El & Eh).
  { destruct lo as [|? [|? [|]]]; try done. destruct hi as [|? [|? [|]]]; try done. cbn. eauto 10. }
  assert (∃ e0 e1 e2 e3 e4 e5, six = [e0; e1; e2; e3; e4; e5] ∧ (∀ x, x ∈ six → rows_ok x ∧ eight_points x ∧ bcs x = bcs e))
    as (e0 & e1 & e2 & e3 & e4 & e5 & E6 & H6).
  { do 6 eexists. split; [unfold six, mid_six; cbn [fmap list_fmap]; reflexivity|]. intros x Hx. unfold six, mid_six in Hx.
    apply elem_of_list_fmap in Hx as (p & -> & Hp). split; [done|]. split; [|done].
    rewrite !elem_of_cons, elem_of_nil in Hp. destruct Hp as [->|[->|[->|[->|[->|[->|[]]]]]]]; apply mid_pos_eight. }
  rewrite E6, El, Eh.
  assert (e0 ∈ six ∧ e1 ∈ six ∧ e2 ∈ six ∧ e3 ∈ six ∧ e4 ∈ six ∧ e5 ∈ six) as (I0 & I1 & I2 & I3 & I4 & I5).
  { rewrite E6. split_and!; repeat (first [by left|right]). }
  destruct (mid_cut_ok s [l0; l1] [m0; m1] [h0; h1] (zz 0%nat) a1' e0 e1) as (ea & e0a & e1a & -> & Ta & [G0a R0a] & [G1a R1a]); try done;
    try (by apply H6); try (by apply (same_four e)).
  cbn [rbind]. destruct (H6 e1 I1) as (_ & P1 & _). pose proof (eight_geo _ _ G1a P1) as P1a.
  destruct (mid_side_ok ea (s_l0 s) l0 m0 h0 e0a e1a B3 R0a R1a P1a) as (e0b & e1b & -> & [G0b R0b] & [G1b R1b]). cbn [rbind].
  pose proof (eight_geo _ _ G1b P1a) as P1b.
  destruct (mid_side_ok ea (s_l1 s) l1 m1 h1 e0b e1b B4 R0b R1b P1b) as (e0c & e1c & -> & [G0c R0c] & [G1c R1c]). cbn [rbind].
  eexists _, _. split; [done|]. split; [done|]. split; [reflexivity|]. split; [by eapply evolved_trans|].
  assert (keeps six [e0c; e1c; e2; e3; e4; e5]) as K0.
  { rewrite E6. apply List.Forall2_cons. { split; [|apply R0c]. eapply same_geo_trans; [exact G0a|]. by eapply same_geo_trans. }
    apply List.Forall2_cons. { split; [|apply R1c]. eapply same_geo_trans; [exact G1a|]. by eapply same_geo_trans. }
    apply keeps_refl. intros x Hx. apply H6. rewrite E6. by do 2 right. }
  assert (length six = 6%nat) as L6 by (by rewrite E6).
  assert (∀ x, x ∈ [e0c; e1c; e2; e3; e4; e5] → length (ccurv x) = 12%nat) as H12.
  { destruct (keeps_six _ _ K0 L6) as (? & ? & ? & ? & ? & ? & [= <- <- <- <- <- <-] & H). done. }
  pose proof (keeps_trans _ _ _ K0 (keeps_spread e0c e1c e2 e3 e4 e5 H12)) as K1.
  set (la := mid_spread _) in *. clearbody la.
  destruct (keeps_six _ _ K1 L6) as (x0 & x1 & x2 & x3 & x4 & x5 & -> & Hx).
  assert (keeps six (foldl (mid_zs s zz) [x0; x1; x2; x3; x4; x5] (range 4))) as K2.
  { eapply keeps_trans; [exact K1|]. apply keeps_fold; [done|done|]. intros. by apply keeps_zs. }
  set (lb := foldl (mid_zs s zz) _ _) in *. clearbody lb.
  destruct (keeps_six _ _ K2 L6) as (y0 & y1 & y2 & y3 & y4 & y5 & -> & Hy).
  assert (keeps six (foldl mid_con [y0; y1; y2; y3; y4; y5] [(s_l0 s, s_c0 s); (s_l1 s, s_c1 s)])) as K3.
  { eapply keeps_trans; [exact K2|]. apply keeps_fold; [done|done|]. intros. by apply keeps_con. }
  set (lc := foldl mid_con _ _) in *. clearbody lc.
  pose proof (mid_bcs_shape ib nel2d (6 * (i + nel2d * kk)) kk s lc (range nb)) as Sh.
  split.
  - rewrite <- E6. apply Forall2_same_length_lookup. split; [by rewrite (Forall2_length _ _ _ K3), (Forall2_length _ _ _ Sh)|].
    intros n x y Hx' Hy'. destruct (Forall2_lookup_l _ _ _ _ _ K3 Hx') as (w & Hw & (W1 & W2 & W3) & W4).
    destruct (Forall2_lookup_lr _ _ _ _ _ _ Sh Hw Hy') as [S1 S2].
    unfold strip_elem, set_bcs in S1. assert (eshape y = eshape w ∧ pos y = pos w ∧ ccurv y = ccurv w) as (-> & -> & ->).
    { split_and!; [exact (f_equal eshape S1)|exact (f_equal pos S1)|exact (f_equal ccurv S1)]. }
    rewrite S2, W3. done.
  - intros n b g Hn Hb. rewrite mid_bcs_all by done. f_equal. unfold lget.
    destruct (lookup_lt_is_Some_2 six n) as [x Hx']; [lia|]. destruct (Forall2_lookup_l _ _ _ _ _ K3 Hx') as (w & Hw & (W1 & W2 & W3) & W4).
    rewrite Hw. cbn. rewrite W3. destruct (H6 x (elem_of_list_lookup_2 _ _ _ Hx')) as (_ & _ & ->). done.
Qed.
Lemma block_bad f ib nel2d nb kk i zz e : four_points e → rows_ok e → orient f e = None →
  mid_block f ib nel2d nb kk i zz e = Raise ValueError.
Proof.
  intros H4 (Hr1 & Hr2 & _) Ho. unfold mid_block. rewrite Hr1, Hr2. cbn [Nat.eqb andb negb]. by rewrite (mid_split_eq f e H4), Ho.
Qed.
End block.
