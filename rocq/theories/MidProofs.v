(** Proofs about [extrude_mid]: one element and four layers. *)
From Coq Require Import Lia.
From Verif Require Import Base Mesh Core Tools Curve Mid MeshLemmas MeshSpec CheckProofs OpsProofs GeoLaws BoxProofs
  ExtrudeSpec ExtrudeProofs MidSpec.
Open Scope Z_scope.

Section proofs.
Context {A : arith}.
Notation N := (num A).
Implicit Types (m : hexa N) (e : elem N) (r : bcrec N).

(** ** Corners *)
Definition four_points e : Prop := eshape e = (2, 2, 1)%nat ∧ wf_geom_elem e.
Lemma four_point e j i : four_points e → (j < 2)%nat → (i < 2)%nat → ∃ p, point e 0 j i = Some p.
Proof. intros [H1 H2] Hj Hi. by apply (point_Some e 0 j i 2 2 1 H2 H1); lia. Qed.

Definition orient (f : N → N → N) e : option (list (nat * nat) * list (nat * nat)) :=
  match low f e 0 0, low f e 1 0, low f e 0 1, low f e 1 1 with
  | true, true, false, false => Some ([(0,0); (1,0)], [(0,1); (1,1)])
  | true, false, true, false => Some ([(0,0); (0,1)], [(1,0); (1,1)])
  | true, false, false, true => Some ([(0,0); (1,1)], [(1,0); (0,1)])
  | false, true, true, false => Some ([(1,0); (0,1)], [(0,0); (1,1)])
  | false, true, false, true => Some ([(1,0); (1,1)], [(0,0); (0,1)])
  | false, false, true, true => Some ([(0,1); (1,1)], [(0,0); (1,0)])
  | _, _, _, _ => None
  end%nat.
Definition scan_b (b : bool) (s : list (nat * nat) * list (nat * nat)) (c : nat * nat) : res (list (nat * nat) * list (nat * nat)) :=
  let '(lo, hi) := s in
  if b then if (1 <? length lo)%nat then Raise ValueError else Ok (lo ++ [c], hi)
  else if (1 <? length hi)%nat then Raise ValueError else Ok (lo, hi ++ [c]).
Lemma mid_scan_eq f e s j i : four_points e → (j < 2)%nat → (i < 2)%nat → mid_scan f e s (j, i) = scan_b (low f e j i) s (j, i).
Proof.
  intros H Hj Hi. unfold mid_scan, low. destruct (four_point e j i H Hj Hi) as [[[x y] z] E]. rewrite E. by destruct s.
Qed.
Lemma mid_split_eq f e : four_points e → mid_split f e = of_opt ValueError (orient f e).
Proof.
  intros H. unfold mid_split, orient. cbn [foldM].
  rewrite (mid_scan_eq f e _ 0 0 H) by lia.
  assert (∀ s (g : _ → res (list (nat * nat) * list (nat * nat))), (let! s' := mid_scan f e s (1, 0)%nat in g s') = let! s' := scan_b (low f e 1 0) s (1, 0)%nat in g s') as E1
    by (intros; by rewrite mid_scan_eq by (done || lia)).
  assert (∀ s (g : _ → res (list (nat * nat) * list (nat * nat))), (let! s' := mid_scan f e s (0, 1)%nat in g s') = let! s' := scan_b (low f e 0 1) s (0, 1)%nat in g s') as E2
    by (intros; by rewrite mid_scan_eq by (done || lia)).
  assert (∀ s (g : _ → res (list (nat * nat) * list (nat * nat))), (let! s' := mid_scan f e s (1, 1)%nat in g s') = let! s' := scan_b (low f e 1 1) s (1, 1)%nat in g s') as E3
    by (intros; by rewrite mid_scan_eq by (done || lia)).
  destruct (low f e 0 0); cbn [scan_b rbind length Nat.ltb Nat.leb app]; rewrite E1;
    destruct (low f e 1 0); cbn [scan_b rbind length Nat.ltb Nat.leb app]; rewrite E2;
    destruct (low f e 0 1); cbn [scan_b rbind length Nat.ltb Nat.leb app]; rewrite ?E3;
    destruct (low f e 1 1); reflexivity.
Qed.
Lemma orient_None f e : orient f e = None ↔ low_corners f e ≠ 2%nat.
Proof.
  unfold orient, low_corners. cbn [List.filter fst snd].
  destruct (low f e 0 0), (low f e 1 0), (low f e 0 1), (low f e 1 1); cbn; split; intros; try done; try lia.
Qed.
(** The four ways to cut. *)
Definition cuts : list (list (nat * nat) * list (nat * nat)) :=
  [([(0,0); (1,0)], [(0,1); (1,1)]); ([(0,0); (0,1)], [(1,0); (1,1)]);
   ([(1,0); (1,1)], [(0,0); (0,1)]); ([(0,1); (1,1)], [(0,0); (1,0)])]%nat.
Lemma cut_orient f e : cut_across f e → ∃ lo hi, orient f e = Some (lo, hi) ∧ (lo, hi) ∈ cuts ∧
  ∀ j i, (j < 2)%nat → (i < 2)%nat → low f e j i = bool_decide ((j, i) ∈ lo).
Proof.
  unfold cut_across, orient, cuts. intros H.
  destruct (low f e 0 0) eqn:L1, (low f e 1 0) eqn:L2, (low f e 0 1) eqn:L3, (low f e 1 1) eqn:L4;
    try (exfalso; destruct H as [(? & ? & ?)|(? & ? & ?)]; congruence);
    (eexists _, _; split; [reflexivity|]; split; [repeat (first [left; fail|by left|right])|];
     intros j i Hj Hi; destruct j as [|[|]]; [|  |lia]; destruct i as [|[|]]; try lia; rewrite ?L1, ?L2, ?L3, ?L4; reflexivity).
Qed.

(** ** Curvature arrays *)
Definition rows_ok e : Prop := length (ccurv e) = 12%nat ∧ length (curv e) = 12%nat ∧ ∀ row, row ∈ curv e → length row = 5%nat.
(** Everything but the curvature is the same. *)
Definition same_geo e e' : Prop := eshape e' = eshape e ∧ pos e' = pos e ∧ bcs e' = bcs e.
Lemma point_geo e e' k j i : same_geo e e' → point e' k j i = point e k j i.
Proof. intros (H1 & H2 & _). unfold point. by rewrite H1, H2. Qed.
Lemma same_geo_trans e e' e'' : same_geo e e' → same_geo e' e'' → same_geo e e''.
Proof. intros (?&?&?) (?&?&?). split_and!; congruence. Qed.
Lemma rows_alter (g : list N → list N) i e : rows_ok e → (∀ row, length row = 5%nat → length (g row) = 5%nat) → rows_ok (alter_row g i e).
Proof.
  intros (H1 & H2 & H3) Hg. split; [done|]. split; [cbn; by rewrite alter_length|]. intros row Hr. cbn in Hr.
  apply elem_of_list_lookup in Hr as [c Hc]. destruct (decide (c = i)) as [->|Hne].
  - rewrite list_lookup_alter in Hc. destruct (curv e !! i) as [row0|] eqn:E; [|done]. cbn in Hc. apply (inj Some) in Hc as <-.
    apply Hg, H3. by eapply elem_of_list_lookup_2.
  - rewrite list_lookup_alter_ne in Hc by done. apply H3. by eapply elem_of_list_lookup_2.
Qed.
Lemma rows_type i t e : rows_ok e → rows_ok (set_type i t e).
Proof. intros (H1 & H2 & H3). split; [cbn; by rewrite insert_length|]. done. Qed.
Lemma rows_put3 i v e : rows_ok e → rows_ok (put3 i v e).
Proof.
  destruct v as [[a b] c]. intros H. apply (rows_alter (λ row, a :: b :: c :: drop 3 row) i e H).
  intros row Hr. cbn. rewrite drop_length. lia.
Qed.
Lemma geo_put3 i v e : same_geo e (put3 i v e).
Proof. by destruct v as [[a b] c]. Qed.
Lemma row5 e i : rows_ok e → (i < 12)%nat → ∃ c0 c1 c2 c3 c4, curv e !! i = Some [c0; c1; c2; c3; c4].
Proof.
  intros (_ & H2 & H3) Hi. destruct (lookup_lt_is_Some_2 (curv e) i) as [row E]; [lia|].
  pose proof (H3 row (elem_of_list_lookup_2 _ _ _ E)) as L.
  destruct row as [|c0 [|c1 [|c2 [|c3 [|c4 [|]]]]]]; try done. eauto 10.
Qed.

(** The element after [edge_mid] on one edge. *)
Definition touched (edge : nat) e e' : Prop :=
  same_geo e e' ∧ ccurv e' = ccurv e ∧ rows_ok e' ∧ (∀ c, c ≠ edge → curv e' !! c = curv e !! c) ∧
  (ccurv e !! edge ≠ Some "C"%string → e' = e).
Lemma edge_mid_ok e edge k1 j1 i1 k2 j2 i2 p1 p2 : rows_ok e → (edge < 12)%nat →
  edge_ends edge = Some ((k1, j1, i1), (k2, j2, i2)) → point e k1 j1 i1 = Some p1 → point e k2 j2 i2 = Some p2 →
  ∃ v e', edge_mid e edge = Ok (v, e') ∧ touched edge e e'.
Proof.
  intros Hr Hedge He Hp1 Hp2. destruct (row5 e edge Hr Hedge) as (c0 & c1 & c2 & c3 & c4 & Er).
  destruct Hr as (R1 & R2 & R3). destruct (lookup_lt_is_Some_2 (ccurv e) edge) as [t Et]; [lia|].
  assert (touched edge e e) as T0 by (split_and!; done).
  unfold edge_mid. rewrite Er, Et. cbn [of_opt rbind]. destruct (String.eqb t "m"); [eauto|].
  rewrite He. cbn [of_opt rbind]. rewrite Hp1, Hp2. cbn [of_opt rbind].
  destruct (String.eqb t ""); [eauto|]. destruct (String.eqb_spec t "C") as [->|].
  - eexists _, _. split; [reflexivity|]. split; [apply geo_put3|]. set (v := arc_mid c0 p1 p2). destruct v as [[a b] c] eqn:Ev.
    split; [done|]. split; [by apply rows_put3|]. split; [|done]. intros d Hd. cbn. by rewrite list_lookup_alter_ne.
  - destruct (String.eqb t "s"); eauto.
Qed.
Lemma edge_mid_side e n : rows_ok e → four_points e → (n < 4)%nat → ∃ v e', edge_mid e n = Ok (v, e') ∧ touched n e e'.
Proof.
  intros Hr H4 Hn.
  destruct (four_point e 0 0 H4) as [p00 E00]; [lia..|]. destruct (four_point e 1 0 H4) as [p10 E10]; [lia..|].
  destruct (four_point e 0 1 H4) as [p01 E01]; [lia..|]. destruct (four_point e 1 1 H4) as [p11 E11]; [lia..|].
  destruct n as [|[|[|[|]]]]; [| | | |lia]; (eapply edge_mid_ok; [done|lia|reflexivity|eassumption|eassumption]).
Qed.

(** The element of the argument afterwards. *)
Definition evolved e e' : Prop :=
  same_geo e e' ∧ ccurv e' = ccurv e ∧ rows_ok e' ∧ (∀ c, ccurv e !! c ≠ Some "C"%string → curv e' !! c = curv e !! c) ∧ (no_arcs e → e' = e).
Lemma touched_evolved n e e' : (n < 4)%nat → touched n e e' → evolved e e'.
Proof.
  intros Hn (H1 & H2 & H3 & H4 & H5). split; [done|]. split; [done|]. split; [done|]. split.
  - intros c Hc. destruct (decide (c = n)) as [->|]; [|by apply H4]. by rewrite H5.
  - intros Ha. by apply H5, Ha.
Qed.
Lemma evolved_refl e : rows_ok e → evolved e e.
Proof. intros H. split; [by split_and!|]. done. Qed.
Lemma evolved_trans e e' e'' : evolved e e' → evolved e' e'' → evolved e e''.
Proof.
  intros (H1 & H2 & H3 & H4 & H5) (K1 & K2 & K3 & K4 & K5). split; [by eapply same_geo_trans|]. split; [congruence|]. split; [done|]. split.
  - intros c Hc. rewrite K4 by (by rewrite H2). by apply H4.
  - intros Ha. rewrite K5; [by apply H5|]. unfold no_arcs. by rewrite H2.
Qed.
Lemma same_four e e' : same_geo e e' → four_points e → four_points e'.
Proof. intros (H1 & H2 & _) [K1 K2]. unfold four_points, wf_geom_elem in *. by rewrite H1, H2. Qed.

(** The vertices of a 3D element. *)
Lemma mid_pos_point lo hi blo bhi tlo thi e l j i : (l < 2)%nat → (j < 2)%nat → (i < 2)%nat →
  point (set_pos3 (mid_pos lo hi blo bhi tlo thi) e) l j i =
  Some (if (l =? 0)%nat then mid_at lo hi blo bhi (j, i) else mid_at lo hi tlo thi (j, i)).
Proof.
  intros Hl Hj Hi. unfold mid_pos. cbn [prod2 range seq mbind list_bind fmap list_fmap app].
  destruct l as [|[|]]; [| |lia]; (destruct j as [|[|]]; [| |lia]); (destruct i as [|[|]]; [| |lia]); unfold point; cbn -[mid_at];
    destruct (mid_at _ _ _ _ _) as [[? ?] ?]; reflexivity.
Qed.
Definition eight_points e : Prop := eshape e = (2, 2, 2)%nat ∧ ∀ l j i, (l < 2)%nat → (j < 2)%nat → (i < 2)%nat → ∃ p, point e l j i = Some p.
Lemma eight_geo e e' : same_geo e e' → eight_points e → eight_points e'.
Proof. intros H [K1 K2]. split; [by destruct H as (-> & _)|]. intros l j i ? ? ?. rewrite (point_geo e e') by done. by apply K2. Qed.
Lemma mid_pos_eight lo hi blo bhi tlo thi e : eight_points (set_pos3 (mid_pos lo hi blo bhi tlo thi) e).
Proof. split; [done|]. intros l j i ? ? ?. rewrite mid_pos_point by done. eauto. Qed.

Definition kept e e' : Prop := same_geo e e' ∧ rows_ok e'.
Lemma mid_cut_ok s plo pmid phi z e e0 e1 : (s_hi s < 4)%nat → (s_lo s < 4)%nat → length plo = 2%nat → length pmid = 2%nat → length phi = 2%nat →
  rows_ok e → four_points e → rows_ok e0 → eight_points e0 → rows_ok e1 →
  ∃ e' e0' e1', mid_cut s plo pmid phi z e e0 e1 = Ok (e', e0', e1') ∧ evolved e e' ∧ kept e0 e0' ∧ kept e1 e1'.
Proof.
  intros Hhi Hlo Lp Lm Lh He H4 H0 H8 H1.
  assert (kept e0 e0 ∧ kept e1 e1) as [K0 K1] by (split; (split; [by split_and!|done])).
  unfold mid_cut. destruct (String.eqb _ "" && String.eqb _ ""); [eexists _, _, _; split; [reflexivity|]; split; [by apply evolved_refl|done]|].
  destruct (edge_mid_side e (s_hi s) He H4 Hhi) as (mhi & ea & -> & Ta). cbn [rbind].
  apply (touched_evolved _ _ _ Hhi) in Ta. pose proof Ta as (Ga & _ & Ra & _).
  destruct (edge_mid_side ea (s_lo s) Ra (same_four _ _ Ga H4) Hlo) as (mlo & eb & -> & Tb). cbn [rbind].
  apply (touched_evolved _ _ _ Hlo) in Tb. pose proof (evolved_trans _ _ _ Ta Tb) as T. pose proof T as (Gb & _ & Rb & _).
  destruct plo as [|l0 [|l1 [|]]]; try done. destruct pmid as [|m0 [|m1 [|]]]; try done. destruct phi as [|h0 [|h1 [|]]]; try done.
  set (v := cut_mid _ _ _ _ _ _ _ _). clearbody v.
  assert (∀ g n t e, rows_ok e → (∀ row, length row = 5%nat → length (g row) = 5%nat) → kept e (alter_row g n (set_type n t e))) as Ka.
  { intros g n t e' R Hg. split; [by split_and!|]. apply rows_alter; [by apply rows_type|done]. }
  assert (∀ n w t e, rows_ok e → kept e (put3 n w (set_type n t e))) as Kp.
  { intros n w t e' R. split; [|by apply rows_put3, rows_type]. eapply same_geo_trans; [|apply geo_put3]. by split_and!. }
  destruct (String.eqb _ "m" || String.eqb _ "m"). { eexists _, _, _. split; [reflexivity|]. split; [done|]. split; by apply Kp. }
  destruct (String.eqb _ "C" || String.eqb _ "C").
  - destruct v as [[x y] w].
    assert (∃ new e0', edge_circle e0 (s_hi s) (x, y, z) = Ok (new, e0') ∧ kept e0 e0') as (new & e0' & -> & Ke).
    { unfold edge_circle. destruct H8 as [_ H8].
      destruct (H8 0 0 0)%nat as [p00 E00]; [lia..|]. destruct (H8 0 1 0)%nat as [p10 E10]; [lia..|].
      destruct (H8 0 0 1)%nat as [p01 E01]; [lia..|]. destruct (H8 0 1 1)%nat as [p11 E11]; [lia..|].
      assert (∃ y1 x1 y2 x2 p1 p2, edge_ends (s_hi s) = Some ((0, y1, x1), (0, y2, x2))%nat ∧ point e0 0 y1 x1 = Some p1 ∧ point e0 0 y2 x2 = Some p2)
        as (y1 & x1 & y2 & x2 & p1 & p2 & -> & E1 & E2).
      { destruct (s_hi s) as [|[|[|[|]]]]; [| | | |lia]; do 6 eexists; (split; [reflexivity|]); split; eassumption. }
      cbn [of_opt rbind]. rewrite E1, E2. cbn [of_opt rbind]. destruct (circle _ _ _) as [rad [[a b] c]].
      destruct (row5 e0 (s_hi s) H0) as (c0 & c1 & c2 & c3 & c4 & Er); [lia|]. rewrite Er. cbn [of_opt rbind].
      eexists _, _. split; [reflexivity|]. split; [by split_and!|]. destruct H0 as (R1 & R2 & R3). split; [done|]. split; [cbn; by rewrite insert_length|].
      intros row Hrow. cbn in Hrow. apply elem_of_list_lookup in Hrow as [d Hd]. destruct (decide (d = s_hi s)) as [->|].
      - rewrite list_lookup_insert in Hd by lia. apply (inj Some) in Hd as <-. done.
      - rewrite list_lookup_insert_ne in Hd by done. apply R3. by eapply elem_of_list_lookup_2. }
    cbn [rbind]. destruct Ke as [Ge Re].
    assert (∀ l : list N, length l = 4%nat → ∀ row, length row = 5%nat → length (put4 l row) = 5%nat) as L4.
    { intros l Hl row Hrow. unfold put4. rewrite app_length, drop_length. lia. }
    destruct (neqb _ _); (eexists _, _, _; split; [reflexivity|]; split; [done|]; split;
      [split; [eapply same_geo_trans; [exact Ge|by split_and!]|apply rows_alter; [by apply rows_type|by apply L4]]
      |apply Ka; [done|by apply L4]]).
  - eexists _, _, _. split; [reflexivity|]. split; [done|].
    assert (length (nmul (nofZ 0) <$> nth (s_hi s) (curv eb) []) = 5%nat) as L5.
    { rewrite fmap_length. destruct (row5 eb (s_hi s) Rb) as (c0 & c1 & c2 & c3 & c4 & Er); [lia|]. by rewrite (nth_lookup_Some _ _ _ _ Er). }
    split; apply Ka; done.
Qed.
Lemma mid_side_ok e edge lo mid hi e0 e1 : (edge < 4)%nat → rows_ok e0 → rows_ok e1 → eight_points e1 →
  ∃ e0' e1', mid_side e edge lo mid hi e0 e1 = Ok (e0', e1') ∧ kept e0 e0' ∧ kept e1 e1'.
Proof.
  intros Hedge R0 R1 [_ H8]. assert (kept e0 e0 ∧ kept e1 e1) as [K0 K1] by (split; (split; [by split_and!|done])).
  unfold mid_side. destruct (String.eqb (ctype e edge) "m").
  - destruct (half_mids lo mid hi) as [q0 q1]. eexists _, _. split; [reflexivity|].
    assert (∀ (q : N * N) (row : list N), length row = 5%nat → length (put2 q row) = 5%nat) as L. { intros q row Hr. unfold put2. cbn. rewrite drop_length. lia. }
    split; (split; [by split_and!|]); apply rows_alter; auto.
  - destruct (String.eqb (ctype e edge) "C"); [|eauto 10].
    destruct (H8 0 0 0)%nat as [p00 E00]; [lia..|]. destruct (H8 0 1 0)%nat as [p10 E10]; [lia..|].
    destruct (H8 0 0 1)%nat as [p01 E01]; [lia..|]. destruct (H8 0 1 1)%nat as [p11 E11]; [lia..|].
    assert (∃ v e', edge_mid e1 edge = Ok (v, e') ∧ touched edge e1 e') as (v & e' & -> & (T1 & _ & T3 & _)).
    { destruct edge as [|[|[|[|]]]]; [| | | |lia]; (eapply edge_mid_ok; [done|lia|reflexivity|eassumption|eassumption]). }
    cbn [rbind]. eexists _, _. split; [reflexivity|]. split; [done|]. split; [|by apply rows_type].
    eapply same_geo_trans; [exact T1|]. by split_and!.
Qed.

(** ** The six elements keep their vertices and conditions *)
Definition keeps (l l' : list (elem N)) : Prop := Forall2 (λ e e', same_geo e e' ∧ length (ccurv e') = 12%nat) l l'.
Lemma keeps_trans l l' l'' : keeps l l' → keeps l' l'' → keeps l l''.
Proof.
  intros H. revert l''. induction H as [|e e' l l' [H1 _] H IH]; intros l'' K; [done|].
  apply Forall2_cons_inv_l in K as (e'' & t & [K1 K2] & K & ->). constructor; [|by apply IH]. split; [by eapply same_geo_trans|done].
Qed.
Ltac kept_one := split; [by split_and!|cbn; rewrite ?insert_length; done].
Lemma keeps_spread e0 e1 e2 e3 e4 e5 : (∀ e, e ∈ [e0; e1; e2; e3; e4; e5] → length (ccurv e) = 12%nat) →
  keeps [e0; e1; e2; e3; e4; e5] (mid_spread (mid_dup <$> [e0; e1; e2; e3; e4; e5])).
Proof.
  intros H. assert (∀ e, length (ccurv e) = 12%nat → length (dup4 (ccurv e)) = 12%nat) as Hd.
  { intros e L. unfold dup4. rewrite !app_length, take_length, drop_length. lia. }
  assert (∀ a (l l' : list string), (a = 0 ∨ a = 4)%nat → length l = 12%nat → length l' = 12%nat → length (put_at a (take 4 l') l) = 12%nat) as Hp.
  { intros a l l' Ha L L'. unfold put_at. rewrite !app_length, !take_length, drop_length. lia. }
  assert (length (ccurv e0) = 12%nat ∧ length (ccurv e1) = 12%nat ∧ length (ccurv e2) = 12%nat ∧ length (ccurv e3) = 12%nat ∧
    length (ccurv e4) = 12%nat ∧ length (ccurv e5) = 12%nat) as (L0 & L1 & L2 & L3 & L4 & L5).
  { split_and!; apply H; repeat (first [by left|right]). }
  cbn [fmap list_fmap mid_spread]. repeat constructor; cbn [ccurv set_ccurv set_curv mid_dup]; auto.
Qed.
Lemma keeps_zs s zz e0 e1 e2 e3 e4 e5 ic : (∀ e, e ∈ [e0; e1; e2; e3; e4; e5] → length (ccurv e) = 12%nat) →
  keeps [e0; e1; e2; e3; e4; e5] (mid_zs s zz [e0; e1; e2; e3; e4; e5] ic).
Proof.
  intros H. unfold mid_zs. cbv zeta.
  assert (∀ (b : bool) e e', length (ccurv e) = 12%nat → same_geo e e' ∧ ccurv e' = ccurv e →
    same_geo e (if b then e' else e) ∧ length (ccurv (if b then e' else e)) = 12%nat) as Hb.
  { intros [] e e' L [H1 H2]; [|split; [by split_and!|done]]. rewrite H2. done. }
  assert (∀ i z e, same_geo e (put_z i z e) ∧ ccurv (put_z i z e) = ccurv e) as Hz by (intros; split; [by split_and!|done]).
  destruct (if (ic =? s_hi s)%nat then _ else _) as [top1 bot4].
  apply List.Forall2_cons; [cbv beta; apply Hb; [apply H; repeat (first [by left|right])|]; split; [by split_and!|done]|].
  apply List.Forall2_cons; [cbv beta; apply Hb; [apply H; repeat (first [by left|right])|]; destruct top1; (split; [by split_and!|done])|].
  apply List.Forall2_cons; [cbv beta; apply Hb; [apply H; repeat (first [by left|right])|]; split; [by split_and!|done]|].
  apply List.Forall2_cons; [cbv beta; apply Hb; [apply H; repeat (first [by left|right])|]; split; [by split_and!|done]|].
  apply List.Forall2_cons; [cbv beta; apply Hb; [apply H; repeat (first [by left|right])|]; destruct bot4; (split; [by split_and!|done])|].
  apply List.Forall2_cons; [cbv beta; apply Hb; [apply H; repeat (first [by left|right])|]; split; [by split_and!|done]|].
  constructor.
Qed.
Lemma keeps_con e0 e1 e2 e3 e4 e5 x : (∀ e, e ∈ [e0; e1; e2; e3; e4; e5] → length (ccurv e) = 12%nat) →
  keeps [e0; e1; e2; e3; e4; e5] (mid_con [e0; e1; e2; e3; e4; e5] x).
Proof.
  intros H. destruct x as [lat con]. cbn [mid_con].
  repeat (apply List.Forall2_cons; [split; [by split_and!|]; cbn; rewrite ?insert_length; apply H; repeat (first [by left|right])|]). constructor.
Qed.
Lemma keeps_six l l' : keeps l l' → length l = 6%nat → ∃ e0 e1 e2 e3 e4 e5, l' = [e0; e1; e2; e3; e4; e5] ∧
  ∀ e, e ∈ [e0; e1; e2; e3; e4; e5] → length (ccurv e) = 12%nat.
Proof.
  intros H L. pose proof (Forall2_length _ _ _ H) as L'. rewrite L in L'.
  destruct l' as [|e0 [|e1 [|e2 [|e3 [|e4 [|e5 [|]]]]]]]; try done. do 6 eexists. split; [reflexivity|].
  intros e He. apply elem_of_list_lookup in He as [i Hi]. destruct (Forall2_lookup_r _ _ _ _ _ H Hi) as (x & _ & _ & ?). done.
Qed.
Lemma keeps_refl l : (∀ e, e ∈ l → length (ccurv e) = 12%nat) → keeps l l.
Proof. intros H. apply Forall_Forall2_diag, Forall_forall. intros e He. split; [by split_and!|by apply H]. Qed.
Lemma keeps_fold {X} (g : list (elem N) → X → list (elem N)) l xs : length l = 6%nat → (∀ e, e ∈ l → length (ccurv e) = 12%nat) →
  (∀ e0 e1 e2 e3 e4 e5 x, (∀ e, e ∈ [e0; e1; e2; e3; e4; e5] → length (ccurv e) = 12%nat) → keeps [e0; e1; e2; e3; e4; e5] (g [e0; e1; e2; e3; e4; e5] x)) →
  keeps l (foldl g l xs).
Proof.
  intros L H Hg. assert (∀ l', keeps l l' → keeps l (foldl g l' xs)) as Hf; [|by apply Hf, keeps_refl].
  induction xs as [|x xs IH]; intros l' K; [done|]. cbn. apply IH. destruct (keeps_six l l' K L) as (e0 & e1 & e2 & e3 & e4 & e5 & -> & H').
  eapply keeps_trans; [exact K|]. by apply Hg.
Qed.

(** ** Conditions of the six elements *)
Definition lget (l : list (elem N)) (n b f : nat) : option (bcrec N) := e ← l !! n; row ← bcs e !! b; row !! f.
Lemma lget_alter g l n b f n' b' f' :
  lget (alter (alter_ebc g b f) n l) n' b' f' = if decide ((n', b', f') = (n, b, f)) then g <$> lget l n' b' f' else lget l n' b' f'.
Proof.
  unfold lget. destruct (decide (n' = n)) as [->|Hn].
  - rewrite list_lookup_alter. destruct (l !! n) as [e|]; cbn; [|by destruct (decide _)].
    unfold alter_bcs. destruct (decide (b' = b)) as [->|Hb].
    + rewrite list_lookup_alter. destruct (bcs e !! b) as [row|]; cbn; [|by destruct (decide _)].
      destruct (decide (f' = f)) as [->|Hf]; [rewrite list_lookup_alter, decide_True by done; done|].
      rewrite list_lookup_alter_ne by done. rewrite decide_False by congruence. done.
    + rewrite list_lookup_alter_ne by done. rewrite decide_False by congruence. done.
  - rewrite list_lookup_alter_ne by done. rewrite decide_False by congruence. done.
Qed.
(** The instruction for one face. *)
Definition instr (ks : list (nat * nat * (bcrec N → bcrec N))) (n f : nat) : option (bcrec N → bcrec N) :=
  snd <$> List.find (λ x, (fst (fst x) =? n)%nat && (snd (fst x) =? f)%nat) ks.
Definition keys (ks : list (nat * nat * (bcrec N → bcrec N))) : list (nat * nat) := fst <$> ks.
Lemma links_get b ks l n b' f : NoDup (keys ks) →
  lget (foldl (λ l x, let '(n, f, g) := x in alter (alter_ebc g b f) n l) l ks) n b' f =
  if decide (b' = b) then match instr ks n f with Some g => g <$> lget l n b' f | None => lget l n b' f end else lget l n b' f.
Proof.
  revert l. induction ks as [|[[n0 f0] g0] ks IH]; intros l Hnd; [by destruct (decide _)|].
  cbn [keys fmap list_fmap fst] in Hnd. apply NoDup_cons in Hnd as [Hni Hnd]. cbn [foldl]. rewrite IH by done. rewrite lget_alter.
  unfold instr at 2. cbn [List.find fst snd].
  destruct (decide (b' = b)) as [->|Hb]; [|by rewrite decide_False by congruence].
  destruct (decide ((n, b, f) = (n0, b, f0))) as [[= -> ->]|Hne].
  - rewrite !Nat.eqb_refl. cbn [andb fmap option_fmap option_map snd].
    unfold instr. destruct (List.find _ ks) as [[[n1 f1] g1]|] eqn:E; [|done]. exfalso. apply List.find_some in E as [Hin E].
    apply andb_true_iff in E as [E1 E2]. apply Nat.eqb_eq in E1, E2. cbn in E1, E2. subst. apply Hni.
    apply elem_of_list_fmap. exists (n0, f0, g1). split; [done|]. by apply elem_of_list_In.
  - destruct ((n0 =? n)%nat && (f0 =? f)%nat) eqn:E; [|done]. exfalso. apply andb_true_iff in E as [E1 E2]. apply Nat.eqb_eq in E1, E2. by subst.
Qed.
Definition mid_upd (internal_bcs : bool) (nel2d iel kk : nat) (s : cutsides) (n f : nat) r : bcrec N :=
  if decide (f = s_l0 s ∨ f = s_l1 s) then mid_ref nel2d kk n r
  else if internal_bcs then match instr (mid_links nel2d iel s) n f with Some g => g r | None => r end else r.
Definition good_sides (s : cutsides) : Prop :=
  (s_hi s < 4 ∧ s_lo s < 4 ∧ s_l0 s < 4 ∧ s_l1 s < 4)%nat ∧ NoDup [s_hi s; s_lo s; s_l0 s; s_l1 s].
Lemma links_nodup nel2d iel s : good_sides s → NoDup (keys (mid_links nel2d iel s)).
Proof.
  destruct s as [hi lo l0 l1 c0 c1]. intros [(H1 & H2 & H3 & H4) Hnd]. cbn [s_hi s_lo s_l0 s_l1] in *.
  destruct hi as [|[|[|[|]]]]; [| | | |lia]; (destruct lo as [|[|[|[|]]]]; [| | | |lia]);
    try (exfalso; apply NoDup_cons in Hnd as [Hnd _]; apply Hnd; by left);
    apply (bool_decide_unpack _); vm_compute; exact I.
Qed.
Lemma mid_bcs_get ib nel2d iel kk s l b n b' f : good_sides s →
  lget (mid_bcs ib nel2d iel kk s l b) n b' f =
  if decide (b' = b) then mid_upd ib nel2d iel kk s n f <$> lget l n b' f else lget l n b' f.
Proof.
  intros Hs. unfold mid_bcs.
  set (l1 := if ib then _ else l).
  assert (lget (imap (λ iell e, alter_ebc (mid_ref nel2d kk iell) b (s_l1 s) (alter_ebc (mid_ref nel2d kk iell) b (s_l0 s) e)) l1) n b' f =
    if decide (b' = b ∧ (f = s_l0 s ∨ f = s_l1 s)) then mid_ref nel2d kk n <$> lget l1 n b' f else lget l1 n b' f) as ->.
  { unfold lget at 1. rewrite list_lookup_imap. unfold lget. destruct (l1 !! n) as [e|]; cbn; [|by destruct (decide _)].
    unfold alter_bcs. destruct (decide (b' = b)) as [->|Hb].
    - rewrite !list_lookup_alter. destruct (bcs e !! b) as [row|]; cbn; [|by destruct (decide _)].
      destruct Hs as [_ Hs]. assert (s_l0 s ≠ s_l1 s) as Hne.
      { intros E. do 2 apply NoDup_cons in Hs as [_ Hs]. apply NoDup_cons in Hs as [Hs _]. apply Hs. rewrite E. by left. }
      destruct (decide (f = s_l1 s)) as [->|H1].
      + rewrite list_lookup_alter, list_lookup_alter_ne by done. rewrite decide_True by auto. done.
      + rewrite list_lookup_alter_ne by done. destruct (decide (f = s_l0 s)) as [->|H0].
        * rewrite list_lookup_alter. rewrite decide_True by auto. done.
        * rewrite list_lookup_alter_ne by done. rewrite decide_False by tauto. done.
    - rewrite !list_lookup_alter_ne by done. rewrite decide_False by tauto. done. }
  assert (lget l1 n b' f = if decide (b' = b) then if ib then match instr (mid_links nel2d iel s) n f with Some g => g <$> lget l n b' f | None => lget l n b' f end
    else lget l n b' f else lget l n b' f) as ->.
  { unfold l1. destruct ib; [rewrite links_get by (by apply links_nodup); done|by destruct (decide _)]. }
  destruct (decide (b' = b)) as [->|Hb]; [|by rewrite decide_False by tauto].
  unfold mid_upd. destruct (decide (f = s_l0 s ∨ f = s_l1 s)) as [Hf|Hf].
  - rewrite decide_True by done. destruct ib; [|done].
    assert (instr (mid_links nel2d iel s) n f = None) as ->; [|done].
    unfold instr. destruct (List.find _ _) as [[[n1 f1] g1]|] eqn:E; [|done]. exfalso. apply List.find_some in E as [Hin E].
    apply andb_true_iff in E as [_ E]. apply Nat.eqb_eq in E. cbn in E. subst f1.
    apply (elem_of_list_In (mid_links nel2d iel s)) in Hin. apply (elem_of_list_fmap_1 (λ x, snd (fst x))) in Hin. cbn in Hin.
    destruct Hs as [(H1 & H2 & H3 & H4) Hs]. rewrite !NoDup_cons, !not_elem_of_cons in Hs.
    rewrite !elem_of_cons in Hin. clear -Hin Hf H1 H2 H3 H4 Hs.
    destruct Hs as ((? & ? & ? & _) & (? & ? & _) & _).
    repeat (destruct Hin as [Hin|Hin]; [lia|]). by apply elem_of_nil in Hin.
  - rewrite decide_False by tauto. destruct ib; [|by apply fmap_id_opt].
    destruct (instr _ _ _); [done|by apply fmap_id_opt].
Qed.
Lemma mid_bcs_all ib nel2d iel kk s l nb n b f : good_sides s → (b < nb)%nat →
  lget (foldl (mid_bcs ib nel2d iel kk s) l (range nb)) n b f = mid_upd ib nel2d iel kk s n f <$> lget l n b f.
Proof.
  intros Hs Hb. apply (foldl_view_in (mid_bcs ib nel2d iel kk s) (λ l, lget l n b f) (fmap (mid_upd ib nel2d iel kk s n f)) (λ _, True) _ l b); try done.
  - apply NoDup_range.
  - by apply elem_of_range.
  - intros l' b' _ _ Hne. rewrite mid_bcs_get by done. by rewrite decide_False.
  - intros l' _. rewrite mid_bcs_get by done. by rewrite decide_True.
Qed.
(** Only the conditions change. *)
Definition same_bshape (l l' : list (elem N)) : Prop :=
  Forall2 (λ e e', strip_elem e' = strip_elem e ∧ length <$> bcs e' = length <$> bcs e) l l'.
Lemma bshape_ebc g b f e : strip_elem (alter_ebc g b f e) = strip_elem e ∧ length <$> bcs (alter_ebc g b f e) = length <$> bcs e.
Proof.
  split; [done|]. cbn. unfold alter_bcs. rewrite (list_alter_fmap _ _ id); [by apply list_alter_id|].
  apply Forall_forall. intros row _. cbn. by rewrite alter_length.
Qed.
Lemma same_bshape_refl l : same_bshape l l.
Proof. apply Forall_Forall2_diag, Forall_forall. done. Qed.
Lemma same_bshape_trans l l' l'' : same_bshape l l' → same_bshape l' l'' → same_bshape l l''.
Proof.
  intros H. revert l''. induction H as [|e e' l l' [H1 H2] H IH]; intros l'' K; [done|].
  apply Forall2_cons_inv_l in K as (e'' & t & [K1 K2] & K & ->). constructor; [split; congruence|by apply IH].
Qed.
Lemma mid_bcs_shape ib nel2d iel kk s l xs : same_bshape l (foldl (mid_bcs ib nel2d iel kk s) l xs).
Proof.
  apply (foldl_inv _ (λ l', same_bshape l l')); [apply same_bshape_refl|]. intros l' b _ Hl. eapply same_bshape_trans; [exact Hl|].
  unfold mid_bcs. set (l1 := if ib then _ else l'). assert (same_bshape l' l1) as H1.
  { unfold l1. destruct ib; [|apply same_bshape_refl]. apply (foldl_inv _ (λ l2, same_bshape l' l2)); [apply same_bshape_refl|].
    intros l2 [[n f] g] _ H2. eapply same_bshape_trans; [exact H2|]. apply Forall2_same_length_lookup. split; [by rewrite alter_length|].
    intros i x y Hx Hy. destruct (decide (i = n)) as [->|].
    - rewrite list_lookup_alter, Hx in Hy. cbn in Hy. apply (inj Some) in Hy as <-. apply bshape_ebc.
    - rewrite list_lookup_alter_ne, Hx in Hy by done. apply (inj Some) in Hy as <-. done. }
  eapply same_bshape_trans; [exact H1|]. apply Forall2_same_length_lookup. split; [by rewrite imap_length|].
  intros i x y Hx Hy. rewrite list_lookup_imap, Hx in Hy. cbn in Hy. apply (inj Some) in Hy as <-.
  destruct (bshape_ebc (mid_ref nel2d kk i) b (s_l0 s) x) as [E1 E2].
  destruct (bshape_ebc (mid_ref nel2d kk i) b (s_l1 s) (alter_ebc (mid_ref nel2d kk i) b (s_l0 s) x)) as [E3 E4]. split; congruence.
Qed.
End proofs.
