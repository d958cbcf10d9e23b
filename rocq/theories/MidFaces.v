(** Proofs about [extrude_mid]: the faces the six elements share. *)
From Coq Require Import Lia.
From Verif Require Import Base Mesh Core Tools Curve Mid MeshLemmas MeshSpec CheckProofs OpsProofs GeoLaws BoxProofs
  ExtrudeSpec ExtrudeProofs MidSpec MidProofs MidBlock MidMesh MidGeo.
Open Scope Z_scope.

Ltac sides := repeat match goal with
  | |- context [mid_sides ?a ?b] => let s := eval vm_compute in (mid_sides a b) in change (mid_sides a b) with s
  | H : context [mid_sides ?a ?b] |- _ => let s := eval vm_compute in (mid_sides a b) in change (mid_sides a b) with s in H
  end.

Section geo.
Context {A : arith}.
Notation N := (num A).
Notation vec := (vec (A:=A)).
Implicit Types (e : elem N) (r : bcrec N).

(** The sides of the cut element. *)
Lemma cut_sides f e lo hi : cut_across f e → orient f e = Some (lo, hi) →
  (lo, hi) ∈ cuts ∧ (∀ j i, (j < 2)%nat → (i < 2)%nat → low f e j i = bool_decide ((j, i) ∈ lo)) ∧
  (∀ g, side_cut f e g ↔ g = s_l0 (mid_sides lo hi) ∨ g = s_l1 (mid_sides lo hi)) ∧
  side_low f e (s_lo (mid_sides lo hi)) = (true, true) ∧ side_low f e (s_hi (mid_sides lo hi)) = (false, false).
Proof.
  intros Hc Ho. destruct (cut_orient f e Hc) as (lo' & hi' & Ho' & Hin & Hlow). rewrite Ho in Ho'. injection Ho' as <- <-.
  split; [done|]. split; [done|]. unfold side_cut, side_low, side_ends.
  unfold cuts in Hin. rewrite !elem_of_cons, elem_of_nil in Hin.
  pose proof (Hlow 0%nat 0%nat ltac:(lia) ltac:(lia)) as L1. pose proof (Hlow 0%nat 1%nat ltac:(lia) ltac:(lia)) as L2.
  pose proof (Hlow 1%nat 0%nat ltac:(lia) ltac:(lia)) as L3. pose proof (Hlow 1%nat 1%nat ltac:(lia) ltac:(lia)) as L4.
  destruct Hin as [Hin|[Hin|[Hin|[Hin|[]]]]]; injection Hin as -> ->;
    vm_compute (bool_decide _) in L1; vm_compute (bool_decide _) in L2; vm_compute (bool_decide _) in L3; vm_compute (bool_decide _) in L4; sides; cbn -[low];
    (split; [|by rewrite ?L1, ?L2, ?L3, ?L4]);
    intros g; (destruct g as [|[|[|[|g]]]]; cbn -[low]; rewrite ?L1, ?L2, ?L3, ?L4; split; intros Hg;
      first [lia | by left | by right | split; [lia|done] | by destruct Hg as [_ Hg] | by destruct Hg ]).
Qed.
Definition mid_of (s : cutsides) (m0 m1 : vec) (g : nat) : vec := if bool_decide (g = s_l0 s) then m0 else m1.
Lemma side_mid_of lo hi (m0 m1 : vec) g c : (lo, hi) ∈ cuts → g = s_l0 (mid_sides lo hi) ∨ g = s_l1 (mid_sides lo hi) →
  c = fst (side_ends g) ∨ c = snd (side_ends g) → side_mid lo hi m0 m1 c = mid_of (mid_sides lo hi) m0 m1 g.
Proof.
  intros Hin Hg Hc. unfold cuts in Hin. rewrite !elem_of_cons, elem_of_nil in Hin.
  destruct Hin as [Hin|[Hin|[Hin|[Hin|[]]]]]; injection Hin as -> ->; sides; cbn in Hg; destruct Hg as [-> | ->]; cbn in Hc; destruct Hc as [-> | ->]; reflexivity.
Qed.
(** Every corner is at the end of a cut side. *)
Lemma corner_side lo hi j i : (lo, hi) ∈ cuts → (j < 2)%nat → (i < 2)%nat →
  ∃ g, (g = s_l0 (mid_sides lo hi) ∨ g = s_l1 (mid_sides lo hi)) ∧ (fst (side_ends g) = (j, i) ∨ snd (side_ends g) = (j, i)).
Proof.
  intros Hin Hj Hi. unfold cuts in Hin. rewrite !elem_of_cons, elem_of_nil in Hin.
  destruct Hin as [Hin|[Hin|[Hin|[Hin|[]]]]]; injection Hin as -> ->; sides; cbn;
    (destruct j as [|[|]]; [| |lia]); (destruct i as [|[|]]; [| |lia]);
    first [exists 0%nat; by cbn; auto|exists 1%nat; by cbn; auto|exists 2%nat; by cbn; auto|exists 3%nat; by cbn; auto].
Qed.

Lemma block_sixth f ib nel2d nb kk i zz e l n x : four_points e → cut_across f e → block f ib nel2d nb kk i zz e l → l !! n = Some x →
  is_sixth f e zz n x.
Proof.
  intros H4 Hc (lo & hi & m0 & m1 & a0 & a1 & Ho & E0 & E1 & F & _) Hx.
  destruct (cut_sides f e lo hi Hc Ho) as (Hin & Hlow & Hsc & _).
  destruct (Forall2_lookup_r _ _ _ _ _ F Hx) as (x0 & Hx0 & S1 & S2 & _).
  assert (eshape x0 = (2, 2, 2)%nat) as Hs0.
  { unfold six_of, mid_six in Hx0. rewrite list_lookup_fmap in Hx0. apply fmap_Some in Hx0 as (? & _ & ->). done. }
  split; [congruence|]. intros l0 j i0 Hl Hj Hi. rewrite Hlow by done.
  assert (point x l0 j i0 = Some (vtx e lo hi m0 m1 zz n l0 (j, i0))) as Hp.
  { rewrite <- (six_point e lo hi m0 m1 zz n x0 l0 j i0) by done. unfold point. by rewrite S1, S2. }
  unfold vtx in Hp. destruct (place n l0 (bool_decide ((j, i0) ∈ lo))) as [at_cut h]. unfold zat in Hp.
  destruct at_cut.
  - destruct (side_mid lo hi m0 m1 (j, i0)) as [[px py] pz] eqn:Ep. exists px, py, pz. split; [|done].
    destruct (corner_side lo hi j i0 Hin Hj Hi) as (g & Hg & Hends).
    rewrite (side_mid_of lo hi m0 m1 g) in Ep by (done || (destruct Hends; auto)).
    unfold cut_point. unfold mid_of in Ep. destruct (decide (g = s_l0 (mid_sides lo hi))) as [Eg|Hg0]; [rewrite bool_decide_true in Ep by done|rewrite bool_decide_false in Ep by done].
    + exists g, a0. split; [by apply Hsc|]. split; [done|]. by rewrite Eg, E0, Ep.
    + destruct Hg as [?|Eg]; [done|]. exists g, a1. split; [apply Hsc; by right|]. split; [done|]. by rewrite Eg, E1, Ep.
  - rewrite (corner_point e j i0) by done. destruct (corner e (j, i0)) as [[px py] pz]. exists px, py, pz. done.
Qed.

(** ** Faces inside a block and between blocks *)
(** The face that touches face g of element j: the group (one lower: 0, the same: 1, one higher: 2), the element, the face. *)
Definition touching (s : cutsides) (j g : nat) : option (nat * nat * nat) :=
  snd <$> List.find (λ x, (fst (fst x) =? j)%nat && (snd (fst x) =? g)%nat)
    [((0, 4), (0, 5, 5)); ((0, 5), (1, 2, 4)); ((1, 4), (0, 4, 5)); ((1, 5), (1, 2, s_hi s)); ((2, 4), (1, 0, 5)); ((2, 5), (1, 3, 4));
     ((3, 4), (1, 2, 5)); ((3, 5), (1, 5, 4)); ((4, 4), (1, 3, s_hi s)); ((4, 5), (2, 1, 4)); ((5, 4), (1, 3, 5)); ((5, 5), (2, 0, 4));
     ((0, s_hi s), (1, 1, s_lo s)); ((1, s_lo s), (1, 0, s_hi s)); ((2, s_hi s), (1, 1, 5)); ((3, s_hi s), (1, 4, 4));
     ((4, s_lo s), (1, 5, s_hi s)); ((5, s_hi s), (1, 4, s_lo s))]%nat.
Definition for_cuts (P : list (nat * nat) → list (nat * nat) → nat → nat → bool) : bool :=
  forallb (λ '(lo, hi), forallb (λ j, forallb (P lo hi j) (range 6)) (range 6)) cuts.
Lemma for_cuts_spec P lo hi j g : for_cuts P = true → (lo, hi) ∈ cuts → (j < 6)%nat → (g < 6)%nat → P lo hi j g = true.
Proof.
  intros H Hin Hj Hg. unfold for_cuts in H. rewrite forallb_forall in H. specialize (H (lo, hi) (proj1 (elem_of_list_In _ _) Hin)). cbv beta iota in H.
  rewrite forallb_forall in H. specialize (H j (proj1 (elem_of_list_In _ _) (proj2 (elem_of_range _ _) Hj))). rewrite forallb_forall in H.
  apply H. by apply elem_of_list_In, elem_of_range.
Qed.
Lemma touching_sym lo hi j g d j' g' : (lo, hi) ∈ cuts → (j < 6)%nat → (g < 6)%nat → touching (mid_sides lo hi) j g = Some (d, j', g') →
  (d ≤ 2)%nat ∧ (j' < 6)%nat ∧ (g' < 6)%nat ∧ touching (mid_sides lo hi) j' g' = Some (2 - d, j, g)%nat ∧
  (d = 0 → g = 4 ∧ (j = 0 ∨ j = 1))%nat ∧ (d = 2 → g = 5 ∧ (j = 4 ∨ j = 5))%nat.
Proof.
  intros Hin Hj Hg E.
  pose (P := λ lo hi j g, match touching (mid_sides lo hi) j g with
    | Some (d, j', g') => bool_decide ((d ≤ 2)%nat ∧ (j' < 6)%nat ∧ (g' < 6)%nat ∧ touching (mid_sides lo hi) j' g' = Some (2 - d, j, g)%nat ∧
       (d = 0 → g = 4 ∧ (j = 0 ∨ j = 1))%nat ∧ (d = 2 → g = 5 ∧ (j = 4 ∨ j = 5))%nat)
    | None => true end).
  assert (for_cuts P = true) as H by (vm_compute; reflexivity).
  pose proof (for_cuts_spec P lo hi j g H Hin Hj Hg) as HP. unfold P in HP. rewrite E in HP. by apply bool_decide_eq_true in HP.
Qed.
(** The ends of the stack and the outer sides. *)
Lemma touching_ends lo hi j : (lo, hi) ∈ cuts → (j < 6)%nat → 
  (∃ d j' g', touching (mid_sides lo hi) j 4 = Some (d, j', g') ∧ (j = 0 ∨ j = 1 → d = 0)%nat) ∧
  (∃ d j' g', touching (mid_sides lo hi) j 5 = Some (d, j', g') ∧ (j = 4 ∨ j = 5 → d = 2)%nat) ∧
  touching (mid_sides lo hi) j (s_l0 (mid_sides lo hi)) = None ∧ touching (mid_sides lo hi) j (s_l1 (mid_sides lo hi)) = None.
Proof.
  intros Hin Hj. unfold cuts in Hin. rewrite !elem_of_cons, elem_of_nil in Hin.
  destruct Hin as [Hin|[Hin|[Hin|[Hin|[]]]]]; injection Hin as -> ->;
    (destruct j as [|[|[|[|[|[|]]]]]]; [| | | | | |lia]); (split_and!; [do 3 eexists; split; [reflexivity|lia]|do 3 eexists; split; [reflexivity|lia]|reflexivity|reflexivity]).
Qed.

(** A vertex as a symbol: corner 2 j + i or one of the two middles; the height. *)
Definition tok (lo hi : list (nat * nat)) (n l : nat) (c : nat * nat) : nat * nat :=
  let '(at_cut, h) := place n l (bool_decide (c ∈ lo)) in
  (if at_cut then if bool_decide (lo !! 0%nat = Some c ∨ hi !! 0%nat = Some c) then 4 else 5 else 2 * fst c + snd c, h)%nat.
Definition tok_point e (m0 m1 : vec) (zz : nat → N) (t : nat * nat) : vec :=
  zat (nth (fst t) [corner e (0, 0); corner e (0, 1); corner e (1, 0); corner e (1, 1); m0; m1] m0)%nat (zz (snd t)).
Lemma vtx_tok e lo hi m0 m1 zz n l j i : (j < 2)%nat → (i < 2)%nat →
  vtx e lo hi m0 m1 zz n l (j, i) = tok_point e m0 m1 zz (tok lo hi n l (j, i)).
Proof.
  intros Hj Hi. unfold vtx, tok, tok_point, side_mid. destruct (place _ _ _) as [[|] h]; cbn [fst snd]; f_equal.
  - by destruct (bool_decide _).
  - destruct j as [|[|]]; [| |lia]; (destruct i as [|[|]]; [| |lia]); reflexivity.
Qed.
Definition up (d : nat) (t : nat * nat) : nat * nat := (fst t, 4 * d + snd t)%nat.
Definition face_toks (lo hi : list (nat * nat)) (n g d : nat) : list (nat * nat) :=
  (λ '(l, j, i), up d (tok lo hi n l (j, i))) <$> face_vertices g.
Lemma touching_toks lo hi j g d j' g' : (lo, hi) ∈ cuts → (j < 6)%nat → (g < 6)%nat → touching (mid_sides lo hi) j g = Some (d, j', g') →
  face_toks lo hi j g 1 ≡ₚ face_toks lo hi j' g' d.
Proof.
  intros Hin Hj Hg E.
  pose (P := λ lo hi j g, match touching (mid_sides lo hi) j g with
    | Some (d, j', g') => bool_decide (face_toks lo hi j g 1 ⊆+ face_toks lo hi j' g' d ∧ length (face_toks lo hi j g 1) = length (face_toks lo hi j' g' d))
    | None => true end).
  assert (for_cuts P = true) as H by (vm_compute; reflexivity).
  pose proof (for_cuts_spec P lo hi j g H Hin Hj Hg) as HP. unfold P in HP. rewrite E in HP. apply bool_decide_eq_true in HP as [H1 H2].
  apply submseteq_Permutation_length_eq; [lia|done].
Qed.
Lemma face_vertices_lt g l j i : (l, j, i) ∈ face_vertices g → (l < 2 ∧ j < 2 ∧ i < 2)%nat.
Proof.
  intros H. assert (forallb (λ g, forallb (λ '(l, j, i), (l <? 2)%nat && (j <? 2)%nat && (i <? 2)%nat) (face_vertices g)) (range 6) = true) as C by (vm_compute; reflexivity).
  destruct (decide (g < 6)%nat) as [Hg|Hg].
  - rewrite forallb_forall in C. specialize (C g (proj1 (elem_of_list_In _ _) (proj2 (elem_of_range _ _) Hg))). rewrite forallb_forall in C.
    specialize (C (l, j, i) (proj1 (elem_of_list_In _ _) H)). cbv beta iota in C. rewrite !andb_true_iff, !Nat.ltb_lt in C. tauto.
  - unfold face_vertices in H. rewrite nth_overflow in H by (cbn; lia). by apply elem_of_nil in H.
Qed.
Lemma face_points_toks e lo hi m0 m1 zz Z n x g d : (lo, hi) ∈ cuts → 
  (∀ l j i, (l < 2)%nat → (j < 2)%nat → (i < 2)%nat → point x l j i = Some (vtx e lo hi m0 m1 zz n l (j, i))) →
  (∀ h, zz h = Z (4 * d + h)%nat) → face_points x g = (λ t, Some (tok_point e m0 m1 Z t)) <$> face_toks lo hi n g d.
Proof.
  intros Hin Hp HZ. unfold face_points, face_toks. rewrite <- list_fmap_compose. apply list_fmap_ext. intros ? [[l j] i] Hx.
  apply elem_of_list_lookup_2, face_vertices_lt in Hx as (Hl & Hj & Hi). cbn. rewrite Hp by done. rewrite vtx_tok by done.
  unfold tok_point, up. cbn [fst snd]. by rewrite HZ.
Qed.
End geo.

