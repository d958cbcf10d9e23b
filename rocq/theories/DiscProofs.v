(** gen_circle. *)
From Coq Require Import Lia.
From Verif Require Import Base Mesh Core Tools Disc MeshLemmas MeshSpec CheckProofs OpsProofs GeoLaws BoxSpec BoxProofs ExtrudeSpec MergeSpec MergeProofs.
Open Scope Z_scope.

Lemma range_last n : range (S n) = range n ++ [n].
Proof. unfold range. by rewrite seq_S. Qed.
Lemma length_range n : length (range n) = n.
Proof. apply seq_length. Qed.

Section disc.
Context {A : arith}.
Local Notation N := (num A).
Implicit Types (e : elem N) (m : hexa N).

(** ** Appending *)
Lemma offset_strip off k m m' : offset_connectivity off k m = Ok m' → strip m' = strip m ∧ bshape m' = bshape m.
Proof.
  unfold offset_connectivity. destruct (upd_loop _ _ _) as [s1|] eqn:E1; [|done]. cbn [rbind].
  destruct (upd_loop _ s1 _) as [s2|] eqn:E2; [|done]. cbn [rbind]. intros H. assert (m' = s2.1) as -> by congruence.
  destruct s1 as [m1 n1], s2 as [m2 n2]. destruct (upd_loop_strip _ _ _ _ E1) as [S1 B1]. destruct (upd_loop_strip _ _ _ _ E2) as [S2 B2]. cbn [fst] in *. split; congruence.
Qed.
Lemma merge_append_inv self other m0 : merge_append self other = Ok m0 → ∃ add, strip add = strip other ∧ bshape add = bshape other ∧
  m0 = appended self add (elmap self ++ ((λ k, k + Z.of_nat (nel self)) <$> elmap other)) (ncurv self + ncurv other) (nel self + nel other).
Proof.
  unfold merge_append. destruct (offset_connectivity _ _ _) as [add|] eqn:E; [|done]. cbn [rbind]. intros H. exists add.
  destruct (offset_strip _ _ _ _ E). split; [done|]. split; [done|]. unfold appended. congruence.
Qed.
Lemma disc_merge_inv ib self other m : disc_merge ib self other = Ok m → is_append self other m.
Proof.
  unfold disc_merge. destruct (merge _ _ _ _ _) as [m1 [n|]] eqn:E; [|done]. cbn [rbind]. intros H. assert (m1 = m) as -> by congruence. clear H.
  assert (ndim self = ndim other ∧ head (lr1 self) = head (lr1 other) ∧ is_Some (head (lr1 self)) ∧ ∃ m0, merge_append self other = Ok m0) as (Hd & Hl & Hs & m0 & Em).
  { unfold merge in E. destruct (Nat.eqb_spec (ndim self) (ndim other)) as [Hd|]; cbn [negb] in E; [|congruence].
    destruct (lr1 self) as [|a ?]; [congruence|]. destruct (lr1 other) as [|b ?]; [congruence|]. destruct (Nat.eqb_spec a b) as [->|]; cbn [negb] in E; [|congruence].
    destruct (merge_append self other) as [m0|]; [|congruence]. cbn. eauto 10. }
  destruct (merge_append_inv _ _ _ Em) as (add & S & B & E0). destruct (merge_strip (nlit 1 100) true (negb ib) self other m0 Em Hd Hl Hs) as [S1 _].
  rewrite E in S1. cbn [fst] in S1. exact (is_append_of self other add m0 m _ S eq_refl E0 S1).
Qed.

(** ** One block *)
Lemma fields_set_elems m m' : set_elems [] m' = set_elems [] m → ndim m' = ndim m ∧ nel m' = nel m ∧ ncurv m' = ncurv m ∧ nbc m' = nbc m ∧ var m' = var m ∧
  lr1kind m' = lr1kind m ∧ lr1 m' = lr1 m ∧ elmap m' = elmap m.
Proof. intros H. unfold set_elems in H. injection H. intros. done. Qed.
Lemma strip_rest m m' : strip m' = strip m → set_elems [] m' = set_elems [] m.
Proof. intros H. apply (f_equal (set_elems [])) in H. exact H. Qed.

Definition placing (ni : nat) (place : nat → nat → elem N → elem N) m (x : nat * nat) : hexa N :=
  let '(i, j) := x in set_elems (alter (place i j) (elnum i j ni) (elems m)) m.
Lemma placing_get ni nj place m i j : (i < ni)%nat → (j < nj)%nat →
  elems (foldl (placing ni place) m (prod2 (range ni) (range nj))) !! elnum i j ni = place i j <$> elems m !! elnum i j ni.
Proof.
  intros Hi Hj.
  apply (foldl_view_in (placing ni place) (λ m, elems m !! elnum i j ni) (λ o, place i j <$> o) (λ _, True) _ _ (i, j)).
  - apply NoDup_prod2; apply NoDup_range.
  - apply elem_of_prod2. rewrite !elem_of_range. done.
  - done.
  - done.
  - intros s [i' j'] _ Hk Hne. apply elem_of_prod2 in Hk. rewrite !elem_of_range in Hk. cbn. rewrite list_lookup_alter_ne; [done|].
    intros Hq. apply Hne. apply elnum_inj in Hq as [-> ->]; [done|tauto|tauto].
  - intros s _. cbn. by rewrite list_lookup_alter.
Qed.
Lemma placing_rest ni place l m : set_elems [] (foldl (placing ni place) m l) = set_elems [] m ∧ length (elems (foldl (placing ni place) m l)) = length (elems m).
Proof.
  apply (foldl_inv _ (λ m', set_elems [] m' = set_elems [] m ∧ length (elems m') = length (elems m))); [done|].
  intros s [i j] _ [H1 H2]. split; [exact H1|]. cbn. by rewrite alter_length.
Qed.
Lemma connect_strip ni nj nb m : strip (disc_connect ni nj nb m) = strip m ∧ bshape (disc_connect ni nj nb m) = bshape m.
Proof.
  unfold disc_connect. apply (foldl_inv _ (λ m', strip m' = strip m ∧ bshape m' = bshape m)); [done|].
  intros s [[i j] b] _ [H1 H2]. destruct (box_internal_strip ni nj [(b, i, j)] s) as [S B]. cbn [foldl] in S, B. rewrite S, B. done.
Qed.
Lemma bcs_strip ni nj b0 b1 b2 b3 m b : strip (disc_bcs ni nj b0 b1 b2 b3 m b) = strip m ∧ bshape (disc_bcs ni nj b0 b1 b2 b3 m b) = bshape m.
Proof.
  unfold disc_bcs.
  apply (foldl_inv _ (λ m', strip m' = strip m ∧ bshape m' = bshape m)).
  - apply (foldl_inv _ (λ m', strip m' = strip m ∧ bshape m' = bshape m)); [done|].
    intros m1 k _ [H3 H4]. rewrite !strip_alter, !bshape_alter. done.
  - intros m1 k _ [H3 H4]. rewrite !strip_alter, !bshape_alter. done.
Qed.
Lemma all_bcs_strip ni nj b0 b1 b2 b3 l m : strip (foldl (disc_bcs ni nj b0 b1 b2 b3) m l) = strip m ∧ bshape (foldl (disc_bcs ni nj b0 b1 b2 b3) m l) = bshape m.
Proof.
  apply (foldl_inv _ (λ m', strip m' = strip m ∧ bshape m' = bshape m)); [done|].
  intros m1 b _ [H1 H2]. destruct (bcs_strip ni nj b0 b1 b2 b3 m1 b) as [-> ->]. done.
Qed.
Definition fresh (var : list nat) (nb : nat) : elem N := new_elem (nofZ 0) var (2, 2, 1)%nat nb.
Lemma disc_block_strip bo ni nj place var nb ib b0 b1 b2 b3 :
  let m0 := foldl (placing ni place) (new_hexa (nofZ 0) bo 2 (ni * nj) PyList [2; 2; 1]%nat var nb) (prod2 (range ni) (range nj)) in
  strip (disc_block bo ni nj place var nb ib b0 b1 b2 b3) = strip m0 ∧ bshape (disc_block bo ni nj place var nb ib b0 b1 b2 b3) = bshape m0.
Proof.
  intros m0. unfold disc_block. cbv zeta. destruct (all_bcs_strip ni nj b0 b1 b2 b3 (range nb) (if ib then disc_connect ni nj nb m0 else m0)) as [S B].
  destruct (connect_strip ni nj nb m0) as [S1 B1].
  split; [refine (eq_trans S _)|refine (eq_trans B _)]; destruct ib; done.
Qed.
Lemma disc_block_spec bo ni nj place var nb ib b0 b1 b2 b3 :
  let m := disc_block bo ni nj place var nb ib b0 b1 b2 b3 in
  set_elems [] m = set_elems [] (new_hexa (nofZ 0) bo 2 (ni * nj) PyList [2; 2; 1]%nat var nb) ∧ length (elems m) = (ni * nj)%nat ∧
  ∀ i j, (i < ni)%nat → (j < nj)%nat → ∃ e, elems m !! elnum i j ni = Some e ∧ same_elem (place i j (fresh var nb)) e.
Proof.
  intros m. destruct (disc_block_strip bo ni nj place var nb ib b0 b1 b2 b3) as [S _]. fold m in S.
  destruct (placing_rest ni place (prod2 (range ni) (range nj)) (new_hexa (nofZ 0) bo 2 (ni * nj) PyList [2; 2; 1]%nat var nb)) as [R1 R2].
  split; [rewrite (strip_rest _ _ S); exact R1|]. split.
  - pose proof (strip_fields _ _ S) as (_ & _ & _ & _ & _ & _ & _ & _ & ->). rewrite R2. apply replicate_length.
  - intros i j Hi Hj. pose proof (placing_get ni nj place (new_hexa (nofZ 0) bo 2 (ni * nj) PyList [2; 2; 1]%nat var nb) i j Hi Hj) as G.
    unfold new_hexa in G at 2. cbn [elems] in G. rewrite lookup_replicate_2 in G by (by apply elnum_lt). cbn [fmap option_fmap option_map] in G.
    destruct (strip_elem_lookup _ _ _ _ (eq_sym S) G) as (e & He & Hs). exists e. split; [exact He|]. exact Hs.
Qed.

(** ** Corners and curvature of the elements of a block *)
Definition corners e (p00 p01 p10 p11 : N * N) : Prop :=
  eshape e = (2, 2, 1)%nat ∧ pos e = [[p00.1; p01.1; p10.1; p11.1]; [p00.2; p01.2; p10.2; p11.2]; replicate 4 (nofZ 0)].
Definition no_curves : list string * list (list N) := (replicate 12 ""%string, replicate 12 (replicate 5 (nofZ 0))).
Definition outer_curve (r : N) : list string * list (list N) :=
  (<[1%nat := "C"%string]> (replicate 12 ""%string), alter (<[0%nat := r]>) 1%nat (replicate 12 (replicate 5 (nofZ 0)))).
Definition blocked (l : list (elem N)) (ni nj : nat) (corner : nat → nat → N * N) (cv : nat → nat → list string * list (list N)) : Prop :=
  length l = (ni * nj)%nat ∧ ∀ i j, (i < ni)%nat → (j < nj)%nat → ∃ e, l !! elnum i j ni = Some e ∧
    corners e (corner j i) (corner j (i + 1)%nat) (corner (j + 1)%nat i) (corner (j + 1)%nat (i + 1)%nat) ∧ ccurv e = (cv i j).1 ∧ curv e = (cv i j).2.
Lemma same_elem_fields e e' : same_elem e e' → eshape e' = eshape e ∧ pos e' = pos e ∧ vel e' = vel e ∧ pres e' = pres e ∧ temp e' = temp e ∧ scal e' = scal e ∧ curv e' = curv e ∧ ccurv e' = ccurv e.
Proof. unfold same_elem, set_bcs. intros H. injection H. intros. done. Qed.
Lemma blocked_same l l' ni nj corner cv : Forall2 same_elem l l' → blocked l ni nj corner cv → blocked l' ni nj corner cv.
Proof.
  intros F [L B]. split; [by rewrite <- (Forall2_length _ _ _ F)|]. intros i j Hi Hj. destruct (B i j Hi Hj) as (e & He & [C1 C2] & C3 & C4).
  destruct (Forall2_lookup_l _ _ _ _ _ F He) as (e' & He' & S). exists e'. split; [done|]. apply same_elem_fields in S as (S1 & S2 & _ & _ & _ & _ & S7 & S8).
  split; [split; congruence|]. split; congruence.
Qed.
Lemma set_corners_fresh p00 p01 p10 p11 var nb : corners (set_corners p00 p01 p10 p11 (fresh var nb)) p00 p01 p10 p11.
Proof. split; done. Qed.
Lemma block_blocked bo ni nj (corner : nat → nat → N * N) var nb ib b0 b1 b2 b3 :
  blocked (elems (disc_block bo ni nj (λ i j e, set_corners (corner j i) (corner j (i + 1)%nat) (corner (j + 1)%nat i) (corner (j + 1)%nat (i + 1)%nat) e)
    var nb ib b0 b1 b2 b3)) ni nj corner (λ _ _, no_curves).
Proof.
  match goal with |- blocked (elems (disc_block _ _ _ ?pl _ _ _ _ _ _ _)) _ _ _ _ => destruct (disc_block_spec bo ni nj pl var nb ib b0 b1 b2 b3) as (_ & L & B) end.
  split; [exact L|]. intros i j Hi Hj. destruct (B i j Hi Hj) as (e & He & S). exists e. split; [exact He|].
  apply same_elem_fields in S as (S1 & S2 & _ & _ & _ & _ & S7 & S8). split; [|rewrite S7, S8; done]. split; [rewrite S1; done|rewrite S2; done].
Qed.
Definition bend (r : N) e : elem N := set_curv (alter (<[0%nat := r]>) 1%nat (curv e)) (set_ccurv (<[1%nat := "C"%string]> (ccurv e)) e).
Definition is_outer (n no k : nat) : bool := existsb (λ j, (k =? elnum (no - 1) j no)%nat) (range n).
Lemma is_outer_iff n no k : is_outer n no k = true ↔ ∃ j, (j < n)%nat ∧ k = elnum (no - 1) j no.
Proof.
  unfold is_outer. rewrite existsb_exists. split.
  - intros (j & Hj & E). apply elem_of_list_In, elem_of_range in Hj. apply Nat.eqb_eq in E. eauto.
  - intros (j & Hj & ->). exists j. split; [by apply elem_of_list_In, elem_of_range|apply Nat.eqb_refl].
Qed.
Lemma disc_curve_get (r : N) n no m k : (1 ≤ no)%nat →
  elems (disc_curve r n no m) !! k = if is_outer n no k then bend r <$> elems m !! k else elems m !! k.
Proof.
  intros Hno. induction n as [|n IH]; [done|].
  unfold disc_curve in *. rewrite range_last, foldl_app. cbn [foldl]. set (m1 := foldl _ m (range n)) in *.
  change (alter (bend r) (elnum (no - 1) n no) (elems m1) !! k = if is_outer (S n) no k then bend r <$> elems m !! k else elems m !! k).
  assert (is_outer (S n) no k = is_outer n no k || (k =? elnum (no - 1) n no)%nat) as Eo. { unfold is_outer. rewrite range_last, existsb_app. cbn. by rewrite orb_false_r. }
  rewrite Eo. destruct (Nat.eqb_spec k (elnum (no - 1) n no)) as [->|Hk].
  - rewrite orb_true_r, list_lookup_alter, IH. destruct (is_outer n no _) eqn:E; [|done]. apply is_outer_iff in E as (j & Hj & E). apply elnum_inj in E as [_ E]; lia.
  - rewrite orb_false_r, list_lookup_alter_ne by done. exact IH.
Qed.
Lemma disc_curve_rest (r : N) n no m : set_elems [] (disc_curve r n no m) = set_elems [] m ∧ length (elems (disc_curve r n no m)) = length (elems m).
Proof.
  unfold disc_curve. apply (foldl_inv _ (λ m', set_elems [] m' = set_elems [] m ∧ length (elems m') = length (elems m))); [done|].
  intros s j _ [H1 H2]. split; [exact H1|]. cbn. by rewrite alter_length.
Qed.
Lemma curve_blocked (r : N) ns no corner m : (1 ≤ no)%nat → blocked (elems m) no ns corner (λ _ _, no_curves) →
  blocked (elems (disc_curve r ns no m)) no ns corner (λ i _, if (i =? no - 1)%nat then outer_curve r else no_curves).
Proof.
  intros Hno [L B]. split; [destruct (disc_curve_rest r ns no m) as [_ ->]; exact L|]. intros i j Hi Hj. destruct (B i j Hi Hj) as (e & He & [C1 C2] & C3 & C4).
  rewrite disc_curve_get by done. destruct (Nat.eqb_spec i (no - 1)) as [->|Hn].
  - rewrite (proj2 (is_outer_iff _ _ _)) by (exists j; done). rewrite He. eexists. split; [reflexivity|]. split; [split; done|]. cbn [bend set_curv set_ccurv ccurv curv]. rewrite C3, C4. done.
  - destruct (is_outer ns no _) eqn:Eo; [apply is_outer_iff in Eo as (j' & Hj' & E); apply elnum_inj in E as [-> _]; lia|]. exists e. split; [done|]. split; [split; done|]. done.
Qed.

(** ** Rotation *)
Definition turn (c s : N) (p : N * N) : N * N := (rot_x c s p.1 p.2, rot_y c s p.1 p.2).
Definition turned (c s : N) e : elem N :=
  match pos e with xs :: ys :: rest => set_pos (zip_with (rot_x c s) xs ys :: zip_with (rot_y c s) xs ys :: rest) e | _ => e end.
Lemma foldM_stay {S B} (f : S → B → res S) s l : (∀ b, b ∈ l → f s b = Ok s) → foldM f s l = Ok s.
Proof. induction l as [|b l IH]; intros H; [done|]. cbn. rewrite H by left. cbn. apply IH. intros b' Hb. apply H. by right. Qed.
Lemma mapR_all {X Y} (f : X → res Y) g l : (∀ x, x ∈ l → f x = Ok (g x)) → mapR f l = Ok (g <$> l).
Proof. induction l as [|x l IH]; intros H; [done|]. cbn. rewrite H by left. cbn. rewrite IH; [done|]. intros y Hy. apply H. by right. Qed.
Definition no_mid (cc : list string) : Prop := length cc = 12%nat ∧ Forall (λ t, t ≠ "m"%string) cc.
Lemma rotate_elem_turned c s e p00 p01 p10 p11 : corners e p00 p01 p10 p11 → no_mid (ccurv e) →
  rotate_elem c s e = Ok (turned c s e) ∧ corners (turned c s e) (turn c s p00) (turn c s p01) (turn c s p10) (turn c s p11) ∧
  turned c s e = set_pos (pos (turned c s e)) e.
Proof.
  intros [C1 C2] [M1 M2]. unfold rotate_elem, turned. rewrite C2. split; [|split; [split; done|done]].
  apply foldM_stay. intros b Hb. apply elem_of_range in Hb. cbn [set_pos ccurv].
  destruct (lookup_lt_is_Some_2 (ccurv e) b) as [t Ht]; [lia|]. rewrite Ht. cbn [of_opt rbind].
  pose proof (Forall_lookup_1 _ _ _ _ M2 Ht) as Hm. destruct (String.eqb_spec t "m"); [done|]. done.
Qed.
Lemma blocked_elem l ni nj corner cv e : blocked l ni nj corner cv → e ∈ l → ∃ i j, (i < ni)%nat ∧ (j < nj)%nat ∧
  corners e (corner j i) (corner j (i + 1)%nat) (corner (j + 1)%nat i) (corner (j + 1)%nat (i + 1)%nat) ∧ ccurv e = (cv i j).1 ∧ curv e = (cv i j).2.
Proof.
  intros [L B] He. apply elem_of_list_lookup in He as [k Hk]. pose proof (lookup_lt_Some _ _ _ Hk) as Hlt. rewrite L in Hlt.
  apply elnum_div in Hlt as (i & j & Hi & Hj & ->). destruct (B i j Hi Hj) as (e' & He' & H). assert (e' = e) as -> by congruence. eauto 10.
Qed.
Lemma rotate_blocked c s x0 y0 m ni nj corner cv : blocked (elems m) ni nj corner cv → (∀ i j, no_mid (cv i j).1) →
  rotate_2d c s x0 y0 m = Ok (set_elems (turned c s <$> elems m) m) ∧
  blocked (turned c s <$> elems m) ni nj (λ j i, turn c s (corner j i)) cv ∧
  (∀ e, e ∈ elems m → turned c s e = set_pos (pos (turned c s e)) e).
Proof.
  intros B M. split; [|split].
  - unfold rotate_2d. rewrite (mapR_all _ (turned c s)); [done|]. intros e He. destruct (blocked_elem _ _ _ _ _ _ B He) as (i & j & _ & _ & C & Ec & _).
    destruct (rotate_elem_turned c s e _ _ _ _ C) as [E _]; [rewrite Ec; apply M|exact E].
  - destruct B as [L B]. split; [by rewrite fmap_length|]. intros i j Hi Hj. destruct (B i j Hi Hj) as (e & He & C & Ec & Ev).
    destruct (rotate_elem_turned c s e _ _ _ _ C) as (_ & C' & Es); [rewrite Ec; apply M|]. exists (turned c s e). split; [by rewrite list_lookup_fmap, He|].
    split; [exact C'|]. rewrite Es. done.
  - intros e He. destruct (blocked_elem _ _ _ _ _ _ B He) as (i & j & _ & _ & C & Ec & _).
    destruct (rotate_elem_turned c s e _ _ _ _ C) as (_ & _ & E); [rewrite Ec; apply M|exact E].
Qed.

(** ** The disc *)
Context (T : trig N).
Definition outer_curves (no : nat) (r : N) (i j : nat) : list string * list (list N) := if (i =? no - 1)%nat then outer_curve r else no_curves.
Lemma outer_curves_mid no r i j : no_mid (outer_curves no r i j).1.
Proof. unfold outer_curves. destruct (_ =? _)%nat; (split; [done|]); repeat constructor; done. Qed.
Definition square_corner (r s : N) (ns j i : nat) : N * N := (square_coord (diagonal r s) ns i, square_coord (diagonal r s) ns j).
Lemma square_blocked bo (r s : N) ns var bc ib : blocked (elems (disc_square bo r s ns var bc ib)) ns ns (square_corner r s ns) (λ _ _, no_curves).
Proof. exact (block_blocked bo ns ns (square_corner r s ns) var (length bc) ib _ _ _ _). Qed.
Lemma o_blocked bo cf bf (r s : N) ns no var bc ib : (1 ≤ no)%nat →
  blocked (elems (disc_o T bo cf bf r s ns no var bc ib)) no ns (o_corner T cf bf r (diagonal r s) ns no) (outer_curves no r).
Proof. intros Hno. apply curve_blocked; [done|]. exact (block_blocked bo no ns (o_corner T cf bf r (diagonal r s) ns no) var (length bc) ib _ _ _ _). Qed.
Lemma square_rest bo (r s : N) ns var bc ib :
  set_elems [] (disc_square bo r s ns var bc ib) = set_elems [] (new_hexa (nofZ 0) bo 2 (ns * ns) PyList [2; 2; 1]%nat var (length bc)).
Proof. apply disc_block_spec. Qed.
Lemma o_rest bo cf bf (r s : N) ns no var bc ib :
  set_elems [] (disc_o T bo cf bf r s ns no var bc ib) = set_elems [] (new_hexa (nofZ 0) bo 2 (no * ns) PyList [2; 2; 1]%nat var (length bc)).
Proof. unfold disc_o. cbv zeta. rewrite (proj1 (disc_curve_rest _ _ _ _)). apply disc_block_spec. Qed.
Fixpoint times {X} (n : nat) (f : X → X) (x : X) : X := match n with O => x | S n => f (times n f x) end.

Record disc_result (bo : string) (r : N) (ns no : nat) (var : list nat) (nb : nat) (sq : nat → nat → N * N) (o : nat → nat → nat → N * N) m : Prop := {
  dr_rest : set_elmap [] (set_nel 0 (set_elems [] m)) = set_elmap [] (set_nel 0 (set_elems [] (new_hexa (nofZ 0) bo 2 0 PyList [2; 2; 1]%nat var nb)));
  dr_nel : nel m = (ns * ns + 4 * (no * ns))%nat;
  dr_map : elmap m = (λ i, Z.of_nat i + 1) <$> range (ns * ns + 4 * (no * ns));
  dr_elems : ∃ l0 l1 l2 l3 l4, elems m = l0 ++ l1 ++ l2 ++ l3 ++ l4 ∧ blocked l0 ns ns sq (λ _ _, no_curves) ∧
    blocked l1 no ns (o 0%nat) (outer_curves no r) ∧ blocked l2 no ns (o 1%nat) (outer_curves no r) ∧
    blocked l3 no ns (o 2%nat) (outer_curves no r) ∧ blocked l4 no ns (o 3%nat) (outer_curves no r)
}.
Lemma range_app_map (n k : nat) : ((λ i, Z.of_nat i + 1) <$> range n) ++ ((λ z, z + Z.of_nat n) <$> ((λ i, Z.of_nat i + 1) <$> range k)) = (λ i, Z.of_nat i + 1) <$> range (n + k).
Proof.
  apply list_eq. intros i. destruct (decide (i < n)%nat) as [H|H].
  - rewrite lookup_app_l by (rewrite fmap_length, length_range; done). rewrite !list_lookup_fmap. unfold range. rewrite !lookup_seq_lt by lia. done.
  - rewrite lookup_app_r by (rewrite fmap_length, length_range; lia). rewrite fmap_length, length_range, !list_lookup_fmap. unfold range.
    destruct (decide (i < n + k)%nat) as [H2|H2].
    + rewrite !lookup_seq_lt by lia. cbn. f_equal. lia.
    + rewrite !lookup_seq_ge by lia. done.
Qed.
Lemma gen_circle_inv bo r s ns no cf bf var bc ib m : (1 ≤ no)%nat → gen_circle T bo r s ns no cf bf var bc ib = Ok m →
  disc_result bo r ns no var (length bc) (square_corner r s ns)
    (λ q j i, times q (turn (cosf T (nmul half (pi T))) (sinf T (nmul half (pi T)))) (o_corner T cf bf r (diagonal r s) ns no j i)) m.
Proof.
  intros Hno. unfold gen_circle. cbv zeta. set (c := cosf T _). set (sn := sinf T _). set (oc := o_corner T cf bf r (diagonal r s) ns no).
  pose proof (square_blocked bo r s ns var bc ib) as B0. pose proof (square_rest bo r s ns var bc ib) as R0.
  pose proof (o_blocked bo cf bf r s ns no var bc ib Hno) as B1. pose proof (o_rest bo cf bf r s ns no var bc ib) as R1. fold oc in B1.
  set (sq := disc_square _ _ _ _ _ _ _) in *. set (o := disc_o _ _ _ _ _ _ _ _ _ _ _) in *. clearbody sq o.
  destruct (disc_merge ib sq o) as [m1|] eqn:E1; [|done]. cbn [rbind].
  destruct (rotate_blocked c sn (nofZ 0) (nofZ 0) o _ _ _ _ B1 (outer_curves_mid no r)) as (-> & B2 & _). cbn [rbind].
  set (o2 := set_elems (turned c sn <$> elems o) o) in *. destruct (disc_merge ib m1 o2) as [m2|] eqn:E2; [|done]. cbn [rbind].
  destruct (rotate_blocked c sn (nofZ 0) (nofZ 0) o2 _ _ _ _ B2 (outer_curves_mid no r)) as (-> & B3 & _). cbn [rbind].
  set (o3 := set_elems (turned c sn <$> elems o2) o2) in *. destruct (disc_merge ib m2 o3) as [m3|] eqn:E3; [|done]. cbn [rbind].
  destruct (rotate_blocked c sn (nofZ 0) (nofZ 0) o3 _ _ _ _ B3 (outer_curves_mid no r)) as (-> & B4 & _). cbn [rbind].
  set (o4 := set_elems (turned c sn <$> elems o3) o3) in *. intros E4.
  apply disc_merge_inv in E1, E2, E3, E4.
  destruct E1 as (N1 & C1 & M1 & K1 & l0 & l1 & L1 & F0 & F1).
  destruct E2 as (N2 & C2 & M2 & K2 & k1 & l2 & L2 & G1 & F2).
  destruct E3 as (N3 & C3 & M3 & K3 & k2 & l3 & L3 & G2 & F3).
  destruct E4 as (N4 & C4 & M4 & K4 & k3 & l4 & L4 & G3 & F4).
  pose proof (fields_set_elems _ _ R0) as (_ & n0 & c0 & _ & _ & _ & _ & em0). pose proof (fields_set_elems _ _ R1) as (_ & n1 & c1 & _ & _ & _ & _ & em1).
  unfold new_hexa in n0, n1, c0, c1, em0, em1. cbn [nel ncurv elmap] in n0, n1, c0, c1, em0, em1.
  change (nel o2) with (nel o) in *. change (nel o3) with (nel o) in *. change (nel o4) with (nel o) in *.
  change (ncurv o2) with (ncurv o) in *. change (ncurv o3) with (ncurv o) in *. change (ncurv o4) with (ncurv o) in *.
  change (elmap o2) with (elmap o) in *. change (elmap o3) with (elmap o) in *. change (elmap o4) with (elmap o) in *.
  split.
  - assert (ncurv m = 0) as Hc by lia. transitivity (set_elmap [] (set_ncurv 0 (set_nel 0 (set_elems [] m)))); [unfold set_ncurv, set_elmap, set_nel, set_elems; cbn; by rewrite Hc|].
    rewrite K4, K3, K2, K1. change (set_elmap [] (set_ncurv 0 (set_nel 0 (set_elems [] sq)))) with (set_elmap [] (set_ncurv 0 (set_nel 0 (set_elems [] (set_elems [] sq))))). rewrite R0. done.
  - lia.
  - rewrite M4, M3, M2, M1, em0, em1, N3, N2, N1, n0, n1. rewrite range_app_map. rewrite range_app_map, range_app_map, range_app_map. f_equal. f_equal. lia.
  - pose proof (blocked_same _ _ _ _ _ _ F0 B0) as A0. pose proof (blocked_same _ _ _ _ _ _ F1 B1) as A1. pose proof (blocked_same _ _ _ _ _ _ F2 B2) as A2.
    pose proof (blocked_same _ _ _ _ _ _ F3 B3) as A3. pose proof (blocked_same _ _ _ _ _ _ F4 B4) as A4.
    rewrite L1 in G1. apply Forall2_app_inv_l in G1 as (p0 & p1 & P0 & P1 & ->). rewrite L2 in G2. apply Forall2_app_inv_l in G2 as (q01 & q2 & Q01 & Q2 & ->).
    apply Forall2_app_inv_l in Q01 as (q0 & q1 & Q0 & Q1 & ->). rewrite L3 in G3. apply Forall2_app_inv_l in G3 as (t012 & t3 & T012 & T3 & ->).
    apply Forall2_app_inv_l in T012 as (t01 & t2 & T01 & T2 & ->). apply Forall2_app_inv_l in T01 as (t0 & t1 & T0 & T1 & ->).
    exists t0, t1, t2, t3, l4. split; [rewrite L4, <- !app_assoc; done|].
    split; [eapply blocked_same; [exact T0|]; eapply blocked_same; [exact Q0|]; eapply blocked_same; [exact P0|exact A0]|].
    split; [eapply blocked_same; [exact T1|]; eapply blocked_same; [exact Q1|]; eapply blocked_same; [exact P1|exact A1]|].
    split; [eapply blocked_same; [exact T2|]; eapply blocked_same; [exact Q2|exact A2]|].
    split; [eapply blocked_same; [exact T3|exact A3]|exact A4].
Qed.

(** ** Counting *)
Lemma sum_row {X} (f : X → nat) (g : nat → nat) n l : length l = n → (∀ i x, l !! i = Some x → f x = g i) → sum_list_with f l = sum_list_with g (range n).
Proof.
  revert l. induction n as [|n IH]; intros l L H; [by destruct l|]. rewrite range_last, sum_list_with_app. cbn.
  assert (l = take n l ++ drop n l) as E by (symmetry; apply take_drop). destruct (lookup_lt_is_Some_2 l n) as [x Hx]; [lia|].
  assert (drop n l = [x]) as D. { rewrite (drop_S _ _ _ Hx). f_equal. apply nil_length_inv. rewrite drop_length. lia. }
  rewrite E, D, sum_list_with_app, (IH (take n l)); [|rewrite take_length; lia|].
  - cbn. rewrite (H n x Hx). lia.
  - intros i y Hy. apply H. pose proof (lookup_lt_Some _ _ _ Hy) as Hi. rewrite take_length in Hi. rewrite lookup_take in Hy by lia. exact Hy.
Qed.
Lemma sum_zero (g : nat → nat) n : (∀ i, (i < n)%nat → g i = 0%nat) → sum_list_with g (range n) = 0%nat.
Proof. induction n as [|n IH]; intros H; [done|]. rewrite range_last, sum_list_with_app, IH by (intros; apply H; lia). cbn. rewrite H by lia. done. Qed.
Lemma sum_rows {X} (f : X → nat) (g : nat → nat) ni nj l : length l = (ni * nj)%nat → (∀ i j x, (i < ni)%nat → (j < nj)%nat → l !! elnum i j ni = Some x → f x = g i) →
  sum_list_with f l = (nj * sum_list_with g (range ni))%nat.
Proof.
  revert l. induction nj as [|nj IH]; intros l L H; [rewrite Nat.mul_0_r in L; by destruct l|].
  assert (l = take ni l ++ drop ni l) as E by (symmetry; apply take_drop). rewrite E, sum_list_with_app.
  rewrite (sum_row f g ni (take ni l)), (IH (drop ni l)); [lia|rewrite drop_length; lia| |rewrite take_length; lia|].
  - intros i j x Hi Hj Hx. rewrite lookup_drop in Hx. apply (H i (S j) x Hi); [lia|]. rewrite <- Hx. f_equal. unfold elnum. lia.
  - intros i x Hx. pose proof (lookup_lt_Some _ _ _ Hx) as Hi. rewrite take_length in Hi. rewrite lookup_take in Hx by lia.
    apply (H i 0%nat x); [lia|lia|]. rewrite <- Hx. f_equal. unfold elnum. lia.
Qed.
Lemma blocked_curves l ni nj corner cv : blocked l ni nj corner cv → ∀ i j e, (i < ni)%nat → (j < nj)%nat → l !! elnum i j ni = Some e → ccurv e = (cv i j).1.
Proof. intros [_ B] i j e Hi Hj He. destruct (B i j Hi Hj) as (e' & He' & _ & E & _). by assert (e' = e) as -> by congruence. Qed.
Lemma disc_curved bo r ns no var nb sq o m : (1 ≤ no)%nat → disc_result bo r ns no var nb sq o m → curved_total m = 4 * Z.of_nat ns.
Proof.
  intros Hno [_ _ _ (l0 & l1 & l2 & l3 & l4 & E & B0 & B1 & B2 & B3 & B4)].
  assert (sum_list_with curved_edges l0 = 0%nat) as S0.
  { rewrite (sum_rows _ (λ _, 0%nat) ns ns l0 (proj1 B0)); [rewrite sum_zero by done; lia|].
    intros i j e Hi Hj He. unfold curved_edges. rewrite (blocked_curves _ _ _ _ _ B0 i j e Hi Hj He). done. }
  assert (∀ l c, blocked l no ns c (outer_curves no r) → sum_list_with curved_edges l = ns) as S1.
  { intros l c B. rewrite (sum_rows _ (λ i, if (i =? no - 1)%nat then 1%nat else 0%nat) no ns l (proj1 B)).
    - destruct no as [|no']; [lia|]. rewrite range_last, sum_list_with_app, sum_zero.
      + cbn. rewrite Nat.sub_0_r, Nat.eqb_refl. lia.
      + intros i Hi. destruct (Nat.eqb_spec i (S no' - 1)); [lia|done].
    - intros i j e Hi Hj He. unfold curved_edges. rewrite (blocked_curves _ _ _ _ _ B i j e Hi Hj He). unfold outer_curves. destruct (_ =? _)%nat; done. }
  unfold curved_total. rewrite E, !sum_list_with_app, S0, (S1 _ _ B1), (S1 _ _ B2), (S1 _ _ B3), (S1 _ _ B4). lia.
Qed.

(** ** gen_circle returns *)
(** No entry is periodic, and those of type E name an element. *)
Definition calm_entry (n : Z) (r : bcrec N) : Prop := bt r ≠ "P"%string ∧ (bt r = "E"%string → ∃ z, bp3 r = nofZ z ∧ 1 <= z <= n).
Definition calm (n : Z) m : Prop := wf_mesh m ∧ ∀ i b f r, get_bc m i b f = Some r → calm_entry n r.
Lemma calm_entry_le n n' r : n <= n' → calm_entry n r → calm_entry n' r.
Proof. intros Hn [H1 H2]. split; [done|]. intros He. destruct (H2 He) as (z & E & Hz). exists z. split; [done|]. lia. Qed.
Lemma calm_alter n (g : bcrec N → bcrec N) i b f m : (∀ r, calm_entry n r → calm_entry n (g r)) → calm n m → calm n (alter_bc g i b f m).
Proof.
  intros Hg [W C]. split; [apply (wf_mesh_shape m); [done|apply strip_alter|apply bshape_alter]|].
  intros i' b' f' r. rewrite get_bc_alter. destruct (decide _) as [_|_]; [|apply C].
  destruct (get_bc m i' b' f') as [r0|] eqn:E; [|done]. cbn. intros H. assert (r = g r0) as -> by congruence. eapply Hg, C, E.
Qed.
Lemma loopS_ok {S B} (f : S → B → S * res unit) (P : S → Prop) s l : P s → (∀ s x, x ∈ l → P s → ∃ s', f s x = (s', Ok tt) ∧ P s') →
  ∃ s', loopS f s l = (s', Ok tt) ∧ P s'.
Proof.
  revert s. induction l as [|x l IH]; intros s Hs H; cbn; [eauto|]. destruct (H s x) as (s' & -> & Hs'); [left|done|]. apply IH; [done|]. intros; apply H; [by right|done].
Qed.
Lemma glue_calm n nb i0 f0 i1 f1 m : 0 <= Z.of_nat i0 < n → 0 <= Z.of_nat i1 < n → calm n m → calm n (glue nb i0 f0 i1 f1 m).
Proof.
  intros H0 H1 C. unfold glue. apply (foldl_inv _ (calm n)); [done|]. intros s b _ Cs.
  apply calm_alter; [|apply calm_alter; [|done]]; intros r _; (split; [done|]); intros _; cbn; eexists; (split; [reflexivity|]); lia.
Qed.
Lemma merge_calm bnd tol ie ia self other : arith_laws A bnd → calm (Z.of_nat (nel self)) self → calm (Z.of_nat (nel other)) other →
  ndim self = ndim other → head (lr1 self) = head (lr1 other) → is_Some (head (lr1 self)) → nbc self = nbc other →
  Z.of_nat (nel self + nel other) <= bnd →
  ∃ m' n, merge tol ie ia self other = (m', Ok n) ∧ calm (Z.of_nat (nel self + nel other)) m'.
Proof.
  intros LA [Ws Cs] [Wo Co] Hd Hl Hs Hb Hbn.
  assert (refs_within bnd (Z.of_nat (nel self)) 0 other) as Hr.
  { split; [lia|]. intros i b f r _ Hr [Hc|Hc]; destruct (Co _ _ _ _ Hr) as [P E]; [|done]. destruct (E Hc) as (z & Ez & Hz). exists z. split; [done|]. lia. }
  destruct (merge_append_spec bnd self other LA (proj1 Wo) Hr) as (add & E & S & B & Ea). set (m0 := appended self add _ _ _) in *.
  set (n := Z.of_nat (nel self + nel other)). assert (calm n m0) as C0.
  { assert (wf_mesh add) as Wa by (by apply (wf_mesh_shape other)). pose proof (strip_fields _ _ S) as (D1 & D2 & _ & D4 & _). split.
    - destruct Ws as [(W1 & W2 & W3) W4], Wa as [(V1 & V2 & V3) V4]. split; [split; [exact W1|split]|].
      + unfold m0, appended. cbn. rewrite app_length. congruence.
      + intros e He. unfold m0, appended in He. cbn in He. apply elem_of_app in He as [He|He]; [by apply W3|]. destruct (V3 e He) as [V5 V6]. split; [|done]. unfold m0, appended. cbn. congruence.
      + intros e He. unfold m0, appended in He. cbn in He. apply elem_of_app in He as [He|He]; [by apply W4|by apply V4].
    - intros i b f r Hg. destruct (decide (i < length (elems self))%nat) as [Hi|Hi].
      + unfold m0 in Hg. rewrite get_app_l in Hg by done. eapply calm_entry_le; [|by eapply Cs]. lia.
      + assert (i = length (elems self) + (i - length (elems self)))%nat as Ei by lia. rewrite Ei in Hg. unfold m0 in Hg. rewrite get_app_r in Hg. set (k := (i - _)%nat) in *. clearbody k. clear Ei Hi.
        destruct (get_bc other k b f) as [r0|] eqn:Er.
        * destruct (Ea _ _ _ _ Er) as (r1 & Hr1 & O1 & _ & _ & _ & _ & _ & O2 & O3 & _). assert (r1 = r) as -> by congruence.
          destruct (Co _ _ _ _ Er) as [P Q]. split; [congruence|]. intros He. rewrite O1 in He. destruct (Q He) as (z & Ez & Hz).
          assert (in_mesh other k b f ∨ ¬ in_mesh other k b f) as [Hin|Hin] by (unfold in_mesh; lia).
          -- rewrite (O2 (conj Hin (or_introl He)) z ltac:(lia) Ez). eexists. split; [reflexivity|]. case_bool_decide; lia.
          -- rewrite O3 by tauto. exists z. split; [done|]. lia.
        * exfalso. pose proof (get_bc_None _ _ _ _ _ B Er). congruence. }
  destruct Hs as [l0 Hl0]. unfold merge. rewrite (proj2 (Nat.eqb_eq _ _) Hd). cbn [negb].
  destruct (lr1 self) as [|a ?]; [done|]. destruct (lr1 other) as [|a' ?]; [done|]. cbn in Hl. injection Hl as <-. rewrite Nat.eqb_refl. cbn [negb]. rewrite E.
  destruct (_ || _) eqn:Eb; [eauto|]. apply orb_false_iff in Eb as [Eb _]. apply Nat.eqb_neq in Eb.
  set (nb := Nat.min (nbc self) (nbc other)) in *. assert (nb = nbc self) as Enb by (unfold nb; lia). clearbody nb. subst nb.
  assert (∀ M : hexa N, strip M = strip m0 → nel M = (nel self + nel other)%nat ∧ nbc M = nbc self) as HM. { intros M SM. apply strip_fields in SM as (_ & -> & _ & -> & _). done. }
  assert ((2 * ndim m0 ≤ 6)%nat) as H6. { change (ndim m0) with (ndim self). destruct (proj1 (proj1 Ws)); lia. }
  destruct (loopS_ok (merge_outer tol ie (nbc self) (nel self) (2 * ndim m0)) (λ s, calm n s.1 ∧ strip s.1 = strip m0) (m0, 0)
    (prod2 (range2 (nel self) (nel m0)) (range (2 * ndim m0)))) as ([m' k] & EL & C' & _); [done| |rewrite EL; cbn in C'; eauto].
  intros [M k] [i0 f0] Hx [CM SM]. apply elem_of_prod2 in Hx. rewrite elem_of_range2, elem_of_range in Hx. destruct Hx as [[Hi0 Hi0'] Hf0]. cbn [fst] in *.
  change (nel m0) with (nel self + nel other)%nat in *. unfold merge_outer. cbn [fst]. destruct (HM M SM) as [HM1 HM2].
  destruct (wf_get_bc M i0 0 f0) as [r0 Hr0]; [apply CM|lia|lia|lia|]. rewrite Hr0.
  destruct (eligible ie (bt r0)); [|eauto].
  assert (bt r0 ≠ "P"%string) as HP by (eapply CM, Hr0).
  apply (loopS_ok _ (λ s : hexa N * Z, calm n s.1 ∧ strip s.1 = strip m0)); [done|].
  intros [M1 k1] [i1 f1] Hx [CM1 SM1]. apply elem_of_prod2 in Hx. rewrite !elem_of_range in Hx. destruct Hx as [Hi1 Hf1]. cbn [fst] in *.
  destruct (HM M1 SM1) as [HM3 HM4]. unfold merge_inner. pose proof (proj1 CM1) as [(W1 & W2 & _) W4].
  destruct (lookup_lt_is_Some_2 (elems M1) i0) as [e0 He0]; [lia|]. destruct (lookup_lt_is_Some_2 (elems M1) i1) as [e1 He1]; [lia|].
  destruct (wf_get_bc M1 i0 0 f0) as [q0 Hq0]; [apply CM1|lia|lia|lia|]. destruct (wf_get_bc M1 i1 0 f1) as [q1 Hq1]; [apply CM1|lia|lia|lia|].
  rewrite He0, He1, Hq0, Hq1. destruct (eligible ie (bt q1)); [|eauto]. unfold faces_close.
  assert (wf_geom_elem e0) as G0 by (apply W4; by eapply elem_of_list_lookup_2). assert (wf_geom_elem e1) as G1 by (apply W4; by eapply elem_of_list_lookup_2).
  destruct (face_center_Ok e0 (Z.of_nat f0) G0) as [c0 ->]; [lia|]. destruct (face_center_Ok e1 (Z.of_nat f1) G1) as [c1 ->]; [lia|]. cbn [rbind].
  destruct (smallest_edge_Ok e0 G0) as [s0 ->]. destruct (smallest_edge_Ok e1 G1) as [s1 ->]. cbn [rbind].
  destruct (nleb _ _); [|eauto]. rewrite (proj2 (String.eqb_neq _ _) HP). cbn [andb]. eexists. split; [reflexivity|]. cbn [fst]. split.
  - apply glue_calm; [unfold n; lia|unfold n; lia|done].
  - unfold glue. rewrite (proj1 (two_strip _ _ _ _ _ _ _ _)). exact SM1.
Qed.

Lemma corners_wf e p00 p01 p10 p11 : corners e p00 p01 p10 p11 → wf_geom_elem e.
Proof.
  intros [C1 C2]. exists 2%nat, 2%nat, 1%nat. split; [done|]. split; [lia|]. rewrite C2. split; [done|].
  intros c Hc. repeat (apply elem_of_cons in Hc as [->|Hc]; [done|]). by apply elem_of_nil in Hc.
Qed.
Lemma get_bc_alter_elem (g : elem N → elem N) k m i b f : (∀ e, bcs (g e) = bcs e) → get_bc (set_elems (alter g k (elems m)) m) i b f = get_bc m i b f.
Proof.
  intros Hg. unfold get_bc. cbn. destruct (decide (i = k)) as [->|Hn]; [|by rewrite list_lookup_alter_ne].
  rewrite list_lookup_alter. destruct (elems m !! k); cbn; [by rewrite Hg|done].
Qed.
Lemma bcs_alter_elem (g : elem N → elem N) k m : (∀ e, bcs (g e) = bcs e) → bcs <$> alter g k (elems m) = bcs <$> elems m.
Proof. intros Hg. rewrite (list_alter_fmap _ _ id); [by apply list_alter_id|]. apply Forall_forall. intros e _. apply Hg. Qed.
Lemma block_calm bo ni nj (corner : nat → nat → N * N) var nb ib b0 b1 b2 b3 :
  (∀ l s, l ∈ [b0; b1; b2; b3] → s ∈ l → u3 s ≠ "P"%string ∧ u3 s ≠ "E"%string) →
  calm (Z.of_nat (ni * nj)) (disc_block bo ni nj (λ i j e, set_corners (corner j i) (corner j (i + 1)%nat) (corner (j + 1)%nat i) (corner (j + 1)%nat (i + 1)%nat) e)
    var nb ib b0 b1 b2 b3).
Proof.
  intros Hb. set (pl := λ i j e, set_corners _ _ _ _ e). pose proof (block_blocked bo ni nj corner var nb ib b0 b1 b2 b3) as BB. fold pl in BB.
  destruct (disc_block_strip bo ni nj pl var nb ib b0 b1 b2 b3) as [S B]. set (m0 := foldl (placing ni pl) _ _) in *.
  pose proof (disc_block_spec bo ni nj pl var nb ib b0 b1 b2 b3) as (Rs & Ln & _).
  assert (bcs <$> elems m0 = bcs <$> replicate (ni * nj) (fresh var nb)) as Eb.
  { unfold m0. apply (foldl_inv _ (λ m, bcs <$> elems m = bcs <$> replicate (ni * nj) (fresh var nb))); [done|].
    intros s [i j] _ H. cbn [placing set_elems elems]. rewrite bcs_alter_elem by done. exact H. }
  assert (wf_mesh m0) as W0.
  { destruct (placing_rest ni pl (prod2 (range ni) (range nj)) (new_hexa (nofZ 0) bo 2 (ni * nj) PyList [2; 2; 1]%nat var nb)) as [R1 R2]. fold m0 in R1, R2.
    pose proof (fields_set_elems _ _ R1) as (F1 & F2 & _ & F4 & _). split; [split; [left; exact F1|split]|].
    - rewrite F2, R2. apply replicate_length.
    - intros e He. assert (bcs e ∈ bcs <$> elems m0) as Hin by (by apply elem_of_list_fmap_1). rewrite Eb, fmap_replicate in Hin. apply elem_of_replicate in Hin as [-> _].
      rewrite F4. cbn. rewrite replicate_length. split; [done|]. intros row Hr. apply elem_of_replicate in Hr as [-> _]. done.
    - intros e He. apply elem_of_list_lookup in He as [k Hk]. destruct (strip_elem_lookup _ _ _ _ (eq_sym S) Hk) as (e' & He' & Hs).
      destruct (blocked_elem _ _ _ _ _ _ BB (elem_of_list_lookup_2 _ _ _ He')) as (i & j & _ & _ & [C1 C2] & _). apply same_elem_fields in Hs as (S1 & S2 & _).
      eapply (corners_wf e). split; [rewrite <- S1; exact C1|rewrite <- S2; exact C2]. }
  assert (∀ i b f r, get_bc m0 i b f = Some r → r = zero_bc (nofZ 0)) as Z0.
  { intros i b f r Hr. apply get_bc_Some_shape in Hr as (e & row & He & Hrow & Hr). assert (bcs e ∈ bcs <$> elems m0) as Hin by (apply elem_of_list_fmap_1; by eapply elem_of_list_lookup_2).
    rewrite Eb, fmap_replicate in Hin. apply elem_of_replicate in Hin as [Er _]. rewrite Er in Hrow. cbn in Hrow. apply lookup_replicate in Hrow as [-> _].
    change (replicate 6 (zero_bc (nofZ (a:=A) 0)) !! f = Some r) in Hr. apply lookup_replicate in Hr as [-> _]. done. }
  assert (calm (Z.of_nat (ni * nj)) m0) as C0. { split; [done|]. intros i b f r Hr. rewrite (Z0 _ _ _ _ Hr). split; done. }
  assert (calm (Z.of_nat (ni * nj)) (if ib then disc_connect ni nj nb m0 else m0)) as C1.
  { destruct ib; [|done]. unfold disc_connect. apply (foldl_inv _ (calm (Z.of_nat (ni * nj)))); [done|]. intros s [[i j] b] Hx Cs.
    apply elem_of_prod3 in Hx. rewrite !elem_of_range in Hx. destruct Hx as (Hi & Hj & _). unfold box_internal.
    assert (∀ k (g1 g2 g3 : nat), (k < ni * nj)%nat → ∀ r, calm_entry (Z.of_nat (ni * nj)) (box_link "E" g1 g2 (k + 1) g3 r)) as HL.
    { intros k g1 g2 g3 Hk r. split; [done|]. intros _. eexists. split; [reflexivity|]. lia. }
    repeat match goal with |- context [if ?c then alter_bc _ _ _ _ _ else _] => destruct c eqn:? end;
    repeat match goal with H : negb (_ =? _)%nat = true |- _ => apply negb_true_iff, Nat.eqb_neq in H end;
    repeat (apply calm_alter; [intros r _; apply HL; apply elnum_lt; lia|]); exact Cs. }
  change (calm (Z.of_nat (ni * nj)) (foldl (disc_bcs ni nj b0 b1 b2 b3) (if ib then disc_connect ni nj nb m0 else m0) (range nb))).
  apply (foldl_inv _ (calm (Z.of_nat (ni * nj)))); [done|]. intros s b _ Cs.
  assert (∀ l, l ∈ [b0; b1; b2; b3] → ∀ r, calm_entry (Z.of_nat (ni * nj)) r → calm_entry (Z.of_nat (ni * nj)) (set_bt (u3 (nth b l ""%string)) r)) as HB.
  { intros l Hl r Hr. destruct (decide (b < length l)%nat) as [Hlt|Hge].
    - destruct (Hb l (nth b l ""%string) Hl) as [P E]; [apply elem_of_list_In, nth_In; exact Hlt|]. split; [exact P|]. intros H. by destruct E.
    - rewrite (nth_overflow l) by lia. split; done. }
  unfold disc_bcs. cbv zeta.
  apply (foldl_inv _ (calm (Z.of_nat (ni * nj)))); [apply (foldl_inv _ (calm (Z.of_nat (ni * nj)))); [done|]|]; intros s' k _ Cs';
    (apply calm_alter; [apply HB; set_solver|apply calm_alter; [apply HB; set_solver|done]]).
Qed.
Lemma calm_same_bcs n m m' : set_elems [] m' = set_elems [] m → bcs <$> elems m' = bcs <$> elems m → (∀ e, e ∈ elems m' → wf_geom_elem e) → calm n m → calm n m'.
Proof.
  intros R B G [[(W1 & W2 & W3) W4] C]. pose proof (fields_set_elems _ _ R) as (F1 & F2 & _ & F4 & _). split; [split; [split; [by rewrite F1|split]|done]|].
  - apply (f_equal length) in B. rewrite !fmap_length in B. congruence.
  - intros e He. assert (bcs e ∈ bcs <$> elems m') as Hin by (by apply elem_of_list_fmap_1). rewrite B in Hin. apply elem_of_list_fmap in Hin as (e' & -> & He'). rewrite F4. by apply W3.
  - intros i b f r Hr. apply (C i b f). rewrite <- Hr. unfold get_bc. pose proof (f_equal (.!! i) B) as Bi. cbn in Bi. rewrite !list_lookup_fmap in Bi.
    destruct (elems m' !! i), (elems m !! i); cbn in Bi |- *; [|done..]. apply (inj Some) in Bi. by rewrite Bi.
Qed.
Lemma square_calm bo (r s : N) ns var bc ib : calm (Z.of_nat (ns * ns)) (disc_square bo r s ns var bc ib).
Proof.
  apply (block_calm bo ns ns (square_corner r s ns)). intros l t Hl Ht. assert (l = replicate (length bc) "con"%string) as -> by set_solver.
  apply elem_of_replicate in Ht as [-> _]. done.
Qed.
Lemma o_calm bo cf bf (r s : N) ns no var bc ib : (1 ≤ no)%nat → (∀ t, t ∈ bc → u3 t ≠ "P"%string ∧ u3 t ≠ "E"%string) →
  calm (Z.of_nat (no * ns)) (disc_o T bo cf bf r s ns no var bc ib).
Proof.
  intros Hno Hb. pose proof (o_blocked bo cf bf r s ns no var bc ib Hno) as OB. unfold disc_o in *. cbv zeta in *. set (m0 := disc_block _ _ _ _ _ _ _ _ _ _ _) in *.
  apply (calm_same_bcs _ m0).
  - apply disc_curve_rest.
  - unfold disc_curve. apply (foldl_inv _ (λ m, bcs <$> elems m = bcs <$> elems m0)); [done|]. intros s' j _ H. cbn [set_elems elems]. rewrite bcs_alter_elem by done. exact H.
  - intros e He. destruct (blocked_elem _ _ _ _ _ _ OB He) as (i & j & _ & _ & C & _). by eapply corners_wf.
  - apply (block_calm bo no ns (o_corner T cf bf r (diagonal r s) ns no)). intros l t Hl Ht.
    assert (l = replicate (length bc) "con"%string ∨ l = bc) as [-> | ->] by set_solver; [apply elem_of_replicate in Ht as [-> _]; done|by apply Hb].
Qed.
Lemma turned_calm n c sn m ni nj corner cv : blocked (elems m) ni nj corner cv → (∀ i j, no_mid (cv i j).1) → calm n m →
  calm n (set_elems (turned c sn <$> elems m) m).
Proof.
  intros B M. destruct (rotate_blocked c sn (nofZ 0) (nofZ 0) m ni nj corner cv B M) as (_ & B2 & E). apply calm_same_bcs; [done| |].
  - cbn. rewrite <- list_fmap_compose. apply list_fmap_ext. intros k e He. cbn. rewrite E; [done|]. by eapply elem_of_list_lookup_2.
  - intros e He. destruct (blocked_elem _ _ _ _ _ _ B2 He) as (i & j & _ & _ & C & _). by eapply corners_wf.
Qed.
Lemma disc_merge_calm bnd ib self other : arith_laws A bnd → calm (Z.of_nat (nel self)) self → calm (Z.of_nat (nel other)) other →
  ndim self = ndim other → lr1 self = lr1 other → lr1 self = [2; 2; 1]%nat → nbc self = nbc other → Z.of_nat (nel self + nel other) <= bnd →
  ∃ m, disc_merge ib self other = Ok m ∧ calm (Z.of_nat (nel m)) m ∧ ndim m = ndim self ∧ lr1 m = lr1 self ∧ nbc m = nbc self ∧ nel m = (nel self + nel other)%nat.
Proof.
  intros LA Cs Co Hd Hl Hl1 Hb Hbn. destruct (merge_calm bnd (nlit 1 100) true (negb ib) self other LA Cs Co Hd) as (m & n & E & C); [by rewrite Hl|by rewrite Hl1|done|done|].
  assert (disc_merge ib self other = Ok m) as ED by (unfold disc_merge; rewrite E; done). exists m. split; [done|].
  destruct (disc_merge_inv _ _ _ _ ED) as (N1 & _ & _ & K & _). rewrite N1. split; [done|]. unfold set_elmap, set_ncurv, set_nel, set_elems in K. cbn in K. injection K. intros. done.
Qed.
Lemma gen_circle_returns bnd bo r s ns no cf bf var bc ib : arith_laws A bnd → (1 ≤ no)%nat → (∀ t, t ∈ bc → u3 t ≠ "P"%string ∧ u3 t ≠ "E"%string) →
  Z.of_nat (ns * ns + 4 * (no * ns)) <= bnd → ∃ m, gen_circle T bo r s ns no cf bf var bc ib = Ok m.
Proof.
  intros LA Hno Hb Hbn. unfold gen_circle. cbv zeta. set (c := cosf T _). set (sn := sinf T _). set (oc := o_corner T cf bf r (diagonal r s) ns no).
  pose proof (square_rest bo r s ns var bc ib) as R0. pose proof (o_blocked bo cf bf r s ns no var bc ib Hno) as B1. pose proof (o_rest bo cf bf r s ns no var bc ib) as R1. fold oc in B1.
  pose proof (square_calm bo r s ns var bc ib) as C0. pose proof (o_calm bo cf bf r s ns no var bc ib Hno Hb) as C1.
  set (sq := disc_square _ _ _ _ _ _ _) in *. set (o := disc_o _ _ _ _ _ _ _ _ _ _ _) in *. clearbody sq o.
  pose proof (fields_set_elems _ _ R0) as (d0 & n0 & _ & b0 & _ & _ & l0 & _). pose proof (fields_set_elems _ _ R1) as (d1 & n1 & _ & b1 & _ & _ & l1 & _).
  unfold new_hexa in d0, d1, n0, n1, b0, b1, l0, l1. cbn [nel ndim nbc lr1] in *. rewrite <- n0 in C0. rewrite <- n1 in C1.
  destruct (disc_merge_calm bnd ib sq o LA C0 C1) as (m1 & -> & D1 & d2 & l2 & b2 & n2); [congruence|congruence|congruence|congruence|lia|]. cbn [rbind].
  destruct (rotate_blocked c sn (nofZ 0) (nofZ 0) o _ _ _ _ B1 (outer_curves_mid no r)) as (-> & B2 & _). cbn [rbind].
  pose proof (turned_calm _ c sn o _ _ _ _ B1 (outer_curves_mid no r) C1) as C2.
  set (o2 := set_elems (turned c sn <$> elems o) o) in *. change (nel o) with (nel o2) in *. change (ndim o) with (ndim o2) in *. change (lr1 o) with (lr1 o2) in *. change (nbc o) with (nbc o2) in *.
  destruct (disc_merge_calm bnd ib m1 o2 LA D1 C2) as (m2 & -> & D2 & d3 & l3 & b3 & n3); [congruence|congruence|congruence|congruence|lia|]. cbn [rbind].
  destruct (rotate_blocked c sn (nofZ 0) (nofZ 0) o2 _ _ _ _ B2 (outer_curves_mid no r)) as (-> & B3 & _). cbn [rbind].
  pose proof (turned_calm _ c sn o2 _ _ _ _ B2 (outer_curves_mid no r) C2) as C3.
  set (o3 := set_elems (turned c sn <$> elems o2) o2) in *. change (nel o2) with (nel o3) in *. change (ndim o2) with (ndim o3) in *. change (lr1 o2) with (lr1 o3) in *. change (nbc o2) with (nbc o3) in *.
  destruct (disc_merge_calm bnd ib m2 o3 LA D2 C3) as (m3 & -> & D3 & d4 & l4 & b4 & n4); [congruence|congruence|congruence|congruence|lia|]. cbn [rbind].
  destruct (rotate_blocked c sn (nofZ 0) (nofZ 0) o3 _ _ _ _ B3 (outer_curves_mid no r)) as (-> & B4 & _). cbn [rbind].
  pose proof (turned_calm _ c sn o3 _ _ _ _ B3 (outer_curves_mid no r) C3) as C4.
  set (o4 := set_elems (turned c sn <$> elems o3) o3) in *. change (nel o3) with (nel o4) in *. change (ndim o3) with (ndim o4) in *. change (lr1 o3) with (lr1 o4) in *. change (nbc o3) with (nbc o4) in *.
  destruct (disc_merge_calm bnd ib m3 o4 LA D3 C4) as (m4 & -> & _); [congruence|congruence|congruence|congruence|lia|]. eauto.
Qed.
End disc.
