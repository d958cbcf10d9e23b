(** The whole disc: which faces remain open. *)
From Coq Require Import Lia Reals Lra.
From Verif Require Import Base Mesh Core Tools Float FloatLaws MeshLemmas MeshSpec CheckProofs OpsProofs GeoLaws BoxSpec BoxProofs MergeSpec MergeProofs MergeTotal
  MergeTypes Disc DiscSpec DiscProofs DiscBlock DiscPlaces DiscJoin DiscParts P_Disc P_Merge.
Open Scope Z_scope.

Section whole.
Context (r s : R) (ns no : nat) (cf bf : R → R) (bc : list string).
Notation described := (described r s ns no bf bc).
Notation vertex := (vertex r s ns no cf bf).
Hypothesis (Hr : (0 < r)%R) (Hs : (0 < s < 1)%R) (Hns : (1 ≤ ns)%nat) (Hno : (1 ≤ no)%nat).
Hypothesis (bf0 : bf 0%R = 0%R) (bf1 : bf 1%R = 1%R) (cf0 : cf 0%R = 0%R) (cf1 : cf 1%R = 1%R).
Hypothesis (rising : ∀ i, (i < no)%nat → (bf (along i no) < bf (along (i + 1) no))%R).
Hypothesis (moderate : ∀ j, (j < ns)%nat → (dist (vertex j (no - 1)) (vertex j no) < 40 * (r / INR ns))%R ∧ (dist (vertex j (no - 1)) (vertex j no) < 40 * ((1 - s) * r))%R).
Hypothesis (Hbc : (0 < length bc)%nat) (Hty : ∀ t, t ∈ bc → u3 t ≠ "P"%string ∧ u3 t ≠ "E"%string).

(** The open places when k quarters have been merged. *)
Definition open_at (k : nat) (p : bool * place) : Prop :=
  match p.2 with
  | Side q j => p.1 = true ∧ (k ≤ q < 4 ∧ j < ns)%nat
  | Seam q i => p.1 = false ∧ (i < no ∧ 1 ≤ k < 4 ∧ (q = 0 ∨ q = k))%nat
  | Arc q j => p.1 = false ∧ (q < k ∧ j < ns)%nat
  end.
Definition outer_face (q j : nat) : nat * nat := ((ns * ns + q * (no * ns) + elnum (no - 1) j no)%nat, 1%nat).
Definition after (k : nat) (F : faces) : Prop :=
  (∀ p, (∃ y, F y p) ↔ open_at k p) ∧ ∀ y fl q j, F y (fl, Arc q j) → y = outer_face q j.

Lemma after_0 : after 0 (block_faces ns ns (square_places ns)).
Proof.
  split.
  - intros [fl P]. split.
    + intros (y & i & j & f & Hi & Hj & Hf & Hb & -> & E). unfold square_places in E. injection E as -> ->.
      destruct f as [|[|[|[|f]]]]; [| | | |lia]; cbn [open_at fst snd]; lia.
    + destruct P as [q j|q i|q j]; cbn [open_at fst snd]; [|lia|lia]. intros (-> & Hq & Hj).
      destruct q as [|[|[|[|q]]]]; [| | | |lia].
      * exists (elnum (ns - 1) j ns, 1%nat), (ns - 1)%nat, j, 1%nat. cbn [on_boundary]. split_and!; try done; lia.
      * exists (elnum (ns - 1 - j) (ns - 1) ns, 2%nat), (ns - 1 - j)%nat, (ns - 1)%nat, 2%nat. cbn [on_boundary]. split_and!; try done; try lia. unfold square_places. do 2 f_equal. lia.
      * exists (elnum 0 (ns - 1 - j) ns, 3%nat), 0%nat, (ns - 1 - j)%nat, 3%nat. cbn [on_boundary]. split_and!; try done; try lia. unfold square_places. do 2 f_equal. lia.
      * exists (elnum j 0 ns, 0%nat), j, 0%nat, 0%nat. cbn [on_boundary]. split_and!; try done; lia.
  - intros y fl q j (i & j' & f & _ & _ & _ & _ & _ & E). unfold square_places in E. injection E as _ E. destruct f as [|[|[|f]]]; done.
Qed.

Definition next (q : nat) : nat := match q with 3 => 0 | _ => q + 1 end%nat.
Lemma quarter_open q p : (q < 4)%nat → (∃ x, block_faces no ns (quarter_places q) x p) ↔
  p.1 = false ∧ match p.2 with Side q' j | Arc q' j => q' = q ∧ (j < ns)%nat | Seam q' i => (q' = q ∨ q' = next q) ∧ (i < no)%nat end.
Proof.
  intros Hq. destruct p as [fl P]. cbn [fst snd]. split.
  - intros (y & i & j & f & Hi & Hj & Hf & Hb & -> & E). unfold quarter_places in E. injection E as -> ->.
    destruct f as [|[|[|[|f]]]]; [| | | |lia]; cbn [fst snd]; (split; [done|]); try lia. split; [|done]. right. done.
  - intros [-> H]. destruct P as [q' j|q' i|q' j].
    + destruct H as [-> Hj]. exists (elnum 0 j no, 3%nat), 0%nat, j, 3%nat. cbn [on_boundary]. split_and!; try done; lia.
    + destruct H as [[->| ->] Hi].
      * exists (elnum i 0 no, 0%nat), i, 0%nat, 0%nat. cbn [on_boundary]. split_and!; try done; lia.
      * exists (elnum i (ns - 1) no, 2%nat), i, (ns - 1)%nat, 2%nat. cbn [on_boundary]. split_and!; try done; lia.
    + destruct H as [-> Hj]. exists (elnum (no - 1) j no, 1%nat), (no - 1)%nat, j, 1%nat. cbn [on_boundary]. split_and!; try done; lia.
Qed.
Lemma quarter_arc q x fl q' j : block_faces no ns (quarter_places q) x (fl, Arc q' j) → q' = q ∧ x = (elnum (no - 1) j no, 1%nat).
Proof.
  intros (i & j' & f & Hi & Hj & Hf & Hb & -> & E). unfold quarter_places in E. injection E as _ E.
  destruct f as [|[|[|[|f]]]]; [done| |done|done|lia]. injection E as <- <-. cbn [on_boundary] in Hb. split; [done|]. repeat f_equal. lia.
Qed.
Lemma after_step k F : (k < 4)%nat → after k F → after (S k) (merged (ns * ns + k * (no * ns)) F (block_faces no ns (quarter_places k))).
Proof.
  intros Hk [H1 H2]. split.
  - intros p. split.
    + intros (y & [[Hy Hn]|(x & -> & Hx & Hn)]).
      * assert (open_at k p) as Ho by (apply H1; eauto).
        assert (∀ P, p.2 = P → match P with Side q' j | Arc q' j => q' = k ∧ (j < ns)%nat | Seam q' i => (q' = k ∨ q' = next k) ∧ (i < no)%nat end → False) as HN.
        { intros P EP HP. destruct (proj2 (quarter_open k (false, P) Hk)) as [x Hx]; [done|]. exact (Hn x (false, P) Hx (eq_sym EP)). }
        destruct p as [fl [q j|q i|q j]]; unfold open_at in *; cbn [fst snd] in *; pose proof (HN _ eq_refl) as HN'; cbn in HN'.
        -- destruct (decide (q = k)); [exfalso; apply HN'; lia|]. split; [apply Ho|]. lia.
        -- destruct Ho as (-> & Hi & Hk1 & Hq). split; [done|]. unfold next in HN'. destruct (decide (q = k)); [exfalso; apply HN'; lia|].
           destruct k as [|[|[|[|k]]]]; try lia; destruct q; try lia.
        -- split; [apply Ho|]. lia.
      * assert (∃ x, block_faces no ns (quarter_places k) x p) as Hq by eauto. apply quarter_open in Hq as [Hf Hq]; [|done].
        assert (∀ fl, open_at k (fl, p.2) → False) as HN.
        { intros fl Ho. apply H1 in Ho as [z Hz]. exact (Hn z _ Hz eq_refl). }
        destruct p as [fl [q j|q i|q j]]; unfold open_at in *; cbn [fst snd] in *; subst fl.
        -- exfalso. apply (HN true). split; [done|]. lia.
        -- destruct Hq as [Hq Hi]. split; [done|]. specialize (HN false). unfold next in Hq.
           destruct k as [|[|[|[|k]]]]; [| | | |lia].
           ++ lia.
           ++ destruct Hq as [->| ->]; [exfalso; apply HN; lia|lia].
           ++ destruct Hq as [->| ->]; [exfalso; apply HN; lia|lia].
           ++ destruct Hq as [->| ->]; exfalso; apply HN; lia.
        -- split; [done|]. lia.
    + intros Ho.
      assert ((open_at k p ∧ ¬ ∃ x p', block_faces no ns (quarter_places k) x p' ∧ p'.2 = p.2) ∨ ((∃ x, block_faces no ns (quarter_places k) x p) ∧ ¬ ∃ fl, open_at k (fl, p.2))) as [[A B]|[A B]].
      { assert ((∃ x p', block_faces no ns (quarter_places k) x p' ∧ p'.2 = p.2) → ∃ x, block_faces no ns (quarter_places k) x (false, p.2)) as HB.
        { intros (x & p' & Hx & E). exists x. rewrite <- E. assert (∃ x, block_faces no ns (quarter_places k) x p') as Hq by eauto. apply quarter_open in Hq as [Hf _]; [|done]. destruct p' as [? ?]. cbn in *. by subst. }
        assert ((∃ x p', block_faces no ns (quarter_places k) x p' ∧ p'.2 = p.2) → 
          match p.2 with Side q' j | Arc q' j => q' = k ∧ (j < ns)%nat | Seam q' i => (q' = k ∨ q' = next k) ∧ (i < no)%nat end) as HB'.
        { intros HX. apply HB in HX. apply quarter_open in HX as [_ HX]; [|done]. exact HX. }
        clear HB. destruct p as [fl [q j|q i|q j]]; unfold open_at in *; cbn [fst snd] in *; destruct Ho as [-> Ho].
        - left. split; [split; [done|lia]|]. intros HX. apply HB' in HX. lia.
        - destruct Ho as (Hi & Hk1 & Hq). destruct (decide (q = 0%nat ∧ k ≠ 0%nat)) as [[-> Hk0]|Hq0].
          + left. split; [split; [done|lia]|]. intros HX. apply HB' in HX. unfold next in HX. destruct k as [|[|[|[|k]]]]; lia.
          + right. split; [|intros (fl & Hx); lia]. apply quarter_open; [done|]. cbn [fst snd]. split; [done|]. split; [|done]. unfold next. destruct k as [|[|[|[|k]]]]; lia.
        - destruct (decide (q = k)) as [->|Hne].
          + right. split; [|intros (fl & Hx); lia]. apply quarter_open; [done|]. cbn [fst snd]. done || (split; [done|]; lia).
          + left. split; [split; [done|lia]|]. intros HX. apply HB' in HX. lia. }
      * apply H1 in A as [y Hy]. exists y. left. split; [done|]. intros x p' Hx E. apply B. eauto.
      * destruct A as [x Hx]. eexists. right. exists x. split; [reflexivity|]. split; [done|]. intros z p' Hz E. apply B. exists p'.1. apply H1. exists z. rewrite <- E. by destruct p'.
  - intros y fl q j [[Hy _]|(x & -> & Hx & _)]; [by eapply H2|]. apply quarter_arc in Hx as [-> ->]. unfold outer_face, shifted. cbn [fst snd]. done.
Qed.
Lemma step_disc k self F o : (k < 4)%nat → described self F → after k F → nel self = (ns * ns + k * (no * ns))%nat → quarter r s ns no cf bf bc k o →
  ∃ m' F', disc_merge (A:=AR) true self o = Ok m' ∧ described m' F' ∧ after (S k) F' ∧ nel m' = (ns * ns + S k * (no * ns))%nat.
Proof.
  intros Hk D Ha Hn Q. pose proof (quarter_described r s ns no cf bf bc Hr Hs Hns Hno bf0 bf1 cf0 cf1 rising moderate Hbc Hty k o Hk Q) as Do.
  destruct (merge_described r s ns no bf bc Hr Hs Hns Hno bf0 rising Hbc self o _ _ D Do) as (m' & E & En & D').
  - intros x p Hx. assert (∃ x, block_faces no ns (quarter_places k) x p) as Hq by eauto. apply quarter_open in Hq as [Hf _]; done.
  - intros y p Hy. assert (open_at k p) as Ho by (apply Ha; eauto). destruct p as [fl [q j|q i|q j]]; unfold open_at in Ho; cbn [fst snd] in *; [tauto|tauto|].
    split; [tauto|]. intros x [fl' P] q' j' Hx E. cbn [snd] in E. subst P. apply quarter_arc in Hx as [-> _]. lia.
  - rewrite Hn in D'. eexists m', _. split; [exact E|]. split; [exact D'|]. split; [by apply after_step|]. rewrite En, Hn.
    destruct Q as [(_ & -> & _) _ _ _]. lia.
Qed.
Lemma disc_described bo var : ∃ m F, gen_circle TR bo r s ns no cf bf var bc true = Ok m ∧ described m F ∧ after 4 F ∧ nel m = (ns * ns + 4 * (no * ns))%nat.
Proof.
  unfold gen_circle. cbv zeta.
  pose proof (square_described r s ns no bf bc Hr Hs Hns Hno Hbc bo var) as D0.
  assert (nel (disc_square (A:=AR) bo r s ns var bc true) = (ns * ns + 0 * (no * ns))%nat) as N0.
  { unfold disc_square. match goal with |- nel (disc_block ?bo' ?ni ?nj ?pl ?v ?nb ?ib ?b0 ?b1 ?b2 ?b3) = _ => destruct (disc_block_spec (A:=AR) bo' ni nj pl v nb ib b0 b1 b2 b3) as (Rs & _) end.
    destruct (fields_set_elems _ _ Rs) as (_ & E & _). refine (eq_trans E _). cbn. lia. }
  pose proof (first_quarter r s ns no cf bf bc Hno Hty bo var) as Q0.
  destruct (step_disc 0 _ _ _ ltac:(lia) D0 after_0 N0 Q0) as (m1 & F1 & E1 & D1 & A1 & N1). rewrite E1. cbn [rbind].
  destruct (next_quarter r s ns no cf bf bc 0 _ Q0) as (o1 & R1 & Q1). cbv zeta in R1. rewrite R1. cbn [rbind].
  destruct (step_disc 1 _ _ _ ltac:(lia) D1 A1 N1 Q1) as (m2 & F2 & E2 & D2 & A2 & N2). rewrite E2. cbn [rbind].
  destruct (next_quarter r s ns no cf bf bc 1 _ Q1) as (o2 & R2 & Q2). cbv zeta in R2. rewrite R2. cbn [rbind].
  destruct (step_disc 2 _ _ _ ltac:(lia) D2 A2 N2 Q2) as (m3 & F3 & E3 & D3 & A3 & N3). rewrite E3. cbn [rbind].
  destruct (next_quarter r s ns no cf bf bc 2 _ Q2) as (o3 & R3 & Q3). cbv zeta in R3. rewrite R3. cbn [rbind].
  destruct (step_disc 3 _ _ _ ltac:(lia) D3 A3 N3 Q3) as (m4 & F4 & E4 & D4 & A4 & N4). exists m4, F4. done.
Qed.
End whole.
