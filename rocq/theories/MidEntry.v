(** Proofs about [extrude_mid]: the conditions of the new faces. *)
From Coq Require Import Lia.
From Verif Require Import Base Mesh Core Tools Curve Mid MeshLemmas MeshSpec CheckProofs OpsProofs GeoLaws BoxProofs
  ExtrudeSpec ExtrudeProofs MidSpec MidProofs MidBlock MidMesh MidResult MidGeo MidFaces.
Open Scope Z_scope.

Section entry.
Context {A : arith}.
Notation N := (num A).
Notation vec := (vec (A:=A)).
Implicit Types (e : elem N) (r : bcrec N) (m : hexa N).

Lemma instr_touching lo hi j g nel2d iel : (lo, hi) ∈ cuts → (j < 6)%nat → (g < 6)%nat →
  match touching (mid_sides lo hi) j g, instr (A:=A) (mid_links nel2d iel (mid_sides lo hi)) j g with
  | Some (d, j', g'), Some h => ∀ r, bt (h r) = "E"%string ∧ bp4 (h r) = nofZ (Z.of_nat g' + 1) ∧
      bp3 (h r) = nofZ (Z.of_nat iel + Z.of_nat j' + 1 + (Z.of_nat d - 1) * (6 * Z.of_nat nel2d))
  | None, None => True
  | _, _ => False
  end.
Proof.
  intros Hin Hj Hg. unfold cuts in Hin. rewrite !elem_of_cons, elem_of_nil in Hin.
  destruct Hin as [Hin|[Hin|[Hin|[Hin|[]]]]]; injection Hin as -> ->; sides;
    (destruct j as [|[|[|[|[|[|]]]]]]; [| | | | | |lia]); (destruct g as [|[|[|[|[|[|]]]]]]; [| | | | | |lia]);
    first [exact I|intros r; split; [reflexivity|]; split; [reflexivity|]; cbn [bp3 set_end link set_bp4 set_bp3 snd]; f_equal; lia].
Qed.

(** The entries of the new faces. *)
Definition new_entry (n q : nat) (c1 c2 : string) (s : cutsides) (k i j g : nat) r r' : Prop :=
  (∃ d j' g', touching s j g = Some (d, j', g') ∧ (1 ≤ k + d ≤ q)%nat ∧ bt r' = "E"%string ∧ points r' (sixth n (k + d - 1) i j') g') ∨
  (g = 4%nat ∧ k = 0%nat ∧ (j = 0 ∨ j = 1)%nat ∧ bt r' = u3 c1 ∧ (c1 = "P"%string → points r' (sixth n (q - 1) i (5 - j)) 5)) ∨
  (g = 5%nat ∧ k = (q - 1)%nat ∧ (j = 5 ∨ j = 4)%nat ∧ bt r' = u3 c2 ∧ (c2 = "P"%string → points r' (sixth n 0 i (5 - j)) 4)) ∨
  ((g = s_l0 s ∨ g = s_l1 s) ∧ r' = mid_ref n k j r) ∨
  ((g = s_lo s ∨ g = s_hi s) ∧ touching s j g = None ∧ r' = r).
Lemma new_entry_ok n q c1 c2 lo hi k i j g r : (lo, hi) ∈ cuts → (k < q)%nat → (i < n)%nat → (j < 6)%nat → (g < 6)%nat →
  new_entry n q c1 c2 (mid_sides lo hi) k i j g r
    (mend n q c1 c2 k i j g (mid_upd true n (6 * (i + n * k)) k (mid_sides lo hi) j g r)).
Proof.
  intros Hin Hk Hi Hj Hg. unfold new_entry, mend. set (s := mid_sides lo hi).
  destruct (splits_sound lo hi) as [[(B1 & B2 & B3 & B4) Hnd] _]; [unfold splits; apply elem_of_app; by left|]. fold s in B1, B2, B3, B4, Hnd.
  destruct (decide (g = 4 ∧ k = 0 ∧ (j = 0 ∨ j = 1))%nat) as [(-> & -> & Hj')|H4].
  { right. left. split; [done|]. split; [done|]. split; [done|].
    destruct (String.eqb_spec c1 "P") as [E|E]; (split; [done|]); [|done]. intros _. split; [done|]. cbn [set_end bp4]. f_equal. }
  destruct (decide (g = 5 ∧ k = q - 1 ∧ (j = 5 ∨ j = 4))%nat) as [(-> & -> & Hj')|H5].
  { right. right. left. split; [done|]. split; [done|]. split; [done|].
    destruct (String.eqb_spec c2 "P") as [E|E]; (split; [done|]); [|done]. intros _. split; [done|]. cbn [set_end bp4]. f_equal. }
  unfold mid_upd. destruct (decide (g = s_l0 s ∨ g = s_l1 s)) as [Hl|Hl]; [right; right; right; left; done|].
  pose proof (instr_touching lo hi j g n (6 * (i + n * k)) Hin Hj Hg) as HI. fold s in HI.
  destruct (touching s j g) as [[[d j'] g']|] eqn:Et.
  - destruct (instr _ j g) as [h|]; [|done]. left. exists d, j', g'. destruct (HI r) as (T1 & T2 & T3).
    destruct (touching_sym lo hi j g d j' g' Hin Hj Hg Et) as (D & J' & G' & _ & D0 & D2).
    assert (1 ≤ k + d ≤ q)%nat as Hd by lia.
    split; [done|]. split; [done|]. split; [done|]. split; [|done]. rewrite T3. f_equal. unfold sixth.
    assert (d = 0 ∨ d = 1 ∨ d = 2)%nat as [-> |[-> | ->]] by lia.
    + destruct k as [|k]; [lia|]. replace (S k + 0 - 1)%nat with k by lia. nia.
    + replace (k + 1 - 1)%nat with k by lia. lia.
    + replace (k + 2 - 1)%nat with (S k) by lia. nia.
  - destruct (instr _ j g); [done|]. right. right. right. right. split; [|done].
    assert (g < 4)%nat as Hg4.
    { destruct (touching_ends lo hi j Hin Hj) as ((? & ? & ? & T4 & _) & (? & ? & ? & T5 & _) & _). fold s in T4, T5.
      destruct (decide (g = 4)%nat) as [->|]; [congruence|]. destruct (decide (g = 5)%nat) as [->|]; [congruence|]. lia. }
    assert ([s_hi s; s_lo s; s_l0 s; s_l1 s] ≡ₚ range 4) as Hperm.
    { apply submseteq_Permutation_length_le; [done|]. apply NoDup_submseteq; [done|]. intros y Hy. apply elem_of_range.
      rewrite !elem_of_cons, elem_of_nil in Hy. by destruct Hy as [-> |[-> |[-> |[-> |[]]]]]. }
    assert (g ∈ [s_hi s; s_lo s; s_l0 s; s_l1 s]) as Hin4 by (rewrite Hperm; by apply elem_of_range).
    rewrite !elem_of_cons, elem_of_nil in Hin4. tauto.
Qed.

(** ** References of the sides *)
Lemma mid_ref_points bnd n q k j r p g : arith_laws A bnd → mul_law (A:=A) bnd → is_conn (bt r) → points r p g → (p < n)%nat → (k < q)%nat → (j < 6)%nat →
  Z.of_nat (6 * n * q) <= bnd → points (mid_ref n k j r) (sixth n k p j) g.
Proof.
  intros LA LM Hc [P3 P4] Hp Hk Hj Hbnd. unfold mid_ref.
  assert (String.eqb (bt r) "P" || String.eqb (bt r) "E" = true) as ->.
  { destruct Hc as [-> | ->]; done. }
  split; [|done]. cbn [set_bp3 bp3]. rewrite P3. pose proof (sixth_lt n q k p j Hp Hk Hj) as Hlt. unfold sixth in *.
  assert (6 <= bnd) as H6 by nia. assert (0 <= Z.of_nat (n * k) <= bnd) as Hnk by lia.
  assert (Z.abs (Z.of_nat p + 1) <= bnd) by nia. assert (0 <= 6 * (Z.of_nat p + Z.of_nat (n * k)) <= bnd) by lia.
  rewrite (law_sub A bnd LA) by lia. replace (Z.of_nat p + 1 - 1) with (Z.of_nat p) by lia.
  rewrite (law_add A bnd LA (Z.of_nat p)) by lia. rewrite LM by lia.
  rewrite (law_add A bnd LA) by lia. rewrite (law_add A bnd LA) by lia. f_equal. lia.
Qed.
Lemma mid_ref_bt n k j r : bt (mid_ref n k j r) = bt r.
Proof. unfold mid_ref. by destruct (_ || _). Qed.

(** ** The new mesh is paired *)
Section mesh.
Context (f : N → N → N) (z : list N) (q : nat) (c1 c2 : nat → string) (m m3 : hexa N).
Hypothesis Hw : wf_mesh m.
Hypothesis Hlin : linear2d m.
Hypothesis Hcut : ∀ e, e ∈ elems m → cut_across f e.
Hypothesis Hres : mid_result f true z q c1 c2 m m3.
Hypothesis Hq : (1 ≤ q)%nat.
Hypothesis Hcond : ∀ b, (b < nbc m)%nat → end_condition (c1 b) ∧ end_condition (c2 b) ∧ (c1 b = "P"%string ↔ c2 b = "P"%string).

(** The sides of element i. *)
Definition sides_of e : cutsides := match orient f e with Some (lo, hi) => mid_sides lo hi | None => Cut 0 0 0 0 0 0 end.
Lemma get_new k i e j b g : (k < q)%nat → elems m !! i = Some e → (j < 6)%nat → (b < nbc m)%nat → (g < 6)%nat →
  ∃ r r', get_bc m i b g = Some r ∧ get_bc m3 (sixth (nel m) k i j) b g = Some r' ∧
    new_entry (nel m) q (c1 b) (c2 b) (sides_of e) k i j g r r'.
Proof using Hw Hcut Hres.
  intros Hk He Hj Hb Hg. destruct Hres as (_ & _ & _ & _ & _ & _ & _ & _ & Hel).
  destruct (Hel k i e Hk He) as (l & (lo & hi & m0 & m1 & a0 & a1 & Ho & E0 & E1 & F & HF) & Hl).
  destruct (Hl j Hj) as (x & y & Hx & Hy & _ & _ & Hget). rewrite Hget by done. rewrite HF by done.
  assert (i < nel m)%nat as Hi by (destruct Hw as [(_ & <- & _) _]; by eapply lookup_lt_Some).
  destruct (wf_get_bc m i b g (proj1 Hw) Hi Hb Hg) as [r Hr]. exists r.
  assert (get_bc m i b g = (row ← bcs e !! b; row !! g)) as E by (unfold get_bc; by rewrite He).
  rewrite <- E, Hr. cbn [fmap option_fmap option_map]. eexists. split; [done|]. split; [reflexivity|].
  unfold sides_of. rewrite Ho. apply new_entry_ok; try done.
  destruct (cut_sides f e lo hi) as [Hin _]; [apply Hcut; by eapply elem_of_list_lookup_2|done|done].
Qed.
Lemma sides_spec i e : elems m !! i = Some e → ∃ lo hi, orient f e = Some (lo, hi) ∧ (lo, hi) ∈ cuts ∧ sides_of e = mid_sides lo hi ∧
  (∀ g, side_cut f e g ↔ g = s_l0 (sides_of e) ∨ g = s_l1 (sides_of e)) ∧
  side_low f e (s_lo (sides_of e)) = (true, true) ∧ side_low f e (s_hi (sides_of e)) = (false, false) ∧
  (s_lo (sides_of e) < 4 ∧ s_hi (sides_of e) < 4)%nat.
Proof using Hcut.
  intros He. assert (cut_across f e) as Hc by (apply Hcut; by eapply elem_of_list_lookup_2).
  destruct (cut_orient f e Hc) as (lo & hi & Ho & Hin & _). exists lo, hi. split; [done|]. split; [done|].
  unfold sides_of. rewrite Ho. split; [done|]. destruct (cut_sides f e lo hi Hc Ho) as (_ & _ & H1 & H2 & H3). split; [done|]. split; [done|]. split; [done|].
  destruct (splits_sound lo hi) as [[(B1 & B2 & _) _] _]; [unfold splits; apply elem_of_app; by left|done].
Qed.
Lemma lowhigh_not_cut e g : (side_low f e g = (true, true) ∨ side_low f e g = (false, false)) → ¬ side_cut f e g.
Proof. intros [H|H] [_ Hc]; by rewrite H in Hc. Qed.

Lemma new_paired bnd : arith_laws A bnd → mul_law (A:=A) bnd → paired m → free_sides f m → Z.of_nat (6 * nel m * q) <= bnd → paired m3.
Proof using Hw Hlin Hcut Hres Hq Hcond.
  intros LA LM Hp Hfree Hbnd p b g r' (Hpp & Hb & Hg) Hr' Hc.
  pose proof Hres as (R1 & R2 & _ & _ & R5 & _). rewrite R2 in Hpp. rewrite R5 in Hb. rewrite R1 in Hg.
  destruct (sixth_div (nel m) q p Hpp) as (k & i & j & (Hk & Hi & Hj) & ->).
  pose proof Hw as [(_ & Hlen & _) _]. destruct (lookup_lt_is_Some_2 (elems m) i) as [e He]; [lia|].
  assert (g < 6)%nat as Hg6 by lia. pose proof Hlin as (L1 & _).
  assert (∀ k i j b g, (k < q)%nat → (i < nel m)%nat → (j < 6)%nat → (b < nbc m)%nat → (g < 6)%nat → in_mesh m3 (sixth (nel m) k i j) b g) as Hin3.
  { intros. unfold in_mesh. rewrite R1, R2, R5. split_and!; [by apply sixth_lt|done|lia]. }
  destruct (sides_spec i e He) as (lo & hi & Ho & Hin & Es & Hsc & Hlo & Hhi & _).
  destruct (get_new k i e j b g Hk He Hj Hb Hg6) as (r & r0 & Hr & Hr0 & HE). rewrite Hr' in Hr0. apply (inj Some) in Hr0 as <-.
  destruct (Hcond b Hb) as ((U1 & N1) & (U2 & N2) & HPP).
  destruct HE as [(d & j' & g' & Et & Hd & T & P)|[(-> & -> & Hj' & T & P)|[(-> & -> & Hj' & T & P)|[(Hl & ->)|(Hl & _ & ->)]]]].
  - rewrite Es in Et. destruct (touching_sym lo hi j g d j' g' Hin Hj Hg6 Et) as (D & J' & G' & Et' & D0 & D2).
    destruct (get_new (k + d - 1) i e j' b g' ltac:(lia) He J' Hb G') as (r2 & r2' & Hr2 & Hr2' & HE').
    exists (sixth (nel m) (k + d - 1) i j'), g', r2'. split; [apply Hin3; try done; lia|]. split; [done|]. split; [done|].
    destruct (touching_sym lo hi j' g' _ _ _ Hin J' G' Et') as (_ & _ & _ & _ & D0' & D2').
    destruct HE' as [(d' & j'' & g'' & Et2 & Hd' & T' & P')|[(Hg' & Hk' & Hj' & _)|[(Hg' & Hk' & Hj' & _)|[(Hl & _)|(Hl & Hn & _)]]]].
    + rewrite Es in Et2. rewrite Et' in Et2. injection Et2 as <- <- <-. split; [congruence|].
      replace (k + d - 1 + (2 - d) - 1)%nat with k in P' by lia. done.
    + exfalso. destruct (touching_ends lo hi j' Hin J') as ((dd & ? & ? & T4 & Td) & _). subst g'. rewrite Et' in T4. injection T4 as <- _ _. specialize (Td Hj'). lia.
    + exfalso. destruct (touching_ends lo hi j' Hin J') as (_ & (dd & ? & ? & T4 & Td) & _). subst g'. rewrite Et' in T4. injection T4 as <- _ _.
      destruct Hj' as [-> | ->]; specialize (Td ltac:(lia)); lia.
    + exfalso. destruct (touching_ends lo hi j' Hin J') as (_ & _ & T6 & T7). rewrite Es in Hl. destruct Hl as [-> | ->]; congruence.
    + rewrite Es in Hn. congruence.
  - rewrite T, U1 in Hc. destruct Hc as [?|HP]; [done|]. specialize (P HP).
    destruct (get_new (q - 1) i e (5 - j) b 5 ltac:(lia) He ltac:(lia) Hb ltac:(lia)) as (r2 & r2' & Hr2 & Hr2' & HE').
    exists (sixth (nel m) (q - 1) i (5 - j)), 5%nat, r2'. split; [apply Hin3; try done; lia|]. split; [done|]. split; [done|].
    destruct HE' as [(d' & j'' & g'' & Et2 & Hd' & T' & P')|[(Hg' & _)|[(_ & _ & _ & T' & P')|[(Hl & _)|(Hl & Hn & _)]]]].
    + exfalso. rewrite Es in Et2. destruct (touching_ends lo hi (5 - j) Hin ltac:(lia)) as (_ & (dd & ? & ? & T4 & Td) & _). rewrite Et2 in T4. injection T4 as <- _ _.
      specialize (Td ltac:(lia)). lia.
    + done.
    + split; [rewrite T', T, U1, U2; rewrite HP; by apply HPP|]. replace (5 - (5 - j))%nat with j in P' by lia. apply P'. by apply HPP.
    + exfalso. destruct (touching_ends lo hi 0 Hin ltac:(lia)) as (_ & (? & ? & ? & T5 & _) & T6 & T7). rewrite Es in Hl. destruct Hl as [Hl | Hl]; rewrite <- Hl in *; congruence.
    + exfalso. destruct (touching_ends lo hi (5 - j) Hin ltac:(lia)) as (_ & (? & ? & ? & T5 & _) & _). rewrite Es in Hn. congruence.
  - rewrite T, U2 in Hc. destruct Hc as [?|HP]; [done|]. specialize (P HP).
    destruct (get_new 0 i e (5 - j) b 4 ltac:(lia) He ltac:(lia) Hb ltac:(lia)) as (r2 & r2' & Hr2 & Hr2' & HE').
    exists (sixth (nel m) 0 i (5 - j)), 4%nat, r2'. split; [apply Hin3; try done; lia|]. split; [done|]. split; [done|].
    destruct HE' as [(d' & j'' & g'' & Et2 & Hd' & T' & P')|[(_ & _ & _ & T' & P')|[(Hg' & _)|[(Hl & _)|(Hl & Hn & _)]]]].
    + exfalso. rewrite Es in Et2. destruct (touching_ends lo hi (5 - j) Hin ltac:(lia)) as ((dd & ? & ? & T4 & Td) & _ & _). rewrite Et2 in T4. injection T4 as <- _ _.
      specialize (Td ltac:(lia)). lia.
    + split; [rewrite T', T, U1, U2, HP; by apply HPP|]. replace (5 - (5 - j))%nat with j in P' by lia. apply P'. by apply HPP.
    + done.
    + exfalso. destruct (touching_ends lo hi 0 Hin ltac:(lia)) as ((? & ? & ? & T5 & _) & _ & T6 & T7). rewrite Es in Hl. destruct Hl as [Hl | Hl]; rewrite <- Hl in *; congruence.
    + exfalso. destruct (touching_ends lo hi (5 - j) Hin ltac:(lia)) as ((? & ? & ? & T5 & _) & _). rewrite Es in Hn. congruence.
  - rewrite mid_ref_bt in Hc. assert (side_cut f e g) as Hcg by (by apply Hsc).
    assert (in_mesh m i b g) as Hing. { split_and!; [done|done|]. rewrite L1. destruct Hcg. lia. }
    destruct (Hp i b g r Hing Hr Hc) as (p2 & g2 & r2 & Hin2 & P & Hr2 & T2 & P2). pose proof Hin2 as (Hp2 & _ & Hg2). rewrite L1 in Hg2.
    destruct (lookup_lt_is_Some_2 (elems m) p2) as [e2 He2]; [lia|].
    destruct (sides_spec p2 e2 He2) as (lo2 & hi2 & Ho2 & Hin2' & Es2 & Hsc2 & Hlo2 & Hhi2 & _).
    destruct (get_new k p2 e2 j b g2 Hk He2 Hj Hb ltac:(lia)) as (r3 & r3' & Hr3 & Hr3' & HE'). rewrite Hr2 in Hr3. apply (inj Some) in Hr3 as <-.
    assert (g2 = s_l0 (sides_of e2) ∨ g2 = s_l1 (sides_of e2)) as Hl2.
    { apply Hsc2. destruct (decide (g2 = s_l0 (sides_of e2) ∨ g2 = s_l1 (sides_of e2))) as [H|H]; [by apply Hsc2|]. exfalso.
      refine (Hfree p2 e2 b g2 r2 He2 Hin2 Hr2 _ _); [by rewrite Hsc2|by rewrite T2]. }
    destruct HE' as [(d' & j'' & g'' & Et2 & _)|[(Hg' & _)|[(Hg' & _)|[(_ & ->)|(Hl' & _)]]]].
    + exfalso. destruct (touching_ends lo2 hi2 j Hin2' Hj) as (_ & _ & T6 & T7). rewrite Es2 in *. destruct Hl2 as [-> | ->]; congruence.
    + lia.
    + lia.
    + exists (sixth (nel m) k p2 j), g2, (mid_ref (nel m) k j r2). split; [apply Hin3; done || lia|].
      split; [by eapply mid_ref_points|]. split; [done|]. split; [by rewrite !mid_ref_bt|]. eapply mid_ref_points; try done. by rewrite T2.
    + exfalso. apply (lowhigh_not_cut e2 g2); [destruct Hl' as [-> | ->]; auto|]. by apply Hsc2.
  - exfalso. refine (Hfree i e b g r He _ Hr _ Hc).
    + split_and!; [done|done|]. rewrite L1. destruct (sides_spec i e He) as (_ & _ & _ & _ & _ & _ & _ & _ & B1 & B2). lia.
    + apply lowhigh_not_cut. destruct Hl as [-> | ->]; auto.
Qed.
End mesh.
End entry.
