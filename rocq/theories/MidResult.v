(** Proofs about [extrude_mid]: its result. *)
From Coq Require Import Lia.
From Verif Require Import Base Mesh Core Tools Curve Mid MeshLemmas MeshSpec CheckProofs OpsProofs GeoLaws BoxProofs
  ExtrudeSpec ExtrudeProofs MidSpec MidProofs MidBlock MidMesh.
Open Scope Z_scope.

Section result.
Context {A : arith}.
Notation N := (num A).
Implicit Types (e : elem N) (r : bcrec N) (m : hexa N).

Lemma count_curved_total (l : list (elem N)) : (∀ e, e ∈ l → length (ccurv e) = 12%nat) →
  count_curved l = Z.of_nat (sum_list_with curved_edges l).
Proof.
  intros H. unfold count_curved.
  assert (∀ l n, (∀ e, e ∈ l → length (ccurv e) = 12%nat) → foldl (λ n e, foldl (λ n c, if String.eqb (ctype e c) "" then n else n + 1) n (range 12)) n l =
    n + Z.of_nat (sum_list_with curved_edges l)) as Hg.
  2: { rewrite Hg by done. lia. }
  clear. induction l as [|e l IH]; intros n H; [cbn; lia|]. cbn [foldl sum_list_with]. rewrite IH by (intros; apply H; by right).
  assert (length (ccurv e) = 12%nat) as He by (apply H; by left).
  assert (foldl (λ n c, if String.eqb (ctype e c) "" then n else n + 1) n (range 12) = n + Z.of_nat (curved_edges e)) as ->; [|lia].
  assert ((λ c, ctype e c) <$> range 12 = ccurv e) as Ee.
  { unfold ctype. destruct (ccurv e) as [|t0 [|t1 [|t2 [|t3 [|t4 [|t5 [|t6 [|t7 [|t8 [|t9 [|t10 [|t11 [|]]]]]]]]]]]]]; try done. }
  transitivity (foldl (λ n t, if String.eqb t "" then n else n + 1) n ((λ c, ctype e c) <$> range 12)).
  { generalize (range 12), n. induction l0 as [|c l0 IH0]; intros n0; [done|]. cbn [fmap list_fmap foldl]. apply IH0. }
  rewrite Ee. unfold curved_edges. generalize (ccurv e), n. induction l0 as [|t l0 IH0]; intros n0; [cbn; lia|].
  cbn [foldl List.filter]. rewrite IH0. destruct (String.eqb t ""); cbn [negb length]; lia.
Qed.

Lemma one_sided_none nb (bc1 bc2 : list string) c1 c2 : length bc1 = nb → (∀ b, (b < nb)%nat → bc1 !! b = Some (c1 b) ∧ bc2 !! b = Some (c2 b)) →
  (∀ b, (b < nb)%nat → c1 b = "P"%string ↔ c2 b = "P"%string) → one_sided_periodic bc1 bc2 = false.
Proof.
  intros Hl Hc HP. unfold one_sided_periodic. apply not_true_iff_false. intros H. apply existsb_exists in H as ([x y] & Hin & H).
  apply elem_of_list_In, elem_of_list_lookup in Hin as (b & Hb).
  apply lookup_zip_with_Some in Hb as (x' & y' & [= <- <-] & H1 & H2).
  assert (b < nb)%nat as Hlt by (rewrite <- Hl; by eapply lookup_lt_Some). destruct (Hc b Hlt) as [E1 E2].
  rewrite E1 in H1. rewrite E2 in H2. injection H1 as <-. injection H2 as <-.
  specialize (HP b Hlt).
  destruct (String.eqb_spec (c1 b) "P") as [E3|E3], (String.eqb_spec (c2 b) "P") as [E4|E4]; try done; tauto.
Qed.

(** The new mesh, in terms of the blocks. *)
Definition mid_result (f : N → N → N) (ib : bool) (z : list N) (q : nat) (c1 c2 : nat → string) m m3 : Prop :=
  let n := nel m in
  ndim m3 = 3%nat ∧ nel m3 = (6 * n * q)%nat ∧ length (elems m3) = nel m3 ∧ lr1 m3 = [2; 2; 2]%nat ∧ nbc m3 = nbc m ∧
  var m3 = [3; 0; 0; 0; 0]%nat ∧ ncurv m3 = count_curved (elems m3) ∧
  elmap m3 = (range (6 * q) ≫= λ k, (λ x, x + Z.of_nat (k * n)) <$> elmap m) ∧
  ∀ k i e, (k < q)%nat → elems m !! i = Some e → ∃ l, block f ib n (nbc m) k i (zk z k) e l ∧
    ∀ j, (j < 6)%nat → ∃ x y, l !! j = Some x ∧ elems m3 !! sixth n k i j = Some y ∧ strip_elem y = strip_elem x ∧
      length <$> bcs y = length <$> bcs x ∧
      ∀ b g, (b < nbc m)%nat → get_bc m3 (sixth n k i j) b g = mend n q (c1 b) (c2 b) k i j g <$> lget l j b g.
Lemma result_ok bnd (m : hexa N) z bc1 bc2 (f : N → N → N) ib c1 c2 q : arith_laws A bnd → wf_mesh m → linear2d m →
  (∀ e, e ∈ elems m → workable f e) → length z = (4 * q + 1)%nat → (1 ≤ q)%nat →
  (∀ k, (k < 6 * q)%nat → refs_within bnd (Z.of_nat (k * nel m)) 0 m) →
  length bc1 = nbc m → (∀ b, (b < nbc m)%nat → bc1 !! b = Some (c1 b) ∧ bc2 !! b = Some (c2 b)) →
  (∀ b, (b < nbc m)%nat → c1 b = "P"%string ↔ c2 b = "P"%string) →
  ((∀ e, e ∈ elems m → no_arcs e) ∨ q = 1%nat) →
  ∃ es m3, extrude_mid m z bc1 bc2 f ib = Ok (set_elems es m, m3) ∧ Forall2 evolved (elems m) es ∧ mid_result f ib z q c1 c2 m m3.
Proof.
  intros LA Hw Hlin Hwk Hz Hq Hrefs Hl1 Hc HP Ha.
  pose proof Hlin as (L1 & L2 & L3 & (v0 & rest & L4 & Hv) & _). pose proof Hw as [(_ & Hlen & Hrows) _].
  unfold extrude_mid. rewrite L1. cbn [Nat.eqb negb]. rewrite bool_decide_true by done. cbn [negb].
  rewrite L4. cbn [lookup list_lookup of_opt rbind]. destruct (Nat.ltb_spec v0 2); [lia|].
  rewrite (one_sided_none (nbc m) bc1 bc2 c1 c2) by done. cbv zeta.
  assert ((length z - 1) = q * 4)%nat as -> by lia. rewrite Nat.mod_mul, Nat.div_mul by lia.
  destruct (Nat.eqb_spec (length z) 0) as [?|_]; [lia|]. destruct (Nat.eqb_spec (q * 4) 0) as [?|_]; [lia|]. cbn [Nat.eqb negb orb].
  rewrite Hlen, Nat.eqb_refl. cbn [negb].
  destruct (copies_ok bnd m (6 * q) LA (proj1 Hw)) as (mc & -> & Em & Et & Ei & Ew & En); [by rewrite L3|done|lia|]. cbn [rbind].
  destruct (layers_ok f ib (nbc m) z (elems m) q Hwk) as (es & new & Ef & Hev & Hln & Hb); [destruct Ha as [?| ->]; [by left|by right]|].
  rewrite Hlen in Ef, Hln, Hb. unfold mid_step in Ef. cbv zeta in Ef. rewrite Ef. clear Ef. cbn [rbind].
  rewrite (mid_ends_eq (nel m) q bc1 bc2 c1 c2) by done. cbn [rbind].
  set (m0 := Hexa _ _ _ _ _ _ _ _ _ _ _ _ _). set (m1 := foldl (mend_step (nel m) q c1 c2) m0 _).
  exists es. eexists. split; [reflexivity|]. split; [done|].
  destruct (mend_strip (nel m) q c1 c2 m0 (prod2 (range (nel m)) (range (nbc m)))) as [S B]. fold m1 in S, B.
  pose proof (strip_fields _ _ S) as (F1 & F2 & F3 & F4 & F5 & F6 & F7 & F8).
  assert (length (elems m1) = length (elems m0)) as Fl.
  { apply (f_equal (@length _)) in B. unfold bshape in B. by rewrite !fmap_length in B. }
  unfold mid_result. cbn [ndim nel ncurv elems set_ncurv lr1 nbc var elmap].
  split; [exact F1|]. split; [etransitivity; [exact F2|cbn; lia]|].
  split; [rewrite F2, Fl; cbn; rewrite Hln; lia|].
  split; [exact (f_equal lr1 S)|]. split; [exact (f_equal nbc S)|]. split; [exact (f_equal var S)|]. split; [done|].
  split; [etransitivity; [exact (f_equal elmap S)|exact Em]|].
  intros k i e Hk He. destruct (Hb k i e Hk He) as (l & Hbl & Hnew). exists l. split; [done|]. intros j Hj.
  assert (i < nel m)%nat as Hi by (rewrite <- Hlen; by eapply lookup_lt_Some).
  destruct (lookup_lt_is_Some_2 l j) as [x Hx]; [by rewrite (block_length _ _ _ _ _ _ _ _ _ Hbl)|].
  assert (elems m0 !! sixth (nel m) k i j = Some x) as Hx0 by (rewrite <- Hx; by apply Hnew).
  destruct (strip_elem_lookup m0 m1 _ x (eq_sym S) Hx0) as (y & Hy & Exy).
  exists x, y. split; [done|]. split; [done|]. split; [done|]. split.
  - unfold bshape in B. apply (f_equal (lookup (sixth (nel m) k i j))) in B. rewrite !list_lookup_fmap, Hx0 in B.
    assert (elems m1 !! sixth (nel m) k i j = Some y) as Hy' by done. rewrite Hy' in B. cbn in B. by apply (inj Some) in B.
  - intros b g Hbb. transitivity (get_bc m1 (sixth (nel m) k i j) b g); [done|]. unfold m1. rewrite mend_all by done.
    f_equal. unfold get_bc. rewrite Hx0. unfold lget. by rewrite Hx.
Qed.
End result.
