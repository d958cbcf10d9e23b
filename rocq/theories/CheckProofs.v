(** check_connectivity and check_bcs_present decide their specification. *)
From Verif Require Import Base Mesh Core MeshLemmas MeshSpec.
From Coq Require Import Lia.

Section Proofs.
Context {A : arith}.
Notation N := (num A).
Implicit Types (m : hexa N) (e : elem N) (r : bcrec N).

Lemma wf_get_bc m i b f : wf_bcs m → (i < nel m)%nat → (b < nbc m)%nat → (f < 6)%nat →
  is_Some (get_bc m i b f).
Proof.
  intros (Hd & Hl & Hw) Hi Hb Hf. unfold get_bc.
  destruct (elems m !! i) as [e|] eqn:E.
  2: { apply lookup_ge_None in E. lia. }
  cbn. destruct (Hw e) as [Hlb Hrow]; [by eapply elem_of_list_lookup_2|].
  destruct (bcs e !! b) as [row|] eqn:Er.
  2: { apply lookup_ge_None in Er. lia. }
  cbn. apply lookup_lt_is_Some. rewrite (Hrow row); [lia|by eapply elem_of_list_lookup_2].
Qed.

Lemma face_corners_range i : is_Some (face_corners i) ↔ 0 <= i < 6.
Proof.
  unfold face_corners. split.
  - repeat (case_match; [lia|]). intros [? [=]].
  - intros Hi. assert (i = 0 ∨ i = 1 ∨ i = 2 ∨ i = 3 ∨ i = 4 ∨ i = 5) as H by lia.
    destruct H as [->|[->|[->|[->|[->| ->]]]]]; cbn; eauto.
Qed.
Lemma face_center_range e i c : face_center e i = Ok c → 0 <= i < 6.
Proof.
  unfold face_center. destruct (face_corners i) eqn:E; [|discriminate].
  intros _. apply face_corners_range. eauto.
Qed.

Lemma flat_bound lx ly lz kx ky kz : (kx < lx → ky < ly → kz < lz →
  flat (lx, ly, lz) kz ky kx < lz * ly * lx)%nat.
Proof. cbn. intros. assert (kz * ly + ky + 1 ≤ lz * ly)%nat by nia. nia. Qed.

Lemma point_Some e kz ky kx lx ly lz : wf_geom_elem e → eshape e = (lx, ly, lz) →
  (kx < lx)%nat → (ky < ly)%nat → (kz < lz)%nat → is_Some (point e kz ky kx).
Proof.
  intros (lx' & ly' & lz' & Es & Hge & Hp & Hc) Es' Hx Hy Hz.
  rewrite Es in Es'. injection Es' as -> -> ->.
  assert (∀ k, (k < 3)%nat → ∃ v, (pos e !! k ≫= (.!! flat (lx, ly, lz) kz ky kx)) = Some v) as H.
  { intros k Hk. destruct (pos e !! k) as [c|] eqn:E; [|apply lookup_ge_None in E; lia].
    cbn. assert (length c = (lz * ly * lx)%nat) as Hl by (apply Hc; by eapply elem_of_list_lookup_2).
    destruct (lookup_lt_is_Some_2 c (flat (lx, ly, lz) kz ky kx)); [|eauto].
    rewrite Hl. by apply flat_bound. }
  unfold point. rewrite Es.
  apply Nat.ltb_lt in Hx as ->, Hy as ->, Hz as ->. cbn [andb].
  destruct (H 0%nat) as [? ->]; [lia|]. destruct (H 1%nat) as [? ->]; [lia|].
  destruct (H 2%nat) as [? ->]; [lia|]. cbn. eauto.
Qed.

Lemma py_pos_0 n : (0 < n)%nat → py_pos n 0 = Some 0%nat.
Proof. intros. unfold py_pos. destruct (Z.ltb_spec 0 (Z.of_nat n)); [done|lia]. Qed.
Lemma py_pos_1 n : (1 < n)%nat → py_pos n 1 = Some 1%nat.
Proof. intros. unfold py_pos. destruct (Z.ltb_spec 1 (Z.of_nat n)); [done|lia]. Qed.
Lemma py_pos_m1 n : (0 < n)%nat → py_pos n (-1) = Some (n - 1)%nat.
Proof.
  intros. unfold py_pos. cbn [Z.leb Z.compare andb].
  destruct (Z.leb_spec (- Z.of_nat n) (-1)); [|lia]. cbn. f_equal. lia.
Qed.
Lemma py_pos_nonneg n i : 0 <= i → py_pos n i = if (i <? Z.of_nat n) then Some (Z.to_nat i) else None.
Proof.
  intros Hi. unfold py_pos. destruct (Z.leb_spec 0 i); [|lia]. cbn.
  destruct (Z.ltb_spec i (Z.of_nat n)); [done|].
  destruct (Z.ltb_spec i 0); [lia|]. by rewrite andb_false_r.
Qed.

Lemma point_py_Ok e kz ky kx lx ly lz : wf_geom_elem e → eshape e = (lx, ly, lz) →
  (kx = 0 ∨ kx = -1) → (ky = 0 ∨ ky = -1) → (kz = 0 ∨ kz = -1) →
  ∃ p, point_py e kz ky kx = Ok p.
Proof.
  intros Hw Es Hx Hy Hz. pose proof Hw as (lx' & ly' & lz' & Es' & Hge & _).
  rewrite Es in Es'. injection Es' as <- <- <-.
  unfold point_py. rewrite Es.
  assert (∀ n k, (1 ≤ n)%nat → k = 0 ∨ k = -1 → ∃ p, py_pos n k = Some p ∧ (p < n)%nat) as H.
  { intros n k Hn [->| ->]; [rewrite py_pos_0|rewrite py_pos_m1]; eauto with lia. }
  destruct (H lz kz) as (pz & -> & ?); [lia|done|].
  destruct (H ly ky) as (py & -> & ?); [lia|done|].
  destruct (H lx kx) as (px & -> & ?); [lia|done|].
  destruct (point_Some e pz py px lx ly lz) as [v ->]; [done..|]. cbn. eauto.
Qed.

Lemma face_center_Ok e i : wf_geom_elem e → 0 <= i < 6 → ∃ c, face_center e i = Ok c.
Proof.
  intros Hw Hi. pose proof Hw as (lx & ly & lz & Es & _).
  unfold face_center.
  assert (∃ a b c d, face_corners i = Some [a; b; c; d] ∧
    Forall (λ '(kx, ky, kz), (kx = 0 ∨ kx = -1) ∧ (ky = 0 ∨ ky = -1) ∧ (kz = 0 ∨ kz = -1))
      [a; b; c; d]) as (a & b & c & d & -> & HF).
  { assert (i = 0 ∨ i = 1 ∨ i = 2 ∨ i = 3 ∨ i = 4 ∨ i = 5) as H by lia.
    destruct H as [->|[->|[->|[->|[->| ->]]]]]; cbn; do 4 eexists;
      (split; [reflexivity|repeat (apply List.Forall_cons; [cbn; auto|]); apply List.Forall_nil]). }
  destruct a as [[? ?] ?], b as [[? ?] ?], c as [[? ?] ?], d as [[? ?] ?].
  repeat setoid_rewrite Forall_cons in HF.
  destruct HF as ((? & ? & ?) & (? & ? & ?) & (? & ? & ?) & (? & ? & ?) & _). cbn [mapR].
  repeat match goal with
  | |- context [point_py e ?a ?b ?c] =>
      destruct (point_py_Ok e a b c lx ly lz) as [[[? ?] ?] ->]; [done..|]; cbn [rbind]
  end. eauto.
Qed.

Lemma smallest_edge_Ok e : wf_geom_elem e → ∃ s, smallest_edge e = Ok s.
Proof.
  intros Hw. pose proof Hw as (lx & ly & lz & Es & (Hx & Hy & Hz) & _).
  unfold smallest_edge. rewrite Es.
  assert (∀ kz ky kx, 0 <= kx < 2 → 0 <= ky < 2 → 0 <= kz < Z.of_nat lz →
    ∃ p, point_py e kz ky kx = Ok p) as H.
  { intros kz ky kx ? ? ?. unfold point_py. rewrite Es.
    rewrite !py_pos_nonneg by lia.
    destruct (Z.ltb_spec kz (Z.of_nat lz)); [|lia].
    destruct (Z.ltb_spec ky (Z.of_nat ly)); [|lia].
    destruct (Z.ltb_spec kx (Z.of_nat lx)); [|lia].
    destruct (point_Some e (Z.to_nat kz) (Z.to_nat ky) (Z.to_nat kx) lx ly lz) as [v ->];
      [done|done|lia..|]. cbn. eauto. }
  destruct (H 0 0 0) as [? ->]; [lia..|]. cbn [rbind].
  destruct (H 0 0 1) as [? ->]; [lia..|]. cbn [rbind].
  destruct (H 0 1 0) as [? ->]; [lia..|]. cbn [rbind].
  destruct (H 0 1 1) as [? ->]; [lia..|]. cbn [rbind].
  destruct (Nat.ltb_spec 1 lz); [|eauto].
  destruct (H 1 0 0) as [? ->]; [lia..|]. cbn [rbind].
  destruct (H 1 0 1) as [? ->]; [lia..|]. cbn [rbind].
  destruct (H 1 1 0) as [? ->]; [lia..|]. cbn [rbind].
  destruct (H 1 1 1) as [? ->]; [lia..|]. cbn [rbind]. eauto.
Qed.

(** ** The error flag accumulates *)
Lemma foldM_orb {B} (f : bool → B → res bool) l err :
  (∀ err b, f err b = rmap (orb err) (f false b)) →
  foldM f err l = Ok false ↔ err = false ∧ ∀ b, b ∈ l → f false b = Ok false.
Proof.
  intros Hf. revert err. induction l as [|b l IH]; intros err; cbn.
  - split; [intros [= ->]; split; [done|]; intros b Hb; by apply elem_of_nil in Hb|].
    by intros [-> _].
  - rewrite Hf. split.
    + destruct (f false b) as [x|] eqn:E; cbn; [|discriminate].
      intros H. apply IH in H as [H1 H2]. apply orb_false_iff in H1 as [-> ->].
      split; [done|]. intros b' Hb. apply elem_of_cons in Hb as [->|Hb]; auto.
    + intros [-> H]. rewrite (H b) by left. cbn. apply IH. split; [done|].
      intros; apply H; by right.
Qed.

Lemma check_face_orb tol m err x : check_face tol m err x = rmap (orb err) (check_face tol m false x).
Proof.
  destruct x as [[[iel el] ibc] iface]. unfold check_face.
  destruct (ebc el ibc iface) as [r|]; cbn; [|done].
  destruct (bool_decide _); cbn; [|by rewrite orb_false_r].
  destruct (ntrunc (bp3 r)) as [c|]; cbn; [|done].
  destruct (ntrunc (bp4 r)) as [cf|]; cbn; [|done].
  destruct (face_center el _) as [fc|]; cbn; [|done].
  destruct (_ || _); cbn; [by rewrite orb_true_r|].
  destruct (elems m !! _) as [el1|]; cbn; [|done].
  destruct (ebc_py _ _ _) as [r1|]; cbn; [|done].
  destruct (ntrunc (bp3 r1)) as [i1|]; cbn; [|done].
  destruct (ntrunc (bp4 r1)) as [f1|]; cbn; [|done].
  destruct (face_center el1 _) as [fc1|]; cbn; [|done].
  destruct (_ || _); cbn; [by rewrite orb_true_r|].
  destruct (bool_decide _); cbn; [|by rewrite orb_false_r].
  destruct (smallest_edge el) as [s0|]; cbn; [|done].
  destruct (smallest_edge el1) as [s1|]; cbn; done.
Qed.

Lemma get_bc_ebc m i b f e : elems m !! i = Some e → ebc e b f = of_opt IndexError (get_bc m i b f).
Proof. intros H. unfold ebc, get_bc. by rewrite H. Qed.

Lemma ebc_py_nonneg m i b g e : elems m !! i = Some e → wf_bcs m →
  (b < nbc m)%nat → (g < 6)%nat → ebc_py e b (Z.of_nat g) = of_opt IndexError (get_bc m i b g).
Proof.
  intros Hi (_ & _ & Hw) Hb Hg. unfold ebc_py, get_bc. rewrite Hi. cbn.
  destruct (Hw e) as [Hl Hrow]; [by eapply elem_of_list_lookup_2|].
  destruct (bcs e !! b) as [row|] eqn:E; [|done]. cbn.
  unfold py_get. rewrite py_pos_nonneg by lia.
  rewrite (Hrow row) by (by eapply elem_of_list_lookup_2).
  destruct (Z.ltb_spec (Z.of_nat g) (Z.of_nat 6)); [|lia]. cbn. by rewrite Nat2Z.id.
Qed.

(** What one iteration checks. *)
Definition face_ok (tol : N) m (i b f : nat) r : Prop :=
  is_conn (bt r) → ∃ j g r', (j < nel m ∧ g < 6)%nat ∧ names r j g ∧
    get_bc m j b g = Some r' ∧ bt r' = bt r ∧ names r' i f ∧
    (bt r = "E"%string → same_place tol m i f j g).

Lemma check_face_iff tol m i b f el r : wf_mesh m → in_mesh m i b f →
  elems m !! i = Some el → get_bc m i b f = Some r →
  check_face tol m false ((i, el), b, f) = Ok false ↔ face_ok tol m i b f r.
Proof.
  intros [Hw Hg] (Hi & Hb & Hf) Hel Hr. unfold check_face, face_ok, is_conn.
  rewrite (get_bc_ebc m i b f el Hel), Hr. cbn.
  destruct (bool_decide_reflect (bt r = "E"%string ∨ bt r = "P"%string)) as [Hc|Hc]; [|tauto].
  pose proof Hw as (Hd & Hlen & Hrows).
  assert (wf_geom_elem el) as Hgel by (apply Hg; by eapply elem_of_list_lookup_2).
  destruct (face_center_Ok el (Z.of_nat f)) as [fc Hfc]; [done|lia|].
  split.
  - intros H _.
    destruct (ntrunc (bp3 r)) as [c|] eqn:E3; cbn in H; [|discriminate].
    destruct (ntrunc (bp4 r)) as [cf|] eqn:E4; cbn in H; [|discriminate].
    rewrite Hfc in H. cbn in H.
    destruct (Z.ltb_spec (c - 1) 0); cbn in H; [discriminate|].
    destruct (Z.leb_spec (Z.of_nat (nel m)) (c - 1)); cbn in H; [discriminate|].
    destruct (elems m !! Z.to_nat (c - 1)) as [el1|] eqn:E1; cbn in H; [|discriminate].
    assert (0 <= cf - 1 < 6) as Hcf.
    { destruct (ebc_py el1 b (cf - 1)) as [r1|]; cbn in H; [|discriminate].
      destruct (ntrunc (bp3 r1)); cbn in H; [|discriminate].
      destruct (ntrunc (bp4 r1)); cbn in H; [|discriminate].
      destruct (face_center el1 (cf - 1)) as [fc1|] eqn:Efc; cbn in H; [|discriminate].
      by eapply face_center_range. }
    replace (cf - 1) with (Z.of_nat (Z.to_nat (cf - 1))) in H by lia.
    rewrite (ebc_py_nonneg m (Z.to_nat (c - 1))) in H by (done || lia).
    destruct (get_bc m (Z.to_nat (c - 1)) b (Z.to_nat (cf - 1))) as [r1|] eqn:Er1; cbn in H; [|discriminate].
    destruct (ntrunc (bp3 r1)) as [i1|] eqn:E31; cbn in H; [|discriminate].
    destruct (ntrunc (bp4 r1)) as [f1|] eqn:E41; cbn in H; [|discriminate].
    destruct (face_center el1 _) as [fc1|] eqn:Efc; cbn in H; [|discriminate].
    destruct (bool_decide_reflect (bt r1 = bt r)) as [Ht|Ht]; cbn in H; [|discriminate].
    destruct (Z.eqb_spec (i1 - 1) (Z.of_nat i)); cbn in H; [|discriminate].
    destruct (Z.eqb_spec (f1 - 1) (Z.of_nat f)); cbn in H; [|discriminate].
    exists (Z.to_nat (c - 1)), (Z.to_nat (cf - 1)), r1.
    split; [lia|]. split; [split; rewrite ?E3, ?E4; f_equal; lia|].
    split; [done|]. split; [done|]. split; [split; rewrite ?E31, ?E41; f_equal; lia|].
    intros HE. rewrite bool_decide_true in H by done.
    destruct (smallest_edge el) as [s0|] eqn:Es0; cbn in H; [|discriminate].
    destruct (smallest_edge el1) as [s1|] eqn:Es1; cbn in H; [|discriminate].
    injection H as H.
    exists el, el1, fc, fc1, s0, s1. by repeat split.
  - intros H. destruct (H Hc) as (j & g & r1 & [Hj Hgg] & [N3 N4] & Hr1 & Ht & [N31 N41] & Hplace).
    rewrite N3. cbn. rewrite N4. cbn. rewrite Hfc. cbn.
    replace (Z.of_nat j + 1 - 1) with (Z.of_nat j) by lia.
    replace (Z.of_nat g + 1 - 1) with (Z.of_nat g) by lia.
    destruct (Z.ltb_spec (Z.of_nat j) 0); [lia|].
    destruct (Z.leb_spec (Z.of_nat (nel m)) (Z.of_nat j)); [lia|]. cbn.
    rewrite Nat2Z.id.
    destruct (elems m !! j) as [el1|] eqn:E1; [|apply lookup_ge_None in E1; lia]. cbn.
    assert (wf_geom_elem el1) as Hgel1 by (apply Hg; by eapply elem_of_list_lookup_2).
    rewrite (ebc_py_nonneg m j) by (done || lia). rewrite Hr1. cbn.
    rewrite N31, N41. cbn.
    destruct (face_center_Ok el1 (Z.of_nat g)) as [fc1 Hfc1]; [done|lia|]. rewrite Hfc1. cbn.
    rewrite bool_decide_true by done. cbn.
    replace (Z.of_nat i + 1 - 1 =? Z.of_nat i) with true by (symmetry; apply Z.eqb_eq; lia).
    replace (Z.of_nat f + 1 - 1 =? Z.of_nat f) with true by (symmetry; apply Z.eqb_eq; lia). cbn.
    destruct (bool_decide_reflect (bt r = "E"%string)) as [HE|HE]; [|done].
    destruct (Hplace HE) as (e & e' & c & c' & s & s' & He & He' & Hcc & Hcc' & Hs & Hs' & Hlt).
    rewrite Hel in He. injection He as <-. rewrite E1 in He'. injection He' as <-.
    rewrite Hfc in Hcc. injection Hcc as <-. rewrite Hfc1 in Hcc'. injection Hcc' as <-.
    rewrite Hs, Hs'. cbn. by rewrite Hlt.
Qed.

Lemma check_connectivity_iff tol m : wf_mesh m →
  check_connectivity tol m = Ok true ↔ valid_connectivity tol m.
Proof.
  intros Hm. unfold check_connectivity.
  pose proof (foldM_orb (check_face tol m)
    (prod3 (enumerate (elems m)) (range (nbc m)) (range (2 * ndim m))) false
    (check_face_orb tol m)) as Hor.
  assert (foldM (check_face tol m) false
            (prod3 (enumerate (elems m)) (range (nbc m)) (range (2 * ndim m))) = Ok false
          ↔ valid_connectivity tol m) as Hiff.
  { rewrite Hor. pose proof Hm as [Hw Hg]. pose proof Hw as (Hd & Hlen & Hrows). split.
    - intros [_ H] i b f r (Hi & Hb & Hf) Hr.
      destruct (elems m !! i) as [el|] eqn:E; [|apply lookup_ge_None in E; lia].
      apply (check_face_iff tol m i b f el r Hm) in H; [done|done|done|done|].
      apply elem_of_prod3. rewrite enumerate_lookup, !elem_of_range. done.
    - intros H. split; [done|]. intros [[[i el] b] f] Hin.
      apply elem_of_prod3 in Hin. rewrite enumerate_lookup, !elem_of_range in Hin.
      destruct Hin as (Hel & Hb & Hf).
      assert (i < nel m)%nat as Hi by (apply lookup_lt_Some in Hel; lia).
      destruct (wf_get_bc m i b f) as [r Hr]; [done|done|done|lia|].
      apply (check_face_iff tol m i b f el r Hm); [done|done|done|].
      intros Hc. by apply (H i b f r). }
  rewrite <- Hiff.
  destruct (foldM _ _ _) as [[]|]; cbn; split; intros; congruence.
Qed.

Lemma check_connectivity_never_false tol m : check_connectivity tol m ≠ Ok false.
Proof. unfold check_connectivity. destruct (foldM _ _ _) as [[]|]; cbn; discriminate. Qed.

(** ** check_bcs_present *)
Lemma check_bcs_present_iff m : wf_bcs m →
  (check_bcs_present m = Ok true ↔
     ∀ i b f r, in_mesh m i b f → get_bc m i b f = Some r → bt r ≠ ""%string) ∧
  (check_bcs_present m = Ok true ∨ check_bcs_present m = Raise ValueError).
Proof.
  intros Hw. pose proof Hw as (Hd & Hlen & Hrows). unfold check_bcs_present.
  set (l := prod3 _ _ _).
  set (step := λ (ok : bool) '((iel, el), ibc, iface),
    let! r := ebc el ibc iface in Ok (if String.eqb (bt r) "" then false else ok)).
  assert (∀ l' ok, (∀ x, x ∈ l' → x ∈ l) →
    ∃ ok', foldM step ok l' = Ok ok' ∧
      (ok' = true ↔ ok = true ∧ ∀ i el b f r, (i, el, b, f) ∈ l' →
          get_bc m i b f = Some r → bt r ≠ ""%string)) as H.
  { induction l' as [|[[[i el] b] f] l' IH]; intros ok Hsub; cbn [foldM].
    - exists ok. split; [done|]. split; [intros ->; split; [done|]|tauto].
      intros ? ? ? ? ? Hin. by apply elem_of_nil in Hin.
    - assert ((i, el, b, f) ∈ l) as Hin by (apply Hsub; left).
      apply elem_of_prod3 in Hin. rewrite enumerate_lookup, !elem_of_range in Hin.
      destruct Hin as (Hel & Hb & Hf).
      assert (i < nel m)%nat as Hi by (apply lookup_lt_Some in Hel; lia).
      destruct (wf_get_bc m i b f) as [r Hr]; [done|done|done|lia|].
      unfold step at 1. rewrite (get_bc_ebc m i b f el Hel), Hr. cbn [of_opt rbind].
      destruct (IH (if String.eqb (bt r) "" then false else ok)) as (ok' & E & Hiff).
      { intros; apply Hsub; by right. }
      exists ok'. split; [done|]. rewrite Hiff.
      destruct (String.eqb_spec (bt r) "") as [Ht|Ht].
      + split; [by intros [? _]|]. intros [_ H]. by destruct (H i el b f r); [left|..].
      + split.
        * intros [-> H]. split; [done|]. intros i' el' b' f' r' Hin' Hr'.
          apply elem_of_cons in Hin' as [[= -> -> -> ->]|Hin']; [congruence|eauto].
        * intros [-> H]. split; [done|]. intros; eapply H; eauto. by right. }
  destruct (H l true) as (ok & E & Hiff); [done|]. rewrite E. cbn.
  split; [|destruct ok; auto].
  transitivity (ok = true); [destruct ok; split; intros; congruence|].
  rewrite Hiff. split.
  - intros [_ H'] i b f r (Hi & Hb & Hf) Hr.
    destruct (elems m !! i) as [el|] eqn:Ee; [|apply lookup_ge_None in Ee; lia].
    apply (H' i el b f r); [|done]. apply elem_of_prod3.
    rewrite enumerate_lookup, !elem_of_range. done.
  - intros H'. split; [done|]. intros i el b f r Hin Hr.
    apply elem_of_prod3 in Hin. rewrite enumerate_lookup, !elem_of_range in Hin.
    destruct Hin as (Hel & Hb & Hf). apply (H' i b f r); [|done].
    apply lookup_lt_Some in Hel. split; [lia|done].
Qed.
End Proofs.
