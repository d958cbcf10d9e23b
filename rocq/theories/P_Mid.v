(** C44: extrude_mid. *)
From Coq Require Import Lia Reals Lra.
From Verif Require Import Base Mesh Core Tools Curve Mid Float FloatLaws MeshLemmas MeshSpec CheckProofs OpsProofs GeoLaws BoxProofs
  ExtrudeSpec ExtrudeProofs MidSpec MidProofs MidBlock MidMesh MidResult MidGeo MidFaces MidEntry MidConform MidFinal Samples.
Open Scope Z_scope.

(** The elements: six for every element and every four layers, where [is_mid_stack] says where. The argument does not
    change unless a side is a circular arc; with such sides, four layers. *)
Theorem C44_elements {A : arith} (bnd : Z) (m : hexa (num A)) z bc1 bc2 f internal c1 c2 q :
  arith_laws A bnd → wf_mesh m → linear2d m → (∀ e, e ∈ elems m → curvature_ok e ∧ cut_across f e) →
  length z = (4 * q + 1)%nat → (1 ≤ q)%nat →
  (∀ k, (k < 6 * q)%nat → refs_within bnd (Z.of_nat (k * nel m)) 0 m) →
  conditions_given (nbc m) (Some bc1) c1 → conditions_given (nbc m) (Some bc2) c2 →
  (∀ b, (b < nbc m)%nat → c1 b = "P"%string ↔ c2 b = "P"%string) →
  (∀ e, e ∈ elems m → no_arcs e) ∨ q = 1%nat →
  ∃ m' m3, extrude_mid m z bc1 bc2 f internal = Ok (m', m3) ∧ wf_mesh m3 ∧ is_mid_stack f m z m3 ∧
    (elmap m = (λ i, Z.of_nat i + 1) <$> range (nel m) → elmap m3 = (λ i, Z.of_nat i + 1) <$> range (nel m3)) ∧
    ((∀ e, e ∈ elems m → no_arcs e) → m' = m).
Proof.
  intros LA Hw Hlin He Hz Hq Hrefs [L1 C1] [L2 C2] HP Ha.
  assert (∀ e, e ∈ elems m → four_points e) as H4 by (intros e Hin; by eapply linear_four).
  destruct (result_ok bnd m z bc1 bc2 f internal c1 c2 q LA Hw Hlin) as (es & m3 & E & Hev & Hres); try done.
  { intros e Hin. destruct (He e Hin) as [Hc Hx]. apply curvature_workable; [by apply H4|done|by apply cut_low]. }
  { intros b Hb. by split; [apply C1|apply C2]. }
  exists (set_elems es m), m3. split; [done|]. split; [by eapply new_wf|]. split.
  { eapply new_stack; try done. intros e Hin. by apply He. }
  split.
  - intros Em. destruct Hres as (_ & R2 & _ & _ & _ & _ & _ & -> & _). rewrite R2, Em.
    replace (6 * nel m * q)%nat with (6 * q * nel m)%nat by lia. generalize (6 * q)%nat. intros n. induction n as [|n IH]; [done|].
    unfold range in *. rewrite seq_S, bind_app, IH. cbn. rewrite app_nil_r. rewrite Nat.add_comm, seq_app, fmap_app. f_equal.
    cbn. rewrite <- list_fmap_compose. apply list_eq. intros i. rewrite !list_lookup_fmap.
    destruct (decide (i < nel m)%nat); [|rewrite !lookup_seq_ge by lia; done]. rewrite !lookup_seq_lt by lia. cbn. f_equal. lia.
  - intros Hn. assert (es = elems m) as ->; [|by destruct m].
    apply list_eq_same_length with (length es); [by eapply Forall2_length|done|]. intros i x y _ Hx Hy.
    destruct (Forall2_lookup_r _ _ _ _ _ Hev Hx) as (e & Hye & Hee). rewrite Hy in Hye. apply (inj Some) in Hye as <-.
    apply Hee, Hn. by eapply elem_of_list_lookup_2.
Qed.
Print Assumptions C44_elements.

(** The faces: every internal and periodic entry names a face that names it back with the same type, the outer faces
    carry the conditions of the 2D mesh and of the two ends, and internal faces have the same four vertices as those
    they name. *)
Theorem C44_faces {A : arith} (bnd : Z) (m m' m3 : hexa (num A)) z bc1 bc2 f c1 c2 q :
  arith_laws A bnd → mul_law (A:=A) bnd → wf_mesh m → linear2d m → (∀ e, e ∈ elems m → curvature_ok e ∧ cut_across f e) →
  length z = (4 * q + 1)%nat → (1 ≤ q)%nat → paired m → free_sides f m → Z.of_nat (6 * nel m * q) <= bnd →
  conditions_given (nbc m) (Some bc1) c1 → conditions_given (nbc m) (Some bc2) c2 →
  (∀ b, (b < nbc m)%nat → end_condition (c1 b) ∧ end_condition (c2 b) ∧ (c1 b = "P"%string ↔ c2 b = "P"%string)) →
  (∀ e, e ∈ elems m → no_arcs e) ∨ q = 1%nat →
  extrude_mid m z bc1 bc2 f true = Ok (m', m3) →
  paired m3 ∧
  (∀ k i e j b g r, (k < q)%nat → elems m !! i = Some e → (j < 6)%nat → (b < nbc m)%nat → (g < 6)%nat →
     get_bc m3 (sixth (nel m) k i j) b g = Some r → outer_entry f m q c1 c2 k i j b g e (bt r)) ∧
  (shared_sides m → conforming m3).
Proof.
  intros LA LM Hw Hlin He Hz Hq Hp Hfree Hbnd [L1 C1] [L2 C2] Hcond Ha E.
  assert (∀ e, e ∈ elems m → four_points e) as H4 by (intros e Hin; by eapply linear_four).
  assert (∀ e, e ∈ elems m → cut_across f e) as Hcut by (intros e Hin; by apply He).
  assert (∀ k, (k < 6 * q)%nat → refs_within bnd (Z.of_nat (k * nel m)) 0 m) as Hrefs.
  { apply paired_refs; [apply Hlin|done|]. etransitivity; [|exact Hbnd]. apply Nat2Z.inj_le. lia. }
  destruct (result_ok bnd m z bc1 bc2 f true c1 c2 q LA Hw Hlin) as (es & m3' & E' & _ & Hres); try done.
  { intros e Hin. destruct (He e Hin) as [Hc Hx]. apply curvature_workable; [by apply H4|done|by apply cut_low]. }
  { intros b Hb. by split; [apply C1|apply C2]. }
  { intros b Hb. by apply Hcond. }
  rewrite E in E'. injection E' as -> ->. split; [|split].
  - by eapply new_paired.
  - intros. by eapply new_outer.
  - intros Hsh. by eapply new_conforming.
Qed.
Print Assumptions C44_faces.

(** In float64, up to 2^53 elements. *)
Theorem C44_faces_float64 (m m' m3 : hexa (num A64)) z bc1 bc2 f c1 c2 q :
  wf_mesh m → linear2d (A:=A64) m → (∀ e, e ∈ elems m → curvature_ok (A:=A64) e ∧ cut_across (A:=A64) f e) →
  length z = (4 * q + 1)%nat → (1 ≤ q)%nat → paired (A:=A64) m → free_sides (A:=A64) f m → Z.of_nat (6 * nel m * q) <= 2 ^ 53 →
  conditions_given (nbc m) (Some bc1) c1 → conditions_given (nbc m) (Some bc2) c2 →
  (∀ b, (b < nbc m)%nat → end_condition (c1 b) ∧ end_condition (c2 b) ∧ (c1 b = "P"%string ↔ c2 b = "P"%string)) →
  (∀ e, e ∈ elems m → no_arcs (A:=A64) e) ∨ q = 1%nat →
  extrude_mid (A:=A64) m z bc1 bc2 f true = Ok (m', m3) →
  paired (A:=A64) m3 ∧
  (∀ k i e j b g r, (k < q)%nat → elems m !! i = Some e → (j < 6)%nat → (b < nbc m)%nat → (g < 6)%nat →
     get_bc m3 (sixth (nel m) k i j) b g = Some r → outer_entry (A:=A64) f m q c1 c2 k i j b g e (bt r)) ∧
  (shared_sides (A:=A64) m → conforming (A:=A64) m3).
Proof. intros. eapply (C44_faces (A:=A64) bnd64 m m' m3 z bc1 bc2 f c1 c2 q); try done; [apply A64_laws|apply A64_mul]. Qed.
Print Assumptions C44_faces_float64.

(** Over the reals the new mesh passes the check of the connectivity. *)
Theorem C44_valid_real (m : hexa (num AR)) z bc1 bc2 f c1 c2 q (tol : R) :
  wf_mesh m → linear2d (A:=AR) m → (∀ e, e ∈ elems m → curvature_ok (A:=AR) e ∧ cut_across (A:=AR) f e) →
  length z = (4 * q + 1)%nat → (1 ≤ q)%nat → paired (A:=AR) m → free_sides (A:=AR) f m → shared_sides (A:=AR) m →
  conditions_given (nbc m) (Some bc1) c1 → conditions_given (nbc m) (Some bc2) c2 →
  (∀ b, (b < nbc m)%nat → end_condition (c1 b) ∧ end_condition (c2 b) ∧ (c1 b = "P"%string ↔ c2 b = "P"%string)) →
  (∀ e, e ∈ elems m → no_arcs (A:=AR) e) ∨ q = 1%nat → (0 <= tol)%R →
  ∃ m' m3, extrude_mid (A:=AR) m z bc1 bc2 f true = Ok (m', m3) ∧ valid_connectivity (A:=AR) tol m3 ∧
    check_connectivity (A:=AR) tol m3 = Ok true.
Proof.
  intros Hw Hlin He Hz Hq Hp Hfree Hsh G1 G2 Hcond Ha Ht.
  set (bnd := Z.max 6 (Z.of_nat (6 * nel m * q))).
  assert (∀ k, (k < 6 * q)%nat → refs_within (A:=AR) bnd (Z.of_nat (k * nel m)) 0 m) as Hrefs.
  { apply (paired_refs (A:=AR)); [apply Hlin|done|]. transitivity (Z.of_nat (6 * nel m * q)); [apply Nat2Z.inj_le; lia|subst bnd; lia]. }
  destruct (C44_elements (A:=AR) bnd m z bc1 bc2 f true c1 c2 q (AR_laws bnd) Hw Hlin He Hz Hq Hrefs G1 G2) as (m' & m3 & E & Hw3 & Hst & _); [|done|].
  { intros b Hb. by apply Hcond. }
  destruct (C44_faces (A:=AR) bnd m m' m3 z bc1 bc2 f c1 c2 q (AR_laws bnd) (AR_mul bnd) Hw Hlin He Hz Hq Hp Hfree) as (Hp3 & _ & Hc3); try done.
  { subst bnd; lia. }
  assert (valid_connectivity (A:=AR) tol m3) as Hv.
  { destruct Hst as (S1 & S2 & S3 & _ & _ & _ & Sel). assert ((length z - 1) / 4 = q)%nat as Eq.
    { rewrite Hz. replace (4 * q + 1 - 1)%nat with (q * 4)%nat by lia. apply Nat.div_mul. lia. } rewrite Eq in S2, Sel.
    apply (conforming_valid m3 tol bnd); try done; [|by apply Hc3|subst bnd; lia|rewrite S2; subst bnd; lia].
    intros y Hy. apply elem_of_list_lookup in Hy as [p Hy].
    assert (p < 6 * nel m * q)%nat as Hpl by (rewrite <- S2, <- S3; by eapply lookup_lt_Some).
    destruct (sixth_div (nel m) q p Hpl) as (k & i & j & (Hk & Hi & Hj) & ->).
    destruct (lookup_lt_is_Some_2 (elems m) i) as [e Hei]; [destruct Hw as [(_ & Hlen & _) _]; lia|].
    destruct (Sel k i e j Hk Hei Hj) as (y' & Hy' & Hs & _). rewrite Hy in Hy'. by apply (inj Some) in Hy' as <-. }
  exists m', m3. split; [done|]. split; [done|]. by apply check_connectivity_iff.
Qed.
Print Assumptions C44_valid_real.

(** What is rejected at once. *)
Theorem C44_rejects {A : arith} (m : hexa (num A)) z bc1 bc2 f internal v0 rest :
  var m = v0 :: rest →
  (ndim m ≠ 2%nat ∨ lr1 m ≠ [2;2;1]%nat ∨ (v0 < 2)%nat ∨
   (∃ b t1 t2, bc1 !! b = Some t1 ∧ bc2 !! b = Some t2 ∧ (t1 = "P"%string ∧ t2 ≠ "P"%string ∨ t1 ≠ "P"%string ∧ t2 = "P"%string)) ∨
   ∀ q, length z ≠ (4 * q + 1)%nat) →
  extrude_mid m z bc1 bc2 f internal = Raise ValueError.
Proof.
  intros Hv H. unfold extrude_mid. rewrite Hv.
  destruct (Nat.eqb_spec (ndim m) 2) as [E1|]; [|done]. cbn [negb].
  destruct (bool_decide_reflect (lr1kind m = PyList ∧ lr1 m = [2; 2; 1]%nat)) as [[_ E2]|]; [|done].
  cbn [negb lookup list_lookup of_opt rbind].
  destruct (Nat.ltb_spec v0 2); [done|].
  destruct (one_sided_periodic _ _) eqn:Eo; [done|]. cbv zeta.
  destruct H as [?|[?|[?|[(b & t1 & t2 & H1 & H2 & H)|H]]]]; [done|done|lia| |].
  - exfalso. unfold one_sided_periodic in Eo. apply not_true_iff_false in Eo. apply Eo.
    apply existsb_exists. exists (t1, t2). split.
    + apply elem_of_list_In, elem_of_list_lookup. exists b. apply lookup_zip_with_Some. eauto.
    + destruct H as [[-> H]|[H ->]]; apply String.eqb_neq in H; by rewrite H.
  - destruct (Nat.eqb_spec (length z) 0); [done|]. destruct (Nat.eqb_spec ((length z - 1) mod 4) 0) as [E|]; [|done].
    exfalso. apply (H ((length z - 1) / 4)%nat). pose proof (Nat.div_mod_eq (length z - 1) 4). lia.
Qed.
Print Assumptions C44_rejects.

(** An element of which the splitting function does not separate two corners from the other two is rejected. *)
Theorem C44_uncut_rejected {A : arith} (bnd : Z) (m : hexa (num A)) z bc1 bc2 f internal e q :
  arith_laws A bnd → wf_mesh m → linear2d m → (∀ e, e ∈ elems m → curvature_ok e) →
  length z = (4 * q + 1)%nat → (1 ≤ q)%nat → paired m → Z.of_nat (6 * nel m * q) <= bnd →
  e ∈ elems m → low_corners f e ≠ 2%nat →
  extrude_mid m z bc1 bc2 f internal = Raise ValueError.
Proof.
  intros LA Hw Hlin He Hz Hq Hp Hbnd Hin Hl.
  assert (∀ e, e ∈ elems m → four_points e) as H4 by (intros e' Hin'; by eapply linear_four).
  assert (∀ k, (k < 6 * q)%nat → refs_within bnd (Z.of_nat (k * nel m)) 0 m) as Hrefs.
  { apply paired_refs; [apply Hlin|done|]. etransitivity; [|exact Hbnd]. apply Nat2Z.inj_le. lia. }
  pose proof Hlin as (L1 & L2 & L3 & (v0 & rest & L4 & Hv) & _). pose proof Hw as [(_ & Hlen & Hrows) _].
  unfold extrude_mid. rewrite L1. cbn [Nat.eqb negb]. rewrite bool_decide_true by done. cbn [negb].
  rewrite L4. cbn [lookup list_lookup of_opt rbind]. destruct (Nat.ltb_spec v0 2); [lia|].
  destruct (one_sided_periodic _ _); [done|]. cbv zeta.
  assert ((length z - 1) = q * 4)%nat as -> by lia. rewrite Nat.mod_mul, Nat.div_mul by lia.
  destruct (Nat.eqb_spec (length z) 0) as [?|_]; [lia|]. destruct (Nat.eqb_spec (q * 4) 0) as [?|_]; [lia|]. cbn [Nat.eqb negb orb].
  rewrite Hlen, Nat.eqb_refl. cbn [negb].
  destruct (copies_ok bnd m (6 * q) LA (proj1 Hw)) as (mc & -> & _); [by rewrite L3|done|lia|]. cbn [rbind].
  destruct q as [|q]; [lia|]. unfold range. cbn [seq foldM].
  rewrite layer_bad; [done| |].
  - intros e' Hin'. destruct (He e' Hin') as (C1 & C2 & C3 & C4). split; [by apply H4|]. by split.
  - exists e. split; [done|]. by apply orient_None.
Qed.
Print Assumptions C44_uncut_rejected.

(** Samples: a 2 x 1 box, periodic in x with walls in y, cut in the middle; eight layers. *)
Definition mid21 : hexa (num A64) := ok_or empty64
  (gen_box (A:=A64) "little" 2 1 (zf 0) (zf 2) (zf 0) (zf 1) [2;1;0;0;0]%nat
     (Some ["P"]%string) (Some ["P"]%string) (Some ["W"]%string) (Some ["W"]%string) true).
Definition midway (x y : num A64) : num A64 := nsub y (nlit 1 2).
Definition z8 : list (num A64) := zf <$> [0; 1; 2; 3; 4; 5; 6; 7; 8].

Example C44_sample_wf : wf_mesh mid21.
Proof. apply wf_meshb_ok. vm_compute. reflexivity. Qed.
Example C44_sample_linear2d : linear2d (A:=A64) mid21.
Proof.
  split; [by vm_compute|]. split; [by vm_compute|]. split; [by vm_compute|].
  split; [exists 2%nat; eexists; split; [vm_compute; reflexivity|lia]|].
  assert (forallb (λ e : elem f64, bool_decide (eshape e = (2,2,1)%nat) &&
     (length (ccurv e) =? 12)%nat && (length (curv e) =? 12)%nat) (elems mid21) = true) as H by (vm_compute; reflexivity).
  intros e He. pose proof (forallb_elem _ _ H e He) as H'. cbv beta in H'.
  rewrite !andb_true_iff, !Nat.eqb_eq in H'. destruct H' as ((H1 & H2) & H3). split; [|done].
  by apply bool_decide_eq_true in H1.
Qed.
Example C44_sample_paired : paired (A:=A64) mid21.
Proof. apply pairedb_ok. vm_compute. reflexivity. Qed.
Example C44_sample_cut e : e ∈ elems mid21 → curvature_ok (A:=A64) e ∧ cut_across (A:=A64) midway e ∧ no_arcs (A:=A64) e.
Proof.
  assert (forallb (λ e : elem f64, (length (ccurv e) =? 12)%nat && (length (curv e) =? 12)%nat && forallb (λ r : list f64, (length r =? 5)%nat) (curv e) &&
     forallb (λ t, String.eqb t "") (ccurv e) &&
     (low (A:=A64) midway e 0 0 && low (A:=A64) midway e 0 1 && negb (low (A:=A64) midway e 1 0) && negb (low (A:=A64) midway e 1 1))) (elems mid21) = true) as H
    by (vm_compute; reflexivity).
  intros He. pose proof (forallb_elem _ _ H e He) as H'. cbv beta in H'. rewrite !andb_true_iff, !Nat.eqb_eq, !negb_true_iff in H'.
  destruct H' as ((((H1 & H2) & H3) & H4) & (((H5 & H6) & H7) & H8)).
  assert (∀ c t, ccurv e !! c = Some t → t = ""%string) as Ht.
  { intros c t Hc. pose proof (forallb_elem _ _ H4 t (elem_of_list_lookup_2 _ _ _ Hc)) as X. by apply String.eqb_eq in X. }
  split; [split_and!; [done|done| |]|split].
  - intros row Hr. pose proof (forallb_elem _ _ H3 row Hr) as X. by apply Nat.eqb_eq in X.
  - intros c _ Hc. by apply Ht in Hc.
  - right. rewrite H5, H6, H7, H8. split; [reflexivity|]. split; [reflexivity|]. discriminate.
  - intros c _ Hc. by apply Ht in Hc.
Qed.
Example C44_sample_free : free_sides (A:=A64) midway mid21.
Proof.
  intros i e b n r He (Hi & Hb & Hn) Hr Hc. assert (i < 2)%nat as Hi2 by exact Hi. assert (b < 1)%nat as Hb1 by exact Hb. assert (n < 4)%nat as Hn4 by exact Hn.
  assert (b = 0%nat) as -> by lia.
  assert (match elems mid21 !! i, get_bc mid21 i 0 n with Some e, Some r =>
     negb (eqb (fst (side_low (A:=A64) midway e n)) (snd (side_low (A:=A64) midway e n))) || String.eqb (bt r) "W" | _, _ => true end = true) as H.
  { destruct i as [|[|]], n as [|[|[|[|]]]]; try lia; vm_compute; reflexivity. }
  rewrite He, Hr in H. apply orb_prop in H as [H|H].
  - exfalso. apply Hc. split; [done|]. intros E. rewrite E in H. by destruct (snd _).
  - apply String.eqb_eq in H. intros [X|X]; congruence.
Qed.
Definition same3 (p q : f64 * f64 * f64) : bool :=
  let '(x, y, z) := p in let '(x', y', z') := q in f64_same x x' && f64_same y y' && f64_same z z'.
Lemma same3_eq p q : same3 p q = true → p = q.
Proof. destruct p as [[x y] z], q as [[x' y'] z']. cbn. rewrite !andb_true_iff. intros [[H1 H2] H3]. apply f64_same_eq in H1, H2, H3. by subst. Qed.
Definition same_pointb (a b : option (f64 * f64 * f64)) : bool := match a, b with Some p, Some q => same3 p q | _, _ => false end.
Lemma same_pointb_eq a b : same_pointb a b = true → a = b.
Proof. destruct a, b; cbn; try done. intros H. f_equal. by apply same3_eq. Qed.
Definition same_sideb (e : elem f64) n (e' : elem f64) n' : bool :=
  let '((j1, i1), (j2, i2)) := side_ends n in let '((j1', i1'), (j2', i2')) := side_ends n' in
  (same_pointb (point e 0 j1 i1) (point e' 0 j1' i1') && same_pointb (point e 0 j2 i2) (point e' 0 j2' i2') ||
   same_pointb (point e 0 j1 i1) (point e' 0 j2' i2') && same_pointb (point e 0 j2 i2) (point e' 0 j1' i1')) &&
  match edge_mid (A:=A64) e n, edge_mid (A:=A64) e' n' with Ok (p, _), Ok (q, _) => same3 p q | _, _ => false end.
Lemma same_sideb_ok e n e' n' : same_sideb e n e' n' = true → same_side (A:=A64) e n e' n'.
Proof.
  unfold same_sideb, same_side. destruct (side_ends n) as [[j1 i1] [j2 i2]], (side_ends n') as [[j1' i1'] [j2' i2']].
  rewrite andb_true_iff, orb_true_iff, !andb_true_iff. intros [H1 H2]. split.
  - destruct H1 as [[H H']|[H H']]; apply same_pointb_eq in H, H'; [left|right]; by split.
  - destruct (edge_mid (A:=A64) e n) as [[p a]|]; [|done]. destruct (edge_mid (A:=A64) e' n') as [[p' a']|]; [|done].
    apply same3_eq in H2 as <-. by exists p, a, a'.
Qed.
Example C44_sample_shared : shared_sides (A:=A64) mid21.
Proof.
  intros i b n r j n' e e' (Hi & Hb & Hn) Hr HE [P3 P4] (Hj & _ & Hn') He He'.
  assert (i < 2)%nat as Hi2 by exact Hi. assert (b < 1)%nat as Hb1 by exact Hb. assert (n < 4)%nat as Hn4 by exact Hn.
  assert (j < 2)%nat as Hj2 by exact Hj. assert (n' < 4)%nat as Hn'4 by exact Hn'.
  assert (b = 0%nat) as -> by lia. clear Hi Hb Hn Hj Hn'.
  assert (bc_view mid21 i 0 n = Some ("E"%string, Ok (Z.of_nat j + 1), Ok (Z.of_nat n' + 1))) as V.
  { refine (eq_trans (f_equal (fmap (λ r : bcrec f64, (bt r, f64_trunc (bp3 r), f64_trunc (bp4 r)))) Hr) _).
    cbn [fmap option_fmap option_map]. apply (f_equal Some). f_equal; [f_equal; [exact HE|]|].
    - refine (eq_trans (f_equal f64_trunc P3) _). apply (law_trunc A64 bnd64 A64_laws); unfold bnd64; lia.
    - refine (eq_trans (f_equal f64_trunc P4) _). apply (law_trunc A64 bnd64 A64_laws); unfold bnd64; lia. }
  clear Hr P3 P4 HE.
  assert (i = 0 ∧ n = 1 ∧ j = 1 ∧ n' = 3 ∨ i = 1 ∧ n = 3 ∧ j = 0 ∧ n' = 1)%nat as [(-> & -> & -> & ->)|(-> & -> & -> & ->)].
  { destruct i as [|[|]], n as [|[|[|[|]]]]; try lia; destruct j as [|[|]], n' as [|[|[|[|]]]]; try lia; exfalso; vm_compute in V; congruence. }
  - assert (match elems mid21 !! 0%nat, elems mid21 !! 1%nat with Some e, Some e' => same_sideb e 1 e' 3 | _, _ => false end = true) as H
      by (vm_compute; reflexivity).
    apply same_sideb_ok. exact (eq_trans (f_equal2 (λ o o', match o, o' with Some e, Some e' => same_sideb e 1 e' 3 | _, _ => false end) (eq_sym He) (eq_sym He')) H).
  - assert (match elems mid21 !! 1%nat, elems mid21 !! 0%nat with Some e, Some e' => same_sideb e 3 e' 1 | _, _ => false end = true) as H
      by (vm_compute; reflexivity).
    apply same_sideb_ok. exact (eq_trans (f_equal2 (λ o o', match o, o' with Some e, Some e' => same_sideb e 3 e' 1 | _, _ => false end) (eq_sym He) (eq_sym He')) H).
Qed.
Example C44_sample :
  ∃ m' m3, extrude_mid (A:=A64) mid21 z8 ["P"]%string ["P"]%string midway true = Ok (m', m3) ∧ m' = mid21 ∧
    is_mid_stack (A:=A64) midway mid21 z8 m3 ∧ paired (A:=A64) m3 ∧ conforming (A:=A64) m3.
Proof.
  assert (conditions_given (nbc mid21) (Some ["P"]%string) (λ _, "P"%string)) as G1.
  { change (nbc mid21) with 1%nat. split; [reflexivity|]. intros [|b] Hb; [reflexivity|lia]. }
  assert (∀ b, (b < nbc mid21)%nat → end_condition "P" ∧ end_condition "P" ∧ ("P"%string = "P"%string ↔ "P"%string = "P"%string)) as G3.
  { intros b _. unfold end_condition. split_and!; done. }
  assert (Z.of_nat (6 * nel mid21 * 2) <= 2 ^ 53) as G4 by (change (nel mid21) with 2%nat; cbn; lia).
  assert (∀ e, e ∈ elems mid21 → curvature_ok (A:=A64) e ∧ cut_across (A:=A64) midway e) as G5 by (intros e He; by destruct (C44_sample_cut e He) as (? & ? & ?)).
  assert (∀ e, e ∈ elems mid21 → no_arcs (A:=A64) e) as G6 by (intros e He; by destruct (C44_sample_cut e He) as (? & ? & ?)).
  assert (length z8 = 4 * 2 + 1)%nat as G7 by reflexivity. assert (1 ≤ 2)%nat as G8 by lia.
  destruct (C44_elements (A:=A64) bnd64 mid21 z8 ["P"]%string ["P"]%string midway true (λ _, "P"%string) (λ _, "P"%string) 2
    A64_laws C44_sample_wf C44_sample_linear2d G5 G7 G8) as (m' & m3 & E & _ & Hst & _ & Hm);
    [|exact G1|exact G1|intros b _; reflexivity|left; exact G6|].
  { apply (paired_refs (A:=A64)); [exact (proj1 C44_sample_linear2d)|exact C44_sample_paired|]. change (nel mid21) with 2%nat. unfold bnd64. cbn. lia. }
  destruct (C44_faces_float64 mid21 m' m3 z8 ["P"]%string ["P"]%string midway (λ _, "P"%string) (λ _, "P"%string) 2
    C44_sample_wf C44_sample_linear2d G5 G7 G8 C44_sample_paired C44_sample_free G4 G1 G1 G3 (or_introl G6) E) as (H1 & _ & H3).
  exists m', m3. split; [exact E|]. split; [exact (Hm G6)|]. split; [exact Hst|]. split; [exact H1|]. apply H3, C44_sample_shared.
Qed.
(** The same by computation: 24 elements that pass the check in float64 too. *)
Example C44_sample_run :
  match extrude_mid (A:=A64) mid21 z8 ["P"]%string ["P"]%string midway true with
  | Ok (_, m3) => (nel m3, ncurv m3, check_connectivity (A:=A64) tol64 m3) = (24%nat, 0, Ok true)
  | Raise _ => False
  end.
Proof. vm_compute. reflexivity. Qed.

(** Not covered: a cut between the two diagonals passes the test of two corners, but the result does not pass the check. *)
Definition mid11 (t : string) : hexa (num A64) := ok_or empty64
  (gen_box (A:=A64) "little" 1 1 (zf 0) (zf 1) (zf 0) (zf 1) [2;1;0;0;0]%nat
     (Some ["W"]%string) (Some ["W"]%string) (Some [t]) (Some [t]) true).
Definition diagonal (x y : num A64) : num A64 := nmul (nsub x (nlit 1 2)) (nsub y (nlit 1 2)).
Definition z4 : list (num A64) := zf <$> [0; 1; 2; 3; 4].
Theorem C44_diagonal_refuted :
  check_connectivity (A:=A64) tol64 (mid11 "W") = Ok true ∧ (∀ e, e ∈ elems (mid11 "W") → low_corners (A:=A64) diagonal e = 2%nat) ∧
  ∃ m' m3, extrude_mid (A:=A64) (mid11 "W") z4 ["W"]%string ["W"]%string diagonal true = Ok (m', m3) ∧
    check_connectivity (A:=A64) tol64 m3 = Raise ValueError.
Proof.
  split; [vm_compute; reflexivity|]. split.
  { assert (forallb (λ e : elem (num A64), low_corners (A:=A64) diagonal e =? 2)%nat (elems (mid11 "W")) = true) as H by (vm_compute; reflexivity).
    intros e He. pose proof (forallb_elem _ _ H e He) as X. by apply Nat.eqb_eq in X. }
  assert (match extrude_mid (A:=A64) (mid11 "W") z4 ["W"]%string ["W"]%string diagonal true with
    | Ok (_, m3) => check_connectivity (A:=A64) tol64 m3 = Raise ValueError
    | Raise _ => False end) as H by (vm_compute; reflexivity).
  destruct (extrude_mid _ _ _ _ _ _) as [[m' m3]|]; [|destruct H]. exists m', m3. split; [reflexivity|exact H].
Qed.
Print Assumptions C44_diagonal_refuted.
(** Nor a side that is connected but not cut, here a periodic one. *)
Theorem C44_connected_side_refuted :
  check_connectivity (A:=A64) tol64 (mid11 "P") = Ok true ∧
  ∃ m' m3, extrude_mid (A:=A64) (mid11 "P") z4 ["W"]%string ["W"]%string midway true = Ok (m', m3) ∧
    check_connectivity (A:=A64) tol64 m3 = Raise ValueError.
Proof.
  split; [vm_compute; reflexivity|].
  assert (match extrude_mid (A:=A64) (mid11 "P") z4 ["W"]%string ["W"]%string midway true with
    | Ok (_, m3) => check_connectivity (A:=A64) tol64 m3 = Raise ValueError
    | Raise _ => False end) as H by (vm_compute; reflexivity).
  destruct (extrude_mid _ _ _ _ _ _) as [[m' m3]|]; [|destruct H]. exists m', m3. split; [reflexivity|exact H].
Qed.
Print Assumptions C44_connected_side_refuted.
(** Nor a cut side that is a circular arc with more than four layers: finding its middle changes the argument, so that the
    next four layers do not fit the first four. *)
Definition arc11 : hexa (num A64) :=
  set_elems ((λ e, set_ccurv (<[1%nat := "C"%string]> (ccurv e)) (set_curv (<[1%nat := [zf 2; zf 0; zf 0; zf 0; zf 0]]> (curv e)) e))
    <$> elems (mid11 "W")) (mid11 "W").
Definition radius (m : hexa (num A64)) : f64 := match elems m with e :: _ => nth 0 (nth 1 (curv e) []) (zf 0) | [] => zf 0 end.
Theorem C44_arc_refuted :
  check_connectivity (A:=A64) tol64 arc11 = Ok true ∧
  (∃ m' m3, extrude_mid (A:=A64) arc11 z4 ["W"]%string ["W"]%string midway true = Ok (m', m3) ∧
     check_connectivity (A:=A64) tol64 m3 = Ok true ∧ m' ≠ arc11) ∧
  (∃ m' m3, extrude_mid (A:=A64) arc11 z8 ["W"]%string ["W"]%string midway true = Ok (m', m3) ∧
     check_connectivity (A:=A64) tol64 m3 = Raise ValueError).
Proof.
  split; [vm_compute; reflexivity|]. split.
  - assert (match extrude_mid (A:=A64) arc11 z4 ["W"]%string ["W"]%string midway true with
      | Ok (m', m3) => match check_connectivity (A:=A64) tol64 m3 with Ok b => b | Raise _ => false end && negb (f64_same (radius m') (radius arc11))
      | Raise _ => false end = true) as H by (vm_compute; reflexivity).
    destruct (extrude_mid _ _ _ _ _ _) as [[m' m3]|]; [|discriminate H]. exists m', m3. apply andb_prop in H as [H1 H2]. split; [reflexivity|].
    split; [destruct (check_connectivity _ _) as [[|]|]; [reflexivity|discriminate H1|discriminate H1]|].
    intros ->. rewrite negb_true_iff in H2. revert H2. vm_compute. discriminate.
  - assert (match extrude_mid (A:=A64) arc11 z8 ["W"]%string ["W"]%string midway true with
      | Ok (_, m3) => check_connectivity (A:=A64) tol64 m3 = Raise ValueError
      | Raise _ => False end) as H by (vm_compute; reflexivity).
    destruct (extrude_mid _ _ _ _ _ _) as [[m' m3]|]; [|destruct H]. exists m', m3. split; [reflexivity|exact H].
Qed.
Print Assumptions C44_arc_refuted.
(** A side with curvature s is announced as changed to an arc, but raises. *)
Theorem C44_s_refuted :
  extrude_mid (A:=A64) (set_elems ((λ e, set_ccurv (<[1%nat := "s"%string]> (ccurv e)) e) <$> elems (mid11 "W")) (mid11 "W"))
    z4 ["W"]%string ["W"]%string midway true = Raise IndexError.
Proof. vm_compute. reflexivity. Qed.
Print Assumptions C44_s_refuted.
