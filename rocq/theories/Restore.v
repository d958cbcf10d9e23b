(** generate_internal_bcs after delete_internal_bcs. *)
From Coq Require Import Lia Reals Lra.
From Verif Require Import Base Mesh Core Tools MeshSpec GibSpec MeshLemmas CheckProofs OpsProofs GibProofs.
Open Scope Z_scope.

Section Restore.
Context {A : arith}.
Notation N := (num A).
Implicit Types m : hexa N.

(** ** Specification *)
(** The internal condition of face [f] of element [i], connected to face [g] of element [j]: type, own numbers, numbers of the other face. *)
Definition internal_entry (i f j g : nat) : bcrec N :=
  let n k := Z.of_nat k + 1 in Bc "E" (n i) (n f) (nofZ (n j)) (nofZ (n g)) (nofZ 0) (nofZ 0) (nofZ 0).
Definition linked m (b i f j g : nat) : Prop := get_bc m i b f = Some (internal_entry i f j g).
(** The face has no condition, or an internal one. *)
Definition inner m (i f : nat) : Prop :=
  (i < nel m ∧ f < 2 * ndim m)%nat ∧ ∃ r, get_bc m i 0 f = Some r ∧ (bt r = ""%string ∨ bt r = "E"%string).
(** The internal conditions of all fields connect the same pairs of faces of different elements, and these are
    exactly the pairs of inner faces that are close. *)
Definition connected_by_place (tol : N) m : Prop :=
  (∀ i b f r, get_bc m i b f = Some r → bt r = "E"%string →
     (f < 2 * ndim m)%nat ∧ ∃ j g, (j < nel m ∧ g < 2 * ndim m)%nat ∧ i ≠ j ∧
       ∀ b', (b' < nbc m)%nat → linked m b' i f j g ∧ linked m b' j g i f) ∧
  (∀ i f j g, (i < j)%nat → inner m i f → inner m j g → (close_faces tol m i f j g ↔ linked m 0 i f j g)).

(** ** Proof *)
Context (bnd : Z) (LA : arith_laws A bnd).
Lemma same_geo_close tol m m' i f j g : strip m' = strip m → close_faces tol m i f j g → close_faces tol m' i f j g.
Proof.
  intros HS (e & e' & c1 & c2 & s1 & s2 & E1 & E2 & E3 & E4 & E5 & E6 & E7).
  destruct (strip_elem_lookup m m' i e) as (d & D1 & D2); [done|done|]. destruct (strip_elem_lookup m m' j e') as (d' & D1' & D2'); [done|done|].
  exists d, d', c1, c2, s1, s2. split_and!; try done.
  - rewrite <- E3. by apply face_center_strip.
  - rewrite <- E4. by apply face_center_strip.
  - rewrite <- E5. by apply smallest_edge_strip.
  - rewrite <- E6. by apply smallest_edge_strip.
Qed.
Lemma linked_fun m b i f j g j' g' : Z.of_nat (nel m) <= bnd → 6 <= bnd → (ndim m ≤ 3)%nat →
  (j < nel m ∧ g < 2 * ndim m)%nat → (j' < nel m ∧ g' < 2 * ndim m)%nat → linked m b i f j g → linked m b i f j' g' → j = j' ∧ g = g'.
Proof.
  unfold linked. intros Hn H6 Hd Hj Hj' Hr Hr'. rewrite Hr in Hr'. apply (inj Some) in Hr'. unfold internal_entry in Hr'. injection Hr' as Q1 Q2.
  apply (nofZ_inj bnd LA) in Q1; [|lia..]. apply (nofZ_inj bnd LA) in Q2; [|lia..]. lia.
Qed.
(** [m0] is [m] without its internal conditions. *)
Definition cleared m m0 : Prop := strip m0 = strip m ∧ bshape m0 = bshape m ∧
  ∀ i b f r, get_bc m i b f = Some r → get_bc m0 i b f = Some (if String.eqb (bt r) "E" then zero_bc (nofZ 0) else r).
Lemma restore_from m m0 tol : Z.of_nat (nel m) <= bnd → 6 <= bnd → wf_mesh m → (1 ≤ nbc m)%nat →
  (∀ e s, e ∈ elems m → smallest_edge e = Ok s → nleb s (nofZ 0) = false) → connected_by_place tol m → cleared m m0 →
  ∃ n p, generate_internal_bcs tol m0 = Ok (m, n) ∧ n = Z.of_nat (nbc m) * Z.of_nat (connections m p) ∧
    (∀ i f j g, p i f = Some (j, g) ↔ (i < nel m ∧ f < 2 * ndim m)%nat ∧ (j < nel m ∧ g < 2 * ndim m)%nat ∧ linked m 0 i f j g).
Proof.
  intros Hbn H6 Hw Hnb Hs [HC1 HC2] (S0 & B0 & G0). pose proof Hw as [Hwb Hgeo].
  pose proof (strip_fields _ _ S0) as (Fd & Fn & _ & Fb & _).
  pose proof (wf_mesh_shape m m0 Hw S0 B0) as Hw0.
  destruct (generate_internal_bcs_spec m0 tol Hw0) as (m' & n & p & E & HM & [HS' HE] & HCo & Hn & S1 & B1); [lia| |].
  { intros e s He Es. apply elem_of_list_lookup in He as [i He]. destruct (strip_elem_lookup m0 m i e) as (d & D1 & D2); [done|done|].
    apply (Hs d); [by eapply elem_of_list_lookup_2|]. rewrite <- Es. by apply smallest_edge_strip. }
  assert (∀ i f, open_face m0 i f ↔ inner m i f) as HO.
  { intros i f. unfold open_face, inner. rewrite Fn, Fd. split.
    - intros [Hr (r & Hg & Ht)]. split; [done|]. destruct (wf_get_bc m i 0 f) as [q Hq]; [done|destruct (proj1 Hwb); lia..|].
      exists q. split; [done|]. rewrite (G0 _ _ _ _ Hq) in Hg. destruct (String.eqb_spec (bt q) "E"); [by right|].
      apply (inj Some) in Hg as <-. by left.
    - intros [Hr (r & Hg & Ht)]. split; [done|]. eexists. split; [by apply G0|]. destruct Ht as [Ht|Ht]; rewrite Ht; cbn; done. }
  assert (∀ i f j g, close_faces tol m0 i f j g ↔ close_faces tol m i f j g) as HCl.
  { intros i f j g. split; apply same_geo_close; congruence. }
  assert (∀ i f j g, linked m 0 i f j g → inner m i f → (j < nel m ∧ g < 2 * ndim m)%nat → i ≠ j ∧ inner m j g ∧ linked m 0 j g i f) as HL.
  { intros i f j g HL [Hi _] Hj. destruct (HC1 i 0%nat f _ HL eq_refl) as (_ & j' & g' & Hj' & Hne & Hall).
    destruct (Hall 0%nat) as [L1 L2]; [lia|].
    destruct (linked_fun m 0 i f j g j' g') as [<- <-]; try done; [destruct (proj1 Hwb); lia|]. split; [done|]. split; [|done]. split; [done|].
    eexists. split; [exact L2|]. by right. }
  assert (∀ i f j g, p i f = Some (j, g) → linked m 0 i f j g) as Hp1.
  { intros i f j g Hp. destruct (HM i f j g Hp) as (Hp' & Hne & O1 & O2 & Hc). rewrite HO in O1, O2.
    destruct (Nat.lt_ge_cases i j) as [Hl|Hl]; [by apply HC2; [..|apply HCl, Hc]|].
    destruct (HM j g i f Hp') as (_ & _ & _ & _ & Hc'). assert (j < i)%nat as Hl' by lia.
    apply (HL j g i f); [apply HC2; [..|apply HCl, Hc']; done|done|apply O1]. }
  assert (∀ i f j g, linked m 0 i f j g → inner m i f → (j < nel m ∧ g < 2 * ndim m)%nat → (i < j)%nat → p i f = Some (j, g)) as Hp2.
  { intros i f j g HLk Hi Hj Hlt. destruct (HL i f j g HLk Hi Hj) as (Hne & Hj' & HLk').
    destruct (p i f) as [[j1 g1]|] eqn:Ep.
    - pose proof (Hp1 _ _ _ _ Ep) as HL1. destruct (HM _ _ _ _ Ep) as (_ & _ & _ & O2 & _). apply HO in O2 as [O2 _].
      destruct (linked_fun m 0 i f j1 g1 j g) as [-> ->]; try done. destruct (proj1 Hwb); lia.
    - destruct (p j g) as [[i1 f1]|] eqn:Ep'.
      + pose proof (Hp1 _ _ _ _ Ep') as HL1. destruct (HM _ _ _ _ Ep') as (Hb & _ & _ & O2 & _). apply HO in O2 as [O2 _].
        destruct (linked_fun m 0 j g i1 f1 i f) as [-> ->]; try done; [destruct (proj1 Hwb); lia|apply Hi|]. congruence.
      + exfalso. apply (HCo i f j g); try done; [by apply HO|by apply HO|]. apply HCl, HC2; done. }
  assert (∀ i f j g, linked m 0 i f j g → inner m i f → (j < nel m ∧ g < 2 * ndim m)%nat → p i f = Some (j, g)) as Hp3.
  { intros i f j g HLk Hi Hj. destruct (HL i f j g HLk Hi Hj) as (Hne & Hj' & HLk').
    destruct (Nat.lt_ge_cases i j) as [Hl|Hl]; [by apply Hp2|]. assert (j < i)%nat as Hl' by lia.
    pose proof (Hp2 j g i f HLk' Hj' (proj1 Hi) Hl') as Hp. by apply HM in Hp as [Hp _]. }
  assert (m' = m) as ->.
  { apply mesh_ext; [congruence|congruence|]. intros i b f. destruct (get_bc m i b f) as [r|] eqn:Hr.
    2: { apply eq_None_not_Some. intros Hsome. apply get_bc_dom in Hsome. unfold bc_dom in Hsome. rewrite B1, B0 in Hsome. apply get_bc_dom in Hsome. rewrite Hr in Hsome. by destruct Hsome. }
    assert (i < nel m ∧ b < nbc m)%nat as [Hi Hb].
    { destruct (get_bc_Some_shape m i b f r Hr) as (e & row & R1 & R2 & _). destruct Hwb as (_ & Hl & Hrow). split; [rewrite <- Hl; by eapply lookup_lt_Some|].
      rewrite <- (proj1 (Hrow e (elem_of_list_lookup_2 _ _ _ R1))). by eapply lookup_lt_Some. }
    destruct (HE i b f _ (G0 _ _ _ _ Hr)) as (r' & Hr' & Hent). rewrite Hr'. f_equal.
    destruct (String.eqb_spec (bt r) "E") as [Ht|Ht].
    - destruct (HC1 i b f r Hr Ht) as (Hf & j & g & Hj & Hne & Hall). destruct (Hall 0%nat) as [L1 L2]; [lia|].
      assert (inner m i f) as Ii. { split; [done|]. eexists. split; [exact L1|]. by right. }
      rewrite (Hp3 i f j g L1 Ii Hj) in Hent. destruct Hent as (T1 & T2 & T3 & [T4 T5] & T6 & T7 & T8).
      destruct (Hall b Hb) as [Lb _]. unfold linked in Lb. rewrite Hr in Lb. apply (inj Some) in Lb as ->. cbn [zero_bc bp5 bp6 bp7] in T6, T7, T8.
      destruct r'. cbn in *. unfold internal_entry. by subst.
    - destruct (p i f) as [[j g]|] eqn:Ep; [|done]. exfalso. pose proof (Hp1 _ _ _ _ Ep) as HLk.
      destruct (HC1 i 0%nat f _ HLk eq_refl) as (Hf & j' & g' & _ & _ & Hall).
      destruct (Hall b Hb) as [Lb _]. unfold linked in Lb. rewrite Hr in Lb. apply (inj Some) in Lb as ->. by apply Ht. }
  exists n, p. split; [done|]. split.
  { rewrite Hn, Fb. unfold connections. by rewrite Fn, Fd. }
  intros i f j g. split.
  - intros Hp. destruct (HM i f j g Hp) as (_ & _ & O1 & O2 & _). apply HO in O1 as [O1 _]. apply HO in O2 as [O2 _]. auto.
  - intros (Hi & Hj & HLk). apply Hp3; [done| |done]. split; [done|]. eexists. split; [exact HLk|]. by right.
Qed.
Lemma restore m tol : Z.of_nat (nel m) <= bnd → 6 <= bnd → wf_mesh m → (1 ≤ nbc m)%nat →
  (∀ e s, e ∈ elems m → smallest_edge e = Ok s → nleb s (nofZ 0) = false) → connected_by_place tol m →
  ∃ m0 k n, delete_internal_bcs m = Ok (m0, k) ∧ generate_internal_bcs tol m0 = Ok (m, n).
Proof.
  intros Hbn H6 Hw Hnb Hs HC. destruct (delete_spec m (proj1 Hw)) as (m0 & k & E0 & S0 & B0 & _ & G0).
  destruct (restore_from m m0 tol Hbn H6 Hw Hnb Hs HC) as (n & p & E & _); [done|]. eauto.
Qed.
End Restore.
