(** C25, C26 and the part of C33 about merge. *)
From Coq Require Import Lia Reals Lra.
From Flocq Require Import Core.Core IEEE754.BinarySingleNaN IEEE754.Binary IEEE754.Bits.
From Verif Require Import Base Mesh Core Tools Float FloatLaws MeshLemmas MeshSpec CheckProofs
  OpsProofs GeoLaws MergeSpec MergeProofs MergeTotal MergeTypes DiscProofs Samples P_Gib.
Open Scope Z_scope.

(** C25. Whatever the conditions are, the elements, counters and element map of [other] are
    appended, and nothing but boundary conditions changes, also if the gluing raises. *)
Theorem C25_merge_appends {A : arith} (bnd : Z) (self other : hexa (num A)) tol ie ia :
  arith_laws A bnd → wf_bcs other → refs_within bnd (Z.of_nat (nel self)) 0 other →
  ndim self = ndim other → head (lr1 self) = head (lr1 other) → is_Some (head (lr1 self)) →
  is_append self other (merge tol ie ia self other).1.
Proof.
  intros LA Hw Hr Hd Hl Hs. destruct (merge_append_spec bnd self other LA Hw Hr) as (add & E & S & B & _).
  destruct (merge_strip tol ie ia self other _ E Hd Hl Hs) as [H1 H2].
  by apply (is_append_of self other add _ _ _ S eq_refl eq_refl).
Qed.
Print Assumptions C25_merge_appends.

(** If the conditions are to be ignored, or there are none, the entries are those of the given meshes. *)
Theorem C25_ignore_all_bcs {A : arith} (bnd : Z) (self other : hexa (num A)) tol ie ia :
  arith_laws A bnd → wf_mesh self → wf_mesh other → refs_within bnd (Z.of_nat (nel self)) 0 other → paired other →
  ndim self = ndim other → nbc self = nbc other → Z.of_nat (nel self + nel other) <= bnd →
  head (lr1 self) = head (lr1 other) → is_Some (head (lr1 self)) →
  ia = true ∨ nbc self = 0%nat →
  ∃ m', merge tol ie ia self other = (m', Ok 0) ∧
    (∀ i b f, (i < nel self)%nat → get_bc m' i b f = get_bc self i b f) ∧
    (∀ i b f r, in_mesh other i b f → get_bc other i b f = Some r →
       ∃ r', get_bc m' (nel self + i) b f = Some r' ∧ shifted_entry (nel self) r r').
Proof.
  intros LA Ws Wo Hr Po Hd Hb Hbn Hl [l0 Hl0] Hi. destruct (merge_append_spec bnd self other LA (proj1 Wo) Hr) as (add & E & S & B & Ea).
  eexists. split.
  - unfold merge. rewrite (proj2 (Nat.eqb_eq _ _) Hd). cbn [negb].
    destruct (lr1 self) as [|a ?]; [done|]. destruct (lr1 other) as [|a' ?]; [done|].
    cbn in Hl. injection Hl as <-. rewrite Nat.eqb_refl. cbn [negb]. rewrite E.
    assert ((Nat.min (nbc self) (nbc other) =? 0)%nat || ia = true) as ->; [|reflexivity].
    destruct Hi as [->| ->]; [by rewrite orb_true_r|done].
  - split.
    + intros i b f Hi'. apply get_app_l. destruct Ws as [(_ & Hlen & _) _]. lia.
    + intros i b f r Him Hrr.
      destruct (shifted_get self other add _ bnd Ws Hd Hb Hbn Po Ea eq_refl i b f r Him Hrr) as (r' & Hr' & Hs' & _).
      exists r'. done.
Qed.
Print Assumptions C25_ignore_all_bcs.

(** Different dimensions or orders are rejected and the mesh is left alone. *)
Theorem C25_merge_rejects {A : arith} (self other : hexa (num A)) tol ie ia :
  (ndim self ≠ ndim other ∨
   ∃ a b, head (lr1 self) = Some a ∧ head (lr1 other) = Some b ∧ a ≠ b) →
  merge tol ie ia self other = (self, Raise ValueError).
Proof.
  intros H. unfold merge. destruct (Nat.eqb_spec (ndim self) (ndim other)) as [Hd|Hd]; cbn [negb]; [|done].
  destruct H as [H|(a & b & H1 & H2 & H3)]; [done|].
  destruct (lr1 self) as [|? ?]; [done|]. destruct (lr1 other) as [|? ?]; [done|]. cbn in H1, H2.
  injection H1 as ->. injection H2 as ->. rewrite (proj2 (Nat.eqb_neq _ _) H3). done.
Qed.
Print Assumptions C25_merge_rejects.

(** C33 for merge: the element map of the merged mesh is a permutation of 1..nel. *)
Theorem C33_merge_elmap {A : arith} (bnd : Z) (self other : hexa (num A)) tol ie ia :
  arith_laws A bnd → wf_bcs other → refs_within bnd (Z.of_nat (nel self)) 0 other →
  ndim self = ndim other → head (lr1 self) = head (lr1 other) → is_Some (head (lr1 self)) →
  elmap self ≡ₚ ((λ i, Z.of_nat i + 1) <$> range (nel self)) →
  elmap other ≡ₚ ((λ i, Z.of_nat i + 1) <$> range (nel other)) →
  let m' := (merge tol ie ia self other).1 in
  elmap m' ≡ₚ ((λ i, Z.of_nat i + 1) <$> range (nel m')).
Proof.
  intros LA Hw Hr Hd Hl Hs Es Eo m'.
  destruct (C25_merge_appends bnd self other tol ie ia LA Hw Hr Hd Hl Hs) as (F1 & _ & F2 & _). fold m' in F1, F2.
  rewrite F2, Es, Eo, F1. unfold range. rewrite seq_app, fmap_app. cbn [Nat.add].
  apply Permutation_app_head. rewrite <- list_fmap_compose.
  assert ((λ i, Z.of_nat i + 1) <$> seq (nel self) (nel other) =
    ((λ k, k + Z.of_nat (nel self)) ∘ (λ i : nat, Z.of_nat i + 1)) <$> seq 0 (nel other)) as ->; [|done].
  apply list_eq. intros i. rewrite !list_lookup_fmap.
  destruct (decide (i < nel other)%nat).
  - rewrite !lookup_seq_lt by lia. cbn. f_equal. lia.
  - rewrite !lookup_seq_ge by lia. done.
Qed.
Print Assumptions C33_merge_elmap.

(** C26. *)
Theorem C26_merge_glues {A : arith} (bnd : Z) (self other : hexa (num A)) tol ie :
  arith_laws A bnd → compatible bnd self other → (0 < nbc self)%nat →
  connected_mesh self → connected_mesh other →
  unique_contacts tol ie self other → periodic_meets_periodic tol ie self other →
  ∃ m' n, merge tol ie false self other = (m', Ok n) ∧ is_append self other m' ∧
    is_glued tol ie self other m' n ∧ wf_mesh m' ∧ paired m'.
Proof.
  intros LA (Hd & Hl & Hs & Hb & Hbn & H6) Hnb (Ws & Ps & Us & Ns) (Wo & Po & Uo & No) Hun Hpp.
  assert (refs_within bnd (Z.of_nat (nel self)) 0 other) as Hr.
  { split; [lia|]. intros i b f r Hi Hr Hc. destruct (Po i b f r Hi Hr Hc) as (j & g & _ & (Hj & _) & [P _] & _).
    exists (Z.of_nat j + 1). split; [done|]. lia. }
  destruct (merge_append_spec bnd self other LA (proj1 Wo) Hr) as (add & E & S & B & Ea).
  set (m0 := appended self add _ _ _) in *.
  destruct (merge_loop self other add m0 bnd LA Ws Wo Hd Hb Hbn H6 Ps Po S B Ea eq_refl Us Uo Ns No tol ie Hun Hpp Hnb)
    as (M & D & EL & I & Nd & HD).
  exists M, (Z.of_nat (length D)).
  assert (merge tol ie false self other = (M, Ok (Z.of_nat (length D)))) as EM.
  { unfold merge. rewrite (proj2 (Nat.eqb_eq _ _) Hd). cbn [negb]. destruct Hs as [l0 Hl0].
    destruct (lr1 self) as [|a ?]; [done|]. destruct (lr1 other) as [|a' ?]; [done|].
    cbn in Hl. injection Hl as <-. rewrite Nat.eqb_refl. cbn [negb]. rewrite E.
    rewrite <- Hb, Nat.min_id. rewrite (proj2 (Nat.eqb_neq _ _)) by lia. cbn [orb].
    change (nbc m0) with (nbc self) in EL. rewrite EL. done. }
  split; [done|]. split.
  { pose proof (C25_merge_appends bnd self other tol ie false LA (proj1 Wo) Hr Hd Hl Hs) as H. by rewrite EM in H. }
  split; [by apply (glued_spec self other add m0 bnd)|]. split.
  - apply (wf_mesh_shape m0); [by apply (m0_wf self other add m0 bnd)|apply (mi_strip _ _ _ _ _ _ I)|apply (mi_shape _ _ _ _ _ _ I)].
  - by apply (glued_paired self other add m0 bnd Ws Wo Hd Hb Hbn Ps Po S B Ea eq_refl Us Uo tol ie Hnb D M I).
Qed.
Print Assumptions C26_merge_glues.

(** The merged mesh can be merged again: its connections are consistent. *)
Theorem C26_merge_connected {A : arith} (bnd : Z) (self other : hexa (num A)) tol ie :
  arith_laws A bnd → compatible bnd self other → (0 < nbc self)%nat →
  connected_mesh self → connected_mesh other →
  unique_contacts tol ie self other → periodic_meets_periodic tol ie self other →
  ∃ m' n, merge tol ie false self other = (m', Ok n) ∧ connected_mesh m'.
Proof.
  intros LA Hcmp Hnb Cs Co Hun Hpp. destruct (C26_merge_glues bnd self other tol ie LA Hcmp Hnb Cs Co Hun Hpp) as (m1 & n' & EM' & _ & _ & Wm & Pm).
  exists m1, n'. split; [done|]. split; [done|]. split; [done|].
  destruct Hcmp as (Hd & Hl & Hs & Hb & Hbn & H6). destruct Cs as (Ws & Ps & Us & Ns), Co as (Wo & Po & Uo & No).
  assert (refs_within bnd (Z.of_nat (nel self)) 0 other) as Hr.
  { split; [lia|]. intros i b f r Hi Hr Hc. destruct (Po i b f r Hi Hr Hc) as (j & g & _ & (Hj & _) & [P _] & _).
    exists (Z.of_nat j + 1). split; [done|]. lia. }
  destruct (merge_append_spec bnd self other LA (proj1 Wo) Hr) as (add & E & S & B & Ea).
  set (m0 := appended self add _ _ _) in *.
  destruct (merge_loop self other add m0 bnd LA Ws Wo Hd Hb Hbn H6 Ps Po S B Ea eq_refl Us Uo Ns No tol ie Hun Hpp Hnb)
    as (M & D & EL & I & Nd & HD).
  assert (merge tol ie false self other = (M, Ok (Z.of_nat (length D)))) as EM2.
  { unfold merge. rewrite (proj2 (Nat.eqb_eq _ _) Hd). cbn [negb]. destruct Hs as [l0 Hl0].
    destruct (lr1 self) as [|a ?]; [done|]. destruct (lr1 other) as [|a' ?]; [done|].
    cbn in Hl. injection Hl as <-. rewrite Nat.eqb_refl. cbn [negb]. rewrite E.
    rewrite <- Hb, Nat.min_id. rewrite (proj2 (Nat.eqb_neq _ _)) by lia. cbn [orb].
    change (nbc m0) with (nbc self) in EL. rewrite EL. done. }
  rewrite EM2 in EM'. injection EM' as <- <-. exact (glued_connected self other add m0 bnd LA Ws Wo Hd Hb Hbn H6 Po S B Ea eq_refl Us Uo tol ie Hnb D M I).
Qed.
Print Assumptions C26_merge_connected.

Theorem C26_merge_valid {A : arith} (bnd : Z) (self other m' : hexa (num A)) tol ie n :
  geo_laws A → arith_laws A bnd → compatible bnd self other → (0 < nbc self)%nat →
  connected_mesh self → connected_mesh other →
  unique_contacts tol ie self other → periodic_meets_periodic tol ie self other →
  valid_connectivity tol self → valid_connectivity tol other →
  (∀ e s, e ∈ elems self ∨ e ∈ elems other → smallest_edge e = Ok s → nltb (nofZ 0) s = true) →
  merge tol ie false self other = (m', Ok n) →
  valid_connectivity tol m' ∧ check_connectivity tol m' = Ok true.
Proof.
  intros G LA Hcmp Hnb Cs Co Hun Hpp Vs Vo Hpos EM.
  destruct (C26_merge_glues bnd self other tol ie LA Hcmp Hnb Cs Co Hun Hpp) as (m1 & n' & EM' & _ & _ & Wm & _).
  rewrite EM in EM'. injection EM' as <- <-.
  assert (valid_connectivity tol m') as V; [|split; [done|by apply check_connectivity_iff]].
  destruct Hcmp as (Hd & Hl & Hs & Hb & Hbn & H6). destruct Cs as (Ws & Ps & Us & Ns), Co as (Wo & Po & Uo & No).
  assert (refs_within bnd (Z.of_nat (nel self)) 0 other) as Hr.
  { split; [lia|]. intros i b f r Hi Hr Hc. destruct (Po i b f r Hi Hr Hc) as (j & g & _ & (Hj & _) & [P _] & _).
    exists (Z.of_nat j + 1). split; [done|]. lia. }
  destruct (merge_append_spec bnd self other LA (proj1 Wo) Hr) as (add & E & S & B & Ea).
  set (m0 := appended self add _ _ _) in *.
  destruct (merge_loop self other add m0 bnd LA Ws Wo Hd Hb Hbn H6 Ps Po S B Ea eq_refl Us Uo Ns No tol ie Hun Hpp Hnb)
    as (M & D & EL & I & Nd & HD).
  assert (merge tol ie false self other = (M, Ok (Z.of_nat (length D)))) as EM2.
  { unfold merge. rewrite (proj2 (Nat.eqb_eq _ _) Hd). cbn [negb]. destruct Hs as [l0 Hl0].
    destruct (lr1 self) as [|a ?]; [done|]. destruct (lr1 other) as [|a' ?]; [done|].
    cbn in Hl. injection Hl as <-. rewrite Nat.eqb_refl. cbn [negb]. rewrite E.
    rewrite <- Hb, Nat.min_id. rewrite (proj2 (Nat.eqb_neq _ _)) by lia. cbn [orb].
    change (nbc m0) with (nbc self) in EL. rewrite EL. done. }
  rewrite EM in EM2. injection EM2 as -> _.
  by apply (glued_valid self other add m0 bnd LA Ws Wo Hd Hb Hbn H6 Ps Po S B Ea eq_refl Us Uo tol ie Hnb D M I G Vs Vo Hpos).
Qed.
Print Assumptions C26_merge_valid.

(** C25. Meshes whose references are in range can always be merged, whichever of their faces meet. *)
Theorem C25_merge_returns {A : arith} (bnd : Z) (self other : hexa (num A)) tol ie ia :
  arith_laws A bnd → wf_mesh self → wf_mesh other → compatible bnd self other → conn_refs self → conn_refs other →
  ∃ m' n, merge tol ie ia self other = (m', Ok n) ∧ is_append self other m' ∧ wf_mesh m' ∧ conn_refs m'.
Proof. intros LA Ws Wo (Hd & Hl & Hs & Hb & Hbn & H6) Cs Co. by apply (merge_total bnd). Qed.
Print Assumptions C25_merge_returns.
(** C26. Whichever faces meet, a condition is kept, or the face is connected to a face at the same place, or it is periodic
    because there were periodic faces. *)
Theorem C26_merge_types {A : arith} (self other m' : hexa (num A)) tol ie ia n :
  merge tol ie ia self other = (m', Ok n) → length (elems self) = nel self →
  let per := some_periodic self ∨ some_periodic other in
  ∀ x b r, get_bc m' x.1 b x.2 = Some r →
    ((x.1 < nel self)%nat → ∃ r0, get_bc self x.1 b x.2 = Some r0 ∧ (r = r0 ∨ changed_entry tol per m' b x r)) ∧
    ((nel self ≤ x.1)%nat → ∃ r0, get_bc other (x.1 - nel self) b x.2 = Some r0 ∧ (same_but_numbers r0 r ∨ changed_entry tol per m' b x r)).
Proof. exact (merge_types tol ie ia self other m' n). Qed.
Print Assumptions C26_merge_types.

(** Boolean forms of the hypotheses, for the samples. *)
Definition free_faceb (ie : bool) (m : hexa (num A64)) (x : nat * nat) : bool :=
  match get_bc m x.1 0 x.2 with
  | Some r => negb (String.eqb (bt r) "E") && (negb ie || negb (String.eqb (bt r) "")) | None => false end.
Definition touchingb (tol : num A64) (self other : hexa (num A64)) (x y : nat * nat) : bool :=
  match elems other !! x.1, elems self !! y.1 with
  | Some e, Some e' =>
    match face_center (A:=A64) e (Z.of_nat x.2), face_center (A:=A64) e' (Z.of_nat y.2), smallest_edge (A:=A64) e, smallest_edge (A:=A64) e' with
    | Ok c, Ok c', Ok s, Ok s' => nleb (a:=A64) (nsqrt (dist2 c c')) (nmul tol (pymin s s'))
    | _, _, _, _ => false end
  | _, _ => false end.
Definition faces_of (m : hexa (num A64)) := prod2 (range (nel m)) (range (2 * ndim m)).
Definition contactsb tol ie (self other : hexa (num A64)) : list ((nat * nat) * (nat * nat)) :=
  filter (λ xy, free_faceb ie other xy.1 && free_faceb ie self xy.2 && touchingb tol self other xy.1 xy.2 = true)
    (prod2 (faces_of other) (faces_of self)).
Definition periodicb (m : hexa (num A64)) (x : nat * nat) : bool :=
  match get_bc m x.1 0 x.2 with Some r => String.eqb (bt r) "P" | None => false end.
Definition face_eqb (x y : nat * nat) : bool := (x.1 =? y.1)%nat && (x.2 =? y.2)%nat.
Definition contacts_okb tol ie (self other : hexa (num A64)) : bool :=
  let C := contactsb tol ie self other in
  forallb (λ p, Bool.eqb (periodicb other p.1) (periodicb self p.2) &&
    forallb (λ q, Bool.eqb (face_eqb p.1 q.1) (face_eqb p.2 q.2)) C) C.

Lemma contactsb_ok tol ie self other x y : contact (A:=A64) tol ie self other x y → (x, y) ∈ contactsb tol ie self other.
Proof.
  intros (([F1 F2] & r & Hr & E1 & E2) & ([F3 F4] & r' & Hr' & E3 & E4) & (e & e' & c & c' & s & s' & T1 & T2 & T3 & T4 & T5 & T6 & T7)).
  apply elem_of_list_filter. cbn [fst snd]. split.
  - unfold free_faceb, touchingb. rewrite Hr, Hr', T1, T2, T3, T4, T5, T6, T7.
    apply String.eqb_neq in E1, E3. rewrite E1, E3. destruct ie; [|done].
    specialize (E2 eq_refl). specialize (E4 eq_refl). apply String.eqb_neq in E2, E4. by rewrite E2, E4.
  - apply elem_of_prod2. destruct x, y. split; apply elem_of_prod2; rewrite !elem_of_range; done.
Qed.
Lemma face_eqb_eq x y : face_eqb x y = true ↔ x = y.
Proof.
  destruct x as [a b], y as [c d]. unfold face_eqb. cbn [fst snd]. rewrite andb_true_iff, !Nat.eqb_eq.
  split; [by intros [-> ->]|by intros [= -> ->]].
Qed.
Lemma periodicb_ok m x : periodicb m x = true ↔ periodic (A:=A64) m x.
Proof.
  unfold periodicb, periodic. destruct (get_bc m x.1 0 x.2) as [r|].
  - rewrite String.eqb_eq. split; [by exists r|]. intros (q & [= <-] & ?). done.
  - split; [done|by intros (? & ? & _)].
Qed.
Lemma contacts_okb_ok tol ie self other : contacts_okb tol ie self other = true →
  unique_contacts (A:=A64) tol ie self other ∧ periodic_meets_periodic (A:=A64) tol ie self other.
Proof.
  intros H. unfold contacts_okb in H.
  assert (∀ x y x' y', contact (A:=A64) tol ie self other x y → contact (A:=A64) tol ie self other x' y' →
    face_eqb x x' = face_eqb y y') as Hu.
  { intros x y x' y' H1 H2. apply contactsb_ok in H1, H2. pose proof (forallb_elem _ _ H _ H1) as H3. cbn beta in H3.
    apply andb_prop in H3 as [_ H3]. pose proof (forallb_elem _ _ H3 _ H2) as H4. by apply eqb_prop in H4. }
  split; [split|].
  - intros x y y' H1 H2. specialize (Hu _ _ _ _ H1 H2). rewrite (proj2 (face_eqb_eq x x) eq_refl) in Hu.
    by apply face_eqb_eq.
  - intros x x' y H1 H2. specialize (Hu _ _ _ _ H1 H2). rewrite (proj2 (face_eqb_eq y y) eq_refl) in Hu.
    by apply face_eqb_eq.
  - intros x y H1. apply contactsb_ok in H1. pose proof (forallb_elem _ _ H _ H1) as H3. cbn beta in H3.
    apply andb_prop in H3 as [H3 _]. apply eqb_prop in H3. cbn [fst snd] in H3.
    by rewrite <- !periodicb_ok, H3.
Qed.

Definition uniformb (m : hexa (num A64)) : bool :=
  forallb (λ '(i, b, f), match get_bc m i b f, get_bc m i 0 f with
    | Some r, Some r0 => String.eqb (bt r) (bt r0) && f64_same (bp3 r) (bp3 r0) && f64_same (bp4 r) (bp4 r0) ||
        negb (String.eqb (bt r) "E" || String.eqb (bt r) "P" || String.eqb (bt r0) "E" || String.eqb (bt r0) "P")
    | _, _ => true end) (prod3 (range (nel m)) (range (nbc m)) (range (2 * ndim m))).
Lemma uniformb_ok m : uniformb m = true → uniform (A:=A64) m.
Proof.
  intros H i b f r r0 (Hi & Hb & Hf) Hr Hr0 Hc. pose proof (forallb_elem _ _ H (i, b, f)) as H'. cbv beta iota in H'.
  rewrite Hr, Hr0 in H'.
  assert ((i, b, f) ∈ prod3 (range (nel m)) (range (nbc m)) (range (2 * ndim m))) as Hin.
  { apply elem_of_prod3. rewrite !elem_of_range. done. }
  specialize (H' Hin). apply orb_prop in H' as [H'|H'].
  - rewrite !andb_true_iff in H'. destruct H' as [[H1 H2] H3]. apply String.eqb_eq in H1. by apply f64_same_eq in H2, H3.
  - exfalso. rewrite negb_true_iff, !orb_false_iff, !String.eqb_neq in H'. destruct H' as [[[? ?] ?] ?]. destruct Hc as [[?|?]|[?|?]]; done.
Qed.
Definition not_selfb (i f : nat) (r : bcrec (num A64)) : bool := negb (String.eqb (bt r) "P") ||
  negb (f64_same (bp3 r) (f64_of_Z (Z.of_nat i + 1)) && f64_same (bp4 r) (f64_of_Z (Z.of_nat f + 1))).
Definition no_selfb (m : hexa (num A64)) : bool :=
  forallb (λ '(i, f), match get_bc m i 0 f with Some r => not_selfb i f r | None => true end)
    (prod2 (range (length (elems m))) (range 6)).
Lemma no_selfb_ok m : wf_meshb m = true → no_selfb m = true → no_self_partner (A:=A64) m.
Proof.
  intros Hw H [i f] r _ Hr Ht [P3 P4]. cbn [fst snd] in *. apply wf_meshb_ok in Hw. destruct Hw as [(_ & _ & Hl) _].
  pose proof (forallb_elem _ _ H (i, f)) as H1. cbv beta iota in H1.
  assert ((i, f) ∈ prod2 (range (length (elems m))) (range 6)) as Hin.
  { unfold get_bc in Hr. destruct (elems m !! i) as [e|] eqn:Ee; [|done]. cbn [mbind option_bind] in Hr.
    destruct (bcs e !! 0%nat) as [row|] eqn:Er; [|done]. cbn [mbind option_bind] in Hr.
    destruct (Hl e) as [_ H6]; [by apply elem_of_list_lookup_2 in Ee|]. specialize (H6 row (elem_of_list_lookup_2 _ _ _ Er)).
    apply elem_of_prod2. rewrite !elem_of_range. split; [by apply lookup_lt_Some in Ee|]. rewrite <- H6. by apply lookup_lt_Some in Hr. }
  specialize (H1 Hin). rewrite Hr in H1. unfold not_selfb in H1. rewrite Ht, P3, P4 in H1. cbn [nofZ A64] in H1.
  rewrite !f64_same_refl in H1. done.
Qed.
Lemma connected_b m : wf_meshb m = true → pairedb m = true → uniformb m = true → no_selfb m = true → connected_mesh (A:=A64) m.
Proof.
  intros H1 H2 H3 H4. split; [by apply wf_meshb_ok|]. split; [by apply pairedb_ok|]. split; [by apply uniformb_ok|by apply no_selfb_ok].
Qed.

(** Two boxes side by side, with walls, and the same with periodic ends. *)
Definition box_r : hexa (num A64) := ok_or empty64
  (gen_box (A:=A64) "little" 2 1 (zf 2) (zf 4) (zf 0) (zf 1) [2;1;0;0;0]%nat
     (Some ["W"]%string) (Some ["W"]%string) None None true).
Definition per_l : hexa (num A64) := ok_or empty64
  (gen_box (A:=A64) "little" 2 1 (zf 0) (zf 2) (zf 0) (zf 1) [2;1;0;0;0]%nat None None None None true).
Definition per_r : hexa (num A64) := ok_or empty64
  (gen_box (A:=A64) "little" 2 1 (zf 2) (zf 4) (zf 0) (zf 1) [2;1;0;0;0]%nat None None None None true).

Definition mesh_okb (m : hexa (num A64)) : bool :=
  wf_meshb m && pairedb m && uniformb m && no_selfb m && positive_b m &&
  match check_connectivity (A:=A64) tol64 m with Ok b => b | Raise _ => false end.
Lemma mesh_okb_ok m : mesh_okb m = true →
  connected_mesh (A:=A64) m ∧ valid_connectivity (A:=A64) tol64 m ∧
  (∀ e s, e ∈ elems m → smallest_edge (A:=A64) e = Ok s → nltb (a:=A64) (nofZ 0) s = true).
Proof.
  unfold mesh_okb. rewrite !andb_true_iff. intros (((((H1 & H2) & H3) & H4) & H5) & H6).
  split; [by apply connected_b|]. split; [|by apply positive_b_ok].
  apply check_connectivity_iff; [by apply wf_meshb_ok|].
  destruct (check_connectivity (A:=A64) tol64 m) as [b|]; [by rewrite H6|done].
Qed.
Definition two_okb (l r : hexa (num A64)) : bool :=
  mesh_okb l && mesh_okb r && contacts_okb tol64 false l r &&
  ((ndim l =? ndim r)%nat && (nbc l =? nbc r)%nat && (nel l + nel r <=? 1000)%nat && (0 <? nbc l)%nat &&
  match lr1 l, lr1 r with a :: _, b :: _ => (a =? b)%nat | _, _ => false end).
Lemma two_okb_ok (l r : hexa (num A64)) : two_okb l r = true →
  compatible (A:=A64) bnd64 l r ∧ (0 < nbc l)%nat ∧ connected_mesh (A:=A64) l ∧ connected_mesh (A:=A64) r ∧
  unique_contacts (A:=A64) tol64 false l r ∧ periodic_meets_periodic (A:=A64) tol64 false l r ∧
  valid_connectivity (A:=A64) tol64 l ∧ valid_connectivity (A:=A64) tol64 r ∧
  (∀ e s, e ∈ elems l ∨ e ∈ elems r → smallest_edge (A:=A64) e = Ok s → nltb (a:=A64) (nofZ 0) s = true).
Proof.
  unfold two_okb. rewrite !andb_true_iff, !Nat.eqb_eq, Nat.leb_le, Nat.ltb_lt.
  intros (((H1 & H2) & H3) & (((D1 & D2) & D3) & D4) & D5).
  destruct (mesh_okb_ok l H1) as (L1 & L2 & L3). destruct (mesh_okb_ok r H2) as (R1 & R2 & R3).
  destruct (contacts_okb_ok _ _ _ _ H3) as [U P]. split_and!; try assumption.
  - unfold compatible. destruct (lr1 l) as [|a ?]; [discriminate|]. destruct (lr1 r) as [|b ?]; [discriminate|]. apply Nat.eqb_eq in D5. subst b.
    unfold bnd64. split_and!; [exact D1|reflexivity|by exists a|exact D2|lia|lia].
  - intros e s [He|He]; [by apply L3|by apply R3].
Qed.

(** The hypotheses of C26 are met by two boxes with walls and by two periodic boxes, which give a
    longer periodic box: its two ends are partners. *)
Example C26_sample_walls : two_okb box21 box_r = true ∧
  match merge (A:=A64) tol64 false false box21 box_r with
  | (m', Ok n) => n = 1 ∧ nel m' = 4%nat ∧ bc_view m' 1 0 1 = Some ("E", Ok 3, Ok 4)%string ∧
      bc_view m' 2 0 3 = Some ("E", Ok 2, Ok 2)%string ∧ bc_view m' 3 0 1 = Some ("W", Ok 0, Ok 0)%string ∧
      check_connectivity (A:=A64) tol64 m' = Ok true
  | _ => False end.
Proof. split; [vm_compute; reflexivity|]. vm_compute. split_and!; reflexivity. Qed.
Example C26_sample_periodic : two_okb per_l per_r = true ∧
  match merge (A:=A64) tol64 false false per_l per_r with
  | (m', Ok n) => n = 1 ∧ nel m' = 4%nat ∧ bc_view m' 1 0 1 = Some ("E", Ok 3, Ok 4)%string ∧
      bc_view m' 0 0 3 = Some ("P", Ok 4, Ok 2)%string ∧ bc_view m' 3 0 1 = Some ("P", Ok 1, Ok 4)%string ∧
      check_connectivity (A:=A64) tol64 m' = Ok true
  | _ => False end.
Proof. split; [vm_compute; reflexivity|]. vm_compute. split_and!; reflexivity. Qed.

(** Without [periodic_meets_periodic] the result can be inconsistent: gluing a wall to a periodic
    face leaves the partner of the periodic face dangling. *)
Theorem C26_periodic_meets_wall_refuted :
  ∃ self other m' n, mesh_okb self = true ∧ mesh_okb other = true ∧
    compatible (A:=A64) bnd64 self other ∧ unique_contacts (A:=A64) tol64 false self other ∧
    merge (A:=A64) tol64 false false self other = (m', Ok n) ∧
    ¬ check_connectivity (A:=A64) tol64 m' = Ok true.
Proof.
  assert (match merge (A:=A64) tol64 false false per_l box_r with
    | (m', Ok n) => match check_connectivity (A:=A64) tol64 m' with Ok b => negb b | Raise _ => true end
    | _ => false end = true) as H by (vm_compute; reflexivity).
  destruct (merge (A:=A64) tol64 false false per_l box_r) as [m' [n|]] eqn:E; [|discriminate].
  exists per_l, box_r, m', n.
  assert (mesh_okb per_l = true) as H1 by (vm_compute; reflexivity).
  assert (mesh_okb box_r = true) as H2 by (vm_compute; reflexivity).
  split; [exact H1|]. split; [exact H2|]. split; [|split; [|split; [exact E|]]].
  - unfold compatible, bnd64. change (ndim per_l) with 2%nat. change (ndim box_r) with 2%nat.
    change (lr1 per_l) with [2;2;1]%nat. change (lr1 box_r) with [2;2;1]%nat.
    change (nbc per_l) with 1%nat. change (nbc box_r) with 1%nat. change (nel per_l) with 2%nat. change (nel box_r) with 2%nat.
    split_and!; try reflexivity; try lia. by exists 2%nat.
  - assert (let C := contactsb tol64 false per_l box_r in
      forallb (λ p, forallb (λ q, Bool.eqb (face_eqb p.1 q.1) (face_eqb p.2 q.2)) C) C = true) as HC by (vm_compute; reflexivity).
    cbv zeta in HC.
    assert (∀ x y x' y', contact (A:=A64) tol64 false per_l box_r x y → contact (A:=A64) tol64 false per_l box_r x' y' →
      face_eqb x x' = face_eqb y y') as Hu.
    { intros x y x' y' G1 G2. apply contactsb_ok in G1, G2. pose proof (forallb_elem _ _ HC _ G1) as H3. cbn beta in H3.
      pose proof (forallb_elem _ _ H3 _ G2) as H4. by apply eqb_prop in H4. }
    split.
    + intros x y y' G1 G2. specialize (Hu _ _ _ _ G1 G2). rewrite (proj2 (face_eqb_eq x x) eq_refl) in Hu. by apply face_eqb_eq.
    + intros x x' y G1 G2. specialize (Hu _ _ _ _ G1 G2). rewrite (proj2 (face_eqb_eq y y) eq_refl) in Hu. by apply face_eqb_eq.
  - intros Hc. rewrite Hc in H. exact (Bool.diff_false_true H).
Qed.
Print Assumptions C26_periodic_meets_wall_refuted.

Lemma paired_conn_refs {A : arith} (m : hexa (num A)) : paired m → conn_refs m.
Proof. intros Hp i b f r Hin Hr Hc. destruct (Hp i b f r Hin Hr Hc) as (j & g & _ & X1 & X2 & _). by exists j, g. Qed.
(** The last two theorems hold for these meshes too: the glued face is an internal one, its former partner is still periodic. *)
Example C25_returns_sample : ∃ m' n, merge (A:=A64) tol64 false false per_l box_r = (m', Ok n) ∧ conn_refs (A:=A64) m' ∧
  ∀ r, get_bc m' 1 0 1 = Some r → ∃ r0, get_bc per_l 1 0 1 = Some r0 ∧
    (r = r0 ∨ changed_entry (A:=A64) tol64 (some_periodic (A:=A64) per_l ∨ some_periodic (A:=A64) box_r) m' 0 (1, 1)%nat r).
Proof.
  assert (mesh_okb per_l = true) as H1 by (vm_compute; reflexivity).
  assert (mesh_okb box_r = true) as H2 by (vm_compute; reflexivity).
  destruct (mesh_okb_ok _ H1) as ((W1 & P1 & _) & _). destruct (mesh_okb_ok _ H2) as ((W2 & P2 & _) & _).
  destruct (C25_merge_returns (A:=A64) bnd64 per_l box_r tol64 false false A64_laws W1 W2) as (m' & n & E & _ & _ & C).
  - unfold compatible, bnd64. change (ndim per_l) with 2%nat. change (ndim box_r) with 2%nat.
    change (lr1 per_l) with [2;2;1]%nat. change (lr1 box_r) with [2;2;1]%nat.
    change (nbc per_l) with 1%nat. change (nbc box_r) with 1%nat. change (nel per_l) with 2%nat. change (nel box_r) with 2%nat.
    split_and!; try reflexivity; try lia. by exists 2%nat.
  - exact (paired_conn_refs _ P1).
  - exact (paired_conn_refs _ P2).
  - exists m', n. split; [exact E|]. split; [exact C|]. intros r Hr. assert (1 < nel per_l)%nat as Hl by (by apply Nat.ltb_lt; vm_compute).
    assert (length (elems per_l) = nel per_l) as Hn by (vm_compute; reflexivity).
    pose proof (C26_merge_types (A:=A64) per_l box_r m' tol64 false false n E Hn (1, 1)%nat 0%nat r Hr) as [H _]. exact (H Hl).
Qed.
Example C26_types_sample :
  match merge (A:=A64) tol64 false false per_l box_r with
  | (m', Ok n) => n = 1 ∧ bc_view m' 1 0 1 = Some ("E", Ok 3, Ok 4)%string ∧ bc_view m' 2 0 3 = Some ("E", Ok 2, Ok 2)%string ∧
      bc_view m' 3 0 1 = Some ("W", Ok 0, Ok 0)%string
  | _ => False end.
Proof. vm_compute. split_and!; reflexivity. Qed.
