(** Proofs about merge. *)
From Verif Require Import Base Mesh Core Tools MeshLemmas MeshSpec CheckProofs OpsProofs GeoLaws MergeSpec.
From Coq Require Import Lia.

Section Pair.
Context {A : arith}.
Notation N := (num A).

Lemma two_get (g1 g2 : bcrec N → bcrec N) i1 f1 i2 f2 (mm : hexa N) l i b f : NoDup l → (i1, f1) ≠ (i2, f2) →
  get_bc (foldl (λ m b, alter_bc g2 i2 b f2 (alter_bc g1 i1 b f1 m)) mm l) i b f =
  (if decide (b ∈ l) then
     if decide ((i, f) = (i1, f1)) then g1 <$> get_bc mm i b f
     else if decide ((i, f) = (i2, f2)) then g2 <$> get_bc mm i b f
     else get_bc mm i b f
   else get_bc mm i b f).
Proof.
  intros Hnd Hne. revert mm. induction l as [|x l IH]; intros mm; [by rewrite decide_False by apply not_elem_of_nil|].
  apply NoDup_cons in Hnd as [Hx Hnd]. cbn [foldl]. rewrite IH by done.
  assert (get_bc (alter_bc g2 i2 x f2 (alter_bc g1 i1 x f1 mm)) i b f =
    if decide (b = x) then
      if decide ((i, f) = (i1, f1)) then g1 <$> get_bc mm i b f
      else if decide ((i, f) = (i2, f2)) then g2 <$> get_bc mm i b f
      else get_bc mm i b f
    else get_bc mm i b f) as E.
  { rewrite !get_bc_alter. repeat case_decide; simplify_eq; done. }
  destruct (decide (b ∈ l)) as [Hb|Hb].
  - rewrite (decide_True (P:=b ∈ x :: l)) by (by right).
    assert (b ≠ x) by (intros ->; done). rewrite E. rewrite !(decide_False (P:=b = x)) by done. done.
  - destruct (decide (b = x)) as [->|Hbx].
    + rewrite (decide_True (P:=x ∈ x :: l)) by left. rewrite E. done.
    + rewrite (decide_False (P:=b ∈ x :: l)) by (intros H; apply elem_of_cons in H as [?|?]; done).
      rewrite E. done.
Qed.
Lemma two_strip (g1 g2 : bcrec N → bcrec N) i1 f1 i2 f2 (mm : hexa N) l :
  strip (foldl (λ m b, alter_bc g2 i2 b f2 (alter_bc g1 i1 b f1 m)) mm l) = strip mm ∧
  bshape (foldl (λ m b, alter_bc g2 i2 b f2 (alter_bc g1 i1 b f1 m)) mm l) = bshape mm.
Proof.
  apply (foldl_inv _ (λ m', strip m' = strip mm ∧ bshape m' = bshape mm)); [done|].
  intros m' b _ [H1 H2]. by rewrite !strip_alter, !bshape_alter.
Qed.
Lemma relink_strip nb r0 r1 (m m1 : hexa N) : relink_periodic nb r0 r1 m = Ok m1 →
  strip m1 = strip m ∧ bshape m1 = bshape m.
Proof.
  unfold relink_periodic. repeat (destruct (ntrunc _); cbn [rbind]; [|done]).
  repeat (destruct (py_pos _ _); [|done]). intros [= <-]. apply two_strip.
Qed.
Lemma merge_inner_strip tol ie nb bc0 i0 f0 (s : hexa N * Z) x :
  strip (merge_inner tol ie nb bc0 i0 f0 s x).1.1 = strip s.1 ∧
  bshape (merge_inner tol ie nb bc0 i0 f0 s x).1.1 = bshape s.1.
Proof.
  unfold merge_inner. destruct s as [m n], x as [i1 f1].
  destruct (elems m !! i0), (elems m !! i1), (get_bc m i0 0 f0), (get_bc m i1 0 f1); try done.
  destruct (eligible _ _); [|done]. destruct (faces_close _ _ _ _ _) as [[]|]; try done.
  destruct (_ && _).
  - destruct (relink_periodic _ _ _ _) as [m1|] eqn:E; [|done]. cbn [fst]. unfold glue.
    destruct (relink_strip _ _ _ _ _ E) as [H1 H2].
    match goal with |- context [foldl ?f ?a ?l] => destruct (two_strip (link "E" (Z.of_nat i1 + 1) (Z.of_nat f1 + 1))
      (link "E" (Z.of_nat i0 + 1) (Z.of_nat f0 + 1)) i0 f0 i1 f1 a l) as [H3 H4] end.
    rewrite H3, H4. done.
  - cbn [fst]. unfold glue. apply two_strip.
Qed.
Lemma merge_outer_strip tol ie nb nel1 nf (s : hexa N * Z) x :
  strip (merge_outer tol ie nb nel1 nf s x).1.1 = strip s.1 ∧
  bshape (merge_outer tol ie nb nel1 nf s x).1.1 = bshape s.1.
Proof.
  unfold merge_outer. destruct x as [i0 f0]. destruct (get_bc s.1 i0 0 f0) as [r0|]; [|done].
  destruct (eligible _ _); [|done].
  apply (loopS_inv _ (λ s', strip s'.1 = strip s.1 ∧ bshape s'.1 = bshape s.1)); [done|].
  intros s' x _ [H1 H2]. destruct (merge_inner_strip tol ie nb (bt r0) i0 f0 s' x) as [H3 H4].
  by rewrite H3, H4.
Qed.

(** The gluing loops change boundary conditions only, whatever happens. *)
Lemma merge_strip tol ie ia self other m0 : merge_append self other = Ok m0 →
  ndim self = ndim other → head (lr1 self) = head (lr1 other) → is_Some (head (lr1 self)) →
  strip (merge tol ie ia self other : hexa N * res Z).1 = strip m0 ∧
  bshape (merge tol ie ia self other).1 = bshape m0.
Proof.
  intros E Hd Hl [l0 Hl0]. unfold merge. rewrite (proj2 (Nat.eqb_eq _ _) Hd). cbn [negb].
  destruct (lr1 self) as [|a ?]; [done|]. destruct (lr1 other) as [|a' ?]; [done|].
  cbn in Hl. injection Hl as <-. rewrite Nat.eqb_refl. cbn [negb]. rewrite E.
  destruct (_ || _); [done|].
  pose proof (loopS_inv (merge_outer tol ie (Nat.min (nbc self) (nbc other)) (nel self) (2 * ndim m0))
    (λ s', strip s'.1 = strip m0 ∧ bshape s'.1 = bshape m0) (m0, 0)
    (prod2 (range2 (nel self) (nel m0)) (range (2 * ndim m0)))) as H.
  destruct (loopS _ _ _) as [[m' n] [u|ex]]; cbn [fst] in *; apply H; try done;
    intros s' x _ [H1 H2]; destruct (merge_outer_strip tol ie (Nat.min (nbc self) (nbc other)) (nel self) (2 * ndim m0) s' x) as [H3 H4];
    rewrite H3, H4; done.
Qed.
End Pair.

(** The appended mesh. *)
Section Append.
Context {A : arith}.
Notation N := (num A).
Implicit Types (r : bcrec N) (x y z w : nat * nat).

Definition appended (self add : hexa N) (em : list Z) (nc : Z) (n : nat) : hexa N :=
  set_elems (elems self ++ elems add) (set_elmap em (set_ncurv nc (set_nel n self))).

Lemma get_app_l (self add : hexa N) em nc n i b f : (i < length (elems self))%nat →
  get_bc (appended self add em nc n) i b f = get_bc self i b f.
Proof. intros Hi. unfold get_bc, appended. cbn. by rewrite lookup_app_l by done. Qed.
Lemma get_app_r (self add : hexa N) em nc n i b f :
  get_bc (appended self add em nc n) (length (elems self) + i) b f = get_bc add i b f.
Proof.
  unfold get_bc, appended. cbn. rewrite lookup_app_r by lia. by rewrite Nat.add_comm, Nat.add_sub.
Qed.

Lemma merge_append_spec bnd (self other : hexa N) : arith_laws A bnd → wf_bcs other →
  refs_within bnd (Z.of_nat (nel self)) 0 other →
  ∃ add, merge_append self other = Ok (appended self add
      (elmap self ++ ((λ k, k + Z.of_nat (nel self)) <$> elmap other)) (ncurv self + ncurv other)
      (nel self + nel other)) ∧
    strip add = strip other ∧ bshape add = bshape other ∧
    ∀ i b f r, get_bc other i b f = Some r → ∃ r', get_bc add i b f = Some r' ∧
      offset_entry bnd (Z.of_nat (nel self)) 0 other i b f r r'.
Proof.
  intros LA Hw Hr. destruct (offset_connectivity_spec bnd _ _ _ LA Hw Hr) as (add & E & S & B & H).
  exists add. unfold merge_append. rewrite E. done.
Qed.

Lemma same_elem_of_strip (m m' : hexa N) : strip m' = strip m → Forall2 same_elem (elems m) (elems m').
Proof.
  intros H. assert (elems (strip m') = elems (strip m)) as He by (by rewrite H).
  unfold strip in He. cbn in He. clear H. revert He. generalize (elems m'). induction (elems m) as [|e l IH]; intros l' He.
  - destruct l'; [constructor|done].
  - destruct l' as [|e' l']; [done|]. cbn in He. injection He as E1 E2 E3 E4 E5 E6 E7 E8 He.
    constructor; [|by apply IH]. unfold same_elem, set_bcs. congruence.
Qed.

Lemma is_append_of (self other add m0 m' : hexa N) em : strip add = strip other → 
  em = elmap self ++ ((λ k, k + Z.of_nat (nel self)) <$> elmap other) →
  m0 = appended self add em (ncurv self + ncurv other) (nel self + nel other) →
  strip m' = strip m0 → is_append self other m'.
Proof.
  intros S -> Em Hs. pose proof (strip_fields _ _ Hs) as (F1 & F2 & F3 & F4 & F5 & F6 & F7 & F8 & F9).
  unfold is_append. rewrite F2, F3, F8, Em. cbn. split_and!; try done.
  - unfold strip in Hs. unfold set_elems, set_elmap, set_ncurv, set_nel in *. cbn in *. subst m0. cbn in *.
    injection Hs as. congruence.
  - pose proof (same_elem_of_strip _ _ Hs) as HF. rewrite Em in HF. cbn in HF.
    apply Forall2_app_inv_l in HF as (l1 & l2 & H1 & H2 & ->). exists l1, l2. split; [done|]. split; [done|].
    apply same_elem_of_strip in S. eapply Forall2_transitive; [|exact S|exact H2].
    intros a b c. unfold same_elem. congruence.
Qed.
End Append.

(** The gluing loops. *)
Section Glue.
Context {A : arith}.
Notation N := (num A).
Implicit Types (r : bcrec N) (x y z w : nat * nat) (M : hexa N).
Context (m0 : hexa N) (n1 : nat) (tol : N) (ie : bool) (bnd : Z).
Hypothesis LA : arith_laws A bnd.
Hypothesis Hw : wf_mesh m0.
Hypothesis Hn1 : (n1 ≤ nel m0)%nat.
Hypothesis Hbn : Z.of_nat (nel m0) <= bnd.
Hypothesis H6 : 6 <= bnd.
Hypothesis Hnb : (0 < nbc m0)%nat.

Definition inm z : Prop := (z.1 < nel m0 ∧ z.2 < 2 * ndim m0)%nat.
Definition type0 z (t : string) : Prop := ∃ r, get_bc m0 z.1 0 z.2 = Some r ∧ bt r = t.
Definition free0 z : Prop := ∃ r, get_bc m0 z.1 0 z.2 = Some r ∧ eligible ie (bt r) = true.
Definition close0 x y : Prop := ∃ e0 e1 : elem N, elems m0 !! x.1 = Some e0 ∧ elems m0 !! y.1 = Some e1 ∧
  faces_close tol e0 x.2 e1 y.2 = Ok true.
Definition con x y : Prop := inm x ∧ inm y ∧ (n1 ≤ x.1)%nat ∧ (y.1 < n1)%nat ∧ free0 x ∧ free0 y ∧ close0 x y.

Hypothesis Hper : ∀ z, inm z → type0 z "P" → ∃ w, inm w ∧ type0 w "P" ∧ w ≠ z ∧
  ∀ b, (b < nbc m0)%nat → linked m0 b z "P" w ∧ linked m0 b w "P" z.
Hypothesis Hu1 : ∀ x y y', con x y → con x y' → y = y'.
Hypothesis Hu2 : ∀ x x' y, con x y → con x' y → x = x'.
Hypothesis HPP : ∀ x y, con x y → type0 x "P" ↔ type0 y "P".

Definition glued (D : list ((nat * nat) * (nat * nat))) z : Prop := ∃ w, (z, w) ∈ D ∨ (w, z) ∈ D.

Definition in_D (D : list ((nat * nat) * (nat * nat))) z w : Prop := (z, w) ∈ D ∨ (w, z) ∈ D.
Definition leads0 D := leads (λ z w, inm z ∧ inm w ∧ linked m0 0 z "P" w) (in_D D).
Lemma leads0_more p D z w : leads0 D z w → leads0 (p :: D) z w.
Proof.
  induction 1 as [z w H|z u v w H1 H2 _ IH]; [by apply leads_partner|]. eapply leads_on; [done| |done].
  destruct H2; [left|right]; by right.
Qed.
Lemma leads0_trans D z u v w : leads0 D z u → in_D D u v → leads0 D v w → leads0 D z w.
Proof. intros H Hg Hv. induction H as [z u H|z u' v' u H1 H2 _ IH]; [by eapply leads_on|]. eapply leads_on; [done|done|by apply IH]. Qed.
Record minv D M : Prop := {
  mi_strip : strip M = strip m0;
  mi_shape : bshape M = bshape m0;
  mi_con : ∀ x y, (x, y) ∈ D → con x y;
  mi_glued : ∀ x y b, (x, y) ∈ D → (b < nbc m0)%nat → linked M b x "E" y ∧ linked M b y "E" x;
  mi_other : ∀ z b, ¬ glued D z → (inm z → ¬ type0 z "P") → get_bc M z.1 b z.2 = get_bc m0 z.1 b z.2;
  mi_per : ∀ z, ¬ glued D z → inm z → type0 z "P" → ∃ w, inm w ∧ ¬ glued D w ∧ type0 w "P" ∧ w ≠ z ∧
    ∀ b, (b < nbc m0)%nat → linked M b z "P" w ∧ linked M b w "P" z;
  mi_leads : ∀ z w, ¬ glued D z → inm z → type0 z "P" → inm w → linked M 0 z "P" w → leads0 D z w
}.

Lemma inm6 z : inm z → (z.2 < 6)%nat.
Proof. unfold inm. destruct (proj1 (proj1 Hw)); lia. Qed.
Lemma points_inj r x y : inm x → inm y → points r x.1 x.2 → points r y.1 y.2 → x = y.
Proof.
  intros Hx Hy [P1 P2] [Q1 Q2]. pose proof (inm6 x Hx). pose proof (inm6 y Hy). unfold inm in *.
  rewrite P1 in Q1. rewrite P2 in Q2. apply (nofZ_inj bnd LA) in Q1; [|lia..]. apply (nofZ_inj bnd LA) in Q2; [|lia..].
  destruct x, y. cbn in *. f_equal; lia.
Qed.
Lemma linked_inj M b z t t' w w' : inm w → inm w' → linked M b z t w → linked M b z t' w' → w = w' ∧ t = t'.
Proof.
  intros Hw1 Hw2 (r & Hr & Ht & P) (r' & Hr' & Ht' & P'). rewrite Hr in Hr'. apply (inj Some) in Hr'. subst r' t t'.
  split; [|done]. by eapply points_inj.
Qed.
Lemma linked_get M b z t w M' : get_bc M' z.1 b z.2 = get_bc M z.1 b z.2 → linked M b z t w → linked M' b z t w.
Proof. intros E (r & Hr & H). exists r. by rewrite E. Qed.
Lemma M_get D M z b : minv D M → inm z → (b < nbc m0)%nat → is_Some (get_bc M z.1 b z.2).
Proof.
  intros I Hz Hb. pose proof (inm6 z Hz) as H. destruct Hz as [Hz1 Hz2].
  assert (wf_mesh M) as [Hw' _]. { apply (wf_mesh_shape m0); [done|apply (mi_strip _ _ I)|apply (mi_shape _ _ I)]. }
  pose proof (strip_fields _ _ (mi_strip _ _ I)) as (_ & F2 & _ & F4 & _).
  apply wf_get_bc; [done|lia|lia|lia].
Qed.
Lemma con_ne x y : con x y → x ≠ y.
Proof. intros (_ & _ & H1 & H2 & _) ->. lia. Qed.

Lemma elig_iff D M z r : minv D M → inm z → get_bc M z.1 0 z.2 = Some r →
  eligible ie (bt r) = true ↔ free0 z ∧ ¬ glued D z.
Proof.
  intros I Hz Hr. split.
  - intros He. assert (¬ glued D z) as Hg.
    { intros [w [Hin|Hin]].
      - destruct (mi_glued _ _ I _ _ _ Hin Hnb) as [(r' & Hr' & Ht & _) _]. rewrite Hr in Hr'. apply (inj Some) in Hr'. subst r'.
        rewrite Ht in He. done.
      - destruct (mi_glued _ _ I _ _ _ Hin Hnb) as [_ (r' & Hr' & Ht & _)]. rewrite Hr in Hr'. apply (inj Some) in Hr'. subst r'.
        rewrite Ht in He. done. }
    split; [|done]. destruct (wf_get_bc m0 z.1 0 z.2) as [q Hq]; [apply Hw|apply Hz|done|by apply inm6|].
    exists q. split; [done|]. destruct (decide (bt q = "P"%string)) as [->|Hn].
    { unfold eligible. by destruct ie. }
    rewrite (mi_other _ _ I) in Hr; [|done|].
    { rewrite Hq in Hr. by injection Hr as ->. }
    intros _ (q' & Hq' & Ht). rewrite Hq in Hq'. apply (inj Some) in Hq'. by subst q'.
  - intros [(q & Hq & He) Hg]. destruct (decide (bt q = "P"%string)) as [Ep|Hn].
    + destruct (mi_per _ _ I z Hg Hz) as (w & _ & _ & _ & _ & Hl); [by exists q|].
      destruct (Hl 0%nat Hnb) as [(r' & Hr' & Ht & _) _]. rewrite Hr in Hr'. apply (inj Some) in Hr'. subst r'.
      rewrite Ht. unfold eligible. by destruct ie.
    + rewrite (mi_other _ _ I) in Hr; [|done|].
      { rewrite Hq in Hr. by injection Hr as <-. }
      intros _ (q' & Hq' & Ht). rewrite Hq in Hq'. apply (inj Some) in Hq'. by subst q'.
Qed.
Lemma typeP_iff D M z r : minv D M → inm z → get_bc M z.1 0 z.2 = Some r → ¬ glued D z →
  bt r = "P"%string ↔ type0 z "P".
Proof.
  intros I Hz Hr Hg. split.
  - intros Ht. destruct (wf_get_bc m0 z.1 0 z.2) as [q Hq]; [apply Hw|apply Hz|done|by apply inm6|].
    destruct (decide (bt q = "P"%string)) as [Ep|Hn]; [by exists q|].
    rewrite (mi_other _ _ I) in Hr; [by exists r|done|].
    intros _ (q' & Hq' & Ht'). rewrite Hq in Hq'. apply (inj Some) in Hq'. by subst q'.
  - intros Ht. destruct (mi_per _ _ I z Hg Hz Ht) as (w & _ & _ & _ & _ & Hl).
    destruct (Hl 0%nat Hnb) as [(r' & Hr' & Ht' & _) _]. rewrite Hr in Hr'. apply (inj Some) in Hr'. by subst r'.
Qed.

Lemma py_pos_nat n (i : nat) : (i < n)%nat → py_pos n (Z.of_nat i + 1 - 1) = Some i.
Proof.
  intros Hi. unfold py_pos. replace (Z.of_nat i + 1 - 1) with (Z.of_nat i) by lia.
  rewrite (proj2 (Z.leb_le 0 _)), (proj2 (Z.ltb_lt _ _)) by lia. cbn. by rewrite Nat2Z.id.
Qed.

Lemma not_glued_cons D x y z : ¬ glued ((x, y) :: D) z ↔ z ≠ x ∧ z ≠ y ∧ ¬ glued D z.
Proof.
  unfold glued. split.
  - intros H. split_and!.
    + intros ->. apply H. exists y. left. left.
    + intros ->. apply H. exists x. right. left.
    + intros [w [?|?]]; apply H; exists w; [left|right]; by right.
  - intros (H1 & H2 & H3) [w [H|H]]; apply elem_of_cons in H as [[= ? ?]|H]; try done; apply H3; exists w; auto.
Qed.

Lemma glue_get M x y z b : x ≠ y → (b < nbc m0)%nat →
  get_bc (glue (nbc m0) x.1 x.2 y.1 y.2 M) z.1 b z.2 =
  if decide (z = x) then link "E" (Z.of_nat y.1 + 1) (Z.of_nat y.2 + 1) <$> get_bc M z.1 b z.2
  else if decide (z = y) then link "E" (Z.of_nat x.1 + 1) (Z.of_nat x.2 + 1) <$> get_bc M z.1 b z.2
  else get_bc M z.1 b z.2.
Proof.
  intros Hne Hb. unfold glue. rewrite two_get; [|apply NoDup_range|by destruct x, y].
  rewrite decide_True by (by apply elem_of_range). destruct x as [x1 x2], y as [y1 y2], z as [z1 z2]. cbn [fst snd].
  repeat case_decide; done.
Qed.
Lemma glue_get_ge M x y z b : x ≠ y → (nbc m0 ≤ b)%nat →
  get_bc (glue (nbc m0) x.1 x.2 y.1 y.2 M) z.1 b z.2 = get_bc M z.1 b z.2.
Proof.
  intros Hne Hb. unfold glue. rewrite two_get; [|apply NoDup_range|by destruct x, y].
  rewrite decide_False; [done|]. rewrite elem_of_range. lia.
Qed.

Lemma link_linked M (g : option (bcrec N) → option (bcrec N)) z b t w M' : is_Some (get_bc M z.1 b z.2) →
  get_bc M' z.1 b z.2 = link t (Z.of_nat w.1 + 1) (Z.of_nat w.2 + 1) <$> get_bc M z.1 b z.2 → linked M' b z t w.
Proof.
  intros [r Hr] E. rewrite Hr in E. cbn in E. eexists. split; [exact E|]. done.
Qed.

(** After relinking the periodic partners (or not) and gluing. *)
Lemma glue_inv D M x y r0 r1 bc0 : minv D M → con x y → ¬ glued D x → ¬ glued D y →
  get_bc M x.1 0 x.2 = Some r0 → get_bc M y.1 0 y.2 = Some r1 → (bc0 = "P"%string ↔ type0 x "P") →
  ∃ m1, (if String.eqb bc0 "P" && String.eqb (bt r1) "P" then relink_periodic (nbc m0) r0 r1 M else Ok M) = Ok m1 ∧
    minv ((x, y) :: D) (glue (nbc m0) x.1 x.2 y.1 y.2 m1).
Proof.
  intros I Hc Gx Gy Hr0 Hr1 Hbc. pose proof (con_ne x y Hc) as Hne. pose proof Hc as (Ix & Iy & _).
  pose proof (typeP_iff D M y r1 I Iy Hr1 Gy) as HPy. pose proof (HPP x y Hc) as Hxy.
  assert (∀ m1, strip m1 = strip M → bshape m1 = bshape M →
    (∀ z b, z ≠ x → z ≠ y → ¬ type0 z "P" ∨ ¬ inm z → get_bc m1 z.1 b z.2 = get_bc M z.1 b z.2) →
    (∀ z, glued D z → ∀ b, get_bc m1 z.1 b z.2 = get_bc M z.1 b z.2) →
    (∀ z, z ≠ x → z ≠ y → ¬ glued D z → inm z → type0 z "P" → ∃ w, inm w ∧ w ≠ x ∧ w ≠ y ∧ ¬ glued D w ∧ type0 w "P" ∧ w ≠ z ∧ leads0 ((x, y) :: D) z w ∧
       ∀ b, (b < nbc m0)%nat → linked m1 b z "P" w ∧ linked m1 b w "P" z) →
    minv ((x, y) :: D) (glue (nbc m0) x.1 x.2 y.1 y.2 m1)) as Hgen.
  { intros m1 S1 B1 Hoth Hgl Hp.
    match goal with |- minv _ ?g => assert (strip g = strip m1 ∧ bshape g = bshape m1) as [S2 B2] by (apply two_strip) end.
    split.
    - rewrite S2, S1. apply (mi_strip _ _ I).
    - rewrite B2, B1. apply (mi_shape _ _ I).
    - intros x' y' Hin. apply elem_of_cons in Hin as [[= -> ->]|Hin]; [done|by apply (mi_con _ _ I)].
    - intros x' y' b Hin Hb.
      assert (∀ z, inm z → is_Some (get_bc m1 z.1 b z.2)) as Hsome.
      { intros z Hz. apply get_bc_dom. unfold bc_dom. rewrite B1. apply get_bc_dom. by apply (M_get D). }
      apply elem_of_cons in Hin as [[= -> ->]|Hin].
      + split.
        * apply (link_linked m1 id); [by apply Hsome|]. rewrite glue_get by done. by rewrite decide_True.
        * apply (link_linked m1 id); [by apply Hsome|]. rewrite glue_get by done. rewrite decide_False by done. by rewrite decide_True.
      + assert (glued D x') as G1 by (exists y'; auto). assert (glued D y') as G2 by (exists x'; auto).
        destruct (mi_glued _ _ I _ _ _ Hin Hb) as [L1 L2].
        split; (eapply linked_get; [|eassumption]); (rewrite glue_get by done);
          (rewrite decide_False by (intros ->; done)); (rewrite decide_False by (intros ->; done)); by apply Hgl.
    - intros z b Hg Hz. apply not_glued_cons in Hg as (Z1 & Z2 & Z3).
      assert (¬ type0 z "P" ∨ ¬ inm z) as Hz'.
      { destruct (decide (z.1 < nel m0 ∧ z.2 < 2 * ndim m0)%nat); [left; by apply Hz|by right]. }
      destruct (decide (b < nbc m0)%nat).
      + rewrite glue_get by done. rewrite decide_False by done. rewrite decide_False by done.
        rewrite Hoth by done. by apply (mi_other _ _ I).
      + rewrite glue_get_ge by (done || lia). rewrite Hoth by done. by apply (mi_other _ _ I).
    - intros z Hg Iz Tz. apply not_glued_cons in Hg as (Z1 & Z2 & Z3).
      destruct (Hp z Z1 Z2 Z3 Iz Tz) as (w & Iw & W1 & W2 & W3 & Tw & Wz & _ & Hl). exists w.
      split; [done|]. split; [by apply not_glued_cons|]. split; [done|]. split; [done|].
      intros b Hb. destruct (Hl b Hb) as [L1 L2].
      split; (eapply linked_get; [|eassumption]); (rewrite glue_get by done);
          (rewrite decide_False by done); (rewrite decide_False by done); done.
    - intros z w' Hg Iz Tz Iw' Hlw. apply not_glued_cons in Hg as (Z1 & Z2 & Z3).
      destruct (Hp z Z1 Z2 Z3 Iz Tz) as (w & Iw & W1 & W2 & W3 & Tw & Wz & Hld & Hl). destruct (Hl 0%nat Hnb) as [L1 _].
      match type of Hlw with linked ?g _ _ _ _ => assert (linked g 0 z "P" w) as Hlw2 end.
      { eapply linked_get; [|exact L1]. rewrite glue_get by done. rewrite decide_False by done. by rewrite decide_False. }
      destruct (linked_inj _ 0 z _ _ _ _ Iw' Iw Hlw Hlw2) as [-> _]. done. }
  destruct (String.eqb_spec bc0 "P") as [Ep|Ep]; cbn [andb].
  - assert (type0 x "P") as Tx by tauto. assert (type0 y "P") as Ty by tauto.
    assert (bt r1 = "P"%string) as Er1 by tauto. rewrite Er1. cbn [String.eqb Ascii.eqb Bool.eqb].
    destruct (mi_per _ _ I x Gx Ix Tx) as (w0 & Iw0 & Gw0 & Tw0 & Nw0 & L0).
    destruct (mi_per _ _ I y Gy Iy Ty) as (w1 & Iw1 & Gw1 & Tw1 & Nw1 & L1).
    assert (w0 ≠ w1) as Hww.
    { intros ->. destruct (L0 0%nat Hnb) as [_ A1]. destruct (L1 0%nat Hnb) as [_ A2].
      destruct (linked_inj M 0 w1 _ _ _ _ Ix Iy A1 A2). done. }
    unfold relink_periodic.
    destruct (L0 0%nat Hnb) as [(q0 & Hq0 & _ & P0a & P0b) _]. rewrite Hr0 in Hq0. apply (inj Some) in Hq0. subst q0.
    destruct (L1 0%nat Hnb) as [(q1 & Hq1 & _ & P1a & P1b) _]. rewrite Hr1 in Hq1. apply (inj Some) in Hq1. subst q1.
    rewrite P0a, P0b, P1a, P1b.
    pose proof (inm6 _ Iw0) as Fw0. pose proof (inm6 _ Iw1) as Fw1. pose proof Iw0 as [Iw0a _]. pose proof Iw1 as [Iw1a _].
    rewrite !(law_trunc A bnd LA) by lia. cbn [rbind].
    pose proof (strip_fields _ _ (mi_strip _ _ I)) as (_ & _ & _ & _ & _ & _ & _ & _ & Flen).
    destruct Hw as [(_ & Hlen & _) _].
    rewrite !py_pos_nat by lia. eexists. split; [reflexivity|].
    set (m1 := foldl _ _ _).
    assert (∀ z b, get_bc m1 z.1 b z.2 =
      if decide (b < nbc m0)%nat then
        if decide (z = w0) then link "P" (Z.of_nat w1.1 + 1) (Z.of_nat w1.2 + 1) <$> get_bc M z.1 b z.2
        else if decide (z = w1) then link "P" (Z.of_nat w0.1 + 1) (Z.of_nat w0.2 + 1) <$> get_bc M z.1 b z.2
        else get_bc M z.1 b z.2
      else get_bc M z.1 b z.2) as Hm1.
    { intros z b. unfold m1. rewrite two_get; [|apply NoDup_range|by destruct w0, w1].
      destruct w0 as [a1 a2], w1 as [b1 b2], z as [z1 z2]. cbn [fst snd].
      destruct (decide (b < nbc m0)%nat); [rewrite decide_True by (by apply elem_of_range)|
        rewrite decide_False by (rewrite elem_of_range; lia)]; done. }
    assert (strip m1 = strip M ∧ bshape m1 = bshape M) as [S1 B1] by (apply two_strip).
    assert (∀ z b, z ≠ w0 → z ≠ w1 → get_bc m1 z.1 b z.2 = get_bc M z.1 b z.2) as Hm1o.
    { intros z b A1 A2. rewrite Hm1. case_decide; [|done]. by rewrite decide_False, decide_False. }
    clearbody m1. apply Hgen; [done|done|..].
    + intros z b _ _ Hz. apply Hm1o; intros ->; tauto.
    + intros z Hz b. apply Hm1o; intros ->; tauto.
    + intros z Zx Zy Zg Iz Tz. destruct (mi_per _ _ I z Zg Iz Tz) as (w & Iw & Gw & Tw & Nw & L).
      assert (∀ u v, inm u → inm v → (∀ b, (b < nbc m0)%nat → linked M b u "P" v) → ∀ v', inm v' →
        (∀ b, (b < nbc m0)%nat → linked M b u "P" v') → v = v') as Hfun.
      { intros u v Iu Iv Lv v' Iv' Lv'. by destruct (linked_inj M 0 u _ _ _ _ Iv Iv' (Lv _ Hnb) (Lv' _ Hnb)). }
      assert (∀ u, inm u → ∀ b, (b < nbc m0)%nat → is_Some (get_bc M u.1 b u.2)) as HS.
      { intros u Iu b Hb. by apply (M_get D). }
      destruct (decide (w = x)) as [->|Wx]; [|destruct (decide (w = y)) as [->|Wy]].
      * assert (z = w0) as ->.
        { apply (Hfun x); try done; intros b Hb; [by apply L|by apply L0]. }
        assert (w1 ≠ x). { intros ->. apply Zy. apply (Hfun x); try done; intros b Hb; [by apply L0|by apply L1]. }
        exists w1. split_and!; try done.
        { apply (leads0_trans _ w0 x y w1); [apply leads0_more, (mi_leads _ _ I); try done; by apply L0|left; left|apply leads0_more, (mi_leads _ _ I); try done; by apply L1]. }
        intros b Hb. split.
        -- apply (link_linked M id); [by apply HS|]. rewrite Hm1, decide_True by done. by rewrite decide_True.
        -- apply (link_linked M id); [by apply HS|]. rewrite Hm1, decide_True by done. rewrite decide_False by done. by rewrite decide_True.
      * assert (z = w1) as ->.
        { apply (Hfun y); try done; intros b Hb; [by apply L|by apply L1]. }
        assert (w0 ≠ y). { intros ->. apply Zx. apply (Hfun y); try done; intros b Hb; [by apply L1|by apply L0]. }
        exists w0. split_and!; try done.
        { apply (leads0_trans _ w1 y x w0); [apply leads0_more, (mi_leads _ _ I); try done; by apply L1|right; left|apply leads0_more, (mi_leads _ _ I); try done; by apply L0]. }
        intros b Hb. split.
        -- apply (link_linked M id); [by apply HS|]. rewrite Hm1, decide_True by done. rewrite decide_False by done. by rewrite decide_True.
        -- apply (link_linked M id); [by apply HS|]. rewrite Hm1, decide_True by done. by rewrite decide_True.
      * exists w. split_and!; try done. { apply leads0_more, (mi_leads _ _ I); try done. by apply L. } intros b Hb.
        assert (∀ u v, (∀ b, (b < nbc m0)%nat → linked M b u "P" v ∧ linked M b v "P" u) → inm u → inm v → v ≠ x → v ≠ y →
          u ≠ w0 ∧ u ≠ w1) as Hno.
        { intros u v Huv Iu Iv Vx Vy. split; intros ->.
          - apply Vx. apply (Hfun w0); try done; intros b' Hb'; [by apply Huv|by apply L0].
          - apply Vy. apply (Hfun w1); try done; intros b' Hb'; [by apply Huv|by apply L1]. }
        destruct (Hno z w) as [A1 A2]; try done.
        destruct (Hno w z) as [A3 A4]; try done. { intros b' Hb'. destruct (L b' Hb'). done. }
        destruct (L b Hb) as [La Lb]. split; (eapply linked_get; [|eassumption]); by apply Hm1o.
  - exists M. split; [done|]. assert (¬ type0 x "P") as Tx by tauto. assert (¬ type0 y "P") as Ty by tauto.
    apply Hgen; try done.
    intros z Zx Zy Zg Iz Tz. destruct (mi_per _ _ I z Zg Iz Tz) as (w & Iw & Gw & Tw & Nw & L).
    exists w. split_and!; try done; [intros ->; done|intros ->; done|]. apply leads0_more, (mi_leads _ _ I); try done. by apply L.
Qed.

Lemma faces_close_strip (e0 e0' e1 e1' : elem N) f0 f1 : strip_elem e0' = strip_elem e0 → strip_elem e1' = strip_elem e1 →
  faces_close tol e0' f0 e1' f1 = faces_close tol e0 f0 e1 f1.
Proof.
  intros H0 H1. unfold faces_close.
  rewrite (face_center_strip e0 e0' _ H0), (face_center_strip e1 e1' _ H1).
  rewrite (smallest_edge_strip e0 e0' H0), (smallest_edge_strip e1 e1' H1). done.
Qed.
Lemma faces_close_Ok (e0 e1 : elem N) f0 f1 : e0 ∈ elems m0 → e1 ∈ elems m0 → (f0 < 6)%nat → (f1 < 6)%nat →
  ∃ b, faces_close tol e0 f0 e1 f1 = Ok b.
Proof.
  intros E0 E1 F0 F1. destruct Hw as [_ Hg]. unfold faces_close.
  destruct (face_center_Ok e0 (Z.of_nat f0)) as [c0 ->]; [by apply Hg|lia|].
  destruct (face_center_Ok e1 (Z.of_nat f1)) as [c1 ->]; [by apply Hg|lia|]. cbn [rbind].
  destruct (smallest_edge_Ok e0) as [s0 ->]; [by apply Hg|].
  destruct (smallest_edge_Ok e1) as [s1 ->]; [by apply Hg|]. cbn [rbind]. eauto.
Qed.

(** The contacts found so far: those of the faces in [dn], and those of [x] with a face in [dnx]. *)
Definition found (dn : list (nat * nat)) x (dnx : list (nat * nat)) D : Prop :=
  NoDup D ∧ ∀ a b, (a, b) ∈ D ↔ con a b ∧ (a ∈ dn ∨ (a = x ∧ b ∈ dnx)).
Definition minv' dn x dnx (s : hexa N * Z) : Prop :=
  ∃ D, minv D s.1 ∧ found dn x dnx D ∧ s.2 = Z.of_nat (length D).

Lemma inner_loop dn x bc0 s : inm x → (n1 ≤ x.1)%nat → x ∉ dn → free0 x → (bc0 = "P"%string ↔ type0 x "P") →
  minv' dn x [] s →
  ∃ s', loopS (merge_inner tol ie (nbc m0) bc0 x.1 x.2) s (prod2 (range n1) (range (2 * ndim m0))) = (s', Ok tt) ∧
    minv' (dn ++ [x]) x [] s'.
Proof.
  intros Ix Nx Hx Fx Hbc HI.
  destruct (loopS_ok (merge_inner tol ie (nbc m0) bc0 x.1 x.2) (minv' dn x) s
    (prod2 (range n1) (range (2 * ndim m0)))) as (s' & E & D & I & [Nd HD] & Hn).
  - done.
  - intros dnx y rest [M n] El (D & I & [Nd HD] & Hn).
    assert (y ∈ prod2 (range n1) (range (2 * ndim m0))) as Hy.
    { rewrite El. apply elem_of_app. right. left. }
    assert (y ∉ dnx) as Hyd.
    { assert (NoDup (prod2 (range n1) (range (2 * ndim m0)))) as Hnd by (apply NoDup_prod2; apply NoDup_range).
      rewrite El in Hnd. apply NoDup_app in Hnd as (_ & Hnd & _). intros Hin. apply (Hnd y Hin). left. }
    destruct y as [y1 y2] eqn:Ey. rewrite <- Ey in *. assert (y.1 < n1 ∧ y.2 < 2 * ndim m0)%nat as [Y1 Y2].
    { rewrite Ey in *. apply elem_of_prod2 in Hy. rewrite !elem_of_range in Hy. cbn. lia. }
    assert (inm y) as Iy by (unfold inm; lia).
    assert (∀ D' : list ((nat * nat) * (nat * nat)), (∀ a b, (a, b) ∈ D' ↔ (a, b) ∈ D ∨ (a, b) = (x, y) ∧ con x y) →
       ∀ a b, (a, b) ∈ D' ↔ con a b ∧ (a ∈ dn ∨ (a = x ∧ b ∈ dnx ++ [y]))) as Hchar.
    { intros D' HD' a b. rewrite HD', HD, elem_of_app, elem_of_list_singleton. split.
      - intros [(? & [?|[? ?]])|[[= -> ->] ?]]; tauto.
      - intros (? & [?|[-> [?|Eb]]]); [tauto|tauto|subst b; tauto]. }
    assert (¬ con x y → minv' dn x (dnx ++ [y]) (M, n)) as Hno.
    { intros Hc. exists D. split; [done|]. split; [|done]. split; [done|]. apply Hchar. intros a b. tauto. }
    cbn [fst snd] in *.
    pose proof (mi_strip _ _ I) as S.
    destruct (M_get D M x 0 I Ix Hnb) as [r0 Hr0]. destruct (M_get D M y 0 I Iy Hnb) as [r1 Hr1].
    pose proof Hw as [(_ & Hlen & _) _].
    pose proof (strip_fields _ _ S) as (_ & _ & _ & _ & _ & _ & _ & _ & Flen).
    destruct (lookup_lt_is_Some_2 (elems M) x.1) as [e0 He0]; [destruct Ix; lia|].
    destruct (lookup_lt_is_Some_2 (elems M) y.1) as [e1 He1]; [destruct Iy; lia|].
    destruct (strip_elem_lookup _ _ _ _ S He0) as (d0 & Hd0 & Sd0).
    destruct (strip_elem_lookup _ _ _ _ S He1) as (d1 & Hd1 & Sd1).
    unfold merge_inner. replace y with (y.1, y.2) by (by destruct y). rewrite He0, He1, Hr0, Hr1.
    replace (y.1, y.2) with y by (by destruct y).
    destruct (eligible ie (bt r1)) eqn:Eel.
    + destruct (proj1 (elig_iff D M y r1 I Iy Hr1) Eel) as [Fy Gy].
      rewrite (faces_close_strip d0 e0 d1 e1) by (by symmetry).
      destruct (faces_close_Ok d0 d1 x.2 y.2) as [[] Ef];
        [by eapply elem_of_list_lookup_2|by eapply elem_of_list_lookup_2|by apply inm6|by apply inm6| |].
      * assert (con x y) as Hc. { split_and!; try done. by exists d0, d1. }
        assert (¬ glued D x) as Gx.
        { intros [w [Hin|Hin]]; apply HD in Hin as [Hc' Hin].
          - assert (w = y) as -> by (by eapply Hu1). tauto.
          - destruct Hc' as (_ & _ & _ & ? & _). lia. }
        rewrite Ef. destruct (glue_inv D M x y r0 r1 bc0 I Hc Gx Gy Hr0 Hr1 Hbc) as (m1 & -> & I').
        eexists. split; [reflexivity|]. exists ((x, y) :: D). split; [done|]. cbn [fst snd]. split.
        -- split.
           ++ constructor; [|done]. intros Hin. apply HD in Hin as [_ [Hin|[_ Hin]]]; done.
           ++ apply Hchar. intros a b. rewrite elem_of_cons. tauto.
        -- cbn [length]. rewrite Hn. lia.
      * rewrite Ef. eexists. split; [reflexivity|]. apply Hno. intros (_ & _ & _ & _ & _ & _ & (q0 & q1 & Q0 & Q1 & Q)).
        rewrite Hd0 in Q0. rewrite Hd1 in Q1. apply (inj Some) in Q0, Q1. subst q0 q1. congruence.
    + eexists. split; [reflexivity|]. apply Hno. intros Hc.
      assert (¬ glued D y) as Gy.
      { intros [w [Hin|Hin]]; apply HD in Hin as [Hc' Hin].
        - destruct Hc' as (_ & _ & ? & _). lia.
        - assert (w = x) as -> by (by eapply Hu2). tauto. }
      assert (eligible ie (bt r1) = true); [|congruence].
      apply (elig_iff D M y r1 I Iy Hr1). split; [|done]. by destruct Hc as (_ & _ & _ & _ & _ & ? & _).
  - exists s'. split; [done|]. exists D. split; [done|]. split; [|done]. split; [done|].
    intros a b. rewrite HD, elem_of_app, elem_of_list_singleton. split.
    + intros (Hc & [?|[Ea _]]); [tauto|subst a; tauto].
    + intros (Hc & [[?|Ea]|[_ H]]); [tauto|subst a|by apply elem_of_nil in H].
      split; [done|]. right. split; [done|]. destruct Hc as (_ & [_ ?] & _ & ? & _).
      destruct b as [b1 b2]. apply elem_of_prod2. rewrite !elem_of_range. done.
Qed.

Lemma outer_loop : ∃ M D, loopS (merge_outer tol ie (nbc m0) n1 (2 * ndim m0)) (m0, 0)
    (prod2 (range2 n1 (nel m0)) (range (2 * ndim m0))) = ((M, Z.of_nat (length D)), Ok tt) ∧
  minv D M ∧ NoDup D ∧ ∀ x y, (x, y) ∈ D ↔ con x y.
Proof.
  destruct (loopS_ok (merge_outer tol ie (nbc m0) n1 (2 * ndim m0)) (λ dn s, minv' dn (0, 0)%nat [] s) (m0, 0)
    (prod2 (range2 n1 (nel m0)) (range (2 * ndim m0)))) as ([M n] & E & D & I & [Nd HD] & Hn).
  - exists []. split; [|split; [|done]].
    + split; try done.
      * intros x y Hin. by apply elem_of_nil in Hin.
      * intros x y b Hin. by apply elem_of_nil in Hin.
      * intros z _ Iz Tz. destruct (Hper z Iz Tz) as (w & W1 & W2 & W3 & W4). exists w. split_and!; try done.
        intros [u [H|H]]; by apply elem_of_nil in H.
      * intros z w _ Iz _ Iw L. by apply leads_partner.
    + split; [constructor|]. intros a b. rewrite !elem_of_nil. tauto.
  - intros dn x rest [M n] El (D & I & [Nd HD] & Hn).
    assert ((x : nat * nat) ∈ prod2 (range2 n1 (nel m0)) (range (2 * ndim m0))) as Hx.
    { rewrite El. apply elem_of_app. right. left. }
    assert (x ∉ dn) as Hxd.
    { assert (NoDup (prod2 (range2 n1 (nel m0)) (range (2 * ndim m0)))) as Hnd
        by (apply NoDup_prod2; [apply NoDup_range2|apply NoDup_range]).
      rewrite El in Hnd. apply NoDup_app in Hnd as (_ & Hnd & _). intros Hin. apply (Hnd x Hin). left. }
    destruct x as [x1 x2] eqn:Ex. rewrite <- Ex in *.
    assert (inm x ∧ n1 ≤ x.1)%nat as [Ix Nx].
    { rewrite Ex in *. apply elem_of_prod2 in Hx. rewrite elem_of_range in Hx. unfold range2 in Hx.
      rewrite elem_of_seq in Hx. unfold inm. cbn. lia. }
    unfold merge_outer. cbn [fst snd] in *.
    destruct (M_get D M x 0 I Ix Hnb) as [r0 Hr0]. replace x with (x.1, x.2) by (by destruct x). rewrite Hr0.
    replace (x.1, x.2) with x by (by destruct x).
    assert (¬ glued D x) as Gx.
    { intros [w [Hin|Hin]]; apply HD in Hin as [Hc' Hin].
      - destruct Hin as [?|[_ H]]; [done|by apply elem_of_nil in H].
      - destruct Hc' as (_ & _ & _ & ? & _). lia. }
    destruct (eligible ie (bt r0)) eqn:Eel.
    + destruct (proj1 (elig_iff D M x r0 I Ix Hr0) Eel) as [Fx _].
      destruct (inner_loop dn x (bt r0) (M, n)) as (s' & -> & D' & I' & [Nd' HD'] & Hn'); try done.
      * by apply (typeP_iff D M x).
      * exists D. split; [done|]. split; [|done]. split; [done|]. intros a b. rewrite HD, !elem_of_nil. tauto.
      * exists s'. split; [done|]. exists D'. split; [done|]. split; [|done]. split; [done|].
        intros a b. rewrite HD', !elem_of_nil. tauto.
    + eexists. split; [reflexivity|]. exists D. split; [done|]. split; [|done]. split; [done|].
      intros a b. rewrite HD, elem_of_app, !elem_of_nil, elem_of_list_singleton. split; [tauto|].
      intros (Hc & [[?|Ea]|[_ []]]); [tauto|]. subst a. exfalso.
      assert (eligible ie (bt r0) = true); [|congruence].
      apply (elig_iff D M x r0 I Ix Hr0). split; [|done]. by destruct Hc as (_ & _ & _ & _ & ? & _).
  - cbn in Hn. subst n. exists M, D. split; [done|]. split; [done|]. split; [done|].
    intros x y. rewrite HD. split; [tauto|]. intros Hc. split; [done|]. left.
    destruct Hc as ([? ?] & _ & ? & _). destruct x as [x1 x2]. apply elem_of_prod2. rewrite elem_of_range.
    unfold range2. rewrite elem_of_seq. cbn in *. lia.
Qed.
End Glue.

Section Final.
Context {A : arith}.
Notation N := (num A).
Implicit Types (r : bcrec N) (x y z w : nat * nat).
Context (self other add m0 : hexa N) (bnd : Z).
Hypothesis LA : arith_laws A bnd.
Hypothesis Ws : wf_mesh self.
Hypothesis Wo : wf_mesh other.
Hypothesis Hd : ndim self = ndim other.
Hypothesis Hb : nbc self = nbc other.
Hypothesis Hbn : Z.of_nat (nel self + nel other) <= bnd.
Hypothesis H6 : 6 <= bnd.
Hypothesis Ps : paired self.
Hypothesis Po : paired other.
Hypothesis Sadd : strip add = strip other.
Hypothesis Badd : bshape add = bshape other.
Hypothesis Eadd : ∀ i b f r, get_bc other i b f = Some r → ∃ r', get_bc add i b f = Some r' ∧
      offset_entry bnd (Z.of_nat (nel self)) 0 other i b f r r'.
Hypothesis Em0 : m0 = appended self add
      (elmap self ++ ((λ k, k + Z.of_nat (nel self)) <$> elmap other)) (ncurv self + ncurv other)
      (nel self + nel other).
Notation n := (nel self).

Lemma m0_fields : ndim m0 = ndim self ∧ nel m0 = (nel self + nel other)%nat ∧ nbc m0 = nbc self ∧
  elems m0 = elems self ++ elems add.
Proof. by rewrite Em0. Qed.
Lemma add_wf : wf_mesh add.
Proof. by apply (wf_mesh_shape other). Qed.
Lemma m0_wf : wf_mesh m0.
Proof.
  destruct m0_fields as (F1 & F2 & F3 & F4). pose proof add_wf as [(A1 & A2 & A3) A4].
  destruct Ws as [(S1 & S2 & S3) S4].
  pose proof (strip_fields _ _ Sadd) as (G1 & G2 & _ & G4 & _).
  split; [split; [by rewrite F1|]|].
  - split; [rewrite F2, F4, app_length; lia|]. intros e He. rewrite F4 in He. rewrite F3.
    apply elem_of_app in He as [He|He]; [by apply S3|]. destruct (A3 e He) as [? ?]. split; [congruence|done].
  - intros e He. rewrite F4 in He. apply elem_of_app in He as [He|He]; [by apply S4|by apply A4].
Qed.
Lemma get_self i b f : (i < n)%nat → get_bc m0 i b f = get_bc self i b f.
Proof. intros Hi. rewrite Em0. apply get_app_l. destruct Ws as [(_ & Hlen & _) _]. lia. Qed.
Lemma get_other i b f : get_bc m0 (n + i) b f = get_bc add i b f.
Proof. rewrite Em0. destruct Ws as [(_ & Hlen & _) _]. rewrite <- Hlen. apply get_app_r. Qed.
Lemma shifted_get i b f r : in_mesh other i b f → get_bc other i b f = Some r →
  ∃ r', get_bc m0 (n + i) b f = Some r' ∧ shifted_entry n r r' ∧
    (is_conn (bt r) → ∀ j g, (j < nel other)%nat → points r j g → points r' (n + j) g).
Proof.
  intros Hi Hr. destruct (Eadd i b f r Hr) as (r' & Hr' & (O1 & O2 & O3 & O4 & O5 & O6 & O7 & O8 & _)).
  assert (is_conn (bt r) → ∀ j g, (j < nel other)%nat → points r j g → points r' (n + j) g) as H.
  { intros Hc j g Hj [P1 P2]. split; [|by rewrite O3].
    rewrite (O7 (conj Hi Hc) (Z.of_nat j + 1)); [|lia|done]. rewrite bool_decide_true by lia. f_equal. lia. }
  exists r'. rewrite get_other. split; [done|]. split; [|done]. unfold shifted_entry. split_and!; try done.
  - intros Hc. destruct (Po i b f r Hi Hr Hc) as (j & g & q & (Hj & _) & Q & _). exists j, g. split; [done|]. by apply H.
  - intros Hc. apply O8. tauto.
Qed.

(** A face of the merged mesh is a face of one of the two. *)
Lemma face_cases z : (z.1 < nel m0)%nat → (z.1 < n)%nat ∨ ∃ x, z = shifted n x ∧ (x.1 < nel other)%nat ∧ x.2 = z.2.
Proof.
  destruct m0_fields as (_ & F2 & _). rewrite F2. intros H. destruct (decide (z.1 < n)%nat) as [?|Hge]; [by left|]. right.
  exists ((z.1 - n)%nat, z.2). unfold shifted. cbn. destruct z as [z1 z2]. cbn in *. split; [f_equal; lia|]. split; [lia|done].
Qed.
Lemma in_self i b f : in_mesh self i b f → in_mesh m0 i b f.
Proof. destruct m0_fields as (F1 & F2 & F3 & _). unfold in_mesh. rewrite F1, F2, F3. lia. Qed.
Lemma in_other i b f : in_mesh other i b f → in_mesh m0 (n + i) b f.
Proof. destruct m0_fields as (F1 & F2 & F3 & _). unfold in_mesh. rewrite F1, F2, F3, Hd, Hb. lia. Qed.
Lemma in_m0_self i b f : in_mesh m0 i b f → (i < n)%nat → in_mesh self i b f.
Proof. destruct m0_fields as (F1 & F2 & F3 & _). unfold in_mesh. rewrite F1, F2, F3. lia. Qed.
Lemma in_m0_other i b f : in_mesh m0 (n + i) b f → in_mesh other i b f.
Proof. destruct m0_fields as (F1 & F2 & F3 & _). unfold in_mesh. rewrite F1, F2, F3, Hd, Hb. lia. Qed.

Lemma other_get_rev i b f r' : in_mesh other i b f → get_bc m0 (n + i) b f = Some r' →
  ∃ r, get_bc other i b f = Some r ∧ shifted_entry n r r' ∧
    (is_conn (bt r) → ∀ j g, (j < nel other)%nat → points r j g → points r' (n + j) g).
Proof.
  intros Hi Hr'. destruct (wf_get_bc other i b f) as [r Hr]; [apply Wo|unfold in_mesh in Hi; destruct (proj1 (proj1 Wo)); lia..|].
  destruct (shifted_get i b f r Hi Hr) as (q & Hq & H). rewrite Hr' in Hq. apply (inj Some) in Hq. subst q. by exists r.
Qed.

(** The appended mesh is paired. *)
Lemma m0_paired : paired m0.
Proof.
  intros i b f r Hi Hr Hc. destruct (face_cases (i, f)) as [Hlt|([i' f'] & [= -> ->] & Hx & _)]; [by destruct Hi| |]; cbn [fst snd] in *.
  - rewrite get_self in Hr by done. destruct (Ps i b f r (in_m0_self _ _ _ Hi Hlt) Hr Hc) as (j & g & r' & Hj & P1 & Hr' & Ht & P2).
    exists j, g, r'. split; [by apply in_self|]. split; [done|]. rewrite get_self by (by destruct Hj). done.
  - pose proof (in_m0_other _ _ _ Hi) as Hi'. destruct (other_get_rev i' b f' r Hi' Hr) as (q & Hq & Hs & Hpt).
    pose proof Hs as (T & _). rewrite T in Hc.
    destruct (Po i' b f' q Hi' Hq Hc) as (j & g & q' & Hj & P1 & Hq' & Ht & P2).
    destruct (shifted_get j b g q' Hj Hq') as (r' & Hr' & Hs' & Hpt'). pose proof Hs' as (T' & _).
    exists (n + j)%nat, g, r'. split; [by apply in_other|]. split; [apply Hpt; [done|by destruct Hj|done]|]. split; [done|].
    split; [congruence|]. apply Hpt'; [by rewrite Ht|by destruct Hi'|done].
Qed.

Context (Us : uniform self) (Uo : uniform other).
Lemma m0_uniform : uniform m0.
Proof.
  intros i b f r r0 Hi Hr Hr0 Hc. destruct (face_cases (i, f)) as [Hlt|([i' f'] & [= -> ->] & Hx & _)]; [by destruct Hi| |]; cbn [fst snd] in *.
  - rewrite get_self in Hr, Hr0 by done. eapply Us; try done. by apply in_m0_self.
  - pose proof (in_m0_other _ _ _ Hi) as Hi'. destruct (other_get_rev i' b f' r Hi' Hr) as (q & Hq & Hs & Hpt).
    assert (in_mesh other i' 0 f') as Hi0 by (unfold in_mesh in *; lia).
    destruct (other_get_rev i' 0 f' r0 Hi0 Hr0) as (q0 & Hq0 & Hs0 & Hpt0).
    pose proof Hs as (T & _ & T4 & _). pose proof Hs0 as (T' & _ & T4' & _). rewrite T, T' in Hc.
    destruct (Uo i' b f' q q0 Hi' Hq Hq0 Hc) as (V1 & V2 & V3). split; [congruence|]. split; [|congruence].
    assert (is_conn (bt q)) as Hcq by (destruct Hc; [done|by rewrite V1]).
    destruct (Po i' b f' q Hi' Hq Hcq) as (j & g & q' & Hj & P & _).
    assert (points q0 j g) as P0. { destruct P. split; congruence. }
    destruct (Hpt Hcq j g) as [-> _]; [by destruct Hj|done|].
    destruct (Hpt0) with (j := j) (g := g) as [-> _]; [by rewrite <- V1|by destruct Hj|done|done].
Qed.

Context (Ns : no_self_partner self) (No : no_self_partner other).
Lemma m0_per z : inm m0 z → type0 m0 z "P" → ∃ w, inm m0 w ∧ type0 m0 w "P" ∧ w ≠ z ∧
  ∀ b, (b < nbc m0)%nat → linked m0 b z "P" w ∧ linked m0 b w "P" z.
Proof.
  intros Hz (r & Hr & Ht). destruct (decide (0 < nbc m0)%nat) as [Hnb|Hnb].
  2: { exfalso. destruct m0_wf as [(_ & _ & Hrows) _]. unfold get_bc in Hr. destruct (elems m0 !! z.1) as [e|] eqn:Ee; [|done].
       cbn in Hr. destruct (Hrows e) as [HL _]; [by eapply elem_of_list_lookup_2|].
       destruct (bcs e) as [|]; [done|]. cbn in HL. lia. }
  assert (in_mesh m0 z.1 0 z.2) as Hi by (unfold inm in Hz; unfold in_mesh; lia).
  assert (is_conn (bt r)) as Hc by (by right).
  destruct (m0_paired z.1 0 z.2 r Hi Hr Hc)%nat as (j & g & r' & Hj & P & Hr' & Ht' & P').
  exists (j, g). split; [unfold inm; destruct Hj as (? & ? & ?); done|]. split; [exists r'; split; [done|congruence]|].
  split.
  - intros <-. cbn [fst snd] in *. assert (r' = r) as -> by congruence.
    destruct (face_cases (j, g)) as [Hlt|([i' f'] & [= -> ->] & Hx & _)]; [by destruct Hj| |]; cbn [fst snd] in *.
    + rewrite get_self in Hr by done. by apply (Ns (j, g) r (in_m0_self _ _ _ Hj Hlt)).
    + assert (in_mesh other i' 0 f') as Hi0 by (by apply in_m0_other).
      destruct (other_get_rev i' 0 f' r Hi0 Hr) as (q & Hq & Hs & Hpt). pose proof Hs as (T & _ & T4 & _).
      apply (No (i', f') q Hi0 Hq); [congruence|]. rewrite T in Hc.
      destruct (Po i' 0 f' q Hi0 Hq Hc)%nat as (j' & g' & q' & Hj' & Q & _).
      destruct (Hpt Hc j' g') as [R1 R2]; [by destruct Hj'|done|].
      destruct P as [P1 P2]. rewrite P1 in R1. rewrite P2 in R2.
      destruct Hj' as (? & ? & ?). destruct Hi0 as (? & ? & ?). pose proof (proj1 (proj1 Wo)).
      apply (nofZ_inj bnd LA) in R1; [|lia..]. apply (nofZ_inj bnd LA) in R2; [|lia..].
      destruct Q as [Q1 Q2]. split; [rewrite Q1; f_equal; cbn; lia|rewrite Q2; f_equal; cbn; lia].
  - intros b Hb'.
    assert (∀ u t v q, in_mesh m0 u.1 0 u.2 → get_bc m0 u.1 0 u.2 = Some q → bt q = t → is_conn t → points q v.1 v.2 → linked m0 b u t v) as Hall.
    { intros u t v q Hu Hq Hqt Hqc Hqp. assert (in_mesh m0 u.1 b u.2) as Hub by (unfold in_mesh in *; lia).
      destruct (wf_get_bc m0 u.1 b u.2) as [q2 Hq2]; [apply m0_wf|unfold in_mesh in Hub; destruct (proj1 (proj1 m0_wf)); lia..|].
      destruct (m0_uniform u.1 b u.2 q2 q Hub Hq2 Hq) as (V1 & V2 & V3); [right; by rewrite Hqt|].
      exists q2. split; [done|]. split; [congruence|]. destruct Hqp. split; congruence. }
    split.
    + apply (Hall z "P"%string (j, g) r); try done. by right.
    + apply (Hall (j, g) "P"%string z r'); try done; [congruence|by right].
Qed.

(** Contacts. *)
Context (tol : N) (ie : bool).
Lemma elig_free t : eligible ie t = true ↔ t ≠ "E"%string ∧ (ie = true → t ≠ ""%string).
Proof.
  unfold eligible. rewrite andb_true_iff, !negb_true_iff, String.eqb_neq, andb_false_iff.
  destruct ie; rewrite ?String.eqb_neq; naive_solver.
Qed.
Lemma free_self y : (0 < nbc self)%nat → free_face ie self y ↔ inm m0 y ∧ (y.1 < n)%nat ∧ free0 m0 ie y.
Proof.
  intros Hnb. destruct m0_fields as (F1 & F2 & _). unfold free_face, inm, free0. split.
  - intros [[H1 H2] (r & Hr & H)]. rewrite get_self by done. split; [lia|]. split; [done|]. exists r. by rewrite elig_free.
  - intros ([H1 H2] & H3 & (r & Hr & H)). rewrite get_self in Hr by done. split; [lia|]. exists r. by rewrite elig_free in H.
Qed.
Lemma free_other x : (0 < nbc self)%nat → free_face ie other x ↔ inm m0 (shifted n x) ∧ free0 m0 ie (shifted n x).
Proof.
  intros Hnb. destruct m0_fields as (F1 & F2 & _). unfold free_face, inm, free0. unfold shifted. cbn [fst snd]. split.
  - intros [[H1 H2] (r & Hr & H)]. split; [lia|].
    destruct (shifted_get x.1 0 x.2 r) as (r' & Hr' & (T & _) & _); [unfold in_mesh; lia|done|].
    exists r'. rewrite elig_free, T. done.
  - intros ([H1 H2] & (r' & Hr' & H)). split; [lia|].
    destruct (other_get_rev x.1 0 x.2 r') as (r & Hr & (T & _) & _); [unfold in_mesh; lia|done|].
    exists r. rewrite elig_free, T in H. done.
Qed.
Lemma close_touching x y : (y.1 < n)%nat → close0 m0 tol (shifted n x) y ↔ touching tol self other x y.
Proof.
  intros Hy. destruct m0_fields as (_ & _ & _ & F4). pose proof (proj1 (proj2 (proj1 Ws))) as Hlen.
  unfold close0, touching. rewrite F4. unfold shifted. cbn [fst snd].
  rewrite lookup_app_r by lia. rewrite Hlen, Nat.add_comm, Nat.add_sub. rewrite lookup_app_l by lia. split.
  - intros (e0 & e1 & E0 & E1 & Hc). destruct (strip_elem_lookup _ _ _ _ Sadd E0) as (d0 & D0 & S0).
    rewrite (faces_close_strip tol d0 e0 e1 e1) in Hc by done. unfold faces_close in Hc.
    destruct (face_center d0 _) as [c|] eqn:C0; [|done]. destruct (face_center e1 _) as [c'|] eqn:C1; [|done]. cbn [rbind] in Hc.
    destruct (smallest_edge d0) as [s|] eqn:G0; [|done]. destruct (smallest_edge e1) as [s'|] eqn:G1; [|done]. cbn [rbind] in Hc.
    injection Hc as Hc. exists d0, e1, c, c', s, s'. done.
  - intros (d0 & e1 & c & c' & s & s' & D0 & E1 & C0 & C1 & G0 & G1 & Hc).
    destruct (strip_elem_lookup other add _ _ (eq_sym Sadd) D0) as (e0 & E0 & S0).
    exists e0, e1. split; [done|]. split; [done|]. rewrite (faces_close_strip tol d0 e0 e1 e1) by done.
    unfold faces_close. rewrite C0, C1. cbn [rbind]. rewrite G0, G1. cbn [rbind]. by rewrite Hc.
Qed.
Lemma contact_con x y : (0 < nbc self)%nat → contact tol ie self other x y ↔ con m0 n tol ie (shifted n x) y.
Proof.
  intros Hnb. unfold contact, con. rewrite free_self, free_other by done. split.
  - intros ([H1 H2] & (H3 & H4 & H5) & H7). split_and!; try done; [cbn; lia|by apply close_touching].
  - intros (H1 & H2 & H3 & H4 & H5 & H7 & H8). split_and!; try done. by apply close_touching.
Qed.
Lemma con_shift z y : con m0 n tol ie z y → z = shifted n ((z.1 - n)%nat, z.2).
Proof. intros (_ & _ & H & _). unfold shifted. destruct z as [z1 z2]. cbn in *. f_equal. lia. Qed.

Context (Hun : unique_contacts tol ie self other) (Hpp : periodic_meets_periodic tol ie self other).
Context (Hnb : (0 < nbc self)%nat).
Notation mm0 := m0.

Lemma shifted_inj x x' : shifted n x = shifted n x' → x = x'.
Proof. unfold shifted. destruct x, x'. cbn. intros [= ? ->]. f_equal. lia. Qed.
Lemma type_self y : (y.1 < n)%nat → type0 m0 y "P" ↔ periodic self y.
Proof. intros Hy. unfold type0, periodic. by rewrite get_self by done. Qed.
Lemma type_other x : (x.1 < nel other)%nat → (x.2 < 2 * ndim other)%nat → type0 m0 (shifted n x) "P" ↔ periodic other x.
Proof.
  intros H1 H2. unfold type0, periodic, shifted. cbn [fst snd]. assert (in_mesh other x.1 0 x.2) as Hi by (unfold in_mesh; lia). split.
  - intros (r' & Hr' & Ht). destruct (other_get_rev x.1 0 x.2 r' Hi Hr') as (r & Hr & (T & _) & _). exists r. split; [done|congruence].
  - intros (r & Hr & Ht). destruct (shifted_get x.1 0 x.2 r Hi Hr) as (r' & Hr' & (T & _) & _). exists r'. split; [done|congruence].
Qed.

Lemma merge_loop : ∃ M D, loopS (merge_outer tol ie (nbc m0) n (2 * ndim m0)) (m0, 0)
    (prod2 (range2 n (nel m0)) (range (2 * ndim m0))) = ((M, Z.of_nat (length D)), Ok tt) ∧
  minv m0 n tol ie D M ∧ NoDup D ∧ (∀ x y, (x, y) ∈ D ↔ con m0 n tol ie x y).
Proof.
  destruct m0_fields as (F1 & F2 & F3 & F4).
  apply (outer_loop m0 n tol ie bnd); try done; try lia.
  - exact m0_wf.
  - exact m0_per.
  - intros z y y' H1 H2. pose proof (con_shift _ _ H1) as Ez. rewrite Ez in H1, H2. rewrite <- contact_con in H1, H2 by done.
    by apply (proj1 Hun _ _ _ H1).
  - intros z z' y H1 H2. pose proof (con_shift _ _ H1) as Ez. pose proof (con_shift _ _ H2) as Ez'. rewrite Ez in H1. rewrite Ez' in H2.
    rewrite <- contact_con in H1, H2 by done. rewrite Ez, Ez'. f_equal. by apply (proj2 Hun _ _ _ H1).
  - intros z y H1. pose proof (con_shift _ _ H1) as Ez. rewrite Ez in H1 |- *. rewrite <- contact_con in H1 by done.
    pose proof H1 as ([[O1 O2] _] & [[O3 O4] _] & _). rewrite (type_self y), (type_other _) by (done || lia). by apply Hpp.
Qed.

(** The glued mesh is paired. *)
Lemma glued_paired D M : minv m0 n tol ie D M → paired M ∧
  ∀ i b f r, in_mesh M i b f → get_bc M i b f = Some r → bt r = "E"%string →
    ∃ z w, z = (i, f) ∧ points r w.1 w.2 ∧ ((z, w) ∈ D ∨ (w, z) ∈ D ∨ get_bc m0 i b f = Some r).
Proof.
  intros I. destruct m0_fields as (F1 & F2 & F3 & F4).
  pose proof (strip_fields _ _ (mi_strip _ _ _ _ _ _ I)) as (G1 & G2 & _ & G4 & _).
  assert (∀ i b f, in_mesh M i b f ↔ in_mesh m0 i b f) as Hin by (intros; unfold in_mesh; lia).
  assert (∀ z w, (z, w) ∈ D → inm m0 z ∧ inm m0 w) as HDin.
  { intros z w Hzw. destruct (mi_con _ _ _ _ _ _ I _ _ Hzw) as (? & ? & _). done. }
  assert (∀ i b f r, in_mesh m0 i b f → get_bc M i b f = Some r → is_conn (bt r) →
    ∃ w q, inm m0 w ∧ points r w.1 w.2 ∧ get_bc M w.1 b w.2 = Some q ∧ bt q = bt r ∧ points q i f ∧
     (bt r = "E"%string → ((i, f), w) ∈ D ∨ (w, (i, f)) ∈ D ∨ get_bc m0 i b f = Some r)) as H.
  { intros i b f r Hi Hr Hc. pose proof Hi as (Hi1 & Hi2 & Hi3).
    assert (inm m0 (i, f)) as Iz by (unfold inm; done).
    destruct (wf_get_bc m0 i 0 f) as [r0 Hr0]; [apply m0_wf|done|lia|destruct (proj1 (proj1 m0_wf)); lia|].
    destruct (decide (Exists (λ p, p.1 = (i, f) ∨ p.2 = (i, f)) D)) as [Hex|Hex].
    - apply Exists_exists in Hex as ([z w] & HDz & [Ez|Ez]); cbn in Ez; subst.
      + destruct (mi_glued _ _ _ _ _ _ I _ _ b HDz Hi2) as [(q & Hq & Ht & P) (q' & Hq' & Ht' & P')].
        cbn [fst snd] in Hq. rewrite Hr in Hq. apply (inj Some) in Hq. subst q. exists w, q'.
        split; [by apply (HDin (i, f))|]. split; [done|]. split; [done|]. split; [congruence|]. split; [done|]. auto.
      + destruct (mi_glued _ _ _ _ _ _ I _ _ b HDz Hi2) as [(q & Hq & Ht & P) (q' & Hq' & Ht' & P')].
        cbn [fst snd] in Hq'. rewrite Hr in Hq'. apply (inj Some) in Hq'. subst q'. exists z, q.
        split; [by apply (HDin z (i, f))|]. split; [done|]. split; [done|]. split; [congruence|]. split; [done|]. auto.
    - assert (∀ z, ¬ Exists (λ p, p.1 = z ∨ p.2 = z) D → ¬ glued D z) as Hng.
      { intros z Hz [w [Hw|Hw]]; apply Hz, Exists_exists; eexists; (split; [exact Hw|]); cbn; auto. }
      pose proof (Hng _ Hex) as Gz.
      destruct (decide (bt r0 = "P"%string)) as [Ep|Ep].
      + destruct (mi_per _ _ _ _ _ _ I (i, f) Gz Iz) as (w & Iw & Gw & Tw & Nw & L); [by exists r0|].
        destruct (L b Hi2) as [(q & Hq & Ht & P) (q' & Hq' & Ht' & P')]. cbn [fst snd] in Hq.
        rewrite Hr in Hq. apply (inj Some) in Hq. subst q. exists w, q'. split_and!; try done; [congruence|].
        rewrite Ht. done.
      + assert (get_bc m0 i b f = Some r) as Hr'.
        { rewrite <- Hr. symmetry. apply (mi_other _ _ _ _ _ _ I (i, f)); [done|].
          intros _ (q & Hq & Ht). cbn in Hq. rewrite Hr0 in Hq. by injection Hq as ->. }
        destruct (m0_uniform i b f r r0 Hi Hr' Hr0 (or_introl Hc)) as (V1 & V2 & V3).
        assert (bt r = "E"%string) as Et. { destruct Hc as [?|Hc]; [done|]. rewrite V1 in Hc. done. }
        destruct (m0_paired i b f r Hi Hr' Hc) as (j & g & q & Hj & P & Hq & Ht & P').
        exists (j, g), q. cbn [fst snd]. split; [unfold inm; destruct Hj as (? & ? & ?); done|]. split; [done|].
        split; [|split; [done|split; [done|auto]]].
        assert (in_mesh m0 j 0 g) as Hj0 by (unfold in_mesh in *; lia).
        destruct (wf_get_bc m0 j 0 g) as [q0 Hq0]; [apply m0_wf|unfold in_mesh in Hj0; destruct (proj1 (proj1 m0_wf)); lia..|].
        destruct (m0_uniform j b g q q0 Hj Hq Hq0) as (V1' & _); [left; by rewrite Ht|].
        rewrite <- Hq. apply (mi_other _ _ _ _ _ _ I (j, g)).
        * intros [w [Hw|Hw]]; destruct (mi_con _ _ _ _ _ _ I _ _ Hw) as (_ & _ & _ & _ & C1 & C2 & _).
          -- destruct C1 as (q1 & Hq1 & He). cbn in Hq1. rewrite Hq0 in Hq1. apply (inj Some) in Hq1. subst q1.
             apply elig_free in He as [He _]. apply He. congruence.
          -- destruct C2 as (q1 & Hq1 & He). cbn in Hq1. rewrite Hq0 in Hq1. apply (inj Some) in Hq1. subst q1.
             apply elig_free in He as [He _]. apply He. congruence.
        * intros _ (q1 & Hq1 & He). cbn in Hq1. rewrite Hq0 in Hq1. apply (inj Some) in Hq1. subst q1.
          rewrite He in V1'. rewrite V1', Et in Ht. done. }
  split.
  - intros i b f r Hi Hr Hc. apply Hin in Hi. destruct (H i b f r Hi Hr Hc) as (w & q & Iw & P & Hq & Ht & P' & _).
    exists w.1, w.2, q. split_and!; try done. apply Hin. unfold inm in Iw. unfold in_mesh in *. lia.
  - intros i b f r Hi Hr Ht. apply Hin in Hi. destruct (H i b f r Hi Hr (or_introl Ht)) as (w & q & Iw & P & Hq & Ht' & P' & HE).
    exists (i, f), w. split; [done|]. split; [done|]. by apply HE.
Qed.

(** ... and its connections are the same in all the fields, and no periodic face is its own partner. *)
Lemma glued_connected D M : minv m0 n tol ie D M → uniform M ∧ no_self_partner M.
Proof.
  intros I. pose proof (strip_fields _ _ (mi_strip _ _ _ _ _ _ I)) as (G1 & G2 & _ & G4 & _). destruct m0_fields as (F1 & F2 & F3 & F4).
  assert (∀ i b f, in_mesh M i b f ↔ in_mesh m0 i b f) as Hin by (intros; unfold in_mesh; lia).
  assert (∀ z, inm m0 z → (∃ w, inm m0 w ∧ (z, w) ∈ D ∨ inm m0 w ∧ (w, z) ∈ D) ∨ ¬ glued D z) as Hgl.
  { intros z Hz. destruct (decide (Exists (λ p, p.1 = z ∨ p.2 = z) D)) as [Hex|Hex].
    - left. apply Exists_exists in Hex as ([u w] & HDz & [Ez|Ez]); cbn in Ez; subst; destruct (mi_con _ _ _ _ _ _ I _ _ HDz) as (? & ? & _); eauto.
    - right. intros [w [Hw|Hw]]; apply Hex, Exists_exists; eexists; (split; [exact Hw|]); cbn; auto. }
  assert (∀ z, inm m0 z → ¬ glued D z → (∃ w, inm m0 w ∧ w ≠ z ∧ ∀ b, (b < nbc m0)%nat → linked M b z "P" w) ∨
    (¬ type0 m0 z "P" ∧ ∀ b, get_bc M z.1 b z.2 = get_bc m0 z.1 b z.2)) as Hrest.
  { intros z Hz Gz. assert (is_Some (get_bc m0 z.1 0 z.2)) as [r0 Hr0].
    { destruct Hz. apply wf_get_bc; [apply m0_wf|lia|lia|destruct (proj1 (proj1 m0_wf)); lia]. }
    destruct (decide (bt r0 = "P"%string)) as [Ep|Ep].
    - left. destruct (mi_per _ _ _ _ _ _ I z Gz Hz) as (w & Iw & _ & _ & Nw & L); [by exists r0|]. exists w. split_and!; try done. intros b Hb'. by apply L.
    - right. assert (¬ type0 m0 z "P") as NT by (intros (q & Hq & Ht); congruence). split; [done|]. intros b. by apply (mi_other _ _ _ _ _ _ I). }
  assert (∀ b z t w r, linked M b z t w → get_bc M z.1 b z.2 = Some r → bt r = t ∧ points r w.1 w.2) as HL.
  { intros b z t w r (q & Hq & Ht & P) Hr. rewrite Hr in Hq. apply (inj Some) in Hq as <-. done. }
  split.
  - intros i b f r r0 Hi Hr Hr0 Hc. apply Hin in Hi. assert (inm m0 (i, f)) as Iz by (unfold inm, in_mesh in *; cbn; lia).
    assert (b < nbc m0 ∧ 0 < nbc m0)%nat as [Hb1 Hb0] by (unfold in_mesh in Hi; lia).
    assert (∀ t w, linked M b (i, f) t w → linked M 0 (i, f) t w → bt r = bt r0 ∧ bp3 r = bp3 r0 ∧ bp4 r = bp4 r0) as HE.
    { intros t w L1 L2. destruct (HL _ _ _ _ r L1 Hr) as [T1 [P1 P2]], (HL _ _ _ _ r0 L2 Hr0) as [T2 [Q1 Q2]]. split_and!; congruence. }
    destruct (Hgl (i, f) Iz) as [(w & [[_ Hw]|[_ Hw]])|Gz].
    + apply (HE "E"%string w); [apply (proj1 (mi_glued _ _ _ _ _ _ I _ _ b Hw Hb1))|apply (proj1 (mi_glued _ _ _ _ _ _ I _ _ 0%nat Hw Hb0))].
    + apply (HE "E"%string w); [apply (proj2 (mi_glued _ _ _ _ _ _ I _ _ b Hw Hb1))|apply (proj2 (mi_glued _ _ _ _ _ _ I _ _ 0%nat Hw Hb0))].
    + destruct (Hrest (i, f) Iz Gz) as [(w & _ & _ & L)|[_ E]]; [by apply (HE "P"%string w); apply L|].
      pose proof (E b) as Eb. pose proof (E 0%nat) as E0. cbn [fst snd] in Eb, E0. rewrite Eb in Hr. rewrite E0 in Hr0. by apply (m0_uniform i b f r r0).
  - intros x r Hx Hr Ht P. apply Hin in Hx. assert (inm m0 x) as Iz by (unfold inm, in_mesh in *; lia).
    assert (0 < nbc m0)%nat as Hb0 by (unfold in_mesh in Hx; lia).
    destruct (Hgl x Iz) as [(w & [[_ Hw]|[_ Hw]])|Gz].
    + destruct (HL _ _ _ _ r (proj1 (mi_glued _ _ _ _ _ _ I _ _ 0%nat Hw Hb0)) Hr) as [T _]. congruence.
    + destruct (HL _ _ _ _ r (proj2 (mi_glued _ _ _ _ _ _ I _ _ 0%nat Hw Hb0)) Hr) as [T _]. congruence.
    + destruct (Hrest x Iz Gz) as [(w & Iw & Nw & L)|[NT E]].
      * apply Nw. destruct (HL _ _ _ _ r (L 0%nat Hb0) Hr) as [_ Q].
        eapply (points_inj m0 n bnd LA m0_wf); try done; lia.
      * apply NT. exists r. rewrite <- (E 0%nat). done.
Qed.

Lemma glued_spec D M : minv m0 n tol ie D M → NoDup D → (∀ x y, (x, y) ∈ D ↔ con m0 n tol ie x y) →
  is_glued tol ie self other M (Z.of_nat (length D)).
Proof.
  intros I Nd HD. destruct m0_fields as (F1 & F2 & F3 & F4).
  pose proof (strip_fields _ _ (mi_strip _ _ _ _ _ _ I)) as (G1 & G2 & _ & G4 & _).
  set (back := λ p : (nat * nat) * (nat * nat), (((p.1.1 - n)%nat, p.1.2), p.2)).
  exists (back <$> D).
  assert (∀ p, p ∈ D → p = (shifted n (back p).1, (back p).2)) as Hback.
  { intros [z y] Hp. apply HD in Hp. unfold back. cbn [fst snd]. f_equal. by apply con_shift in Hp. }
  assert (∀ x y, (x, y) ∈ back <$> D ↔ (shifted n x, y) ∈ D) as Hmem.
  { intros x y. rewrite elem_of_list_fmap. split.
    - intros (p & E & Hp). pose proof (Hback p Hp) as E'. rewrite <- E in E'. cbn in E'. by rewrite <- E'.
    - intros Hp. exists (shifted n x, y). split; [|done]. unfold back, shifted. cbn. destruct x as [x1 x2]. cbn.
      do 2 f_equal. lia. }
  split; [|split; [|split; [|split]]].
  - apply NoDup_fmap_2_strong; [|done]. intros p q Hp Hq E. rewrite (Hback p Hp), (Hback q Hq). by rewrite E.
  - by rewrite fmap_length.
  - intros x y. by rewrite Hmem, HD, contact_con by done.
  - intros x y b Hxy Hbb. apply Hmem in Hxy. apply (mi_glued _ _ _ _ _ _ I _ _ b Hxy). lia.
  - assert (∀ y, (y.1 < n)%nat → (∀ x, (x, y) ∉ back <$> D) → ¬ glued D y) as HngS.
    { intros y Hy Hno [w [Hw|Hw]].
      - apply HD in Hw as (_ & _ & ? & _). lia.
      - apply (Hno (back (w, y)).1). apply Hmem. rewrite (Hback _ Hw) in Hw. exact Hw. }
    assert (∀ x, (∀ y, (x, y) ∉ back <$> D) → ¬ glued D (shifted n x)) as HngO.
    { intros x Hno [w [Hw|Hw]].
      - apply (Hno w). by apply Hmem.
      - apply HD in Hw as (_ & _ & _ & ? & _). cbn in *. lia. }
    assert (∀ y b r, get_bc self y.1 b y.2 = Some r → (y.1 < n)%nat) as Hlt.
    { intros y b r Hr. unfold get_bc in Hr. destruct (elems self !! y.1) eqn:E; [|done].
      apply lookup_lt_Some in E. destruct Ws as [(_ & L & _) _]. lia. }
    (* where a face leads to *)
    assert (∀ z w, ¬ glued D w → ∀ v, ¬ in_contact n (back <$> D) w v) as Hend.
    { intros _ w Hg v (x & y & Hin & [E|E]); injection E as -> ->; apply Hmem in Hin; apply Hg; [exists y|exists (shifted n x)]; auto. }
    assert (∀ z w, leads0 m0 D z w → leads (partners self other) (in_contact n (back <$> D)) z w) as Hleads.
    { assert (∀ z w, inm m0 z ∧ inm m0 w ∧ linked m0 0 z "P" w → partners self other z w) as HP0.
      { intros z w (Iz & Iw & (r' & Hr' & Ht & Hpt)). destruct (face_cases z (proj1 Iz)) as [Hz|(x & -> & Hx & Hx2)].
        - left. assert (in_mesh self z.1 0 z.2) as Hi by (unfold in_mesh; destruct Iz as [_ Iz]; cbn in Iz; lia).
          assert (get_bc self z.1 0 z.2 = Some r') as Hr by (by rewrite <- get_self).
          destruct (Ps z.1 0%nat z.2 r' Hi Hr) as (j & g & q & Hj & Q & _); [by right|].
          assert (w = (j, g)) as ->. { assert (inm m0 (j, g)) as Is by (unfold inm; cbn [fst snd]; destruct Hj as (Hj1 & _ & Hj2); lia).
            eapply (points_inj m0 n bnd LA m0_wf); [lia..|exact Iw|exact Is|exact Hpt|exact Q]. }
          split_and!; try apply Hi; try apply Hj. exists r'. done.
        - right. cbn [shifted fst snd] in Hr', Hx2. destruct (wf_get_bc other x.1 0 x.2) as [r Hr]; [apply Wo|done|lia|destruct (proj1 (proj1 Wo)); destruct Iz as [_ Iz]; cbn in Iz; lia|].
          assert (in_mesh other x.1 0 x.2) as Hi by (unfold in_mesh; destruct Iz as [_ Iz]; cbn in Iz; lia).
          destruct (shifted_get x.1 0 x.2 r Hi Hr) as (q & Hq & (S1 & _) & Hs). rewrite Hr' in Hq. apply (inj Some) in Hq. subst q.
          assert (bt r = "P"%string) as Hrt by congruence. assert (is_conn (bt r)) as Hc by (by right).
          destruct (Po x.1 0%nat x.2 r Hi Hr Hc) as (j & g & q & Hj & Q & _). exists x, (j, g). split; [done|]. split; [apply Hj|]. split; [done|]. split.
          + pose proof (Hs Hc j g (proj1 Hj) Q) as Hq2. assert (inm m0 (shifted n (j, g))) as Is by (unfold inm, shifted; cbn [fst snd]; destruct Hj as (Hj1 & _ & Hj2); lia). eapply (points_inj m0 n bnd LA m0_wf); [lia..|exact Iw|exact Is|exact Hpt|exact Hq2].
          + by exists r. }
      induction 1 as [z w H|z u v w H1 H2 _ IH]; [by apply leads_partner, HP0|]. eapply leads_on; [by apply HP0| |done].
      destruct H2 as [H2|H2]; pose proof (Hback _ H2) as Eb.
      - exists (back (u, v)).1, v. split; [apply Hmem; rewrite Eb in H2; exact H2|left; exact Eb].
      - exists (back (v, u)).1, u. split; [apply Hmem; rewrite Eb in H2; exact H2|right]. injection Eb as Eb1. by rewrite Eb1 at 1. }
    split; [|split; [|split]].
    + intros y b r Hno Hr Hp. pose proof (Hlt y b r Hr) as Hy. rewrite <- Hr.
      rewrite (mi_other _ _ _ _ _ _ I y b); [by rewrite get_self|by apply HngS|]. intros _. by rewrite type_self.
    + intros x b r Hno Hi Hr Hp. destruct (shifted_get x.1 b x.2 r Hi Hr) as (r' & Hr' & Hs & Hs'). exists r'. split; [|split; [exact Hs|exact Hs']].
      rewrite <- Hr'. apply (mi_other _ _ _ _ _ _ I (shifted n x) b); [by apply HngO|]. intros [_ Iz2]. cbn in Iz2.
      rewrite type_other; [done|by destruct Hi|lia].
    + intros y Hno Hp Hi. destruct Hi as (Hi1 & _ & Hi2).
      destruct (mi_per _ _ _ _ _ _ I y) as (w & Iw & Gw & _ & _ & L); [by apply HngS|unfold inm; lia|by rewrite type_self|].
      exists w. split; [|intros b Hbb; apply L; lia]. split; [|by apply (Hend w)]. apply Hleads.
      apply (mi_leads _ _ _ _ _ _ I); [by apply HngS|unfold inm; lia|by rewrite type_self|done|apply L; lia].
    + intros x Hno Hp Hi. destruct Hi as (Hi1 & _ & Hi2).
      destruct (mi_per _ _ _ _ _ _ I (shifted n x)) as (w & Iw & Gw & _ & _ & L);
        [by apply HngO|unfold inm, shifted; cbn; lia|by rewrite type_other|].
      exists w. split; [|intros b Hbb; apply L; lia]. split; [|by apply (Hend w)]. apply Hleads.
      apply (mi_leads _ _ _ _ _ _ I); [by apply HngO|unfold inm, shifted; cbn; lia|by rewrite type_other|done|apply L; lia].
Qed.

(** Validity. *)
Lemma m0_valid : geo_laws A → valid_connectivity tol self → valid_connectivity tol other → valid_connectivity tol m0.
Proof.
  intros G Vs Vo. destruct m0_fields as (F1 & F2 & F3 & F4). pose proof (proj1 (proj2 (proj1 Ws))) as Hlen.
  pose proof m0_paired as Pm. pose proof (proj1 (proj1 m0_wf)) as Hd0.
  intros i b f r Hi Hr Hc.
  destruct (Pm i b f r Hi Hr Hc) as (j & g & r' & Hj & P & Hr' & Ht & P').
  assert (∀ (w : bcrec N) a c, points w a c → (a < nel m0)%nat → (c < 6)%nat → names w a c) as Hpn.
  { intros w a c [P1 P2] Ha Hcc. unfold names. rewrite P1, P2. rewrite !(law_trunc A bnd LA) by lia. done. }
  exists j, g, r'. pose proof Hi as (I1 & I2 & I3). pose proof Hj as (J1 & J2 & J3).
  split; [lia|]. split; [apply Hpn; try done; lia|]. split; [done|]. split; [done|]. split; [apply Hpn; try done; lia|].
  intros Et. unfold same_place. rewrite F4.
  destruct (face_cases (i, f)) as [Hlt|([i' f'] & [= -> ->] & Hx & _)]; [done| |]; cbn [fst snd] in *.
  - rewrite get_self in Hr by done. pose proof (in_m0_self _ _ _ Hi Hlt) as Hi'.
    destruct (Vs i b f r Hi' Hr Hc) as (j2 & g2 & q & (J4 & J5) & [T1 T2] & _ & _ & _ & Hsp).
    destruct P as [P1 P2]. rewrite P1, (law_trunc A bnd LA) in T1 by lia. rewrite P2, (law_trunc A bnd LA) in T2 by lia.
    assert (j2 = j) as -> by (injection T1; lia). assert (g2 = g) as -> by (injection T2; lia).
    rewrite !lookup_app_l by lia. by apply Hsp.
  - pose proof (in_m0_other _ _ _ Hi) as Hi'. destruct (other_get_rev i' b f' r Hi' Hr) as (q & Hq & Hs & Hpt). pose proof Hs as (T & _).
    rewrite T in Hc, Et. destruct (Vo i' b f' q Hi' Hq Hc) as (j2 & g2 & q2 & (J4 & J5) & [T1 T2] & _ & _ & _ & Hsp).
    destruct (Po i' b f' q Hi' Hq Hc) as (j3 & g3 & q3 & (J6 & J7 & J8) & [Q1 Q2] & _).
    rewrite Q1, (law_trunc A bnd LA) in T1 by lia. rewrite Q2, (law_trunc A bnd LA) in T2 by lia.
    assert (j2 = j3) as -> by (injection T1; lia). assert (g2 = g3) as -> by (injection T2; lia).
    destruct (Hpt Hc j3 g3) as [R1 R2]; [done|done|]. destruct P as [P1 P2]. rewrite P1 in R1. rewrite P2 in R2.
    apply (nofZ_inj bnd LA) in R1; [|lia..]. apply (nofZ_inj bnd LA) in R2; [|lia..].
    assert (j = n + j3)%nat as -> by lia. assert (g = g3) as -> by lia.
    rewrite !lookup_app_r by lia. rewrite Hlen. replace (n + i' - n)%nat with i' by lia. replace (n + j3 - n)%nat with j3 by lia.
    destruct (Hsp Et) as (e & e' & c & c' & s & s' & D1 & D2 & D3 & D4 & D5 & D6 & D7).
    destruct (strip_elem_lookup other add _ _ (eq_sym Sadd) D1) as (d & E1 & S1).
    destruct (strip_elem_lookup other add _ _ (eq_sym Sadd) D2) as (d' & E2 & S2).
    exists d, d', c, c', s, s'. split_and!; try done.
    + rewrite <- D3. by apply face_center_strip.
    + rewrite <- D4. by apply face_center_strip.
    + rewrite <- D5. by apply smallest_edge_strip.
    + rewrite <- D6. by apply smallest_edge_strip.
Qed.

Lemma glued_valid D M : minv m0 n tol ie D M → geo_laws A → valid_connectivity tol self → valid_connectivity tol other →
  (∀ e s, e ∈ elems self ∨ e ∈ elems other → smallest_edge e = Ok s → nltb (nofZ 0) s = true) →
  valid_connectivity tol M.
Proof.
  intros I G Vs Vo Hpos. pose proof (m0_valid G Vs Vo) as V0. destruct m0_fields as (F1 & F2 & F3 & F4).
  pose proof (mi_strip _ _ _ _ _ _ I) as S.
  pose proof (strip_fields _ _ S) as (G1 & G2 & _ & G4 & _). pose proof (proj1 (proj1 m0_wf)) as Hd0.
  destruct (glued_paired D M I) as [Pm HE].
  intros i b f r Hi Hr Hc. destruct (Pm i b f r Hi Hr Hc) as (j & g & r' & Hj & P & Hr' & Ht & P').
  assert (∀ (w : bcrec N) a c, points w a c → (a < nel m0)%nat → (c < 6)%nat → names w a c) as Hpn.
  { intros w a c [P1 P2] Ha Hcc. unfold names. rewrite P1, P2. rewrite !(law_trunc A bnd LA) by lia. done. }
  pose proof Hi as (I1 & I2 & I3). pose proof Hj as (J1 & J2 & J3).
  exists j, g, r'. split; [lia|]. split; [apply Hpn; try done; lia|]. split; [done|]. split; [done|]. split; [apply Hpn; try done; lia|].
  intros Et.
  assert (∀ (x y a c : nat), same_place tol m0 x a y c → same_place tol M x a y c) as Hsp.
  { intros x y a c (e & e' & c1 & c2 & s1 & s2 & E1 & E2 & E3 & E4 & E5 & E6 & E7).
    destruct (strip_elem_lookup _ _ _ _ (eq_sym S) E1) as (d & D1 & D2).
    destruct (strip_elem_lookup _ _ _ _ (eq_sym S) E2) as (d' & D1' & D2').
    exists d, d', c1, c2, s1, s2. split_and!; try done.
    - rewrite <- E3. by apply face_center_strip.
    - rewrite <- E4. by apply face_center_strip.
    - rewrite <- E5. by apply smallest_edge_strip.
    - rewrite <- E6. by apply smallest_edge_strip. }
  apply Hsp. destruct (HE i b f r Hi Hr Et) as (z & w & -> & Pw & Hcases).
  assert (∀ w : nat * nat, points r w.1 w.2 → inm m0 w → w = (j, g)) as Hwj.
  { intros u Pu Iu. eapply (points_inj m0 n bnd LA m0_wf); try done; try lia. unfold inm. cbn. lia. }
  assert (∀ x y, con m0 n tol ie x y → ∃ e e' c c' s s', elems m0 !! x.1 = Some e ∧ elems m0 !! y.1 = Some e' ∧
    face_center e (Z.of_nat x.2) = Ok c ∧ face_center e' (Z.of_nat y.2) = Ok c' ∧ smallest_edge e = Ok s ∧ smallest_edge e' = Ok s' ∧
    nleb (nsqrt (dist2 c c')) (nmul tol (pymin s s')) = true ∧ nltb (nofZ 0) s = true ∧ nltb (nofZ 0) s' = true) as Hcon.
  { intros x y (_ & _ & _ & _ & _ & _ & (e & e' & E1 & E2 & Hcl)). unfold faces_close in Hcl.
    destruct (face_center e _) as [c|] eqn:C0; [|done]. destruct (face_center e' _) as [c'|] eqn:C1; [|done]. cbn [rbind] in Hcl.
    destruct (smallest_edge e) as [s|] eqn:S0; [|done]. destruct (smallest_edge e') as [s'|] eqn:S1; [|done]. cbn [rbind] in Hcl.
    injection Hcl as Hcl.
    assert (∀ d t, d ∈ elems m0 → smallest_edge d = Ok t → nltb (nofZ 0) t = true) as Hp.
    { intros d t Hdd Hst. rewrite F4 in Hdd. apply elem_of_app in Hdd as [Hdd|Hdd]; [apply (Hpos d t); auto|].
      apply elem_of_list_lookup in Hdd as [k Hk]. destruct (strip_elem_lookup _ _ _ _ Sadd Hk) as (d' & Hd' & Sd).
      apply (Hpos d' t); [right; by eapply elem_of_list_lookup_2|]. rewrite <- Hst. by apply smallest_edge_strip. }
    exists e, e', c, c', s, s'. split_and!; try done.
    - apply (Hp e); [by eapply elem_of_list_lookup_2|done].
    - apply (Hp e'); [by eapply elem_of_list_lookup_2|done]. }
  destruct Hcases as [Hz|[Hz|Hz]].
  - pose proof (mi_con _ _ _ _ _ _ I _ _ Hz) as Hcn. rewrite (Hwj w Pw) in Hcn by apply Hcn.
    destruct (Hcon _ _ Hcn) as (e & e' & c & c' & s & s' & E1 & E2 & E3 & E4 & E5 & E6 & E7 & E8 & E9).
    exists e, e', c, c', s, s'. split_and!; try done. apply (geo_le A G). by rewrite (geo_sym A G).
  - pose proof (mi_con _ _ _ _ _ _ I _ _ Hz) as Hcn. rewrite (Hwj w Pw) in Hcn by apply Hcn.
    destruct (Hcon _ _ Hcn) as (e & e' & c & c' & s & s' & E1 & E2 & E3 & E4 & E5 & E6 & E7 & E8 & E9).
    exists e', e, c', c, s', s. split_and!; try done. rewrite (geo_min A G s' s) by done. by apply (geo_le A G).
  - assert (in_mesh m0 i b f) as Hi0 by (unfold in_mesh; lia).
    destruct (V0 i b f r Hi0 Hz Hc) as (j2 & g2 & q & (J4 & J5) & [T1 T2] & _ & _ & _ & Hsp0).
    destruct P as [P1 P2]. rewrite P1, (law_trunc A bnd LA) in T1 by lia. rewrite P2, (law_trunc A bnd LA) in T2 by lia.
    assert (j2 = j) as -> by (injection T1; lia). assert (g2 = g) as -> by (injection T2; lia). by apply Hsp0.
Qed.
End Final.
