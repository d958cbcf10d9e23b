(** Proofs about merge: the types of the conditions. *)
From Verif Require Import Base Mesh Core Tools MeshLemmas MeshSpec CheckProofs OpsProofs GeoLaws MergeSpec MergeProofs DiscProofs.
From Coq Require Import Lia.
Open Scope Z_scope.

Section Types.
Context {A : arith}.
Notation N := (num A).
Implicit Types (r : bcrec N) (x y z : nat * nat) (m M : hexa N).

Lemma upd_types (g : nat * nat * nat → bcrec N → res (bcrec N * Z)) s l s' :
  (∀ xx r rd, g xx r = Ok rd → same_but_numbers r rd.1) → upd_loop g s l = Ok s' →
  ∀ i b f r, get_bc s'.1 i b f = Some r → ∃ r0, get_bc s.1 i b f = Some r0 ∧ same_but_numbers r0 r.
Proof.
  intros Hg H. unfold upd_loop in H.
  eapply (foldM_inv _ (λ s', ∀ i b f r, get_bc s'.1 i b f = Some r → ∃ r0, get_bc s.1 i b f = Some r0 ∧ same_but_numbers r0 r)); [..|exact H].
  { intros i b f r Hr. exists r. done. }
  intros s1 [[i b] f] s2 _ H1 Hs. unfold upd_step in Hs.
  destruct (get_bc (fst s1) i b f) as [q|] eqn:Eq; [|done]. cbn [of_opt rbind] in Hs.
  destruct (g (i, b, f) q) as [rd|] eqn:Er; [|done]. cbn [rbind] in Hs. injection Hs as <-. cbn [fst].
  intros i' b' f' r. rewrite get_bc_alter. case_decide as Hd; [|apply H1].
  injection Hd as -> -> ->. rewrite Eq. cbn. intros E. apply (inj Some) in E as <-.
  destruct (H1 i b f q Eq) as (r0 & ? & Ht). exists r0. split; [done|]. pose proof (Hg _ _ _ Er) as Hm. unfold same_but_numbers in *. congruence.
Qed.

(** ** The loop *)
Context (m0 : hexa N) (tol : N) (ie : bool).
Definition typed M : Prop := strip M = strip m0 ∧
  ∀ x b r, get_bc M x.1 b x.2 = Some r → ∃ r0, get_bc m0 x.1 b x.2 = Some r0 ∧ (r = r0 ∨ changed_entry tol (some_periodic m0) m0 b x r).

Lemma typed_periodic M x b r : typed M → get_bc M x.1 b x.2 = Some r → bt r = "P"%string → some_periodic m0.
Proof.
  intros [_ H] Hr Ht. destruct (H x b r Hr) as (r0 & Hr0 & [<-|[(E & _)|(_ & P)]]); [|congruence|done].
  exists x.1, b, x.2, r. done.
Qed.
Lemma typed_alter t iel ifc x b M : typed M →
  (t = "P"%string ∧ some_periodic m0 ∨
   t = "E"%string ∧ ∃ y, in_mesh m0 y.1 b y.2 ∧ iel = Z.of_nat y.1 + 1 ∧ ifc = Z.of_nat y.2 + 1 ∧ (touching tol m0 m0 x y ∨ touching tol m0 m0 y x)) →
  typed (alter_bc (link t iel ifc) x.1 b x.2 M).
Proof.
  intros [S H] Ht. split; [by rewrite strip_alter|]. intros x' b' r. rewrite get_bc_alter. case_decide as Hd; [|apply H].
  destruct x' as [i f], x as [i' f']. cbn [fst snd] in *. injection Hd as -> -> ->.
  destruct (get_bc M i' b f') as [q|] eqn:Eq; [|done]. cbn [fmap option_fmap option_map]. intros E. apply (inj Some) in E as <-.
  destruct (H (i', f') b q Eq) as (r0 & Hr0 & _). exists r0. split; [done|]. right.
  destruct Ht as [[-> P]|(-> & y & Hy & -> & -> & Tc)]; [by right|]. left. split; [done|]. exists y. done.
Qed.
Lemma typed_inner nb bc0 x s y : (nb ≤ nbc m0)%nat → (x.1 < nel m0)%nat → (x.2 < 2 * ndim m0)%nat → (y.1 < nel m0)%nat → (y.2 < 2 * ndim m0)%nat →
  typed s.1 → typed (merge_inner tol ie nb bc0 x.1 x.2 s y).1.1.
Proof.
  intros Hnb Hx1 Hx2 Hy1 Hy2 HI. destruct s as [M n], y as [y1 y2]. cbn [fst snd] in *. unfold merge_inner.
  destruct (elems M !! x.1) as [e0|] eqn:E0; [|done]. destruct (elems M !! y1) as [e1|] eqn:E1; [|done].
  destruct (get_bc M x.1 0 x.2) as [r0|] eqn:R0; [|done]. destruct (get_bc M y1 0 y2) as [r1|] eqn:R1; [|done].
  destruct (eligible ie (bt r1)); [|done]. destruct (faces_close tol e0 x.2 e1 y2) as [[|]|] eqn:Ec; [|done|done].
  assert (touching tol m0 m0 x (y1, y2)) as Hto.
  { destruct HI as [S _]. destruct (strip_elem_lookup _ _ _ _ S E0) as (d0 & D0 & S0). destruct (strip_elem_lookup _ _ _ _ S E1) as (d1 & D1 & S1).
    unfold faces_close in Ec. rewrite <- (face_center_strip _ _ _ S0), <- (face_center_strip _ _ _ S1), <- (smallest_edge_strip _ _ S0), <- (smallest_edge_strip _ _ S1) in Ec.
    destruct (face_center d0 _) as [c0|] eqn:C0; [|done]. destruct (face_center d1 _) as [c1|] eqn:C1; [|done]. cbn [rbind] in Ec.
    destruct (smallest_edge d0) as [s0|] eqn:Q0; [|done]. destruct (smallest_edge d1) as [s1|] eqn:Q1; [|done]. cbn [rbind] in Ec. injection Ec as Ec.
    exists d0, d1, c0, c1, s0, s1. done. }
  destruct (if String.eqb bc0 "P" && String.eqb (bt r1) "P" then relink_periodic nb r0 r1 M else Ok M) as [M1|] eqn:E; [|done]. cbn [fst].
  assert (typed M1) as H1.
  { destruct (String.eqb bc0 "P") eqn:Eb; [|cbn [andb] in E; by injection E as <-].
    destruct (String.eqb_spec (bt r1) "P") as [Ep|]; [|cbn [andb] in E; by injection E as <-]. cbn [andb] in E.
    pose proof (typed_periodic M (y1, y2) 0 r1 HI R1 Ep) as P. unfold relink_periodic in E.
    destruct (ntrunc (bp3 r0)) as [ip0|]; [|done]. destruct (ntrunc (bp3 r1)) as [ip1|]; [|done].
    destruct (ntrunc (bp4 r0)) as [fp0|]; [|done]. destruct (ntrunc (bp4 r1)) as [fp1|]; [|done]. cbn [rbind] in E.
    destruct (py_pos _ (ip0 - 1)) as [i0|]; [|done]. destruct (py_pos _ (ip1 - 1)) as [i1|]; [|done].
    destruct (py_pos 6 (fp0 - 1)) as [f0|]; [|done]. destruct (py_pos 6 (fp1 - 1)) as [f1|]; [|done]. injection E as <-.
    apply foldl_inv; [done|]. intros M2 b _ H2.
    apply (typed_alter "P" ip0 fp0 (i1, f1)); [|by left]. by apply (typed_alter "P" ip1 fp1 (i0, f0)); [|left]. }
  unfold glue. apply foldl_inv; [done|]. intros M2 b Hb H2. apply elem_of_range in Hb.
  apply (typed_alter "E" _ _ (y1, y2)).
  - apply (typed_alter "E" _ _ x); [done|]. right. split; [done|]. exists (y1, y2). cbn [fst snd]. unfold in_mesh. split; [lia|]. eauto.
  - right. split; [done|]. exists x. unfold in_mesh. split; [lia|]. eauto.
Qed.
Lemma typed_outer nb n1 s x : (nb ≤ nbc m0)%nat → (n1 ≤ nel m0)%nat → (x.1 < nel m0)%nat → (x.2 < 2 * ndim m0)%nat →
  typed s.1 → typed (merge_outer tol ie nb n1 (2 * ndim m0) s x).1.1.
Proof.
  intros Hnb Hn1 Hx1 Hx2 HI. unfold merge_outer. destruct x as [x1 x2]. cbn [fst snd] in *. destruct (get_bc (fst s) x1 0 x2) as [r0|]; [|done].
  destruct (eligible ie (bt r0)); [|done]. apply (loopS_inv _ (λ s, typed s.1)); [done|].
  intros s' [y1 y2] Hy H'. apply elem_of_prod2 in Hy. rewrite !elem_of_range in Hy. apply (typed_inner nb (bt r0) (x1, x2)); cbn [fst snd]; try done; lia.
Qed.
End Types.

Section Final.
Context {A : arith}.
Notation N := (num A).
Implicit Types (r : bcrec N) (x y z : nat * nat) (m M : hexa N).

Lemma touching_strip tol m M x y : strip m = strip M → touching (A:=A) tol m m x y → touching tol M M x y.
Proof.
  intros S (e & e' & c & c' & s & s' & E0 & E1 & C0 & C1 & S0 & S1 & H).
  destruct (strip_elem_lookup _ _ _ _ S E0) as (d0 & D0 & T0). destruct (strip_elem_lookup _ _ _ _ S E1) as (d1 & D1 & T1).
  exists d0, d1, c, c', s, s'. rewrite (face_center_strip _ _ _ T0), (face_center_strip _ _ _ T1), (smallest_edge_strip _ _ T0), (smallest_edge_strip _ _ T1). done.
Qed.
Lemma changed_strip tol (P Q : Prop) m M b x r : strip m = strip M → (P → Q) → changed_entry (A:=A) tol P m b x r → changed_entry tol Q M b x r.
Proof.
  intros S HP [(H & y & Hy & Hp & Ht)|[H Hq]]; [|right; by auto]. left. split; [done|]. exists y.
  destruct (strip_fields _ _ S) as (F1 & F2 & _ & F4 & _). unfold in_mesh in *. rewrite <- F1, <- F2, <- F4. split; [done|]. split; [done|].
  destruct Ht as [Ht|Ht]; [left|right]; by apply (touching_strip tol m).
Qed.
Lemma offset_types off k m m' : offset_connectivity off k m = Ok m' →
  ∀ i b f r, get_bc m' i b f = Some r → ∃ r0, get_bc m i b f = Some r0 ∧ same_but_numbers r0 r.
Proof.
  unfold offset_connectivity. destruct (upd_loop _ _ _) as [s1|] eqn:E1; [|done]. cbn [rbind].
  destruct (upd_loop _ s1 _) as [s2|] eqn:E2; [|done]. cbn [rbind]. intros H. injection H as <-. intros i b f r Hr.
  edestruct (λ H, upd_types _ _ _ _ H E2 i b f r Hr) as (q & Hq & Tq).
  { intros _ q rd Hg. unfold offset_bc1 in Hg. injection Hg as <-. cbn [fst]. unfold same_but_numbers. by destruct (_ <? _). }
  edestruct (λ H, upd_types _ _ _ _ H E1 i b f q Hq) as (q' & Hq' & Tq').
  { intros _ q1 rd Hg. unfold offset_bc3 in Hg. case_bool_decide; [|by injection Hg as <-].
    destruct (ntrunc _); [|done]. cbn [rbind] in Hg. injection Hg as <-. cbn [fst]. unfold same_but_numbers. by destruct (_ <? _). }
  exists q'. split; [done|]. unfold same_but_numbers in *. congruence.
Qed.
Lemma merge_types tol ie ia (self other m' : hexa N) n : merge tol ie ia self other = (m', Ok n) → length (elems self) = nel self →
  let per := some_periodic self ∨ some_periodic other in
  ∀ x b r, get_bc m' x.1 b x.2 = Some r →
    ((x.1 < nel self)%nat → ∃ r0, get_bc self x.1 b x.2 = Some r0 ∧ (r = r0 ∨ changed_entry tol per m' b x r)) ∧
    ((nel self ≤ x.1)%nat → ∃ r0, get_bc other (x.1 - nel self) b x.2 = Some r0 ∧ (same_but_numbers r0 r ∨ changed_entry tol per m' b x r)).
Proof.
  intros E Hl per. unfold merge in E. destruct (Nat.eqb_spec (ndim self) (ndim other)) as [Hd|]; cbn [negb] in E; [|done].
  destruct (lr1 self) as [|l1 ?]; [done|]. destruct (lr1 other) as [|l2 ?]; [done|]. destruct (negb (l1 =? l2)%nat); [done|].
  destruct (merge_append self other) as [m0|] eqn:Em; [|done].
  assert (∀ x b r, get_bc m0 x.1 b x.2 = Some r →
    ((x.1 < nel self)%nat → get_bc self x.1 b x.2 = Some r) ∧
    ((nel self ≤ x.1)%nat → ∃ r0, get_bc other (x.1 - nel self) b x.2 = Some r0 ∧ same_but_numbers r0 r)) as H0.
  { unfold merge_append in Em. destruct (offset_connectivity _ _ _) as [add|] eqn:Eo; [|done]. cbn [rbind] in Em. injection Em as <-.
    intros x b r. unfold get_bc at 1. cbn [elems set_elems set_elmap set_ncurv set_nel]. intros Hr. split; intros Hx.
    - by rewrite lookup_app_l in Hr by lia.
    - rewrite lookup_app_r in Hr by lia. rewrite Hl in Hr. by apply (offset_types _ _ _ _ Eo). }
  assert (some_periodic m0 → per) as HP.
  { intros (i & b & f & r & Hr & Ht). destruct (H0 (i, f) b r Hr) as [Hs Ho]. cbn [fst snd] in *. destruct (decide (i < nel self)%nat) as [Hi|Hi].
    - left. eexists _, _, _, r. split; [by apply Hs|done].
    - destruct Ho as (r0 & Hr0 & T); [lia|]. right. eexists _, _, _, r0. split; [exact Hr0|]. rewrite <- Ht. symmetry. exact (f_equal bt T). }
  assert (nbc m0 = nbc self ∧ nel m0 = (nel self + nel other)%nat) as [Nb Ne].
  { unfold merge_append in Em. destruct (offset_connectivity _ _ _) as [add|] eqn:Eo; [|done]. cbn [rbind] in Em. injection Em as <-. done. }
  assert (∀ M, typed m0 tol M → ∀ x b r, get_bc M x.1 b x.2 = Some r →
    ((x.1 < nel self)%nat → ∃ r0, get_bc self x.1 b x.2 = Some r0 ∧ (r = r0 ∨ changed_entry tol per M b x r)) ∧
    ((nel self ≤ x.1)%nat → ∃ r0, get_bc other (x.1 - nel self) b x.2 = Some r0 ∧ (same_but_numbers r0 r ∨ changed_entry tol per M b x r))) as Hfin.
  { intros M [S H] x b r Hr. destruct (H x b r Hr) as (r1 & Hr1 & T). destruct (H0 x b r1 Hr1) as [Hs Ho]. split; intros Hx.
    - exists r1. split; [by apply Hs|]. destruct T as [T|T]; [by left|right]. by apply (changed_strip tol (some_periodic m0) _ m0).
    - destruct (Ho Hx) as (r0 & Hr0 & T0). exists r0. split; [done|]. destruct T as [->|T]; [by left|right]. by apply (changed_strip tol (some_periodic m0) _ m0). }
  assert (typed m0 tol m0) as I0. { split; [done|]. intros x b r Hr. exists r. split; [done|]. by left. }
  destruct (_ || ia). { injection E as <- _. by apply Hfin. }
  pose proof (loopS_inv (merge_outer tol ie (Nat.min (nbc self) (nbc other)) (nel self) (2 * ndim m0)) (λ s, typed m0 tol s.1) (m0, 0)
    (prod2 (range2 (nel self) (nel m0)) (range (2 * ndim m0))) I0) as HL.
  destruct (loopS _ _ _) as [[M k] [u|]]; [|done]. injection E as <- _. apply Hfin. cbn [fst] in HL. apply HL.
  intros s [x1 x2] Hx HI. apply elem_of_prod2 in Hx. unfold range2 in Hx. rewrite elem_of_range, elem_of_seq in Hx.
  apply typed_outer; cbn [fst snd]; try done; lia.
Qed.
End Final.
