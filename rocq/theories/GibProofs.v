(** Proofs about generate_internal_bcs. *)
From Verif Require Import Base Mesh Core Tools MeshLemmas MeshSpec CheckProofs OpsProofs GeoLaws BoxProofs GibSpec.
From Coq Require Import Lia.

Section Gib.
Context {A : arith}.
Notation N := (num A).
Implicit Types (m : hexa N) (e : elem N) (r : bcrec N).
Context (m : hexa N) (tol : N) (scales : list N) (fc : list (list (N * N * N))) (lc0 : list (list bool)).
Hypothesis Hw : wf_mesh m.
Hypothesis Hscales : ∀ i e, elems m !! i = Some e → ∃ s, smallest_edge e = Ok s ∧ scales !! i = Some s.
Hypothesis Hfc : ∀ i e f, elems m !! i = Some e → (f < 2 * ndim m)%nat →
  ∃ c, face_center e (Z.of_nat f) = Ok c ∧ fc !! i ≫= (.!! f) = Some c.
Hypothesis Hlc0 : ∀ i f, (i < nel m)%nat → (f < 2 * ndim m)%nat →
  ∃ r, get_bc m i 0 f = Some r ∧ lc0 !! i ≫= (.!! f) = Some (negb (String.eqb (bt r) "")).

Lemma gib_close_iff i f j g : (i < nel m)%nat → (f < 2 * ndim m)%nat → (j < nel m)%nat → (g < 2 * ndim m)%nat →
  gib_close tol scales fc i f j g = true ↔ close_faces tol m i f j g.
Proof.
  intros Hi Hf Hj Hg. destruct Hw as [(_ & Hlen & _) _].
  destruct (lookup_lt_is_Some_2 (elems m) i) as [e He]; [lia|].
  destruct (lookup_lt_is_Some_2 (elems m) j) as [e' He']; [lia|].
  destruct (Hscales i e He) as (s & Es & Ls). destruct (Hscales j e' He') as (s' & Es' & Ls').
  destruct (Hfc i e f He Hf) as (c & Ec & Lc). destruct (Hfc j e' g He' Hg) as (c' & Ec' & Lc').
  unfold gib_close. rewrite Ls, Ls', Lc, Lc'. split.
  - intros H. exists e, e', c, c', s, s'. done.
  - intros (e1 & e2 & c1 & c2 & s1 & s2 & H1 & H2 & H3 & H4 & H5 & H6 & H7).
    rewrite He in H1. rewrite He' in H2. apply (inj Some) in H1, H2. subst e1 e2.
    rewrite Ec in H3. rewrite Ec' in H4. rewrite Es in H5. rewrite Es' in H6.
    injection H3 as <-. injection H4 as <-. injection H5 as <-. injection H6 as <-. done.
Qed.

Notation upd p i1 f1 i2 f2 := (λ i f, if decide ((i, f) = (i1, f1)) then Some (i2, f2)
   else if decide ((i, f) = (i2, f2)) then Some (i1, f1) else p i f).
Definition entry_of (p : nat → nat → option (nat * nat)) (i f : nat) r : bcrec N :=
  match p i f with Some (j, g) => link_full i f j g r | None => r end.

Record gib_inv (p : nat → nat → option (nat * nat)) (s : gib_state) : Prop := {
  gi_match : matching tol m p;
  gi_strip : strip s.1.1 = strip m;
  gi_shape : bshape s.1.1 = bshape m;
  gi_get : ∀ i b f, get_bc s.1.1 i b f = entry_of p i f <$> get_bc m i b f;
  gi_lc : ∀ i f, (i < nel m)%nat → (f < 2 * ndim m)%nat → ∃ r, get_bc m i 0 f = Some r ∧
     s.1.2 !! i ≫= (.!! f) = Some (negb (String.eqb (bt r) "") || bool_decide (is_Some (p i f)));
  gi_n : s.2 = Z.of_nat (nbc m) * Z.of_nat (connections m p)
}.

Lemma lc_set_get lc i f j g (b : bool) : lc !! i ≫= (.!! f) = Some b →
  lc_set j g lc !! i ≫= (.!! f) = Some (if decide ((i, f) = (j, g)) then true else b).
Proof.
  intros H. unfold lc_set. destruct (lc !! i) as [row|] eqn:E; cbn in H; [|done].
  destruct (decide (i = j)) as [->|Hne].
  - rewrite list_lookup_alter, E. cbn. destruct (decide (f = g)) as [->|Hne].
    + rewrite decide_True by done. rewrite list_lookup_insert; [done|]. by eapply lookup_lt_Some.
    + rewrite decide_False by congruence. by rewrite list_lookup_insert_ne.
  - rewrite list_lookup_alter_ne by done. rewrite E. cbn. rewrite decide_False by congruence. done.
Qed.

Lemma open_none p s i f : gib_inv p s → (i < nel m)%nat → (f < 2 * ndim m)%nat →
  lc_get s.1.2 i f = false ↔ open_face m i f ∧ p i f = None.
Proof.
  intros I Hi Hf. destruct (gi_lc p s I i f Hi Hf) as (r & Hr & Hlc). unfold lc_get.
  change (from_option id true _) with (default true (s.1.2 !! i ≫= (.!! f))) || idtac.
  replace (row ← s.1.2 !! i; row !! f) with (s.1.2 !! i ≫= (.!! f)) by done. rewrite Hlc. cbn.
  unfold open_face. rewrite orb_false_iff, negb_false_iff, String.eqb_eq, bool_decide_eq_false.
  rewrite <- eq_None_not_Some. split.
  - intros [H1 H2]. split; [|done]. split; [done|]. eauto.
  - intros [(_ & r' & Hr' & H1) H2]. rewrite Hr in Hr'. by injection Hr' as <-.
Qed.

Lemma connect_get i1 f1 i2 f2 (mm : hexa N) l i b f : NoDup l → (i1, f1) ≠ (i2, f2) →
  get_bc (foldl (gib_connect i1 f1 i2 f2) mm l) i b f =
  (if decide (b ∈ l) then
     if decide ((i, f) = (i1, f1)) then link_full i1 f1 i2 f2 <$> get_bc mm i b f
     else if decide ((i, f) = (i2, f2)) then link_full i2 f2 i1 f1 <$> get_bc mm i b f
     else get_bc mm i b f
   else get_bc mm i b f).
Proof.
  intros Hnd Hne. revert mm. induction l as [|x l IH]; intros mm; [by rewrite decide_False by apply not_elem_of_nil|].
  apply NoDup_cons in Hnd as [Hx Hnd]. cbn [foldl]. rewrite IH by done.
  assert (get_bc (gib_connect i1 f1 i2 f2 mm x) i b f =
    if decide (b = x) then
      if decide ((i, f) = (i1, f1)) then link_full i1 f1 i2 f2 <$> get_bc mm i b f
      else if decide ((i, f) = (i2, f2)) then link_full i2 f2 i1 f1 <$> get_bc mm i b f
      else get_bc mm i b f
    else get_bc mm i b f) as E.
  { unfold gib_connect. rewrite !get_bc_alter. repeat case_decide; simplify_eq; done. }
  destruct (decide (b ∈ l)) as [Hb|Hb].
  - rewrite (decide_True (P:=b ∈ x :: l)) by (by right).
    assert (b ≠ x) by (intros ->; done). rewrite E. rewrite !(decide_False (P:=b = x)) by done. done.
  - destruct (decide (b = x)) as [->|Hbx].
    + rewrite (decide_True (P:=x ∈ x :: l)) by left. rewrite E. done.
    + rewrite (decide_False (P:=b ∈ x :: l)) by (intros H; apply elem_of_cons in H as [?|?]; done).
      rewrite E. done.
Qed.
Lemma connect_strip i1 f1 i2 f2 (mm : hexa N) l : strip (foldl (gib_connect i1 f1 i2 f2) mm l) = strip mm ∧
  bshape (foldl (gib_connect i1 f1 i2 f2) mm l) = bshape mm.
Proof.
  apply (foldl_inv _ (λ m', strip m' = strip mm ∧ bshape m' = bshape mm)); [done|].
  intros m' b _ [H1 H2]. unfold gib_connect. by rewrite !strip_alter, !bshape_alter.
Qed.

Lemma filter_flip (q q' : nat * nat → bool) l x : NoDup l → x ∈ l → q x = false → q' x = true →
  (∀ y, y ≠ x → q' y = q y) → length (List.filter q' l) = S (length (List.filter q l)).
Proof.
  intros Hn Hx H0 H1 Ho. induction l as [|y l IH]; [by apply elem_of_nil in Hx|].
  apply NoDup_cons in Hn as [Hy Hn]. cbn. destruct (decide (y = x)) as [->|Hne].
  - rewrite H0, H1. cbn. f_equal. f_equal. clear -Hy Ho. induction l as [|z l IH]; [done|]. cbn.
    rewrite not_elem_of_cons in Hy. destruct Hy as [Hz Hy]. rewrite (Ho z) by done. by rewrite IH.
  - apply elem_of_cons in Hx as [->|Hx]; [done|]. rewrite (Ho y) by done.
    destruct (q y); cbn; rewrite IH by done; done.
Qed.

Lemma gib_connect_inv p s i1 f1 i2 f2 : gib_inv p s →
  (i1 < i2)%nat → (i2 < nel m)%nat → (f1 < 2 * ndim m)%nat → (f2 < 2 * ndim m)%nat →
  lc_get s.1.2 i1 f1 = false → lc_get s.1.2 i2 f2 = false → close_faces tol m i1 f1 i2 f2 →
  gib_inv (upd p i1 f1 i2 f2)
    (foldl (gib_connect i1 f1 i2 f2) s.1.1 (range (nbc s.1.1)), lc_set i2 f2 (lc_set i1 f1 s.1.2),
     s.2 + Z.of_nat (nbc s.1.1)).
Proof.
  intros I H12 Hi2 Hf1 Hf2 L1 L2 Hc.
  apply (open_none p s i1 f1 I) in L1 as [O1 P1]; [|lia|done].
  apply (open_none p s i2 f2 I) in L2 as [O2 P2]; [|lia|done].
  assert ((i1, f1) ≠ (i2, f2)) as Hne by (intros [= ? ?]; lia).
  assert (nbc s.1.1 = nbc m) as Hnb.
  { pose proof (gi_strip p s I) as S. by apply strip_fields in S as (_ & _ & _ & ? & _). }
  destruct (connect_strip i1 f1 i2 f2 s.1.1 (range (nbc s.1.1))) as [S' B'].
  split; cbn [fst snd].
  - intros i f j g Hp. destruct (decide ((i, f) = (i1, f1))) as [[= -> ->]|Hn1].
    { injection Hp as <- <-. rewrite decide_False by done. rewrite decide_True by done.
      split_and!; try done. lia. }
    destruct (decide ((i, f) = (i2, f2))) as [[= -> ->]|Hn2].
    { injection Hp as <- <-. rewrite decide_True by done. split_and!; try done; lia. }
    destruct (gi_match p s I i f j g Hp) as (M1 & M2 & M3 & M4 & M5).
    rewrite decide_False by congruence. rewrite decide_False by congruence. done.
  - rewrite S'. apply (gi_strip p s I).
  - rewrite B'. apply (gi_shape p s I).
  - intros i b f. rewrite connect_get by (apply NoDup_range || done).
    rewrite (gi_get p s I). unfold entry_of.
    destruct (get_bc m i b f) as [r|] eqn:Er; [|cbn; by repeat case_decide].
    assert (b ∈ range (nbc s.1.1)) as Hb.
    { apply elem_of_range. rewrite Hnb. destruct Hw as [(_ & _ & Hrows) _]. unfold get_bc in Er.
      destruct (elems m !! i) as [e|] eqn:Ee; cbn in Er; [|done].
      destruct (Hrows e) as [<- _]; [by eapply elem_of_list_lookup_2|].
      destruct (bcs e !! b) eqn:Eb; cbn in Er; [|done]. by eapply lookup_lt_Some. }
    rewrite (decide_True (P:=b ∈ _)) by done. cbn [fmap option_fmap option_map].
    destruct (decide ((i, f) = (i1, f1))) as [[= -> ->]|Hn1]; [by rewrite P1|].
    destruct (decide ((i, f) = (i2, f2))) as [[= -> ->]|Hn2]; [by rewrite P2|]. done.
  - intros i f Hi Hf. destruct (gi_lc p s I i f Hi Hf) as (r & Hr & Hlc). exists r. split; [done|].
    rewrite (lc_set_get _ _ _ _ _ _ (lc_set_get _ _ _ _ _ _ Hlc)).
    destruct (decide ((i, f) = (i2, f2))) as [[= -> ->]|Hn2].
    { rewrite (decide_False (P:=(i2,f2)=(i1,f1))) by done. by rewrite bool_decide_true, orb_true_r. }
    destruct (decide ((i, f) = (i1, f1))) as [[= -> ->]|Hn1]; [by rewrite bool_decide_true, orb_true_r|].
    done.
  - rewrite (gi_n p s I), Hnb. unfold connections.
    rewrite (filter_flip (forward p) (forward (upd p i1 f1 i2 f2)) _ (i1, f1)); [lia|..].
    + apply NoDup_prod2; apply NoDup_range.
    + apply elem_of_prod2. rewrite !elem_of_range. lia.
    + unfold forward. cbn. by rewrite P1.
    + unfold forward. cbn. rewrite decide_True by done. apply Nat.ltb_lt. lia.
    + intros [i f] Hn. unfold forward. cbn [fst snd]. rewrite (decide_False (P:=_ = (i1, f1))) by done.
      destruct (decide ((i, f) = (i2, f2))) as [[= -> ->]|]; [|done].
      rewrite P2. apply Nat.ltb_ge. lia.
Qed.

(** One search. *)
Lemma gib_search_inv i1 f1 : (f1 < 2 * ndim m)%nat → ∀ cands p s, gib_inv p s →
  (∀ x, x ∈ cands → (i1 < x.1 < nel m)%nat ∧ (x.2 < 2 * ndim m)%nat) →
  (i1 < nel m)%nat → lc_get s.1.2 i1 f1 = false →
  ∃ p', gib_inv p' (gib_search tol scales fc i1 f1 s cands) ∧
    (∀ i f j g, p i f = Some (j, g) → p' i f = Some (j, g)) ∧
    (p' i1 f1 = None → ∀ i2 f2, (i2, f2) ∈ cands → open_face m i2 f2 → p' i2 f2 = None →
       ¬ close_faces tol m i1 f1 i2 f2).
Proof.
  intros Hf1. induction cands as [|[i2 f2] cands IH]; intros p [[m' lc] n] I Hc Hi1 L1.
  - exists p. cbn. split; [done|]. split; [done|]. intros _ i2 f2 Hin. by apply elem_of_nil in Hin.
  - destruct (Hc (i2, f2)) as [H12 Hf2]; [left|]. cbn [fst snd] in *. cbn [gib_search].
    destruct (lc_get lc i2 f2) eqn:L2; cbn [negb andb].
    + destruct (IH p (m', lc, n) I) as (p' & I' & He & Hn); [intros; apply Hc; by right|done|done|].
      exists p'. split; [done|]. split; [done|]. intros P1 j g Hin Ho Hp.
      apply elem_of_cons in Hin as [[= -> ->]|Hin]; [|by apply Hn].
      exfalso. assert (p i2 f2 = None) as Hp0.
      { destruct (p i2 f2) as [[a b]|] eqn:E; [|done]. rewrite (He _ _ _ _ E) in Hp. done. }
      assert (lc_get lc i2 f2 = false) as X; [|congruence].
      apply (open_none p (m', lc, n) i2 f2 I); [lia|done|done].
    + destruct (gib_close tol scales fc i1 f1 i2 f2) eqn:Ec.
      * eexists. split; [apply (gib_connect_inv p (m', lc, n) i1 f1 i2 f2 I); try done; try lia|].
        { apply gib_close_iff in Ec; [done|lia|lia|lia|lia]. }
        apply (open_none p (m', lc, n) i1 f1 I) in L1 as [O1 P1]; [|lia|done].
        apply (open_none p (m', lc, n) i2 f2 I) in L2 as [O2 P2]; [|lia|done].
        split.
        { intros i f j g Hp. rewrite decide_False by congruence. by rewrite decide_False by congruence. }
        rewrite decide_True by done. done.
      * destruct (IH p (m', lc, n) I) as (p' & I' & He & Hn); [intros; apply Hc; by right|done|done|].
        exists p'. split; [done|]. split; [done|]. intros P1 j g Hin Ho Hp.
        apply elem_of_cons in Hin as [[= -> ->]|Hin]; [|by apply Hn].
        rewrite <- gib_close_iff by lia. by rewrite Ec.
Qed.

Lemma foldl_same {X Y} (f g : X → Y → X) a l : (∀ x y, f x y = g x y) → foldl f a l = foldl g a l.
Proof. intros H. revert a. induction l as [|y l IH]; intros a; [done|]. cbn. by rewrite H, IH. Qed.

(** The whole loop. *)
Definition gib_step (s : gib_state) (x : nat * nat) : gib_state :=
  if lc_get (s.1.2) x.1 x.2 then s
  else gib_search tol scales fc x.1 x.2 s (prod2 (range2 (S x.1) (nel m)) (range (2 * ndim m))).
Lemma elem_of_range2 i a b : i ∈ range2 a b ↔ (a ≤ i < b)%nat.
Proof. unfold range2. rewrite elem_of_seq. lia. Qed.

Lemma gib_loop : ∃ p, gib_inv p (foldl gib_step (m, lc0, 0) (prod2 (range (nel m)) (range (2 * ndim m)))) ∧
  complete tol m p.
Proof.
  pose (P := λ (dn : list (nat * nat)) (s : gib_state), ∃ p, gib_inv p s ∧
    ∀ i f j g, (i, f) ∈ dn → (i < j)%nat → open_face m i f → open_face m j g → p i f = None → p j g = None →
      ¬ close_faces tol m i f j g).
  assert (P (prod2 (range (nel m)) (range (2 * ndim m)))
    (foldl gib_step (m, lc0, 0) (prod2 (range (nel m)) (range (2 * ndim m))))) as (p & I & H).
  { apply (foldl_inv_done gib_step P).
    - exists (λ _ _, None). split; [|intros i f j g Hin; by apply elem_of_nil in Hin].
      split; cbn [fst snd].
      + intros i f j g [=].
      + done.
      + done.
      + intros i b f. unfold entry_of. by destruct (get_bc m i b f).
      + intros i f Hi Hf. destruct (Hlc0 i f Hi Hf) as (r & Hr & Hl). exists r. split; [done|].
        rewrite Hl. rewrite bool_decide_false by (by intros [? ?]). by rewrite orb_false_r.
      + unfold connections. replace (List.filter _ _) with (@nil (nat * nat)); [cbn; lia|].
        generalize (prod2 (range (nel m)) (range (2 * ndim m))). intros l. by induction l.
    - intros dn [i1 f1] rest s El (p & I & Hd).
      assert ((i1, f1) ∈ prod2 (range (nel m)) (range (2 * ndim m))) as Hin.
      { rewrite El. apply elem_of_app. right. left. }
      apply elem_of_prod2 in Hin. rewrite !elem_of_range in Hin. destruct Hin as [Hi1 Hf1].
      unfold gib_step. cbn [fst snd]. destruct (lc_get s.1.2 i1 f1) eqn:L1.
      + exists p. split; [done|]. intros i f j g Hin Hij Oi Oj Pi Pj.
        apply elem_of_app in Hin as [Hin|Hin]; [by apply Hd|].
        apply elem_of_list_singleton in Hin. injection Hin as -> ->. exfalso.
        assert (lc_get s.1.2 i1 f1 = false) as X; [|congruence]. by apply (open_none p s).
      + destruct (gib_search_inv i1 f1 Hf1 (prod2 (range2 (S i1) (nel m)) (range (2 * ndim m))) p s I)
          as (p' & I' & He & Hn); [|done|done|].
        { intros [i f] Hin. apply elem_of_prod2 in Hin. rewrite elem_of_range2, elem_of_range in Hin. cbn. lia. }
        exists p'. split; [done|]. intros i f j g Hin Hij Oi Oj Pi Pj.
        assert (∀ i f, p' i f = None → p i f = None) as Hnone.
        { intros a b Hab. destruct (p a b) as [[c d]|] eqn:E; [|done]. rewrite (He _ _ _ _ E) in Hab. done. }
        apply elem_of_app in Hin as [Hin|Hin]; [apply Hd; auto|].
        apply elem_of_list_singleton in Hin. injection Hin as -> ->.
        apply Hn; try done. apply elem_of_prod2. rewrite elem_of_range2, elem_of_range.
        destruct Oj as [[? ?] _]. lia. }
  exists p. split; [done|]. intros i f j g Hij Oi Oj. apply H; try done.
  apply elem_of_prod2. rewrite !elem_of_range. by destruct Oi as [? _].
Qed.
End Gib.

Section Final.
Context {A : arith}.
Notation N := (num A).
Implicit Types (e : elem N) (r : bcrec N).

Lemma is_connected_of_inv (m : hexa N) tol p s : gib_inv m tol p s → is_connected m p s.1.1.
Proof.
  intros I. split.
  - apply same_but_bcs_of; [apply (gi_strip _ _ _ _ I)|apply (gi_shape _ _ _ _ I)].
  - intros i b f r Hr. rewrite (gi_get _ _ _ _ I), Hr. eexists. split; [reflexivity|].
    unfold entry_of. destruct (p i f) as [[j g]|]; [|done]. unfold link_full.
    unfold connected_entry, points. cbn. done.
Qed.

Lemma generate_internal_bcs_spec (m : hexa N) tol : wf_mesh m → (1 ≤ nbc m)%nat →
  (∀ e s, e ∈ elems m → smallest_edge e = Ok s → nleb s (nofZ 0) = false) →
  ∃ m' n p, generate_internal_bcs tol m = Ok (m', n) ∧ matching tol m p ∧ is_connected m p m' ∧
    complete tol m p ∧ n = Z.of_nat (nbc m) * Z.of_nat (connections m p) ∧
    strip m' = strip m ∧ bshape m' = bshape m.
Proof.
  intros Hw Hnb Hs. pose proof Hw as [(Hd & Hlen & Hrows) Hgeo].
  unfold generate_internal_bcs. rewrite (proj2 (Nat.eqb_eq _ _) Hlen). cbn [negb].
  assert (∃ sc, gib_scales m = Ok sc ∧ ∀ i e, elems m !! i = Some e →
    ∃ s, smallest_edge e = Ok s ∧ sc !! i = Some s) as (sc & -> & Hsc).
  { pose (g := λ e, match smallest_edge e with Ok s => s | Raise _ => nofZ 0 end).
    exists (g <$> elems m). split.
    - apply mapR_total. intros e He. destruct (smallest_edge_Ok e (Hgeo e He)) as [s Es].
      unfold g. rewrite Es. cbn [rbind]. by rewrite (Hs e s He Es).
    - intros i e He. destruct (smallest_edge_Ok e) as [s Es]; [by eapply Hgeo, elem_of_list_lookup_2|].
      exists s. split; [done|]. rewrite list_lookup_fmap, He. cbn. unfold g. by rewrite Es. }
  cbn [rbind].
  assert (∃ tab, gib_centres m = Ok tab ∧ ∀ i e f, elems m !! i = Some e → (f < 2 * ndim m)%nat →
    ∃ c r, face_center e (Z.of_nat f) = Ok c ∧ get_bc m i 0 f = Some r ∧
      tab !! i ≫= (.!! f) = Some (c, negb (String.eqb (bt r) ""))) as (tab & -> & Htab).
  { pose (g1 := λ e f, match face_center e (Z.of_nat f) with Ok c => c | Raise _ => (nofZ 0, nofZ 0, nofZ 0) end).
    pose (g2 := λ e f, match ebc e 0 f with Ok r => negb (String.eqb (bt r) "") | Raise _ => true end).
    pose (row := λ i, match elems m !! i with Some e => (λ f, (g1 e f, g2 e f)) <$> range (2 * ndim m) | None => [] end).
    assert (∀ i e f, elems m !! i = Some e → (f < 2 * ndim m)%nat → ∃ c r, face_center e (Z.of_nat f) = Ok c ∧
      get_bc m i 0 f = Some r ∧ ebc e 0 f = Ok r) as H.
    { intros i e f He Hf. destruct (face_center_Ok e (Z.of_nat f)) as [c Ec].
      { eapply Hgeo, elem_of_list_lookup_2, He. }
      { lia. }
      destruct (wf_get_bc m i 0 f) as [r Hr]; [apply Hw|apply lookup_lt_Some in He; lia|lia|lia|].
      exists c, r. split_and!; [done|done|]. unfold get_bc in Hr. rewrite He in Hr. cbn in Hr.
      unfold ebc. cbn in *. destruct (bcs e !! 0%nat) as [rw|]; cbn in *; [|done]. by rewrite Hr. }
    exists (row <$> range (nel m)). split.
    - apply mapR_total. intros i Hi. apply elem_of_range in Hi.
      destruct (lookup_lt_is_Some_2 (elems m) i) as [e He]; [lia|]. unfold row. rewrite He. cbn [of_opt rbind].
      apply mapR_total. intros f Hf. apply elem_of_range in Hf. destruct (H i e f He Hf) as (c & r & Ec & _ & Er).
      unfold g1, g2. by rewrite Ec, Er.
    - intros i e f He Hf. destruct (H i e f He Hf) as (c & r & Ec & Hr & Er). exists c, r. split_and!; [done|done|].
      rewrite list_lookup_fmap. unfold range at 1. rewrite lookup_seq_lt by (apply lookup_lt_Some in He; lia).
      cbn. unfold row. rewrite He. rewrite list_lookup_fmap. unfold range. rewrite lookup_seq_lt by lia. cbn.
      unfold g1, g2. by rewrite Ec, Er. }
  cbn [rbind].
  destruct (gib_loop m tol sc ((λ row : list (N * N * N * bool), row.*1) <$> tab)
    ((λ row : list (N * N * N * bool), row.*2) <$> tab)) as (p & I & Hcomp).
  - done.
  - done.
  - intros i e f He Hf. destruct (Htab i e f He Hf) as (c & r & Ec & _ & Ht). exists c. split; [done|].
    rewrite list_lookup_fmap. destruct (tab !! i) as [rw|]; cbn in *; [|done].
    rewrite list_lookup_fmap, Ht. done.
  - intros i f Hi Hf. destruct (lookup_lt_is_Some_2 (elems m) i) as [e He]; [lia|].
    destruct (Htab i e f He Hf) as (c & r & Ec & Hr & Ht). exists r. split; [done|].
    rewrite list_lookup_fmap. destruct (tab !! i) as [rw|]; cbn in *; [|done].
    rewrite list_lookup_fmap, Ht. done.
  - match goal with |- context [foldl ?f ?a ?l] => replace (foldl f a l) with
      (foldl (gib_step m tol sc ((λ row : list (N * N * N * bool), row.*1) <$> tab)) a l) end.
    2: { apply foldl_same. intros ? [? ?]. done. }
    destruct (foldl _ _ _) as [[m' lc] n] eqn:Ef. exists m', n, p.
    split; [done|]. split; [apply (gi_match _ _ _ _ I)|].
    split; [apply (is_connected_of_inv m tol p _ I)|]. split; [done|].
    split; [apply (gi_n _ _ _ _ I)|]. split; [apply (gi_strip _ _ _ _ I)|apply (gi_shape _ _ _ _ I)].
Qed.
End Final.

(** Validity. *)
Section Valid.
Context {A : arith}.
Notation N := (num A).

(** The faces with an empty condition in the first field are not connected in another field. *)
Lemma connected_paired (m m' : hexa N) tol p : wf_mesh m → paired m →
  (∀ i b f r, open_face m i f → get_bc m i b f = Some r → ¬ is_conn (bt r)) →
  matching tol m p → is_connected m p m' → paired m'.
Proof.
  intros Hw Hp Ho Hm [Hs He] i b f r Hi Hr Hc.
  pose proof Hs as [Hf _]. unfold set_elems in Hf. injection Hf as Fd Fn _ Fb _ _ _ _ _ _ _ _.
  assert (in_mesh m i b f) as Hi0 by (unfold in_mesh in *; lia).
  destruct (wf_get_bc m i b f) as [q Hq]; [apply Hw|unfold in_mesh in Hi0; destruct (proj1 (proj1 Hw)); lia..|].
  destruct (He i b f q Hq) as (q' & Hq' & Hent). rewrite Hr in Hq'. apply (inj Some) in Hq'. subst q'.
  destruct (p i f) as [[j g]|] eqn:Ep.
  - destruct (Hm i f j g Ep) as (Ep' & Hij & Oi & Oj & _).
    destruct Oj as [[Oj1 Oj2] _]. assert (in_mesh m j b g) as Hj by (unfold in_mesh in *; lia).
    destruct (wf_get_bc m j b g) as [w Hww]; [apply Hw|unfold in_mesh in Hj; destruct (proj1 (proj1 Hw)); lia..|].
    destruct (He j b g w Hww) as (w' & Hw' & Hent'). rewrite Ep' in Hent'.
    destruct Hent as (E1 & _ & _ & E2 & _), Hent' as (E1' & _ & _ & E2' & _).
    exists j, g, w'. split; [unfold in_mesh in *; lia|]. split; [done|]. split; [done|]. split; [congruence|done].
  - subst r. destruct (Hp i b f q Hi0 Hq Hc) as (j & g & w & Hj & P1 & Hww & Ht & P2).
    destruct (He j b g w Hww) as (w' & Hw' & Hent'). exists j, g, w'.
    split; [unfold in_mesh in *; lia|]. split; [done|]. split; [done|].
    destruct (p j g) as [[i2 f2]|] eqn:Ep'; [|by subst w'].
    exfalso. destruct (Hm j g i2 f2 Ep') as (_ & _ & Oj & _). apply (Ho j b g w Oj Hww). by rewrite Ht.
Qed.

Lemma connected_valid (m m' : hexa N) tol p bnd : geo_laws A → arith_laws A bnd →
  Z.of_nat (nel m) <= bnd → 6 <= bnd →
  wf_mesh m → valid_connectivity tol m →
  (∀ i b f r, open_face m i f → get_bc m i b f = Some r → ¬ is_conn (bt r)) →
  (∀ e s, e ∈ elems m → smallest_edge e = Ok s → nltb (nofZ 0) s = true) →
  matching tol m p → is_connected m p m' → valid_connectivity tol m'.
Proof.
  intros G LA Hbn H6 Hw Hp Ho Hpos Hm [Hs He] i b f r Hi Hr Hc.
  pose proof Hs as [Hf HF]. unfold set_elems in Hf. injection Hf as Fd Fn _ Fb _ _ _ _ _ _ _ _.
  assert (in_mesh m i b f) as Hi0 by (unfold in_mesh in *; lia).
  assert (∀ x y a c, same_place tol m x a y c → same_place tol m' x a y c) as Hsp.
  { intros x y a c (e & e' & c1 & c2 & s1 & s2 & E1 & E2 & E3 & E4 & E5 & E6 & E7).
    destruct (Forall2_lookup_l _ _ _ _ _ HF E1) as (d & D1 & D2 & _).
    destruct (Forall2_lookup_l _ _ _ _ _ HF E2) as (d' & D1' & D2' & _).
    exists d, d', c1, c2, s1, s2. split_and!; try done.
    - rewrite <- E3. by apply face_center_strip.
    - rewrite <- E4. by apply face_center_strip.
    - rewrite <- E5. by apply smallest_edge_strip.
    - rewrite <- E6. by apply smallest_edge_strip. }
  destruct (wf_get_bc m i b f) as [q Hq]; [apply Hw|unfold in_mesh in Hi0; destruct (proj1 (proj1 Hw)); lia..|].
  destruct (He i b f q Hq) as (q' & Hq' & Hent). rewrite Hr in Hq'. apply (inj Some) in Hq'. subst q'.
  assert (∀ (w : bcrec N) x y, points w x y → (x < nel m)%nat → (y < 6)%nat → names w x y) as Hpn.
  { intros w x y [P1 P2] Hx Hy. unfold names. rewrite P1, P2.
    rewrite !(law_trunc A bnd LA) by lia. done. }
  destruct (p i f) as [[j g]|] eqn:Ep.
  - destruct (Hm i f j g Ep) as (Ep' & Hij & Oi & Oj & Hcl).
    destruct Oj as [[Oj1 Oj2] _]. assert (in_mesh m j b g) as Hj by (unfold in_mesh in *; lia).
    destruct (wf_get_bc m j b g) as [w Hww]; [apply Hw|unfold in_mesh in Hj; destruct (proj1 (proj1 Hw)); lia..|].
    destruct (He j b g w Hww) as (w' & Hw' & Hent'). rewrite Ep' in Hent'.
    destruct Hent as (E1 & _ & _ & E2 & _), Hent' as (E1' & _ & _ & E2' & _).
    destruct Hi0 as (? & ? & ?). pose proof (proj1 (proj1 Hw)) as Hd.
    exists j, g, w'. split; [lia|]. split; [apply Hpn; try done; lia|]. split; [done|]. split; [congruence|].
    split; [apply Hpn; try done; lia|]. intros _. apply Hsp.
    destruct (decide (i < j)%nat) as [Hlt|Hge].
    + destruct (Hcl Hlt) as (e & e' & c & c' & s & s' & D1 & D2 & D3 & D4 & D5 & D6 & D7).
      exists e, e', c, c', s, s'. split_and!; try done.
      apply (geo_le A G). by rewrite (geo_sym A G).
    + destruct (Hm j g i f Ep') as (_ & _ & _ & _ & Hcl'). destruct Hcl' as (e & e' & c & c' & s & s' & D1 & D2 & D3 & D4 & D5 & D6 & D7); [lia|].
      exists e', e, c', c, s', s. split_and!; try done. rewrite (geo_min A G s' s).
      * by apply (geo_le A G).
      * apply (Hpos e' s'); [by eapply elem_of_list_lookup_2|done].
      * apply (Hpos e s); [by eapply elem_of_list_lookup_2|done].
  - subst r. destruct (Hp i b f q Hi0 Hq Hc) as (j & g & w & Hj & P1 & Hww & Ht & P2 & Hplace).
    destruct (He j b g w Hww) as (w' & Hw' & Hent'). exists j, g, w'.
    split; [lia|]. split; [done|]. split; [done|].
    destruct (p j g) as [[i2 f2]|] eqn:Ep'.
    + exfalso. destruct (Hm j g i2 f2 Ep') as (_ & _ & Oj & _). apply (Ho j b g w Oj Hww). by rewrite Ht.
    + subst w'. split; [done|]. split; [done|]. intros E. by apply Hsp, Hplace.
Qed.
End Valid.
