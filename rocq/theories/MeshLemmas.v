(** Reasoning principles about loops and about reading and writing boundary
    condition entries. *)
From Verif Require Import Base Mesh Core.
From Coq Require Import Lia.

(** ** Lists of indices *)
Lemma elem_of_range i n : i ∈ range n ↔ (i < n)%nat.
Proof. unfold range. rewrite elem_of_seq. lia. Qed.
Lemma elem_of_range2 i a b : i ∈ range2 a b ↔ (a ≤ i ∧ i < b)%nat.
Proof. unfold range2. rewrite elem_of_seq. lia. Qed.
Lemma NoDup_range n : NoDup (range n).
Proof. apply NoDup_seq. Qed.
Lemma NoDup_range2 a b : NoDup (range2 a b).
Proof. apply NoDup_seq. Qed.
Lemma length_range n : length (range n) = n.
Proof. apply seq_length. Qed.
Lemma lookup_range n i : (i < n)%nat → range n !! i = Some i.
Proof. intros. unfold range. rewrite lookup_seq_lt; auto. Qed.

Lemma elem_of_prod2 {A B} (l1 : list A) (l2 : list B) a b :
  (a, b) ∈ prod2 l1 l2 ↔ a ∈ l1 ∧ b ∈ l2.
Proof.
  unfold prod2. rewrite elem_of_list_bind. split.
  - intros (a' & H & Ha). apply elem_of_list_fmap in H as (b' & [= -> ->] & Hb). done.
  - intros [Ha Hb]. exists a. split; [|done]. apply elem_of_list_fmap. eauto.
Qed.
Lemma elem_of_prod3 {A B C} (l1 : list A) (l2 : list B) (l3 : list C) a b c :
  (a, b, c) ∈ prod3 l1 l2 l3 ↔ a ∈ l1 ∧ b ∈ l2 ∧ c ∈ l3.
Proof.
  unfold prod3. rewrite elem_of_list_bind. split.
  - intros (a' & H & Ha). apply elem_of_list_bind in H as (b' & H & Hb).
    apply elem_of_list_fmap in H as (c' & [= -> -> ->] & Hc). done.
  - intros (Ha & Hb & Hc). exists a. split; [|done]. apply elem_of_list_bind. exists b.
    split; [|done]. apply elem_of_list_fmap. eauto.
Qed.

Lemma NoDup_bind {A B} (f : A → list B) (l : list A) :
  NoDup l → (∀ a, a ∈ l → NoDup (f a)) →
  (∀ a a' b, a ∈ l → a' ∈ l → b ∈ f a → b ∈ f a' → a = a') →
  NoDup (l ≫= f).
Proof.
  induction l as [|a l IH]; intros Hl Hf Hd; cbn; [constructor|].
  apply NoDup_cons in Hl as [Ha Hl].
  apply NoDup_app. split; [apply Hf; left|]. split.
  - intros b Hb Hb'. apply elem_of_list_bind in Hb' as (a' & Hb' & Ha').
    assert (a = a') as ->; [|done].
    apply (Hd a a' b); [left|by right|done|done].
  - apply IH; [done| |].
    + intros; apply Hf; by right.
    + intros a1 a2 b ? ?; apply Hd; by right.
Qed.
Lemma NoDup_prod2 {A B} (l1 : list A) (l2 : list B) :
  NoDup l1 → NoDup l2 → NoDup (prod2 l1 l2).
Proof.
  intros H1 H2. apply NoDup_bind; [done| |].
  - intros a _. apply NoDup_fmap_2; [intros ?? [=]; done|done].
  - intros a a' b _ _ Hb Hb'. apply elem_of_list_fmap in Hb as (? & -> & _).
    apply elem_of_list_fmap in Hb' as (? & [= ->] & _). done.
Qed.
Lemma NoDup_prod3 {A B C} (l1 : list A) (l2 : list B) (l3 : list C) :
  NoDup l1 → NoDup l2 → NoDup l3 → NoDup (prod3 l1 l2 l3).
Proof.
  intros H1 H2 H3. apply NoDup_bind; [done| |].
  - intros a _. apply NoDup_bind; [done| |].
    + intros b _. apply NoDup_fmap_2; [intros ?? [=]; done|done].
    + intros b b' x _ _ Hb Hb'. apply elem_of_list_fmap in Hb as (? & -> & _).
      apply elem_of_list_fmap in Hb' as (? & [= ->] & _). done.
  - intros a a' x _ _ Hb Hb'.
    apply elem_of_list_bind in Hb as (? & Hb & _).
    apply elem_of_list_bind in Hb' as (? & Hb' & _).
    apply elem_of_list_fmap in Hb as (? & -> & _).
    apply elem_of_list_fmap in Hb' as (? & [= ->] & _). done.
Qed.

Lemma enumerate_lookup {B} (l : list B) i x : (i, x) ∈ enumerate l ↔ l !! i = Some x.
Proof.
  unfold enumerate. rewrite elem_of_lookup_imap. split.
  - intros (j & y & [= -> ->] & H). done.
  - intros H. eauto.
Qed.

(** ** Loops *)
Lemma foldM_app {S A} (f : S → A → res S) s l1 l2 :
  foldM f s (l1 ++ l2) = let! s' := foldM f s l1 in foldM f s' l2.
Proof. revert s. induction l1 as [|a l1 IH]; intros s; cbn; [done|]. destruct (f s a); cbn; auto. Qed.

Lemma foldM_inv {S A} (f : S → A → res S) (P : S → Prop) s l s' :
  P s → (∀ s a s1, a ∈ l → P s → f s a = Ok s1 → P s1) → foldM f s l = Ok s' → P s'.
Proof.
  revert s. induction l as [|a l IH]; intros s Hs Hstep H; cbn in H.
  - by injection H as <-.
  - destruct (f s a) as [s1|] eqn:E; cbn in H; [|discriminate].
    apply (IH s1); [|intros; eapply Hstep; eauto; by right|done].
    eapply Hstep; eauto; by left.
Qed.

Lemma foldM_ok {S A} (f : S → A → res S) (P : S → Prop) s l :
  P s → (∀ s a, a ∈ l → P s → ∃ s1, f s a = Ok s1 ∧ P s1) →
  ∃ s', foldM f s l = Ok s' ∧ P s'.
Proof.
  revert s. induction l as [|a l IH]; intros s Hs Hstep; cbn.
  - eauto.
  - destruct (Hstep s a) as (s1 & E & H1); [left|done|]. rewrite E. cbn.
    apply IH; [done|]. intros; apply Hstep; [by right|done].
Qed.

(** Invariants that may depend on the part of the list already processed. *)
Lemma foldM_inv_done {S A} (f : S → A → res S) (P : list A → S → Prop) s l s' :
  P [] s →
  (∀ done a rest s s1, l = done ++ a :: rest → P done s → f s a = Ok s1 → P (done ++ [a]) s1) →
  foldM f s l = Ok s' → P l s'.
Proof.
  intros H0 Hstep.
  assert (∀ rest dn s, l = dn ++ rest → P dn s → foldM f s rest = Ok s' → P l s') as H.
  { induction rest as [|a rest IH]; intros dn s1 El HP H; cbn in H.
    - injection H as <-. by rewrite El, app_nil_r.
    - destruct (f s1 a) as [s2|] eqn:E; cbn in H; [|discriminate].
      apply (IH (dn ++ [a]) s2); [by rewrite <- app_assoc| |done].
      eapply Hstep; eauto. }
  intros. eapply (H l []); eauto.
Qed.
Lemma foldl_inv_done {S A} (f : S → A → S) (P : list A → S → Prop) s l :
  P [] s →
  (∀ done a rest s, l = done ++ a :: rest → P done s → P (done ++ [a]) (f s a)) →
  P l (foldl f s l).
Proof.
  intros H0 Hstep.
  assert (∀ rest dn s, l = dn ++ rest → P dn s → P l (foldl f s rest)) as H.
  { induction rest as [|a rest IH]; intros dn s1 El HP; cbn.
    - by rewrite El, app_nil_r.
    - apply (IH (dn ++ [a])); [by rewrite <- app_assoc|]. eapply Hstep; eauto. }
  apply (H l []); auto.
Qed.
Lemma foldl_inv {S A} (f : S → A → S) (P : S → Prop) s l :
  P s → (∀ s a, a ∈ l → P s → P (f s a)) → P (foldl f s l).
Proof.
  revert s. induction l as [|a l IH]; intros s Hs Hstep; cbn; [done|].
  apply IH; [apply Hstep; [left|done]|]. intros; apply Hstep; [by right|done].
Qed.

(** A loop each of whose iterations affects a view [V] of the state only if its
    index is [k0]. *)
Lemma foldl_view_notin {S K X} (f : S → K → S) (V : S → X) l s :
  (∀ s k, k ∈ l → V (f s k) = V s) → V (foldl f s l) = V s.
Proof.
  revert s. induction l as [|k l IH]; intros s H; cbn; [done|].
  rewrite IH; [apply H; left|]. intros; apply H; by right.
Qed.
Lemma foldl_view_in {S K X} (f : S → K → S) (V : S → X) (h : X → X) (I : S → Prop) l s k0 :
  NoDup l → k0 ∈ l → I s →
  (∀ s k, I s → k ∈ l → I (f s k)) →
  (∀ s k, I s → k ∈ l → k ≠ k0 → V (f s k) = V s) →
  (∀ s, I s → V (f s k0) = h (V s)) →
  V (foldl f s l) = h (V s).
Proof.
  revert s. induction l as [|k l IH]; intros s Hnd Hin HI Hinv Hne Heq; [by apply elem_of_nil in Hin|].
  apply NoDup_cons in Hnd as [Hk Hnd]. cbn. apply elem_of_cons in Hin as [<-|Hin].
  - rewrite <- Heq by done.
    assert (∀ l' s', I s' → l' ⊆ l → V (foldl f s' l') = V s') as H.
    { induction l' as [|k' l' IH']; intros s' HI' Hsub; cbn; [done|].
      rewrite IH'; [apply Hne; [done|right; apply Hsub; left|]| |].
      - intros ->. apply Hk, Hsub. left.
      - apply Hinv; [done|]. right. apply Hsub. left.
      - intros x Hx. apply Hsub. by right. }
    apply H; [|done]. apply Hinv; [done|left].
  - rewrite (IH (f s k)); [f_equal; apply Hne; [done|left|]|done|done| | | |].
    + intros ->. done.
    + apply Hinv; [done|left].
    + intros; apply Hinv; [done|by right].
    + intros; apply Hne; [done|by right|done].
    + done.
Qed.

Lemma mapR_Ok {A B} (f : A → res B) l l' :
  mapR f l = Ok l' ↔ Forall2 (λ a b, f a = Ok b) l l'.
Proof.
  revert l'. induction l as [|a l IH]; intros l'; cbn.
  - split; [intros [= <-]; constructor|]. intros H. by apply Forall2_nil_inv_l in H as ->.
  - split.
    + destruct (f a) as [b|] eqn:E; cbn; [|discriminate].
      destruct (mapR f l) as [bs|] eqn:E2; cbn; [|discriminate].
      intros [= <-]. constructor; [done|]. by apply IH.
    + intros H. apply Forall2_cons_inv_l in H as (b & bs & Hb & Hbs & ->).
      rewrite Hb. cbn. apply IH in Hbs. by rewrite Hbs.
Qed.
Lemma mapR_total {A B} (f : A → res B) (g : A → B) l :
  (∀ a, a ∈ l → f a = Ok (g a)) → mapR f l = Ok (g <$> l).
Proof.
  intros H. apply mapR_Ok. apply Forall2_fmap_r. apply Forall_Forall2_diag.
  apply Forall_forall. auto.
Qed.

Lemma loopS_inv {S B} (f : S → B → S * res unit) (P : S → Prop) s l :
  P s → (∀ s b, b ∈ l → P s → P (f s b).1) → P (loopS f s l).1.
Proof.
  revert s. induction l as [|b l IH]; intros s Hs H; cbn; [done|].
  specialize (H s b) as Hb. destruct (f s b) as [s' [u|e]]; cbn in *.
  - apply IH; [apply Hb; [left|done]|]. intros; apply H; [by right|done].
  - apply Hb; [left|done].
Qed.
Lemma loopS_inv_done {S B} (f : S → B → S * res unit) (P : list B → S → Prop) s l s' u :
  P [] s →
  (∀ dn b rest s s1 u, l = dn ++ b :: rest → P dn s → f s b = (s1, Ok u) → P (dn ++ [b]) s1) →
  loopS f s l = (s', Ok u) → P l s'.
Proof.
  intros H0 Hstep.
  assert (∀ rest dn s, l = dn ++ rest → P dn s → loopS f s rest = (s', Ok u) → P l s') as H.
  { induction rest as [|b rest IH]; intros dn s1 El HP H; cbn in H.
    - injection H as <-. by rewrite El, app_nil_r.
    - destruct (f s1 b) as [s2 [u2|e]] eqn:E; [|discriminate].
      apply (IH (dn ++ [b]) s2); [by rewrite <- app_assoc| |done].
      eapply Hstep; eauto. }
  intros. eapply (H l []); eauto.
Qed.
Lemma loopS_ok {S B} (f : S → B → S * res unit) (P : list B → S → Prop) s l :
  P [] s →
  (∀ dn b rest s, l = dn ++ b :: rest → P dn s → ∃ s1, f s b = (s1, Ok tt) ∧ P (dn ++ [b]) s1) →
  ∃ s', loopS f s l = (s', Ok tt) ∧ P l s'.
Proof.
  intros H0 Hstep.
  assert (∀ rest dn s, l = dn ++ rest → P dn s →
    ∃ s', loopS f s rest = (s', Ok tt) ∧ P l s') as H.
  { induction rest as [|b rest IH]; intros dn s1 El HP; cbn.
    - exists s1. split; [done|]. by rewrite El, app_nil_r.
    - destruct (Hstep dn b rest s1 El HP) as (s2 & -> & H2).
      apply (IH (dn ++ [b]) s2); [by rewrite <- app_assoc|done]. }
  apply (H l []); auto.
Qed.

(** ** Reading and writing entries *)
Section Bc.
Context {N : Type}.
Implicit Types (m : hexa N) (e : elem N).

Lemma get_bc_alter_eq g i b f m : get_bc (alter_bc g i b f m) i b f = g <$> get_bc m i b f.
Proof.
  unfold get_bc, alter_bc. cbn. rewrite list_lookup_alter.
  destruct (elems m !! i) as [e|]; cbn; [|done].
  unfold alter_bcs. rewrite list_lookup_alter.
  destruct (bcs e !! b) as [r|]; cbn; [|done]. apply list_lookup_alter.
Qed.
Lemma get_bc_alter_ne g i b f m i' b' f' : (i', b', f') ≠ (i, b, f) →
  get_bc (alter_bc g i b f m) i' b' f' = get_bc m i' b' f'.
Proof.
  intros Hne. unfold get_bc, alter_bc. cbn.
  destruct (decide (i' = i)) as [->|Hi]; [|by rewrite list_lookup_alter_ne].
  rewrite list_lookup_alter. destruct (elems m !! i) as [e|]; cbn; [|done].
  unfold alter_bcs.
  destruct (decide (b' = b)) as [->|Hb]; [|by rewrite list_lookup_alter_ne].
  rewrite list_lookup_alter. destruct (bcs e !! b) as [r|]; cbn; [|done].
  destruct (decide (f' = f)) as [->|Hf]; [done|by rewrite list_lookup_alter_ne].
Qed.
Lemma get_bc_alter g i b f m i' b' f' :
  get_bc (alter_bc g i b f m) i' b' f' =
  if decide ((i', b', f') = (i, b, f)) then g <$> get_bc m i' b' f' else get_bc m i' b' f'.
Proof.
  destruct (decide _) as [[= -> -> ->]|Hne]; [apply get_bc_alter_eq|by apply get_bc_alter_ne].
Qed.

(** Everything in the mesh except the boundary condition entries. *)
Definition strip_elem e := set_bcs [] e.
Definition strip m := set_elems (strip_elem <$> elems m) m.
Definition bshape m : list (list nat) := (λ e, length <$> bcs e) <$> elems m.

#[local] Arguments strip : simpl never.
#[local] Arguments bshape : simpl never.
Lemma strip_alter g i b f m : strip (alter_bc g i b f m) = strip m.
Proof.
  unfold strip, alter_bc, set_elems. cbn. f_equal.
  rewrite (list_alter_fmap _ _ id); [by apply list_alter_id|]. by apply Forall_forall.
Qed.
Lemma bshape_alter g i b f m : bshape (alter_bc g i b f m) = bshape m.
Proof.
  unfold bshape, alter_bc. cbn.
  rewrite (list_alter_fmap _ _ id); [by apply list_alter_id|].
  apply Forall_forall. intros e _. cbn. unfold alter_bcs.
  rewrite (list_alter_fmap _ _ id); [by apply list_alter_id|].
  apply Forall_forall. intros r _. cbn. apply alter_length.
Qed.

Lemma get_bc_Some_shape m i b f r : get_bc m i b f = Some r →
  ∃ e row, elems m !! i = Some e ∧ bcs e !! b = Some row ∧ row !! f = Some r.
Proof.
  unfold get_bc. destruct (elems m !! i) as [e|]; cbn; [|done].
  destruct (bcs e !! b) as [row|] eqn:E; cbn; [|done]. eauto 10.
Qed.

Definition bc_dom m i b f : Prop := ∃ n, (bshape m !! i ≫= (.!! b)) = Some n ∧ (f < n)%nat.
Lemma get_bc_dom m i b f : is_Some (get_bc m i b f) ↔ bc_dom m i b f.
Proof.
  unfold get_bc, bc_dom, bshape. rewrite list_lookup_fmap.
  destruct (elems m !! i) as [e|]; cbn; [|split; [by intros [? ?]|intros (? & ? & _); done]].
  rewrite list_lookup_fmap. destruct (bcs e !! b) as [row|]; cbn;
    [|split; [by intros [? ?]|intros (? & ? & _); done]].
  rewrite lookup_lt_is_Some. split; [intros; eauto|intros (n & [= <-] & ?); done].
Qed.

(** Two meshes that agree on everything are equal. *)
Lemma mesh_ext m m' : strip m = strip m' → bshape m = bshape m' →
  (∀ i b f, get_bc m i b f = get_bc m' i b f) → m = m'.
Proof.
  intros Hs Hb Hg.
  assert (elems m = elems m') as He.
  { apply list_eq. intros i.
    assert (strip_elem <$> elems m = strip_elem <$> elems m') as Hs'.
    { unfold strip, set_elems in Hs. by injection Hs. }
    assert (strip_elem <$> (elems m !! i) = strip_elem <$> (elems m' !! i)) as Hi
      by (by rewrite <- !list_lookup_fmap, Hs').
    assert (bshape m !! i = bshape m' !! i) as Hbi by (by rewrite Hb).
    unfold bshape in Hbi. rewrite !list_lookup_fmap in Hbi.
    specialize (Hg i). unfold get_bc in Hg.
    destruct (elems m !! i) as [e|], (elems m' !! i) as [e'|]; cbn in *; try done.
    f_equal. injection Hbi as Hbi. injection Hi as H1 H2 H3 H4 H5 H6 H7 H8.
    assert (bcs e = bcs e') as Hbc.
    { apply list_eq. intros b. specialize (Hg b).
      assert (length <$> (bcs e !! b) = length <$> (bcs e' !! b)) as Hl
        by (by rewrite <- !list_lookup_fmap, Hbi).
      destruct (bcs e !! b) as [row|], (bcs e' !! b) as [row'|]; cbn in *; try done.
      f_equal. by apply list_eq. }
    destruct e, e'; cbn in *. by subst. }
  unfold strip in Hs. destruct m, m'. cbn in *. injection Hs as ? ? ? ? ? ? ? ? ? ? ? ? ?. by subst.
Qed.

Lemma strip_fields m m' : strip m = strip m' →
  ndim m = ndim m' ∧ nel m = nel m' ∧ ncurv m = ncurv m' ∧ nbc m = nbc m' ∧ var m = var m' ∧
  lr1kind m = lr1kind m' ∧ lr1 m = lr1 m' ∧ elmap m = elmap m' ∧
  length (elems m) = length (elems m').
Proof.
  intros H. assert (elems (strip m) = elems (strip m')) as He by (by rewrite H).
  unfold strip in He. cbn in He. apply (f_equal length) in He. rewrite !fmap_length in He.
  unfold strip in H. destruct m, m'. cbn in *. by injection H as ? ? ? ? ? ? ? ? ? ? ? ? ?.
Qed.
Lemma strip_elem_lookup m m' i e : strip m = strip m' → elems m !! i = Some e →
  ∃ e', elems m' !! i = Some e' ∧ strip_elem e' = strip_elem e.
Proof.
  intros H Hi. assert (elems (strip m) = elems (strip m')) as He by (by rewrite H).
  unfold strip in He. cbn in He. assert (strip_elem <$> (elems m !! i) = strip_elem <$> (elems m' !! i)) as Hl
    by (by rewrite <- !list_lookup_fmap, He).
  rewrite Hi in Hl. destruct (elems m' !! i) as [e'|]; cbn in Hl; [|done].
  injection Hl. intros. exists e'. split; [done|]. unfold strip_elem, set_bcs. congruence.
Qed.
End Bc.
Arguments strip : simpl never.
Arguments bshape : simpl never.

(** Geometry does not depend on boundary conditions. *)
Section Geom.
Context {A : arith}.
Lemma face_center_strip (e e' : elem (num A)) i :
  strip_elem e' = strip_elem e → face_center e' i = face_center e i.
Proof.
  intros H. unfold strip_elem, set_bcs in H. injection H as ? ? ? ? ? ? ? ?.
  assert (∀ a b c, point_py e' a b c = point_py e a b c) as Hp.
  { intros. unfold point_py, point. by replace (eshape e') with (eshape e); replace (pos e') with (pos e). }
  unfold face_center. destruct (face_corners i) as [ks|]; [|done].
  assert (mapR (λ '(kx, ky, kz), point_py e' kz ky kx) ks
        = mapR (λ '(kx, ky, kz), point_py e kz ky kx) ks) as ->; [|done].
  induction ks as [|[[kx ky] kz] ks IH]; cbn; [done|]. by rewrite Hp, IH.
Qed.
Lemma smallest_edge_strip (e e' : elem (num A)) :
  strip_elem e' = strip_elem e → smallest_edge e' = smallest_edge e.
Proof.
  intros H. unfold strip_elem, set_bcs in H. injection H as ? ? ? ? ? ? ? ?.
  assert (∀ a b c, point_py e' a b c = point_py e a b c) as Hp.
  { intros. unfold point_py, point. by replace (eshape e') with (eshape e); replace (pos e') with (pos e). }
  unfold smallest_edge. replace (eshape e') with (eshape e). by rewrite !Hp.
Qed.

(** The single-entry update loop. *)
Lemma upd_loop_strip (g : nat * nat * nat → bcrec (num A) → res (bcrec (num A) * Z)) s l s' :
  upd_loop g s l = Ok s' → strip s'.1 = strip s.1 ∧ bshape s'.1 = bshape s.1.
Proof.
  unfold upd_loop. intros H.
  eapply (foldM_inv _ (λ s', strip s'.1 = strip s.1 ∧ bshape s'.1 = bshape s.1)); [..|exact H]; [done|].
  intros s1 [[i b] f] s2 _ [H1 H2] Hs. unfold upd_step in Hs.
  destruct (get_bc (fst s1) i b f) as [r|]; cbn in Hs; [|discriminate].
  destruct (g (i, b, f) r) as [rd|]; cbn in Hs; [|discriminate].
  injection Hs as <-. cbn [fst]. by rewrite strip_alter, bshape_alter.
Qed.

(** After the loop over distinct entries, each visited entry has been rewritten once. *)
Lemma upd_loop_spec (g : nat * nat * nat → bcrec (num A) → res (bcrec (num A) * Z)) m n l m' n' :
  NoDup l → upd_loop g (m, n) l = Ok (m', n') →
  (∀ i b f, (i, b, f) ∉ l → get_bc m' i b f = get_bc m i b f) ∧
  (∀ i b f, (i, b, f) ∈ l → ∃ r rd, get_bc m i b f = Some r ∧ g (i, b, f) r = Ok rd ∧
      get_bc m' i b f = Some rd.1).
Proof.
  intros Hnd H. unfold upd_loop in H.
  pose (P := λ (dn : list (nat * nat * nat)) (s : hexa (num A) * Z),
     (∀ i b f, (i, b, f) ∉ dn → get_bc s.1 i b f = get_bc m i b f) ∧
     (∀ i b f, (i, b, f) ∈ dn → ∃ r rd, get_bc m i b f = Some r ∧ g (i, b, f) r = Ok rd ∧
        get_bc s.1 i b f = Some rd.1)).
  change (P l (m', n')). eapply (foldM_inv_done _ P); [..|exact H].
  - split; [done|]. intros i b f Hin. by apply elem_of_nil in Hin.
  - intros dn [[i b] f] rest [m1 n1] s2 El [H1 H2] Hs. unfold upd_step in Hs. cbn in *.
    destruct (get_bc m1 i b f) as [r|] eqn:Er; cbn in Hs; [|discriminate].
    destruct (g (i, b, f) r) as [rd|] eqn:Eg; cbn in Hs; [|discriminate].
    injection Hs as <-. unfold P. cbn [fst snd].
    assert ((i, b, f) ∉ dn) as Hnot.
    { rewrite El in Hnd. apply NoDup_app in Hnd as (_ & Hd & _).
      intros Hin. apply (Hd _ Hin). left. }
    split.
    + intros i' b' f' Hin. rewrite get_bc_alter_ne; [apply H1; set_solver|set_solver].
    + intros i' b' f' Hin. rewrite elem_of_app, elem_of_list_singleton in Hin.
      destruct (decide ((i', b', f') = (i, b, f))) as [[= -> -> ->]|Hne].
      * exists r, rd. rewrite get_bc_alter_eq, Er. cbn. rewrite <- (H1 i b f) by done. done.
      * destruct Hin as [Hin|Hin]; [|done]. rewrite get_bc_alter_ne by done. auto.
Qed.

(** Success: all entries exist and are accepted. *)
Lemma upd_loop_ok (g : nat * nat * nat → bcrec (num A) → res (bcrec (num A) * Z)) m n l :
  NoDup l →
  (∀ i b f, (i, b, f) ∈ l → ∃ r rd, get_bc m i b f = Some r ∧ g (i, b, f) r = Ok rd) →
  ∃ m' n', upd_loop g (m, n) l = Ok (m', n').
Proof.
  revert m n. induction l as [|[[i b] f] l IH]; intros m n Hnd Hok; cbn; [by eauto|].
  apply NoDup_cons in Hnd as [Hnot Hnd].
  destruct (Hok i b f) as (r & rd & Er & Eg); [left|].
  unfold upd_step. cbn. rewrite Er. cbn. rewrite Eg. cbn.
  apply IH; [done|]. intros i' b' f' Hin.
  destruct (Hok i' b' f') as (r' & rd' & Er' & Eg'); [by right|].
  exists r', rd'. rewrite get_bc_alter_ne; [done|]. by intros [= -> -> ->].
Qed.

(** The counter adds up the contributions of the entries. *)
Lemma upd_loop_count (g : nat * nat * nat → bcrec (num A) → res (bcrec (num A) * Z)) m n l m' n'
    (d : nat * nat * nat → Z) :
  NoDup l → upd_loop g (m, n) l = Ok (m', n') →
  (∀ i b f r rd, (i, b, f) ∈ l → get_bc m i b f = Some r → g (i, b, f) r = Ok rd →
     rd.2 = d (i, b, f)) →
  n' = n + foldr Z.add 0 (d <$> l).
Proof.
  revert m n. induction l as [|[[i b] f] l IH]; intros m n Hnd H Hd; cbn in *.
  { injection H as <- <-. lia. }
  apply NoDup_cons in Hnd as [Hnot Hnd]. unfold upd_step in H. cbn in H.
  destruct (get_bc m i b f) as [r|] eqn:Er; cbn in H; [|discriminate].
  destruct (g (i, b, f) r) as [rd|] eqn:Eg; cbn in H; [|discriminate].
  apply IH in H; [|done|].
  - rewrite H. rewrite (Hd i b f r rd) by (done || left). lia.
  - intros i' b' f' r' rd' Hin. rewrite get_bc_alter_ne; [|by intros [= -> -> ->]].
    intros. eapply Hd; eauto. by right.
Qed.
End Geom.
