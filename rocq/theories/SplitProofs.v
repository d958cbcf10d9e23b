(** Proofs about [extrude_refine]: the parts of the 2D mesh. *)
From Verif Require Import Base Mesh Core Tools Curve Mid Split MeshLemmas MeshSpec CheckProofs OpsProofs GeoLaws LimsProofs
  KeepSpec KeepProofs ExtrudeSpec MidSpec MidProofs MidFinal SplitSpec.
From Coq Require Import Lia Sorting.Sorted.
Open Scope Z_scope.

(** ** Lists *)
Lemma omap_lookup {B} (g : nat → option B) : (∀ p, g p = None → g (S p) = None) →
  ∀ n k p, (p < n)%nat → omap g (seq k n) !! p = g (k + p)%nat.
Proof.
  intros Hg. assert (∀ d p, g p = None → g (p + d)%nat = None) as Hd.
  { intros d. induction d as [|d IH]; intros p Hp; [by rewrite Nat.add_0_r|]. rewrite Nat.add_succ_r. by apply Hg, IH. }
  assert (∀ n k, g k = None → omap g (seq k n) = []) as Hn.
  { induction n as [|n IH]; intros k Hk; [done|]. cbn. rewrite Hk. apply IH. by apply Hg. }
  induction n as [|n IH]; intros k p Hp; [lia|]. cbn [seq omap list_omap]. destruct (g k) as [b|] eqn:E.
  - destruct p as [|p]; cbn; [by rewrite Nat.add_0_r|]. rewrite Nat.add_succ_r. rewrite <- Nat.add_succ_l. apply IH. lia.
  - change (omap g (seq (S k) n) !! p = g (k + p)%nat). rewrite Hn by (by apply Hg). by rewrite Hd.
Qed.
Lemma every_sampled {B} s (l : list B) : (0 < s)%nat → sampled s l (every s l).
Proof.
  intros Hs p. unfold every, range. destruct (decide (p < length l)%nat) as [Hp|Hp].
  - rewrite omap_lookup; [done| |done]. intros q Hq. apply lookup_ge_None in Hq. apply lookup_ge_None. lia.
  - rewrite (lookup_ge_None_2 l) by nia. apply lookup_ge_None_2. etransitivity; [|apply not_lt in Hp; exact Hp].
    assert (∀ ks, (length (omap (λ p, l !! (s * p)%nat) ks) ≤ length ks)%nat) as H.
    { induction ks as [|q ks IH]; [done|]. cbn. destruct (l !! _); cbn; [apply le_n_S, IH|apply le_S, IH]. }
    etransitivity; [apply H|]. by rewrite seq_length.
Qed.
Lemma sampled_length {B} s (l zl : list B) nz : sampled s l zl → (0 < s)%nat → length l = (s * nz + 1)%nat → length zl = (nz + 1)%nat.
Proof.
  intros Hs H0 Hl. assert (is_Some (zl !! nz)) as H1. { rewrite Hs. apply lookup_lt_is_Some_2. lia. }
  assert (zl !! (nz + 1)%nat = None) as H2. { rewrite Hs. apply lookup_ge_None_2. nia. }
  apply lookup_lt_is_Some_1 in H1. apply lookup_ge_None_1 in H2. lia.
Qed.
Lemma zip_imap {B} (l : list B) : enumerate l = zip (seq 0 (length l)) l.
Proof.
  unfold enumerate. assert (∀ k, imap (λ i b, (k + i, b)%nat) l = zip (seq k (length l)) l) as H; [|exact (H 0%nat)].
  induction l as [|x l IH]; intros k; [done|]. cbn [imap length seq zip zip_with]. rewrite Nat.add_0_r. f_equal.
  rewrite <- IH. apply imap_ext. intros i b _. cbn. f_equal. lia.
Qed.
Lemma mapR_exists {X Y} (f : X → res Y) (Q : X → Y → Prop) l :
  (∀ a, a ∈ l → ∃ b, f a = Ok b ∧ Q a b) → ∃ bs, mapR f l = Ok bs ∧ Forall2 Q l bs.
Proof.
  induction l as [|a l IH]; intros H; [by exists []|].
  destruct (H a) as (b & E & Hb); [left|]. destruct IH as (bs & E' & Hbs); [intros; apply H; by right|].
  exists (b :: bs). cbn [mapR]. rewrite E. cbn [rbind]. rewrite E'. split; [done|by constructor].
Qed.
(** The indices of the elements that satisfy a test. *)
Lemma filter_range {B} (q : nat → bool) (t : B → bool) (l : list B) : (∀ i x, l !! i = Some x → q i = t x) →
  ∀ p, List.filter t l !! p = (List.filter q (range (length l)) !! p) ≫= (l !!.).
Proof.
  intros H p. unfold range. assert (∀ l' k, (∀ i, l' !! i = l !! (k + i)%nat) → (∀ i x, l' !! i = Some x → q (k + i)%nat = t x) →
    ∀ p, List.filter t l' !! p = (List.filter q (seq k (length l')) !! p) ≫= (l !!.)) as Hg; [|by apply (Hg l 0%nat)].
  induction l' as [|x l' IH]; intros k Hl Hq p'; [done|]. cbn [List.filter length seq].
  pose proof (Hl 0%nat) as H0. pose proof (Hq 0%nat x eq_refl) as Q0. rewrite Nat.add_0_r in H0, Q0. rewrite Q0.
  assert (∀ p, List.filter t l' !! p = (List.filter q (seq (S k) (length l')) !! p) ≫= (l !!.)) as IH'.
  { apply IH; intros i; [rewrite Nat.add_succ_l, <- Nat.add_succ_r; exact (Hl (S i))|].
    intros y Hy. rewrite Nat.add_succ_l, <- Nat.add_succ_r. by apply (Hq (S i)). }
  destruct (t x); [|apply IH']. destruct p' as [|p']; [by cbn|]. apply IH'.
Qed.
(** The numbers, from s on, of the elements of a list that satisfy a test. *)
Fixpoint idx {B} (s : nat) (t : B → bool) (l : list B) : list nat :=
  match l with [] => [] | x :: l => if t x then s :: idx (S s) t l else idx (S s) t l end.
Lemma idx_filter {B} (q : nat → bool) (t : B → bool) l : ∀ s, (∀ i x, l !! i = Some x → q (s + i)%nat = t x) →
  List.filter q (seq s (length l)) = idx s t l.
Proof.
  induction l as [|x l IH]; intros s H; [done|]. cbn [length seq List.filter idx].
  pose proof (H 0%nat x eq_refl) as H0. rewrite Nat.add_0_r in H0. rewrite H0.
  rewrite IH; [done|]. intros i y Hy. rewrite Nat.add_succ_l, <- Nat.add_succ_r. by apply (H (S i)).
Qed.
Lemma idx_ge {B} (t : B → bool) l : ∀ s i, i ∈ idx s t l → (s ≤ i < s + length l)%nat.
Proof.
  induction l as [|x l IH]; intros s i Hi; [by apply elem_of_nil in Hi|]. cbn [idx length] in *.
  assert (i ∈ idx (S s) t l → (s ≤ i < s + S (length l))%nat) as Hr by (intros Hr; apply IH in Hr; lia).
  destruct (t x); [|by apply Hr]. apply elem_of_cons in Hi as [->|Hi]; [lia|by apply Hr].
Qed.
Lemma idx_ext {B} (t t' : B → bool) l : ∀ s, (∀ x, x ∈ l → t x = t' x) → idx s t l = idx s t' l.
Proof. induction l as [|x l IH]; intros s H; [done|]. cbn [idx]. rewrite H by left. by rewrite (IH (S s)) by (intros; apply H; by right). Qed.
Lemma idx_comp {B} (t1 t2 t3 : B → bool) l : (∀ x, x ∈ l → t1 x = t2 x && t3 x) → ∀ s s',
  idx s t1 l = (λ k, nth (k - s') (idx s t2 l) 0%nat) <$> idx s' t3 (List.filter t2 l).
Proof.
  induction l as [|x l IH]; intros H s s'; [done|]. cbn [idx List.filter]. rewrite H by left.
  assert (∀ x, x ∈ l → t1 x = t2 x && t3 x) as H' by (intros; apply H; by right). destruct (t2 x); cbn [andb]; [|by apply IH].
  assert (idx (S s) t1 l = (λ k, nth (k - s') (s :: idx (S s) t2 l) 0%nat) <$> idx (S s') t3 (List.filter t2 l)) as Hi.
  { rewrite (IH H' (S s) (S s')). apply list_fmap_ext. intros a k Hk. apply elem_of_list_lookup_2, idx_ge in Hk.
    replace (k - s')%nat with (S (k - S s'))%nat by lia. done. }
  cbn [idx]. destruct (t3 x); [|exact Hi]. rewrite fmap_cons, Nat.sub_diag. cbn [nth]. by f_equal.
Qed.
Lemma idx_lookup {B} (t : B → bool) l p : List.filter t l !! p = (idx 0 t l !! p) ≫= (l !!.).
Proof.
  rewrite (filter_range (λ i, match l !! i with Some x => t x | None => false end) t l) by (intros i x ->; done).
  unfold range. rewrite (idx_filter _ t) by (intros i x; cbn; intros ->; done). done.
Qed.
Lemma idx_length {B} (t : B → bool) l s : length (idx s t l) = length (List.filter t l).
Proof. revert s. induction l as [|x l IH]; intros s; [done|]. cbn. destruct (t x); cbn; by rewrite IH. Qed.
Lemma filter_sorted (q : nat → bool) n : StronglySorted le (List.filter q (range n)) ∧ NoDup (List.filter q (range n)) ∧
  ∀ i, i ∈ List.filter q (range n) → (i < n)%nat.
Proof.
  unfold range. assert (∀ k, StronglySorted le (List.filter q (seq k n)) ∧ NoDup (List.filter q (seq k n)) ∧
    ∀ i, i ∈ List.filter q (seq k n) → (k ≤ i < k + n)%nat) as H.
  { induction n as [|n IH]; intros k; cbn [seq List.filter].
    - split_and!; [constructor|constructor|]. intros i Hi. by apply elem_of_nil in Hi.
    - destruct (IH (S k)) as (S1 & S2 & S3). destruct (q k).
      + split_and!.
        * constructor; [done|]. apply Forall_forall. intros i Hi. apply S3 in Hi. lia.
        * constructor; [|done]. intros Hi. apply S3 in Hi. lia.
        * intros i Hi. apply elem_of_cons in Hi as [->|Hi]; [lia|]. apply S3 in Hi. lia.
      + split_and!; [done|done|]. intros i Hi. apply S3 in Hi. lia. }
  destruct (H 0%nat) as (S1 & S2 & S3). split_and!; [done|done|]. intros i Hi. apply S3 in Hi. lia.
Qed.

Section split.
Context {A : arith}.
Notation N := (num A).
Implicit Types (m : hexa N) (e : elem N) (r : bcrec N) (f : N → N → N).

(** ** Elements without their conditions *)
Notation bare := (set_bcs (N:=N) []).
Definition geo m : list (elem N) := bare <$> elems m.

Lemma all_corners_bare p f e : all_corners p f (bare e) = all_corners p f e.
Proof. done. Qed.
Lemma part_bare k fs e : part_from k fs (bare e) = part_from k fs e.
Proof. revert k. induction fs as [|f fs IH]; intros k; [done|]. cbn [part_from]. by rewrite IH. Qed.

(** ** The class of an element *)
Section order.
Context (OA : order_laws A).
Implicit Types (x y z : N).
Lemma pymax_le x y z : nisnan x = false → nisnan y = false → nisnan z = false →
  nisnan (if nltb x y then y else x) = false ∧ nleb (if nltb x y then y else x) z = nleb x z && nleb y z.
Proof using OA.
  intros Hx Hy Hz. rewrite (ord_ltb _ OA x y) by done. destruct (nleb y x) eqn:E; cbn [negb].
  - split; [done|]. destruct (nleb x z) eqn:E'; [|done]. by rewrite (ord_trans _ OA y x z).
  - split; [done|]. destruct (ord_total _ OA x y Hx Hy) as [E2|E2]; [|congruence].
    destruct (nleb y z) eqn:E'; [|by rewrite andb_false_r]. by rewrite (ord_trans _ OA x y z).
Qed.
Lemma pymin_gt x y z : nisnan x = false → nisnan y = false → nisnan z = false →
  nisnan (pymin x y) = false ∧ nltb z (pymin x y) = nltb z x && nltb z y.
Proof using OA.
  intros Hx Hy Hz. unfold pymin. rewrite (ord_ltb _ OA y x) by done. destruct (nleb x y) eqn:E; cbn [negb].
  - split; [done|]. rewrite !(ord_ltb _ OA z) by done. destruct (nleb x z) eqn:E'; [done|]. cbn [negb andb].
    destruct (nleb y z) eqn:E''; [|done]. rewrite (ord_trans _ OA x y z) in E'; done.
  - split; [done|]. destruct (ord_total _ OA x y Hx Hy) as [E2|E2]; [congruence|].
    rewrite !(ord_ltb _ OA z) by done. destruct (nleb y z) eqn:E'; [by rewrite andb_false_r|].
    destruct (nleb x z) eqn:E''; [|done]. rewrite (ord_trans _ OA y x z) in E'; done.
Qed.
Lemma pymax_list_le l x z : nisnan x = false → (∀ y, y ∈ l → nisnan y = false) → nisnan z = false →
  nleb (pymax_list x l) z = nleb x z && forallb (λ y, nleb y z) l.
Proof using OA.
  revert x. induction l as [|y l IH]; intros x Hx Hl Hz; [by rewrite andb_true_r|]. cbn [pymax_list foldl forallb].
  destruct (pymax_le x y z Hx (Hl y ltac:(left)) Hz) as [H1 H2]. unfold pymax_list in IH. rewrite IH; try done.
  - rewrite H2. by rewrite andb_assoc.
  - intros y' Hy'. apply Hl. by right.
Qed.
Lemma pymin_list_gt l x z : nisnan x = false → (∀ y, y ∈ l → nisnan y = false) → nisnan z = false →
  nltb z (pymin_list x l) = nltb z x && forallb (λ y, nltb z y) l.
Proof using OA.
  revert x. induction l as [|y l IH]; intros x Hx Hl Hz; [by rewrite andb_true_r|]. cbn [pymin_list foldl forallb].
  destruct (pymin_gt x y z Hx (Hl y ltac:(left)) Hz) as [H1 H2]. unfold pymin_list in IH. rewrite IH; try done.
  - rewrite H2. by rewrite andb_assoc.
  - intros y' Hy'. apply Hl. by right.
Qed.

Definition class f e : nat :=
  if all_corners (λ v, nleb v (nofZ 0)) f e then 0%nat else if all_corners (λ v, nltb (nofZ 0) v) f e then 2%nat else 1%nat.
Lemma refine_class_ok f e : nisnan (nofZ (a:=A) 0) = false → eshape e = (2, 2, 1)%nat →
  (∀ j i, (j < 2)%nat → (i < 2)%nat → is_Some (point e 0 j i)) → defined_at f e → refine_class f e = Ok (class f e).
Proof using OA.
  intros H0 _ Hp Hd. unfold refine_class, class, all_corners.
  destruct (Hp 0 0)%nat as [[[x0 y0] z0] P0]; [lia..|]. destruct (Hp 0 1)%nat as [[[x1 y1] z1] P1]; [lia..|].
  destruct (Hp 1 0)%nat as [[[x2 y2] z2] P2]; [lia..|]. destruct (Hp 1 1)%nat as [[[x3 y3] z3] P3]; [lia..|].
  pose proof (Hd _ _ _ _ _ P0) as D0. pose proof (Hd _ _ _ _ _ P1) as D1. pose proof (Hd _ _ _ _ _ P2) as D2. pose proof (Hd _ _ _ _ _ P3) as D3.
  cbn [mapR fst snd]. rewrite P0, P1, P2, P3. cbn [of_opt rbind forallb]. rewrite P0, P1, P2, P3.
  assert (∀ y, y ∈ [f x2 y2; f x1 y1; f x3 y3] → nisnan y = false) as Hl.
  { intros y Hy. rewrite !elem_of_cons, elem_of_nil in Hy. by destruct Hy as [-> |[-> |[-> |[]]]]. }
  rewrite pymax_list_le, pymin_list_gt by done. cbn [forallb]. rewrite !andb_true_r.
  replace (nleb (f x0 y0) (nofZ 0) && (nleb (f x2 y2) (nofZ 0) && (nleb (f x1 y1) (nofZ 0) && nleb (f x3 y3) (nofZ 0)))) with
    (nleb (f x0 y0) (nofZ 0) && (nleb (f x1 y1) (nofZ 0) && (nleb (f x2 y2) (nofZ 0) && nleb (f x3 y3) (nofZ 0))))
    by (destruct (nleb (f x0 y0) _), (nleb (f x1 y1) _), (nleb (f x2 y2) _), (nleb (f x3 y3) _); done).
  replace (nltb (nofZ 0) (f x0 y0) && (nltb (nofZ 0) (f x2 y2) && (nltb (nofZ 0) (f x1 y1) && nltb (nofZ 0) (f x3 y3)))) with
    (nltb (nofZ 0) (f x0 y0) && (nltb (nofZ 0) (f x1 y1) && (nltb (nofZ 0) (f x2 y2) && nltb (nofZ 0) (f x3 y3))))
    by (destruct (nltb _ (f x0 y0)), (nltb _ (f x1 y1)), (nltb _ (f x2 y2)), (nltb _ (f x3 y3)); done).
  done.
Qed.
End order.

(** ** One part *)
Context (bnd : Z) (LA : arith_laws A bnd).
Definition good m : Prop := wf_mesh m ∧ linear2d m ∧ paired m ∧ Z.of_nat (nel m) <= bnd.

Lemma geo_in m e : e ∈ geo m → ∃ e0, e0 ∈ elems m ∧ e = bare e0.
Proof. intros H. apply elem_of_list_fmap in H as (e0 & -> & H). eauto. Qed.
Lemma geo_elem m m' e : (∀ x, x ∈ geo m' → x ∈ geo m) → e ∈ elems m' → ∃ e0, e0 ∈ elems m ∧ bare e = bare e0.
Proof. intros H He. apply geo_in, H. apply elem_of_list_fmap. eauto. Qed.
Lemma filter_in {B} (t : B → bool) l x : x ∈ List.filter t l → x ∈ l.
Proof. rewrite !elem_of_list_In. intros H. by apply filter_In in H as [H _]. Qed.
Lemma linear_of m m' : linear2d m → ndim m' = ndim m → lr1kind m' = lr1kind m → lr1 m' = lr1 m → var m' = var m →
  (∀ x, x ∈ geo m' → x ∈ geo m) → linear2d m'.
Proof.
  intros (L1 & L2 & L3 & L4 & L5) E1 E2 E3 E4 Hg. split; [congruence|]. rewrite E2, E3, E4. split; [done|]. split; [done|]. split; [done|].
  intros e He. destruct (geo_elem m m' e Hg He) as (e0 & He0 & E). destruct (L5 e0 He0) as (F1 & F2 & F3).
  assert (eshape (bare e) = eshape (bare e0) ∧ ccurv (bare e) = ccurv (bare e0) ∧ curv (bare e) = curv (bare e0)) as (G1 & G2 & G3) by (by rewrite E).
  cbn in G1, G2, G3. by rewrite G1, G2, G3.
Qed.

(** The elements of [d] are those of [m] with the numbers [ι], with the same connections among each other. *)
Definition restricts (ext : string) m (ι : list nat) (d : hexa N) : Prop :=
  nbc d = nbc m ∧ ndim d = ndim m ∧ nel d = length ι ∧
  ∀ k i b (f : nat) r, ι !! k = Some i → in_mesh d k b f → get_bc d k b f = Some r → ∃ r0, get_bc m i b f = Some r0 ∧
    (¬ is_conn (bt r0) → bt r = bt r0) ∧
    (is_conn (bt r0) → ∀ j g, (j < nel m)%nat → points r0 j g →
       (∀ k', ι !! k' = Some j → bt r = bt r0 ∧ points r k' g) ∧ (j ∉ ι → bt r = ext)).
Lemma restricts_all ext m t : (∀ e, t e = true) → length (elems m) = nel m → restricts ext m (idx 0 t (geo m)) m.
Proof.
  intros Ht Hl. assert (∀ s (l : list (elem N)), idx s t l = seq s (length l)) as Hi.
  { intros s l. revert s. induction l as [|x l IH]; intros s; [done|]. cbn [idx length seq]. by rewrite Ht, IH. }
  rewrite Hi. unfold geo. rewrite fmap_length, Hl. split; [done|]. split; [done|]. split; [by rewrite seq_length|].
  intros k i b f r Hk _ Hr. apply lookup_seq in Hk as [-> _]. exists r. split; [done|]. split; [done|]. intros _ j g Hj Hp. split.
  - intros k' Hk'. by apply lookup_seq in Hk' as [-> _].
  - intros Hn. exfalso. apply Hn, elem_of_seq. lia.
Qed.
Lemma restricts_comp ext m ι d ι' d' : ¬ is_conn ext → (∀ i, i ∈ ι → (i < nel m)%nat) → (∀ k, k ∈ ι' → (k < nel d)%nat) →
  restricts ext m ι d → restricts ext d ι' d' → restricts ext m ((λ k, nth k ι 0%nat) <$> ι') d'.
Proof.
  intros He Hl Hl' (N1 & D1 & E1 & H1) (N2 & D2 & E2 & H2). split; [congruence|]. split; [congruence|]. split; [by rewrite fmap_length|].
  intros k i b f r Hk Hin Hr. rewrite list_lookup_fmap in Hk. destruct (ι' !! k) as [a|] eqn:Ha; [|done]. cbn in Hk. apply (inj Some) in Hk as Hi.
  assert (∀ a, a ∈ ι' → ι !! a = Some (nth a ι 0%nat)) as Hnth.
  { intros x Hx. apply Hl' in Hx. rewrite E1 in Hx. destruct (lookup_lt_is_Some_2 ι x Hx) as [y Hy]. by rewrite (nth_lookup_Some _ _ _ _ Hy). }
  pose proof (Hnth a (elem_of_list_lookup_2 _ _ _ Ha)) as Hai. rewrite Hi in Hai.
  destruct (H2 k a b f r Ha Hin Hr) as (r1 & Hr1 & A1 & A2).
  destruct (H1 a i b f r1 Hai) as (r0 & Hr0 & C1 & C2); [|done|].
  { destruct Hin as (_ & Hb & Hf). split; [apply Hl'; by eapply elem_of_list_lookup_2|]. split; congruence. }
  exists r0. split; [done|]. split.
  { intros Hn. rewrite A1; [by apply C1|]. by rewrite C1. }
  intros Hc j g Hj Hp. destruct (C2 Hc j g Hj Hp) as [X1 X2]. split.
  - intros k' Hk'. rewrite list_lookup_fmap in Hk'. destruct (ι' !! k') as [a'|] eqn:Ha'; [|done]. cbn in Hk'. apply (inj Some) in Hk' as Hj'.
    assert (a' ∈ ι') as Hin' by (by eapply elem_of_list_lookup_2). pose proof (Hnth a' Hin') as Haj. rewrite Hj' in Haj.
    destruct (X1 a' Haj) as [T1 P1]. rewrite <- T1 in Hc. destruct (A2 Hc a' g (Hl' _ Hin') P1) as [Y1 _]. rewrite <- T1. by apply Y1.
  - intros Hn. destruct (decide (j ∈ ι)) as [Hjin|Hjn].
    + apply elem_of_list_lookup in Hjin as [a' Ha']. destruct (X1 a' Ha') as [T1 P1]. rewrite <- T1 in Hc.
      assert (a' < nel d)%nat as Hal by (rewrite E1; by eapply lookup_lt_Some).
      destruct (A2 Hc a' g Hal P1) as [_ Y2]. apply Y2. intros Hin'. apply Hn. apply elem_of_list_fmap. exists a'. split; [|done].
      by rewrite (nth_lookup_Some _ _ _ _ Ha').
    + pose proof (X2 Hjn) as T1. rewrite A1; [done|]. by rewrite T1.
Qed.
Lemma restricts_idx ext m d d' (t1 t2 t3 : elem N → bool) : ¬ is_conn ext → length (elems m) = nel m → length (elems d) = nel d →
  geo d = List.filter t2 (geo m) → (∀ e, e ∈ geo m → t1 e = t2 e && t3 e) →
  restricts ext m (idx 0 t2 (geo m)) d → restricts ext d (idx 0 t3 (geo d)) d' → restricts ext m (idx 0 t1 (geo m)) d'.
Proof.
  intros He Hl Hl' Hg Ht R1 R2. rewrite (idx_comp t1 t2 t3 (geo m) Ht 0 0), <- Hg.
  assert (∀ ι, (λ k, nth (k - 0) (idx 0 t2 (geo m)) 0%nat) <$> ι = (λ k, nth k (idx 0 t2 (geo m)) 0%nat) <$> ι) as ->.
  { intros ι. apply list_fmap_ext. intros a k _. by rewrite Nat.sub_0_r. }
  eapply restricts_comp; [done| | |exact R1|exact R2].
  - intros i Hi. apply idx_ge in Hi. unfold geo in Hi. rewrite fmap_length in Hi. lia.
  - intros i Hi. apply idx_ge in Hi. unfold geo in Hi. rewrite fmap_length in Hi. lia.
Qed.

Lemma keep_kind m els ext m' : keep_elements m els ext = Ok m' → lr1kind m' = lr1kind m.
Proof.
  unfold keep_elements. destruct (ke_tables _ _) as [[kept offs]|]; [|done]. cbn [rbind].
  destruct (upd_loop _ _ _) as [s|] eqn:E; [|done]. cbn [rbind].
  destruct (upd_loop_strip _ _ _ _ E) as [S _]. apply strip_fields in S as (_ & _ & _ & _ & _ & S & _). cbn [fst] in S.
  destruct (mapR _ _) as [news|]; [|done]. cbn [rbind]. unfold update_ncurv. destruct (foldM _ _ _); [|done]. cbn [rbind].
  intros [= <-]. done.
Qed.
Lemma keep_part m (q : nat → bool) (t : elem N → bool) ext : good m → ¬ is_conn (u3 ext) →
  (∀ i e, elems m !! i = Some e → q i = t (bare e)) →
  ∃ m', keep_elements m (List.filter q (range (nel m))) ext = Ok m' ∧ good m' ∧ nbc m' = nbc m ∧
    geo m' = List.filter t (geo m) ∧ ncurv m' = curved_total m' ∧ restricts (u3 ext) m (idx 0 t (geo m)) m'.
Proof using LA.
  intros (Hw & Hlin & Hp & Hb) Hext Hq. set (els := List.filter q (range (nel m))).
  destruct (filter_sorted q (nel m)) as (F1 & F2 & F3). fold els in F1, F2, F3.
  assert (refs_in_mesh m) as Hrefs.
  { intros i b f r Hi Hr Hc. destruct (Hp i b f r Hi Hr Hc) as (j & g & _ & (Hj & _) & [P3 _] & _). eauto. }
  destruct (keep_spec bnd LA m els ext Hw F2 F3) as (m' & E & Hs & _ & Hw' & Hn); [intros e He; by apply Hlin|done|done|].
  exists m'. split; [done|]. pose proof (subset_paired m els ext m' F2 F3 (proj1 Hw) Hp Hs Hext) as Hp'.
  pose proof Hs as (S1 & S2 & S3 & S4 & S5 & S6 & Sel & Sent). pose proof Hw as [(_ & Hlen & _) _].
  assert (geo m' = List.filter t (geo m)) as Hg.
  { apply list_eq. intros p. rewrite (filter_range q t (geo m)).
    2: { intros i x Hx. unfold geo in Hx. rewrite list_lookup_fmap in Hx. destruct (elems m !! i) as [e|] eqn:He; [|done].
         cbn in Hx. apply (inj Some) in Hx as <-. by apply Hq. }
    assert (length (geo m) = nel m) as -> by (unfold geo; by rewrite fmap_length). fold els. destruct (els !! p) as [i|] eqn:Ei; cbn [mbind option_bind].
    - destruct (Sel i) as (e & e' & He & He' & Hb'); [by eapply elem_of_list_lookup_2|].
      rewrite (sorted_number els p i F1 F2 Ei) in He'. unfold geo. rewrite !list_lookup_fmap, He, He'. cbn. by rewrite Hb'.
    - apply lookup_ge_None in Ei. apply lookup_ge_None. unfold geo. rewrite fmap_length. lia. }
  assert (∀ x, x ∈ geo m' → x ∈ geo m) as Hsub by (intros x; rewrite Hg; apply filter_in).
  split; [|split; [done|]; split; [done|]].
  - split; [done|]. split; [apply (linear_of m); try done; by eapply keep_kind|]. split; [done|].
    assert (length els ≤ nel m)%nat; [|lia]. assert (els ⊆+ range (nel m)) as Hsm.
    { apply NoDup_submseteq; [done|]. intros i Hi. apply elem_of_range. by apply F3. }
    apply submseteq_length in Hsm. unfold range in Hsm. by rewrite seq_length in Hsm.
  - split.
    2: { assert (els = idx 0 t (geo m)) as Ei.
      { unfold els, range. rewrite <- Hlen. rewrite <- (fmap_length bare). apply idx_filter. intros i x Hx. unfold geo in Hx. rewrite list_lookup_fmap in Hx.
        destruct (elems m !! i) as [e|] eqn:He; [|done]. cbn in Hx. apply (inj Some) in Hx as <-. by apply Hq. }
      rewrite <- Ei. split; [done|]. split; [done|]. split; [done|]. intros k i b f r Hk (_ & Hbb & Hf) Hr.
      assert (i ∈ els) as Hi by (by eapply elem_of_list_lookup_2). pose proof (F3 i Hi) as Hil. rewrite S2 in Hbb. rewrite S1 in Hf.
      destruct (wf_get_bc m i b f (proj1 Hw) Hil Hbb) as [r0 Hr0]; [destruct Hlin as (Hn2 & _); lia|].
      destruct (Sent i b f r0 Hi ltac:(by split_and!) Hr0) as (r' & Hr' & (_ & _ & _ & _ & _ & K1 & K2)).
      rewrite (sorted_number els k i F1 F2 Hk), Hr in Hr'. apply (inj Some) in Hr' as <-. exists r0. split; [done|]. split; [intros Hn0; by apply K1|].
      intros Hc j g Hj [Hp3 Hp4]. destruct (K2 Hc j Hj Hp3) as [K3 K4]. split; [|intros Hnj; by apply K4].
      intros k' Hk'. destruct K3 as (T & Q3 & Q4); [by eapply elem_of_list_lookup_2|]. split; [done|].
      rewrite (sorted_number els k' j F1 F2 Hk') in Q3. split; congruence. }
    rewrite Hn. unfold curved_total. f_equal. clear. induction (elems m') as [|e l IH]; [done|]. cbn [sum_list_with]. rewrite bind_cons.
    rewrite List.filter_app, app_length, IH. done.
Qed.

(** ** All parts *)
Context (OA : order_laws A) (H0 : nisnan (nofZ (a:=A) 0) = false).
Context {P : Type}.
Implicit Types (F : N → N → P → N) (p : P).
Definition con (ib : bool) : string := if ib then "con"%string else ""%string.
Lemma con_conn ib : ¬ is_conn (u3 (con ib)).
Proof. destruct ib; by intros [?|?]. Qed.
Lemma con_external (ib : bool) : (if ib then "con"%string else ""%string) = con ib.
Proof. done. Qed.

Lemma refine_split_ok ib funpar m k F p : good m → refine_par funpar k = Ok p → (∀ e, e ∈ elems m → defined_at (λ x y, F x y p) e) →
  let g x y := F x y p in
  ∃ i md x, refine_split ib funpar m k F = Ok (i, md, x) ∧ good i ∧ good md ∧ good x ∧
    nbc i = nbc m ∧ nbc md = nbc m ∧ nbc x = nbc m ∧
    ncurv i = curved_total i ∧ ncurv md = curved_total md ∧ ncurv x = curved_total x ∧
    geo i = List.filter (λ e, class g e =? 0)%nat (geo m) ∧ geo md = List.filter (λ e, class g e =? 1)%nat (geo m) ∧
    geo x = List.filter (λ e, class g e =? 2)%nat (geo m) ∧
    restricts (u3 (con ib)) m (idx 0 (λ e, class g e =? 0)%nat (geo m)) i ∧ restricts (u3 (con ib)) m (idx 0 (λ e, class g e =? 1)%nat (geo m)) md ∧
    restricts (u3 (con ib)) m (idx 0 (λ e, class g e =? 2)%nat (geo m)) x.
Proof using LA OA H0.
  intros Hm Hk Hd g. unfold refine_split. rewrite Hk. pose proof Hm as (Hw & Hlin & _). pose proof Hw as [(_ & Hlen & _) _].
  set (cs := class g <$> elems m).
  assert (mapR (λ i, let! e := of_opt IndexError (elems m !! i) in let! p := Ok p in refine_class (λ x y, F x y p) e) (range (nel m)) = Ok cs) as ->.
  { apply mapR_Ok. rewrite <- Hlen. unfold range, cs. apply Forall2_same_length_lookup. split; [by rewrite seq_length, fmap_length|].
    intros i a c Ha Hc. apply lookup_seq in Ha as [-> _]. rewrite list_lookup_fmap in Hc. cbn.
    destruct (elems m !! i) as [e|] eqn:He; [|done]. cbn in *. apply (inj Some) in Hc as <-.
    assert (e ∈ elems m) as Hin by (by eapply elem_of_list_lookup_2).
    apply refine_class_ok; [done|done|by apply Hlin| |by apply Hd].
    intros j i' Hj Hi. destruct (four_point e j i') as [pt Hpt]; [by eapply linear_four|done|done|]. by exists pt. }
  cbn [rbind]. rewrite con_external.
  assert (∀ c i e, elems m !! i = Some e → (nth i cs 3 =? c)%nat = (class g (bare e) =? c)%nat) as Hq.
  { intros c i e He. assert (cs !! i = Some (class g e)) as Hc. { unfold cs. by rewrite list_lookup_fmap, He. }
    rewrite (nth_lookup_Some _ _ _ _ Hc). done. }
  destruct (keep_part m (λ i, nth i cs 3 =? 0)%nat (λ e, class g e =? 0)%nat (con ib) Hm (con_conn ib) (Hq 0%nat)) as (i & -> & I1 & I2 & I3 & I4 & I5).
  cbn [rbind].
  destruct (keep_part m (λ i, nth i cs 3 =? 1)%nat (λ e, class g e =? 1)%nat (con ib) Hm (con_conn ib) (Hq 1%nat)) as (md & -> & M1 & M2 & M3 & M4 & M5).
  cbn [rbind].
  destruct (keep_part m (λ i, nth i cs 3 =? 2)%nat (λ e, class g e =? 2)%nat (con ib) Hm (con_conn ib) (Hq 2%nat)) as (x & -> & X1 & X2 & X3 & X4 & X5).
  cbn [rbind]. exists i, md, x. split_and!; done.
Qed.

Definition part_is (k : nat) (fs : list (N → N → N)) (q : part) e : bool := bool_decide (part_from k fs e = q).
Lemma part_lt k fs e (q : part) : part_from k fs e = q → match q with Inner j | Middle j => (k ≤ j < k + length fs)%nat | Outer => True end.
Proof.
  intros <-. revert k. induction fs as [|f fs IH]; intros k; [done|]. cbn [part_from length].
  destruct (all_corners _ _ _); [lia|]. destruct (all_corners _ _ _); [|lia]. specialize (IH (S k)). destruct (part_from _ _ _); lia.
Qed.
Lemma filter_filter {B} (t1 t2 t3 : B → bool) l : (∀ x, x ∈ l → t1 x = t2 x && t3 x) → List.filter t1 l = List.filter t3 (List.filter t2 l).
Proof.
  induction l as [|x l IH]; intros H; [done|]. cbn [List.filter]. rewrite H by left. rewrite IH by (intros; apply H; by right).
  destruct (t2 x); cbn [andb List.filter]; done.
Qed.
Lemma filter_ext_in {B} (t1 t2 : B → bool) l : (∀ x, x ∈ l → t1 x = t2 x) → List.filter t1 l = List.filter t2 l.
Proof. intros H. apply List.filter_ext_in. intros x Hx. apply H. by apply elem_of_list_In. Qed.

Lemma split_all ib funpar : ∀ (Fs : list (N → N → P → N)) ps k m acc,
  length ps = length Fs → (∀ i p, ps !! i = Some p → refine_par funpar (k + i) = Ok p) → good m →
  (∀ f e, f ∈ zip_with with_par Fs ps → e ∈ elems m → defined_at f e) →
  let fs := zip_with with_par Fs ps in
  ∃ prs ext, foldM (λ s x, let '(parts, ext) := s in let '(k, f) := x in
        let! (im, x) := refine_split ib funpar ext k f in Ok (parts ++ [im], x)) (acc, m) (zip (seq k (length Fs)) Fs) = Ok (acc ++ prs, ext) ∧
    length prs = length Fs ∧ good ext ∧ nbc ext = nbc m ∧ geo ext = List.filter (part_is k fs Outer) (geo m) ∧
    restricts (u3 (con ib)) m (idx 0 (part_is k fs Outer) (geo m)) ext ∧
    ∀ j i md, prs !! j = Some (i, md) → good i ∧ good md ∧ nbc i = nbc m ∧ nbc md = nbc m ∧
      ncurv i = curved_total i ∧ ncurv md = curved_total md ∧
      geo i = List.filter (part_is k fs (Inner (k + j))) (geo m) ∧ geo md = List.filter (part_is k fs (Middle (k + j))) (geo m) ∧
      restricts (u3 (con ib)) m (idx 0 (part_is k fs (Inner (k + j))) (geo m)) i ∧
      restricts (u3 (con ib)) m (idx 0 (part_is k fs (Middle (k + j))) (geo m)) md.
Proof using LA OA H0.
  induction Fs as [|F Fs IH]; intros ps k m acc Hps Hpar Hm Hd fs.
  { exists [], m. cbn. rewrite app_nil_r. split; [done|]. split; [done|]. split; [done|]. split; [done|]. split.
    - unfold fs. cbn. clear. induction (geo m) as [|e l IH]; [done|]. cbn. by rewrite <- IH.
    - split; [|done]. apply restricts_all; [done|]. by destruct Hm as [[(_ & Hl & _) _] _]. }
  destruct ps as [|p ps]; [done|]. cbn [length] in Hps. apply (inj S) in Hps.
  pose proof (Hpar 0%nat p eq_refl) as Hp0. rewrite Nat.add_0_r in Hp0.
  destruct (refine_split_ok ib funpar m k F p Hm Hp0) as (i & md & x & E & Gi & Gm & Gx & Ni & Nm & Nx & Ci & Cm & _ & Ei & Em & Ex & Ri & Rm & Rx).
  { intros e He. apply (Hd (with_par F p)); [left|done]. }
  destruct (IH ps (S k) x (acc ++ [(i, md)])) as (prs & ext & E2 & L2 & G2 & N2 & X2 & R2 & Hj); [done| |done| |].
  { intros a p' Ha. replace (S k + a)%nat with (k + S a)%nat by lia. by apply (Hpar (S a)). }
  { intros f e Hf He. destruct (geo_elem m x e) as (e0 & He0 & Eb); [intros y; rewrite Ex; apply filter_in|done|].
    assert (defined_at f e0) as Hde by (apply Hd; [by right|done]).
    intros a b c d z Hp'. apply (Hde a b c d z). change (point (bare e0) 0 a b = Some (c, d, z)). by rewrite <- Eb. }
  exists ((i, md) :: prs), ext. cbn [length seq zip zip_with foldM]. rewrite E. cbn [rbind].
  assert (∀ q e, (∀ j, q = Inner j ∨ q = Middle j → j ≠ k) →
    part_is k fs q e = (class (with_par F p) e =? 2)%nat && part_is (S k) (zip_with with_par Fs ps) q e) as Hlater.
  { intros q e Hq. unfold fs, part_is, class. cbn [zip_with part_from]. destruct (all_corners _ _ e).
    - cbn [Nat.eqb andb]. apply bool_decide_eq_false. intros <-. by eapply (Hq k); [left|].
    - destruct (all_corners _ _ e); [done|]. cbn [Nat.eqb andb]. apply bool_decide_eq_false. intros <-. by eapply (Hq k); [right|]. }
  assert (∀ q c e, q = Inner k ∧ c = 0%nat ∨ q = Middle k ∧ c = 1%nat → part_is k fs q e = (class (with_par F p) e =? c)%nat) as Hnow.
  { intros q c e Hq. unfold fs, part_is, class. cbn [zip_with part_from].
    destruct (all_corners _ _ e).
    - destruct Hq as [[-> ->]|[-> ->]]; by apply bool_decide_eq_true || by apply bool_decide_eq_false.
    - destruct (all_corners _ _ e).
      + destruct Hq as [[-> ->]|[-> ->]]; apply bool_decide_eq_false; intros Hpt; apply part_lt in Hpt; lia.
      + destruct Hq as [[-> ->]|[-> ->]]; by apply bool_decide_eq_true || by apply bool_decide_eq_false. }
  split; [rewrite E2; by rewrite <- app_assoc|]. split; [cbn [length]; lia|]. split; [done|]. split; [congruence|]. split.
  { rewrite X2, Ex. symmetry. apply filter_filter. intros e _. apply Hlater. by intros j [?|?]. }
  pose proof Hm as [[(_ & Hlm & _) _] _]. pose proof Gx as [[(_ & Hlx & _) _] _].
  assert (∀ q d, (∀ j, q = Inner j ∨ q = Middle j → j ≠ k) →
    restricts (u3 (con ib)) x (idx 0 (part_is (S k) (zip_with with_par Fs ps) q) (geo x)) d → restricts (u3 (con ib)) m (idx 0 (part_is k fs q) (geo m)) d) as Hres.
  { intros q d Hq Hr. eapply (restricts_idx (u3 (con ib)) m x d); [apply con_conn|done|done|exact Ex| |exact Rx|exact Hr]. intros e _. by apply Hlater. }
  split; [apply Hres; [by intros j [?|?]|done]|].
  intros j i' md' Hl. destruct j as [|j].
  - cbn in Hl. apply (inj Some) in Hl. injection Hl as <- <-. rewrite Nat.add_0_r. split_and!; try done.
    + rewrite Ei. apply filter_ext_in. intros e _. symmetry. apply Hnow. by left.
    + rewrite Em. apply filter_ext_in. intros e _. symmetry. apply Hnow. by right.
    + erewrite idx_ext; [exact Ri|]. intros e _. apply Hnow. by left.
    + erewrite idx_ext; [exact Rm|]. intros e _. apply Hnow. by right.
  - cbn in Hl. destruct (Hj j i' md' Hl) as (J1 & J2 & J3 & J4 & J5 & J6 & J7 & J8 & J9 & J10). split_and!; try done; try congruence.
    + rewrite J7, Ex. replace (S k + j)%nat with (k + S j)%nat by lia. symmetry. apply filter_filter. intros e _. apply Hlater.
      intros a [[= <-]|?]; [lia|done].
    + rewrite J8, Ex. replace (S k + j)%nat with (k + S j)%nat by lia. symmetry. apply filter_filter. intros e _. apply Hlater.
      intros a [?|[= <-]]; [done|lia].
    + replace (S k + j)%nat with (k + S j)%nat in J9 by lia. apply Hres; [|done]. intros a [[= <-]|?]; [lia|done].
    + replace (S k + j)%nat with (k + S j)%nat in J10 by lia. apply Hres; [|done]. intros a [?|[= <-]]; [done|lia].
Qed.
End split.
