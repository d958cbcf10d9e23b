(** Proofs about [extrude_refine]: the whole function. *)
From Verif Require Import Base Mesh Core Tools Curve Mid Split MeshLemmas MeshSpec CheckProofs OpsProofs GeoLaws LimsProofs
  KeepSpec KeepProofs MergeSpec MergeProofs MergeTotal DiscProofs ExtrudeSpec ExtrudeProofs P_Extrude MidSpec MidProofs MidBlock MidMesh MidResult
  MidEntry MidFinal SplitSpec SplitProofs SplitFlat SplitResult.
From Coq Require Import Lia.
Open Scope Z_scope.

(** ** The list of the parts *)
Lemma parts_in n p : p ∈ parts n ↔ match p with Inner k | Middle k => (k < n)%nat | Outer => True end.
Proof.
  unfold parts, range. rewrite elem_of_cons, elem_of_list_bind. split.
  - intros [->|(k & Hp & Hk)]; [done|]. apply elem_of_seq in Hk. rewrite !elem_of_cons, elem_of_nil in Hp. destruct Hp as [->|[->|[]]]; lia.
  - destruct p as [k|k|]; intros Hk; [right|right|by left]; exists k; (split; [|apply elem_of_seq; lia]).
    + left.
    + right. left.
Qed.
Lemma parts_nodup n : NoDup (parts n).
Proof.
  unfold parts, range. constructor.
  { rewrite elem_of_list_bind. intros (k & Hp & _). rewrite !elem_of_cons, elem_of_nil in Hp. by destruct Hp as [?|[?|?]]. }
  assert (∀ s, NoDup (seq s n ≫= λ k, [Inner k; Middle k]) ∧
    ∀ p, p ∈ (seq s n ≫= λ k, [Inner k; Middle k]) → match p with Inner k | Middle k => (s ≤ k)%nat | Outer => False end) as H.
  { induction n as [|n IH]; intros s; cbn [seq].
    - split; [constructor|]. intros p Hp. by apply elem_of_nil in Hp.
    - destruct (IH (S s)) as [I1 I2]. rewrite bind_cons. cbn [app]. split.
      + constructor; [|constructor; [|done]].
        * rewrite elem_of_cons. intros [?|Hp]; [done|]. apply I2 in Hp. lia.
        * intros Hp. apply I2 in Hp. lia.
      + intros p. rewrite !elem_of_cons. intros [->|[->|Hp]]; [lia|lia|]. apply I2 in Hp. destruct p; lia. }
  apply H.
Qed.
Lemma bind_length {X Y} (g : X → list Y) l : length (l ≫= g) = sum_list_with (λ x, length (g x)) l.
Proof. induction l as [|x l IH]; [done|]. rewrite bind_cons, app_length, IH. done. Qed.
Lemma sum_ext {X} (g g' : X → nat) l : (∀ x, x ∈ l → g x = g' x) → sum_list_with g l = sum_list_with g' l.
Proof. induction l as [|x l IH]; intros H; [done|]. cbn. rewrite H by left. rewrite IH; [done|]. intros. apply H. by right. Qed.
Lemma sum_plus {X} (g g' : X → nat) l : sum_list_with (λ x, g x + g' x)%nat l = (sum_list_with g l + sum_list_with g' l)%nat.
Proof. induction l as [|x l IH]; [done|]. cbn. rewrite IH. lia. Qed.
Lemma sum_zero {X} (l : list X) : sum_list_with (λ _, 0%nat) l = 0%nat.
Proof. by induction l. Qed.
Lemma sum_single (ps : list part) (q : part) (g : part → nat) : NoDup ps → q ∈ ps →
  sum_list_with (λ p, if decide (q = p) then g p else 0)%nat ps = g q.
Proof.
  induction ps as [|p ps IH]; intros Hnd Hq; [by apply elem_of_nil in Hq|]. apply NoDup_cons in Hnd as [Hp Hnd]. cbn. case_decide as E.
  - subst q. rewrite (sum_ext _ (λ _, 0%nat)).
    + rewrite sum_zero. lia.
    + intros x Hx. case_decide as Ex; [|done]. by subst.
  - apply elem_of_cons in Hq as [?|Hq]; [done|]. by rewrite IH.
Qed.
Lemma sum_parts {X} (t : X → part) (ps : list part) (c : part → nat) l : NoDup ps → (∀ x, x ∈ l → t x ∈ ps) →
  sum_list_with (λ p, length (filter (λ x, t x = p) l) * c p)%nat ps = sum_list_with (λ x, c (t x)) l.
Proof.
  intros Hnd. induction l as [|x l IH]; intros Hl.
  { rewrite (sum_ext _ (λ _, 0%nat)); [|done]. apply sum_zero. }
  cbn [sum_list_with]. rewrite <- IH by (intros; apply Hl; by right). rewrite <- (sum_single ps (t x) c Hnd) by (apply Hl; left).
  rewrite <- sum_plus. apply sum_ext. intros p _. rewrite filter_cons. destruct (decide (t x = p)); cbn; lia.
Qed.
Lemma sum_le {X} (g : X → nat) l c : (∀ x, x ∈ l → (g x ≤ c)%nat) → (sum_list_with g l ≤ length l * c)%nat.
Proof. induction l as [|x l IH]; intros H; [done|]. cbn. pose proof (H x ltac:(left)). assert (sum_list_with g l ≤ length l * c)%nat by (apply IH; intros; apply H; by right). lia. Qed.

Section final.
Context {A : arith} {P : Type}.
Notation N := (num A).
Implicit Types (m : hexa N) (e : elem N) (r : bcrec N) (f : N → N → N).
Notation bare := (set_bcs (N:=N) []).

Lemma bind_parts (u : hexa N → list (elem N)) (g : part → list (elem N)) : ∀ (l : list (hexa N * hexa N)) k,
  (∀ i a b, l !! i = Some (a, b) → g (Inner (k + i)) = u a ∧ g (Middle (k + i)) = u b) →
  ((l ≫= λ p, [fst p; snd p]) ≫= u) = ((seq k (length l) ≫= λ k, [Inner k; Middle k]) ≫= g).
Proof.
  induction l as [|[a b] l IH]; intros k H; [done|]. cbn [length seq]. rewrite !bind_cons. cbn [fst snd app]. rewrite !bind_cons.
  destruct (H 0%nat a b eq_refl) as [H1 H2]. rewrite Nat.add_0_r in H1, H2. rewrite H1, H2, (IH (S k)); [done|].
  intros i a' b' Hi. replace (S k + i)%nat with (k + S i)%nat by lia. by apply H.
Qed.
Lemma split_blocks (g : part → list (elem N)) (ps : list part) l : NoDup ps → bare <$> l = ps ≫= g →
  ∃ block, l = ps ≫= block ∧ ∀ p, p ∈ ps → bare <$> block p = g p.
Proof.
  revert l. induction ps as [|p ps IH]; intros l Hnd H.
  { exists (λ _, []). cbn in H. apply fmap_nil_inv in H as ->. split; [done|]. intros p Hp. by apply elem_of_nil in Hp. }
  apply NoDup_cons in Hnd as [Hp Hnd]. rewrite bind_cons in H. apply fmap_app_inv in H as (l1 & l2 & E1 & E2 & ->).
  destruct (IH l2 Hnd) as (block & -> & Hb); [done|]. exists (λ q, if decide (q = p) then l1 else block q). rewrite bind_cons. rewrite decide_True by done. split.
  - f_equal. assert (∀ q, q ∈ ps → (if decide (q = p) then l1 else block q) = block q) as Hq.
    { intros q Hq. case_decide; [by subst|done]. }
    revert Hq. clear. induction ps as [|q ps IH]; intros Hq; [done|]. rewrite !bind_cons. rewrite Hq by left. f_equal. apply IH. intros; apply Hq; by right.
  - intros q Hq. case_decide as Eq; [by subst|]. apply elem_of_cons in Hq as [?|Hq]; [done|]. by apply Hb.
Qed.
Lemma filter_bare fs (p : part) l : bare <$> filter (λ e, part_of fs e = p) l = List.filter (part_is 0 fs p) (bare <$> l).
Proof.
  induction l as [|e l IH]; [done|]. rewrite filter_cons, fmap_cons. cbn [List.filter]. unfold part_is at 1. rewrite part_bare.
  change (part_from 0 fs e) with (part_of fs e). case_decide as E.
  - rewrite bool_decide_true by done. rewrite fmap_cons. by rewrite IH.
  - rewrite bool_decide_false by done. done.
Qed.
Lemma geo_length m : length (geo m) = length (elems m).
Proof. apply fmap_length. Qed.

Context (bnd : Z) (LA : arith_laws A bnd) (LM : mul_law (A:=A) bnd).
Context (OA : order_laws A) (H0 : nisnan (nofZ (a:=A) 0) = false).

Lemma good_delete m : good bnd m → ∃ d k, delete_internal_bcs m = Ok (d, k) ∧ good bnd d ∧ nbc d = nbc m ∧ geo d = geo m.
Proof.
  intros (Hw & Hlin & Hp & Hb). destruct (delete_spec m (proj1 Hw)) as (d & k & E & S & B & _ & Hd). exists d, k. split; [done|].
  pose proof S as SF. apply strip_fields in SF as (F1 & F2 & F3 & F4 & F5 & F6 & F7 & F8 & F9).
  assert (geo d = geo m) as Eg by exact (f_equal elems S).
  split; [|split; done]. split; [by eapply wf_mesh_shape|]. split; [apply (linear_of m d); try done; by rewrite Eg|]. split; [|by rewrite F2].
  intros i b f r Hin Hr Hc. unfold in_mesh in Hin. rewrite F1, F2, F4 in Hin.
  destruct (wf_get_bc m i b f (proj1 Hw)) as [r0 Hr0]; [apply Hin|apply Hin|destruct Hlin as (Hn2 & _); lia|].
  rewrite (Hd _ _ _ _ Hr0) in Hr. apply (inj Some) in Hr as <-. destruct (String.eqb_spec (bt r0) "E") as [Et|Et]; [by destruct Hc|].
  destruct (Hp i b f r0 Hin Hr0 Hc) as (j & g & r' & Hin' & Hpt & Hr' & Ht & Hpt'). exists j, g, r'. unfold in_mesh. rewrite F1, F2, F4.
  split; [done|]. split; [done|]. rewrite (Hd _ _ _ _ Hr'). rewrite Ht. by rewrite (proj2 (String.eqb_neq _ _) Et).
Qed.
Lemma good_update m : good bnd m → ∃ c, update_ncurv m = Ok (set_ncurv c m) ∧ good bnd (set_ncurv c m).
Proof.
  intros Hm. eexists. split; [apply update_ncurv_spec|exact Hm].
  intros e He. destruct Hm as (_ & (_ & _ & _ & _ & L) & _). by apply L.
Qed.

(** ** One splitting function *)
Context (nb : nat) (bc1 bc2 : list string) (c1 c2 : nat → string) (ib : bool) (fl : Prop).
Hypothesis G1 : conditions_given nb (Some bc1) c1.
Hypothesis G2 : conditions_given nb (Some bc2) c2.
Hypothesis HP : ∀ b, (b < nb)%nat → c1 b = "P"%string ↔ c2 b = "P"%string.
Context (m : hexa N) (z : list N) (nz : nat) (h : Z) (Fs : list (N → N → P → N)) (ps : list P).
Let fs := zip_with with_par Fs ps.
Let n := length Fs.
Hypothesis Hz : length z = (nz + 1)%nat.
Hypothesis Hnz : (1 ≤ nz)%nat.
Hypothesis Hps : length ps = length Fs.
Hypothesis D1 : Z.of_nat nz mod pow2 (h + 1) = 0.
Hypothesis D2 : Z.of_nat nz mod pow2 (Z.of_nat n - h + 1) = 0.
Hypothesis Hm : good bnd m.
Hypothesis Hb : Z.of_nat (6 * nel m * nz) <= bnd.
Hypothesis Hmid : cuttable fs h m.
Notation members p := (filter (λ e, part_of fs e = p) (elems m)).
Hypothesis Hfl : fl → ib = true ∨ ∀ i b (f : nat) r, get_bc m i b f = Some r → (4 ≤ f)%nat → bt r ≠ "P"%string.
Notation piece := (piece nb c1 c2 fl).

Lemma members_length p : (length (members p) ≤ nel m)%nat.
Proof using Hm Hz Hps Hnz Hb.
  destruct Hm as ([(_ & <- & _) _] & _). apply filter_length.
Qed.
Lemma part_nel d p : good bnd d → geo d = List.filter (part_is 0 fs p) (geo m) → bare <$> elems d = bare <$> members p ∧ nel d = length (members p).
Proof.
  intros ([(_ & El & _) _] & _) Hg. unfold geo in Hg. rewrite <- filter_bare in Hg. split; [done|]. rewrite <- El.
  apply (f_equal length) in Hg. by rewrite !fmap_length in Hg.
Qed.
(** The types of the conditions of the elements of one part. *)
Lemma members_idx p i : members p !! i = (idx 0 (part_is 0 fs p) (geo m) !! i) ≫= (elems m !!.).
Proof.
  assert (∀ l, filter (λ e, part_of fs e = p) l = List.filter (part_is 0 fs p) l) as ->.
  { induction l as [|e l IH]; [done|]. rewrite filter_cons. cbn [List.filter]. unfold part_is at 1. change (part_from 0 fs e) with (part_of fs e).
    case_decide as E; [rewrite bool_decide_true by done|rewrite bool_decide_false by done]; by rewrite IH. }
  rewrite idx_lookup. assert (∀ l s, idx s (part_is 0 fs p) (bare <$> l) = idx s (part_is 0 fs p) l) as Hi.
  { induction l as [|e l IH]; intros s; [done|]. rewrite fmap_cons. cbn [idx]. rewrite IH.
    assert (part_is 0 fs p (bare e) = part_is 0 fs p e) as -> by (unfold part_is; by rewrite part_bare). done. }
  unfold geo. by rewrite Hi.
Qed.
Lemma idx_members p j e : elems m !! j = Some e → j ∈ idx 0 (part_is 0 fs p) (geo m) ↔ part_of fs e = p.
Proof.
  intros He. assert (∀ s l k x, l !! k = Some x → (s + k)%nat ∈ idx s (part_is 0 fs p) l ↔ part_is 0 fs p x = true) as H.
  { intros s l. revert s. induction l as [|y l IH]; intros s k x Hk; [done|]. cbn [idx]. destruct k as [|k].
    - cbn in Hk. apply (inj Some) in Hk as <-. rewrite Nat.add_0_r. destruct (part_is 0 fs p y) eqn:E.
      + split; [done|]. intros _. left.
      + split; [|done]. intros Hin. apply idx_ge in Hin. lia.
    - cbn in Hk. rewrite Nat.add_succ_r, <- Nat.add_succ_l. rewrite <- (IH (S s) k x Hk). destruct (part_is 0 fs p y); [|done].
      rewrite elem_of_cons. split; [|by right]. intros [?|?]; [lia|done]. }
  assert (geo m !! j = Some (bare e)) as Hg by (unfold geo; by rewrite list_lookup_fmap, He).
  rewrite (H 0%nat _ _ _ Hg). unfold part_is. rewrite part_bare. apply bool_decide_eq_true.
Qed.
Definition restricted p d : Prop := (ib = true → restricts "con" m (idx 0 (part_is 0 fs p) (geo m)) d) ∧ (fl → ib = true ∨ flat d).
Lemma side_from d p i e2 b (f : nat) r : good bnd d → restricted p d → ib = true → nbc d = nb → members p !! i = Some e2 →
  (b < nb)%nat → (f < 4)%nat → get_bc d i b f = Some r → side_type fs m e2 b f (bt r).
Proof using Hm Hz Hps Hnz Hb.
  intros Hgd Hr Hib Hnbd He2 Hbb Hf Hg. destruct (proj1 Hr Hib) as (R1 & R2 & R3 & R4). pose proof Hgd as (_ & (L1 & _) & _).
  pose proof He2 as Hin. apply elem_of_list_lookup_2, elem_of_list_filter in Hin as [Hpe _].
  rewrite members_idx in He2. destruct (_ !! i) as [i0|] eqn:Hi; [|done]. cbn in He2.
  destruct (R4 i i0 b f r Hi) as (r0 & Hr0 & K1 & K2); [|done|].
  { unfold in_mesh. rewrite L1. split_and!; [|lia|lia]. rewrite R3. by eapply lookup_lt_Some. }
  exists r0. rewrite (get_entry m i0 e2) in Hr0 by done. split; [done|]. split; [done|]. intros Hc j g e' He' Hp.
  assert (j < nel m)%nat as Hj. { destruct Hm as ([(_ & <- & _) _] & _). by eapply lookup_lt_Some. }
  destruct (K2 Hc j g Hj Hp) as [K3 K4]. rewrite Hpe. pose proof (idx_members p j e' He') as Hiff. destruct (decide (part_of fs e' = p)) as [Ep|Ep].
  - apply Hiff in Ep. apply elem_of_list_lookup in Ep as [k' Hk']. by destruct (K3 k' Hk').
  - apply K4. by rewrite Hiff.
Qed.
Definition slabs_typed (nl : nat) p (es3 : list (elem N)) : Prop := ∀ k i e2 e b (f : nat) r, (k < nl)%nat → members p !! i = Some e2 →
  es3 !! (i + length (members p) * k)%nat = Some e → (b < nb)%nat → (f < 6)%nat → entry e b f = Some r → slab_type fs m c1 c2 nl k e2 b f (bt r).
Definition cut_typed (k : nat) (es3 : list (elem N)) : Prop := ∀ fn k' i j e2 e b (f : nat) r, fs !! k = Some fn →
  (k' < nz / (4 * coarse_mid h k))%nat → members (Middle k) !! i = Some e2 → (j < 6)%nat → es3 !! sixth (length (members (Middle k))) k' i j = Some e →
  (b < nb)%nat → (f < 6)%nat → entry e b f = Some r → sixth_type fs m c1 c2 (nz / (4 * coarse_mid h k)) (finer h k fn) k' j e2 b f (bt r).
Lemma inner_ok d p k : good bnd d → restricted p d → nbc d = nb → geo d = List.filter (part_is 0 fs p) (geo m) → (k ≤ n)%nat →
  ∃ m3, extrude d (every (coarse h k) z) (Some bc1) (Some bc2) ib = Ok m3 ∧ piece m3 ∧
    (∃ zl, sampled (coarse h k) z zl ∧ slabs (members p) zl (elems m3)) ∧ nel m3 = (length (members p) * (nz / coarse h k))%nat ∧
    (ends nb c1 c2 → ib = true → slabs_typed (nz / coarse h k) p (elems m3)).
Proof using LA G1 G2 HP Hz Hnz Hps D1 D2 Hm Hb.
  intros Hd Hre Hn Hg Hk. destruct (part_nel d p Hd Hg) as [Eb En]. destruct (coarse_layers n h nz D1 D2 k Hk) as [c Hc].
  pose proof (coarse_pos h k) as Hcp. pose proof (every_sampled (coarse h k) z Hcp) as Hs.
  assert (length (every (coarse h k) z) = (c + 1)%nat) as Hl by (eapply sampled_length; [exact Hs|done|lia]).
  pose proof (members_length p) as Hml.
  destruct (extrude_piece bnd LA nb bc1 bc2 c1 c2 ib fl G1 G2 HP d (every (coarse h k) z) c) as (m3 & E & Hp & Hsl & Hnel); try done; [by apply Hre|..].
  { nia. }
  { etransitivity; [|exact Hb]. apply inj_le. rewrite En. nia. }
  exists m3. split; [done|]. split; [done|]. split.
  - exists (every (coarse h k) z). split; [done|]. by eapply slabs_bare; [exact Eb|reflexivity|].
  - assert (nz / coarse h k = c)%nat as Ec by (rewrite Hc, (Nat.mul_comm _ c); by rewrite Nat.div_mul by lia).
    split; [by rewrite Hnel, En, Ec|]. intros He Hib k' i e2 e b f r Hk' He2 He3 Hb' Hf Hr. rewrite Ec in *. pose proof E as E'. rewrite Hib in E'.
    assert (i < nel d)%nat as Hi by (rewrite En; by eapply lookup_lt_Some). rewrite <- En in He3. rewrite <- (get_entry m3 _ e) in Hr by done.
    destruct (extrude_types bnd LA nb bc1 bc2 c1 c2 G1 G2 HP d _ c m3 k' i b f r Hd Hn Hl) as (T1 & T2 & T3); try done.
    { nia. }
    { etransitivity; [|exact Hb]. apply inj_le. rewrite En. nia. }
    split_and!; [|done|done]. intros Hf4. destruct (T1 Hf4) as (r0 & Hr0 & ->). by eapply side_from.
Qed.
Lemma cut_ok d k f : good bnd d → restricted (Middle k) d → nbc d = nb → geo d = List.filter (part_is 0 fs (Middle k)) (geo m) → (k < n)%nat → fs !! k = Some f →
  ∃ m' m3, extrude_mid d (every (coarse_mid h k) z) bc1 bc2 (finer h k f) ib = Ok (m', m3) ∧ piece m3 ∧
    is_part fs h z (members (Middle k)) (Middle k) (elems m3) ∧ nel m3 = (length (members (Middle k)) * (6 * (nz / (4 * coarse_mid h k))))%nat ∧
    (ends nb c1 c2 → ib = true → cut_typed k (elems m3)).
Proof using LA LM G1 G2 HP Hz Hnz Hps D1 D2 Hm Hb Hmid.
  intros Hd Hre Hn Hg Hk Hf. destruct (part_nel d _ Hd Hg) as [Eb En]. destruct (coarse_mid_layers n h nz D1 D2 k Hk) as [q Hq].
  pose proof (coarse_mid_pos h k) as Hcp. pose proof (every_sampled (coarse_mid h k) z Hcp) as Hs.
  assert (length (every (coarse_mid h k) z) = (4 * q + 1)%nat) as Hl by (eapply sampled_length; [exact Hs|done|lia]).
  pose proof (members_length (Middle k)) as Hml.
  assert (1 ≤ q)%nat as Hq1 by nia.
  assert (Z.of_nat (6 * nel d * q) <= bnd) as Hbq.
  { etransitivity; [|exact Hb]. apply inj_le. rewrite En. assert (q ≤ nz)%nat by nia. nia. }
  assert (∀ e, e ∈ elems d → curvature_ok e ∧ no_arcs e ∧ cut_across (finer h k f) e) as Hcut.
  { intros e He. apply elem_of_list_lookup in He as [i He]. destruct (bare_lookup _ _ _ _ Eb He) as (e0 & He0 & E0).
    apply elem_of_list_lookup_2, elem_of_list_filter in He0 as [Hp0 He0]. destruct (Hmid k f e0 Hf He0 Hp0) as (M1 & M2 & M3).
    split_and!.
    - change (curvature_ok (bare e)). rewrite E0. exact M1.
    - change (no_arcs (bare e)). rewrite E0. exact M2.
    - change (cut_across (finer h k f) (bare e)). rewrite E0. exact M3. }
  destruct (mid_piece bnd LA LM nb bc1 bc2 c1 c2 ib fl G1 G2 HP d (every (coarse_mid h k) z) (finer h k f) q) as (m' & m3 & E & Hp & Hsl & Hnel); try done; [by apply Hre|].
  exists m', m3. split; [done|]. split; [done|]. split.
  - exists (every (coarse_mid h k) z), f. split; [done|]. split; [done|]. by eapply sixths_bare; [exact Eb|reflexivity|].
  - assert (nz / (4 * coarse_mid h k) = q)%nat as Eq.
    { replace nz with (q * (4 * coarse_mid h k))%nat by lia. rewrite Nat.div_mul by lia. done. }
    split; [rewrite Hnel, En, Eq; lia|].
    intros He Hib fn k' i j e2 e b g r Hfn Hk' He2 Hj He3 Hb' Hg' Hr. rewrite Eq in *. rewrite Hf in Hfn. apply (inj Some) in Hfn as <-.
    pose proof E as E'. rewrite Hib in E'.
    destruct (bare_lookup (members (Middle k)) (elems d) i e2 (eq_sym Eb) He2) as (ed & Hed & Ebe).
    rewrite <- En in He3. rewrite <- (get_entry m3 _ e) in Hr by done.
    pose proof (mid_types bnd LA LM nb bc1 bc2 c1 c2 G1 G2 HP d _ (finer h k f) q m' m3 k' i j ed b g r Hd Hn Hl Hq1 Hbq Hcut He E' Hk' Hed Hj Hb' Hg' Hr)
      as (T1 & T2 & T3 & T4 & T5 & T6).
    assert (∀ r0, get_bc d i b g = Some r0 → (g < 4)%nat → side_type fs m e2 b g (bt r0)) as Hsd by (intros r0 Hr0 Hg4; by eapply side_from).
    unfold side_cut in *. rewrite !(side_low_bare _ e2 ed) in T1, T2, T3, T6 by (by symmetry). split_and!.
    + intros [Hc|[(X1 & X2 & X3)|(X1 & X2 & X3)]].
      * destruct (T1 Hc) as (r0 & Hr0 & ->). apply Hsd; [done|]. by destruct Hc.
      * destruct (T2 X1 X2 X3) as (r0 & Hr0 & ->). by apply Hsd.
      * destruct (T3 X1 X2 X3) as (r0 & Hr0 & ->). by apply Hsd.
    + intros (X1 & X2 & X3). by apply T4.
    + intros (X1 & X2 & X3). by apply T5.
    + exact T6.
Qed.
Definition pair_spec (k : nat) (i3 m3 : hexa N) : Prop := piece i3 ∧ piece m3 ∧
  is_part fs h z (members (Inner k)) (Inner k) (elems i3) ∧ is_part fs h z (members (Middle k)) (Middle k) (elems m3) ∧
  nel i3 = (length (members (Inner k)) * copies n h nz (Inner k))%nat ∧ nel m3 = (length (members (Middle k)) * copies n h nz (Middle k))%nat ∧
  (ends nb c1 c2 → ib = true → slabs_typed (nz / coarse h k) (Inner k) (elems i3) ∧ cut_typed k (elems m3)).
Lemma pair_ok k F i md : Fs !! k = Some F → good bnd i → good bnd md → restricted (Inner k) i → restricted (Middle k) md → nbc i = nb → nbc md = nb →
  geo i = List.filter (part_is 0 fs (Inner k)) (geo m) → geo md = List.filter (part_is 0 fs (Middle k)) (geo m) →
  ∃ i3 m3, refine_extrude z bc1 bc2 h ib (Some ps) k F i md = Ok (i3, m3) ∧ pair_spec k i3 m3.
Proof using LA LM G1 G2 HP Hz Hnz Hps D1 D2 Hm Hb Hmid.
  intros HF Gi Gm Ri Rm Ni Nm Ei Em. assert (k < n)%nat as Hk by (by eapply lookup_lt_Some).
  destruct (lookup_lt_is_Some_2 ps k) as [p Hp]; [unfold n in *; lia|].
  assert (fs !! k = Some (with_par F p)) as Hf by (unfold fs; apply lookup_zip_with_Some; eauto).
  destruct (inner_ok i (Inner k) k Gi Ri Ni Ei ltac:(lia)) as (i3 & E1 & P1 & S1 & L1 & Y1).
  destruct (cut_ok md k _ Gm Rm Nm Em Hk Hf) as (m' & m3 & E2 & P2 & S2 & L2 & Y2).
  exists i3, m3. split; [|split_and!; try done; intros He Hib; by split; [apply Y1|apply Y2]].
  destruct (coarse_mid_layers n h nz D1 D2 k Hk) as [q Hq].
  unfold refine_extrude. rewrite Hz. replace (Z.of_nat (nz + 1) - 1) with (Z.of_nat nz) by lia. cbv zeta.
  change (Z.to_nat (pow2 (Z.of_nat k - h))) with (coarse h k).
  assert (Z.to_nat (pow2 (Z.of_nat k - h + 1)) = coarse h (k + 1)) as Ec1.
  { unfold coarse, pow2. do 3 f_equal. lia. }
  rewrite Ec1. unfold coarse_mid, finer in E2. unfold coarse_mid in Hq.
  assert ((if Z.of_nat k <? h then 2 * (Z.of_nat nz / pow2 (Z.of_nat k - h)) else Z.of_nat nz / pow2 (Z.of_nat k - h)) = 4 * Z.of_nat q) as Enm.
  { rewrite <- coarse_Z. destruct (Z.ltb_spec (Z.of_nat k) h) as [Hlt|Hge].
    - rewrite decide_True in Hq by done. assert (coarse h k = 2 * coarse h (k + 1))%nat as Ec.
      { apply Nat2Z.inj. rewrite Nat2Z.inj_mul, !coarse_Z. unfold pow2. change (Z.of_nat 2) with (2 ^ 1). rewrite <- Z.pow_add_r by lia. f_equal. lia. }
      rewrite Hq. pose proof (coarse_pos h (k + 1)). rewrite Ec, !Nat2Z.inj_mul. change (Z.of_nat 2) with 2. change (Z.of_nat 4) with 4.
      replace (Z.of_nat (coarse h (k + 1)) * (4 * Z.of_nat q)) with (2 * Z.of_nat q * (2 * Z.of_nat (coarse h (k + 1)))) by ring.
      rewrite Z.div_mul by lia. ring.
    - rewrite decide_False in Hq by lia. rewrite Hq. pose proof (coarse_pos h k). rewrite !Nat2Z.inj_mul. change (Z.of_nat 4) with 4.
      rewrite Z.mul_comm, Z.div_mul by lia. done. }
  rewrite Enm, Z.mul_comm, Z.mod_mul by lia. cbn [Z.eqb negb]. rewrite E1. cbn [rbind refine_par]. rewrite Hp. cbn [of_opt rbind].
  destruct (Z.ltb_spec (Z.of_nat k) h) as [Hlt|Hge]; (destruct (decide (Z.of_nat k < h)); [|]); try lia; unfold with_par in E2; by rewrite E2.
Qed.

(** ** The whole function up to the merging *)
Context (obc1 obc2 : option (list string)).
Hypothesis Hnb : nbc m = nb.
Hypothesis B1 : default (replicate (nbc m) "P"%string) obc1 = bc1.
Hypothesis B2 : default (replicate (nbc m) "P"%string) obc2 = bc2.
Hypothesis Hd : ∀ f e, f ∈ fs → e ∈ elems m → defined_at f e.

Lemma fs_length : length fs = n.
Proof using Hps. unfold fs, n. rewrite zip_with_length_l; [done|]. by rewrite Hps. Qed.
Lemma refine_core : ∃ p0 l,
  extrude_refine m z obc1 obc2 (Some Fs) (Some ps) h ib = (let! m3 := foldM (refine_merge ib) p0 (l ≫= λ p, [fst p; snd p]) in update_ncurv m3) ∧
  length l = n ∧ piece p0 ∧ is_part fs h z (members Outer) Outer (elems p0) ∧ nel p0 = (length (members Outer) * copies n h nz Outer)%nat ∧
  (∀ k i3 m3, l !! k = Some (i3, m3) → pair_spec k i3 m3) ∧
  (ends nb c1 c2 → ib = true → slabs_typed (nz / coarse h n) Outer (elems p0)).
Proof using LA LM OA H0 G1 G2 HP Hz Hnz Hps D1 D2 Hm Hb Hmid Hfl Hnb B1 B2 Hd.
  assert (∃ d, (if ib then Ok m else let! d := delete_internal_bcs m in Ok (fst d)) = Ok d ∧ good bnd d ∧ nbc d = nb ∧ geo d = geo m ∧ (ib = true → d = m) ∧ (fl → ib = true ∨ flat d))
    as (d & Ed & Gd & Nd & Eg & Edm & Fd).
  { destruct ib; [exists m; split_and!; try done; by left|]. destruct (good_delete m Hm) as (d & k & Ed & ? & ? & ?). rewrite Ed. exists d. split_and!; try done; [congruence|].
    intros Hff. destruct (Hfl Hff) as [?|Hpp]; [done|]. right. eapply flat_delete; [apply Hm|exact Ed|exact Hpp]. }
  destruct (split_all bnd LA OA H0 ib (Some ps) Fs ps 0 d []) as (prs & ext & Es & Lp & Ge & Ne & Ee & Re & Hprs); [done| |done| |].
  { intros i p Hi. cbn [refine_par]. change (0 + i)%nat with i. by rewrite Hi. }
  { intros f e Hf He. destruct (geo_elem m d e) as (e0 & He0 & Eb); [by rewrite Eg|done|].
    pose proof (Hd f e0 Hf He0) as Hde. intros a b c x y Hp. apply (Hde a b c x y). change (point (bare e0) 0 a b = Some (c, x, y)). by rewrite <- Eb. }
  cbn [app] in Es. rewrite Eg in Ee. fold fs in Ee.
  assert (∀ p x c, restricts (u3 (con ib)) d (idx 0 (part_is 0 fs p) (geo d)) x → (fl → ib = true ∨ flat x) → restricted p (set_ncurv c x)) as Hres.
  { intros p x c Hr Hx. split; [|exact Hx]. intros Hib. rewrite (Edm Hib), Hib in Hr. exact Hr. }
  assert (fl → ib = true ∨ flat ext ∧ ∀ q, q ∈ prs → flat (fst q) ∧ flat (snd q)) as Hfs.
  { intros Hff. destruct (Fd Hff) as [?|Hfd]; [by left|]. right. apply (flat_splits _ _ _ _ _ _ _ Es Hfd). intros q Hq. by apply elem_of_nil in Hq. }
  destruct (good_update ext Ge) as (ce & Eu & Gu).
  destruct (mapR_exists (λ p, let! a := update_ncurv (fst p) in let! b := update_ncurv (snd p) in Ok (a, b))
    (λ p q, ∃ ca cb, q = (set_ncurv ca (fst p), set_ncurv cb (snd p)) ∧ good bnd (fst q) ∧ good bnd (snd q)) prs) as (prs2 & Em & Hf2).
  { intros [i md] Hin. apply elem_of_list_lookup in Hin as [k Hk]. destruct (Hprs k i md Hk) as (J1 & J2 & _).
    destruct (good_update i J1) as (ca & Ea & Ga). destruct (good_update md J2) as (cb & Eb & Gb). cbn [fst snd]. rewrite Ea. cbn [rbind]. rewrite Eb.
    eexists. split; [reflexivity|]. by exists ca, cb. }
  pose proof (Forall2_length _ _ _ Hf2) as Lp2.
  destruct (mapR_exists (λ x : nat * (N → N → P → N) * (hexa N * hexa N), let '((k, f), (i, m)) := x in refine_extrude z bc1 bc2 h ib (Some ps) k f i m)
    (λ x q, pair_spec (fst (fst x)) (fst q) (snd q)) (zip (enumerate Fs) prs2)) as (l & El & Hl).
  { intros [[k F] [i md]] Hin. apply elem_of_list_lookup in Hin as [k' Hk]. apply lookup_zip_with_Some in Hk as ([k0 F0] & [i0 md0] & E0 & Hk1 & Hk2).
    injection E0 as <- <- <- <-. rewrite zip_imap in Hk1. apply lookup_zip_with_Some in Hk1 as (k1 & F1 & E1 & Hs & HF). injection E1 as <- <-.
    apply lookup_seq in Hs as [-> _]. cbn [Nat.add] in *.
    destruct (Forall2_lookup_r _ _ _ _ _ Hf2 Hk2) as ([i1 md1] & Hk3 & ca & cb & E2 & Ga & Gb). cbn [fst snd] in E2, Ga, Gb. injection E2 as -> ->.
    destruct (Hprs k' i1 md1 Hk3) as (_ & _ & N1 & N2 & _ & _ & Gi & Gm & Ri & Rm). rewrite Eg in Gi, Gm.
    destruct (pair_ok k' F (set_ncurv ca i1) (set_ncurv cb md1)) as (i3 & m3 & E & Hsp); try done; [apply Hres; [done|]|apply Hres; [done|]|cbn; congruence..|].
    { intros Hff. destruct (Hfs Hff) as [?|[_ Hx]]; [by left|right]. by destruct (Hx (i1, md1)) as [? ?]; [eapply elem_of_list_lookup_2|]. }
    { intros Hff. destruct (Hfs Hff) as [?|[_ Hx]]; [by left|right]. by destruct (Hx (i1, md1)) as [? ?]; [eapply elem_of_list_lookup_2|]. }
    exists (i3, m3). split; [exact E|exact Hsp]. }
  destruct (inner_ok (set_ncurv ce ext) Outer n Gu) as (p0 & E0 & P0 & S0 & L0 & Y0); [apply Hres; [done|]|cbn; congruence|done|done|].
  { intros Hff. destruct (Hfs Hff) as [?|[? _]]; [by left|by right]. }
  exists p0, l.
  assert (length l = n) as Ll.
  { rewrite <- (Forall2_length _ _ _ Hl). unfold enumerate. rewrite zip_with_length_l; [by rewrite imap_length|]. rewrite imap_length. unfold n in *. lia. }
  split; [|split; [done|split; [done|split; [|split; [done|split; [|exact Y0]]]]]].
  - unfold extrude_refine. rewrite B1, B2. cbv zeta. pose proof Hm as (_ & (K1 & K2 & K3 & (v0 & rest & K4 & K5) & _) & _). rewrite K1, K2, K3, K4.
    cbn [Nat.eqb negb]. rewrite bool_decide_true by done. cbn [negb lookup list_lookup of_opt rbind].
    destruct (Nat.ltb_spec v0 2); [lia|].
    rewrite (one_sided_none nb bc1 bc2 c1 c2); [|by destruct G1|intros b Hbb; by split; [apply G1|apply G2]|done].
    rewrite Hps, Nat.eqb_refl. cbn [negb]. rewrite Hz. replace (Z.of_nat (nz + 1) - 1) with (Z.of_nat nz) by lia.
    fold n. rewrite D1, D2. cbn [Z.eqb negb orb]. rewrite Ed. cbn [rbind]. rewrite zip_imap. rewrite Es. cbn [rbind]. rewrite Eu. cbn [rbind].
    rewrite Em. cbn [rbind]. rewrite zip_imap in El. rewrite El. cbn [rbind].
    change (Z.to_nat (pow2 (Z.of_nat n - h))) with (coarse h n). rewrite E0. done.
  - cbn [is_part]. rewrite fs_length. exact S0.
  - intros k i3 m3 Hk. destruct (Forall2_lookup_r _ _ _ _ _ Hl Hk) as ([[k0 F] [i md]] & Hk1 & Hsp). cbn [fst snd] in Hsp.
    apply lookup_zip_with_Some in Hk1 as ([k1 F1] & [i0 md0] & E1 & Hk1 & Hk2). injection E1 as -> -> -> ->.
    rewrite zip_imap in Hk1. apply lookup_zip_with_Some in Hk1 as (k2 & F2 & E2 & Hs & HF). injection E2 as -> ->. by apply lookup_seq in Hs as [-> _].
Qed.

(** ** The result *)
Lemma part_of_in e : part_of fs e ∈ parts n.
Proof using Hps.
  apply parts_in. pose proof (part_lt 0 fs e _ eq_refl) as H. fold (part_of fs e) in H. rewrite fs_length in H. by destruct (part_of fs e) as [k|k|]; [apply H|apply H|].
Qed.
Definition block_of p0 (l : list (hexa N * hexa N)) (p : part) : list (elem N) :=
  match p with
  | Outer => geo p0
  | Inner k => match l !! k with Some (a, _) => geo a | None => [] end
  | Middle k => match l !! k with Some (_, b) => geo b | None => [] end
  end.
Lemma block_all p0 (l : list (hexa N * hexa N)) : length l = n →
  geo p0 ++ ((l ≫= λ p, [fst p; snd p]) ≫= geo) = parts n ≫= block_of p0 l.
Proof.
  intros Hl. unfold parts, range. rewrite bind_cons. f_equal. rewrite <- Hl. apply bind_parts. intros i a b Hi. cbn. by rewrite Hi.
Qed.
Lemma block_part p0 l p : length l = n → piece p0 → is_part fs h z (members Outer) Outer (elems p0) →
  nel p0 = (length (members Outer) * copies n h nz Outer)%nat → (∀ k i3 m3, l !! k = Some (i3, m3) → pair_spec k i3 m3) → p ∈ parts n →
  ∃ d, block_of p0 l p = geo d ∧ piece d ∧ is_part fs h z (members p) p (elems d) ∧ nel d = (length (members p) * copies n h nz p)%nat.
Proof.
  intros Hl P0 S0 L0 Hpr Hp. apply parts_in in Hp. destruct p as [k|k|].
  - destruct (lookup_lt_is_Some_2 l k) as [[a b] Hk]; [lia|]. destruct (Hpr k a b Hk) as (X1 & X2 & X3 & X4 & X5 & X6 & _). exists a. cbn. by rewrite Hk.
  - destruct (lookup_lt_is_Some_2 l k) as [[a b] Hk]; [lia|]. destruct (Hpr k a b Hk) as (X1 & X2 & X3 & X4 & X5 & X6 & _). exists b. cbn. by rewrite Hk.
  - by exists p0.
Qed.
Lemma pieces_in p0 l p : piece p0 → (∀ k i3 m3, l !! k = Some (i3, m3) → pair_spec k i3 m3) → p ∈ p0 :: (l ≫= λ p, [fst p; snd p]) → piece p.
Proof.
  intros P0 Hpr Hp. apply elem_of_cons in Hp as [->|Hp]; [done|]. apply elem_of_list_bind in Hp as ([a b] & Hp & Hab).
  apply elem_of_list_lookup in Hab as [k Hk]. destruct (Hpr k a b Hk) as (X1 & X2 & _). cbn [fst snd] in Hp.
  rewrite !elem_of_cons, elem_of_nil in Hp. by destruct Hp as [->|[->|[]]].
Qed.
Lemma block_sum p0 l : length l = n → piece p0 → is_part fs h z (members Outer) Outer (elems p0) →
  nel p0 = (length (members Outer) * copies n h nz Outer)%nat → (∀ k i3 m3, l !! k = Some (i3, m3) → pair_spec k i3 m3) →
  length (parts n ≫= block_of p0 l) = sum_list_with (λ e, copies n h nz (part_of fs e)) (elems m).
Proof using Hz Hnz Hnb Hb Hps.
  intros Hl P0 S0 L0 Hpr. rewrite bind_length. rewrite <- (sum_parts (part_of fs) (parts n)); [|apply parts_nodup|intros; apply part_of_in].
  apply sum_ext. intros p Hp. destruct (block_part p0 l p Hl P0 S0 L0 Hpr Hp) as (d & -> & Pd & _ & <-).
  rewrite geo_length. by apply piece_box in Pd as (_ & _ & ->).
Qed.
Lemma curved_count (l : list (elem N)) : length (List.filter (λ c, negb (String.eqb c "")) (l ≫= ccurv)) = sum_list_with curved_edges l.
Proof. induction l as [|e l IH]; [done|]. cbn [sum_list_with]. rewrite bind_cons, List.filter_app, app_length, IH. done. Qed.

Lemma refine_result m3 : extrude_refine m z obc1 obc2 (Some Fs) (Some ps) h ib = Ok m3 →
  is_refined fs h m z m3 ∧ nel m3 = sum_list_with (λ e, copies n h nz (part_of fs e)) (elems m).
Proof using LA LM OA H0 G1 G2 HP Hz Hnz Hps D1 D2 Hm Hb Hmid Hfl Hnb B1 B2 Hd.
  destruct refine_core as (p0 & l & E & Hl & P0 & S0 & L0 & Hpr & Y0). rewrite E. clear E.
  destruct (foldM _ p0 _) as [mf|] eqn:Ef; [|done]. cbn [rbind]. intros Eu.
  destruct (merges_ok ib _ _ _ Ef) as (Bf & Nf & Eg).
  { by apply piece_box in P0. }
  { intros p Hp. assert (piece p) as Pp; [|by apply piece_box in Pp]. eapply pieces_in; [done|done|]. by right. }
  rewrite (block_all p0 l Hl) in Eg.
  assert (∀ e, e ∈ elems mf → length (ccurv e) = 12%nat) as Hcc.
  { intros e He. assert (bare e ∈ geo mf) as Hg by (apply elem_of_list_fmap; eauto). rewrite Eg in Hg. apply elem_of_list_bind in Hg as (p & Hg & Hp).
    destruct (block_part p0 l p Hl P0 S0 L0 Hpr Hp) as (d & Eb & (_ & _ & _ & _ & Hd' & _) & _). rewrite Eb in Hg.
    apply geo_in in Hg as (e0 & He0 & Ee). rewrite <- (Hd' e0 He0). exact (f_equal length (f_equal ccurv Ee)). }
  rewrite update_ncurv_spec in Eu by done. rewrite curved_count in Eu. injection Eu as <-.
  destruct Bf as (F1 & F2 & F3). split.
  - split; [done|]. split; [done|]. split; [done|]. split; [cbn; destruct P0 as (_ & _ & _ & P0 & _); congruence|]. split; [done|].
    destruct (split_blocks (block_of p0 l) (parts n) (elems mf) (parts_nodup n) Eg) as (block & Eb & Hblock).
    exists block. rewrite fs_length. split; [done|]. intros p Hp.
    destruct (block_part p0 l p Hl P0 S0 L0 Hpr Hp) as (d & Ed & _ & Sd & _).
    assert (bare <$> elems d = bare <$> block p) as Hbd by (rewrite Hblock by done; by rewrite Ed).
    destruct p as [k|k|]; cbn [is_part] in *.
    + destruct Sd as (zl & Hs & Sd). exists zl. split; [done|]. by eapply slabs_bare; [reflexivity|exact Hbd|].
    + destruct Sd as (zl & f & Hs & Hf & Sd). exists zl, f. split; [done|]. split; [done|]. by eapply sixths_bare; [reflexivity|exact Hbd|].
    + destruct Sd as (zl & Hs & Sd). exists zl. split; [done|]. by eapply slabs_bare; [reflexivity|exact Hbd|].
  - cbn. rewrite <- F3, <- geo_length, Eg. by apply block_sum.
Qed.
Lemma copies_le p : (copies n h nz p ≤ 6 * nz)%nat.
Proof.
  destruct p as [k|k|]; cbn [copies].
  - pose proof (Nat.div_le_upper_bound nz (coarse h k) nz). pose proof (coarse_pos h k). nia.
  - pose proof (coarse_mid_pos h k). pose proof (Nat.div_le_upper_bound nz (4 * coarse_mid h k) nz). nia.
  - pose proof (Nat.div_le_upper_bound nz (coarse h n) nz). pose proof (coarse_pos h n). nia.
Qed.
Lemma refine_returns : 6 <= bnd → ends nb c1 c2 → fl → ∃ m3, extrude_refine m z obc1 obc2 (Some Fs) (Some ps) h ib = Ok m3 ∧ wf_mesh m3 ∧ conn_refs m3.
Proof using LA LM OA H0 G1 G2 HP Hz Hnz Hps D1 D2 Hm Hb Hmid Hfl Hnb B1 B2 Hd.
  intros H6 He Hib. destruct refine_core as (p0 & l & E & Hl & P0 & S0 & L0 & Hpr & Y0). rewrite E. clear E.
  assert (∀ p, p ∈ p0 :: (l ≫= λ p, [fst p; snd p]) → wf_mesh p ∧ box p ∧ nbc p = nb ∧ conn_refs p) as Hall.
  { intros p Hp. assert (piece p) as Pp by (by eapply pieces_in). split; [apply Pp|]. split; [by apply piece_box in Pp|]. split; [apply Pp|]. by apply Pp. }
  destruct (Hall p0) as (W0 & X0 & N0 & C0); [left|].
  assert (nel p0 + sum_list_with nel (l ≫= λ p, [fst p; snd p]) = length (geo p0 ++ ((l ≫= λ p, [fst p; snd p]) ≫= geo)))%nat as En.
  { rewrite app_length, bind_length, geo_length. destruct X0 as (_ & _ & ->). f_equal. apply sum_ext. intros p Hp. rewrite geo_length.
    destruct (Hall p) as (_ & (_ & _ & ->) & _); [by right|done]. }
  destruct (merges_total bnd LA nb ib (l ≫= λ p, [fst p; snd p]) H6 p0 W0 X0 N0 C0) as (mf & Ef & Wf & Cf).
  { intros p Hp. apply Hall. by right. }
  { rewrite En, (block_all p0 l Hl), (block_sum p0 l Hl P0 S0 L0 Hpr). etransitivity; [|exact Hb]. apply inj_le.
    pose proof (sum_le (λ e, copies n h nz (part_of fs e)) (elems m) (6 * nz)) as Hsl. destruct Hm as ([(_ & El & _) _] & _). rewrite El in Hsl.
    etransitivity; [apply Hsl; intros; apply copies_le|]. lia. }
  rewrite Ef. cbn [rbind]. destruct (merges_ok ib _ _ _ Ef) as (Bf & Nf & Eg); [done|intros p Hp; apply Hall; by right|].
  rewrite (block_all p0 l Hl) in Eg. rewrite update_ncurv_spec; [by eexists|].
  intros e Hee. assert (bare e ∈ geo mf) as Hg by (apply elem_of_list_fmap; eauto). rewrite Eg in Hg. apply elem_of_list_bind in Hg as (p & Hg & Hp).
  destruct (block_part p0 l p Hl P0 S0 L0 Hpr Hp) as (d & Eb & (_ & _ & _ & _ & Hd' & _) & _). rewrite Eb in Hg.
  apply geo_in in Hg as (e0 & He0 & Ee). rewrite <- (Hd' e0 He0). exact (f_equal length (f_equal ccurv Ee)).
Qed.

(** ** The conditions of the result *)
Lemma forall2_blocks {X Y} (R : X → Y → Prop) (g : part → list X) (g' : part → list Y) (qs : list part) :
  (∀ p, p ∈ qs → length (g p) = length (g' p)) → Forall2 R (qs ≫= g) (qs ≫= g') → ∀ p, p ∈ qs → Forall2 R (g p) (g' p).
Proof.
  induction qs as [|q qs IH]; intros Hl Hf p Hp; [by apply elem_of_nil in Hp|]. rewrite !bind_cons in Hf.
  apply Forall2_app_inv in Hf as [H1 H2]; [|apply Hl; left]. apply elem_of_cons in Hp as [->|Hp]; [done|].
  apply IH; [|done|done]. intros; apply Hl; by right.
Qed.
Definition piece_of (p0 : hexa N) (l : list (hexa N * hexa N)) (p : part) : list (elem N) :=
  match p with
  | Outer => elems p0
  | Inner k => match l !! k with Some (a, _) => elems a | None => [] end
  | Middle k => match l !! k with Some (_, b) => elems b | None => [] end
  end.
Lemma piece_geo p0 l p : block_of p0 l p = bare <$> piece_of p0 l p.
Proof. destruct p as [k|k|]; cbn; [destruct (l !! k) as [[a b]|]; done..|done]. Qed.
Definition pers : Prop := some_periodic m ∨ ∃ b, (b < nbc m)%nat ∧ c1 b = "P"%string.
Lemma wf_bounds (d : hexa N) x b (f : nat) r : wf_bcs d → get_bc d x b f = Some r → (x < nel d ∧ b < nbc d ∧ f < 6)%nat.
Proof.
  intros (_ & Hl & He) Hr. unfold get_bc in Hr. destruct (elems d !! x) as [e|] eqn:Ex; [|done]. cbn in Hr.
  destruct (bcs e !! b) as [row|] eqn:Eb; [|done]. cbn in Hr. destruct (He e) as [L1 L2]; [by eapply elem_of_list_lookup_2|].
  rewrite <- Hl, <- L1, <- (L2 row) by (by eapply elem_of_list_lookup_2). split_and!; by eapply lookup_lt_Some.
Qed.
Lemma side_pers e2 b (f : nat) : e2 ∈ elems m → (b < nb)%nat → (f < 4)%nat → side_type fs m e2 b f "P" → some_periodic m.
Proof using Hm Hnb Hz Hps Hnz Hb.
  intros He2 Hbb Hf (r2 & Hr2 & T1 & T2). apply elem_of_list_lookup in He2 as [i0 He2].
  rewrite <- (get_entry m i0 e2) in Hr2 by done. exists i0, b, f, r2. split; [done|]. destruct (decide (bt r2 = "P"%string)) as [|Hne]; [done|].
  destruct (decide (bt r2 = "E"%string)) as [HE|HE]; [|symmetry; apply T1; by intros [?|?]].
  exfalso. destruct Hm as ([(_ & Hl & _) _] & (L1 & _) & Hp & _).
  destruct (Hp i0 b f r2) as (j & g & _ & (Hj & _) & Hpt & _); [|done|by left|].
  { unfold in_mesh. rewrite L1. split_and!; [|lia|lia]. rewrite <- Hl. by eapply lookup_lt_Some. }
  destruct (lookup_lt_is_Some_2 (elems m) j) as [e' He']; [lia|]. pose proof (T2 (or_introl HE) j g e' He' Hpt) as T. rewrite HE in T. by case_decide.
Qed.
Lemma slab_pers nl k e2 b (f : nat) : e2 ∈ elems m → (b < nb)%nat → (f < 6)%nat → slab_type fs m c1 c2 nl k e2 b f "P" → pers.
Proof using Hm Hnb HP Hz Hps Hnz Hb.
  intros He2 Hbb Hf (T1 & T2 & T3). destruct (decide (f < 4)%nat) as [Hf4|Hf4].
  - left. eapply side_pers; [done|done|done|by apply T1].
  - right. exists b. rewrite Hnb. split; [done|]. destruct (decide (f = 4%nat)) as [Hf'|Hf'].
    + specialize (T2 Hf'). destruct (decide (k = 0%nat)); [by symmetry|discriminate T2].
    + assert (f = 5%nat) as Hf5 by lia. specialize (T3 Hf5). destruct (decide (k = nl - 1)%nat); [|discriminate T3]. apply HP; [done|]. by symmetry.
Qed.
Lemma sixth_pers fn q k j e2 b (f : nat) : e2 ∈ elems m → (b < nb)%nat → (f < 6)%nat → sixth_type fs m c1 c2 q fn k j e2 b f "P" → pers.
Proof using Hm Hnb HP Hz Hps Hnz Hb.
  intros He2 Hbb Hf (T1 & T2 & T3 & T4). cbv zeta in *. unfold pers. rewrite Hnb.
  destruct (decide (f = 4%nat ∧ k = 0%nat ∧ j ∈ [0; 1]%nat)) as [Hx|Hx].
  { right. exists b. split; [done|]. symmetry. by apply T2. }
  destruct (decide (f = 5%nat ∧ k = (q - 1)%nat ∧ j ∈ [4; 5]%nat)) as [Hy|Hy].
  { right. exists b. split; [done|]. apply HP; [done|]. symmetry. by apply T3. }
  left. destruct (decide (f < 4)%nat) as [Hf4|Hf4].
  2: { exfalso. discriminate (T4 ltac:(intros [? _]; lia) ltac:(intros [? _]; lia) ltac:(intros [? _]; lia) Hx Hy). }
  assert (side_type fs m e2 b f "P") as Hs; [|by eapply side_pers].
  destruct (decide (fst (side_low fn e2 f) = snd (side_low fn e2 f))) as [Hq|Hq]; [|apply T1; left; by split].
  destruct (decide ((f < 4)%nat ∧ side_low fn e2 f = (true, true) ∧ j ∈ [0; 2; 3; 5]%nat)) as [Hz1|Hz1]; [apply T1; by right; left|].
  destruct (decide ((f < 4)%nat ∧ side_low fn e2 f = (false, false) ∧ j ∈ [1; 4]%nat)) as [Hz2|Hz2]; [apply T1; by right; right|].
  exfalso. discriminate (T4 (λ H, proj2 H Hq) Hz1 Hz2 Hx Hy).
Qed.
(** A periodic condition in a part comes from the 2D mesh or from the ends. *)
Lemma slabs_pers nl p d : box d → wf_mesh d → nbc d = nb → nel d = (length (members p) * nl)%nat → slabs_typed nl p (elems d) → some_periodic d → pers.
Proof using Hm Hnb HP Hz Hps Hnz Hb.
  intros (D3 & _ & Ld) Wd Nd Nl HT (x & b & f & r & Hr & Ht).
  destruct (wf_bounds d x b f r (proj1 Wd) Hr) as (Hx & Hbb & Hf). rewrite Nl in Hx.
  set (c := length (members p)) in *.
  pose proof (Nat.div_mod_eq x c) as Hdm. pose proof (Nat.mod_upper_bound x c ltac:(lia)) as Hmod.
  assert (x / c < nl)%nat as Hdv by (apply Nat.div_lt_upper_bound; lia).
  destruct (lookup_lt_is_Some_2 (members p) (x mod c)) as [e2 He2]; [done|].
  destruct (lookup_lt_is_Some_2 (elems d) x) as [e He]; [lia|]. rewrite (get_entry d x e) in Hr by done.
  assert (e2 ∈ elems m) as Hin by (apply elem_of_list_lookup_2, elem_of_list_filter in He2 as [_ ?]; done).
  eapply (slab_pers nl (x / c)%nat e2 b f); [done|lia|lia|]. rewrite <- Ht.
  apply (HT (x / c)%nat (x mod c)%nat e2 e b f r); try done; [rewrite <- He; f_equal; fold c; lia|lia].
Qed.
Lemma cut_pers k d fn : fs !! k = Some fn → box d → wf_mesh d → nbc d = nb → nel d = (length (members (Middle k)) * (6 * (nz / (4 * coarse_mid h k))))%nat →
  cut_typed k (elems d) → some_periodic d → pers.
Proof using Hm Hnb HP Hz Hps Hnz Hb.
  intros Hfn (D3 & _ & Ld) Wd Nd Nl HT (x & b & f & r & Hr & Ht).
  destruct (wf_bounds d x b f r (proj1 Wd) Hr) as (Hx & Hbb & Hf). rewrite Nl in Hx.
  set (q := (nz / (4 * coarse_mid h k))%nat) in *. set (c := length (members (Middle k))) in *.
  destruct (sixth_div c q x) as (k' & i & j & (Hk & Hi & Hj) & Ex); [lia|].
  destruct (lookup_lt_is_Some_2 (members (Middle k)) i) as [e2 He2]; [done|].
  destruct (lookup_lt_is_Some_2 (elems d) x) as [e He]; [lia|]. rewrite (get_entry d x e) in Hr by done.
  assert (e2 ∈ elems m) as Hin by (apply elem_of_list_lookup_2, elem_of_list_filter in He2 as [_ ?]; done).
  eapply (sixth_pers (finer h k fn) q k' j e2 b f); [done|lia|lia|]. rewrite <- Ht.
  apply (HT fn k' i j e2 e b f r); try done; [fold c; by rewrite <- Ex|lia].
Qed.

Lemma refine_types m3 : extrude_refine m z obc1 obc2 (Some Fs) (Some ps) h ib = Ok m3 → ends nb c1 c2 → ib = true →
  ∃ block, elems m3 = parts n ≫= block ∧ (∀ p, p ∈ parts n → length (block p) = (length (members p) * copies n h nz p)%nat) ∧
    has_types fs h m nz c1 c2 m3 block.
Proof using LA LM OA H0 G1 G2 HP Hz Hnz Hps D1 D2 Hm Hb Hmid Hfl Hnb B1 B2 Hd.
  intros E3 He Hib. destruct refine_core as (p0 & l & E & Hl & P0 & S0 & L0 & Hpr & Y0). rewrite E in E3. clear E.
  destruct (foldM _ p0 _) as [mf|] eqn:Ef; [|done]. cbn [rbind] in E3.
  assert (elems m3 = elems mf) as Em3.
  { unfold update_ncurv in E3. destruct (foldM _ _ (elems mf)); [|done]. cbn [rbind] in E3. by injection E3 as <-. }
  assert (∀ p, p ∈ l ≫= (λ p, [fst p; snd p]) → piece p) as Hpc by (intros p Hp; eapply pieces_in; [done|done|by right]).
  assert (∀ p, p ∈ l ≫= (λ p, [fst p; snd p]) → box p) as Hbx by (intros p Hp; apply Hpc, piece_box in Hp; done).
  pose proof (piece_box _ _ _ _ _ P0) as X0.
  destruct (merges_ok ib _ _ _ Ef X0 Hbx) as (Bf & Nf & Eg). rewrite (block_all p0 l Hl) in Eg.
  destruct (split_blocks (block_of p0 l) (parts n) (elems mf) (parts_nodup n) Eg) as (block & Eb & Hblock).
  exists block. rewrite Em3. split; [done|].
  assert (∀ p, p ∈ parts n → length (block p) = length (piece_of p0 l p)) as Hlen.
  { intros p Hp. pose proof (f_equal length (Hblock p Hp)) as HL. by rewrite piece_geo, !fmap_length in HL. }
  split.
  { intros p Hp. destruct (block_part p0 l p Hl P0 S0 L0 Hpr Hp) as (d & Ed & Pd & _ & <-). apply piece_box in Pd as (_ & _ & <-).
    rewrite <- (geo_length d), <- Ed, <- Hblock by done. by rewrite fmap_length. }
  assert (elems p0 ++ ((l ≫= λ p, [fst p; snd p]) ≫= elems) = parts n ≫= piece_of p0 l) as Ep.
  { unfold parts, range. rewrite bind_cons. f_equal. rewrite <- Hl. apply bind_parts. intros i a b Hi. cbn. by rewrite Hi. }
  assert (some_periodic p0 → pers) as Q0.
  { apply (slabs_pers (nz / coarse h n) Outer); [done|apply P0|apply P0|done|by apply Y0]. }
  assert (∀ p, p ∈ l ≫= (λ p, [fst p; snd p]) → some_periodic p → pers) as Ql.
  { intros p Hp. pose proof (Hpc p Hp) as Pp. pose proof (Hbx p Hp) as Xp. apply elem_of_list_bind in Hp as ([a b] & Hp & Hab).
    apply elem_of_list_lookup in Hab as [k Hk]. destruct (Hpr k a b Hk) as (_ & _ & _ & _ & L1 & L2 & Y). destruct (Y He Hib) as [Y1 Y2].
    assert (k < length fs)%nat as Hkl by (rewrite fs_length, <- Hl; by eapply lookup_lt_Some). destruct (lookup_lt_is_Some_2 fs k Hkl) as [fn Hfn].
    cbn [fst snd] in Hp. rewrite !elem_of_cons, elem_of_nil in Hp. destruct Hp as [->|[->|[]]].
    - eapply (slabs_pers (nz / coarse h k) (Inner k)); [done|apply Pp|apply Pp|done|done].
    - eapply (cut_pers k b fn); [done|done|apply Pp|apply Pp|done|done]. }
  pose proof (merges_types ib pers _ p0 mf Ef X0 Hbx Q0 Ql) as HM. rewrite Ep in HM.
  assert (Forall2 (λ e0 e, ∀ b (f : nat) r, entry e b f = Some r → ∃ r0, entry e0 b f = Some r0 ∧ (bt r = bt r0 ∨ joined pers m3 e f r))
    (parts n ≫= piece_of p0 l) (parts n ≫= block)) as HF.
  { rewrite <- Eb. apply Forall2_same_length_lookup. split.
    - rewrite Eb, !bind_length. apply sum_ext. intros p Hp. by rewrite Hlen.
    - intros x e0 e H1 H2 b f r Hr. destruct (HM x e0 e b f r H1 H2 Hr) as (r0 & Hr0 & Hc). exists r0. split; [done|].
      destruct Hc as [[_ ->]|[[_ ?]|Hj]]; [by left|by left|right]. unfold joined in *. by rewrite Em3. }
  unfold has_types. fold pers. rewrite fs_length. intros p Hp.
  pose proof (forall2_blocks _ _ _ (parts n) (λ p Hp, eq_sym (Hlen p Hp)) HF p Hp) as HR. apply parts_in in Hp.
  assert (∀ x e, block p !! x = Some e → ∃ e0, piece_of p0 l p !! x = Some e0 ∧
    ∀ b (f : nat) r, entry e b f = Some r → ∃ r0, entry e0 b f = Some r0 ∧ (bt r = bt r0 ∨ joined pers m3 e f r)) as HB.
  { intros x e Hx. destruct (Forall2_lookup_r _ _ _ _ _ HR Hx) as (e0 & He0 & H). eauto. }
  destruct p as [k|k|]; cbn [part_types].
  - destruct (lookup_lt_is_Some_2 l k) as [[a b] Hk]; [lia|]. destruct (Hpr k a b Hk) as (_ & _ & _ & _ & _ & _ & Y). destruct (Y He Hib) as [Y1 _].
    intros k' i e2 e b' f r Hk' He2 He3 Hb' Hf Hr. destruct (HB _ _ He3) as (e0 & He0 & H). destruct (H b' f r Hr) as (r0 & Hr0 & [->|?]); [left|by right].
    cbn in He0. rewrite Hk in He0. apply (Y1 k' i e2 e0 b' f r0); try done. lia.
  - destruct (lookup_lt_is_Some_2 l k) as [[a b] Hk]; [lia|]. destruct (Hpr k a b Hk) as (_ & _ & _ & _ & _ & _ & Y). destruct (Y He Hib) as [_ Y2].
    intros fn k' i j e2 e b' f r Hfn Hk' He2 Hj He3 Hb' Hf Hr. destruct (HB _ _ He3) as (e0 & He0 & H).
    destruct (H b' f r Hr) as (r0 & Hr0 & [->|?]); [left|by right].
    cbn in He0. rewrite Hk in He0. apply (Y2 fn k' i j e2 e0 b' f r0); try done. lia.
  - intros k' i e2 e b' f r Hk' He2 He3 Hb' Hf Hr. destruct (HB _ _ He3) as (e0 & He0 & H). destruct (H b' f r Hr) as (r0 & Hr0 & [->|?]); [left|by right].
    rewrite fs_length in *. apply (Y0 He Hib k' i e2 e0 b' f r0); try done. lia.
Qed.
End final.
