(** Proofs about [open_dataset]. *)
From Coq Require Import Lia Ascii Reals Lra Sorted.
From Flocq Require Import Core.Core Relative IEEE754.BinarySingleNaN IEEE754.Binary IEEE754.Bits.
From Verif Require Import Base Float FloatLaws Mesh MeshLemmas Bytes Field Re2 Dataset DatasetSpec.
Open Scope Z_scope.

(** ** The name *)
Lemma after_prefix_some t : ∀ s r, after_prefix t s = Some r ↔ s = t ++ r.
Proof.
  induction t as [|a t IH]; intros s r; cbn; [split; congruence|]. destruct s as [|b s]; [done|].
  destruct (Z.eqb_spec a b) as [->|H]; [rewrite IH; split; congruence|]. split; [done|]. congruence.
Qed.
Lemma nek_ext_iff decimal s : nek_ext decimal s = true ↔ ∃ ext post, s = ascii_path ".f" ++ ext ++ post ∧
  (ext = ascii_path "ld" ∨ length ext = 5%nat ∧ Forall (λ c, decimal c = true) ext).
Proof.
  unfold nek_ext. split.
  - destruct (after_prefix _ s) as [t|] eqn:E; [|done]. apply after_prefix_some in E as ->. intros H. apply orb_true_iff in H as [H|H].
    + apply andb_true_iff in H as [H1 H2]. apply Nat.eqb_eq in H1. exists (take 5 t), (drop 5 t). rewrite take_drop. split; [done|]. right. split; [done|].
      apply Forall_forall. intros c Hc. rewrite forallb_forall in H2. apply H2. by apply elem_of_list_In.
    + destruct (after_prefix _ t) as [u|] eqn:E; [|done]. apply after_prefix_some in E as ->. exists (ascii_path "ld"), u. split; [done|by left].
  - intros (ext & post & -> & H). assert (after_prefix (ascii_path ".f") (ascii_path ".f" ++ ext ++ post) = Some (ext ++ post)) as -> by (by apply after_prefix_some).
    apply orb_true_iff. destruct H as [->|[H1 H2]].
    + right. by rewrite (proj2 (after_prefix_some (ascii_path "ld") _ post) eq_refl).
    + left. rewrite take_app_alt by done. rewrite H1. cbn [Nat.eqb andb]. apply forallb_forall. intros c Hc. rewrite Forall_forall in H2. apply H2. by apply elem_of_list_In.
Qed.
Lemma can_open_iff decimal s : can_open decimal s = true ↔ ∃ stem ext post, s = stem ++ ascii_path ".f" ++ ext ++ post ∧ 10 ∉ stem ∧
  (ext = ascii_path "ld" ∨ length ext = 5%nat ∧ Forall (λ c, decimal c = true) ext).
Proof.
  transitivity (∃ stem r, s = stem ++ r ∧ 10 ∉ stem ∧ nek_ext decimal r = true).
  - induction s as [|c s IH]; cbn [can_open].
    + rewrite orb_false_r. split; [intros H; exists [], []; split; [done|]; split; [apply not_elem_of_nil|done]|].
      intros (stem & r & E & _ & H). symmetry in E. apply app_eq_nil in E as [-> ->]. done.
    + rewrite orb_true_iff. split.
      * intros [H|H]; [exists [], (c :: s); split; [done|]; split; [apply not_elem_of_nil|done]|].
        destruct (Z.eqb_spec c 10) as [|Hc]; [done|]. apply IH in H as (stem & r & -> & Hs & Hr). exists (c :: stem), r. split; [done|]. split; [|done].
        apply not_elem_of_cons. auto.
      * intros (stem & r & E & Hs & Hr). destruct stem as [|c' stem]; [left; cbn in E; by rewrite E|]. right. cbn in E. injection E as <- ->.
        apply not_elem_of_cons in Hs as [H1 H2]. destruct (Z.eqb_spec c 10); [congruence|]. apply IH. by exists stem, r.
  - setoid_rewrite nek_ext_iff. split.
    + intros (stem & r & -> & H1 & ext & post & -> & H2). by exists stem, ext, post.
    + intros (stem & ext & post & -> & H1 & H2). eexists stem, _. split; [reflexivity|]. split; [done|]. by exists ext, post.
Qed.

(** ** Comparisons *)
Notation fin x := (is_finite 53 1024 x = true).
Lemma ltb_val (x y : f64) : fin x → fin y → f64_ltb x y = true ↔ (val x < val y)%R.
Proof.
  intros Hx Hy. unfold f64_ltb, b64_compare. rewrite (Bcompare_correct 53 1024 x y Hx Hy). fold (val x) (val y).
  destruct (Rcompare_spec (val x) (val y)); split; try done; lra.
Qed.
Lemma eqb_val (x y : f64) : fin x → fin y → f64_eqb x y = true ↔ val x = val y.
Proof.
  intros Hx Hy. unfold f64_eqb, b64_compare. rewrite (Bcompare_correct 53 1024 x y Hx Hy). fold (val x) (val y).
  destruct (Rcompare_spec (val x) (val y)); split; try done; lra.
Qed.
(** ** Sorting *)
Definition key (p : f64 * nat) : R := val p.1.
Definition keyfin (p : f64 * nat) : Prop := fin p.1.
Lemma insert_perm p l : insert_sorted p l ≡ₚ p :: l.
Proof. induction l as [|q l IH]; [done|]. cbn. destruct (f64_ltb q.1 p.1); [|done]. rewrite IH. apply Permutation_swap. Qed.
Lemma sorted_perm (l : list (f64 * nat)) : foldr insert_sorted [] l ≡ₚ l.
Proof. induction l as [|p l IH]; [done|]. cbn. by rewrite insert_perm, IH. Qed.
Lemma Forall_perm {A} (P : A → Prop) l l' : l ≡ₚ l' → Forall P l → Forall P l'.
Proof. intros H. by rewrite H. Qed.
Lemma insert_sorted_ok p l : keyfin p → Forall keyfin l → StronglySorted (λ a b, (key a <= key b)%R) l →
  StronglySorted (λ a b, (key a <= key b)%R) (insert_sorted p l).
Proof.
  intros Hp Hl Hs. induction Hs as [|q l Hs IH Hq]; [by repeat constructor|]. apply Forall_cons in Hl as [Hqf Hl]. cbn.
  destruct (f64_ltb q.1 p.1) eqn:E.
  - apply ltb_val in E; [|done..]. constructor; [by apply IH|]. apply (Forall_perm _ (p :: l)); [symmetry; apply insert_perm|].
    constructor; [|done]. unfold key. lra.
  - assert (¬ (key q < key p)%R) as E'. { intros X. unfold key in X. apply ltb_val in X; [|done..]. congruence. }
    constructor; [by constructor|]. constructor; [lra|]. eapply Forall_impl; [exact Hq|]. cbv beta. intros r Hr. lra.
Qed.
Lemma sorted_ok (l : list (f64 * nat)) : Forall keyfin l → StronglySorted (λ a b, (key a <= key b)%R) (foldr insert_sorted [] l).
Proof.
  induction 1 as [|p l Hp Hl IH]; [constructor|]. cbn. apply insert_sorted_ok; [done| |done].
  apply (Forall_perm _ l); [symmetry; apply sorted_perm|done].
Qed.
(** The first of each run. *)
Lemma skip_equal_ok prev l : Forall keyfin l → fin prev → Forall (λ p, (val prev <= key p)%R) l → StronglySorted (λ a b, (key a <= key b)%R) l →
  StronglySorted (λ a b, (key a < key b)%R) (skip_equal prev l) ∧ Forall (λ p, (val prev < key p)%R) (skip_equal prev l) ∧
  skip_equal prev l ⊆ l ∧ ∀ p, p ∈ l → key p = val prev ∨ ∃ q, q ∈ skip_equal prev l ∧ key q = key p.
Proof.
  intros Hl. revert prev. induction Hl as [|p l Hp Hl IH]; intros prev Hpr HF Hs.
  - split; [constructor|]. split; [constructor|]. split; [done|]. intros p Hp. by apply elem_of_nil in Hp.
  - apply Forall_cons in HF as [H1 HF]. inversion Hs as [|? ? Hs' Hq]; subst. destruct (IH p.1 Hp Hq Hs') as (A & B & C & D). cbn [skip_equal].
    destruct (f64_eqb p.1 prev) eqn:E.
    + apply eqb_val in E; [|done..]. split; [done|]. split; [eapply Forall_impl; [exact B|]; cbv beta; unfold key; intros; lra|].
      split; [set_solver|]. intros r Hr. apply elem_of_cons in Hr as [->|Hr]; [by left|]. destruct (D r Hr) as [X|X]; [left; congruence|by right].
    + assert (val p.1 ≠ val prev) as E'. { intros X. apply (eqb_val p.1 prev) in X; [|done..]. congruence. }
      unfold key in H1. split; [by constructor|]. split; [constructor; [unfold key; lra|eapply Forall_impl; [exact B|]; cbv beta; intros; lra]|].
      split; [set_solver|]. intros r Hr. right. apply elem_of_cons in Hr as [->|Hr]; [exists p; split; [constructor|done]|].
      destruct (D r Hr) as [X|(q & Hq' & X)]; [exists p; split; [constructor|by symmetry]|]. exists q. split; [by constructor|done].
Qed.
Lemma firsts_ok l : Forall keyfin l → StronglySorted (λ a b, (key a <= key b)%R) l →
  StronglySorted (λ a b, (key a < key b)%R) (firsts l) ∧ firsts l ⊆ l ∧ ∀ p, p ∈ l → ∃ q, q ∈ firsts l ∧ key q = key p.
Proof.
  destruct l as [|p l]; intros Hl Hs; cbn [firsts].
  - split; [constructor|]. split; [done|]. intros p Hp. by apply elem_of_nil in Hp.
  - apply Forall_cons in Hl as [Hp Hl]. inversion Hs as [|? ? Hs' Hq]; subst. destruct (skip_equal_ok p.1 l Hl Hp Hq Hs') as (A & B & C & D).
    split; [by constructor|]. split; [set_solver|]. intros r Hr. apply elem_of_cons in Hr as [->|Hr]; [exists p; split; [constructor|done]|].
    destruct (D r Hr) as [X|(q & Hq' & X)]; [exists p; split; [constructor|by symmetry]|]. exists q. split; [by constructor|done].
Qed.
(** The coordinates that are extracted: one point for each rounded value, in increasing order. *)
Lemma dim_ok (a : list f64) : Forall (λ x, fin (np_round8 x)) a →
  StronglySorted (λ x y, (val (np_round8 x) < val (np_round8 y))%R) (meshgrid_to_dim a) ∧ meshgrid_to_dim a ⊆ a ∧
  ∀ x, x ∈ a → ∃ y, y ∈ meshgrid_to_dim a ∧ val (np_round8 y) = val (np_round8 x).
Proof.
  intros HF. unfold meshgrid_to_dim, sorted_places. set (L := imap (λ i x, (x, i)) (np_round8 <$> a)).
  assert (∀ p, p ∈ L ↔ ∃ x, a !! p.2 = Some x ∧ p.1 = np_round8 x) as HL.
  { intros [k i]. unfold L. rewrite elem_of_lookup_imap. cbn [fst snd]. split.
    - intros (j & y & [= -> ->] & Hy). rewrite list_lookup_fmap in Hy. destruct (a !! j) as [x|] eqn:E; [|done]. cbn in Hy. apply (inj Some) in Hy. by exists x.
    - intros (x & Hx & ->). exists i, (np_round8 x). split; [done|]. by rewrite list_lookup_fmap, Hx. }
  assert (Forall keyfin L) as HK.
  { apply Forall_forall. intros p Hp. apply HL in Hp as (x & Hx & Ep). unfold keyfin. rewrite Ep. rewrite Forall_forall in HF. apply HF. by eapply elem_of_list_lookup_2. }
  pose proof (sorted_ok L HK) as HS. pose proof (sorted_perm L) as HP. assert (Forall keyfin (foldr insert_sorted [] L)) as HK' by (by apply (Forall_perm _ L)).
  destruct (firsts_ok _ HK' HS) as (A & B & C).
  assert (∀ p, p ∈ firsts (foldr insert_sorted [] L) → ∃ x, a !! p.2 = Some x ∧ nth p.2 a z64 = x ∧ p.1 = np_round8 x) as HN.
  { intros p Hp. apply B in Hp. rewrite HP in Hp. apply HL in Hp as (x & Hx & E). exists x. split; [done|]. split; [|done]. by apply nth_lookup_Some. }
  split; [|split].
  - revert A HN. generalize (firsts (foldr insert_sorted [] L)). intros l A HN. induction A as [|p l A IH Hp]; [constructor|]. rewrite fmap_cons. constructor.
    + apply IH. intros q Hq. apply HN. by constructor.
    + apply Forall_fmap, Forall_forall. intros q Hq. cbn [compose]. destruct (HN p) as (x & _ & E1 & E2); [constructor|]. destruct (HN q) as (y & _ & E3 & E4); [by constructor|].
      rewrite Forall_forall in Hp. specialize (Hp q Hq). unfold key in Hp. rewrite E1, E3, <- E2, <- E4. exact Hp.
  - intros x Hx. apply elem_of_list_fmap in Hx as (p & -> & Hp). destruct (HN p Hp) as (y & Hy & -> & _). by eapply elem_of_list_lookup_2.
  - intros x Hx. apply elem_of_list_lookup in Hx as (i & Hi). destruct (C (np_round8 x, i)) as (q & Hq & E).
    { rewrite HP. apply HL. by exists x. }
    destruct (HN q Hq) as (y & Hy & E1 & E2). exists (nth q.2 a z64). split; [apply elem_of_list_fmap; by exists q|].
    rewrite E1, <- E2. exact E.
Qed.

(** ** Rounding to eight digits *)
Notation rnd64 := (round radix2 (FLT_exp (3 - 1024 - 53) 53) (round_mode mode_NE)).
Notation rint := (round radix2 (FIX_exp 0) (round_mode mode_NE)).
Definition E8 : R := IZR (10 ^ 8).
Definition R8 (r : R) : R := rnd64 (rint (rnd64 (r * E8)) / E8).
Lemma e8_val : val (f64_of_Z (10 ^ 8)) = E8 ∧ fin (f64_of_Z (10 ^ 8)).
Proof. destruct (f64_of_Z_correct (10 ^ 8)) as (A & B & _); [unfold bnd64; lia|]. done. Qed.
Lemma rnd64_bound e r : -1074 <= e → (Rabs r <= bpow radix2 e)%R → (Rabs (rnd64 r) <= bpow radix2 e)%R.
Proof.
  intros He H. apply abs_round_le_generic; [typeclasses eauto|apply valid_rnd_round_mode| |done].
  apply generic_format_bpow. unfold FLT_exp. lia.
Qed.
Lemma rint_bound e r : 0 <= e → (Rabs r <= bpow radix2 e)%R → (Rabs (rint r) <= bpow radix2 e)%R.
Proof.
  intros He H. apply abs_round_le_generic; [typeclasses eauto|apply valid_rnd_round_mode| |done].
  apply generic_format_bpow. unfold FIX_exp. lia.
Qed.
Lemma E8_bounds : (1 <= E8 <= bpow radix2 27)%R.
Proof. unfold E8. change (bpow radix2 27) with (IZR (2 ^ 27)). split; apply IZR_le; lia. Qed.
Lemma round8_val x : moderate x → fin (np_round8 x) ∧ val (np_round8 x) = R8 (val x).
Proof.
  intros [Fx Hx]. destruct e8_val as [Ve Fe]. pose proof E8_bounds as HE.
  assert (Rabs (val x * E8) <= bpow radix2 1017)%R as B1.
  { rewrite Rabs_mult, (Rabs_pos_eq E8) by lra. change 1017 with (990 + 27). rewrite bpow_plus. apply Rmult_le_compat; [apply Rabs_pos|lra|done|lra]. }
  pose proof (rnd64_bound 1017 _ ltac:(lia) B1) as B2.
  assert (bpow radix2 1017 < bpow radix2 1024)%R as BL by (apply bpow_lt; lia).
  set (m := b64_mult mode_NE x (f64_of_Z (10 ^ 8))).
  assert (fin m ∧ val m = rnd64 (val x * E8)) as [Fm Vm].
  { pose proof (Bmult_correct 53 1024 prec53 emax1024 binop_nan_pl64 mode_NE x (f64_of_Z (10 ^ 8))) as H. unfold val in Ve, B2. rewrite Ve in H.
    unfold m, val. change (b64_mult mode_NE) with (Bmult 53 1024 prec53 emax1024 binop_nan_pl64 mode_NE).
    rewrite Rlt_bool_true in H by (change (SpecFloat.fexp 53 1024) with (FLT_exp (3 - 1024 - 53) 53); lra). destruct H as (H1 & H2 & _). rewrite Fx, Fe in H2. done. }
  set (q := f64_rint m).
  assert (fin q ∧ val q = rint (val m)) as [Fq Vq].
  { destruct (Bnearbyint_correct 53 1024 emax1024 unop_nan_pl64 mode_NE m) as (H1 & H2 & _). unfold q, f64_rint. unfold val. rewrite H2. done. }
  assert (Rabs (val q / E8) <= bpow radix2 1017)%R as B3.
  { unfold Rdiv. rewrite Rabs_mult. rewrite <- (Rmult_1_r (bpow radix2 1017)). apply Rmult_le_compat; [apply Rabs_pos|apply Rabs_pos| |].
    - rewrite Vq. apply rint_bound; [lia|]. by rewrite Vm.
    - rewrite Rabs_pos_eq by (apply Rlt_le, Rinv_0_lt_compat; lra). rewrite <- Rinv_1. apply Rinv_le; lra. }
  pose proof (rnd64_bound 1017 _ ltac:(lia) B3) as B4.
  pose proof (Bdiv_correct 53 1024 prec53 emax1024 binop_nan_pl64 mode_NE q (f64_of_Z (10 ^ 8))) as H. unfold val in Ve. rewrite Ve in H.
  specialize (H ltac:(lra)). unfold val in B4. rewrite Rlt_bool_true in H by (change (SpecFloat.fexp 53 1024) with (FLT_exp (3 - 1024 - 53) 53); lra).
  destruct H as (H1 & H2 & _). unfold np_round8. fold m q. change (b64_div mode_NE) with (Bdiv 53 1024 prec53 emax1024 binop_nan_pl64 mode_NE).
  split; [by rewrite H2|]. unfold val at 1. rewrite H1. unfold R8. unfold val in Vq, Vm. rewrite Vq, Vm. done.
Qed.
Lemma rnd64_le a b : (a <= b)%R → (rnd64 a <= rnd64 b)%R.
Proof. apply round_le; [typeclasses eauto|apply valid_rnd_round_mode]. Qed.
Lemma rint_le a b : (a <= b)%R → (rint a <= rint b)%R.
Proof. apply round_le; [typeclasses eauto|apply valid_rnd_round_mode]. Qed.
Lemma R8_le a b : (a <= b)%R → (R8 a <= R8 b)%R.
Proof.
  intros H. pose proof E8_bounds. unfold R8. apply rnd64_le. unfold Rdiv. apply Rmult_le_compat_r; [apply Rlt_le, Rinv_0_lt_compat; lra|].
  apply rint_le, rnd64_le. apply Rmult_le_compat_r; lra.
Qed.
Lemma round8_lt x y : moderate x → moderate y → (val (np_round8 x) < val (np_round8 y))%R → (val x < val y)%R.
Proof.
  intros Hx Hy H. destruct (Rlt_or_le (val x) (val y)) as [|X]; [done|]. exfalso. apply R8_le in X.
  rewrite <- (proj2 (round8_val x Hx)), <- (proj2 (round8_val y Hy)) in X. lra.
Qed.
(** ** Grids *)
Lemma sorted_NoDup (l : list f64) : increasing l → NoDup l.
Proof.
  induction 1 as [|x l Hs IH Hx]; [constructor|]. constructor; [|done]. intros Hin. rewrite Forall_forall in Hx. specialize (Hx x Hin). lra.
Qed.
Lemma sorted_impl {A} (P : A → Prop) (R S : A → A → Prop) l : (∀ x y, P x → P y → R x y → S x y) → Forall P l → StronglySorted R l → StronglySorted S l.
Proof.
  intros H HP. induction 1 as [|x l Hs IH Hx]; [constructor|]. apply Forall_cons in HP as [Px HP]. constructor; [by apply IH|].
  rewrite Forall_forall in HP, Hx |- *. intros y Hy. apply H; auto.
Qed.
(** If the array holds exactly the numbers [xs], which are different after rounding, the coordinates are [xs] in order. *)
Lemma dim_grid (a xs : list f64) : (∀ x, x ∈ a ↔ x ∈ xs) → Forall moderate xs → distinct8 xs →
  increasing (meshgrid_to_dim a) ∧ meshgrid_to_dim a ≡ₚ xs.
Proof.
  intros Hax Hm Hd. assert (Forall moderate a) as Ha by (rewrite Forall_forall in Hm |- *; intros x Hx; by apply Hm, Hax).
  destruct (dim_ok a) as (A & B & C). { eapply Forall_impl; [exact Ha|]. intros x Hx. by apply round8_val. }
  assert (Forall moderate (meshgrid_to_dim a)) as Hmd. { rewrite Forall_forall in Ha |- *. intros x Hx. by apply Ha, B. }
  assert (increasing (meshgrid_to_dim a)) as HI. { eapply sorted_impl; [|exact Hmd|exact A]. intros x y Hx Hy. by apply round8_lt. }
  assert (∀ x y, x ∈ xs → y ∈ xs → val (np_round8 x) = val (np_round8 y) → x = y) as HJ.
  { intros x y Hx Hy E. apply elem_of_list_lookup in Hx as (i & Hi), Hy as (j & Hj). destruct (decide (i = j)) as [->|N]; [congruence|].
    exfalso. by apply (Hd i j x y Hi Hj N). }
  split; [done|]. apply NoDup_Permutation; [by apply sorted_NoDup| |].
  - apply NoDup_alt. intros i j x Hi Hj. destruct (decide (i = j)) as [|N]; [done|]. exfalso. by apply (Hd i j x x Hi Hj N).
  - intros x. split; [intros Hx; apply Hax, B, Hx|]. intros Hx. destruct (C x) as (y & Hy & E); [by apply Hax|].
    assert (y = x) as <-; [|done]. apply HJ; [apply Hax, B, Hy|done|done].
Qed.
(** Two increasing lists of the same numbers are the same. *)
Lemma increasing_unique l : ∀ l', increasing l → increasing l' → l ≡ₚ l' → l = l'.
Proof.
  induction l as [|x l IH]; intros l' H H' HP; [by apply Permutation_nil_l|]. destruct l' as [|y l']; [by apply Permutation_nil_r in HP|].
  inversion H as [|? ? Hl Hx]; subst. inversion H' as [|? ? Hl' Hy]; subst. rewrite Forall_forall in Hx, Hy.
  assert (x = y) as <-.
  { assert (x ∈ y :: l') as X by (rewrite <- HP; constructor). assert (y ∈ x :: l) as Y by (rewrite HP; constructor).
    apply elem_of_cons in X as [|X]; [done|]. apply elem_of_cons in Y as [|Y]; [done|]. specialize (Hx y Y). specialize (Hy x X). lra. }
  f_equal. apply IH; [done|done|]. by apply Permutation_cons_inv in HP.
Qed.
Lemma tensor_x (zs ys xs : list f64) x : ys ≠ [] → zs ≠ [] → x ∈ ((λ p : f64 * f64 * f64, let '(z, y, x) := p in x) <$> prod3 zs ys xs) ↔ x ∈ xs.
Proof.
  intros Hy Hz. rewrite elem_of_list_fmap. split; [intros ([[z y] x'] & -> & H); by apply elem_of_prod3 in H as (_ & _ & H)|].
  intros Hx. destruct ys as [|y ys]; [done|]. destruct zs as [|z zs]; [done|]. exists (z, y, x). split; [done|]. apply elem_of_prod3. split; [constructor|]. split; [constructor|done].
Qed.
Lemma tensor_y (zs ys xs : list f64) y : xs ≠ [] → zs ≠ [] → y ∈ ((λ p : f64 * f64 * f64, let '(z, y, x) := p in y) <$> prod3 zs ys xs) ↔ y ∈ ys.
Proof.
  intros Hx Hz. rewrite elem_of_list_fmap. split; [intros ([[z y'] x'] & -> & H); by apply elem_of_prod3 in H as (_ & H & _)|].
  intros Hy. destruct xs as [|x xs]; [done|]. destruct zs as [|z zs]; [done|]. exists (z, y, x). split; [done|]. apply elem_of_prod3. split; [constructor|]. split; [done|constructor].
Qed.
Lemma tensor_z (zs ys xs : list f64) z : xs ≠ [] → ys ≠ [] → z ∈ ((λ p : f64 * f64 * f64, let '(z, y, x) := p in z) <$> prod3 zs ys xs) ↔ z ∈ zs.
Proof.
  intros Hx Hy. rewrite elem_of_list_fmap. split; [intros ([[z' y'] x'] & -> & H); by apply elem_of_prod3 in H as (H & _ & _)|].
  intros Hz. destruct xs as [|x xs]; [done|]. destruct ys as [|y ys]; [done|]. exists (z, y, x). split; [done|]. apply elem_of_prod3. split; [done|]. split; constructor.
Qed.
(** ** One element *)
Lemma prod3_len {A B C} (l1 : list A) (l2 : list B) (l3 : list C) : length (prod3 l1 l2 l3) = (length l1 * (length l2 * length l3))%nat.
Proof.
  unfold prod3. induction l1 as [|a l1 IH]; [done|]. cbn [mbind list_bind length]. rewrite app_length, IH.
  assert (length (l2 ≫= λ b, (λ c, (a, b, c)) <$> l3) = (length l2 * length l3)%nat) as ->; [|lia].
  clear IH. induction l2 as [|b l2 IH2]; [done|]. cbn [mbind list_bind length]. rewrite app_length, fmap_length, IH2. lia.
Qed.
Definition three_vel (e : elem f64) : Prop := length (vel e) = 3%nat.
(** The number of different rounded values is well defined. *)
Lemma dim_count (a R : list f64) : Forall moderate a → R ⊆ a → distinct8 R → (∀ x, x ∈ a → ∃ y, y ∈ R ∧ val (np_round8 y) = val (np_round8 x)) →
  length (meshgrid_to_dim a) = length R.
Proof.
  intros Ha HR Hd Hc. destruct (dim_ok a) as (A & B & C). { eapply Forall_impl; [exact Ha|]. intros x Hx. by apply round8_val. }
  set (v := λ x, val (np_round8 x)).
  assert (v <$> meshgrid_to_dim a ≡ₚ v <$> R) as HP.
  { apply NoDup_Permutation.
    - clear -A. induction A as [|x l A IH Hx]; [constructor|]. rewrite fmap_cons. constructor; [|done]. intros Hin. apply elem_of_list_fmap in Hin as (y & E & Hy).
      rewrite Forall_forall in Hx. specialize (Hx y Hy). unfold v in E. lra.
    - apply NoDup_alt. intros i j r Hi Hj. rewrite list_lookup_fmap in Hi, Hj. destruct (R !! i) as [x|] eqn:Ei; [|done]. destruct (R !! j) as [y|] eqn:Ej; [|done].
      cbn in Hi, Hj. apply (inj Some) in Hi, Hj. destruct (decide (i = j)) as [|N]; [done|]. exfalso. apply (Hd i j x y Ei Ej N). fold (v x) (v y). congruence.
    - intros r. rewrite !elem_of_list_fmap. split.
      + intros (x & -> & Hx). destruct (Hc x (B x Hx)) as (y & Hy & E). exists y. split; [by symmetry|done].
      + intros (x & -> & Hx). destruct (C x (HR x Hx)) as (y & Hy & E). exists y. split; [by symmetry|done]. }
  apply Permutation_length in HP. by rewrite !fmap_length in HP.
Qed.
(** ** Points that are far enough apart *)
Lemma rnd64_err r e : 0 <= e → (Rabs r <= bpow radix2 e)%R → (Rabs (rnd64 r - r) <= bpow radix2 (e - 52))%R.
Proof.
  intros He H. destruct (error_N_FLT radix2 (3 - 1024 - 53) 53 ltac:(lia) (λ t, negb (Z.even t)) r) as (eps & eta & H1 & H2 & _ & H3).
  assert (rnd64 r = r * (1 + eps) + eta)%R as -> by exact H3. replace (r * (1 + eps) + eta - r)%R with (r * eps + eta)%R by ring.
  eapply Rle_trans; [apply Rabs_triang|]. rewrite Rabs_mult. change (- (53) + 1) with (-52) in H1.
  assert (Rabs r * Rabs eps <= bpow radix2 e * (/ 2 * bpow radix2 (-52)))%R by (apply Rmult_le_compat; [apply Rabs_pos..|done|done]).
  assert (bpow radix2 (3 - 1024 - 53) <= bpow radix2 (e - 52))%R by (apply bpow_le; lia).
  assert (bpow radix2 (e - 52) = bpow radix2 e * bpow radix2 (-52))%R as X by (rewrite <- bpow_plus; f_equal; lia).
  rewrite X in *. nra.
Qed.
Lemma rint_err r : (Rabs (rint r - r) <= / 2)%R.
Proof.
  pose proof (error_le_half_ulp radix2 (FIX_exp 0) (λ t, negb (Z.even t)) r) as H. rewrite ulp_FIX in H.
  change (bpow radix2 0) with 1%R in H. rewrite Rmult_1_r in H. exact H.
Qed.
Lemma rint_int r : ∃ n, rint r = IZR n.
Proof.
  unfold round, F2R, scaled_mantissa, cexp, FIX_exp. cbn [Fnum Fexp bpow Z.opp]. eexists. rewrite Rmult_1_r. reflexivity.
Qed.
Lemma R8_apart a b : (Rabs a <= bpow radix2 20)%R → (Rabs b <= bpow radix2 20)%R → (a + 2 / E8 <= b)%R → (R8 a < R8 b)%R.
Proof.
  intros Ha Hb Hab. pose proof E8_bounds as HE. unfold R8.
  assert (∀ r, (Rabs r <= bpow radix2 20)%R → (Rabs (r * E8) <= bpow radix2 47)%R) as B.
  { intros r Hr. rewrite Rabs_mult, (Rabs_pos_eq E8) by lra. change 47 with (20 + 27). rewrite bpow_plus. apply Rmult_le_compat; [apply Rabs_pos|lra|done|lra]. }
  pose proof (rnd64_err _ 47 ltac:(lia) (B a Ha)) as Ea. pose proof (rnd64_err _ 47 ltac:(lia) (B b Hb)) as Eb.
  change (bpow radix2 (47 - 52)) with (/ 32)%R in Ea, Eb.
  set (A := rnd64 (a * E8)) in *. set (C := rnd64 (b * E8)) in *.
  assert (a * E8 + 2 <= b * E8)%R as H1. { apply (Rmult_le_compat_r E8) in Hab; [|lra]. replace ((a + 2 / E8) * E8)%R with (a * E8 + 2)%R in Hab by (field; lra). done. }
  pose proof (rint_err A) as Ra. pose proof (rint_err C) as Rb. apply Rabs_le_inv in Ea, Eb, Ra, Rb.
  assert (rint A < rint C)%R as H2 by lra. destruct (rint_int A) as [n En], (rint_int C) as [k Ek]. rewrite En, Ek in *. apply lt_IZR in H2.
  assert (IZR n + 1 <= IZR k)%R as H3 by (rewrite <- plus_IZR; apply IZR_le; lia).
  assert (∀ r m, (Rabs r <= bpow radix2 20)%R → IZR m = rint (rnd64 (r * E8)) → (Rabs (IZR m / E8) <= bpow radix2 20 + 1)%R) as BQ.
  { intros r m Hr Em. pose proof (rnd64_err _ 47 ltac:(lia) (B r Hr)) as X. change (bpow radix2 (47 - 52)) with (/ 32)%R in X.
    pose proof (rint_err (rnd64 (r * E8))) as Y. rewrite <- Em in Y. apply Rabs_le_inv in X, Y.
    assert (Rabs (IZR m - r * E8) <= 1)%R as Z1 by (apply Rabs_le; lra).
    replace (IZR m / E8)%R with (r + (IZR m - r * E8) * / E8)%R by (field; lra). eapply Rle_trans; [apply Rabs_triang|]. rewrite Rabs_mult.
    assert (Rabs (/ E8) <= 1)%R. { rewrite Rabs_pos_eq by (apply Rlt_le, Rinv_0_lt_compat; lra). rewrite <- Rinv_1. apply Rinv_le; lra. }
    pose proof (Rabs_pos (IZR m - r * E8)). pose proof (Rabs_pos (/ E8)). nra. }
  assert (bpow radix2 20 + 1 <= bpow radix2 21)%R as HB by (change (bpow radix2 20) with 1048576%R; change (bpow radix2 21) with 2097152%R; lra).
  pose proof (rnd64_err (IZR n / E8) 21 ltac:(lia) ltac:(eapply Rle_trans; [apply (BQ a n Ha); by symmetry|done])) as Qa.
  pose proof (rnd64_err (IZR k / E8) 21 ltac:(lia) ltac:(eapply Rle_trans; [apply (BQ b k Hb); by symmetry|done])) as Qb.
  apply Rabs_le_inv in Qa, Qb.
  assert (IZR n / E8 + / E8 <= IZR k / E8)%R as H4.
  { unfold Rdiv. assert (0 < / E8)%R by (apply Rinv_0_lt_compat; lra). nra. }
  assert (2 * bpow radix2 (21 - 52) < / E8)%R as H5.
  { change (21 - 52) with (-31). change (bpow radix2 (-31)) with (/ 2147483648)%R. unfold E8. change (IZR (10 ^ 8)) with 100000000%R. lra. }
  lra.
Qed.
(** Coordinates up to 2^20 that are at least 2e-8 apart are different after rounding. *)
Lemma apart_distinct l : Forall (λ x, fin x ∧ (Rabs (val x) <= bpow radix2 20)%R) l →
  (∀ i j x y, l !! i = Some x → l !! j = Some y → i ≠ j → (2 / E8 <= Rabs (val x - val y))%R) → distinct8 l.
Proof.
  intros HF HD i j x y Hi Hj Hn. rewrite Forall_forall in HF. destruct (HF x) as [Fx Bx]; [by eapply elem_of_list_lookup_2|].
  destruct (HF y) as [Fy By]; [by eapply elem_of_list_lookup_2|].
  assert (bpow radix2 20 <= bpow radix2 990)%R as HB by (apply bpow_le; lia).
  assert (moderate x) as Mx by (split; [done|lra]). assert (moderate y) as My by (split; [done|lra]).
  rewrite (proj2 (round8_val x Mx)), (proj2 (round8_val y My)).
  specialize (HD i j x y Hi Hj Hn). intros E. pose proof E8_bounds as HE. assert (0 < 2 / E8)%R by (apply Rdiv_lt_0_compat; lra).
  destruct (Rle_or_lt (val x) (val y)) as [L|L].
  - rewrite Rabs_left1 in HD by lra. pose proof (R8_apart (val x) (val y) Bx By ltac:(lra)). lra.
  - rewrite Rabs_pos_eq in HD by lra. pose proof (R8_apart (val y) (val x) By Bx ltac:(lra)). lra.
Qed.
