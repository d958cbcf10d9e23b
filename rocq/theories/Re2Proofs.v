(** Proofs about re2 files. *)
From Coq Require Import Lia Ascii Reals Lra.
From Flocq Require Import Core.Core IEEE754.BinarySingleNaN IEEE754.Binary IEEE754.Bits.
From Verif Require Import Base Float FloatLaws Mesh MeshLemmas Bytes BytesProofs Text TextProofs Field FieldSpec FieldProofs Re2 Re2Spec.
Open Scope Z_scope.

(** ** Lists, folds *)
Lemma foldM_foldl {S A} (f : S → A → res S) (g : S → A → S) (I : S → Prop) l s : I s →
  (∀ s a, I s → a ∈ l → f s a = Ok (g s a) ∧ I (g s a)) → foldM f s l = Ok (foldl g s l) ∧ I (foldl g s l).
Proof.
  revert s. induction l as [|a l IH]; intros s Hs H; [done|]. cbn.
  destruct (H s a Hs ltac:(left)) as [-> Hg]. cbn. apply IH; [done|]. intros s' a' Hs' Ha. apply H; [done|by right].
Qed.
Lemma foldM_rows {S A} (f : S → nat → res S) (g : S → A → S) (I : S → Prop) (xs : list A) s : I s →
  (∀ s i x, I s → xs !! i = Some x → f s i = Ok (g s x) ∧ I (g s x)) →
  foldM f s (range (length xs)) = Ok (foldl g s xs) ∧ I (foldl g s xs).
Proof.
  unfold range. intros Hs H.
  assert (∀ l k, (∀ i x, l !! i = Some x → xs !! (k + i)%nat = Some x) → ∀ s, I s →
    foldM f s (seq k (length l)) = Ok (foldl g s l) ∧ I (foldl g s l)) as G.
  2: { apply (G xs 0%nat); [intros i x Hx; exact Hx|done]. }
  intros l. induction l as [|x l IH]; intros k Hl s' Hs'; [done|]. cbn [length seq foldM foldl].
  destruct (H s' k x Hs') as [-> Hg]; [rewrite <- (Nat.add_0_r k); by apply Hl|].
  cbn [rbind]. apply IH; [|done]. intros i y Hy. rewrite Nat.add_succ_comm. by apply Hl.
Qed.
Lemma foldM_raise {S A} (f : S → A → res S) l a s : a ∈ l → (∀ s, ∃ x, f s a = Raise x) → ∃ x, foldM f s l = Raise x.
Proof.
  intros Ha H. revert s. induction Ha as [l|a b l Ha IH]; intros s; cbn.
  - destruct (H s) as [x ->]. by exists x.
  - destruct (f s b) as [s'|x]; cbn; [apply IH; done|by exists x].
Qed.
Lemma mapR_raise {A B} (f : A → res B) l a : a ∈ l → (∃ x, f a = Raise x) → ∃ x, mapR f l = Raise x.
Proof.
  intros Ha [x Hx]. induction Ha as [l|a b l Ha IH]; cbn.
  - rewrite Hx. by exists x.
  - destruct (f b) as [s'|y]; cbn; [|by exists y]. destruct (IH Hx) as [y ->]. by exists y.
Qed.
Lemma mapR_fmap {A B} (f : A → res B) (g : A → B) l : (∀ x, x ∈ l → f x = Ok (g x)) → mapR f l = Ok (g <$> l).
Proof.
  induction l as [|x l IH]; intros H; [done|]. cbn. rewrite (H x) by left. cbn. rewrite IH; [done|].
  intros y Hy. apply H. by right.
Qed.
Lemma foldl_alter_fixed {A B} (u : B → A → A) i (l : list B) (s : list A) :
  foldl (λ s j, alter (u j) i s) s l = alter (λ x, foldl (λ x j, u j x) x l) i s.
Proof.
  revert s. induction l as [|j l IH]; intros s; cbn [foldl].
  - symmetry. apply list_eq. intros k. destruct (decide (k = i)) as [->|]; [rewrite list_lookup_alter; by destruct (s !! i)|by rewrite list_lookup_alter_ne].
  - rewrite IH. by rewrite <- list_alter_compose.
Qed.
(** The entries of a table: position of the element, element, selected number. *)
Definition entries {E J} (sel : E → list J) (es : list E) : list (nat * E * J) :=
  concat (imap (λ i e, (λ j, (i, e, j)) <$> sel e) es).
Lemma entries_snoc {E J} (sel : E → list J) es e : entries sel (es ++ [e]) = entries sel es ++ ((λ j, (length es, e, j)) <$> sel e).
Proof.
  unfold entries. rewrite imap_app, concat_app. cbn. rewrite app_nil_r, Nat.add_0_r. done.
Qed.
Lemma elem_of_entries {E J} (sel : E → list J) es i e j : (i, e, j) ∈ entries sel es ↔ es !! i = Some e ∧ j ∈ sel e.
Proof.
  induction es as [|x es IH] using rev_ind.
  - unfold entries. cbn. split; [intros H; inversion H|intros [H _]; done].
  - rewrite entries_snoc, elem_of_app, IH, elem_of_list_fmap. split.
    + intros [[H Hj]|(k & [= -> -> ->] & Hk)].
      * split; [|done]. by apply lookup_app_l_Some.
      * split; [|done]. by rewrite list_lookup_middle.
    + intros [H Hj]. apply lookup_app_Some in H as [H|[Hl H]]; [by left; split|]. right.
      exists j. assert (i = length es) as -> by (apply lookup_lt_Some in H; cbn in H; lia).
      rewrite Nat.sub_diag in H. cbn in H. injection H as ->. done.
Qed.
Lemma entries_fold {E J X} (upd : nat → E → J → X → X) (sel : E → list J) (es : list E) (xs : list X) p :
  foldl (λ xs '(i, e, j), alter (upd i e j) i xs) xs (entries sel es) !! p =
  match es !! p with
  | Some e => (λ x, foldl (λ x j, upd p e j x) x (sel e)) <$> xs !! p
  | None => xs !! p
  end.
Proof.
  induction es as [|e es IH] using rev_ind; [done|].
  rewrite entries_snoc, foldl_app.
  assert (∀ (s : list X) l, foldl (λ (xs : list X) '(i, e0, j), alter (upd i e0 j) i xs) s ((λ j, (length es, e, j)) <$> l) =
                 alter (λ x, foldl (λ x j, upd (length es) e j x) x l) (length es) s) as G.
  { intros s l. rewrite <- foldl_alter_fixed. revert s. induction l as [|j l IHl]; intros s; [done|]. cbn. apply IHl. }
  rewrite G. destruct (decide (p = length es)) as [->|Hp].
  - rewrite list_lookup_alter, IH. rewrite (list_lookup_middle es []) by done.
    rewrite lookup_ge_None_2 by done. done.
  - rewrite list_lookup_alter_ne by done. rewrite IH. destruct (decide (p < length es)%nat) as [Hl|Hl].
    + by rewrite lookup_app_l.
    + rewrite (lookup_ge_None_2 es) by lia. rewrite (lookup_ge_None_2 (es ++ [e])); [done|]. rewrite app_length. cbn. lia.
Qed.
(** Inserting at selected positions. *)
Lemma range_snoc n : range (S n) = range n ++ [n].
Proof. unfold range. by rewrite seq_S. Qed.
Definition select (P : nat → bool) (n : nat) : list nat := filter (λ j, P j = true) (range n).
Lemma select_snoc P n : select P (S n) = select P n ++ (if P n then [n] else []).
Proof. unfold select. rewrite range_snoc, filter_app, filter_cons, filter_nil. destruct (P n) eqn:E; [by rewrite decide_True|by rewrite decide_False by done]. Qed.
Lemma elem_of_select P n j : j ∈ select P n ↔ P j = true ∧ (j < n)%nat.
Proof. unfold select. by rewrite elem_of_list_filter, elem_of_range. Qed.
Lemma foldl_insert_length {X} (v : nat → X) l (xs : list X) : length (foldl (λ xs j, <[j := v j]> xs) xs l) = length xs.
Proof. revert xs. induction l as [|j l IH]; intros xs; [done|]. cbn. by rewrite IH, insert_length. Qed.
Lemma select_insert {X} (v : nat → X) P n (xs : list X) k : (n ≤ length xs)%nat →
  foldl (λ xs j, <[j := v j]> xs) xs (select P n) !! k = if (k <? n)%nat && P k then Some (v k) else xs !! k.
Proof.
  induction n as [|n IH]; intros Hn; [by cbn; destruct (P k)|].
  rewrite select_snoc, foldl_app. destruct (P n) eqn:EP; cbn [foldl].
  - destruct (decide (k = n)) as [->|Hk].
    + rewrite list_lookup_insert by (rewrite foldl_insert_length; lia). by rewrite EP, (proj2 (Nat.ltb_lt n (S n))) by lia.
    + rewrite list_lookup_insert_ne by done. rewrite IH by lia.
      replace (k <? S n)%nat with (k <? n)%nat; [done|]. apply Bool.eq_iff_eq_true. rewrite !Nat.ltb_lt. lia.
  - rewrite IH by lia. destruct (decide (k = n)) as [->|Hk]; [by rewrite EP, !andb_false_r|].
    replace (k <? S n)%nat with (k <? n)%nat; [done|]. apply Bool.eq_iff_eq_true. rewrite !Nat.ltb_lt. lia.
Qed.

(** ** Words *)
Lemma f64_bytes_read o l : length l = 8%nat → f64_bytes o (f64_read o l) = l.
Proof.
  intros Hl. unfold f64_bytes, f64_read.
  assert (0 <= unword o l < 2 ^ 64) as Hr.
  { unfold unword. pose proof (from_le_range (to_order o l)) as H. rewrite to_order_length, Hl in H. exact H. }
  replace (bits_of_b64 (b64_of_bits (unword o l))) with (unword o l); [rewrite <- Hl at 1; apply word_unword|].
  symmetry. exact (bits_of_binary_float_of_bits 52 11 eq_refl eq_refl eq_refl (unword o l) Hr).
Qed.
Lemma floats_bytes o (xs : list f64) rest : floats o (length xs) ((xs ≫= f64_bytes o) ++ rest) = Ok xs.
Proof.
  unfold floats. rewrite app_length, (bind_length 8) by (intros; apply f64_bytes_length).
  rewrite (proj2 (Nat.ltb_ge _ _)) by lia. rewrite chunks_app by (intros; apply f64_bytes_length).
  rewrite <- list_fmap_compose. f_equal. etransitivity; [|apply list_fmap_id]. apply list_fmap_ext. intros i x _. apply f64_read_bytes.
Qed.
Definition rec_ok (r : rec8) : Prop := length r.1 = 7%nat ∧ length r.2 = 8%nat.
Lemma rec8_length o r : rec_ok r → length (rec8_bytes o r) = 64%nat.
Proof. intros [H1 H2]. unfold rec8_bytes. rewrite app_length, (bind_length 8), H1, H2 by (intros; apply f64_bytes_length). done. Qed.
Lemma record_bytes o (rs : list rec8) i r rest : Forall rec_ok rs → rs !! i = Some r →
  record o ((rs ≫= rec8_bytes o) ++ rest) i = Ok (r.1 ++ [f64_read o r.2]).
Proof.
  intros Hf Hi. unfold record. rewrite <- (take_drop_middle rs i r Hi) at 1. rewrite bind_app, <- app_assoc.
  rewrite drop_app_alt.
  2: { rewrite (bind_length 64). 2: { intros x Hx. apply rec8_length. rewrite Forall_forall in Hf. apply Hf. apply elem_of_take in Hx as (k & Hk & _). by eapply elem_of_list_lookup_2. }
       assert (i < length rs)%nat by exact (lookup_lt_Some rs i r Hi). rewrite take_length. lia. }
  cbn [mbind list_bind]. rewrite <- app_assoc.
  rewrite Forall_forall in Hf. destruct (Hf r (elem_of_list_lookup_2 _ _ _ Hi)) as [H1 H2].
  assert (rec8_bytes o r = (r.1 ++ [f64_read o r.2]) ≫= f64_bytes o) as ->.
  { unfold rec8_bytes. rewrite bind_app. cbn. rewrite app_nil_r. by rewrite f64_bytes_read. }
  replace 8%nat with (length (r.1 ++ [f64_read o r.2])) by (rewrite app_length, H1; done). apply floats_bytes.
Qed.
Lemma record_short o buf i : (length buf < i * 64 + 64)%nat → record o buf i = Raise ValueError.
Proof. intros H. unfold record, floats. rewrite drop_length. rewrite (proj2 (Nat.ltb_lt _ _)) by lia. done. Qed.
Lemma scalar_native native (r : rec8) : rec_ok r → scalar_bytes native (r.1 ++ [f64_read native r.2]) = r.2.
Proof.
  intros [H1 H2]. unfold scalar_bytes. rewrite app_nth2 by lia. rewrite H1. cbn [nth]. by apply f64_bytes_read.
Qed.
Lemma trunc_of_nat k : Z.of_nat k + 1 <= bnd64 → ntrunc (a:=A64) (f64_of_Z (Z.of_nat k + 1)) = Ok (Z.of_nat k + 1).
Proof. intros H. apply (law_trunc _ _ A64_laws). lia. Qed.
Lemma count_native native k : Z.of_nat k <= bnd64 → count_of native (f64_bytes native (f64_of_Z (Z.of_nat k))) = Ok (Z.of_nat k).
Proof.
  intros H. unfold count_of. rewrite f64_bytes_length, f64_read_bytes. cbn [Nat.eqb]. apply (law_trunc _ _ A64_laws). lia.
Qed.
Lemma count_zero native o : count_of native (f64_bytes o (f64_of_Z 0)) = Ok 0.
Proof. destruct native, o; vm_compute; reflexivity. Qed.

(** ** Geometry *)
Definition norm_pos (nd : nat) (e : elem f64) : list (list f64) :=
  take nd (pos e) ++ replicate (3 - nd) (replicate (4 * (nd - 1)) z64).
Definition fresh (nd : nat) : elem f64 := new_elem z64 [nd; 0; 0; 0; 0]%nat (2, 2, nd - 1)%nat 1.
Definition cnt (nd : nat) : nat := (nd * 2 ^ nd + 1)%nat.
Lemma geometry_ok nd nb e : nd = 2%nat ∨ nd = 3%nat → re2_elem nd nb e →
  ∃ fi, geometry nd e = Ok fi ∧ length fi = cnt nd ∧ set_geometry nd fi (fresh nd) = set_pos (norm_pos nd e) (fresh nd).
Proof.
  intros Hnd He. pose proof (re_shape _ _ _ He) as Hs. pose proof (re_pos _ _ _ He) as Hp.
  unfold norm_pos. destruct e as [sh ps ve pr te sc cu cc bc]. cbn [eshape pos] in *. subst sh.
  destruct Hnd as [-> | ->].
  - destruct (Hp 0%nat ltac:(lia)) as (a & Ha & La). destruct (Hp 1%nat ltac:(lia)) as (b & Hb & Lb). clear Hp He.
    destruct ps as [|a' [|b' ps]]; try done. cbn in Ha, Hb. injection Ha as ->. injection Hb as ->.
    destruct a as [|a1 [|a2 [|a3 [|a4 [|]]]]]; try done. destruct b as [|b1 [|b2 [|b3 [|b4 [|]]]]]; try done.
    eexists. split; [reflexivity|]. split; reflexivity.
  - destruct (Hp 0%nat ltac:(lia)) as (a & Ha & La). destruct (Hp 1%nat ltac:(lia)) as (b & Hb & Lb).
    destruct (Hp 2%nat ltac:(lia)) as (c & Hc & Lc). clear Hp He.
    destruct ps as [|a' [|b' [|c' ps]]]; try done. cbn in Ha, Hb, Hc. injection Ha as ->. injection Hb as ->. injection Hc as ->.
    destruct a as [|a1 [|a2 [|a3 [|a4 [|a5 [|a6 [|a7 [|a8 [|]]]]]]]]]; try done.
    destruct b as [|b1 [|b2 [|b3 [|b4 [|b5 [|b6 [|b7 [|b8 [|]]]]]]]]]; try done.
    destruct c as [|c1 [|c2 [|c3 [|c4 [|c5 [|c6 [|c7 [|c8 [|]]]]]]]]]; try done.
    eexists. split; [reflexivity|]. split; reflexivity.
Qed.
Lemma same_vertices_norm nd nb e e' : nd = 2%nat ∨ nd = 3%nat → re2_elem nd nb e → eshape e' = (2, 2, nd - 1)%nat →
  pos e' = norm_pos nd e → same_vertices nd e' e.
Proof.
  intros Hnd He Hs' Hp' c kz ky kx Hc Hz Hy Hx. pose proof (re_shape _ _ _ He) as Hs.
  destruct (re_pos _ _ _ He c Hc) as (a & Ha & La). unfold pos_at. rewrite Hs, Hs'.
  rewrite !(proj2 (Nat.ltb_lt _ _)) by lia. cbn [andb].
  assert (pos e' !! c = Some a) as ->.
  { rewrite Hp'. unfold norm_pos. rewrite lookup_app_l; [by rewrite lookup_take|].
    rewrite take_length. apply lookup_lt_Some in Ha. lia. }
  rewrite Ha. cbn [mbind option_bind]. cbn [flat].
  destruct (lookup_lt_is_Some_2 a ((kz * 2 + ky) * 2 + kx)%nat) as [x Hx'].
  { rewrite La. destruct Hnd as [-> | ->]; lia. }
  exists x. by rewrite Hx'.
Qed.

(** ** Tables *)
Lemma concat_select {X} (P : nat → bool) (x : nat → X) n :
  concat ((λ j, if P j then [x j] else []) <$> range n) = x <$> select P n.
Proof.
  induction n as [|n IH]; [done|]. rewrite select_snoc, range_snoc, !fmap_app, concat_app, IH. f_equal.
  cbn. by destruct (P n).
Qed.
Lemma rows_entries {E} (f : nat → E → nat → res (list (nat * E * nat))) (P : E → nat → bool) n (es : list E) :
  (∀ i e j, es !! i = Some e → (j < n)%nat → f i e j = Ok (if P e j then [(i, e, j)] else [])) →
  (let! ll := mapR (λ '(iel, e), mapR (f iel e) (range n)) (imap (λ i e, (i, e)) es) in Ok (concat (concat ll))) =
  Ok (entries (λ e, select (P e) n) es).
Proof.
  intros H. rewrite (mapR_fmap _ (λ '(i, e), (λ j, if P e j then [(i, e, j)] else []) <$> range n)).
  - cbn [rbind]. f_equal. unfold entries.
    clear H. induction es as [|e es IH] using rev_ind; [done|].
    rewrite !imap_app, fmap_app, !concat_app, IH. f_equal. cbn. rewrite !app_nil_r. apply concat_select.
  - intros [i e] Hi. apply elem_of_lookup_imap in Hi as (i' & e' & [= <- <-] & Hi).
    apply mapR_fmap. intros j Hj. apply elem_of_range in Hj. by apply H.
Qed.
Lemma table_ok o rows rec l R : rows = Ok l → (∀ i e j, (i, e, j) ∈ l → rec e i j = Ok (R i e j)) →
  table o rows rec = Ok <$> [f64_bytes o (f64_of_Z (Z.of_nat (length l))); ((λ '(i, e, j), R i e j) <$> l) ≫= rec8_bytes o].
Proof.
  intros -> H. unfold table. cbn [rbind fmap list_fmap]. do 3 f_equal.
  rewrite (mapR_fmap _ (λ '(i, e, j), R i e j)); [done|]. intros [[i e] j] Hx. by apply H.
Qed.
Lemma entries_length_le {E} (sel : E → list nat) es n : (∀ e, e ∈ es → (length (sel e) ≤ n)%nat) →
  (length (entries sel es) ≤ n * length es)%nat.
Proof.
  induction es as [|e es IH] using rev_ind; intros H; [by cbn; lia|].
  rewrite entries_snoc, !app_length, fmap_length. cbn [length].
  assert (length (sel e) ≤ n)%nat by (apply H; set_solver). specialize (IH ltac:(set_solver)). lia.
Qed.
Lemma select_length_le P n : (length (select P n) ≤ n)%nat.
Proof. unfold select. etransitivity; [apply filter_length|]. by rewrite length_range. Qed.

(** ** Curved edges *)
Definition is_curved (e : elem f64) (j : nat) : bool := negb (bool_decide (nth j (ccurv e) ""%string = ""%string)).
Definition csel (e : elem f64) : list nat := select (is_curved e) 12.
Definition crec (i : nat) (e : elem f64) (j : nat) : rec8 :=
  (f64_of_Z (Z.of_nat i + 1) :: f64_of_Z (Z.of_nat j + 1) :: nth j (curv e) [], s8 (str (nth j (ccurv e) ""%string))).
Lemma curved_edges_ok nd nb es : Forall (re2_elem nd nb) es → curved_edges es = Ok (entries csel es).
Proof.
  intros Hf. unfold curved_edges. apply (rows_entries _ is_curved).
  intros i e j Hi Hj. rewrite Forall_forall in Hf. destruct (re_ccurv _ _ _ (Hf e (elem_of_list_lookup_2 _ _ _ Hi))) as [Hl _].
  destruct (lookup_lt_is_Some_2 (ccurv e) j ltac:(lia)) as [c Hc]. rewrite Hc. cbn [of_opt rbind].
  unfold is_curved. rewrite (nth_lookup_Some _ _ _ _ Hc). by destruct (bool_decide (c = "")).
Qed.
Lemma curve_record_ok nd nb e i j : re2_elem nd nb e → (j < 12)%nat →
  curve_record e i j = Ok (crec i e j) ∧ (j ∈ csel e → rec_ok (crec i e j)).
Proof.
  intros He Hj. destruct (re_curv _ _ _ He) as [L1 F1]. destruct (re_ccurv _ _ _ He) as [L2 F2].
  destruct (lookup_lt_is_Some_2 (ccurv e) j ltac:(lia)) as [c Hc].
  destruct (lookup_lt_is_Some_2 (curv e) j ltac:(lia)) as [r Hr].
  rewrite Forall_forall in F1. assert (length r = 5%nat) as Lr by (apply F1; by eapply elem_of_list_lookup_2).
  unfold curve_record. rewrite Hr, Hc. cbn [of_opt rbind]. rewrite Lr. cbn [Nat.ltb Nat.leb].
  unfold crec. rewrite (nth_lookup_Some _ _ _ _ Hc), (nth_lookup_Some _ _ _ _ Hr). rewrite firstn_all2 by lia.
  split; [done|]. intros _. split; cbn [fst snd length]; [by rewrite Lr|]. unfold s8. rewrite take_length, app_length, replicate_length. lia.
Qed.
Definition cupd (i : nat) (e : elem f64) (j : nat) (x : elem f64) : elem f64 :=
  set_ccurv (<[j := nth j (ccurv e) ""%string]> (ccurv x)) (set_curv (<[j := nth j (curv e) []]> (curv x)) x).
Definition curve_shape (n : nat) (xs : list (elem f64)) : Prop :=
  length xs = n ∧ Forall (λ x, length (curv x) = 12%nat ∧ length (ccurv x) = 12%nat) xs.
Lemma alter_insert {X} (f : X → X) (i : nat) (l : list X) x : l !! i = Some x → alter f i l = <[i := f x]> l.
Proof.
  intros H. apply list_eq. intros k. destruct (decide (k = i)) as [->|Hk].
  - rewrite list_lookup_alter, list_lookup_insert by (by eapply lookup_lt_Some). by rewrite H.
  - by rewrite list_lookup_alter_ne, list_lookup_insert_ne.
Qed.
Lemma Forall_alter_same {X} (P : X → Prop) f (i : nat) (l : list X) : (∀ x, P x → P (f x)) → Forall P l → Forall P (alter f i l).
Proof.
  intros Hf H. rewrite Forall_lookup in *. intros k x Hk. destruct (decide (k = i)) as [->|Hne].
  - rewrite list_lookup_alter in Hk. destruct (l !! i) eqn:E; [|done]. injection Hk as <-. apply Hf. by eapply H.
  - rewrite list_lookup_alter_ne in Hk by done. by eapply H.
Qed.
Lemma curve_type_text e nd nb j : re2_elem nd nb e → j ∈ csel e →
  ∃ c, nth j (ccurv e) ""%string = String c "" ∧ byte_val c < 128.
Proof.
  intros He Hj. apply elem_of_select in Hj as [Hc Hj]. destruct (re_ccurv _ _ _ He) as [L2 F2].
  destruct (lookup_lt_is_Some_2 (ccurv e) j ltac:(lia)) as [s Hs]. unfold is_curved in Hc.
  rewrite (nth_lookup_Some _ _ _ _ Hs) in Hc |- *. rewrite Forall_forall in F2.
  destruct (F2 s (elem_of_list_lookup_2 _ _ _ Hs)) as [->|H]; [|done]. cbn in Hc. done.
Qed.
Lemma curve_step_ok nd nb native buf k n e i j xs : re2_elem nd nb e → j ∈ csel e → (i < n)%nat → Z.of_nat n < 10 ^ 8 →
  record native buf k = Ok ((crec i e j).1 ++ [f64_read native (crec i e j).2]) → curve_shape n xs →
  curve_step native native buf xs k = Ok (alter (cupd i e j) i xs) ∧ curve_shape n (alter (cupd i e j) i xs).
Proof.
  intros He Hj Hi Hn Hr [Hl HF]. pose proof Hj as Hj'. apply elem_of_select in Hj' as [_ Hj12].
  destruct (curve_record_ok nd nb e i j He Hj12) as [_ Hok]. specialize (Hok Hj).
  destruct (curve_type_text _ _ _ _ He Hj) as (c & Hc & Hc128).
  destruct (re_curv _ _ _ He) as [L1 F1].
  destruct (lookup_lt_is_Some_2 (curv e) j ltac:(lia)) as [row Hrow].
  assert (length row = 5%nat) as Lr by (rewrite Forall_forall in F1; apply F1; by eapply elem_of_list_lookup_2).
  split.
  - unfold curve_step. rewrite Hr. cbn [rbind]. rewrite (scalar_native _ _ Hok).
    unfold crec. cbn [fst snd app nth]. rewrite !trunc_of_nat by (unfold bnd64; lia). cbn [rbind].
    rewrite Hc. cbn [str String.list_ascii_of_string]. unfold s8. cbn [app take].
    unfold decode. cbn [forallb]. rewrite (proj2 (Z.ltb_lt _ _)) by done. cbn [andb rbind].
    replace (Z.of_nat i + 1 - 1) with (Z.of_nat i) by lia. replace (Z.of_nat j + 1 - 1) with (Z.of_nat j) by lia.
    rewrite py_pos_nat by lia. cbn [of_opt rbind].
    destruct (lookup_lt_is_Some_2 xs i ltac:(lia)) as [x Hx]. rewrite Hx. cbn [of_opt rbind].
    rewrite Forall_forall in HF. destruct (HF x (elem_of_list_lookup_2 _ _ _ Hx)) as [X1 X2].
    rewrite X1, X2, py_pos_nat by done. cbn [of_opt rbind]. f_equal. rewrite (alter_insert _ _ _ _ Hx). f_equal.
    unfold cupd. rewrite Hc. cbn [drop]. rewrite (nth_lookup_Some _ _ _ _ Hrow).
    destruct row as [|r1 [|r2 [|r3 [|r4 [|r5 [|]]]]]]; try done.
  - split; [by rewrite alter_length|]. apply Forall_alter_same; [|done]. intros x [X1 X2]. unfold cupd. cbn [curv ccurv set_ccurv set_curv].
    by rewrite !insert_length.
Qed.
(** The elements after the table of curves. *)
Definition norm_curv (e : elem f64) : list (list f64) :=
  zip_with (λ t row, if bool_decide (t = ""%string) then replicate 5 z64 else row) (ccurv e) (curv e).
Lemma cupd_fold i e x l : foldl (λ x j, cupd i e j x) x l =
  set_ccurv (foldl (λ c j, <[j := nth j (ccurv e) ""%string]> c) (ccurv x) l)
    (set_curv (foldl (λ c j, <[j := nth j (curv e) []]> c) (curv x) l) x).
Proof. revert x. induction l as [|j l IH]; intros x; [by destruct x|]. cbn [foldl]. rewrite IH. done. Qed.
Lemma norm_curves i e x : length (curv e) = 12%nat → length (ccurv e) = 12%nat → curv x = replicate 12 (replicate 5 z64) → ccurv x = replicate 12 ""%string →
  foldl (λ x j, cupd i e j x) x (csel e) = set_ccurv (ccurv e) (set_curv (norm_curv e) x).
Proof.
  intros L1 L2 H1 H2. rewrite cupd_fold, H1, H2.
  f_equal; [|f_equal]; apply list_eq; intros k; unfold csel; rewrite select_insert by (rewrite replicate_length; lia).
  - destruct (Nat.ltb_spec k 12) as [Hk|Hk]; cbn [andb].
    + destruct (lookup_lt_is_Some_2 (ccurv e) k ltac:(lia)) as [s Hs]. unfold is_curved. rewrite (nth_lookup_Some _ _ _ _ Hs), Hs.
      case_bool_decide as E; cbn [negb]; [|done]. rewrite lookup_replicate_2 by done. by rewrite E.
    + rewrite !lookup_ge_None_2; [done|lia|rewrite replicate_length; lia].
  - unfold norm_curv. destruct (Nat.ltb_spec k 12) as [Hk|Hk]; cbn [andb].
    + destruct (lookup_lt_is_Some_2 (ccurv e) k ltac:(lia)) as [s Hs]. destruct (lookup_lt_is_Some_2 (curv e) k ltac:(lia)) as [r Hr].
      rewrite lookup_zip_with, Hs, Hr. cbn [mbind option_bind]. unfold is_curved. rewrite (nth_lookup_Some _ _ _ _ Hs), (nth_lookup_Some _ _ _ _ Hr).
      case_bool_decide as E; cbn [negb]; [|done]. by rewrite lookup_replicate_2 by done.
    + rewrite !lookup_ge_None_2; [done|rewrite zip_with_length; lia|rewrite replicate_length; lia].
Qed.

(** ** Boundary conditions *)
Lemma drop_while_spaces n l : drop_while is_space_str (replicate n sp ++ l) = drop_while is_space_str l.
Proof. induction n as [|n IH]; [done|]. cbn. by rewrite IH. Qed.
Lemma rstrip_padded n l : (∀ c, last l = Some c → is_space_str c = false) → rstrip (l ++ replicate n sp) = l.
Proof.
  intros H. unfold rstrip. rewrite rev_app_distr. rewrite <- (rev_involutive l) at 2. f_equal.
  replace (rev (replicate n sp)) with (replicate n sp).
  2: { rewrite rev_alt. exact (eq_sym (reverse_replicate n sp)). }
  rewrite drop_while_spaces. destruct l as [|c l _] using rev_ind; [done|]. rewrite rev_app_distr. cbn.
  rewrite (H c); [done|]. by rewrite last_snoc.
Qed.
Lemma strip_nul_id l : (∀ c, last l = Some c → c ≠ Ascii.zero) → strip_nul_tail l = l.
Proof.
  induction l as [|c l IH]; [done|]. intros H. cbn [strip_nul_tail]. destruct l as [|c' l].
  - cbn. specialize (H c eq_refl). by rewrite (proj2 (Ascii.eqb_neq c Ascii.zero) H).
  - rewrite IH; [done|]. intros d Hd. apply H. by rewrite last_cons_cons.
Qed.
Lemma bc_text t : bc_type t → length (s8 (ljust 8 (str t))) = 8%nat ∧
  decode (s8 (ljust 8 (str t))) = Ok (s8 (ljust 8 (str t))) ∧ u3 (to_string (rstrip (s8 (ljust 8 (str t))))) = t.
Proof.
  intros (Ha & Hl & Hlast). unfold s8. rewrite take_app_alt.
  2: { rewrite ljust_length. lia. }
  split; [rewrite ljust_length; lia|]. split.
  - unfold decode. rewrite (proj2 (forallb_forall _ _)); [done|]. intros c Hc. apply Z.ltb_lt. unfold ljust in Hc.
    apply elem_of_list_In, elem_of_app in Hc as [Hc|Hc].
    + unfold ascii_text in Ha. rewrite Forall_forall in Ha. by apply Ha.
    + apply elem_of_replicate in Hc as [-> _]. done.
  - unfold ljust. rewrite rstrip_padded by (intros c Hc; by apply Hlast).
    unfold u3, to_string. rewrite String.list_ascii_of_string_of_list_ascii. rewrite firstn_all2 by done.
    rewrite strip_nul_id by (intros c Hc; by apply Hlast). apply String.string_of_list_ascii_of_string.
Qed.
Definition bc_nth (b : nat) (e : elem f64) (f : nat) : bcrec f64 := nth f (nth b (bcs e) []) (zero_bc z64).
Definition bsel (nd b : nat) (e : elem f64) : list nat := select (λ f, is_external (bt (bc_nth b e f))) (2 * nd).
Definition brec (b i : nat) (e : elem f64) (f : nat) : rec8 :=
  let r := bc_nth b e f in
  ([f64_of_Z (Z.of_nat i + 1); f64_of_Z (Z.of_nat f + 1); bp3 r; bp4 r; bp5 r; bp6 r; bp7 r], s8 (ljust 8 (str (bt r)))).
Lemma bc_at_ok nd nb e b f : re2_elem nd nb e → (b < nb)%nat → (f < 6)%nat → ∃ r x,
  bcs e !! b = Some r ∧ r !! f = Some x ∧ length r = 6%nat ∧ bc_nth b e f = x ∧ nth b (bcs e) [] = r ∧ bc_type (bt x).
Proof.
  intros He Hb Hf. destruct (re_bcs _ _ _ He) as [L F].
  destruct (lookup_lt_is_Some_2 (bcs e) b ltac:(lia)) as [r Hr].
  assert (length r = 6%nat) as Lr by (rewrite Forall_forall in F; apply F; by eapply elem_of_list_lookup_2).
  destruct (lookup_lt_is_Some_2 r f ltac:(lia)) as [x Hx].
  exists r, x. unfold bc_nth. rewrite (nth_lookup_Some _ _ _ _ Hr), (nth_lookup_Some _ _ _ _ Hx).
  repeat (split; [done|]). exact (re_types _ _ _ He _ _ _ _ Hr Hx).
Qed.
Lemma bc_faces_ok nd nb b es : (nd = 2 ∨ nd = 3)%nat → (b < nb)%nat → Forall (re2_elem nd nb) es →
  bc_faces nd b es = Ok (entries (bsel nd b) es).
Proof.
  intros Hnd Hb Hf. unfold bc_faces. apply (rows_entries _ (λ e f, is_external (bt (bc_nth b e f)))).
  intros i e f Hi Hj. rewrite Forall_forall in Hf.
  destruct (bc_at_ok nd nb e b f (Hf e (elem_of_list_lookup_2 _ _ _ Hi)) Hb ltac:(lia)) as (r & x & Hr & Hx & _ & Hn & _).
  unfold bc_at. rewrite Hr. cbn [of_opt rbind]. rewrite Hx. cbn [of_opt rbind]. rewrite Hn. unfold is_external.
  by destruct (bool_decide (bt x = "")), (bool_decide (bt x = "E")).
Qed.
Lemma bc_record_ok nd nb b e i f : re2_elem nd nb e → (b < nb)%nat → (f < 6)%nat →
  bc_record b e i f = Ok (brec b i e f) ∧ rec_ok (brec b i e f).
Proof.
  intros He Hb Hf. destruct (bc_at_ok nd nb e b f He Hb Hf) as (r & x & Hr & Hx & _ & Hn & _ & Ht).
  unfold bc_record, bc_at, brec. rewrite Hr. cbn [of_opt rbind]. rewrite Hx. cbn [of_opt rbind]. rewrite Hn. split; [done|].
  split; cbn [fst snd length]; [done|]. by apply bc_text.
Qed.
Definition norm_bc (p f : nat) (x : bcrec f64) : bcrec f64 :=
  Bc (bt x) (Z.of_nat p + 1) (Z.of_nat f + 1) (bp3 x) (bp4 x) (bp5 x) (bp6 x) (bp7 x).
Definition bupd (b i : nat) (e : elem f64) (f : nat) (x : elem f64) : elem f64 :=
  set_bcs (alter (<[f := norm_bc i f (bc_nth b e f)]>) b (bcs x)) x.
Definition bc_shape (n b : nat) (xs : list (elem f64)) : Prop :=
  length xs = n ∧ Forall (λ x, length (bcs x) = S b ∧ ∃ row, bcs x !! b = Some row ∧ length row = 6%nat) xs.
Lemma bc_step_ok nd nb native buf k n b e i f xs : (nd = 2 ∨ nd = 3)%nat → (b < nb)%nat → re2_elem nd nb e → f ∈ bsel nd b e → (i < n)%nat → Z.of_nat n < 10 ^ 8 →
  record native buf k = Ok ((brec b i e f).1 ++ [f64_read native (brec b i e f).2]) → bc_shape n b xs →
  bc_step native native b buf xs k = Ok (alter (bupd b i e f) i xs) ∧ bc_shape n b (alter (bupd b i e f) i xs).
Proof.
  intros Hnd Hb He Hj Hi Hn Hr [Hl HF]. apply elem_of_select in Hj as [_ Hj].
  destruct (bc_record_ok nd nb b e i f He Hb ltac:(lia)) as [_ Hok].
  destruct (bc_at_ok nd nb e b f He Hb ltac:(lia)) as (r & y & Hry & Hy & _ & Hny & _ & Ht).
  destruct (bc_text _ Ht) as (_ & Hdec & Hu3).
  split.
  - unfold bc_step. rewrite Hr. cbn [rbind]. rewrite (scalar_native _ _ Hok).
    unfold brec. rewrite Hny. cbn [fst snd app nth]. rewrite !trunc_of_nat by (unfold bnd64; lia). cbn [rbind].
    rewrite Hdec. cbn [rbind].
    replace (Z.of_nat i + 1 - 1) with (Z.of_nat i) by lia. replace (Z.of_nat f + 1 - 1) with (Z.of_nat f) by lia.
    rewrite py_pos_nat by lia. cbn [of_opt rbind].
    destruct (lookup_lt_is_Some_2 xs i ltac:(lia)) as [x Hx]. rewrite Hx. cbn [of_opt rbind].
    rewrite Forall_forall in HF. destruct (HF x (elem_of_list_lookup_2 _ _ _ Hx)) as (X1 & row & X2 & X3).
    rewrite X2. cbn [of_opt rbind]. rewrite X3, py_pos_nat by lia. cbn [of_opt rbind]. f_equal.
    rewrite (alter_insert _ _ _ _ Hx). f_equal. unfold bupd. f_equal. rewrite (alter_insert _ _ _ _ X2). f_equal.
    unfold norm_bc. rewrite Hny, Hu3. done.
  - split; [by rewrite alter_length|]. apply Forall_alter_same; [|done]. intros x (X1 & row & X2 & X3).
    unfold bupd. cbn [bcs set_bcs]. rewrite alter_length. split; [done|]. eexists. rewrite list_lookup_alter, X2.
    split; [reflexivity|]. by rewrite insert_length.
Qed.
Definition norm_row (nd p : nat) (r : list (bcrec f64)) : list (bcrec f64) :=
  imap (λ f x, if (f <? 2 * nd)%nat && is_external (bt x) then norm_bc p f x else zero_bc z64) r.
Lemma norm_bcs nd nb b p e x R : (nd = 2 ∨ nd = 3)%nat → (b < nb)%nat → re2_elem nd nb e → length R = b → bcs x = R ++ [replicate 6 (zero_bc z64)] →
  foldl (λ x f, bupd b p e f x) x (bsel nd b e) = set_bcs (R ++ [norm_row nd p (nth b (bcs e) [])]) x.
Proof.
  intros Hnd Hb He HR Hx.
  assert (∀ l x row, bcs x = R ++ [row] → foldl (λ x f, bupd b p e f x) x l =
    set_bcs (R ++ [foldl (λ r f, <[f := norm_bc p f (bc_nth b e f)]> r) row l]) x) as G.
  { intros l. induction l as [|f l IH]; intros y row Hy; cbn [foldl]; [rewrite <- Hy; by destruct y|].
    rewrite (IH _ (<[f := norm_bc p f (bc_nth b e f)]> row)).
    - unfold bupd. by destruct y.
    - unfold bupd. cbn [bcs set_bcs]. rewrite Hy. rewrite <- HR.
      rewrite (alter_insert _ _ _ row) by (rewrite list_lookup_middle; done). rewrite insert_app_r_alt by lia.
      by rewrite Nat.sub_diag. }
  rewrite (G _ _ _ Hx). do 3 f_equal. apply list_eq. intros f. unfold bsel.
  rewrite select_insert by (rewrite replicate_length; lia). unfold norm_row. rewrite list_lookup_imap.
  destruct (bc_at_ok nd nb e b 0 He Hb ltac:(lia)) as (r & _ & Hr & _ & Lr & _ & Hn & _). rewrite Hn.
  destruct (decide (f < 6)%nat) as [Hf|Hf].
  - destruct (bc_at_ok nd nb e b f He Hb Hf) as (r' & y & Hr' & Hy & _ & Hny & _).
    assert (r' = r) as -> by congruence. rewrite Hny, Hy. cbn [fmap option_fmap option_map].
    destruct ((f <? 2 * nd)%nat && is_external (bt y)); [done|]. by rewrite lookup_replicate_2.
  - rewrite (lookup_ge_None_2 r) by lia. rewrite (proj2 (Nat.ltb_ge _ _)) by lia. cbn [andb fmap option_fmap option_map].
    rewrite lookup_ge_None_2; [done|]. rewrite replicate_length. lia.
Qed.

(** ** The file *)
Definition ctab (o : order) (m : mesh64) : bytes :=
  let l := entries csel (elems m) in
  f64_bytes o (f64_of_Z (Z.of_nat (length l))) ++ (((λ '(i, e, j), crec i e j) <$> l) ≫= rec8_bytes o).
Definition btab (o : order) (m : mesh64) (b : nat) : bytes :=
  let l := entries (bsel (ndim m) b) (elems m) in
  f64_bytes o (f64_of_Z (Z.of_nat (length l))) ++ (((λ '(i, e, j), brec b i e j) <$> l) ≫= rec8_bytes o).
Definition btab2 (o : order) (m : mesh64) (b : nat) : list bytes :=
  let l := entries (bsel (ndim m) b) (elems m) in
  [f64_bytes o (f64_of_Z (Z.of_nat (length l))); ((λ '(i, e, j), brec b i e j) <$> l) ≫= rec8_bytes o].
Definition gfloats (nd : nat) (e : elem f64) : list f64 := match geometry nd e with Ok l => l | Raise _ => [] end.
Definition geom (o : order) (m : mesh64) : bytes := elems m ≫= λ e, gfloats (ndim m) e ≫= f64_bytes o.
Definition btabs (o : order) (m : mesh64) (l : list nat) : bytes := l ≫= btab o m.
Definition re2_file (o : order) (m : mesh64) : bytes :=
  re2_header (Z.of_nat (nel m)) (Z.of_nat (ndim m)) ++ f32_bytes o (narrow tag64) ++ geom o m ++ ctab o m ++ btabs o m (range (nbc m)).
Lemma concat_bind {A} (f : A → list bytes) l : concat (l ≫= f) = l ≫= λ x, concat (f x).
Proof. induction l as [|x l IH]; [done|]. cbn. by rewrite concat_app, IH. Qed.
Lemma gfloats_ok nd nb e : nd = 2%nat ∨ nd = 3%nat → re2_elem nd nb e → geometry nd e = Ok (gfloats nd e) ∧
  length (gfloats nd e) = cnt nd ∧ set_geometry nd (gfloats nd e) (fresh nd) = set_pos (norm_pos nd e) (fresh nd).
Proof. intros Hnd He. destruct (geometry_ok nd nb e Hnd He) as (fi & H1 & H2 & H3). unfold gfloats. by rewrite H1. Qed.
Lemma re2_check_ok m : re2_mesh m → re2_check m = Ok tt.
Proof.
  intros Hm. unfold re2_check. destruct (rm_lr1 _ Hm) as [-> ->]. rewrite !bool_decide_eq_true_2 by done. cbn [andb negb].
  pose proof (rm_var _ Hm) as H. destruct (var m) as [|v vs]; [done|]. injection H as ->. cbn. by rewrite Nat.eqb_refl.
Qed.
Theorem writere2_ok native m : re2_mesh m →
  writere2 native m = (Some (re2_file (out_order native (endian m)) m), Ok tt).
Proof.
  intros Hm. unfold writere2. rewrite (re2_check_ok m Hm). cbv zeta. set (o := out_order native (endian m)).
  pose proof (rm_ndim _ Hm) as Hnd. pose proof (rm_elems _ Hm) as Hes.
  assert (∀ e, e ∈ elems m → re2_elem (ndim m) (nbc m) e) as He by (by rewrite <- Forall_forall).
  rewrite (ok_fmap _ (λ e, gfloats (ndim m) e ≫= f64_bytes o)).
  2: { intros e Hin. by rewrite (proj1 (gfloats_ok _ _ _ Hnd (He e Hin))). }
  rewrite (table_ok o _ curve_record _ crec (curved_edges_ok _ _ _ Hes)).
  2: { intros i e j Hin. apply elem_of_entries in Hin as [Hi Hj]. apply elem_of_select in Hj as [_ Hj].
       by apply (curve_record_ok (ndim m) (nbc m)); [apply He; by eapply elem_of_list_lookup_2|]. }
  rewrite (bind_ext _ (λ b, Ok <$> btab2 o m b)).
  2: { intros b Hb. apply elem_of_range in Hb. apply table_ok; [by eapply bc_faces_ok|].
       intros i e j Hin. apply elem_of_entries in Hin as [Hi Hj]. apply elem_of_select in Hj as [_ Hj].
       apply (bc_record_ok (ndim m) (nbc m)); [apply He; by eapply elem_of_list_lookup_2|done|lia]. }
  rewrite <- (fmap_bind Ok (btab2 o m)).
  match goal with |- context [write_all (?a ++ ?b ++ ?c ++ ?d)] => change a with (Ok <$> [re2_header (Z.of_nat (nel m)) (Z.of_nat (ndim m)); f32_bytes o (narrow tag64)]) end.
  rewrite <- !fmap_app, write_all_Ok. f_equal. f_equal. unfold re2_file, geom, ctab, btabs.
  rewrite !concat_app, concat_bind, concat_fmap. cbn [concat]. rewrite !app_nil_r, <- !app_assoc. do 4 f_equal. 
  f_equal. apply bind_ext. intros b _. unfold btab, btab2. cbn [concat]. by rewrite app_nil_r.
Qed.

(** ** Reading *)
Lemma rjust_S w s : (length s ≤ w)%nat → rjust (S w) s = sp :: rjust w s.
Proof. intros H. unfold rjust. by rewrite Nat.sub_succ_l. Qed.
Lemma header_length ne nd : 0 <= ne < 10 ^ 8 → nd = 2 ∨ nd = 3 → length (re2_header ne nd) = 80%nat.
Proof.
  intros Hne Hnd. unfold re2_header. rewrite ljust_length, !app_length, !rjust_length. cbn [str String.list_ascii_of_string length].
  pose proof (dec_int_length ne 8 ltac:(lia) Hne). pose proof (dec_int_length nd 1 ltac:(lia) ltac:(lia)). lia.
Qed.
Lemma header_split ne nd : 0 <= ne < 10 ^ 8 → nd = 2 ∨ nd = 3 →
  split (re2_header ne nd) !! 1%nat = Some (dec_int ne) ∧ split (re2_header ne nd) !! 2%nat = Some (dec_int nd).
Proof.
  intros Hne Hnd. pose proof (dec_int_length ne 8 ltac:(lia) Hne) as L1. pose proof (dec_int_length nd 1 ltac:(lia) ltac:(lia)) as L2.
  destruct (dec_int_spec ne) as (N1 & N2 & _). destruct (dec_int_spec nd) as (D1 & D2 & _).
  unfold re2_header, ljust. rewrite (rjust_S 8), (rjust_S 2) by lia. rewrite <- !app_assoc. cbn [app].
  rewrite split_word; [|by repeat constructor|done]. rewrite split_rjust by done. rewrite split_rjust by done. done.
Qed.
(** What [readre2] does after the tag, after the geometry, and after the table of curves. *)
Definition from_curves (native o : order) (nd ne : nat) (es : list (elem f64)) (l3 : bytes) : res mesh64 :=
  let '(cb, l4) := py_read 8 l3 in
  let! nc := count_of native cb in
  let '(buf, l5) := py_read (8 * (8 * nc)) l4 in
  let! es := foldM (curve_step native o buf) es (range (Z.to_nat nc)) in
  let! (es, nb) := bc_fields (S (length l5)) native o 0 1 es l5 in
  Ok (Hexa nd ne nc nb [nd; 0; 0; 0; 0]%nat PyList [2; 2; nd - 1]%nat z64 0 8 (order_name o) es ((λ i, Z.of_nat i + 1) <$> range ne)).
Definition from_geometry (native o : order) (nd ne : nat) (l2 : bytes) : res mesh64 :=
  let '(gb, l3) := py_read (Z.of_nat (cnt nd) * 8 * Z.of_nat ne) l2 in
  let! es := mapR (λ '(iel, e), let! fi := floats o (cnt nd) (drop (cnt nd * 8 * iel) gb) in Ok (set_geometry nd fi e))
      (imap (λ i e, (i, e)) (replicate ne (fresh nd))) in
  from_curves native o nd ne es l3.
Lemma read_header_tag native o ne nd l2 : Z.of_nat ne < 10 ^ 8 → nd = 2%nat ∨ nd = 3%nat →
  readre2 native (re2_header (Z.of_nat ne) (Z.of_nat nd) ++ f32_bytes o (narrow tag64) ++ l2) = from_geometry native o nd ne l2.
Proof.
  intros Hne Hnd. unfold readre2. rewrite py_read_app by (rewrite header_length by lia; done).
  destruct (header_split (Z.of_nat ne) (Z.of_nat nd) ltac:(lia) ltac:(lia)) as [-> ->]. cbn [of_opt rbind].
  rewrite !py_int_token. cbn [rbind]. rewrite py_read_app by (rewrite f32_bytes_length; done). rewrite read_tag_ok. cbn [rbind].
  replace (negb ((Z.of_nat nd =? 2) || (Z.of_nat nd =? 3)) || (Z.of_nat ne <? 0)) with false
    by (destruct Hnd as [-> | ->]; cbn; symmetry; apply Z.ltb_ge; lia).
  cbv zeta. rewrite !Nat2Z.id. unfold from_geometry. fold (cnt nd).
  destruct (py_read (Z.of_nat (cnt nd) * 8 * Z.of_nat ne) l2) as [gb l3].
  unfold new_hexa. cbn [elems var elmap lr1_triple nth]. reflexivity.
Qed.
Lemma gbytes_length o nd nb e : nd = 2%nat ∨ nd = 3%nat → re2_elem nd nb e → length (gfloats nd e ≫= f64_bytes o) = (cnt nd * 8)%nat.
Proof. intros Hnd He. rewrite (bind_length 8) by (intros; apply f64_bytes_length). by rewrite (proj1 (proj2 (gfloats_ok nd nb e Hnd He))). Qed.
Lemma geom_length o m : re2_mesh m → length (geom o m) = (nel m * (cnt (ndim m) * 8))%nat.
Proof.
  intros Hm. unfold geom. rewrite (bind_length (cnt (ndim m) * 8)); [by rewrite (proj1 (rm_nel _ Hm))|].
  intros e He. eapply gbytes_length; [apply rm_ndim; done|]. pose proof (rm_elems _ Hm) as H. rewrite Forall_forall in H. by apply H.
Qed.
Definition after_geometry (m : mesh64) : list (elem f64) := (λ e, set_pos (norm_pos (ndim m) e) (fresh (ndim m))) <$> elems m.
Lemma mapR_nth {A B} (f : A → res B) (g : list B) l : length g = length l → (∀ i x y, l !! i = Some x → g !! i = Some y → f x = Ok y) → mapR f l = Ok g.
Proof.
  revert g. induction l as [|x l IH]; intros [|y g] Hl H; try done. cbn. rewrite (H 0%nat x y eq_refl eq_refl). cbn.
  rewrite (IH g); [done|by injection Hl|]. intros i x' y' Hx Hy. apply (H (S i)); done.
Qed.
Lemma read_geometry native o m l3 : re2_mesh m →
  from_geometry native o (ndim m) (nel m) (geom o m ++ l3) = from_curves native o (ndim m) (nel m) (after_geometry m) l3.
Proof.
  intros Hm. unfold from_geometry. rewrite py_read_app by (rewrite (geom_length o m Hm); lia).
  pose proof (rm_ndim _ Hm) as Hnd. pose proof (rm_elems _ Hm) as Hes. destruct (rm_nel _ Hm) as [Hl _].
  rewrite (mapR_nth _ (after_geometry m)); [done| |].
  - unfold after_geometry. by rewrite imap_length, replicate_length, fmap_length.
  - intros i [i' x] y Hx Hy. rewrite list_lookup_imap in Hx. apply fmap_Some in Hx as (x' & Hx' & [= -> ->]).
    apply lookup_replicate in Hx' as [-> Hi]. unfold after_geometry in Hy. rewrite list_lookup_fmap in Hy.
    apply fmap_Some in Hy as (e & He & ->). rewrite Forall_forall in Hes.
    assert (re2_elem (ndim m) (nbc m) e) as Hre by (apply Hes; by eapply elem_of_list_lookup_2).
    unfold geom. rewrite <- (take_drop_middle (elems m) i e He). rewrite bind_app. rewrite drop_app_alt.
    2: { rewrite (bind_length (cnt (ndim m) * 8)).
         - rewrite take_length. apply lookup_lt_Some in He. lia.
         - intros z Hz. eapply gbytes_length; [done|]. apply Hes. apply elem_of_take in Hz as (k & Hk & _). by eapply elem_of_list_lookup_2. }
    cbn [mbind list_bind]. destruct (gfloats_ok _ _ _ Hnd Hre) as (_ & Hlen & Hset). rewrite <- Hlen. rewrite floats_bytes. cbn [rbind].
    by rewrite Hset.
Qed.

Lemma entries_small (m : mesh64) (sel : elem f64 → list nat) : re2_mesh m → (∀ e, (length (sel e) ≤ 12)%nat) →
  Z.of_nat (length (entries sel (elems m))) <= bnd64.
Proof.
  intros Hm H. destruct (rm_nel _ Hm) as [Hl Hn]. pose proof (entries_length_le sel (elems m) 12 (λ e _, H e)) as Hle.
  rewrite Hl in Hle. unfold bnd64. lia.
Qed.
Lemma read_count native o n : o = native ∨ n = 0%nat → Z.of_nat n <= bnd64 →
  count_of native (f64_bytes o (f64_of_Z (Z.of_nat n))) = Ok (Z.of_nat n).
Proof. intros [-> | ->] Hn; [by apply count_native|apply count_zero]. Qed.
Lemma rows_length o (rs : list rec8) : Forall rec_ok rs → length (rs ≫= rec8_bytes o) = (64 * length rs)%nat.
Proof. intros H. rewrite (bind_length 64); [lia|]. intros r Hr. apply rec8_length. rewrite Forall_forall in H. by apply H. Qed.
Lemma crecs_ok m : re2_mesh m → Forall rec_ok ((λ '(i, e, j), crec i e j) <$> entries csel (elems m)).
Proof.
  intros Hm. pose proof (rm_elems _ Hm) as H. rewrite Forall_forall in H. apply Forall_forall. intros r Hr.
  apply elem_of_list_fmap in Hr as ([[i e] j] & -> & Hin). apply elem_of_entries in Hin as [Hi Hj]. pose proof Hj as Hj'. apply elem_of_select in Hj' as [_ Hj'].
  eapply curve_record_ok; [apply H; by eapply elem_of_list_lookup_2|done|done].
Qed.
Lemma brecs_ok m b : re2_mesh m → (b < nbc m)%nat → Forall rec_ok ((λ '(i, e, j), brec b i e j) <$> entries (bsel (ndim m) b) (elems m)).
Proof.
  intros Hm Hb. pose proof (rm_elems _ Hm) as H. pose proof (rm_ndim _ Hm) as Hnd. rewrite Forall_forall in H. apply Forall_forall. intros r Hr.
  apply elem_of_list_fmap in Hr as ([[i e] j] & -> & Hin). apply elem_of_entries in Hin as [Hi Hj]. apply elem_of_select in Hj as [_ Hj].
  eapply bc_record_ok; [apply H; by eapply elem_of_list_lookup_2|done|lia].
Qed.
(** The elements after the curves, in closed form. *)
Definition with_curves (nd : nat) (e : elem f64) : elem f64 :=
  set_ccurv (ccurv e) (set_curv (norm_curv e) (set_pos (norm_pos nd e) (fresh nd))).
Definition foreign_upto (K : nat) (native o : order) (m : mesh64) : Prop :=
  o = native ∨ (entries csel (elems m) = [] ∧ ∀ b, (b < K)%nat → entries (bsel (ndim m) b) (elems m) = []).
Notation foreign_ok native o m := (foreign_upto (nbc m) native o m).
Lemma curves_done m : re2_mesh m →
  foldl (λ xs '(i, e, j), alter (cupd i e j) i xs) (after_geometry m) (entries csel (elems m)) = with_curves (ndim m) <$> elems m.
Proof.
  intros Hm. apply list_eq. intros p. rewrite entries_fold. unfold after_geometry. rewrite !list_lookup_fmap.
  destruct (elems m !! p) as [e|] eqn:E; [|done]. cbn [fmap option_fmap option_map]. f_equal.
  pose proof (rm_elems _ Hm) as H. rewrite Forall_forall in H.
  specialize (H e (elem_of_list_lookup_2 _ _ _ E)). by apply norm_curves; [apply (re_curv _ _ _ H)|apply (re_ccurv _ _ _ H)|..].
Qed.
Lemma after_geometry_shape m : re2_mesh m → curve_shape (nel m) (after_geometry m).
Proof.
  intros Hm. split; [unfold after_geometry; rewrite fmap_length; apply (rm_nel _ Hm)|].
  unfold after_geometry. rewrite Forall_fmap. apply Forall_true. done.
Qed.
Lemma curve_rows K native o m l5 : re2_mesh m → foreign_upto K native o m →
  let l := entries csel (elems m) in let buf := ((λ '(i, e, j), crec i e j) <$> l) ≫= rec8_bytes o in
  py_read 8 (ctab o m ++ l5) = (f64_bytes o (f64_of_Z (Z.of_nat (length l))), buf ++ l5) ∧
  count_of native (f64_bytes o (f64_of_Z (Z.of_nat (length l)))) = Ok (Z.of_nat (length l)) ∧
  length buf = (64 * length l)%nat ∧
  foldM (curve_step native o buf) (after_geometry m) (range (length l)) = Ok (with_curves (ndim m) <$> elems m).
Proof.
  intros Hm Ho l buf. destruct (rm_nel _ Hm) as [Hl Hn]. split; [|split; [|split]].
  - unfold ctab. fold l. fold buf. rewrite <- app_assoc. by rewrite py_read_app by (rewrite f64_bytes_length; done).
  - apply read_count; [destruct Ho as [?|[E _]]; [by left|right; unfold l; by rewrite E]|].
    apply entries_small; [done|]. intros e. apply select_length_le.
  - unfold buf. rewrite rows_length by (by apply crecs_ok). by rewrite fmap_length.
  - rewrite <- (curves_done m Hm). fold l. destruct Ho as [-> | [E _]]; [|unfold l; rewrite E; done].
    pose proof (rm_elems _ Hm) as H. rewrite Forall_forall in H.
    eapply (foldM_rows _ _ (curve_shape (nel m))); [by apply after_geometry_shape|].
    intros xs k [[i e] j] Hxs Hk. assert ((i, e, j) ∈ l) as Hin by (by eapply elem_of_list_lookup_2).
    apply elem_of_entries in Hin as [Hi Hj].
    eapply curve_step_ok; [apply H; by eapply elem_of_list_lookup_2|done| |done| |done].
    + rewrite <- Hl. by eapply lookup_lt_Some.
    + unfold buf. rewrite <- (app_nil_r (_ ≫= _)). apply record_bytes; [by apply crecs_ok|].
      rewrite list_lookup_fmap, Hk. done.
Qed.
Lemma read_curves K native o m l5 : re2_mesh m → foreign_upto K native o m →
  from_curves native o (ndim m) (nel m) (after_geometry m) (ctab o m ++ l5) =
  let! (es, nb) := bc_fields (S (length l5)) native o 0 1 (with_curves (ndim m) <$> elems m) l5 in
  Ok (Hexa (ndim m) (nel m) (Z.of_nat (length (entries csel (elems m)))) nb [ndim m; 0; 0; 0; 0]%nat PyList [2; 2; ndim m - 1]%nat z64 0 8
    (order_name o) es ((λ i, Z.of_nat i + 1) <$> range (nel m))).
Proof.
  intros Hm Ho. destruct (curve_rows K native o m l5 Hm Ho) as (H1 & H2 & H3 & H4).
  unfold from_curves. rewrite H1, H2. cbn [rbind]. rewrite py_read_app by lia. rewrite Nat2Z.id, H4. done.
Qed.

(** The elements after the first [b] tables of conditions. *)
Definition norm_rows (nd b p : nat) (e : elem f64) : list (list (bcrec f64)) := norm_row nd p <$> take b (bcs e).
Definition zero_row : list (bcrec f64) := replicate 6 (zero_bc z64).
Definition rows_after (nd b p : nat) (e : elem f64) : list (list (bcrec f64)) :=
  match b with O => [zero_row] | _ => norm_rows nd b p e end.
Definition elem_after (nd b p : nat) (e : elem f64) : elem f64 := set_bcs (rows_after nd b p e) (with_curves nd e).
Definition state_after (m : mesh64) (b : nat) : list (elem f64) := imap (elem_after (ndim m) b) (elems m).
(** With the row for the next table. *)
Definition elem_ready (nd b p : nat) (e : elem f64) : elem f64 := set_bcs (norm_rows nd b p e ++ [zero_row]) (with_curves nd e).
Definition state_ready (m : mesh64) (b : nat) : list (elem f64) := imap (elem_ready (ndim m) b) (elems m).
Lemma norm_rows_length nd nb b p e : re2_elem nd nb e → (b ≤ nb)%nat → length (norm_rows nd b p e) = b.
Proof. intros He Hb. unfold norm_rows. rewrite fmap_length, take_length. destruct (re_bcs _ _ _ He) as [L _]. lia. Qed.
Lemma ready m b : re2_mesh m → (b < nbc m)%nat →
  (if (0 <? b)%nat then more_bcs <$> state_after m b else state_after m b) = state_ready m b.
Proof.
  intros Hm Hb. destruct b as [|b]; cbn [Nat.ltb Nat.leb].
  - unfold state_after, state_ready. apply imap_ext. intros p e He. unfold elem_after, elem_ready. done.
  - unfold state_after, state_ready. rewrite fmap_imap. apply imap_ext. intros p e He. cbn [compose].
    unfold elem_after, elem_ready, more_bcs. cbn [bcs set_bcs rows_after].
    pose proof (rm_elems _ Hm) as H. rewrite Forall_forall in H. destruct (re_bcs _ _ _ (H e (elem_of_list_lookup_2 _ _ _ He))) as [L F].
    unfold norm_rows. destruct (bcs e) as [|r rs]; [cbn in L; lia|]. cbn [take fmap list_fmap]. rewrite take_0. cbn [fmap list_fmap].
    apply Forall_cons in F as [Lr _]. assert (length (norm_row (ndim m) p r) = 6%nat) as -> by (unfold norm_row; by rewrite imap_length). done.
Qed.
Lemma state_ready_shape m b : re2_mesh m → (b < nbc m)%nat → bc_shape (nel m) b (state_ready m b).
Proof.
  intros Hm Hb. split; [unfold state_ready; rewrite imap_length; apply (rm_nel _ Hm)|]. apply Forall_forall. intros x Hx.
  apply elem_of_lookup_imap in Hx as (p & e & -> & He).
  pose proof (rm_elems _ Hm) as H. rewrite Forall_forall in H. specialize (H e (elem_of_list_lookup_2 _ _ _ He)).
  unfold elem_ready. cbn [bcs set_bcs]. rewrite app_length, (norm_rows_length _ _ _ _ _ H) by lia. cbn [length]. split; [lia|].
  exists zero_row. split; [|done]. apply list_lookup_middle. symmetry. by apply (norm_rows_length _ (nbc m)); [|lia].
Qed.
Lemma conditions_done m b : re2_mesh m → (b < nbc m)%nat →
  foldl (λ xs '(i, e, j), alter (bupd b i e j) i xs) (state_ready m b) (entries (bsel (ndim m) b) (elems m)) = state_after m (S b).
Proof.
  intros Hm Hb. apply list_eq. intros p. rewrite entries_fold. unfold state_ready, state_after. rewrite !list_lookup_imap.
  destruct (elems m !! p) as [e|] eqn:E; [|done]. cbn [fmap option_fmap option_map]. f_equal.
  pose proof (rm_elems _ Hm) as H. rewrite Forall_forall in H. specialize (H e (elem_of_list_lookup_2 _ _ _ E)).
  rewrite (norm_bcs (ndim m) (nbc m) b p e _ (norm_rows (ndim m) b p e)); try done; [|apply rm_ndim; done|by apply (norm_rows_length _ (nbc m)); [|lia]].
  unfold elem_ready, elem_after. cbn [rows_after]. unfold norm_rows.
  destruct (bc_at_ok _ _ e b 0 H Hb ltac:(lia)) as (r & _ & Hr & _ & _ & _ & Hn & _). rewrite Hn.
  rewrite (take_S_r _ _ _ Hr), fmap_app. done.
Qed.
Lemma bc_rows K native o m b rest : re2_mesh m → foreign_upto K native o m → (b < K)%nat → (b < nbc m)%nat →
  let l := entries (bsel (ndim m) b) (elems m) in let buf := ((λ '(i, e, j), brec b i e j) <$> l) ≫= rec8_bytes o in
  py_read 8 (btab o m b ++ rest) = (f64_bytes o (f64_of_Z (Z.of_nat (length l))), buf ++ rest) ∧
  count_of native (f64_bytes o (f64_of_Z (Z.of_nat (length l)))) = Ok (Z.of_nat (length l)) ∧
  length buf = (64 * length l)%nat ∧
  foldM (bc_step native o b buf) (state_ready m b) (range (length l)) = Ok (state_after m (S b)).
Proof.
  intros Hm Ho HK Hb l buf. destruct (rm_nel _ Hm) as [Hl Hn]. split; [|split; [|split]].
  - unfold btab. fold l. fold buf. rewrite <- app_assoc. by rewrite py_read_app by (rewrite f64_bytes_length; done).
  - apply read_count; [destruct Ho as [?|[_ E]]; [by left|right; unfold l; by rewrite E]|].
    apply entries_small; [done|]. intros e. etransitivity; [apply select_length_le|]. destruct (rm_ndim _ Hm) as [-> | ->]; lia.
  - unfold buf. rewrite rows_length by (by apply brecs_ok). by rewrite fmap_length.
  - rewrite <- (conditions_done m b Hm Hb). fold l. destruct Ho as [-> | [_ E]]; [|unfold l; rewrite E by done; done].
    pose proof (rm_elems _ Hm) as H. rewrite Forall_forall in H.
    eapply (foldM_rows _ _ (bc_shape (nel m) b)); [by apply state_ready_shape|].
    intros xs k [[i e] j] Hxs Hk. assert ((i, e, j) ∈ l) as Hin by (by eapply elem_of_list_lookup_2).
    apply elem_of_entries in Hin as [Hi Hj].
    eapply bc_step_ok; [by apply rm_ndim|done|apply H; by eapply elem_of_list_lookup_2|done| |done| |done].
    + rewrite <- Hl. by eapply lookup_lt_Some.
    + unfold buf. rewrite <- (app_nil_r (_ ≫= _)). apply record_bytes; [by apply brecs_ok|].
      rewrite list_lookup_fmap, Hk. done.
Qed.
Lemma btab_length o m b : re2_mesh m → (b < nbc m)%nat → length (btab o m b) = (8 + 64 * length (entries (bsel (ndim m) b) (elems m)))%nat.
Proof.
  intros Hm Hb. unfold btab. rewrite app_length, f64_bytes_length, rows_length by (by apply brecs_ok). by rewrite fmap_length.
Qed.
(** Reading one table, and then the rest. *)
Lemma read_table K native o m b fuel rest : re2_mesh m → foreign_upto K native o m → (b < K)%nat → (b < nbc m)%nat →
  bc_fields (S fuel) native o b (Nat.max 1 b) (state_after m b) (btab o m b ++ rest) =
  bc_fields fuel native o (S b) (Nat.max 1 (S b)) (state_after m (S b)) rest.
Proof.
  intros Hm Ho HK Hb. destruct (bc_rows K native o m b rest Hm Ho HK Hb) as (H1 & H2 & H3 & H4).
  cbn [bc_fields]. rewrite H1.
  assert (∀ (A : Type) (x y : A), match f64_bytes o (f64_of_Z (Z.of_nat (length (entries (bsel (ndim m) b) (elems m))))) with [] => x | _ :: _ => y end = y) as E.
  { intros A x y. pose proof (f64_bytes_length o (f64_of_Z (Z.of_nat (length (entries (bsel (ndim m) b) (elems m)))))) as L.
    destruct (f64_bytes _ _); [done|done]. }
  rewrite E. clear E.
  replace (if (0 <? b)%nat then (more_bcs <$> state_after m b, S (Nat.max 1 b)) else (state_after m b, Nat.max 1 b))
    with (state_ready m b, Nat.max 1 (S b)).
  2: { rewrite <- (ready m b Hm Hb). destruct b as [|b]; [done|]. cbn [Nat.ltb Nat.leb]. f_equal. }
  rewrite H2. cbn [rbind]. rewrite py_read_app by lia. rewrite Nat2Z.id, H4. done.
Qed.
Lemma read_tables K native o m fuel b k rest : re2_mesh m → foreign_upto K native o m → (b + k ≤ K)%nat → (b + k ≤ nbc m)%nat →
  bc_fields (k + fuel) native o b (Nat.max 1 b) (state_after m b) (btabs o m (seq b k) ++ rest) =
  bc_fields fuel native o (b + k) (Nat.max 1 (b + k)) (state_after m (b + k)) rest.
Proof.
  intros Hm Ho. revert b. induction k as [|k IH]; intros b HK Hk; [by rewrite Nat.add_0_r|].
  cbn [seq Nat.add]. unfold btabs. cbn [mbind list_bind]. rewrite <- app_assoc. rewrite (read_table K) by (done || lia).
  rewrite <- Nat.add_succ_comm. by apply IH; lia.
Qed.
Lemma btabs_length o m b k : re2_mesh m → (b + k ≤ nbc m)%nat → (8 * k ≤ length (btabs o m (seq b k)))%nat.
Proof.
  intros Hm. revert b. induction k as [|k IH]; intros b Hk; [cbn; lia|].
  cbn [seq]. unfold btabs. cbn [mbind list_bind]. rewrite app_length, btab_length by (done || lia).
  specialize (IH (S b) ltac:(lia)). unfold btabs in IH. unfold mbind in *. lia.
Qed.
(** What reading back gives. *)
Definition norm_mesh (o : order) (m : mesh64) : mesh64 :=
  Hexa (ndim m) (nel m) (Z.of_nat (length (entries csel (elems m)))) (Nat.max 1 (nbc m)) [ndim m; 0; 0; 0; 0]%nat PyList
    [2; 2; ndim m - 1]%nat z64 0 8 (order_name o) (state_after m (nbc m)) ((λ i, Z.of_nat i + 1) <$> range (nel m)).
Lemma state_after_0 m : with_curves (ndim m) <$> elems m = state_after m 0.
Proof.
  apply list_eq. intros p. unfold state_after. rewrite list_lookup_fmap, list_lookup_imap. by destruct (elems m !! p).
Qed.
Theorem read_re2_file native o m : re2_mesh m → foreign_ok native o m → readre2 native (re2_file o m) = Ok (norm_mesh o m).
Proof.
  intros Hm Ho. unfold re2_file. rewrite read_header_tag; [|apply (rm_nel _ Hm)|apply (rm_ndim _ Hm)].
  rewrite read_geometry, (read_curves (nbc m)) by done. rewrite state_after_0.
  set (l5 := btabs o m (range (nbc m))).
  pose proof (btabs_length o m 0 (nbc m) Hm ltac:(lia)) as Hlen. fold (range (nbc m)) in Hlen. fold l5 in Hlen.
  replace (S (length l5)) with (nbc m + S (length l5 - nbc m))%nat by lia.
  pose proof (read_tables (nbc m) native o m (S (length l5 - nbc m)) 0 (nbc m) [] Hm Ho ltac:(lia) ltac:(lia)) as R.
  rewrite app_nil_r in R. fold (range (nbc m)) in R. fold l5 in R. change (Nat.max 1 0) with 1%nat in R. rewrite R. cbn [Nat.add bc_fields]. unfold py_read. cbn. done.
Qed.

(** ** What reading back gives, seen from outside *)
Lemma select_ext P Q n : (∀ j, (j < n)%nat → P j = Q j) → select P n = select Q n.
Proof.
  induction n as [|n IH]; intros H; [done|]. rewrite !select_snoc, IH by (intros; apply H; lia). by rewrite H by lia.
Qed.
Lemma filter_select {X} (Q : X → bool) (l : list X) d :
  length (select (λ j, Q (nth j l d)) (length l)) = length (filter (λ x, Q x = true) l).
Proof.
  induction l as [|x l IH] using rev_ind; [done|]. rewrite app_length. cbn [length]. rewrite Nat.add_1_r, select_snoc, app_length.
  rewrite filter_app, app_length, <- IH. f_equal.
  - f_equal. apply select_ext. intros j Hj. by rewrite app_nth1.
  - rewrite app_nth2, Nat.sub_diag by lia. cbn [nth]. rewrite filter_cons, filter_nil.
    destruct (Q x); [by rewrite decide_True|by rewrite decide_False].
Qed.
Lemma entries_length {E} (sel : E → list nat) es : length (entries sel es) = sum_list ((λ e, length (sel e)) <$> es).
Proof.
  induction es as [|e es IH] using rev_ind; [done|]. rewrite entries_snoc, fmap_app, app_length, IH, fmap_length.
  clear. induction es as [|x es IH]; cbn; [lia|]. cbn in IH. unfold fmap in *. lia.
Qed.
Lemma n_curves_ok m : re2_mesh m → length (entries csel (elems m)) = n_curves m.
Proof.
  intros Hm. rewrite entries_length. unfold n_curves. f_equal. apply list_fmap_ext. intros i e He.
  pose proof (rm_elems _ Hm) as H. rewrite Forall_forall in H. destruct (re_ccurv _ _ _ (H e (elem_of_list_lookup_2 _ _ _ He))) as [L _].
  unfold csel. rewrite <- L. etransitivity; [exact (filter_select (λ t, negb (bool_decide (t = ""%string))) (ccurv e) ""%string)|]. f_equal.
  apply list_filter_iff. intros t. case_bool_decide; naive_solver.
Qed.
Lemma n_external_ok m b : re2_mesh m → (b < nbc m)%nat → length (entries (bsel (ndim m) b) (elems m)) = n_external m b.
Proof.
  intros Hm Hb. rewrite entries_length. unfold n_external. f_equal. apply list_fmap_ext. intros i e He.
  pose proof (rm_elems _ Hm) as H. rewrite Forall_forall in H. specialize (H e (elem_of_list_lookup_2 _ _ _ He)).
  destruct (bc_at_ok _ _ e b 0 H Hb ltac:(lia)) as (r & _ & Hr & _ & Lr & _ & Hn & _). rewrite Hr. cbn [default].
  unfold bsel. assert (length (take (2 * ndim m) r) = (2 * ndim m)%nat) as Lt.
  { rewrite take_length. destruct (rm_ndim _ Hm); lia. }
  etransitivity; [|exact (filter_select (λ x, is_external (bt x)) (take (2 * ndim m) r) (zero_bc z64))].
  rewrite Lt. f_equal. apply select_ext. intros j Hj.
  unfold bc_nth. rewrite Hn. do 2 f_equal. rewrite <- (take_drop (2 * ndim m) r) at 1. by rewrite app_nth1 by lia.
Qed.
Lemma norm_row_lookup nd p r f x : r !! f = Some x → (f < 2 * nd)%nat →
  norm_row nd p r !! f = Some (if is_external (bt x) then norm_bc p f x else zero_bc z64).
Proof.
  intros Hx Hf. unfold norm_row. rewrite list_lookup_imap, Hx. cbn [fmap option_fmap option_map].
  by rewrite (proj2 (Nat.ltb_lt _ _)) by done.
Qed.
Theorem norm_same o m : re2_mesh m → same_mesh (norm_mesh o m) m.
Proof.
  intros Hm. unfold same_mesh, norm_mesh. cbn [ndim nel lr1 var elems].
  split; [done|]. split; [done|]. split; [symmetry; apply (rm_lr1 _ Hm)|]. split; [symmetry; apply (rm_var _ Hm)|].
  split; [unfold state_after; by rewrite imap_length|].
  intros p e He. pose proof (rm_elems _ Hm) as H. rewrite Forall_forall in H. specialize (H e (elem_of_list_lookup_2 _ _ _ He)).
  exists (elem_after (ndim m) (nbc m) p e). split; [unfold state_after; by rewrite list_lookup_imap, He|].
  split; [|split].
  - eapply same_vertices_norm; [by apply rm_ndim|done|done|done].
  - split; [done|]. intros i t Ht Hne. cbn [curv elem_after set_bcs with_curves set_ccurv set_curv]. unfold norm_curv.
    rewrite lookup_zip_with, Ht. cbn [mbind option_bind]. rewrite bool_decide_eq_false_2 by done. by destruct (curv e !! i).
  - intros b f r x Hb Hf Hr Hx. cbn [elem_after bcs set_bcs]. exists (norm_row (ndim m) p r). split.
    + destruct (nbc m) as [|nb] eqn:Enb; [lia|]. cbn [rows_after]. unfold norm_rows. rewrite list_lookup_fmap, lookup_take by done.
      by rewrite Hr.
    + by apply norm_row_lookup.
Qed.

(** ** Reading back twice *)
Lemma imap_nested {A} (f g : nat → A → A) l : imap f (imap g l) = imap (λ i x, f i (g i x)) l.
Proof.
  apply list_eq. intros i. rewrite !list_lookup_imap. by destruct (l !! i).
Qed.
Lemma bc_type_empty : bc_type "".
Proof. split; [constructor|]. split; [cbn; lia|]. done. Qed.
Lemma is_external_empty : is_external "" = false.
Proof. done. Qed.
Lemma norm_bc_twice nd p f x :
  let g := λ x : bcrec f64, if (f <? 2 * nd)%nat && is_external (bt x) then norm_bc p f x else zero_bc z64 in g (g x) = g x.
Proof.
  intros g. unfold g. destruct ((f <? 2 * nd)%nat && is_external (bt x)) eqn:E.
  - cbn [bt norm_bc]. by rewrite E.
  - cbn [bt zero_bc]. by rewrite is_external_empty, andb_false_r.
Qed.
Lemma norm_row_twice nd p r : norm_row nd p (norm_row nd p r) = norm_row nd p r.
Proof.
  unfold norm_row. rewrite imap_nested. apply imap_ext. intros f x _. apply (norm_bc_twice nd p f x).
Qed.
Lemma norm_row_zero nd p : norm_row nd p zero_row = zero_row.
Proof.
  apply list_eq. intros f. unfold norm_row, zero_row. rewrite list_lookup_imap.
  destruct (decide (f < 6)%nat).
  - rewrite !lookup_replicate_2 by done. cbn [fmap option_fmap option_map bt zero_bc]. by rewrite is_external_empty, andb_false_r.
  - rewrite !lookup_ge_None_2; [done|rewrite replicate_length; lia..].
Qed.
Lemma elem_after_twice nd nb p e : nd = 2%nat ∨ nd = 3%nat → re2_elem nd nb e →
  elem_after nd (Nat.max 1 nb) p (elem_after nd nb p e) = elem_after nd nb p e.
Proof.
  intros Hnd He. unfold elem_after. 
  assert (with_curves nd (set_bcs (rows_after nd nb p e) (with_curves nd e)) = with_curves nd e) as ->.
  { unfold with_curves. cbn [ccurv set_bcs set_ccurv set_curv]. f_equal. f_equal; [|f_equal].
    - unfold norm_curv. cbn [ccurv curv set_bcs set_ccurv set_curv]. destruct (re_ccurv _ _ _ He) as [L _]. destruct (re_curv _ _ _ He) as [L' _].
      generalize (ccurv e), (curv e). clear. intros l. induction l as [|t l IH]; intros [|r k]; try done. cbn [zip_with]. rewrite IH.
      by case_bool_decide.
    - unfold norm_pos. cbn [pos set_bcs set_ccurv set_curv set_pos]. f_equal.
      destruct (re_pos _ _ _ He (nd - 1)%nat ltac:(lia)) as (a & Ha & _). apply lookup_lt_Some in Ha.
      rewrite take_app_alt; [done|]. rewrite take_length. lia. }
  f_equal. destruct nb as [|nb]; cbn [Nat.max].
  - cbn [rows_after bcs set_bcs]. unfold norm_rows. cbn [bcs set_bcs take fmap list_fmap]. by rewrite norm_row_zero.
  - cbn [rows_after bcs set_bcs]. unfold norm_rows. cbn [bcs set_bcs]. rewrite firstn_all2.
    2: { rewrite fmap_length, take_length. lia. }
    rewrite <- list_fmap_compose. apply list_fmap_ext. intros i r _. cbn [compose]. apply norm_row_twice.
Qed.
Lemma norm_elem_ok nd nb p e : nd = 2%nat ∨ nd = 3%nat → re2_elem nd nb e → re2_elem nd (Nat.max 1 nb) (elem_after nd nb p e).
Proof.
  intros Hnd He. destruct (re_ccurv _ _ _ He) as [L1 F1]. destruct (re_curv _ _ _ He) as [L2 F2]. destruct (re_bcs _ _ _ He) as [L3 F3].
  split.
  - done.
  - intros c Hc. cbn [pos elem_after set_bcs with_curves set_ccurv set_curv set_pos]. unfold norm_pos.
    destruct (re_pos _ _ _ He c Hc) as (a & Ha & La). exists a. split; [|done]. rewrite lookup_app_l; [by rewrite lookup_take|].
    rewrite take_length. apply lookup_lt_Some in Ha. lia.
  - cbn [curv elem_after set_bcs with_curves set_ccurv set_curv set_pos]. unfold norm_curv. split; [rewrite zip_with_length; lia|].
    apply Forall_lookup. intros i r Hr. rewrite lookup_zip_with in Hr. destruct (ccurv e !! i) as [t|]; [|done]. cbn in Hr.
    destruct (curv e !! i) as [r'|] eqn:E; [|done]. injection Hr as <-. rewrite Forall_lookup in F2. case_bool_decide; [done|]. by eapply F2.
  - done.
  - cbn [bcs elem_after set_bcs]. destruct nb as [|nb]; cbn [rows_after]; [split; [done|by repeat constructor]|].
    unfold norm_rows. rewrite firstn_all2 by lia. split; [rewrite fmap_length; lia|]. rewrite Forall_fmap. eapply Forall_impl; [exact F3|].
    intros r Hr. cbn [compose]. unfold norm_row. by rewrite imap_length.
  - intros b f r x Hr Hx. cbn [bcs elem_after set_bcs] in Hr. destruct nb as [|nb]; cbn [rows_after] in Hr.
    + apply list_lookup_singleton_Some in Hr as [_ <-]. unfold zero_row in Hx. apply lookup_replicate in Hx as [-> _]. apply bc_type_empty.
    + unfold norm_rows in Hr. rewrite list_lookup_fmap in Hr. apply fmap_Some in Hr as (r' & Hr' & ->).
      unfold norm_row in Hx. rewrite list_lookup_imap in Hx. apply fmap_Some in Hx as (x' & Hx' & ->).
      destruct ((f <? 2 * nd)%nat && is_external (bt x')); [|apply bc_type_empty]. cbn [bt norm_bc].
      assert (bcs e !! b = Some r') as Hb by (destruct (decide (b < S nb)%nat); [by rewrite lookup_take in Hr'|rewrite lookup_take_ge in Hr' by lia; done]).
      exact (re_types _ _ _ He _ _ _ _ Hb Hx').
Qed.
Lemma norm_mesh_ok o m : re2_mesh m → re2_mesh (norm_mesh o m).
Proof.
  intros Hm. split; cbn [ndim lr1kind lr1 var nel elems nbc norm_mesh]; try done.
  - apply (rm_ndim _ Hm).
  - unfold state_after. rewrite imap_length. apply (rm_nel _ Hm).
  - apply Forall_forall. intros x Hx. unfold state_after in Hx. apply elem_of_lookup_imap in Hx as (p & e & -> & He).
    apply norm_elem_ok; [by apply rm_ndim|]. pose proof (rm_elems _ Hm) as H. rewrite Forall_forall in H. apply H. by eapply elem_of_list_lookup_2.
Qed.
Lemma entries_len_ext {E} (sel : E → list nat) (l l' : list E) : length l = length l' →
  (∀ i x y, l !! i = Some x → l' !! i = Some y → length (sel x) = length (sel y)) → length (entries sel l) = length (entries sel l').
Proof.
  rewrite !entries_length. revert l'. induction l as [|x l IH]; intros [|y l'] Hl H; try done. cbn.
  rewrite (H 0%nat x y) by done. f_equal. apply IH; [by injection Hl|]. intros i a b Ha Hb. by apply (H (S i)).
Qed.
Lemma norm_mesh_twice o o' m : re2_mesh m → norm_mesh o' (norm_mesh o m) = norm_mesh o' m.
Proof.
  intros Hm. unfold norm_mesh at 1 3. cbn [ndim nel nbc elems norm_mesh]. f_equal.
  - f_equal. apply entries_len_ext; [unfold state_after; by rewrite imap_length|].
    intros i x y Hx Hy. unfold state_after in Hx. rewrite list_lookup_imap, Hy in Hx. injection Hx as <-. done.
  - lia.
  - unfold state_after at 1. cbn [ndim nel nbc elems norm_mesh]. unfold state_after. rewrite imap_nested. apply imap_ext.
    intros p e He. apply elem_after_twice; [by apply rm_ndim|]. pose proof (rm_elems _ Hm) as H. rewrite Forall_forall in H. apply H. by eapply elem_of_list_lookup_2.
Qed.

(** ** Torn files *)
Lemma py_read_take n l : 0 <= n → py_read n l = (take (Z.to_nat n) l, drop (Z.to_nat n) l).
Proof. intros H. unfold py_read. by rewrite (proj2 (Z.ltb_ge _ _)). Qed.
Lemma rbind_raise {A B} (x : res A) (f : A → res B) : (∀ a, x = Ok a → ∃ e, f a = Raise e) → ∃ e, rbind x f = Raise e.
Proof. intros H. destruct x as [a|e]; [by apply H|]. by exists e. Qed.
Lemma torn_tag native l : (length l < 84)%nat → ∃ x, readre2 native l = Raise x.
Proof.
  intros Hl. unfold readre2. rewrite py_read_take by lia. do 4 (apply rbind_raise; intros ? _).
  rewrite py_read_take by lia. apply rbind_raise. intros o Ho. exfalso. unfold read_tag, unpack_f32 in Ho.
  rewrite take_length, drop_length in Ho. change (Z.to_nat 4) with 4%nat in Ho. change (Z.to_nat 80) with 80%nat in Ho.
  rewrite (proj2 (Nat.eqb_neq (Nat.min 4 (length l - 80)) 4)) in Ho by lia. discriminate Ho.
Qed.
Lemma torn_geometry native o nd ne l2 : (length l2 < ne * (cnt nd * 8))%nat → ∃ x, from_geometry native o nd ne l2 = Raise x.
Proof.
  intros Hl. unfold from_geometry. rewrite py_read_take by lia. destruct ne as [|ne]; [lia|].
  edestruct (mapR_raise (λ '(iel, e), let! fi := floats o (cnt nd) (drop (cnt nd * 8 * iel) (take (Z.to_nat (Z.of_nat (cnt nd) * 8 * Z.of_nat (S ne))) l2)) in Ok (set_geometry nd fi e))
    (imap (λ i e, (i, e)) (replicate (S ne) (fresh nd))) (ne, fresh nd)) as [x Hx].
  - apply elem_of_lookup_imap. exists ne, (fresh nd). split; [done|]. apply lookup_replicate_2. lia.
  - unfold floats. rewrite drop_length, take_length. rewrite (proj2 (Nat.ltb_lt _ _)) by lia. cbn [rbind]. by eexists.
  - rewrite Hx. cbn [rbind]. by eexists.
Qed.
Lemma torn_rows {S} (step : bytes → S → nat → res S) n buf s :
  (∀ buf s i, (length buf < i * 64 + 64)%nat → ∃ x, step buf s i = Raise x) → (length buf < 64 * n)%nat →
  ∃ x, foldM (step buf) s (range n) = Raise x.
Proof.
  intros H Hl. destruct n as [|n]; [lia|]. apply (foldM_raise _ _ n); [apply elem_of_range; lia|].
  intros s'. apply H. lia.
Qed.
Lemma torn_curves native o m t : re2_mesh m → foreign_ok native o m → (t < length (ctab o m))%nat →
  ∃ x, from_curves native o (ndim m) (nel m) (after_geometry m) (take t (ctab o m)) = Raise x.
Proof.
  intros Hm Ho Ht. destruct (curve_rows (nbc m) native o m [] Hm Ho) as (H1 & H2 & H3 & H4). rewrite app_nil_r in H1.
  unfold ctab in *. cbv zeta in *. set (l := entries csel (elems m)) in *. set (cb := f64_bytes o (f64_of_Z (Z.of_nat (length l)))) in *.
  set (buf := ((λ '(i, e, j), crec i e j) <$> l) ≫= rec8_bytes o) in *.
  assert (length cb = 8%nat) as Lc by apply f64_bytes_length.
  unfold from_curves. rewrite py_read_take by lia. change (Z.to_nat 8) with 8%nat. destruct (decide (t < 8)%nat) as [Hs|Hs].
  - unfold count_of. rewrite !take_length, app_length, Lc. rewrite (proj2 (Nat.eqb_neq _ _)) by lia. cbn [rbind]. by eexists.
  - rewrite take_take, Nat.min_l by lia. rewrite take_app_alt by done. rewrite H2. cbn [rbind].
    rewrite py_read_take by lia. rewrite Nat2Z.id.
    edestruct (torn_rows (curve_step native o) (length l)) as [x Hx].
    3: { rewrite Hx. cbn [rbind]. by eexists. }
    + intros b' s i Hb. unfold curve_step. rewrite record_short by done. cbn [rbind]. by eexists.
    + rewrite take_length, drop_length, take_length. rewrite app_length in Ht |- *. lia.
Qed.
Lemma torn_table native o m b fuel t : re2_mesh m → foreign_ok native o m → (b < nbc m)%nat → (0 < t < length (btab o m b))%nat →
  ∃ x, bc_fields fuel native o b (Nat.max 1 b) (state_after m b) (take t (btab o m b)) = Raise x.
Proof.
  intros Hm Ho Hb Ht. destruct (bc_rows (nbc m) native o m b [] Hm Ho Hb Hb) as (H1 & H2 & H3 & H4). rewrite app_nil_r in H1.
  unfold btab in *. cbv zeta in *. set (l := entries (bsel (ndim m) b) (elems m)) in *. set (cb := f64_bytes o (f64_of_Z (Z.of_nat (length l)))) in *.
  set (buf := ((λ '(i, e, j), brec b i e j) <$> l) ≫= rec8_bytes o) in *.
  assert (length cb = 8%nat) as Lc by apply f64_bytes_length.
  destruct fuel as [|fuel]; [by eexists|]. cbn [bc_fields]. rewrite py_read_take by lia. change (Z.to_nat 8) with 8%nat.
  destruct (take 8 (take t (cb ++ buf))) as [|c0 cs] eqn:E.
  { exfalso. apply (f_equal length) in E. rewrite !take_length, app_length in E. cbn [length] in E. lia. }
  destruct (if (0 <? b)%nat then _ else _) as [es nb]. rewrite <- E. clear E.
  destruct (decide (t < 8)%nat) as [Hs|Hs].
  - unfold count_of. rewrite !take_length, app_length, Lc. rewrite (proj2 (Nat.eqb_neq _ _)) by lia. cbn [rbind]. by eexists.
  - rewrite take_take, Nat.min_l by lia. rewrite take_app_alt by done. rewrite H2. cbn [rbind].
    rewrite py_read_take by lia. rewrite Nat2Z.id.
    edestruct (torn_rows (bc_step native o b) (length l)) as [x Hx].
    3: { rewrite Hx. cbn [rbind]. by eexists. }
    + intros b' s i Hb'. unfold bc_step. rewrite record_short by done. cbn [rbind]. by eexists.
    + rewrite take_length, drop_length, take_length. rewrite app_length in Ht |- *. lia.
Qed.
Lemma btabs_cons o m b l : btabs o m (b :: l) = btab o m b ++ btabs o m l.
Proof. done. Qed.
Lemma torn_tables native o m k : re2_mesh m → foreign_ok native o m → ∀ b fuel t, (b + k ≤ nbc m)%nat → (t < length (btabs o m (seq b k)))%nat →
  (∃ j, (j < k)%nat ∧ t = length (btabs o m (seq b j))) ∨
  ∃ x, bc_fields fuel native o b (Nat.max 1 b) (state_after m b) (take t (btabs o m (seq b k))) = Raise x.
Proof.
  intros Hm Ho. induction k as [|k IH]; intros b fuel t Hk Ht; [cbn in Ht; lia|].
  destruct (decide (t = 0%nat)) as [->|Ht0]; [left; exists 0%nat; split; [lia|done]|].
  cbn [seq] in Ht |- *. rewrite btabs_cons in Ht |- *. rewrite app_length in Ht.
  destruct (decide (t < length (btab o m b))%nat) as [Hs|Hs].
  - right. rewrite take_app_le by lia. apply torn_table; (done || lia).
  - destruct (IH (S b) (pred fuel) (t - length (btab o m b))%nat ltac:(lia) ltac:(lia)) as [(j & Hj & Ej)|[x Hx]].
    + left. exists (S j). split; [lia|]. cbn [seq]. rewrite btabs_cons, app_length. lia.
    + right. destruct fuel as [|fuel]; [by eexists|]. cbn [pred] in Hx. exists x. rewrite <- Hx.
      rewrite take_app_ge by lia. apply (read_table (nbc m)); (done || lia).
Qed.
Lemma ctab_length o m : re2_mesh m → length (ctab o m) = (8 + 64 * n_curves m)%nat.
Proof.
  intros Hm. unfold ctab. rewrite app_length, f64_bytes_length, rows_length by (by apply crecs_ok). by rewrite fmap_length, n_curves_ok.
Qed.
Lemma btabs_length_eq o m k : re2_mesh m → (k ≤ nbc m)%nat →
  length (btabs o m (seq 0 k)) = sum_list ((λ b, 8 + 64 * n_external m b)%nat <$> seq 0 k).
Proof.
  intros Hm. induction k as [|k IH]; intros Hk; [done|]. rewrite seq_S.
  assert (btabs o m (seq 0 k ++ [(0 + k)%nat]) = btabs o m (seq 0 k) ++ btab o m k) as ->.
  { unfold btabs. rewrite bind_app. cbn. by rewrite app_nil_r. }
  rewrite app_length, IH, btab_length, n_external_ok, fmap_app by (done || lia).
  clear. generalize (seq 0 k). intros l. induction l as [|x l IH]; cbn; [lia|]. cbn in IH. unfold fmap in *. lia.
Qed.
Lemma file_prefix_length o m k : re2_mesh m → (k ≤ nbc m)%nat →
  re2_offset m k = (length (re2_header (Z.of_nat (nel m)) (Z.of_nat (ndim m)) ++ f32_bytes o (narrow tag64)) + length (geom o m) + length (ctab o m) + length (btabs o m (seq 0 k)))%nat.
Proof.
  intros Hm Hk. unfold re2_offset. rewrite app_length, header_length, f32_bytes_length, geom_length, ctab_length, btabs_length_eq; try done.
  - unfold cnt. lia.
  - destruct (rm_nel _ Hm). lia.
  - destruct (rm_ndim _ Hm) as [-> | ->]; lia.
Qed.
Lemma file_length o m : re2_mesh m → length (re2_file o m) = re2_offset m (nbc m).
Proof. intros Hm. rewrite (file_prefix_length o) by done. unfold re2_file. rewrite !app_length. unfold range. lia. Qed.
Theorem torn_file native o m t : re2_mesh m → foreign_ok native o m → (t < length (re2_file o m))%nat →
  (∃ k, (k < nbc m)%nat ∧ t = re2_offset m k) ∨ ∃ x, readre2 native (take t (re2_file o m)) = Raise x.
Proof.
  intros Hm Ho Ht. destruct (rm_nel _ Hm) as [Hl Hn]. pose proof (rm_ndim _ Hm) as Hnd.
  pose proof (file_prefix_length o m) as Hoff. rewrite (file_length o m Hm), (Hoff (nbc m) Hm ltac:(lia)) in Ht.
  assert (length (re2_header (Z.of_nat (nel m)) (Z.of_nat (ndim m))) = 80%nat) as LH by (apply header_length; [lia|destruct Hnd as [-> | ->]; lia]).
  assert (length (f32_bytes o (narrow tag64)) = 4%nat) as LT by apply f32_bytes_length.
  rewrite app_length, LH, LT in Ht.
  destruct (decide (t < 84)%nat) as [H84|H84]; [right; apply torn_tag; rewrite take_length; lia|].
  assert (take t (re2_file o m) = re2_header (Z.of_nat (nel m)) (Z.of_nat (ndim m)) ++ f32_bytes o (narrow tag64) ++
    take (t - 84) (geom o m ++ ctab o m ++ btabs o m (range (nbc m)))) as ->.
  { unfold re2_file. rewrite take_app_ge, take_app_ge by lia. rewrite LH, LT. do 3 f_equal. lia. }
  rewrite read_header_tag by done. set (t1 := (t - 84)%nat).
  destruct (decide (t1 < length (geom o m))%nat) as [Hg|Hg].
  { right. apply torn_geometry. rewrite take_length, <- (geom_length o m Hm). lia. }
  rewrite take_app_ge by lia. rewrite read_geometry by done. set (t2 := (t1 - length (geom o m))%nat).
  destruct (decide (t2 < length (ctab o m))%nat) as [Hc|Hc].
  { right. rewrite take_app_le by lia. by apply torn_curves. }
  rewrite take_app_ge by lia. rewrite (read_curves (nbc m)) by done. rewrite state_after_0. set (t3 := (t2 - length (ctab o m))%nat).
  edestruct (torn_tables native o m (nbc m) Hm Ho 0 (S (length (take t3 (btabs o m (range (nbc m)))))) t3) as [(j & Hj & Ej)|[x Hx]]; [lia| | |].
  - unfold t3, t2, t1. lia.
  - left. exists j. split; [done|]. rewrite Hoff by (done || lia). rewrite app_length, LH, LT. unfold t3, t2, t1 in *. lia.
  - right. fold (range (nbc m)) in Hx. change (Nat.max 1 0) with 1%nat in Hx. rewrite Hx. cbn [rbind]. by eexists.
Qed.

(** The mesh with the conditions of the first [k] fields only. *)
Definition first_fields (k : nat) (m : mesh64) : mesh64 :=
  Hexa (ndim m) (nel m) (ncurv m) k (var m) (lr1kind m) (lr1 m) (time m) (istep m) (wdsz m) (endian m)
    ((λ e, set_bcs (take k (bcs e)) e) <$> elems m) (elmap m).
Lemma first_fields_ok k m : re2_mesh m → (k ≤ nbc m)%nat → re2_mesh (first_fields k m).
Proof.
  intros Hm Hk. split; cbn [ndim lr1kind lr1 var nel elems nbc first_fields].
  - apply (rm_ndim _ Hm).
  - apply (rm_lr1 _ Hm).
  - apply (rm_var _ Hm).
  - rewrite fmap_length. apply (rm_nel _ Hm).
  - rewrite Forall_fmap. eapply Forall_impl; [apply (rm_elems _ Hm)|]. intros e He. cbn [compose].
    split; cbn [eshape pos curv ccurv bcs set_bcs]; try apply He.
    + destruct (re_bcs _ _ _ He) as [L F]. split; [rewrite take_length; lia|]. by apply Forall_take.
    + intros b f r x Hr Hx. destruct (decide (b < k)%nat); [|rewrite lookup_take_ge in Hr by lia; done].
      rewrite lookup_take in Hr by done. exact (re_types _ _ _ He _ _ _ _ Hr Hx).
Qed.
Lemma entries_map {E F} (g : E → F) (sel : E → list nat) (sel' : F → list nat) es {X} (h : nat * E * nat → X) (h' : nat * F * nat → X) :
  (∀ e, e ∈ es → sel' (g e) = sel e) → (∀ i e j, e ∈ es → h' (i, g e, j) = h (i, e, j)) →
  h' <$> entries sel' (g <$> es) = h <$> entries sel es.
Proof.
  induction es as [|e es IH] using rev_ind; intros H1 H2; [done|]. rewrite fmap_app. cbn [fmap list_fmap].
  rewrite !entries_snoc, !fmap_app, IH by (intros; (apply H1 || apply H2); set_solver). f_equal.
  rewrite H1 by set_solver. rewrite fmap_length, <- !list_fmap_compose. apply list_fmap_ext. intros i j _. cbn [compose]. apply H2. set_solver.
Qed.
Lemma entries_map_length {E F} (g : E → F) (sel : E → list nat) (sel' : F → list nat) es :
  (∀ e, e ∈ es → sel' (g e) = sel e) → length (entries sel' (g <$> es)) = length (entries sel es).
Proof.
  intros H. pose proof (entries_map g sel sel' es (λ _, tt) (λ _, tt) H ltac:(done)) as G.
  apply (f_equal length) in G. by rewrite !fmap_length in G.
Qed.
Lemma first_fields_file o k m : re2_mesh m → (k ≤ nbc m)%nat → re2_file o (first_fields k m) = take (re2_offset m k) (re2_file o m).
Proof.
  intros Hm Hk.
  assert (geom o (first_fields k m) = geom o m) as EG.
  { unfold geom. cbn [elems first_fields ndim]. generalize (elems m). intros es. induction es as [|e es IH]; [done|].
    cbn [fmap list_fmap mbind list_bind]. f_equal. exact IH. }
  assert (ctab o (first_fields k m) = ctab o m) as EC.
  { unfold ctab. cbn [elems first_fields]. rewrite (entries_map_length _ csel csel) by done. f_equal. f_equal.
    by apply (entries_map (λ e, set_bcs (take k (bcs e)) e) csel csel). }
  assert (∀ b, (b < k)%nat → btab o (first_fields k m) b = btab o m b) as EB.
  { intros b Hb. assert (∀ e f, bc_nth b (set_bcs (take k (bcs e)) e) f = bc_nth b e f) as En.
    { intros e f. unfold bc_nth. cbn [bcs set_bcs]. f_equal. rewrite !nth_lookup, lookup_take by done. done. }
    unfold btab. cbn [elems first_fields ndim].
    assert (∀ e, bsel (ndim m) b (set_bcs (take k (bcs e)) e) = bsel (ndim m) b e) as Es.
    { intros e. unfold bsel. apply select_ext. intros j _. by rewrite En. }
    rewrite (entries_map_length _ (bsel (ndim m) b)) by done. f_equal. f_equal.
    apply entries_map; [done|]. intros i e j _. unfold brec. by rewrite En. }
  rewrite (file_prefix_length o m k Hm Hk). unfold re2_file. rewrite EG, EC. cbn [ndim nel nbc first_fields].
  rewrite !(app_assoc _ (f32_bytes o (narrow tag64))). rewrite !(app_assoc _ (geom o m)). rewrite !(app_assoc _ (ctab o m)).
  rewrite <- !app_length. rewrite take_app_ge. 2: { rewrite !app_length. lia. } f_equal.
  rewrite !app_length. match goal with |- _ = take (?a + ?b - ?a) _ => replace (a + b - a)%nat with b by lia end.
  unfold btabs at 1. rewrite (bind_ext _ (btab o m)). 2: { intros b Hb. apply elem_of_range in Hb. by apply EB. }
  replace (range (nbc m)) with (range k ++ seq k (nbc m - k)). 2: { unfold range. rewrite <- seq_app. f_equal. lia. }
  unfold btabs. rewrite bind_app. unfold range. rewrite take_app. done.
Qed.

(** The fuel of [bc_fields] does not matter. *)
Lemma bc_fields_fuel native o : ∀ fuel fuel' b nb es l, (length l < fuel)%nat → (length l < fuel')%nat →
  bc_fields fuel native o b nb es l = bc_fields fuel' native o b nb es l.
Proof.
  induction fuel as [|fuel IH]; intros [|fuel'] b nb es l H1 H2; try lia. cbn [bc_fields].
  rewrite py_read_take by lia. change (Z.to_nat 8) with 8%nat.
  destruct (take 8 l) as [|c cs] eqn:E; [done|]. destruct (if (0 <? b)%nat then _ else _) as [es' nb'].
  rewrite <- E. destruct (count_of native (take 8 l)) as [n|] eqn:En; [|done]. cbn [rbind].
  assert (length (take 8 l) = 8%nat) as L by (unfold count_of in En; destruct (Nat.eqb_spec (length (take 8 l)) 8); done).
  assert (length (py_read (8 * (8 * n)) (drop 8 l)).2 ≤ length l - 8)%nat as Hr.
  { unfold py_read. destruct (8 * (8 * n) <? 0); cbn [snd length]; [lia|]. rewrite !drop_length. lia. }
  destruct (py_read (8 * (8 * n)) (drop 8 l)) as [buf l']. cbn [snd] in Hr. rewrite take_length in L.
  destruct (foldM (bc_step native o b buf) es' (range (Z.to_nat n))); [|done]. cbn [rbind]. apply IH; lia.
Qed.
Lemma no_tables native o m : re2_mesh m → n_curves m = 0%nat → (∀ b, (b < nbc m)%nat → n_external m b = 0%nat) → foreign_ok native o m.
Proof.
  intros Hm Hc Hb. right. split.
  - apply nil_length_inv. by rewrite n_curves_ok.
  - intros b Hlt. apply nil_length_inv. rewrite n_external_ok by done. by apply Hb.
Qed.

(** ** Counts in the other byte order *)
Lemma of_Z_low_bytes n : 0 < n < 2 ^ 31 → bits_of_b64 (f64_of_Z n) mod 2 ^ 16 = 0.
Proof.
  intros Hn. destruct (f64_of_Z_correct n ltac:(unfold bnd64; lia)) as (HR & HF & HS).
  rewrite (proj2 (Z.ltb_ge n 0)) in HS by lia.
  destruct (f64_of_Z n) as [s|s|s pl H|s m e H]; cbn in HF; try discriminate.
  - cbn in HR. apply eq_IZR in HR. lia.
  - cbn in HS. subst s. cbn [B2R cond_Zopp] in HR. pose proof H as Hb. unfold SpecFloat.bounded in Hb. apply andb_prop in Hb as [Hc _].
    apply canonical_canonical_mantissa with (sx := false) in Hc. unfold canonical in Hc. cbn [Fexp cond_Zopp] in Hc. unfold cexp in Hc.
    rewrite HR in Hc.
    assert (mag radix2 (IZR n) <= 31) as Hmag.
    { apply mag_le_bpow; [apply IZR_neq; lia|]. rewrite <- abs_IZR. change (bpow radix2 31) with (IZR (2 ^ 31)). apply IZR_lt. lia. }
    assert (e <= -22) as He. { rewrite Hc. unfold SpecFloat.fexp, SpecFloat.emin. lia. }
    assert (Zpos m = n * 2 ^ (- e)) as Hm.
    { apply eq_IZR. rewrite mult_IZR, <- HR. rewrite (IZR_Zpower radix2) by lia. unfold F2R. cbn [Fnum Fexp].
      rewrite Rmult_assoc, <- bpow_plus. replace (e + - e) with 0 by lia. cbn [bpow]. ring. }
    assert (Zpos m mod 2 ^ 16 = 0) as Hm0.
    { rewrite Hm. replace (- e) with ((- e - 16) + 16) by lia. rewrite Z.pow_add_r by lia. rewrite Z.mul_assoc. apply Z_mod_mult. }
    unfold bits_of_b64, bits_of_binary_float.
    destruct (0 <=? Z.pos m - 2 ^ 52); unfold join_bits; rewrite Z.shiftl_mul_pow2 by lia;
      (rewrite Z.add_mod by lia; replace (2 ^ 52) with (2 ^ 36 * 2 ^ 16) by lia; rewrite Z.mul_assoc, Z_mod_mult).
    + rewrite Z.add_0_l, Zmod_mod, Zminus_mod, Hm0, Z_mod_mult. done.
    + by rewrite Z.add_0_l, Zmod_mod.
Qed.
Lemma swap_low_bytes native z : z mod 2 ^ 16 = 0 → 0 <= unword native (word (flip native) 8 z) < 2 ^ 48.
Proof.
  intros Hz. assert (∃ r, to_le 8 z = Ascii.zero :: Ascii.zero :: r ∧ length r = 6%nat) as (r & Hr & Lr).
  { exists (to_le 6 (z / 256 / 256)). split; [|apply to_le_length]. cbn [to_le].
    replace (z mod 256) with 0. 2: { change 256 with (2 ^ 8). pose proof (Z.div_mod z (2 ^ 16) ltac:(lia)) as D. rewrite Hz in D.
      rewrite D. replace (2 ^ 16 * (z / 2 ^ 16) + 0) with (2 ^ 8 * (z / 2 ^ 16) * 2 ^ 8) by lia. by rewrite Z_mod_mult. }
    replace ((z / 256) mod 256) with 0; [done|]. pose proof (Z.div_mod z (2 ^ 16) ltac:(lia)) as D. rewrite Hz in D.
    rewrite D. replace (2 ^ 16 * (z / 2 ^ 16) + 0) with (z / 2 ^ 16 * 256 * 256) by lia. rewrite Z_div_mult by lia. by rewrite Z_mod_mult. }
  assert (0 <= from_le (rev (to_le 8 z)) < 2 ^ 48) as H.
  { rewrite Hr. cbn [rev]. rewrite <- app_assoc. cbn [app].
    assert (∀ l, from_le (l ++ [Ascii.zero; Ascii.zero]) = from_le l) as G.
    { intros l. induction l as [|c l IH]; [done|]. cbn [app from_le]. by rewrite IH. }
    rewrite G. pose proof (from_le_range (rev r)) as R. rewrite rev_length, Lr in R. exact R. }
  unfold unword, word. destruct native; exact H.
Qed.
Lemma tiny_trunc z : 0 <= z < 2 ^ 48 → f64_trunc (b64_of_bits z) = Ok 0.
Proof.
  intros Hz. assert (is_finite 53 1024 (b64_of_bits z) = true ∧ (0 <= B2R 53 1024 (b64_of_bits z) < 1)%R) as [HF HR].
  { unfold b64_of_bits, binary_float_of_bits. rewrite is_finite_FF2B, B2R_FF2B. unfold binary_float_of_bits_aux, split_bits.
    rewrite (proj2 (Z.leb_gt (2 ^ 52 * 2 ^ 11) z)) by lia. rewrite (Z.div_small z (2 ^ 52)) by lia. rewrite (Z.mod_small z (2 ^ 52)) by lia.
    rewrite Zmod_0_l. cbn [Zeq_bool Z.compare]. destruct z as [|p|p]; [|split; [done|]|lia].
    - split; [done|]. cbn. lra.
    - cbn [FF2R cond_Zopp]. unfold F2R. cbn [Fnum Fexp]. change (SpecFloat.emin (52 + 1) (2 ^ (11 - 1))) with (-1074).
      split; [apply Rmult_le_pos; [apply IZR_le; lia|apply bpow_ge_0]|].
      apply Rlt_le_trans with (bpow radix2 48 * bpow radix2 (-1074))%R.
      + apply Rmult_lt_compat_r; [apply bpow_gt_0|]. change (bpow radix2 48) with (IZR (2 ^ 48)). apply IZR_lt. lia.
      + rewrite <- bpow_plus. change 1%R with (bpow radix2 0). apply bpow_le. lia. }
  pose proof (Btrunc_correct 53 1024 emax1024 (b64_of_bits z)) as H.
  assert (Btrunc 53 1024 (b64_of_bits z) = 0) as HE.
  { apply eq_IZR. rewrite H. unfold round, F2R, scaled_mantissa, cexp, FIX_exp. cbn [Fnum Fexp bpow Z.opp]. rewrite !Rmult_1_r.
    f_equal. rewrite Ztrunc_floor by lra. apply Zfloor_imp. exact HR. }
  unfold f64_trunc. destruct (b64_of_bits z); cbn in HF; try discriminate; by rewrite HE.
Qed.
Lemma foreign_count native n : (0 < n)%nat → Z.of_nat n < 2 ^ 31 → count_of native (f64_bytes (flip native) (f64_of_Z (Z.of_nat n))) = Ok 0.
Proof.
  intros H0 Hn. unfold count_of. rewrite f64_bytes_length. cbn [Nat.eqb]. unfold f64_read, f64_bytes.
  apply tiny_trunc, swap_low_bytes, of_Z_low_bytes. lia.
Qed.
(** The reading of conditions never touches the curves, nor the rows of earlier fields. *)
Definition kept (b : nat) (e e' : elem f64) : Prop :=
  ccurv e' = ccurv e ∧ ∀ i r, (i < b)%nat → bcs e !! i = Some r → bcs e' !! i = Some r.
Lemma kept_refl b e : kept b e e.
Proof. done. Qed.
Lemma kept_all b (es : list (elem f64)) : Forall2 (kept b) es es.
Proof. apply Forall_Forall2_diag, Forall_true. apply kept_refl. Qed.
Lemma kept_trans b es1 es2 es3 : Forall2 (kept b) es1 es2 → Forall2 (kept b) es2 es3 → Forall2 (kept b) es1 es3.
Proof.
  intros H1 H2. eapply Forall2_transitive; [|exact H1|exact H2]. intros x y z [A1 A2] [B1 B2]. split; [congruence|]. eauto.
Qed.
Lemma bc_step_kept native o b buf es i es' : bc_step native o b buf es i = Ok es' → Forall2 (kept b) es es'.
Proof.
  unfold bc_step. destruct (record o buf i) as [ws|]; [|done]. cbn [rbind].
  destruct (ntrunc (a:=A64) (nth 0 ws z64)) as [iel|]; [|done]. cbn [rbind]. destruct (ntrunc (a:=A64) (nth 1 ws z64)) as [ifc|]; [|done]. cbn [rbind].
  destruct (decode (scalar_bytes native ws)) as [t|]; [|done]. cbn [rbind]. destruct (py_pos (length es) (iel - 1)) as [p|]; [|done]. cbn [of_opt rbind].
  destruct (es !! p) as [e|] eqn:Ee; [|done]. cbn [of_opt rbind]. destruct (bcs e !! b) as [row|] eqn:Er; [|done]. cbn [of_opt rbind].
  destruct (py_pos (length row) (ifc - 1)) as [j|]; [|done]. cbn [of_opt rbind]. intros [= <-].
  apply Forall2_same_length_lookup. split; [by rewrite insert_length|]. intros q x y Hx Hy.
  destruct (decide (q = p)) as [->|Hq].
  - rewrite list_lookup_insert in Hy by (by eapply lookup_lt_Some). simplify_eq. split; [done|]. intros k r Hk Hr. cbn [bcs set_bcs].
    rewrite list_lookup_insert_ne by lia. done.
  - rewrite list_lookup_insert_ne in Hy by done. simplify_eq. apply kept_refl.
Qed.
Lemma foldM_kept native o b buf l : ∀ es es', foldM (bc_step native o b buf) es l = Ok es' → Forall2 (kept b) es es'.
Proof.
  induction l as [|i l IH]; intros es es' H; cbn [foldM] in H; [injection H as <-; apply kept_all|].
  destruct (bc_step native o b buf es i) as [es1|] eqn:E; [|done]. cbn [rbind] in H.
  eapply kept_trans; [by eapply bc_step_kept|by apply IH].
Qed.
Lemma kept_weaken b b' es es' : (b' ≤ b)%nat → Forall2 (kept b) es es' → Forall2 (kept b') es es'.
Proof. intros Hb H. eapply Forall2_impl; [exact H|]. intros x y [A B]. split; [done|]. intros i r Hi. apply B. lia. Qed.
Lemma more_bcs_kept b es : Forall2 (kept b) es (more_bcs <$> es).
Proof.
  apply Forall2_fmap_r, Forall_Forall2_diag, Forall_true. intros e. split; [done|]. intros i r _ Hr. unfold more_bcs. cbn [bcs set_bcs].
  by apply lookup_app_l_Some.
Qed.
Lemma bc_fields_kept native o : ∀ fuel b nb es l es' nb', bc_fields fuel native o b nb es l = Ok (es', nb') → Forall2 (kept b) es es'.
Proof.
  induction fuel as [|fuel IH]; intros b nb es l es' nb' H; [done|]. cbn [bc_fields] in H.
  destruct (py_read 8 l) as [cb l1]. destruct cb as [|c cb]; [injection H as <- <-; apply kept_all|].
  destruct (if (0 <? b)%nat then (more_bcs <$> es, S nb) else (es, nb)) as [es1 nb1] eqn:E1.
  assert (Forall2 (kept b) es es1) as K1.
  { destruct (0 <? b)%nat; injection E1 as <- <-; [apply more_bcs_kept|apply kept_all]. }
  destruct (count_of native (c :: cb)) as [n|]; [|done]. cbn [rbind] in H. destruct (py_read (8 * (8 * n)) l1) as [buf l2].
  destruct (foldM (bc_step native o b buf) es1 (range (Z.to_nat n))) as [es2|] eqn:E2; [|done]. cbn [rbind] in H.
  eapply kept_trans; [exact K1|]. eapply kept_trans; [by eapply foldM_kept|]. eapply kept_weaken; [|by eapply IH]. lia.
Qed.
Lemma kept_ccurv b (es es' : list (elem f64)) : Forall2 (kept b) es es' → ccurv <$> es' = ccurv <$> es.
Proof. induction 1 as [|x y l l' [H _] _ IH]; [done|]. cbn [fmap list_fmap]. f_equal; [done|exact IH]. Qed.

(** A mesh with curves, written in the other byte order, is read without them. *)
Lemma small_tables (m : mesh64) (sel : elem f64 → list nat) : re2_mesh m → (∀ e, (length (sel e) ≤ 12)%nat) →
  Z.of_nat (length (entries sel (elems m))) < 2 ^ 31.
Proof.
  intros Hm H. destruct (rm_nel _ Hm) as [Hl Hn]. pose proof (entries_length_le sel (elems m) 12 (λ e _, H e)) as Hle.
  rewrite Hl in Hle. change (10 ^ 8) with 100000000 in Hn. lia.
Qed.
Lemma foreign_curves native m m' : re2_mesh m → (0 < n_curves m)%nat → readre2 native (re2_file (flip native) m) = Ok m' →
  ccurv <$> elems m' = replicate (nel m) (replicate 12 ""%string).
Proof.
  intros Hm Hc. unfold re2_file. rewrite read_header_tag; [|apply (rm_nel _ Hm)|apply (rm_ndim _ Hm)]. rewrite read_geometry by done.
  rewrite <- n_curves_ok in Hc by done. unfold ctab, from_curves. rewrite <- app_assoc.
  rewrite py_read_app by (rewrite f64_bytes_length; done).
  rewrite foreign_count; [|done|apply small_tables; [done|intros; apply select_length_le]]. cbn [rbind].
  destruct (py_read _ _) as [buf l5]. change (range (Z.to_nat 0)) with (@nil nat). cbn [foldM rbind].
  destruct (bc_fields _ _ _ _ _ _ _) as [[es nb]|] eqn:E; [|done]. cbn [rbind]. intros [= <-]. cbn [elems].
  apply bc_fields_kept, kept_ccurv in E. rewrite E. unfold after_geometry. rewrite <- list_fmap_compose.
  destruct (rm_nel _ Hm) as [<- _]. clear. induction (elems m) as [|e es IH]; [done|]. cbn [fmap list_fmap length replicate]. f_equal. exact IH.
Qed.
(** A mesh without curves whose first external conditions are in field [b]: they are all lost. *)
Lemma foreign_conditions native m m' b : re2_mesh m → n_curves m = 0%nat → (b < nbc m)%nat → (0 < n_external m b)%nat →
  (∀ b', (b' < b)%nat → n_external m b' = 0%nat) → readre2 native (re2_file (flip native) m) = Ok m' →
  ∀ p e', elems m' !! p = Some e' → bcs e' !! b = Some zero_row.
Proof.
  intros Hm Hc Hb Hx H0. set (o := flip native). assert (foreign_upto b native o m) as Ho.
  { right. split; [apply nil_length_inv; by rewrite n_curves_ok|]. intros b' Hb'. apply nil_length_inv. rewrite n_external_ok by (done || lia). by apply H0. }
  unfold re2_file. rewrite read_header_tag; [|apply (rm_nel _ Hm)|apply (rm_ndim _ Hm)]. rewrite read_geometry, (read_curves b) by done.
  rewrite state_after_0. set (l5 := btabs o m (range (nbc m))).
  pose proof (btabs_length o m 0 (nbc m) Hm ltac:(lia)) as Hlen. fold (range (nbc m)) in Hlen. fold l5 in Hlen.
  replace (S (length l5)) with (b + S (length l5 - b))%nat by lia.
  assert (l5 = btabs o m (seq 0 b) ++ btab o m b ++ btabs o m (seq (S b) (nbc m - S b))) as E5.
  { unfold l5, btabs, range. replace (nbc m) with (b + S (nbc m - S b))%nat at 1 by lia. rewrite seq_app, bind_app. done. }
  pose proof (read_tables b native o m (S (length l5 - b)) 0 b (btab o m b ++ btabs o m (seq (S b) (nbc m - S b))) Hm Ho ltac:(lia) ltac:(lia)) as R.
  rewrite <- E5 in R. change (Nat.max 1 0) with 1%nat in R. rewrite R. clear R. cbn [Nat.add bc_fields].
  rewrite <- n_external_ok in Hx by done. unfold btab. rewrite <- app_assoc. rewrite py_read_app by (rewrite f64_bytes_length; done).
  assert (∀ e, (length (bsel (ndim m) b e) ≤ 12)%nat) as H12.
  { intros e. etransitivity; [apply select_length_le|]. destruct (rm_ndim _ Hm) as [-> | ->]; lia. }
  pose proof (foreign_count native _ Hx (small_tables m (bsel (ndim m) b) Hm H12)) as HC.
  fold o in HC. match goal with |- context [f64_bytes o ?x] => set (cb := f64_bytes o x) in * end.
  assert (length cb = 8%nat) as Lcb by apply f64_bytes_length. destruct cb as [|c0 cb]; [done|].
  pose proof (ready m b Hm Hb) as HR. destruct (if (0 <? b)%nat then (more_bcs <$> _, _) else _) as [es1 nb1] eqn:E1.
  assert (es1 = state_ready m b) as ->. { rewrite <- HR. destruct (0 <? b)%nat; by injection E1 as <- _. }
  rewrite HC. cbn [rbind]. destruct (py_read _ _) as [buf l6]. change (range (Z.to_nat 0)) with (@nil nat). cbn [foldM rbind].
  destruct (bc_fields _ _ _ _ _ _ l6) as [[es nb]|] eqn:E; [|done]. cbn [rbind]. intros [= <-]. cbn [elems]. intros p e' He'.
  apply bc_fields_kept in E. destruct (Forall2_lookup_r _ _ _ _ _ E He') as (e & He & _ & K). apply K; [lia|].
  unfold state_ready in He. rewrite list_lookup_imap in He. apply fmap_Some in He as (x & Hxx & ->). cbn [elem_ready bcs set_bcs].
  apply list_lookup_middle. symmetry. apply (norm_rows_length _ (nbc m)); [|lia]. pose proof (rm_elems _ Hm) as HF. rewrite Forall_forall in HF.
  apply HF. by eapply elem_of_list_lookup_2.
Qed.
Lemma first_external m : (∃ b, (b < nbc m)%nat ∧ n_external m b ≠ 0%nat) →
  ∃ b, (b < nbc m)%nat ∧ (0 < n_external m b)%nat ∧ ∀ b', (b' < b)%nat → n_external m b' = 0%nat.
Proof.
  intros (b & Hb & Hn). induction b as [b IH] using lt_wf_ind.
  destruct (decide (Forall (λ b', n_external m b' = 0%nat) (seq 0 b))) as [HF|HF].
  - exists b. split; [done|]. split; [lia|]. intros b' Hb'. rewrite Forall_forall in HF. apply HF. apply elem_of_seq. lia.
  - apply not_Forall_Exists in HF; [|apply _]. apply Exists_exists in HF as (b' & Hin & Hn'). apply elem_of_seq in Hin. apply (IH b'); [lia|lia|done].
Qed.
Lemma foreign_lost native m : re2_mesh m → n_curves m ≠ 0%nat ∨ (∃ b, (b < nbc m)%nat ∧ n_external m b ≠ 0%nat) →
  ¬ ∃ m', readre2 native (re2_file (flip native) m) = Ok m' ∧ same_mesh m' m.
Proof.
  intros Hm H (m' & Hr & Hs). destruct Hs as (_ & _ & _ & _ & Hlen & He). destruct (rm_nel _ Hm) as [Hl _].
  destruct (decide (n_curves m = 0%nat)) as [Hc|Hc].
  - destruct H as [?|H]; [done|]. destruct (first_external m H) as (b & Hb & Hx & H0).
    pose proof (foreign_conditions native m m' b Hm Hc Hb Hx H0 Hr) as Hz.
    rewrite <- n_external_ok in Hx by done. destruct (entries (bsel (ndim m) b) (elems m)) as [|[[p e] f] l] eqn:E; [cbn in Hx; lia|].
    assert ((p, e, f) ∈ entries (bsel (ndim m) b) (elems m)) as Hin by (rewrite E; left).
    apply elem_of_entries in Hin as [Hp Hf]. apply elem_of_select in Hf as [HE Hf].
    pose proof (rm_elems _ Hm) as HF. rewrite Forall_forall in HF.
    destruct (bc_at_ok _ _ e b f (HF e (elem_of_list_lookup_2 _ _ _ Hp)) Hb ltac:(destruct (rm_ndim _ Hm); lia)) as (r & x & Hrow & Hcol & _ & Hn & _ & _).
    rewrite Hn in HE. destruct (He p e Hp) as (e' & He' & _ & _ & Hcond).
    destruct (Hcond b f r x Hb Hf Hrow Hcol) as (r' & Hr' & Hx'). rewrite (Hz p e' He') in Hr'. injection Hr' as <-. rewrite HE in Hx'.
    unfold zero_row in Hx'. apply lookup_replicate in Hx' as [Hx' _]. unfold is_external in HE. assert (bt x = ""%string) as Ht by (by injection Hx').
    rewrite Ht in HE. done.
  - pose proof (foreign_curves native m m' Hm ltac:(lia) Hr) as Hz. rewrite <- n_curves_ok in Hc by done.
    destruct (entries csel (elems m)) as [|[[p e] f] l] eqn:E; [done|].
    assert ((p, e, f) ∈ entries csel (elems m)) as Hin by (rewrite E; left).
    apply elem_of_entries in Hin as [Hp Hf]. apply elem_of_select in Hf as [HE Hf].
    destruct (He p e Hp) as (e' & He' & _ & [Hcc _] & _).
    assert ((ccurv <$> elems m') !! p = Some (ccurv e)) as Hq by (rewrite list_lookup_fmap, He'; cbn; by rewrite Hcc).
    rewrite Hz in Hq. apply lookup_replicate in Hq as [Hq _]. unfold is_curved in HE. rewrite Hq in HE.
    rewrite (nth_lookup_Some (replicate 12 ""%string) f _ ""%string) in HE by (by apply lookup_replicate). done.
Qed.
