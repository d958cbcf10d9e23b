(** Proofs about rea files. *)
From Coq Require Import Lia Ascii Reals Lra.
From Flocq Require Import Core.Core IEEE754.BinarySingleNaN IEEE754.Binary IEEE754.Bits.
From Verif Require Import Base Float FloatLaws Mesh MeshLemmas Bytes BytesProofs Text TextProofs Decimal Field FieldSpec FieldProofs Re2 Re2Spec Re2Proofs Rea ReaSpec.
Open Scope Z_scope.

(** ** Numbers in columns *)
Lemma blank_length up p x : (1 ≤ p)%nat → leaves_blank x → (length (fmt_e up p x) ≤ p + 7)%nat.
Proof.
  intros Hp HB. destruct x as [s|s|s pl H|s m e H]; cbn [fmt_e].
  - rewrite app_length. destruct (sci_length up p 0 0 Hp) as [-> E]; [lia|]. change (ndigits (Z.abs 0)) with 1%nat.
    destruct s; cbn [sign_txt length]; lia.
  - destruct s, up; cbn; lia.
  - destruct up; cbn; lia.
  - pose proof (frac_of_spec m e) as HF. destruct (frac_of m e) as [num den]. destruct HF as (Hn & Hd & HF).
    destruct (decimal p num den) as [M k] eqn:ED. destruct (decimal_spec p num den M k Hn Hd ED) as (_ & HA & Hk).
    pose proof (dexp_spec num den Hn Hd) as HX. pose proof HX as HX'. rewrite HF in HX'. pose proof (finite_exp m e _ H HX') as Hfe.
    rewrite app_length. destruct (sci_length up p M k Hp) as [-> E]; [lia|]. destruct s; cbn [sign_txt length]; [|lia].
    assert (- B2R 53 1024 (B754_finite 53 1024 true m e H) = IZR num / IZR den)%R as HV.
    { cbn [B2R cond_Zopp]. rewrite HF. change (Z.neg m) with (- Z.pos m). rewrite F2R_Zopp. ring. }
    assert (0 < IZR num / IZR den)%R as Hpos by (apply Rdiv_lt_0_compat; by apply IZR_lt).
    destruct (HB eq_refl) as [B1 B2]; [lra|]. rewrite HV in B1, B2.
    assert (Z.abs k <= 99) as Hk99.
    { assert (- 99 < dexp num den + 1) as K1 by (apply (lt_bpow ten); lra).
      assert (dexp num den < 100) as K2.
      { apply (lt_bpow ten). apply Rle_lt_trans with (9 * bpow ten 99)%R; [lra|]. change 100 with (1 + 99). rewrite bpow_plus.
        pose proof (bpow_gt_0 ten 99). change (bpow ten 1) with 10%R. lra. }
      destruct Hk as [->|[-> EM]]; [lia|]. destruct (decide (dexp num den = 99)) as [E99|]; [|lia]. exfalso.
      rewrite EM, E99 in HA. rewrite IZR_pow10, <- bpow_plus in HA by lia.
      replace (Z.of_nat p + (99 + 1 - Z.of_nat p)) with (1 + 99) in HA by lia. rewrite bpow_plus in HA. change (bpow ten 1) with 10%R in HA.
      assert (bpow ten (99 + 1 - Z.of_nat p) <= bpow ten 99)%R as HP by (apply bpow_le; lia).
      apply Rabs_le_inv in HA. pose proof (bpow_gt_0 ten 99). lra. }
    assert (ndigits (Z.abs k) ≤ 2)%nat by (apply ndigits_le; [split; [lia|change (10 ^ Z.of_nat 2) with 100; lia]|lia]). lia.
Qed.
Lemma fl_length x : length (fl x) = 14%nat.
Proof. unfold fl. rewrite rjust_length. pose proof (fmt_e_length false 6 x ltac:(lia)). lia. Qed.
Lemma fl18_length x : leaves_blank x → length (fl18 x) = 18%nat.
Proof. intros H. unfold fl18. rewrite rjust_length. pose proof (blank_length false 11 x ltac:(lia) H). lia. Qed.
Lemma int_w_length w z : (length (dec_int z) ≤ w)%nat → length (int_w w z) = w.
Proof. intros H. unfold int_w. rewrite rjust_length. lia. Qed.
Lemma txt_rounded p x : rounded (S p) x (txt_value p x).
Proof.
  split; [|split].
  - destruct x; done.
  - intros s ->. done.
  - intros Hf. destruct (written p x Hf) as (M & k & _ & _ & _ & _ & HC & _ & _ & HN). by eexists.
Qed.

(** Slices of a line. *)
Lemma sl_app a b (A B R : bytes) : length A = a → length B = (b - a)%nat → sl a b (A ++ B ++ R) = B.
Proof. intros HA HB. unfold sl. rewrite drop_app_alt by done. by rewrite take_app_alt. Qed.
Lemma columns_ok {X} a w (A R : bytes) (xs : list X) (g : X → bytes) (v : X → f64) n : length A = a → n = length xs →
  (∀ x, x ∈ xs → length (g x) = w ∧ py_float (g x) = Ok (v x)) → columns a w n (A ++ (xs ≫= g) ++ R) = Ok (v <$> xs).
Proof.
  intros HA -> H. unfold columns. apply mapR_nth; [by rewrite fmap_length, length_range|].
  intros i k y Hk Hy. rewrite list_lookup_fmap in Hy. apply fmap_Some in Hy as (x & Hx & ->).
  assert (k = i) as -> by (unfold range in Hk; apply lookup_seq in Hk; lia).
  destruct (H x (elem_of_list_lookup_2 _ _ _ Hx)) as [HL HV]. rewrite <- HV. f_equal.
  rewrite <- (take_drop_middle xs i x Hx) at 1. rewrite bind_app. cbn [mbind list_bind]. rewrite <- !app_assoc. rewrite (app_assoc A).
  apply sl_app; [|lia]. rewrite app_length, HA. f_equal. rewrite (bind_length w).
  - rewrite take_length. apply lookup_lt_Some in Hx. lia.
  - intros y Hy. apply H. apply elem_of_take in Hy as (j & Hj & _). by eapply elem_of_list_lookup_2.
Qed.

(** ** Lines *)
Definition no_nl (l : bytes) : Prop := Forall (λ c, Ascii.eqb c nl = false) l.
Lemma no_nl_app l1 l2 : no_nl l1 → no_nl l2 → no_nl (l1 ++ l2).
Proof. intros. by apply Forall_app. Qed.
Lemma no_space_nl l : no_space l → no_nl l.
Proof.
  intros H. eapply Forall_impl; [exact H|]. intros c Hc. cbn in Hc. destruct (Ascii.eqb_spec c nl) as [->|]; [|done]. done.
Qed.
Lemma rjust_nl w l : no_nl l → no_nl (rjust w l).
Proof. intros H. apply no_nl_app; [|done]. apply Forall_replicate. done. Qed.
Lemma ljust_nl w l : no_nl l → no_nl (ljust w l).
Proof. intros H. apply no_nl_app; [done|]. apply Forall_replicate. done. Qed.
Lemma int_w_nl w z : no_nl (int_w w z).
Proof. apply rjust_nl, no_space_nl, dec_int_spec. Qed.
Lemma fl_nl x : no_nl (fl x).
Proof. apply rjust_nl, no_space_nl, fmt_e_text. Qed.
Lemma fl18_nl x : no_nl (fl18 x).
Proof. apply rjust_nl, no_space_nl, fmt_e_text. Qed.
Lemma bind_nl {X} (g : X → bytes) xs : (∀ x, no_nl (g x)) → no_nl (xs ≫= g).
Proof. intros H. induction xs as [|x xs IH]; [apply List.Forall_nil|]. cbn [mbind list_bind]. by apply no_nl_app. Qed.
Lemma plain_nl l : Forall plain l → no_nl l.
Proof.
  intros H. eapply Forall_impl; [exact H|]. intros c Hc. cbn in Hc. destruct (Ascii.eqb_spec c nl) as [->|]; [|done].
  destruct Hc as [Hc _]. vm_compute in Hc. by destruct Hc.
Qed.
Lemma lines_app s ls : no_nl s → lines (line s ++ ls) = line s :: lines ls.
Proof.
  intros H. unfold line. rewrite <- app_assoc. cbn [app]. induction H as [|c s Hc _ IH]; [done|].
  cbn [app lines]. rewrite Hc, IH. done.
Qed.
Definition is_line (l : bytes) : Prop := ∃ s, l = line s ∧ no_nl s.
Lemma lines_concat ls : Forall is_line ls → lines (concat ls) = ls.
Proof.
  induction 1 as [|l ls (s & -> & Hs) _ IH]; [done|]. cbn [concat]. rewrite lines_app by done. by rewrite IH.
Qed.
(** Reading one line per round. *)
Lemma with_lines_ok {S P X} (step : S → P → bytes → res S) (f : X → bytes) (g : S → X → S) (I : S → Prop) ps xs s rest :
  length ps = length xs → I s → (∀ i p x s, ps !! i = Some p → xs !! i = Some x → I s → step s p (f x) = Ok (g s x) ∧ I (g s x)) →
  with_lines step ps s ((f <$> xs) ++ rest) = Ok (foldl g s xs, rest) ∧ I (foldl g s xs).
Proof.
  revert ps s. induction xs as [|x xs IH]; intros [|p ps] s HL HI H; try done.
  cbn [fmap list_fmap app with_lines readline foldl]. destruct (H 0%nat p x s eq_refl eq_refl HI) as [-> HI']. cbn [rbind].
  apply IH; [by injection HL|done|]. intros i p' x' s' Hp Hx. by apply (H (Datatypes.S i)).
Qed.

(** ** Tokens *)
Lemma split_word_sp w c l : is_space c = true → no_space w → w ≠ [] → split (w ++ c :: l) = w :: split l.
Proof.
  intros Hsp H Hw. induction w as [|a w IH]; [done|]. apply Forall_cons in H as [Ha H].
  destruct w as [|a' w].
  - cbn [app split]. rewrite Ha, Hsp. destruct l; done.
  - cbn [app]. cbn [split]. rewrite Ha. pose proof H as H'. apply Forall_cons in H' as [Ha' _]. rewrite Ha'.
    change (a' :: w ++ c :: l) with ((a' :: w) ++ c :: l) in *.
    specialize (IH H ltac:(done)). cbn [app split] in IH. rewrite Ha' in IH. rewrite IH. done.
Qed.
Lemma split_rjust_sp n w c l : is_space c = true → no_space w → w ≠ [] → split (rjust n w ++ c :: l) = w :: split l.
Proof. intros Hc H Hw. unfold rjust. rewrite <- app_assoc, split_spaces. by apply split_word_sp. Qed.
Lemma split_chars l t c : t ∈ split l → c ∈ t → c ∈ l.
Proof.
  revert t. induction l as [|a l IH]; intros t Ht Hc; [inversion Ht|]. cbn [split] in Ht.
  destruct (is_space a); [right; by eapply IH|]. destruct l as [|a' l]; [apply elem_of_list_singleton in Ht as ->; done|].
  destruct (is_space a').
  - apply elem_of_cons in Ht as [->|Ht]; [apply elem_of_list_singleton in Hc as ->; left|right; by eapply IH].
  - destruct (split (a' :: l)) as [|t' ts] eqn:E.
    + apply elem_of_list_singleton in Ht as ->. apply elem_of_list_singleton in Hc as ->. left.
    + apply elem_of_cons in Ht as [->|Ht].
      * apply elem_of_cons in Hc as [->|Hc]; [left|]. right. apply (IH t'); [left|done].
      * right. apply (IH t); [by right|done].
Qed.
(** A line that lacks letters is no head of a field. *)
Lemma not_head (S l t : bytes) : NoDup S → S ⊆ str "BOUNDARY" → (length t < length S)%nat →
  (∀ c, c ∈ l → c ∈ t ∨ c ∉ S) → is_bc_head l = false.
Proof.
  intros HN HS Ht H. unfold is_bc_head. destruct (existsb _ (drop 2 (split l))) eqn:E; [|done]. exfalso.
  apply existsb_exists in E as (w & Hw & Ew). apply bool_decide_eq_true in Ew. subst w.
  apply elem_of_list_In, elem_of_list_lookup in Hw as (k & Hk). rewrite lookup_drop in Hk. apply elem_of_list_lookup_2 in Hk.
  assert (S ⊆ t) as Hst.
  { intros c Hc. destruct (H c) as [?|Hn]; [|done|done]. eapply split_chars; [exact Hk|]. by apply HS. }
  assert (length S ≤ length t)%nat; [|lia]. apply submseteq_length. by apply NoDup_submseteq.
Qed.
(** Characters that are no capital letters. *)
Definition small (c : ascii) : Prop := byte_val c < 65 ∨ 90 < byte_val c.
Definition smallb (c : ascii) : bool := (byte_val c <? 65) || (90 <? byte_val c).
Lemma small_b c : smallb c = true → small c.
Proof. intros H. apply orb_true_iff in H as [H|H]; [left|right]; by apply Z.ltb_lt. Qed.
Lemma digits_small l : Forall (λ c, is_digit c = true) l → Forall small l.
Proof.
  intros H. eapply Forall_impl; [exact H|]. intros c Hc. unfold is_digit, digit_val in Hc.
  destruct ((0 <=? byte_val c - 48) && (byte_val c - 48 <=? 9)) eqn:E; [|done]. apply andb_true_iff in E as [_ E]. apply Z.leb_le in E. left. lia.
Qed.
Lemma dec_int_small z : Forall small (dec_int z).
Proof.
  unfold dec_int, dec_nat. destruct (z <? 0); [apply Forall_cons; split; [by apply small_b|]|]; apply digits_small, digits_n_digits.
Qed.
Lemma spaces_small n : Forall small (replicate n sp).
Proof. apply Forall_replicate. by apply small_b. Qed.
Lemma rjust_small w l : Forall small l → Forall small (rjust w l).
Proof. intros H. apply Forall_app. split; [apply spaces_small|done]. Qed.
Lemma sci_small p M k : Forall small (sci false p M k).
Proof.
  unfold sci. pose proof (digits_small _ (digits_n_digits (S p) M)) as H. repeat (apply Forall_app; split).
  - by apply Forall_take.
  - destruct p; [done|]. apply Forall_cons. split; [by apply small_b|]. by apply Forall_drop.
  - apply Forall_cons. split; [by apply small_b|]. unfold dec_exp. apply Forall_cons. split; [by destruct (k <? 0); apply small_b|].
    apply digits_small, digits_n_digits.
Qed.
Lemma fmt_small p x : Forall small (fmt_e false p x).
Proof.
  assert (∀ s, Forall small (sign_txt s)) as Hs by (intros []; [apply Forall_singleton; by apply small_b|apply List.Forall_nil]).
  destruct x as [s|s|s pl H|s m e H]; cbn [fmt_e].
  - apply Forall_app. split; [apply Hs|apply sci_small].
  - apply Forall_app. split; [apply Hs|]. repeat (apply Forall_cons; split; [by apply small_b|]). apply List.Forall_nil.
  - repeat (apply Forall_cons; split; [by apply small_b|]). apply List.Forall_nil.
  - destruct (frac_of m e) as [num den]. destruct (decimal p num den) as [M k]. apply Forall_app. split; [apply Hs|apply sci_small].
Qed.
Lemma int_w_small w z : Forall small (int_w w z).
Proof. apply rjust_small, dec_int_small. Qed.
Lemma fl_small x : Forall small (fl x).
Proof. apply rjust_small, fmt_small. Qed.
Lemma fl18_small x : Forall small (fl18 x).
Proof. apply rjust_small, fmt_small. Qed.
Lemma bind_small {X} (g : X → bytes) xs : (∀ x, Forall small (g x)) → Forall small (xs ≫= g).
Proof. intros H. induction xs as [|x xs IH]; [apply List.Forall_nil|]. cbn [mbind list_bind]. by apply Forall_app. Qed.

(** ** Loops over elements *)
Lemma bind_concat {A B} (f : A → list B) l : l ≫= f = concat (f <$> l).
Proof. induction l as [|x l IH]; [done|]. cbn. f_equal. exact IH. Qed.
Lemma range_entries {E J X} (G : nat → list X) (F : nat * E * J → X) (sel : E → list J) (es : list E) n : n = length es →
  (∀ i e, es !! i = Some e → G i = (λ j, F (i, e, j)) <$> sel e) → range n ≫= G = F <$> entries sel es.
Proof.
  intros ->. induction es as [|e es IH] using rev_ind; intros H; [done|].
  rewrite entries_snoc, app_length, Nat.add_comm. cbn [length Nat.add]. rewrite range_snoc, bind_app, fmap_app, IH.
  - f_equal. cbn [mbind list_bind]. rewrite app_nil_r. rewrite (H (length es) e) by (by rewrite list_lookup_middle).
    rewrite <- list_fmap_compose. done.
  - intros i x Hx. apply H. by apply lookup_app_l_Some.
Qed.
Lemma with_lines_pos {S P X} (step : S → P → bytes → res S) (pos : X → P) (f : X → bytes) (g : S → X → S) (I : S → Prop) xs s rest :
  I s → (∀ x s, x ∈ xs → I s → step s (pos x) (f x) = Ok (g s x) ∧ I (g s x)) →
  with_lines step (pos <$> xs) s ((f <$> xs) ++ rest) = Ok (foldl g s xs, rest) ∧ I (foldl g s xs).
Proof.
  intros HI H. apply with_lines_ok; [by rewrite fmap_length|done|].
  intros i p x s' Hp Hx HI'. rewrite list_lookup_fmap, Hx in Hp. injection Hp as <-. apply H; [by eapply elem_of_list_lookup_2|done].
Qed.
Lemma alter_same {X} (f : X → X) (i : nat) (l : list X) : (∀ x, f x = x) → alter f i l = l.
Proof. intros H. apply list_alter_id. intros x. apply H. Qed.

(** ** Geometry *)
Definition cv (e : elem f64) (c : nat) (z y x : bool) : f64 := match corner e c z y x with Ok v => v | Raise _ => z64 end.
Definition gline (i : nat) (e : elem f64) (j : option (nat * nat)) : bytes :=
  match j with
  | None => line (str "           ELEMENT " ++ int_w 10 (Z.of_nat i + 1) ++ str " [  1a]    GROUP 1")
  | Some (z, c) => let z := (z =? 1)%nat in
    line (fl (cv e c z false false) ++ fl (cv e c z false true) ++ fl (cv e c z true true) ++ fl (cv e c z true false))
  end.
Definition gsel (nd : nat) : list (option (nat * nat)) := None :: (Some <$> prod2 (range (nd - 1)) (range nd)).
Definition gupd (e : elem f64) (j : option (nat * nat)) (x : elem f64) : elem f64 :=
  match j with
  | None => x
  | Some (z, c) => let zb := (z =? 1)%nat in let V y x := txt_value 6 (cv e c zb y x) in
    set_pos (alter (set_quad [z64; V false false; V false true; V true true; V true false] (eshape x) 0 z) c (pos x)) x
  end.
Definition rfresh (nd nb : nat) : elem f64 := new_elem z64 [nd; 0; 0; 0; 0]%nat (2, 2, nd - 1)%nat nb.
Definition norm_rpos (nd : nat) (e : elem f64) : list (list f64) :=
  (λ c, if (c <? nd)%nat then
     (if (nd =? 2)%nat then [false] else [false; true]) ≫= λ z, [false; true] ≫= λ y, (λ x, txt_value 6 (cv e c z y x)) <$> [false; true]
   else replicate 4 z64) <$> range 3.
Definition dim23 (nd : nat) : Prop := nd = 2%nat ∨ nd = 3%nat.
Lemma quad_ok nd nb ne e z c : dim23 nd → rea_elem nd nb ne e → (z < nd - 1)%nat → (c < nd)%nat → ∀ y x,
  corner e c (z =? 1)%nat y x = Ok (cv e c (z =? 1)%nat y x) ∧ leaves_blank (cv e c (z =? 1)%nat y x).
Proof.
  intros Hnd He Hz Hc y x. destruct (ra_pos _ _ _ _ He c (z =? 1)%nat y x Hc) as (v & Hv & Hb).
  - intros ->. destruct z as [|[|]]; [done| |]; lia.
  - unfold cv. by rewrite Hv.
Qed.
Lemma geometry_lines_ok m i e : rea_mesh m → elems m !! i = Some e → geometry_lines m i = (λ j, Ok (gline i e j)) <$> gsel (ndim m).
Proof.
  intros Hm He. pose proof (Forall_lookup_1 _ _ _ _ (rw_elems _ Hm) He) as Hr. unfold geometry_lines, gsel. cbn [fmap list_fmap]. f_equal.
  unfold elem_at. rewrite He. cbn [of_opt rbind].
  pose proof (λ z c, quad_ok _ _ _ e z c (rw_ndim _ Hm) Hr) as Q.
  assert (∀ z c, (z < ndim m - 1)%nat → (c < ndim m)%nat → quad_line e c (z =? 1)%nat = Ok (gline i e (Some (z, c)))) as QL.
  { intros z c Hz Hc. specialize (Q z c Hz Hc). unfold quad_line. rewrite !(proj1 (Q _ _)). done. }
  destruct (rw_ndim _ Hm) as [E|E]; rewrite E in *.
  - cbn [prod2 range seq Nat.sub mbind list_bind fmap list_fmap app].
    rewrite <- (QL 0%nat 0%nat), <- (QL 0%nat 1%nat) by lia. done.
  - cbn [prod2 range seq Nat.sub mbind list_bind fmap list_fmap app].
    rewrite <- (QL 0%nat 0%nat), <- (QL 0%nat 1%nat), <- (QL 0%nat 2%nat), <- (QL 1%nat 0%nat), <- (QL 1%nat 1%nat), <- (QL 1%nat 2%nat) by lia. done.
Qed.
Lemma split_fl x c l : is_space c = true → split (fl x ++ c :: l) = fmt_e false 6 x :: split (c :: l).
Proof.
  intros Hc. destruct (fmt_e_text false 6 x) as (H1 & H2 & _). unfold fl. rewrite split_rjust_sp by done. f_equal.
  cbn [split]. by rewrite Hc.
Qed.
Lemma fl_blank x : leaves_blank x → ∃ l, fl x = sp :: l.
Proof. intros H. pose proof (blank_length false 6 x ltac:(lia) H). eexists. unfold fl. apply rjust_S. lia. Qed.
Lemma geom_step_ok m i e j es : rea_mesh m → elems m !! i = Some e → j ∈ gsel (ndim m) →
  geom_step es (i, j) (gline i e j) = Ok (alter (gupd e j) i es).
Proof.
  intros Hm He Hj. pose proof (Forall_lookup_1 _ _ _ _ (rw_elems _ Hm) He) as Hr.
  destruct j as [[z c]|]; [|by cbn [geom_step gupd]; rewrite alter_same].
  apply elem_of_cons in Hj as [[=]|Hj]. apply elem_of_list_fmap in Hj as ([? ?] & [= <- <-] & Hj).
  apply elem_of_prod2 in Hj as [Hz Hc]. apply elem_of_range in Hz, Hc.
  pose proof (quad_ok _ _ _ e z c (rw_ndim _ Hm) Hr Hz Hc) as Q. cbn [geom_step gline gupd].
  set (z' := (z =? 1)%nat) in *.
  assert (∀ x l, leaves_blank x → split (fl x ++ l) = split (sp :: drop 1 (fl x) ++ l)) as HB.
  { intros x l Hx. destruct (fl_blank x Hx) as [k ->]. done. }
  unfold tok, line. rewrite <- !app_assoc.
  assert (∀ x y l, leaves_blank y → split (fl x ++ fl y ++ l) = fmt_e false 6 x :: split (fl y ++ l)) as HS.
  { intros x y l Hy. destruct (fl_blank y Hy) as [k ->]. by apply split_fl. }
  rewrite !HS by apply Q. rewrite split_fl by done. cbn [lookup list_lookup of_opt rbind]. rewrite !py_float_fmt. done.
Qed.
Lemma geometry_done nd nb e : dim23 nd → foldl (λ x j, gupd e j x) (rfresh nd nb) (gsel nd) = set_pos (norm_rpos nd e) (rfresh nd nb).
Proof. intros [-> | ->]; reflexivity. Qed.
Lemma norm_rpos_corner nd e c z y x : dim23 nd → (c < nd)%nat → (nd = 2%nat → z = false) → ∀ e',
  eshape e' = (2, 2, nd - 1)%nat → pos e' = norm_rpos nd e → corner e' c z y x = Ok (txt_value 6 (cv e c z y x)).
Proof.
  intros Hnd Hc Hz e' Hs Hp. unfold corner, pos_at. rewrite Hs, Hp. destruct Hnd as [-> | ->].
  - rewrite Hz by done. destruct c as [|[|c]]; [| |lia]; destruct x, y; reflexivity.
  - destruct c as [|[|[|c]]]; [| | |lia]; destruct x, y, z; reflexivity.
Qed.

(** ** Curved edges *)
Definition tx (e : elem f64) : elem f64 := set_curv ((λ row : list f64, txt_value 6 <$> row) <$> curv e) e.
Definition cline (ne : Z) (i : nat) (e : elem f64) (j : nat) : bytes :=
  curve_line ne (Z.of_nat j + 1) (Z.of_nat i + 1) (nth j (curv e) []) (nth j (ccurv e) ""%string).
Lemma csel_lookup nd nb ne e j : rea_elem nd nb ne e → j ∈ csel e → ∃ t row, (j < 12)%nat ∧ ccurv e !! j = Some t ∧ curv e !! j = Some row ∧
  t ≠ ""%string ∧ plain_text 3 t ∧ length row = 5%nat.
Proof.
  intros He Hj. apply elem_of_select in Hj as [Hj Hl]. destruct (ra_curv _ _ _ _ He) as [L1 R1], (ra_ccurv _ _ _ _ He) as [L2 R2].
  destruct (lookup_lt_is_Some_2 (ccurv e) j ltac:(lia)) as [t Ht]. destruct (lookup_lt_is_Some_2 (curv e) j ltac:(lia)) as [r Hr].
  exists t, r. split; [done|]. split; [done|]. split; [done|]. unfold is_curved in Hj. rewrite (nth_lookup_Some _ _ _ _ Ht) in Hj.
  split; [by case_bool_decide|]. split; [exact (Forall_lookup_1 _ _ _ _ R2 Ht)|exact (Forall_lookup_1 _ _ _ _ R1 Hr)].
Qed.
Lemma curve_lines_ok m i e : rea_mesh m → elems m !! i = Some e →
  range 12 ≫= curve_lines m i = (λ j, Ok (cline (Z.of_nat (nel m)) i e j)) <$> csel e.
Proof.
  intros Hm He. pose proof (Forall_lookup_1 _ _ _ _ (rw_elems _ Hm) He) as Hr.
  destruct (ra_curv _ _ _ _ Hr) as [L1 R1], (ra_ccurv _ _ _ _ Hr) as [L2 R2].
  unfold csel. rewrite <- concat_select. etransitivity; [exact (bind_concat _ _)|]. f_equal. apply list_fmap_ext. intros k j Hj.
  assert (j < 12)%nat as Hj12 by (apply elem_of_range; by eapply elem_of_list_lookup_2).
  destruct (lookup_lt_is_Some_2 (ccurv e) j ltac:(lia)) as [t Ht]. destruct (lookup_lt_is_Some_2 (curv e) j ltac:(lia)) as [r Hrow].
  unfold curve_lines, elem_at, cline, is_curved. rewrite He, (nth_lookup_Some _ _ _ _ Ht), (nth_lookup_Some _ _ _ _ Hrow). cbn [of_opt rbind].
  rewrite Ht. cbn [of_opt rbind]. case_bool_decide as E; cbn [negb]; [done|]. rewrite Hrow. cbn [of_opt rbind].
  pose proof (Forall_lookup_1 _ _ _ _ R1 Hrow) as HL. rewrite HL. change (5 <? 5)%nat with false. cbn [fmap list_fmap]. rewrite firstn_all2 by (rewrite HL; lia). done.
Qed.
Lemma type_token t : Forall plain t → t ≠ [] → (length t ≤ 3)%nat → split (take 3 (rjust 2 t ++ [nl])) = [t].
Proof.
  intros Hp Ht Hl.
  assert (no_space t) as Hs.
  { eapply Forall_impl; [exact Hp|]. intros c [H1 H2]. unfold is_space. rewrite !orb_false_iff, andb_false_iff. lia. }
  unfold rjust. destruct (decide (length t = 3)%nat) as [E|E].
  - rewrite E. cbn [Nat.sub replicate app]. rewrite take_app_alt by done. exact (split_last t 0 Hs Ht) || (rewrite <- (app_nil_r t) at 1; exact (split_last t 0 Hs Ht)).
  - rewrite firstn_all2.
    + rewrite <- app_assoc, split_spaces. by rewrite split_word_sp.
    + rewrite !app_length, replicate_length. cbn. lia.
Qed.
Lemma nz_text s : s ≠ ""%string → str s ≠ [].
Proof. by destruct s. Qed.
Lemma to_string_str s : to_string (str s) = s.
Proof. apply String.string_of_list_ascii_of_string. Qed.
Lemma curve_cols ne (i j : nat) : Z.of_nat i + 1 <= ne → ne < 10 ^ 9 → (j < 12)%nat → ∃ a b,
  (if ne <? 10 ^ 3 then (3, 6)%nat else if ne <? 10 ^ 6 then (2, 8)%nat else (2, 12)%nat) = (a, b) ∧
  curve_ints ne (Z.of_nat j + 1) (Z.of_nat i + 1) = int_w a (Z.of_nat j + 1) ++ int_w (b - a) (Z.of_nat i + 1) ∧
  length (int_w a (Z.of_nat j + 1)) = a ∧ length (int_w (b - a) (Z.of_nat i + 1)) = (b - a)%nat ∧ (a < b)%nat.
Proof.
  intros Hi Hne Hj. unfold curve_ints.
  assert (∀ k, (2 ≤ k)%nat → length (int_w k (Z.of_nat j + 1)) = k) as HJ.
  { intros k Hk. apply int_w_length. etransitivity; [apply (dec_int_length _ 2); [lia|]|done]. change (10 ^ Z.of_nat 2) with 100. lia. }
  destruct (Z.ltb_spec ne (10 ^ 3)); [|destruct (Z.ltb_spec ne (10 ^ 6))]; do 2 eexists; (split; [reflexivity|]); (split; [reflexivity|]);
    (split; [apply HJ; lia|]); (split; [|lia]); cbn [Nat.sub]; apply int_w_length.
  - apply dec_int_length; lia.
  - apply dec_int_length; lia.
  - etransitivity; [apply (dec_int_length _ 9); lia|lia].
Qed.
Lemma rea_curve_ok nd nb ne k n e i j xs : rea_elem nd nb ne e → j ∈ csel e → (i < n)%nat → ne = Z.of_nat n → ne < 10 ^ 9 → curve_shape n xs →
  rea_curve_step ne xs k (cline ne i e j) = Ok (alter (cupd i (tx e) j) i xs) ∧ curve_shape n (alter (cupd i (tx e) j) i xs).
Proof.
  intros He Hj Hi En Hn [HL HX]. destruct (csel_lookup _ _ _ _ _ He Hj) as (t & row & Hj12 & Ht & Hrow & Hte & [Hpl Htl] & Hr5).
  destruct (lookup_lt_is_Some_2 xs i ltac:(lia)) as [x Hx]. destruct (Forall_lookup_1 _ _ _ _ HX Hx) as [C1 C2].
  split.
  - destruct (curve_cols ne i j) as (a & b & E1 & E2 & E3 & E4 & E5); [lia..|].
    unfold rea_curve_step, cline. rewrite E1. unfold curve_line. rewrite E2, (nth_lookup_Some _ _ _ _ Ht), (nth_lookup_Some _ _ _ _ Hrow).
    unfold line. rewrite <- !app_assoc. set (A := int_w a _) in *. set (B := int_w (b - a) _) in *.
    assert (length (row ≫= fl) = 70)%nat as Lrow.
    { rewrite (bind_length 14) by (intros; apply fl_length). by rewrite Hr5. }
    replace (sl 0 a (A ++ B ++ (row ≫= fl) ++ rjust 2 (str t) ++ [nl])) with A
      by (symmetry; apply (sl_app 0 a [] A); [done|rewrite E3; lia]).
    rewrite (sl_app a b A B) by done.
    replace (sl (b + 70) (b + 73) (A ++ B ++ (row ≫= fl) ++ rjust 2 (str t) ++ [nl])) with (take 3 (rjust 2 (str t) ++ [nl])).
    2:{ unfold sl. rewrite (app_assoc A), (app_assoc (A ++ B)). rewrite drop_app_alt by (rewrite !app_length; lia). f_equal. lia. }
    rewrite (app_assoc A).
    rewrite (columns_ok b 14 (A ++ B) _ row fl (txt_value 6)); [|rewrite app_length; lia|by rewrite Hr5|].
    2:{ intros y _. split; [apply fl_length|apply py_float_rjust]. }
    unfold A, B, int_w. rewrite !py_int_rjust. cbn [rbind].
    replace (Z.of_nat i + 1 - 1) with (Z.of_nat i) by lia. replace (Z.of_nat j + 1 - 1) with (Z.of_nat j) by lia.
    rewrite py_pos_nat by lia. cbn [of_opt rbind]. rewrite Hx. cbn [of_opt rbind]. rewrite C1, C2, py_pos_nat by lia. cbn [of_opt rbind].
    unfold tok. rewrite type_token by (done || by apply nz_text). cbn [lookup list_lookup of_opt rbind]. rewrite to_string_str.
    f_equal. rewrite (alter_insert _ _ _ _ Hx). f_equal. unfold cupd, tx. cbn [curv ccurv set_curv].
    rewrite (nth_lookup_Some _ _ _ _ Ht). do 3 f_equal. symmetry. apply nth_lookup_Some. by rewrite list_lookup_fmap, Hrow.
  - split; [by rewrite alter_length|]. apply Forall_alter_same; [|done]. intros y [Y1 Y2]. unfold cupd, tx. cbn. rewrite !insert_length. done.
Qed.

(** ** Conditions *)
Definition bc_prec (ne : Z) : nat := if ne <? 10 ^ 6 then 6 else 11.
Definition rd_bc (ne : Z) (i f : nat) (r : bcrec f64) : bcrec f64 :=
  let P := txt_value (bc_prec ne) in
  let mid := (10 ^ 3 <=? ne) && (ne <? 10 ^ 6) in
  if bool_decide (bt r = "E"%string) && f64_eqb (P (bp3 r)) z64 then zero_bc z64
  else Bc (bt r) (if mid then Z.of_nat i + 1 else bel r) (if mid then Z.of_nat f + 1 else bface r)
         (P (bp3 r)) (P (bp4 r)) (P (bp5 r)) (P (bp6 r)) (P (bp7 r)).
Lemma u3_text s : plain_text 2 s → u3 s = s.
Proof.
  intros [Hp Hl]. unfold u3. rewrite firstn_all2 by (change (length (str s) ≤ 3)%nat; lia).
  rewrite strip_nul_id; [apply String.string_of_list_ascii_of_string|].
  intros c Hc. assert (plain c) as [H _]. { apply (Forall_forall plain (str s)); [done|]. by apply last_Some_elem_of. }
  intros ->. vm_compute in H. by apply H.
Qed.
Lemma plain_no_space t : Forall plain t → no_space t.
Proof. intros Hp. eapply Forall_impl; [exact Hp|]. intros c [H1 H2]. unfold is_space. rewrite !orb_false_iff, andb_false_iff. lia. Qed.
Lemma strip_type t : Forall plain t → (length t ≤ 2)%nat → strip (ljust 2 t) = t.
Proof.
  intros Hp Hl. destruct t as [|c t]; [done|]. unfold ljust. exact (strip_padded 0 _ (c :: t) (plain_no_space _ Hp) ltac:(done)).
Qed.
Definition bc_tail (ne : Z) (r : bcrec f64) : bytes :=
    if ne <? 10 ^ 3 then int_w 3 (bel r) ++ int_w 3 (bface r) ++ fl (bp3 r) ++ fl (bp4 r) ++ fl (bp5 r) ++ fl (bp6 r) ++ fl (bp7 r)
    else if ne <? 10 ^ 6 then int_w 6 (bel r) ++ fl (bp3 r) ++ fl (bp4 r) ++ fl (bp5 r) ++ fl (bp6 r) ++ fl (bp7 r)
    else int_w 11 (bel r) ++ int_w 1 (bface r) ++ fl18 (bp3 r) ++ fl18 (bp4 r) ++ fl18 (bp5 r) ++ fl18 (bp6 r) ++ fl18 (bp7 r).
Lemma bc_line_tail ne r : bc_line ne r = line (sp :: ljust 2 (str (bt r)) ++ [sp] ++ bc_tail ne r).
Proof. done. Qed.
Lemma rea_bc_ok ne (i f : nat) r : Z.of_nat i + 1 <= ne → ne < 10 ^ 9 → plain_text 2 (bt r) → numbers_fit ne r →
  rea_bc ne i f (bc_line ne r) = Ok (rd_bc ne i f r).
Proof.
  intros Hi Hne [Hp Hl] HF. unfold rea_bc, rd_bc. rewrite bc_line_tail. unfold line. set (T := bc_tail ne r).
  assert (length (ljust 2 (str (bt r))) = 2)%nat as L2 by (rewrite ljust_length; lia).
  replace (sl 1 3 ((sp :: ljust 2 (str (bt r)) ++ [sp] ++ T) ++ [nl])) with (ljust 2 (str (bt r))).
  2:{ cbn [app]. rewrite <- app_assoc. symmetry. exact (sl_app 1 3 [sp] _ _ eq_refl L2). }
  rewrite strip_type, to_string_str, u3_text by done.
  set (H4 := sp :: ljust 2 (str (bt r)) ++ [sp]).
  assert (length H4 = 4)%nat as L4 by (unfold H4; cbn [length]; rewrite app_length, L2; done).
  replace ((sp :: ljust 2 (str (bt r)) ++ [sp] ++ T) ++ [nl]) with (H4 ++ T ++ [nl]).
  2:{ unfold H4. cbn [app]. by rewrite <- !app_assoc. }
  set (xs := [bp3 r; bp4 r; bp5 r; bp6 r; bp7 r]).
  unfold numbers_fit in HF. unfold bc_prec. unfold T, bc_tail. clear T.
  destruct (Z.ltb_spec ne (10 ^ 3)) as [C1|C1]; [|destruct (Z.ltb_spec ne (10 ^ 6)) as [C2|C2]].
  - destruct HF as [[F1 F2] [F3 F4]].
    assert (∀ z, -99 <= z <= 999 → length (int_w 3 z) = 3%nat) as L3.
    { intros z Hz. apply int_w_length. destruct (Z.le_gt_cases 0 z); [apply (dec_int_length z 3); lia|apply (dec_int_length_abs z 2); lia]. }
    replace (fl (bp3 r) ++ fl (bp4 r) ++ fl (bp5 r) ++ fl (bp6 r) ++ fl (bp7 r)) with (xs ≫= fl) by (cbn; by rewrite app_nil_r).
    rewrite <- !app_assoc. rewrite (sl_app 4 7 H4) by (done || by rewrite L3).
    replace (sl 7 10 _) with (int_w 3 (bface r)).
    2:{ symmetry. rewrite (app_assoc H4). apply sl_app; [rewrite app_length, L4, L3 by done; done|by rewrite L3]. }
    replace (columns 10 14 5 _) with (Ok (txt_value 6 <$> xs)).
    2:{ symmetry. rewrite (app_assoc H4), (app_assoc (H4 ++ _)). apply columns_ok; [rewrite !app_length, L4, !L3 by done; done|done|].
        intros y _. split; [apply fl_length|apply py_float_rjust]. }
    unfold int_w. rewrite !py_int_rjust. cbn [rbind]. unfold to_i32.
    assert (∀ z, -99 <= z <= 999 → (- 2 ^ 31 <=? z) && (z <? 2 ^ 31) = true) as HT by (intros z Hz; apply andb_true_iff; lia).
    rewrite !HT by done. cbn [rbind]. replace (10 ^ 3 <=? ne) with false by lia. replace (ne <? 10 ^ 6) with true by lia. done.
  - assert (length (int_w 6 (bel r)) = 6)%nat as L6.
    { apply int_w_length. destruct (Z.le_gt_cases 0 (bel r)); [apply (dec_int_length _ 6); lia|apply (dec_int_length_abs _ 5); lia]. }
    replace (fl (bp3 r) ++ fl (bp4 r) ++ fl (bp5 r) ++ fl (bp6 r) ++ fl (bp7 r)) with (xs ≫= fl) by (cbn; by rewrite app_nil_r).
    rewrite <- !app_assoc.
    replace (columns 10 14 5 _) with (Ok (txt_value 6 <$> xs)).
    2:{ symmetry. rewrite (app_assoc H4). apply columns_ok; [rewrite !app_length, L4, L6; done|done|].
        intros y _. split; [apply fl_length|apply py_float_rjust]. }
    unfold to_i32. replace ((- 2 ^ 31 <=? Z.of_nat i + 1) && (Z.of_nat i + 1 <? 2 ^ 31)) with true by (symmetry; apply andb_true_iff; lia).
    cbn [rbind]. replace (10 ^ 3 <=? ne) with true by lia. done.
  - destruct HF as ([F1 F2] & [F3 F4] & HB).
    assert (length (int_w 11 (bel r)) = 11)%nat as L11.
    { apply int_w_length. etransitivity; [apply (dec_int_length_abs _ 10); lia|lia]. }
    assert (length (int_w 1 (bface r)) = 1)%nat as L1 by (apply int_w_length, (dec_int_length _ 1); lia).
    replace (fl18 (bp3 r) ++ fl18 (bp4 r) ++ fl18 (bp5 r) ++ fl18 (bp6 r) ++ fl18 (bp7 r)) with (xs ≫= fl18) by (cbn; by rewrite app_nil_r).
    rewrite <- !app_assoc. rewrite (sl_app 4 15 H4) by done.
    replace (sl 15 16 _) with (int_w 1 (bface r)).
    2:{ symmetry. rewrite (app_assoc H4). apply sl_app; [rewrite app_length; lia|done]. }
    replace (columns 16 18 5 _) with (Ok (txt_value 11 <$> xs)).
    2:{ symmetry. rewrite (app_assoc H4), (app_assoc (H4 ++ _)). apply columns_ok; [rewrite !app_length; lia|done|].
        intros y Hy. split; [|apply py_float_rjust]. apply fl18_length. exact (proj1 (Forall_forall _ _) HB y Hy). }
    unfold int_w. rewrite !py_int_rjust. cbn [rbind]. unfold to_i32.
    replace ((- 2 ^ 31 <=? bel r) && (bel r <? 2 ^ 31)) with true by (symmetry; apply andb_true_iff; lia).
    replace ((- 2 ^ 31 <=? bface r) && (bface r <? 2 ^ 31)) with true by (symmetry; apply andb_true_iff; lia).
    cbn [rbind]. replace (10 ^ 3 <=? ne) with true by lia. replace (ne <? 10 ^ 6) with false by lia. done.
Qed.
Lemma fmap_bind_list {A B C} (f : B → C) (g : A → list B) l : f <$> (l ≫= g) = l ≫= λ x, f <$> g x.
Proof. induction l as [|x l IH]; [done|]. cbn [mbind list_bind]. rewrite fmap_app. by f_equal. Qed.
Lemma bind_ext_in {A B} (f g : A → list B) l : (∀ x, x ∈ l → f x = g x) → l ≫= f = l ≫= g.
Proof.
  induction l as [|x l IH]; intros H; [done|]. cbn [mbind list_bind]. rewrite H by left. f_equal. apply IH. intros y Hy. apply H. by right.
Qed.
Lemma foldl_bind {S A B} (g : S → B → S) (h : A → list B) l s : foldl g s (l ≫= h) = foldl (λ s x, foldl g s (h x)) s l.
Proof. revert s. induction l as [|x l IH]; intros s; [done|]. cbn [mbind list_bind foldl]. by rewrite foldl_app, IH. Qed.
Lemma foldl_map {S A B} (g : S → B → S) (h : A → B) l s : foldl g s (h <$> l) = foldl (λ s x, g s (h x)) s l.
Proof. revert s. induction l as [|x l IH]; intros s; [done|]. cbn. apply IH. Qed.
Lemma foldl_ext_in {S A} (g h : S → A → S) l s : (∀ s x, x ∈ l → g s x = h s x) → foldl g s l = foldl h s l.
Proof.
  revert s. induction l as [|x l IH]; intros s H; [done|]. cbn. rewrite H by left. apply IH. intros s' y Hy. apply H. by right.
Qed.
Lemma foldl_alter_range {X} (u : nat → X → X) n (l : list X) k :
  foldl (λ (l : list X) (b : nat), alter (u b) b l) l (range n) !! k = if (k <? n)%nat then u k <$> l !! k else l !! k.
Proof.
  induction n as [|n IH]; [done|]. rewrite range_snoc, foldl_app. cbn [foldl].
  destruct (decide (k = n)) as [->|Hk].
  - rewrite list_lookup_alter, IH, Nat.ltb_irrefl. by replace (n <? S n)%nat with true by (symmetry; apply Nat.ltb_lt; lia).
  - rewrite list_lookup_alter_ne, IH by done. destruct (Nat.ltb_spec k n), (Nat.ltb_spec k (S n)); done || lia.
Qed.
Lemma foldl_alter_length {X} (u : nat → X → X) l (s : list X) : length (foldl (λ (l : list X) (b : nat), alter (u b) b l) s l) = length s.
Proof. revert s. induction l as [|b l IH]; intros s; [done|]. cbn [foldl]. by rewrite IH, alter_length. Qed.

Definition fsel (nd : nat) : elem f64 → list nat := λ _, range (2 * nd).
Definition bxs (nd nb : nat) (es : list (elem f64)) : list (nat * option (nat * elem f64 * nat)) :=
  range nb ≫= λ b, (b, None) :: ((λ q, (b, Some q)) <$> entries (fsel nd) es).
Definition bpos (x : nat * option (nat * elem f64 * nat)) : nat * option (nat * nat) :=
  match x with (b, Some (i, _, f)) => (b, Some (i, f)) | (b, None) => (b, None) end.
Definition bhead (b : nat) : bytes :=
  match b with
  | O => line (str "  ***** FLUID BOUNDARY CONDITIONS *****")
  | S O => line (str "  ***** THERMAL BOUNDARY CONDITIONS *****")
  | _ => line (str "  ***** PASSIVE SCALAR " ++ int_w 4 (Z.of_nat b - 1) ++ str " BOUNDARY CONDITIONS *****")
  end.
Definition bln (ne : Z) (x : nat * option (nat * elem f64 * nat)) : bytes :=
  match x with (b, Some (i, e, f)) => bc_line ne (e_rec i f (bc_nth b e f)) | (b, None) => bhead b end.
Definition brd (ne : Z) (b i : nat) (e : elem f64) (f : nat) : bcrec f64 := rd_bc ne i f (e_rec i f (bc_nth b e f)).
Definition bstep (ne : Z) (s : list (elem f64)) (x : nat * option (nat * elem f64 * nat)) : list (elem f64) :=
  match x with (b, Some (i, e, f)) => alter (alter_ebc (λ _, brd ne b i e f) b f) i s | (_, None) => s end.

Lemma faces_pos nd (es : list (elem f64)) : prod2 (range (length es)) (range (2 * nd)) = (λ '(i, _, f), (i, f)) <$> entries (fsel nd) es.
Proof.
  unfold prod2. apply (range_entries _ (λ '(i, _, f), (i, f)) (fsel nd) es); [done|]. intros i e _. done.
Qed.
Lemma bpos_ok nd nb es : bpos <$> bxs nd nb es = bc_positions nd (length es) nb.
Proof.
  unfold bxs, bc_positions. rewrite fmap_bind_list. apply bind_ext_in. intros b _. cbn [fmap list_fmap bpos]. f_equal.
  etransitivity; [|exact (f_equal (fmap (λ p, (b, Some p))) (eq_sym (faces_pos nd es)))].
  change (list_fmap _ _ bpos) with (fmap (M:=list) bpos). change (list_fmap _ _ (λ q : nat * elem f64 * nat, (b, Some q))) with (fmap (M:=list) (λ q : nat * elem f64 * nat, (b, Some q))).
  rewrite <- !list_fmap_compose. apply list_fmap_ext. intros k [[i e] f] _. done.
Qed.
Lemma cond_ok nd nb ne e b f : dim23 nd → rea_elem nd nb ne e → (b < nb)%nat → (f < 2 * nd)%nat →
  bc_at e b f = Ok (bc_nth b e f) ∧ plain_text 2 (bt (bc_nth b e f)) ∧ numbers_fit ne (bc_nth b e f).
Proof.
  intros Hnd He Hb Hf. destruct (ra_bcs _ _ _ _ He) as [L1 L2].
  destruct (lookup_lt_is_Some_2 (bcs e) b ltac:(lia)) as [r Hr]. pose proof (Forall_lookup_1 _ _ _ _ L2 Hr) as L6. cbn in L6.
  assert (f < length r)%nat as Hfr by (rewrite L6; destruct Hnd; lia). destruct (lookup_lt_is_Some_2 r f Hfr) as [x Hx].
  assert (bc_nth b e f = x) as ->. { unfold bc_nth. rewrite (nth_lookup_Some _ _ _ _ Hr). exact (nth_lookup_Some _ _ _ _ Hx). }
  split; [|exact (ra_cond _ _ _ _ He b f r x Hr Hx)]. unfold bc_at. rewrite Hr. cbn [of_opt rbind]. by rewrite Hx.
Qed.
Lemma e_rec_ok ne (i f : nat) x : Z.of_nat i + 1 <= ne → ne < 10 ^ 9 → (f < 6)%nat → plain_text 2 (bt x) → numbers_fit ne x →
  plain_text 2 (bt (e_rec i f x)) ∧ numbers_fit ne (e_rec i f x).
Proof.
  intros Hi Hne Hf Hp HF. unfold e_rec. case_bool_decide; [|done]. split.
  - split; [apply Forall_singleton; split; vm_compute; done|cbn; lia].
  - unfold numbers_fit in *. cbn [bel bface bp3 bp4 bp5 bp6 bp7]. destruct (Z.ltb_spec ne (10 ^ 3)); [lia|]. destruct (Z.ltb_spec ne (10 ^ 6)); [lia|].
    destruct HF as (_ & _ & HF). split; [lia|]. split; [lia|done].
Qed.
Lemma entries_dim m i e f : rea_mesh m → (i, e, f) ∈ entries (fsel (ndim m)) (elems m) →
  elems m !! i = Some e ∧ (i < nel m)%nat ∧ (f < 2 * ndim m)%nat ∧ (f < 6)%nat.
Proof.
  intros Hm H. apply elem_of_entries in H as [He Hf]. apply elem_of_range in Hf. split; [done|]. destruct (rw_nel _ Hm) as [L _].
  apply lookup_lt_Some in He. destruct (rw_ndim _ Hm); lia.
Qed.
Lemma bc_lines_ok m : rea_mesh m →
  Ok (bhead 0) :: (range (nbc m) ≫= bc_lines m) = (λ x, Ok (bln (Z.of_nat (nel m)) x)) <$> bxs (ndim m) (nbc m) (elems m).
Proof.
  intros Hm. pose proof (rw_nbc _ Hm) as Hb. destruct (rw_nel _ Hm) as [HL _].
  assert (∀ b, (b < nbc m)%nat → (λ '(iel, iface), let! e := elem_at m iel in let! r := bc_at e b iface in
     Ok (bc_line (Z.of_nat (nel m)) (e_rec iel iface r))) <$> prod2 (range (nel m)) (range (2 * ndim m)) =
     (λ x, Ok (bln (Z.of_nat (nel m)) x)) <$> ((λ q, (b, Some q)) <$> entries (fsel (ndim m)) (elems m))) as HF.
  { intros b Hbb. rewrite <- HL, faces_pos. rewrite <- !list_fmap_compose. apply list_fmap_ext. intros k [[i e] f] Hk.
    apply elem_of_list_lookup_2, (entries_dim m) in Hk as (He & Hi & Hf & _); [|done]. cbn [compose bln]. unfold elem_at. rewrite He. cbn [of_opt rbind].
    destruct (cond_ok _ _ _ e b f (rw_ndim _ Hm) (Forall_lookup_1 _ _ _ _ (rw_elems _ Hm) He) Hbb Hf) as [-> _]. done. }
  unfold bxs. rewrite fmap_bind_list. unfold range in *. destruct (nbc m) as [|n] eqn:En; [lia|]. cbn [seq mbind list_bind fmap list_fmap app].
  change (list_fmap ?A ?B ?f) with (fmap (M:=list) (A:=A) (B:=B) f). f_equal. f_equal.
  - unfold bc_lines at 1. cbn [app]. apply HF. lia.
  - apply bind_ext_in. intros b Hb'. apply elem_of_list_In, in_seq in Hb'. unfold bc_lines. unfold range. rewrite HF by lia.
    destruct b as [|[|b]]; [lia|done|done].
Qed.
Lemma bc_step_rea_ok m x s : rea_mesh m → x ∈ bxs (ndim m) (nbc m) (elems m) →
  rea_bc_step (Z.of_nat (nel m)) s (bpos x) (bln (Z.of_nat (nel m)) x) = Ok (bstep (Z.of_nat (nel m)) s x).
Proof.
  intros Hm Hx. apply elem_of_list_bind in Hx as (b & Hx & Hb). apply elem_of_range in Hb.
  apply elem_of_cons in Hx as [->|Hx]; [done|]. apply elem_of_list_fmap in Hx as ([[i e] f] & -> & Hx).
  apply (entries_dim m) in Hx as (He & Hi & Hf & Hf6); [|done]. cbn [bpos bln rea_bc_step bstep].
  destruct (cond_ok _ _ _ e b f (rw_ndim _ Hm) (Forall_lookup_1 _ _ _ _ (rw_elems _ Hm) He) Hb Hf) as (_ & C1 & C2).
  destruct (rw_nel _ Hm) as [HL Hne].
  destruct (e_rec_ok (Z.of_nat (nel m)) i f (bc_nth b e f)) as [C3 C4]; [lia|done|done|done|done|].
  rewrite rea_bc_ok by (done || lia). done.
Qed.
Definition bfold (nd nb : nat) (ne : Z) (p : nat) (e x : elem f64) : elem f64 :=
  foldl (λ x b, foldl (λ x f, alter_ebc (λ _, brd ne b p e f) b f x) x (range (2 * nd))) x (range nb).
Lemma bstep_fold nd nb ne es s p e : es !! p = Some e →
  foldl (bstep ne) s (bxs nd nb es) !! p = bfold nd nb ne p e <$> s !! p.
Proof.
  intros He. unfold bxs, bfold. rewrite foldl_bind. induction nb as [|n IH].
  { cbn [range seq foldl]. symmetry. apply option_fmap_id. }
  rewrite range_snoc, foldl_app. cbn [foldl bstep]. rewrite foldl_map.
  match goal with |- ?l !! _ = _ => replace l with (foldl (λ xs '(i, e, f), alter (alter_ebc (λ _, brd ne n i e f) n f) i xs)
    (foldl (λ s b, foldl (bstep ne) s ((b, None) :: ((λ q, (b, Some q)) <$> entries (fsel nd) es))) s (range n)) (entries (fsel nd) es)) end.
  2:{ apply foldl_ext_in. intros s' [[i e'] f] _. done. }
  rewrite (entries_fold (λ i e f, alter_ebc (λ _, brd ne n i e f) n f)), He, IH.
  destruct (s !! p) as [x|]; [|done]. cbn [fmap option_fmap option_map]. f_equal. by rewrite foldl_app.
Qed.
Lemma bfold_ok nd nb ne p e x : ∃ B, bfold nd nb ne p e x = set_bcs B x ∧ length B = length (bcs x) ∧
  ∀ b r, (b < nb)%nat → bcs x !! b = Some r → ∃ r', B !! b = Some r' ∧ length r' = length r ∧
    ∀ f, (f < 2 * nd)%nat → (f < length r)%nat → r' !! f = Some (brd ne b p e f).
Proof.
  set (u := λ (b : nat) (r : list (bcrec f64)), foldl (λ (r : list (bcrec f64)) (f : nat), alter (λ _, brd ne b p e f) f r) r (range (2 * nd))).
  set (B := foldl (λ (l : list (list (bcrec f64))) (b : nat), alter (u b) b l) (bcs x) (range nb)).
  assert (∀ b x, foldl (λ x f, alter_ebc (λ _, brd ne b p e f) b f x) x (range (2 * nd)) = set_bcs (alter (u b) b (bcs x)) x) as G.
  { intros b y. unfold u. rewrite <- (foldl_alter_fixed (λ f r, alter (λ _, brd ne b p e f) f r)).
    revert y. induction (range (2 * nd)) as [|f l IH]; intros y; [by destruct y|]. cbn [foldl]. rewrite IH. done. }
  assert (∀ l y, foldl (λ x b, foldl (λ x f, alter_ebc (λ _, brd ne b p e f) b f x) x (range (2 * nd))) y l =
    set_bcs (foldl (λ (l : list (list (bcrec f64))) (b : nat), alter (u b) b l) (bcs y) l) y) as G2.
  { intros l. induction l as [|b l IH]; intros y; [by destruct y|]. cbn [foldl]. rewrite G, IH. done. }
  exists B. split; [apply G2|]. split.
  - exact (foldl_alter_length u _ _).
  - intros b r Hb Hr. unfold B. rewrite foldl_alter_range. replace (b <? nb)%nat with true by (symmetry; by apply Nat.ltb_lt).
    rewrite Hr. exists (u b r). split; [done|]. split.
    + unfold u. exact (foldl_alter_length (λ f _, brd ne b p e f) _ _).
    + intros f Hf Hfr. unfold u. rewrite (foldl_alter_range (λ f _, brd ne b p e f)). replace (f <? 2 * nd)%nat with true by (symmetry; by apply Nat.ltb_lt).
      destruct (lookup_lt_is_Some_2 r f Hfr) as [y ->]. done.
Qed.

(** ** The file *)
Definition sls (l : list string) : list bytes := (λ s, line (str s)) <$> l.
Definition dim_line (nd : nat) : bytes := line (str "   " ++ int_w 1 (Z.of_nat nd) ++ str " DIMENSIONAL RUN").
Definition nel_line (ne nd : nat) : bytes :=
  line (str "  " ++ int_w 10 (Z.of_nat ne) ++ [sp] ++ int_w 1 (Z.of_nat nd) ++ [sp] ++ int_w 10 (Z.of_nat ne) ++ str " NEL,NDIM,NELV").
Definition ncurv_line (nc : Z) : bytes :=
  line (str "  " ++ int_w 10 nc ++ str " Curved sides follow IEDGE,IEL,CURVE(I),I=1,5, CCURVE").
Definition glines (m : mesh64) : list bytes := (λ '(i, e, j), gline i e j) <$> entries (λ _, gsel (ndim m)) (elems m).
Definition clines (m : mesh64) : list bytes := (λ '(i, e, j), cline (Z.of_nat (nel m)) i e j) <$> entries csel (elems m).
Definition blines (m : mesh64) : list bytes := bln (Z.of_nat (nel m)) <$> bxs (ndim m) (nbc m) (elems m).
Definition tail_lines (nb : nat) : list bytes := sls ((if (nb <? 2)%nat then ["  ***** NO THERMAL BOUNDARY CONDITIONS *****"%string] else []) ++ rea_tail).
Definition head_lines (nd : nat) : list bytes := sls rea_head1 ++ [dim_line nd] ++ sls rea_head2.
Definition file_lines (m : mesh64) : list bytes :=
  head_lines (ndim m) ++ nel_line (nel m) (ndim m) :: glines m ++
  line (str "  ***** CURVED SIDE DATA *****") :: ncurv_line (ncurv m) :: clines m ++
  line (str "  ***** BOUNDARY CONDITIONS *****") :: blines m ++ tail_lines (nbc m).
Lemma sls_ok (l : list string) : (Ok ∘ line ∘ str) <$> l = Ok <$> sls l.
Proof. unfold sls. rewrite <- list_fmap_compose. done. Qed.
Lemma sls_app l1 l2 : sls (l1 ++ l2) = sls l1 ++ sls l2.
Proof. apply fmap_app. Qed.
Lemma rea_lines_ok m : rea_mesh m → rea_lines m = Ok <$> file_lines m.
Proof.
  intros Hm. destruct (rw_nel _ Hm) as [HL _].
  assert (range (nel m) ≫= geometry_lines m = Ok <$> glines m) as HG.
  { unfold glines. rewrite <- list_fmap_compose. rewrite (range_entries _ (λ '(i, e, j), Ok (gline i e j)) (λ _, gsel (ndim m)) (elems m)); [|done|].
    - apply list_fmap_ext. intros k [[i e] j] _. done.
    - intros i e He. by apply geometry_lines_ok. }
  assert ((prod2 (range (nel m)) (range 12) ≫= λ '(iel, iedge), curve_lines m iel iedge) = Ok <$> clines m) as HC.
  { unfold clines. rewrite <- list_fmap_compose. etransitivity; [|etransitivity; [apply (range_entries (λ i, range 12 ≫= curve_lines m i) (λ '(i, e, j), Ok (cline (Z.of_nat (nel m)) i e j)) csel (elems m) (nel m) (eq_sym HL))|]].
    - unfold prod2. generalize (range (nel m)). intros l. induction l as [|i l IH]; [done|]. cbn [mbind list_bind]. rewrite bind_app, IH. f_equal.
    - intros i e He. by apply curve_lines_ok.
    - apply list_fmap_ext. intros k [[i e] j] _. done. }
  assert (Ok (line (str "  ***** FLUID BOUNDARY CONDITIONS *****")) :: (range (nbc m) ≫= bc_lines m) = Ok <$> blines m) as HB.
  { unfold blines. rewrite <- list_fmap_compose. exact (bc_lines_ok m Hm). }
  unfold rea_lines, file_lines, head_lines, tail_lines. rewrite HG, HC, !sls_ok. rewrite !fmap_app. fold (nel_line (nel m) (ndim m)) (dim_line (ndim m)) (ncurv_line (ncurv m)).
  rewrite <- !app_assoc. do 2 f_equal. f_equal. cbn [fmap list_fmap app].
  change (list_fmap ?A ?B ?f) with (fmap (M:=list) (A:=A) (B:=B) f). f_equal. rewrite !fmap_app. cbn [fmap list_fmap]. 
  change (list_fmap ?A ?B ?f) with (fmap (M:=list) (A:=A) (B:=B) f). f_equal. f_equal. f_equal. rewrite !fmap_app. f_equal. cbn [fmap list_fmap].
  change (list_fmap ?A ?B ?f) with (fmap (M:=list) (A:=A) (B:=B) f). f_equal. rewrite app_comm_cons, HB, fmap_app. f_equal.
  rewrite sls_app, fmap_app. f_equal. by destruct (nbc m <? 2)%nat.
Qed.
Lemma is_line_line s : no_nl s → is_line (line s).
Proof. intros H. by exists s. Qed.
Definition nlb (l : bytes) : bool := forallb (λ c, negb (Ascii.eqb c nl)) l.
Lemma nlb_ok l : nlb l = true → no_nl l.
Proof. intros H. apply Forall_forall. intros c Hc. apply elem_of_list_In in Hc. unfold nlb in H. rewrite forallb_forall in H. specialize (H c Hc). by destruct (Ascii.eqb c nl). Qed.
Lemma sls_lines l : forallb (λ s, nlb (str s)) l = true → Forall is_line (sls l).
Proof.
  intros H. apply Forall_fmap, Forall_forall. intros s Hs. apply is_line_line, nlb_ok. rewrite forallb_forall in H. apply H. by apply elem_of_list_In.
Qed.
Ltac nl_tac := repeat (apply fl_nl || apply fl18_nl || apply int_w_nl || apply no_nl_app || by apply nlb_ok).
Lemma gline_line i e j : is_line (gline i e j).
Proof.
  destruct j as [[z c]|]; apply is_line_line; nl_tac.
Qed.
Lemma curve_ints_nl ne a b : no_nl (curve_ints ne a b).
Proof. unfold curve_ints. destruct (ne <? 10 ^ 3); [|destruct (ne <? 10 ^ 6)]; apply no_nl_app; apply int_w_nl. Qed.
Lemma cline_line nd nb ne' ne i e j : rea_elem nd nb ne' e → j ∈ csel e → is_line (cline ne i e j).
Proof.
  intros He Hj. destruct (csel_lookup _ _ _ _ _ He Hj) as (t & row & Hj12 & Ht & Hrow & Hte & [Hpl Htl] & Hr5).
  apply is_line_line. rewrite (nth_lookup_Some _ _ _ _ Ht). apply no_nl_app; [apply curve_ints_nl|]. apply no_nl_app; [apply bind_nl, fl_nl|].
  by apply rjust_nl, plain_nl.
Qed.
Lemma bc_tail_nl ne r : no_nl (bc_tail ne r).
Proof.
  unfold bc_tail. destruct (ne <? 10 ^ 3); [|destruct (ne <? 10 ^ 6)]; nl_tac.
Qed.
Lemma bc_line_line ne r : plain_text 2 (bt r) → is_line (bc_line ne r).
Proof.
  intros [Hp _]. rewrite bc_line_tail. apply is_line_line. apply List.Forall_cons; [done|]. apply no_nl_app; [by apply ljust_nl, plain_nl|].
  apply no_nl_app; [by apply nlb_ok|apply bc_tail_nl].
Qed.
Lemma bhead_line b : is_line (bhead b).
Proof.
  destruct b as [|[|b]]; apply is_line_line; [by apply nlb_ok..|]. nl_tac.
Qed.
Lemma bln_text m x : rea_mesh m → x ∈ bxs (ndim m) (nbc m) (elems m) →
  (∃ b, x = (b, None)) ∨ ∃ b i e f, x = (b, Some (i, e, f)) ∧ plain_text 2 (bt (e_rec i f (bc_nth b e f))).
Proof.
  intros Hm Hx. apply elem_of_list_bind in Hx as (b & Hx & Hb). apply elem_of_range in Hb.
  apply elem_of_cons in Hx as [->|Hx]; [left; by eexists|]. apply elem_of_list_fmap in Hx as ([[i e] f] & -> & Hx). right. exists b, i, e, f. split; [done|].
  apply (entries_dim m) in Hx as (He & Hi & Hf & Hf6); [|done].
  destruct (cond_ok _ _ _ e b f (rw_ndim _ Hm) (Forall_lookup_1 _ _ _ _ (rw_elems _ Hm) He) Hb Hf) as (_ & C1 & C2).
  destruct (rw_nel _ Hm) as [HL Hne]. apply (e_rec_ok (Z.of_nat (nel m))); (done || lia).
Qed.
Lemma file_is_lines m : rea_mesh m → Forall is_line (file_lines m).
Proof.
  intros Hm. unfold file_lines, head_lines.
  assert (∀ nd, dim23 nd → Forall is_line [dim_line nd]) as HD.
  { intros nd _. apply Forall_singleton, is_line_line. nl_tac. }
  repeat (apply Forall_app; split).
  - by apply sls_lines.
  - apply HD, Hm.
  - by apply sls_lines.
  - apply List.Forall_cons; [|].
    { apply is_line_line. nl_tac. }
    apply Forall_app. split.
    { apply Forall_fmap, Forall_forall. intros [[i e] j] _. apply gline_line. }
    apply List.Forall_cons; [by apply is_line_line, nlb_ok|]. apply List.Forall_cons.
    { apply is_line_line. nl_tac. }
    apply Forall_app. split.
    { apply Forall_fmap, Forall_forall. intros [[i e] j] H. apply elem_of_entries in H as [He Hj]. cbn [compose].
      eapply cline_line; [|exact Hj]. exact (Forall_lookup_1 _ _ _ _ (rw_elems _ Hm) He). }
    apply List.Forall_cons; [by apply is_line_line, nlb_ok|]. apply Forall_app. split.
    { apply Forall_fmap, Forall_forall. intros x Hx. destruct (bln_text m x Hm Hx) as [[b ->]|(b & i & e & f & -> & H)]; cbn [compose bln]; [apply bhead_line|by apply bc_line_line]. }
    apply sls_lines. by destruct (nbc m <? 2)%nat.
Qed.

(** The fields of conditions are counted. *)
Definition heads (ls : list bytes) : nat := length (filter (λ l, is_bc_head l = true) ls).
Lemma heads_app l1 l2 : heads (l1 ++ l2) = (heads l1 + heads l2)%nat.
Proof. unfold heads. by rewrite filter_app, app_length. Qed.
Lemma heads_cons l ls : heads (l :: ls) = ((if is_bc_head l then 1 else 0) + heads ls)%nat.
Proof. unfold heads. rewrite filter_cons. destruct (is_bc_head l); [by rewrite decide_True|by rewrite decide_False]. Qed.
Lemma heads_none ls : (∀ l, l ∈ ls → is_bc_head l = false) → heads ls = 0%nat.
Proof.
  induction ls as [|l ls IH]; intros H; [done|]. rewrite heads_cons, H, IH; [done| |left]. intros l' Hl. apply H. by right.
Qed.
Definition noY (c : ascii) : bool := negb (Ascii.eqb c "Y").
Lemma noY_head l : forallb noY l = true → is_bc_head l = false.
Proof.
  intros H. apply (not_head ["Y"%char] l []); [apply NoDup_singleton| |cbn; lia|].
  - intros c Hc. apply elem_of_list_singleton in Hc as ->. apply elem_of_list_In. vm_compute. tauto.
  - intros c Hc. right. rewrite elem_of_list_singleton. intros ->. rewrite forallb_forall in H. apply elem_of_list_In, H in Hc. done.
Qed.
Lemma small_noY l : Forall small l → forallb noY l = true.
Proof.
  intros H. apply forallb_forall. intros c Hc. apply elem_of_list_In in Hc. apply (proj1 (Forall_forall small l) H) in Hc.
  unfold noY. destruct (Ascii.eqb_spec c "Y") as [->|]; [|done]. destruct Hc as [Hc|Hc]; vm_compute in Hc; done.
Qed.
Lemma typed_head (l t : bytes) : (length t < 4)%nat → Forall (λ c, small c ∨ c ∈ t) l → is_bc_head l = false.
Proof.
  intros Ht H. apply (not_head (str "BOUN") l t); [| |done|].
  - apply (bool_decide_unpack _). vm_compute. done.
  - intros c Hc. apply elem_of_list_In in Hc. apply elem_of_list_In. vm_compute in Hc. vm_compute. tauto.
  - intros c Hc. apply (proj1 (Forall_forall _ _) H) in Hc as [Hc|Hc]; [|by left]. right. intros HB. apply elem_of_list_In in HB. vm_compute in HB.
    destruct Hc as [Hc|Hc], HB as [<-|[<-|[<-|[<-|[]]]]]; vm_compute in Hc; done.
Qed.
Lemma small_typed (t l : bytes) : Forall small l → Forall (λ c, small c ∨ c ∈ t) l.
Proof. intros H. eapply Forall_impl; [exact H|]. cbn. auto. Qed.
Lemma typed_self (t : bytes) : Forall (λ c, small c ∨ c ∈ t) t.
Proof. apply Forall_forall. auto. Qed.
Lemma line_typed (t l : bytes) : Forall (λ c, small c ∨ c ∈ t) l → Forall (λ c, small c ∨ c ∈ t) (line l).
Proof. intros H. apply Forall_app. split; [done|]. apply Forall_singleton. left. by apply small_b. Qed.
Lemma cline_head nd nb ne' ne i e j : rea_elem nd nb ne' e → j ∈ csel e → is_bc_head (cline ne i e j) = false.
Proof.
  intros He Hj. destruct (csel_lookup _ _ _ _ _ He Hj) as (t & row & Hj12 & Ht & Hrow & Hte & [Hpl Htl] & Hr5).
  unfold cline. rewrite (nth_lookup_Some _ _ _ _ Ht). apply (typed_head _ (str t)); [lia|]. apply line_typed.
  repeat (apply Forall_app; split).
  - apply small_typed. unfold curve_ints. destruct (ne <? 10 ^ 3); [|destruct (ne <? 10 ^ 6)]; apply Forall_app; split; apply int_w_small.
  - apply small_typed, bind_small, fl_small.
  - apply small_typed, spaces_small.
  - apply typed_self.
Qed.
Lemma bc_line_head ne r : plain_text 2 (bt r) → is_bc_head (bc_line ne r) = false.
Proof.
  intros [Hp Hl]. rewrite bc_line_tail. apply (typed_head _ (str (bt r))); [lia|]. apply line_typed.
  apply List.Forall_cons; [left; by apply small_b|]. unfold ljust. repeat (apply Forall_app; split).
  - apply typed_self.
  - apply small_typed, spaces_small.
  - apply Forall_singleton. left. by apply small_b.
  - apply small_typed. unfold bc_tail. destruct (ne <? 10 ^ 3); [|destruct (ne <? 10 ^ 6)]; repeat (apply int_w_small || apply fl_small || apply fl18_small || (apply Forall_app; split)).
Qed.
Lemma forallb_noY_app l1 l2 : forallb noY l1 = true → forallb noY l2 = true → forallb noY (l1 ++ l2) = true.
Proof. intros H1 H2. rewrite forallb_app. by rewrite H1, H2. Qed.
Ltac noY_tac := apply noY_head; repeat ((by apply small_noY, int_w_small) || (by apply small_noY, fl_small) || apply forallb_noY_app || reflexivity).
Lemma gline_head i e j : is_bc_head (gline i e j) = false.
Proof. destruct j as [[z c]|]; noY_tac. Qed.
Lemma bhead_head b : is_bc_head (bhead b) = true.
Proof.
  destruct b as [|[|b]]; [reflexivity..|]. unfold bhead. set (z := Z.of_nat (S (S b)) - 1). unfold is_bc_head.
  assert (split (line (str "  ***** PASSIVE SCALAR " ++ int_w 4 z ++ str " BOUNDARY CONDITIONS *****")) =
    [str "*****"; str "PASSIVE"; str "SCALAR"; dec_int z; str "BOUNDARY"; str "CONDITIONS"; str "*****"]) as ->.
  { unfold line. rewrite <- !app_assoc. destruct (dec_int_spec z) as (N1 & N2 & _).
    etransitivity; [exact (f_equal (λ l, split (str "  ***** PASSIVE SCALAR " ++ l)) (eq_refl (int_w 4 z ++ str " BOUNDARY CONDITIONS *****" ++ [nl])))|].
    change (split (replicate 2 sp ++ str "*****" ++ sp :: str "PASSIVE" ++ sp :: str "SCALAR" ++ sp :: int_w 4 z ++ str " BOUNDARY CONDITIONS *****" ++ [nl]) =
      [str "*****"; str "PASSIVE"; str "SCALAR"; dec_int z; str "BOUNDARY"; str "CONDITIONS"; str "*****"]).
    rewrite split_spaces.
    rewrite !split_word_sp by (done || (apply Forall_forall; intros c Hc; apply elem_of_list_In in Hc; vm_compute in Hc; intuition subst; reflexivity)).
    unfold int_w. change (str " BOUNDARY CONDITIONS *****" ++ [nl]) with (sp :: str "BOUNDARY CONDITIONS *****" ++ [nl]).
    rewrite split_rjust by done. reflexivity. }
  assert (bytes_eqb (str "NO") (dec_int z) = false) as HN.
  { unfold bytes_eqb. apply bool_decide_eq_false_2. intros E. pose proof (dec_int_small z) as H. rewrite <- E in H.
    apply Forall_cons in H as [[H|H] _]; vm_compute in H; done. }
  cbn [drop existsb]. rewrite HN. replace (bytes_eqb (str "BOUNDARY") (str "BOUNDARY")) with true by reflexivity.
  rewrite !orb_true_r. reflexivity.
Qed.
Lemma heads_file m : rea_mesh m → heads (file_lines m) = nbc m.
Proof.
  intros Hm. unfold file_lines, head_lines. rewrite !heads_app, !heads_cons, !heads_app, !heads_cons, !heads_app, !heads_cons, !heads_app.
  replace (heads (sls rea_head1)) with 0%nat by reflexivity. replace (heads (sls rea_head2)) with 0%nat by (vm_compute; reflexivity).
  replace (heads (tail_lines (nbc m))) with 0%nat by (unfold tail_lines; destruct (nbc m <? 2)%nat; vm_compute; reflexivity).
  replace (is_bc_head (dim_line (ndim m))) with false by (destruct (rw_ndim _ Hm) as [-> | ->]; reflexivity).
  replace (is_bc_head (nel_line (nel m) (ndim m))) with false by (symmetry; noY_tac).
  replace (is_bc_head (ncurv_line (ncurv m))) with false by (symmetry; noY_tac).
  rewrite (heads_none (glines m)).
  2:{ intros l Hl. apply elem_of_list_fmap in Hl as ([[i e] j] & -> & _). apply gline_head. }
  rewrite (heads_none (clines m)).
  2:{ intros l Hl. apply elem_of_list_fmap in Hl as ([[i e] j] & -> & Hl). apply elem_of_entries in Hl as [He Hj].
      eapply cline_head; [|exact Hj]. exact (Forall_lookup_1 _ _ _ _ (rw_elems _ Hm) He). }
  replace (is_bc_head (line (str "  ***** CURVED SIDE DATA *****"))) with false by reflexivity.
  replace (is_bc_head (line (str "  ***** BOUNDARY CONDITIONS *****"))) with false by reflexivity.
  replace (heads (blines m)) with (nbc m); [change (heads []) with 0%nat; lia|]. symmetry. unfold blines.
  pose proof (bln_text m) as HT. specialize (λ x, HT x Hm). unfold bxs in *. revert HT. generalize (nbc m). intros n.
  induction n as [|n IH]; intros HT; [done|]. rewrite range_snoc in *. rewrite bind_app, fmap_app, heads_app, IH.
  - cbn [mbind list_bind]. rewrite app_nil_r. cbn [fmap list_fmap bln]. rewrite heads_cons, bhead_head.
    change (list_fmap ?A ?B ?f) with (fmap (M:=list) (A:=A) (B:=B) f). rewrite heads_none; [lia|].
    intros l Hl. apply elem_of_list_fmap in Hl as (x & -> & Hx). apply elem_of_list_fmap in Hx as ([[i e] f] & -> & Hx).
    destruct (HT (n, Some (i, e, f))) as [[b [=]]|(b & i' & e' & f' & [= <- <- <- <-] & H)].
    + rewrite bind_app. apply elem_of_app. right. cbn [mbind list_bind]. rewrite app_nil_r. right. apply elem_of_list_fmap. by exists (i, e, f).
    + by apply bc_line_head.
  - intros x Hx. apply HT. rewrite bind_app. apply elem_of_app. by left.
Qed.
Lemma head_ok nd rest : dim23 nd → rea_head (head_lines nd ++ rest) = Ok (Z.of_nat nd, rest).
Proof. intros [-> | ->]; vm_compute; reflexivity. Qed.

(** ** Reading it *)
Definition elem_back (nd nb : nat) (ne : Z) (p : nat) (e : elem f64) : elem f64 :=
  bfold nd nb ne p e (set_ccurv (ccurv e) (set_curv (norm_curv (tx e)) (set_pos (norm_rpos nd e) (rfresh nd nb)))).
Definition mesh_back (native : order) (m : mesh64) : mesh64 :=
  set_ncurv (ncurv m) (set_elems (imap (elem_back (ndim m) (nbc m) (Z.of_nat (nel m))) (elems m))
    (new_hexa z64 (order_name native) (ndim m) (nel m) PyList [2; 2; ndim m - 1]%nat [ndim m; 0; 0; 0; 0]%nat (nbc m))).
Lemma n_curves_rea m : rea_mesh m → length (entries csel (elems m)) = n_curves m.
Proof.
  intros Hm. rewrite entries_length. unfold n_curves. f_equal. apply list_fmap_ext. intros i e He.
  destruct (ra_ccurv _ _ _ _ (Forall_lookup_1 _ _ _ _ (rw_elems _ Hm) He)) as [L _].
  unfold csel. rewrite <- L. etransitivity; [exact (filter_select (λ t, negb (bool_decide (t = ""%string))) (ccurv e) ""%string)|]. f_equal.
  apply list_filter_iff. intros t. case_bool_decide; naive_solver.
Qed.
Lemma tok_number w z l : head l = Some sp → tok 0 (line (str "  " ++ int_w w z ++ l)) = Ok (dec_int z).
Proof.
  destruct l as [|c l]; intros Hl; [done|]. injection Hl as ->.
  destruct (dec_int_spec z) as (N1 & N2 & _). unfold tok, line. rewrite <- !app_assoc. change (str "  ") with (replicate 2 sp).
  rewrite split_spaces. unfold int_w. cbn [app]. by rewrite split_rjust.
Qed.
Lemma read_body native m : rea_mesh m →
  rea_body native (nbc m) (Z.of_nat (ndim m)) (nel_line (nel m) (ndim m) :: glines m ++
    line (str "  ***** CURVED SIDE DATA *****") :: ncurv_line (ncurv m) :: clines m ++
    line (str "  ***** BOUNDARY CONDITIONS *****") :: blines m ++ tail_lines (nbc m)) = Ok (mesh_back native m).
Proof.
  intros Hm. destruct (rw_nel _ Hm) as [HL Hne]. unfold rea_body. cbn [readline].
  unfold nel_line. rewrite tok_number by done. cbn [rbind]. rewrite py_int_token. cbn [rbind].
  replace (negb ((Z.of_nat (ndim m) =? 2) || (Z.of_nat (ndim m) =? 3)) || (Z.of_nat (nel m) <? 0)) with false.
  2:{ symmetry. apply orb_false_iff. split; [destruct (rw_ndim _ Hm) as [-> | ->]; done|lia]. }
  rewrite !Nat2Z.id.
  (* geometry *)
  set (E0 := replicate (nel m) (rfresh (ndim m) (nbc m))).
  change (elems (new_hexa _ _ _ _ _ _ _ _)) with E0.
  replace (geom_positions (ndim m) (nel m)) with ((λ '(i, _, j), (i, j)) <$> entries (λ _ : elem f64, gsel (ndim m)) (elems m)).
  2:{ unfold geom_positions. symmetry. apply (range_entries _ (λ '(i, _, j), (i, j))); [done|]. intros i e _. unfold gsel. cbn [fmap list_fmap]. f_equal.
      change (list_fmap ?A ?B ?f) with (fmap (M:=list) (A:=A) (B:=B) f). rewrite <- list_fmap_compose. done. }
  unfold glines.
  destruct (with_lines_pos geom_step (λ '(i, _, j), (i, j)) (λ '(i, e, j), gline i e j) (λ s '(i, e, j), alter (gupd e j) i s) (λ s, length s = nel m)
    (entries (λ _ : elem f64, gsel (ndim m)) (elems m)) E0
    (line (str "  ***** CURVED SIDE DATA *****") :: ncurv_line (ncurv m) :: clines m ++
      line (str "  ***** BOUNDARY CONDITIONS *****") :: blines m ++ tail_lines (nbc m))) as [-> HG].
  { apply replicate_length. }
  { intros [[i e] j] s Hx Hs. apply elem_of_entries in Hx as [He Hj]. split; [by apply (geom_step_ok m)|by rewrite alter_length]. }
  set (E1 := foldl _ E0 _) in *. cbn [rbind readline]. unfold ncurv_line. rewrite tok_number by done. cbn [rbind]. rewrite py_int_token. cbn [rbind].
  assert (∀ p e, elems m !! p = Some e → E1 !! p = Some (set_pos (norm_rpos (ndim m) e) (rfresh (ndim m) (nbc m)))) as HE1.
  { intros p e He. unfold E1. rewrite (entries_fold (λ _ e j, gupd e j)), He. unfold E0.
    rewrite lookup_replicate_2 by (apply lookup_lt_Some in He; lia). cbn [fmap option_fmap option_map]. by rewrite geometry_done by apply Hm. }
  (* curves *)
  rewrite (rw_ncurv _ Hm), Nat2Z.id, <- (n_curves_rea _ Hm). unfold clines.
  destruct (with_lines_ok (rea_curve_step (Z.of_nat (nel m))) (λ '(i, e, j), cline (Z.of_nat (nel m)) i e j) (λ s '(i, e, j), alter (cupd i (tx e) j) i s)
    (curve_shape (nel m)) (range (length (entries csel (elems m)))) (entries csel (elems m)) E1
    (line (str "  ***** BOUNDARY CONDITIONS *****") :: blines m ++ tail_lines (nbc m))) as [-> HC].
  { by rewrite length_range. }
  { split; [done|]. apply Forall_lookup. intros p x Hx. assert (p < nel m)%nat as Hp by (rewrite <- HG; by eapply lookup_lt_Some).
    destruct (lookup_lt_is_Some_2 (elems m) p ltac:(lia)) as [e He]. rewrite (HE1 p e He) in Hx. injection Hx as <-. done. }
  { intros k p [[i e] j] s Hk Hx Hs. apply elem_of_list_lookup_2, elem_of_entries in Hx as [He Hj].
    apply (rea_curve_ok (ndim m) (nbc m)); [exact (Forall_lookup_1 _ _ _ _ (rw_elems _ Hm) He)|done|apply lookup_lt_Some in He; lia|done|done|done]. }
  set (E2 := foldl _ E1 _) in *. cbn [rbind readline].
  assert (∀ p e, elems m !! p = Some e → E2 !! p = Some (set_ccurv (ccurv e) (set_curv (norm_curv (tx e)) (set_pos (norm_rpos (ndim m) e) (rfresh (ndim m) (nbc m)))))) as HE2.
  { intros p e He. unfold E2. rewrite (entries_fold (λ i e j, cupd i (tx e) j)), He, (HE1 p e He). cbn [fmap option_fmap option_map]. f_equal.
    pose proof (Forall_lookup_1 _ _ _ _ (rw_elems _ Hm) He) as Hr.
    change (csel e) with (csel (tx e)). rewrite norm_curves; [done| |exact (proj1 (ra_ccurv _ _ _ _ Hr))|done|done].
    unfold tx. cbn [curv set_curv]. rewrite fmap_length. exact (proj1 (ra_curv _ _ _ _ Hr)). }
  (* conditions *)
  rewrite <- HL at 2. rewrite <- bpos_ok. unfold blines.
  destruct (with_lines_pos (rea_bc_step (Z.of_nat (nel m))) bpos (bln (Z.of_nat (nel m))) (bstep (Z.of_nat (nel m))) (λ s, length s = nel m)
    (bxs (ndim m) (nbc m) (elems m)) E2 (tail_lines (nbc m))) as [-> HB].
  { apply HC. }
  { intros x s Hx Hs. split; [by apply bc_step_rea_ok|]. destruct x as [b [[[i e] f]|]]; cbn [bstep]; [by rewrite alter_length|done]. }
  cbn [rbind]. unfold mesh_back. rewrite (rw_ncurv _ Hm), <- (n_curves_rea _ Hm). f_equal. f_equal. f_equal.
  apply list_eq. intros p. rewrite list_lookup_imap. destruct (elems m !! p) as [e|] eqn:He; cbn [fmap option_fmap option_map].
  - rewrite (bstep_fold _ _ _ _ _ _ _ He), (HE2 p e He). done.
  - apply lookup_ge_None_2. rewrite HB, <- HL. by apply lookup_ge_None.
Qed.
Theorem rea_round_trip native m : rea_mesh m → ∃ f, writerea m = (f, Ok (e_mesh m)) ∧ readrea native f = Ok (mesh_back native m).
Proof.
  intros Hm. exists (concat (file_lines m)). unfold writerea. rewrite rea_lines_ok, write_all_Ok by done. split; [done|].
  unfold readrea. rewrite lines_concat by (by apply file_is_lines). fold (heads (file_lines m)). rewrite heads_file by done.
  unfold file_lines at 1. rewrite head_ok by apply Hm. cbn [rbind]. by apply read_body.
Qed.

(** ** What reading back gives, seen from outside *)
Lemma unconnected_ok ne i f x : unconnected x = bool_decide (bt (e_rec i f x) = "E"%string) && f64_eqb (txt_value (bc_prec ne) (bp3 (e_rec i f x))) z64.
Proof.
  rewrite txt_zero by (unfold bc_prec; destruct (ne <? 10 ^ 6); lia). unfold unconnected, e_rec.
  destruct (bool_decide (bt x = ""%string)); done.
Qed.
Lemma brd_ok ne b p e f : cond_read ne p f (bc_nth b e f) (brd ne b p e f).
Proof.
  set (x := bc_nth b e f). unfold cond_read. rewrite (unconnected_ok ne p f). unfold brd, rd_bc. fold x.
  destruct (bool_decide (bt (e_rec p f x) = "E"%string) && f64_eqb (txt_value (bc_prec ne) (bp3 (e_rec p f x))) z64); [done|].
  cbn [bt bel bface bp3 bp4 bp5 bp6 bp7].
  assert (bc_digits ne = S (bc_prec ne)) as -> by (unfold bc_digits, bc_prec; by destruct (ne <? 10 ^ 6)).
  unfold e_rec. case_bool_decide as Ex; cbn [bt bel bface bp3 bp4 bp5 bp6 bp7].
  - split; [done|]. rewrite orb_true_r. split; [by destruct ((10 ^ 3 <=? ne) && (ne <? 10 ^ 6))|]. split_and!; apply txt_rounded.
  - split; [done|]. rewrite orb_false_r. split; [by destruct ((10 ^ 3 <=? ne) && (ne <? 10 ^ 6))|]. split_and!; apply txt_rounded.
Qed.
Lemma elem_back_ok nd nb ne p e : dim23 nd → rea_elem nd nb ne e → elem_read nd nb ne p e (elem_back nd nb ne p e).
Proof.
  intros Hnd He. unfold elem_back. set (x := set_ccurv _ _). destruct (bfold_ok nd nb ne p e x) as (B & -> & LB & HB). split.
  - done.
  - intros c z y w Hc Hz. destruct (ra_pos _ _ _ _ He c z y w Hc Hz) as (v & Hv & _). exists v, (txt_value 6 v). split; [done|].
    split; [|apply txt_rounded]. rewrite (norm_rpos_corner nd e c z y w Hnd Hc Hz (set_bcs B x)) by done. unfold cv. by rewrite Hv.
  - done.
  - intros j t row Ht Hne Hr. exists (txt_value 6 <$> row). split.
    + change (curv (set_bcs B x)) with (norm_curv (tx e)). unfold norm_curv, tx. cbn [ccurv curv set_curv]. rewrite lookup_zip_with, Ht, list_lookup_fmap, Hr. cbn.
      by rewrite bool_decide_false.
    + clear. induction row as [|a l IH]; [constructor|]. constructor; [apply txt_rounded|done].
  - intros b f r y Hb Hf Hr Hy. cbn [bcs set_bcs].
    assert (bcs x !! b = Some (replicate 6 (zero_bc z64))) as Hx by (exact (lookup_replicate_2 nb _ b Hb)).
    destruct (HB b _ Hb Hx) as (r' & Hr' & _ & Hf'). exists r', (brd ne b p e f). split; [done|]. split.
    + apply Hf'; [done|]. rewrite replicate_length. destruct Hnd; lia.
    + pose proof (brd_ok ne b p e f) as H. unfold bc_nth in H at 1. rewrite (nth_lookup_Some _ _ _ _ Hr) in H.
      by rewrite (nth_lookup_Some _ _ _ _ Hy) in H.
Qed.
Lemma mesh_back_ok native m : rea_mesh m → mesh_read m (mesh_back native m).
Proof.
  intros Hm. split; [done..| |].
  - cbn. apply imap_length.
  - intros p e He. exists (elem_back (ndim m) (nbc m) (Z.of_nat (nel m)) p e). split.
    + cbn [elems mesh_back set_ncurv set_elems]. by rewrite list_lookup_imap, He.
    + apply elem_back_ok; [apply Hm|]. exact (Forall_lookup_1 _ _ _ _ (rw_elems _ Hm) He).
Qed.
Lemma decimal_Z n z : Z.abs z < 10 ^ Z.of_nat n → decimal_number n (IZR z).
Proof. intros H. exists z, 0. split; [done|]. cbn. ring. Qed.
Lemma rounded_exact n x y : is_finite 53 1024 x = true → decimal_number n (B2R 53 1024 x) → rounded n x y → y = x.
Proof.
  intros Hx Hd (_ & _ & H). destruct (H Hx) as (d & HC & HN). apply (closest_self _ _ _ Hd) in HC. subst d. by apply nearest64_self.
Qed.
Lemma rounded_Z n z y : Z.abs z < 10 ^ Z.of_nat n → Z.abs z <= bnd64 → rounded n (f64_of_Z z) y → y = f64_of_Z z.
Proof.
  intros H1 H2. destruct (f64_of_Z_correct z H2) as (E & F & _). apply rounded_exact; [done|]. rewrite E. by apply decimal_Z.
Qed.

(** ** The caller's mesh *)
Lemma e_elem_blind nb nf i e : set_bcs [] (e_elem nb nf i e) = set_bcs [] e.
Proof. done. Qed.
Lemma e_mesh_typed m : typed_only m (e_mesh m).
Proof.
  split.
  - unfold bcs_blind, e_mesh. destruct m. unfold set_elems. cbn. f_equal.
    apply list_eq. intros k. rewrite !list_lookup_fmap, list_lookup_imap. destruct (elems !! k) as [e|]; [|done].
    cbn [fmap option_fmap option_map].
    match goal with |- context [if ?b then _ else _] => destruct b end; reflexivity.
  - intros p b f x Hx. unfold get_bc in *. unfold e_mesh. cbn [elems set_elems]. rewrite list_lookup_imap.
    destruct (elems m !! p) as [e|] eqn:He; [|done]. cbn in Hx. destruct (bcs e !! b) as [r|] eqn:Hr; [|done]. cbn in Hx.
    cbn [fmap option_fmap option_map mbind option_bind]. destruct (p <? nel m)%nat.
    2:{ exists x. rewrite Hr. cbn. auto. }
    unfold e_elem. cbn [bcs set_bcs]. rewrite list_lookup_imap, Hr. cbn [fmap option_fmap option_map mbind option_bind].
    destruct (b <? nbc m)%nat; [|exists x; auto]. rewrite list_lookup_imap, Hx. cbn [fmap option_fmap option_map].
    eexists. split; [done|]. destruct (f <? 2 * ndim m)%nat; [|by left]. unfold e_rec. case_bool_decide; auto.
Qed.
Lemma e_mesh_same m : (∀ p b f x, get_bc m p b f = Some x → bt x ≠ ""%string) → e_mesh m = m.
Proof.
  intros H.
  assert (∀ p e, elems m !! p = Some e → e_elem (nbc m) (2 * ndim m) p e = e) as HE.
  { intros p e He. unfold e_elem.
    assert (imap (λ b row, if (b <? nbc m)%nat then imap (λ f r, if (f <? 2 * ndim m)%nat then e_rec p f r else r) row else row) (bcs e) = bcs e) as ->.
    { apply list_eq. intros b. rewrite list_lookup_imap. destruct (bcs e !! b) as [r|] eqn:Hr; [|reflexivity].
      cbn [fmap option_fmap option_map]. destruct (b <? nbc m)%nat; [|reflexivity]. f_equal.
      apply list_eq. intros f. rewrite list_lookup_imap. destruct (r !! f) as [x|] eqn:Hx; [|reflexivity].
      cbn [fmap option_fmap option_map]. destruct (f <? 2 * ndim m)%nat; [|reflexivity]. unfold e_rec.
      rewrite bool_decide_false; [done|]. apply (H p b f). unfold get_bc. rewrite He. cbn. by rewrite Hr. }
    by destruct e. }
  unfold e_mesh.
  assert (imap (λ i e, if (i <? nel m)%nat then e_elem (nbc m) (2 * ndim m) i e else e) (elems m) = elems m) as ->; [|by destruct m].
  apply list_eq. intros p. rewrite list_lookup_imap. destruct (elems m !! p) as [e|] eqn:He; [|reflexivity].
  cbn [fmap option_fmap option_map]. rewrite (HE p e He). by destruct (p <? nel m)%nat.
Qed.
