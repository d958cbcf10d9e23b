(** Facts about bytes and binary numbers: decoding inverts encoding. *)
From Coq Require Import Lia Reals Lra.
From Flocq Require Import Core.Core IEEE754.BinarySingleNaN IEEE754.Binary IEEE754.Bits.
From Verif Require Import Base Float Bytes.
Open Scope Z_scope.

Lemma byte_val_of z : 0 <= z < 256 → byte_val (byte_of z) = z.
Proof.
  intros H. unfold byte_val, byte_of. rewrite Ascii.N_ascii_embedding by lia. lia.
Qed.
Lemma byte_val_range c : 0 <= byte_val c < 256.
Proof. unfold byte_val. pose proof (Ascii.N_ascii_bounded c). lia. Qed.
Lemma byte_of_val c : byte_of (byte_val c) = c.
Proof. unfold byte_of, byte_val. rewrite N2Z.id. apply Ascii.ascii_N_embedding. Qed.

Lemma to_le_length n z : length (to_le n z) = n.
Proof. revert z. induction n as [|n IH]; intros z; cbn; [done|]. by rewrite IH. Qed.
Lemma from_to_le n z : 0 <= z < 256 ^ Z.of_nat n → from_le (to_le n z) = z.
Proof.
  revert z. induction n as [|n IH]; intros z Hz.
  - cbn in *. lia.
  - cbn [to_le from_le]. pose proof (Z.mod_pos_bound z 256). rewrite byte_val_of by lia.
    rewrite IH; [pose proof (Z.div_mod z 256); lia|].
    rewrite Nat2Z.inj_succ, Z.pow_succ_r in Hz by lia. split; [apply Z.div_pos; lia|].
    apply Z.div_lt_upper_bound; lia.
Qed.
Lemma from_le_range l : 0 <= from_le l < 256 ^ Z.of_nat (length l).
Proof.
  induction l as [|c l IH]; cbn [from_le length]; [cbn; lia|].
  pose proof (byte_val_range c). rewrite Nat2Z.inj_succ, Z.pow_succ_r by lia. lia.
Qed.
Lemma to_from_le l : to_le (length l) (from_le l) = l.
Proof.
  induction l as [|c l IH]; cbn [from_le length to_le]; [done|].
  pose proof (byte_val_range c) as Hc.
  replace ((byte_val c + 256 * from_le l) mod 256) with (byte_val c).
  - rewrite byte_of_val. f_equal.
    replace ((byte_val c + 256 * from_le l) / 256) with (from_le l); [done|].
    rewrite (Z.mul_comm 256), Z.div_add, Z.div_small by lia. lia.
  - rewrite (Z.mul_comm 256), Z.mod_add, Z.mod_small by lia. lia.
Qed.
Lemma to_order_length o l : length (to_order o l) = length l.
Proof. destruct o; cbn; [done|]. apply rev_length. Qed.
Lemma to_order_invol o l : to_order o (to_order o l) = l.
Proof. destruct o; cbn; [done|]. apply rev_involutive. Qed.
Lemma word_length o n z : length (word o n z) = n.
Proof. unfold word. by rewrite to_order_length, to_le_length. Qed.
Lemma unword_word o n z : 0 <= z < 256 ^ Z.of_nat n → unword o (word o n z) = z.
Proof. intros H. unfold unword, word. rewrite to_order_invol. by apply from_to_le. Qed.
Lemma word_unword o l : word o (length l) (unword o l) = l.
Proof.
  unfold unword, word. rewrite <- (to_order_length o l), to_from_le. apply to_order_invol.
Qed.

Lemma i32_bytes_length o z : length (i32_bytes o z) = 4%nat. Proof. apply word_length. Qed.
Lemma f32_bytes_length o x : length (f32_bytes o x) = 4%nat. Proof. apply word_length. Qed.
Lemma f64_bytes_length o x : length (f64_bytes o x) = 8%nat. Proof. apply word_length. Qed.
Lemma i32_read_bytes o z : - 2 ^ 31 <= z < 2 ^ 31 → i32_read o (i32_bytes o z) = z.
Proof.
  intros H. unfold i32_read, i32_bytes, i32_of_u.
  rewrite unword_word by (change (256 ^ Z.of_nat 4) with (2 ^ 32); apply Z.mod_pos_bound; lia).
  destruct (Z.ltb_spec z 0).
  - replace (z mod 2 ^ 32) with (z + 2 ^ 32).
    + destruct (Z.ltb_spec (z + 2 ^ 32) (2 ^ 31)); lia.
    + rewrite <- (Z.mod_add z 1), Z.mod_small; lia.
  - rewrite Z.mod_small by lia. destruct (Z.ltb_spec z (2 ^ 31)); lia.
Qed.
Lemma f32_read_bytes o x : f32_read o (f32_bytes o x) = x.
Proof.
  unfold f32_read, f32_bytes. rewrite unword_word.
  - exact (binary_float_of_bits_of_binary_float 23 8 eq_refl eq_refl eq_refl x).
  - apply (bits_of_binary_float_range 23 8); done.
Qed.
Lemma f64_read_bytes o x : f64_read o (f64_bytes o x) = x.
Proof.
  unfold f64_read, f64_bytes. rewrite unword_word.
  - exact (binary_float_of_bits_of_binary_float 52 11 eq_refl eq_refl eq_refl x).
  - apply (bits_of_binary_float_range 52 11); done.
Qed.

Definition has_dtype (d : dtype) (v : fval) : Prop :=
  match d, v with D64, V64 _ => True | D32, V32 _ => True | _, _ => False end.
Lemma fval_bytes_length o d v : has_dtype d v → length (fval_bytes o v) = dsize d.
Proof. destruct d, v; try done; intros _; [apply f64_bytes_length|apply f32_bytes_length]. Qed.
Lemma fval_read_bytes o d v : has_dtype d v → fval_read o d (fval_bytes o v) = v.
Proof. destruct d, v; try done; intros _; cbn; [by rewrite f64_read_bytes|by rewrite f32_read_bytes]. Qed.
Lemma cast_dtype d v : has_dtype d (cast d v).
Proof. by destruct d, v. Qed.
Lemma cast_id d v : has_dtype d v → cast d v = v.
Proof. by destruct d, v. Qed.

Lemma chunks_length k n l : length (chunks k n l) = n.
Proof. revert l. induction n as [|n IH]; intros l; cbn; [done|]. by rewrite IH. Qed.
Lemma chunks_app {X} k (g : X → bytes) (xs : list X) rest :
  (∀ x, x ∈ xs → length (g x) = k) → chunks k (length xs) ((xs ≫= g) ++ rest) = g <$> xs.
Proof.
  induction xs as [|x xs IH]; intros H; [done|]. cbn [length chunks mbind list_bind fmap list_fmap].
  assert (length (g x) = k) as Hx by (apply H; left).
  rewrite <- (app_assoc (g x)).
  rewrite take_app_alt, drop_app_alt by done. f_equal. apply IH. intros y Hy. apply H. by right.
Qed.
Lemma bind_length {X} k (g : X → bytes) (xs : list X) :
  (∀ x, x ∈ xs → length (g x) = k) → length (xs ≫= g) = (length xs * k)%nat.
Proof.
  induction xs as [|x xs IH]; intros H; [done|]. cbn [length mbind list_bind].
  rewrite app_length, (H x) by left. rewrite IH; [lia|]. intros y Hy. apply H. by right.
Qed.
Lemma frombuffer_bytes o d (xs : list fval) rest : Forall (has_dtype d) xs →
  frombuffer o d (length xs) ((xs ≫= fval_bytes o) ++ rest) = Ok xs.
Proof.
  intros H. assert (∀ x, x ∈ xs → length (fval_bytes o x) = dsize d) as Hl.
  { intros x Hx. apply fval_bytes_length. by eapply Forall_forall in H. }
  unfold frombuffer. rewrite app_length, (bind_length (dsize d)) by done.
  destruct (Nat.ltb_spec (length xs * dsize d + length rest) (length xs * dsize d)); [lia|].
  rewrite chunks_app by done. f_equal. rewrite <- list_fmap_compose. etransitivity; [|apply list_fmap_id].
  apply list_fmap_ext. intros i x Hx. cbn. apply fval_read_bytes. eapply Forall_forall; [exact H|].
  by eapply elem_of_list_lookup_2.
Qed.
Lemma unpack_i32_bytes o (zs : list Z) : Forall (λ z, - 2 ^ 31 <= z < 2 ^ 31) zs →
  unpack_i32 o (Z.of_nat (length zs)) (zs ≫= i32_bytes o) = Ok zs.
Proof.
  intros H. unfold unpack_i32. rewrite (bind_length 4) by (intros; apply i32_bytes_length).
  rewrite (proj2 (Z.eqb_eq _ _)) by lia. rewrite Nat2Z.id.
  pose proof (chunks_app 4 (i32_bytes o) zs []) as Hc. rewrite app_nil_r in Hc.
  rewrite Hc by (intros; apply i32_bytes_length). f_equal. rewrite <- list_fmap_compose.
  etransitivity; [|apply list_fmap_id].
  apply list_fmap_ext. intros i x Hx. cbn. apply i32_read_bytes. exact (Forall_lookup_1 _ _ _ _ H Hx).
Qed.
Lemma py_read_app n a b : n = Z.of_nat (length a) → py_read n (a ++ b) = (a, b).
Proof.
  intros ->. unfold py_read. rewrite (proj2 (Z.ltb_ge _ _)) by lia. rewrite Nat2Z.id.
  by rewrite take_app, drop_app.
Qed.
Lemma write_all_app l1 l2 : (write_all l1).2 = Ok tt →
  write_all (l1 ++ l2) = ((write_all l1).1 ++ (write_all l2).1, (write_all l2).2).
Proof.
  induction l1 as [|[b|e] l1 IH]; cbn; intros H.
  - by destruct (write_all l2).
  - destruct (write_all l1) as [f r] eqn:E. cbn in H. subst r. rewrite IH by done. cbn. by rewrite app_assoc.
  - done.
Qed.
Lemma write_all_Ok (l : list bytes) : write_all (Ok <$> l) = (concat l, Ok tt).
Proof. induction l as [|b l IH]; cbn; [done|]. by rewrite IH. Qed.

(** Narrowing and widening. *)
Lemma sign_F2R s m e : match Rcompare (F2R (beta:=radix2) {| Fnum := cond_Zopp s (Z.pos m); Fexp := e |}) 0 with
  | Eq => s | Lt => true | Gt => false end = s.
Proof.
  destruct (Rcompare_spec (F2R (beta:=radix2) {| Fnum := cond_Zopp s (Z.pos m); Fexp := e |}) 0) as [H|H|H]; [|done|].
  - apply lt_0_F2R in H. by destruct s.
  - apply gt_0_F2R in H. by destruct s.
Qed.
Lemma widen_correct (x : f32) : is_finite 24 128 x = true →
  B2R 53 1024 (widen x) = B2R 24 128 x ∧ is_finite 53 1024 (widen x) = true ∧ Bsign 53 1024 (widen x) = Bsign 24 128 x.
Proof.
  destruct x as [s|s|s pl Hp|s m e H]; try done. intros _. cbn [widen].
  pose proof (binary_normalize_correct 53 1024 prec53 emax1024 mode_NE (cond_Zopp s (Zpos m)) e s) as HC.
  rewrite sign_F2R in HC. cbn [Bsign].
  change (F2R (beta:=radix2) {| Fnum := cond_Zopp s (Z.pos m); Fexp := e |}) with (B2R 24 128 (B754_finite 24 128 s m e H)) in HC.
  set (x := B754_finite 24 128 s m e H) in *.
  assert (Hr : round radix2 (SpecFloat.fexp 53 1024) (round_mode mode_NE) (B2R 24 128 x) = B2R 24 128 x).
  { apply round_generic; [apply valid_rnd_round_mode|].
    apply generic_inclusion_mag with (SpecFloat.fexp 24 128); [|apply generic_format_B2R].
    intros _. unfold SpecFloat.fexp, SpecFloat.emin. lia. }
  rewrite Hr, Rlt_bool_true in HC; [done|].
  apply Rlt_trans with (bpow radix2 128); [apply abs_B2R_lt_emax|apply bpow_lt; lia].
Qed.
Lemma narrow_correct (x : f64) : is_finite 53 1024 x = true →
  if Rlt_bool (Rabs (round radix2 (SpecFloat.fexp 24 128) ZnearestE (B2R 53 1024 x))) (bpow radix2 128)
  then B2R 24 128 (narrow x) = round radix2 (SpecFloat.fexp 24 128) ZnearestE (B2R 53 1024 x) ∧
    is_finite 24 128 (narrow x) = true ∧ Bsign 24 128 (narrow x) = Bsign 53 1024 x
  else narrow x = B754_infinity 24 128 (Bsign 53 1024 x).
Proof.
  destruct x as [s|s|s pl Hp|s m e H]; try done; intros _; cbn [narrow].
  - cbn [B2R Bsign]. rewrite round_0 by apply valid_rnd_N. rewrite Rabs_R0, Rlt_bool_true; [done|]. apply bpow_gt_0.
  - pose proof (binary_normalize_correct 24 128 prec24 emax128 mode_NE (cond_Zopp s (Zpos m)) e s) as HC.
    rewrite sign_F2R in HC. cbn [Bsign B2R]. cbn [round_mode] in HC.
    destruct (Rlt_bool _ _); [done|].
    assert (Rlt_bool (F2R (beta:=radix2) {| Fnum := cond_Zopp s (Z.pos m); Fexp := e |}) 0 = s) as Hs.
    { destruct s; [apply Rlt_bool_true, F2R_lt_0; cbn; lia|apply Rlt_bool_false, F2R_ge_0; cbn; lia]. }
    rewrite Hs in HC. destruct (binary_normalize 24 128 _ _ mode_NE _ e s) as [? |? |? ? ?|? ? ? ?]; cbn in HC; try discriminate.
    by injection HC as ->.
Qed.

(** Quiet: not a signalling NaN. *)
Definition quiet32 (y : f32) : bool :=
  match y with B754_nan _ _ _ pl _ => Z.testbit (Zpos pl) 22 | _ => true end.
Lemma nan_pl_iff prec pl : 1 < prec → nan_pl prec pl = true ↔ Zpos pl < 2 ^ (prec - 1).
Proof.
  intros Hp. unfold nan_pl. rewrite Z.ltb_lt. rewrite Digits.Zpos_digits2_pos.
  pose proof (Digits.Zdigits_correct radix2 (Z.pos pl)) as [H1 H2]. rewrite Z.abs_eq in H1, H2 by lia.
  change (Z.pow_pos 2) with (Z.pow 2) in *. cbn [radix_val radix2] in *. split; intros H.
  - eapply Z.lt_le_trans; [exact H2|]. apply Z.pow_le_mono_r; lia.
  - assert (2 ^ (Digits.Zdigits radix2 (Z.pos pl) - 1) < 2 ^ (prec - 1)) as H3 by lia.
    apply Z.pow_lt_mono_r_iff in H3; lia.
Qed.
Lemma lor_lt a b n : 0 <= n → 0 <= a < 2 ^ n → 0 <= b < 2 ^ n → 0 <= Z.lor a b < 2 ^ n.
Proof.
  intros Hn Ha Hb. split; [apply Z.lor_nonneg; lia|].
  destruct (Z.eq_dec (Z.lor a b) 0) as [->|Hz]; [lia|].
  assert (0 <= Z.lor a b) by (apply Z.lor_nonneg; lia).
  assert (n ≠ 0) as Hn0.
  { intros ->. apply Hz. cbn in *. assert (a = 0) as -> by lia. assert (b = 0) as -> by lia. done. }
  assert (∀ c, 0 <= c < 2 ^ n → Z.log2 c < n) as Hl.
  { intros c Hc. destruct (Z.eq_dec c 0) as [->|]; [cbn; lia|]. apply Z.log2_lt_pow2; lia. }
  apply Z.log2_lt_pow2; [lia|]. rewrite Z.log2_lor by lia. apply Z.max_lub_lt; by apply Hl.
Qed.
Lemma lor_pos a n : 0 <= n → 0 <= a → 0 < Z.lor a (2 ^ n).
Proof.
  intros Hn Ha. assert (0 <= Z.lor a (2 ^ n)) by (apply Z.lor_nonneg; lia).
  destruct (Z.eq_dec (Z.lor a (2 ^ n)) 0) as [E|]; [|lia]. apply Z.lor_eq_0_iff in E as [_ E]. lia.
Qed.
Lemma nan32_eq s pl : 0 < pl < 2 ^ 23 → ∃ H, nan32 s pl = B754_nan 24 128 s (Z.to_pos pl) H.
Proof.
  intros Hp. unfold nan32. destruct (Bool.bool_dec _ _) as [H|H]; [by exists H|].
  destruct H. apply nan_pl_iff; [lia|]. rewrite Z2Pos.id; lia.
Qed.
Lemma nan64_eq s pl : 0 < pl < 2 ^ 52 → ∃ H, nan64 s pl = B754_nan 53 1024 s (Z.to_pos pl) H.
Proof.
  intros Hp. unfold nan64. destruct (Bool.bool_dec _ _) as [H|H]; [by exists H|].
  destruct H. apply nan_pl_iff; [lia|]. rewrite Z2Pos.id; lia.
Qed.
Lemma nan32_inj s pl pl' H H' : pl = pl' → B754_nan 24 128 s pl H = B754_nan 24 128 s pl' H'.
Proof. intros ->. f_equal. apply Eqdep_dec.UIP_dec, Bool.bool_dec. Qed.

Lemma narrow_widen (y : f32) : quiet32 y = true → narrow (widen y) = y.
Proof.
  intros Hq. destruct (is_finite 24 128 y) eqn:Hf.
  - destruct (widen_correct y Hf) as (H1 & H2 & H3).
    pose proof (narrow_correct (widen y) H2) as HN. rewrite H1 in HN.
    rewrite (round_generic radix2 _ _ _ (generic_format_B2R 24 128 y)) in HN.
    rewrite Rlt_bool_true in HN by apply abs_B2R_lt_emax. destruct HN as (N1 & N2 & N3).
    apply B2R_Bsign_inj; try done. congruence.
  - destruct y as [s|s|s pl Hp|s m e H]; try done. cbn [widen].
    apply nan_pl_iff in Hp as Hp'; [|lia]. cbn [quiet32] in Hq.
    assert (0 <= Z.shiftl (Z.pos pl) 29 < 2 ^ 52) as Hsh.
    { rewrite Z.shiftl_mul_pow2 by lia. change (24 - 1) with 23 in Hp'. lia. }
    destruct (nan64_eq s (Z.lor (Z.shiftl (Z.pos pl) 29) (2 ^ 51))) as [H ->].
    { split; [apply lor_pos; lia|]. apply lor_lt; lia. }
    cbn [narrow]. rewrite Z2Pos.id by (apply lor_pos; lia).
    assert (Z.lor (Z.shiftr (Z.lor (Z.shiftl (Z.pos pl) 29) (2 ^ 51)) 29) (2 ^ 22) = Z.pos pl) as ->.
    { rewrite Z.shiftr_lor, Z.shiftr_shiftl_l by lia. change (29 - 29) with 0. rewrite Z.shiftl_0_r.
      change (Z.shiftr (2 ^ 51) 29) with (2 ^ 22). rewrite <- Z.lor_assoc, Z.lor_diag.
      apply Z.bits_inj'. intros k Hk. rewrite Z.lor_spec, Z.pow2_bits_eqb by lia.
      destruct (Z.eqb_spec 22 k) as [<-|]; [by rewrite Hq|]. by rewrite orb_false_r. }
    destruct (nan32_eq s (Z.pos pl)) as [H' ->]; [change (24 - 1) with 23 in Hp'; lia|].
    apply nan32_inj. done.
Qed.
Lemma narrow_quiet (x : f64) : quiet32 (narrow x) = true.
Proof.
  destruct (is_finite 53 1024 x) eqn:Hf.
  - pose proof (narrow_correct x Hf) as HN. destruct (Rlt_bool _ _).
    + destruct HN as (_ & H & _). by destruct (narrow x).
    + by rewrite HN.
  - destruct x as [s|s|s pl Hp|s m e H]; try done. cbn [narrow].
    apply nan_pl_iff in Hp as Hp'; [|lia]. change (53 - 1) with 52 in Hp'.
    assert (0 <= Z.shiftr (Z.pos pl) 29 < 2 ^ 23) as Hsh.
    { rewrite Z.shiftr_div_pow2 by lia. split; [apply Z.div_pos; lia|]. apply Z.div_lt_upper_bound; lia. }
    destruct (nan32_eq s (Z.lor (Z.shiftr (Z.pos pl) 29) (2 ^ 22))) as [H' ->].
    { split; [apply lor_pos; lia|]. apply lor_lt; lia. }
    cbn [quiet32]. rewrite Z2Pos.id by (apply lor_pos; lia). rewrite Z.lor_spec.
    change (Z.testbit (2 ^ 22) 22) with true. by rewrite orb_true_r.
Qed.
(** Storing in single precision twice is the same as once. *)
Lemma narrow_widen_narrow (x : f64) : narrow (widen (narrow x)) = narrow x.
Proof. apply narrow_widen, narrow_quiet. Qed.
