(** Reading partition maps. *)
From Coq Require Import Lia Ascii Reals Lra.
From Flocq Require Import Core.Core IEEE754.BinarySingleNaN IEEE754.Binary IEEE754.Bits.
From Verif Require Import Base Float FloatLaws Mesh Bytes BytesProofs Text TextProofs Field FieldProofs Map MapSpec.
Open Scope Z_scope.

(** The quotient of a product is exact. *)
Lemma quotient_exact a b : 0 < a <= bnd64 → 0 <= b → a * b <= bnd64 →
  ntrunc (a:=A64) (ndiv (a:=A64) (f64_of_Z (a * b)) (f64_of_Z a)) = Ok b.
Proof.
  intros [Ha Ha'] Hb Hab. assert (b <= bnd64) as Hb' by nia.
  destruct (f64_of_Z_correct (a * b) ltac:(rewrite Z.abs_eq; lia)) as (X1 & X2 & X3).
  destruct (f64_of_Z_correct a ltac:(lia)) as (Y1 & Y2 & Y3).
  assert (IZR a ≠ 0%R) as Hn by (apply not_0_IZR; lia).
  assert (ndiv (a:=A64) (f64_of_Z (a * b)) (f64_of_Z a) = f64_of_Z b) as ->.
  2:{ apply f64_trunc_of_Z. lia. }
  cbn [ndiv A64]. unfold b64_div.
  match goal with |- Bdiv _ _ ?h1 ?h2 ?nan _ _ _ = _ =>
    pose proof (Bdiv_correct 53 1024 h1 h2 nan mode_NE (f64_of_Z (a * b)) (f64_of_Z a) ltac:(by rewrite Y1)) as H end.
  rewrite X1, Y1, mult_IZR in H. replace (IZR a * IZR b / IZR a)%R with (IZR b) in H by (field; done).
  change (SpecFloat.emin 53 1024) with (3 - 1024 - 53) in H.
  change (SpecFloat.fexp 53 1024) with (FLT_exp (3 - 1024 - 53) 53) in H.
  rewrite (round64_int b ltac:(lia)) in H. rewrite Rlt_bool_true in H by (apply int_lt_max; lia).
  destruct H as (H1 & H2 & H3). apply f64_eq_of_Z; [lia| |done|].
  - by rewrite H2.
  - rewrite H3. { rewrite X3, Y3. rewrite !(proj2 (Z.ltb_ge _ _)) by lia. done. }
    change (is_finite 53 1024 (f64_of_Z (a * b))) with (Binary.is_finite 53 1024 (f64_of_Z (a * b))) in H2. rewrite X2 in H2.
    destruct (Bdiv _ _ _ _ _ _ _ _); cbn in *; congruence.
Qed.

Lemma ints_ok o (zs : list Z) rest : Forall int32 zs → ints o (length zs) ((zs ≫= i32_bytes o) ++ rest) = Ok zs.
Proof.
  intros H. assert (∀ x, x ∈ zs → length (i32_bytes o x) = 4%nat) as Hl by (intros; apply i32_bytes_length).
  unfold ints. rewrite app_length, (bind_length 4) by done.
  destruct (Nat.ltb_spec (length zs * 4 + length rest) (length zs * 4)); [lia|].
  rewrite chunks_app by done. f_equal. rewrite <- list_fmap_compose. etransitivity; [|apply list_fmap_id].
  apply list_fmap_ext. intros i x Hx. cbn. apply i32_read_bytes. eapply Forall_forall in H; [exact H|].
  by eapply elem_of_list_lookup_2.
Qed.
Definition rec_bytes (o : order) (r : Z * list Z) : bytes := let '(rank, vs) := r in (rank :: vs) ≫= i32_bytes o.
Lemma rec_bytes_length o nv r : length r.2 = nv → length (rec_bytes o r) = ((nv + 1) * 4)%nat.
Proof. destruct r as [a vs]. cbn [snd]. intros <-. unfold rec_bytes. rewrite (bind_length 4) by (intros; apply i32_bytes_length). cbn. lia. Qed.
Lemma recs_length o nv recs : ma2_records nv recs → length (recs ≫= rec_bytes o) = ((nv + 1) * 4 * length recs)%nat.
Proof.
  intros H. rewrite (bind_length ((nv + 1) * 4)); [lia|]. intros r Hr. apply rec_bytes_length.
  eapply Forall_forall in H; [|exact Hr]. destruct r. apply H.
Qed.
Lemma read_recs o nv recs buf iel : ma2_records nv recs → ∀ r, recs !! iel = Some r → 
  ints o (nv + 1) (drop ((nv + 1) * 4 * iel) ((recs ≫= rec_bytes o) ++ buf)) = Ok (r.1 :: r.2).
Proof.
  intros H. revert iel. induction recs as [|r0 recs IH]; intros iel r Hr; [done|].
  apply Forall_cons in H as [H0 H]. cbn [mbind list_bind]. rewrite <- (app_assoc (rec_bytes o r0)).
  destruct iel as [|iel].
  - injection Hr as <-. rewrite Nat.mul_0_r, drop_0. destruct r0 as [a vs]. destruct H0 as (H1 & H2 & <-). cbn [fst snd].
    replace (length vs + 1)%nat with (length (a :: vs)) by (cbn; lia). apply ints_ok. by constructor.
  - destruct r0 as [a vs] eqn:E0. destruct H0 as (H1 & H2 & H3).
    replace ((nv + 1) * 4 * S iel)%nat with (length (rec_bytes o (a, vs)) + (nv + 1) * 4 * iel)%nat by (rewrite (rec_bytes_length _ nv) by done; lia).
    rewrite <- drop_drop, drop_app. by apply IH.
Qed.
Lemma mapR_range {B} (f : nat → res B) (l : list B) : (∀ i x, l !! i = Some x → f i = Ok x) → mapR f (range (length l)) = Ok l.
Proof.
  unfold range. assert (∀ k, (∀ i x, l !! i = Some x → f (k + i)%nat = Ok x) → mapR f (seq k (length l)) = Ok l) as H.
  { induction l as [|x l IH]; intros k H; [done|]. cbn. rewrite <- (Nat.add_0_r k) at 1. rewrite (H 0%nat x) by done. cbn.
    rewrite IH; [done|]. intros i y Hy. rewrite Nat.add_succ_l, <- Nat.add_succ_r. by apply H. }
  intros H'. by apply H.
Qed.
Lemma ma2_file_eq o h recs : ma2_file o h recs = h ++ tag_bytes o ++ (recs ≫= rec_bytes o).
Proof. done. Qed.

Lemma readma2_ok o h nv recs rest : (0 < length recs)%nat → Z.of_nat (length recs) <= bnd64 → Z.of_nat (length recs * nv) <= bnd64 →
  ma2_header h (length recs) nv → ma2_records nv recs →
  readma2 (ma2_file o h recs ++ rest) = Ok ((λ r : Z * list Z, f64_of_Z <$> r.2) <$> recs, (λ r : Z * list Z, f64_of_Z r.1) <$> recs).
Proof.
  intros Hn Hb1 Hb2 (H1 & H2 & H3) HR. rewrite ma2_file_eq. unfold readma2. rewrite <- !(app_assoc h).
  rewrite py_read_app by (rewrite H1; done). rewrite H2, H3. cbn [of_opt rbind]. rewrite !py_int_token. cbn [rbind].
  rewrite <- app_assoc. rewrite py_read_app by (unfold tag_bytes; rewrite f32_bytes_length; done).
  unfold tag_bytes. rewrite read_tag_ok. cbn [rbind]. rewrite (proj2 (Z.eqb_neq _ _)) by lia.
  rewrite Nat2Z.inj_mul, quotient_exact by lia. cbn [rbind].
  rewrite py_read_app by (rewrite (recs_length _ nv) by done; lia).
  rewrite !(proj2 (Z.ltb_ge _ _)) by lia. cbn [orb]. rewrite Nat2Z.id.
  replace (Z.to_nat (Z.of_nat nv + 1)) with (nv + 1)%nat by lia.
  assert (length recs = length ((λ r : Z * list Z, r.1 :: r.2) <$> recs)) as HL by (by rewrite fmap_length). rewrite HL.
  rewrite mapR_range.
  - cbn [rbind]. rewrite <- !list_fmap_compose. reflexivity.
  - intros i x Hx. rewrite list_lookup_fmap in Hx. apply fmap_Some in Hx as (r & Hr & ->).
    rewrite <- (app_nil_r (recs ≫= _)). by apply read_recs.
Qed.

(** A file that is too short. *)
Lemma short_recs o k ne buf : (length buf < k * 4 * ne)%nat → (0 < k)%nat →
  mapR (λ iel, ints o k (drop (k * 4 * iel) buf)) (range ne) = Raise ValueError.
Proof.
  intros H Hk. assert (∀ n s, (s + n = ne)%nat → (0 < n)%nat → mapR (λ iel, ints o k (drop (k * 4 * iel) buf)) (seq s n) = Raise ValueError) as HS.
  { induction n as [|n IH]; intros s Hs Hn; [lia|]. cbn [seq mapR]. unfold ints at 1.
    destruct (Nat.ltb_spec (length (drop (k * 4 * s) buf)) (k * 4)) as [|HG]; [done|]. cbn [rbind].
    rewrite drop_length in HG. destruct n as [|n].
    - exfalso. replace ne with (s + 1)%nat in H by lia. nia.
    - by rewrite (IH (S s)) by lia. }
  destruct ne as [|ne]; [lia|]. apply (HS (S ne) 0%nat); lia.
Qed.
Lemma readma2_short file : (length file < 136)%nat → ∃ x, readma2 file = Raise x.
Proof.
  intros H. unfold readma2. destruct (py_read 132 file) as [hb l] eqn:E1. destruct (of_opt IndexError (split hb !! 1%nat)) as [t|]; [|by eexists].
  cbn [rbind]. destruct (py_int t) as [ne|]; [|by eexists]. cbn [rbind].
  destruct (of_opt IndexError (split hb !! 5%nat)) as [t5|]; [|by eexists]. cbn [rbind]. destruct (py_int t5) as [np|]; [|by eexists]. cbn [rbind].
  destruct (py_read 4 l) as [tb l2] eqn:E2. unfold py_read in E1, E2. cbn [Z.ltb Z.compare] in E1, E2. injection E1 as _ <-. injection E2 as <- _.
  unfold read_tag, unpack_f32.
  match goal with |- context [(length ?x =? 4)%nat] => destruct (Nat.eqb_spec (length x) 4) as [E|E] end; [|by eexists].
  exfalso. rewrite take_length, drop_length in E. lia.
Qed.
Lemma readma2_torn o h nv recs n : (0 < length recs)%nat → Z.of_nat (length recs) <= bnd64 → Z.of_nat (length recs * nv) <= bnd64 →
  ma2_header h (length recs) nv → ma2_records nv recs → (n < length (ma2_file o h recs))%nat →
  ∃ x, readma2 (take n (ma2_file o h recs)) = Raise x.
Proof.
  intros Hn Hb1 Hb2 (H1 & H2 & H3) HR Hlt. rewrite ma2_file_eq in *. rewrite !app_length, (recs_length _ nv) in Hlt by done.
  unfold tag_bytes in *. rewrite f32_bytes_length, H1 in Hlt.
  destruct (Nat.lt_ge_cases n 136) as [HT|HT].
  - apply readma2_short. rewrite take_length. lia.
  - rewrite take_app_ge by lia. rewrite take_app_ge by (rewrite f32_bytes_length; lia).
    unfold readma2. rewrite py_read_app by (rewrite H1; done). rewrite H2, H3. cbn [of_opt rbind]. rewrite !py_int_token. cbn [rbind].
    rewrite py_read_app by (rewrite f32_bytes_length; done). rewrite read_tag_ok. cbn [rbind]. rewrite (proj2 (Z.eqb_neq _ _)) by lia.
    rewrite Nat2Z.inj_mul, quotient_exact by lia. cbn [rbind]. rewrite H1, f32_bytes_length.
    unfold py_read. rewrite (proj2 (Z.ltb_ge _ _)) by lia. rewrite !(proj2 (Z.ltb_ge _ _)) by lia. cbn [orb]. rewrite Nat2Z.id.
    replace (Z.to_nat (Z.of_nat nv + 1)) with (nv + 1)%nat by lia.
    rewrite short_recs; [by eexists| |lia]. rewrite !take_length, (recs_length _ nv) by done. lia.
Qed.
