(** Proofs about field files. *)
From Coq Require Import Lia Ascii Reals Lra.
From Flocq Require Import Core.Core IEEE754.BinarySingleNaN IEEE754.Binary IEEE754.Bits.
From Verif Require Import Base Float Mesh MeshLemmas Bytes BytesProofs Text TextProofs Field FieldSpec.
Open Scope Z_scope.

(** ** Headers *)
Lemma split_token n w l : no_space w → w ≠ [] → split (rjust n w ++ sp :: l) = w :: split l.
Proof. apply split_rjust. Qed.
Lemma dec_int_ok z : no_space (dec_int z) ∧ dec_int z ≠ [].
Proof. destruct (dec_int_spec z) as (H1 & H2 & _). done. Qed.

Definition header_text (h : header) : bytes :=
  str "#std " ++ rjust 1 (dec_int (h_wdsz h)) ++ sp ::
    rjust 2 (dec_int (nth 0 (h_orders h) 0)) ++ sp :: rjust 2 (dec_int (nth 1 (h_orders h) 0)) ++ sp ::
    rjust 2 (dec_int (nth 2 (h_orders h) 0)) ++ sp :: rjust 10 (dec_int (h_nel h)) ++ sp ::
    rjust 10 (dec_int (h_nelf h)) ++ sp :: rjust 20 (fmt_e true 13 (h_time h)) ++ sp ::
    rjust 9 (dec_int (h_istep h)) ++ sp :: rjust 6 (dec_int (h_fid h)) ++ sp ::
    rjust 6 (dec_int (h_nfiles h)) ++ sp :: h_variables h.
Lemma split_header h n : no_space (h_variables h) → h_variables h ≠ [] →
  split (header_text h ++ replicate n sp) =
  [str "#std"; dec_int (h_wdsz h); dec_int (nth 0 (h_orders h) 0); dec_int (nth 1 (h_orders h) 0);
   dec_int (nth 2 (h_orders h) 0); dec_int (h_nel h); dec_int (h_nelf h); fmt_e true 13 (h_time h);
   dec_int (h_istep h); dec_int (h_fid h); dec_int (h_nfiles h); h_variables h].
Proof.
  intros Hv Hn. unfold header_text.
  destruct (fmt_e_text true 13 (h_time h)) as (F1 & F2 & _).
  assert (∀ X : bytes, str "#std " ++ X = str "#std" ++ sp :: X) as -> by done.
  assert (∀ (X Y Z : bytes), (X ++ sp :: Y) ++ Z = X ++ sp :: (Y ++ Z)) as Ha by (intros; by rewrite <- app_assoc).
  rewrite !Ha.
  rewrite split_word by (try done; repeat (apply Forall_cons; split; [done|]); apply Forall_nil_2).
  rewrite !split_rjust by (first [apply dec_int_ok|done]).
  rewrite split_last by done. done.
Qed.
Lemma variables_spec nd v : (nd = 2 ∨ nd = 3) → header_vars nd v →
  let vs := nb_vars_to_variables v in
  variables_to_nb_vars vs nd = Ok v ∧ no_space vs ∧ vs ≠ [] ∧ (length vs ≤ 14)%nat.
Proof.
  intros Hnd (vx & vu & vp & vt & vs & -> & Hx & Hu & Hp & Ht & Hs & Hpos). cbv zeta.
  unfold nb_vars_to_variables. cbn [nth].
  destruct (dec_pad0_spec 2 vs) as (D1 & D2 & D3 & D4); [lia|].
  assert (ndigits vs ≤ 9)%nat as D5 by (apply ndigits_le; [change (10 ^ Z.of_nat 9) with (10 ^ 9); lia|lia]).
  assert (Forall (λ c, is_digit c = true) (dec_pad0 2 vs)) as D6 by apply digits_n_digits.
  assert (py_int (dec_pad0 2 vs) = Ok vs) as D7.
  { unfold py_int. rewrite strip_id by done. destruct (dec_pad0 2 vs) as [|c l] eqn:E; [done|].
    apply Forall_cons in D6 as [D6 _]. cbn [read_sign]. destruct (digit_not_sign c D6) as [-> ->]. by rewrite D1. }
  assert (∀ c, is_digit c = false → has_char c (dec_pad0 2 vs) = false) as HC.
  { intros c Hc. unfold has_char. apply not_true_is_false. intros H. apply existsb_exists in H as (c' & Hin & He).
    apply Ascii.eqb_eq in He as ->. rewrite Forall_forall in D6. apply elem_of_list_In in Hin. apply D6 in Hin. congruence. }
  unfold variables_to_nb_vars.
  assert (∀ (b1 b2 b3 b4 b5 : bool) (d : bytes), (∀ c, is_digit c = false → has_char c d = false) →
    let l := ((if b1 then ["X"%char] else []) ++ (if b2 then ["U"%char] else []) ++ (if b3 then ["P"%char] else []) ++
      (if b4 then ["T"%char] else []) ++ (if b5 then "S"%char :: d else [])) in
    has_char "X" l = b1 ∧ has_char "U" l = b2 ∧ has_char "P" l = b3 ∧ has_char "T" l = b4 ∧ has_char "S" l = b5 ∧
    (b5 = true → after_char "S" l = d) ∧ (length l ≤ 5 + length d)%nat ∧ (no_space d → no_space l) ∧
    (b1 || b2 || b3 || b4 || b5 = true → l ≠ [])) as HB.
  { intros b1 b2 b3 b4 b5 d Hd. pose proof (Hd "X"%char eq_refl) as E1. pose proof (Hd "U"%char eq_refl) as E2.
    pose proof (Hd "P"%char eq_refl) as E3. pose proof (Hd "T"%char eq_refl) as E4. pose proof (Hd "S"%char eq_refl) as E5.
    unfold has_char in *.
    destruct b1, b2, b3, b4, b5; cbn; rewrite ?E1, ?E2, ?E3, ?E4;
      (repeat split; try done; try lia; try (intros Hn; repeat (apply Forall_cons; split; [done|]); first [done|apply Forall_nil_2])). }
  destruct (HB (0 <? vx) (0 <? vu) (0 <? vp) (0 <? vt) (0 <? vs) _ HC) as (B1 & B2 & B3 & B4 & B5 & B6 & B7 & B8 & B9).
  rewrite B1, B2, B3, B4, B5. split; [|split; [|split]].
  - assert ((if 0 <? vs then py_int (after_char "S" ((if 0 <? vx then ["X"%char] else []) ++
       (if 0 <? vu then ["U"%char] else []) ++ (if 0 <? vp then ["P"%char] else []) ++
       (if 0 <? vt then ["T"%char] else []) ++ (if 0 <? vs then "S"%char :: dec_pad0 2 vs else []))) else Ok 0) = Ok vs) as ->.
    { destruct (Z.ltb_spec 0 vs) as [H|H]; [by rewrite B6|]. f_equal. lia. }
    cbn [rbind]. do 2 f_equal; [|f_equal; [|f_equal; [|f_equal]]].
    + destruct (Z.ltb_spec 0 vx); lia.
    + destruct (Z.ltb_spec 0 vu); lia.
    + destruct (Z.ltb_spec 0 vp); lia.
    + destruct (Z.ltb_spec 0 vt); lia.
  - by apply B8.
  - apply B9. destruct (Z.ltb_spec 0 vx), (Z.ltb_spec 0 vu), (Z.ltb_spec 0 vp), (Z.ltb_spec 0 vt), (Z.ltb_spec 0 vs); try done. lia.
  - rewrite D4 in B7. lia.
Qed.

Lemma dec_int_length z n : (1 ≤ n)%nat → 0 <= z < 10 ^ Z.of_nat n → (length (dec_int z) ≤ n)%nat.
Proof.
  intros Hn Hz. unfold dec_int. destruct (Z.ltb_spec z 0); [lia|].
  destruct (dec_nat_spec z) as (_ & _ & _ & ->); [lia|]. by apply ndigits_le.
Qed.
Lemma dec_int_length_abs z n : (1 ≤ n)%nat → Z.abs z < 10 ^ Z.of_nat n → (length (dec_int z) ≤ S n)%nat.
Proof.
  intros Hn Hz. unfold dec_int. destruct (Z.ltb_spec z 0).
  - cbn [length]. destruct (dec_nat_spec (- z)) as (_ & _ & _ & ->); [lia|]. apply le_n_S, ndigits_le; [lia|done].
  - destruct (dec_nat_spec z) as (_ & _ & _ & ->); [lia|]. apply Nat.le_le_succ_r, ndigits_le; [lia|done].
Qed.
Definition real_of (wd : Z) : dtype := if wd =? 4 then D32 else D64.
Lemma mk_header_ok wd ox oy oz ne nf t st fi nfl v : header_fits wd ox oy oz ne nf st fi nfl v →
  mk_header wd [ox; oy; oz] ne nf t st fi nfl [] v =
    Ok (Hdr wd [ox; oy; oz] ne nf t st fi nfl (nb_vars_to_variables v) (real_of wd) (ox * (oy * (oz * 1)))
          (2 + (if 1 <? oz then 1 else 0)) v).
Proof.
  intros (Hwd & _ & _ & _ & _ & _ & _ & _ & _ & Hv). unfold mk_header, real_of.
  assert ((if wd =? 4 then Ok D32 else if wd =? 8 then Ok D64 else Raise ValueError) =
    Ok (if wd =? 4 then D32 else D64)) as -> by (by destruct Hwd as [-> | ->]).
  cbn [rbind of_opt lookup list_lookup]. destruct Hv as (vx & vu & vp & vt & vs & -> & _). done.
Qed.
Lemma header_roundtrip wd ox oy oz ne nf t st fi nfl v h : header_fits wd ox oy oz ne nf st fi nfl v →
  mk_header wd [ox; oy; oz] ne nf t st fi nfl [] v = Ok h →
  length (as_bytestring h) = 132%nat ∧
  read_header (as_bytestring h) =
    Ok (Hdr wd [ox; oy; oz] ne nf (txt_value 13 t) st fi nfl (nb_vars_to_variables v) (real_of wd) (ox * (oy * (oz * 1)))
          (2 + (if 1 <? oz then 1 else 0)) v).
Proof.
  intros HF E. rewrite (mk_header_ok _ _ _ _ _ _ _ _ _ _ _ HF) in E. injection E as <-.
  destruct HF as (Hwd & Hox & Hoy & Hoz & Hne & Hnf & Hst & Hfi & Hnfl & Hv).
  set (nd := 2 + (if 1 <? oz then 1 else 0)).
  assert (nd = (if 1 <? oz then 3 else 2)) as End by (unfold nd; by destruct (1 <? oz)).
  rewrite <- End in Hv. destruct (variables_spec nd v) as (V1 & V2 & V3 & V4); [rewrite End; destruct (1 <? oz); auto|done|].
  set (h := Hdr _ _ _ _ _ _ _ _ _ _ _ _ _).
  change (as_bytestring h) with (ljust 132 (header_text h)). split.
  - rewrite ljust_length. apply Nat.max_l. unfold header_text.
    assert (length (dec_int wd) ≤ 1)%nat as L1 by (destruct Hwd as [-> | ->]; vm_compute; lia).
    assert (length (dec_int ox) ≤ 2)%nat as L2 by (by apply dec_int_length; [lia|]).
    assert (length (dec_int oy) ≤ 2)%nat as L3 by (by apply dec_int_length; [lia|]).
    assert (length (dec_int oz) ≤ 2)%nat as L4 by (by apply dec_int_length; [lia|]).
    assert (length (dec_int ne) ≤ 10)%nat as L5 by (by apply dec_int_length; [lia|]).
    assert (length (dec_int nf) ≤ 10)%nat as L6 by (by apply dec_int_length; [lia|]).
    assert (length (dec_int st) ≤ 10)%nat as L7 by (by apply dec_int_length_abs; [lia|]).
    assert (length (dec_int fi) ≤ 6)%nat as L8 by (by apply dec_int_length; [lia|]).
    assert (length (dec_int nfl) ≤ 6)%nat as L9 by (by apply dec_int_length; [lia|]).
    pose proof (fmt_e_length true 13 t ltac:(lia)) as L10.
    assert (∀ X : bytes, length (str "#std " ++ X) = 5 + length X)%nat as -> by done.
    unfold h. cbn [h_wdsz h_orders h_nel h_nelf h_time h_istep h_fid h_nfiles h_variables nth].
    do 10 (rewrite app_length, rjust_length; cbn [length]). lia.
  - unfold ljust, read_header. rewrite split_header by done.
    unfold h at 1 2 3 4 5 6 7 8 9 10 11. cbn [h_wdsz h_orders h_nel h_nelf h_time h_istep h_fid h_nfiles h_variables nth].
    rewrite !py_int_token, py_float_fmt. cbn [rbind]. unfold mk_header.
    assert ((if wd =? 4 then Ok D32 else if wd =? 8 then Ok D64 else Raise ValueError) = Ok (real_of wd)) as ->
      by (by destruct Hwd as [-> | ->]).
    cbn [rbind of_opt lookup list_lookup foldr]. destruct (nb_vars_to_variables v) as [|c l]; [done|].
    fold nd. rewrite V1. done.
Qed.

(** ** Running the operations of the reader *)
Lemma get_set_f {N} (k k' : fkind) v (e : elem N) : get_f k' (set_f k v e) = if bool_decide (k = k') then v else get_f k' e.
Proof. by destruct k, k'. Qed.
Lemma cell_set (m : mesh) p k c v p' k' c' a : cell m p k c = Some a →
  cell (set_elems (alter (set_comp k c v) p (elems m)) m) p' k' c' =
  if bool_decide ((p, k, c) = (p', k', c')) then Some v else cell m p' k' c'.
Proof.
  unfold cell. cbn [elems set_elems]. intros H. destruct (decide (p = p')) as [<-|Hp].
  - rewrite list_lookup_alter. destruct (elems m !! p) as [e|]; [|done]. cbn [mbind option_bind fmap option_fmap option_map] in *.
    unfold set_comp. rewrite get_set_f. destruct (decide (k = k')) as [<-|Hk].
    + rewrite (bool_decide_eq_true_2 (k = k)) by done. destruct (decide (c = c')) as [<-|Hc].
      * rewrite list_lookup_insert by (by eapply lookup_lt_Some). by rewrite bool_decide_eq_true_2.
      * rewrite list_lookup_insert_ne by done. rewrite bool_decide_eq_false_2; [done|congruence].
    + rewrite !bool_decide_eq_false_2; [done|congruence|done].
  - rewrite list_lookup_alter_ne by done. rewrite bool_decide_eq_false_2; [done|congruence].
Qed.
Lemma py_pos_nat n p : (p < n)%nat → py_pos n (Z.of_nat p) = Some p.
Proof.
  intros H. unfold py_pos. rewrite (proj2 (Z.leb_le _ _)), (proj2 (Z.ltb_lt _ _)) by lia. cbn. by rewrite Nat2Z.id.
Qed.
(** Everything except the elements. *)
Definition frame (m m' : mesh) : Prop := m' = set_elems (elems m') m ∧ length (elems m') = length (elems m).
Lemma frame_refl m : frame m m. Proof. by destruct m. Qed.
Lemma frame_trans m1 m2 m3 : frame m1 m2 → frame m2 m3 → frame m1 m3.
Proof. intros [E1 L1] [E2 L2]. split; [rewrite E2, E1; done|lia]. Qed.
Lemma frame_set m p f : frame m (set_elems (alter f p (elems m)) m).
Proof. split; [done|]. cbn. apply alter_length. Qed.
Definition blk (o : order) (a : list fval) : bytes := a ≫= fval_bytes o.
Lemma blk_length o d a : Forall (has_dtype d) a → length (blk o a) = (length a * dsize d)%nat.
Proof.
  intros H. apply bind_length. intros x Hx. apply fval_bytes_length. rewrite Forall_forall in H. by apply H.
Qed.
Lemma step_block o h dt m p k c a old rest :
  cell m p k c = Some old → Forall (has_dtype (h_real h)) a → Z.of_nat (length a) = h_npts h →
  h_wdsz h = Z.of_nat (dsize (h_real h)) →
  fop_step o h dt (m, blk o a ++ rest) (Block (Z.of_nat p) k c false) =
    Ok (set_elems (alter (set_comp k c (cast dt <$> a)) p (elems m)) m, rest).
Proof.
  intros Hc Ha Hl Hw. unfold fop_step. assert (p < length (elems m))%nat as Hp.
  { unfold cell in Hc. destruct (elems m !! p) eqn:E; [|done]. by eapply lookup_lt_Some. }
  rewrite py_pos_nat by done. cbn [of_opt rbind].
  rewrite (py_read_app _ (blk o a)) by (rewrite (blk_length o (h_real h)) by done; lia).
  rewrite <- Hl, Nat2Z.id. pose proof (frombuffer_bytes o (h_real h) a [] Ha) as E. rewrite app_nil_r in E.
  unfold blk. rewrite E. done.
Qed.
Lemma run_blocks o h dt (items : list (nat * fkind * nat * list fval)) m rest :
  h_wdsz h = Z.of_nat (dsize (h_real h)) →
  NoDup (fst <$> items) →
  (∀ p k c a, (p, k, c, a) ∈ items → is_Some (cell m p k c) ∧ Forall (has_dtype (h_real h)) a ∧ Z.of_nat (length a) = h_npts h) →
  ∃ m', foldM (fop_step o h dt) (m, (items ≫= λ it, blk o it.2) ++ rest)
      ((λ it, Block (Z.of_nat it.1.1.1) it.1.1.2 it.1.2 false) <$> items) = Ok (m', rest) ∧ frame m m' ∧
    (∀ p k c a, (p, k, c, a) ∈ items → cell m' p k c = Some (cast dt <$> a)) ∧
    (∀ p k c, (p, k, c) ∉ fst <$> items → cell m' p k c = cell m p k c).
Proof.
  intros Hw. revert m. induction items as [|[[[p k] c] a] items IH]; intros m Hnd Hi.
  { exists m. split; [done|]. split; [apply frame_refl|]. split; [|done]. intros ? ? ? ? H. by apply elem_of_nil in H. }
  rewrite fmap_cons in Hnd. apply NoDup_cons in Hnd as [Hni Hnd].
  destruct (Hi p k c a) as ([old Hold] & Ha & Hl); [left|].
  rewrite fmap_cons. cbn [foldM mbind list_bind fst snd]. rewrite <- app_assoc.
  rewrite (step_block o h dt m p k c a old) by done. cbn [rbind].
  set (m1 := set_elems _ m).
  assert (∀ p' k' c', cell m1 p' k' c' = if bool_decide ((p, k, c) = (p', k', c')) then Some (cast dt <$> a) else cell m p' k' c') as HC.
  { intros. unfold m1. by apply cell_set with (a := old). }
  destruct (IH m1 Hnd) as (m' & E & F & H1 & H2).
  { intros p' k' c' a' H'. destruct (Hi p' k' c' a') as (S' & ? & ?); [by right|]. split; [|done].
    rewrite HC. case_bool_decide; [eauto|done]. }
  exists m'. split; [exact E|]. split; [eapply frame_trans; [apply frame_set|exact F]|]. split.
  - intros p' k' c' a' H'. apply elem_of_cons in H' as [[= -> -> -> ->]|H'].
    + rewrite H2 by done. rewrite HC. by rewrite bool_decide_eq_true_2.
    + by apply H1.
  - intros p' k' c' H'. rewrite fmap_cons in H'. apply not_elem_of_cons in H' as [H'1 H'2]. rewrite H2 by done.
    rewrite HC. rewrite bool_decide_eq_false_2; [done|]. intros E'. apply H'1. cbn. congruence.
Qed.

(** ** The whole reader *)
Lemma fmap_bind {A B C} (g : B → C) (f : A → list B) l : g <$> (l ≫= f) = l ≫= λ x, g <$> f x.
Proof. induction l as [|x l IH]; cbn; [done|]. by rewrite fmap_app, IH. Qed.
Lemma bind_ext {A B} (f g : A → list B) l : (∀ x, x ∈ l → f x = g x) → l ≫= f = l ≫= g.
Proof.
  induction l as [|x l IH]; intros H; [done|]. cbn. rewrite (H x) by left. rewrite IH; [done|]. intros y Hy. apply H. by right.
Qed.
Lemma bind_nil {A B} (l : list A) : l ≫= (λ _, []) = ([] : list B).
Proof. induction l as [|x l IH]; [done|]. exact IH. Qed.
Lemma elem_of_storage n nv j k c : (j, k, c) ∈ storage n nv ↔ (j < n ∧ c < nv k)%nat.
Proof.
  unfold storage. rewrite elem_of_app, !elem_of_list_bind. split.
  - intros [(k' & H & Hk)|(c' & H & Hc)].
    + apply elem_of_list_bind in H as (j' & H & Hj). apply elem_of_list_fmap in H as (c' & [= -> -> ->] & Hc).
      apply elem_of_seq in Hj, Hc. lia.
    + apply elem_of_list_fmap in H as (j' & [= -> -> ->] & Hj). apply elem_of_seq in Hj, Hc. lia.
  - intros [Hj Hc]. destruct (decide (k = FScal)) as [->|Hk].
    + right. exists c. split; [|apply elem_of_seq; lia]. apply elem_of_list_fmap. exists j. split; [done|apply elem_of_seq; lia].
    + left. exists k. split; [|destruct k; try done; rewrite !elem_of_cons; auto 6].
      apply elem_of_list_bind. exists j. split; [|apply elem_of_seq; lia].
      apply elem_of_list_fmap. exists c. split; [done|apply elem_of_seq; lia].
Qed.
Lemma NoDup_storage n nv : NoDup (storage n nv).
Proof.
  unfold storage. apply NoDup_app. split; [|split].
  - apply NoDup_bind.
    + repeat (apply NoDup_cons; split; [set_solver|]). apply NoDup_nil_2.
    + intros k _. apply NoDup_bind; [apply NoDup_seq| |].
      * intros j _. apply NoDup_fmap_2; [by intros ? ? [= ->]|apply NoDup_seq].
      * intros j j' b _ _ H H'. apply elem_of_list_fmap in H as (? & -> & _), H' as (? & [= -> _] & _). done.
    + intros k k' b _ _ H H'. apply elem_of_list_bind in H as (? & H & _), H' as (? & H' & _).
      apply elem_of_list_fmap in H as (? & -> & _), H' as (? & [= _ -> _] & _). done.
  - intros [[j k] c] H H'. apply elem_of_list_bind in H as (k' & H & Hk), H' as (? & H' & _).
    apply elem_of_list_bind in H as (? & H & _). apply elem_of_list_fmap in H as (? & [= _ -> _] & _), H' as (? & [= _ -> _] & _).
    rewrite !elem_of_cons, elem_of_nil in Hk. naive_solver.
  - apply NoDup_bind; [apply NoDup_seq| |].
    + intros c _. apply NoDup_fmap_2; [by intros ? ? [= ->]|apply NoDup_seq].
    + intros c c' b _ _ H H'. apply elem_of_list_fmap in H as (? & -> & _), H' as (? & [= _ ->] & _). done.
Qed.
(** Without skipped variables the reader reads the blocks in storage order. *)
Lemma field_ops_all k nv skip (D : nat → Z) n nelems : (∀ i, skip i = false) →
  ∀ b, (nv ≠ 0%nat → b = false) →
  field_ops k nv b skip (D <$> seq 0 n) nelems =
  (λ b, Block (D b.1.1) b.1.2 b.2 false) <$> (seq 0 n ≫= λ j, (λ c, (j, k, c)) <$> seq 0 nv).
Proof.
  intros Hs b Hb. unfold field_ops. destruct (Nat.eqb_spec nv 0) as [->|Hn].
  - cbn [seq fmap list_fmap]. by rewrite bind_nil.
  - rewrite (Hb Hn). rewrite fmap_bind, list_fmap_bind. apply bind_ext. intros j _. unfold compose, range.
    rewrite <- list_fmap_compose. apply list_fmap_ext. intros ? c _. unfold compose. cbn. by rewrite Hs.
Qed.
Lemma forallb_false {A} (f : A → bool) l : (∀ x, f x = false) → l ≠ [] → forallb f l = false.
Proof. intros H Hl. destruct l; [done|]. cbn. by rewrite H. Qed.
Lemma scal_ops_all nv skip (D : nat → Z) n nelems : (∀ i, skip i = false) →
  scal_ops nv skip (D <$> seq 0 n) nelems =
  (λ b, Block (D b.1.1) b.1.2 b.2 false) <$> (seq 0 nv ≫= λ c, (λ j, (j, FScal, c)) <$> seq 0 n).
Proof.
  intros Hs. unfold scal_ops. destruct (Nat.eqb_spec nv 0) as [->|Hn]; [done|].
  rewrite forallb_false; [|done|by destruct nv]. rewrite fmap_bind. unfold range. apply bind_ext. intros c _. rewrite Hs.
  rewrite <- !list_fmap_compose. done.
Qed.
Lemma in_skip_nil s : in_skip [] s = false.
Proof. unfold in_skip. apply bool_decide_eq_false_2. apply not_elem_of_nil. Qed.
Lemma readnek_ops_all h elmap (D : nat → Z) : element_idxs elmap (h_nelf h) = D <$> seq 0 (length elmap) →
  readnek_ops h elmap [] = (λ b, Block (D b.1.1) b.1.2 b.2 false) <$> storage (length elmap) (h_count h).
Proof.
  intros HD. unfold readnek_ops. rewrite HD. unfold storage. rewrite fmap_app. cbn [mbind list_bind].
  rewrite !fmap_app, <- !app_assoc, fmap_nil. cbn [app]. fold (h_count h FPos) (h_count h FVel) (h_count h FPres) (h_count h FTemp) (h_count h FScal).
  rewrite scal_ops_all by (intros; apply in_skip_nil).
  assert (∀ n k, h_count h k ≠ 0%nat → forallb (λ i, in_skip [] (nth i n EmptyString)) (range (h_count h k)) = false) as HF.
  { intros n k Hk. apply forallb_false; [intros; apply in_skip_nil|]. by destruct (h_count h k). }
  rewrite (field_ops_all FPos) by (intros; first [apply in_skip_nil|by apply HF]).
  rewrite (field_ops_all FVel) by (intros; rewrite ?HF by done; by rewrite ?in_skip_nil).
  rewrite (field_ops_all FPres) by (intros; by rewrite ?in_skip_nil).
  rewrite (field_ops_all FTemp) by (intros; by rewrite ?in_skip_nil).
  done.
Qed.

Lemma nb_vars_shape vs nd v : variables_to_nb_vars vs nd = Ok v →
  ∃ vx vu vp vt ns, v = [vx; vu; vp; vt; ns] ∧ (vx = 0 ∨ vx = nd) ∧ (vu = 0 ∨ vu = nd) ∧ (vp = 0 ∨ vp = 1) ∧ (vt = 0 ∨ vt = 1).
Proof.
  unfold variables_to_nb_vars. destruct (if has_char "S" vs then _ else _) as [ns|]; [|done]. cbn [rbind].
  intros [= <-]. eexists _, _, _, _, _. split; [done|].
  destruct (has_char "X" vs), (has_char "U" vs), (has_char "P" vs), (has_char "T" vs); auto 10.
Qed.
Lemma header_facts l h : read_header l = Ok h →
  (h_wdsz h = 4 ∨ h_wdsz h = 8) ∧ h_real h = real_of (h_wdsz h) ∧
  ∃ ox oy oz vx vu vp vt vs, h_orders h = [ox; oy; oz] ∧ h_npts h = ox * (oy * (oz * 1)) ∧
    h_ndims h = (if 1 <? oz then 3 else 2) ∧
    h_vars h = [vx; vu; vp; vt; vs] ∧ (vx = 0 ∨ vx = h_ndims h) ∧ (vu = 0 ∨ vu = h_ndims h) ∧
    (vp = 0 ∨ vp = 1) ∧ (vt = 0 ∨ vt = 1).
Proof.
  unfold read_header. intros H.
  destruct (split l) as [|? [|wd [|ox [|oy [|oz [|ne [|nf [|tm [|st [|fi [|nfl [|vs ?]]]]]]]]]]]]; try done.
  repeat match type of H with rbind ?x _ = _ => destruct x; [cbn [rbind] in H|done] end.
  unfold mk_header in H.
  match type of H with rbind (if ?w0 =? 4 then _ else _) _ = _ => rename w0 into w end.
  destruct (Z.eqb_spec w 4) as [->|Hw4]; [|destruct (Z.eqb_spec w 8) as [->|Hw8]; [|done]];
    cbn [rbind of_opt lookup list_lookup foldr] in H; (destruct vs as [|c vs]; [done|]);
    destruct (variables_to_nb_vars (c :: vs) _) as [v|] eqn:EV; try done; cbn [rbind] in H;
    apply nb_vars_shape in EV as (vx & vu & vp & vt & ns & -> & H1 & H2 & H3 & H4);
    injection H as <-; cbn [h_wdsz h_real h_orders h_npts h_ndims h_vars]; (split; [auto|]); (split; [done|]);
    eexists _, _, _, _, _, _, _, _; (split; [done|]); (split; [done|]);
    (split; [by destruct (1 <? _)|]); (split; [done|]); done.
Qed.
Lemma header_dsize l h : read_header l = Ok h → h_wdsz h = Z.of_nat (dsize (h_real h)).
Proof. intros H. destruct (header_facts l h H) as ([E|E] & R & _); rewrite R, E; done. Qed.

Lemma element_idxs_dest elmap nelf : nelf = Z.of_nat (length elmap) →
  (0 ∉ elmap → Forall (λ z, 1 <= z) elmap) →
  element_idxs elmap nelf = (λ j, Z.of_nat (dest elmap j)) <$> seq 0 (length elmap).
Proof.
  intros -> H. unfold element_idxs, dest. destruct (bool_decide (0 ∈ elmap)) eqn:E.
  - unfold range. by rewrite Nat2Z.id.
  - apply bool_decide_eq_false_1 in E. specialize (H E). apply list_eq. intros i.
    rewrite !list_lookup_fmap. destruct (elmap !! i) as [z|] eqn:Ez.
    + rewrite lookup_seq_lt by (by eapply lookup_lt_Some). cbn [fmap option_fmap option_map]. f_equal.
      rewrite (nth_lookup_Some _ _ _ _ Ez). rewrite Forall_forall in H. specialize (H z (elem_of_list_lookup_2 _ _ _ Ez)). lia.
    + rewrite lookup_seq_ge by (by apply lookup_ge_None_1). done.
Qed.
Lemma read_tag_ok o : read_tag (f32_bytes o (narrow tag64)) = Ok o.
Proof. destruct o; vm_compute; reflexivity. Qed.
Lemma new_hexa_cell (z : fval) bo nd ne kind lr v nbc p k c :
  length v = 5%nat → (p < ne)%nat → (c < match k with FPos | FVel => 3 | _ => nth (kidx k) v 0%nat end)%nat →
  cell (new_hexa z bo nd ne kind lr v nbc) p k c =
  Some (replicate (nth 2 lr 0 * nth 1 lr 0 * nth 0 lr 0)%nat z).
Proof.
  intros Hv Hp Hc. unfold cell, new_hexa. cbn [elems]. rewrite lookup_replicate_2 by done. cbn [mbind option_bind].
  unfold new_elem, lr1_triple, zarr. destruct k; cbn [get_f pos vel pres temp scal kidx] in *; by rewrite lookup_replicate_2.
Qed.
(** The hypotheses on the map: a permutation-like map without zeros, or a map with a zero. *)
Lemma dest_lt elmap ne j : map_ok elmap ne → (j < length elmap)%nat → Z.of_nat (dest elmap j) < ne.
Proof.
  intros (_ & H0 & H1) Hj. unfold dest. case_bool_decide as E; [specialize (H0 E); lia|]. destruct (H1 E) as [_ F].
  destruct (lookup_lt_is_Some_2 _ _ Hj) as [z Ez]. rewrite (nth_lookup_Some _ _ _ _ Ez).
  rewrite Forall_forall in F. specialize (F z (elem_of_list_lookup_2 _ _ _ Ez)). lia.
Qed.
Lemma dest_inj elmap ne j j' : map_ok elmap ne → (j < length elmap)%nat → (j' < length elmap)%nat → dest elmap j = dest elmap j' → j = j'.
Proof.
  intros (_ & _ & H1) Hj Hj'. unfold dest. case_bool_decide as E; [done|]. destruct (H1 E) as [N F].
  destruct (lookup_lt_is_Some_2 _ _ Hj) as [z Ez]. rewrite (nth_lookup_Some _ _ _ _ Ez).
  destruct (lookup_lt_is_Some_2 _ _ Hj') as [z' Ez']. rewrite (nth_lookup_Some _ _ _ _ Ez').
  rewrite Forall_forall in F. pose proof (F z (elem_of_list_lookup_2 _ _ _ Ez)). pose proof (F z' (elem_of_list_lookup_2 _ _ _ Ez')).
  intros Ed. assert (z = z') as <- by lia. by eapply NoDup_lookup.
Qed.
Definition header_nonneg (h : header) : Prop :=
  0 <= h_nel h ∧ Forall (λ z, 0 <= z) (h_orders h) ∧ Forall (λ z, 0 <= z) (h_vars h).
Lemma existsb_neg l : Forall (λ z, 0 <= z) l → existsb (λ z, z <? 0) l = false.
Proof. induction 1 as [|z l Hz _ IH]; cbn; [done|]. rewrite IH. by rewrite (proj2 (Z.ltb_ge _ _)). Qed.
Theorem read_file native dt o H h elmap V rest :
  length H = 132%nat → read_header H = Ok h → header_nonneg h → h_nelf h = Z.of_nat (length elmap) →
  map_ok elmap (h_nel h) →
  (∀ j k c, (j < length elmap)%nat → (c < h_count h k)%nat →
     Forall (has_dtype (h_real h)) (V j k c) ∧ Z.of_nat (length (V j k c)) = h_npts h) →
  ∃ m', readnek native dt [] (field_file o H elmap (h_count h) V ++ rest) = Ok m' ∧
    meta_of m' = (Z.to_nat (h_ndims h), Z.to_nat (h_nel h), Z.to_nat <$> h_orders h, Z.to_nat <$> h_vars h,
                  V64 (h_time h), h_istep h, h_wdsz h, order_name o, elmap) ∧
    length (elems m') = Z.to_nat (h_nel h) ∧
    (∀ j k c, (j < length elmap)%nat → (c < h_count h k)%nat → cell m' (dest elmap j) k c = Some (cast dt <$> V j k c)) ∧
    (∀ p k c, (p < Z.to_nat (h_nel h))%nat → (c < h_count h k)%nat → (∀ j, (j < length elmap)%nat → dest elmap j ≠ p) →
       cell m' p k c = Some (replicate (Z.to_nat (h_npts h)) (zeroV dt))).
Proof.
  intros HL HH (Nn & No & Nv) Hnf Hmap HV. pose proof Hmap as (Hi32 & Hm0 & Hm1).
  unfold readnek, field_file. rewrite <- !app_assoc.
  rewrite (py_read_app _ H) by lia. rewrite HH. cbn [rbind].
  rewrite (py_read_app _ (f32_bytes o (narrow tag64))) by (rewrite f32_bytes_length; done). rewrite read_tag_ok. cbn [rbind].
  rewrite (py_read_app _ (elmap ≫= i32_bytes o)).
  2:{ rewrite (bind_length 4) by (intros; apply i32_bytes_length). lia. }
  rewrite Hnf, unpack_i32_bytes by done. cbn [rbind].
  unfold init_data. rewrite (proj2 (Z.ltb_ge (h_nel h) 0)) by done. rewrite !existsb_neg by done. cbn [orb].
  cbn [rbind]. set (m0 := Hexa _ _ _ _ _ _ _ _ _ _ _ _ _).
  destruct (header_facts H h HH) as (Hw & Hr & ox & oy & oz & vx & vu & vp & vt & vs & Eo & Enp & End & Ev & Hvx & Hvu & Hvp & Hvt).
  assert (∀ p k c, (p < Z.to_nat (h_nel h))%nat → (c < h_count h k)%nat →
    cell m0 p k c = Some (replicate (Z.to_nat (h_npts h)) (zeroV dt))) as H0.
  { intros p k c Hp Hc. transitivity (cell (new_hexa (zeroV dt) (order_name native) (Z.to_nat (h_ndims h)) (Z.to_nat (h_nel h)) PyTuple
             (Z.to_nat <$> h_orders h) (Z.to_nat <$> h_vars h) 0) p k c); [done|].
    rewrite new_hexa_cell; [|by rewrite fmap_length, Ev|done|].
    - f_equal. f_equal. rewrite Enp, Eo. cbn [fmap list_fmap nth]. rewrite Eo in No.
      rewrite !Forall_cons in No. destruct No as (? & ? & ? & _). rewrite Z.mul_1_r, !Z2Nat.inj_mul by lia. lia.
    - unfold h_count in Hc. rewrite Ev in Hc |- *. assert (h_ndims h <= 3) by (rewrite End; destruct (1 <? oz); lia).
      destruct k; cbn [kidx nth fmap list_fmap] in *; lia. }
  rewrite (readnek_ops_all h elmap (λ j, Z.of_nat (dest elmap j))).
  2:{ apply element_idxs_dest; [done|]. intros E. destruct (Hm1 E) as [_ F]. eapply Forall_impl; [exact F|]. cbn. lia. }
  set (items := (λ b : nat * fkind * nat, (dest elmap b.1.1, b.1.2, b.2, V b.1.1 b.1.2 b.2)) <$> storage (length elmap) (h_count h)).
  destruct (run_blocks o h dt items m0 rest) as (m' & E & [F1 F2] & C1 & C2).
  { by eapply header_dsize. }
  { unfold items. rewrite <- list_fmap_compose. apply NoDup_fmap_2_strong; [|apply NoDup_storage].
    intros [[j k] c] [[j' k'] c'] Hj Hj'. apply elem_of_storage in Hj, Hj'. cbn. intros [= Ed -> ->].
    f_equal. f_equal. eapply dest_inj; [exact Hmap|apply Hj|apply Hj'|done]. }
  { intros p k c a Ha. unfold items in Ha. apply elem_of_list_fmap in Ha as ([[j k'] c'] & [= -> -> -> ->] & Hj).
    apply elem_of_storage in Hj as [Hj Hc]. split; [|by apply HV].
    rewrite H0; [eauto| |done]. pose proof (dest_lt _ _ _ Hmap Hj). lia. }
  assert ((storage (length elmap) (h_count h) ≫= λ b, V b.1.1 b.1.2 b.2 ≫= fval_bytes o) = (items ≫= λ it, blk o it.2)) as EB.
  { unfold items. by rewrite list_fmap_bind. }
  assert (((λ b, Block (Z.of_nat (dest elmap b.1.1)) b.1.2 b.2 false) <$> storage (length elmap) (h_count h)) =
          ((λ it, Block (Z.of_nat it.1.1.1) it.1.1.2 it.1.2 false) <$> items)) as EO.
  { unfold items. by rewrite <- list_fmap_compose. }
  rewrite EB, EO.
  exists m'. split; [exact (f_equal (λ x, let! r := x in Ok r.1) E)|]. split; [|split; [|split]].
  - rewrite F1. done.
  - rewrite F2. unfold m0. cbn [elems new_hexa]. by rewrite replicate_length.
  - intros j k c Hj Hc. apply C1. unfold items. apply elem_of_list_fmap. exists (j, k, c). split; [done|]. by apply elem_of_storage.
  - intros p k c Hp Hc Hd. rewrite C2; [by apply H0|]. unfold items. rewrite <- list_fmap_compose. intros Hin.
    apply elem_of_list_fmap in Hin as ([[j k'] c'] & [= -> -> ->] & Hj). apply elem_of_storage in Hj as [Hj _]. by apply (Hd j).
Qed.

(** ** The writer *)
Lemma out_order_asked native endian : out_order native endian = asked_order native endian.
Proof.
  unfold out_order, asked_order. destruct (bool_decide (endian = "little"%string)) eqn:E1.
  - apply bool_decide_eq_true_1 in E1 as ->. by destruct native.
  - destruct (bool_decide (endian = "big"%string)) eqn:E2.
    + apply bool_decide_eq_true_1 in E2 as ->. by destruct native.
    + apply bool_decide_eq_false_1 in E1, E2. rewrite bool_decide_eq_false_2; [done|naive_solver].
Qed.
Definition enc (m : mesh) (v : fval) : fval := if wdsz m =? 4 then cast D32 v else v.
Definition src (m : mesh) (p : nat) (k : fkind) (c : nat) : list fval := default [] (cell m p k c).
Lemma seq_nth (l : list Z) : l = (λ j, nth j l 0) <$> seq 0 (length l).
Proof.
  apply list_eq. intros i. rewrite list_lookup_fmap. destruct (l !! i) as [z|] eqn:E.
  - rewrite lookup_seq_lt by (by eapply lookup_lt_Some). cbn. by rewrite (nth_lookup_Some _ _ _ _ E).
  - by rewrite lookup_seq_ge by (by apply lookup_ge_None_1).
Qed.
Lemma write_blocks_storage m : write_blocks m =
  (λ b, (nth b.1.1 (elmap m) 0, b.1.2, b.2)) <$> storage (length (elmap m)) (nvar m).
Proof.
  unfold write_blocks, storage. rewrite fmap_app. f_equal.
  - rewrite fmap_bind. apply bind_ext. intros k _. rewrite fmap_bind. rewrite (seq_nth (elmap m)) at 1.
    rewrite list_fmap_bind. apply bind_ext. intros j _. unfold compose, range. rewrite <- list_fmap_compose. done.
  - rewrite fmap_bind. unfold range. apply bind_ext. intros c _. rewrite (seq_nth (elmap m)) at 1.
    rewrite <- !list_fmap_compose. done.
Qed.
Lemma elmap_range m z : field_mesh m → z ∈ elmap m → 1 <= z <= Z.of_nat (nel m).
Proof.
  intros FM Hz. rewrite (fm_elmap m FM) in Hz. apply elem_of_list_fmap in Hz as (i & -> & Hi). apply elem_of_seq in Hi. lia.
Qed.
Lemma elmap_len m : field_mesh m → length (elmap m) = nel m.
Proof. intros FM. rewrite (fm_elmap m FM), fmap_length, seq_length. done. Qed.
Lemma elmap_dest m j z : field_mesh m → elmap m !! j = Some z → dest (elmap m) j = Z.to_nat (z - 1).
Proof.
  intros FM Hz. unfold dest. rewrite bool_decide_eq_false_2; [by rewrite (nth_lookup_Some _ _ _ _ Hz)|].
  intros H0. apply (elmap_range m 0 FM) in H0. lia.
Qed.
Lemma elmap_map_ok m : field_mesh m → map_ok (elmap m) (Z.of_nat (nel m)).
Proof.
  intros FM. pose proof (fm_nel m FM) as [_ Hn]. split; [|split].
  - apply Forall_forall. intros z Hz. apply (elmap_range m z FM) in Hz. lia.
  - intros H0. apply (elmap_range m 0 FM) in H0. lia.
  - intros _. split; [|apply Forall_forall; intros z Hz; by apply elmap_range].
    rewrite (fm_elmap m FM). apply NoDup_fmap_2; [intros ? ?; lia|apply NoDup_seq].
Qed.
Lemma elmap_surj m p : field_mesh m → (p < nel m)%nat → ∃ j, (j < length (elmap m))%nat ∧ dest (elmap m) j = p.
Proof.
  intros FM Hp. assert (Z.of_nat p + 1 ∈ elmap m) as H.
  { rewrite (fm_elmap m FM). apply elem_of_list_fmap. exists p. split; [done|]. apply elem_of_seq. lia. }
  apply elem_of_list_lookup in H as (j & Hj). exists j. split; [by eapply lookup_lt_Some|].
  rewrite (elmap_dest m j _ FM Hj). lia.
Qed.
Lemma field_mesh_cell m p k c : field_mesh m → (p < nel m)%nat → (c < nvar m k)%nat →
  ∃ a, cell m p k c = Some a ∧ length a = foldr Nat.mul 1%nat (lr1 m).
Proof.
  intros FM Hp Hc. destruct (fm_nel m FM) as [Hl _]. destruct (lookup_lt_is_Some_2 (elems m) p) as [e He]; [lia|].
  unfold cell. rewrite He. cbn. apply (fm_arrays m FM e k c); [by eapply elem_of_list_lookup_2|done].
Qed.
Lemma comp_at_ok m j k c : field_mesh m → (j < length (elmap m))%nat → (c < nvar m k)%nat →
  comp_at m (nth j (elmap m) 0) k c = Ok (src m (dest (elmap m) j) k c).
Proof.
  intros FM Hj Hc. destruct (lookup_lt_is_Some_2 _ _ Hj) as [z Hz]. rewrite (nth_lookup_Some _ _ _ _ Hz), (elmap_dest m j z FM Hz).
  pose proof (elmap_range m z FM (elem_of_list_lookup_2 _ _ _ Hz)) as Hr. destruct (fm_nel m FM) as [Hl _].
  destruct (field_mesh_cell m (Z.to_nat (z - 1)) k c FM) as (a & Ha & _); [lia|done|].
  unfold src. rewrite Ha. cbn [default]. unfold comp_at, elem_at, py_get.
  replace (z - 1) with (Z.of_nat (Z.to_nat (z - 1))) at 1 by lia. rewrite py_pos_nat by lia. cbn [mbind option_bind].
  unfold cell in Ha. destruct (elems m !! Z.to_nat (z - 1)) as [e|]; [|done]. cbn [mbind option_bind of_opt rbind] in *. by rewrite Ha.
Qed.
Lemma concat_fmap {A} (f : A → bytes) l : concat (f <$> l) = l ≫= f.
Proof. induction l as [|x l IH]; cbn; [done|]. by rewrite IH. Qed.
Lemma ok_fmap {A} (f : A → res bytes) (g : A → bytes) (l : list A) : (∀ x, x ∈ l → f x = Ok (g x)) → f <$> l = Ok <$> (g <$> l).
Proof.
  induction l as [|x l IH]; intros H; [done|]. rewrite !fmap_cons, (H x) by left. f_equal. apply IH. intros; apply H; by right.
Qed.
Definition writable (m : mesh) : Prop := wdsz m = 8 → all_f64 m.
Lemma writable_dtype m p k c a : field_mesh m → writable m → (c < nvar m k)%nat → cell m p k c = Some a →
  Forall (has_dtype (real_of (wdsz m))) (enc m <$> a).
Proof.
  intros FM W Hc Ha. apply Forall_fmap. unfold compose, enc, real_of. destruct (fm_wdsz m FM) as [E|E]; rewrite E; cbn.
  - apply Forall_true. intros v. exact (cast_dtype D32 v).
  - eapply Forall_impl; [exact (W E p k c a Hc Ha)|]. by intros v [x ->].
Qed.
Lemma minmax_ok m b : field_mesh m → b ∈ minmax_blocks m →
  ∃ j k c, b = (nth j (elmap m) 0, k, c) ∧ (j < length (elmap m))%nat ∧ (c < nvar m k)%nat.
Proof.
  intros FM Hb. unfold minmax_blocks in Hb. destruct (ndim m =? 3)%nat; [|by apply elem_of_nil in Hb].
  apply elem_of_list_bind in Hb as (k & Hb & _). apply elem_of_list_bind in Hb as (z & Hb & Hz).
  apply elem_of_list_fmap in Hb as (c & -> & Hc). apply elem_of_seq in Hc. apply elem_of_list_lookup in Hz as (j & Hj).
  exists j, k, c. rewrite (nth_lookup_Some _ _ _ _ Hj). split; [done|]. split; [by eapply lookup_lt_Some|lia].
Qed.
Definition mesh_header (m : mesh) : header :=
  Hdr (wdsz m) (Z.of_nat <$> lr1 m) (Z.of_nat (nel m)) (Z.of_nat (nel m)) (to64 (time m)) (istep m) 0 1
    (nb_vars_to_variables (Z.of_nat <$> var m)) (real_of (wdsz m)) (foldr Z.mul 1 (Z.of_nat <$> lr1 m))
    (Z.of_nat (ndim m)) (Z.of_nat <$> var m).
Definition read_back (h : header) : header :=
  Hdr (h_wdsz h) (h_orders h) (h_nel h) (h_nelf h) (txt_value 13 (h_time h)) (h_istep h) (h_fid h) (h_nfiles h)
    (h_variables h) (h_real h) (h_npts h) (h_ndims h) (h_vars h).
Lemma mesh_header_ok m : field_mesh m →
  write_header m = Ok (as_bytestring (mesh_header m)) ∧ length (as_bytestring (mesh_header m)) = 132%nat ∧
  read_header (as_bytestring (mesh_header m)) = Ok (read_back (mesh_header m)).
Proof.
  intros FM. destruct (fm_lr1 m FM) as (lx & ly & lz & El & Hb & Hnd). destruct (fm_nel m FM) as [_ Hn].
  assert (Z.of_nat (ndim m) = if 1 <? Z.of_nat lz then 3 else 2) as End.
  { rewrite Hnd. destruct (Nat.ltb_spec 1 lz), (Z.ltb_spec 1 (Z.of_nat lz)); lia. }
  assert (header_fits (wdsz m) (Z.of_nat lx) (Z.of_nat ly) (Z.of_nat lz) (Z.of_nat (nel m)) (Z.of_nat (nel m)) (istep m) 0 1
    (Z.of_nat <$> var m)) as HF.
  { split; [apply (fm_wdsz m FM)|]. do 5 (split; [lia|]). split; [apply (fm_istep m FM)|]. do 2 (split; [lia|]).
    rewrite <- End. apply (fm_var m FM). }
  assert (mk_header (wdsz m) [Z.of_nat lx; Z.of_nat ly; Z.of_nat lz] (Z.of_nat (nel m)) (Z.of_nat (nel m)) (to64 (time m)) (istep m) 0 1
    [] (Z.of_nat <$> var m) = Ok (mesh_header m)) as EM.
  { rewrite mk_header_ok by done. unfold mesh_header. rewrite El, End. cbn [fmap list_fmap foldr]. do 2 f_equal.
    by destruct (1 <? Z.of_nat lz). }
  destruct (header_roundtrip _ _ _ _ _ _ (to64 (time m)) _ _ _ _ _ HF EM) as [H1 H2].
  split; [|split; [done|]].
  - unfold write_header. rewrite El. cbn [fmap list_fmap]. cbn [fmap list_fmap] in EM. by rewrite EM.
  - rewrite H2. unfold read_back, mesh_header. cbn. rewrite El, End. cbn [fmap list_fmap foldr]. do 2 f_equal.
    by destruct (1 <? Z.of_nat lz).
Qed.
Theorem write_file native m : field_mesh m → writable m →
  ∃ trailer, writenek native m =
    (field_file (asked_order native (endian m)) (as_bytestring (mesh_header m)) (elmap m) (nvar m)
       (λ j k c, enc m <$> src m (dest (elmap m) j) k c) ++ trailer, Ok tt).
Proof.
  intros FM W. unfold writenek. rewrite out_order_asked. set (o := asked_order native (endian m)).
  destruct (mesh_header_ok m FM) as (HW & _ & _). rewrite HW.
  assert ((λ b : Z * fkind * nat, let '(iel, k, i) := b in let! a := comp_at m iel k i in Ok (ndarray_bytes o m a)) <$> write_blocks m =
    Ok <$> ((λ b : nat * fkind * nat, blk o (enc m <$> src m (dest (elmap m) b.1.1) b.1.2 b.2)) <$> storage (length (elmap m)) (nvar m))) as ->.
  { rewrite write_blocks_storage, <- list_fmap_compose. apply ok_fmap. intros [[j k] c] Hj. apply elem_of_storage in Hj as [Hj Hc].
    unfold compose. cbn [fst snd]. rewrite comp_at_ok by done. cbn [rbind]. f_equal. unfold ndarray_bytes, blk, enc.
    destruct (wdsz m =? 4); [done|]. by rewrite list_fmap_id. }
  assert (∃ bs, (λ b : Z * fkind * nat, let '(iel, k, i) := b in let! a := comp_at m iel k i in minmax_bytes o a) <$> minmax_blocks m = Ok <$> bs) as [bs ->].
  { assert (∀ b, b ∈ minmax_blocks m → ∃ x, (let '(iel, k, i) := b in let! a := comp_at m iel k i in minmax_bytes o a) = Ok x) as Hb.
    { intros b Hb. destruct (minmax_ok m b FM Hb) as (j & k & c & -> & Hj & Hc). rewrite comp_at_ok by done. cbn [rbind].
      assert (dest (elmap m) j < nel m)%nat as Hd.
      { pose proof (dest_lt _ _ j (elmap_map_ok m FM) Hj). lia. }
      destruct (field_mesh_cell m (dest (elmap m) j) k c FM Hd Hc) as (a & Ha & Hl).
      unfold src. rewrite Ha. cbn [default]. destruct (fm_lr1 m FM) as (lx & ly & lz & El & Hbd & _).
      destruct a as [|x a]; [|by eexists]. rewrite El in Hl. cbn [length foldr] in Hl. lia. }
    revert Hb. generalize (minmax_blocks m). intros l. induction l as [|b l IH]; intros Hb; [by exists []|].
    destruct (Hb b) as [x Hx]; [left|]. destruct IH as [xs IH]; [intros; apply Hb; by right|].
    exists (x :: xs). rewrite !fmap_cons, Hx, IH. done. }
  exists (concat bs). rewrite <- fmap_app. change (Ok ?a :: Ok ?b :: Ok ?c :: ?l) with ([Ok a; Ok b; Ok c] ++ l).
  change ([Ok (as_bytestring (mesh_header m)); Ok (f32_bytes o (narrow tag64)); Ok (elmap m ≫= i32_bytes o)]) with
    (Ok <$> [as_bytestring (mesh_header m); f32_bytes o (narrow tag64); elmap m ≫= i32_bytes o]).
  rewrite <- fmap_app, write_all_Ok. f_equal. unfold field_file. cbn [app concat]. rewrite concat_app, concat_fmap, <- !app_assoc. done.
Qed.

Lemma storage_ext n nv nv' : (∀ k, nv k = nv' k) → storage n nv = storage n nv'.
Proof. intros H. unfold storage. rewrite (H FScal). f_equal. apply bind_ext. intros k _. by rewrite (H k). Qed.
Lemma h_count_mesh m h k : h_vars h = Z.of_nat <$> var m → h_count h k = nvar m k.
Proof.
  intros E. unfold h_count, nvar. rewrite E. change 0 with (Z.of_nat 0) at 1. generalize (kidx k). intros i.
  generalize (var m). intros l. revert i. induction l as [|v l IH]; intros [|i]; cbn [fmap list_fmap nth]; try lia. apply IH.
Qed.
Theorem roundtrip native native' dt m : field_mesh m → writable m →
  ∃ f m', writenek native m = (f, Ok tt) ∧ readnek native' dt [] f = Ok m' ∧ same_metadata m' m ∧
    time m' = V64 (txt_value 13 (to64 (time m))) ∧ endian m' = order_name (asked_order native (endian m)) ∧
    fields_via (λ v, cast dt (enc m v)) m' m.
Proof.
  intros FM W. destruct (write_file native m FM W) as [tr HW]. destruct (mesh_header_ok m FM) as (_ & HL & HR).
  set (h := read_back (mesh_header m)) in *.
  assert (∀ k, h_count h k = nvar m k) as HC by (intros; by apply h_count_mesh).
  set (V := λ j k c, enc m <$> src m (dest (elmap m) j) k c) in *.
  assert (field_file (asked_order native (endian m)) (as_bytestring (mesh_header m)) (elmap m) (nvar m) V =
    field_file (asked_order native (endian m)) (as_bytestring (mesh_header m)) (elmap m) (h_count h) V) as EF.
  { unfold field_file. by rewrite (storage_ext _ _ _ HC). }
  assert (h_npts h = Z.of_nat (foldr Nat.mul 1%nat (lr1 m))) as Hnp.
  { unfold h. cbn. generalize (lr1 m). intros l. induction l as [|v l IH]; [done|]. cbn [fmap list_fmap foldr]. rewrite IH. lia. }
  pose proof (elmap_map_ok m FM) as HM. pose proof (elmap_len m FM) as HEL.
  assert (∀ j k c, (j < length (elmap m))%nat → (c < nvar m k)%nat → ∃ a, cell m (dest (elmap m) j) k c = Some a ∧
    length a = foldr Nat.mul 1%nat (lr1 m)) as Hcell.
  { intros j k c Hj Hc. apply field_mesh_cell; [done| |done]. pose proof (dest_lt _ _ j HM Hj). lia. }
  destruct (read_file native' dt (asked_order native (endian m)) _ h (elmap m) V tr HL HR) as (m' & E & Hmeta & Hlen & Hcells & _).
  - split; [|split]; unfold h; cbn.
    + lia.
    + apply Forall_fmap, Forall_true. intros; cbn; lia.
    + apply Forall_fmap, Forall_true. intros; cbn; lia.
  - unfold h. cbn. lia.
  - done.
  - intros j k c Hj Hc. rewrite HC in Hc. destruct (Hcell j k c Hj Hc) as (a & Ha & Hl). unfold V, src. rewrite Ha. cbn [default].
    split; [by eapply writable_dtype|]. rewrite Hnp. f_equal. rewrite <- Hl. apply fmap_length.
  - rewrite <- EF in E. eexists _, m'. split; [exact HW|]. split; [exact E|]. unfold meta_of in Hmeta.
    assert (∀ l : list nat, Z.to_nat <$> (Z.of_nat <$> l) = l) as Hid.
    { intros l. rewrite <- list_fmap_compose. rewrite <- (list_fmap_id l) at 2. apply list_fmap_ext. intros; cbn; lia. }
    injection Hmeta as M1 M2 M3 M4 M5 M6 M7 M8 M9. cbn in M1, M2, M3, M4, M5, M6, M7. rewrite ?Nat2Z.id in *. rewrite Hid in M3, M4.
    split; [by repeat split|]. split; [done|]. split; [done|]. split.
    + rewrite Hlen. cbn. destruct (fm_nel m FM). lia.
    + intros p k c Hp Hc. destruct (elmap_surj m p FM Hp) as (j & Hj & Hd).
      destruct (Hcell j k c Hj Hc) as (a & Ha & Hl). rewrite Hd in Ha. exists a. split; [done|].
      rewrite <- Hd. rewrite Hcells by (rewrite ?HC; done). unfold V, src. rewrite Hd, Ha. cbn [default].
      by rewrite <- list_fmap_compose.
Qed.

(** ** Torn files *)
Lemma step_block_length o h dt m l iel k i m' l' : h_wdsz h = Z.of_nat (dsize (h_real h)) → 0 <= h_npts h →
  fop_step o h dt (m, l) (Block iel k i false) = Ok (m', l') →
  l' = drop (Z.to_nat (h_npts h * h_wdsz h)) l ∧ h_npts h * h_wdsz h <= Z.of_nat (length l).
Proof.
  intros Hw Hn. unfold fop_step. destruct (py_pos _ _) as [p|]; [|done]. cbn [of_opt rbind].
  unfold py_read. rewrite (proj2 (Z.ltb_ge (h_npts h * h_wdsz h) 0)) by lia.
  unfold frombuffer. destruct (Nat.ltb_spec (length (take (Z.to_nat (h_npts h * h_wdsz h)) l)) (Z.to_nat (h_npts h) * dsize (h_real h))) as [|HL]; [done|].
  cbn [rbind]. intros [= _ <-]. split; [done|]. rewrite take_length in HL. nia.
Qed.
Lemma run_length o h dt (bs : list (Z * fkind * nat)) m l r : h_wdsz h = Z.of_nat (dsize (h_real h)) → 0 <= h_npts h →
  foldM (fop_step o h dt) (m, l) ((λ b, Block b.1.1 b.1.2 b.2 false) <$> bs) = Ok r →
  h_npts h * h_wdsz h * Z.of_nat (length bs) <= Z.of_nat (length l).
Proof.
  intros Hw Hn. revert m l. induction bs as [|[[iel k] i] bs IH]; intros m l E.
  { cbn [length]. lia. }
  rewrite fmap_cons in E. cbn [foldM] in E. destruct (fop_step o h dt (m, l) _) as [[m' l']|] eqn:ES; [|done]. cbn [rbind] in E.
  apply step_block_length in ES as [-> HL]; [|done|done]. apply IH in E. rewrite drop_length in E. cbn [length]. lia.
Qed.
Lemma storage_length n nv : length (storage n nv) = (n * (nv FPos + nv FVel + nv FPres + nv FTemp + nv FScal))%nat.
Proof.
  unfold storage. rewrite app_length. cbn [mbind list_bind]. rewrite !app_length. cbn [length].
  assert (∀ {A B C} (l1 : list A) (l2 : list B) (f : A → B → C), length (l1 ≫= λ a, f a <$> l2) = (length l1 * length l2)%nat) as HL.
  { intros A B C l1 l2 f. induction l1 as [|a l1 IH]; [done|]. cbn [mbind list_bind length]. rewrite app_length, fmap_length.
    cbn [mbind list_bind] in IH. rewrite IH. lia. }
  rewrite !HL, !seq_length. lia.
Qed.
Lemma element_idxs_length elmap nelf : length elmap = Z.to_nat nelf → length (element_idxs elmap nelf) = Z.to_nat nelf.
Proof. intros H. unfold element_idxs. case_bool_decide; rewrite fmap_length; [apply seq_length|done]. Qed.
Lemma readnek_length native dt f m h : 
  read_header (take 132 f) = Ok h → readnek native dt [] f = Ok m → data_end h <= Z.of_nat (length f).
Proof.
  intros HH E. unfold readnek in E. change (py_read 132 f) with (take 132 f, drop 132 f) in E. cbn [fst] in E. rewrite HH in E. cbn [rbind] in E.
  set (l1 := drop 132 f) in *. change (py_read 4 l1) with (take 4 l1, drop 4 l1) in E. cbn [rbind] in E.
  set (l2 := drop 4 l1) in *.
  destruct (read_tag (take 4 l1)) as [o|] eqn:ET; [|done]. cbn [rbind] in E.
  assert (4 ≤ length l1)%nat as L1.
  { unfold read_tag, unpack_f32 in ET. destruct (Nat.eqb_spec (length (take 4 l1)) 4) as [L|]; [|done]. rewrite take_length in L. lia. }
  assert (∀ a b : bytes, py_read (4 * h_nelf h) l2 = (a, b) → unpack_i32 o (h_nelf h) a = Raise StructError ∨
    (0 <= h_nelf h ∧ b = drop (Z.to_nat (4 * h_nelf h)) l2 ∧ 4 * h_nelf h <= Z.of_nat (length l2)) ∨ (h_nelf h < 0 ∧ a = [])) as HP.
  { intros a b Hab. unfold py_read in Hab. unfold unpack_i32. destruct (Z.ltb_spec (4 * h_nelf h) 0) as [Hneg|Hpos].
    - injection Hab as <- <-. destruct (Z.eqb_spec (Z.of_nat (length l2)) (4 * Z.max 0 (h_nelf h))); [|by left].
      right. right. split; [lia|]. destruct l2; [done|]. cbn [length] in *. lia.
    - injection Hab as <- <-. rewrite take_length. destruct (Z.eqb_spec (Z.of_nat (Z.to_nat (4 * h_nelf h) `min` length l2)) (4 * Z.max 0 (h_nelf h))); [|by left].
      right. left. split; [lia|]. split; [done|]. lia. }
  destruct (py_read (4 * h_nelf h) l2) as [mapb l3] eqn:E3. specialize (HP _ _ eq_refl).
  destruct (unpack_i32 o (h_nelf h) mapb) as [em|] eqn:EU; [|done]. cbn [rbind] in E.
  destruct (init_data native h dt o em) as [m0|] eqn:EI; [|done]. cbn [rbind] in E.
  assert (length em = Z.to_nat (h_nelf h)) as Lem.
  { unfold unpack_i32 in EU. destruct (_ =? _); [|done]. injection EU as <-. by rewrite fmap_length, chunks_length. }
  assert (length f = 132 + length l1 ∨ (length f < 132 ∧ length l1 = 0))%nat as L0.
  { unfold l1. rewrite drop_length. lia. }
  assert (length l1 = 4 + length l2)%nat as L2 by (unfold l2; rewrite drop_length; lia).
  set (D := λ j, nth j (element_idxs em (h_nelf h)) 0).
  pose proof (element_idxs_length em (h_nelf h) Lem) as Lidx.
  assert (element_idxs em (h_nelf h) = D <$> seq 0 (length em)) as HD by (rewrite Lem, <- Lidx; apply seq_nth).
  rewrite (readnek_ops_all h em D HD) in E.
  destruct (foldM (fop_step o h dt) (m0, l3) _) as [r|] eqn:ER; [|done].
  assert ((λ b : nat * fkind * nat, Block (D b.1.1) b.1.2 b.2 false) <$> storage (length em) (h_count h) =
    (λ b : Z * fkind * nat, Block b.1.1 b.1.2 b.2 false) <$> ((λ b : nat * fkind * nat, (D b.1.1, b.1.2, b.2)) <$> storage (length em) (h_count h))) as EO.
  { by rewrite <- list_fmap_compose. }
  rewrite EO in ER. destruct (header_facts _ _ HH) as (Hw & _ & ox & oy & oz & vx & vu & vp & vt & vs & Eo & Enp & _).
  assert (0 <= h_npts h) as Hnp.
  { unfold init_data in EI. destruct (h_nel h <? 0); [done|]. rewrite Eo in EI. cbn [existsb orb] in EI.
    destruct (Z.ltb_spec ox 0); [done|]. destruct (Z.ltb_spec oy 0); [done|]. destruct (Z.ltb_spec oz 0); [done|]. rewrite Enp. nia. }
  pose proof (run_length _ _ _ _ _ _ _ (header_dsize _ _ HH) Hnp ER) as HR.
  rewrite fmap_length, storage_length, Lem in HR. unfold data_end.
  destruct HP as [HP|[(P1 & -> & P2)|(P1 & ->)]]; [done| |].
  - rewrite drop_length in HR. rewrite Nat2Z.inj_mul, Z2Nat.id in HR by done. lia.
  - assert (h_npts h * h_wdsz h * h_nelf h * Z.of_nat (h_count h FPos + h_count h FVel + h_count h FPres + h_count h FTemp + h_count h FScal) <= 0); [|lia].
    assert (0 <= h_npts h * h_wdsz h) by (destruct Hw as [-> | ->]; lia). nia.
Qed.
Lemma torn native dt f n h : read_header (take 132 f) = Ok h → Z.of_nat n < data_end h → (n < length f)%nat →
  ∃ e, readnek native dt [] (take n f) = Raise e.
Proof.
  intros HH Hn Hl. destruct (readnek native dt [] (take n f)) as [m|e] eqn:E; [exfalso|eauto].
  destruct (Nat.le_gt_cases 132 n) as [Hge|Hlt].
  - pose proof (readnek_length native dt (take n f) m h) as HR.
    rewrite take_take, Nat.min_l in HR by done. specialize (HR HH E). rewrite take_length in HR. lia.
  - unfold readnek in E. change (py_read 132 (take n f)) with (take 132 (take n f), drop 132 (take n f)) in E.
    rewrite (drop_ge (take n f)) in E by (rewrite take_length; lia).
    destruct (read_header (take 132 (take n f))); [|done]. discriminate E.
Qed.

(** ** Skipped variables *)
Lemma foldM_app {S A} (f : S → A → res S) s l1 l2 : foldM f s (l1 ++ l2) = let! s' := foldM f s l1 in foldM f s' l2.
Proof. revert s. induction l1 as [|a l1 IH]; intros s; cbn; [done|]. destruct (f s a); cbn; [apply IH|done]. Qed.
Definition skb (s : list string) (k : fkind) (c : nat) : bool := existsb (in_skip s) (var_names k c).
Lemma skb_named s k c : skb s k c = true ↔ named s k c.
Proof.
  unfold skb, named. rewrite existsb_exists. split.
  - intros (n & H1 & H2). exists n. split; [by apply elem_of_list_In|]. by apply bool_decide_eq_true_1 in H2.
  - intros (n & H1 & H2). exists n. split; [by apply elem_of_list_In|]. by apply bool_decide_eq_true_2.
Qed.
Lemma cell_alter (m : mesh) p k c v p' k' c' : (k, c) ≠ (k', c') →
  cell (set_elems (alter (set_comp k c v) p (elems m)) m) p' k' c' = cell m p' k' c'.
Proof.
  unfold cell. cbn [elems set_elems]. intros H. destruct (decide (p = p')) as [<-|Hp]; [|by rewrite list_lookup_alter_ne].
  rewrite list_lookup_alter. destruct (elems m !! p) as [e|]; [|done]. cbn [mbind option_bind fmap option_fmap option_map].
  unfold set_comp. rewrite get_set_f. case_bool_decide as E; [|done]. subst k'. rewrite list_lookup_insert_ne by congruence. done.
Qed.
Lemma cell_alter_same (m m' : mesh) p k c v p' : cell m p k c = cell m' p k c → (cell m p' k c = cell m' p' k c) →
  length (elems m) = length (elems m') →
  cell (set_elems (alter (set_comp k c v) p (elems m)) m) p' k c = cell (set_elems (alter (set_comp k c v) p (elems m')) m') p' k c.
Proof.
  intros H H' HL. destruct (cell m p k c) as [a|] eqn:E.
  - rewrite (cell_set _ _ _ _ _ _ _ _ a E), (cell_set m' _ _ _ _ _ _ _ a) by done. case_bool_decide; done.
  - destruct (decide (p = p')) as [<-|Hp].
    + unfold cell in *. cbn [elems set_elems]. rewrite !list_lookup_alter.
      assert (∀ e : elem fval, get_f k e !! c = None → get_f k (set_comp k c v e) !! c = None) as HN.
      { intros e He. unfold set_comp. rewrite get_set_f, bool_decide_eq_true_2 by done.
        apply lookup_ge_None_2. rewrite insert_length. by apply lookup_ge_None_1. }
      destruct (elems m !! p) as [e|], (elems m' !! p) as [e'|]; cbn [mbind option_bind fmap option_fmap option_map] in *; by rewrite ?HN.
    + unfold cell in *. cbn [elems set_elems]. rewrite !list_lookup_alter_ne by done. done.
Qed.
Section Skip.
Context (o : order) (h : header) (dt : dtype) (s : list string) (m0 : mesh).
Hypothesis Hw : h_wdsz h = Z.of_nat (dsize (h_real h)).
Hypothesis Hnp : 0 <= h_npts h.
Definition skip_inv (m m' : mesh) : Prop :=
  length (elems m') = length (elems m) ∧ set_elems [] m' = set_elems [] m ∧
  ∀ p k c, cell m' p k c = if skb s k c then cell m0 p k c else cell m p k c.
Definition sim (a b : list fop) : Prop :=
  ∀ m m' l r, skip_inv m m' → foldM (fop_step o h dt) (m, l) a = Ok r →
    ∃ r', foldM (fop_step o h dt) (m', l) b = Ok (r', r.2) ∧ skip_inv r.1 r'.
Lemma sim_nil : sim [] [].
Proof. intros m m' l r I [= <-]. eauto. Qed.
Lemma sim_app a b a' b' : sim a a' → sim b b' → sim (a ++ b) (a' ++ b').
Proof.
  intros Ha Hb m m' l r I E. rewrite foldM_app in *. destruct (foldM _ (m, l) a) as [[m1 l1]|] eqn:E1; [|done]. cbn [rbind] in E.
  destruct (Ha _ _ _ _ I E1) as (m1' & E1' & I1). cbn [fst snd] in *. rewrite E1'. cbn [rbind]. by eapply Hb.
Qed.
Lemma sim_bind {A} (f g : A → list fop) l : (∀ x, x ∈ l → sim (f x) (g x)) → sim (l ≫= f) (l ≫= g).
Proof.
  induction l as [|x l IH]; intros H; [apply sim_nil|]. cbn. apply sim_app; [apply H; left|]. apply IH. intros; apply H; by right.
Qed.
Lemma sim_block iel k c : sim [Block iel k c false] [Block iel k c (skb s k c)].
Proof.
  intros m m' l r I E. destruct I as (IL & IM & IC). cbn [foldM] in *.
  destruct (fop_step o h dt (m, l) (Block iel k c false)) as [[m1 l1]|] eqn:ES; [|done]. cbn [rbind] in E. injection E as <-. cbn [fst snd].
  pose proof (step_block_length _ _ _ _ _ _ _ _ _ _ Hw Hnp ES) as [-> HL].
  unfold fop_step in ES |- *. rewrite IL. destruct (py_pos (length (elems m)) iel) as [p|]; [|done]. cbn [of_opt rbind] in *.
  destruct (py_read (h_npts h * h_wdsz h) l) as [fi l'] eqn:ER.
  destruct (frombuffer o (h_real h) (Z.to_nat (h_npts h)) fi) as [vs|]; [|done]. cbn [rbind] in ES. injection ES as <- ->.
  destruct (skb s k c) eqn:Esk.
  - eexists. split; [done|]. split; [cbn; by rewrite alter_length|]. split; [done|].
    intros p' k' c'. rewrite IC. destruct (skb s k' c') eqn:E'; [done|]. rewrite cell_alter; [done|congruence].
  - eexists. split; [done|]. split; [cbn; by rewrite !alter_length|]. split; [exact IM|].
    intros p' k' c'. destruct (decide ((k, c) = (k', c'))) as [[= <- <-]|Hne].
    + rewrite Esk. apply cell_alter_same; [by rewrite IC, Esk|by rewrite IC, Esk|done].
    + rewrite !cell_alter by done. apply IC.
Qed.
Lemma sim_blocks (bs : list (Z * fkind * nat)) :
  sim ((λ b, Block b.1.1 b.1.2 b.2 false) <$> bs) ((λ b, Block b.1.1 b.1.2 b.2 (skb s b.1.2 b.2)) <$> bs).
Proof.
  induction bs as [|[[iel k] c] bs IH]; [apply sim_nil|]. rewrite !fmap_cons.
  apply (sim_app [_] _ [_]); [apply sim_block|exact IH].
Qed.
Lemma sim_skip (bs : list (Z * fkind * nat)) n : (∀ b, b ∈ bs → skb s b.1.2 b.2 = true) → n = Z.of_nat (length bs) →
  sim ((λ b, Block b.1.1 b.1.2 b.2 false) <$> bs) [SkipN n].
Proof.
  intros Hs ->. assert (0 <= h_npts h * h_wdsz h) as Hb by lia.
  assert (∀ m m' l r, skip_inv m m' → foldM (fop_step o h dt) (m, l) ((λ b, Block b.1.1 b.1.2 b.2 false) <$> bs) = Ok r →
    r.2 = drop (Z.to_nat (h_npts h * h_wdsz h * Z.of_nat (length bs))) l ∧ skip_inv r.1 m') as H.
  { induction bs as [|[[iel k] c] bs IH]; intros m m' l r I E.
    - injection E as <-. cbn [length]. rewrite Z.mul_0_r. done.
    - rewrite fmap_cons in E. cbn [foldM] in E. destruct (fop_step o h dt (m, l) _) as [[m1 l1]|] eqn:ES; [|done]. cbn [rbind fst snd] in *.
      pose proof (step_block_length _ _ _ _ _ _ _ _ _ _ Hw Hnp ES) as [-> HL].
      assert (skip_inv m1 m') as I1.
      { assert (foldM (fop_step o h dt) (m, l) [Block iel k c false] = Ok (m1, drop (Z.to_nat (h_npts h * h_wdsz h)) l)) as E1.
        { cbn [foldM]. by rewrite ES. }
        destruct (sim_block iel k c m m' l _ I E1) as (r' & E2 & I2). cbn [fst] in I2.
        assert (skb s k c = true) as Hk by (exact (Hs (iel, k, c) ltac:(left))). rewrite Hk in E2. cbn [foldM] in E2. unfold fop_step in E2 at 1.
        destruct (py_pos _ _); [|done]. cbn in E2. injection E2 as <-. done. }
      destruct (IH ltac:(intros; apply Hs; by right) _ _ _ _ I1 E) as [-> I2]. split; [|done].
      rewrite drop_drop. f_equal. cbn [length]. rewrite Nat2Z.inj_succ. rewrite Z.mul_succ_r, (Z2Nat.inj_add _ (h_npts h * h_wdsz h)) by lia. lia. }
  intros m m' l r I E. destruct (H _ _ _ _ I E) as [E2 I2]. cbn [foldM fop_step rbind]. exists m'. rewrite E2. done.
Qed.
Lemma field_sim k nv allskip skip idxs n :
  (allskip = true → ∀ c, (c < nv)%nat → skb s k c = true) → (allskip = false → ∀ c, (c < nv)%nat → skip c = skb s k c) →
  Z.of_nat (length idxs) = n →
  sim (idxs ≫= λ iel, (λ i, Block iel k i false) <$> range nv) (field_ops k nv allskip skip idxs n).
Proof.
  intros H1 H2 Hn. set (bs := idxs ≫= λ iel, (λ i, (iel, k, i)) <$> range nv).
  assert (∀ g : Z * fkind * nat → fop, (idxs ≫= λ iel, (λ i, g (iel, k, i)) <$> range nv) = g <$> bs) as Eg.
  { intros g. unfold bs. rewrite fmap_bind. apply bind_ext. intros iel _. by rewrite <- list_fmap_compose. }
  pose proof (Eg (λ b, Block b.1.1 b.1.2 b.2 false)) as E1. cbn [fst snd] in E1. rewrite E1.
  assert (∀ b, b ∈ bs → ∃ iel i, b = (iel, k, i) ∧ (i < nv)%nat) as Hb.
  { intros b Hb. apply elem_of_list_bind in Hb as (iel & Hb & _). apply elem_of_list_fmap in Hb as (i & -> & Hi).
    apply elem_of_seq in Hi. exists iel, i. split; [done|lia]. }
  unfold field_ops. destruct (Nat.eqb_spec nv 0) as [->|Hnv].
  { assert (bs = []) as ->; [|apply sim_nil]. unfold bs. cbn. apply bind_nil. }
  destruct allskip.
  - apply sim_skip.
    + intros b H. destruct (Hb b H) as (iel & i & -> & Hi). by apply H1.
    + unfold bs. rewrite <- Hn. generalize idxs. intros l. induction l as [|z l IH]; [done|]. cbn [length mbind list_bind].
      rewrite app_length, fmap_length. unfold range at 1. rewrite seq_length. rewrite Nat2Z.inj_add, <- IH. lia.
  - assert ((idxs ≫= λ iel, (λ i, Block iel k i (skip i)) <$> range nv) = (λ b, Block b.1.1 b.1.2 b.2 (skb s b.1.2 b.2)) <$> bs) as ->.
    { rewrite <- Eg. apply bind_ext. intros iel _. apply list_fmap_ext. intros ? i Hi. cbn. f_equal. apply H2; [done|].
      apply lookup_seq in Hi. lia. }
    apply sim_blocks.
Qed.
Lemma scal_sim nv idxs n : Z.of_nat (length idxs) = n →
  sim (range nv ≫= λ i, (λ iel, Block iel FScal i false) <$> idxs) (scal_ops nv (skb s FScal) idxs n).
Proof.
  intros Hn. unfold scal_ops. destruct (Nat.eqb_spec nv 0) as [->|Hnv]; [apply sim_nil|].
  destruct (forallb (skb s FScal) (range nv)) eqn:EA.
  - set (bs := range nv ≫= λ i, (λ iel, (iel, FScal, i)) <$> idxs).
    assert ((range nv ≫= λ i, (λ iel, Block iel FScal i false) <$> idxs) = (λ b, Block b.1.1 b.1.2 b.2 false) <$> bs) as ->.
    { unfold bs. rewrite fmap_bind. apply bind_ext. intros i _. by rewrite <- list_fmap_compose. }
    apply sim_skip.
    + intros b Hb. apply elem_of_list_bind in Hb as (i & Hb & Hi). apply elem_of_list_fmap in Hb as (iel & -> & _). cbn.
      rewrite forallb_forall in EA. apply EA. by apply elem_of_list_In.
    + unfold bs. rewrite <- Hn. unfold range. rewrite <- (seq_length nv 0) at 1. generalize (seq 0 nv). intros l. induction l as [|z l IH]; [cbn; lia|].
      cbn [length mbind list_bind]. rewrite app_length, fmap_length. rewrite Nat2Z.inj_add, <- IH. lia.
  - apply sim_bind. intros i _. assert (∀ f : Z → fop, f <$> idxs = (λ b : Z * fkind * nat, f b.1.1) <$> ((λ iel, (iel, FScal, i)) <$> idxs)) as Ef.
    { intros f. by rewrite <- list_fmap_compose. }
    set (bs := (λ iel, (iel, FScal, i)) <$> idxs).
    assert (((λ iel, Block iel FScal i false) <$> idxs) = (λ b, Block b.1.1 b.1.2 b.2 false) <$> bs) as E1.
    { unfold bs. by rewrite <- list_fmap_compose. }
    rewrite E1. destruct (skb s FScal i) eqn:Ei.
    + apply sim_skip; [|by unfold bs; rewrite fmap_length]. intros b Hb. apply elem_of_list_fmap in Hb as (iel & -> & _). done.
    + assert ((λ b, Block b.1.1 b.1.2 b.2 false) <$> bs = (λ b, Block b.1.1 b.1.2 b.2 (skb s b.1.2 b.2)) <$> bs) as E2.
      { apply list_fmap_ext. intros j b Hb. apply elem_of_list_lookup_2 in Hb. unfold bs in Hb.
        apply elem_of_list_fmap in Hb as (iel & -> & _). cbn [fst snd]. by rewrite Ei. }
      rewrite E2 at 2. apply sim_blocks.
Qed.
End Skip.
Lemma readnek_ops_noskip h elmap : readnek_ops h elmap [] =
  (element_idxs elmap (h_nelf h) ≫= λ iel, (λ i, Block iel FPos i false) <$> range (h_count h FPos)) ++
  (element_idxs elmap (h_nelf h) ≫= λ iel, (λ i, Block iel FVel i false) <$> range (h_count h FVel)) ++
  (element_idxs elmap (h_nelf h) ≫= λ iel, (λ i, Block iel FPres i false) <$> range (h_count h FPres)) ++
  (element_idxs elmap (h_nelf h) ≫= λ iel, (λ i, Block iel FTemp i false) <$> range (h_count h FTemp)) ++
  (range (h_count h FScal) ≫= λ i, (λ iel, Block iel FScal i false) <$> element_idxs elmap (h_nelf h)).
Proof.
  assert (∀ n k, h_count h k ≠ 0%nat → forallb (λ i, in_skip [] (nth i n EmptyString)) (range (h_count h k)) = false) as HF.
  { intros n k Hk. apply forallb_false; [intros; apply in_skip_nil|]. by destruct (h_count h k). }
  assert (∀ k idxs b skip n, (∀ i, skip i = false) → (h_count h k ≠ 0%nat → b = false) →
    field_ops k (h_count h k) b skip idxs n = idxs ≫= λ iel, (λ i, Block iel k i false) <$> range (h_count h k)) as HG.
  { intros k idxs b skip n Hs Hb. unfold field_ops. destruct (Nat.eqb_spec (h_count h k) 0) as [->|Hk]; [cbn; by rewrite bind_nil|].
    rewrite Hb by done. apply bind_ext. intros; apply list_fmap_ext; intros; by rewrite Hs. }
  unfold readnek_ops. fold (h_count h FPos) (h_count h FVel) (h_count h FPres) (h_count h FTemp) (h_count h FScal).
  rewrite (HG FPos) by (intros; first [apply in_skip_nil|by apply HF]).
  rewrite (HG FVel) by (intros; rewrite ?HF by done; by rewrite ?in_skip_nil).
  rewrite (HG FPres) by (intros; by rewrite ?in_skip_nil).
  rewrite (HG FTemp) by (intros; by rewrite ?in_skip_nil).
  do 4 f_equal. unfold scal_ops. destruct (Nat.eqb_spec (h_count h FScal) 0) as [->|Hk]; [done|].
  rewrite forallb_false; [|intros; apply in_skip_nil|by destruct (h_count h FScal)].
  apply bind_ext. intros. by rewrite in_skip_nil.
Qed.
Theorem skip_vars native dt s f m h : read_header (take 132 f) = Ok h → h_nelf h = h_nel h →
  readnek native dt [] f = Ok m →
  ∃ m', readnek native dt s f = Ok m' ∧ set_elems [] m' = set_elems [] m ∧ length (elems m') = length (elems m) ∧
    ∀ p k c, (p < nel m)%nat → (c < nvar m k)%nat →
      (¬ named s k c → cell m' p k c = cell m p k c) ∧
      (named s k c → cell m' p k c = Some (replicate (foldr Nat.mul 1%nat (lr1 m)) (zeroV dt))).
Proof.
  intros HH Hnf E. unfold readnek in *. change (py_read 132 f) with (take 132 f, drop 132 f) in *. cbn [fst] in *. rewrite HH in *. cbn [rbind] in *.
  set (l1 := drop 132 f) in *. change (py_read 4 l1) with (take 4 l1, drop 4 l1) in *. cbn [rbind] in *. set (l2 := drop 4 l1) in *.
  destruct (read_tag (take 4 l1)) as [o|] eqn:ET; [|done]. cbn [rbind] in *.
  destruct (py_read (4 * h_nelf h) l2) as [mapb l3] eqn:E3.
  destruct (unpack_i32 o (h_nelf h) mapb) as [em|] eqn:EU; [|done]. cbn [rbind] in *.
  destruct (init_data native h dt o em) as [m0|] eqn:EI; [|done]. cbn [rbind] in *.
  assert (length em = Z.to_nat (h_nelf h)) as Lem.
  { unfold unpack_i32 in EU. destruct (_ =? _); [|done]. injection EU as <-. by rewrite fmap_length, chunks_length. }
  pose proof (element_idxs_length em (h_nelf h) Lem) as Lidx.
  destruct (header_facts _ _ HH) as (Hw & _ & ox & oy & oz & vx & vu & vp & vt & vs & Eo & Enp & End & Ev & Hvx & Hvu & Hvp & Hvt).
  unfold init_data in EI. destruct (Z.ltb_spec (h_nel h) 0) as [|Nn]; [done|]. rewrite Eo, Ev in EI. cbn [existsb orb] in EI.
  destruct (Z.ltb_spec ox 0); [done|]. destruct (Z.ltb_spec oy 0); [done|]. destruct (Z.ltb_spec oz 0); [done|].
  destruct (Z.ltb_spec vx 0); [done|]. destruct (Z.ltb_spec vu 0); [done|]. destruct (Z.ltb_spec vp 0); [done|].
  destruct (Z.ltb_spec vt 0); [done|]. destruct (Z.ltb_spec vs 0); [done|]. cbn [orb] in EI.
  assert (0 <= h_npts h) as Hnp by (rewrite Enp; nia).
  destruct (foldM (fop_step o h dt) (m0, l3) (readnek_ops h em [])) as [r|] eqn:ER; [|done]. cbn [rbind] in E. injection E as <-.
  set (idxs := element_idxs em (h_nelf h)) in *.
  assert (Z.of_nat (length idxs) = h_nel h) as Hni by (rewrite Lidx; lia).
  pose proof (header_dsize _ _ HH) as Hds.
  assert (sim o h dt s m0 (readnek_ops h em []) (readnek_ops h em s)) as HS.
  { rewrite readnek_ops_noskip. fold idxs. unfold readnek_ops. fold (h_count h FPos) (h_count h FVel) (h_count h FPres) (h_count h FTemp) (h_count h FScal) idxs.
    assert (∀ f l c, forallb f (range l) = true → (c < l)%nat → f c = true) as HA.
    { intros g l c Hg Hc. rewrite forallb_forall in Hg. apply Hg. apply elem_of_list_In, elem_of_seq. lia. }
    apply sim_app; [|apply sim_app; [|apply sim_app; [|apply sim_app]]].
    - apply field_sim; [done|done| | |done].
      + intros Ha c Hc. unfold skb. cbn [existsb var_names]. rewrite orb_false_r. exact (HA _ _ _ Ha Hc).
      + intros _ c Hc. unfold skb. cbn [existsb var_names]. by rewrite orb_false_r.
    - apply field_sim; [done|done| | |done].
      + intros Ha c Hc. unfold skb. cbn [existsb var_names]. rewrite orb_false_r. apply orb_true_iff in Ha as [Ha|Ha];
          pose proof (HA _ _ _ Ha Hc) as HB; cbn beta in HB; apply orb_true_iff; [left|right]; exact HB.
      + intros _ c Hc. unfold skb. cbn [existsb var_names]. by rewrite orb_false_r.
    - apply field_sim; [done|done| | |done].
      + intros Ha c Hc. unfold skb. cbn [existsb var_names]. by rewrite orb_false_r.
      + intros Ha c Hc. unfold skb. cbn [existsb var_names]. by rewrite orb_false_r, Ha.
    - apply field_sim; [done|done| | |done].
      + intros Ha c Hc. unfold skb. cbn [existsb var_names]. by rewrite orb_false_r.
      + intros Ha c Hc. unfold skb. cbn [existsb var_names]. by rewrite orb_false_r, Ha.
    - assert (scal_ops (h_count h FScal) (λ i, in_skip s (scalar_var i)) idxs (h_nel h) = scal_ops (h_count h FScal) (skb s FScal) idxs (h_nel h)) as ->.
      { assert (∀ i, in_skip s (scalar_var i) = skb s FScal i) as Hi.
        { intros i. unfold skb. cbn [existsb var_names]. by rewrite orb_false_r. }
        unfold scal_ops. assert (forallb (λ i, in_skip s (scalar_var i)) (range (h_count h FScal)) = forallb (skb s FScal) (range (h_count h FScal))) as ->.
        { generalize (range (h_count h FScal)). intros l. induction l as [|i l IH]; [done|]. cbn [forallb]. by rewrite Hi, IH. }
        destruct (_ =? _)%nat; [done|]. destruct (forallb _ _); [done|]. apply bind_ext. intros i _. by rewrite Hi. }
      by apply scal_sim. }
  assert (skip_inv s m0 m0 m0) as I0.
  { split; [done|]. split; [done|]. intros p k c. by destruct (skb s k c). }
  destruct (HS m0 m0 l3 r I0 ER) as (m' & E' & IL & IM & IC). clear HS. rewrite E'. cbn [rbind fst]. exists m'. split; [done|]. split; [done|]. split; [done|].
  (* metadata of [m] are those of [m0] *)
  assert (set_elems [] r.1 = set_elems [] m0) as EM.
  { assert (∀ ops st st', foldM (fop_step o h dt) st ops = Ok st' → set_elems [] st'.1 = set_elems [] st.1) as HM.
    { induction ops as [|op ops IH]; intros st st' Hs; [by injection Hs as <-|]. cbn [foldM] in Hs.
      destruct (fop_step o h dt st op) as [st1|] eqn:E1; [|done]. cbn [rbind] in Hs. rewrite (IH _ _ Hs). clear Hs IH.
      destruct st as [ma la]. unfold fop_step in E1. destruct op as [iel k i sk|n]; [|by injection E1 as <-].
      destruct (py_pos _ _); [|done]. cbn [of_opt rbind] in E1. destruct sk; [by injection E1 as <-|].
      destruct (py_read (h_npts h * h_wdsz h) la) as [fa ra].
      destruct (frombuffer o (h_real h) (Z.to_nat (h_npts h)) fa); [|done]. cbn [rbind] in E1. injection E1 as <-. done. }
    exact (HM _ _ _ ER). }
  assert (nel m0 = Z.to_nat (h_nel h) ∧ var m0 = Z.to_nat <$> h_vars h ∧ lr1 m0 = Z.to_nat <$> h_orders h ∧
    elems m0 = elems (new_hexa (zeroV dt) (order_name native) (Z.to_nat (h_ndims h)) (Z.to_nat (h_nel h)) PyTuple
             (Z.to_nat <$> h_orders h) (Z.to_nat <$> h_vars h) 0)) as (Fn & Fv & Fl & Fe).
  { rewrite Eo, Ev. clear -EI. injection EI as <-. done. }
  intros p k c Hp Hc.
  assert (nel r.1 = Z.to_nat (h_nel h)) as En by (rewrite <- Fn; exact (f_equal nel EM)).
  assert (var r.1 = Z.to_nat <$> h_vars h) as Evr by (rewrite <- Fv; exact (f_equal var EM)).
  assert (lr1 r.1 = Z.to_nat <$> h_orders h) as Elr by (rewrite <- Fl; exact (f_equal lr1 EM)).
  split.
  - intros Hn. rewrite IC. destruct (skb s k c) eqn:Es; [|done]. by apply skb_named in Es.
  - intros Hn. apply skb_named in Hn. rewrite IC, Hn.
    transitivity (cell (new_hexa (zeroV dt) (order_name native) (Z.to_nat (h_ndims h)) (Z.to_nat (h_nel h)) PyTuple
             (Z.to_nat <$> h_orders h) (Z.to_nat <$> h_vars h) 0) p k c); [unfold cell; by rewrite Fe|].
    rewrite new_hexa_cell; [|by rewrite fmap_length, Ev|lia|].
    + f_equal. f_equal. rewrite Elr, Eo. cbn [fmap list_fmap nth foldr]. lia.
    + unfold nvar in Hc. rewrite Evr, Ev in Hc. rewrite Ev. assert (h_ndims h <= 3) by (rewrite End; destruct (1 <? oz); lia).
      destruct k; cbn [kidx nth fmap list_fmap] in *; lia.
Qed.

(** ** Consequences used by the property theorems *)
Lemma kidx_nvar m m' k : var m' = var m → nvar m' k = nvar m k.
Proof. unfold nvar. by intros ->. Qed.
Lemma field_mesh_via g m m' : field_mesh m → same_metadata m' m → fields_via g m' m → field_mesh m'.
Proof.
  intros FM (E1 & E2 & E3 & E4 & E5 & E6 & E7) [HL HC]. destruct (fm_nel m FM) as [Hn Hb]. split.
  - rewrite E3, E1. apply (fm_lr1 m FM).
  - rewrite E1, E4. apply (fm_var m FM).
  - rewrite HL, E2. done.
  - rewrite E7, E2. apply (fm_elmap m FM).
  - rewrite E5. apply (fm_istep m FM).
  - rewrite E6. apply (fm_wdsz m FM).
  - intros e k c He Hc. rewrite (kidx_nvar m m' k E4) in Hc. apply elem_of_list_lookup in He as (p & He).
    assert (p < nel m)%nat as Hp by (rewrite <- Hn, <- HL; by eapply lookup_lt_Some).
    destruct (HC p k c Hp Hc) as (a & Ha & Ha'). destruct (field_mesh_cell m p k c FM Hp Hc) as (a0 & Ha0 & Hl).
    rewrite Ha in Ha0. injection Ha0 as <-. unfold cell in Ha'. rewrite He in Ha'. exists (g <$> a). split; [done|].
    by rewrite fmap_length, Hl, E3.
Qed.
Lemma fields_via_cells g m m' p k c b : field_mesh m → same_metadata m' m → fields_via g m' m →
  (c < nvar m' k)%nat → cell m' p k c = Some b → ∃ a, cell m p k c = Some a ∧ b = g <$> a.
Proof.
  intros FM (E1 & E2 & E3 & E4 & E5 & E6 & E7) [HL HC] Hc Hb. destruct (fm_nel m FM) as [Hn _].
  rewrite (kidx_nvar m m' k E4) in Hc.
  assert (p < nel m)%nat as Hp.
  { rewrite <- Hn, <- HL. unfold cell in Hb. destruct (elems m' !! p) eqn:E; [|done]. by eapply lookup_lt_Some. }
  destruct (HC p k c Hp Hc) as (a & Ha & Ha'). exists a. split; [done|]. rewrite Hb in Ha'. by injection Ha'.
Qed.
Lemma fields_via_rel g (P : fval → fval → Prop) m m' : fields_via g m' m →
  (∀ p k c a, (c < nvar m k)%nat → cell m p k c = Some a → Forall (λ v, P v (g v)) a) → fields_rel P m m'.
Proof.
  intros [HL HC] HP. split; [done|]. intros p k c Hp Hc. destruct (HC p k c Hp Hc) as (a & Ha & Ha'). exists a, (g <$> a).
  split; [done|]. split; [done|]. pose proof (HP p k c a Hc Ha) as H. clear -H. induction H; cbn; constructor; auto.
Qed.
Lemma fields_rel_trans_fix g m m' m'' : field_mesh m → same_metadata m' m → fields_via g m' m → fields_via g m'' m' →
  (∀ p k c a, (c < nvar m k)%nat → cell m p k c = Some a → Forall (λ v, g (g v) = g v) a) →
  ∀ p k c, (p < nel m)%nat → (c < nvar m k)%nat → cell m'' p k c = cell m' p k c.
Proof.
  intros FM SM H1 H2 Hg p k c Hp Hc. pose proof SM as (E1 & E2 & E3 & E4 & _).
  destruct H2 as [_ H2]. destruct (H2 p k c) as (b & Hb & Hb'); [by rewrite E2|by rewrite (kidx_nvar m m' k E4)|].
  destruct (fields_via_cells g m m' p k c b FM SM H1) as (a & Ha & ->); [by rewrite (kidx_nvar m m' k E4)|done|].
  rewrite Hb', Hb. f_equal. rewrite <- list_fmap_compose. pose proof (Hg p k c a Hc Ha) as H. clear -H.
  induction H as [|v l Hv _ IH]; cbn; [done|]. by rewrite IH, Hv.
Qed.
Lemma widen_narrow_nearest x : nearest32 x (widen (narrow x)).
Proof.
  destruct (is_finite 53 1024 x) eqn:Hf.
  - assert (((Rabs (rnd32 (B2R 53 1024 x)) < bpow radix2 128)%R → is_finite 53 1024 (widen (narrow x)) = true ∧
      B2R 53 1024 (widen (narrow x)) = rnd32 (B2R 53 1024 x) ∧ Bsign 53 1024 (widen (narrow x)) = Bsign 53 1024 x) ∧
      ((bpow radix2 128 <= Rabs (rnd32 (B2R 53 1024 x)))%R → widen (narrow x) = B754_infinity 53 1024 (Bsign 53 1024 x))) as H.
    { pose proof (narrow_correct x Hf) as HN. fold (rnd32 (B2R 53 1024 x)) in HN.
      change (round radix2 (SpecFloat.fexp 24 128) ZnearestE (B2R 53 1024 x)) with (rnd32 (B2R 53 1024 x)) in HN.
      destruct (Rlt_bool_spec (Rabs (rnd32 (B2R 53 1024 x))) (bpow radix2 128)) as [Hl|Hl].
      - destruct HN as (N1 & N2 & N3). destruct (widen_correct _ N2) as (W1 & W2 & W3). split; [|lra]. intros _. split; [done|].
        split; congruence.
      - split; [lra|]. intros _. by rewrite HN. }
    by destruct x.
  - destruct x as [s|s|s pl Hp|s m e H]; try done. cbn [nearest32 narrow]. unfold nan32.
    assert (∀ t z, is_nan 53 1024 (nan64 t z) = true) as HN by (intros t z; unfold nan64; by destruct (Bool.bool_dec _ _)).
    destruct (Bool.bool_dec _ _); cbn [widen]; apply HN.
Qed.
