(** Skipping variables of a file that holds part of the elements. *)
From Coq Require Import Lia Ascii Reals Lra.
From Verif Require Import Base Float Mesh MeshLemmas Bytes BytesProofs Text TextProofs Field FieldSpec FieldSkipSpec FieldProofs.
Open Scope Z_scope.

Section Dead.
Context (o : order) (h : header) (dt : dtype) (s : list string) (m0 : mesh).
Hypothesis Hw : h_wdsz h = Z.of_nat (dsize (h_real h)).
Hypothesis Hnp : 0 <= h_npts h.
Local Notation inv := (skip_inv s m0).
Local Notation sim' := (sim o h dt s m0).
Definition wsim (a b : list fop) : Prop :=
  ∀ m m' l r, inv m m' → foldM (fop_step o h dt) (m, l) a = Ok r →
    ∃ l' r', foldM (fop_step o h dt) (m', l) b = Ok (r', l') ∧ inv r.1 r'.
Definition dead (a b : list fop) : Prop :=
  ∀ m m' l l1 r, inv m m' → foldM (fop_step o h dt) (m, l) a = Ok r →
    ∃ l' r', foldM (fop_step o h dt) (m', l1) b = Ok (r', l') ∧ inv r.1 r'.
Lemma dead_wsim a b : dead a b → wsim a b.
Proof. intros H m m' l r. apply H. Qed.
Lemma sim_wsim a b : sim' a b → wsim a b.
Proof. intros H m m' l r I E. destruct (H _ _ _ _ I E) as (r' & E' & I'). eauto. Qed.
Lemma dead_nil : dead [] [].
Proof. intros m m' l l1 r I [= <-]. eexists _, _. by split. Qed.
Lemma dead_app a b a' b' : dead a a' → dead b b' → dead (a ++ b) (a' ++ b').
Proof.
  intros Ha Hb m m' l l1 r I E. rewrite foldM_app in *. destruct (foldM _ (m, l) a) as [[m1 l2]|] eqn:E1; [|done]. cbn [rbind] in E.
  destruct (Ha _ _ _ l1 _ I E1) as (l3 & m1' & E1' & I1). cbn [fst snd] in *. rewrite E1'. cbn [rbind]. by eapply Hb.
Qed.
Lemma wsim_app a b a' b' : sim' a a' → wsim b b' → wsim (a ++ b) (a' ++ b').
Proof.
  intros Ha Hb m m' l r I E. rewrite foldM_app in *. destruct (foldM _ (m, l) a) as [[m1 l2]|] eqn:E1; [|done]. cbn [rbind] in E.
  destruct (Ha _ _ _ _ I E1) as (m1' & E1' & I1). cbn [fst snd] in *. rewrite E1'. cbn [rbind]. by eapply Hb.
Qed.
(* blocks of skipped variables leave the invariant alone *)
Lemma blocks_inv (bs : list (Z * fkind * nat)) : (∀ b, b ∈ bs → skb s b.1.2 b.2 = true) →
  ∀ m m' l r, inv m m' → foldM (fop_step o h dt) (m, l) ((λ b, Block b.1.1 b.1.2 b.2 false) <$> bs) = Ok r → inv r.1 m'.
Proof.
  intros Hs m m' l r I E. destruct (sim_skip o h dt s m0 Hw Hnp bs _ Hs eq_refl _ _ _ _ I E) as (r' & E' & I').
  cbn in E'. by injection E' as ->.
Qed.
Lemma dead_skip (bs : list (Z * fkind * nat)) n : (∀ b, b ∈ bs → skb s b.1.2 b.2 = true) →
  dead ((λ b, Block b.1.1 b.1.2 b.2 false) <$> bs) [SkipN n].
Proof. intros Hs m m' l l1 r I E. eexists _, m'. split; [done|]. by eapply blocks_inv. Qed.
Lemma dead_blocks (bs : list (Z * fkind * nat)) : (∀ b, b ∈ bs → skb s b.1.2 b.2 = true) →
  dead ((λ b, Block b.1.1 b.1.2 b.2 false) <$> bs) ((λ b, Block b.1.1 b.1.2 b.2 (skb s b.1.2 b.2)) <$> bs).
Proof.
  induction bs as [|[[iel k] c] bs IH]; intros Hs; [apply dead_nil|]. rewrite !fmap_cons.
  apply (dead_app [_] _ [_]); [|apply IH; intros; apply Hs; by right]. cbn [fst snd].
  assert (skb s k c = true) as Hk by exact (Hs (iel, k, c) ltac:(left)). rewrite Hk.
  intros m m' l l1 r I E. pose proof I as (IL & _ & _).
  assert (inv r.1 m') as I1.
  { apply (blocks_inv [(iel, k, c)]) with m l; [|done|exact E]. intros b Hb. apply elem_of_list_singleton in Hb as ->. done. }
  cbn [foldM] in *. unfold fop_step in E |- *. rewrite IL. destruct (py_pos (length (elems m)) iel) as [p|]; [|done].
  cbn [of_opt rbind]. eexists _, m'. split; [done|exact I1].
Qed.
Lemma dead_field k nv allskip skip idxs n : (∀ c, (c < nv)%nat → skb s k c = true) →
  (allskip = false → ∀ c, (c < nv)%nat → skip c = skb s k c) →
  dead (idxs ≫= λ iel, (λ i, Block iel k i false) <$> range nv) (field_ops k nv allskip skip idxs n).
Proof.
  intros H1 H2. set (bs := idxs ≫= λ iel, (λ i, (iel, k, i)) <$> range nv).
  assert (∀ g : Z * fkind * nat → fop, (idxs ≫= λ iel, (λ i, g (iel, k, i)) <$> range nv) = g <$> bs) as Eg.
  { intros g. unfold bs. rewrite fmap_bind. apply bind_ext. intros iel _. by rewrite <- list_fmap_compose. }
  pose proof (Eg (λ b, Block b.1.1 b.1.2 b.2 false)) as E1. cbn [fst snd] in E1. rewrite E1.
  assert (∀ b, b ∈ bs → skb s b.1.2 b.2 = true) as Hb.
  { intros b Hb. apply elem_of_list_bind in Hb as (iel & Hb & _). apply elem_of_list_fmap in Hb as (i & -> & Hi).
    apply elem_of_seq in Hi. cbn [fst snd]. apply H1. lia. }
  unfold field_ops. destruct (Nat.eqb_spec nv 0) as [->|Hnv].
  { assert (bs = []) as ->; [|apply dead_nil]. unfold bs. cbn. apply bind_nil. }
  destruct allskip; [by apply dead_skip|].
  assert ((idxs ≫= λ iel, (λ i, Block iel k i (skip i)) <$> range nv) = (λ b, Block b.1.1 b.1.2 b.2 (skb s b.1.2 b.2)) <$> bs) as ->.
  { rewrite <- Eg. apply bind_ext. intros iel _. apply list_fmap_ext. intros ? i Hi. cbn. f_equal. apply H2; [done|].
    apply lookup_seq in Hi. lia. }
  by apply dead_blocks.
Qed.
Lemma scal_list l idxs n : (∀ i, i ∈ l → skb s FScal i = true) →
  dead (l ≫= λ i, (λ iel, Block iel FScal i false) <$> idxs)
       (l ≫= λ i, if skb s FScal i then [SkipN n] else (λ iel, Block iel FScal i false) <$> idxs).
Proof.
  induction l as [|i l IH]; intros H; [apply dead_nil|]. cbn [mbind list_bind]. apply dead_app; [|apply IH; intros; apply H; by right].
  rewrite (H i) by left. assert (((λ iel, Block iel FScal i false) <$> idxs) = (λ b, Block b.1.1 b.1.2 b.2 false) <$> ((λ iel, (iel, FScal, i)) <$> idxs)) as ->.
  { by rewrite <- list_fmap_compose. }
  apply dead_skip. intros b Hb. apply elem_of_list_fmap in Hb as (iel & -> & _). cbn. apply H. left.
Qed.
Lemma dead_scal nv idxs n : (∀ c, (c < nv)%nat → skb s FScal c = true) →
  dead (range nv ≫= λ i, (λ iel, Block iel FScal i false) <$> idxs) (scal_ops nv (skb s FScal) idxs n).
Proof.
  intros H. unfold scal_ops. destruct (Nat.eqb_spec nv 0) as [->|Hnv]; [apply dead_nil|].
  destruct (forallb (skb s FScal) (range nv)) eqn:EA.
  - set (bs := range nv ≫= λ i, (λ iel, (iel, FScal, i)) <$> idxs).
    assert ((range nv ≫= λ i, (λ iel, Block iel FScal i false) <$> idxs) = (λ b, Block b.1.1 b.1.2 b.2 false) <$> bs) as ->.
    { unfold bs. rewrite fmap_bind. apply bind_ext. intros i _. by rewrite <- list_fmap_compose. }
    apply dead_skip. intros b Hb. apply elem_of_list_bind in Hb as (i & Hb & Hi). apply elem_of_list_fmap in Hb as (iel & -> & _). cbn.
    apply elem_of_seq in Hi. apply H. lia.
  - apply scal_list. intros i Hi. apply elem_of_seq in Hi. apply H. lia.
Qed.
Lemma wsim_scal nv idxs n : (∀ c c', (c < c')%nat → (c' < nv)%nat → skb s FScal c = true → skb s FScal c' = true) →
  wsim (range nv ≫= λ i, (λ iel, Block iel FScal i false) <$> idxs) (scal_ops nv (skb s FScal) idxs n).
Proof.
  intros H. unfold scal_ops. destruct (Nat.eqb_spec nv 0) as [->|Hnv]; [apply dead_wsim, dead_nil|].
  destruct (forallb (skb s FScal) (range nv)) eqn:EA.
  - apply dead_wsim. pose proof (dead_scal nv idxs n) as HD. unfold scal_ops in HD. rewrite EA in HD.
    destruct (Nat.eqb_spec nv 0); [done|]. apply HD. intros c Hc. rewrite forallb_forall in EA. apply EA, elem_of_list_In, elem_of_seq. lia.
  - unfold range. assert (∀ len a, (a + len = nv)%nat →
      wsim (seq a len ≫= λ i, (λ iel, Block iel FScal i false) <$> idxs)
        (seq a len ≫= λ i, if skb s FScal i then [SkipN n] else (λ iel, Block iel FScal i false) <$> idxs)) as HI; [|by apply (HI nv 0%nat)].
    induction len as [|len IH]; intros a Ha; [apply dead_wsim, dead_nil|].
    destruct (skb s FScal a) eqn:Es.
    + apply dead_wsim, scal_list. intros i Hi. apply elem_of_seq in Hi. destruct (decide (i = a)) as [->|]; [done|].
      apply (H a); [lia|lia|done].
    + cbn [seq mbind list_bind]. rewrite Es. apply wsim_app; [|apply IH; lia].
      assert (((λ iel, Block iel FScal a false) <$> idxs) = (λ b, Block b.1.1 b.1.2 b.2 false) <$> ((λ iel, (iel, FScal, a)) <$> idxs)) as E1.
      { by rewrite <- list_fmap_compose. }
      rewrite E1. assert ((λ b, Block b.1.1 b.1.2 b.2 false) <$> ((λ iel, (iel, FScal, a)) <$> idxs) =
        (λ b, Block b.1.1 b.1.2 b.2 (skb s b.1.2 b.2)) <$> ((λ iel, (iel, FScal, a)) <$> idxs)) as E2.
      { apply list_fmap_ext. intros j b Hb. apply elem_of_list_lookup_2 in Hb.
        apply elem_of_list_fmap in Hb as (iel & -> & _). cbn [fst snd]. by rewrite Es. }
      rewrite E2 at 2. by apply sim_blocks.
Qed.
(* a quantity that does not come last *)
Lemma wsim_field k nv allskip skip idxs n a b :
  (allskip = true → ∀ c, (c < nv)%nat → skb s k c = true) → (allskip = false → ∀ c, (c < nv)%nat → skip c = skb s k c) →
  (nv ≠ 0%nat → (∀ c, (c < nv)%nat → skb s k c = true) → dead a b) → wsim a b →
  wsim ((idxs ≫= λ iel, (λ i, Block iel k i false) <$> range nv) ++ a) (field_ops k nv allskip skip idxs n ++ b).
Proof.
  intros H1 H2 Hd Hs. destruct (decide (nv = 0%nat)) as [->|Hnv].
  { unfold field_ops. cbn. by rewrite bind_nil. }
  destruct allskip.
  - apply dead_wsim. specialize (H1 eq_refl). apply dead_app; [by apply dead_field|auto].
  - apply wsim_app; [|done]. pose proof (field_sim o h dt s m0 Hw Hnp k nv false skip idxs _ H1 H2 eq_refl) as HF.
    unfold field_ops in *. destruct (Nat.eqb_spec nv 0); [done|]. exact HF.
Qed.
End Dead.

Theorem skip_vars_part native dt s f m h : read_header (take 132 f) = Ok h → nothing_after s (h_count h) →
  readnek native dt [] f = Ok m →
  ∃ m', readnek native dt s f = Ok m' ∧ set_elems [] m' = set_elems [] m ∧ length (elems m') = length (elems m) ∧
    ∀ p k c, (p < nel m)%nat → (c < nvar m k)%nat →
      (¬ named s k c → cell m' p k c = cell m p k c) ∧
      (named s k c → cell m' p k c = Some (replicate (foldr Nat.mul 1%nat (lr1 m)) (zeroV dt))).
Proof.
  intros HH (HW & HSc) E. unfold readnek in *. change (py_read 132 f) with (take 132 f, drop 132 f) in *. cbn [fst] in *. rewrite HH in *. cbn [rbind] in *.
  set (l1 := drop 132 f) in *. change (py_read 4 l1) with (take 4 l1, drop 4 l1) in *. cbn [rbind] in *. set (l2 := drop 4 l1) in *.
  destruct (read_tag (take 4 l1)) as [o|] eqn:ET; [|done]. cbn [rbind] in *.
  destruct (py_read (4 * h_nelf h) l2) as [mapb l3] eqn:E3.
  destruct (unpack_i32 o (h_nelf h) mapb) as [em|] eqn:EU; [|done]. cbn [rbind] in *.
  destruct (init_data native h dt o em) as [m0|] eqn:EI; [|done]. cbn [rbind] in *.
  assert (length em = Z.to_nat (h_nelf h)) as Lem.
  { unfold unpack_i32 in EU. destruct (_ =? _); [|done]. injection EU as <-. by rewrite fmap_length, chunks_length. }
  pose proof (element_idxs_length em (h_nelf h) Lem) as Lidx.
  destruct (header_facts _ _ HH) as (Hw & _ & ox & oy & oz & vx & vu & vp & vt & vs & Eo & Enp & End & Ev & Hvx & Hvu & Hvp & Hvt).
  unfold init_data in EI. destruct (Z.ltb_spec (h_nel h) 0) as [|Nn]; [done|]. rewrite Eo, Ev in EI. cbn [existsb orb] in EI.
  destruct (Z.ltb_spec ox 0); [done|]. destruct (Z.ltb_spec oy 0); [done|]. destruct (Z.ltb_spec oz 0); [done|].
  destruct (Z.ltb_spec vx 0); [done|]. destruct (Z.ltb_spec vu 0); [done|]. destruct (Z.ltb_spec vp 0); [done|].
  destruct (Z.ltb_spec vt 0); [done|]. destruct (Z.ltb_spec vs 0); [done|]. cbn [orb] in EI.
  assert (0 <= h_npts h) as Hnp by (rewrite Enp; nia).
  destruct (foldM (fop_step o h dt) (m0, l3) (readnek_ops h em [])) as [r|] eqn:ER; [|done]. cbn [rbind] in E. injection E as <-.
  set (idxs := element_idxs em (h_nelf h)) in *.
  pose proof (header_dsize _ _ HH) as Hds.
  assert (∀ k k', (kidx k < kidx k')%nat → h_count h k ≠ 0%nat → (∀ c, (c < h_count h k)%nat → skb s k c = true) →
    ∀ c, (c < h_count h k')%nat → skb s k' c = true) as HW'.
  { intros k k' Hk Hn Hs c Hc. apply skb_named. apply (HW k k' c); [done|lia| |done]. intros c' Hc'. by apply skb_named, Hs. }
  assert (wsim o h dt s m0 (readnek_ops h em []) (readnek_ops h em s)) as HS.
  { rewrite readnek_ops_noskip. fold idxs. unfold readnek_ops. fold (h_count h FPos) (h_count h FVel) (h_count h FPres) (h_count h FTemp) (h_count h FScal) idxs.
    assert (∀ f l c, forallb f (range l) = true → (c < l)%nat → f c = true) as HA.
    { intros g l c Hg Hc. rewrite forallb_forall in Hg. apply Hg. apply elem_of_list_In, elem_of_seq. lia. }
    assert (scal_ops (h_count h FScal) (λ i, in_skip s (scalar_var i)) idxs (h_nel h) = scal_ops (h_count h FScal) (skb s FScal) idxs (h_nel h)) as ->.
    { assert (∀ i, in_skip s (scalar_var i) = skb s FScal i) as Hi.
      { intros i. unfold skb. cbn [existsb var_names]. by rewrite orb_false_r. }
      unfold scal_ops. assert (forallb (λ i, in_skip s (scalar_var i)) (range (h_count h FScal)) = forallb (skb s FScal) (range (h_count h FScal))) as ->.
      { generalize (range (h_count h FScal)). intros l. induction l as [|i l IH]; [done|]. cbn [forallb]. by rewrite Hi, IH. }
      destruct (_ =? _)%nat; [done|]. destruct (forallb _ _); [done|]. apply bind_ext. intros i _. by rewrite Hi. }
    set (P1 := forallb _ (range (h_count h FPos))). set (P2 := (forallb _ (range (h_count h FVel)) || forallb _ (range (h_count h FVel)))%bool). set (P3 := (in_skip s "p" || _)%bool). set (P4 := (in_skip s "t" || _)%bool).
    assert (P1 = true → ∀ c, (c < h_count h FPos)%nat → skb s FPos c = true) as A1.
    { intros Ha c Hc. unfold skb. cbn [existsb var_names]. rewrite orb_false_r. exact (HA _ _ _ Ha Hc). }
    assert (∀ c, in_skip s (nth c geometry_vars EmptyString) = skb s FPos c) as B1.
    { intros c. unfold skb. cbn [existsb var_names]. by rewrite orb_false_r. }
    assert (P2 = true → ∀ c, (c < h_count h FVel)%nat → skb s FVel c = true) as A2.
    { intros Ha c Hc. unfold skb. cbn [existsb var_names]. rewrite orb_false_r. apply orb_true_iff in Ha as [Ha|Ha];
        pose proof (HA _ _ _ Ha Hc) as HB; cbn beta in HB; apply orb_true_iff; [left|right]; exact HB. }
    assert (∀ c, (in_skip s (nth c velocity_vars1 EmptyString) || in_skip s (nth c velocity_vars2 EmptyString))%bool = skb s FVel c) as B2.
    { intros c. unfold skb. cbn [existsb var_names]. by rewrite orb_false_r. }
    assert (∀ c, P3 = skb s FPres c) as B3.
    { intros c. unfold skb. cbn [existsb var_names]. by rewrite orb_false_r. }
    assert (∀ c, P4 = skb s FTemp c) as B4.
    { intros c. unfold skb. cbn [existsb var_names]. by rewrite orb_false_r. }
    assert (∀ k, (kidx k < 4)%nat → h_count h k ≠ 0%nat → (∀ c, (c < h_count h k)%nat → skb s k c = true) →
      dead o h dt s m0 (range (h_count h FScal) ≫= λ i, (λ iel, Block iel FScal i false) <$> idxs)
        (scal_ops (h_count h FScal) (skb s FScal) idxs (h_nel h))) as D5.
    { intros k Hk Hn Hc. apply dead_scal; [done|done|]. by apply (HW' k FScal). }
    assert (∀ k, (kidx k < 3)%nat → h_count h k ≠ 0%nat → (∀ c, (c < h_count h k)%nat → skb s k c = true) →
      dead o h dt s m0 ((idxs ≫= λ iel, (λ i, Block iel FTemp i false) <$> range (h_count h FTemp)) ++ (range (h_count h FScal) ≫= λ i, (λ iel, Block iel FScal i false) <$> idxs))
        (field_ops FTemp (h_count h FTemp) P4 (λ _, false) idxs (h_nel h) ++ scal_ops (h_count h FScal) (skb s FScal) idxs (h_nel h))) as D4.
    { intros k Hk Hn Hc. apply dead_app; [|apply (D5 k); [lia|done|done]]. apply dead_field; [done|done|by apply (HW' k FTemp)|].
      intros Hf c _. by rewrite <- B4, Hf. }
    assert (∀ k, (kidx k < 2)%nat → h_count h k ≠ 0%nat → (∀ c, (c < h_count h k)%nat → skb s k c = true) →
      dead o h dt s m0 ((idxs ≫= λ iel, (λ i, Block iel FPres i false) <$> range (h_count h FPres)) ++ (idxs ≫= λ iel, (λ i, Block iel FTemp i false) <$> range (h_count h FTemp)) ++ (range (h_count h FScal) ≫= λ i, (λ iel, Block iel FScal i false) <$> idxs))
        (field_ops FPres (h_count h FPres) P3 (λ _, false) idxs (h_nel h) ++ field_ops FTemp (h_count h FTemp) P4 (λ _, false) idxs (h_nel h) ++ scal_ops (h_count h FScal) (skb s FScal) idxs (h_nel h))) as D3.
    { intros k Hk Hn Hc. apply dead_app; [|apply (D4 k); [lia|done|done]]. apply dead_field; [done|done|by apply (HW' k FPres)|].
      intros Hf c _. by rewrite <- B3, Hf. }
    apply wsim_field; [done|done|done|intros _ c _; apply B1| |].
    { intros Hn Hc. apply dead_app; [|by apply (D3 FPos); [cbn; lia| |]]. apply dead_field; [done|done|apply (HW' FPos FVel); [cbn; lia|done|done]|].
      intros _ c _. apply B2. }
    apply wsim_field; [done|done|done|intros _ c _; apply B2|intros Hn Hc; by apply (D3 FVel); [cbn; lia| |]|].
    apply wsim_field; [done|done|intros Hp c _; by rewrite <- B3|intros Hf c _; by rewrite <- B3, Hf|intros Hn Hc; by apply (D4 FPres); [cbn; lia| |]|].
    apply wsim_field; [done|done|intros Hp c _; by rewrite <- B4|intros Hf c _; by rewrite <- B4, Hf|intros Hn Hc; by apply (D5 FTemp); [cbn; lia| |]|].
    apply wsim_scal; [done|done|]. intros c c' Hc Hc' Hs. apply skb_named. apply (HSc c c' Hc Hc'). by apply skb_named. }
  assert (skip_inv s m0 m0 m0) as I0.
  { split; [done|]. split; [done|]. intros p k c. by destruct (skb s k c). }
  destruct (HS m0 m0 l3 r I0 ER) as (lz & m' & E' & IL & IM & IC). clear HS. rewrite E'. cbn [rbind fst]. exists m'. split; [done|]. split; [done|]. split; [done|].
  (* metadata of [m] are those of [m0] *)
  assert (set_elems [] r.1 = set_elems [] m0) as EM.
  { assert (∀ ops st st', foldM (fop_step o h dt) st ops = Ok st' → set_elems [] st'.1 = set_elems [] st.1) as HM.
    { induction ops as [|op ops IH]; intros st st' Hs; [by injection Hs as <-|]. cbn [foldM] in Hs.
      destruct (fop_step o h dt st op) as [st1|] eqn:E1; [|done]. cbn [rbind] in Hs. rewrite (IH _ _ Hs). clear Hs IH.
      destruct st as [ma la]. unfold fop_step in E1. destruct op as [iel k i sk|n]; [|by injection E1 as <-].
      destruct (py_pos _ _); [|done]. cbn [of_opt rbind] in E1. destruct sk; [by injection E1 as <-|].
      destruct (py_read (h_npts h * h_wdsz h) la) as [fa ra].
      destruct (frombuffer o (h_real h) (Z.to_nat (h_npts h)) fa); [|done]. cbn [rbind] in E1. injection E1 as <-. done. }
    exact (HM _ _ _ ER). }
  assert (nel m0 = Z.to_nat (h_nel h) ∧ var m0 = Z.to_nat <$> h_vars h ∧ lr1 m0 = Z.to_nat <$> h_orders h ∧
    elems m0 = elems (new_hexa (zeroV dt) (order_name native) (Z.to_nat (h_ndims h)) (Z.to_nat (h_nel h)) PyTuple
             (Z.to_nat <$> h_orders h) (Z.to_nat <$> h_vars h) 0)) as (Fn & Fv & Fl & Fe).
  { rewrite Eo, Ev. clear -EI. injection EI as <-. done. }
  intros p k c Hp Hc.
  assert (nel r.1 = Z.to_nat (h_nel h)) as En by (rewrite <- Fn; exact (f_equal nel EM)).
  assert (var r.1 = Z.to_nat <$> h_vars h) as Evr by (rewrite <- Fv; exact (f_equal var EM)).
  assert (lr1 r.1 = Z.to_nat <$> h_orders h) as Elr by (rewrite <- Fl; exact (f_equal lr1 EM)).
  split.
  - intros Hn. rewrite IC. destruct (skb s k c) eqn:Es; [|done]. by apply skb_named in Es.
  - intros Hn. apply skb_named in Hn. rewrite IC, Hn.
    transitivity (cell (new_hexa (zeroV dt) (order_name native) (Z.to_nat (h_ndims h)) (Z.to_nat (h_nel h)) PyTuple
             (Z.to_nat <$> h_orders h) (Z.to_nat <$> h_vars h) 0) p k c); [unfold cell; by rewrite Fe|].
    rewrite new_hexa_cell; [|by rewrite fmap_length, Ev|lia|].
    + f_equal. f_equal. rewrite Elr, Eo. cbn [fmap list_fmap nth foldr]. lia.
    + unfold nvar in Hc. rewrite Evr, Ev in Hc. rewrite Ev. assert (h_ndims h <= 3) by (rewrite End; destruct (1 <? oz); lia).
      destruct k; cbn [kidx nth fmap list_fmap] in *; lia.
Qed.
