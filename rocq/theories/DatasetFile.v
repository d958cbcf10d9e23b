(** What [readnek] leaves of the arrays of a new mesh, and the variables of an element's dataset. *)
From Coq Require Import Lia Ascii Reals.
From Flocq Require Import Core.Core IEEE754.BinarySingleNaN IEEE754.Binary IEEE754.Bits.
From Verif Require Import Base Float Mesh MeshLemmas Bytes Text TextProofs Field FieldSpec FieldProofs Re2 Dataset DatasetSpec.
Open Scope Z_scope.

(** ** Shapes *)
(** The arrays of a new element are there, and those that are not filled are zero. *)
Definition width (v : list nat) (k : fkind) : nat :=
  match k with FPos | FVel => 3%nat | _ => nth (kidx k) v 0%nat end.
Definition shaped (z : fval) (sh : nat * nat * nat) (v : list nat) (e : elem fval) : Prop :=
  eshape e = sh ∧ ∀ k, length (get_f k e) = width v k ∧
    ∀ c, (nth (kidx k) v 0 ≤ c)%nat → get_f k e !! c = zarr z (width v k) sh !! c.
Lemma shaped_new z sh v n : shaped z sh v (new_elem z v sh n).
Proof.
  split; [done|]. destruct sh as [[lx ly] lz]. intros k. destruct k; cbn [get_f new_elem pos vel pres temp scal width kidx zarr]; rewrite replicate_length; done.
Qed.
Lemma shaped_set z sh v k i a e : (i < nth (kidx k) v 0)%nat → shaped z sh v e → shaped z sh v (set_comp k i a e).
Proof.
  intros Hi [H1 H2]. split; [by destruct k|]. intros k'. destruct (H2 k') as [L1 L2]. unfold set_comp. rewrite get_set_f.
  case_bool_decide as E; [|done]. subst k'. rewrite insert_length. split; [done|]. intros c Hc. rewrite list_lookup_insert_ne by lia. by apply L2.
Qed.
Definition op_fits (v : list nat) (op : fop) : Prop := match op with Block _ k i _ => (i < nth (kidx k) v 0)%nat | SkipN _ => True end.
Lemma ops_fit h em s : Forall (op_fits (Z.to_nat <$> h_vars h)) (readnek_ops h em s).
Proof.
  assert (∀ k, nth (kidx k) (Z.to_nat <$> h_vars h) 0%nat = Z.to_nat (nth (kidx k) (h_vars h) 0)) as HN.
  { intros k. change 0%nat with (Z.to_nat 0) at 1. apply (map_nth Z.to_nat). }
  assert (∀ k n b g idxs ne, (n ≤ nth (kidx k) (Z.to_nat <$> h_vars h) 0)%nat → Forall (op_fits (Z.to_nat <$> h_vars h)) (field_ops k n b g idxs ne)) as HF.
  { intros k n b g idxs ne Hn. unfold field_ops. destruct (n =? 0)%nat; [constructor|]. destruct b; [repeat constructor|].
    apply Forall_bind, Forall_forall. intros iel _. apply Forall_fmap, Forall_forall. intros i Hi. apply elem_of_seq in Hi. cbn. lia. }
  unfold readnek_ops. rewrite !Forall_app. split_and!; try (apply HF; rewrite HN; done).
  unfold scal_ops. destruct (_ =? 0)%nat; [constructor|]. destruct (forallb _ _); [repeat constructor|].
  apply Forall_bind, Forall_forall. intros i Hi. apply elem_of_seq in Hi. unfold compose. destruct (in_skip s (scalar_var i)); [repeat constructor|].
  apply Forall_fmap. apply Forall_forall. intros iel _. unfold compose. cbn [op_fits]. rewrite HN. lia.
Qed.
Lemma shaped_run o h dt z sh v ops : ∀ st st', Forall (op_fits v) ops → foldM (fop_step o h dt) st ops = Ok st' →
  Forall (shaped z sh v) (elems st.1) → Forall (shaped z sh v) (elems st'.1).
Proof.
  induction ops as [|op ops IH]; intros st st' Hf E H; [by injection E as <-|]. apply Forall_cons in Hf as [F1 F2]. cbn [foldM] in E.
  destruct (fop_step o h dt st op) as [st1|] eqn:E1; [|done]. cbn [rbind] in E. apply (IH _ _ F2 E). clear E IH.
  destruct st as [m l]. unfold fop_step in E1. destruct op as [iel k i sk|n]; [|by injection E1 as <-].
  destruct (py_pos _ _) as [p|]; [|done]. cbn [of_opt rbind] in E1. destruct sk; [by injection E1 as <-|].
  destruct (py_read (h_npts h * h_wdsz h) l) as [fi l']. destruct (frombuffer o (h_real h) (Z.to_nat (h_npts h)) fi); [|done].
  cbn [rbind] in E1. injection E1 as <-. cbn [fst elems set_elems] in *. apply Forall_alter; [done|]. intros e _ He. by apply shaped_set.
Qed.
Lemma readnek_shaped native dt s f m : readnek native dt s f = Ok m →
  Forall (shaped (zeroV dt) (lr1_triple (lr1 m)) (var m)) (elems m).
Proof.
  intros E. unfold readnek in E. destruct (py_read 132 f) as [hb l]. destruct (read_header hb) as [h|] eqn:HH; [|done]. cbn [rbind] in E.
  destruct (py_read 4 l) as [tb l1]. destruct (read_tag tb) as [o|]; [|done]. cbn [rbind] in E.
  destruct (py_read _ l1) as [mb l2]. destruct (unpack_i32 o (h_nelf h) mb) as [em|]; [|done]. cbn [rbind] in E.
  destruct (init_data native h dt o em) as [m0|] eqn:EI; [|done]. cbn [rbind] in E.
  destruct (foldM (fop_step o h dt) (m0, l2) (readnek_ops h em s)) as [r|] eqn:ER; [|done]. cbn [rbind] in E. injection E as <-.
  assert (lr1 r.1 = lr1 m0 ∧ var r.1 = var m0) as [-> ->].
  { clear -ER. assert (∀ ops st st', foldM (fop_step o h dt) st ops = Ok st' → lr1 st'.1 = lr1 st.1 ∧ var st'.1 = var st.1) as HM.
    { induction ops as [|op ops IH]; intros st st' Hs; [by injection Hs as <-|]. cbn [foldM] in Hs.
      destruct (fop_step o h dt st op) as [st1|] eqn:E1; [|done]. cbn [rbind] in Hs. destruct (IH _ _ Hs) as [-> ->]. clear Hs IH.
      destruct st as [ma la]. unfold fop_step in E1. destruct op as [iel k i sk|n]; [|by injection E1 as <-].
      destruct (py_pos _ _); [|done]. cbn [of_opt rbind] in E1. destruct sk; [by injection E1 as <-|].
      destruct (py_read (h_npts h * h_wdsz h) la) as [fa ra].
      destruct (frombuffer o (h_real h) (Z.to_nat (h_npts h)) fa); [|done]. cbn [rbind] in E1. by injection E1 as <-. }
    exact (HM _ _ _ ER). }
  unfold init_data in EI. destruct (_ || _ || _); [done|]. injection EI as <-. cbn [lr1 var new_hexa].
  eapply shaped_run; [apply ops_fit|exact ER|]. cbn [fst elems new_hexa]. apply Forall_replicate, shaped_new.
Qed.

(** ** Names *)
Lemma scalar_name_inj i j : scalar_name i = scalar_name j → i = j.
Proof.
  unfold scalar_name. intros E. apply (f_equal String.list_ascii_of_string) in E. rewrite !String.list_ascii_of_string_of_list_ascii in E.
  injection E as E. destruct (dec_pad0_spec 2 (Z.of_nat i + 1)) as (A & _); [lia|]. destruct (dec_pad0_spec 2 (Z.of_nat j + 1)) as (B & _); [lia|].
  rewrite E, B in A. injection A as A. lia.
Qed.
Lemma scalar_name_head i : ∃ s, scalar_name i = String "s" s.
Proof. by eexists. Qed.

(** ** Tensor arrays *)
Lemma prod3_length {A B C} (l1 : list A) (l2 : list B) (l3 : list C) : length (prod3 l1 l2 l3) = (length l1 * (length l2 * length l3))%nat.
Proof.
  unfold prod3. induction l1 as [|a l1 IH]; [done|]. cbn [mbind list_bind length]. rewrite app_length. cbn [mbind list_bind] in IH. rewrite IH.
  assert (length (l2 ≫= λ b, (λ c, (a, b, c)) <$> l3) = (length l2 * length l3)%nat); [|cbn [mbind list_bind] in *; lia].
  clear. induction l2 as [|b l2 IH]; [done|]. cbn [mbind list_bind length]. rewrite app_length, fmap_length. cbn [mbind list_bind] in IH. rewrite IH. lia.
Qed.
Lemma flat_z (z : f64) (ys xs : list f64) : (λ '(z, y, x), z) <$> prod3 [z] ys xs = replicate (length ys * length xs) z.
Proof.
  assert (∀ l : list (f64 * f64 * f64), Forall (λ t, t.1.1 = z) l → (λ '(z, y, x), z) <$> l = replicate (length l) z) as H.
  { induction l as [|[[a b] c] l IH]; [done|]. intros Hl. apply Forall_cons in Hl as [H1 H2]. cbn in H1. subst a. rewrite fmap_cons, IH by done. done. }
  rewrite H; [f_equal; rewrite prod3_length; cbn; lia|]. unfold prod3. apply Forall_bind, Forall_singleton, Forall_bind, Forall_forall. intros y _.
  apply Forall_fmap, Forall_forall. done.
Qed.

(** ** The variables of one element *)
Lemma elem_dset_vars (e : elem f64) d px py pz ux uy uz : elem_dset e = Ok d → pos e = [px; py; pz] → vel e = [ux; uy; uz] →
  ds_vars d = [("xmesh", px); ("ymesh", py); ("zmesh", pz); ("ux", ux); ("uy", uy); ("uz", uz)]%string ++
    (if has_size (eshape e) (pres e) then [("pressure"%string, nth 0 (pres e) [])] else []) ++
    (if has_size (eshape e) (temp e) then [("temperature"%string, nth 0 (temp e) [])] else []) ++
    (if has_size (eshape e) (scal e) then imap (λ i a, (scalar_name i, a)) (scal e) else []).
Proof.
  unfold elem_dset. intros E Hp Hv. destruct (eshape e) as [[lx ly] lz] eqn:Es. cbn [get_f] in E. rewrite Hp, Hv in E.
  cbn [lookup list_lookup of_opt rbind] in E. destruct (negb _); [done|]. by injection E as <-.
Qed.
