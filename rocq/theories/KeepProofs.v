(** Proofs about keep_elements. *)
From Verif Require Import Base Mesh Core Tools MeshLemmas MeshSpec CheckProofs OpsProofs GeoLaws
  ExtrudeSpec KeepSpec.
From Coq Require Import Lia Sorting.

(** ** Sorting *)
Lemma insert_sorted_perm x l : insert_sorted x l ≡ₚ x :: l.
Proof.
  induction l as [|y l IH]; cbn; [done|]. destruct (x <=? y)%nat; [done|].
  rewrite IH. constructor.
Qed.
Lemma sort_nat_perm l : sort_nat l ≡ₚ l.
Proof. induction l as [|x l IH]; cbn; [done|]. by rewrite insert_sorted_perm, IH. Qed.
Lemma insert_sorted_sorted x l : StronglySorted le l → StronglySorted le (insert_sorted x l).
Proof.
  induction 1 as [|y l Hs IH Hall]; cbn; [repeat constructor|].
  destruct (Nat.leb_spec x y).
  - repeat constructor; [done|done|done|]. eapply Forall_impl; [exact Hall|]. cbn. lia.
  - constructor; [done|]. rewrite Forall_forall in *. intros z Hz.
    rewrite insert_sorted_perm in Hz. apply elem_of_cons in Hz as [->|Hz]; [lia|auto].
Qed.
Lemma sort_nat_sorted l : StronglySorted le (sort_nat l).
Proof. induction l; cbn; [constructor|by apply insert_sorted_sorted]. Qed.

Lemma new_number_perm l l' i : l ≡ₚ l' → new_number l i = new_number l' i.
Proof. intros H. unfold new_number. by rewrite H. Qed.
Lemma new_number_app l l' i : new_number (l ++ l') i = (new_number l i + new_number l' i)%nat.
Proof. unfold new_number. by rewrite filter_app, app_length. Qed.
Lemma new_number_below l i : (∀ j, j ∈ l → (j < i)%nat) → new_number l i = length l.
Proof.
  unfold new_number. induction l as [|x l IH]; intros H; [done|].
  rewrite filter_cons_True by (apply H; left). cbn. f_equal. apply IH. intros; apply H; by right.
Qed.
Lemma new_number_above l i : (∀ j, j ∈ l → (i ≤ j)%nat) → new_number l i = 0%nat.
Proof.
  unfold new_number. induction l as [|x l IH]; intros H; [done|].
  rewrite filter_cons_False; [|specialize (H x); cbn; intros ?; feed specialize H; [left|lia]].
  apply IH. intros; apply H; by right.
Qed.
Lemma sorted_split (l1 l2 : list nat) x : StronglySorted le (l1 ++ x :: l2) → NoDup (l1 ++ x :: l2) →
  (∀ j, j ∈ l1 → (j < x)%nat) ∧ (∀ j, j ∈ l2 → (x < j)%nat).
Proof.
  induction l1 as [|y l1 IH]; cbn; intros Hs Hn.
  - apply StronglySorted_inv in Hs as [_ Hs]. apply NoDup_cons in Hn as [Hx _].
    split; [intros j Hj; by apply elem_of_nil in Hj|].
    intros j Hj. rewrite Forall_forall in Hs. specialize (Hs j Hj).
    assert (j ≠ x) by (intros ->; done). lia.
  - apply StronglySorted_inv in Hs as [Hs Ha]. apply NoDup_cons in Hn as [Hy Hn].
    destruct (IH Hs Hn) as [H1 H2]. split; [|done]. intros j Hj.
    apply elem_of_cons in Hj as [->|Hj]; [|auto].
    rewrite Forall_forall in Ha. specialize (Ha x). feed specialize Ha; [apply elem_of_app; right; left|].
    assert (y ≠ x); [|lia]. intros ->. apply Hy. apply elem_of_app. right. left.
Qed.
Lemma sorted_number l p i : StronglySorted le l → NoDup l → l !! p = Some i → new_number l i = p.
Proof.
  intros Hs Hn Hp. pose proof (take_drop_middle _ _ _ Hp) as E. rewrite <- E in Hs, Hn.
  destruct (sorted_split _ _ _ Hs Hn) as [H1 H2]. rewrite <- E, new_number_app.
  rewrite (new_number_below (take p l)) by done.
  rewrite (new_number_above (i :: drop (S p) l)).
  - rewrite take_length_le; [lia|]. apply lookup_lt_Some in Hp. lia.
  - intros j Hj. apply elem_of_cons in Hj as [->|Hj]; [lia|]. specialize (H2 j Hj). lia.
Qed.

(** ** The tables *)
Lemma ke_loop nl : ∀ rest dn kept offs last,
  StronglySorted le (dn ++ rest) → NoDup (dn ++ rest) → (∀ i, i ∈ rest → (i < nl)%nat) →
  length kept = nl → length offs = nl →
  (∀ i, (i < nl)%nat → kept !! i = Some (bool_decide (i ∈ dn))) →
  (∀ i, i ∈ dn → (i < nl)%nat ∧ offs !! i = Some (Z.of_nat i - Z.of_nat (new_number (dn ++ rest) i))) →
  ∃ kept' offs' last' cur',
    foldM (ke_step nl) (kept, offs, last, last + 1 - Z.of_nat (length dn)) rest = Ok (kept', offs', last', cur') ∧
    length kept' = nl ∧ length offs' = nl ∧
    (∀ i, (i < nl)%nat → kept' !! i = Some (bool_decide (i ∈ dn ++ rest))) ∧
    (∀ i, i ∈ dn ++ rest → offs' !! i = Some (Z.of_nat i - Z.of_nat (new_number (dn ++ rest) i))).
Proof.
  induction rest as [|x rest IH]; intros dn kept offs last Hs Hn Hlt Hlk Hlo Hk Ho.
  - cbn. do 4 eexists. split; [reflexivity|]. rewrite app_nil_r in *. split_and!; try done.
    intros i Hi. by apply Ho.
  - cbn [foldM]. unfold ke_step at 1. assert (x < nl)%nat as Hx by (apply Hlt; left).
    destruct (Nat.leb_spec nl x); [lia|]. cbn [rbind].
    assert (dn ++ x :: rest = (dn ++ [x]) ++ rest) as E by (by rewrite <- app_assoc).
    pose proof (sorted_split _ _ _ Hs Hn) as [Hb Ha].
    assert (new_number (dn ++ x :: rest) x = length dn) as Hnn.
    { rewrite new_number_app, new_number_below by done. rewrite new_number_above; [lia|].
      intros j Hj. apply elem_of_cons in Hj as [->|Hj]; [lia|]. specialize (Ha j Hj). lia. }
    rewrite E in *.
    replace (last + 1 - Z.of_nat (length dn) + (Z.of_nat x - last - 1)) with
      (Z.of_nat x - Z.of_nat (length dn)) by lia.
    replace (Z.of_nat x - Z.of_nat (length dn)) with (Z.of_nat x + 1 - Z.of_nat (length (dn ++ [x])))
      by (rewrite app_length; cbn; lia).
    apply IH; try done.
    + intros i Hi. apply Hlt. by right.
    + by rewrite insert_length.
    + by rewrite insert_length.
    + intros i Hi. destruct (decide (i = x)) as [->|Hne].
      * rewrite list_lookup_insert by lia. rewrite bool_decide_true; [done|]. set_solver.
      * rewrite list_lookup_insert_ne by done. rewrite Hk by done. f_equal. apply bool_decide_ext. set_solver.
    + intros i Hi. destruct (decide (i = x)) as [->|Hne].
      * split; [done|]. rewrite list_lookup_insert by lia. rewrite Hnn, app_length. cbn. f_equal. lia.
      * rewrite list_lookup_insert_ne by done. apply Ho. set_solver.
Qed.
Lemma ke_tables_spec nl s : StronglySorted le s → NoDup s → (∀ i, i ∈ s → (i < nl)%nat) →
  ∃ kept offs, ke_tables nl s = Ok (kept, offs) ∧ length kept = nl ∧ length offs = nl ∧
    (∀ i, (i < nl)%nat → kept !! i = Some (bool_decide (i ∈ s))) ∧
    (∀ i, i ∈ s → offs !! i = Some (Z.of_nat i - Z.of_nat (new_number s i))).
Proof.
  intros Hs Hn Hlt.
  destruct (ke_loop nl s [] (replicate nl false) (replicate nl 0) (-1)) as (k & o & l & c & E & H1 & H2 & H3 & H4);
    try done.
  - by rewrite replicate_length.
  - by rewrite replicate_length.
  - intros i Hi. rewrite lookup_replicate_2 by done. rewrite bool_decide_false; [done|]. apply not_elem_of_nil.
  - intros i Hi. by apply elem_of_nil in Hi.
  - exists k, o. unfold ke_tables. change (-1 + 1 - Z.of_nat (length [])) with 0 in E. rewrite E. cbn. done.
Qed.

Section Keep.
Context {A : arith}.
Notation N := (num A).
Implicit Types (m : hexa N) (e : elem N) (r : bcrec N).
Context (bnd : Z) (LA : arith_laws A bnd).

Lemma py_get_nat {X} (l : list X) i x : l !! i = Some x → py_get l (Z.of_nat i) = Some x.
Proof.
  intros H. unfold py_get. pose proof (lookup_lt_Some _ _ _ H).
  unfold py_pos. 
  repeat case_match; try lia; rewrite ?Nat2Z.id in *; try done; simplify_eq; rewrite ?Nat2Z.id; try done.
Qed.

Lemma new_number_le els i : (new_number els i ≤ length els)%nat.
Proof. unfold new_number. apply filter_length. Qed.
Lemma new_number_le_self els i : NoDup els → (new_number els i ≤ i)%nat.
Proof.
  intros Hn. unfold new_number. 
  assert (NoDup (filter (λ j, (j < i)%nat) els)) as H1 by (by apply NoDup_filter).
  assert (filter (λ j, (j < i)%nat) els ⊆ seq 0 i) as H2.
  { intros j Hj. apply elem_of_list_filter in Hj as [Hj _]. apply elem_of_seq. lia. }
  apply NoDup_submseteq in H2; [|done]. apply submseteq_length in H2. by rewrite seq_length in H2.
Qed.

Lemma keep_spec m els ext : wf_mesh m → NoDup els → (∀ i, i ∈ els → (i < nel m)%nat) →
  (∀ e, e ∈ elems m → length (ccurv e) = 12%nat) →
  refs_in_mesh m → Z.of_nat (nel m) <= bnd →
  ∃ m', keep_elements m els ext = Ok m' ∧ is_subset m els ext m' ∧ elmap m' = elmap m ∧ wf_mesh m' ∧
    ncurv m' = Z.of_nat (length (List.filter (λ c, negb (String.eqb c "")) (elems m' ≫= ccurv))).
Proof.
  intros Hw Hn Hlt Hcc Hrefs Hb. pose proof Hw as [Hwb Hwg]. pose proof Hwb as (Hd & Hlen & Hrows).
  unfold keep_elements. set (s := sort_nat els).
  assert (s ≡ₚ els) as Hps by apply sort_nat_perm.
  assert (NoDup s) as Hns by (by rewrite Hps).
  assert (StronglySorted le s) as Hss by apply sort_nat_sorted.
  assert (∀ i, i ∈ s ↔ i ∈ els) as Hin by (intros i; by rewrite Hps).
  assert (∀ i, new_number s i = new_number els i) as Hnn by (intros i; by apply new_number_perm).
  destruct (ke_tables_spec (nel m) s Hss Hns) as (kept & offs & Et & Lk & Lo & Tk & To).
  { intros i Hi. apply Hlt. by apply Hin. }
  rewrite Et. cbn [rbind].
  set (l := prod3 s (range (nbc m)) (range (2 * ndim m))).
  assert (∀ i b f, (i, b, f) ∈ l ↔ i ∈ els ∧ in_mesh m i b f) as Hl.
  { intros i b f. unfold l. rewrite elem_of_prod3, !elem_of_range, Hin. unfold in_mesh. split.
    - intros (H1 & H2 & H3). split_and!; auto.
    - intros (H1 & H2 & H3 & H4). done. }
  assert (NoDup l) as Hnl by (apply NoDup_prod3; [done|apply NoDup_range|apply NoDup_range]).
  (* one entry *)
  assert (∀ i b f r, (i, b, f) ∈ l → get_bc m i b f = Some r →
    ∃ rd, ke_face kept offs ext (i, b, f) r = Ok rd ∧ keep_entry (nel m) els ext i r rd.1) as Hface.
  { intros i b f r Hil Hr. apply Hl in Hil as [Hi Him]. unfold ke_face.
    rewrite (To i) by (by apply Hin). cbn [of_opt rbind]. rewrite Hnn.
    assert (Z.of_nat i - (Z.of_nat i - Z.of_nat (new_number els i)) + 1 = Z.of_nat (new_number els i) + 1)
      as -> by lia.
    case_bool_decide as Hc.
    - destruct (Hrefs i b f r Him Hr Hc) as (j & Hj & Ej).
      rewrite Ej, (law_trunc A bnd LA) by lia. cbn [rbind].
      replace (Z.of_nat j + 1 - 1) with (Z.of_nat j) by lia.
      rewrite (py_get_nat kept j _ (Tk j Hj)). cbn [of_opt rbind].
      case_bool_decide as Hjs.
      + rewrite (py_get_nat offs j _ (To j Hjs)). cbn [of_opt rbind].
        eexists. split; [reflexivity|]. cbn [fst]. unfold keep_entry.
        cbn [set_bp3 set_bel bel bface bp5 bp6 bp7 bt bp3 bp4].
        split_and!; try done. intros _ j' Hj' Ej'. rewrite Ej in Ej'.
        apply (Hin j) in Hjs.
        assert (j' = j) as -> by (apply (nofZ_inj bnd LA) in Ej'; lia).
        split; [|done]. intros _. split; [done|]. split; [|done].
        rewrite (law_sub A bnd LA); rewrite ?Hnn; pose proof (new_number_le_self els j Hn); try lia.
        f_equal. lia.
      + eexists. split; [reflexivity|]. cbn [fst]. unfold keep_entry.
        cbn [set_bp3 set_bp4 set_bt set_bel bel bface bp5 bp6 bp7 bt bp3 bp4].
        split_and!; try done. intros _ j' Hj' Ej'. rewrite Ej in Ej'.
        assert (j' = j) as -> by (apply (nofZ_inj bnd LA) in Ej'; lia).
        rewrite Hin in Hjs. split; [done|]. done.
    - eexists. split; [reflexivity|]. cbn [fst]. unfold keep_entry. cbn. split_and!; try done. }
  destruct (upd_loop_ok (ke_face kept offs ext) m 0 l Hnl) as (m1 & n1 & Eu).
  { intros i b f Hil. pose proof Hil as Hil'. apply Hl in Hil as [Hi (H1 & H2 & H3)].
    destruct (wf_get_bc m i b f Hwb H1 H2) as [r Hr]; [destruct Hd; lia|].
    destruct (Hface i b f r Hil' Hr) as (rd & E & _). eauto. }
  rewrite Eu. cbn [rbind fst].
  destruct (upd_loop_strip _ _ _ _ Eu) as [S1 B1]. cbn [fst] in S1, B1.
  destruct (upd_loop_spec _ _ _ _ _ _ Hnl Eu) as [U1 U2].
  assert (wf_mesh m1) as Hw1 by (by eapply wf_mesh_shape).
  assert (mapR (λ i, of_opt IndexError (elems m1 !! i)) s =
    Ok (omap (λ i, elems m1 !! i) s) ∧ ∀ p i, s !! p = Some i →
      omap (λ i, elems m1 !! i) s !! p = elems m1 !! i) as [Emap Hnews].
  { assert (∀ i, i ∈ s → (i < length (elems m1))%nat) as Hlt1.
    { intros i Hi. destruct Hw1 as [(_ & -> & _) _].
      apply strip_fields in S1 as (_ & -> & _). apply Hlt. by apply Hin. }
    clear -Hlt1. induction s as [|x s IH]; [split; [done|]; intros p i Hp; by destruct p|].
    destruct (lookup_lt_is_Some_2 (elems m1) x) as [e He]; [apply Hlt1; left|].
    destruct IH as [IH1 IH2]; [intros; apply Hlt1; by right|].
    cbn. rewrite He, IH1. cbn. split; [done|]. intros [|p] i Hp; cbn in *; [congruence|by apply IH2]. }
  rewrite Emap. cbn [rbind]. set (news := omap (λ i, elems m1 !! i) s) in *.
  assert (length news = length els) as Hlnews.
  { apply mapR_Ok in Emap. apply Forall2_length in Emap. rewrite <- Emap. by rewrite Hps. }
  assert (∀ e', e' ∈ news → ∃ e, e ∈ elems m ∧ strip_elem e' = strip_elem e) as Hel.
  { intros e' He'. apply elem_of_list_omap in He' as (i & Hi & He').
    destruct (strip_elem_lookup m1 m i e' S1 He') as (e & He & Hst). exists e.
    split; [by eapply elem_of_list_lookup_2|done]. }
  rewrite update_ncurv_spec.
  2: { cbn. intros e' He'. destruct (Hel e' He') as (e & He & Hst). rewrite <- (Hcc e He).
       unfold strip_elem, set_bcs in Hst. by injection Hst as _ _ _ _ _ _ _ ->. }
  eexists. split; [reflexivity|].
  apply strip_fields in S1 as SF. destruct SF as (F1 & F2 & F3 & F4 & F5 & F6 & F7 & F8 & F9).
  set (m' := set_ncurv _ _).
  assert (∀ i, i ∈ els → s !! new_number els i = Some i) as Hpos.
  { intros i Hi. apply Hin, elem_of_list_lookup in Hi as [p Hp].
    pose proof (sorted_number s p i Hss Hns Hp) as E. rewrite Hnn in E. by rewrite E. }
  assert (∀ i b f, i ∈ els → get_bc m' (new_number els i) b f = get_bc m1 i b f) as Hget.
  { intros i b f Hi. unfold get_bc. subst m'. cbn [elems set_ncurv set_nel set_elems].
    by rewrite (Hnews _ _ (Hpos i Hi)). }
  split; [|split; [done|split]].
  - split; [done|]. split; [done|]. split; [done|]. split; [done|]. split; [done|]. split; [done|].
    split.
    + intros i Hi. destruct (lookup_lt_is_Some_2 (elems m) i) as [e He].
      { rewrite Hlen. by apply Hlt. }
      destruct (strip_elem_lookup m m1 i e (eq_sym S1) He) as (e' & He' & Hst).
      exists e, e'. split; [done|]. split; [|done]. subst m'. cbn [elems set_ncurv set_nel set_elems].
      by rewrite (Hnews _ _ (Hpos i Hi)).
    + intros i b f r Hi Him Hr. rewrite Hget by done.
      assert ((i, b, f) ∈ l) as Hil by (by apply Hl).
      destruct (U2 i b f Hil) as (r0 & rd & E0 & Eg & E1). rewrite Hr in E0. apply (inj Some) in E0 as <-.
      destruct (Hface i b f r Hil Hr) as (rd' & Eg' & Hk). rewrite Eg in Eg'. injection Eg' as <-.
      exists (rd.1). done.
  - split.
    + split; [by rewrite <- F1 in Hd|]. split; [done|]. intros e' He'.
      apply elem_of_list_omap in He' as (i & _ & He'). destruct Hw1 as [(_ & _ & Hr1) _].
      apply Hr1. by eapply elem_of_list_lookup_2.
    + intros e' He'. apply elem_of_list_omap in He' as (i & _ & He'). apply Hw1.
      by eapply elem_of_list_lookup_2.
  - done.
Qed.

(** Valid connectivity is kept. *)
Lemma new_number_lt els i : i ∈ els → (new_number els i < length els)%nat.
Proof.
  intros Hi. apply elem_of_list_split in Hi as (l1 & l2 & ->).
  rewrite new_number_app, app_length. unfold new_number.
  rewrite filter_cons_False by lia. cbn [length].
  pose proof (filter_length (λ j, (j < i)%nat) l1). pose proof (filter_length (λ j, (j < i)%nat) l2). lia.
Qed.
Lemma new_number_onto els p : NoDup els → (p < length els)%nat → ∃ i, i ∈ els ∧ new_number els i = p.
Proof.
  intros Hn Hp. pose proof (sort_nat_perm els) as Hps.
  destruct (lookup_lt_is_Some_2 (sort_nat els) p) as [i Hi]; [by rewrite Hps|].
  exists i. split; [rewrite <- Hps; by eapply elem_of_list_lookup_2|].
  rewrite <- (new_number_perm _ _ i Hps). apply sorted_number; [apply sort_nat_sorted|by rewrite Hps|done].
Qed.

(** What a connected entry of the reduced mesh comes from. *)
Lemma subset_entry m els ext m' :
  NoDup els → (∀ i, i ∈ els → (i < nel m)%nat) → wf_bcs m → paired m → is_subset m els ext m' → ¬ is_conn (u3 ext) →
  ∀ i' b f r', in_mesh m' i' b f → get_bc m' i' b f = Some r' → is_conn (bt r') →
    ∃ i j g r r2 r2', i ∈ els ∧ j ∈ els ∧ i' = new_number els i ∧ in_mesh m i b f ∧ in_mesh m j b g ∧
      get_bc m i b f = Some r ∧ bt r' = bt r ∧ points r j g ∧ points r' (new_number els j) g ∧
      get_bc m j b g = Some r2 ∧ get_bc m' (new_number els j) b g = Some r2' ∧ bt r2' = bt r ∧ points r2' i' f.
Proof.
  intros Hn Hlt Hw Hp (S1 & S2 & _ & _ & S5 & S6 & Sel & Sbc) Hext. pose proof Hw as (Hd & _).
    intros i' b f r' (Hi' & Hb' & Hf') Hr' Hc. rewrite S5 in Hi'. rewrite S2 in Hb'. rewrite S1 in Hf'.
    destruct (new_number_onto els i' Hn Hi') as (i & Hi & <-).
    assert (in_mesh m i b f) as Him by (split_and!; auto).
    destruct (wf_get_bc m i b f Hw) as [r Hr]; [by auto|done|destruct Hd; lia|].
    destruct (Sbc i b f r Hi Him Hr) as (r0 & Hr0 & K). rewrite Hr' in Hr0. apply (inj Some) in Hr0 as <-.
    destruct K as (_ & _ & _ & _ & _ & K1 & K2).
    assert (is_conn (bt r)) as Hcr.
    { destruct (decide (bt r = "E"%string)); [by left|]. destruct (decide (bt r = "P"%string)); [by right|].
      destruct K1 as [K1 _]; [by intros [?|?]|]. by rewrite K1 in Hc. }
    destruct (Hp i b f r Him Hr Hcr) as (j & g & r2 & Hjm & [P3 P4] & Hr2 & T2 & [Q3 Q4]).
    pose proof Hjm as (Hj & _ & _). destruct (K2 Hcr j Hj P3) as [Ka Kb].
    destruct (decide (j ∈ els)) as [Hje|Hje].
    2: { destruct (Kb Hje) as [Ht _]. rewrite Ht in Hc. done. }
    destruct (Ka Hje) as (T & P3' & P4').
    destruct (Sbc j b g r2 Hje Hjm Hr2) as (r2' & Hr2' & (_ & _ & _ & _ & _ & _ & K2')).
    rewrite <- T2 in Hcr. destruct (K2' Hcr i (Hlt i Hi) Q3) as [Ka' _].
    destruct (Ka' Hi) as (T' & Q3' & Q4').
    exists i, j, g, r, r2, r2'. split_and!; try done; try (split; congruence); congruence.
Qed.
Lemma subset_paired m els ext m' :
  NoDup els → (∀ i, i ∈ els → (i < nel m)%nat) → wf_bcs m → paired m → is_subset m els ext m' → ¬ is_conn (u3 ext) → paired m'.
Proof.
  intros Hn Hlt Hw Hp Hs Hext. pose proof (subset_entry m els ext m' Hn Hlt Hw Hp Hs Hext) as Hent.
  destruct Hs as (S1 & S2 & _ & _ & S5 & S6 & Sel & Sbc).
  intros i' b f r' Him' Hr' Hc.
    destruct (Hent i' b f r' Him' Hr' Hc) as (i & j & g & r & r2 & r2' & Hi & Hj & -> & Him & Hjm & Hr & T & P & P' & Hr2 & Hr2' & T' & Q').
    exists (new_number els j), g, r2'. destruct Hjm as (_ & _ & Hg). destruct Him' as (_ & Hbb & _).
    split; [split_and!; [rewrite S5; by apply new_number_lt|done|by rewrite S1]|].
    split_and!; try done. congruence.
Qed.

Lemma subset_valid m els ext m' tol :
  NoDup els → (∀ i, i ∈ els → (i < nel m)%nat) → wf_bcs m →
  paired m → valid_connectivity tol m → is_subset m els ext m' → ¬ is_conn (u3 ext) →
  Z.of_nat (nel m) <= bnd → 6 <= bnd →
  valid_connectivity tol m' ∧ paired m'.
Proof.
  intros Hn Hlt Hw Hp Hv Hs Hext Hb H6. split; [|by eapply subset_paired].
  pose proof (subset_entry m els ext m' Hn Hlt Hw Hp Hs Hext) as Hent.
  destruct Hs as (S1 & S2 & _ & _ & S5 & S6 & Sel & Sbc). pose proof Hw as (Hd & _).
  assert (∀ i, i ∈ els → (new_number els i < nel m)%nat) as Hle.
  { intros i Hi. pose proof (new_number_le_self els i Hn). specialize (Hlt i Hi). lia. }
  intros i' b f r' Him' Hr' Hc.
    destruct (Hent i' b f r' Him' Hr' Hc) as (i & j & g & r & r2 & r2' & Hi & Hj & -> & Him & Hjm & Hr & T & P & P' & Hr2 & Hr2' & T' & Q').
    pose proof Hjm as (_ & _ & Hg). pose proof Him as (_ & _ & Hf).
    exists (new_number els j), g, r2'.
    assert (∀ (q : bcrec N) k h, k ∈ els → (h < 2 * ndim m)%nat → points q (new_number els k) h → names q (new_number els k) h) as Hpn.
    { intros q k h Hk Hh [E3 E4]. unfold names. rewrite E3, E4. specialize (Hle k Hk).
      split; apply (law_trunc A bnd LA); destruct Hd; lia. }
    split; [split; [rewrite S5; by apply new_number_lt|destruct Hd; lia]|].
    split; [by apply Hpn|]. split; [done|]. split; [congruence|]. split; [by apply Hpn|].
    intros HE. rewrite T in HE.
    destruct (Hv i b f r Him Hr) as (j0 & g0 & r0 & (Hj0 & Hg0) & [N3 N4] & _ & _ & _ & Hpl); [by left|].
    assert (j0 = j ∧ g0 = g) as [-> ->].
    { destruct P as [P3 P4]. rewrite P3 in N3. rewrite P4 in N4. specialize (Hlt j Hj).
      rewrite (law_trunc A bnd LA) in N3 by lia. rewrite (law_trunc A bnd LA) in N4 by (destruct Hd; lia).
      injection N3 as ?. injection N4 as ?. lia. }
    destruct (Hpl HE) as (e & e2 & c & c2 & s & s2 & He & He2 & Hc1 & Hc2 & Hs1 & Hs2 & Hd').
    destruct (Sel i Hi) as (e0 & e' & He0 & He' & Hst). rewrite He in He0. apply (inj Some) in He0 as <-.
    destruct (Sel j Hj) as (e0 & e2' & He0 & He2' & Hst2). rewrite He2 in He0. apply (inj Some) in He0 as <-.
    exists e', e2', c, c2, s, s2. split_and!; try done.
    + by rewrite (face_center_strip e e' _ Hst).
    + by rewrite (face_center_strip e2 e2' _ Hst2).
    + by rewrite (smallest_edge_strip e e' Hst).
    + by rewrite (smallest_edge_strip e2 e2' Hst2).
Qed.
End Keep.
