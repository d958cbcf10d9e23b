(** Every operation keeps a mesh sound. *)
From Coq Require Import Lia.
From Verif Require Import Base Mesh Core Tools Float FloatLaws GeoLaws MeshLemmas MeshSpec CheckProofs OpsProofs P_Ops KeepSpec KeepProofs P_Keep GibSpec GibProofs P_Gib
  MergeSpec MergeProofs P_Merge HistorySpec.
Open Scope Z_scope.

Section History.
Context {A : arith} (bnd : Z) (tol : num A).
Notation N := (num A).
Implicit Types (m o : hexa N) (e : elem N) (r : bcrec N).
Hypothesis LA : arith_laws A bnd.
Hypothesis LG : geo_laws A.
Hypothesis H6 : 6 <= bnd.

Lemma same_edge e e' : set_bcs [] e' = set_bcs [] e → smallest_edge e' = smallest_edge e ∧ ccurv e' = ccurv e.
Proof.
  intros H. assert (ccurv e' = ccurv e) by exact (f_equal ccurv H). assert (eshape e' = eshape e) as Hs by exact (f_equal eshape H).
  assert (pos e' = pos e) as Hp by exact (f_equal pos H). split; [|done]. unfold smallest_edge, point_py, point. by rewrite Hs, Hp.
Qed.
Lemma positive_le s : nltb (nofZ 0) s = true → nleb s (nofZ (a:=A) 0) = false.
Proof. intros H. destruct (nleb s (nofZ 0)) eqn:E; [|done]. apply (geo_le A LG) in E. congruence. Qed.
Lemma sound_nonzero m : sound bnd tol m → ∀ e s, e ∈ elems m → smallest_edge e = Ok s → nleb s (nofZ 0) = false.
Proof. intros S e s He Hs. apply positive_le. by eapply (so_edges _ _ _ S). Qed.

Lemma in_mesh_same m m' : set_elems [] m' = set_elems [] m → (∀ i b f, in_mesh m' i b f ↔ in_mesh m i b f) ∧ nbc m' = nbc m ∧ nel m' = nel m ∧ ndim m' = ndim m.
Proof.
  intros H. assert (nbc m' = nbc m) as E1 by exact (f_equal nbc H). assert (nel m' = nel m) as E2 by exact (f_equal nel H).
  assert (ndim m' = ndim m) as E3 by exact (f_equal ndim H). split; [|done]. intros i b f. unfold in_mesh. by rewrite E1, E2, E3.
Qed.
Lemma geo_kept m m' : same_but_bcs m m' → ∀ e', e' ∈ elems m' → ∃ e, e ∈ elems m ∧ set_bcs [] e' = set_bcs [] e.
Proof.
  intros [_ HF] e' He'. apply elem_of_list_lookup in He' as [i Hi]. destruct (Forall2_lookup_r _ _ _ _ _ HF Hi) as (e & He & E & _).
  exists e. split; [by apply elem_of_list_lookup_2 in He|done].
Qed.
Lemma wf_kept m m' : same_but_bcs m m' → wf_mesh m → wf_mesh m'.
Proof.
  intros Hsb [(W1 & W2 & W3) W4]. pose proof Hsb as [Hs HF]. destruct (in_mesh_same _ _ Hs) as (_ & E1 & E2 & E3). split; [split|].
  - by rewrite E3.
  - split; [rewrite <- (Forall2_length _ _ _ HF); congruence|]. intros e' He'. apply elem_of_list_lookup in He' as [i Hi].
    destruct (Forall2_lookup_r _ _ _ _ _ HF Hi) as (e & He & _ & HR). destruct (W3 e) as [L1 L2]; [by apply elem_of_list_lookup_2 in He|].
    split; [rewrite <- (Forall2_length _ _ _ HR); congruence|]. intros row Hrow. apply elem_of_list_lookup in Hrow as [k Hk].
    destruct (Forall2_lookup_r _ _ _ _ _ HR Hk) as (row0 & H0 & ->). apply L2. by apply elem_of_list_lookup_2 in H0.
  - intros e' He'. destruct (geo_kept _ _ Hsb e' He') as (e & He & E). destruct (W4 e He) as (lx & ly & lz & A1 & A2 & A3 & A4).
    exists lx, ly, lz. assert (eshape e' = eshape e) as -> by exact (f_equal eshape E). assert (pos e' = pos e) as -> by exact (f_equal pos E). done.
Qed.
Lemma rev_get m m' i b f r' : same_but_bcs m m' → get_bc m' i b f = Some r' → is_Some (get_bc m i b f).
Proof.
  intros [_ HF] H. unfold get_bc in *. destruct (elems m' !! i) as [e'|] eqn:E1; [|done]. cbn [mbind option_bind] in H.
  destruct (bcs e' !! b) as [row'|] eqn:E2; [|done]. cbn [mbind option_bind] in H.
  destruct (Forall2_lookup_r _ _ _ _ _ HF E1) as (e & -> & _ & HR). cbn [mbind option_bind].
  destruct (Forall2_lookup_r _ _ _ _ _ HR E2) as (row & -> & HL). cbn [mbind option_bind]. apply lookup_lt_is_Some. rewrite <- HL.
  by apply lookup_lt_Some in H.
Qed.
Lemma kept_facts m m' : sound bnd tol m → same_but_bcs m m' →
  wf_mesh m' ∧ (∀ e s, e ∈ elems m' → smallest_edge e = Ok s → nltb (nofZ 0) s = true) ∧ (∀ e, e ∈ elems m' → length (ccurv e) = 12%nat) ∧
  (0 < nbc m')%nat ∧ Z.of_nat (nel m') <= bnd.
Proof.
  intros S Hsb. destruct (in_mesh_same _ _ (proj1 Hsb)) as (_ & E1 & E2 & _). split; [by apply (wf_kept m); [|apply (so_connected _ _ _ S)]|].
  split; [|split; [|split; [rewrite E1; apply (so_fields _ _ _ S)|rewrite E2; apply (so_size _ _ _ S)]]].
  - intros e' s He' Hs. destruct (geo_kept _ _ Hsb e' He') as (e & He & E). destruct (same_edge _ _ E) as [E3 _]. rewrite E3 in Hs. by apply (so_edges _ _ _ S e).
  - intros e' He'. destruct (geo_kept _ _ Hsb e' He') as (e & He & E). destruct (same_edge _ _ E) as [_ ->]. by apply (so_curves _ _ _ S).
Qed.

Lemma delete_sound m m' k : sound bnd tol m → delete_internal_bcs m = Ok (m', k) → sound bnd tol m'.
Proof.
  intros S E. destruct (so_connected _ _ _ S) as (W & P & U & NS). destruct (C29_delete_internal m (proj1 W)) as (m1 & n & E1 & Hsb & _ & HK & HD & _).
  rewrite E in E1. injection E1 as <- <-. destruct (kept_facts _ _ S Hsb) as (W' & F1 & F2 & F3 & F4). destruct (in_mesh_same _ _ (proj1 Hsb)) as (Hin & _ & En & _).
  (* a condition is that of [m], or empty *)
  assert (∀ i b f r', get_bc m' i b f = Some r' → ∃ r, get_bc m i b f = Some r ∧ (bt r ≠ "E"%string ∧ r' = r ∨ bt r = "E"%string ∧ r' = zero_bc (nofZ 0))) as HR.
  { intros i b f r' Hr'. destruct (rev_get _ _ _ _ _ _ Hsb Hr') as [r Hr]. exists r. split; [done|]. destruct (decide (bt r = "E"%string)) as [Et|Et].
    - right. split; [done|]. rewrite (HD i b f r Hr Et) in Hr'. by injection Hr'.
    - left. split; [done|]. rewrite (HK i b f r Hr Et) in Hr'. by injection Hr'. }
  assert (∀ r, is_conn (bt (zero_bc (nofZ (a:=A) 0))) → False) as HZ by (intros _ [X|X]; done).
  split; try done; [split; [done|split; [|split]]|].
  - intros i b f r' Hi Hr' Hc. destruct (HR _ _ _ _ Hr') as (r & Hr & [[Ne ->]|[_ ->]]); [|by destruct (HZ r)].
    apply Hin in Hi. destruct (P i b f r Hi Hr Hc) as (j & g & q & Hj & P1 & Hq & Ht & P2). exists j, g, q. split; [by apply Hin|]. split; [done|].
    split; [|done]. apply HK; [done|congruence].
  - intros i b f r' r0' Hi Hr' Hr0' Hc. apply Hin in Hi. destruct (HR _ _ _ _ Hr') as (r & Hr & HA), (HR _ _ _ _ Hr0') as (r0 & Hr0 & HB).
    destruct HA as [[N1 ->]|[T1 ->]], HB as [[N2 ->]|[T2 ->]].
    + by apply (U i b f r r0).
    + exfalso. destruct (U i b f r r0 Hi Hr Hr0) as (V1 & _); [right; by left|]. congruence.
    + exfalso. destruct (U i b f r r0 Hi Hr Hr0) as (V1 & _); [left; by left|]. congruence.
    + done.
  - intros x r' Hx Hr' Ht HP. apply Hin in Hx. destruct (HR _ _ _ _ Hr') as (r & Hr & [[Ne ->]|[_ ->]]); [|done]. by apply (NS x r).
  - intros i b f r' Hi Hr' Hc. destruct (HR _ _ _ _ Hr') as (r & Hr & [[Ne ->]|[_ ->]]); [|by destruct (HZ r)].
    apply Hin in Hi. destruct (so_valid _ _ _ S i b f r Hi Hr Hc) as (j & g & q & Hj & P1 & Hq & Ht & P2 & _). exists j, g, q. rewrite En. split; [done|].
    split; [done|]. split; [apply HK; [done|congruence]|]. split; [done|]. split; [done|]. intros HE. done.
Qed.
Lemma generate_sound m m' k : sound bnd tol m → generate_internal_bcs tol m = Ok (m', k) → sound bnd tol m'.
Proof.
  intros S E. destruct (so_connected _ _ _ S) as (W & P & U & NS). pose proof (so_fields _ _ _ S) as Hnb. pose proof (so_size _ _ _ S) as Hsz.
  assert (∀ i b f r, open_face m i f → get_bc m i b f = Some r → ¬ is_conn (bt r)) as HO.
  { intros i b f r ([Hi Hf] & r0 & Hr0 & Ht) Hr Hc. destruct (decide (b < nbc m)%nat) as [Hb|Hb].
    - destruct (U i b f r r0) as (V1 & _); [done|done|done|by left|]. rewrite V1, Ht in Hc. destruct Hc; done.
    - unfold get_bc in Hr. destruct (elems m !! i) as [e|] eqn:Ee; [|done]. cbn [mbind option_bind] in Hr.
      destruct W as [(_ & _ & W3) _]. destruct (W3 e) as [L _]; [by apply elem_of_list_lookup_2 in Ee|].
      rewrite (lookup_ge_None_2 (bcs e) b) in Hr by lia. done. }
  destruct (C30_keeps_valid bnd m m' tol k LG LA Hsz H6 W ltac:(lia) (so_edges _ _ _ S) HO (so_valid _ _ _ S) P E) as (W' & V' & P' & _).
  destruct (C31_complete_and_counted m m' tol k W ltac:(lia) (sound_nonzero m S) E) as (_ & p & [Hsb HC] & _).
  destruct (kept_facts _ _ S Hsb) as (_ & F1 & F2 & F3 & F4). destruct (in_mesh_same _ _ (proj1 Hsb)) as (Hin & _ & En & _).
  assert (∀ i b f r', get_bc m' i b f = Some r' → ∃ r, get_bc m i b f = Some r ∧
    match p i f with Some (j, g) => connected_entry i f j g r r' | None => r' = r end) as HR.
  { intros i b f r' Hr'. destruct (rev_get _ _ _ _ _ _ Hsb Hr') as [r Hr]. exists r. split; [done|]. destruct (HC i b f r Hr) as (q & Hq & X). rewrite Hr' in Hq. by injection Hq as <-. }
  split; try done. split; [done|]. split; [done|]. split.
  - intros i b f r' r0' Hi Hr' Hr0' Hc. apply Hin in Hi. destruct (HR _ _ _ _ Hr') as (r & Hr & HA), (HR _ _ _ _ Hr0') as (r0 & Hr0 & HB).
    destruct (p i f) as [[j g]|].
    + destruct HA as (A1 & _ & _ & [A2 A3] & _), HB as (B1 & _ & _ & [B2 B3] & _). split_and!; congruence.
    + subst r' r0'. by apply (U i b f r r0).
  - intros x r' Hx Hr' Ht HP. apply Hin in Hx. destruct (HR _ _ _ _ Hr') as (r & Hr & HA). destruct (p x.1 x.2) as [[j g]|].
    + destruct HA as (A1 & _). congruence.
    + subst r'. by apply (NS x r).
Qed.
Lemma keep_sound m m' els ext : sound bnd tol m → NoDup els → ¬ is_conn (u3 ext) → keep_elements m els ext = Ok m' → sound bnd tol m'.
Proof.
  intros S Nd Hext E. destruct (so_connected _ _ _ S) as (W & P & U & NS). pose proof (so_size _ _ _ S) as Hsz.
  assert (∀ i, i ∈ els → (i < nel m)%nat) as Hels.
  { intros i Hi. destruct (Nat.lt_ge_cases i (nel m)) as [?|H]; [done|]. rewrite (C32_invalid_number_rejected m els ext i Hi H) in E. done. }
  destruct (C32_keep_valid bnd m m' els ext tol LA W Nd Hels (so_curves _ _ _ S) P (so_valid _ _ _ S) Hext Hsz H6 E) as (V' & P' & _).
  assert (refs_in_mesh m) as HRm.
  { intros i b f r Hi Hr Hc. destruct (P i b f r Hi Hr Hc) as (j & g & q & Hj & [P1 _] & _). exists j. split; [by destruct Hj|done]. }
  destruct (C32_keep_elements bnd m els ext LA W Nd Hels (so_curves _ _ _ S) HRm Hsz) as (m1 & E1 & Hsub & W' & _). rewrite E in E1. injection E1 as <-.
  destruct Hsub as (D1 & D2 & D3 & D4 & D5 & D6 & D7 & D8). destruct (C32_numbers els Nd) as [N1 N2].
  assert (∀ e', e' ∈ elems m' → ∃ e, e ∈ elems m ∧ set_bcs [] e' = set_bcs [] e) as HG.
  { intros e' He'. apply elem_of_list_lookup in He' as [q Hq]. destruct (N2 q) as (i & Hi & En); [rewrite <- D6; by apply lookup_lt_Some in Hq|].
    destruct (D7 i Hi) as (e & e1 & He & He1 & Es). rewrite En, Hq in He1. injection He1 as <-. exists e. split; [by apply elem_of_list_lookup_2 in He|done]. }
  assert (∀ i' b f r', in_mesh m' i' b f → get_bc m' i' b f = Some r' → ∃ i r, i ∈ els ∧ i' = new_number els i ∧ in_mesh m i b f ∧ get_bc m i b f = Some r ∧ keep_entry (nel m) els ext i r r') as HR.
  { intros i' b f r' (Hi' & Hb & Hf) Hr'. rewrite D5 in Hi'. destruct (N2 i' Hi') as (i & Hi & En).
    assert (in_mesh m i b f) as Hin by (split_and!; [by apply Hels|lia|rewrite <- D1; done]).
    destruct (wf_get_bc m i b f) as [r Hr]; [apply W|by apply Hels|lia|destruct (proj1 (proj1 W)); lia|].
    destruct (D8 i b f r Hi Hin Hr) as (q & Hq & HK). rewrite En, Hr' in Hq. injection Hq as <-. by exists i, r. }
  assert (∀ i j, i ∈ els → j ∈ els → new_number els i = new_number els j → i = j) as Hinj.
  { intros i j Hi Hj En. destruct (Nat.lt_trichotomy i j) as [H|[H|H]]; [|done|].
    - pose proof (C32_order els i j Hi Hj H). lia.
    - pose proof (C32_order els j i Hj Hi H). lia. }
  assert (length els ≤ nel m)%nat as HLen.
  { assert (els ⊆+ range (nel m)) as Hs by (apply NoDup_submseteq; [done|intros i Hi; apply elem_of_seq; specialize (Hels i Hi); lia]).
    apply submseteq_length in Hs. unfold range in Hs. by rewrite seq_length in Hs. }
  split; try done.
  - split; [done|]. split; [done|]. split.
    + intros i' b f r' r0' Hi' Hr' Hr0' Hc. assert (in_mesh m' i' 0 f) as Hi0' by (unfold in_mesh in *; lia).
      destruct (HR _ _ _ _ Hi' Hr') as (i & r & Hi & En & Hin & Hr & K). destruct (HR _ _ _ _ Hi0' Hr0') as (i0 & r0 & Hi0 & En0 & Hin0 & Hr0 & K0).
      assert (i0 = i) as -> by (apply Hinj; [done|done|congruence]).
      destruct K as (_ & _ & _ & _ & _ & K1 & K2), K0 as (_ & _ & _ & _ & _ & L1 & L2).
      destruct (decide (bt r = "E"%string ∨ bt r = "P"%string)) as [C|C].
      * destruct (U i b f r r0 Hin Hr Hr0 (or_introl C)) as (V1 & V2 & V3). assert (is_conn (bt r0)) as C0 by (unfold is_conn; by rewrite <- V1).
        destruct (P i b f r Hin Hr C) as (j & g & q & (Hj & _) & [P1 _] & _).
        destruct (K2 C j Hj P1) as [K3 K4]. destruct (L2 C0 j Hj ltac:(congruence)) as [L3 L4]. destruct (decide (j ∈ els)) as [Hje|Hje].
        -- destruct (K3 Hje) as (-> & -> & ->), (L3 Hje) as (-> & -> & ->). done.
        -- destruct (K4 Hje) as (-> & -> & ->), (L4 Hje) as (-> & -> & ->). done.
      * destruct (K1 C) as (T1 & T3 & T4). assert (¬ is_conn (bt r0)) as C0.
        { intros C0. destruct (U i b f r r0 Hin Hr Hr0 (or_intror C0)) as (V1 & _). apply C. unfold is_conn in C0. by rewrite V1. }
        destruct (L1 C0) as (T1' & _). exfalso. rewrite T1, T1' in Hc. by destruct Hc.
    + intros [i' f] r' Hi' Hr' Ht HP. cbn [fst snd] in *. destruct (HR _ _ _ _ Hi' Hr') as (i & r & Hi & En & Hin & Hr & K). destruct K as (_ & _ & _ & _ & _ & K1 & K2).
      destruct (decide (bt r = "E"%string ∨ bt r = "P"%string)) as [C|C].
      * destruct (P i 0%nat f r Hin Hr C) as (j & g & q & (Hj & _ & Hg) & [P1 P2] & _). destruct (K2 C j Hj P1) as [K3 K4]. destruct (decide (j ∈ els)) as [Hje|Hje].
        -- destruct (K3 Hje) as (B1 & B3 & B4). destruct HP as [Q1 Q2]. rewrite B3, En in Q1. rewrite B4, P2 in Q2.
           pose proof (N1 i Hi) as M1. pose proof (N1 j Hje) as M2.
           apply (nofZ_inj bnd LA) in Q1; [|lia..]. assert (i = j) as <- by (apply Hinj; [done|done|lia]).
           apply (NS (i, f) r); [done|done|congruence|]. split; [done|]. cbn [fst snd]. rewrite P2. exact Q2.
        -- destruct (K4 Hje) as (B1 & _). apply Hext. rewrite <- B1. by right.
      * destruct (K1 C) as (T1 & _). apply C. right. congruence.
  - intros e' s He' Hs. destruct (HG e' He') as (e & He & Es). destruct (same_edge _ _ Es) as [E3 _]. rewrite E3 in Hs. by apply (so_edges _ _ _ S e).
  - intros e' He'. destruct (HG e' He') as (e & He & Es). destruct (same_edge _ _ Es) as [_ ->]. by apply (so_curves _ _ _ S).
  - rewrite D2. apply (so_fields _ _ _ S).
  - rewrite D5. lia.
Qed.
Lemma merge_sound m o m' n ie : sound bnd tol m → sound bnd tol o → mergeable bnd tol ie m o → merge tol ie false m o = (m', Ok n) → sound bnd tol m'.
Proof.
  intros S So (Hcmp & Hun & Hpp) E. pose proof (so_connected _ _ _ S) as C. pose proof (so_connected _ _ _ So) as Co. pose proof (so_fields _ _ _ S) as Hnb.
  destruct (C26_merge_connected bnd m o tol ie LA Hcmp Hnb C Co Hun Hpp) as (m1 & n1 & E1 & C'). rewrite E in E1. injection E1 as <- <-.
  destruct (C26_merge_glues bnd m o tol ie LA Hcmp Hnb C Co Hun Hpp) as (m1 & n1 & E1 & Hap & _). rewrite E in E1. injection E1 as <- <-.
  destruct (C26_merge_valid bnd m o m' tol ie n LG LA Hcmp Hnb C Co Hun Hpp (so_valid _ _ _ S) (so_valid _ _ _ So)) as [V _]; [|done|].
  { intros e s [He|He]; [by apply (so_edges _ _ _ S)|by apply (so_edges _ _ _ So)]. }
  destruct Hap as (A1 & _ & _ & A4 & l1 & l2 & A5 & A6 & A7).
  assert (∀ e', e' ∈ elems m' → ∃ e, (e ∈ elems m ∨ e ∈ elems o) ∧ set_bcs [] e' = set_bcs [] e) as HG.
  { intros e' He'. rewrite A5 in He'. apply elem_of_app in He' as [He'|He']; apply elem_of_list_lookup in He' as [i Hi].
    - destruct (Forall2_lookup_r _ _ _ _ _ A6 Hi) as (e & He & Es). exists e. split; [left; by apply elem_of_list_lookup_2 in He|done].
    - destruct (Forall2_lookup_r _ _ _ _ _ A7 Hi) as (e & He & Es). exists e. split; [right; by apply elem_of_list_lookup_2 in He|done]. }
  split; try done.
  - intros e' s He' Hs. destruct (HG e' He') as (e & He & Es). destruct (same_edge _ _ Es) as [E3 _]. rewrite E3 in Hs.
    destruct He as [He|He]; [by apply (so_edges _ _ _ S e)|by apply (so_edges _ _ _ So e)].
  - intros e' He'. destruct (HG e' He') as (e & He & Es). destruct (same_edge _ _ Es) as [_ ->]. destruct He as [He|He]; [by apply (so_curves _ _ _ S)|by apply (so_curves _ _ _ So)].
  - assert (nbc m' = nbc m) as -> by exact (f_equal nbc A4). done.
  - rewrite A1. destruct Hcmp as (_ & _ & _ & _ & Hs & _). done.
Qed.
Lemma built_sound (given : hexa N → Prop) m : (∀ m, given m → sound bnd tol m) → built bnd tol given m → sound bnd tol m.
Proof.
  intros HG. induction 1 as [m H|m o m' n ie _ IH1 _ IH2 Hm E|m m' els ext _ IH Nd Hx E|m m' n _ IH E|m m' n _ IH E].
  - by apply HG. - by apply (merge_sound m o m' n ie). - by apply (keep_sound m m' els ext). - by apply (delete_sound m m' n). - by apply (generate_sound m m' n).
Qed.
End History.
