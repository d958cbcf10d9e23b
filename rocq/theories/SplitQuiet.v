(** Proofs about [extrude], [extrude_mid] and [extrude_refine]: which types of conditions can occur without internal conditions. *)
From Verif Require Import Base Mesh Core Tools Curve Mid Split MeshLemmas MeshSpec CheckProofs OpsProofs.
From Coq Require Import Lia.
Open Scope Z_scope.

Section quiet.
Context {A : arith} {P : Type} (T : string → Prop).
Notation N := (num A).
Implicit Types (e : elem N) (r : bcrec N) (m : hexa N).

Definition eT e : Prop := ∀ row r, row ∈ bcs e → r ∈ row → T (bt r).
Definition mT m : Prop := ∀ e, e ∈ elems m → eT e.
Lemma mT_get m : mT m ↔ ∀ i b f r, get_bc m i b f = Some r → T (bt r).
Proof.
  split.
  - intros H i b f r Hr. apply get_bc_Some_shape in Hr as (e & row & He & Hb & Hf).
    apply (H e (elem_of_list_lookup_2 _ _ _ He) row r); by eapply elem_of_list_lookup_2.
  - intros H e He row r Hrow Hr. apply elem_of_list_lookup in He as [i He], Hrow as [b Hb], Hr as [f Hf].
    apply (H i b f r). unfold get_bc. rewrite He. cbn. by rewrite Hb.
Qed.
Lemma eT_bcs e e' : bcs e' = bcs e → eT e → eT e'.
Proof. unfold eT. by intros ->. Qed.
Lemma mT_elems m m' : elems m' = elems m → mT m → mT m'.
Proof. unfold mT. by intros ->. Qed.
Lemma mT_alter g i b f m : (∀ r, T (bt r) → T (bt (g r))) → mT m → mT (alter_bc g i b f m).
Proof.
  rewrite !mT_get. intros Hg H i' b' f' r. rewrite get_bc_alter. case_decide as Hd; [|apply H].
  destruct (get_bc m i' b' f') as [q|] eqn:E; [|done]. cbn. intros Hr. apply (inj Some) in Hr as <-. apply Hg. by eapply H.
Qed.
Lemma mT_upd (g : nat * nat * nat → bcrec N → res (bcrec N * Z)) s l s' :
  (∀ x r rd, g x r = Ok rd → T (bt r) → T (bt rd.1)) → upd_loop g s l = Ok s' → mT s.1 → mT s'.1.
Proof.
  intros Hg H H0. unfold upd_loop in H. eapply (foldM_inv _ (λ s', mT s'.1)); [..|exact H]; [done|].
  intros s1 [[i b] f] s2 _ H1 Hs. unfold upd_step in Hs.
  destruct (get_bc (fst s1) i b f) as [q|] eqn:Eq; [|done]. cbn [of_opt rbind] in Hs.
  destruct (g (i, b, f) q) as [rd|] eqn:Er; [|done]. cbn [rbind] in Hs. injection Hs as <-. cbn [fst].
  apply mT_alter; [|done]. intros _ _. apply (Hg _ _ _ Er). rewrite mT_get in H1. by apply (H1 i b f).
Qed.
Lemma mT_offset off k m m' : offset_connectivity off k m = Ok m' → mT m → mT m'.
Proof.
  unfold offset_connectivity. destruct (upd_loop _ _ _) as [s1|] eqn:E1; [|done]. cbn [rbind].
  destruct (upd_loop _ s1 _) as [s2|] eqn:E2; [|done]. cbn [rbind]. intros H. injection H as <-. intros Hm.
  eapply mT_upd; [|exact E2|].
  { intros ? q rd Hg. unfold offset_bc1 in Hg. injection Hg as <-. cbn [fst]. by destruct (_ <? _). }
  eapply mT_upd; [|exact E1|exact Hm].
  intros ? q rd Hg. unfold offset_bc3 in Hg. case_bool_decide; [|by injection Hg as <-].
  destruct (ntrunc _); [|done]. cbn [rbind] in Hg. injection Hg as <-. cbn [fst]. by destruct (_ <? _).
Qed.
Lemma mT_ncurv m m' : update_ncurv m = Ok m' → mT m → mT m'.
Proof. unfold update_ncurv. destruct (foldM _ _ _); [|done]. cbn [rbind]. intros H. injection H as <-. by apply mT_elems. Qed.
Lemma mT_merge tol ie self other m' n : merge tol ie true self other = (m', Ok n) → mT self → mT other → mT m'.
Proof.
  unfold merge. destruct (negb _); [done|]. destruct (lr1 self); [done|]. destruct (lr1 other); [done|]. destruct (negb _); [done|].
  unfold merge_append. destruct (offset_connectivity _ _ other) as [add|] eqn:E; [|done]. cbn [rbind]. rewrite orb_true_r.
  intros H Hs Ho. injection H as <- _. intros e. cbn [elems set_elems]. rewrite elem_of_app. intros [He|He]; [by apply Hs|].
  by apply (mT_offset _ _ _ _ E Ho).
Qed.
Hypothesis T0 : T "".
(** Nothing internal is left after [delete_internal_bcs]. *)
Lemma mT_delete m d n : wf_bcs m → delete_internal_bcs m = Ok (d, n) →
  (∀ i b f r, get_bc m i b f = Some r → bt r ≠ "E"%string → T (bt r)) → mT d.
Proof using T0.
  intros Hw E H. destruct (delete_spec m Hw) as (d' & n' & E' & _ & Hb & _ & Hd). rewrite E in E'. injection E' as <- <-.
  apply mT_get. intros i b f r Hr. destruct (get_bc m i b f) as [q|] eqn:Eq.
  - rewrite (Hd _ _ _ _ Eq) in Hr. apply (inj Some) in Hr as <-. destruct (String.eqb_spec (bt q) "E"); [exact T0|by eapply H].
  - rewrite (get_bc_None _ _ _ _ _ Hb Eq) in Hr. done.
Qed.
Lemma mT_delete_weak m d n : delete_internal_bcs m = Ok (d, n) → mT m → mT d.
Proof using T0.
  intros E Hm. unfold delete_internal_bcs in E. change d with (fst (d, n)). eapply mT_upd; [|exact E|exact Hm].
  intros ? r rd Hg. unfold delete_bc in Hg. injection Hg as <-. by destruct (String.eqb _ _).
Qed.
Lemma mT_keep m els m' : keep_elements m els "" = Ok m' → mT m → mT m'.
Proof using T0.
  unfold keep_elements. destruct (ke_tables _ _) as [[kept offs]|]; [|done]. cbn [rbind].
  destruct (upd_loop _ _ _) as [s|] eqn:E; [|done]. cbn [rbind]. destruct (mapR _ _) as [news|] eqn:En; [|done]. cbn [rbind].
  intros Hu Hm. apply (mT_ncurv _ _ Hu). assert (mT (fst s)) as Hs.
  { eapply mT_upd; [|exact E|exact Hm]. intros [[i b] f] r rd Hg. unfold ke_face in Hg. destruct (of_opt _ _); [|done]. cbn [rbind] in Hg.
    case_bool_decide; [|by injection Hg as <-]. destruct (ntrunc _); [|done]. cbn [rbind] in Hg.
    destruct (of_opt _ _) as [[|]|]; [| |done]; cbn [rbind] in Hg; [|injection Hg as <-; intros _; exact T0].
    destruct (of_opt _ _); [|done]. cbn [rbind] in Hg. by injection Hg as <-. }
  intros e He. cbn [elems set_nel set_elems] in He. apply mapR_Ok in En. apply elem_of_list_lookup in He as [p He].
  destruct (Forall2_lookup_r _ _ _ _ _ En He) as (i & _ & Hi). destruct (elems (fst s) !! i) as [e'|] eqn:E'; [|done].
  cbn in Hi. injection Hi as <-. apply Hs. by eapply elem_of_list_lookup_2.
Qed.

(** ** Extrusion *)
Context (bc1 bc2 : list string).
Hypothesis T1 : ∀ c, c ∈ bc1 → T (u3 c).
Hypothesis T2 : ∀ c, c ∈ bc2 → T (u3 c).
Lemma mT_extrude_elems n3 nz l : ∀ m m', foldM (extrude_end n3 nz bc1 bc2) m l = Ok m' → mT m → mT m'.
Proof using T1 T2.
  intros m m' E Hm. eapply (foldM_inv _ mT); [exact Hm| |exact E]. intros s [i b] s' _ Hs H. unfold extrude_end in H.
  destruct (bc1 !! b) as [c1|] eqn:E1; [|done]. destruct (bc2 !! b) as [c2|] eqn:E2; [|done]. injection H as <-.
  apply mT_alter; [|apply mT_alter; [|done]]; intros r _.
  - destruct (String.eqb c2 "P"); apply T2; by eapply elem_of_list_lookup_2.
  - destruct (String.eqb c1 "P"); apply T1; by eapply elem_of_list_lookup_2.
Qed.
Lemma extrude_elem_bcs' z1 z2 e2 e : bcs (extrude_elem z1 z2 e2 e) = bcs e.
Proof.
  unfold extrude_elem. assert (∀ l e', bcs (foldl (extrude_curv_edge z1 z2) e' l) = bcs e') as H.
  { induction l as [|c l IH]; intros e'; [done|]. cbn [foldl]. by rewrite IH. }
  rewrite H. done.
Qed.
Lemma mT_extrude m z m3 : extrude m z (Some bc1) (Some bc2) false = Ok m3 → mT m → mT m3.
Proof using T0 T1 T2.
  unfold extrude. cbn [default]. destruct (negb _); [done|]. destruct (negb _); [done|]. destruct (var m !! 0%nat); [|done].
  destruct (_ <? _)%nat; [done|]. destruct (one_sided_periodic _ _); [done|]. destruct (_ <? _)%nat; [done|].
  destruct (delete_internal_bcs m) as [[d nd]|] eqn:Ed; [|done]. cbn [rbind fst].
  destruct (extrude_copies m _) as [copies|] eqn:Ec; [|done]. cbn [rbind]. destruct (negb _); [done|].
  intros E Hm. apply (mT_extrude_elems _ _ _ _ _ E). clear E.
  set (m0 := Hexa _ _ _ _ _ _ _ _ _ _ _ _ _).
  assert (mT m0) as H0.
  { intros e. subst m0. cbn [elems]. rewrite elem_of_app. intros [He|He]; [by apply (mT_delete_weak _ _ _ Ed Hm)|].
    unfold extrude_copies in Ec. revert e He. eapply (foldM_inv _ (λ acc, ∀ e, e ∈ acc → eT e)); [..|exact Ec].
    - intros e He. by apply elem_of_nil in He.
    - intros acc k acc' _ Ha H. cbv beta in H. destruct (offset_connectivity _ _ m) as [ma|] eqn:Eo; [|done]. cbn [rbind] in H. injection H as <-.
      intros e. rewrite elem_of_app. intros [He|He]; [by apply Ha|]. by apply (mT_offset _ _ _ _ Eo Hm). }
  clearbody m0. clear Ec Ed. generalize (prod2 (range (length z - 1)) (range (nel m))). intros l. revert m0 H0.
  induction l as [|[k i] l IH]; intros m0 H0; [done|]. cbn [foldl]. apply IH. destruct (elems m !! i) as [e2|]; [|done].
  intros e He. cbn [elems set_elems] in He. apply elem_of_list_lookup in He as [j Hj].
  destruct (decide (j = i + nel m * k)%nat) as [->|Hne].
  - rewrite list_lookup_alter in Hj. destruct (elems m0 !! _) as [e0|] eqn:E0; [|done]. cbn in Hj. apply (inj Some) in Hj as <-.
    apply (eT_bcs e0); [apply extrude_elem_bcs'|]. apply H0. by eapply elem_of_list_lookup_2.
  - rewrite list_lookup_alter_ne in Hj by done. apply H0. by eapply elem_of_list_lookup_2.
Qed.

(** *** [extrude_mid] *)
Definition like e (l : list (elem N)) : Prop := Forall (λ e', bcs e' = bcs e) l.
Lemma put3_bcs i v e : bcs (put3 i v e) = bcs e.
Proof. by destruct v as [[? ?] ?]. Qed.
Lemma edge_mid_bcs e i v e' : edge_mid e i = Ok (v, e') → bcs e' = bcs e.
Proof.
  unfold edge_mid. destruct (of_opt _ _) as [row|]; [|done]. cbn [rbind]. destruct (of_opt _ _) as [t|]; [|done]. cbn [rbind].
  destruct row as [|? [|? [|? [|? [|? [|]]]]]]; try done. destruct (String.eqb t "m"); [intros H; by injection H as _ <-|].
  destruct (of_opt _ (edge_ends i)) as [[[[? ?] ?] [[? ?] ?]]|]; [|done]. cbn [rbind].
  destruct (of_opt _ _); [|done]. cbn [rbind]. destruct (of_opt _ _); [|done]. cbn [rbind].
  destruct (String.eqb t ""); [intros H; by injection H as _ <-|]. destruct (String.eqb t "C"); [intros H; injection H as _ <-; apply put3_bcs|]. by destruct (String.eqb t "s"); intros [= _ <-].
Qed.
Lemma edge_circle_bcs e i p v e' : edge_circle e i p = Ok (v, e') → bcs e' = bcs e.
Proof.
  unfold edge_circle. destruct (of_opt _ (edge_ends i)) as [[[[? ?] ?] [[? ?] ?]]|]; [|done]. cbn [rbind].
  destruct (of_opt _ _); [|done]. cbn [rbind]. destruct (of_opt _ _); [|done]. cbn [rbind]. destruct (circle _ _ _) as [? [[? ?] ?]].
  destruct (of_opt _ _); [|done]. cbn [rbind]. intros H; by injection H as _ <-.
Qed.
Lemma mid_cut_bcs s plo pmid phi z e e0 e1 e' e0' e1' : mid_cut s plo pmid phi z e e0 e1 = Ok (e', e0', e1') →
  bcs e' = bcs e ∧ bcs e0' = bcs e0 ∧ bcs e1' = bcs e1.
Proof.
  unfold mid_cut. destruct (_ && _); [by intros [= <- <- <-]|].
  destruct (edge_mid e _) as [[mhi ea]|] eqn:Ea; [|done]. cbn [rbind]. apply edge_mid_bcs in Ea.
  destruct (edge_mid ea _) as [[mlo eb]|] eqn:Eb; [|done]. cbn [rbind]. apply edge_mid_bcs in Eb. rewrite Ea in Eb.
  destruct plo as [|? [|? [|]]]; try done. destruct pmid as [|? [|? [|]]]; try done. destruct phi as [|? [|? [|]]]; try done. cbv zeta.
  destruct (String.eqb _ "m" || _); [intros [= <- <- <-]; by rewrite !put3_bcs|]. destruct (String.eqb _ "C" || _); [|by intros [= <- <- <-]].
  destruct (cut_mid _ _ _ _ _ _ _ _) as [[x y] w]. destruct (edge_circle e0 _ _) as [[new ec]|] eqn:Ec; [|done]. cbn [rbind].
  apply edge_circle_bcs in Ec. by destruct (neqb _ _); intros [= <- <- <-].
Qed.
Lemma mid_side_bcs e s lo md hi e0 e1 e0' e1' : mid_side e s lo md hi e0 e1 = Ok (e0', e1') → bcs e0' = bcs e0 ∧ bcs e1' = bcs e1.
Proof.
  unfold mid_side. destruct (String.eqb _ "m"); [destruct (half_mids _ _ _); by intros [= <- <-]|].
  destruct (String.eqb _ "C"); [|by intros [= <- <-]]. destruct (edge_mid e1 _) as [[? ea]|] eqn:Ea; [|done]. cbn [rbind].
  apply edge_mid_bcs in Ea. by intros [= <- <-].
Qed.
Lemma spread_like e l : like e l → like e (mid_spread l).
Proof.
  intros H. unfold mid_spread. destruct l as [|e0 [|e1 [|e2 [|e3 [|e4 [|e5 [|]]]]]]]; try done.
  unfold like in *. by rewrite !Forall_cons in H |- *.
Qed.
Lemma zs_like e s zz l ic : like e l → like e (mid_zs s zz l ic).
Proof.
  intros H. unfold mid_zs. destruct l as [|e0 [|e1 [|e2 [|e3 [|e4 [|e5 [|]]]]]]]; try done.
  unfold like in *. rewrite !Forall_cons in H. destruct H as (H0 & H1 & H2 & H3 & H4 & H5 & _). cbv zeta.
  destruct (if (ic =? s_hi s)%nat then _ else _) as [[top1|] [bot4|]]; rewrite !Forall_cons; split_and!; try done;
    match goal with |- bcs (if ?b then _ else _) = _ => by destruct b end.
Qed.
Lemma con_like e l x : like e l → like e (mid_con l x).
Proof.
  intros H. destruct x as [lat con]. unfold mid_con. destruct l as [|e0 [|e1 [|e2 [|e3 [|e4 [|e5 [|]]]]]]]; try done.
  unfold like in *. by rewrite !Forall_cons in H |- *.
Qed.
Lemma eT_alter g b f e : (∀ r, T (bt r) → T (bt (g r))) → eT e → eT (alter_ebc g b f e).
Proof.
  intros Hg H row r Hrow Hr. unfold alter_ebc, alter_bcs in Hrow. cbn [bcs set_bcs] in Hrow.
  apply elem_of_list_lookup in Hrow as [b' Hb']. destruct (decide (b' = b)) as [->|Hne].
  - rewrite list_lookup_alter in Hb'. destruct (bcs e !! b) as [row0|] eqn:E; [|done]. cbn in Hb'. apply (inj Some) in Hb' as <-.
    apply elem_of_list_lookup in Hr as [f' Hf']. assert (row0 ∈ bcs e) as Hin by (by eapply elem_of_list_lookup_2).
    destruct (decide (f' = f)) as [->|Hnf].
    + rewrite list_lookup_alter in Hf'. destruct (row0 !! f) as [r0|] eqn:E0; [|done]. cbn in Hf'. apply (inj Some) in Hf' as <-.
      apply Hg, (H row0); [done|by eapply elem_of_list_lookup_2].
    + rewrite list_lookup_alter_ne in Hf' by done. apply (H row0); [done|by eapply elem_of_list_lookup_2].
  - rewrite list_lookup_alter_ne in Hb' by done. apply (H row); [by eapply elem_of_list_lookup_2|done].
Qed.
Lemma mid_bcs_T n iel kk s l b : Forall eT l → Forall eT (mid_bcs false n iel kk s l b).
Proof.
  intros H. unfold mid_bcs. cbv zeta. apply Forall_lookup. intros j e Hj. rewrite list_lookup_imap in Hj.
  destruct (l !! j) as [e0|] eqn:E; [|done]. cbn in Hj. apply (inj Some) in Hj as <-.
  assert (∀ r, T (bt r) → T (bt (mid_ref (A:=A) n kk j r))) as Hr by (intros r; unfold mid_ref; by destruct (_ || _)).
  apply eT_alter; [done|]. apply eT_alter; [done|]. rewrite Forall_lookup in H. by eapply H.
Qed.
Lemma foldl_like {X} e (h : list (elem N) → X → list (elem N)) (xs : list X) l :
  (∀ l x, like e l → like e (h l x)) → like e l → like e (foldl h l xs).
Proof. intros Hh. revert l. induction xs as [|x xs IH]; intros l H; [done|]. cbn [foldl]. apply IH. by apply Hh. Qed.
Lemma fields_T n iel kk s l bs : Forall eT l → Forall eT (foldl (mid_bcs false n iel kk s) l bs).
Proof. revert l. induction bs as [|b bs IH]; intros l H; [done|]. cbn [foldl]. apply IH. by apply mid_bcs_T. Qed.
Lemma six_T n iel kk s zz l bs e : eT e → like e l →
  Forall eT (foldl (mid_bcs false n iel kk s) (foldl mid_con (foldl (mid_zs s zz) (mid_spread (mid_dup <$> l)) (range 4)) [(s_l0 s, s_c0 s); (s_l1 s, s_c1 s)]) bs).
Proof.
  intros He Hl. apply fields_T. assert (like e (foldl mid_con (foldl (mid_zs s zz) (mid_spread (mid_dup <$> l)) (range 4)) [(s_l0 s, s_c0 s); (s_l1 s, s_c1 s)])) as H.
  { apply foldl_like; [intros; by apply con_like|]. apply foldl_like; [intros; by apply zs_like|]. apply spread_like. unfold like. by apply Forall_fmap. }
  eapply Forall_impl; [exact H|]. cbv beta. intros x Hx. by apply (eT_bcs e).
Qed.
Lemma six_like lo hi plo pmid phi zz e : ∃ e0 e1 rest, mid_six lo hi plo pmid phi zz e = e0 :: e1 :: rest ∧ bcs e0 = bcs e ∧ bcs e1 = bcs e ∧ like e rest.
Proof. unfold mid_six. cbn [fmap list_fmap]. eexists _, _, _. split; [reflexivity|]. split; [done|]. split; [done|]. unfold like. rewrite !Forall_cons. by split_and!. Qed.
Lemma mid_block_T f n nb kk i zz e e' l : mid_block f false n nb kk i zz e = Ok (e', l) → eT e → eT e' ∧ Forall eT l.
Proof.
  unfold mid_block. destruct (negb _); [done|]. destruct (mid_split f e) as [[lo hi]|]; [|done]. cbn [rbind]. cbv zeta.
  destruct (mapR _ lo) as [plo|]; [|done]. cbn [rbind]. destruct (mapR _ hi) as [phi|]; [|done]. cbn [rbind].
  destruct (edge_mid e _) as [[m0 ea]|] eqn:Ea; [|done]. cbn [rbind]. apply edge_mid_bcs in Ea.
  destruct (edge_mid ea _) as [[m1 eb]|] eqn:Eb; [|done]. cbn [rbind]. apply edge_mid_bcs in Eb. rewrite Ea in Eb. clear Ea.
  destruct (existsb _ _); [done|]. destruct (six_like lo hi plo [m0; m1] phi zz e) as (e0 & e1 & rest & -> & R0 & R1 & R).
  destruct plo as [|l0 [|l1 [|]]]; try done. destruct phi as [|h0 [|h1 [|]]]; try done.
  destruct (mid_cut _ _ _ _ _ _ _ _) as [[[ec c0] c1]|] eqn:Ec; [|done]. cbn [rbind]. apply mid_cut_bcs in Ec as (B & B0 & B1).
  destruct (mid_side _ _ _ _ _ c0 c1) as [[d0 d1]|] eqn:Ed; [|done]. cbn [rbind]. apply mid_side_bcs in Ed as [D0 D1].
  destruct (mid_side _ _ _ _ _ d0 d1) as [[g0 g1]|] eqn:Eg; [|done]. cbn [rbind]. apply mid_side_bcs in Eg as [G0 G1].
  rewrite D0, B0, R0 in G0. rewrite D1, B1, R1 in G1. rewrite Eb in B. clear D0 D1 B0 B1 R0 R1 Eb.
  assert (like e (g0 :: g1 :: rest)) as HL by (unfold like; rewrite !Forall_cons; done).
  revert HL. generalize (g0 :: g1 :: rest). intros l' HL H He. assert (eT ec) as Hec by exact (eT_bcs e ec B He).
  pose proof (six_T n (6 * (i + n * kk)) kk (mid_sides lo hi) zz l' (range nb) e He HL) as H6. clear - H H6 Hec.
  revert H H6. match goal with |- Ok (_, ?x) = _ → Forall eT ?x → _ => generalize x end. intros x H Hx. injection H as <- <-. done.
Qed.
Lemma mT_mid m z f m' m3 : extrude_mid m z bc1 bc2 f false = Ok (m', m3) → mT m → mT m3.
Proof using T0 T1 T2.
  unfold extrude_mid. destruct (negb _); [done|]. destruct (negb _); [done|]. destruct (of_opt _ _); [|done]. cbn [rbind].
  destruct (_ <? _)%nat; [done|]. destruct (one_sided_periodic _ _); [done|]. cbv zeta. destruct (_ || _); [done|]. destruct (negb _); [done|].
  destruct (mid_copies m _) as [mc|]; [|done]. cbn [rbind].
  destruct (foldM _ (elems m, []) _) as [[es new]|] eqn:Ef; [|done]. cbn [rbind].
  destruct (foldM (mid_end _ _ _ _) _ _) as [mf|] eqn:Ee; [|done]. cbn [rbind]. intros H Hm. injection H as _ <-.
  apply (mT_elems mf); [done|]. eapply (foldM_inv _ mT); [..|exact Ee]; clear Ee.
  - intros e He. cbn [elems] in He. revert e He.
    assert (Forall eT es ∧ Forall eT new) as [_ Hn]; [|intros e He; by rewrite Forall_forall in Hn; apply Hn].
    change (Forall eT (es, new).1 ∧ Forall eT (es, new).2).
    eapply (foldM_inv _ (λ s, Forall eT s.1 ∧ Forall eT s.2)); [..|exact Ef].
    + cbn [fst snd]. split; [by apply Forall_forall|constructor].
    + intros [es0 acc] kk s' _ [I1 I2] H. cbn [fst snd] in *. cbv zeta in H. destruct (mapR _ _) as [l|] eqn:El; [|done]. cbn [rbind] in H. injection H as <-. cbn [fst snd].
      apply mapR_Ok in El. assert (∀ x, x ∈ l → eT (fst x) ∧ Forall eT (snd x)) as Hl.
      { intros [x1 x2] Hx. apply elem_of_list_lookup in Hx as [p Hp]. destruct (Forall2_lookup_r _ _ _ _ _ El Hp) as ([i e0] & Hi & Hb). cbn [fst snd] in *.
        apply (mid_block_T _ _ _ _ _ _ _ _ _ Hb). rewrite Forall_forall in I1. apply I1.
        unfold enumerate in Hi. rewrite list_lookup_imap in Hi. destruct (es0 !! p) as [e1|] eqn:E1; [|done]. cbn in Hi. injection Hi as _ <-. by eapply elem_of_list_lookup_2. }
      split; [|rewrite Forall_app; split; [done|]].
      * apply Forall_fmap, Forall_forall. intros x Hx. by apply Hl.
      * apply Forall_concat, Forall_fmap, Forall_forall. intros x Hx. by apply Hl.
  - intros s [ii b] s' _ Hs H. unfold mid_end in H. cbv zeta in H.
    destruct (bc1 !! b) as [c1|] eqn:E1; [|done]. destruct (bc2 !! b) as [c2|] eqn:E2; [|done]. injection H as <-.
    assert (T (u3 c1)) as Q1 by (apply T1; by eapply elem_of_list_lookup_2). assert (T (u3 c2)) as Q2 by (apply T2; by eapply elem_of_list_lookup_2).
    repeat (apply mT_alter; [intros r _; by destruct (String.eqb _ "P")|]). done.
Qed.

(** *** [extrude_refine] *)
Lemma mT_refine m z obc1 obc2 (Fs : list (N → N → P → N)) (ofunpar : option (list P)) h m3 :
  wf_bcs m → default (replicate (nbc m) "P"%string) obc1 = bc1 → default (replicate (nbc m) "P"%string) obc2 = bc2 →
  (∀ i b f r, get_bc m i b f = Some r → bt r ≠ "E"%string → T (bt r)) →
  extrude_refine m z obc1 obc2 (Some Fs) ofunpar h false = Ok m3 → mT m3.
Proof using T0 T1 T2.
  intros Hw E1 E2 Hm. unfold extrude_refine. rewrite E1, E2. cbv zeta. destruct (negb _); [done|]. destruct (negb _); [done|].
  destruct (of_opt _ _); [|done]. cbn [rbind]. destruct (_ <? _)%nat; [done|]. destruct (one_sided_periodic _ _); [done|].
  destruct (match ofunpar with Some l => _ | None => false end); [done|]. destruct (_ || _); [done|].
  destruct (delete_internal_bcs m) as [[d nd]|] eqn:Ed; [|done]. cbn [rbind fst]. pose proof (mT_delete m d nd Hw Ed Hm) as Hd.
  destruct (foldM _ ([], d) _) as [[prs ext]|] eqn:Ef; [|done]. cbn [rbind].
  assert ((∀ p, p ∈ prs → mT (fst p) ∧ mT (snd p)) ∧ mT ext) as [Hp Hx].
  { change ((∀ p, p ∈ (prs, ext).1 → mT (fst p) ∧ mT (snd p)) ∧ mT (prs, ext).2). eapply (foldM_inv _ (λ s, (∀ p, p ∈ s.1 → mT (fst p) ∧ mT (snd p)) ∧ mT s.2)); [..|exact Ef].
    - split; [|done]. intros p Hp. by apply elem_of_nil in Hp.
    - intros [ps0 x0] [k fn] s' _ [I1 I2] H. cbn [fst snd] in *. unfold refine_split in H. destruct (mapR _ _) as [cs|]; [|done]. cbn [rbind] in H. cbv zeta in H.
      destruct (keep_elements x0 _ _) as [ki|] eqn:K1; [|done]. cbn [rbind] in H.
      destruct (keep_elements x0 (List.filter (λ i, _ =? 1)%nat _) _) as [km|] eqn:K2; [|done]. cbn [rbind] in H.
      destruct (keep_elements x0 (List.filter (λ i, _ =? 2)%nat _) _) as [kx|] eqn:K3; [|done]. cbn [rbind] in H. injection H as <-. cbn [fst snd].
      split; [|by apply (mT_keep _ _ _ K3)]. intros p. rewrite elem_of_app, elem_of_list_singleton. intros [Hp| ->]; [by apply I1|]. cbn [fst snd].
      split; [by apply (mT_keep _ _ _ K1)|by apply (mT_keep _ _ _ K2)]. }
  clear Ef. destruct (update_ncurv ext) as [ext'|] eqn:Eu; [|done]. cbn [rbind]. pose proof (mT_ncurv _ _ Eu Hx) as Hx'.
  destruct (mapR _ prs) as [prs'|] eqn:Ep; [|done]. cbn [rbind].
  assert (∀ p, p ∈ prs' → mT (fst p) ∧ mT (snd p)) as Hp'.
  { apply mapR_Ok in Ep. intros p Hin. apply elem_of_list_lookup in Hin as [j Hj]. destruct (Forall2_lookup_r _ _ _ _ _ Ep Hj) as (q & Hq & Hb).
    destruct (Hp q) as [Q1 Q2]; [by eapply elem_of_list_lookup_2|]. destruct (update_ncurv (fst q)) as [qa|] eqn:Ea; [|done]. cbn [rbind] in Hb.
    destruct (update_ncurv (snd q)) as [qb|] eqn:Eb; [|done]. cbn [rbind] in Hb. injection Hb as <-. cbn [fst snd].
    split; [by apply (mT_ncurv _ _ Ea)|by apply (mT_ncurv _ _ Eb)]. }
  destruct (mapR _ (zip _ prs')) as [p3|] eqn:E3; [|done]. cbn [rbind].
  assert (∀ p, p ∈ p3 → mT (fst p) ∧ mT (snd p)) as H3.
  { apply mapR_Ok in E3. intros p Hin. apply elem_of_list_lookup in Hin as [j Hj]. destruct (Forall2_lookup_r _ _ _ _ _ E3 Hj) as ([[k fn] [pa pb]] & Hq & Hb).
    apply elem_of_list_lookup_2, elem_of_zip_r in Hq. destruct (Hp' _ Hq) as [Q1 Q2]. cbn [fst snd] in Q1, Q2. unfold refine_extrude in Hb. cbv zeta in Hb.
    destruct (negb _); [done|]. destruct (extrude pa _ _ _ _) as [i3|] eqn:X1; [|done]. cbn [rbind] in Hb. destruct (refine_par _ _); [|done]. cbn [rbind] in Hb.
    destruct (extrude_mid pb _ _ _ _ _) as [[b' m3']|] eqn:X2; [|done]. cbn [rbind] in Hb. injection Hb as <-. cbn [fst snd].
    split; [by apply (mT_extrude _ _ _ X1)|by apply (mT_mid _ _ _ _ _ X2)]. }
  destruct (extrude ext' _ _ _ _) as [x3|] eqn:X3; [|done]. cbn [rbind]. pose proof (mT_extrude _ _ _ X3 Hx') as Hx3.
  destruct (foldM (refine_merge false) x3 _) as [mf|] eqn:Em; [|done]. cbn [rbind]. intros Hu. apply (mT_ncurv _ _ Hu).
  eapply (foldM_inv _ mT); [exact Hx3| |exact Em]. intros s p s' Hin Hs H. apply elem_of_list_bind in Hin as (q & Hq & Hqin).
  destruct (H3 q Hqin) as [Q1 Q2]. unfold refine_merge in H. destruct (merge _ _ _ _ _) as [s1 [n1|]] eqn:E; [|done]. cbn [rbind] in H. injection H as <-.
  apply (mT_merge _ _ _ _ _ _ E); [done|]. rewrite !elem_of_cons, elem_of_nil in Hq. destruct Hq as [->|[->|[]]]; done.
Qed.
End quiet.
