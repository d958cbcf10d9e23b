(** Proofs about the edges of [extrude_mid]: one block, then the whole mesh. *)
From Coq Require Import Lia.
From Verif Require Import Base Mesh Core Tools Curve Mid MeshLemmas MeshSpec CheckProofs OpsProofs GeoLaws BoxProofs
  ExtrudeSpec ExtrudeProofs MidSpec MidProofs MidBlock MidMesh MidEdgeSpec MidEdge.
Open Scope Z_scope.

Section mesh.
Context {A : arith}.
Notation N := (num A).
Implicit Types (e : elem N) (m : hexa N).

Lemma edge_mid_plain e n : rows_ok e → four_points e → (n < 4)%nat → plain_edge e n → edge_mid e n = Ok (middle_of e n, e).
Proof.
  intros Hr H4 Hn Hp. destruct (edge_mid_side e n Hr H4 Hn) as (v & e' & E & (_ & _ & _ & _ & T)).
  unfold middle_of. rewrite E. rewrite T; [done|]. by destruct Hp as [->| ->].
Qed.
Lemma corner_same e j i : corner e (j, i) = corner_of e j i.
Proof. unfold corner, corner_of. cbn [fst snd]. by destruct (point e 0 j i). Qed.
Lemma cut_six lo hi (plo pmid phi : list (vec (A:=A))) zz e : ∃ P0 P1 P2 P3 P4 P5, mid_six lo hi plo pmid phi zz e =
  [set_pos3 P0 e; set_pos3 P1 e; set_pos3 P2 e; set_pos3 P3 e; set_pos3 P4 e; set_pos3 P5 e].
Proof. unfold mid_six. cbn [fmap list_fmap]. do 6 eexists. reflexivity. Qed.

Lemma block_edges f ib nel2d nb kk i zz e : four_points e → rows_ok e → cut_across f e → plain_sides e →
  ∃ l, mid_block f ib nel2d nb kk i zz e = Ok (e, l) ∧ table l = wanted (cut_of f e) zz.
Proof.
  intros H4 Hr Hc [Hp Hv]. pose proof (λ n H, edge_mid_plain e n Hr H4 H (Hp n H)) as Hm.
  destruct (cut_orient f e Hc) as (lo & hi & Ho & Hin & Hlow).
  assert (∀ c, c ∈ lo ∨ c ∈ hi → (fst c < 2 ∧ snd c < 2)%nat) as Hcc.
  { apply (splits_sound lo hi (orient_splits f e lo hi Ho)). }
  destruct (steps_table zz e (corner_of e 0 0) (corner_of e 0 1) (corner_of e 1 0) (corner_of e 1 1) (middle_of e 0) (middle_of e 1) (middle_of e 2) (middle_of e 3)
    [] [] [] [] [] [] (low f e 0 0) (low f e 0 1) (low f e 1 0) (low f e 1 1) lo hi) as (l0 & l1 & h0 & h1 & El & Eh & _); try (by apply Hm; lia).
  { destruct Hc as [(? & ? & ?)|(? & ? & ?)]; [left|right]; done. }
  { unfold orient in Ho. destruct Hc as [(? & ? & ?)|(? & ? & ?)]; destruct (low f e 0 0), (low f e 1 0), (low f e 0 1), (low f e 1 1); try done; by injection Ho as <- <-. }
  { done. } { done. } { done. }
  set (s := mid_sides lo hi) in *.
  set (u := pick_side (middle_of e 0) (middle_of e 1) (middle_of e 2) (middle_of e 3)).
  assert (∀ n, (n < 4)%nat → u n = middle_of e n) as Hu. { intros n Hn. unfold u. destruct n as [|[|[|[|]]]]; try done. lia. }
  destruct (splits_sound lo hi (orient_splits f e lo hi Ho)) as ([(_ & _ & B3 & B4) _] & _). fold s in B3, B4.
  assert (∀ c, c ∈ lo ∨ c ∈ hi → corner e c = pick4 (corner_of e 0 0) (corner_of e 0 1) (corner_of e 1 0) (corner_of e 1 1) (fst c) (snd c)) as Hcor.
  { intros [j k] Hjk. destruct (Hcc _ Hjk) as [Hj Hk]. cbn [fst snd] in *. rewrite corner_same. destruct j as [|[|]]; [| |lia]; destruct k as [|[|]]; try lia; done. }
  assert (corner e <$> lo = [l0; l1]) as El'. { rewrite <- El. apply list_fmap_ext. intros k c Hci%elem_of_list_lookup_2. apply Hcor. by left. }
  assert (corner e <$> hi = [h0; h1]) as Eh'. { rewrite <- Eh. apply list_fmap_ext. intros k c Hci%elem_of_list_lookup_2. apply Hcor. by right. }
  destruct (cut_six lo hi [l0; l1] [u (s_l0 s); u (s_l1 s)] [h0; h1] zz e) as (P0 & P1 & P2 & P3 & P4 & P5 & E6).
  destruct (steps_table zz e (corner_of e 0 0) (corner_of e 0 1) (corner_of e 1 0) (corner_of e 1 1) (middle_of e 0) (middle_of e 1) (middle_of e 2) (middle_of e 3)
    P0 P1 P2 P3 P4 P5 (low f e 0 0) (low f e 0 1) (low f e 1 0) (low f e 1 1) lo hi) as (l0' & l1' & h0' & h1' & El2 & Eh2 & l & Es & Et); try (by apply Hm; lia).
  { destruct Hc as [(? & ? & ?)|(? & ? & ?)]; [left|right]; done. }
  { unfold orient in Ho. destruct Hc as [(? & ? & ?)|(? & ? & ?)]; destruct (low f e 0 0), (low f e 1 0), (low f e 0 1), (low f e 1 1); try done; by injection Ho as <- <-. }
  { done. } { done. } { done. }
  rewrite El in El2. injection El2 as <- <-. rewrite Eh in Eh2. injection Eh2 as <- <-.
  fold s u in Es. fold (cut_of f e) in Et.
  unfold mid_block. pose proof Hr as (Hr1 & Hr2 & Hr3). rewrite Hr1, Hr2. cbn [Nat.eqb andb negb].
  rewrite (mid_split_eq f e H4), Ho. cbn [of_opt rbind]. fold s.
  rewrite (corners_ok e lo H4) by auto. cbn [rbind]. rewrite (corners_ok e hi H4) by auto. cbn [rbind].
  rewrite (Hm _ B3). cbn [rbind]. rewrite (Hm _ B4). cbn [rbind].
  assert (existsb (λ ic, String.eqb (ctype e ic) "s") (range 4) = false) as ->.
  { apply not_true_iff_false. intros H. apply existsb_exists in H as (ic & Hic & H). apply String.eqb_eq in H.
    apply elem_of_list_In, elem_of_range in Hic. unfold ctype in H.
    destruct (Hp ic Hic) as [Et'|Et']; rewrite (nth_lookup_Some _ _ _ _ Et') in H; done. }
  rewrite El', Eh', <- (Hu (s_l0 s)), <- (Hu (s_l1 s)) by done.
  match goal with |- context [mid_six ?a ?b ?c ?d ?g ?h ?k] => rewrite (E6 : mid_six a b c d g h k = _) end.
  unfold edge_steps in Es. unfold vec in *. unfold u. clearbody s.
  match type of Es with context [mid_cut ?a ?b ?c ?d ?g ?h ?k ?l] => destruct (mid_cut a b c d g h k l) as [[[e1 ea] eb]|]; [|done] end. cbn [rbind] in Es |- *.
  match type of Es with context [mid_side ?a ?b ?c ?d ?g ea eb] => destruct (mid_side a b c d g ea eb) as [[ea1 eb1]|]; [|done] end. cbn [rbind] in Es |- *.
  match type of Es with context [mid_side ?a ?b ?c ?d ?g ea1 eb1] => destruct (mid_side a b c d g ea1 eb1) as [[ea2 eb2]|]; [|done] end. cbn [rbind] in Es |- *.
  assert (∀ (a b : elem N) (x y : list (elem N)), Ok (a, x) = Ok (b, y) → a = b ∧ x = y) as Hok. { intros a b x y H. injection H as -> ->. done. }
  apply Hok in Es as [-> Es].
  eexists. split; [reflexivity|]. rewrite (table_strip _ _ (mid_bcs_shape _ _ _ _ _ _ _)). rewrite Es. done.
Qed.

(** The elements of the result, whatever they are. *)
Lemma ends_strip n n3 bc1 bc2 m l m' : foldM (mid_end n n3 bc1 bc2) m l = Ok m' → strip m' = strip m.
Proof.
  apply (foldM_inv _ (λ x, strip x = strip m)); [done|]. intros x [i b] y _ Hx. unfold mid_end.
  destruct (bc1 !! b); [|done]. destruct (bc2 !! b); [|done]. intros H. assert (∀ a c : hexa N, Ok a = Ok c → a = c) as Hok by (by intros a c [=]).
  apply Hok in H as <-. by rewrite !strip_alter.
Qed.
Lemma result_elems m z bc1 bc2 f ib m' m3 q : length z = (4 * q + 1)%nat → extrude_mid m z bc1 bc2 f ib = Ok (m', m3) →
  ∃ es new, foldM (mid_step f ib (nel m) (nbc m) z) (elems m, []) (range q) = Ok (es, new) ∧ length (elems m) = nel m ∧
    ∀ p x, new !! p = Some x → ∃ y, elems m3 !! p = Some y ∧ strip_elem y = strip_elem x.
Proof.
  intros Hz. unfold extrude_mid. destruct (negb _); [done|]. destruct (negb _); [done|]. destruct (of_opt _ _) as [v0|]; [|done]. cbn [rbind].
  destruct (v0 <? 2)%nat; [done|]. destruct (one_sided_periodic _ _); [done|]. cbv zeta.
  assert ((length z - 1) = q * 4)%nat as -> by lia. rewrite Nat.mod_mul, Nat.div_mul by lia.
  destruct (_ || _ || _)%bool; [done|]. destruct (Nat.eqb_spec (length (elems m)) (nel m)) as [Hl|]; [|done]. cbn [negb].
  destruct (mid_copies m (6 * q)) as [mc|]; [|done]. cbn [rbind].
  change (foldM _ (elems m, []) (range q)) with (foldM (mid_step f ib (nel m) (nbc m) z) (elems m, []) (range q)).
  destruct (foldM (mid_step f ib (nel m) (nbc m) z) (elems m, []) (range q)) as [[es new]|]; [|done]. cbn [rbind].
  set (m0 := Hexa _ _ _ _ _ _ _ _ _ _ _ _ _). destruct (foldM (mid_end _ _ _ _) _ _) as [m4|] eqn:E; [|done]. cbn [rbind]. intros H.
  assert (∀ (a b c d : hexa N), Ok (a, b) = Ok (c, d) → b = d) as Hok. { intros a b c d H'. by injection H'. }
  apply Hok in H as <-. exists es, new. split; [done|]. split; [done|]. intros p x Hx. apply ends_strip in E.
  destruct (strip_elem_lookup m0 m4 p x (eq_sym E) Hx) as (y & Hy & Hs). exists y. by split.
Qed.

Lemma layers_edges f ib nb z (es0 : list (elem N)) q es new : (∀ e, e ∈ es0 → four_points e ∧ rows_ok e ∧ cut_across f e ∧ plain_sides e) →
  foldM (mid_step f ib (length es0) nb z) (es0, []) (range q) = Ok (es, new) →
  es = es0 ∧ length new = (6 * length es0 * q)%nat ∧
    ∀ k i e, (k < q)%nat → es0 !! i = Some e → ∃ l, table l = wanted (cut_of f e) (zk z k) ∧
      ∀ j, (j < 6)%nat → new !! sixth (length es0) k i j = l !! j.
Proof.
  intros H. revert es new. induction q as [|q IH]; intros es new.
  { intros Hx. assert (es = es0 ∧ new = []) as [-> ->]. { injection Hx as <- <-. done. } split; [done|]. split; [cbn; lia|intros; lia]. }
  unfold range. rewrite seq_S, foldM_app. change (seq 0 q) with (range q).
  destruct (foldM (mid_step f ib (length es0) nb z) (es0, []) (range q)) as [[es1 new1]|]; [|done]. cbn [rbind foldM]. rewrite Nat.add_0_l.
  destruct (IH es1 new1 eq_refl) as (-> & Hlen & Hb). unfold mid_step at 1. cbv zeta.
  destruct (mapR _ (enumerate es0)) as [l|] eqn:El; [|done]. cbn [rbind]. intros Hx.
  assert (es = fst <$> l ∧ new = new1 ++ concat (snd <$> l)) as [-> ->]. { injection Hx as <- <-. done. } clear Hx.
  apply mapR_Ok in El. assert (length l = length es0) as Ll. { rewrite <- (Forall2_length _ _ _ El). unfold enumerate. by rewrite imap_length. }
  assert (∀ i e, es0 !! i = Some e → ∃ b, l !! i = Some (e, b) ∧ table b = wanted (cut_of f e) (zk z q)) as Hl.
  { intros i e He. destruct (H e) as (W1 & W2 & W3 & W4); [by eapply elem_of_list_lookup_2|].
    assert (enumerate es0 !! i = Some (i, e)) as Hx by (unfold enumerate; by rewrite list_lookup_imap, He).
    destruct (Forall2_lookup_l _ _ _ _ _ El Hx) as (y & Hy & Ey). cbn [fst snd] in Ey.
    destruct (block_edges f ib (length es0) nb q i (zk z q) e W1 W2 W3 W4) as (b & Eb & Tb). exists b. split; [|done].
    rewrite Hy. f_equal. assert (∀ a c : elem N * list (elem N), Ok a = Ok c → a = c) as Hok by (by intros a c [=]). apply Hok. rewrite <- Eb. symmetry. exact Ey. }
  assert (∀ x, x ∈ snd <$> l → length x = 6%nat) as H6.
  { intros x Hx. apply elem_of_list_fmap in Hx as ([e' b] & -> & Hx). apply elem_of_list_lookup in Hx as [i Hx].
    destruct (lookup_lt_is_Some_2 es0 i) as [e He]; [rewrite <- Ll; by apply lookup_lt_Some in Hx|].
    destruct (Hl i e He) as (b' & E' & Hbl). rewrite Hx in E'. apply (inj Some) in E'. cbn [snd]. apply (f_equal snd) in E'. cbn [snd] in E'. subst b'.
    apply (f_equal length) in Hbl. unfold table, wanted in Hbl. rewrite !fmap_length in Hbl. rewrite Hbl. done. }
  split; [|split].
  - apply list_eq. intros i. rewrite list_lookup_fmap. destruct (es0 !! i) as [e|] eqn:He.
    + destruct (Hl i e He) as (b & -> & _). done.
    + rewrite lookup_ge_None_2; [done|]. rewrite Ll. by apply lookup_ge_None.
  - rewrite app_length, Hlen, (concat_length 6) by done. rewrite fmap_length, Ll. lia.
  - intros k i e Hk He. assert (i < length es0)%nat as Hi by (by eapply lookup_lt_Some). destruct (decide (k = q)) as [->|Hkq].
    + destruct (Hl i e He) as (b & E' & Tb). exists b. split; [done|]. intros j Hj. unfold sixth. rewrite lookup_app_r by (rewrite Hlen; nia). rewrite Hlen.
      replace (6 * (i + length es0 * q) + j - 6 * length es0 * q)%nat with (6 * i + j)%nat by nia.
      rewrite (concat_lookup 6) by done. by rewrite list_lookup_fmap, E'.
    + destruct (Hb k i e ltac:(lia) He) as (b & Hbl & Hnew). exists b. split; [done|]. intros j Hj.
      rewrite lookup_app_l; [by apply Hnew|]. rewrite Hlen. apply sixth_lt; [done|lia|done].
Qed.

Lemma mesh_edges m z bc1 bc2 f ib m' m3 q : length z = (4 * q + 1)%nat →
  (∀ e, e ∈ elems m → four_points e ∧ rows_ok e ∧ cut_across f e ∧ plain_sides e) →
  extrude_mid m z bc1 bc2 f ib = Ok (m', m3) → ∀ k i e j c, (k < q)%nat → elems m !! i = Some e → (j < 6)%nat → (c < 12)%nat →
    ∃ x, elems m3 !! sixth (nel m) k i j = Some x ∧ ccurv x !! c = Some (type_of (expected (cut_of f e) (zk z k) j c)) ∧ edge_middle x c = expected (cut_of f e) (zk z k) j c.
Proof.
  intros Hz He Ex k i e j c Hk Hi Hj Hc. destruct (result_elems m z bc1 bc2 f ib m' m3 q Hz Ex) as (es & new & Ef & Hlen & Hm3).
  rewrite <- Hlen in Ef. destruct (layers_edges f ib (nbc m) z (elems m) q es new He Ef) as (_ & _ & Hb). rewrite Hlen in Hb.
  destruct (Hb k i e Hk Hi) as (l & Tl & Hn). destruct (table_get l _ _ j c Tl Hj Hc) as (x & Hx & Px & Mx).
  destruct (Hm3 (sixth (nel m) k i j) x) as (y & Hy & Hs); [by rewrite Hn|]. exists y. split; [done|].
  unfold strip_elem, set_bcs in Hs. assert (ccurv y = ccurv x ∧ curv y = curv x) as [E1 E2] by (split; [exact (f_equal ccurv Hs)|exact (f_equal curv Hs)]).
  unfold edge_middle in *. by rewrite E1, E2.
Qed.
End mesh.
