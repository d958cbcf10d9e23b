(** Proofs about extrude. *)
From Verif Require Import Base Mesh Core Tools MeshLemmas MeshSpec CheckProofs OpsProofs GeoLaws
  BoxProofs ExtrudeSpec.
From Coq Require Import Lia.

Section Extrude.
Context {A : arith}.
Notation N := (num A).
Implicit Types (e : elem N) (m : hexa N) (r : bcrec N).

(** ** Stacking lists *)
Lemma stack_lookup {X} (lay : nat → list X) n nz k i :
  (∀ k, (k < nz)%nat → length (lay k) = n) → (k < nz)%nat → (i < n)%nat →
  (range nz ≫= lay) !! (i + n * k)%nat = lay k !! i.
Proof.
  revert lay k. induction nz as [|nz IH]; intros lay k Hlen Hk Hi; [lia|].
  unfold range. cbn [seq]. rewrite bind_cons.
  assert (length (lay 0%nat) = n) as H0 by (apply Hlen; lia).
  destruct k as [|k].
  - replace (i + n * 0)%nat with i by lia. rewrite lookup_app_l by lia. done.
  - rewrite lookup_app_r by lia.
    replace (i + n * S k - length (lay 0%nat))%nat with (i + n * k)%nat by lia.
    rewrite <- fmap_S_seq, list_fmap_bind. change (seq 0 nz) with (range nz).
    apply (IH (lay ∘ S)); [|lia|lia]. intros; apply Hlen; lia.
Qed.
Lemma stack_length {X} (lay : nat → list X) n nz :
  (∀ k, (k < nz)%nat → length (lay k) = n) → length (range nz ≫= lay) = (n * nz)%nat.
Proof.
  revert lay. induction nz as [|nz IH]; intros lay Hlen; [cbn; lia|].
  unfold range. cbn [seq]. rewrite bind_cons, app_length, Hlen by lia.
  rewrite <- fmap_S_seq, list_fmap_bind. change (seq 0 nz) with (range nz).
  rewrite (IH (lay ∘ S)); [lia|]. intros; apply Hlen; lia.
Qed.

(** ** The layers before the connectivity is completed *)
Section Layers.
Context (bnd : Z) (LA : arith_laws A bnd) (m : hexa N) (nz : nat).
Hypothesis Hw : wf_bcs m.
Hypothesis Hrefs : ∀ k, (k < nz)%nat → refs_within bnd (Z.of_nat (k * nel m)) 0 m.

Definition is_layer (first : hexa N) (k : nat) (l : hexa N) : Prop :=
  if decide (k = 0%nat) then l = first else offset_connectivity (Z.of_nat (k * nel m)) 0 m = Ok l.

Lemma layers_exist first : wf_bcs first → elems first = elems first →
  ∃ lay : nat → hexa N, ∀ k, (k < nz)%nat → is_layer first k (lay k).
Proof.
  intros _ _.
  exists (λ k, if decide (k = 0%nat) then first else
     match offset_connectivity (Z.of_nat (k * nel m)) 0 m with Ok l => l | Raise _ => first end).
  intros k Hk. unfold is_layer. destruct (decide (k = 0%nat)); [done|].
  destruct (offset_connectivity_spec bnd _ 0 m LA Hw (Hrefs k Hk)) as (m' & -> & _). done.
Qed.

Lemma copies_eq first lay : (∀ k, (k < nz)%nat → is_layer first k (lay k)) → (1 ≤ nz)%nat →
  ∃ c, extrude_copies m nz = Ok c ∧ elems first ++ c = range nz ≫= (λ k, elems (lay k)).
Proof.
  intros Hlay Hnz. exists (range (nz - 1) ≫= (λ k, elems (lay (S k)))).
  assert (∀ n acc, (n ≤ nz - 1)%nat →
    foldM (λ acc k, let! ma := offset_connectivity (Z.of_nat ((k + 1) * nel m)) 0 m in
                  Ok (acc ++ elems ma)) acc (range n)
    = Ok (acc ++ (range n ≫= (λ k, elems (lay (S k)))))) as H.
  { induction n as [|n IH]; intros acc Hn; [cbn; by rewrite app_nil_r|].
    unfold range. rewrite seq_S, foldM_app. change (seq 0 n) with (range n).
    rewrite IH by lia. cbn [rbind foldM]. rewrite Nat.add_0_l.
    specialize (Hlay (S n) ltac:(lia)). unfold is_layer in Hlay. cbn [decide] in Hlay.
    rewrite decide_False in Hlay by lia.
    replace (n + 1)%nat with (S n) by lia. rewrite Hlay. cbn [rbind].
    rewrite bind_app. cbn. rewrite app_nil_r, app_assoc. done. }
  split.
  - unfold extrude_copies. rewrite H by lia. done.
  - destruct nz as [|n]; [lia|]. replace (S n - 1)%nat with n by lia.
    assert (range (S n) = 0%nat :: (S <$> range n)) as ->.
    { unfold range. cbn [seq]. by rewrite fmap_S_seq. }
    rewrite bind_cons, list_fmap_bind.
    specialize (Hlay 0%nat ltac:(lia)). unfold is_layer in Hlay. rewrite decide_True in Hlay by done.
    rewrite Hlay. done.
Qed.
End Layers.

(** ** The loops after stacking *)
Definition geo_step (els : list (elem N)) (z : list N) (n : nat) m3 (x : nat * nat) : hexa N :=
  let '(k, i) := x in
  match els !! i with
  | None => m3
  | Some e2 => set_elems (alter (extrude_elem (nth k z (nofZ 0)) (nth (k + 1) z (nofZ 0)) e2)
                            (i + n * k)%nat (elems m3)) m3
  end.
Lemma geo_get els z n nz m3 k0 i0 e2 : (k0 < nz)%nat → (i0 < n)%nat → els !! i0 = Some e2 →
  elems (foldl (geo_step els z n) m3 (prod2 (range nz) (range n))) !! (i0 + n * k0)%nat =
  extrude_elem (nth k0 z (nofZ 0)) (nth (k0 + 1) z (nofZ 0)) e2 <$> elems m3 !! (i0 + n * k0)%nat.
Proof.
  intros Hk Hi He.
  apply (foldl_view_in (geo_step els z n) (λ m, elems m !! (i0 + n * k0)%nat)
    (fmap (extrude_elem (nth k0 z (nofZ 0)) (nth (k0 + 1) z (nofZ 0)) e2)) (λ _, True) _ m3 (k0, i0)).
  - apply NoDup_prod2; apply NoDup_range.
  - apply elem_of_prod2. by rewrite !elem_of_range.
  - done.
  - done.
  - intros m' [k i] _ Hin Hne. apply elem_of_prod2 in Hin as [_ Hin]. apply elem_of_range in Hin.
    unfold geo_step. destruct (els !! i); [|done]. cbn. rewrite list_lookup_alter_ne; [done|].
    intros Heq. apply (elnum_inj n i k i0 k0) in Heq as [-> ->]; done.
  - intros m' _. unfold geo_step. rewrite He. cbn. by rewrite list_lookup_alter.
Qed.
Lemma extrude_elem_bcs z1 z2 e2 e : bcs (extrude_elem z1 z2 e2 e) = bcs e.
Proof.
  unfold extrude_elem. apply (foldl_inv _ (λ e', bcs e' = bcs e)); [done|].
  intros e' c _ H. exact H.
Qed.
Lemma geo_rest els z n l m3 :
  set_elems [] (foldl (geo_step els z n) m3 l) = set_elems [] m3 ∧
  length (elems (foldl (geo_step els z n) m3 l)) = length (elems m3) ∧
  bcs <$> elems (foldl (geo_step els z n) m3 l) = bcs <$> elems m3.
Proof.
  apply (foldl_inv _ (λ m', set_elems [] m' = set_elems [] m3 ∧ length (elems m') = length (elems m3)
     ∧ bcs <$> elems m' = bcs <$> elems m3)).
  - done.
  - intros m' [k i] _ (H1 & H2 & H3). unfold geo_step. destruct (els !! i); [|done].
    split; [exact H1|]. cbn. rewrite alter_length. split; [done|].
    rewrite (list_alter_fmap _ _ id); [by rewrite list_alter_id|].
    apply Forall_forall. intros e' _. by rewrite extrude_elem_bcs.
Qed.
Lemma get_bc_bcs m m' i b f : bcs <$> elems m = bcs <$> elems m' → get_bc m i b f = get_bc m' i b f.
Proof.
  intros H. unfold get_bc.
  assert (bcs <$> elems m !! i = bcs <$> elems m' !! i) as Hi by (by rewrite <- !list_lookup_fmap, H).
  destruct (elems m !! i), (elems m' !! i); cbn in *; try done. by injection Hi as ->.
Qed.

Definition h_side (n iel f : nat) r : bcrec N :=
  if decide (f < 4)%nat then set_side iel r
  else if decide (f = 4)%nat then set_end "E" iel 5 (Z.of_nat iel - Z.of_nat n + 1) 6 r
  else if decide (f = 5)%nat then set_end "E" iel 6 (Z.of_nat iel + Z.of_nat n + 1) 5 r
  else r.
Lemma extrude_internal_get n m3 iel b iel0 b0 f0 :
  get_bc (extrude_internal n m3 (iel, b)) iel0 b0 f0 =
  if decide ((iel, b) = (iel0, b0)) then h_side n iel0 f0 <$> get_bc m3 iel0 b0 f0
  else get_bc m3 iel0 b0 f0.
Proof.
  unfold extrude_internal. destruct (decide _) as [[= -> ->]|Hne].
  - destruct f0 as [|[|[|[|[|[|f0]]]]]]; unfold range; cbn [seq foldl];
      repeat first [rewrite get_bc_alter_eq | rewrite get_bc_alter_ne by (intros [=])];
      try done. by apply fmap_id_opt.
  - unfold range; cbn [seq foldl].
    repeat rewrite get_bc_alter_ne by (intros [= -> -> _]; done). done.
Qed.
Lemma extrude_internal_all n m3 ne nb iel0 b0 f0 : (iel0 < ne)%nat → (b0 < nb)%nat →
  get_bc (foldl (extrude_internal n) m3 (prod2 (range ne) (range nb))) iel0 b0 f0 =
  h_side n iel0 f0 <$> get_bc m3 iel0 b0 f0.
Proof.
  intros Hi Hb.
  apply (foldl_view_in (extrude_internal n) (λ m, get_bc m iel0 b0 f0)
    (fmap (h_side n iel0 f0)) (λ _, True) _ m3 (iel0, b0)); try done.
  - apply NoDup_prod2; apply NoDup_range.
  - apply elem_of_prod2. by rewrite !elem_of_range.
  - intros m' [i b] _ _ Hne. rewrite extrude_internal_get. by rewrite decide_False.
  - intros m' _. rewrite extrude_internal_get. by rewrite decide_True.
Qed.

Definition end_step (n nz : nat) (c1 c2 : nat → string) m3 (x : nat * nat) : hexa N :=
  let '(i, b) := x in
  let i1 := (i + (nz - 1) * n)%nat in
  alter_bc (if String.eqb (c2 b) "P" then set_end (u3 (c2 b)) i1 6 (Z.of_nat i + 1) 5
            else set_end (u3 (c2 b)) i1 6 0 0) i1 b 5
    (alter_bc (if String.eqb (c1 b) "P" then set_end (u3 (c1 b)) i 5 (Z.of_nat i1 + 1) 6
               else set_end (u3 (c1 b)) i 5 0 0) i b 4 m3).
Definition h_end (n nz : nat) (c1 c2 : string) (i k f : nat) r : bcrec N :=
  let i1 := (i + (nz - 1) * n)%nat in
  if decide (f = 4 ∧ k = 0)%nat then
    (if String.eqb c1 "P" then set_end (u3 c1) i 5 (Z.of_nat i1 + 1) 6 r else set_end (u3 c1) i 5 0 0 r)
  else if decide (f = 5 ∧ k = nz - 1)%nat then
    (if String.eqb c2 "P" then set_end (u3 c2) i1 6 (Z.of_nat i + 1) 5 r else set_end (u3 c2) i1 6 0 0 r)
  else r.
Lemma end_step_get n nz c1 c2 m3 i b i0 k0 b0 f0 : (i < n)%nat → (i0 < n)%nat → (1 ≤ nz)%nat →
  get_bc (end_step n nz c1 c2 m3 (i, b)) (i0 + n * k0)%nat b0 f0 =
  if decide ((i, b) = (i0, b0)) then
    h_end n nz (c1 b0) (c2 b0) i0 k0 f0 <$> get_bc m3 (i0 + n * k0)%nat b0 f0
  else get_bc m3 (i0 + n * k0)%nat b0 f0.
Proof.
  intros Hi Hi0 Hnz. unfold end_step. rewrite !get_bc_alter.
  assert (∀ f k i', i' = (i + n * k)%nat → (i0 + n * k0, b0, f0)%nat = (i', b, f) ↔ (i, b) = (i0, b0) ∧ k0 = k ∧ f0 = f) as Hk.
  { intros f k i' ->. split; [|by intros ([= -> ->] & -> & ->)]. intros [= He -> ->].
    apply (elnum_inj n i0 k0 i k) in He as [-> ->]; done. }
  destruct (decide ((i, b) = (i0, b0))) as [[= -> ->]|Hne].
  - unfold h_end.
    destruct (decide (f0 = 4 ∧ k0 = 0)%nat) as [[-> ->]|H4].
    + rewrite (decide_False (P:=_ = (_, _, 5%nat))).
      2: { rewrite (Hk _ (nz - 1)%nat) by lia. lia. }
      rewrite decide_True; [|rewrite (Hk _ 0%nat) by lia; split_and!; done].
      by destruct (String.eqb (c1 b0) "P").
    + rewrite (decide_False (P:=_ = (_, _, 4%nat))).
      2: { rewrite (Hk _ 0%nat) by lia. intros (_ & ? & ?). lia. }
      destruct (decide (f0 = 5 ∧ k0 = nz - 1)%nat) as [[-> ->]|H5].
      * rewrite decide_True; [|rewrite (Hk _ (nz - 1)%nat) by lia; split_and!; done].
        by destruct (String.eqb (c2 b0) "P").
      * rewrite decide_False; [|rewrite (Hk _ (nz - 1)%nat) by lia; lia]. by apply fmap_id_opt.
  - rewrite decide_False; [|rewrite (Hk _ (nz - 1)%nat) by lia; tauto].
    rewrite decide_False; [|rewrite (Hk _ 0%nat) by lia; tauto]. done.
Qed.
Lemma end_all n nz c1 c2 m3 nb i0 k0 b0 f0 : (i0 < n)%nat → (1 ≤ nz)%nat → (b0 < nb)%nat →
  get_bc (foldl (end_step n nz c1 c2) m3 (prod2 (range n) (range nb))) (i0 + n * k0)%nat b0 f0 =
  h_end n nz (c1 b0) (c2 b0) i0 k0 f0 <$> get_bc m3 (i0 + n * k0)%nat b0 f0.
Proof.
  intros Hi Hnz Hb.
  apply (foldl_view_in (end_step n nz c1 c2) (λ m, get_bc m (i0 + n * k0)%nat b0 f0)
    (fmap (h_end n nz (c1 b0) (c2 b0) i0 k0 f0)) (λ _, True) _ m3 (i0, b0)); try done.
  - apply NoDup_prod2; apply NoDup_range.
  - apply elem_of_prod2. by rewrite !elem_of_range.
  - intros m' [i b] _ Hin Hne. apply elem_of_prod2 in Hin as [Hin _]. apply elem_of_range in Hin.
    rewrite end_step_get by done. by rewrite decide_False.
  - intros m' _. rewrite end_step_get by done. by rewrite decide_True.
Qed.

Lemma loops_strip n nz c1 c2 m3 l1 l2 :
  strip (foldl (end_step n nz c1 c2) (foldl (extrude_internal n) m3 l1) l2) = strip m3 ∧
  bshape (foldl (end_step n nz c1 c2) (foldl (extrude_internal n) m3 l1) l2) = bshape m3.
Proof.
  apply (foldl_inv _ (λ m', strip m' = strip m3 ∧ bshape m' = bshape m3)).
  - apply (foldl_inv _ (λ m', strip m' = strip m3 ∧ bshape m' = bshape m3)); [done|].
    intros m' [i b] _ [H1 H2]. unfold extrude_internal, range. cbn [seq foldl].
    rewrite !strip_alter, !bshape_alter. done.
  - intros m' [i b] _ [H1 H2]. unfold end_step. rewrite !strip_alter, !bshape_alter. done.
Qed.

(** ** One slab *)
Lemma extrude_elem_slab z1 z2 e2 e : wf_geom_elem e2 → eshape e2 = (2, 2, 1)%nat →
  length (ccurv e2) = 12%nat → length (curv e2) = 12%nat →
  ccurv e = ccurv e2 → curv e = curv e2 →
  is_slab e2 z1 z2 (extrude_elem z1 z2 e2 e) ∧
  (∀ xs ys zs, pos e2 = [xs; ys; zs] → pos (extrude_elem z1 z2 e2 e) =
     [xs ++ xs; ys ++ ys; [z1;z1;z1;z1;z2;z2;z2;z2]]).
Proof.
  intros (lx & ly & lz & Es & _ & Hp & Hc) Es' Hcc Hcv Ecc Ecv.
  rewrite Es in Es'. injection Es' as -> -> ->.
  destruct (pos e2) as [|xs [|ys [|zs [|]]]] eqn:Ep; try done.
  assert (length xs = 4%nat) as Hx by (apply Hc; set_solver).
  assert (length ys = 4%nat) as Hy by (apply Hc; set_solver).
  assert (length zs = 4%nat) as Hz by (apply Hc; set_solver).
  destruct xs as [|xa [|xb [|xc [|xd [|]]]]]; try done.
  destruct ys as [|ya [|yb [|yc [|yd [|]]]]]; try done.
  destruct zs as [|za [|zb [|zc [|zd [|]]]]]; try done.
  destruct (ccurv e2) as [|c0 [|c1 [|c2 [|c3 [|c4 [|c5 [|c6 [|c7 [|c8 [|c9 [|c10 [|c11 [|]]]]]]]]]]]]] eqn:EC; try done.
  destruct (curv e2) as [|r0 [|r1 [|r2 [|r3 [|r4 [|r5 [|r6 [|r7 [|r8 [|r9 [|r10 [|r11 [|]]]]]]]]]]]]] eqn:EV; try done.
  set (E := extrude_elem z1 z2 e2 e).
  assert (eshape E = (2,2,2)%nat ∧ pos E = [[xa;xb;xc;xd;xa;xb;xc;xd]; [ya;yb;yc;yd;ya;yb;yc;yd]; [z1;z1;z1;z1;z2;z2;z2;z2]]) as [E1 E2].
  { subst E. unfold extrude_elem.
    apply (foldl_inv _ (λ e', eshape e' = (2,2,2)%nat ∧ pos e' = [[xa;xb;xc;xd;xa;xb;xc;xd]; [ya;yb;yc;yd;ya;yb;yc;yd]; [z1;z1;z1;z1;z2;z2;z2;z2]])).
    - unfold extrude_pos. rewrite Ep. done.
    - intros e' c _ H. exact H. }
  assert (ccurv E = [c0;c1;c2;c3;c0;c1;c2;c3;c8;c9;c10;c11] ∧
    curv E = [edge_row c0 z1 r0; edge_row c1 z1 r1; edge_row c2 z1 r2; edge_row c3 z1 r3;
              edge_row c0 z2 r0; edge_row c1 z2 r1; edge_row c2 z2 r2; edge_row c3 z2 r3; r8; r9; r10; r11]) as [E3 E4].
  { subst E. unfold extrude_elem, range. cbn [seq foldl]. unfold extrude_curv_edge at 4.
    unfold extrude_curv_edge at 3. unfold extrude_curv_edge at 2. unfold extrude_curv_edge at 1.
    unfold extrude_pos. cbn [ccurv curv set_ccurv set_curv]. rewrite Ecc, Ecv. unfold edge_row.
    destruct (String.eqb c0 "m") eqn:M0, (String.eqb c1 "m") eqn:M1,
      (String.eqb c2 "m") eqn:M2, (String.eqb c3 "m") eqn:M3;
      cbn -[String.eqb]; rewrite ?M0, ?M1, ?M2, ?M3; cbn -[String.eqb];
      rewrite ?M0, ?M1, ?M2, ?M3; cbn -[String.eqb]; rewrite ?M0, ?M1, ?M2, ?M3; cbn -[String.eqb];
      rewrite ?M0, ?M1, ?M2, ?M3; cbn -[String.eqb]; done. }
  split.
  - split; [done|]. split; [by rewrite E2|]. split.
    { intros ky kx x y z. unfold point. rewrite Es, E1, Ep, E2.
      destruct ky as [|[|ky]], kx as [|[|kx]]; cbn; intros H; try discriminate;
        injection H as <- <- <-; done. }
    split.
    + intros c t row Hc4 Ht Hr. rewrite EC in Ht || idtac. rewrite EV in Hr || idtac. rewrite E3, E4.
      destruct c as [|[|[|[|c]]]]; [..|lia]; cbn in Ht, Hr; injection Ht as <-; injection Hr as <-; done.
    + intros c Hc8. rewrite ?EC, ?EV, E3, E4. do 8 (destruct c as [|c]; [lia|]). done.
  - intros xs ys zs [= <- <- <-]. exact E2.
Qed.

(** ** The whole function *)
Section Run.
Context (bnd : Z) (LA : arith_laws A bnd).
Context (m : hexa N) (z : list N) (obc1 obc2 : option (list string)) (c1 c2 : nat → string).
Let nz := (length z - 1)%nat.
Let n := nel m.
Let bc1 := default (replicate (nbc m) "P"%string) obc1.
Let bc2 := default (replicate (nbc m) "P"%string) obc2.
Hypothesis Hw : wf_mesh m.
Hypothesis Hlin : linear2d m.
Hypothesis Hz : (2 ≤ length z)%nat.
Hypothesis Hrefs : ∀ k, (k < nz)%nat → refs_within bnd (Z.of_nat (k * nel m)) 0 m.
Hypothesis Hl1 : length bc1 = nbc m.
Hypothesis Hl2 : length bc2 = nbc m.
Hypothesis Hc1 : ∀ b, (b < nbc m)%nat → bc1 !! b = Some (c1 b).
Hypothesis Hc2 : ∀ b, (b < nbc m)%nat → bc2 !! b = Some (c2 b).
Hypothesis HP : ∀ b, (b < nbc m)%nat → c1 b = "P"%string ↔ c2 b = "P"%string.

Lemma one_sided_false : one_sided_periodic bc1 bc2 = false.
Proof.
  unfold one_sided_periodic. apply not_true_iff_false. intros H. apply existsb_exists in H as ([x y] & Hin & H).
  apply elem_of_list_In, elem_of_list_lookup in Hin as (b & Hb).
  apply lookup_zip_with_Some in Hb as (x' & y' & [= <- <-] & H1 & H2).
  assert (b < nbc m)%nat as Hlt by (rewrite <- Hl1; by eapply lookup_lt_Some).
  rewrite (Hc1 b Hlt) in H1. rewrite (Hc2 b Hlt) in H2. injection H1 as <-. injection H2 as <-.
  specialize (HP b Hlt).
  destruct (String.eqb_spec (c1 b) "P") as [E1|E1], (String.eqb_spec (c2 b) "P") as [E2|E2]; try done; tauto.
Qed.

Definition ext_mesh (els : list (elem N)) : hexa N :=
  Hexa 3 (n * nz) (2 * Z.of_nat nz * ncurv m) (nbc m) [3;0;0;0;0]%nat PyList [2;2;2]%nat
    (time m) (istep m) (wdsz m) (endian m) els (elmap m).
Definition ext_geo (els : list (elem N)) : hexa N :=
  foldl (geo_step (elems m) z n) (ext_mesh els) (prod2 (range nz) (range n)).
Definition ext_int (internal : bool) (els : list (elem N)) : hexa N :=
  if internal then foldl (extrude_internal n) (ext_geo els) (prod2 (range (n * nz)) (range (nbc m)))
  else ext_geo els.
Definition ext_all (internal : bool) (els : list (elem N)) : hexa N :=
  foldl (end_step n nz c1 c2) (ext_int internal els) (prod2 (range n) (range (nbc m))).

Lemma layer_strip first k l : strip first = strip m → bshape first = bshape m →
  (k < nz)%nat → is_layer m first k l → strip l = strip m ∧ bshape l = bshape m.
Proof.
  intros Hs Hb Hk. unfold is_layer. case_decide; [by intros ->|]. intros Ho.
  destruct (offset_connectivity_spec bnd _ 0 m LA (proj1 Hw) (Hrefs k Hk)) as (m' & Em & S' & B' & _).
  rewrite Ho in Em. by injection Em as ->.
Qed.

Lemma extrude_eq (internal : bool) :
  ∃ (first : hexa N) (lay : nat → hexa N), (if internal then first = m else ∃ k, delete_internal_bcs m = Ok (first, k)) ∧
    strip first = strip m ∧ bshape first = bshape m ∧
    (∀ k, (k < nz)%nat → is_layer m first k (lay k)) ∧
    extrude m z obc1 obc2 internal = Ok (ext_all internal (range nz ≫= (λ k, elems (lay k)))).
Proof.
  destruct Hlin as (L1 & L2 & L3 & (v0 & rest & L4 & L4') & L5). pose proof Hw as [Hwb Hwg].
  assert (∃ first, (if internal then first = m else ∃ k, delete_internal_bcs m = Ok (first, k)) ∧
    strip first = strip m ∧ bshape first = bshape m ∧
    (if internal then Ok m else let! d := delete_internal_bcs m in Ok (fst d)) = Ok first)
    as (first & F1 & F2 & F3 & F4).
  { destruct internal; [by exists m|].
    destruct (delete_spec m Hwb) as (m' & k & -> & S & B & _). exists m'. cbn. eauto 10. }
  exists first. assert (1 ≤ nz)%nat as Hnz by (unfold nz; lia).
  destruct (layers_exist bnd LA m nz Hwb Hrefs first) as [lay Hlay]; [by eapply wf_bcs_shape|done|].
  exists lay. split; [done|]. split; [done|]. split; [done|]. split; [done|].
  destruct (copies_eq bnd m nz Hrefs first lay Hlay Hnz) as (cp & Ecp & Eapp).
  unfold extrude. rewrite L1, L2, L3, L4. cbn [Nat.eqb negb bool_decide lookup list_lookup].
  rewrite bool_decide_true by done. cbn [negb].
  destruct (Nat.ltb_spec v0 2); [lia|].
  change (default (replicate (nbc m) "P"%string) obc1) with bc1.
  change (default (replicate (nbc m) "P"%string) obc2) with bc2.
  rewrite one_sided_false. destruct (Nat.ltb_spec (length z) 2); [lia|].
  rewrite F4. cbn [rbind]. fold nz. rewrite Ecp. cbn [rbind].
  destruct Hwb as (_ & Hlen & _). rewrite Hlen, Nat.eqb_refl. cbn [negb]. rewrite Eapp.
  set (els := range nz ≫= (λ k, elems (lay k))).
  assert (length els = (n * nz)%nat) as Hlels.
  { apply stack_length. intros k Hk. destruct (layer_strip first k (lay k)) as [S B]; auto.
    apply strip_fields in S as (_ & _ & _ & _ & _ & _ & _ & _ & S). unfold n. congruence. }
  change (foldl _ _ (prod2 (range nz) (range (nel m)))) with (ext_geo els).
  assert (length (elems (ext_geo els)) = (n * nz)%nat) as Hlg.
  { unfold ext_geo. destruct (geo_rest (elems m) z n (prod2 (range nz) (range n)) (ext_mesh els)) as (_ & Hl & _).
    by rewrite Hl. }
  assert (∀ mm, foldM (extrude_end (nel m) nz bc1 bc2) mm (prod2 (range (nel m)) (range (nbc m))) =
    Ok (foldl (end_step n nz c1 c2) mm (prod2 (range n) (range (nbc m))))) as Hend.
  { intros mm. apply foldM_pure. intros s [i b] Hin. apply elem_of_prod2 in Hin as [_ Hin].
    apply elem_of_range in Hin. unfold extrude_end. by rewrite Hc1, Hc2 by done. }
  rewrite Hend. rewrite Hlg. unfold ext_all, ext_int. by destruct internal.
Qed.

Lemma ext_all_strip internal els : strip (ext_all internal els) = strip (ext_geo els) ∧
  bshape (ext_all internal els) = bshape (ext_geo els).
Proof.
  unfold ext_all, ext_int. destruct internal; [apply loops_strip|].
  apply (loops_strip n nz c1 c2 (ext_geo els) [] _).
Qed.

Section Result.
Context (internal : bool) (first : hexa N) (lay : nat → hexa N).
Hypothesis Hs : strip first = strip m.
Hypothesis Hb : bshape first = bshape m.
Hypothesis Hlay : ∀ k, (k < nz)%nat → is_layer m first k (lay k).
Let els := range nz ≫= (λ k, elems (lay k)).
Let m3 := ext_all internal els.

Lemma lay_props k : (k < nz)%nat → strip (lay k) = strip m ∧ bshape (lay k) = bshape m ∧
  length (elems (lay k)) = n.
Proof.
  intros Hk. destruct (layer_strip first k (lay k)) as [S B]; auto. split; [done|]. split; [done|].
  apply strip_fields in S as (_ & _ & _ & _ & _ & _ & _ & _ & S).
  destruct Hw as [(_ & Hlen & _) _]. unfold n. congruence.
Qed.
Lemma els_lookup k i : (k < nz)%nat → (i < n)%nat → els !! (i + n * k)%nat = elems (lay k) !! i.
Proof.
  intros Hk Hi. apply (stack_lookup (λ k, elems (lay k)) n nz k i); [|done|done].
  intros k' Hk'. by apply lay_props.
Qed.
Lemma els_length : length els = (n * nz)%nat.
Proof. apply stack_length. intros k Hk. by apply lay_props. Qed.

Lemma geo_bcs i b f k : (k < nz)%nat → (i < n)%nat →
  get_bc (ext_geo els) (i + n * k)%nat b f = get_bc (lay k) i b f.
Proof.
  intros Hk Hi. unfold ext_geo.
  destruct (geo_rest (elems m) z n (prod2 (range nz) (range n)) (ext_mesh els)) as (_ & _ & Hbcs).
  rewrite (get_bc_bcs _ _ _ _ _ Hbcs). unfold get_bc. cbn [elems ext_mesh]. by rewrite els_lookup.
Qed.

Lemma geo_elem k i e2 : (k < nz)%nat → elems m !! i = Some e2 →
  ∃ e, elems (ext_geo els) !! (i + n * k)%nat = Some e ∧
    is_slab e2 (nth k z (nofZ 0)) (nth (k + 1) z (nofZ 0)) e ∧
    (∀ xs ys zs, pos e2 = [xs; ys; zs] → pos e =
      [xs ++ xs; ys ++ ys; [nth k z (nofZ 0); nth k z (nofZ 0); nth k z (nofZ 0); nth k z (nofZ 0);
        nth (k + 1) z (nofZ 0);nth (k + 1) z (nofZ 0);nth (k + 1) z (nofZ 0);nth (k + 1) z (nofZ 0)]]) ∧
    length (bcs e) = nbc m ∧ (∀ row, row ∈ bcs e → length row = 6%nat).
Proof.
  intros Hk He. assert (i < n)%nat as Hi.
  { destruct Hw as [(_ & Hlen & _) _]. unfold n. rewrite <- Hlen. by eapply lookup_lt_Some. }
  unfold ext_geo. rewrite (geo_get _ _ _ nz _ k i e2) by done. cbn [elems ext_mesh].
  rewrite els_lookup by done. destruct (lay_props k Hk) as (S & B & _).
  destruct (strip_elem_lookup _ _ _ _ (eq_sym S) He) as (e' & He' & Hst). rewrite He'. cbn [fmap option_fmap option_map].
  unfold strip_elem, set_bcs in Hst. injection Hst as H1 H2 H3 H4 H5 H6 H7 H8.
  destruct Hlin as (_ & _ & _ & _ & L5).
  assert (e2 ∈ elems m) as Hin by (by eapply elem_of_list_lookup_2).
  destruct (L5 e2 Hin) as (La & Lb & Lc).
  destruct (extrude_elem_slab (nth k z (nofZ 0)) (nth (k + 1) z (nofZ 0)) e2 e') as [HA HB]; try done.
  { by apply (proj2 Hw). }
  eexists. split; [reflexivity|]. split; [done|]. split; [done|]. rewrite extrude_elem_bcs.
  assert (wf_bcs (lay k)) as (_ & _ & Hrows) by (eapply wf_bcs_shape; [apply Hw|done|done]).
  apply strip_fields in S as (_ & _ & _ & S4 & _). rewrite <- S4. apply Hrows.
  by eapply elem_of_list_lookup_2.
Qed.

Lemma m3_strip_elem i e : elems (ext_geo els) !! i = Some e →
  ∃ e', elems m3 !! i = Some e' ∧ strip_elem e' = strip_elem e.
Proof. apply strip_elem_lookup. symmetry. apply ext_all_strip. Qed.

Lemma is_slab_strip e2 z1 z2 e e' : strip_elem e' = strip_elem e → is_slab e2 z1 z2 e → is_slab e2 z1 z2 e'.
Proof.
  intros Hst. unfold strip_elem, set_bcs in Hst. injection Hst as H1 H2 H3 H4 H5 H6 H7 H8.
  unfold is_slab, point. by rewrite H1, H2, H7, H8.
Qed.

Lemma m3_fields : ndim m3 = 3%nat ∧ nel m3 = (n * nz)%nat ∧ ncurv m3 = 2 * Z.of_nat nz * ncurv m ∧
  nbc m3 = nbc m ∧ lr1 m3 = [2;2;2]%nat ∧ length (elems m3) = (n * nz)%nat ∧ elmap m3 = elmap m.
Proof.
  destruct (ext_all_strip internal els) as [S _].
  apply strip_fields in S as (S1 & S2 & S3 & S4 & S5 & S6 & S7 & S8 & S9).
  destruct (geo_rest (elems m) z n (prod2 (range nz) (range n)) (ext_mesh els)) as (R & Rl & _).
  fold (ext_geo els) in R, Rl.
  pose proof (f_equal ndim R) as F1. pose proof (f_equal nel R) as F2.
  pose proof (f_equal ncurv R) as F3. pose proof (f_equal nbc R) as F4.
  pose proof (f_equal lr1 R) as F6. pose proof (f_equal elmap R) as F7.
  cbn [ndim nel ncurv nbc lr1 elmap set_elems ext_mesh elems] in *. rewrite els_length in Rl.
  unfold m3. split_and!; congruence.
Qed.

Lemma m3_stack : is_stack m z m3.
Proof.
  destruct m3_fields as (F1 & F2 & F3 & F4 & F5 & F6 & F7).
  split; [done|]. split; [done|]. split; [congruence|]. split; [done|]. split; [done|]. split; [done|].
  intros k i e2 z1 z2 Hz1 Hz2 He.
  assert (k < nz)%nat as Hk by (apply lookup_lt_Some in Hz2; unfold nz; lia).
  destruct (geo_elem k i e2 Hk He) as (e & He' & Hsl & _).
  destruct (m3_strip_elem _ _ He') as (e' & He'' & Hst).
  exists e'. split; [exact He''|]. eapply is_slab_strip; [exact Hst|].
  rewrite (nth_lookup_Some _ _ _ _ Hz1), (nth_lookup_Some _ _ _ _ Hz2) in Hsl. done.
Qed.

Lemma m3_wf : wf_mesh m3.
Proof.
  destruct m3_fields as (F1 & F2 & F3 & F4 & F5 & F6 & F7).
  assert (∀ e', e' ∈ elems m3 → ∃ k i e2 e, (k < nz)%nat ∧ elems m !! i = Some e2 ∧
    elems (ext_geo els) !! (i + n * k)%nat = Some e ∧ elems m3 !! (i + n * k)%nat = Some e' ∧
    strip_elem e' = strip_elem e) as Hall.
  { intros e' He'. apply elem_of_list_lookup in He' as (q & Hq).
    assert (q < n * nz)%nat as Hlt by (rewrite <- F6; by eapply lookup_lt_Some).
    apply elnum_div in Hlt as (i & k & Hi & Hk & ->). unfold elnum in *.
    destruct (lookup_lt_is_Some_2 (elems m) i) as [e2 He2].
    { destruct Hw as [(_ & Hlen & _) _]. unfold n in Hi. lia. }
    destruct (geo_elem k i e2 Hk He2) as (e & He & _).
    destruct (m3_strip_elem _ _ He) as (e'' & He'' & Hst). rewrite Hq in He''.
    injection He'' as ->. exists k, i, e2, e. done. }
  split.
  - split; [by right|]. split; [congruence|]. intros e' He'.
    destruct (Hall e' He') as (k & i & e2 & e & Hk & He2 & He & Hq & Hst).
    destruct (geo_elem k i e2 Hk He2) as (e1 & He1 & _ & _ & Hl & Hrows).
    rewrite He in He1. injection He1 as <-.
    assert (length <$> bcs e' = length <$> bcs e) as HB.
    { assert (bshape m3 !! (i + n * k)%nat = bshape (ext_geo els) !! (i + n * k)%nat) as HB
        by (unfold m3; by rewrite (proj2 (ext_all_strip internal els))).
      unfold bshape in HB. rewrite !list_lookup_fmap, Hq, He in HB. by injection HB. }
    split.
    + rewrite F4, <- Hl. apply (f_equal length) in HB. by rewrite !fmap_length in HB.
    + intros row Hr. assert (length row ∈ length <$> bcs e') as Hin by (by apply elem_of_list_fmap_1).
      rewrite HB in Hin. apply elem_of_list_fmap in Hin as (row' & -> & Hr'). by apply Hrows.
  - intros e' He'. destruct (Hall e' He') as (k & i & e2 & e & Hk & He2 & He & Hq & Hst).
    destruct (geo_elem k i e2 Hk He2) as (e1 & He1 & (Hsh & _) & Hpos & _).
    rewrite He in He1. injection He1 as <-.
    unfold strip_elem, set_bcs in Hst. injection Hst as H1 H2 H3 H4 H5 H6 H7 H8.
    exists 2%nat, 2%nat, 2%nat. split; [congruence|]. split; [lia|].
    assert (wf_geom_elem e2) as (lx & ly & lz & Es & _ & Hp & Hc).
    { apply (proj2 Hw). by eapply elem_of_list_lookup_2. }
    destruct Hlin as (_ & _ & _ & _ & L5).
    destruct (L5 e2) as (La & _); [by eapply elem_of_list_lookup_2|].
    rewrite Es in La. injection La as -> -> ->.
    destruct (pos e2) as [|xs [|ys [|zs [|]]]]; try done. rewrite H2, (Hpos xs ys zs) by done.
    split; [done|]. intros c Hin.
    repeat (apply elem_of_cons in Hin as [->|Hin]); [..|by apply elem_of_nil in Hin].
    + rewrite app_length, (Hc xs) by set_solver. done.
    + rewrite app_length, (Hc ys) by set_solver. done.
    + done.
Qed.

Lemma m3_get i k b f : (i < n)%nat → (k < nz)%nat → (b < nbc m)%nat →
  get_bc m3 (i + n * k)%nat b f =
  h_end n nz (c1 b) (c2 b) i k f <$>
   ((if internal then h_side n (i + n * k)%nat f else λ r, r) <$> get_bc (lay k) i b f).
Proof.
  intros Hi Hk Hb'. unfold m3, ext_all. rewrite end_all by (try done; lia). f_equal.
  unfold ext_int. destruct internal.
  - rewrite extrude_internal_all; [|apply (elnum_lt n nz i k Hi Hk)|done]. by rewrite geo_bcs.
  - rewrite geo_bcs by done. by apply fmap_id_opt.
Qed.
End Result.
End Run.

(** ** Entries when the internal conditions are built *)
Section Entries.
Context (bnd : Z) (LA : arith_laws A bnd).
Context (m : hexa N) (nz : nat).
Let n := nel m.
Hypothesis Hw : wf_bcs m.
Hypothesis H2d : ndim m = 2%nat.
Hypothesis Hp : paired m.
Hypothesis Hbnd : Z.of_nat (n * nz) <= bnd.

Lemma paired_refs k : (k < nz)%nat → refs_within bnd (Z.of_nat (k * nel m)) 0 m.
Proof.
  intros Hk. split; [unfold n in *; nia|].
  intros i b f r Hin Hr Hc. destruct (Hp i b f r Hin Hr Hc) as (j & g & r' & (Hj & _) & [P3 P4] & _).
  exists (Z.of_nat j + 1). split; [done|]. unfold n in *. split; [nia|]. intros _. nia.
Qed.

Lemma lay_entry l k i b f r : (k < nz)%nat → is_layer m m k l → in_mesh m i b f → get_bc m i b f = Some r →
  ∃ r1, get_bc l i b f = Some r1 ∧ bt r1 = bt r ∧ bp4 r1 = bp4 r ∧
    (∀ j, (j < n)%nat → is_conn (bt r) → bp3 r = nofZ (Z.of_nat j + 1) →
      bp3 r1 = nofZ (Z.of_nat (j + n * k) + 1)) ∧
    bface r1 = bface r ∧ bp5 r1 = bp5 r ∧ bp6 r1 = bp6 r ∧ bp7 r1 = bp7 r ∧ (¬ is_conn (bt r) → bp3 r1 = bp3 r).
Proof.
  intros Hk Hl Hin Hr. unfold is_layer in Hl. case_decide as Hk0.
  - subst. exists r. split; [done|]. split; [done|]. split; [done|]. split; [|done]. intros j _ _ ->. do 2 f_equal. lia.
  - destruct (offset_connectivity_spec bnd _ 0 m LA Hw (paired_refs k Hk)) as (m' & Em & _ & _ & He).
    rewrite Hl in Em. injection Em as <-. destruct (He i b f r Hr) as (r1 & Hr1 & O).
    destruct O as (O1 & Of & O4 & O5 & O6 & O7 & O3 & O3' & _). exists r1. split; [done|]. split; [done|].
    split; [done|]. split; [|split_and!; try done; intros Hc; apply O3'; by intros [_ Hc']]. intros j Hj Hc H3. rewrite (O3 (conj Hin Hc) (Z.of_nat j + 1)).
    + rewrite bool_decide_true by lia. f_equal. unfold n. lia.
    + unfold n in *. nia.
    + done.
Qed.

Lemma side_ok l k i b f : (k < nz)%nat → is_layer m m k l → in_mesh m i b f →
  ∃ r', h_side n (i + n * k)%nat f <$> get_bc l i b f = Some r' ∧ side_entry m k i b f r'.
Proof.
  intros Hk Hl Hin. pose proof Hin as (Hi & Hb & Hf). rewrite H2d in Hf.
  destruct (wf_get_bc m i b f Hw Hi Hb) as [r Hr]; [lia|].
  destruct (lay_entry l k i b f r Hk Hl Hin Hr) as (r1 & Hr1 & T1 & T4 & T3 & Tf & T5 & T6 & T7 & T3'). rewrite Hr1.
  eexists. split; [reflexivity|]. exists r. split; [done|]. unfold h_side.
  rewrite decide_True by lia. unfold set_side. cbn [set_bel bt bel].
  split; [by destruct (String.eqb (bt r1) "E"); cbn|].
  split; [destruct (String.eqb (bt r1) "E"); cbn; done|].
  split; [|split_and!; try (by destruct (String.eqb (bt r1) "E"))].
  2: { intros Hc. destruct (String.eqb_spec (bt r1) "E") as [E|_]; [|by apply T3']. exfalso. apply Hc. left. congruence. }
  intros j g Hj Hc [P3 P4]. specialize (T3 j Hj Hc P3).
  assert (Z.of_nat (j + n * k) + 1 <= bnd) as Hjb.
  { pose proof (elnum_lt n nz j k Hj Hk). unfold elnum in *. lia. }
  destruct (String.eqb (bt r1) "E"); split; cbn [set_bp3 set_bel bp3 bp4]; try (by rewrite T4).
  - rewrite T3.
    replace (Z.of_nat (i + n * k) - (Z.of_nat (i + n * k) + 1) + 1) with 0 by lia.
    rewrite (law_add A bnd LA) by lia. f_equal. lia.
  - by rewrite T3.
Qed.
End Entries.

(** ** Ends *)
Lemma end_ok n nz k i f c1 c2 r : (k < nz)%nat → (f = 4 ∨ f = 5)%nat → u3 c1 = c1 → u3 c2 = c2 →
  end_entry n nz k c1 c2 i f (h_end n nz c1 c2 i k f (h_side n (i + n * k)%nat f r)).
Proof.
  intros Hk Hf Hu1 Hu2. unfold end_entry, h_end.
  destruct Hf as [-> | ->]; [rewrite !(decide_True (P:=4%nat = 4%nat)) by done |
    rewrite !(decide_False (P:=5%nat = 4%nat)) by done].
  - destruct (decide (k = 0%nat)) as [->|Hk0].
    + rewrite decide_True by done. rewrite Hu1, ?(Nat.mul_comm n).
      destruct (String.eqb_spec c1 "P") as [E|E]; cbn [set_end bel bface bt bp3 bp4 points];
        (split; [lia|]); (split; [lia|]); (split; [done|]); [|done].
      intros _. rewrite ?(Nat.mul_comm n). split; unfold set_end; cbn [bp3 bp4]; f_equal; lia.
    + rewrite decide_False by tauto. rewrite decide_False by lia. unfold h_side.
      rewrite decide_False by lia. rewrite decide_True by done. cbn [set_end bel bface bt].
      split; [lia|]. split; [lia|]. split; [done|].
      assert (n * k = n * (k - 1) + n)%nat as X
        by (destruct k as [|k]; [done|]; replace (S k - 1)%nat with k by lia; lia).
      rewrite X. generalize (n * (k - 1))%nat. intros q. split; unfold set_end; cbn [bp3 bp4]; [f_equal; lia|done].
  - rewrite decide_False by lia. destruct (decide (k = nz - 1)%nat) as [->|Hk0].
    + rewrite decide_True by done. rewrite Hu2, ?(Nat.mul_comm n).
      destruct (String.eqb_spec c2 "P") as [E|E]; cbn [set_end bel bface bt bp3 bp4 points];
        (split; [lia|]); (split; [lia|]); (split; [done|]); [|done].
      intros _. rewrite ?(Nat.mul_comm n). split; unfold set_end; cbn [bp3 bp4]; f_equal; lia.
    + rewrite decide_False by tauto. unfold h_side.
      rewrite decide_False by lia. rewrite decide_False by lia. rewrite decide_True by done. cbn [set_end bel bface bt].
      split; [lia|]. split; [lia|]. split; [done|]. split; unfold set_end; cbn [bp3 bp4]; f_equal; lia.
Qed.

(** ** Face centres of a slab *)
Lemma slab_faces e2 e (z1 z2 : N) : wf_geom_elem e2 → eshape e2 = (2,2,1)%nat → is_slab e2 z1 z2 e →
  ∃ (fc : nat → N * N) (cx cy : N),
    (∀ f, (f < 4)%nat → ∃ cz, face_center e2 (Z.of_nat f) = Ok (fst (fc f), snd (fc f), cz)) ∧
    (∀ f, (f < 4)%nat → face_center e (Z.of_nat f) = Ok (fst (fc f), snd (fc f), mean4 z1 z2 z1 z2)) ∧
    (∀ z1' z2' e', is_slab e2 z1' z2' e' →
      face_center e' 4 = Ok (cx, cy, mean4 z1' z1' z1' z1') ∧
      face_center e' 5 = Ok (cx, cy, mean4 z2' z2' z2' z2')).
Proof.
  intros (lx & ly & lz & Es & _ & Hp & Hc) Es' Hsl.
  rewrite Es in Es'. injection Es' as -> -> ->.
  destruct (pos e2) as [|xs [|ys [|zs [|]]]] eqn:Ep; try done.
  assert (length xs = 4%nat) as Hx by (apply Hc; set_solver).
  assert (length ys = 4%nat) as Hy by (apply Hc; set_solver).
  assert (length zs = 4%nat) as Hz by (apply Hc; set_solver).
  destruct xs as [|xa [|xb [|xc [|xd [|]]]]]; try done.
  destruct ys as [|ya [|yb [|yc [|yd [|]]]]]; try done.
  destruct zs as [|za [|zb [|zc [|zd [|]]]]]; try done.
  assert (point e2 0 0 0 = Some (xa, ya, za)) as Pa by (unfold point; by rewrite Es, Ep).
  assert (point e2 0 0 1 = Some (xb, yb, zb)) as Pb by (unfold point; by rewrite Es, Ep).
  assert (point e2 0 1 0 = Some (xc, yc, zc)) as Pc by (unfold point; by rewrite Es, Ep).
  assert (point e2 0 1 1 = Some (xd, yd, zd)) as Pd by (unfold point; by rewrite Es, Ep).
  assert (∀ z1' z2' e', is_slab e2 z1' z2' e' → eshape e' = (2,2,2)%nat ∧
    (point e' 0 0 0 = Some (xa, ya, z1') ∧ point e' 1 0 0 = Some (xa, ya, z2')) ∧
    (point e' 0 0 1 = Some (xb, yb, z1') ∧ point e' 1 0 1 = Some (xb, yb, z2')) ∧
    (point e' 0 1 0 = Some (xc, yc, z1') ∧ point e' 1 1 0 = Some (xc, yc, z2')) ∧
    (point e' 0 1 1 = Some (xd, yd, z1') ∧ point e' 1 1 1 = Some (xd, yd, z2'))) as Hpts.
  { intros w1 w2 e' (H1 & _ & H3 & _). split_and!; try done; by eapply H3. }
  assert (∀ z1' z2' e', is_slab e2 z1' z2' e' →
    face_center e' 0 = Ok (mean4 xa xa xb xb, mean4 ya ya yb yb, mean4 z1' z2' z1' z2') ∧
    face_center e' 1 = Ok (mean4 xb xb xd xd, mean4 yb yb yd yd, mean4 z1' z2' z1' z2') ∧
    face_center e' 2 = Ok (mean4 xc xc xd xd, mean4 yc yc yd yd, mean4 z1' z2' z1' z2') ∧
    face_center e' 3 = Ok (mean4 xa xa xc xc, mean4 ya ya yc yc, mean4 z1' z2' z1' z2') ∧
    face_center e' 4 = Ok (mean4 xa xc xb xd, mean4 ya yc yb yd, mean4 z1' z1' z1' z1') ∧
    face_center e' 5 = Ok (mean4 xa xc xb xd, mean4 ya yc yb yd, mean4 z2' z2' z2' z2')) as Hfc.
  { intros w1 w2 e' Hsl'.
    destruct (Hpts _ _ _ Hsl') as (He & (A1 & A2) & (B1 & B2) & (C1 & C2) & (D1 & D2)).
    assert (∀ kz ky kx z y x p, point e' z y x = Some p →
      py_pos 2 kz = Some z → py_pos 2 ky = Some y → py_pos 2 kx = Some x → point_py e' kz ky kx = Ok p) as Hpy.
    { intros kz ky kx z y x p Hpt H1 H2 H3. unfold point_py. rewrite He, H1, H2, H3, Hpt. done. }
    pose proof (Hpy 0 0 0 _ _ _ _ A1 eq_refl eq_refl eq_refl) as A1'.
    pose proof (Hpy (-1) 0 0 _ _ _ _ A2 eq_refl eq_refl eq_refl) as A2'.
    pose proof (Hpy 0 0 (-1) _ _ _ _ B1 eq_refl eq_refl eq_refl) as B1'.
    pose proof (Hpy (-1) 0 (-1) _ _ _ _ B2 eq_refl eq_refl eq_refl) as B2'.
    pose proof (Hpy 0 (-1) 0 _ _ _ _ C1 eq_refl eq_refl eq_refl) as C1'.
    pose proof (Hpy (-1) (-1) 0 _ _ _ _ C2 eq_refl eq_refl eq_refl) as C2'.
    pose proof (Hpy 0 (-1) (-1) _ _ _ _ D1 eq_refl eq_refl eq_refl) as D1'.
    pose proof (Hpy (-1) (-1) (-1) _ _ _ _ D2 eq_refl eq_refl eq_refl) as D2'.
    unfold face_center, face_corners. cbn [Z.eqb Pos.eqb mapR rbind].
    rewrite A1', A2', B1', B2', C1', C2', D1', D2'. cbn [rbind]. done. }
  assert (face_center e2 0 = Ok (mean4 xa xa xb xb, mean4 ya ya yb yb, mean4 za za zb zb) ∧
    face_center e2 1 = Ok (mean4 xb xb xd xd, mean4 yb yb yd yd, mean4 zb zb zd zd) ∧
    face_center e2 2 = Ok (mean4 xc xc xd xd, mean4 yc yc yd yd, mean4 zc zc zd zd) ∧
    face_center e2 3 = Ok (mean4 xa xa xc xc, mean4 ya ya yc yc, mean4 za za zc zc)) as (G0 & G1 & G2 & G3).
  { unfold face_center, point_py, point. rewrite Es, Ep. split_and!; reflexivity. }
  exists (λ f, match f with
     | 0%nat => (mean4 xa xa xb xb, mean4 ya ya yb yb) | 1%nat => (mean4 xb xb xd xd, mean4 yb yb yd yd)
     | 2%nat => (mean4 xc xc xd xd, mean4 yc yc yd yd) | _ => (mean4 xa xa xc xc, mean4 ya ya yc yc) end),
    (mean4 xa xc xb xd), (mean4 ya yc yb yd).
  split_and!.
  - intros f Hf. destruct f as [|[|[|[|f]]]]; [..|lia]; eexists; done.
  - intros f Hf. destruct (Hfc _ _ _ Hsl) as (F0 & F1 & F2 & F3 & _).
    destruct f as [|[|[|[|f]]]]; [..|lia]; done.
  - intros w1 w2 e' Hsl'. destruct (Hfc _ _ _ Hsl') as (_ & _ & _ & _ & F4 & F5). done.
Qed.

(** ** Validity *)
Section Valid.
Context (bnd : Z) (LA : arith_laws A bnd) (LG : geo_laws A).

Lemma stack_valid_geo m z m3 (c1 c2 : nat → string) tol :
  let n := nel m in let nz := (length z - 1)%nat in
  wf_mesh m → linear2d m → paired m →
  (∀ k i b f r j g, (k < nz)%nat → in_mesh m i b f → get_bc m i b f = Some r → bt r = "E"%string → in_mesh m j b g → points r j g →
     same_place tol m3 (i + n * k) f (j + n * k) g) → (2 ≤ length z)%nat →
  wf_mesh m3 → is_stack m z m3 →
  (∀ b, (b < nbc m)%nat → end_condition (c1 b) ∧ end_condition (c2 b) ∧ (c1 b = "P"%string ↔ c2 b = "P"%string)) →
  (∀ k i b f, (k < nz)%nat → in_mesh m i b f →
     ∃ r', get_bc m3 (i + n * k)%nat b f = Some r' ∧ side_entry m k i b f r') →
  (∀ k i b f, (k < nz)%nat → (i < n)%nat → (b < nbc m)%nat → (f = 4 ∨ f = 5)%nat →
     ∃ r', get_bc m3 (i + n * k)%nat b f = Some r' ∧ end_entry n nz k (c1 b) (c2 b) i f r') →
  Z.of_nat (n * nz) <= bnd → 6 <= bnd → nleb (nofZ 0) tol = true →
  valid_connectivity tol m3.
Proof.
  intros n nz Hw Hlin Hp Hco Hz Hw3 Hst Hcond Hside Hend Hbnd H6 Htol.
  destruct Hst as (S1 & S2 & S3 & _ & S5 & _ & Sel). fold n nz in S2, Sel.
  pose proof Hlin as (L1 & _ & _ & _ & L5).
  assert (∀ i k, (i < n)%nat → (k < nz)%nat → (i + n * k < n * nz)%nat) as Hnum.
  { intros i k Hi Hk. by apply elnum_lt. }
  assert (∀ r i k f, (i < n)%nat → (k < nz)%nat → (f < 6)%nat → points r (i + n * k) f → names r (i + n * k) f) as Hpn.
  { intros r i k f Hi Hk Hf [E3 E4]. unfold names. rewrite E3, E4. specialize (Hnum i k Hi Hk).
    split; apply (law_trunc A bnd LA); lia. }
  (* the elements *)
  assert (∀ i, (i < n)%nat → ∃ e2, elems m !! i = Some e2 ∧ wf_geom_elem e2 ∧ eshape e2 = (2,2,1)%nat) as Hel2.
  { intros i Hi. destruct (lookup_lt_is_Some_2 (elems m) i) as [e2 He2].
    { destruct Hw as [(_ & Hlen & _) _]. unfold n in Hi. lia. }
    assert (e2 ∈ elems m) as Hin by (by eapply elem_of_list_lookup_2).
    exists e2. split; [done|]. split; [by apply (proj2 Hw)|]. by apply L5. }
  assert (∀ i k e2, (k < nz)%nat → elems m !! i = Some e2 →
    ∃ e z1 z2, z !! k = Some z1 ∧ z !! (k + 1)%nat = Some z2 ∧
      elems m3 !! (i + n * k)%nat = Some e ∧ is_slab e2 z1 z2 e) as Hel3.
  { intros i k e2 Hk He2. destruct (lookup_lt_is_Some_2 z k) as [z1 Hz1]; [unfold nz in *; lia|].
    destruct (lookup_lt_is_Some_2 z (k + 1)) as [z2 Hz2]; [unfold nz in *; lia|].
    destruct (Sel k i e2 z1 z2 Hz1 Hz2 He2) as (e & He & Hs). exists e, z1, z2. done. }
  assert (∀ q f q' f' e e' c, elems m3 !! q = Some e → elems m3 !! q' = Some e' →
    face_center e (Z.of_nat f) = Ok c → face_center e' (Z.of_nat f') = Ok c → same_place tol m3 q f q' f') as Hplace.
  { intros q f q' f' e e' c He He' F F'. destruct Hw3 as [_ Hg].
    destruct (smallest_edge_Ok e) as [s Hse]; [apply Hg; by eapply elem_of_list_lookup_2|].
    destruct (smallest_edge_Ok e') as [s1 Hse1]; [apply Hg; by eapply elem_of_list_lookup_2|].
    exists e, e', c, c, s, s1. repeat (split; [done|]).
    destruct (smallest_edge_sqrt _ _ Hse) as [x ->]. destruct (smallest_edge_sqrt _ _ Hse1) as [x1 ->].
    by apply (geo_self A LG). }
  (* the interface between two layers *)
  assert (∀ i k, (i < n)%nat → (k + 1 < nz)%nat →
    same_place tol m3 (i + n * k) 5 (i + n * (k + 1)) 4 ∧
    same_place tol m3 (i + n * (k + 1)) 4 (i + n * k) 5) as Hiface.
  { intros i k Hi Hk. destruct (Hel2 i Hi) as (e2 & He2 & Hg2 & Hs2).
    destruct (Hel3 i k e2 ltac:(lia) He2) as (e & z1 & z2 & Hz1 & Hz2 & He & Hsl).
    destruct (Hel3 i (k + 1)%nat e2 Hk He2) as (e' & z2' & z3 & Hz2' & Hz3 & He' & Hsl').
    rewrite Hz2 in Hz2'. apply (inj Some) in Hz2' as <-.
    destruct (slab_faces e2 e z1 z2 Hg2 Hs2 Hsl) as (fc & cx & cy & _ & _ & F).
    destruct (F _ _ _ Hsl) as [_ F5]. destruct (F _ _ _ Hsl') as [F4 _].
    split; eapply Hplace; done. }
  intros q b f r (Hq & Hb & Hf) Hr Hc. rewrite S2 in Hq. rewrite S5 in Hb. rewrite S1 in Hf.
  apply elnum_div in Hq as (i & k & Hi & Hk & ->). unfold elnum in *.
  destruct (Hcond b Hb) as ((U1 & N1) & (U2 & N2) & HPP).
  destruct (decide (f < 4)%nat) as [Hf4|Hf4].
  - assert (in_mesh m i b f) as Hin by (split_and!; [done|done|lia]).
    destruct (Hside k i b f Hk Hin) as (r0 & Hr0 & (r2 & Hr2 & T & _ & TP)).
    rewrite Hr in Hr0. apply (inj Some) in Hr0 as <-. rewrite T in Hc.
    destruct (Hp i b f r2 Hin Hr2 Hc) as (j & g & r2' & Hin' & P & Hr2' & T' & P').
    pose proof Hin' as (Hj & _ & Hg). rewrite L1 in Hg.
    destruct (Hside k j b g Hk Hin') as (r3 & Hr3 & (r2'' & Hr2'' & T'' & _ & TP')).
    rewrite Hr2' in Hr2''. apply (inj Some) in Hr2'' as <-.
    exists (j + n * k)%nat, g, r3. split; [split; [rewrite S2; by apply Hnum|lia]|].
    split; [apply Hpn; [done|done|lia|by apply TP]|]. split; [done|]. split; [congruence|].
    split; [apply Hpn; [done|done|lia|apply TP'; [done|by rewrite T'|done]]|].
    intros HE. rewrite T in HE.
    by apply (Hco k i b f r2 j g).
  - assert (f = 4 ∨ f = 5)%nat as Hf' by lia. clear Hf Hf4.
    destruct (Hend k i b f Hk Hi Hb Hf') as (r0 & Hr0 & (_ & _ & Q)).
    rewrite Hr in Hr0. apply (inj Some) in Hr0 as <-.
    destruct Hf' as [-> | ->].
    + rewrite (decide_True (P:=4%nat = 4%nat)) in Q by done. destruct (decide (k = 0%nat)) as [->|Hk0].
      * destruct Q as [T QP]. rewrite T in Hc. destruct Hc as [?|HcP]; [done|]. specialize (QP HcP).
        destruct (Hend (nz - 1)%nat i b 5%nat ltac:(lia) Hi Hb ltac:(lia)) as (r' & Hr' & (_ & _ & Q')).
        rewrite decide_False in Q' by done. rewrite decide_True in Q' by done. destruct Q' as [T' QP'].
        exists (i + n * (nz - 1))%nat, 5%nat, r'.
        split; [split; [rewrite S2; apply Hnum; [done|lia]|lia]|].
        split; [apply Hpn; [done|lia|lia|done]|]. split; [done|].
        split; [rewrite T', T, HcP; tauto|].
        split; [apply (Hpn r' i 0%nat 4%nat); [done|lia|lia|]; replace (i + n * 0)%nat with i by lia; tauto|].
        intros HE. congruence.
      * destruct Q as [T QP].
        destruct (Hend (k - 1)%nat i b 5%nat ltac:(lia) Hi Hb ltac:(lia)) as (r' & Hr' & (_ & _ & Q')).
        rewrite decide_False in Q' by done. rewrite decide_False in Q' by lia. destruct Q' as [T' QP'].
        replace (k - 1 + 1)%nat with k in QP' by lia.
        exists (i + n * (k - 1))%nat, 5%nat, r'.
        split; [split; [rewrite S2; apply Hnum; [done|lia]|lia]|].
        split; [apply Hpn; [done|lia|lia|done]|]. split; [done|]. split; [congruence|].
        split; [apply Hpn; [done|lia|lia|done]|]. intros _.
        destruct (Hiface i (k - 1)%nat Hi ltac:(lia)) as [_ X]. by replace (k - 1 + 1)%nat with k in X by lia.
    + rewrite (decide_False (P:=5%nat = 4%nat)) in Q by done. destruct (decide (k = nz - 1)%nat) as [->|Hk0].
      * destruct Q as [T QP]. rewrite T in Hc. destruct Hc as [?|HcP]; [done|]. specialize (QP HcP).
        destruct (Hend 0%nat i b 4%nat ltac:(lia) Hi Hb ltac:(lia)) as (r' & Hr' & (_ & _ & Q')).
        rewrite decide_True in Q' by done. rewrite decide_True in Q' by done. destruct Q' as [T' QP'].
        exists (i + n * 0)%nat, 4%nat, r'.
        split; [split; [rewrite S2; apply Hnum; [done|lia]|lia]|].
        split; [apply Hpn; [done|lia|lia|by replace (i + n * 0)%nat with i by lia]|]. split; [done|].
        split; [rewrite T', T, HcP; tauto|].
        split; [apply Hpn; [done|lia|lia|]; tauto|].
        intros HE. congruence.
      * destruct Q as [T QP].
        destruct (Hend (k + 1)%nat i b 4%nat ltac:(lia) Hi Hb ltac:(lia)) as (r' & Hr' & (_ & _ & Q')).
        rewrite decide_True in Q' by done. rewrite decide_False in Q' by lia. destruct Q' as [T' QP'].
        replace (k + 1 - 1)%nat with k in QP' by lia.
        exists (i + n * (k + 1))%nat, 4%nat, r'.
        split; [split; [rewrite S2; apply Hnum; [done|lia]|lia]|].
        split; [apply Hpn; [done|lia|lia|done]|]. split; [done|]. split; [congruence|].
        split; [apply Hpn; [done|lia|lia|done]|]. intros _.
        by destruct (Hiface i k Hi ltac:(lia)) as [X _].
Qed.
Lemma stack_valid m z m3 (c1 c2 : nat → string) tol :
  let n := nel m in let nz := (length z - 1)%nat in
  wf_mesh m → linear2d m → paired m → coincident m → (2 ≤ length z)%nat →
  wf_mesh m3 → is_stack m z m3 →
  (∀ b, (b < nbc m)%nat → end_condition (c1 b) ∧ end_condition (c2 b) ∧ (c1 b = "P"%string ↔ c2 b = "P"%string)) →
  (∀ k i b f, (k < nz)%nat → in_mesh m i b f →
     ∃ r', get_bc m3 (i + n * k)%nat b f = Some r' ∧ side_entry m k i b f r') →
  (∀ k i b f, (k < nz)%nat → (i < n)%nat → (b < nbc m)%nat → (f = 4 ∨ f = 5)%nat →
     ∃ r', get_bc m3 (i + n * k)%nat b f = Some r' ∧ end_entry n nz k (c1 b) (c2 b) i f r') →
  Z.of_nat (n * nz) <= bnd → 6 <= bnd → nleb (nofZ 0) tol = true →
  valid_connectivity tol m3.
Proof.
  intros n nz Hw Hlin Hp Hco Hz Hw3 Hst Hcond Hside Hend Hbnd H6 Htol.
  eapply (stack_valid_geo m z m3 c1 c2); try done. clear Hside Hend. fold n nz.
  destruct Hst as (S1 & S2 & S3 & _ & S5 & _ & Sel). fold n nz in S2, Sel.
  pose proof Hlin as (L1 & _ & _ & _ & L5).
  assert (∀ i k, (i < n)%nat → (k < nz)%nat → (i + n * k < n * nz)%nat) as Hnum.
  { intros i k Hi Hk. by apply elnum_lt. }
  assert (∀ r i k f, (i < n)%nat → (k < nz)%nat → (f < 6)%nat → points r (i + n * k) f → names r (i + n * k) f) as Hpn.
  { intros r i k f Hi Hk Hf [E3 E4]. unfold names. rewrite E3, E4. specialize (Hnum i k Hi Hk).
    split; apply (law_trunc A bnd LA); lia. }
  (* the elements *)
  assert (∀ i, (i < n)%nat → ∃ e2, elems m !! i = Some e2 ∧ wf_geom_elem e2 ∧ eshape e2 = (2,2,1)%nat) as Hel2.
  { intros i Hi. destruct (lookup_lt_is_Some_2 (elems m) i) as [e2 He2].
    { destruct Hw as [(_ & Hlen & _) _]. unfold n in Hi. lia. }
    assert (e2 ∈ elems m) as Hin by (by eapply elem_of_list_lookup_2).
    exists e2. split; [done|]. split; [by apply (proj2 Hw)|]. by apply L5. }
  assert (∀ i k e2, (k < nz)%nat → elems m !! i = Some e2 →
    ∃ e z1 z2, z !! k = Some z1 ∧ z !! (k + 1)%nat = Some z2 ∧
      elems m3 !! (i + n * k)%nat = Some e ∧ is_slab e2 z1 z2 e) as Hel3.
  { intros i k e2 Hk He2. destruct (lookup_lt_is_Some_2 z k) as [z1 Hz1]; [unfold nz in *; lia|].
    destruct (lookup_lt_is_Some_2 z (k + 1)) as [z2 Hz2]; [unfold nz in *; lia|].
    destruct (Sel k i e2 z1 z2 Hz1 Hz2 He2) as (e & He & Hs). exists e, z1, z2. done. }
  assert (∀ q f q' f' e e' c, elems m3 !! q = Some e → elems m3 !! q' = Some e' →
    face_center e (Z.of_nat f) = Ok c → face_center e' (Z.of_nat f') = Ok c → same_place tol m3 q f q' f') as Hplace.
  { intros q f q' f' e e' c He He' F F'. destruct Hw3 as [_ Hg].
    destruct (smallest_edge_Ok e) as [s Hse]; [apply Hg; by eapply elem_of_list_lookup_2|].
    destruct (smallest_edge_Ok e') as [s1 Hse1]; [apply Hg; by eapply elem_of_list_lookup_2|].
    exists e, e', c, c, s, s1. repeat (split; [done|]).
    destruct (smallest_edge_sqrt _ _ Hse) as [x ->]. destruct (smallest_edge_sqrt _ _ Hse1) as [x1 ->].
    by apply (geo_self A LG). }
  intros k i b f r2 j g Hk Hin Hr2 HE Hin' P. pose proof Hin as (Hi & _ & Hf4). pose proof Hin' as (Hj & _ & Hg). rewrite L1 in Hf4, Hg.
    destruct (Hel2 i Hi) as (e2 & He2 & Hg2 & Hs2). destruct (Hel2 j Hj) as (e2' & He2' & Hg2' & Hs2').
    pose proof (Hco i b f r2 j g e2 e2' Hin Hr2 HE Hin' P He2 He2') as Hcen.
    destruct (Hel3 i k e2 Hk He2) as (e & z1 & z2 & Hz1 & Hz2 & He & Hsl).
    destruct (Hel3 j k e2' Hk He2') as (e' & z1' & z2' & Hz1' & Hz2' & He' & Hsl').
    rewrite Hz1 in Hz1'. rewrite Hz2 in Hz2'. apply (inj Some) in Hz1' as <-. apply (inj Some) in Hz2' as <-.
    destruct (slab_faces e2 e z1 z2 Hg2 Hs2 Hsl) as (fc & _ & _ & F1 & F2 & _).
    destruct (slab_faces e2' e' z1 z2 Hg2' Hs2' Hsl') as (fc' & _ & _ & F1' & F2' & _).
    destruct (F1 f ltac:(lia)) as [cz Fa]. destruct (F1' g ltac:(lia)) as [cz' Fa'].
    rewrite Fa, Fa' in Hcen. injection Hcen as E1 E2 _.
    specialize (F2 f ltac:(lia)). specialize (F2' g ltac:(lia)). rewrite <- E1, <- E2 in F2'.
    eapply Hplace; done.
Qed.
End Valid.

(** ** The number of curved edges *)
Lemma sum_stack {X} (g : X → nat) (h : nat → nat) n : ∀ nz (l : list X), length l = (n * nz)%nat →
  (∀ k i x, (k < nz)%nat → (i < n)%nat → l !! (i + n * k)%nat = Some x → g x = h i) →
  sum_list_with g l = (nz * sum_list_with h (range n))%nat.
Proof.
  induction nz as [|nz IH]; intros l Hl Hg.
  { destruct l; [done|cbn in Hl; lia]. }
  rewrite <- (take_drop n l), sum_list_with_app.
  rewrite (IH (drop n l)).
  - cbn [Nat.mul]. f_equal. 
    assert (∀ (l1 : list X) (l2 : list nat), g <$> l1 = h <$> l2 → sum_list_with g l1 = sum_list_with h l2) as Hmap.
    { induction l1 as [|x l1 IHl]; intros [|y l2]; cbn; try done. intros [= E1 E2]. by rewrite E1, (IHl l2). }
    apply Hmap. apply list_eq. intros i. rewrite !list_lookup_fmap.
    destruct (decide (i < n)%nat) as [Hi|Hi].
    + rewrite lookup_take by done. destruct (lookup_lt_is_Some_2 l i) as [x Hx]; [nia|].
      rewrite Hx. unfold range. rewrite lookup_seq_lt by done. cbn. f_equal.
      apply (Hg 0%nat i x); [lia|done|]. by replace (i + n * 0)%nat with i by lia.
    + rewrite lookup_take_ge by lia. unfold range. rewrite lookup_seq_ge by lia. done.
  - rewrite drop_length. nia.
  - intros k i x Hk Hi Hx. rewrite lookup_drop in Hx. apply (Hg (S k) i x); [lia|done|].
    by replace (i + n * S k)%nat with (n + (i + n * k))%nat by lia.
Qed.
Lemma slab_curved e2 z1 z2 e : length (ccurv e2) = 12%nat → length (curv e2) = 12%nat →
  is_slab e2 z1 z2 e →
  (∀ c, (4 ≤ c < 12)%nat → ccurv e2 !! c = Some ""%string) →
  curved_edges e = (2 * curved_edges e2)%nat.
Proof.
  intros H1 H1' (_ & _ & _ & Hc & Hr) H0.
  assert (length (ccurv e) = 12%nat) as H2.
  { destruct (Hr 11%nat) as [R _]; [lia|]. destruct (Hr 12%nat) as [R' _]; [lia|].
    rewrite (H0 11%nat) in R by lia. apply lookup_lt_Some in R.
    rewrite (lookup_ge_None_2 (ccurv e2)) in R' by lia. apply lookup_ge_None in R'. lia. }
  unfold curved_edges.
  destruct (ccurv e2) as [|c0 [|c1 [|c2 [|c3 [|c4 [|c5 [|c6 [|c7 [|c8 [|c9 [|c10 [|c11 [|]]]]]]]]]]]]] eqn:EC; try done.
  destruct (curv e2) as [|v0 [|v1 [|v2 [|v3 v]]]]; try done.
  destruct (ccurv e) as [|d0 [|d1 [|d2 [|d3 [|d4 [|d5 [|d6 [|d7 [|d8 [|d9 [|d10 [|d11 [|]]]]]]]]]]]]]; try done.
  destruct (Hc 0%nat c0 v0) as (A0 & _ & B0 & _); [lia|done|done|].
  destruct (Hc 1%nat c1 v1) as (A1 & _ & B1 & _); [lia|done|done|].
  destruct (Hc 2%nat c2 v2) as (A2 & _ & B2 & _); [lia|done|done|].
  destruct (Hc 3%nat c3 v3) as (A3 & _ & B3 & _); [lia|done|done|].
  destruct (Hr 8%nat) as [R8 _]; [lia|]. destruct (Hr 9%nat) as [R9 _]; [lia|].
  destruct (Hr 10%nat) as [R10 _]; [lia|]. destruct (Hr 11%nat) as [R11 _]; [lia|].
  pose proof (H0 4%nat ltac:(lia)) as Z4. pose proof (H0 5%nat ltac:(lia)) as Z5.
  pose proof (H0 6%nat ltac:(lia)) as Z6. pose proof (H0 7%nat ltac:(lia)) as Z7.
  pose proof (H0 8%nat ltac:(lia)) as Z8. pose proof (H0 9%nat ltac:(lia)) as Z9.
  pose proof (H0 10%nat ltac:(lia)) as Z10. pose proof (H0 11%nat ltac:(lia)) as Z11.
  cbn in *. simplify_eq. cbn.
  repeat match goal with |- context [String.eqb ?x ""] => destruct (String.eqb x "") end; reflexivity.
Qed.
End Extrude.
