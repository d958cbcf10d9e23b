(** Which faces of a box are close, over the real numbers. *)
From Coq Require Import Lia Reals Lra.
From Verif Require Import Base Mesh Core Tools Float FloatLaws MeshSpec GibSpec MeshLemmas CheckProofs GeoLaws ElemProofs BoxSpec BoxProofs Restore.
Open Scope Z_scope.

(** The middle of face [f] of cell (i, j), in halves of a cell. *)
Definition place (i j f : nat) : nat * nat :=
  match f with 0 => (2 * i + 1, 2 * j) | 1 => (2 * i + 2, 2 * j + 1) | 2 => (2 * i + 1, 2 * j + 2) | _ => (2 * i, 2 * j + 1) end%nat.
Lemma place_parity i j f : Nat.odd ((place i j f).1 + (place i j f).2) = true.
Proof.
  apply Nat.odd_spec. destruct f as [|[|[|f]]]; cbn [place fst snd].
  - exists (i + j)%nat. lia. - exists (i + j + 1)%nat. lia. - exists (i + j + 1)%nat. lia. - exists (i + j)%nat. lia.
Qed.
Section Box.
Context (nx ny : nat) (xmin xmax ymin ymax : R).
Notation dx := ((xmax - xmin) / INR nx)%R.
Notation dy := ((ymax - ymin) / INR ny)%R.
Context (Hnx : (1 ≤ nx)%nat) (Hny : (1 ≤ ny)%nat) (Hx : (xmin < xmax)%R) (Hy : (ymin < ymax)%R).

Lemma coordR lo hi n k : (1 ≤ n)%nat → grid_coord (A:=AR) lo hi n k = (lo + INR k * ((hi - lo) / INR n))%R.
Proof.
  intros Hn. assert (0 < INR n)%R as Hp by (apply lt_0_INR; lia). unfold grid_coord. cbn. rewrite <- !INR_IZR_INZ. field. lra.
Qed.
Lemma box_center e i j f : (f < 4)%nat →
  is_cell (A:=AR) e (grid_coord (A:=AR) xmin xmax nx i) (grid_coord (A:=AR) xmin xmax nx (i + 1)) (grid_coord (A:=AR) ymin ymax ny j) (grid_coord (A:=AR) ymin ymax ny (j + 1)) →
  face_center (A:=AR) e (Z.of_nat f) = Ok ((xmin + INR (place i j f).1 * (dx / 2))%R, (ymin + INR (place i j f).2 * (dy / 2))%R, 0%R).
Proof.
  intros Hf Hc. destruct (cell_face_center _ _ _ _ _ Hc) as (H0 & H1 & H2 & H3). rewrite !coordR in H0, H1, H2, H3 by done.
  assert (∀ a b c a' b' c', a = a' → b = b' → c = c' → Ok (a, b, c) = Ok (a', b', c') :> res (R * R * R)) as Heq by congruence.
  assert (∀ c, mean4 (A:=AR) c c c c = c) as Hm1 by (intros c; unfold mean4; cbn; field).
  destruct f as [|[|[|[|f]]]]; [| | | |lia]; cbn [place fst snd].
  - etransitivity; [exact H0|]. apply Heq; [|rewrite Hm1|rewrite Hm1; done]; rewrite ?plus_INR, ?mult_INR; cbn [INR]; [unfold mean4; cbn; lra|lra].
  - etransitivity; [exact H1|]. apply Heq; [rewrite Hm1| |rewrite Hm1; done]; rewrite ?plus_INR, ?mult_INR; cbn [INR]; [lra|unfold mean4; cbn; lra].
  - etransitivity; [exact H2|]. apply Heq; [|rewrite Hm1|rewrite Hm1; done]; rewrite ?plus_INR, ?mult_INR; cbn [INR]; [unfold mean4; cbn; lra|lra].
  - etransitivity; [exact H3|]. apply Heq; [rewrite Hm1| |rewrite Hm1; done]; rewrite ?plus_INR, ?mult_INR; cbn [INR]; [lra|unfold mean4; cbn; lra].
Qed.
Lemma dx_pos : (0 < dx)%R. Proof. apply Rdiv_lt_0_compat; [lra|apply lt_0_INR; lia]. Qed.
Lemma dy_pos : (0 < dy)%R. Proof. apply Rdiv_lt_0_compat; [lra|apply lt_0_INR; lia]. Qed.
Lemma eq3 (a b c a' b' c' : R) : a = a' → b = b' → c = c' → (a, b, c) = (a', b', c').
Proof. congruence. Qed.
Lemma box_edge e i j : wf_geom_elem (A:=AR) e →
  is_cell (A:=AR) e (grid_coord (A:=AR) xmin xmax nx i) (grid_coord (A:=AR) xmin xmax nx (i + 1)) (grid_coord (A:=AR) ymin ymax ny j) (grid_coord (A:=AR) ymin ymax ny (j + 1)) →
  smallest_edge (A:=AR) e = Ok dx.
Proof.
  intros Hw (Es & Ep & _). rewrite !coordR in Ep by done. rewrite !plus_INR in Ep. change (INR 1) with 1%R in Ep.
  destruct (smallest_edge_box e 2 2 1 (xmin + INR i * dx) dx (ymin + INR j * dy) dy 0 0) as (s & Hs & E & _); try done.
  - intros v p Hv Hv8. unfold vertex, point in Hv. change (@eshape (num AR) e) with (@eshape R e) in Es. change (@pos (num AR) e) with (@pos R e) in Ep. rewrite Es, Ep in Hv.
    destruct v as [|[|[|[|[|[|[|[|v]]]]]]]]; [| | | | | | | |lia]; cbn in Hv; try done; apply (inj Some) in Hv as <-; cbn -[INR]; apply eq3; lra.
  - left; apply dx_pos. - left; apply dy_pos. - lra.
  - rewrite Hs. cbn [Nat.ltb Nat.leb] in E. by rewrite E.
Qed.
Lemma sqrt_far (u v s t : R) : (0 <= s)%R → ((s < Rabs u)%R ∨ (s < Rabs v)%R) → t = 0%R → ¬ (R_sqrt.sqrt (u * u + v * v + t * t) <= s)%R.
Proof.
  intros Hs Huv -> H. apply (Rle_not_lt _ _ H). destruct Huv as [Hu|Hv].
  - eapply Rlt_le_trans; [exact Hu|]. rewrite <- R_sqrt.sqrt_Rsqr_abs. apply R_sqrt.sqrt_le_1_alt. unfold Rsqr. nra.
  - eapply Rlt_le_trans; [exact Hv|]. rewrite <- R_sqrt.sqrt_Rsqr_abs. apply R_sqrt.sqrt_le_1_alt. unfold Rsqr. nra.
Qed.
Lemma INR_apart a b n : (a + n ≤ b ∨ b + n ≤ a)%nat → (INR n <= Rabs (INR b - INR a))%R.
Proof.
  intros [H|H]; apply le_INR in H; rewrite plus_INR in H.
  - rewrite Rabs_right; [lra|]. pose proof (pos_INR n). lra.
  - rewrite Rabs_left1; [lra|]. pose proof (pos_INR n). lra.
Qed.
Lemma box_close tol m i j f i' j' g : wf_mesh (A:=AR) m → is_grid (A:=AR) nx ny xmin xmax ymin ymax m → (i < nx)%nat → (j < ny)%nat → (i' < nx)%nat → (j' < ny)%nat →
  (f < 4)%nat → (g < 4)%nat → (0 <= tol < 1 / 2)%R → (tol * dx < dy)%R →
  close_faces (A:=AR) tol m (i + nx * j) f (i' + nx * j') g ↔ place i j f = place i' j' g.
Proof.
  intros Hw (_ & _ & _ & _ & _ & HG) Hi Hj Hi' Hj' Hf Hg Ht Hty. pose proof dx_pos as Px. pose proof dy_pos as Py.
  destruct (HG i j Hi Hj) as (e & He & Hc). destruct (HG i' j' Hi' Hj') as (e' & He' & Hc').
  pose proof (box_center e i j f Hf Hc) as F1. pose proof (box_center e' i' j' g Hg Hc') as F2.
  pose proof (box_edge e i j (proj2 Hw e (elem_of_list_lookup_2 _ _ _ He)) Hc) as S1.
  pose proof (box_edge e' i' j' (proj2 Hw e' (elem_of_list_lookup_2 _ _ _ He')) Hc') as S2.
  pose proof (place_parity i j f) as Q1. pose proof (place_parity i' j' g) as Q2.
  destruct (place i j f) as [a b], (place i' j' g) as [a' b']. cbn [fst snd] in *.
  assert (pymin (A:=AR) dx dx = dx) as Epm by (unfold pymin; cbn; unfold Rltb; destruct (Rlt_dec _ _); done).
  split.
  - intros (e1 & e2 & c1 & c2 & s1 & s2 & E1 & E2 & E3 & E4 & E5 & E6 & E7).
    assert (e1 = e) as -> by (rewrite He in E1; by apply (inj Some) in E1). assert (e2 = e') as -> by (rewrite He' in E2; by apply (inj Some) in E2).
    rewrite F1 in E3. injection E3 as <-. rewrite F2 in E4. injection E4 as <-. rewrite S1 in E5. injection E5 as <-. rewrite S2 in E6. injection E6 as <-.
    rewrite Epm in E7. cbn in E7. unfold Rleb in E7. unfold nsq in E7. cbn in E7.
    destruct (Rle_dec _ _) as [Hle|]; [|done]. clear E7.
    destruct (decide (a = a')) as [<-|Ha].
    + destruct (decide (b = b')) as [<-|Hb]; [done|exfalso]. revert Hle. apply sqrt_far; [nra| |lra]. right.
      assert (b + 2 ≤ b' ∨ b' + 2 ≤ b)%nat as Hab. { apply Nat.odd_spec in Q1 as [q Q1], Q2 as [q' Q2]. lia. }
      apply INR_apart in Hab. replace (ymin + INR b' * (dy / 2) - (ymin + INR b * (dy / 2)))%R with ((INR b' - INR b) * (dy / 2))%R by ring.
      rewrite Rabs_mult, (Rabs_right (dy / 2)) by lra. change (INR 2) with 2%R in Hab. nra.
    + exfalso. revert Hle. apply sqrt_far; [nra| |lra]. left.
      assert (a + 1 ≤ a' ∨ a' + 1 ≤ a)%nat as Hab by lia.
      apply INR_apart in Hab. replace (xmin + INR a' * (dx / 2) - (xmin + INR a * (dx / 2)))%R with ((INR a' - INR a) * (dx / 2))%R by ring.
      rewrite Rabs_mult, (Rabs_right (dx / 2)) by lra. change (INR 1) with 1%R in Hab. nra.
  - intros [= <- <-]. do 6 eexists. split; [exact He|]. split; [exact He'|]. split; [exact F1|]. split; [exact F2|]. split; [exact S1|]. split; [exact S2|].
    rewrite Epm. cbn. unfold Rleb, nsq. cbn. destruct (Rle_dec _ _) as [|Hle]; [done|]. exfalso. apply Hle.
    match goal with |- (R_sqrt.sqrt ?z <= _)%R => replace z with 0%R by ring end. rewrite R_sqrt.sqrt_0. nra.
Qed.

(** ** The conditions *)
Definition next_cell (i j f : nat) : nat * nat * nat :=
  match f with 0 => (i, j - 1, 2) | 1 => (i + 1, j, 3) | 2 => (i, j + 1, 0) | _ => (i - 1, j, 1) end%nat.
Lemma next_cell_ok i j f : (i < nx)%nat → (j < ny)%nat → (f < 4)%nat → ¬ on_boundary nx ny i j f →
  let '(i', j', f') := next_cell i j f in (i' < nx)%nat ∧ (j' < ny)%nat ∧ (f' < 4)%nat ∧ ¬ on_boundary nx ny i' j' f' ∧ (i', j') ≠ (i, j) ∧
    next_cell i' j' f' = (i, j, f) ∧ place i' j' f' = place i j f.
Proof.
  intros Hi Hj Hf Hb. destruct f as [|[|[|[|f]]]]; [| | | |lia]; cbn [next_cell on_boundary place] in *; split_and!; try lia; try (intros [=]; lia); repeat f_equal; lia.
Qed.
Lemma place_next i j f i' j' g : (i < nx)%nat → (j < ny)%nat → (f < 4)%nat → (g < 4)%nat → ¬ on_boundary nx ny i j f →
  (i, j) ≠ (i', j') → place i j f = place i' j' g → (i', j', g) = next_cell i j f.
Proof.
  intros Hi Hj Hf Hg Hb Hne E. destruct f as [|[|[|[|f]]]]; [| | | |lia]; (destruct g as [|[|[|[|g]]]]; [| | | |lia]); cbn [next_cell on_boundary place] in *; injection E as E1 E2;
    try (exfalso; lia); try (exfalso; apply Hne; f_equal; lia); repeat f_equal; lia.
Qed.
Context (bo : string) (var : list nat) (nb : nat) (sd : nat → sides).
Notation box internal := (box3 (A:=AR) bo nx ny xmin xmax ymin ymax var nb sd internal).
Context (Hsd : ∀ b, (b < nb)%nat → sides_ok (sd b)) (Hnb : (1 ≤ nb)%nat).
Lemma box_entry_inner i j b f : (i < nx)%nat → (j < ny)%nat → (b < nb)%nat → (f < 4)%nat → ¬ on_boundary nx ny i j f →
  let '(i', j', f') := next_cell i j f in
  get_bc (box true) (elnum i j nx) b f = Some (internal_entry (A:=AR) (elnum i j nx) f (elnum i' j' nx) f').
Proof.
  intros Hi Hj Hb Hf Hn. pose proof (box3_get (A:=AR) bo nx ny xmin xmax ymin ymax var nb sd true i j b f Hi Hj Hb ltac:(lia)) as Hg.
  destruct f as [|[|[|[|f]]]]; [| | | |lia]; cbn [next_cell on_boundary h_lr h_bt h_internal] in *; rewrite Hg; f_equal;
    rewrite (proj2 (Nat.eqb_neq _ _) Hn); cbn [negb]; unfold box_link, internal_entry; f_equal; try lia; apply f_equal; lia.
Qed.
Lemma box_entry_outer internal i j b f : (i < nx)%nat → (j < ny)%nat → (b < nb)%nat → (f < 6)%nat → (f < 4 → on_boundary nx ny i j f)%nat →
  ∃ r, get_bc (box true) (elnum i j nx) b f = Some r ∧ get_bc (box internal) (elnum i j nx) b f = Some r ∧ bt r ≠ "E"%string ∧
    (f < 4 → bt r ≠ "")%nat.
Proof.
  intros Hi Hj Hb Hf Hn. rewrite !(box3_get (A:=AR)) by done. specialize (Hsd b Hb).
  destruct Hsd as ((U1 & U2 & U3) & (V1 & V2 & V3) & (W1 & W2 & W3) & (X1 & X2 & X3) & _).
  assert (∀ c a b0 c0 d r, u3 c = c → c ≠ "E"%string → c ≠ ""%string → bt (box_bc (A:=AR) c a b0 c0 d r) ≠ "E"%string ∧ bt (box_bc (A:=AR) c a b0 c0 d r) ≠ ""%string) as Hbc.
  { intros c a b0 c0 d r E1 E2 E3. unfold box_bc. destruct (String.eqb c "P"); cbn; rewrite E1; done. }
  destruct f as [|[|[|[|f]]]]; cbn [on_boundary h_lr h_bt h_internal] in *.
  1-4: specialize (Hn ltac:(lia)); rewrite (proj2 (Nat.eqb_eq _ _) Hn); cbn [negb]; eexists; split; [reflexivity|]; split; [destruct internal; cbn [h_internal]; rewrite ?(proj2 (Nat.eqb_eq _ _) Hn); done|];
    split; [|intros _]; by apply Hbc.
  eexists. split; [reflexivity|]. destruct f as [|[|f]]; [| |lia]; cbn [h_lr h_bt h_internal]; (split; [by destruct internal|]); split; (done || lia).
Qed.
Lemma on_boundary_dec i j f : on_boundary nx ny i j f ∨ ¬ on_boundary nx ny i j f.
Proof. destruct f as [|[|[|f]]]; cbn; lia. Qed.
Lemma box_bc_dom internal k b f r : get_bc (box internal) k b f = Some r → ∃ i j, (i < nx)%nat ∧ (j < ny)%nat ∧ (b < nb)%nat ∧ (f < 6)%nat ∧ k = elnum i j nx.
Proof.
  intros Hr. pose proof (box3_wf (A:=AR) bo nx ny xmin xmax ymin ymax var nb sd Hnx Hny internal) as [(_ & Hl & Hrow) _].
  destruct (box3_grid (A:=AR) bo nx ny xmin xmax ymin ymax var nb sd internal) as ((_ & G2 & _) & G4 & _).
  destruct (get_bc_Some_shape _ _ _ _ _ Hr) as (e & row & R1 & R2 & R3). pose proof (Hrow e (elem_of_list_lookup_2 _ _ _ R1)) as [L1 L2].
  specialize (L2 row (elem_of_list_lookup_2 _ _ _ R2)). apply lookup_lt_Some in R1, R2, R3.
  rewrite Hl, G2 in R1. apply elnum_div in R1 as (i & j & Hi & Hj & ->). exists i, j. rewrite L1, G4 in R2. rewrite L2 in R3. done.
Qed.
Lemma elnum_inj i j i' j' : (i < nx)%nat → (i' < nx)%nat → elnum i j nx = elnum i' j' nx → i = i' ∧ j = j'.
Proof.
  unfold elnum. intros H1 H2 E. assert (j = j') as ->; [|lia].
  destruct (Nat.lt_trichotomy j j') as [L|[L|L]]; [exfalso|done|exfalso]; nia.
Qed.
Lemma box_connected tol : (0 <= tol < 1 / 2)%R → (tol * dx < dy)%R → connected_by_place (A:=AR) tol (box true).
Proof.
  intros Ht Hty. pose proof (box3_wf (A:=AR) bo nx ny xmin xmax ymin ymax var nb sd Hnx Hny true) as Hw.
  destruct (box3_grid (A:=AR) bo nx ny xmin xmax ymin ymax var nb sd true) as (HG & G4 & _). pose proof HG as (G1 & G2 & _).
  assert (∀ i j, (i < nx)%nat → (j < ny)%nat → (elnum i j nx < nel (box true))%nat) as Hel by (intros i j ? ?; rewrite G2; unfold elnum; nia).
  split.
  - intros k b f r Hr Hrt. destruct (box_bc_dom true k b f r Hr) as (i & j & Hi & Hj & Hb & Hf & ->).
    assert (f < 4 ∧ ¬ on_boundary nx ny i j f)%nat as [Hf4 Hon].
    { destruct (on_boundary_dec i j f) as [Ho|Ho], (Nat.lt_ge_cases f 4) as [Hf4|Hf4]; try done; exfalso.
      all: destruct (box_entry_outer true i j b f) as (r' & Hr' & _ & HE & _); try done; try lia; rewrite Hr in Hr'; apply (inj Some) in Hr' as <-; done. }
    pose proof (next_cell_ok i j f Hi Hj Hf4 Hon) as HN. destruct (next_cell i j f) as [[i' j'] f'] eqn:EN. destruct HN as (Hi' & Hj' & Hf' & Hon' & Hne & EN' & _).
    split; [rewrite G1; lia|]. exists (elnum i' j' nx), f'. split; [split; [by apply Hel|rewrite G1; lia]|].
    split. { intros E. apply elnum_inj in E as [-> ->]; [|done..]. by apply Hne. }
    intros b' Hb'. rewrite G4 in Hb'. unfold linked.
    pose proof (box_entry_inner i j b' f Hi Hj Hb' Hf4 Hon) as E1. pose proof (box_entry_inner i' j' b' f' Hi' Hj' Hb' Hf' Hon') as E2.
    rewrite EN in E1. rewrite EN' in E2. done.
  - intros k f k' g Hlt Ik Ik'.
    assert (∀ k f, inner (A:=AR) (box true) k f → ∃ i j, (i < nx)%nat ∧ (j < ny)%nat ∧ k = elnum i j nx ∧ (f < 4)%nat ∧ ¬ on_boundary nx ny i j f) as Hinn.
    { clear -Hsd Hnb G1 Hnx Hny. intros k f [[_ Hf] (r & Hr & Hrt)]. rewrite G1 in Hf. destruct (box_bc_dom true k 0 f r Hr) as (i & j & Hi & Hj & Hb & _ & ->).
      exists i, j. split_and!; try done; try lia. intros Ho. destruct (box_entry_outer true i j 0 f) as (r' & Hr' & _ & H1 & H2); try done; try lia.
      rewrite Hr in Hr'. apply (inj Some) in Hr' as <-. destruct Hrt as [Hrt|Hrt]; [|done]. apply H2; [lia|done]. }
    destruct (Hinn k f Ik) as (i & j & Hi & Hj & -> & Hf & Hon). destruct (Hinn k' g Ik') as (i' & j' & Hi' & Hj' & -> & Hg & Hon'). clear Hinn.
    pose proof (box_close tol (box true) i j f i' j' g Hw HG Hi Hj Hi' Hj' Hf Hg Ht Hty) as HC. unfold elnum in *. rewrite HC. unfold linked.
    pose proof (box_entry_inner i j 0 f Hi Hj ltac:(lia) Hf Hon) as E1. unfold elnum in E1.
    pose proof (next_cell_ok i j f Hi Hj Hf Hon) as HN. split.
    + intros HP. pose proof (place_next i j f i' j' g Hi Hj Hf Hg Hon) as Hnx'. rewrite <- Hnx' in E1; [done| |done]. intros [= -> ->]. lia.
    + intros HL. destruct (next_cell i j f) as [[i2 j2] f2]. destruct HN as (Hi2 & Hj2 & _ & _ & _ & _ & <-). rewrite HL in E1. apply (inj Some) in E1.
      unfold internal_entry in E1. cbn in E1. injection E1 as Q1 Q2. apply eq_IZR in Q1, Q2.
      destruct (elnum_inj i' j' i2 j2) as [-> ->]; [done..|unfold elnum; lia|]. replace g with f2 by lia. done.
Qed.
End Box.

(** ** The number of connections *)
Lemma filter_prod2_length {X Y} (h : X * Y → bool) (xs : list X) (ys : list Y) :
  length (List.filter h (prod2 xs ys)) = sum_list ((λ x, length (List.filter (λ y, h (x, y)) ys)) <$> xs).
Proof.
  unfold prod2. induction xs as [|x xs IH]; [done|]. cbn [mbind list_bind]. rewrite List.filter_app, app_length. cbn [fmap list_fmap sum_list sum_list_with foldr]. 
  rewrite <- IH. f_equal. clear. induction ys as [|y ys IH]; [done|]. cbn. destruct (h (x, y)); cbn; by rewrite IH.
Qed.
Lemma range_mul_sum (g : nat → nat) n k : sum_list (g <$> range (n * k)) = sum_list ((λ j, sum_list ((λ i, g (i + n * j)%nat) <$> range n)) <$> range k).
Proof.
  induction k as [|k IH]; [by rewrite Nat.mul_0_r|]. unfold range in *. rewrite seq_S, fmap_app, sum_list_with_app, <- IH. cbn [fmap list_fmap sum_list_with].
  replace (n * S k)%nat with (n * k + n)%nat by lia. rewrite seq_app, fmap_app, sum_list_with_app. f_equal. cbn. rewrite Nat.add_0_r. f_equal.
  replace (seq (n * k) n) with (Nat.add (n * k) <$> seq 0 n) by (by rewrite fmap_add_seq, Nat.add_0_r). rewrite <- list_fmap_compose. apply list_fmap_ext. intros i x _. cbn. f_equal. lia.
Qed.

Lemma sum_const {X} (l : list X) c : sum_list ((λ _, c) <$> l) = (length l * c)%nat.
Proof. induction l as [|x l IH]; [done|]. cbn in *. lia. Qed.
Lemma sum_plus {X} (l : list X) (g h : X → nat) : sum_list ((λ x, (g x + h x)%nat) <$> l) = (sum_list (g <$> l) + sum_list (h <$> l))%nat.
Proof. induction l as [|x l IH]; [done|]. cbn in *. lia. Qed.
Lemma sum_ext_range (n : nat) (g h : nat → nat) : (∀ i, (i < n)%nat → g i = h i) → sum_list (g <$> range n) = sum_list (h <$> range n).
Proof. intros H. f_equal. apply list_fmap_ext. intros i x Hx. unfold range in Hx. apply lookup_seq in Hx as [-> Hx]. apply H. lia. Qed.
Lemma sum_but_last n : (1 ≤ n)%nat → sum_list ((λ i, if (i =? n - 1)%nat then 0%nat else 1%nat) <$> range n) = (n - 1)%nat.
Proof.
  intros Hn. destruct n as [|n]; [lia|]. unfold range. rewrite seq_S, fmap_app, sum_list_with_app. cbn [fmap list_fmap sum_list_with].
  cbn [Nat.sub]. rewrite Nat.sub_0_r, Nat.add_0_l, Nat.eqb_refl.
  fold (range n). rewrite (sum_ext_range n _ (λ _, 1%nat)); [|intros i Hi; by rewrite (proj2 (Nat.eqb_neq i n)) by lia].
  rewrite sum_const. unfold range. rewrite seq_length. cbn. lia.
Qed.
Lemma box_count nx ny (p : nat → nat → option (nat * nat)) (m : hexa R) : (1 ≤ nx)%nat → (1 ≤ ny)%nat → @nel (num AR) m = (nx * ny)%nat → @ndim (num AR) m = 2%nat →
  (∀ i j f, (i < nx)%nat → (j < ny)%nat → (f < 4)%nat → forward p (elnum i j nx, f) =
     match f with 1%nat => negb (i =? nx - 1)%nat | 2%nat => negb (j =? ny - 1)%nat | _ => false end) →
  connections (A:=AR) m p = ((nx - 1) * ny + nx * (ny - 1))%nat.
Proof.
  intros Hnx Hny Hn Hd HF. unfold connections. rewrite Hn, Hd, filter_prod2_length, range_mul_sum.
  transitivity (sum_list ((λ j, (nx - 1) + nx * (if (j =? ny - 1)%nat then 0 else 1)) <$> range ny))%nat.
  - apply sum_ext_range. intros j Hj.
    transitivity (sum_list ((λ i, (if (i =? nx - 1)%nat then 0 else 1) + (if (j =? ny - 1)%nat then 0 else 1)) <$> range nx))%nat.
    + apply sum_ext_range. intros i Hi. change (range (2 * 2)) with [0; 1; 2; 3]%nat. change (i + nx * j)%nat with (elnum i j nx).
      cbn [List.filter]. rewrite !HF by lia. destruct (i =? nx - 1)%nat, (j =? ny - 1)%nat; done.
    + rewrite sum_plus, sum_but_last, sum_const by done. unfold range. by rewrite seq_length.
  - rewrite sum_plus, sum_const. unfold range at 1. rewrite seq_length.
    assert (∀ l : list nat, sum_list ((λ j, nx * (if (j =? ny - 1)%nat then 0 else 1)) <$> l) = nx * sum_list ((λ j, if (j =? ny - 1)%nat then 0 else 1) <$> l))%nat as ->.
    { induction l as [|x l IH]; cbn in *; [lia|]. destruct (x =? ny - 1)%nat; lia. }
    rewrite sum_but_last by done. lia.
Qed.
