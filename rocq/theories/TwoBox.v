(** Merging two boxes side by side, over the real numbers. *)
From Coq Require Import Lia Reals Lra.
From Verif Require Import Base Mesh Core Tools Float FloatLaws GeoLaws MeshLemmas MeshSpec CheckProofs BoxSpec BoxProofs RestoreBox MergeSpec MergeProofs P_Merge
  HistorySpec History P_Box P_History TwoBoxSpec.
Open Scope Z_scope.

Lemma grid_num nx i j i' j' : (i < nx)%nat → (i' < nx)%nat → (i + nx * j = i' + nx * j')%nat → i = i' ∧ j = j'.
Proof. intros H1 H2 E. assert (j = j') as -> by nia. split; [lia|done]. Qed.

Lemma coordR' lo hi k i : (1 ≤ k)%nat → grid_coord (A:=AR) lo hi k i = (lo + INR i * ((hi - lo) / INR k))%R.
Proof. intros Hk. by apply (coordR k k). Qed.

Section Two.
Context (nx1 nx2 ny : nat) (x0 x1 x2 y0 y1 tol : R) (ie : bool).
Context (H1 : (1 ≤ nx1)%nat) (H2 : (1 ≤ nx2)%nat) (Hy : (1 ≤ ny)%nat) (Hx01 : (x0 < x1)%R) (Hx12 : (x1 < x2)%R) (Hy01 : (y0 < y1)%R).
Notation dx1 := ((x1 - x0) / INR nx1)%R.
Notation dx2 := ((x2 - x1) / INR nx2)%R.
Notation dy := ((y1 - y0) / INR ny)%R.
Context (Ht : (0 <= tol < 1 / 2)%R) (Hty : (tol * Rmin dx1 dx2 < dy)%R).
Context (nb : nat) (Hnb : (0 < nb)%nat) (sa sb : nat → sides).
Context (Sa : ∀ b, (b < nb)%nat → sides_ok (sa b)) (Sb : ∀ b, (b < nb)%nat → sides_ok (sb b)).
Context (Pa : same_periodicity nb sa) (Pb : same_periodicity nb sb).
Context (Pab : s_left (sa 0%nat) = "P"%string ↔ s_left (sb 0%nat) = "P"%string).
Context (ma mb : hexa (num AR)).
Context (Wa : wf_mesh (A:=AR) ma) (Wb : wf_mesh (A:=AR) mb).
Context (Ga : is_grid (A:=AR) nx1 ny x0 x1 y0 y1 ma) (Gb : is_grid (A:=AR) nx2 ny x1 x2 y0 y1 mb).
Context (Na : nbc ma = nb) (Nb : nbc mb = nb).
Context (Ea : ∀ i j b f, (i < nx1)%nat → (j < ny)%nat → (b < nb)%nat → (f < 4)%nat →
     ∃ r, get_bc ma (i + nx1 * j)%nat b f = Some r ∧ is_cell_bc (A:=AR) nx1 ny (sa b) i j f r).
Context (Eb : ∀ i j b f, (i < nx2)%nat → (j < ny)%nat → (b < nb)%nat → (f < 4)%nat →
     ∃ r, get_bc mb (i + nx2 * j)%nat b f = Some r ∧ is_cell_bc (A:=AR) nx2 ny (sb b) i j f r).

Lemma min_dx : pymin (A:=AR) dx2 dx1 = Rmin dx1 dx2.
Proof. unfold pymin. cbn. unfold Rltb, Rmin. destruct (Rlt_dec dx1 dx2), (Rle_dec dx1 dx2); lra. Qed.
Lemma min_pos : (0 < Rmin dx1 dx2)%R.
Proof.
  apply Rmin_glb_lt; apply Rdiv_lt_0_compat; try lra; apply lt_0_INR; lia.
Qed.
(** Which faces touch. *)
Lemma touch_iff i' j' f' i j f : (i' < nx2)%nat → (j' < ny)%nat → (f' < 4)%nat → (i < nx1)%nat → (j < ny)%nat → (f < 4)%nat →
  touching (A:=AR) tol ma mb (i' + nx2 * j', f')%nat (i + nx1 * j, f)%nat ↔ (i' = 0 ∧ f' = 3 ∧ i = nx1 - 1 ∧ f = 1 ∧ j' = j)%nat.
Proof.
  intros Hi' Hj' Hf' Hi Hj Hf. pose proof min_pos as Hm. pose proof (Rmin_l dx1 dx2) as M1. pose proof (Rmin_r dx1 dx2) as M2.
  destruct Ga as (_ & _ & _ & _ & _ & HGa), Gb as (_ & _ & _ & _ & _ & HGb).
  destruct (HGa i j Hi Hj) as (ea & Hea & Ca). destruct (HGb i' j' Hi' Hj') as (eb & Heb & Cb).
  pose proof (box_center nx1 ny x0 x1 y0 y1 H1 Hy ea i j f Hf Ca) as Fa. pose proof (box_center nx2 ny x1 x2 y0 y1 H2 Hy eb i' j' f' Hf' Cb) as Fb.
  pose proof (box_edge nx1 ny x0 x1 y0 y1 H1 Hy Hx01 Hy01 ea i j (proj2 Wa ea (elem_of_list_lookup_2 _ _ _ Hea)) Ca) as La.
  pose proof (box_edge nx2 ny x1 x2 y0 y1 H2 Hy Hx12 Hy01 eb i' j' (proj2 Wb eb (elem_of_list_lookup_2 _ _ _ Heb)) Cb) as Lb.
  assert ((place i j f).1 ≤ 2 * nx1)%nat as B1 by (destruct f as [|[|[|[|f]]]]; cbn [place fst]; lia).
  assert ((place i j f).1 = 2 * nx1 ↔ i = nx1 - 1 ∧ f = 1)%nat as B2 by (destruct f as [|[|[|[|f]]]]; cbn [place fst]; lia).
  assert ((place i' j' f').1 = 0 ↔ i' = 0 ∧ f' = 3)%nat as B3 by (destruct f' as [|[|[|[|f']]]]; cbn [place fst]; lia).
  assert (f = 1 → (place i j f).2 = 2 * j + 1)%nat as B4 by (intros ->; cbn [place snd]; lia).
  assert (f' = 3 → (place i' j' f').2 = 2 * j' + 1)%nat as B5 by (intros ->; cbn [place snd]; lia).
  destruct (place i j f) as [a b], (place i' j' f') as [a' b']. cbn [fst snd] in *.
  assert (x1 = x0 + INR (2 * nx1) * (dx1 / 2))%R as Ex.
  { rewrite mult_INR. cbn [INR]. assert (0 < INR nx1)%R by (apply lt_0_INR; lia). field. lra. }
  assert (∀ n, (x1 + INR n * (dx2 / 2) - (x0 + INR a * (dx1 / 2)) = INR (2 * nx1 - a) * (dx1 / 2) + INR n * (dx2 / 2))%R) as Ed.
  { intros k. rewrite Ex at 1. rewrite minus_INR by done. lra. }
  split.
  - intros (e1 & e2 & c1 & c2 & s1 & s2 & D1 & D2 & D3 & D4 & D5 & D6 & D7). cbn [fst snd] in *.
    assert (e1 = eb) as -> by (rewrite Heb in D1; by apply (inj Some) in D1). assert (e2 = ea) as -> by (rewrite Hea in D2; by apply (inj Some) in D2).
    rewrite Fb in D3. injection D3 as <-. rewrite Fa in D4. injection D4 as <-. rewrite Lb in D5. injection D5 as <-. rewrite La in D6. injection D6 as <-.
    rewrite min_dx in D7. cbn in D7. unfold Rleb in D7. unfold nsq in D7. cbn in D7. destruct (Rle_dec _ _) as [Hle|]; [|done]. clear D7.
    destruct (decide (a = 2 * nx1 ∧ a' = 0)%nat) as [[Ha Ha']|Hn].
    + destruct (proj1 B2 Ha) as [-> ->]. destruct (proj1 B3 Ha') as [-> ->]. split_and!; try done. specialize (B4 eq_refl). specialize (B5 eq_refl). subst b b'.
      destruct (decide (j' = j)) as [|Hne]; [done|exfalso]. revert Hle. apply sqrt_far; [nra| |lra]. right.
      assert (2 * j + 1 + 2 ≤ 2 * j' + 1 ∨ 2 * j' + 1 + 2 ≤ 2 * j + 1)%nat as Hab by lia. apply INR_apart in Hab.
      assert (0 < dy)%R as Hdy by (apply Rdiv_lt_0_compat; [lra|apply lt_0_INR; lia]).
      match goal with |- (_ < Rabs ?z)%R => replace z with (- ((INR (2 * j' + 1) - INR (2 * j + 1)) * (dy / 2)))%R by ring || replace z with ((INR (2 * j' + 1) - INR (2 * j + 1)) * (dy / 2))%R by ring end.
      rewrite ?Rabs_Ropp, Rabs_mult, (Rabs_right (dy / 2)) by lra. change (INR 2) with 2%R in Hab. nra.
    + exfalso. revert Hle. apply sqrt_far; [nra| |lra]. left.
      assert (1 <= INR (2 * nx1 - a) + INR a')%R as Hs.
      { rewrite <- plus_INR. change 1%R with (INR 1). apply le_INR. lia. }
      pose proof (pos_INR (2 * nx1 - a)) as Q1. pose proof (pos_INR a') as Q2.
      assert (Rmin dx1 dx2 / 2 <= INR (2 * nx1 - a) * (dx1 / 2) + INR a' * (dx2 / 2))%R as Hd by nra.
      match goal with |- (_ < Rabs ?z)%R => replace z with (- (INR (2 * nx1 - a) * (dx1 / 2) + INR a' * (dx2 / 2)))%R by (rewrite <- Ed; ring) || replace z with (INR (2 * nx1 - a) * (dx1 / 2) + INR a' * (dx2 / 2))%R by (rewrite <- Ed; ring) end.
      rewrite ?Rabs_Ropp, Rabs_right by nra. nra.
  - intros (-> & -> & -> & -> & ->). specialize (B4 eq_refl). specialize (B5 eq_refl). assert (a = 2 * nx1)%nat as -> by (by apply B2). assert (a' = 0)%nat as -> by (by apply B3). subst b b'.
    exists eb, ea. do 4 eexists. cbn [fst snd]. split; [exact Heb|]. split; [exact Hea|]. split; [exact Fb|]. split; [exact Fa|]. split; [exact Lb|]. split; [exact La|].
    rewrite min_dx. cbn. unfold Rleb, nsq. cbn. destruct (Rle_dec _ _) as [|Hle]; [done|]. exfalso. apply Hle.
    match goal with |- (R_sqrt.sqrt ?z <= _)%R => replace z with 0%R end; [rewrite R_sqrt.sqrt_0; nra|].
    specialize (Ed 0%nat). rewrite Nat.sub_diag in Ed. cbn [INR] in Ed. rewrite !Rmult_0_l, Rplus_0_r, Rplus_0_r in Ed.
    rewrite Rmult_0_l, Rplus_0_r. cbn in Ed |- *. nra.
Qed.

Lemma pinj (r : bcrec (num AR)) j g j' g' : points (A:=AR) r j g → points (A:=AR) r j' g' → (j, g) = (j', g').
Proof.
  intros [A1 A2] [B1 B2]. rewrite A1 in B1. rewrite A2 in B2. cbn in B1, B2. apply eq_IZR in B1, B2. f_equal; lia.
Qed.
Lemma seamA (m : hexa (num AR)) nx xl xr (s : nat → sides) (G : is_grid (A:=AR) nx ny xl xr y0 y1 m) z :
  (z.1 < nel m ∧ z.2 < 2 * ndim m)%nat → ∃ i j f, (i < nx)%nat ∧ (j < ny)%nat ∧ (f < 4)%nat ∧ z = (i + nx * j, f)%nat.
Proof.
  destruct G as (G1 & G2 & _). rewrite G1, G2. intros [Hz1 Hz2]. apply elnum_div in Hz1 as (i & j & Hi & Hj & E). unfold elnum in E.
  exists i, j, z.2. split_and!; try lia. destruct z as [z1 z2]. cbn in *. by rewrite E.
Qed.
(** The contacts: the right faces of the left box and the left faces of the right box. *)
Definition seam : list ((nat * nat) * (nat * nat)) := (λ j, ((nx2 * j, 3), (nx1 - 1 + nx1 * j, 1)))%nat <$> seq 0 ny.
Lemma seam_iff x y : contact (A:=AR) tol ie ma mb x y ↔ (x, y) ∈ seam.
Proof.
  unfold seam. rewrite elem_of_list_fmap. split.
  - intros ([Hx _] & [Hy' _] & Hc). destruct (seamA mb nx2 x1 x2 sb Gb x Hx) as (i' & j' & f' & A1 & A2 & A3 & ->).
    destruct (seamA ma nx1 x0 x1 sa Ga y Hy') as (i & j & f & C1 & C2 & C3 & ->). apply touch_iff in Hc as (-> & -> & -> & -> & ->); try done.
    exists j. split; [repeat f_equal; lia|]. apply elem_of_seq. lia.
  - intros (j & E & Hj). apply elem_of_seq in Hj. injection E as -> ->.
    assert (free_face (A:=AR) ie mb (nx2 * j, 3)%nat) as F1.
    { split; [destruct Gb as (-> & -> & _); cbn; nia|]. destruct (Eb 0 j 0 3)%nat as (r & Hr & Hc); try lia. exists r. split; [exact Hr|].
      unfold is_cell_bc in Hc. cbn [cell_face] in Hc. rewrite decide_True in Hc by done. destruct Hc as [-> _]. destruct (Sb 0%nat Hnb) as (_ & _ & _ & (_ & N1 & N2) & _). done. }
    assert (free_face (A:=AR) ie ma (nx1 - 1 + nx1 * j, 1)%nat) as F2.
    { split; [destruct Ga as (-> & -> & _); cbn; nia|]. destruct (Ea (nx1 - 1) j 0 1)%nat as (r & Hr & Hc); try lia. exists r. split; [exact Hr|].
      unfold is_cell_bc in Hc. cbn [cell_face] in Hc. rewrite decide_True in Hc by done. destruct Hc as [-> _]. destruct (Sa 0%nat Hnb) as (_ & (_ & N1 & N2) & _). done. }
    split; [done|]. split; [done|]. replace (nx2 * j)%nat with (0 + nx2 * j)%nat by lia. apply touch_iff; try lia.
Qed.
Lemma seam_in x y : (x, y) ∈ seam ↔ ∃ j, (j < ny)%nat ∧ x = (nx2 * j, 3)%nat ∧ y = (nx1 - 1 + nx1 * j, 1)%nat.
Proof.
  unfold seam. rewrite elem_of_list_fmap. split.
  - intros (j & E & Hj). injection E as -> ->. apply elem_of_seq in Hj. exists j. split; [lia|done].
  - intros (j & Hj & -> & ->). exists j. split; [done|]. apply elem_of_seq. lia.
Qed.
Lemma seam_unique : unique_contacts (A:=AR) tol ie ma mb.
Proof.
  split.
  - intros x y y' A1 A2. apply seam_iff, seam_in in A1 as (j & Hj & -> & ->). apply seam_iff, seam_in in A2 as (j' & Hj' & E & ->). injection E as E.
    assert (j = j') as -> by nia. done.
  - intros x x' y A1 A2. apply seam_iff, seam_in in A1 as (j & Hj & -> & ->). apply seam_iff, seam_in in A2 as (j' & Hj' & -> & E). injection E as E.
    assert (j = j') as -> by nia. done.
Qed.
Lemma per_iff (m : hexa (num AR)) nx (s : nat → sides) i j f : (∃ r, get_bc m (i + nx * j)%nat 0 f = Some r ∧ is_cell_bc (A:=AR) nx ny (s 0%nat) i j f r) →
  periodic (A:=AR) m (i + nx * j, f)%nat ↔ (cell_face nx ny (s 0%nat) i j f).1 = "P"%string.
Proof.
  intros (r & Hr & Hc). unfold periodic. cbn [fst snd]. unfold is_cell_bc in Hc. destruct (cell_face nx ny (s 0%nat) i j f) as [t [[i' j'] f']]. destruct Hc as [Hc _]. cbn [fst].
  split; [|intros Ht0; exists r; split; [done|congruence]]. intros (r' & Hr' & Ht'). rewrite Hr in Hr'. apply (inj Some) in Hr' as <-. congruence.
Qed.
Lemma seam_periodic : periodic_meets_periodic (A:=AR) tol ie ma mb.
Proof.
  intros x y A1. apply seam_iff, seam_in in A1 as (j & Hj & -> & ->). replace (nx2 * j)%nat with (0 + nx2 * j)%nat by lia.
  rewrite (per_iff mb nx2 sb), (per_iff ma nx1 sa) by (apply Eb || apply Ea; lia). cbn [cell_face]. rewrite !decide_True by done. cbn [fst].
  destruct (Sa 0%nat Hnb) as (_ & _ & _ & _ & _ & Q1). rewrite <- Q1. by rewrite Pab.
Qed.
Lemma two_connected bnd : 6 <= bnd → Z.of_nat (nel ma + nel mb) <= bnd → connected_mesh (A:=AR) ma ∧ connected_mesh (A:=AR) mb.
Proof.
  intros H6 Hbd. pose proof Ga as (_ & G2 & _). pose proof Gb as (_ & G2' & _). split.
  - apply (grid_connected (A:=AR) bnd nx1 ny x0 x1 y0 y1 nb sa ma (AR_laws bnd)); try done; lia.
  - apply (grid_connected (A:=AR) bnd nx2 ny x1 x2 y0 y1 nb sb mb (AR_laws bnd)); try done; lia.
Qed.
Lemma partner_box (m : hexa (num AR)) nx (s : nat → sides) i j f w :
  (∃ r, get_bc m (i + nx * j)%nat 0 f = Some r ∧ is_cell_bc (A:=AR) nx ny (s 0%nat) i j f r) →
  linked (A:=AR) m 0 (i + nx * j, f)%nat "P" w → let '(t, (i', j', f')) := cell_face nx ny (s 0%nat) i j f in t = "P"%string ∧ w = (i' + nx * j', f')%nat.
Proof.
  intros (r & Hr & Hc) (r' & Hr' & Ht' & Hp). cbn [fst snd] in *. rewrite Hr in Hr'. apply (inj Some) in Hr' as <-. unfold is_cell_bc in Hc.
  destruct (cell_face nx ny (s 0%nat) i j f) as [t [[i' j'] f']]. destruct Hc as (C1 & _ & _ & C4). split; [congruence|]. assert (is_conn t) as Hct by (right; congruence).
  destruct w as [w1 w2]. apply (pinj r); [exact Hp|by apply C4].
Qed.
(** Where the periodic faces lead to. *)
Notation n := (nel ma).
Lemma nel_a : nel ma = (nx1 * ny)%nat. Proof. by destruct Ga as (_ & -> & _). Qed.
Lemma not_in_seam z v : in_contact n seam z v → (∃ j, (j < ny)%nat ∧ z = (n + nx2 * j, 3)%nat ∧ v = (nx1 - 1 + nx1 * j, 1)%nat) ∨
  (∃ j, (j < ny)%nat ∧ z = (nx1 - 1 + nx1 * j, 1)%nat ∧ v = (n + nx2 * j, 3)%nat).
Proof.
  intros (x & y & Hin & E). apply seam_in in Hin as (j & Hj & -> & ->). destruct E as [E|E]; injection E as -> ->; [left|right]; exists j; (split; [done|]); split; done.
Qed.
Lemma partners_a i j f w : (i < nx1)%nat → (j < ny)%nat → (f < 4)%nat → partners (A:=AR) ma mb (i + nx1 * j, f)%nat w →
  let '(t, (i', j', f')) := cell_face nx1 ny (sa 0%nat) i j f in t = "P"%string ∧ w = (i' + nx1 * j', f')%nat.
Proof.
  intros Hi Hj Hf [(_ & _ & HL)|(x & y & _ & _ & E & _)].
  - apply (partner_box ma nx1 sa); [by apply Ea|done].
  - exfalso. apply (f_equal fst) in E. unfold shifted in E. cbn [fst] in E. pose proof nel_a. nia.
Qed.
Lemma partners_b i j f w : (i < nx2)%nat → (j < ny)%nat → (f < 4)%nat → partners (A:=AR) ma mb (n + (i + nx2 * j), f)%nat w →
  let '(t, (i', j', f')) := cell_face nx2 ny (sb 0%nat) i j f in t = "P"%string ∧ w = (n + (i' + nx2 * j'), f')%nat.
Proof.
  intros Hi Hj Hf [([Hlt _] & _)|(x & y & _ & _ & E & -> & HL)].
  - exfalso. cbn [fst] in Hlt. lia.
  - destruct x as [xx ff]. unfold shifted in E. cbn [fst snd] in E. injection E as E <-. assert (xx = i + nx2 * j)%nat as -> by lia.
    pose proof (partner_box mb nx2 sb i j f y (Eb i j 0%nat f Hi Hj Hnb Hf) HL) as HP. destruct (cell_face nx2 ny (sb 0%nat) i j f) as [t [[i' j'] f']].
    destruct HP as [-> ->]. done.
Qed.
Ltac seam_no := let H := fresh in intros H; apply not_in_seam in H as [(? & ? & H & _)|(? & ? & H & _)]; pose proof nel_a; injection H; intros; try lia; try nia.
Notation wide := (cell_face (nx1 + nx2) ny).
Lemma number_a i j : (i < nx1)%nat → number nx1 nx2 ny i j = (i + nx1 * j)%nat.
Proof. intros H. unfold number. by rewrite decide_True. Qed.
Lemma number_b i j : number nx1 nx2 ny (nx1 + i) j = (n + (i + nx2 * j))%nat.
Proof. unfold number. rewrite decide_False by lia. pose proof nel_a. nia. Qed.
Lemma lead_a i j f w : (i < nx1)%nat → (j < ny)%nat → (f < 4)%nat → (i = nx1 - 1 → f ≠ 1)%nat → leads_to_end (A:=AR) ma mb seam (i + nx1 * j, f)%nat w →
  let '(t, (i', j', f')) := wide (seen nx1 (sa 0%nat) (sb 0%nat) i) i j f in w = (number nx1 nx2 ny i' j', f').
Proof.
  intros Hi Hj Hf Hn [HL HE]. assert (∀ w u v, partners (A:=AR) ma mb (i + nx1 * j, f)%nat w → w = (u, v) → v ≠ 1%nat → f ≠ 3%nat →
    let '(t, (i', j', f')) := wide (seen nx1 (sa 0%nat) (sb 0%nat) i) i j f in w = (number nx1 nx2 ny i' j', f')) as Hone.
  { intros w0 u v HP _ _ Hf3. apply partners_a in HP; try done. destruct f as [|[|[|[|f]]]]; [| | |done|lia]; cbn [cell_face] in *; unfold seen; cbn [s_bottom s_top s_left s_right].
    - destruct (decide (j = 0%nat)) as [->|]; [|by destruct HP]. destruct HP as [_ ->]. by rewrite number_a.
    - rewrite decide_False in HP by (intros ->; lia). by destruct HP.
    - destruct (decide (j = ny - 1)%nat) as [->|]; [|by destruct HP]. destruct HP as [_ ->]. by rewrite number_a. }
  inversion HL as [z0 w0 HP E1 E2|z0 u v w0 HP HC HL2 E1 E2]; subst z0 w0.
  - destruct (decide (f = 3)%nat) as [->|Hf3].
    + exfalso. apply partners_a in HP; try done. cbn [cell_face] in HP. destruct (decide (i = 0%nat)) as [->|]; [|by destruct HP]. destruct HP as [_ ->].
      apply (HE (n + nx2 * j, 3)%nat). exists (nx2 * j, 3)%nat, (nx1 - 1 + nx1 * j, 1)%nat. split; [apply seam_in; by exists j|]. right. done.
    + destruct w as [u v]. apply (Hone _ u v HP eq_refl); [|done]. intros ->. apply partners_a in HP; try done.
      destruct f as [|[|[|[|f]]]]; [| | |done|lia]; cbn [cell_face] in HP; case_decide; destruct HP as [? HP]; injection HP; intros; try done; lia.
  - apply partners_a in HP; try done. apply not_in_seam in HC. destruct f as [|[|[|[|f]]]]; [| | | |lia]; cbn [cell_face] in HP.
    + exfalso. case_decide; destruct HP as [? ->]; destruct HC as [(? & _ & HC & _)|(? & _ & HC & _)]; done.
    + rewrite decide_False in HP by (intros ->; lia). by destruct HP.
    + exfalso. case_decide; destruct HP as [? ->]; destruct HC as [(? & _ & HC & _)|(? & _ & HC & _)]; done.
    + destruct (decide (i = 0%nat)) as [->|]; [|by destruct HP]. destruct HP as [_ ->]. destruct HC as [(j' & _ & HC & _)|(j' & Hj' & HC & ->)]; [done|].
      injection HC as HC. assert (j' = j) as -> by nia. cbn [cell_face]. rewrite decide_True by done. cbn [fst snd].
      replace (n + nx2 * j)%nat with (n + (0 + nx2 * j))%nat in HL2 by lia.
      inversion HL2 as [z0 w0 HP E1 E2|z0 u v w0 HP HC2 HL3 E1 E2]; subst z0 w0; apply partners_b in HP; try lia; cbn [cell_face] in HP; rewrite decide_True in HP by done; destruct HP as [_ ->].
      * replace (nx1 + nx2 - 1)%nat with (nx1 + (nx2 - 1))%nat by lia. by rewrite number_b.
      * exfalso. apply not_in_seam in HC2 as [(k & _ & HC2 & _)|(k & Hk & HC2 & _)]; [done|]. injection HC2 as HC2. assert (nx1 * ny + (nx2 - 1 + nx2 * j) = nx1 - 1 + nx1 * k)%nat as HC3 by (rewrite <- nel_a; exact HC2). nia.
Qed.
Lemma lead_b i j f w : (i < nx2)%nat → (j < ny)%nat → (f < 4)%nat → (i = 0 → f ≠ 3)%nat → leads_to_end (A:=AR) ma mb seam (n + (i + nx2 * j), f)%nat w →
  let '(t, (i', j', f')) := wide (seen nx1 (sa 0%nat) (sb 0%nat) (nx1 + i)) (nx1 + i) j f in w = (number nx1 nx2 ny i' j', f').
Proof.
  intros Hi Hj Hf Hn [HL HE]. pose proof nel_a as En.
  inversion HL as [z0 w0 HP E1 E2|z0 u v w0 HP HC HL2 E1 E2]; subst z0 w0.
  - apply partners_b in HP; try done. destruct f as [|[|[|[|f]]]]; [| | | |lia]; cbn [cell_face] in *.
    + destruct (decide (j = 0%nat)) as [->|]; [|by destruct HP]. destruct HP as [_ ->]. by rewrite number_b.
    + destruct (decide (i = nx2 - 1)%nat) as [->|]; [|by destruct HP]. destruct HP as [_ ->]. exfalso.
      apply (HE (nx1 - 1 + nx1 * j, 1)%nat). exists (nx2 * j, 3)%nat, (nx1 - 1 + nx1 * j, 1)%nat. split; [apply seam_in; by exists j|]. left. done.
    + destruct (decide (j = ny - 1)%nat) as [->|]; [|by destruct HP]. destruct HP as [_ ->]. by rewrite number_b.
    + rewrite decide_False in HP by (intros ->; lia). by destruct HP.
  - apply partners_b in HP; try done. apply not_in_seam in HC. destruct f as [|[|[|[|f]]]]; [| | | |lia]; cbn [cell_face] in HP.
    + exfalso. case_decide; destruct HP as [? ->]; destruct HC as [(? & _ & HC & _)|(? & _ & HC & _)]; done.
    + destruct (decide (i = nx2 - 1)%nat) as [->|]; [|by destruct HP]. destruct HP as [_ ->]. destruct HC as [(j' & Hj' & HC & ->)|(j' & _ & HC & _)]; [|done].
      injection HC as HC. assert (j' = j) as -> by nia. cbn [cell_face]. rewrite decide_True by lia.
      inversion HL2 as [z0 w0 HP E1 E2|z0 u v w0 HP HC2 HL3 E1 E2]; subst z0 w0; apply partners_a in HP; try lia; cbn [cell_face] in HP; rewrite decide_True in HP by done; destruct HP as [_ ->].
      * by rewrite number_a by lia.
      * exfalso. apply not_in_seam in HC2 as [(k & _ & HC2 & _)|(k & Hk & HC2 & _)]; [|done]. injection HC2 as HC2.
        assert (nx1 * j = nx1 * ny + nx2 * k)%nat as HC3 by (rewrite <- nel_a; exact HC2). nia.
    + exfalso. case_decide; destruct HP as [? ->]; destruct HC as [(? & _ & HC & _)|(? & _ & HC & _)]; done.
    + rewrite decide_False in HP by (intros ->; lia). by destruct HP.
Qed.
Lemma in_contact_same k C C' z w : (∀ x y, (x, y) ∈ C ↔ (x, y) ∈ C') → in_contact k C z w → in_contact k C' z w.
Proof. intros HC (x & y & Hin & E). exists x, y. split; [by apply HC|done]. Qed.
Lemma leads_seam C z w : (∀ x y, (x, y) ∈ C ↔ (x, y) ∈ seam) → leads_to_end (A:=AR) ma mb C z w → leads_to_end (A:=AR) ma mb seam z w.
Proof.
  intros HC [HL HE]. split.
  - induction HL as [z w HP|z u v w HP Hc _ IH]; [by apply leads_partner|]. apply (leads_on _ _ z u v); [done| |by apply IH]. by apply (in_contact_same _ C).
  - intros v Hv. apply (HE v). apply (in_contact_same _ seam); [|done]. intros x y. by rewrite HC.
Qed.
(** The entries of the merged mesh. *)
Context (m' : hexa (num AR)) (n0 : Z) (GL : is_glued (A:=AR) tol ie ma mb m' n0) (Nm : nbc m' = nb).
Lemma entry_a i j b f : (i < nx1)%nat → (j < ny)%nat → (b < nb)%nat → (f < 4)%nat →
  ∃ r, get_bc m' (i + nx1 * j)%nat b f = Some r ∧ is_wide_bc nx1 nx2 ny (sa b) (sb b) i j f r.
Proof.
  intros Hi Hj Hb Hf. destruct GL as (C & _ & _ & HC & Hg & Hka & _ & Hpa & _).
  assert (∀ x y, (x, y) ∈ C ↔ (x, y) ∈ seam) as HS by (intros x y; rewrite HC; apply seam_iff).
  destruct (decide (i = nx1 - 1 ∧ f = 1)%nat) as [[-> ->]|Hno].
  - destruct (Hg (nx2 * j, 3)%nat (nx1 - 1 + nx1 * j, 1)%nat b) as [_ (r & Hr & Ht' & Hp)]; [apply HS, seam_in; by exists j|by rewrite Nm|].
    exists r. split; [exact Hr|]. unfold is_wide_bc. cbn [cell_face]. rewrite decide_False by lia. split; [done|]. intros _.
    replace (nx1 - 1 + 1)%nat with (nx1 + 0)%nat by lia. rewrite number_b. exact Hp.
  - assert (∀ x, (x, (i + nx1 * j, f)%nat) ∉ C) as Hun.
    { intros x Hx. apply HS, seam_in in Hx as (j' & Hj' & _ & E). injection E as E ->. apply Hno. split; [|done]. apply (grid_num nx1 i j (nx1 - 1) j'); lia. }
    destruct (Ea i j b f Hi Hj Hb Hf) as (r & Hr & Hc). pose proof (per_iff ma nx1 sa i j f (Ea i j 0%nat f Hi Hj Hnb Hf)) as Hper.
    destruct (Pa b Hb) as [P1 P2]. destruct (Sa b Hb) as ((_ & X1 & X1') & (_ & X2 & X2') & (_ & X3 & X3') & (_ & X4 & X4') & Q1 & Q2).
    destruct (Sa 0%nat Hnb) as (_ & _ & _ & _ & R1 & R2).
    destruct (decide ((cell_face nx1 ny (sa 0%nat) i j f).1 = "P"%string)) as [HP|HP].
    + destruct (Hpa (i + nx1 * j, f)%nat Hun) as (w & HL & Hlk); [by apply Hper|split; [|split]; cbn [fst snd]; [pose proof nel_a; nia|lia|destruct Ga as (-> & _); lia]|].
      apply (leads_seam C) in HL; [|done]. apply lead_a in HL; [|lia..]. destruct (Hlk b) as (r' & Hr' & Ht' & Hp'); [by rewrite Nm|]. exists r'. split; [exact Hr'|].
      unfold is_wide_bc. destruct f as [|[|[|[|f]]]]; [| | | |lia]; cbn [cell_face] in *; unfold seen in *; cbn [s_bottom s_top s_left s_right] in *; rewrite ?(decide_True (P:=(i < nx1)%nat)) in * by done.
      * case_decide; [|done]. subst w. split; [|done]. cbn [fst] in HP. transitivity "P"%string; [exact Ht'|symmetry; tauto].
      * rewrite decide_False in HP by (intros ->; lia). done.
      * case_decide; [|done]. subst w. split; [|done]. cbn [fst] in HP. transitivity "P"%string; [exact Ht'|symmetry; tauto].
      * case_decide; [|done]. subst w. split; [|done]. cbn [fst] in HP. transitivity "P"%string; [exact Ht'|symmetry; tauto].
    + exists r. split; [apply (Hka (i + nx1 * j, f)%nat b r Hun Hr); by rewrite Hper|].
      unfold is_cell_bc in Hc. unfold is_wide_bc. destruct f as [|[|[|[|f]]]]; [| | | |lia]; cbn [cell_face] in *; unfold seen in *; cbn [s_bottom s_top s_left s_right] in *; rewrite ?(decide_True (P:=(i < nx1)%nat)) in * by done.
      * case_decide; cbn [fst] in HP; destruct Hc as (C1 & _ & _ & C4); (split; [done|]); intros Hcn; [exfalso; destruct Hcn; tauto|]. rewrite number_a by done. by apply C4.
      * rewrite decide_False in Hc by (intros ->; lia). rewrite decide_False by lia. destruct Hc as (C1 & _ & _ & C4). split; [done|]. intros Hcn. rewrite number_a by lia. by apply C4.
      * case_decide; cbn [fst] in HP; destruct Hc as (C1 & _ & _ & C4); (split; [done|]); intros Hcn; [exfalso; destruct Hcn; tauto|]. rewrite number_a by done. by apply C4.
      * case_decide; cbn [fst] in HP; destruct Hc as (C1 & _ & _ & C4); (split; [done|]); intros Hcn; [exfalso; destruct Hcn; tauto|]. rewrite number_a by lia. by apply C4.
Qed.
Lemma entry_b i j b f : (i < nx2)%nat → (j < ny)%nat → (b < nb)%nat → (f < 4)%nat →
  ∃ r, get_bc m' (n + (i + nx2 * j))%nat b f = Some r ∧ is_wide_bc nx1 nx2 ny (sa b) (sb b) (nx1 + i) j f r.
Proof.
  intros Hi Hj Hb Hf. destruct GL as (C & _ & _ & HC & Hg & _ & Hkb & _ & Hpb).
  assert (∀ x y, (x, y) ∈ C ↔ (x, y) ∈ seam) as HS by (intros x y; rewrite HC; apply seam_iff).
  assert (nel mb = nx2 * ny)%nat as Enb by (by destruct Gb as (_ & -> & _)). assert (¬ (nx1 + i < nx1)%nat) as Hge by lia.
  destruct (decide (i = 0 ∧ f = 3)%nat) as [[-> ->]|Hno].
  - destruct (Hg (nx2 * j, 3)%nat (nx1 - 1 + nx1 * j, 1)%nat b) as [(r & Hr & Ht' & Hp) _]; [apply HS, seam_in; by exists j|by rewrite Nm|].
    exists r. split; [exact Hr|]. unfold is_wide_bc. cbn [cell_face]. rewrite decide_False by lia. split; [done|]. intros _.
    replace (nx1 + 0 - 1)%nat with (nx1 - 1)%nat by lia. rewrite number_a by lia. exact Hp.
  - assert (∀ y, ((i + nx2 * j, f)%nat, y) ∉ C) as Hun.
    { intros y Hx. apply HS, seam_in in Hx as (j' & Hj' & E & _). injection E as E ->. apply Hno. split; [|done]. apply (grid_num nx2 i j 0 j'); lia. }
    destruct (Eb i j b f Hi Hj Hb Hf) as (r & Hr & Hc). pose proof (per_iff mb nx2 sb i j f (Eb i j 0%nat f Hi Hj Hnb Hf)) as Hper.
    destruct (Pb b Hb) as [P1 P2]. destruct (Sb b Hb) as ((_ & X1 & X1') & (_ & X2 & X2') & (_ & X3 & X3') & (_ & X4 & X4') & Q1 & Q2).
    destruct (Sb 0%nat Hnb) as (_ & _ & _ & _ & R1 & R2).
    destruct (decide ((cell_face nx2 ny (sb 0%nat) i j f).1 = "P"%string)) as [HP|HP].
    + destruct (Hpb (i + nx2 * j, f)%nat Hun) as (w & HL & Hlk); [by apply Hper|split; [|split]; cbn [fst snd]; [nia|lia|destruct Gb as (-> & _); lia]|].
      apply (leads_seam C) in HL; [|done]. unfold shifted in HL. cbn [fst snd] in HL. apply lead_b in HL; [|lia..]. destruct (Hlk b) as (r' & Hr' & Ht' & Hp'); [by rewrite Nm|]. exists r'. split; [exact Hr'|].
      unfold is_wide_bc. destruct f as [|[|[|[|f]]]]; [| | | |lia]; cbn [cell_face] in *; unfold seen in *; cbn [s_bottom s_top s_left s_right] in *; rewrite ?(decide_False (P:=(nx1 + i < nx1)%nat)) in * by done.
      * case_decide; [|done]. subst w. split; [|done]. cbn [fst] in HP. transitivity "P"%string; [exact Ht'|symmetry; tauto].
      * destruct (decide (i = nx2 - 1)%nat); [|done]. rewrite decide_True in HL by lia. rewrite decide_True by lia. subst w. split; [|done]. cbn [fst] in HP. transitivity "P"%string; [exact Ht'|symmetry; tauto].
      * case_decide; [|done]. subst w. split; [|done]. cbn [fst] in HP. transitivity "P"%string; [exact Ht'|symmetry; tauto].
      * rewrite decide_False in HP by (intros ->; lia). done.
    + destruct (Hkb (i + nx2 * j, f)%nat b r Hun) as (r' & Hr' & (S1 & _ & _ & _ & _ & _ & S7 & _) & _); [split; [|split]; cbn [fst snd]; [nia|lia|destruct Gb as (-> & _); lia]|done|by rewrite Hper|].
      exists r'. split; [exact Hr'|]. assert (∀ i' j' f', is_conn (bt r) → points (A:=AR) r (i' + nx2 * j')%nat f' → points (A:=AR) r' (number nx1 nx2 ny (nx1 + i') j') f') as Hpt.
      { intros i' j' f' Hcn Hpp. destruct (S7 Hcn) as (j0 & g0 & G1 & G2). pose proof (pinj r _ _ _ _ G1 Hpp) as E. injection E as -> ->. by rewrite number_b. }
      unfold is_cell_bc in Hc. unfold is_wide_bc. destruct f as [|[|[|[|f]]]]; [| | | |lia]; cbn [cell_face] in *; unfold seen in *; cbn [s_bottom s_top s_left s_right] in *; rewrite ?(decide_False (P:=(nx1 + i < nx1)%nat)) in * by done.
      * case_decide; cbn [fst] in HP; destruct Hc as (C1 & _ & _ & C4); (split; [by transitivity (bt r)|]); intros Hcn; [exfalso; destruct Hcn; tauto|]. apply Hpt; [by rewrite C1|]. by apply C4.
      * destruct (decide (i = nx2 - 1)%nat) as [->|].
        -- rewrite decide_True by lia. cbn [fst] in HP. destruct Hc as (C1 & _). split; [by transitivity (bt r)|]. intros Hcn. exfalso. destruct Hcn; tauto.
        -- rewrite decide_False by lia. destruct Hc as (C1 & _ & _ & C4). split; [by transitivity (bt r)|]. intros Hcn. replace (nx1 + i + 1)%nat with (nx1 + (i + 1))%nat by lia. apply Hpt; [by rewrite C1|]. by apply C4.
      * case_decide; cbn [fst] in HP; destruct Hc as (C1 & _ & _ & C4); (split; [by transitivity (bt r)|]); intros Hcn; [exfalso; destruct Hcn; tauto|]. apply Hpt; [by rewrite C1|]. by apply C4.
      * rewrite decide_False in Hc by (intros ->; lia). rewrite decide_False by lia. destruct Hc as (C1 & _ & _ & C4). split; [by transitivity (bt r)|]. intros Hcn.
        replace (nx1 + i - 1)%nat with (nx1 + (i - 1))%nat by lia. apply Hpt; [by rewrite C1|]. by apply C4.
Qed.
Lemma two_entries i j b f : (i < nx1 + nx2)%nat → (j < ny)%nat → (b < nb)%nat → (f < 4)%nat →
  ∃ r, get_bc m' (number nx1 nx2 ny i j) b f = Some r ∧ is_wide_bc nx1 nx2 ny (sa b) (sb b) i j f r.
Proof.
  intros Hi Hj Hb Hf. destruct (decide (i < nx1)%nat) as [Hlt|Hge].
  - rewrite number_a by done. by apply entry_a.
  - replace i with (nx1 + (i - nx1))%nat by lia. rewrite number_b. apply entry_b; lia.
Qed.
Lemma two_count : n0 = Z.of_nat ny.
Proof.
  destruct GL as (C & ND & -> & HC & _). f_equal. assert (C ≡ₚ seam) as ->.
  { apply NoDup_Permutation; [done| |].
    - unfold seam. apply NoDup_fmap_2_strong; [|apply NoDup_seq]. intros j j' _ _ E. injection E as E _. nia.
    - intros [x y]. rewrite HC. apply seam_iff. }
  unfold seam. by rewrite fmap_length, seq_length.
Qed.
Lemma same_elem_cell (e e' : elem R) a b c d : same_elem (A:=AR) e e' → is_cell (A:=AR) e a b c d → is_cell (A:=AR) e' a b c d.
Proof.
  intros E (A1 & A2 & A3). unfold same_elem in E. split_and!.
  - exact (eq_trans (f_equal eshape E) A1).
  - exact (eq_trans (f_equal pos E) A2).
  - exact (eq_trans (f_equal ccurv E) A3).
Qed.
Lemma two_cells i j : is_append (A:=AR) ma mb m' → (i < nx1 + nx2)%nat → (j < ny)%nat →
  ∃ e, elems m' !! (number nx1 nx2 ny i j)%nat = Some e ∧
    is_cell (A:=AR) e (line nx1 nx2 x0 x1 x2 i) (line nx1 nx2 x0 x1 x2 (i + 1)) (row ny y0 y1 j) (row ny y0 y1 (j + 1)).
Proof.
  intros (_ & _ & _ & _ & l1 & l2 & -> & F1 & F2) Hi Hj. pose proof Ga as (_ & _ & La & _ & _ & Ca). pose proof Gb as (_ & _ & Lb & _ & _ & Cb). unfold row.
  destruct (decide (i < nx1)%nat) as [Hlt|Hge].
  - rewrite number_a by done. destruct (Ca i j Hlt Hj) as (e & He & Hc). destruct (Forall2_lookup_l _ _ _ _ _ F1 He) as (e' & He' & Hs). exists e'.
    split; [by apply lookup_app_l_Some|]. apply (same_elem_cell e); [done|]. rewrite !coordR' in Hc by done. unfold line. rewrite !decide_True by lia. exact Hc.
  - replace i with (nx1 + (i - nx1))%nat by lia. rewrite number_b. destruct (Cb (i - nx1)%nat j) as (e & He & Hc); [lia|done|]. destruct (Forall2_lookup_l _ _ _ _ _ F2 He) as (e' & He' & Hs). exists e'.
    split.
    { rewrite lookup_app_r; rewrite <- (Forall2_length _ _ _ F1), La, nel_a; [|lia]. rewrite <- He'. f_equal. lia. }
    apply (same_elem_cell e); [done|]. rewrite !coordR' in Hc by done. unfold line. rewrite (decide_False (P:=(nx1 + (i - nx1) + 1 ≤ nx1)%nat)) by lia.
    replace (nx1 + (i - nx1) + 1 - nx1)%nat with (i - nx1 + 1)%nat by lia.
    destruct (decide (nx1 + (i - nx1) ≤ nx1)%nat) as [Hle|].
    + assert (i = nx1) as -> by lia. rewrite Nat.sub_diag in *. replace (nx1 + 0)%nat with nx1 by lia.
      replace (x0 + INR nx1 * ((x1 - x0) / INR nx1))%R with (x1 + INR 0 * ((x2 - x1) / INR nx2))%R; [exact Hc|]. cbn [INR]. assert (0 < INR nx1)%R by (apply lt_0_INR; lia).
      assert (0 < INR nx2)%R by (apply lt_0_INR; lia). field. lra.
    + replace (nx1 + (i - nx1) - nx1)%nat with (i - nx1)%nat by lia. exact Hc.
Qed.
End Two.
