(** Theorems about xarray datasets: C50, C51, C56, C57. *)
From Coq Require Import Lia Ascii Reals Lra Sorted.
From Flocq Require Import Core.Core IEEE754.BinarySingleNaN IEEE754.Binary IEEE754.Bits.
From Verif Require Import Base Float FloatLaws Mesh MeshLemmas Bytes Text Field Re2 Dataset DatasetSpec DatasetProofs.
Open Scope Z_scope.

(** ** C50 *)
(** Exactly the paths that are opened: somewhere in the first line there is .f followed by five digits of any
    script, or .fld. For other paths NotImplementedError is raised, whatever the file holds. *)
Theorem C50_opened_iff_partial decimal p :
  can_open decimal p = true ↔ ∃ stem ext rest, p = stem ++ ascii_path ".f" ++ ext ++ rest ∧ 10 ∉ stem ∧
    (ext = ascii_path "ld" ∨ length ext = 5%nat ∧ Forall (λ c, decimal c = true) ext).
Proof. apply can_open_iff. Qed.
Print Assumptions C50_opened_iff_partial.
Theorem C50_not_opened_partial decimal native p file : can_open decimal p = false → open_dataset decimal native p file = Raise NotImplementedError.
Proof. intros H. unfold open_dataset. by rewrite H. Qed.
Print Assumptions C50_not_opened_partial.
(** The right extension is accepted unless there is a line break in the path. *)
Theorem C50_accepted_partial decimal p : digits_of_unicode decimal → nek_name p → 10 ∉ p → can_open decimal p = true.
Proof.
  intros Hd (stem & ext & -> & He) Hn. apply can_open_iff. exists stem, ext, []. rewrite app_nil_r. split; [done|].
  split; [intros H; apply Hn; apply elem_of_app; by left|]. destruct He as [->|[H1 H2]]; [by left|]. right. split; [done|].
  eapply Forall_impl; [exact H2|]. apply Hd.
Qed.
Print Assumptions C50_accepted_partial.
(** But also every path in which something follows the extension, and some with the right extension are refused. *)
Theorem C50_other_extension_refuted decimal p rest : digits_of_unicode decimal → nek_name p → 10 ∉ p → can_open decimal (p ++ rest) = true.
Proof.
  intros Hd Hp Hn. pose proof (C50_accepted_partial decimal p Hd Hp Hn) as H. apply can_open_iff in H as (stem & ext & post & E & H1 & H2).
  apply can_open_iff. exists stem, ext, (post ++ rest). split; [|done]. rewrite E. by rewrite <- !app_assoc.
Qed.
Print Assumptions C50_other_extension_refuted.
Theorem C50_line_break_refuted : ∃ p, nek_name p ∧ ∀ decimal, decimal 10 = false → can_open decimal p = false.
Proof.
  exists (ascii_path "a" ++ [10] ++ ascii_path "b.fld"). split.
  - exists (ascii_path "a" ++ [10] ++ ascii_path "b"), (ascii_path "ld"). split; [done|by left].
  - intros d Hd. reflexivity.
Qed.
Print Assumptions C50_line_break_refuted.
Example C50_sample_field : nek_name (ascii_path "dir/channel3D_0.f00001").
Proof. exists (ascii_path "dir/channel3D_0"), (ascii_path "00001"). split; [done|right; by repeat constructor]. Qed.
Example C50_sample_names : (can_open ascii_digit (ascii_path "a.f0001"), can_open ascii_digit (ascii_path "a.f90"), can_open ascii_digit (ascii_path "a.fld"),
  can_open ascii_digit (ascii_path "x.f00001.bak"), can_open ascii_digit (ascii_path "a.f123456"), can_open ascii_digit (ascii_path "a.flda/b.txt"))
  = (false, false, true, true, true, true).
Proof. reflexivity. Qed.
Example C50_sample_not_name : ¬ nek_name (ascii_path "x.f00001.bak").
Proof.
  intros (stem & ext & E & H). assert (length ext = 2%nat ∨ length ext = 5%nat) as HL by (destruct H as [->|[H _]]; [by left|by right]).
  apply (f_equal reverse) in E. rewrite !reverse_app in E. change (reverse (ascii_path "x.f00001.bak")) with (ascii_path "kab.10000f.x") in E.
  assert (reverse ext = take (length ext) (ascii_path "kab.10000f.x")) as X.
  { rewrite E. rewrite <- app_assoc, take_app_alt; [done|]. by rewrite reverse_length. }
  destruct HL as [L|L]; rewrite L in X; apply (f_equal reverse) in X; rewrite reverse_involutive in X; subst ext.
  - destruct H as [H|[H _]]; done.
  - destruct H as [H|[_ H]]; [done|]. by inversion H.
Qed.

(** ** C51 *)
(** The coordinates of an element that is a grid, in increasing order. *)
Theorem C51_coordinates e xs ys zs : tensor e xs ys zs → xs ≠ [] → ys ≠ [] → zs ≠ [] →
  Forall moderate (xs ++ ys ++ zs) → distinct8 xs → distinct8 ys → distinct8 zs →
  ∃ d, elem_dset e = Ok d ∧ (increasing (ds_x d) ∧ ds_x d ≡ₚ xs) ∧ (increasing (ds_y d) ∧ ds_y d ≡ₚ ys) ∧ (increasing (ds_z d) ∧ ds_z d ≡ₚ zs).
Proof.
  intros (Hs & Hp & Hv) Nx Ny Nz HM Dx Dy Dz. apply Forall_app in HM as [Mx HM]. apply Forall_app in HM as [My Mz].
  destruct (dim_grid _ xs (λ x, tensor_x zs ys xs x Ny Nz) Mx Dx) as [X1 X2].
  destruct (dim_grid _ ys (λ y, tensor_y zs ys xs y Nx Nz) My Dy) as [Y1 Y2].
  destruct (dim_grid _ zs (λ z, tensor_z zs ys xs z Nx Ny) Mz Dz) as [Z1 Z2].
  destruct (vel e) as [|v0 [|v1 [|v2 [|]]]] eqn:Ev; try done.
  unfold elem_dset. rewrite Hs. cbn [get_f]. rewrite Hp, Ev.
  cbn [lookup list_lookup of_opt rbind].
  assert (length (meshgrid_to_dim ((λ '(z, y, x), x) <$> prod3 zs ys xs)) = length xs) as -> by (by rewrite X2).
  assert (length (meshgrid_to_dim ((λ '(z, y, x), y) <$> prod3 zs ys xs)) = length ys) as -> by (by rewrite Y2).
  assert (length (meshgrid_to_dim ((λ '(z, y, x), z) <$> prod3 zs ys xs)) = length zs) as -> by (by rewrite Z2).
  rewrite !Nat.eqb_refl. cbn [andb negb]. eexists. split; [reflexivity|]. cbn [ds_x ds_y ds_z]. done.
Qed.
Print Assumptions C51_coordinates.
(** Coordinates that are at least 2e-8 apart and not larger than a million are different after rounding. *)
Definition apart (l : list f64) : Prop :=
  Forall (λ x, is_finite 53 1024 x = true ∧ (Rabs (val x) <= bpow radix2 20)%R) l ∧
  ∀ i j x y, l !! i = Some x → l !! j = Some y → i ≠ j → (2 / 100000000 <= Rabs (val x - val y))%R.
Lemma apart_ok l : apart l → Forall moderate l ∧ distinct8 l.
Proof.
  intros [H1 H2]. split; [|by apply apart_distinct].
  eapply Forall_impl; [exact H1|]. intros x [Fx Bx]. split; [done|]. assert (bpow radix2 20 <= bpow radix2 990)%R by (apply bpow_le; lia). lra.
Qed.
Theorem C51_separated e xs ys zs : tensor e xs ys zs → xs ≠ [] → ys ≠ [] → zs ≠ [] → apart xs → apart ys → apart zs →
  ∃ d, elem_dset e = Ok d ∧ (increasing (ds_x d) ∧ ds_x d ≡ₚ xs) ∧ (increasing (ds_y d) ∧ ds_y d ≡ₚ ys) ∧ (increasing (ds_z d) ∧ ds_z d ≡ₚ zs).
Proof.
  intros HT Nx Ny Nz Ax Ay Az. apply apart_ok in Ax as [A1 A2], Ay as [B1 B2], Az as [C1 C2].
  apply C51_coordinates; try done. by rewrite !Forall_app.
Qed.
Print Assumptions C51_separated.

(** ** C56 *)
(** Every value of the dataset is labelled with the coordinates of its own point, if the coordinates of the element
    increase with the indices. *)
Definition labelled (e : elem f64) (d : dset) : Prop :=
  ∀ n k j i, let '(lx, ly, lz) := eshape e in (k < lz)%nat → (j < ly)%nat → (i < lx)%nat → n = ((k * ly + j) * lx + i)%nat →
    (px ← pos e !! 0%nat; px !! n) = ds_x d !! i ∧ (py ← pos e !! 1%nat; py !! n) = ds_y d !! j ∧ (pz ← pos e !! 2%nat; pz !! n) = ds_z d !! k.
Lemma prod3_lookup {A B C} (l1 : list A) (l2 : list B) (l3 : list C) k j i a b c : l1 !! k = Some a → l2 !! j = Some b → l3 !! i = Some c →
  prod3 l1 l2 l3 !! ((k * length l2 + j) * length l3 + i)%nat = Some (a, b, c).
Proof.
  intros Hk Hj Hi.
  assert (∀ {X Y} (l : list X) (f : X → list Y) m k x i y, (∀ x, x ∈ l → length (f x) = m) → l !! k = Some x → f x !! i = Some y → (l ≫= f) !! (k * m + i)%nat = Some y) as Bind.
  { clear. intros X Y l f m. induction l as [|x0 l IH]; intros k x i y Hm Hk Hi; [done|]. cbn [mbind list_bind]. destruct k as [|k].
    - cbn in Hk. apply (inj Some) in Hk as ->. apply lookup_app_l_Some. by rewrite Nat.mul_0_l, Nat.add_0_l.
    - rewrite lookup_app_r by (rewrite (Hm x0) by constructor; lia). rewrite (Hm x0) by constructor.
      replace (S k * m + i - m)%nat with (k * m + i)%nat by lia. apply (IH k x); [|done|done]. intros z Hz. apply Hm. by constructor. }
  replace ((k * length l2 + j) * length l3 + i)%nat with (k * (length l2 * length l3) + (j * length l3 + i))%nat by lia.
  unfold prod3. apply (Bind _ _ _ _ _ _ a); [|done|].
  - intros x _. clear. induction l2 as [|y l2 IH]; [done|]. cbn [mbind list_bind length]. rewrite app_length, fmap_length, IH. lia.
  - apply (Bind _ _ _ _ _ _ b); [|done|].
    + intros x _. apply fmap_length.
    + rewrite list_lookup_fmap, Hi. done.
Qed.
Theorem C56_labels_partial e xs ys zs : tensor e xs ys zs → xs ≠ [] → ys ≠ [] → zs ≠ [] → apart xs → apart ys → apart zs →
  increasing xs → increasing ys → increasing zs → ∃ d, elem_dset e = Ok d ∧ ds_x d = xs ∧ ds_y d = ys ∧ ds_z d = zs ∧ labelled e d.
Proof.
  intros HT Nx Ny Nz Ax Ay Az Ix Iy Iz. destruct (C51_separated e xs ys zs HT Nx Ny Nz Ax Ay Az) as (d & Hd & [X1 X2] & [Y1 Y2] & [Z1 Z2]).
  exists d. split; [done|]. apply increasing_unique in X2; [|done|done]. apply increasing_unique in Y2; [|done|done]. apply increasing_unique in Z2; [|done|done].
  split; [done|]. split; [done|]. split; [done|]. destruct HT as (Hs & Hp & _). unfold labelled. rewrite Hs, Hp, X2, Y2, Z2. intros n k j i Hk Hj Hi ->.
  cbn [lookup list_lookup mbind option_bind]. rewrite !list_lookup_fmap.
  apply lookup_lt_is_Some in Hk as [z Hk], Hj as [y Hj], Hi as [x Hi]. rewrite (prod3_lookup zs ys xs k j i z y x Hk Hj Hi). rewrite Hk, Hj, Hi. done.
Qed.
Print Assumptions C56_labels_partial.
(** If they do not, the labels are wrong. *)
Theorem C56_labels_refuted e xs ys zs : tensor e xs ys zs → xs ≠ [] → ys ≠ [] → zs ≠ [] → apart xs → apart ys → apart zs →
  ¬ (increasing xs ∧ increasing ys ∧ increasing zs) → ∃ d, elem_dset e = Ok d ∧ ¬ labelled e d.
Proof.
  intros HT Nx Ny Nz Ax Ay Az Hn. destruct (C51_separated e xs ys zs HT Nx Ny Nz Ax Ay Az) as (d & Hd & [X1 X2] & [Y1 Y2] & [Z1 Z2]).
  exists d. split; [done|]. intros HL. apply Hn. destruct HT as (Hs & Hp & _). unfold labelled in HL. rewrite Hs, Hp in HL.
  cbn [lookup list_lookup mbind option_bind] in HL.
  assert (∀ k j i z y x, zs !! k = Some z → ys !! j = Some y → xs !! i = Some x → ds_x d !! i = Some x ∧ ds_y d !! j = Some y ∧ ds_z d !! k = Some z) as HA.
  { intros k j i z y x Hk Hj Hi. specialize (HL _ k j i (lookup_lt_Some _ _ _ Hk) (lookup_lt_Some _ _ _ Hj) (lookup_lt_Some _ _ _ Hi) eq_refl).
    rewrite !list_lookup_fmap, (prod3_lookup zs ys xs k j i z y x Hk Hj Hi) in HL. destruct HL as (A & B & C). done. }
  destruct xs as [|x0 xs']; [done|]. destruct ys as [|y0 ys']; [done|]. destruct zs as [|z0 zs']; [done|].
  assert (∀ (l l' : list f64), l ≡ₚ l' → (∀ i x, l' !! i = Some x → l !! i = Some x) → l = l') as HE.
  { clear. intros l l' HP H. apply list_eq. intros i. destruct (l' !! i) as [x|] eqn:E; [by apply H|]. apply lookup_ge_None in E. apply lookup_ge_None. by rewrite HP. }
  rewrite (HE _ _ X2) in X1. 2:{ intros i x Hi. by destruct (HA 0%nat 0%nat i z0 y0 x eq_refl eq_refl Hi) as (? & _ & _). }
  rewrite (HE _ _ Y2) in Y1. 2:{ intros i x Hi. by destruct (HA 0%nat i 0%nat z0 x x0 eq_refl Hi eq_refl) as (_ & ? & _). }
  rewrite (HE _ _ Z2) in Z1. 2:{ intros i x Hi. by destruct (HA i 0%nat 0%nat x y0 x0 Hi eq_refl eq_refl) as (_ & _ & ?). }
  done.
Qed.
Print Assumptions C56_labels_refuted.

(** ** C57 *)
(** A direction in which the points have more or fewer different coordinates than places: not opened. [r] lists the
    different coordinates. *)
Definition coordinates_of (a r : list f64) : Prop :=
  r ⊆ a ∧ distinct8 r ∧ ∀ x, x ∈ a → ∃ y, y ∈ r ∧ val (np_round8 y) = val (np_round8 x).
Theorem C57_not_box_partial e px py pz rx ry rz : pos e = [px; py; pz] → length (vel e) = 3%nat → Forall moderate (px ++ py ++ pz) →
  coordinates_of px rx → coordinates_of py ry → coordinates_of pz rz → eshape e ≠ (length rx, length ry, length rz) →
  elem_dset e = Raise NotImplementedError.
Proof.
  intros Hp Hv HM (X1 & X2 & X3) (Y1 & Y2 & Y3) (Z1 & Z2 & Z3) Hs. apply Forall_app in HM as [Mx HM]. apply Forall_app in HM as [My Mz].
  unfold elem_dset. destruct (eshape e) as [[lx ly] lz]. cbn [get_f]. rewrite Hp. destruct (vel e) as [|v0 [|v1 [|v2 [|]]]]; try done.
  cbn [lookup list_lookup of_opt rbind]. rewrite (dim_count px rx Mx X1 X2 X3), (dim_count py ry My Y1 Y2 Y3), (dim_count pz rz Mz Z1 Z2 Z3).
  destruct (Nat.eqb_spec (length rx) lx); [|done]. destruct (Nat.eqb_spec (length ry) ly); [|done]. destruct (Nat.eqb_spec (length rz) lz); [|done]. by subst.
Qed.
Print Assumptions C57_not_box_partial.

(** Samples: grids of 3 x 2 x 1 points with whole coordinates. *)
Definition z (n : Z) : f64 := f64_of_Z n.
Definition grid_elem (xs ys zs : list f64) : elem f64 :=
  let v := (λ '(_, _, x), x) <$> prod3 zs ys xs in
  Elem (length xs, length ys, length zs) [ (λ '(z, y, x), x) <$> prod3 zs ys xs; (λ '(z, y, x), y) <$> prod3 zs ys xs; (λ '(z, y, x), z) <$> prod3 zs ys xs ]
    [v; v; v] [] [] [] [] [] [].
Example C51_sample_tensor xs ys zs : tensor (grid_elem xs ys zs) xs ys zs.
Proof. done. Qed.
Lemma apart_ints (l : list Z) : Forall (λ n, Z.abs n <= 1000) l → NoDup l → apart (z <$> l).
Proof.
  intros HF HN. split.
  - apply Forall_fmap. eapply Forall_impl; [exact HF|]. intros n Hn. cbn [compose]. cbn beta in Hn. destruct (f64_of_Z_correct n) as (A & B & _); [unfold bnd64; lia|].
    split; [done|]. unfold val, z. rewrite A, <- abs_IZR. change (bpow radix2 20) with (IZR (2 ^ 20)). apply IZR_le. lia.
  - intros i j x y Hi Hj Hn. rewrite list_lookup_fmap in Hi, Hj. destruct (l !! i) as [n|] eqn:Ei; [|done]. destruct (l !! j) as [m|] eqn:Ej; [|done].
    cbn in Hi, Hj. apply (inj Some) in Hi, Hj. subst x y. rewrite Forall_forall in HF.
    pose proof (HF n (elem_of_list_lookup_2 _ _ _ Ei)) as Bn. pose proof (HF m (elem_of_list_lookup_2 _ _ _ Ej)) as Bm. cbn beta in Bn, Bm.
    destruct (f64_of_Z_correct n) as (A & _ & _); [unfold bnd64; lia|]. destruct (f64_of_Z_correct m) as (A' & _ & _); [unfold bnd64; lia|].
    unfold val, z. rewrite A, A', <- minus_IZR, <- abs_IZR. assert (n ≠ m) by (intros ->; apply Hn; by apply (NoDup_lookup l i j m)).
    assert (1 <= IZR (Z.abs (n - m)))%R by (apply IZR_le; lia). lra.
Qed.
Lemma increasing_ints (l : list Z) : Forall (λ n, Z.abs n <= 1000) l → (increasing (z <$> l) ↔ StronglySorted Z.lt l).
Proof.
  assert (∀ n, Z.abs n <= 1000 → val (z n) = IZR n) as V. { intros n Hn. apply f64_of_Z_correct. unfold bnd64. lia. }
  intros HF. induction l as [|n l IH]; [split; constructor|]. apply Forall_cons in HF as [Hn HF]. rewrite fmap_cons. split; intros H; inversion H as [|? ? H1 H2]; subst.
  - constructor; [by apply IH|]. pose proof (proj1 (Forall_forall _ _) H2) as H3. pose proof (proj1 (Forall_forall _ _) HF) as HG. clear H2 HF. apply Forall_forall. intros m Hm. specialize (H3 (z m) (elem_of_list_fmap_1 z l m Hm)). cbn beta in H3.
    rewrite !V in H3 by (done || by apply HG). by apply lt_IZR.
  - constructor; [by apply IH|]. pose proof (proj1 (Forall_forall _ _) H2) as H3. pose proof (proj1 (Forall_forall _ _) HF) as HG. clear H2 HF. apply Forall_forall. intros x Hx. apply elem_of_list_fmap in Hx as (m & -> & Hm). rewrite !V by (done || by apply HG). by apply IZR_lt, H3.
Qed.
Example C51_sample_apart : apart (z <$> [3; 0; 1]) ∧ apart (z <$> [-2; 5]) ∧ apart (z <$> [0]).
Proof. split_and!; (apply apart_ints; [repeat (apply Forall_cons; split; [lia|]); apply Forall_nil; done|]; apply (bool_decide_unpack _); by vm_compute). Qed.
Example C56_sample_increasing : increasing (z <$> [0; 1; 3]) ∧ increasing (z <$> [-2; 5]) ∧ increasing (z <$> [0]).
Proof. split_and!; (apply increasing_ints; [repeat (apply Forall_cons; split; [lia|]); apply Forall_nil; done|]; repeat constructor; lia). Qed.
Example C56_sample_not_increasing : ¬ increasing (z <$> [1; 0]).
Proof. rewrite increasing_ints by (repeat (apply Forall_cons; split; [lia|]); by apply Forall_nil). intros H. inversion H as [|? ? _ H2]; subst. inversion H2; subst. lia. Qed.
Lemma dim_ints (a l : list Z) : Forall (λ n, Z.abs n <= 1000) l → StronglySorted Z.lt l → a ⊆ l → l ⊆ a → meshgrid_to_dim (z <$> a) = z <$> l.
Proof.
  intros HF HS H1 H2. assert (NoDup l) as HN.
  { clear -HS. induction HS as [|n l _ IH H]; constructor; [|done]. intros Hin. pose proof (proj1 (Forall_forall _ _) H n Hin). lia. }
  destruct (apart_ok _ (apart_ints l HF HN)) as [A B]. destruct (dim_grid (z <$> a) (z <$> l)) as [C D]; [|done|done|].
  { intros x. rewrite !elem_of_list_fmap. split; intros (n & -> & Hn); exists n; (split; [done|]); [by apply H1|by apply H2]. }
  apply increasing_unique; [done| |done]. by apply increasing_ints.
Qed.
Ltac small := repeat (apply Forall_cons; split; [lia|]); by apply Forall_nil.
Ltac rising := repeat first [apply SSorted_nil|apply SSorted_cons|apply Forall_nil; exact I|apply Forall_cons; split]; lia.
Ltac members := let n := fresh in let H := fresh in intros n H; repeat rewrite elem_of_cons in H; rewrite elem_of_nil in H; repeat rewrite elem_of_cons; rewrite elem_of_nil; lia.
Example C56_sample_wrong : let e := grid_elem (z <$> [1; 0]) (z <$> [-2; 5]) (z <$> [0]) in
  ∃ d, elem_dset e = Ok d ∧ ds_x d = z <$> [0; 1] ∧ nth 0 (pos e) [] = z <$> [1; 0; 1; 0].
Proof.
  destruct (C51_separated _ _ _ _ (C51_sample_tensor (z <$> [1; 0]) (z <$> [-2; 5]) (z <$> [0]))) as (d & Hd & [A B] & _);
    [discriminate|discriminate|discriminate| | | |]; [apply apart_ints; [small|apply (bool_decide_unpack _); by vm_compute] ..|].
  exists d. split; [exact Hd|]. split; [|reflexivity]. apply increasing_unique; [done| |rewrite B; constructor]. apply increasing_ints; [small|rising].
Qed.
(** An element whose x coordinate changes with the second index is opened as if it were a box. *)
Definition turned : elem f64 :=
  let x := z <$> [0; 0; 1; 1] in let y := z <$> [0; 1; 0; 1] in let o := z <$> [0; 0; 0; 0] in Elem (2, 2, 1)%nat [x; y; o] [o; o; o] [] [] [] [] [] [].
Theorem C57_box_refuted : (∀ xs ys zs, ¬ tensor turned xs ys zs) ∧ ∃ d, elem_dset turned = Ok d ∧ ds_x d = z <$> [0; 1] ∧ ds_y d = z <$> [0; 1].
Proof.
  split. 2:{ assert (meshgrid_to_dim (z <$> [0; 0; 1; 1]) = z <$> [0; 1]) as Ex by (apply (dim_ints [0; 0; 1; 1] [0; 1]); [small|rising|members|members]).
    assert (meshgrid_to_dim (z <$> [0; 1; 0; 1]) = z <$> [0; 1]) as Ey by (apply (dim_ints [0; 1; 0; 1] [0; 1]); [small|rising|members|members]).
    assert (meshgrid_to_dim (z <$> [0; 0; 0; 0]) = z <$> [0]) as Ez by (apply (dim_ints [0; 0; 0; 0] [0]); [small|rising|members|members]).
    unfold turned, elem_dset. cbn [eshape get_f pos vel lookup list_lookup of_opt rbind]. rewrite Ex, Ey, Ez. cbn [length fmap list_fmap Nat.eqb andb negb].
    eexists. split; [reflexivity|]. split; reflexivity. }
  intros xs ys zs (Hs & Hp & _). unfold turned in Hs, Hp. cbn [eshape pos] in Hs, Hp.
  destruct xs as [|x0 [|x1 [|]]]; try done. destruct ys as [|y0 [|y1 [|]]]; try done. destruct zs as [|z0 [|]]; try done. cbn in Hp.
  assert (z 0 = x0) as E0 by exact (f_equal (λ l, nth 0 (nth 0 l []) z64) Hp). assert (z 1 = x0) as E1 by exact (f_equal (λ l, nth 2 (nth 0 l []) z64) Hp).
  rewrite <- E1 in E0. apply (f_equal (λ x, f64_ltb x (z 1))) in E0. vm_compute in E0. done.
Qed.
Print Assumptions C57_box_refuted.
(** A sheared element has three different x coordinates in two places, and is refused. *)
Definition sheared : elem f64 :=
  let x := z <$> [0; 1; 1; 2] in let y := z <$> [0; 0; 1; 1] in let o := z <$> [0; 0; 0; 0] in Elem (2, 2, 1)%nat [x; y; o] [o; o; o] [] [] [] [] [] [].
Example C57_sample_sheared : pos sheared = [z <$> [0; 1; 1; 2]; z <$> [0; 0; 1; 1]; z <$> [0; 0; 0; 0]] ∧
  coordinates_of (z <$> [0; 1; 1; 2]) (z <$> [0; 1; 2]) ∧ coordinates_of (z <$> [0; 0; 1; 1]) (z <$> [0; 1]) ∧ coordinates_of (z <$> [0; 0; 0; 0]) (z <$> [0]) ∧
  eshape sheared ≠ (length (z <$> [0; 1; 2]), length (z <$> [0; 1]), length (z <$> [0])).
Proof.
  assert (∀ a r : list Z, Forall (λ n, Z.abs n <= 1000) r → NoDup r → r ⊆ a → a ⊆ r → coordinates_of (z <$> a) (z <$> r)) as HC.
  { intros a r HF HN H1 H2. split_and!.
    - intros x Hx. apply elem_of_list_fmap in Hx as (n & -> & Hx). apply elem_of_list_fmap_1. by apply H1.
    - by apply apart_ok, apart_ints.
    - intros x Hx. apply elem_of_list_fmap in Hx as (n & -> & Hx). exists (z n). split; [|done]. apply elem_of_list_fmap_1. by apply H2. }
  split; [done|]. split_and!; try (apply HC; [small|apply (bool_decide_unpack _); by vm_compute|members|members]). done.
Qed.
