(** Proofs about [hexa2vtk]. *)
From Coq Require Import Lia.
From Verif Require Import Base Mesh MeshLemmas Field Vtk VtkSpec.
Open Scope Z_scope.

(** ** Arrays filled in a loop *)
Lemma scatter {A X} (n : nat) (f : list A → X → res (list A)) (idx : X → nat) (val : X → A) (L : list X) : ∀ l, length l = n →
  (∀ l x, x ∈ L → length l = n → f l x = Ok (<[idx x := val x]> l)) → (∀ x, x ∈ L → idx x < n)%nat →
  ∃ l', foldM f l L = Ok l' ∧ length l' = n ∧ (∀ j, (∀ x, x ∈ L → idx x ≠ j) → l' !! j = l !! j) ∧
    ∀ x, x ∈ L → (∀ y, y ∈ L → idx y = idx x → val y = val x) → l' !! idx x = Some (val x).
Proof.
  induction L as [|x L IH]; intros l Hl Hf Hi.
  - exists l. split; [done|]. split; [done|]. split; [done|]. intros x Hx. by apply elem_of_nil in Hx.
  - destruct (IH (<[idx x := val x]> l)) as (l' & E & HL & Ho & Hv).
    { by rewrite insert_length. } { intros l0 y Hy. apply Hf. by constructor. } { intros y Hy. apply Hi. by constructor. }
    exists l'. cbn [foldM]. rewrite Hf by (first [constructor|done]). split; [exact E|]. split; [done|]. split.
    + intros j Hj. rewrite Ho; [|intros y Hy; apply Hj; by constructor]. apply list_lookup_insert_ne. apply Hj. constructor.
    + intros y Hy Hc. destruct (decide (Exists (λ z, idx z = idx y) L)) as [Hz|Hz].
      * apply Exists_exists in Hz as (z & Hz & Ez). rewrite <- (Hc z), <- Ez by (first [by constructor|done]). apply Hv; [done|].
        intros w Hw Ew. rewrite (Hc w), (Hc z); try done; try (by constructor). congruence.
      * apply elem_of_cons in Hy as [-> |Hy]; [|exfalso; apply Hz; apply Exists_exists; eauto].
        rewrite Ho; [|intros z Hw Ez; apply Hz; apply Exists_exists; eauto].
        apply list_lookup_insert. rewrite Hl. apply Hi. constructor.
Qed.
Lemma put_ok {A} (i : nat) (x : A) l : (i < length l)%nat → put (Z.of_nat i) x l = Ok (<[i := x]> l).
Proof.
  intros H. unfold put, py_pos. rewrite (proj2 (Z.leb_le 0 _)), (proj2 (Z.ltb_lt _ (Z.of_nat (length l)))) by lia. cbn [andb of_opt rbind].
  by rewrite Nat2Z.id.
Qed.
(** ** Sizes *)
Lemma steps_kept (ds : bool) l : (2 <= l)%nat → steps l (if ds then l - 1 else 1)%nat = kept ds l.
Proof.
  intros H. unfold steps, kept. destruct ds.
  - replace (l + (l - 1) - 1)%nat with (2 * (l - 1))%nat by lia. apply Nat.div_mul. lia.
  - rewrite Nat.div_1_r. lia.
Qed.
Lemma enum_kept (ds : bool) l : (2 <= l)%nat → enum_steps l (if ds then l - 1 else 1)%nat = (λ k, (k, kept_at ds l k)) <$> range (kept ds l).
Proof.
  intros H. unfold enum_steps. rewrite steps_kept by done. apply list_fmap_ext. intros _ k _. unfold kept_at. destruct ds; f_equal; lia.
Qed.
Lemma kept_ge ds l : (2 <= l)%nat → (2 <= kept ds l)%nat.
Proof. unfold kept. destruct ds; lia. Qed.
Lemma kept_at_lt ds l i : (2 <= l)%nat → (i < kept ds l)%nat → (kept_at ds l i < l)%nat.
Proof. unfold kept, kept_at. destruct ds; [|done]. intros H Hi. destruct i as [|[|i]]; lia. Qed.
Lemma flat_lt lx ly lz kz ky kx : (kz < lz)%nat → (ky < ly)%nat → (kx < lx)%nat → (flat (lx, ly, lz) kz ky kx < lz * ly * lx)%nat.
Proof. intros H1 H2 H3. unfold flat. assert (kz * ly + ky < lz * ly)%nat by nia. nia. Qed.
Lemma point_no_lt nx ny nz ne iel kz ky kx : (iel < ne)%nat → (kz < nz)%nat → (ky < ny)%nat → (kx < nx)%nat →
  (iel * (nx * ny * nz) <= point_no (nx, ny, nz) iel kz ky kx < (iel + 1) * (nx * ny * nz))%nat.
Proof. intros H0 H1 H2 H3. unfold point_no. assert (kz * ny + ky < nz * ny)%nat by nia. assert ((kz * ny + ky) * nx + kx < nz * ny * nx)%nat by nia. nia. Qed.
(** There is room for all points. *)
Lemma room nx ny nz : (2 <= nx)%nat → (2 <= ny)%nat → (2 <= nz)%nat → (nx * ny * nz <= 8 * ((nx - 1) * (ny - 1) * (nz - 1)))%nat.
Proof.
  intros H1 H2 H3. assert (nx <= 2 * (nx - 1))%nat as A by lia. assert (ny <= 2 * (ny - 1))%nat as B by lia. assert (nz <= 2 * (nz - 1))%nat as C by lia.
  pose proof (Nat.mul_le_mono _ _ _ _ (Nat.mul_le_mono _ _ _ _ A B) C). lia.
Qed.
Lemma mixed_inj b i i' j j' : (j < b)%nat → (j' < b)%nat → (i * b + j = i' * b + j')%nat → i = i' ∧ j = j'.
Proof.
  intros H H' E. assert (i = i') as ->.
  { pose proof (f_equal (λ z, z / b)%nat E) as X. cbv beta in X. rewrite !(Nat.add_comm (_ * b)), !Nat.div_add, !Nat.div_small in X by lia. lia. }
  lia.
Qed.
Lemma point_no_inj nx ny nz iel kz ky kx iel' kz' ky' kx' : (kz < nz)%nat → (ky < ny)%nat → (kx < nx)%nat →
  (kz' < nz)%nat → (ky' < ny)%nat → (kx' < nx)%nat →
  point_no (nx, ny, nz) iel kz ky kx = point_no (nx, ny, nz) iel' kz' ky' kx' → iel = iel' ∧ kz = kz' ∧ ky = ky' ∧ kx = kx'.
Proof.
  intros H1 H2 H3 H1' H2' H3' E. unfold point_no in E.
  assert ((kz * ny + ky) * nx + kx < nx * ny * nz)%nat by (assert (kz * ny + ky < nz * ny)%nat by nia; nia).
  assert ((kz' * ny + ky') * nx + kx' < nx * ny * nz)%nat by (assert (kz' * ny + ky' < nz * ny)%nat by nia; nia).
  apply mixed_inj in E as [-> E]; [|done|done]. apply mixed_inj in E as [E ->]; [|done|done]. apply mixed_inj in E as [-> ->]; done.
Qed.
(** ** The arrays *)
Lemma mapR_omap {A B} (g : A → option B) (l : list A) : Forall (λ a, is_Some (g a)) l →
  mapR (λ a, of_opt IndexError (g a)) l = Ok (omap g l) ∧ length (omap g l) = length l.
Proof.
  induction 1 as [|a l [b Hb] _ [IH1 IH2]]; [done|]. cbn. rewrite Hb. cbn. rewrite IH1. cbn. auto.
Qed.
Lemma column_ok {N} (e : elem N) k lx ly lz kz ky kx : eshape e = (lx, ly, lz) → Forall (λ a, length a = (lz * ly * lx)%nat) (get_f k e) →
  (kz < lz)%nat → (ky < ly)%nat → (kx < lx)%nat →
  column e k kz ky kx = Ok (value_at e k kz ky kx) ∧ length (value_at e k kz ky kx) = length (get_f k e).
Proof.
  intros He Ha H1 H2 H3. unfold column, value_at. rewrite He. rewrite !(proj2 (Nat.ltb_lt _ _)) by done. cbn [andb].
  apply mapR_omap. eapply Forall_impl; [exact Ha|]. cbv beta. intros a Hl. apply lookup_lt_is_Some_2. rewrite Hl. by apply flat_lt.
Qed.
Section array.
Context {N : Type} (zero : N) (ds : bool) (m : hexa N) (lx ly lz vu vp vt vs : nat) (Hm : vtk_mesh m lx ly lz vu vp vt vs).
Let nx := kept ds lx. Let ny := kept ds ly. Let nz := kept ds lz.
Let npts := (8 * (nel m * ((nx - 1) * (ny - 1) * (nz - 1))))%nat.
Let grid := prod2 (range (nel m)) (prod3 ((λ k, (k, kept_at ds lz k)) <$> range nz) ((λ k, (k, kept_at ds ly k)) <$> range ny) ((λ k, (k, kept_at ds lx k)) <$> range nx)).
Lemma grid_elem iel iz ez iy ey ix ex : (iel, ((iz, ez), (iy, ey), (ix, ex))) ∈ grid ↔
  (iel < nel m ∧ iz < nz ∧ iy < ny ∧ ix < nx)%nat ∧ ez = kept_at ds lz iz ∧ ey = kept_at ds ly iy ∧ ex = kept_at ds lx ix.
Proof.
  unfold grid. rewrite elem_of_prod2, elem_of_prod3, !elem_of_list_fmap. unfold range. setoid_rewrite elem_of_seq. split.
  - intros (H0 & (a & [= -> ->] & Ha) & (b & [= -> ->] & Hb) & (c & [= -> ->] & Hc)). repeat split; lia.
  - intros (H & -> & -> & ->). repeat split; [lia|lia|exists iz|exists iy|exists ix]; (split; [done|lia]).
Qed.
Lemma vtk_array_ok k (made fill : bool) w : (∀ e, e ∈ elems m → length (get_f k e) = w) → (0 < w)%nat → made = true → fill = true →
  ∃ rows, vtk_array zero m k made fill w npts nx ny (nx * ny * nz) grid = Ok (Some rows) ∧ length rows = npts ∧
    (∀ j, (nel m * (nx * ny * nz) <= j < npts)%nat → rows !! j = Some (replicate w zero)) ∧
    ∀ iel e kz ky kx, elems m !! iel = Some e → (kz < nz)%nat → (ky < ny)%nat → (kx < nx)%nat →
      ∃ row, rows !! point_no (nx, ny, nz) iel kz ky kx = Some row ∧ length row = w ∧
        row = value_at e k (kept_at ds lz kz) (kept_at ds ly ky) (kept_at ds lx kx).
Proof.
  intros Hw Hp -> ->. unfold vtk_array. cbn [negb]. pose proof (vm_size _ _ _ _ _ _ _ _ Hm) as (Sx & Sy & Sz).
  pose proof (vm_elems _ _ _ _ _ _ _ _ Hm) as HE. rewrite Forall_forall in HE. pose proof (vm_nel _ _ _ _ _ _ _ _ Hm) as HN.
  pose (idx := λ x : nat * ((nat * nat) * (nat * nat) * (nat * nat)), let '(iel, ((iz, _), (iy, _), (ix, _))) := x in point_no (nx, ny, nz) iel iz iy ix).
  pose (val := λ x : nat * ((nat * nat) * (nat * nat) * (nat * nat)), let '(iel, ((_, ez), (_, ey), (_, ex))) := x in
     match elems m !! iel with Some e => value_at e k ez ey ex | None => [] end).
  assert (∀ x, x ∈ grid → idx x < npts)%nat as Hidx.
  { intros [iel [[[iz ez] [iy ey]] [ix ex]]] Hx. apply grid_elem in Hx as ((H0 & H1 & H2 & H3) & _).
    pose proof (point_no_lt nx ny nz (nel m) iel iz iy ix H0 H1 H2 H3) as X. cbn [idx]. unfold npts.
    pose proof (room nx ny nz (kept_ge ds lx Sx) (kept_ge ds ly Sy) (kept_ge ds lz Sz)) as Y.
    assert ((iel + 1) * (nx * ny * nz) <= nel m * (nx * ny * nz))%nat by (apply Nat.mul_le_mono_r; lia).
    assert (nel m * (nx * ny * nz) <= nel m * (8 * ((nx - 1) * (ny - 1) * (nz - 1))))%nat by (by apply Nat.mul_le_mono_l). lia. }
  destruct (scatter npts (λ a '(iel, ((iz, ez), (iy, ey), (ix, ex))),
    let! e := of_opt IndexError (elems m !! iel) in let! c := column e k ez ey ex in
    put_row w (iel * (nx * ny * nz) + ix + iy * nx + iz * (nx * ny))%nat c a) idx val grid (replicate npts (replicate w zero))) as (rows & E & HL & HO & HV).
  { apply replicate_length. }
  { intros l [iel [[[iz ez] [iy ey]] [ix ex]]] Hx Hl. pose proof (Hidx _ Hx) as Hi. apply grid_elem in Hx as ((H0 & H1 & H2 & H3) & -> & -> & ->).
    destruct (lookup_lt_is_Some_2 (elems m) iel ltac:(lia)) as [e He]. rewrite He. cbn [of_opt rbind]. pose proof (elem_of_list_lookup_2 _ _ _ He) as Hin.
    destruct (HE e Hin) as [Hsh Hk]. destruct (column_ok e k lx ly lz (kept_at ds lz iz) (kept_at ds ly iy) (kept_at ds lx ix) Hsh) as [Ec Lc];
      [apply Hk|by apply kept_at_lt..|]. rewrite Ec. cbn [rbind]. unfold put_row. rewrite Lc, Hw by done. rewrite Nat.eqb_refl.
    assert ((iel * (nx * ny * nz) + ix + iy * nx + iz * (nx * ny))%nat = idx (iel, ((iz, kept_at ds lz iz), (iy, kept_at ds ly iy), (ix, kept_at ds lx ix)))) as ->
      by (cbn [idx]; unfold point_no; lia).
    rewrite put_ok by lia. cbn [val]. by rewrite He. }
  { exact Hidx. }
  exists rows. rewrite E. split; [done|]. split; [done|]. split.
  { intros j Hj. rewrite HO; [apply lookup_replicate; split; [done|lia]|]. intros [iel [[[iz ez] [iy ey]] [ix ex]]] Hx. apply grid_elem in Hx as ((H0 & H1 & H2 & H3) & _).
    pose proof (point_no_lt nx ny nz (nel m) iel iz iy ix H0 H1 H2 H3). cbn [idx].
    assert ((iel + 1) * (nx * ny * nz) <= nel m * (nx * ny * nz))%nat by (apply Nat.mul_le_mono_r; lia). lia. }
  intros iel e kz ky kx He H1 H2 H3.
  assert ((iel, ((kz, kept_at ds lz kz), (ky, kept_at ds ly ky), (kx, kept_at ds lx kx))) ∈ grid) as Hg.
  { apply grid_elem. split; [|done]. apply lookup_lt_Some in He. lia. }
  specialize (HV _ Hg). cbn [idx val] in HV. rewrite He in HV. eexists. split; [apply HV|split; [|reflexivity]].
  - intros [iel' [[[iz ez] [iy ey]] [ix ex]]] Hy Ey. apply grid_elem in Hy as ((H0' & H1' & H2' & H3') & -> & -> & ->). cbn [idx] in Ey.
    apply point_no_inj in Ey as (-> & -> & -> & ->); [|done..]. cbn [val]. by rewrite He.
  - pose proof (elem_of_list_lookup_2 _ _ _ He) as Hin. destruct (HE e Hin) as [Hsh Hk].
    rewrite (proj2 (column_ok e k lx ly lz _ _ _ Hsh (proj1 (Hk k)) (kept_at_lt ds lz kz Sz H1) (kept_at_lt ds ly ky Sy H2) (kept_at_lt ds lx kx Sx H3))). by apply Hw.
Qed.
End array.
(** ** The cells *)
Lemma put_mid {A} (i : nat) (z : Z) (x : A) l1 l2 l3 : z = Z.of_nat (length l1 + i) → (i < length l2)%nat →
  put z x (l1 ++ l2 ++ l3) = Ok (l1 ++ <[i := x]> l2 ++ l3).
Proof.
  intros -> H. rewrite put_ok by (rewrite !app_length; lia). rewrite insert_app_r, insert_app_l by done. done.
Qed.
Lemma vtk_cells_ok nx ny nz cells : ∀ done_ ice,
  ice = Z.of_nat (length (concat done_)) - 9 →
  ∃ ice', foldM (vtk_cell 3 8 nx ny (nx * ny * nz)) (ice, concat done_ ++ concat (replicate (length cells) (8 :: replicate 8 0))) cells =
   Ok (ice', concat done_ ++ concat ((λ '(iel, (iz, iy, ix)), 8 :: (Z.of_nat <$> corner_points (nx, ny, nz) iel iz iy ix)) <$> cells)).
Proof.
  induction cells as [|[iel [[iz iy] ix]] cells IH]; intros dn ice Hi; [by exists ice|].
  cbn [length foldM]. change (concat (replicate (S (length cells)) (8 :: replicate 8 0))) with ((8 :: replicate 8 0) ++ concat (replicate (length cells) (8 :: replicate 8 0))).
  set (rest := concat (replicate (length cells) (8 :: replicate 8 0))).
  set (c := 8 :: (Z.of_nat <$> corner_points (nx, ny, nz) iel iz iy ix)).
  assert (vtk_cell 3 8 nx ny (nx * ny * nz) (ice, concat dn ++ (8 :: replicate 8 0) ++ rest) (iel, (iz, iy, ix)) =
    Ok (ice + 9, concat dn ++ c ++ rest)) as E.
  { unfold vtk_cell. change (range (3 - 1)) with [0; 1]%nat. cbn [foldM].
    replace (ice + Z.of_nat 8 + 1) with (Z.of_nat (length (concat dn))) by lia. 
    assert (∀ t, (t < 9)%nat → ∀ x (l2 : list Z) z, length l2 = 9%nat → z = Z.of_nat (length (concat dn)) + Z.of_nat t →
      put z x (concat dn ++ l2 ++ rest) = Ok (concat dn ++ <[t := x]> l2 ++ rest)) as P.
    { intros t Ht x l2 z Hl Hz. apply put_mid; lia. }
    rewrite (P 1%nat) by (reflexivity || lia). cbn [rbind]. rewrite (P 2%nat) by (reflexivity || lia). cbn [rbind].
    rewrite (P 3%nat) by (reflexivity || lia). cbn [rbind]. rewrite (P 4%nat) by (reflexivity || lia). cbn [rbind].
    rewrite (P 5%nat) by (reflexivity || lia). cbn [rbind]. rewrite (P 6%nat) by (reflexivity || lia). cbn [rbind].
    rewrite (P 7%nat) by (reflexivity || lia). cbn [rbind]. rewrite (P 8%nat) by (reflexivity || lia). cbn [rbind].
    f_equal. f_equal; [lia|]. f_equal. f_equal. unfold c, corner_points, hex_corners, point_no. cbn [replicate insert list_insert fmap list_fmap].
    repeat (apply (f_equal2 cons); [lia|]). reflexivity. }
  rewrite E. cbn [rbind]. destruct (IH (dn ++ [c]) (ice + 9)) as (ice' & E').
  { rewrite concat_app, app_length. cbn [concat]. rewrite app_nil_r. unfold c. cbn. lia. }
  exists ice'. rewrite !concat_app in E'. cbn [concat] in E'. rewrite app_nil_r, <- !app_assoc in E'. exact E'.
Qed.
Lemma prod2_length {A B} (l1 : list A) (l2 : list B) : length (prod2 l1 l2) = (length l1 * length l2)%nat.
Proof. unfold prod2. induction l1 as [|a l1 IH]; [done|]. cbn [mbind list_bind length]. rewrite app_length, fmap_length, IH. lia. Qed.
Lemma prod3_length {A B C} (l1 : list A) (l2 : list B) (l3 : list C) : length (prod3 l1 l2 l3) = (length l1 * (length l2 * length l3))%nat.
Proof.
  unfold prod3. induction l1 as [|a l1 IH]; [done|]. cbn [mbind list_bind length]. rewrite app_length, IH.
  assert (length (l2 ≫= λ b, (λ c, (a, b, c)) <$> l3) = (length l2 * length l3)%nat) as ->; [|lia].
  clear IH. induction l2 as [|b l2 IH2]; [done|]. cbn [mbind list_bind length]. rewrite app_length, fmap_length, IH2. lia.
Qed.
(** The cells of a field: [nx - 1] by [ny - 1] by [nz - 1] in each element. *)
Definition all_cells (ne : nat) (n : nat * nat * nat) : list (nat * (nat * nat * nat)) :=
  let '(nx, ny, nz) := n in prod2 (range ne) (prod3 (range (nz - 1)) (range (ny - 1)) (range (nx - 1))).
Lemma all_cells_length ne nx ny nz : length (all_cells ne (nx, ny, nz)) = (ne * ((nx - 1) * (ny - 1) * (nz - 1)))%nat.
Proof. unfold all_cells, range. rewrite prod2_length, prod3_length, !seq_length. lia. Qed.
Lemma hexa2vtk_ok {N} (zero : N) ds m lx ly lz vu vp vt vs : vtk_mesh m lx ly lz vu vp vt vs →
  let n := (kept ds lx, kept ds ly, kept ds lz) in
  let ncell := (nel m * ((kept ds lx - 1) * (kept ds ly - 1) * (kept ds lz - 1)))%nat in
  ∃ g, hexa2vtk zero ds m = Ok g ∧
    vt_types g = replicate ncell 12 ∧ vt_offsets g = (λ i, Z.of_nat (8 * i)) <$> range ncell ∧
    vt_cells g = concat ((λ '(iel, (kz, ky, kx)), 8 :: (Z.of_nat <$> corner_points n iel kz ky kx)) <$> all_cells (nel m) n) ∧
    length (vt_points g) = (8 * ncell)%nat ∧
    (∀ j, (nel m * (kept ds lx * kept ds ly * kept ds lz) <= j < 8 * ncell)%nat → vt_points g !! j = Some [zero; zero; zero]) ∧
    rows_hold ds m lx ly lz FPos 3 (Some (vt_points g)) ∧ rows_hold ds m lx ly lz FVel vu (vt_vel g) ∧
    rows_hold ds m lx ly lz FPres vp (vt_pres g) ∧ rows_hold ds m lx ly lz FTemp vt (vt_temp g) ∧ rows_hold ds m lx ly lz FScal vs (vt_scal g).
Proof.
  intros Hm n ncell. pose proof (vm_size _ _ _ _ _ _ _ _ Hm) as (Sx & Sy & Sz). pose proof (vm_vars _ _ _ _ _ _ _ _ Hm) as (Hu & Hp & Ht).
  pose proof (vm_elems _ _ _ _ _ _ _ _ Hm) as HE. rewrite Forall_forall in HE.
  pose proof (kept_ge ds lz Sz) as Kz.
  assert (∀ k w (made fill : bool), (∀ e, e ∈ elems m → length (get_f k e) = w) → made = negb (w =? 0)%nat → fill = negb (w =? 0)%nat →
    ∃ a, vtk_array zero m k made fill w (8 * ncell) (kept ds lx) (kept ds ly) (kept ds lx * kept ds ly * kept ds lz)
      (prod2 (range (nel m)) (prod3 ((λ k, (k, kept_at ds lz k)) <$> range (kept ds lz)) ((λ k, (k, kept_at ds ly k)) <$> range (kept ds ly)) ((λ k, (k, kept_at ds lx k)) <$> range (kept ds lx)))) = Ok a ∧
    rows_hold ds m lx ly lz k w a ∧ (∀ rows, a = Some rows → length rows = (8 * ncell)%nat ∧ ∀ j, (nel m * (kept ds lx * kept ds ly * kept ds lz) <= j < 8 * ncell)%nat → rows !! j = Some (replicate w zero))) as HA.
  { intros k w made fill Hk -> ->. destruct w as [|w].
    - cbn. exists None. done.
    - cbn [Nat.eqb negb]. destruct (vtk_array_ok zero ds m lx ly lz vu vp vt vs Hm k true true (S w) Hk ltac:(lia) eq_refl eq_refl) as (rows & E & HL & HZ & HR).
      exists (Some rows). split; [exact E|]. split; [|by intros ? [= <-]]. cbn [rows_hold]. exists rows. split; [done|exact HR]. }
  unfold hexa2vtk. rewrite (vm_lr1 _ _ _ _ _ _ _ _ Hm), (vm_dim _ _ _ _ _ _ _ _ Hm), (vm_var _ _ _ _ _ _ _ _ Hm).
  unfold lr1_triple. cbn [nth existsb].
  rewrite !(proj2 (Nat.eqb_neq _ 0)) by lia. rewrite !(proj2 (Nat.eqb_neq _ 1)) by lia. cbn [orb]. rewrite andb_false_r.
  assert ((if ds then (lx - 1, ly - 1, Nat.max (lz - 1) 1)%nat else (1, 1, 1)%nat) =
    ((if ds then lx - 1 else 1)%nat, (if ds then ly - 1 else 1)%nat, (if ds then lz - 1 else 1)%nat)) as -> by (destruct ds; [f_equal; lia|done]).
  rewrite !steps_kept, !enum_kept by done. replace (Nat.max (kept ds lz - 1) 1) with (kept ds lz - 1)%nat by lia.
  fold ncell. change (3 =? 3)%nat with true. cbv iota. 
  destruct (HA FPos 3%nat true true) as (r & Er & Hr & Lr); [intros e He; apply (HE e He)|done|done|]. cbn [negb Nat.eqb]. rewrite Er. cbn [rbind].
  assert (∃ u, vtk_array zero m FVel (negb (vu =? 0)%nat) (vu =? 3)%nat 3 (8 * ncell) (kept ds lx) (kept ds ly) (kept ds lx * kept ds ly * kept ds lz)
      (prod2 (range (nel m)) (prod3 ((λ k, (k, kept_at ds lz k)) <$> range (kept ds lz)) ((λ k, (k, kept_at ds ly k)) <$> range (kept ds ly)) ((λ k, (k, kept_at ds lx k)) <$> range (kept ds lx)))) = Ok u ∧
    rows_hold ds m lx ly lz FVel vu u) as (u & Eu & Hru).
  { destruct Hu as [-> | ->]; [by exists None|]. destruct (HA FVel 3%nat true true) as (u & Eu & Hru & _); [intros e He; apply (HE e He)|done|done|]. by exists u. }
  rewrite Eu. cbn [rbind].
  assert (∀ k v, (v <= 1)%nat → (∀ e, e ∈ elems m → length (get_f k e) = v) →
    ∃ u, vtk_array zero m k (v =? 1)%nat (v =? 1)%nat 1 (8 * ncell) (kept ds lx) (kept ds ly) (kept ds lx * kept ds ly * kept ds lz)
      (prod2 (range (nel m)) (prod3 ((λ k, (k, kept_at ds lz k)) <$> range (kept ds lz)) ((λ k, (k, kept_at ds ly k)) <$> range (kept ds ly)) ((λ k, (k, kept_at ds lx k)) <$> range (kept ds lx)))) = Ok u ∧
    rows_hold ds m lx ly lz k v u) as H1.
  { intros k v Hv He. destruct v as [|[|v]]; [by exists None| |lia]. destruct (HA k 1%nat true true) as (a & Ea & Hra & _); [exact He|done|done|]. by exists a. }
  destruct (H1 FPres vp Hp) as (p & Ep & Hrp); [intros e He; apply (HE e He)|]. rewrite Ep. cbn [rbind].
  destruct (H1 FTemp vt Ht) as (t & Et & Hrt); [intros e He; apply (HE e He)|]. rewrite Et. cbn [rbind].
  destruct (HA FScal vs (negb (vs =? 0)%nat) (negb (vs =? 0)%nat)) as (sc & Es & Hrs & _); [intros e He; apply (HE e He)|done|done|]. rewrite Es. cbn [rbind].
  destruct (vtk_cells_ok (kept ds lx) (kept ds ly) (kept ds lz) (all_cells (nel m) n) [] (-9) eq_refl) as (ice & Ec).
  cbn [concat app] in Ec. unfold n in Ec at 1. rewrite all_cells_length in Ec. fold ncell in Ec.
  unfold all_cells at 1 in Ec. cbv beta iota in Ec. unfold n in Ec at 1.
  match type of Ec with ?L = _ => match goal with |- context [foldM ?F ?S ?C] => replace (foldM F S C) with L by reflexivity end end.
  rewrite Ec. cbn [rbind]. destruct Hr as (rows & -> & Hr). eexists. split; [reflexivity|]. cbn [vt_types vt_offsets vt_cells vt_points vt_vel vt_pres vt_temp vt_scal].
  do 2 (split; [reflexivity|]). split; [reflexivity|]. destruct (Lr rows eq_refl) as [L1 L2]. split; [done|]. split; [exact L2|]. split; [by exists rows|]. done.
Qed.
(** ** Two dimensions *)
Lemma vtk_array_unfilled {N} (zero : N) m k made w npts nix niy nppel grid :
  vtk_array zero m k made false w npts nix niy nppel grid = Ok (if made then Some (replicate npts (replicate w zero)) else None).
Proof. by destruct made. Qed.
Lemma hexa2vtk_2d {N} (zero : N) ds m g : ndim m = 2%nat → nth 0 (var m) 0%nat = 2%nat → hexa2vtk zero ds m = Ok g →
  ∃ n, vt_types g = replicate n 9 ∧ vt_cells g = concat (replicate n [4; 0; 0; 0; 0]) ∧ vt_points g = replicate (4 * n) [zero; zero; zero].
Proof.
  intros Hd Hv. unfold hexa2vtk. destruct (lr1_triple (lr1 m)) as [[lx ly] lz]. rewrite Hd, Hv.
  destruct (existsb _ _); [done|]. destruct (ds && _); [done|]. destruct (if ds then _ else _) as [[ixs iys] izs].
  change (2 =? 3)%nat with false. change (2 =? 0)%nat with false. cbv iota. rewrite vtk_array_unfilled. cbn [rbind negb].
  set (n := (nel m * _)%nat).
  destruct (vtk_array _ _ FVel _ _ _ _ _ _ _ _) as [u|]; [|done]. cbn [rbind].
  destruct (vtk_array _ _ FPres _ _ _ _ _ _ _ _) as [p|]; [|done]. cbn [rbind].
  destruct (vtk_array _ _ FTemp _ _ _ _ _ _ _ _) as [t|]; [|done]. cbn [rbind].
  destruct (vtk_array _ _ FScal _ _ _ _ _ _ _ _) as [s|]; [|done]. cbn [rbind].
  intros [= <-]. exists n. done.
Qed.
Lemma concat_nine {A} (ll : list (list A)) i l : ll !! i = Some l → Forall (λ l, length l = 9%nat) ll → take 9 (drop (9 * i) (concat ll)) = l.
Proof.
  intros Hi HF. revert i Hi. induction HF as [|x ll Hx HF IH]; intros i Hi; [done|]. destruct i as [|i].
  - cbn in Hi. apply (inj Some) in Hi as ->. cbn [concat]. rewrite Nat.mul_0_r. change (drop 0 (l ++ concat ll)) with (l ++ concat ll). by apply take_app_alt.
  - cbn in Hi. cbn [concat]. replace (9 * S i)%nat with (length x + 9 * i)%nat by lia. rewrite <- drop_drop, drop_app. apply IH. exact Hi.
Qed.
