(** C73: meshes made by any sequence of operations. *)
From Coq Require Import Lia Reals Lra.
From Verif Require Import Base Mesh Core Tools Float FloatLaws GeoLaws MeshLemmas MeshSpec CheckProofs OpsProofs BoxSpec BoxProofs RestoreBox Samples KeepSpec P_Ops P_Keep P_Gib P_Check
  P_Box MergeSpec P_Merge HistorySpec History.
Open Scope Z_scope.

(** Start from meshes with valid connectivity, merge them, take parts of them, delete and generate internal conditions, in
    any order and any number of times: the connectivity is always valid and check_connectivity accepts the mesh. *)
Theorem C73_history {A : arith} (bnd : Z) (tol : num A) (given : hexa (num A) → Prop) m :
  arith_laws A bnd → geo_laws A → 6 <= bnd → (∀ m, given m → sound bnd tol m) → built bnd tol given m →
  sound bnd tol m ∧ check_connectivity tol m = Ok true.
Proof.
  intros LA LG H6 HG HB. pose proof (built_sound bnd tol LA LG H6 given m HG HB) as S. split; [done|].
  apply check_connectivity_iff; [apply (so_connected _ _ _ S)|apply (so_valid _ _ _ S)].
Qed.
Print Assumptions C73_history.
(** The statement for float64. *)
Theorem C73_history_float64 (tol : f64) (given : hexa (num A64) → Prop) m :
  (∀ m, given m → sound (A:=A64) bnd64 tol m) → built (A:=A64) bnd64 tol given m →
  sound (A:=A64) bnd64 tol m ∧ check_connectivity (A:=A64) tol m = Ok true.
Proof. apply (C73_history (A:=A64) bnd64); [apply A64_laws|apply A64_geo|done]. Qed.
Print Assumptions C73_history_float64.

(** No history gets stuck: all the operations succeed on a mesh that has been made in this way. *)
Theorem C73_progress {A : arith} (bnd : Z) (tol : num A) (given : hexa (num A) → Prop) m :
  arith_laws A bnd → geo_laws A → 6 <= bnd → (∀ m, given m → sound bnd tol m) → built bnd tol given m →
  (∀ o ie, built bnd tol given o → mergeable bnd tol ie m o → ∃ m' n, merge tol ie false m o = (m', Ok n)) ∧
  (∀ els ext, NoDup els → (∀ i, i ∈ els → (i < nel m)%nat) → ∃ m', keep_elements m els ext = Ok m' ∧ nel m' = length els) ∧
  (∃ m' n, delete_internal_bcs m = Ok (m', n)) ∧ (∃ m' n, generate_internal_bcs tol m = Ok (m', n)).
Proof.
  intros LA LG H6 HG HB. pose proof (built_sound bnd tol LA LG H6 given m HG HB) as S. destruct (so_connected _ _ _ S) as (W & P & U & NS).
  split_and!.
  - intros o ie HBo (H1 & H2 & H3). pose proof (built_sound bnd tol LA LG H6 given o HG HBo) as So.
    destruct (C26_merge_connected bnd m o tol ie LA H1 (so_fields _ _ _ S) (so_connected _ _ _ S) (so_connected _ _ _ So) H2 H3) as (m' & n & E & _). by exists m', n.
  - intros els ext Nd Hels. destruct (C32_keep_elements bnd m els ext LA W Nd Hels (so_curves _ _ _ S)) as (m' & E & Hs & _); [|apply (so_size _ _ _ S)|].
    + intros i b f r Hi Hr Hc. destruct (P i b f r Hi Hr Hc) as (j & g & q & Hj & [P1 _] & _). exists j. split; [by destruct Hj|done].
    + exists m'. split; [done|]. by destruct Hs as (_ & _ & _ & _ & D5 & _).
  - destruct (C29_delete_internal m (proj1 W)) as (m1 & n & E & _). by exists m1, n.
  - pose proof (so_fields _ _ _ S). destruct (C30_generate_internal_bcs m tol W) as (m' & n & p & E & _); [lia|by apply (sound_nonzero bnd tol LG)|]. by exists m', n.
Qed.
Print Assumptions C73_progress.

(** ** Where to start: boxes *)
(** A side is periodic in all the fields or in none. *)
Definition same_periodicity (nb : nat) (sd : nat → sides) : Prop :=
  ∀ b, (b < nb)%nat → (s_bottom (sd b) = "P"%string ↔ s_bottom (sd 0%nat) = "P"%string) ∧ (s_left (sd b) = "P"%string ↔ s_left (sd 0%nat) = "P"%string).

Lemma cell_face_partner nx ny s i j f t i' j' f' : sides_ok s → (i < nx)%nat → (j < ny)%nat → (f < 4)%nat →
  cell_face nx ny s i j f = (t, (i', j', f')) → is_conn t →
  (i' < nx)%nat ∧ (j' < ny)%nat ∧ (f' < 4)%nat ∧ f' ≠ f ∧ cell_face nx ny s i' j' f' = (t, (i, j, f)).
Proof.
  intros (S1 & S2 & S3 & S4 & S5 & S6) Hi Hj Hf Hc Ht. unfold cell_face in Hc.
  assert (∀ c : string, side_condition c → is_conn c → c = "P"%string) as HP by (intros c (_ & N1 & _) [X|X]; done).
  destruct f as [|[|[|[|f]]]]; [| | | |lia]; (case_decide as D; injection Hc as <- <- <- <-).
  - apply (HP _ S1) in Ht. split_and!; try lia. unfold cell_face. rewrite decide_True by lia. rewrite Ht, (proj1 S5 Ht), D. done.
  - split_and!; try lia. unfold cell_face. rewrite decide_False by lia. do 3 f_equal. lia.
  - apply (HP _ S2) in Ht. split_and!; try lia. unfold cell_face. rewrite decide_True by lia. rewrite Ht, (proj2 S6 Ht), D. done.
  - split_and!; try lia. unfold cell_face. rewrite decide_False by lia. do 3 f_equal. lia.
  - apply (HP _ S3) in Ht. split_and!; try lia. unfold cell_face. rewrite decide_True by lia. rewrite Ht, (proj2 S5 Ht), D. done.
  - split_and!; try lia. unfold cell_face. rewrite decide_False by lia. do 3 f_equal. lia.
  - apply (HP _ S4) in Ht. split_and!; try lia. unfold cell_face. rewrite decide_True by lia. rewrite Ht, (proj1 S6 Ht), D. done.
  - split_and!; try lia. unfold cell_face. rewrite decide_False by lia. do 3 f_equal. lia.
Qed.
Lemma cell_face_fields nx ny s s0 i j f : sides_ok s → sides_ok s0 → (s_bottom s = "P"%string ↔ s_bottom s0 = "P"%string) →
  (s_left s = "P"%string ↔ s_left s0 = "P"%string) → is_conn (cell_face nx ny s i j f).1 ∨ is_conn (cell_face nx ny s0 i j f).1 →
  cell_face nx ny s i j f = cell_face nx ny s0 i j f.
Proof.
  intros (S1 & S2 & S3 & S4 & S5 & S6) (Z1 & Z2 & Z3 & Z4 & Z5 & Z6) P1 P2 Hc.
  assert (∀ c : string, side_condition c → is_conn c → c = "P"%string) as HP by (intros c (_ & N1 & _) [X|X]; done).
  assert (∀ c c0, side_condition c → side_condition c0 → (c = "P"%string ↔ c0 = "P"%string) → is_conn c ∨ is_conn c0 → c = c0) as HQ.
  { intros c c0 T1 T2 T3 [T|T]; apply HP in T; try done; [rewrite T; symmetry; by apply T3|rewrite T; by apply T3]. }
  unfold cell_face in *. destruct f as [|[|[|f]]]; (case_decide; [|done]); cbn [fst] in Hc; f_equal; apply HQ; try done; tauto.
Qed.
Lemma grid_connected {A : arith} bnd nx ny (xmin xmax ymin ymax : num A) nb (sd : nat → sides) m :
  arith_laws A bnd → 4 <= bnd → Z.of_nat (nx * ny) <= bnd → (0 < nb)%nat →
  wf_mesh m → is_grid nx ny xmin xmax ymin ymax m → nbc m = nb → (∀ b, (b < nb)%nat → sides_ok (sd b)) → same_periodicity nb sd →
  (∀ i j b f, (i < nx)%nat → (j < ny)%nat → (b < nb)%nat → (f < 4)%nat →
     ∃ r, get_bc m (i + nx * j)%nat b f = Some r ∧ is_cell_bc nx ny (sd b) i j f r) →
  connected_mesh m.
Proof.
  intros LA H4 Hbnd Hnb0 W (G1 & G2 & _) Hnb Hs HP Hent.
  assert (∀ k b f r, in_mesh m k b f → get_bc m k b f = Some r → ∃ i j, (i < nx)%nat ∧ (j < ny)%nat ∧ (b < nb)%nat ∧ (f < 4)%nat ∧ k = (i + nx * j)%nat ∧ is_cell_bc nx ny (sd b) i j f r) as HR.
  { intros k b f r (Hk & Hb & Hf) Hr. rewrite G2 in Hk. rewrite Hnb in Hb. rewrite G1 in Hf. apply elnum_div in Hk as (i & j & Hi & Hj & ->). unfold elnum in *.
    destruct (Hent i j b f Hi Hj Hb ltac:(lia)) as (r0 & Hr0 & Hc). rewrite Hr in Hr0. apply (inj Some) in Hr0 as <-. exists i, j. split_and!; try done; lia. }
  assert (∀ i j b f, (i < nx)%nat → (j < ny)%nat → (b < nb)%nat → (f < 4)%nat → in_mesh m (i + nx * j) b f) as Hin.
  { intros i j b f Hi Hj Hb Hf. unfold in_mesh. rewrite G1, G2, Hnb. split_and!; [nia|lia|lia]. }
  split; [done|]. split; [|split].
  - intros k b f r Hk Hr Hc. destruct (HR _ _ _ _ Hk Hr) as (i & j & Hi & Hj & Hb & Hf & -> & Hcell). unfold is_cell_bc in Hcell.
    destruct (cell_face nx ny (sd b) i j f) as [t [[i' j'] f']] eqn:Ec. destruct Hcell as (C1 & _ & _ & C4). rewrite C1 in Hc.
    destruct (cell_face_partner _ _ _ _ _ _ _ _ _ _ (Hs b Hb) Hi Hj Hf Ec Hc) as (Hi' & Hj' & Hf' & _ & Ec').
    destruct (Hent i' j' b f' Hi' Hj' Hb Hf') as (r' & Hr' & Hcell'). unfold is_cell_bc in Hcell'. rewrite Ec' in Hcell'. destruct Hcell' as (D1 & _ & _ & D4).
    exists (i' + nx * j')%nat, f', r'. split; [by apply Hin|]. split; [by apply C4|]. split; [done|]. split; [congruence|by apply D4].
  - intros k b f r r0 Hk Hr Hr0 Hc. destruct (HR _ _ _ _ Hk Hr) as (i & j & Hi & Hj & Hb & Hf & -> & Hcell).
    destruct (Hent i j 0%nat f Hi Hj Hnb0 Hf) as (r1 & Hr1 & Hcell0). rewrite Hr0 in Hr1. apply (inj Some) in Hr1 as <-. destruct (HP b Hb) as [P1 P2].
    unfold is_cell_bc in Hcell, Hcell0. pose proof (cell_face_fields nx ny (sd b) (sd 0%nat) i j f (Hs b Hb) (Hs 0%nat Hnb0) P1 P2) as He.
    destruct (cell_face nx ny (sd b) i j f) as [t [[i' j'] f']], (cell_face nx ny (sd 0%nat) i j f) as [t0 [[i0 j0] f0]].
    destruct Hcell as (C1 & _ & _ & C4), Hcell0 as (D1 & _ & _ & D4). rewrite C1, D1 in Hc. cbn [fst] in He. specialize (He Hc). injection He as <- <- <- <-.
    assert (is_conn t) as Ht by tauto. destruct (C4 Ht) as [X1 X2], (D4 Ht) as [Y1 Y2]. split_and!; congruence.
  - intros [k f] r Hk Hr Ht HPt. cbn [fst snd] in *. destruct (HR _ _ _ _ Hk Hr) as (i & j & Hi & Hj & Hb & Hf & -> & Hcell). unfold is_cell_bc in Hcell.
    destruct (cell_face nx ny (sd 0%nat) i j f) as [t [[i' j'] f']] eqn:Ec. destruct Hcell as (C1 & _ & _ & C4). assert (is_conn t) as Hc by (right; congruence).
    destruct (cell_face_partner _ _ _ _ _ _ _ _ _ _ (Hs 0%nat Hnb0) Hi Hj Hf Ec Hc) as (Hi' & Hj' & Hf' & Hne & _). apply Hne.
    destruct (C4 Hc) as [_ Q1], HPt as [_ Q2]. rewrite Q1 in Q2. apply (nofZ_inj bnd LA) in Q2; lia.
Qed.
(** The boxes of gen_box are meshes to start from, over the real numbers, with any non-negative tolerance. *)
Theorem C73_box bnd bo nx ny (xmin xmax ymin ymax tol : R) var bxmin bxmax bymin bymax nb (sd : nat → sides) m :
  6 <= bnd → Z.of_nat (nx * ny) <= bnd → (0 <= tol)%R →
  fields_of var nb → (1 ≤ nb)%nat → (1 ≤ nx)%nat → (1 ≤ ny)%nat → (xmin < xmax)%R → (ymin < ymax)%R →
  (∀ b, (b < nb)%nat → sides_ok (sd b) ∧
     sides_of (given nb bxmin) (given nb bxmax) (given nb bymin) (given nb bymax) b = Some (sd b)) → same_periodicity nb sd →
  gen_box (A:=AR) bo nx ny xmin xmax ymin ymax var bxmin bxmax bymin bymax true = Ok m → sound (A:=AR) bnd tol m.
Proof.
  pose proof (AR_laws bnd) as LA. intros H6 Hbnd Ht Hf Hnb Hnx Hny Hx Hy Hsd HP E.
  assert (nleb (a:=AR) (nsub (a:=AR) xmax xmin) (nofZ (a:=AR) 0) = false) as Lx by (cbn; unfold Rleb; destruct (Rle_dec _ _); [lra|done]).
  assert (nleb (a:=AR) (nsub (a:=AR) ymax ymin) (nofZ (a:=AR) 0) = false) as Ly by (cbn; unfold Rleb; destruct (Rle_dec _ _); [lra|done]).
  assert (nleb (a:=AR) (nofZ (a:=AR) 0) tol = true) as Lt by (cbn; unfold Rleb; destruct (Rle_dec _ _); [done|lra]).
  destruct (C37_gen_box_grid (A:=AR) bo nx ny xmin xmax ymin ymax var bxmin bxmax bymin bymax true nb sd Hf Hnx Hny Lx Ly) as (m1 & E1 & W & G & Eb & _); [intros b Hb; by apply Hsd|].
  rewrite E in E1. assert (m1 = m) as -> by congruence. clear E1.
  pose proof (C38_gen_box_faces (A:=AR) bo nx ny xmin xmax ymin ymax var bxmin bxmax bymin bymax nb sd m Hf Hnx Hny Lx Ly Hsd E) as Hent.
  destruct (C38_gen_box_valid (A:=AR) bnd bo nx ny xmin xmax ymin ymax tol var bxmin bxmax bymin bymax nb sd LA AR_geo Hf Hnx Hny Hbnd ltac:(lia) Lx Ly Lt Hsd) as (m2 & E2 & V & _).
  rewrite E in E2. assert (m2 = m) as -> by congruence. clear E2.
  assert (∀ e, e ∈ elems m → ∃ i j, is_cell (A:=AR) e (grid_coord (A:=AR) xmin xmax nx i) (grid_coord (A:=AR) xmin xmax nx (i + 1)) (grid_coord (A:=AR) ymin ymax ny j) (grid_coord (A:=AR) ymin ymax ny (j + 1))) as HC.
  { destruct G as (_ & _ & G3 & _ & _ & G6). intros e He. apply elem_of_list_lookup in He as [k Hk]. pose proof (lookup_lt_Some _ _ _ Hk) as Hlt. rewrite G3 in Hlt.
    apply elnum_div in Hlt as (i & j & Hi & Hj & ->). destruct (G6 i j Hi Hj) as (e1 & He1 & Hc). unfold elnum in Hk. rewrite Hk in He1. apply (inj Some) in He1 as <-. by exists i, j. }
  split.
  - apply (grid_connected (A:=AR) bnd nx ny xmin xmax ymin ymax nb sd m LA ltac:(lia) Hbnd ltac:(lia) W G Eb); [intros b Hb; by apply Hsd|done|done].
  - exact V.
  - intros e s He Hs. destruct (HC e He) as (i & j & Hc). rewrite (box_edge nx ny xmin xmax ymin ymax Hnx Hny Hx Hy e i j) in Hs; [|by apply W|done].
    injection Hs as <-. cbn. unfold Rltb. destruct (Rlt_dec _ _) as [_|n]; [done|]. destruct n. by eapply dx_pos.
  - intros e He. destruct (HC e He) as (i & j & _ & _ & ->). by rewrite replicate_length.
  - rewrite Eb. lia.
  - destruct G as (_ & -> & _). exact Hbnd.
Qed.
Print Assumptions C73_box.

(** ** A history in float64 *)
Definition sound_b (m : hexa (num A64)) : bool :=
  mesh_okb m && forallb (λ e : elem (num A64), (length (ccurv e) =? 12)%nat) (elems m) && (0 <? nbc m)%nat && (nel m <=? 1000)%nat.
Lemma sound_b_ok m : sound_b m = true → sound (A:=A64) bnd64 tol64 m.
Proof.
  unfold sound_b. rewrite !andb_true_iff, Nat.ltb_lt, Nat.leb_le. intros (((H1 & H2) & H3) & H4). destruct (mesh_okb_ok m H1) as (A1 & A2 & A3).
  split; try assumption; [|unfold bnd64; lia]. intros e He. apply Nat.eqb_eq. exact (forallb_elem _ _ H2 e He).
Qed.
(** Two periodic boxes are merged, the internal conditions deleted and made again, the last element is cut off, the internal
    conditions are deleted once more: the mesh that results is a result of the theorem, and not trivial. *)
Definition is_ok {T} (r : res T) : bool := match r with Ok _ => true | Raise _ => false end.
Definition two (m : hexa (num A64)) : Prop := m = per_l ∨ m = per_r.
Definition steps : list (hexa (num A64)) :=
  let m1 := (merge (A:=A64) tol64 false false per_l per_r).1 in
  let m2 := (ok_or (empty64, 0) (delete_internal_bcs (A:=A64) m1)).1 in
  let m3 := (ok_or (empty64, 0) (generate_internal_bcs (A:=A64) tol64 m2)).1 in
  let m4 := ok_or empty64 (keep_elements (A:=A64) m3 [2; 1; 0]%nat "W") in
  let m5 := (ok_or (empty64, 0) (delete_internal_bcs (A:=A64) m4)).1 in [m1; m2; m3; m4; m5].
Example C73_sample_start : ∀ m, two m → sound (A:=A64) bnd64 tol64 m.
Proof. intros m [->| ->]; apply sound_b_ok; vm_compute; reflexivity. Qed.
Lemma okd_merge l r : is_ok (merge (A:=A64) tol64 false false l r).2 = true →
  ∃ n, merge (A:=A64) tol64 false false l r = ((merge (A:=A64) tol64 false false l r).1, Ok n).
Proof. destruct (merge (A:=A64) tol64 false false l r) as [m' [n|]]; [|done]. by exists n. Qed.
Lemma okd_delete m : is_ok (delete_internal_bcs (A:=A64) m) = true →
  ∃ n, delete_internal_bcs (A:=A64) m = Ok ((ok_or (empty64, 0) (delete_internal_bcs (A:=A64) m)).1, n).
Proof. destruct (delete_internal_bcs (A:=A64) m) as [[m' n]|]; [|done]. by exists n. Qed.
Lemma okd_generate m : is_ok (generate_internal_bcs (A:=A64) tol64 m) = true →
  ∃ n, generate_internal_bcs (A:=A64) tol64 m = Ok ((ok_or (empty64, 0) (generate_internal_bcs (A:=A64) tol64 m)).1, n).
Proof. destruct (generate_internal_bcs (A:=A64) tol64 m) as [[m' n]|]; [|done]. by exists n. Qed.
Lemma okd_keep m els ext : is_ok (keep_elements (A:=A64) m els ext) = true → keep_elements (A:=A64) m els ext = Ok (ok_or empty64 (keep_elements (A:=A64) m els ext)).
Proof. by destruct (keep_elements (A:=A64) m els ext). Qed.
Example C73_sample m : m ∈ steps → built (A:=A64) bnd64 tol64 two m.
Proof.
  unfold steps. cbv zeta. set (m1 := (merge (A:=A64) tol64 false false per_l per_r).1). set (m2 := (ok_or _ (delete_internal_bcs (A:=A64) m1)).1).
  set (m3 := (ok_or _ (generate_internal_bcs (A:=A64) tol64 m2)).1). set (m4 := ok_or _ (keep_elements (A:=A64) m3 _ _)). set (m5 := (ok_or _ (delete_internal_bcs (A:=A64) m4)).1).
  assert (built (A:=A64) bnd64 tol64 two m1) as B1.
  { destruct (two_okb_ok per_l per_r) as (A1 & _ & _ & _ & A2 & A3 & _); [vm_compute; reflexivity|].
    destruct (okd_merge per_l per_r) as [n E]; [vm_compute; reflexivity|].
    refine (built_merge _ _ _ per_l per_r m1 n false _ _ _ E); [apply built_given; left; reflexivity|apply built_given; right; reflexivity|exact (conj A1 (conj A2 A3))]. }
  assert (built (A:=A64) bnd64 tol64 two m2) as B2.
  { destruct (okd_delete m1) as [n E]; [vm_compute; reflexivity|]. exact (built_delete _ _ _ m1 m2 n B1 E). }
  assert (built (A:=A64) bnd64 tol64 two m3) as B3.
  { destruct (okd_generate m2) as [n E]; [vm_compute; reflexivity|]. exact (built_generate _ _ _ m2 m3 n B2 E). }
  assert (built (A:=A64) bnd64 tol64 two m4) as B4.
  { apply (built_keep _ _ _ m3 m4 [2; 1; 0]%nat "W" B3); [apply (bool_decide_unpack _); vm_compute; exact I|intros [H|H]; done|]. apply okd_keep. vm_compute; reflexivity. }
  assert (built (A:=A64) bnd64 tol64 two m5) as B5.
  { destruct (okd_delete m4) as [n E]; [vm_compute; reflexivity|]. exact (built_delete _ _ _ m4 m5 n B4 E). }
  intros H. repeat (apply elem_of_cons in H as [->|H]; [assumption|]). by apply elem_of_nil in H.
Qed.
Example C73_sample_view : (λ m, (nel m, bc_view m 1 0 1, bc_view m 0 0 3)) <$> steps =
  [(4%nat, Some ("E", Ok 3, Ok 4), Some ("P", Ok 4, Ok 2)); (4%nat, Some ("", Ok 0, Ok 0), Some ("P", Ok 4, Ok 2));
   (4%nat, Some ("E", Ok 3, Ok 4), Some ("P", Ok 4, Ok 2)); (3%nat, Some ("E", Ok 3, Ok 4), Some ("W", Ok 0, Ok 0));
   (3%nat, Some ("", Ok 0, Ok 0), Some ("W", Ok 0, Ok 0))]%string.
Proof. vm_compute. reflexivity. Qed.
