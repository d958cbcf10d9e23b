(** C74: two boxes side by side, merged, are one wide box. *)
From Coq Require Import Lia Reals Lra.
From Verif Require Import Base Mesh Core Tools Float FloatLaws GeoLaws MeshLemmas MeshSpec CheckProofs BoxSpec BoxProofs RestoreBox MergeSpec MergeProofs P_Merge
  HistorySpec History P_Box P_History TwoBoxSpec TwoBox.
Open Scope Z_scope.

(** The boxes [x0, x1] x [y0, y1] and [x1, x2] x [y0, y1], made with the same number of rows, can be merged.  As many faces are
    glued as there are rows, and the result is the grid of both boxes with the vertical grid lines [line]: every cell is where
    it should be, neighbours are connected over the seam, the conditions at the outer sides are those of the boxes, and periodic
    left and right sides are connected around the wide box. *)
Theorem C74_wide_box bo bo' nx1 nx2 ny (x0 x1 x2 y0 y1 tol : R) ie var xl xr yl yr xl' xr' yl' yr' nb (sa sb : nat → sides) :
  fields_of var nb → (1 ≤ nb)%nat → (1 ≤ nx1)%nat → (1 ≤ nx2)%nat → (1 ≤ ny)%nat → (x0 < x1)%R → (x1 < x2)%R → (y0 < y1)%R →
  (0 <= tol < 1 / 2)%R → (tol * Rmin ((x1 - x0) / INR nx1) ((x2 - x1) / INR nx2) < (y1 - y0) / INR ny)%R →
  (∀ b, (b < nb)%nat → sides_ok (sa b) ∧ sides_of (given nb xl) (given nb xr) (given nb yl) (given nb yr) b = Some (sa b)) →
  (∀ b, (b < nb)%nat → sides_ok (sb b) ∧ sides_of (given nb xl') (given nb xr') (given nb yl') (given nb yr') b = Some (sb b)) →
  same_periodicity nb sa → same_periodicity nb sb → (s_left (sa 0%nat) = "P"%string ↔ s_left (sb 0%nat) = "P"%string) →
  ∃ ma mb m', gen_box (A:=AR) bo nx1 ny x0 x1 y0 y1 var xl xr yl yr true = Ok ma ∧
    gen_box (A:=AR) bo' nx2 ny x1 x2 y0 y1 var xl' xr' yl' yr' true = Ok mb ∧
    merge (A:=AR) tol ie false ma mb = (m', Ok (Z.of_nat ny)) ∧
    nel m' = ((nx1 + nx2) * ny)%nat ∧ nbc m' = nb ∧
    (∀ i j, (i < nx1 + nx2)%nat → (j < ny)%nat → ∃ e, elems m' !! number nx1 nx2 ny i j = Some e ∧
       is_cell (A:=AR) e (line nx1 nx2 x0 x1 x2 i) (line nx1 nx2 x0 x1 x2 (i + 1)) (row ny y0 y1 j) (row ny y0 y1 (j + 1))) ∧
    (∀ i j b f, (i < nx1 + nx2)%nat → (j < ny)%nat → (b < nb)%nat → (f < 4)%nat →
       ∃ r, get_bc m' (number nx1 nx2 ny i j) b f = Some r ∧ is_wide_bc nx1 nx2 ny (sa b) (sb b) i j f r) ∧
    check_connectivity (A:=AR) tol m' = Ok true.
Proof.
  intros Hf Hnb H1 H2 Hy Hx01 Hx12 Hy01 Ht Hty Hsa Hsb Pa Pb Pab.
  assert (∀ p q : R, (p < q)%R → nleb (a:=AR) (nsub (a:=AR) q p) (nofZ (a:=AR) 0) = false) as Lt by (intros p q Hpq; cbn; unfold Rleb; destruct (Rle_dec _ _); [lra|done]).
  destruct (C37_gen_box_grid (A:=AR) bo nx1 ny x0 x1 y0 y1 var xl xr yl yr true nb sa Hf H1 Hy (Lt _ _ Hx01) (Lt _ _ Hy01)) as (ma & E1 & Wa & Ga & Na & La & _); [intros b Hb; by apply Hsa|].
  destruct (C37_gen_box_grid (A:=AR) bo' nx2 ny x1 x2 y0 y1 var xl' xr' yl' yr' true nb sb Hf H2 Hy (Lt _ _ Hx12) (Lt _ _ Hy01)) as (mb & E2 & Wb & Gb & Nb & Lb & _); [intros b Hb; by apply Hsb|].
  pose proof (C38_gen_box_faces (A:=AR) bo nx1 ny x0 x1 y0 y1 var xl xr yl yr nb sa ma Hf H1 Hy (Lt _ _ Hx01) (Lt _ _ Hy01) Hsa E1) as Ea.
  pose proof (C38_gen_box_faces (A:=AR) bo' nx2 ny x1 x2 y0 y1 var xl' xr' yl' yr' nb sb mb Hf H2 Hy (Lt _ _ Hx12) (Lt _ _ Hy01) Hsb E2) as Eb.
  assert (∀ b, (b < nb)%nat → sides_ok (sa b)) as Sa by (intros b Hb; by apply Hsa). assert (∀ b, (b < nb)%nat → sides_ok (sb b)) as Sb by (intros b Hb; by apply Hsb).
  set (bnd := Z.of_nat ((nx1 + nx2) * ny) + 6).
  pose proof (C73_box bnd bo nx1 ny x0 x1 y0 y1 tol var xl xr yl yr nb sa ma ltac:(lia) ltac:(lia) ltac:(lra) Hf Hnb H1 Hy Hx01 Hy01 Hsa Pa E1) as [Ca Va Ra _ _ _].
  pose proof (C73_box bnd bo' nx2 ny x1 x2 y0 y1 tol var xl' xr' yl' yr' nb sb mb ltac:(lia) ltac:(lia) ltac:(lra) Hf Hnb H2 Hy Hx12 Hy01 Hsb Pb E2) as [Cb Vb Rb _ _ _].
  assert (nel ma = nx1 * ny)%nat as Ena by (by destruct Ga as (_ & -> & _)). assert (nel mb = nx2 * ny)%nat as Enb by (by destruct Gb as (_ & -> & _)).
  assert (compatible (A:=AR) bnd ma mb) as Hcmp.
  { split_and!; [destruct Ga as (-> & _), Gb as (-> & _); done|by rewrite La, Lb|rewrite La; by eexists|congruence| |lia].
    transitivity (Z.of_nat (nx1 * ny + nx2 * ny)); [apply inj_le; apply Nat.add_le_mono; lia|lia]. }
  pose proof (seam_unique nx1 nx2 ny x0 x1 x2 y0 y1 tol ie H1 H2 Hy Hx01 Hx12 Hy01 Ht Hty nb Hnb sa sb Sa Sb ma mb Wa Wb Ga Gb Na Nb Ea Eb) as Hun.
  pose proof (seam_periodic nx1 nx2 ny x0 x1 x2 y0 y1 tol ie H1 H2 Hy Hx01 Hx12 Hy01 Ht Hty nb Hnb sa sb Sa Sb Pab ma mb Wa Wb Ga Gb Na Nb Ea Eb) as Hpp.
  assert (0 < nbc ma)%nat as Hnba by (rewrite Na; lia).
  destruct (C26_merge_glues (A:=AR) bnd ma mb tol ie (AR_laws bnd) Hcmp Hnba Ca Cb Hun Hpp) as (m' & n0 & EM & HA & HG & _ & _).
  assert (nbc m' = nb) as Nm. { destruct HA as (_ & _ & _ & HA & _). transitivity (nbc ma); [|exact Na]. exact (f_equal nbc HA). }
  destruct (C26_merge_valid (A:=AR) bnd ma mb m' tol ie n0 AR_geo (AR_laws bnd) Hcmp Hnba Ca Cb Hun Hpp Va Vb) as [_ HV]; [intros e s [He|He]; [by apply Ra|by apply Rb]|done|].
  assert (n0 = Z.of_nat ny) as ->.
  { exact (two_count nx1 nx2 ny x0 x1 x2 y0 y1 tol ie H1 H2 Hy Hx01 Hx12 Hy01 Ht Hty nb Hnb sa sb Sa Sb ma mb Wa Wb Ga Gb Na Nb Ea Eb m' n0 HG Nm). }
  exists ma, mb, m'. split_and!; try done.
  - destruct HA as (HA & _). transitivity (nel ma + nel mb)%nat; [exact HA|]. transitivity (nx1 * ny + nx2 * ny)%nat; [|lia]. by apply f_equal2.
  - intros i j Hi Hj. exact (two_cells nx1 nx2 ny x0 x1 x2 y0 y1 H1 H2 Hy nb Hnb ma mb Ga Gb Na Nb m' Nm i j HA Hi Hj).
  - intros i j b f Hi Hj Hb Hf4. exact (two_entries nx1 nx2 ny x0 x1 x2 y0 y1 tol ie H1 H2 Hy Hx01 Hx12 Hy01 Ht Hty nb Hnb sa sb Sa Sb Pa Pb Pab ma mb Wa Wb Ga Gb Na Nb Ea Eb m' _ HG Nm i j b f Hi Hj Hb Hf4).
Qed.
Print Assumptions C74_wide_box.

(** Made with one step width and with the same conditions below and above, the merged mesh is the mesh that gen_box makes of
    the wide box, with other element numbers. *)
Theorem C74_as_generated bo bo' bo2 nx1 nx2 ny (x0 d y0 y1 tol : R) ie var xl xr yl yr xl' xr' yl' yr' xl2 xr2 yl2 yr2 nb (sa sb s : nat → sides) :
  let x1 := (x0 + INR nx1 * d)%R in let x2 := (x1 + INR nx2 * d)%R in
  fields_of var nb → (1 ≤ nb)%nat → (1 ≤ nx1)%nat → (1 ≤ nx2)%nat → (1 ≤ ny)%nat → (0 < d)%R → (y0 < y1)%R →
  (0 <= tol < 1 / 2)%R → (tol * d < (y1 - y0) / INR ny)%R →
  (∀ b, (b < nb)%nat → sides_ok (sa b) ∧ sides_of (given nb xl) (given nb xr) (given nb yl) (given nb yr) b = Some (sa b)) →
  (∀ b, (b < nb)%nat → sides_ok (sb b) ∧ sides_of (given nb xl') (given nb xr') (given nb yl') (given nb yr') b = Some (sb b)) →
  (∀ b, (b < nb)%nat → sides_of (given nb xl2) (given nb xr2) (given nb yl2) (given nb yr2) b = Some (s b)) →
  same_periodicity nb sa → same_periodicity nb sb → (∀ b, (b < nb)%nat → s_left (sa b) = "P"%string ↔ s_left (sb b) = "P"%string) →
  (∀ b, (b < nb)%nat → s_bottom (sb b) = s_bottom (sa b) ∧ s_top (sb b) = s_top (sa b)) →
  (∀ b, (b < nb)%nat → s b = Sides (s_bottom (sa b)) (s_right (sb b)) (s_top (sa b)) (s_left (sa b))) →
  ∃ ma mb m' m, gen_box (A:=AR) bo nx1 ny x0 x1 y0 y1 var xl xr yl yr true = Ok ma ∧
    gen_box (A:=AR) bo' nx2 ny x1 x2 y0 y1 var xl' xr' yl' yr' true = Ok mb ∧
    merge (A:=AR) tol ie false ma mb = (m', Ok (Z.of_nat ny)) ∧
    gen_box (A:=AR) bo2 (nx1 + nx2) ny x0 x2 y0 y1 var xl2 xr2 yl2 yr2 true = Ok m ∧
    nel m' = nel m ∧
    ∀ i j, (i < nx1 + nx2)%nat → (j < ny)%nat →
      (∃ e' e, elems m' !! number nx1 nx2 ny i j = Some e' ∧ elems m !! (i + (nx1 + nx2) * j)%nat = Some e ∧
         eshape e' = eshape e ∧ pos e' = pos e ∧ ccurv e' = ccurv e) ∧
      ∀ b f, (b < nb)%nat → (f < 4)%nat → ∃ r' r, get_bc m' (number nx1 nx2 ny i j) b f = Some r' ∧
        get_bc m (i + (nx1 + nx2) * j)%nat b f = Some r ∧ bt r' = bt r ∧
        (is_conn (bt r) → ∃ i' j' f', points (A:=AR) r (i' + (nx1 + nx2) * j')%nat f' ∧ points (A:=AR) r' (number nx1 nx2 ny i' j') f').
Proof.
  intros x1 x2 Hf Hnb H1 H2 Hy Hd Hy01 Ht Hty Hsa Hsb Hs Pa Pb Pab Hbt Hsd.
  assert (0 < INR nx1)%R as I1 by (apply lt_0_INR; lia). assert (0 < INR nx2)%R as I2 by (apply lt_0_INR; lia).
  assert (0 < INR nx1 * d)%R as D1 by (by apply Rmult_lt_0_compat). assert (0 < INR nx2 * d)%R as D2 by (by apply Rmult_lt_0_compat).
  assert (x0 < x1)%R as Hx01 by (unfold x1; lra). assert (x1 < x2)%R as Hx12 by (unfold x2; lra).
  assert ((x1 - x0) / INR nx1 = d)%R as Q1 by (unfold x1; field; lra). assert ((x2 - x1) / INR nx2 = d)%R as Q2 by (unfold x2; field; lra).
  assert ((x2 - x0) / INR (nx1 + nx2) = d)%R as Q3 by (unfold x2, x1; rewrite plus_INR; field; lra).
  destruct (C74_wide_box bo bo' nx1 nx2 ny x0 x1 x2 y0 y1 tol ie var xl xr yl yr xl' xr' yl' yr' nb sa sb Hf Hnb H1 H2 Hy Hx01 Hx12 Hy01 Ht) as (ma & mb & m' & E1 & E2 & EM & Hn & Hb' & Hc & He & _).
  { rewrite Q1, Q2. unfold Rmin. destruct (Rle_dec d d); lra. }
  all: try done. { apply Pab. lia. }
  assert (∀ p q : R, (p < q)%R → nleb (a:=AR) (nsub (a:=AR) q p) (nofZ (a:=AR) 0) = false) as Lt by (intros p q Hpq; cbn; unfold Rleb; destruct (Rle_dec _ _); [lra|done]).
  destruct (C37_gen_box_grid (A:=AR) bo2 (nx1 + nx2) ny x0 x2 y0 y1 var xl2 xr2 yl2 yr2 true nb s Hf ltac:(lia) Hy (Lt x0 x2 ltac:(lra)) (Lt _ _ Hy01) Hs) as (m & E3 & W & G & Nm & _ & _).
  assert (∀ b, (b < nb)%nat → sides_ok (s b)) as Sok.
  { intros b Hb. rewrite Hsd by done. destruct (Hsa b Hb) as ((S1 & S2 & S3 & S4 & S5 & S6) & _). destruct (Hsb b Hb) as ((S1' & S2' & S3' & S4' & S5' & S6') & _).
    split_and!; cbn [s_bottom s_top s_left s_right]; try done. rewrite (Pab b Hb). exact S6'. }
  pose proof (C38_gen_box_faces (A:=AR) bo2 (nx1 + nx2) ny x0 x2 y0 y1 var xl2 xr2 yl2 yr2 nb s m Hf ltac:(lia) Hy (Lt x0 x2 ltac:(lra)) (Lt _ _ Hy01) (λ b Hb, conj (Sok b Hb) (Hs b Hb)) E3) as Em.
  exists ma, mb, m', m. split_and!; try done.
  - transitivity ((nx1 + nx2) * ny)%nat; [exact Hn|]. symmetry. by destruct G as (_ & -> & _).
  - intros i j Hi Hj. split.
    + destruct (Hc i j Hi Hj) as (e' & He' & (A1 & A2 & A3)). destruct G as (_ & _ & _ & _ & _ & G). destruct (G i j Hi Hj) as (e & Hee & (B1 & B2 & B3)). exists e', e.
      split_and!; [exact He'|exact Hee|exact (eq_trans A1 (eq_sym B1))| |exact (eq_trans A3 (eq_sym B3))]. refine (eq_trans A2 (eq_trans _ (eq_sym B2))).
      rewrite !coordR' by lia. unfold line, row. rewrite Q3, Q1, Q2. change (nofZ (a:=AR) 0) with 0%R.
      assert (∀ k, (if decide (k ≤ nx1)%nat then (x0 + INR k * d)%R else (x1 + INR (k - nx1) * d)%R) = (x0 + INR k * d)%R) as Hk.
      { intros k. case_decide; [done|]. rewrite minus_INR by lia. unfold x1. lra. }
      by rewrite !Hk.
    + intros b f Hb Hf4. destruct (He i j b f Hi Hj Hb Hf4) as (r' & Hr' & Hw). destruct (Em i j b f Hi Hj Hb Hf4) as (r & Hr & Hcb). exists r', r. split; [exact Hr'|]. split; [exact Hr|].
      assert (seen nx1 (sa b) (sb b) i = s b) as Es. { rewrite Hsd by done. unfold seen. destruct (Hbt b Hb) as [Hb1 Hb2]. case_decide; [done|]. by rewrite Hb1, Hb2. }
      unfold is_wide_bc in Hw. rewrite Es in Hw. unfold is_cell_bc in Hcb. destruct (cell_face (nx1 + nx2) ny (s b) i j f) as [t [[i' j'] f']]. destruct Hw as [W1 W2], Hcb as (Z1 & _ & _ & Z4).
      split; [exact (eq_trans W1 (eq_sym Z1))|]. rewrite Z1. intros Hcn. exists i', j', f'. split; [by apply Z4|by apply W2].
Qed.
Print Assumptions C74_as_generated.

(** Both theorems apply, for instance, to periodic boxes with three and two columns and two rows; the number of glued faces is 2
    and the left faces of the left box are now periodic with the right faces of the right box. *)
Example C74_sample : ∃ ma mb m', gen_box (A:=AR) "little" 3 2 0%R 3%R 0%R 1%R [2; 2; 1; 0; 0]%nat None None None None true = Ok ma ∧
  gen_box (A:=AR) "little" 2 2 3%R 5%R 0%R 1%R [2; 2; 1; 0; 0]%nat None None None None true = Ok mb ∧
  merge (A:=AR) (1 / 1000)%R true false ma mb = (m', Ok 2) ∧ nel m' = 10%nat ∧
  (∃ r, get_bc m' 3 0 3 = Some r ∧ bt r = "P"%string ∧ points (A:=AR) r 9 1) ∧ check_connectivity (A:=AR) (1 / 1000)%R m' = Ok true.
Proof.
  destruct (C74_wide_box "little" "little" 3 2 2 0%R 3%R 5%R 0%R 1%R (1 / 1000)%R true [2; 2; 1; 0; 0]%nat None None None None None None None None 1
    (λ _, Sides "P" "P" "P" "P") (λ _, Sides "P" "P" "P" "P")) as (ma & mb & m' & E1 & E2 & EM & Hn & _ & _ & He & Hv);
    try lia; try lra; try done; try exact C38_default_sides; try exact C38_default_fields.
  - cbn. unfold Rmin. destruct (Rle_dec _ _); lra.
  - exists ma, mb, m'. split_and!; try done. destruct (He 0 1 0 3)%nat as (r & Hr & Hw); [lia..|]. exists r. split; [exact Hr|]. cbn in Hw. destruct Hw as [W1 W2]. split; [done|]. apply W2. by right.
Qed.
Example C74_sample_generated :
  let x1 := (0 + INR 3 * 1)%R in let x2 := (x1 + INR 2 * 1)%R in let s := λ _ : nat, Sides "P" "P" "P" "P" in
  let conds := ∀ b, (b < 1)%nat → sides_ok (s b) ∧ sides_of (given 1 None) (given 1 None) (given 1 None) (given 1 None) b = Some (s b) in
  fields_of [2; 2; 1; 0; 0]%nat 1 ∧ conds ∧ same_periodicity 1 s ∧ (1 / 1000 * 1 < (1 - 0) / INR 2)%R ∧
  ∃ ma mb m' m, gen_box (A:=AR) "little" 3 2 0%R x1 0%R 1%R [2; 2; 1; 0; 0]%nat None None None None true = Ok ma ∧
    gen_box (A:=AR) "little" 2 2 x1 x2 0%R 1%R [2; 2; 1; 0; 0]%nat None None None None true = Ok mb ∧
    merge (A:=AR) (1 / 1000)%R true false ma mb = (m', Ok 2) ∧
    gen_box (A:=AR) "little" 5 2 0%R x2 0%R 1%R [2; 2; 1; 0; 0]%nat None None None None true = Ok m ∧ nel m' = nel m.
Proof.
  intros x1 x2 s conds. assert (conds) as Hc by exact C38_default_sides. assert (fields_of [2; 2; 1; 0; 0]%nat 1) as Hf by exact C38_default_fields.
  assert (1 / 1000 * 1 < (1 - 0) / INR 2)%R as Ht by (cbn; lra). assert (same_periodicity 1 s) as Hp by (intros b Hb; done). split_and!; try done.
  destruct (C74_as_generated "little" "little" "little" 3 2 2 0%R 1%R 0%R 1%R (1 / 1000)%R true [2; 2; 1; 0; 0]%nat None None None None None None None None None None None None 1 s s s)
    as (ma & mb & m' & m & E1 & E2 & EM & E3 & Hn & _); try lia; try lra; try done; [intros b Hb; by apply Hc|].
  by exists ma, mb, m', m.
Qed.
