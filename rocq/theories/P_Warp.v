(** C80: mapping a mesh whose connected sides have the same ends keeps its connectivity valid, in the plane and after extrusion. *)
From Coq Require Import Lia Reals Lra.
From Flocq Require Import Core.Core IEEE754.BinarySingleNaN IEEE754.Binary IEEE754.Bits.
From Verif Require Import Base Mesh Core Tools Float FloatLaws MeshLemmas MeshSpec CheckProofs GeoLaws Curve CurveSpec CurveProofs MergeSpec BoxSpec BoxProofs P_Box
  ExtrudeSpec ExtrudeProofs P_Extrude BricksSpec Bricks WarpSpec WarpJoin WarpBox P_ExtrudeReal.
Open Scope Z_scope.

(** Every transformation, every choice of curvature, every arithmetic: the ends stay together, the conditions stay paired, and the check passes. *)
Theorem C80_map_valid {A : arith} (bnd : Z) (f : num A → num A → num A * num A) curvature boundary_curvature (m : hexa (num A)) tol :
  arith_laws A bnd → geo_laws A → ndim m = 2%nat → wf_mesh m → (∀ e, e ∈ elems m → element2d e) → paired m → joined along m →
  Z.of_nat (nel m) <= bnd → 6 <= bnd → nleb (nofZ 0) tol = true →
  ∃ m0 m', map2D m f curvature boundary_curvature = Ok (m0, m') ∧ wf_mesh m' ∧ paired m' ∧ joined along m' ∧
    (connected_mesh m → connected_mesh m') ∧ (∀ i b g, get_bc m' i b g = get_bc m i b g) ∧
    valid_connectivity tol m' ∧ check_connectivity tol m' = Ok true.
Proof.
  intros LA LG Hd Hw He HP HJ Hb H6 Ht. destruct (map2D_result f curvature boundary_curvature m He) as (m0 & m' & E & Hm & Hl & H).
  assert (∀ e, e ∈ elems m → eshape e = (2, 2, 1)%nat) as Hs by (intros e Hin; by destruct (He e Hin)).
  pose proof (map_wf f m m' Hw Hm Hl H) as Hw'. pose proof (map_paired f m m' Hm Hl H HP) as HP'. pose proof (map_joined f m m' Hs Hw Hm Hl H HJ) as HJ'.
  destruct (map_fields m m' Hm) as (F1 & F2 & _).
  assert (valid_connectivity tol m') as V.
  { eapply (coincident_valid bnd); try done; [|by rewrite F2]. apply joined_coincident; [by rewrite F1|done| |done]. intros e'. by apply (map_shape f m m' Hs H). }
  exists m0, m'. split; [done|]. split; [done|]. split; [done|]. split; [done|]. split; [by apply (map_connected f m m')|]. split; [by apply (map_get f m m')|].
  split; [done|]. by apply check_connectivity_iff.
Qed.
Print Assumptions C80_map_valid.
(** Over the real numbers the ends may be in either order. *)
Theorem C80_map_valid_real (f : R → R → R * R) curvature boundary_curvature (m : hexa R) (tol : R) :
  ndim m = 2%nat → wf_mesh (A:=AR) m → (∀ e, e ∈ elems m → element2d e) → paired (A:=AR) m → joined (A:=AR) (along_or_against (A:=AR)) m → (0 <= tol)%R →
  ∃ m0 m', map2D (A:=AR) m f curvature boundary_curvature = Ok (m0, m') ∧ paired (A:=AR) m' ∧ joined (A:=AR) (along_or_against (A:=AR)) m' ∧
    valid_connectivity (A:=AR) tol m' ∧ check_connectivity (A:=AR) tol m' = Ok true.
Proof.
  intros Hd Hw He HP HJ Ht. destruct (map2D_result (A:=AR) f curvature boundary_curvature m He) as (m0 & m' & E & Hm & Hl & H).
  assert (∀ e : elem R, e ∈ elems m → eshape e = (2, 2, 1)%nat) as Hs by (intros e Hin; by destruct (He e Hin)).
  pose proof (map_wf (A:=AR) f m m' Hw Hm Hl H) as Hw'. pose proof (map_paired (A:=AR) f m m' Hm Hl H HP) as HP'. pose proof (map_joined_either (A:=AR) f m m' Hs Hw Hm Hl H HJ) as HJ'.
  destruct (map_fields (A:=AR) m m' Hm) as (F1 & _).
  assert (valid_connectivity (A:=AR) tol m') as V.
  { eapply (coincident_valid (A:=AR) (Z.max 6 (Z.of_nat (nel m')))); [apply AR_laws|apply AR_geo|done|done| |lia|lia|].
    - apply joined_either_coincident; [exact (eq_trans F1 Hd)|done| |done]. intros e'. by apply (map_shape (A:=AR) f m m' Hs H).
    - cbn. unfold Rleb. destruct (Rle_dec _ _); [done|lra]. }
  exists m0, m'. split; [done|]. split; [done|]. split; [done|]. split; [done|]. by apply check_connectivity_iff.
Qed.
Print Assumptions C80_map_valid_real.

(** A box, mapped, and extruded: the usual way to make a body-fitted mesh. *)
Theorem C80_box_map_extrude {A : arith} (bnd : Z) bo nx ny (xmin xmax ymin ymax : num A) v0 rest
    bxmin bxmax bymin bymax nb (sd : nat → sides) (f : num A → num A → num A * num A) curvature boundary_curvature z obc1 obc2 c1 c2 :
  arith_laws A bnd → geo_laws A →
  fields_of (v0 :: rest) nb → (2 ≤ v0)%nat → (1 ≤ nb)%nat → (1 ≤ nx)%nat → (1 ≤ ny)%nat → (2 ≤ length z)%nat →
  let nz := (length z - 1)%nat in Z.of_nat (nx * ny * nz) <= bnd → 6 <= bnd →
  nleb (nsub xmax xmin) (nofZ 0) = false → nleb (nsub ymax ymin) (nofZ 0) = false →
  (∀ b, (b < nb)%nat → sides_ok (sd b) ∧
     sides_of (given nb bxmin) (given nb bxmax) (given nb bymin) (given nb bymax) b = Some (sd b)) →
  conditions_given nb obc1 c1 → conditions_given nb obc2 c2 →
  (∀ b, (b < nb)%nat → end_condition (c1 b) ∧ end_condition (c2 b) ∧ (c1 b = "P"%string ↔ c2 b = "P"%string)) →
  ∃ m m0 m' m3, gen_box bo nx ny xmin xmax ymin ymax (v0 :: rest) bxmin bxmax bymin bymax true = Ok m ∧ joined along m ∧
    map2D m f curvature boundary_curvature = Ok (m0, m') ∧
    (∀ i j k l, (i < nx)%nat → (j < ny)%nat → (k < 2)%nat → (l < 2)%nat → ∃ e, elems m' !! (i + nx * j)%nat = Some e ∧
       let x := grid_coord xmin xmax nx (i + l) in let y := grid_coord ymin ymax ny (j + k) in point e 0 k l = Some ((f x y).1, (f x y).2, nofZ 0)) ∧
    extrude m' z obc1 obc2 true = Ok m3 ∧ is_stack m' z m3 ∧ nel m3 = (nx * ny * nz)%nat ∧
    ∀ tol, nleb (nofZ 0) tol = true → check_connectivity tol m' = Ok true ∧ check_connectivity tol m3 = Ok true.
Proof.
  intros LA LG Hf Hv Hnb1 Hnx Hny Hz nz Hbnd H6 Hx Hy Hsd G1 G2 Hc.
  pose proof (fields_of_nbc _ _ Hf) as Hfn.
  assert (∀ b, (b < nb)%nat → sides_of (given nb bxmin) (given nb bxmax) (given nb bymin) (given nb bymax) b = Some (sd b)) as Hsd' by (intros b Hb; by apply Hsd).
  set (m := box3 bo nx ny xmin xmax ymin ymax (v0 :: rest) nb sd true).
  assert (gen_box bo nx ny xmin xmax ymin ymax (v0 :: rest) bxmin bxmax bymin bymax true = Ok m) as Em.
  { by apply (gen_box_eq bo nx ny xmin xmax ymin ymax (v0 :: rest) bxmin bxmax bymin bymax nb sd). }
  destruct (C37_gen_box_grid bo nx ny xmin xmax ymin ymax (v0 :: rest) bxmin bxmax bymin bymax true nb sd Hf Hnx Hny Hx Hy Hsd') as (m1 & Em' & Hw & Hg & Hnb & _).
  rewrite Em in Em'. assert (m1 = m) as -> by congruence. clear Em'.
  pose proof (C38_gen_box_faces bo nx ny xmin xmax ymin ymax (v0 :: rest) bxmin bxmax bymin bymax nb sd m Hf Hnx Hny Hx Hy Hsd Em) as Hent.
  pose proof (box_linear bo nx ny xmin xmax ymin ymax v0 rest nb sd true Hv : linear2d m) as Hlin.
  pose proof Hg as (D1 & D2 & D3 & D4 & _ & D6).
  assert (Z.of_nat (nx * ny) <= bnd) as Hb2 by (unfold nz in *; nia).
  assert (∀ b, (b < nb)%nat → sides_ok (sd b)) as Hso by (intros b Hb; by apply Hsd).
  assert (paired m) as Hp by (eapply (grid_paired bnd); eauto; lia).
  assert (joined along m) as HJ by (eapply (grid_joined bnd); eauto; lia).
  assert (∀ e, e ∈ elems m → element2d e) as He by (intros e; by apply box_element2d).
  assert (∀ e, e ∈ elems m → eshape e = (2, 2, 1)%nat) as Hs by (intros e Hin; by destruct (He e Hin)).
  destruct (map2D_result f curvature boundary_curvature m He) as (m0 & m' & E & Hm & Hl & H).
  pose proof (map_wf f m m' Hw Hm Hl H) as Hw'. pose proof (map_paired f m m' Hm Hl H Hp) as HP'. pose proof (map_joined f m m' Hs Hw Hm Hl H HJ) as HJ'.
  pose proof (map_linear f m m' Hs Hm H Hlin) as Hlin'. destruct (map_fields m m' Hm) as (F1 & F2 & F3 & _).
  assert (coincident m') as Hco.
  { apply joined_coincident; [by rewrite F1|done| |done]. intros e'. by apply (map_shape f m m' Hs H). }
  rewrite <- Hnb, <- F3 in G1, G2, Hc. assert (Z.of_nat (nel m' * (length z - 1)) <= bnd) as Hbz by (rewrite F2, D2; exact Hbnd).
  pose proof (paired_refs bnd m' _ (proj1 Hlin') HP' Hbz) as Hrefs.
  destruct (C34_extrude_stack bnd m' z obc1 obc2 true c1 c2 LA Hw' Hlin' Hz Hrefs G1 G2) as (m3 & E3 & Hw3 & Hst); [intros b Hb; by apply Hc|].
  exists m, m0, m', m3. split; [done|]. split; [done|]. split; [done|]. split.
  { intros i j k l Hi Hj Hk Hll. destruct (D6 i j Hi Hj) as (e & Ee & (C1 & C2 & _)).
    destruct (lookup_lt_is_Some_2 (elems m') (i + nx * j)) as [e' Ee']; [rewrite Hl; by eapply lookup_lt_Some|].
    exists e'. split; [done|]. destruct (H _ _ Ee') as (e0 & E0 & _ & _ & _ & _ & HQ). rewrite Ee in E0. apply (inj Some) in E0 as <-.
    cbn zeta. assert (point e 0 k l = Some (grid_coord xmin xmax nx (i + l), grid_coord ymin ymax ny (j + k), nofZ 0)) as HPt; [|exact (HQ _ _ _ HPt)].
    unfold point. rewrite C1, C2. destruct k as [|[|k]], l as [|[|l]]; try lia; cbn; by rewrite ?Nat.add_0_r. }
  split; [done|]. split; [done|]. split; [destruct Hst as (_ & Q & _); rewrite Q, F2, D2; done|].
  intros tol Ht. split.
  - apply check_connectivity_iff; [done|]. eapply (coincident_valid bnd); try done. rewrite F2, D2. done.
  - destruct (C35_extrude_valid bnd m' z obc1 obc2 c1 c2 tol LA LG Hw' Hlin' HP' Hco Hz Hbz H6 G1 G2 Hc Ht) as (m4 & E4 & V1 & V2).
    rewrite E3 in E4. assert (m4 = m3) as -> by congruence. done.
Qed.
Print Assumptions C80_box_map_extrude.
(** In float64: up to 2^53 elements, whatever the transformation computes. *)
Theorem C80_box_map_extrude_float64 bo nx ny (xmin xmax ymin ymax : f64) v0 rest
    bxmin bxmax bymin bymax nb (sd : nat → sides) (f : f64 → f64 → f64 * f64) curvature boundary_curvature z obc1 obc2 c1 c2 :
  fields_of (v0 :: rest) nb → (2 ≤ v0)%nat → (1 ≤ nb)%nat → (1 ≤ nx)%nat → (1 ≤ ny)%nat → (2 ≤ length z)%nat →
  let nz := (length z - 1)%nat in Z.of_nat (nx * ny * nz) <= 2 ^ 53 →
  f64_leb (b64_minus mode_NE xmax xmin) (f64_of_Z 0) = false →
  f64_leb (b64_minus mode_NE ymax ymin) (f64_of_Z 0) = false →
  (∀ b, (b < nb)%nat → sides_ok (sd b) ∧
     sides_of (given nb bxmin) (given nb bxmax) (given nb bymin) (given nb bymax) b = Some (sd b)) →
  conditions_given nb obc1 c1 → conditions_given nb obc2 c2 →
  (∀ b, (b < nb)%nat → end_condition (c1 b) ∧ end_condition (c2 b) ∧ (c1 b = "P"%string ↔ c2 b = "P"%string)) →
  ∃ m m0 m' m3, gen_box (A:=A64) bo nx ny xmin xmax ymin ymax (v0 :: rest) bxmin bxmax bymin bymax true = Ok m ∧ joined (A:=A64) (along (A:=A64)) m ∧
    map2D (A:=A64) m f curvature boundary_curvature = Ok (m0, m') ∧
    (∀ i j k l, (i < nx)%nat → (j < ny)%nat → (k < 2)%nat → (l < 2)%nat → ∃ e, elems m' !! (i + nx * j)%nat = Some e ∧
       let x := grid_coord (A:=A64) xmin xmax nx (i + l) in let y := grid_coord (A:=A64) ymin ymax ny (j + k) in point e 0 k l = Some ((f x y).1, (f x y).2, f64_of_Z 0)) ∧
    extrude (A:=A64) m' z obc1 obc2 true = Ok m3 ∧ is_stack (A:=A64) m' z m3 ∧ nel m3 = (nx * ny * nz)%nat ∧
    ∀ tol, f64_leb (f64_of_Z 0) tol = true → check_connectivity (A:=A64) tol m' = Ok true ∧ check_connectivity (A:=A64) tol m3 = Ok true.
Proof.
  intros ? ? ? ? ? ? nz ? ? ? ? ? ? ?.
  apply (C80_box_map_extrude (A:=A64) bnd64 bo nx ny xmin xmax ymin ymax v0 rest bxmin bxmax bymin bymax nb sd f curvature boundary_curvature z obc1 obc2 c1 c2);
    try done; [apply A64_laws|apply A64_geo].
Qed.
Print Assumptions C80_box_map_extrude_float64.
(** A sheared box of 3 x 2 elements, periodic in both directions, in two layers. *)
Definition shear (x y : f64) : f64 * f64 := (b64_plus mode_NE x (b64_mult mode_NE x y), b64_mult mode_NE y y).
Example C80_sample : ∃ m m0 m' m3,
  gen_box (A:=A64) "little" 3 2 (f64_of_Z 0) (f64_of_Z 1) (f64_of_Z 0) (f64_of_Z 1) [2; 2; 1; 0; 0]%nat None None None None true = Ok m ∧ joined (A:=A64) (along (A:=A64)) m ∧
  map2D (A:=A64) m shear false true = Ok (m0, m') ∧
  extrude (A:=A64) m' [f64_of_Z 0; f64_of_Z 1; f64_of_Z 3] (Some ["v"%string]) (Some ["O"%string]) true = Ok m3 ∧
  nel m3 = 12%nat ∧ check_connectivity (A:=A64) (f64_of_Z 0) m' = Ok true ∧ check_connectivity (A:=A64) (f64_of_Z 0) m3 = Ok true.
Proof.
  destruct (C80_box_map_extrude_float64 "little" 3 2 (f64_of_Z 0) (f64_of_Z 1) (f64_of_Z 0) (f64_of_Z 1) 2 [2; 1; 0; 0]%nat None None None None 1
    (λ _, Sides "P" "P" "P" "P") shear false true [f64_of_Z 0; f64_of_Z 1; f64_of_Z 3] (Some ["v"%string]) (Some ["O"%string]) (λ _, "v"%string) (λ _, "O"%string))
    as (m & m0 & m' & m3 & E & J & E1 & _ & E3 & _ & Hn & Hc).
  - exact C38_default_fields.
  - lia.
  - lia.
  - lia.
  - lia.
  - cbn. lia.
  - vm_compute. discriminate.
  - vm_compute. reflexivity.
  - vm_compute. reflexivity.
  - intros b Hb. assert (b = 0)%nat as -> by lia. split; [|done]. repeat split; done.
  - split; [done|]. intros b Hb. by assert (b = 0)%nat as -> by lia.
  - split; [done|]. intros b Hb. by assert (b = 0)%nat as -> by lia.
  - intros b Hb. repeat split; done.
  - exists m, m0, m', m3. destruct (Hc (f64_of_Z 0)) as [Q1 Q2]; [vm_compute; reflexivity|]. split_and!; try done.
Qed.
Print Assumptions C80_sample.
(** Two squares, the second turned half way round, so that the shared side runs in opposite directions. *)
Definition turnedR (x y : list R) (row : list (bcrec R)) : elem R :=
  Elem (2, 2, 1)%nat [x; y; [0; 0; 0; 0]]%R [] [] [] [] (replicate 12 [0; 0; 0; 0; 0]%R) (replicate 12 ""%string) [row].
Definition facing : hexa R :=
  Hexa 2 2 0 1 [2; 0; 0; 0; 0]%nat PyList [2; 2; 1]%nat 0%R 0 8 "little"
    [turnedR [0; 1; 0; 1] [0; 0; 1; 1] [linkR 2 1; wallR; wallR; wallR; wallR; wallR];
     turnedR [1; 0; 1; 0] [0; 0; -1; -1] [linkR 1 1; wallR; wallR; wallR; wallR; wallR]]%R [1; 2].
Lemma facing_links i b f r : in_mesh (A:=AR) facing i b f → get_bc facing i b f = Some r → is_conn (bt r) →
  (i, b, f, r) = (0%nat, 0%nat, 0%nat, linkR 2 1) ∨ (i, b, f, r) = (1%nat, 0%nat, 0%nat, linkR 1 1).
Proof.
  intros (Hi & Hb & Hf) Hr Hc. cbn in Hi, Hb, Hf. assert (b = 0)%nat as -> by lia.
  destruct i as [|[|i]]; [| |lia]; (destruct f as [|[|[|[|f]]]]; [| | | |lia]); cbn in Hr; injection Hr as <-;
    try (exfalso; cbn in Hc; by destruct Hc); [by left|by right].
Qed.
Example C80_sample_real : ndim facing = 2%nat ∧ wf_mesh (A:=AR) facing ∧ (∀ e, e ∈ elems facing → element2d e) ∧ paired (A:=AR) facing ∧
  joined (A:=AR) (along_or_against (A:=AR)) facing ∧ ¬ joined (A:=AR) (along (A:=AR)) facing.
Proof.
  assert (∀ e, e ∈ elems facing → element2d e) as H2.
  { intros e He. unfold facing in He. cbn [elems] in He. rewrite !elem_of_cons, elem_of_nil in He.
    destruct He as [->|[->|[]]]; (split; [done|]); (split; [done|]); (split; [intros c Hc; cbn in Hc; rewrite !elem_of_cons, elem_of_nil in Hc; by destruct Hc as [->|[->|[->|[]]]]|]);
      (split; [split; [done|]; split; [|done]; repeat constructor|eexists; split; reflexivity]). }
  split; [done|]. split.
  { split.
    - split; [by left|]. split; [done|]. intros e He. unfold facing in He. cbn [elems] in He. rewrite !elem_of_cons, elem_of_nil in He.
      destruct He as [->|[->|[]]]; (split; [done|]); intros row Hr; cbn [bcs turnedR] in Hr; apply elem_of_list_singleton in Hr as ->; done.
    - intros e He. destruct (H2 e He) as (E1 & E2 & E3 & _). exists 2%nat, 2%nat, 1%nat. split; [done|]. split; [lia|]. split; [done|]. exact E3. }
  split; [done|]. split.
  { intros i b f r Hin Hr Hc. destruct (facing_links i b f r Hin Hr Hc) as [H|H]; injection H as -> -> -> ->.
    - exists 1%nat, 0%nat, (linkR 1 1). split; [split_and!; cbn; lia|]. done.
    - exists 0%nat, 0%nat, (linkR 2 1). split; [split_and!; cbn; lia|]. done. }
  assert (∀ j g a c, (j < 2)%nat → (g < 4)%nat → points (A:=AR) (linkR a c) j g → Z.of_nat j + 1 = a ∧ Z.of_nat g + 1 = c) as Hpt.
  { intros j g a c _ _ [P3 P4]. split; apply eq_IZR; symmetry; [exact P3|exact P4]. }
  split.
  - intros i b f r j g e e' Hin Hr HE Hj Hp He He'. destruct Hj as (Hj & _ & Hg). cbn in Hj, Hg.
    destruct (facing_links i b f r Hin Hr (or_introl HE)) as [H|H]; injection H as -> -> -> ->;
      (destruct (Hpt j g _ _ Hj Hg Hp) as [P1 P2]; assert (g = 0)%nat as -> by lia);
      [assert (j = 1)%nat as -> by lia|assert (j = 0)%nat as -> by lia]; cbn in He, He'; apply (inj Some) in He as <-, He' as <-; right; split; reflexivity.
  - intros J. destruct (J 0%nat 0%nat 0%nat (linkR 2 1) 1%nat 0%nat _ _ ltac:(split_and!; cbn; lia) eq_refl eq_refl ltac:(split_and!; cbn; lia) ltac:(done) eq_refl eq_refl) as [X _].
    cbn in X. apply (inj Some) in X. injection X as X. lra.
Qed.
Print Assumptions C80_sample_real.
