(** C35 over the real numbers, for connected faces that are close but do not coincide. *)
From Coq Require Import Lia Reals Lra.
From Verif Require Import Base Mesh Core Tools Float FloatLaws MeshLemmas MeshSpec CheckProofs OpsProofs GeoLaws ElemProofs ExtrudeSpec ExtrudeProofs ExtrudeReal P_Extrude.
Open Scope Z_scope.

(** Faces of the 2D mesh that are connected are not farther apart than [tol] times the smallest of: what smallest_edge says of the
    two elements, and the thickness of any layer. *)
Definition close_in_layers (tol : R) (z : list (num AR)) (m : hexa (num AR)) : Prop :=
  ∀ i b f r j g e e' c c' s s' k z1 z2, in_mesh m i b f → get_bc m i b f = Some r → bt r = "E"%string → in_mesh m j b g → points (A:=AR) r j g →
    elems m !! i = Some e → elems m !! j = Some e' → face_center (A:=AR) e (Z.of_nat f) = Ok c → face_center (A:=AR) e' (Z.of_nat g) = Ok c' →
    smallest_edge (A:=AR) e = Ok s → smallest_edge (A:=AR) e' = Ok s' → z !! k = Some z1 → z !! (k + 1)%nat = Some z2 →
    (plane_dist c c' <= tol * Rmin (Rmin s s') (Rabs (z2 - z1)))%R.

(** The result of extrude passes the check exactly if the faces are close enough for the thinnest layer. *)
Theorem C35_extrude_valid_iff_real (m : hexa (num AR)) z obc1 obc2 c1 c2 (tol : R) :
  wf_mesh m → linear2d (A:=AR) m → paired (A:=AR) m → (∀ e, e ∈ elems m → planar e) → (2 ≤ length z)%nat →
  conditions_given (nbc m) obc1 c1 → conditions_given (nbc m) obc2 c2 →
  (∀ b, (b < nbc m)%nat → end_condition (c1 b) ∧ end_condition (c2 b) ∧ (c1 b = "P"%string ↔ c2 b = "P"%string)) →
  (0 <= tol)%R →
  ∃ m3, extrude (A:=AR) m z obc1 obc2 true = Ok m3 ∧
    (check_connectivity (A:=AR) tol m3 = Ok true ↔ close_in_layers tol z m).
Proof.
  intros Hw Hlin Hp Hpl Hz G1 G2 Hcond Htol.
  pose (bnd := 6 + Z.of_nat (nel m * (length z - 1))). pose proof (AR_laws bnd) as LA.
  assert (Z.of_nat (nel m * (length z - 1)) <= bnd) as Hbnd by (unfold bnd; lia).
  pose proof (paired_refs bnd m _ (proj1 Hlin) Hp Hbnd) as Hrefs.
  destruct (C34_extrude_stack (A:=AR) bnd m z obc1 obc2 true c1 c2 LA Hw Hlin Hz Hrefs G1 G2) as (m3 & E & Hw3 & Hst).
  { intros b Hb; by apply Hcond. }
  destruct (C35_extrude_faces (A:=AR) bnd m m3 z obc1 obc2 c1 c2 LA Hw Hlin Hp Hz Hbnd G1 G2 Hcond E) as [Hs He].
  exists m3. split; [done|]. rewrite check_connectivity_iff by done.
  pose proof Hst as (S1 & S2 & S3 & _ & S5 & _ & Sel). pose proof Hlin as (L1 & _ & _ & _ & L5).
  assert (∀ i e, elems m !! i = Some e → wf_geom_elem (A:=AR) e ∧ eshape e = (2,2,1)%nat ∧ planar e) as Hel.
  { intros i e Hi. assert (e ∈ elems m) as Hin by (by eapply elem_of_list_lookup_2).
    split; [by apply (proj2 Hw)|]. split; [by apply L5|by apply Hpl]. }
  assert (∀ k i j e e' f g c c' s s' z1 z2, elems m !! i = Some e → elems m !! j = Some e' → (f < 4)%nat → (g < 4)%nat →
    face_center (A:=AR) e (Z.of_nat f) = Ok c → face_center (A:=AR) e' (Z.of_nat g) = Ok c' → smallest_edge (A:=AR) e = Ok s → smallest_edge (A:=AR) e' = Ok s' →
    z !! k = Some z1 → z !! (k + 1)%nat = Some z2 →
    (same_place (A:=AR) tol m3 (i + nel m * k) f (j + nel m * k) g ↔ plane_dist c c' <= tol * Rmin (Rmin s s') (Rabs (z2 - z1)))%R) as Hpl3.
  { intros k i j e e' f g c c' s s' z1 z2 Hi Hj Hf Hg Hc Hc' Hse Hse' Hz1 Hz2.
    destruct (Sel k i e z1 z2 Hz1 Hz2 Hi) as (e3 & He3 & Hsl). destruct (Sel k j e' z1 z2 Hz1 Hz2 Hj) as (e3' & He3' & Hsl').
    destruct (Hel i e Hi) as (? & ? & ?). destruct (Hel j e' Hj) as (? & ? & ?).
    by eapply (slab_place m m3 tol i j f g e e' e3 e3'). }
  split.
  - intros Hv i b f r j g e e' c c' s s' k z1 z2 Hin Hr HE Hin' HP Hi Hj Hc Hc' Hse Hse' Hz1 Hz2.
    pose proof Hin as (Li & Lb & Lf). pose proof Hin' as (Lj & _ & Lg). rewrite L1 in Lf, Lg.
    rewrite <- (Hpl3 k i j e e' f g c c' s s' z1 z2) by (done || lia).
    assert (k < length z - 1)%nat as Hk. { pose proof (lookup_lt_Some z (k + 1) z2 Hz2). lia. }
    destruct (Hs k i b f Hk Hin) as (r' & Hr' & (r0 & Hr0 & T & _ & TP & _)).
    rewrite Hr in Hr0. apply (inj Some) in Hr0 as <-.
    specialize (TP j g Lj ltac:(by left) HP).
    assert (∀ a, (a < nel m)%nat → (a + nel m * k < nel m * (length z - 1))%nat) as Hnum by (intros a Ha; clear -Ha Hk; nia).
    assert (in_mesh m3 (i + nel m * k) b f) as Hin3.
    { unfold in_mesh. rewrite S1, S2, S5. split; [by apply Hnum|]. split; [done|lia]. }
    destruct (Hv _ _ _ _ Hin3 Hr' ltac:(left; by rewrite T)) as (j' & g' & r'' & [Lj' Lg'] & [N3 N4] & _ & _ & _ & Hpc).
    destruct TP as [P3 P4]. specialize (Hnum j Lj). rewrite P3, (law_trunc AR bnd LA) in N3 by (idtac; unfold bnd; lia). rewrite P4, (law_trunc AR bnd LA) in N4 by (unfold bnd; lia).
    injection N3 as N3. injection N4 as N4. apply Z.add_cancel_r, Nat2Z.inj in N3. apply Z.add_cancel_r, Nat2Z.inj in N4. subst j' g'.
    apply Hpc. by rewrite T.
  - intros Hcl. eapply (stack_valid_geo bnd LA AR_geo m z m3 c1 c2); try done; [|unfold bnd; lia|].
    2: { change (Rleb 0 tol = true). unfold Rleb. by destruct (Rle_dec 0 tol). }
    intros k i b f r j g Hk Hin Hr HE Hin' HP. pose proof Hin as (Li & Lb & Lf). pose proof Hin' as (Lj & _ & Lg). rewrite L1 in Lf, Lg.
    destruct (lookup_lt_is_Some_2 (elems m) i) as [e Hi]; [destruct Hw as [(_ & -> & _) _]; lia|].
    destruct (lookup_lt_is_Some_2 (elems m) j) as [e' Hj]; [destruct Hw as [(_ & -> & _) _]; lia|].
    destruct (lookup_lt_is_Some_2 z k) as [z1 Hz1]; [lia|]. destruct (lookup_lt_is_Some_2 z (k + 1)) as [z2 Hz2]; [lia|].
    destruct (Hel i e Hi) as (We & Se & _). destruct (Hel j e' Hj) as (We' & Se' & _).
    destruct (smallest_edge_Ok (A:=AR) e We) as [s Hse]. destruct (smallest_edge_Ok (A:=AR) e' We') as [s' Hse'].
    destruct (Sel k i e z1 z2 Hz1 Hz2 Hi) as (e3 & He3 & Hsl). destruct (Sel k j e' z1 z2 Hz1 Hz2 Hj) as (e3' & He3' & Hsl').
    destruct (slab_faces (A:=AR) e e3 z1 z2 We Se Hsl) as (fc & _ & _ & F1 & _). destruct (slab_faces (A:=AR) e' e3' z1 z2 We' Se' Hsl') as (fc' & _ & _ & F1' & _).
    destruct (F1 f ltac:(lia)) as [cz Hc]. destruct (F1' g ltac:(lia)) as [cz' Hc'].
    rewrite (Hpl3 k i j e e' f g _ _ s s' z1 z2 Hi Hj ltac:(lia) ltac:(lia) Hc Hc' Hse Hse' Hz1 Hz2).
    by apply (Hcl i b f r j g e e' _ _ s s' k z1 z2).
Qed.
Print Assumptions C35_extrude_valid_iff_real.

(** So it does for every valid 2D mesh and the same tolerance if no layer is thinner than what smallest_edge says of an element. *)
Theorem C35_extrude_valid_thick_real (m : hexa (num AR)) z obc1 obc2 c1 c2 (tol : R) :
  wf_mesh m → linear2d (A:=AR) m → paired (A:=AR) m → (∀ e, e ∈ elems m → planar e) → (2 ≤ length z)%nat →
  conditions_given (nbc m) obc1 c1 → conditions_given (nbc m) obc2 c2 →
  (∀ b, (b < nbc m)%nat → end_condition (c1 b) ∧ end_condition (c2 b) ∧ (c1 b = "P"%string ↔ c2 b = "P"%string)) →
  (0 <= tol)%R → check_connectivity (A:=AR) tol m = Ok true →
  (∀ e s k z1 z2, e ∈ elems m → smallest_edge (A:=AR) e = Ok s → z !! k = Some z1 → z !! (k + 1)%nat = Some z2 → (s <= Rabs (z2 - z1))%R) →
  ∃ m3, extrude (A:=AR) m z obc1 obc2 true = Ok m3 ∧ valid_connectivity (A:=AR) tol m3 ∧ check_connectivity (A:=AR) tol m3 = Ok true.
Proof.
  intros Hw Hlin Hp Hpl Hz G1 G2 Hcond Htol Hv Hth. pose proof (proj1 (check_connectivity_iff (A:=AR) tol m Hw) Hv) as Hval.
  assert (close_in_layers tol z m) as Hcl.
  { intros i b f r j g e e' c c' s s' k z1 z2 Hin Hr HE Hin' [P3 P4] Hi Hj Hc Hc' Hse Hse' Hz1 Hz2.
    assert (Rmin (Rmin s s') (Rabs (z2 - z1)) = Rmin s s') as ->.
    { assert (s <= Rabs (z2 - z1))%R by exact (Hth e s k z1 z2 (elem_of_list_lookup_2 _ _ _ Hi) Hse Hz1 Hz2).
      rewrite Rmin_left; [done|]. eapply Rle_trans; [apply Rmin_l|done]. }
    pose proof Hin' as (Lj & _ & Lg). rewrite (proj1 Hlin) in Lg.
    destruct (Hval _ _ _ _ Hin Hr ltac:(by left)) as (j' & g' & r'' & [Lj' Lg'] & [N3 N4] & _ & _ & _ & Hpc).
    pose proof (AR_laws (Z.of_nat (nel m) + 6)) as LA.
    rewrite P3, (law_trunc AR _ LA) in N3 by lia. rewrite P4, (law_trunc AR _ LA) in N4 by lia.
    injection N3 as N3. injection N4 as N4. assert (j' = j)%nat as -> by lia. assert (g' = g) as -> by lia.
    destruct (Hpc HE) as (a & a' & d & d' & t & t' & Ha & Ha' & D & D' & T & T' & Hd).
    rewrite Hi in Ha. apply (inj Some) in Ha as <-. rewrite Hj in Ha'. apply (inj Some) in Ha' as <-.
    rewrite Hc in D. injection D as <-. rewrite Hc' in D'. injection D' as <-. rewrite Hse in T. injection T as <-. rewrite Hse' in T'. injection T' as <-.
    assert (pymin (A:=AR) s s' = Rmin s s') as Em.
    { unfold pymin. cbn. unfold Rltb, Rmin. destruct (Rlt_dec s' s), (Rle_dec s s'); try done; lra. }
    rewrite Em in Hd. change (Rltb (tol * Rmin s s')%R (R_sqrt.sqrt (dist2 (A:=AR) c' c)) = false) in Hd.
    unfold Rltb in Hd. destruct (Rlt_dec _ _) as [|Hn]; [done|]. apply Rnot_lt_le in Hn. refine (Rle_trans _ _ _ _ Hn).
    destruct c as [[cx cy] cz], c' as [[cx' cy'] cz']. unfold plane_dist, dist2, nsq. cbn. apply R_sqrt.sqrt_le_1_alt.
    pose proof (Rle_0_sqr (cz - cz')) as Hsq. unfold Rsqr in Hsq. ring_simplify. ring_simplify in Hsq. lra. }
  destruct (C35_extrude_valid_iff_real m z obc1 obc2 c1 c2 tol Hw Hlin Hp Hpl Hz G1 G2 Hcond Htol) as (m3 & E & Hiff).
  exists m3. split; [done|]. pose proof (proj2 Hiff Hcl) as Hc. split; [|done].
  pose (bnd := 6 + Z.of_nat (nel m * (length z - 1))).
  destruct (C34_extrude_stack (A:=AR) bnd m z obc1 obc2 true c1 c2 (AR_laws bnd) Hw Hlin Hz) as (m3' & E' & Hw3 & _); [|done|done| |].
  { apply (paired_refs bnd m _ (proj1 Hlin) Hp). unfold bnd. lia. }
  { intros b Hb; by apply Hcond. }
  rewrite E in E'. injection E' as <-. by apply check_connectivity_iff.
Qed.
Print Assumptions C35_extrude_valid_thick_real.

(** Two unit squares, but for a vertex of the first that is 1/1000 too far: the faces in between are 1/2000 apart. *)
Definition wallR : bcrec R := Bc "W" 0 0 0%R 0%R 0%R 0%R 0%R.
Definition linkR (j g : Z) : bcrec R := Bc "E" 0 0 (IZR j) (IZR g) 0%R 0%R 0%R.
Definition squareR (x0 x1 x2 : R) (row : list (bcrec R)) : elem R :=
  Elem (2, 2, 1)%nat [[x0; x1; x0; x2]; [0; 0; 1; 1]; [0; 0; 0; 0]]%R [] [] [] [] (replicate 12 [0; 0; 0; 0; 0]%R) (replicate 12 ""%string) [row].
Definition nearly : hexa (num AR) :=
  Hexa 2 2 0 1 [2; 0; 0; 0; 0]%nat PyList [2; 2; 1]%nat 0%R 0 8 "little"
    [squareR 0 (1 + / 1000) 1 [wallR; linkR 2 4; wallR; wallR; wallR; wallR]; squareR 1 2 2 [wallR; wallR; wallR; linkR 1 2; wallR; wallR]] [1; 2].
Lemma square_wf x0 x1 x2 row : wf_geom_elem (A:=AR) (squareR x0 x1 x2 row).
Proof.
  exists 2%nat, 2%nat, 1%nat. split; [done|]. split; [lia|]. split; [done|].
  intros c Hc. cbn in Hc. rewrite !elem_of_cons, elem_of_nil in Hc. by destruct Hc as [->|[->|[->|[]]]].
Qed.
Lemma square_planar x0 x1 x2 row : planar (squareR x0 x1 x2 row).
Proof.
  assert (∀ ky kx p, point (squareR x0 x1 x2 row) 0 ky kx = Some p → p.2 = 0%R) as H.
  { intros ky kx p Hp. destruct ky as [|[|ky]], kx as [|[|kx]]; try discriminate Hp; by injection Hp as <-. }
  intros ky kx ky' kx' p p' Hp Hp'. by rewrite (H _ _ _ Hp), (H _ _ _ Hp').
Qed.
Lemma square_edge x0 x1 x2 row : x2 = (x0 + 1)%R → (x0 + 1 <= x1)%R → smallest_edge (A:=AR) (squareR x0 x1 x2 row) = Ok 1%R.
Proof.
  intros -> Hx. destruct (smallest_edge_measured (squareR x0 x1 (x0 + 1) row) 2 2 1 (square_wf _ _ _ _) eq_refl) as (s & E & [(u & v & p & q & Huv & Hp & Hq & Es) Hle]).
  rewrite E. f_equal. apply Rle_antisym.
  - eapply Rle_trans; [apply (Hle 2%nat 3%nat (x0, 1, 0)%R (x0 + 1, 1, 0)%R); [listed|reflexivity|reflexivity]|]. apply Req_le. refine (eq_trans (f_equal R_sqrt.sqrt _) R_sqrt.sqrt_1). ring.
  - rewrite Es. refine (Rle_trans _ _ _ (Req_le _ _ (eq_sym R_sqrt.sqrt_1)) _). cbn [Nat.ltb Nat.leb] in Huv. unfold measured2 in Huv. rewrite !elem_of_cons, elem_of_nil in Huv.
    destruct Huv as [[= -> ->]|[[= -> ->]|[[= -> ->]|[[= -> ->]|[]]]]]; injection Hp as <-; injection Hq as <-; unfold distR;
      apply R_sqrt.sqrt_le_1_alt; nra.
Qed.
Lemma nearly_wf : wf_mesh nearly.
Proof.
  split.
  - split; [by left|]. split; [done|]. intros e He. unfold nearly in He. cbn [elems] in He. rewrite !elem_of_cons, elem_of_nil in He.
    destruct He as [->|[->|[]]]; (split; [done|]); intros row Hr; cbn [bcs squareR] in Hr; apply elem_of_list_singleton in Hr as ->; done.
  - intros e He. unfold nearly in He. cbn [elems] in He. rewrite !elem_of_cons, elem_of_nil in He. destruct He as [->|[->|[]]]; apply square_wf.
Qed.
Lemma nearly_linear2d : linear2d (A:=AR) nearly.
Proof.
  split; [done|]. split; [done|]. split; [done|]. split; [exists 2%nat, [0; 0; 0; 0]%nat; split; [done|lia]|].
  intros e He. unfold nearly in He. cbn [elems] in He. rewrite !elem_of_cons, elem_of_nil in He. by destruct He as [->|[->|[]]].
Qed.
Lemma nearly_planar e : e ∈ elems nearly → planar e.
Proof. intros He. unfold nearly in He. cbn [elems] in He. rewrite !elem_of_cons, elem_of_nil in He. destruct He as [->|[->|[]]]; apply square_planar. Qed.
(** The only connected faces. *)
Lemma nearly_links i b f r : in_mesh nearly i b f → get_bc nearly i b f = Some r → is_conn (bt r) →
  (i, b, f, r) = (0, 0, 1, linkR 2 4)%nat ∨ (i, b, f, r) = (1, 0, 3, linkR 1 2)%nat.
Proof.
  intros (Hi & Hb & Hf) Hr Hc. cbn in Hi, Hb, Hf. assert (b = 0%nat) as -> by lia.
  destruct i as [|[|i]]; [| |lia]; (do 4 (destruct f as [|f]; [cbn in Hr; injection Hr as <-; first [by left|by right|by destruct Hc]|])); lia.
Qed.
Lemma nearly_paired : paired (A:=AR) nearly.
Proof.
  intros i b f r Hin Hr Hc. destruct (nearly_links i b f r Hin Hr Hc) as [H|H]; injection H as -> -> -> ->.
  - exists 1%nat, 3%nat, (linkR 1 2). split; [split_and!; cbn; lia|]. split; [done|]. split; [done|]. split; [done|]. done.
  - exists 0%nat, 1%nat, (linkR 2 4). split; [split_and!; cbn; lia|]. split; [done|]. split; [done|]. split; [done|]. done.
Qed.
(** The distance of the two faces and the shortest edges. *)
Lemma nearly_close z k z1 z2 : z !! k = Some z1 → z !! (k + 1)%nat = Some z2 → close_in_layers (/ 1000) z nearly → (/ 2 <= Rabs (z2 - z1))%R.
Proof.
  intros Hz1 Hz2 H.
  pose proof (H 0%nat 0%nat 1%nat (linkR 2 4) 1%nat 3%nat _ _ _ _ 1%R 1%R k z1 z2 ltac:(split_and!; cbn; lia) eq_refl eq_refl ltac:(split_and!; cbn; lia) ltac:(done) eq_refl eq_refl eq_refl eq_refl) as X.
  rewrite !square_edge in X by (try ring; lra). specialize (X eq_refl eq_refl Hz1 Hz2).
  assert (0 <= / 1000)%R as H0 by lra.
  assert (Rmin (Rmin 1 1) (Rabs (z2 - z1)) <= Rabs (z2 - z1))%R as Hm by apply Rmin_r.
  assert (/ 2000 <= / 1000 * Rmin (Rmin 1 1) (Rabs (z2 - z1)))%R as Y; [|nra].
  refine (Rle_trans _ _ _ (Req_le _ _ _) X). unfold plane_dist.
  transitivity (R_sqrt.sqrt (Rsqr (/ 2000))); [rewrite R_sqrt.sqrt_Rsqr; lra|]. f_equal. unfold Rsqr. cbn. unfold mean4, nlit. cbn. field.
Qed.
Lemma nearly_valid : check_connectivity (A:=AR) (/ 1000)%R nearly = Ok true.
Proof.
  assert (∀ d : R, (d <= Rsqr (/ 1000))%R → nltb (a:=AR) (nmul (a:=AR) (/ 1000)%R (pymin (A:=AR) 1%R 1%R)) (nsqrt (a:=AR) d) = false) as Hd.
  { intros d Hd. change (Rltb (/ 1000 * pymin (A:=AR) 1 1)%R (R_sqrt.sqrt d) = false). unfold Rltb. destruct (Rlt_dec _ _) as [Hlt|]; [|done].
    exfalso. apply R_sqrt.sqrt_le_1_alt in Hd. rewrite R_sqrt.sqrt_Rsqr in Hd by lra.
    assert (pymin (A:=AR) 1%R 1%R = 1%R) as Em by (unfold pymin; by destruct (nltb _ _)). rewrite Em in Hlt. lra. }
  apply (check_connectivity_iff (A:=AR) _ nearly nearly_wf). intros i b f r Hin Hr Hc.
  destruct (nearly_links i b f r Hin Hr Hc) as [H|H]; injection H as -> -> -> ->.
  - exists 1%nat, 3%nat, (linkR 1 2). split; [cbn; lia|]. split; [split; apply (law_trunc AR _ (AR_laws 9)); lia|]. split; [done|]. split; [done|].
    split; [split; apply (law_trunc AR _ (AR_laws 9)); lia|]. intros _.
    do 4 eexists. exists 1%R, 1%R. split; [reflexivity|]. split; [reflexivity|]. split; [reflexivity|]. split; [reflexivity|].
    split; [apply square_edge; try ring; lra|]. split; [apply square_edge; try ring; lra|]. apply Hd. unfold dist2, nsq, mean4, nlit, Rsqr. cbn. nra.
  - exists 0%nat, 1%nat, (linkR 2 4). split; [cbn; lia|]. split; [split; apply (law_trunc AR _ (AR_laws 9)); lia|]. split; [done|]. split; [done|].
    split; [split; apply (law_trunc AR _ (AR_laws 9)); lia|]. intros _.
    do 4 eexists. exists 1%R, 1%R. split; [reflexivity|]. split; [reflexivity|]. split; [reflexivity|]. split; [reflexivity|].
    split; [apply square_edge; try ring; lra|]. split; [apply square_edge; try ring; lra|]. apply Hd. unfold dist2, nsq, mean4, nlit, Rsqr. cbn. nra.
Qed.
(** A layer of thickness 1 gives a valid mesh; one of 1/100 does not, although the 2D mesh is valid. *)
Example C35_sample_real : ∃ m3, extrude (A:=AR) nearly [0; 1]%R None None true = Ok m3 ∧ valid_connectivity (A:=AR) (/ 1000)%R m3 ∧
  check_connectivity (A:=AR) (/ 1000)%R m3 = Ok true.
Proof.
  apply (C35_extrude_valid_thick_real nearly [0; 1]%R None None (λ _, "P"%string) (λ _, "P"%string)).
  - exact nearly_wf.
  - exact nearly_linear2d.
  - exact nearly_paired.
  - exact nearly_planar.
  - cbn. lia.
  - split; [done|]. intros [|b] Hb; [done|cbn in Hb; lia].
  - split; [done|]. intros [|b] Hb; [done|cbn in Hb; lia].
  - intros b _. done.
  - lra.
  - exact nearly_valid.
  - intros e s k z1 z2 He Hs Hz1 Hz2. destruct k as [|[|k]]; [|discriminate Hz2..]. cbn in Hz1, Hz2. injection Hz1 as <-. injection Hz2 as <-.
    rewrite Rabs_pos_eq by lra. unfold nearly in He. cbn [elems] in He. rewrite !elem_of_cons, elem_of_nil in He.
    destruct He as [->|[->|[]]]; rewrite square_edge in Hs by (try ring; lra); injection Hs as <-; lra.
Qed.
Example C35_sample_thin_real : check_connectivity (A:=AR) (/ 1000)%R nearly = Ok true ∧
  ∃ m3, extrude (A:=AR) nearly [0; / 100]%R None None true = Ok m3 ∧ check_connectivity (A:=AR) (/ 1000)%R m3 ≠ Ok true.
Proof.
  split; [exact nearly_valid|].
  destruct (C35_extrude_valid_iff_real nearly [0; / 100]%R None None (λ _, "P"%string) (λ _, "P"%string) (/ 1000)%R) as (m3 & E & H).
  - exact nearly_wf.
  - exact nearly_linear2d.
  - exact nearly_paired.
  - exact nearly_planar.
  - cbn. lia.
  - split; [done|]. intros [|b] Hb; [done|cbn in Hb; lia].
  - split; [done|]. intros [|b] Hb; [done|cbn in Hb; lia].
  - intros b _. done.
  - lra.
  - exists m3. split; [exact E|]. intros Hc. apply H in Hc. apply (nearly_close _ 0%nat 0%R (/ 100)%R) in Hc; [|done|done].
    rewrite Rabs_pos_eq in Hc by lra. lra.
Qed.
