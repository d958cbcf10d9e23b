(** C68: a pipe, built by gen_circle and extrude, over the real numbers. *)
From Coq Require Import Lia Reals Lra.
From Verif Require Import Base Mesh Core Tools Float FloatLaws MeshLemmas MeshSpec CheckProofs GeoLaws BoxSpec BoxProofs MergeSpec ExtrudeSpec ExtrudeProofs ExtrudeReal
  P_Extrude P_ExtrudeReal Disc DiscSpec DiscDefaults DiscProofs DiscPlaces DiscJoin DiscParts DiscWhole P_Disc P_DiscJoin.
Open Scope Z_scope.

Lemma disc_shape bo r s ns no (cf bf : R → R) v0 rest bc (m : mesh) : (1 ≤ no)%nat → (2 ≤ v0)%nat →
  gen_circle TR bo r s ns no cf bf (v0 :: rest) bc true = Ok m → linear2d (A:=AR) m ∧ ∀ e, e ∈ elems m → planar e.
Proof.
  intros Hno Hv E. destruct (gen_circle_inv TR bo r s ns no cf bf (v0 :: rest) bc true m Hno E) as [Rs _ _ (l0 & l1 & l2 & l3 & l4 & El & K0 & K1 & K2 & K3 & K4)].
  assert (∀ l ni nj c cv, blocked (A:=AR) l ni nj c cv → (∀ i j, length (cv i j).1 = 12 ∧ length (cv i j).2 = 12)%nat → ∀ e, e ∈ l →
    (∃ p00 p01 p10 p11, corners (A:=AR) e p00 p01 p10 p11) ∧ length (ccurv e) = 12%nat ∧ length (curv e) = 12%nat) as HB.
  { intros l ni nj c cv [L B] Hcv e He. apply elem_of_list_lookup_1 in He as [k Hk]. pose proof (lookup_lt_Some _ _ _ Hk) as Hlt. rewrite L in Hlt.
    apply elnum_div in Hlt as (i & j & Hi & Hj & ->). destruct (B i j Hi Hj) as (e' & He' & C & C1 & C2). rewrite Hk in He'. assert (e = e') as <- by congruence.
    split; [eauto|]. rewrite C1, C2. apply Hcv. }
  assert (∀ e, e ∈ elems m → (∃ p00 p01 p10 p11, corners (A:=AR) e p00 p01 p10 p11) ∧ length (ccurv e) = 12%nat ∧ length (curv e) = 12%nat) as HE.
  { assert (∀ i j, length (outer_curves (A:=AR) no r i j).1 = 12 ∧ length (outer_curves (A:=AR) no r i j).2 = 12)%nat as Ho.
    { intros i j. unfold outer_curves. destruct (_ =? _)%nat; done. }
    intros e He. rewrite El, !elem_of_app in He. destruct He as [He|[He|[He|[He|He]]]]; [refine (HB _ _ _ _ _ K0 _ e He); done|refine (HB _ _ _ _ _ K1 Ho e He)|refine (HB _ _ _ _ _ K2 Ho e He)|refine (HB _ _ _ _ _ K3 Ho e He)|refine (HB _ _ _ _ _ K4 Ho e He)]. }
  split.
  - split; [exact (f_equal ndim Rs)|]. split; [exact (f_equal lr1kind Rs)|]. split; [exact (f_equal lr1 Rs)|]. split; [exists v0, rest; split; [exact (f_equal var Rs)|done]|].
    intros e He. destruct (HE e He) as ((p00 & p01 & p10 & p11 & [C _]) & L1 & L2). done.
  - intros e He. destruct (HE e He) as ((p00 & p01 & p10 & p11 & [C1 C2]) & _).
    assert (∀ ky kx (p : R * R * R), point (N:=R) e 0 ky kx = Some p → p.2 = 0%R) as Hz.
    { intros ky kx p Hp. unfold point in Hp. change (num AR) with R in *. rewrite C1, C2 in Hp. destruct ky as [|[|ky]], kx as [|[|kx]]; cbn in Hp; try discriminate Hp; injection Hp as <-; done. }
    intros ky kx ky' kx' p p' Hp Hp'. rewrite (Hz _ _ _ Hp), (Hz _ _ _ Hp'). done.
Qed.

(** The side faces of the pipe carry the conditions of the circle in every layer, its ends the conditions given for them; all other
    faces are internal (see C35_extrude_faces), and the mesh passes the check, however thin the layers are. *)
Theorem C68_pipe bo r s ns no (cf bf : R → R) v0 rest bc z obc1 obc2 c1 c2 : (0 < r)%R → (0 < s < 1)%R → (1 ≤ ns)%nat → (1 ≤ no)%nat →
  bf 0%R = 0%R → bf 1%R = 1%R → cf 0%R = 0%R → cf 1%R = 1%R →
  (∀ i, (i < no)%nat → (bf (along i no) < bf (along (i + 1) no))%R) →
  let vertex j i := mixed_point r s ns j (bf (along i no)) (cf (bf (along i no))) in
  (∀ j, (j < ns)%nat → let d := dist (vertex j (no - 1)%nat) (vertex j no) in (d < 40 * (r / INR ns) ∧ d < 40 * ((1 - s) * r))%R) →
  (0 < length bc)%nat → (∀ t, t ∈ bc → u3 t ≠ "P"%string ∧ u3 t ≠ "E"%string) → (2 ≤ v0)%nat →
  (2 ≤ length z)%nat → conditions_given (length bc) obc1 c1 → conditions_given (length bc) obc2 c2 →
  (∀ b, (b < length bc)%nat → end_condition (c1 b) ∧ end_condition (c2 b) ∧ (c1 b = "P"%string ↔ c2 b = "P"%string)) →
  let n := (ns * ns + 4 * (no * ns))%nat in let nz := (length z - 1)%nat in
  ∃ m m3 : hexa R, gen_circle TR bo r s ns no cf bf (v0 :: rest) bc true = Ok m ∧ extrude (A:=AR) m z obc1 obc2 true = Ok m3 ∧
    ndim m3 = 3%nat ∧ nel m3 = (n * nz)%nat ∧ nbc m3 = length bc ∧
    (∀ k q j b t, (k < nz)%nat → (q < 4)%nat → (j < ns)%nat → bc !! b = Some t →
       ∃ rc, get_bc m3 ((circle_face ns no q j).1 + n * k)%nat b 1 = Some rc ∧ bt rc = u3 t) ∧
    (∀ i b, (i < n)%nat → (b < length bc)%nat →
       (∃ rc, get_bc m3 i b 4 = Some rc ∧ bt rc = c1 b) ∧ (∃ rc, get_bc m3 (i + n * (nz - 1))%nat b 5 = Some rc ∧ bt rc = c2 b)) ∧
    (∀ k i b f, (k < nz)%nat → (i < n)%nat → (b < length bc)%nat → (f < 6)%nat →
       (∀ q j, (q < 4)%nat → (j < ns)%nat → (i, f) ≠ circle_face ns no q j) → (f = 4%nat → k ≠ 0%nat) → (f = 5%nat → k ≠ (nz - 1)%nat) →
       ∃ rc, get_bc m3 (i + n * k)%nat b f = Some rc ∧ bt rc = "E"%string) ∧
    ∀ tol, (0 <= tol)%R → check_connectivity (A:=AR) tol m3 = Ok true.
Proof.
  intros Hr Hs Hns Hno B0 B1 C0 C1 Hris vertex Hmod Hbc Hty Hv0 Hz G1 G2 Hc n nz.
  destruct (disc_described r s ns no cf bf bc Hr Hs Hns Hno B0 B1 C0 C1 Hris Hmod Hbc Hty bo (v0 :: rest)) as (m & F & E & D & _).
  destruct (C67_joined bo r s ns no cf bf (v0 :: rest) bc Hr Hs Hns Hno B0 B1 C0 C1 Hris Hmod Hbc Hty) as (m' & E' & Hn & Hb & Hout & Hin & _).
  assert (m' = m) as -> by (rewrite E in E'; congruence). clear E'.
  destruct (disc_shape bo r s ns no cf bf v0 rest bc m Hno Hv0 E) as [Hlin Hpl]. destruct (ds_joined _ _ _ _ _ _ _ _ D) as ((W & P & U & _) & NP & J).
  pose proof (ds_dim _ _ _ _ _ _ _ _ D) as (Dd & _ & Db).
  assert (∀ tol, (0 <= tol)%R → close_in_layers tol z m) as HC0.
  { intros tol Ht i b f rc j g e e' c c' sz sz' k z1 z2 Hi Hrc HE Hj Hp He He' Hfc Hfc' Hsz Hsz' _ _.
    assert (in_mesh (A:=AR) m i 0 f) as Hi0. { destruct Hi as (? & ? & ?). split; [done|]. split; [lia|done]. }
    assert (∃ r0, get_bc m i 0 f = Some r0) as [r0 Hr0]. { apply (wf_get_bc (A:=AR) m); [by destruct W|apply Hi|rewrite Db; lia|]. destruct Hi as (_ & _ & Hf). rewrite Dd in Hf. cbn in Hf. lia. }
    destruct (U i b f rc r0 Hi Hrc Hr0 ltac:(left; by left)) as (T1 & T3 & T4).
    destruct (J (i, f) (j, g) r0 Hi0 Hr0) as (_ & c0 & (d & Hd & Q) & (d' & Hd' & Q')); [congruence|destruct Hp as [Hp3 Hp4]; split; cbn [fst snd]; congruence|].
    cbn [fst snd] in *. assert (d = e) as -> by congruence. assert (d' = e') as -> by congruence.
    assert (c = c') as -> by (rewrite Hfc in Q; rewrite Hfc' in Q'; congruence).
    assert (plane_dist c' c' = 0%R) as ->. { unfold plane_dist. rewrite !Rminus_eq_0. replace (0 ^ 2 + 0 ^ 2)%R with 0%R by ring. apply R_sqrt.sqrt_0. }
    assert (∀ (e : elem (num AR)) sz, smallest_edge (A:=AR) e = Ok sz → (0 <= sz)%R) as Hpos. { intros e0 s0 H0. destruct (smallest_edge_sqrt _ _ H0) as [w ->]. apply R_sqrt.sqrt_pos. }
    apply Rmult_le_pos; [done|]. apply Rmin_glb; [apply Rmin_glb; [exact (Hpos e sz Hsz)|exact (Hpos e' sz' Hsz')]|apply Rabs_pos]. }
  assert (nbc m = length bc) as Hnb by exact Db. assert (nel m = n) as Hnel by exact Hn.
  assert (∀ tol, (0 <= tol)%R → ∃ m3, extrude (A:=AR) m z obc1 obc2 true = Ok m3 ∧ check_connectivity (A:=AR) tol m3 = Ok true) as HX.
  { intros tol Ht. rewrite <- Hnb in G1, G2, Hc. destruct (C35_extrude_valid_iff_real m z obc1 obc2 c1 c2 tol W Hlin P Hpl Hz G1 G2 Hc Ht) as (m3 & E3 & Hiff).
    exists m3. split; [done|]. apply Hiff. by apply HC0. }
  destruct (HX 0%R ltac:(lra)) as (m3 & E3 & _). exists m, m3. split; [exact E|]. split; [exact E3|].
  pose (bnd := 6 + Z.of_nat (nel m * nz)). pose proof (AR_laws bnd) as LA. assert (Z.of_nat (nel m * nz) <= bnd) as Hbnd by (unfold bnd; lia).
  rewrite <- Hnb in G1, G2, Hc. pose proof (paired_refs bnd m _ (proj1 Hlin) P Hbnd) as Hrefs.
  destruct (C34_extrude_stack (A:=AR) bnd m z obc1 obc2 true c1 c2 LA W Hlin Hz Hrefs G1 G2) as (m3' & E3' & _ & (S1 & S2 & _ & _ & S5 & _)); [intros b Hb'; by apply Hc|].
  assert (m3' = m3) as -> by (rewrite E3 in E3'; congruence). clear E3'.
  destruct (C35_extrude_faces (A:=AR) bnd m m3 z obc1 obc2 c1 c2 LA W Hlin P Hz Hbnd G1 G2 Hc E3) as [Hsd Hend]. rewrite Hnel, Hnb in *. fold nz in Hsd, Hend, S2.
  assert (∀ i b f, (i < n)%nat → (b < length bc)%nat → (f < 4)%nat → in_mesh (A:=AR) m i b f) as HI.
  { intros i b f Hi Hb' Hf. split; [rewrite Hnel; done|]. split; [rewrite Hnb; done|]. rewrite Dd. cbn. lia. }
  split; [exact S1|]. split; [exact S2|]. split; [exact S5|]. split; [|split; [|split]].
  - intros k q j b t Hk Hq Hj Ht. destruct (Hout q j b t Hq Hj Ht) as (rc & Hrc & Et).
    assert ((circle_face ns no q j).1 < n)%nat as Hlt. { pose proof (elnum_lt no ns (no - 1) j ltac:(lia) Hj) as H0. unfold elnum in H0. assert (q * (no * ns) <= 3 * (no * ns))%nat by (apply Nat.mul_le_mono_r; lia). unfold circle_face, n. cbn [fst]. lia. }
    destruct (Hsd k (circle_face ns no q j).1 b 1%nat Hk (HI (circle_face ns no q j).1 b 1%nat Hlt (lookup_lt_Some _ _ _ Ht) ltac:(lia))) as (rc' & Hrc' & r0 & Hr0 & Tt & _).
    exists rc'. split; [exact Hrc'|]. refine (eq_trans Tt _). assert (r0 = rc) as -> by (cbn [circle_face snd] in Hrc; change (get_bc m (circle_face ns no q j).1 b 1 = Some rc) in Hrc; congruence). done.
  - intros i b Hi Hb'. split.
    + destruct (Hend 0%nat i b 4%nat ltac:(unfold nz; lia) Hi Hb' ltac:(by left)) as (rc & Hrc & _ & _ & T). exists rc. rewrite Nat.mul_0_r, Nat.add_0_r in Hrc. split; [exact Hrc|].
      rewrite !decide_True in T by done. exact (proj1 T).
    + destruct (Hend (nz - 1)%nat i b 5%nat ltac:(unfold nz; lia) Hi Hb' ltac:(by right)) as (rc & Hrc & _ & _ & T). exists rc. split; [exact Hrc|].
      rewrite decide_False, decide_True in T by done. exact (proj1 T).
  - intros k i b f Hk Hi Hb' Hf Hcf H4 H5. destruct (decide (f < 4)%nat) as [Hf4|Hf4].
    + destruct (Hin (i, f) b) as (y & _ & _ & _ & (r0 & Hr0 & T0 & _) & _); [rewrite Hn; done|done|done|done|].
      destruct (Hsd k i b f Hk (HI _ _ _ Hi Hb' Hf4)) as (rc & Hrc & r1 & Hr1 & Tt & _). exists rc. split; [exact Hrc|]. refine (eq_trans Tt _).
      assert (r1 = r0) as -> by (change (get_bc m i b f = Some r0) in Hr0; congruence). exact T0.
    + destruct (Hend k i b f Hk Hi Hb' ltac:(lia)) as (rc & Hrc & _ & _ & T). exists rc. split; [exact Hrc|].
      destruct (decide (f = 4%nat)) as [E4|N4]; [rewrite decide_False in T by (by apply H4); exact (proj1 T)|]. rewrite decide_False in T by (apply H5; lia). exact (proj1 T).
  - intros tol Ht. destruct (HX tol Ht) as (m4 & E4 & V). assert (m4 = m3) as -> by (rewrite E3 in E4; congruence). exact V.
Qed.
Print Assumptions C68_pipe.
(** A pipe of two layers of the disc of C46_sample, the second one very thin, with inflow and outflow. *)
Example C68_sample : ∃ m m3 : hexa R, gen_circle TR "little" 1%R (1 / 2)%R 2 2 default_curvature (λ x, x) [2; 2; 1; 0; 0]%nat ["W"%string] true = Ok m ∧
  extrude (A:=AR) m [0; 1; 1 + / 1000000]%R (Some ["v"%string]) (Some ["O"%string]) true = Ok m3 ∧ nel m3 = 40%nat ∧ check_connectivity (A:=AR) 0%R m3 = Ok true ∧
  (∃ rc, get_bc m3 3 0 4 = Some rc ∧ bt rc = "v"%string) ∧ (∃ rc, get_bc m3 23 0 5 = Some rc ∧ bt rc = "O"%string) ∧ (∃ rc, get_bc m3 25 0 1 = Some rc ∧ bt rc = "W"%string).
Proof.
  destruct C46_sample as (_ & _ & _ & _ & D0 & D1).
  assert (∀ i, (i < 2)%nat → along i 2 < along (i + 1) 2)%R as Hris. { intros i Hi. unfold along. destruct i as [|[|i]]; [| |lia]; cbn; lra. }
  assert (∀ t, t ∈ ["W"%string] → u3 t ≠ "P"%string ∧ u3 t ≠ "E"%string) as Ht. { intros t Ht. apply elem_of_list_singleton in Ht as ->. done. }
  assert (0 < length ["W"%string])%nat as Hl by (cbn; lia).
  destruct (C68_pipe "little" 1%R (1 / 2)%R 2 2 default_curvature (λ x, x) 2 [2; 1; 0; 0]%nat ["W"%string] [0; 1; 1 + / 1000000]%R (Some ["v"%string]) (Some ["O"%string]) (λ _, "v"%string) (λ _, "O"%string)
    ltac:(lra) ltac:(lra) ltac:(lia) ltac:(lia) eq_refl eq_refl D0 D1 Hris) as (m & m3 & E & E3 & _ & En & _ & Hw & He & _ & Hc).
  - intros j Hj d.
    assert (d <= 2 * 1)%R as Hd.
    { unfold d. apply dist_within; [lra| |]; apply mixed_within; try lra; try lia; try apply default_curvature_within; (split; [apply along_nonneg|apply along_le_1; lia]). }
    cbn [INR]. split; lra.
  - exact Hl.
  - exact Ht.
  - lia.
  - cbn. lia.
  - split; [done|]. intros [|b] Hb; [done|cbn in Hb; lia].
  - split; [done|]. intros [|b] Hb; [done|cbn in Hb; lia].
  - intros b _. split; [done|]. split; [done|]. done.
  - exists m, m3. split; [exact E|]. split; [exact E3|]. split; [exact En|]. split; [apply Hc; lra|]. cbn [length] in *.
    destruct (He 3%nat 0%nat ltac:(lia) ltac:(lia)) as [H4 H5]. split; [exact H4|]. split; [exact H5|]. exact (Hw 1%nat 0%nat 0%nat 0%nat "W"%string ltac:(cbn; lia) ltac:(lia) ltac:(lia) eq_refl).
Qed.
