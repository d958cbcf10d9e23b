(** C61: extrude_mid and extrude_refine without internal conditions. *)
From Coq Require Import Lia.
From Verif Require Import Base Mesh Core Tools Curve Mid Split Float FloatLaws MeshLemmas MeshSpec CheckProofs OpsProofs GeoLaws BoxProofs
  ExtrudeSpec ExtrudeProofs MidSpec MidProofs MidBlock MidMesh MidResult MidGeo MidFaces MidEntry MidFinal P_Mid SplitSpec SplitQuiet P_Split Samples.
Open Scope Z_scope.

(** The type of some face of the mesh. *)
Definition occurs {N} (m : hexa N) (t : string) : Prop := ∃ i b f r, get_bc m i b f = Some r ∧ bt r = t.

(** Without internal conditions, every condition of the result of extrude_refine is none, one of the 2D mesh or one of those
    given for the ends, cut to three characters; none is internal. *)
Theorem C61_refine_types {A : arith} {P} (m m3 : hexa (num A)) z obc1 obc2 (Fs : list (num A → num A → P → num A)) ops h t :
  wf_mesh m → extrude_refine m z obc1 obc2 (Some Fs) ops h false = Ok m3 → occurs m3 t →
  t = ""%string ∨ (occurs m t ∧ t ≠ "E"%string) ∨
    ∃ c, (c ∈ default (replicate (nbc m) "P"%string) obc1 ∨ c ∈ default (replicate (nbc m) "P"%string) obc2) ∧ t = u3 c.
Proof.
  intros Hw E (i & b & f & r & Hr & <-).
  pose (T := λ t, t = ""%string ∨ (occurs m t ∧ t ≠ "E"%string) ∨
    ∃ c, (c ∈ default (replicate (nbc m) "P"%string) obc1 ∨ c ∈ default (replicate (nbc m) "P"%string) obc2) ∧ t = u3 c).
  assert (mT T m3) as H.
  { eapply (mT_refine T); [..|exact E]; try reflexivity.
    - by left.
    - intros c Hc. right. right. exists c. by split; [left|].
    - intros c Hc. right. right. exists c. by split; [right|].
    - apply Hw.
    - intros i0 b0 f0 r0 H0 HE. right. left. split; [by exists i0, b0, f0, r0|done]. }
  rewrite mT_get in H. by apply (H i b f).
Qed.
Print Assumptions C61_refine_types.
Theorem C61_refine_no_internal {A : arith} {P} (m m3 : hexa (num A)) z obc1 obc2 (Fs : list (num A → num A → P → num A)) ops h c1 c2 :
  wf_mesh m → conditions_given (nbc m) obc1 c1 → conditions_given (nbc m) obc2 c2 →
  (∀ b, (b < nbc m)%nat → end_condition (c1 b) ∧ end_condition (c2 b)) →
  extrude_refine m z obc1 obc2 (Some Fs) ops h false = Ok m3 → ¬ occurs m3 "E"%string.
Proof.
  intros Hw [L1 G1] [L2 G2] Hc E H.
  destruct (C61_refine_types m m3 z obc1 obc2 Fs ops h _ Hw E H) as [?|[[_ ?]|(c & Hin & Ec)]]; [done|done|].
  assert (∃ b, (b < nbc m)%nat ∧ (c = c1 b ∨ c = c2 b)) as (b & Hb & Hcb).
  { destruct Hin as [Hin|Hin]; apply elem_of_list_lookup in Hin as (b & Hl); pose proof (lookup_lt_Some _ _ _ Hl) as Hlt; exists b.
    - rewrite L1 in Hlt. split; [done|]. left. rewrite (G1 b Hlt) in Hl. by apply (inj Some) in Hl.
    - rewrite L2 in Hlt. split; [done|]. right. rewrite (G2 b Hlt) in Hl. by apply (inj Some) in Hl. }
  destruct (Hc b Hb) as ([U1 N1] & [U2 N2]). destruct Hcb as [-> | ->]; [rewrite U1 in Ec|rewrite U2 in Ec]; by symmetry in Ec.
Qed.
Print Assumptions C61_refine_no_internal.

(** extrude_mid itself keeps the conditions the sides of the 2D mesh have: they too sit between the new elements. *)
Section walls.
Context {A : arith}.
Notation N := (num A).
Context (f : N → N → N) (z : list N) (q : nat) (c1 c2 : nat → string) (m m3 : hexa N).
Hypothesis Hw : wf_mesh m.
Hypothesis Hcut : ∀ e, e ∈ elems m → cut_across f e.
Hypothesis Hres : mid_result f false z q c1 c2 m m3.
Lemma wall_between k i e lo hi j j' b g g' r : (k < q)%nat → elems m !! i = Some e → orient f e = Some (lo, hi) → (j < 6)%nat → (j' < 6)%nat →
  (b < nbc m)%nat → (g < 4)%nat → touching (mid_sides lo hi) j g = Some (1, j', g')%nat → get_bc m i b g = Some r →
  ∃ x y, elems m3 !! sixth (nel m) k i j = Some x ∧ elems m3 !! sixth (nel m) k i j' = Some y ∧
    face_points x g ≡ₚ face_points y g' ∧ Forall is_Some (face_points x g) ∧ get_bc m3 (sixth (nel m) k i j) b g = Some r.
Proof using Hw Hcut Hres.
  intros Hk He Ho Hj Hj' Hb Hg Et Hr. destruct Hres as (_ & _ & _ & _ & _ & _ & _ & _ & Hel).
  assert (cut_across f e) as Hc by (apply Hcut; by eapply elem_of_list_lookup_2).
  destruct (cut_sides f e lo hi Hc Ho) as (Hin & _).
  destruct (Hel k i e Hk He) as (l & (lo' & hi' & m0 & m1 & a0 & a1 & Ho' & E0 & E1 & F & HF) & Hl).
  rewrite Ho in Ho'. injection Ho' as <- <-.
  assert (∀ n, (n < 6)%nat → ∃ y, elems m3 !! sixth (nel m) k i n = Some y ∧
    (∀ l' j' i', (l' < 2)%nat → (j' < 2)%nat → (i' < 2)%nat → point y l' j' i' = Some (vtx e lo hi m0 m1 (zk z k) n l' (j', i')))) as Hpt.
  { intros n Hn. destruct (Hl n Hn) as (x & y & Hx & Hy & Exy & _ & _). exists y. split; [done|].
    destruct (Forall2_lookup_r _ _ _ _ _ F Hx) as (x0 & Hx0 & S1 & S2 & _).
    assert (eshape y = eshape x ∧ pos y = pos x) as [Y1 Y2].
    { split; [exact (f_equal eshape Exy)|exact (f_equal pos Exy)]. }
    intros l' j'' i' ? ? ?. rewrite <- (six_point e lo hi m0 m1 (zk z k) n x0 l' j'' i') by done.
    unfold point. by rewrite Y1, Y2, S1, S2. }
  destruct (Hpt j Hj) as (x & Hx & Px). destruct (Hpt j' Hj') as (y & Hy & Py). exists x, y. split; [done|]. split; [done|].
  pose (Z := λ t, nth (4 * k + t - 4) z (nofZ (a:=A) 0)). split.
  { rewrite (face_points_toks e lo hi m0 m1 (zk z k) Z j x g 1 Hin Px); [|intros h; unfold zk, Z; f_equal; lia].
    rewrite (face_points_toks e lo hi m0 m1 (zk z k) Z j' y g' 1 Hin Py); [|intros h; unfold zk, Z; f_equal; lia].
    apply fmap_Permutation. eapply touching_toks; [done|done|lia|done]. }
  split.
  { apply Forall_forall. intros o Hox. unfold face_points in Hox. apply elem_of_list_fmap in Hox as ([[l' j''] i'] & -> & Hv).
    apply face_vertices_lt in Hv as (? & ? & ?). rewrite Px by done. eauto. }
  destruct (Hl j Hj) as (x' & y' & _ & _ & _ & _ & Hget). rewrite Hget by done. rewrite HF by done.
  assert (get_bc m i b g = (row ← bcs e !! b; row !! g)) as E by (unfold get_bc; by rewrite He).
  rewrite <- E, Hr. cbn [fmap option_fmap option_map]. f_equal. unfold mend. rewrite !decide_False by lia.
  unfold mid_upd. rewrite decide_False; [done|].
  destruct (touching_ends lo hi j Hin Hj) as (_ & _ & T1 & T2). intros [-> | ->]; congruence.
Qed.
End walls.

(** The condition of a side that is not cut stays on faces inside the mesh too: of the element that does not end at that
    side, on the face it shares with its neighbour. *)
Theorem C61_walls_inside_refuted {A : arith} (bnd : Z) (m m' m3 : hexa (num A)) z bc1 bc2 f c1 c2 q i e b g r k :
  arith_laws A bnd → wf_mesh m → linear2d m → (∀ e, e ∈ elems m → curvature_ok e ∧ cut_across f e) →
  length z = (4 * q + 1)%nat → (1 ≤ q)%nat →
  (∀ k, (k < 6 * q)%nat → refs_within bnd (Z.of_nat (k * nel m)) 0 m) →
  conditions_given (nbc m) (Some bc1) c1 → conditions_given (nbc m) (Some bc2) c2 →
  (∀ b, (b < nbc m)%nat → c1 b = "P"%string ↔ c2 b = "P"%string) →
  (∀ e, e ∈ elems m → no_arcs e) ∨ q = 1%nat →
  extrude_mid m z bc1 bc2 f false = Ok (m', m3) →
  elems m !! i = Some e → (b < nbc m)%nat → (g < 4)%nat → ¬ side_cut f e g → get_bc m i b g = Some r → (k < q)%nat →
  ∃ p p' g' x y, p ≠ p' ∧ (g' < 6)%nat ∧ elems m3 !! p = Some x ∧ elems m3 !! p' = Some y ∧
    face_points x g ≡ₚ face_points y g' ∧ Forall is_Some (face_points x g) ∧ get_bc m3 p b g = Some r.
Proof.
  intros LA Hw Hlin He Hz Hq Hrefs [L1 C1] [L2 C2] HP Ha E Hi Hb Hg Hn Hr Hk.
  assert (∀ e, e ∈ elems m → four_points e) as H4 by (intros e0 Hin; by eapply linear_four).
  assert (∀ e, e ∈ elems m → cut_across f e) as Hcut by (intros e0 Hin; by apply He).
  destruct (result_ok bnd m z bc1 bc2 f false c1 c2 q LA Hw Hlin) as (es & m3' & E' & _ & Hres); try done.
  { intros e0 Hin. destruct (He e0 Hin) as [Hc Hx]. apply curvature_workable; [by apply H4|done|by apply cut_low]. }
  { intros b0 Hb0. by split; [apply C1|apply C2]. }
  rewrite E in E'. injection E' as -> ->.
  assert (cut_across f e) as Hc by (apply Hcut; by eapply elem_of_list_lookup_2).
  destruct (cut_orient f e Hc) as (lo & hi & Ho & Hin & _). destruct (cut_sides f e lo hi Hc Ho) as (_ & _ & Hsc & Hlo & Hhi).
  destruct (splits_sound lo hi) as [[(B1 & B2 & B3 & B4) Hnd] _]; [unfold splits; apply elem_of_app; by left|].
  assert ([s_hi (mid_sides lo hi); s_lo (mid_sides lo hi); s_l0 (mid_sides lo hi); s_l1 (mid_sides lo hi)] ≡ₚ range 4) as Hperm.
  { apply submseteq_Permutation_length_le; [done|]. apply NoDup_submseteq; [done|]. intros y Hy. apply elem_of_range.
    rewrite !elem_of_cons, elem_of_nil in Hy. by destruct Hy as [-> |[-> |[-> |[-> |[]]]]]. }
  assert (g = s_hi (mid_sides lo hi) ∨ g = s_lo (mid_sides lo hi)) as Hgs.
  { assert (g ∈ [s_hi (mid_sides lo hi); s_lo (mid_sides lo hi); s_l0 (mid_sides lo hi); s_l1 (mid_sides lo hi)]) as Hin4
      by (rewrite Hperm; by apply elem_of_range).
    rewrite !elem_of_cons, elem_of_nil in Hin4. specialize (Hsc g). tauto. }
  assert (touching (mid_sides lo hi) 0 (s_hi (mid_sides lo hi)) = Some (1, 1, s_lo (mid_sides lo hi))%nat ∧
          touching (mid_sides lo hi) 1 (s_lo (mid_sides lo hi)) = Some (1, 0, s_hi (mid_sides lo hi))%nat) as [T0 T1].
  { clear -Hin. unfold cuts in Hin. rewrite !elem_of_cons, elem_of_nil in Hin.
    destruct Hin as [Hin|[Hin|[Hin|[Hin|[]]]]]; injection Hin as -> ->; by vm_compute. }
  destruct Hgs as [-> | ->].
  - destruct (wall_between f z q c1 c2 m m3' Hw Hcut Hres k i e lo hi 0 1 b _ _ r Hk Hi Ho ltac:(lia) ltac:(lia) Hb Hg T0 Hr) as (x & y & X1 & X2 & X3).
    exists (sixth (nel m) k i 0), (sixth (nel m) k i 1), (s_lo (mid_sides lo hi)), x, y. unfold sixth in *. split_and!; try done; try lia; apply X3.
  - destruct (wall_between f z q c1 c2 m m3' Hw Hcut Hres k i e lo hi 1 0 b _ _ r Hk Hi Ho ltac:(lia) ltac:(lia) Hb Hg T1 Hr) as (x & y & X1 & X2 & X3).
    exists (sixth (nel m) k i 1), (sixth (nel m) k i 0), (s_hi (mid_sides lo hi)), x, y. unfold sixth in *. split_and!; try done; try lia; apply X3.
Qed.
Print Assumptions C61_walls_inside_refuted.

(** Sample: the box with a line between two parts, with an inflow and an outflow at the ends. *)
Example C61_refine_sample :
  match extrude_refine (A:=A64) split13 P_Split.z4 (Some ["v"]%string) (Some ["O"]%string) (Some [above]) (Some [height]) 0 false with
  | Ok m3 => (λ e, match bcs e with row :: _ => bt <$> row | [] => [] end) <$> elems m3 =
        [[""; "P"; "W"; "P"; "v"; ""]; [""; "P"; "W"; "P"; ""; "O"];
         ["W"; "P"; ""; "P"; "v"; ""]; ["W"; "P"; ""; "P"; ""; ""]; ["W"; "P"; ""; "P"; ""; ""]; ["W"; "P"; ""; "P"; ""; "O"];
         [""; "P"; ""; "P"; "v"; ""]; [""; "P"; ""; "P"; "v"; ""]; [""; "P"; ""; "P"; ""; ""]; [""; "P"; ""; "P"; ""; ""];
         [""; "P"; ""; "P"; ""; "O"]; [""; "P"; ""; "P"; ""; "O"]]%string
  | Raise _ => False
  end.
Proof. vm_compute. reflexivity. Qed.
Example C61_refine_no_internal_sample m3 :
  extrude_refine (A:=A64) split13 P_Split.z4 (Some ["v"]%string) (Some ["O"]%string) (Some [above]) (Some [height]) 0 false = Ok m3 →
  ¬ occurs (N:=num A64) m3 "E"%string.
Proof.
  intros E. refine (C61_refine_no_internal (A:=A64) (P:=num A64) split13 m3 P_Split.z4 (Some ["v"]%string) (Some ["O"]%string) [above] (Some [height]) 0
    (λ _, "v"%string) (λ _, "O"%string) C60_sample_wf _ _ _ E).
  - change (nbc split13) with 1%nat. split; [reflexivity|]. intros [|b] Hb; [reflexivity|lia].
  - change (nbc split13) with 1%nat. split; [reflexivity|]. intros [|b] Hb; [reflexivity|lia].
  - intros b _. unfold end_condition. split_and!; done.
Qed.
(** With extrude_mid the wall at the side y = 1 of the first element is also found inside. *)
Example C61_walls_sample m' m3 : extrude_mid (A:=A64) mid21 z8 ["P"]%string ["P"]%string midway false = Ok (m', m3) →
  ∃ p p' g' (x y : elem (num A64)) (r : bcrec (num A64)), p ≠ p' ∧ (g' < 6)%nat ∧ elems m3 !! p = Some x ∧ elems m3 !! p' = Some y ∧
    face_points (A:=A64) x 2 ≡ₚ face_points (A:=A64) y g' ∧ get_bc m3 p 0 2 = Some r ∧ bt r = "W"%string.
Proof.
  assert (conditions_given (nbc mid21) (Some ["P"]%string) (λ _, "P"%string)) as G1.
  { change (nbc mid21) with 1%nat. split; [reflexivity|]. intros [|b] Hb; [reflexivity|lia]. }
  assert (∀ e, e ∈ elems mid21 → curvature_ok (A:=A64) e ∧ cut_across (A:=A64) midway e) as G5 by (intros e He; by destruct (C44_sample_cut e He) as (? & ? & ?)).
  assert (∀ e, e ∈ elems mid21 → no_arcs (A:=A64) e) as G6 by (intros e He; by destruct (C44_sample_cut e He) as (? & ? & ?)).
  assert (∃ (e : elem (num A64)) (r : bcrec (num A64)), elems mid21 !! 0%nat = Some e ∧ get_bc mid21 0 0 2 = Some r ∧ String.eqb (bt r) "W" = true ∧
    side_low (A:=A64) midway e 2 = (false, false)) as (e & r & He & Hr & Ht & Hs).
  { assert (match elems mid21 !! 0%nat, get_bc mid21 0 0 2 with Some e, Some r => String.eqb (bt r) "W" &&
      negb (fst (side_low (A:=A64) midway e 2)) && negb (snd (side_low (A:=A64) midway e 2)) | _, _ => false end = true) as H by (vm_compute; reflexivity).
    destruct (elems mid21 !! 0%nat) as [e|]; [|discriminate H]. destruct (get_bc mid21 0 0 2) as [r|]; [|discriminate H]. exists e, r.
    split; [reflexivity|]. split; [reflexivity|]. apply andb_prop in H as [H H3]. apply andb_prop in H as [H1 H2]. split; [exact H1|].
    destruct (side_low (A:=A64) midway e 2) as [[|] [|]]; [discriminate H2|discriminate H2|discriminate H3|reflexivity]. }
  intros E.
  destruct (C61_walls_inside_refuted (A:=A64) bnd64 mid21 m' m3 z8 ["P"]%string ["P"]%string midway (λ _, "P"%string) (λ _, "P"%string) 2 0 e 0 2 r 0
    A64_laws C44_sample_wf C44_sample_linear2d G5 eq_refl ltac:(lia)) as (p & p' & g' & x & y & H1 & H2 & H3 & H4 & H5 & _ & H6).
  - apply (paired_refs (A:=A64)); [exact (proj1 C44_sample_linear2d)|exact C44_sample_paired|]. change (nel mid21) with 2%nat. unfold bnd64. cbn. lia.
  - exact G1.
  - exact G1.
  - intros b _. reflexivity.
  - left. exact G6.
  - exact E.
  - exact He.
  - change (nbc mid21) with 1%nat. lia.
  - lia.
  - intros [_ Hx]. apply Hx. rewrite Hs. reflexivity.
  - exact Hr.
  - lia.
  - exists p, p', g', x, y, r. apply String.eqb_eq in Ht. 
    split; [exact H1|]. split; [exact H2|]. split; [exact H3|]. split; [exact H4|]. split; [exact H5|]. split; [exact H6|exact Ht].
Qed.
(** The same with extrude_refine, if an element at the boundary is cut. *)
Definition split12 : hexa (num A64) := ok_or empty64
  (gen_box (A:=A64) "little" 1 2 (zf 0) (zf 1) (zf 0) (zf 2) [2;1;0;0;0]%nat
     (Some ["P"]%string) (Some ["P"]%string) (Some ["W"]%string) (Some ["v"]%string) true).
Definition is_ok {X} (r : res X) : bool := match r with Ok _ => true | Raise _ => false end.
Definition same_faceb (x y : elem f64) (g g' : nat) : bool :=
  forallb (λ p, existsb (same_pointb p) (face_points (A:=A64) y g')) (face_points (A:=A64) x g).
Lemma existsb_elem (l : list (option (f64 * f64 * f64))) p : existsb (same_pointb p) l = true → p ∈ l.
Proof. intros H. apply existsb_exists in H as (p' & Hin & H). apply same_pointb_eq in H as ->. by apply elem_of_list_In. Qed.
Theorem C61_refine_walls_inside_refuted : ∃ m3 (x y : elem (num A64)) (r : bcrec (num A64)),
  check_connectivity (A:=A64) tol64 split12 = Ok true ∧
  extrude_refine (A:=A64) split12 P_Split.z4 None None (Some [above]) (Some [nlit 1 2]) 0 false = Ok m3 ∧
  elems m3 !! 2%nat = Some x ∧ elems m3 !! 3%nat = Some y ∧ (∀ p, p ∈ face_points (A:=A64) y 0 → p ∈ face_points (A:=A64) x 2) ∧
  get_bc m3 3 0 0 = Some r ∧ bt r = "W"%string.
Proof.
  destruct (extrude_refine (A:=A64) split12 P_Split.z4 None None (Some [above]) (Some [nlit 1 2]) 0 false) as [m3|] eqn:E.
  2: { exfalso. assert (is_ok (extrude_refine (A:=A64) split12 P_Split.z4 None None (Some [above]) (Some [nlit 1 2]) 0 false) = true) as X by (vm_compute; reflexivity).
    rewrite E in X. discriminate X. }
  assert (match extrude_refine (A:=A64) split12 P_Split.z4 None None (Some [above]) (Some [nlit 1 2]) 0 false with
    | Ok m => match elems m !! 2%nat, elems m !! 3%nat, get_bc m 3 0 0 with
       Some x, Some y, Some r => same_faceb y x 0 2 && String.eqb (bt r) "W" | _, _, _ => false end
    | Raise _ => false end = true) as H by (vm_compute; reflexivity).
  rewrite E in H. destruct (elems m3 !! 2%nat) as [x|] eqn:Hx; [|discriminate H]. destruct (elems m3 !! 3%nat) as [y|] eqn:Hy; [|discriminate H].
  destruct (get_bc m3 3 0 0) as [r|] eqn:Hr; [|discriminate H]. apply andb_prop in H as [H1 H2]. apply String.eqb_eq in H2.
  exists m3, x, y, r. split; [vm_compute; reflexivity|]. split; [reflexivity|]. split; [exact Hx|]. split; [exact Hy|]. split; [|split; [exact Hr|exact H2]].
  intros p Hp. apply existsb_elem. exact (forallb_elem _ _ H1 p Hp).
Qed.
Print Assumptions C61_refine_walls_inside_refuted.
