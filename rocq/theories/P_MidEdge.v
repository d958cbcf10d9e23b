(** C71: the curved edges of the elements that extrude_mid makes. *)
From Coq Require Import Lia Reals Lra.
From Verif Require Import Base Mesh Core Tools Curve Mid Float FloatLaws MeshLemmas MeshSpec CheckProofs OpsProofs GeoLaws BoxProofs
  ExtrudeSpec ExtrudeProofs MidSpec MidProofs MidBlock MidMesh MidFinal MidEdgeSpec MidEdge MidEdgeMesh MidEdgeFit P_Mid Samples.
Open Scope Z_scope.

(** Every edge is straight or bent as [expected] says: sides that are not cut keep their shape, the halves of cut sides are
    [side_halves] of them, the cut is [bend], and the edges in z are straight. Sides are straight or given by their middle. *)
Theorem C71_shape {A : arith} (m m' m3 : hexa (num A)) z bc1 bc2 f internal q :
  wf_mesh m → linear2d m → (∀ e, e ∈ elems m → curvature_ok e ∧ cut_across f e ∧ plain_sides e) →
  length z = (4 * q + 1)%nat → extrude_mid m z bc1 bc2 f internal = Ok (m', m3) →
  ∀ k i e n c, (k < q)%nat → elems m !! i = Some e → (n < 6)%nat → (c < 12)%nat →
    let curve := expected (cut_of f e) (λ h, nth (4 * k + h) z (nofZ 0)) n c in
    ∃ x, elems m3 !! sixth (nel m) k i n = Some x ∧ ccurv x !! c = Some (type_of curve) ∧ edge_middle x c = curve.
Proof.
  intros Hw Hlin He Hz E. apply (mesh_edges m z bc1 bc2 f internal m' m3 q Hz); [|done].
  intros e Hin. destruct (He e Hin) as ((C1 & C2 & C3 & _) & Hx & Hp). split_and!; try done; by eapply linear_four.
Qed.

(** Elements agree about the edges they share, if the elements of the 2D mesh do. *)
Theorem C71_fit {A : arith} (bnd : Z) (m m' m3 : hexa (num A)) z bc1 bc2 f internal c1 c2 q :
  arith_laws A bnd → wf_mesh m → linear2d m → (∀ e, e ∈ elems m → curvature_ok e ∧ cut_across f e ∧ plain_sides e) →
  length z = (4 * q + 1)%nat → (1 ≤ q)%nat → NoDup z →
  (∀ k, (k < 6 * q)%nat → refs_within bnd (Z.of_nat (k * nel m)) 0 m) →
  conditions_given (nbc m) (Some bc1) c1 → conditions_given (nbc m) (Some bc2) c2 →
  (∀ b, (b < nbc m)%nat → c1 b = "P"%string ↔ c2 b = "P"%string) →
  sides_agree m → cuts_apart f m → no_twins m →
  extrude_mid m z bc1 bc2 f internal = Ok (m', m3) → edges_fit m3.
Proof.
  intros LA Hw Hlin He Hz Hq Hnd Hrefs G1 G2 HP Hs Ha Ht E.
  assert (∀ e, e ∈ elems m → four_points e) as H4 by (intros e Hin; by eapply linear_four).
  destruct (C44_elements bnd m z bc1 bc2 f internal c1 c2 q LA Hw Hlin) as (m'' & m3' & E' & _ & Hst & _); try done.
  { intros e Hin. by destruct (He e Hin) as (? & ? & ?). }
  { left. intros e Hin. destruct (He e Hin) as (_ & _ & [Hp _]). intros c Hc. by destruct (Hp c Hc) as [->| ->]. }
  assert (m3' = m3) as ->. { rewrite E in E'. assert (∀ (a b c d : hexa (num A)), Ok (a, b) = Ok (c, d) → d = b) as Hok by (intros a b c d H'; by injection H'). by apply Hok in E'. }
  clear E'. destruct Hst as (_ & S2 & S3 & _ & _ & _ & Sel). assert ((length z - 1) / 4 = q)%nat as Eq.
  { rewrite Hz. replace (4 * q + 1 - 1)%nat with (q * 4)%nat by lia. apply Nat.div_mul. lia. } rewrite Eq in S2, Sel.
  pose proof (C71_shape m m' m3 z bc1 bc2 f internal q Hw Hlin He Hz E) as Hsh.
  assert (length (elems m) = nel m) as Hlen by apply Hw.
  (* an edge of the result *)
  assert (∀ p x c, elems m3 !! p = Some x → (c < 12)%nat → ∃ i e K P H P' H', elems m !! i = Some e ∧ (H < length z)%nat ∧ (H' < length z)%nat ∧ descr (cut_of f e) K P H P' H' ∧
    ccurv x !! c = Some (type_of (edge_middle x c)) ∧ edge_middle x c = ('(u, v) ← curve (cut_of f e) K; Some (u, v, zmid z H H')) ∧
    ∀ a b, edge_at x c a b → a = (P.1, P.2, nth H z (nofZ 0)) ∧ b = (P'.1, P'.2, nth H' z (nofZ 0))) as Hedge.
  { intros p x c Hx Hc.
    assert (p < 6 * nel m * q)%nat as Hp by (rewrite <- S2, <- S3; by eapply lookup_lt_Some).
    destruct (sixth_div (nel m) q p Hp) as (k & i & n & (Hk & Hi & Hn) & ->).
    destruct (lookup_lt_is_Some_2 (elems m) i) as [e Hei]; [lia|]. pose proof (elem_of_list_lookup_2 _ _ _ Hei) as Hin.
    destruct (He e Hin) as (_ & Hcut & Hplain).
    destruct (Hsh k i e n c Hk Hei Hn Hc) as (x' & Hx' & Px & Mx). rewrite Hx in Hx'. apply (inj Some) in Hx' as <-.
    destruct (Sel k i e n Hk Hei Hn) as (x' & Hx' & _ & Hv). rewrite Hx in Hx'. apply (inj Some) in Hx' as <-.
    set (d := cut_of f e) in *.
    destruct (edge_descr (low f e 0 0) (low f e 0 1) (low f e 1 0) (low f e 1 1) (at_corner d) (at_middle d) (bent d) n c) as (l & j & g & l' & j' & g' & Ec & (B1 & B2 & B3 & B4 & B5 & B6) & Hh & Hh' & D); [|done|done|].
    { destruct Hcut as [(? & ? & ?)|(? & ? & ?)]; [left|right]; done. }
    change (CutElem (pick4 (low f e 0 0) (low f e 0 1) (low f e 1 0) (low f e 1 1)) (at_corner d) (at_middle d) (bent d)) with d in *.
    exists i, e, (kind_of d n c), (vxy d n l j g), (4 * k + vh d n l j g)%nat, (vxy d n l' j' g'), (4 * k + vh d n l' j' g')%nat.
    split; [done|]. split; [lia|]. split; [lia|]. split.
    { revert D. fold d. destruct (kind_of d n c); cbn [descr]; [intros [? ?]; split; [done|lia]|intros (? & ? & ?); split_and!; [lia|done|done]|intros [? ?]; split; [lia|done]|done]. }
    split; [by rewrite Mx|]. split.
    { rewrite Mx. exact (expected_kind d z k n c l j g l' j' g' Ec). }
    assert (∀ l j g, (l < 2)%nat → (j < 2)%nat → (g < 2)%nat → point x l j g = Some ((vxy d n l j g).1, (vxy d n l j g).2, nth (4 * k + vh d n l j g) z (nofZ 0))) as Hpt.
    { clear - Hv Hcut H4 Hin. intros l j g Hl Hj Hg. specialize (Hv l j g Hl Hj Hg). unfold vxy, vh.
      assert (is_low d j g = low f e j g) as Elow. { assert ((j = 0 ∨ j = 1) ∧ (g = 0 ∨ g = 1))%nat as [[-> | ->] [-> | ->]] by lia; done. }
      rewrite Elow. destruct (place n l (low f e j g)) as [a h]. cbn [fst snd]. destruct Hv as (px & py & pz & Hp & ->). destruct a.
      - assert (at_middle d (cut_side_at d j g) = (px, py, pz)) as ->; [|done]. eapply cut_point_at; eauto.
      - assert (at_corner d j g = (px, py, pz)) as ->; [|done].
        assert (at_corner d j g = corner_of e j g) as ->. { assert ((j = 0 ∨ j = 1) ∧ (g = 0 ∨ g = 1))%nat as [[-> | ->] [-> | ->]] by lia; done. }
        unfold corner_of. by rewrite Hp. }
    intros a b (l2 & j2 & g2 & l2' & j2' & g2' & Ec' & Pa & Pb). rewrite Ec in Ec'. injection Ec' as <- <- <- <- <- <-.
    rewrite Hpt in Pa by lia. rewrite Hpt in Pb by lia. apply (inj Some) in Pa, Pb. by subst a b. }
  intros p p' x x' c c' a b Hx Hx' Hc Hc' Hat Hat'.
  destruct (Hedge p x c Hx Hc) as (i & e & K & P & H & Q & J & Ei & HL & HL' & D & Pl & Em & Hends).
  destruct (Hedge p' x' c' Hx' Hc') as (i' & e' & K' & P' & H' & Q' & J' & Ei' & ML & ML' & D' & Pl' & Em' & Hends').
  assert (∀ h h', (h < length z)%nat → (h' < length z)%nat → nth h z (nofZ 0) = nth h' z (nofZ 0) → h = h') as Hinj.
  { intros h h' Hh Hh' En. apply NoDup_ListNoDup in Hnd. by apply (proj1 (NoDup_nth z (nofZ 0)) Hnd). }
  assert (∀ (P Q : num A * num A) h h', (h < length z)%nat → (h' < length z)%nat → (P.1, P.2, nth h z (nofZ 0)) = (Q.1, Q.2, nth h' z (nofZ 0)) → P = Q ∧ h = h') as Hpt.
  { intros [P1 P2] [Q1 Q2] h h' Hh Hh' En. cbn [fst snd] in En. apply pair_equal_spec in En as [En1 En2]. split; [done|]. by apply Hinj. }
  assert (edge_middle x c = edge_middle x' c') as Emid.
  { rewrite Em, Em'.
    destruct (Hends a b Hat) as [-> ->].
    assert (curve (cut_of f e) K = curve (cut_of f e') K' ∧ zmid z H J = zmid z H' J') as [-> ->]; [|done].
    assert (∀ e, e ∈ elems m → four_points e ∧ cut_across f e) as Hgood by (intros y Hy; split; [by apply H4|by apply He]).
    destruct Hat' as [Hat'|Hat']; destruct (Hends' _ _ Hat') as [X Y]; apply Hpt in X as [-> ->]; try done; apply Hpt in Y as [-> ->]; try done.
    - split; [|done]. by eapply (curve_fit f m i i' e e').
    - split; [|apply zmid_sym]. apply descr_sym in D'. by eapply (curve_fit f m i i' e e'). }
  split; [|split; [|done]].
  - unfold plain_edge. rewrite Pl. destruct (edge_middle x c); [by right|by left].
  - by rewrite Pl, Pl', Emid.
Qed.

(** In float64, up to 2^53 elements. *)
Theorem C71_fit_float64 (m m' m3 : hexa (num A64)) z bc1 bc2 f internal c1 c2 q :
  wf_mesh m → linear2d (A:=A64) m → (∀ e, e ∈ elems m → curvature_ok (A:=A64) e ∧ cut_across (A:=A64) f e ∧ plain_sides (A:=A64) e) →
  length z = (4 * q + 1)%nat → (1 ≤ q)%nat → NoDup z → paired (A:=A64) m → Z.of_nat (6 * nel m * q) <= 2 ^ 53 →
  conditions_given (nbc m) (Some bc1) c1 → conditions_given (nbc m) (Some bc2) c2 →
  (∀ b, (b < nbc m)%nat → c1 b = "P"%string ↔ c2 b = "P"%string) →
  sides_agree (A:=A64) m → cuts_apart (A:=A64) f m → no_twins (A:=A64) m →
  extrude_mid (A:=A64) m z bc1 bc2 f internal = Ok (m', m3) → edges_fit (A:=A64) m3.
Proof.
  intros Hw Hlin He Hz Hq Hnd Hp Hb. apply (C71_fit (A:=A64) bnd64 m m' m3 z bc1 bc2 f internal c1 c2 q A64_laws Hw Hlin He Hz Hq Hnd).
  apply (paired_refs (A:=A64)); [apply Hlin|exact Hp|]. etransitivity; [|exact Hb]. apply Nat2Z.inj_le. lia.
Qed.

(** ** The halves of a bent side, over the reals *)
(** The parabola through p (at 0), mid (at 1/2) and q (at 1). *)
Definition parabola (p mid q : R * R) (t : R) : R * R :=
  let at1 (a b c : R) := ((1 - t) * (1 - 2 * t) * a + 4 * t * (1 - t) * b + t * (2 * t - 1) * c)%R in
  (at1 (fst p) (fst mid) (fst q), at1 (snd p) (snd mid) (snd q)).
(** The middle is as far from one end as from the other. *)
Definition equidistant (p mid q : R * R) : Prop :=
  ((fst mid - fst p) ^ 2 + (snd mid - snd p) ^ 2 = (fst mid - fst q) ^ 2 + (snd mid - snd q) ^ 2)%R.
Definition halves (lo mid hi : R * R) : (R * R) * (R * R) :=
  side_halves (A:=AR) (fst lo, snd lo, 0%R) (fst mid, snd mid, 0%R) (fst hi, snd hi, 0%R).
(** The halves of a cut side are parts of the parabola of the side exactly if its middle is equidistant from its ends. *)
Theorem C71_halves_real (lo mid hi : R * R) : lo ≠ hi →
  let '(near, far) := halves lo mid hi in
  (∀ t, parabola lo near mid t = parabola lo mid hi (t / 2) ∧ parabola mid far hi t = parabola lo mid hi ((1 + t) / 2)) ↔ equidistant lo mid hi.
Proof.
  destruct lo as [xl yl], mid as [xm ym], hi as [xh yh]. intros Hne.
  assert ((xh - xl) ^ 2 + (yh - yl) ^ 2 ≠ 0)%R as Hd.
  { intros H0. apply Hne. destruct (Rplus_sqr_eq_0 (xh - xl) (yh - yl)) as [E1 E2]; [unfold Rsqr; lra|]. f_equal; lra. }
  unfold halves, side_halves, equidistant, nlit, nsq. cbn [fst snd]. cbn [ndiv nsub nmul nadd nofZ AR].
  set (D := ((xh - xl) * (xh - xl) + (yh - yl) * (yh - yl))%R). assert (D ≠ 0)%R as HD by (unfold D; nra).
  set (s := (((xh - xl) * (yl - ym) - (xl - xm) * (yh - yl)) / D)%R).
  assert (s * D = (xh - xl) * (yl - ym) - (xl - xm) * (yh - yl))%R as Hs by (unfold s; field; exact HD). clearbody s.
  cbv zeta. unfold parabola. cbn [fst snd].
  split.
  - intros H. destruct (H (1/2)%R) as [H1 _]. apply pair_equal_spec in H1 as [H1 H2].
    assert (xm - (xl + xh) / 2 = s * (yh - yl))%R as E1 by lra.
    assert (ym - (yl + yh) / 2 = - (s * (xh - xl)))%R as E2 by lra.
    assert (xm = (xl + xh) / 2 + s * (yh - yl))%R as -> by lra. assert (ym = (yl + yh) / 2 - s * (xh - xl))%R as -> by lra. field.
  - intros He.
    assert ((xm - (xl + xh) / 2) * (xh - xl) + (ym - (yl + yh) / 2) * (yh - yl) = 0)%R as Ht by lra.
    set (u := (xm - (xl + xh) / 2 - s * (yh - yl))%R). set (v := (ym - (yl + yh) / 2 + s * (xh - xl))%R).
    assert (u * (xh - xl) + v * (yh - yl) = 0)%R as K1 by (unfold u, v; lra).
    assert (u * (yh - yl) - v * (xh - xl) = 0)%R as K2. { unfold u, v. transitivity ((xl - xm) * - (yh - yl) - (xh - xl) * (ym - yl) - s * D)%R; [unfold D; field|rewrite Hs; ring]. }
    assert (u * D = 0)%R as U. { transitivity ((u * (xh - xl) + v * (yh - yl)) * (xh - xl) + (u * (yh - yl) - v * (xh - xl)) * (yh - yl))%R; [unfold D; ring|rewrite K1, K2; ring]. }
    assert (v * D = 0)%R as V. { transitivity ((u * (xh - xl) + v * (yh - yl)) * (yh - yl) - (u * (yh - yl) - v * (xh - xl)) * (xh - xl))%R; [unfold D; ring|rewrite K1, K2; ring]. }
    apply Rmult_integral in U as [U|]; [|done]. apply Rmult_integral in V as [V|]; [|done].
    assert (xm = (xl + xh) / 2 + s * (yh - yl))%R as -> by (unfold u in U; lra). assert (ym = (yl + yh) / 2 - s * (xh - xl))%R as -> by (unfold v in V; lra).
    intros t. split; f_equal; field.
Qed.
(** The middle of the cut is the centre of the patch that the four sides span: half the sum of the middles of the sides less a
    quarter of the sum of the corners. *)
Theorem C71_cut_real (ma mb mhi ha hb mlo la lb : R * R * R) :
  let centre (c : R * R * R → R) := ((c ma + c mb + c mhi + c mlo) / 2 - (c ha + c hb + c la + c lb) / 4)%R in
  bend (A:=AR) ma mb mhi ha hb mlo la lb = (centre (λ p, p.1.1), centre (λ p, p.1.2)).
Proof.
  destruct ma as [[? ?] ?], mb as [[? ?] ?], mhi as [[? ?] ?], ha as [[? ?] ?], hb as [[? ?] ?], mlo as [[? ?] ?], la as [[? ?] ?], lb as [[? ?] ?].
  intros c. subst c. unfold bend, vadd, vsub, vmul, nlit. cbn [ndiv nsub nmul nadd nofZ AR fst snd]. apply (f_equal2 pair); match goal with |- ?a = ?b => change (@eq R a b) end; field.
Qed.

(** Samples: the 2 x 1 box of C44 with the side between the two elements and the upper side of the first one bent. *)
Definition bend_at (i n : nat) (x y : f64) (m : hexa (num A64)) : hexa (num A64) :=
  set_elems (alter (λ e : elem f64, put3 (A:=A64) n (x, y, zf 0) (set_type (A:=A64) n "m" e)) i (elems m)) m.
Definition bent21 : hexa (num A64) :=
  bend_at 0 1 (nlit (A:=A64) 5 4) (nlit (A:=A64) 1 2) (bend_at 1 3 (nlit (A:=A64) 5 4) (nlit (A:=A64) 1 2) (bend_at 0 2 (nlit (A:=A64) 1 2) (nlit (A:=A64) 5 4) mid21)).
(** The hypotheses about the sides, as tests. *)
Definition same2 (p q : f64 * f64) : bool := f64_same p.1 q.1 && f64_same p.2 q.2.
Lemma same2_eq p q : same2 p q = true → p = q.
Proof. destruct p, q. unfold same2. cbn. rewrite andb_true_iff. intros [H1 H2]. apply f64_same_eq in H1, H2. by subst. Qed.
Lemma same2_refl p q : p = q → same2 p q = true.
Proof. intros ->. unfold same2. by rewrite !f64_same_refl. Qed.
Definition side_xy (e : elem f64) (n : nat) : (f64 * f64) * (f64 * f64) :=
  let '((j, i), (j', i')) := side_ends n in (xy (A:=A64) (corner_of (A:=A64) e j i), xy (A:=A64) (corner_of (A:=A64) e j' i')).
Definition same_endsb (e : elem f64) n (e' : elem f64) n' : bool :=
  let '(p, q) := side_xy e n in let '(p', q') := side_xy e' n' in (same2 p p' && same2 q q') || (same2 p q' && same2 q p').
Lemma same_endsb_iff e n e' n' : same_endsb e n e' n' = true ↔ same_side_ends (A:=A64) e n e' n'.
Proof.
  unfold same_endsb, same_side_ends, side_at, side_xy. destruct (side_ends n) as [[j i] [j1 i1]], (side_ends n') as [[j' i'] [j1' i1']].
  rewrite orb_true_iff, !andb_true_iff. split.
  - intros [[H1 H2]|[H1 H2]]; apply same2_eq in H1, H2; do 2 eexists; (split; [split; reflexivity|]); [left|right]; by split.
  - intros (P & Q & [-> ->] & [[H1 H2]|[H1 H2]]); [left|right]; split; by apply same2_refl.
Qed.
Definition same_midb (a b : option (f64 * f64 * f64)) : bool :=
  match a, b with Some p, Some q => same2 (xy (A:=A64) p) (xy (A:=A64) q) | None, None => true | _, _ => false end.
Definition sidesb (f : f64 → f64 → f64) (es : list (elem f64)) : bool :=
  forallb (λ e, forallb (λ e', forallb (λ n, forallb (λ n',
    (negb (same_endsb e n e' n') || same_midb (edge_middle (A:=A64) e n) (edge_middle (A:=A64) e' n')) &&
    (negb (negb (eqb (side_low (A:=A64) f e n).1 (side_low (A:=A64) f e n).2)) ||
     (forallb (λ c, negb (same2 (xy (A:=A64) (middle_of (A:=A64) e n)) (xy (A:=A64) (corner_of (A:=A64) e' c.1 c.2)))) [(0, 0); (0, 1); (1, 0); (1, 1)]%nat &&
      (negb (same2 (xy (A:=A64) (middle_of (A:=A64) e n)) (xy (A:=A64) (middle_of (A:=A64) e' n'))) ||
       same_endsb e n e' n' || eqb (side_low (A:=A64) f e' n').1 (side_low (A:=A64) f e' n').2)))) (range 4)) (range 4)) es) es.
Lemma sidesb_ok f (m : hexa (num A64)) : sidesb f (elems m) = true → sides_agree (A:=A64) m ∧ cuts_apart (A:=A64) f m.
Proof.
  intros H.
  assert (∀ e e' n n', e ∈ elems m → e' ∈ elems m → (n < 4)%nat → (n' < 4)%nat →
    (same_endsb e n e' n' = true → same_midb (edge_middle (A:=A64) e n) (edge_middle (A:=A64) e' n') = true) ∧
    ((side_low (A:=A64) f e n).1 ≠ (side_low (A:=A64) f e n).2 →
      (∀ c, c ∈ [(0, 0); (0, 1); (1, 0); (1, 1)]%nat → same2 (xy (A:=A64) (middle_of (A:=A64) e n)) (xy (A:=A64) (corner_of (A:=A64) e' c.1 c.2)) = false) ∧
      (same2 (xy (A:=A64) (middle_of (A:=A64) e n)) (xy (A:=A64) (middle_of (A:=A64) e' n')) = true → (side_low (A:=A64) f e' n').1 ≠ (side_low (A:=A64) f e' n').2 → same_endsb e n e' n' = true))) as K.
  { intros e e' n n' He He' Hn Hn'. pose proof (forallb_elem _ _ H e He) as H1. cbv beta in H1. pose proof (forallb_elem _ _ H1 e' He') as H2. cbv beta in H2.
    pose proof (forallb_elem _ _ H2 n (proj2 (elem_of_range n 4) Hn)) as H3. cbv beta in H3. pose proof (forallb_elem _ _ H3 n' (proj2 (elem_of_range n' 4) Hn')) as H4. cbv beta in H4.
    apply andb_prop in H4 as [H4 H5]. split.
    - intros E. rewrite E in H4. exact H4.
    - intros Hc. assert (eqb (side_low (A:=A64) f e n).1 (side_low (A:=A64) f e n).2 = false) as Ec.
      { destruct (eqb_spec (side_low (A:=A64) f e n).1 (side_low (A:=A64) f e n).2); done. }
      rewrite Ec in H5. cbn [negb orb] in H5. apply andb_prop in H5 as [H5 H6]. split.
      + intros c Hc'. pose proof (forallb_elem _ _ H5 c Hc') as X. cbv beta in X. by apply negb_true_iff in X.
      + intros E Hc'. rewrite E in H6. cbn [negb orb] in H6. apply orb_prop in H6 as [H6|H6]; [done|].
        destruct (eqb_spec (side_low (A:=A64) f e' n').1 (side_low (A:=A64) f e' n').2); done. }
  split.
  - intros e e' n n' He He' Hn Hn' Hs. apply same_endsb_iff in Hs. destruct (K e e' n n' He He' Hn Hn') as [K1 _]. specialize (K1 Hs). unfold same_midb in K1.
    destruct (edge_middle (A:=A64) e n), (edge_middle (A:=A64) e' n'); try done. apply same2_eq in K1. exact (f_equal Some K1).
  - intros e e' n He He' [Hn Hc]. split.
    + intros j i Hj Hi E. destruct (K e e' n 0%nat He He' Hn ltac:(lia)) as [_ K1]. destruct (K1 Hc) as [K2 _].
      assert ((j, i) ∈ [(0, 0); (0, 1); (1, 0); (1, 1)]%nat) as Hin.
      { assert ((j = 0 ∨ j = 1) ∧ (i = 0 ∨ i = 1))%nat as [[-> | ->] [-> | ->]] by lia; repeat (first [by left|right]). }
      specialize (K2 (j, i) Hin). cbn [fst snd] in K2. rewrite (same2_refl _ _ E) in K2. done.
    + intros n' [Hn' Hc'] E. apply same_endsb_iff. destruct (K e e' n n' He He' Hn Hn') as [_ K1]. destruct (K1 Hc) as [_ K2]. apply K2; [|done]. by apply same2_refl.
Qed.
Example C71_sample_wf : wf_mesh bent21.
Proof. apply wf_meshb_ok. vm_compute. reflexivity. Qed.
Example C71_sample_linear2d : linear2d (A:=A64) bent21.
Proof.
  split; [by vm_compute|]. split; [by vm_compute|]. split; [by vm_compute|].
  split; [exists 2%nat; eexists; split; [vm_compute; reflexivity|lia]|].
  assert (forallb (λ e : elem f64, bool_decide (eshape e = (2,2,1)%nat) &&
     (length (ccurv e) =? 12)%nat && (length (curv e) =? 12)%nat) (elems bent21) = true) as H by (vm_compute; reflexivity).
  intros e He. pose proof (forallb_elem _ _ H e He) as H'. cbv beta in H'.
  rewrite !andb_true_iff, !Nat.eqb_eq in H'. destruct H' as ((H1 & H2) & H3). split; [|done].
  by apply bool_decide_eq_true in H1.
Qed.
Example C71_sample_paired : paired (A:=A64) bent21.
Proof. apply pairedb_ok. vm_compute. reflexivity. Qed.
Example C71_sample_cut e : e ∈ elems bent21 → curvature_ok (A:=A64) e ∧ cut_across (A:=A64) midway e ∧ plain_sides (A:=A64) e.
Proof.
  assert (forallb (λ e : elem f64, (length (ccurv e) =? 12)%nat && (length (curv e) =? 12)%nat && forallb (λ r : list f64, (length r =? 5)%nat) (curv e) &&
     forallb (λ t, String.eqb t "" || String.eqb t "m") (ccurv e) && forallb (String.eqb "") (drop 8 (ccurv e)) &&
     (low (A:=A64) midway e 0 0 && low (A:=A64) midway e 0 1 && negb (low (A:=A64) midway e 1 0) && negb (low (A:=A64) midway e 1 1))) (elems bent21) = true) as H
    by (vm_compute; reflexivity).
  intros He. pose proof (forallb_elem _ _ H e He) as H'. cbv beta in H'. rewrite !andb_true_iff, !Nat.eqb_eq, !negb_true_iff in H'.
  destruct H' as (((((H1 & H2) & H3) & H4) & H9) & (((H5 & H6) & H7) & H8)).
  assert (∀ c t, ccurv e !! c = Some t → t = ""%string ∨ t = "m"%string) as Ht.
  { intros c t Hc. pose proof (forallb_elem _ _ H4 t (elem_of_list_lookup_2 _ _ _ Hc)) as X. apply orb_prop in X as [X|X]; apply String.eqb_eq in X; auto. }
  split; [split_and!; [done|done| |]|split; [|split]].
  - intros row Hr. pose proof (forallb_elem _ _ H3 row Hr) as X. by apply Nat.eqb_eq in X.
  - intros c _ Hc. by apply Ht in Hc as [Hc|Hc].
  - right. rewrite H5, H6, H7, H8. split; [reflexivity|]. split; [reflexivity|]. discriminate.
  - intros c Hc. destruct (lookup_lt_is_Some_2 (ccurv e) c) as [t Et]; [eapply Nat.lt_le_trans; [|apply Nat.eq_le_incl; symmetry; exact H1]; lia|]. unfold plain_edge. rewrite Et. destruct (Ht c t Et) as [->| ->]; [by left|by right].
  - intros c Hc. destruct (lookup_lt_is_Some_2 (ccurv e) c) as [t Et]; [eapply Nat.lt_le_trans; [|apply Nat.eq_le_incl; symmetry; exact H1]; lia|]. rewrite Et. f_equal.
    assert (drop 8 (ccurv e) !! (c - 8)%nat = Some t) as Ed by (rewrite lookup_drop; by replace (8 + (c - 8))%nat with c by lia).
    pose proof (forallb_elem _ _ H9 t (elem_of_list_lookup_2 _ _ _ Ed)) as X. by apply String.eqb_eq in X.
Qed.
Example C71_sample_sides : sides_agree (A:=A64) bent21 ∧ cuts_apart (A:=A64) midway bent21.
Proof. apply sidesb_ok. vm_compute. reflexivity. Qed.
Example C71_sample_twins : no_twins (A:=A64) bent21.
Proof.
  intros i i' e e' He He' H. assert (i < 2)%nat as Hi by exact (lookup_lt_Some _ _ _ He). assert (i' < 2)%nat as Hi' by exact (lookup_lt_Some _ _ _ He').
  destruct (decide (i = i')) as [|Hne]; [done|]. exfalso.
  assert (match elems bent21 !! i, elems bent21 !! i' with Some e, Some e' =>
     existsb (λ c, negb (existsb (λ c', same2 (xy (A:=A64) (corner_of (A:=A64) e c.1 c.2)) (xy (A:=A64) (corner_of (A:=A64) e' c'.1 c'.2))) [(0, 0); (0, 1); (1, 0); (1, 1)]%nat)) [(0, 0); (0, 1); (1, 0); (1, 1)]%nat
     | _, _ => false end = true) as K.
  { destruct i as [|[|]], i' as [|[|]]; try lia; vm_compute; reflexivity. }
  rewrite He, He' in K. apply existsb_exists in K as ([j k] & Hc & K). apply negb_true_iff in K. cbn [fst snd] in K.
  assert (j < 2 ∧ k < 2)%nat as [Hj Hk]. { cbn in Hc. destruct Hc as [[= <- <-]|[[= <- <-]|[[= <- <-]|[[= <- <-]|[]]]]]; lia. }
  destruct (H j k Hj Hk) as (j' & k' & Hj' & Hk' & E). apply not_true_iff_false in K. apply K. apply existsb_exists. exists (j', k'). split.
  - assert ((j' = 0 ∨ j' = 1) ∧ (k' = 0 ∨ k' = 1))%nat as [[-> | ->] [-> | ->]] by lia; cbn; tauto.
  - cbn [fst snd]. by apply same2_refl.
Qed.
Lemma z8_nodup : NoDup z8.
Proof.
  apply NoDup_ListNoDup, (NoDup_nth z8 (zf 0)). change (length z8) with 9%nat. intros i j Hi Hj E.
  assert (f64_same (nth i z8 (zf 0)) (nth j z8 (zf 0)) = true) as K by (rewrite E; apply f64_same_refl). clear E.
  do 9 (destruct i as [|i]; [do 9 (destruct j as [|j]; [first [reflexivity|exfalso; vm_compute in K; discriminate]|]); lia|]). lia.
Qed.
Example C71_sample :
  ∃ m' m3, extrude_mid (A:=A64) bent21 z8 ["P"]%string ["P"]%string midway true = Ok (m', m3) ∧ edges_fit (A:=A64) m3 ∧ ncurv m3 = 88.
Proof.
  assert (conditions_given (nbc bent21) (Some ["P"]%string) (λ _, "P"%string)) as G1.
  { change (nbc bent21) with 1%nat. split; [reflexivity|]. intros [|b] Hb; [reflexivity|lia]. }
  assert (match extrude_mid (A:=A64) bent21 z8 ["P"]%string ["P"]%string midway true with Ok (_, m3) => ncurv m3 =? 88 | Raise _ => false end = true) as Hrun by (vm_compute; reflexivity).
  destruct (extrude_mid (A:=A64) bent21 z8 ["P"]%string ["P"]%string midway true) as [[m' m3]|] eqn:E; [|discriminate Hrun].
  exists m', m3. split; [reflexivity|]. split; [|by apply Z.eqb_eq in Hrun].
  refine (C71_fit_float64 bent21 m' m3 z8 ["P"]%string ["P"]%string midway true (λ _, "P"%string) (λ _, "P"%string) 2
    C71_sample_wf C71_sample_linear2d C71_sample_cut _ _ z8_nodup C71_sample_paired _ G1 G1 _ (proj1 C71_sample_sides) (proj2 C71_sample_sides) C71_sample_twins E).
  - reflexivity.
  - lia.
  - change (nel bent21) with 2%nat. cbn. lia.
  - intros b _. reflexivity.
Qed.
Print Assumptions C71_shape.
Print Assumptions C71_fit.
Print Assumptions C71_fit_float64.
Print Assumptions C71_halves_real.
Print Assumptions C71_cut_real.
