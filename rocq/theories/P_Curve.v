(** Theorems about rotations, curved edges and transformations of the plane: C39 to C42, C58, C59. *)
From Coq Require Import Lia Reals Lra Psatz.
From Verif Require Import Base Mesh MeshLemmas MeshSpec ExtrudeSpec Core Tools Float Curve CurveSpec CurveProofs.
Open Scope Z_scope.

(** A sample: the square with corners (1, 0), (3, 0), (3, 2), (1, 2). Its first edge is an arc of radius 2, its second
    edge is given by a midpoint and its third edge lies on a sphere. *)
Definition blank : list R := [0; 0; 0; 0; 0]%R.
Definition rows : list (list R) := [[2; 0; 0; 0; 0]; [4; 1; 0; 0; 0]; [2; 1; 0; 0; 3]]%R ++ replicate 9 blank.
Definition kinds : list string := ["C"; "m"; "s"]%string ++ replicate 9 ""%string.
Definition wall : bcrec R := Bc "W"%string 0 0 0%R 0%R 0%R 0%R 0%R.
Definition square : elem R := Elem (2, 2, 1)%nat [[1; 3; 1; 3]; [0; 0; 2; 2]; [0; 0; 0; 0]]%R [] [] [] [] rows kinds [replicate 6 wall].
Definition plain : elem R := Elem (2, 2, 1)%nat [[1; 3; 1; 3]; [0; 0; 2; 2]; [0; 0; 0; 0]]%R [] [] [] [] (replicate 12 blank) (replicate 12 ""%string) [replicate 6 wall].
Definition mesh_of (l : list (elem R)) (n : Z) : hexa R := Hexa 2 (length l) n 1 [2; 0; 0; 0; 0]%nat PyTuple [2; 2; 1]%nat 0%R 0 8 "little" l [].
Lemma square_2d : element2d square.
Proof.
  split; [done|]. split; [done|]. split.
  { intros c H. repeat (apply elem_of_cons in H as [->|H]; [done|]). by apply elem_of_nil in H. }
  split; [|by exists (replicate 6 wall)]. split; [done|]. split; [|done]. repeat constructor.
Qed.
Lemma plain_2d : element2d plain.
Proof.
  split; [done|]. split; [done|]. split.
  { intros c H. repeat (apply elem_of_cons in H as [->|H]; [done|]). by apply elem_of_nil in H. }
  split; [|by exists (replicate 6 wall)]. split; [done|]. split; [|done]. repeat constructor.
Qed.
Lemma element2d_wf {A : arith} (e : elem (num A)) : element2d e → wf_geom_elem e ∧ wf_curves e.
Proof. intros (H1 & H2 & H3 & H4 & _). split; [|done]. exists 2%nat, 2%nat, 1%nat. split; [done|]. split; [lia|]. split; [done|]. exact H3. Qed.

(** ** C39 *)
(** rotate_2d rotates every point and every stored midpoint about the origin, whatever centre is asked for. With
    x0 = y0 = 0 this is the property; cost and sint stand for the values that numpy computes for cos(theta) and
    sin(theta), here the exact ones. *)
Theorem C39_origin_partial theta x0 y0 (m : hexa (num AR)) : (∀ e, e ∈ elems m → wf_geom_elem e ∧ wf_curves e) →
  ∃ m', rotate_2d (A:=AR) (cos theta) (sin theta) x0 y0 m = Ok m' ∧ m' = set_elems (elems m') m ∧
    Forall2 (moved (rotation 0 0 theta)) (elems m) (elems m').
Proof.
  intros H. unfold rotate_2d.
  assert (∃ l, mapR (rotate_elem (A:=AR) (cos theta) (sin theta)) (elems m) = Ok l ∧ Forall2 (moved (rotation 0 0 theta)) (elems m) l) as (l & E & F).
  { induction (elems m) as [|e es IH]; [by exists []|]. destruct IH as (l & E & F); [intros e' He'; apply H; by constructor|].
    destruct (rotate_elem_ok theta e) as (e' & Ee & M); [apply H; constructor|apply H; constructor|]. exists (e' :: l). split; [|by constructor].
    cbn [mapR]. rewrite Ee. cbn [rbind]. by rewrite E. }
  rewrite E. cbn [rbind]. exists (set_elems l m). split; [done|]. split; [done|]. exact F.
Qed.
Print Assumptions C39_origin_partial.
(** Rotations keep distances and z. *)
Theorem C39_distances x0 y0 theta p q :
  dist2_space (rotation x0 y0 theta p) (rotation x0 y0 theta q) = dist2_space p q ∧ (rotation x0 y0 theta p).2 = p.2 ∧
  rotation x0 y0 theta (x0, y0, p.2) = (x0, y0, p.2).
Proof.
  split; [apply rotation_dist|]. destruct p as [[a b] c]. cbn [rotation snd]. split; [done|]. apply pair_equal_spec. split; [|done]. apply pair_equal_spec. split; ring.
Qed.
Print Assumptions C39_distances.
(** About any other centre, and by any angle that is not a multiple of a full turn, no point at all gets where it
    should. *)
Theorem C39_centre_refuted theta x0 y0 (m m' : hexa (num AR)) : cos theta ≠ 1%R → (x0, y0) ≠ (0, 0)%R →
  (∀ e, e ∈ elems m → wf_geom_elem e ∧ wf_curves e) → rotate_2d (A:=AR) (cos theta) (sin theta) x0 y0 m = Ok m' →
  ∀ i e e' k jy jx p, elems m !! i = Some e → elems m' !! i = Some e' → point e k jy jx = Some p → point e' k jy jx ≠ Some (rotation x0 y0 theta p).
Proof.
  intros Hc Hn H E i e e' k jy jx p He He' Hp X. destruct (C39_origin_partial theta x0 y0 m H) as (m1 & E1 & _ & F).
  assert (m1 = m') as -> by congruence. destruct (Forall2_lookup_lr _ _ _ _ _ _ F He He') as (_ & _ & _ & P & _).
  rewrite (P _ _ _ _ Hp) in X. apply (inj Some) in X. exact (rotation_centre x0 y0 theta p Hc Hn X).
Qed.
Print Assumptions C39_centre_refuted.
Lemma only {X} (x y : X) : x ∈ [y] → x = y.
Proof. intros H. apply elem_of_cons in H as [->|H]; [done|by apply elem_of_nil in H]. Qed.
Example C39_sample : (∀ e, e ∈ elems (mesh_of [square] 3) → wf_geom_elem (A:=AR) e ∧ wf_curves e) ∧ cos PI ≠ 1%R ∧ (1, 2)%R ≠ (0, 0)%R ∧ point square 0 1 0 = Some (1, 2, 0)%R.
Proof.
  split; [intros e H; apply only in H as ->; exact (element2d_wf (A:=AR) square square_2d)|]. split; [rewrite cos_PI; lra|]. split; [intros H; apply pair_equal_spec in H as [H _]; lra|done].
Qed.

(** ** C41 *)
(** A straight edge: the middle of its ends. *)
Theorem C41_straight (e : elem (num AR)) i row p1 p2 : edge_type e i "" → edge_row e i row → length row = 5%nat → ends e i p1 p2 →
  edge_mid (A:=AR) e i = Ok (middle_of p1 p2, e).
Proof.
  unfold edge_type, edge_row. intros Ht Hr HL He. destruct (edge_ends_spec (A:=AR) e i p1 p2 He) as (z1 & y1 & x1 & z2 & y2 & x2 & E & P1 & P2).
  unfold edge_mid. rewrite Hr, Ht. cbn [of_opt rbind]. destruct row as [|c0 [|c1 [|c2 [|c3 [|c4 [|]]]]]]; try done.
  cbn [String.eqb]. rewrite E. cbn [of_opt rbind]. rewrite P1, P2. cbn [of_opt rbind]. destruct p1 as [[a b] c], p2 as [[x y] z]. reflexivity.
Qed.
Print Assumptions C41_straight.
(** An edge given by its midpoint: that midpoint. *)
Theorem C41_stored {A : arith} (e : elem (num A)) i a b c d f : edge_type e i "m" → edge_row e i [a; b; c; d; f] → edge_mid e i = Ok ((a, b, c), e).
Proof. unfold edge_type, edge_row. intros Ht Hr. unfold edge_mid. by rewrite Hr, Ht. Qed.
Print Assumptions C41_stored.
(** An arc of radius |r|: its middle, on the side given by the sign of r; the radius must be long enough to reach both
    ends. *)
Theorem C41_arc_partial (e : elem (num AR)) i r b c d f p1 p2 : edge_type e i "C" → edge_row e i [r; b; c; d; f] → ends e i p1 p2 →
  r ≠ 0%R → (0 < dist2_plane p1 p2 <= 4 * r ^ 2)%R →
  ∃ v e', edge_mid (A:=AR) e i = Ok (v, e') ∧ arc_middle r p1 p2 v.
Proof.
  unfold edge_type, edge_row. intros Ht Hr He Hn [Hd1 Hd2]. destruct (edge_ends_spec (A:=AR) e i p1 p2 He) as (z1 & y1 & x1 & z2 & y2 & x2 & E & P1 & P2).
  unfold edge_mid. rewrite Hr, Ht. cbn [of_opt rbind String.eqb Ascii.eqb Bool.eqb]. rewrite E. cbn [of_opt rbind]. rewrite P1, P2. cbn [of_opt rbind].
  eexists _, _. split; [reflexivity|]. destruct p1 as [[a1 b1] c1], p2 as [[a2 b2] c2]. cbn [dist2_plane] in Hd1, Hd2. apply arc_mid_ok; [done| |lra].
  intros H. apply pair_equal_spec in H as [-> ->]. lra.
Qed.
Print Assumptions C41_arc_partial.
(** An edge on a sphere: a point of the sphere. *)
Theorem C41_sphere (e : elem (num AR)) i a b c d r p1 p2 : edge_type e i "s" → edge_row e i [a; b; c; d; r] → ends e i p1 p2 → middle_of p1 p2 ≠ (a, b, c) →
  ∃ v, edge_mid (A:=AR) e i = Ok (v, e) ∧ dist2_space (a, b, c) v = (r ^ 2)%R.
Proof.
  unfold edge_type, edge_row. intros Ht Hr He Hn. destruct (edge_ends_spec (A:=AR) e i p1 p2 He) as (z1 & y1 & x1 & z2 & y2 & x2 & E & P1 & P2).
  unfold edge_mid. rewrite Hr, Ht. cbn [of_opt rbind String.eqb Ascii.eqb Bool.eqb]. rewrite E. cbn [of_opt rbind]. rewrite P1, P2. cbn [of_opt rbind].
  eexists. split; [reflexivity|]. by apply sphere_mid_ok.
Qed.
Print Assumptions C41_sphere.
(** Only arcs are changed by being asked for their middle, and then only in the one row. *)
Theorem C41_unchanged_partial {A : arith} (e e' : elem (num A)) i v : edge_mid e i = Ok (v, e') → ¬ edge_type e i "C" → e' = e.
Proof.
  intros H Hn. destruct (edge_mid_inv e i v e' H) as (t & Ht & ->). unfold after. destruct (String.eqb_spec t "C") as [->|]; [by exfalso|done].
Qed.
Print Assumptions C41_unchanged_partial.
(** The radius of an arc is lost: the middle is written over it, so unless the middle happens to be the numbers that
    were there, the element is changed. *)
Theorem C41_changed_refuted {A : arith} (e e' : elem (num A)) i v a b c d f : edge_mid e i = Ok (v, e') → edge_type e i "C" → edge_row e i [a; b; c; d; f] →
  (let '(x, y, z) := v in edge_row e' i [x; y; z; d; f]) ∧ edge_type e' i "C" ∧ (v ≠ (a, b, c) → e' ≠ e).
Proof.
  unfold edge_type, edge_row. intros H Ht Hr. destruct (edge_mid_inv e i v e' H) as (t & Ht' & ->). rewrite Ht in Ht'. apply (inj Some) in Ht' as <-.
  destruct v as [[x y] z]. unfold after. cbn [String.eqb Ascii.eqb Bool.eqb put3 set_curv curv ccurv].
  assert (curv (put3 i (x, y, z) e) !! i = Some [x; y; z; d; f]) as X by (cbn [put3 set_curv curv]; by rewrite list_lookup_alter, Hr).
  split; [exact X|]. split; [done|]. intros Hn E. apply Hn. change (put3 i (x, y, z) e = e) in E. rewrite E, Hr in X. apply (inj Some) in X. congruence.
Qed.
Print Assumptions C41_changed_refuted.
(** The arc of the sample: from (1, 0) to (3, 0) with radius 2; the middle is below the edge. *)
Example C41_sample : edge_type square 0 "C" ∧ edge_row square 0 [2; 0; 0; 0; 0]%R ∧ ends square 0 (1, 0, 0)%R (3, 0, 0)%R ∧
  (0 < dist2_plane (1, 0, 0) (3, 0, 0) <= 4 * 2 ^ 2)%R ∧
  edge_type square 1 "m" ∧ edge_row square 1 [4; 1; 0; 0; 0]%R ∧
  edge_type square 2 "s" ∧ edge_row square 2 [2; 1; 0; 0; 3]%R ∧ ends square 2 (3, 2, 0)%R (1, 2, 0)%R ∧ middle_of (3, 2, 0)%R (1, 2, 0)%R ≠ (2, 1, 0)%R ∧
  edge_type square 3 "" ∧ ends square 3 (1, 2, 0)%R (1, 0, 0)%R.
Proof.
  split_and!; try done; try (left; split_and!; [lia|done|done]); cbn [dist2_plane middle_of]; try lra.
  intros H. apply pair_equal_spec in H as [H _]. apply pair_equal_spec in H as [_ H]. lra.
Qed.
(** Asked twice, the sample gives two answers: the middle of the arc is (2, sqrt 3 - 2) the first time. *)
Example C41_changed_sample : ∃ v e', edge_mid (A:=AR) square 0 = Ok (v, e') ∧ v.1.2 ≠ 0%R ∧ e' ≠ square.
Proof.
  destruct (C41_arc_partial square 0%nat 2%R 0%R 0%R 0%R 0%R (1, 0, 0)%R (3, 0, 0)%R) as (v & e' & E & M); [done|done|left; split_and!; [lia|done|done]|lra|cbn [dist2_plane]; lra|].
  exists v, e'. split; [done|]. destruct v as [[x y] z]. destruct M as (((a & b) & M1 & M2 & M3) & M4 & _). destruct a as [a b']. cbn [dist2_plane snd fst] in *.
  assert (x = 2)%R as -> by nra. assert (y ≠ 0)%R as Hy by (intros ->; nra). split; [done|].
  apply (C41_changed_refuted (A:=AR) square e' 0%nat (2, y, z)%R 2%R 0%R 0%R 0%R 0%R E); [done|done|]. intros H. apply pair_equal_spec in H as [H _]. apply pair_equal_spec in H as [_ H]. done.
Qed.

(** ** C42 *)
(** The centre and the radius of the circle through both ends and the midpoint, negative if the midpoint is on the
    left of the way from the first end to the second. *)
Theorem C42_circle (e : elem (num AR)) i p1 p2 v row : ends e i p1 p2 → edge_row e i row → ¬ nearly_aligned p1 p2 v →
  ∃ r a b c e', edge_circle (A:=AR) e i v = Ok ([r; a; b; c], e') ∧
    dist2_space (a, b, c) p1 = (Rabs r ^ 2)%R ∧ dist2_space (a, b, c) p2 = (Rabs r ^ 2)%R ∧ dist2_space (a, b, c) v = (Rabs r ^ 2)%R ∧
    (if Rlt_dec 0 (cross_plane p1 p2 v) then (r < 0)%R else (0 < r)%R).
Proof.
  intros He Hr Hn. destruct (edge_ends_spec (A:=AR) e i p1 p2 He) as (z1 & y1 & x1 & z2 & y2 & x2 & E & P1 & P2).
  destruct (circle (A:=AR) p1 p2 v) as [r [[a b] c]] eqn:Ec. destruct (circle_cases _ _ _ _ _ Ec) as [[H0 [H1 H2]] _]; [done|].
  destruct (circle_ok _ _ _ _ _ Ec H0) as (D1 & D2 & D3). exists r, a, b, c. eexists. split.
  { unfold edge_circle. rewrite E. cbn [of_opt rbind]. rewrite P1, P2. cbn [of_opt rbind]. rewrite Ec, Hr. reflexivity. }
  rewrite <- (Rabs_pos_eq (Rabs r ^ 2)) by apply pow2_ge_0. rewrite <- RPow_abs, Rabs_Rabsolu, RPow_abs, (Rabs_pos_eq (r ^ 2)) by apply pow2_ge_0.
  split; [done|]. split; [done|]. split; [done|]. destruct (Rlt_dec 0 (cross_plane p1 p2 v)); [auto|]. apply H2. lra.
Qed.
Print Assumptions C42_circle.
(** If they are nearly aligned, four zeros. *)
Theorem C42_aligned (e : elem (num AR)) i p1 p2 v row : ends e i p1 p2 → edge_row e i row → nearly_aligned p1 p2 v →
  ∃ e', edge_circle (A:=AR) e i v = Ok ([0; 0; 0; 0]%R, e').
Proof.
  intros He Hr Hn. destruct (edge_ends_spec (A:=AR) e i p1 p2 He) as (z1 & y1 & x1 & z2 & y2 & x2 & E & P1 & P2).
  destruct (circle (A:=AR) p1 p2 v) as [r [[a b] c]] eqn:Ec. destruct (circle_cases _ _ _ _ _ Ec) as [_ [-> Hc]]; [done|].
  eexists. unfold edge_circle. rewrite E. cbn [of_opt rbind]. rewrite P1, P2. cbn [of_opt rbind]. rewrite Ec, Hr. cbn [of_opt rbind].
  apply pair_equal_spec in Hc as [Hc ->]. apply pair_equal_spec in Hc as [-> ->]. reflexivity.
Qed.
Print Assumptions C42_aligned.
(** The four numbers are also written over the curvature of the element, whatever its type is. *)
Theorem C42_changed_refuted {A : arith} (e e' : elem (num A)) i v l row : edge_circle e i v = Ok (l, e') → edge_row e i row →
  edge_row e' i (l ++ drop 4 row) ∧ ccurv e' = ccurv e ∧ (take 4 row ≠ l → e' ≠ e).
Proof.
  unfold edge_row, edge_circle. intros H Hr. destruct (edge_ends i) as [[[[z1 y1] x1] [[z2 y2] x2]]|]; [|done]. cbn [of_opt rbind] in H.
  destruct (point e z1 y1 x1) as [p1|]; [|done]. destruct (point e z2 y2 x2) as [p2|]; [|done]. cbn [of_opt rbind] in H.
  destruct (circle p1 p2 v) as [r [[a b] c]]. rewrite Hr in H. cbn [of_opt rbind] in H. injection H as <- <-.
  assert (curv (set_curv (<[i:=[r; a; b; c] ++ drop 4 row]> (curv e)) e) !! i = Some ([r; a; b; c] ++ drop 4 row)) as X.
  { cbn [set_curv curv]. apply list_lookup_insert. by apply lookup_lt_Some in Hr. }
  split; [exact X|]. split; [done|]. intros Hn E. apply Hn. apply (f_equal (λ e, curv e !! i)) in E. cbn beta in E. pose proof (eq_trans (eq_sym X) E) as Y. rewrite Hr in Y. apply (inj Some) in Y. by rewrite <- Y.
Qed.
Print Assumptions C42_changed_refuted.
(** The third edge of the sample, with a midpoint above it: the circle about (2, 0) of radius sqrt 5. *)
Example C42_sample : ends square 2 (3, 2, 0)%R (1, 2, 0)%R ∧ edge_row square 2 [2; 1; 0; 0; 3]%R ∧ ¬ nearly_aligned (3, 2, 0)%R (1, 2, 0)%R (2, 3, 0)%R ∧
  (cross_plane (3, 2, 0)%R (1, 2, 0)%R (2, 3, 0)%R < 0)%R ∧ nearly_aligned (3, 2, 0)%R (1, 2, 0)%R (2, 2, 0)%R.
Proof.
  unfold nearly_aligned. cbn [cross2_space dist2_space cross_plane]. split_and!; try lra; [|done]. left. split_and!; [lia|done|done].
Qed.

(** ** C58 *)
(** What edge_circle finds for the middle of an arc is the radius of that arc. *)
Theorem C58_radius_found (e e' : elem (num AR)) i r b c d f x1 y1 x2 y2 z v : edge_type e i "C" → edge_row e i [r; b; c; d; f] →
  ends e i (x1, y1, z) (x2, y2, z) → r ≠ 0%R → (0 < (x1 - x2) ^ 2 + (y1 - y2) ^ 2 <= 4 * r ^ 2)%R →
  edge_mid (A:=AR) e i = Ok (v, e') → ¬ nearly_aligned (x1, y1, z) (x2, y2, z) v →
  ∃ l e'', edge_circle (A:=AR) e' i v = Ok (r :: l, e'').
Proof.
  intros Ht Hr He Hn Hd E Ha. destruct (C41_arc_partial e i r b c d f (x1, y1, z) (x2, y2, z) Ht Hr He Hn) as (v' & e1 & E' & M); [exact Hd|].
  rewrite E in E'. assert (v' = v ∧ e1 = e') as [-> ->] by (split; congruence). pose proof (circle_of_arc r x1 y1 x2 y2 z v M Ha) as Hc.
  destruct (edge_ends_spec (A:=AR) e i _ _ He) as (k1 & j1 & i1 & k2 & j2 & i2 & Ee & P1 & P2).
  destruct (C41_changed_refuted (A:=AR) e e' i v r b c d f E Ht Hr) as (R1 & _).
  destruct (edge_mid_inv (A:=AR) e i v e' E) as (t & Ht' & ->). assert (∀ k j x, point (after (A:=AR) t i v e) k j x = point e k j x) as HP.
  { intros. unfold after. destruct (String.eqb t "C"); [|done]. by destruct v as [[? ?] ?]. }
  unfold edge_circle. rewrite Ee. cbn [of_opt rbind]. rewrite !HP, P1, P2. cbn [of_opt rbind].
  destruct (circle (A:=AR) (x1, y1, z) (x2, y2, z) v) as [r' [[a' b'] c']] eqn:Ec. pose proof (eq_trans (eq_sym (f_equal fst Ec)) Hc) as X. change (r' = r) in X. rewrite X.
  destruct v as [[vx vy] vz]. unfold edge_row in R1. rewrite R1. cbn [of_opt rbind]. eauto.
Qed.
Print Assumptions C58_radius_found.
Example C58_sample : ∃ v e', edge_mid (A:=AR) square 0 = Ok (v, e') ∧ ¬ nearly_aligned (1, 0, 0)%R (3, 0, 0)%R v.
Proof.
  destruct (C41_arc_partial square 0%nat 2%R 0%R 0%R 0%R 0%R (1, 0, 0)%R (3, 0, 0)%R) as (v & e' & E & M); [done|done|left; split_and!; [lia|done|done]|lra|cbn [dist2_plane]; lra|].
  exists v, e'. split; [done|]. destruct v as [[x y] z]. destruct M as (((a & b) & M1 & M2 & M3) & M4 & M5 & M6 & M7). destruct a as [a b']. unfold nearly_aligned.
  cbn [dist2_plane middle_of snd fst cross_plane cross2_space dist2_space] in *. assert (x = 2)%R as -> by nra. assert (a = 2)%R as -> by nra. assert (z = 0)%R as -> by lra.
  assert (b' * b' = 3)%R as B by lra. assert (y * y - 2 * b' * y = 1)%R as Y by nra. clear M1 M2 M3 M4 M6 E. assert (y * y <= 4)%R as Y4 by nra. clear M5.
  assert (1 / 16 <= y * y)%R as Y1.
  { destruct (Rle_dec (1 / 16) (y * y)) as [|L]; [done|]. exfalso. assert (-1 / 4 <= y <= 1 / 4)%R by nra. assert (-2 <= b' <= 2)%R by nra. nra. }
  intros L. assert ((1 - 2) ^ 2 + (0 - y) ^ 2 + (0 - 0) ^ 2 = 1 + y * y)%R as Q1 by ring. assert ((3 - 2) ^ 2 + (0 - y) ^ 2 + (0 - 0) ^ 2 = 1 + y * y)%R as Q2 by ring.
  rewrite Q1, Q2 in L. clear Q1 Q2. set (q := (y * y)%R) in *.
  assert (((0 - y) * (0 - 0) - (0 - 0) * (0 - y)) ^ 2 + ((0 - 0) * (3 - 2) - (1 - 2) * (0 - 0)) ^ 2 + ((1 - 2) * (0 - y) - (0 - y) * (3 - 2)) ^ 2 = 4 * q)%R as Q3 by (unfold q; ring).
  rewrite Q3 in L. nra.
Qed.

(** ** C40 *)
(** The result: per element, corners and middles of curved edges go to their images; everything else is as it was.
    For elements without conditions see below. *)
Theorem C40_mapped_partial {A : arith} (f : num A → num A → num A * num A) curvature boundary_curvature (m : hexa (num A)) :
  (∀ e, e ∈ elems m → element2d e) →
  ∃ m0 m', map2D m f curvature boundary_curvature = Ok (m0, m') ∧ m' = set_elems (elems m') m ∧ length (elems m') = length (elems m) ∧
    ∀ i e e', elems m !! i = Some e → elems m' !! i = Some e' →
      ∃ mid, (∀ k, (k < 4)%nat → ∃ e1, edge_mid e k = Ok (mid k, e1)) ∧ mapped f curvature boundary_curvature mid e e'.
Proof.
  intros H. unfold map2D.
  assert (∃ l, mapR (map_elem f curvature boundary_curvature) (elems m) = Ok l ∧
    Forall2 (λ e p, mapped f curvature boundary_curvature (emid e) e p.2) (elems m) l) as (l & E & F).
  { induction (elems m) as [|e es IH]; [by exists []|]. destruct IH as (l & E & F); [intros e' He'; apply H; by constructor|].
    destruct (map_elem_ok f curvature boundary_curvature e) as (el & me & Ee & M & _); [apply H; constructor|]. exists ((el, me) :: l). split; [|by constructor].
    cbn [mapR]. rewrite Ee. cbn [rbind]. by rewrite E. }
  rewrite E. cbn [rbind]. eexists _, _. split; [reflexivity|]. cbn [set_elems elems]. split; [done|].
  split; [rewrite fmap_length; symmetry; by eapply Forall2_length|]. intros i e e' He He'.
  apply list_lookup_fmap_Some in He' as ([el me] & Hl & ->). pose proof (Forall2_lookup_lr _ _ _ _ _ _ F He Hl) as M. cbn in M.
  exists (emid e). split; [|exact M]. intros k Hk. destruct (edge_mid_total e k) as (v & e1 & Ev); [apply H; by eapply elem_of_list_lookup_2|done|].
  exists e1. unfold emid. by rewrite Ev.
Qed.
Print Assumptions C40_mapped_partial.
(** The argument is not changed if none of its edges is an arc. *)
Theorem C40_argument_kept_partial {A : arith} (f : num A → num A → num A * num A) curvature boundary_curvature (m m0 m' : hexa (num A)) :
  (∀ e, e ∈ elems m → element2d e) → (∀ e i, e ∈ elems m → (i < 4)%nat → ¬ edge_type e i "C") →
  map2D m f curvature boundary_curvature = Ok (m0, m') → m0 = m.
Proof.
  intros H HC. unfold map2D.
  assert (∃ l, mapR (map_elem f curvature boundary_curvature) (elems m) = Ok l ∧ fst <$> l = elems m) as (l & E & F).
  { induction (elems m) as [|e es IH]; [by exists []|]. destruct IH as (l & E & F); [intros e' He'; apply H; by constructor|intros e' i He'; apply HC; by constructor|].
    destruct (map_elem_ok f curvature boundary_curvature e) as (el & me & Ee & _ & D1 & D2 & D3 & D4); [apply H; constructor|]. exists ((el, me) :: l). split.
    - cbn [mapR]. rewrite Ee. cbn [rbind]. by rewrite E.
    - cbn. f_equal; [|done]. rewrite D1. assert (curv el = curv e) as ->; [|by destruct e].
      apply list_eq. intros i. destruct (decide (i < 4)%nat) as [Hi|Hi]; [|apply D4; left; lia].
      destruct (needs_mid_ok curvature boundary_curvature (curv e) e i) as ([|] & _ & Hb); [apply H; constructor|done| |].
      + rewrite D3; [|done|by apply Hb]. unfold arg_row. rewrite decide_False; [done|]. intros X. apply (HC e i); [constructor|done|exact X].
      + apply D4. right. intros X. apply Hb in X. done. }
  rewrite E. cbn [rbind]. intros X. assert (m0 = set_elems (fst <$> l) m) as -> by congruence. rewrite F. by destruct m.
Qed.
Print Assumptions C40_argument_kept_partial.
(** But every arc among the first four edges of an element loses its radius to the middle of the edge, so the
    argument is changed unless the two agree. *)
Theorem C40_argument_changed_refuted {A : arith} (f : num A → num A → num A * num A) curvature boundary_curvature (m m0 m' : hexa (num A)) j e i a b c d g x y z e1 :
  (∀ e, e ∈ elems m → element2d e) → elems m !! j = Some e → (i < 4)%nat → edge_type e i "C" → edge_row e i [a; b; c; d; g] →
  edge_mid e i = Ok ((x, y, z), e1) → map2D m f curvature boundary_curvature = Ok (m0, m') →
  (∃ e0, elems m0 !! j = Some e0 ∧ edge_row e0 i [x; y; z; d; g]) ∧ ((x, y, z) ≠ (a, b, c) → m0 ≠ m).
Proof.
  unfold edge_type, edge_row. intros H He Hi Ht Hr Em. unfold map2D.
  destruct (mapR (map_elem f curvature boundary_curvature) (elems m)) as [l|] eqn:E; [|done]. cbn [rbind]. intros X.
  assert (m0 = set_elems (fst <$> l) m) as -> by congruence. cbn [set_elems elems]. apply mapR_Ok in E.
  destruct (Forall2_lookup_l _ _ _ _ _ E He) as ([el me] & Hl & Hm).
  destruct (map_elem_ok f curvature boundary_curvature e) as (el' & me' & Ee & _ & D1 & D2 & D3 & D4); [apply H; by eapply elem_of_list_lookup_2|].
  rewrite Hm in Ee. assert (el' = el) as -> by congruence.
  assert (curv el !! i = Some [x; y; z; d; g]) as Q.
  { rewrite D3; [|done|right; left; exists "C"%string; done]. unfold arg_row. rewrite decide_True by done. unfold emid. rewrite Em, Hr. done. }
  assert ((fst <$> l) !! j = Some el) as Q' by (by rewrite list_lookup_fmap, Hl). split; [by exists el|].
  intros Hn Y. apply Hn. assert (elems (set_elems (fst <$> l) m) !! j = elems m !! j) as Z by (by rewrite Y). cbn [set_elems elems] in Z. rewrite Q', He in Z.
  apply (inj Some) in Z as ->. rewrite Hr in Q. apply (inj Some) in Q. congruence.
Qed.
Print Assumptions C40_argument_changed_refuted.
(** Without curvature, a mesh that has no conditions (nbc = 0) cannot be transformed. *)
Theorem C40_no_conditions_refuted {A : arith} (f : num A → num A → num A * num A) (m : hexa (num A)) e es :
  elems m = e :: es → eshape e = (2, 2, 1)%nat → bcs e = [] → edge_type e 0 "" → ∀ r, map2D m f false true ≠ Ok r.
Proof.
  unfold edge_type. intros E Hs Hb Ht r. unfold map2D. rewrite E. cbn [mapR]. unfold map_elem.
  destruct (foldM (map_vertex f e) e (prod2 (range 2) (range 2))) as [me|]; [|done]. cbn [rbind range seq foldM map_edge].
  unfold needs_mid. rewrite Ht. cbn [of_opt rbind String.eqb negb]. unfold ebc. rewrite Hb. done.
Qed.
Print Assumptions C40_no_conditions_refuted.
Definition plain_nobc : elem R := set_bcs [] plain.
Example C40_sample : (∀ e, e ∈ elems (mesh_of [square; plain] 3) → element2d e) ∧ (∀ i, (i < 4)%nat → ¬ edge_type plain i "C") ∧
  edge_type square 0 "C" ∧ (∃ v e1, edge_mid (A:=AR) square 0 = Ok (v, e1) ∧ v ≠ (2, 0, 0)%R) ∧
  eshape plain_nobc = (2, 2, 1)%nat ∧ bcs plain_nobc = [] ∧ edge_type plain_nobc 0 "".
Proof.
  split. { intros e H. apply elem_of_cons in H as [->|H]; [apply square_2d|]. apply only in H as ->. apply plain_2d. }
  split. { intros i Hi. do 4 (destruct i as [|i]; [done|]). lia. }
  split; [done|]. split; [|done]. destruct C41_changed_sample as (v & e' & E & Hv & _). exists v, e'. split; [done|]. intros ->. by apply Hv.
Qed.

(** ** C59 *)
(** The number of curved edges is not brought up to date: of a mesh without curved edges, four edges of every element
    become curved, and ncurv remains 0. *)
Theorem C59_map2D_refuted {A : arith} (f : num A → num A → num A * num A) boundary_curvature (m m0 m' : hexa (num A)) :
  (∀ e, e ∈ elems m → element2d e ∧ curved_edges e = 0%nat) → ncurv m = 0 → map2D m f true boundary_curvature = Ok (m0, m') →
  ncurv m' = 0 ∧ curved_total m' = 4 * Z.of_nat (length (elems m)).
Proof.
  intros H Hn E. destruct (C40_mapped_partial f true boundary_curvature m) as (m1 & m2 & E' & Hm & HL & HM); [intros e He; by apply H|].
  rewrite E in E'. assert (m1 = m0 ∧ m2 = m') as [-> ->] by (split; congruence). split; [rewrite Hm; exact Hn|]. unfold curved_total.
  assert (∀ e', e' ∈ elems m' → curved_edges e' = 4%nat) as HC.
  { intros e' He'. apply elem_of_list_lookup_1 in He' as [i He']. destruct (lookup_lt_is_Some_2 (elems m) i) as [e He]; [rewrite <- HL; by eapply lookup_lt_Some|].
    destruct (HM i e e' He He') as (mid & _ & (_ & _ & L & _ & Q1 & Q2)). destruct (H e) as [(_ & _ & _ & (_ & _ & Lc) & _) Hz]; [by eapply elem_of_list_lookup_2|].
    assert (∀ k, (4 <= k < 12)%nat → ccurv e' !! k = Some ""%string) as Q3.
    { intros k Hk. destruct (Q2 k) as [-> _]; [left; lia|]. destruct (lookup_lt_is_Some_2 (ccurv e) k) as [t Ht]; [lia|]. rewrite Ht. f_equal.
      destruct (String.eqb_spec t "") as [|Hne]; [done|]. exfalso. unfold curved_edges in Hz. apply length_zero_iff_nil in Hz.
      assert (In t (List.filter (λ c, negb (String.eqb c "")) (ccurv e))) as X.
      { apply filter_In. split; [apply elem_of_list_In; by eapply elem_of_list_lookup_2|]. by destruct (String.eqb_spec t ""). }
      rewrite Hz in X. done. }
    assert (∀ k, (k < 4)%nat → ccurv e' !! k = Some "m"%string) as Q4 by (intros k Hk; apply Q1; [done|by left]).
    assert (ccurv e' = replicate 4 "m"%string ++ replicate 8 ""%string) as X.
    { apply list_eq. intros k. destruct (decide (k < 4)%nat); [rewrite Q4 by done; do 4 (destruct k as [|k]; [done|]); lia|].
      destruct (decide (k < 12)%nat); [rewrite Q3 by lia; do 12 (destruct k as [|k]; [first [done|lia]|]); lia|].
      rewrite !lookup_ge_None_2; [done|cbn; lia|lia]. }
    unfold curved_edges. by rewrite X. }
  rewrite <- HL. clear -HC. induction (elems m') as [|e es IH]; [done|]. cbn [sum_list_with length]. rewrite HC by constructor. 
  assert (∀ e', e' ∈ es → curved_edges e' = 4%nat) as HC' by (intros e' He'; apply HC; by constructor). specialize (IH HC'). lia.
Qed.
Print Assumptions C59_map2D_refuted.
Example C59_sample : (∀ e, e ∈ elems (mesh_of [plain] 0) → element2d e ∧ curved_edges (A:=AR) e = 0%nat) ∧ ncurv (mesh_of [plain] 0) = 0.
Proof. split; [|done]. intros e H. apply only in H as ->. split; [apply plain_2d|done]. Qed.
