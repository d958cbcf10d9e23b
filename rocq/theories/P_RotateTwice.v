(** C82: rotations in turn, rotations back, and rotations as transformations of the plane. *)
From Coq Require Import Lia Reals Lra.
From Verif Require Import Base Mesh MeshLemmas MeshSpec CheckProofs Core Tools Float Curve CurveSpec CurveProofs P_Curve WarpSpec WarpJoin WarpTwice RotateTwice.
Open Scope Z_scope.

Notation rotate a x0 y0 m := (rotate_2d (A:=AR) (cos a) (sin a) x0 y0 m).
Lemma ready (m : hexa (num AR)) : (∀ e, e ∈ elems m → wf_geom_elem (A:=AR) e ∧ wf_curves e) → ∀ e, e ∈ elems m → (2 ≤ length (pos e))%nat ∧ wf_curves e.
Proof. intros H e He. destruct (H e He) as [(lx & ly & lz & _ & _ & L & _) W]. split; [rewrite L; lia|done]. Qed.
Lemma ready_again c s (m : hexa (num AR)) : (∀ e, e ∈ elems m → (2 ≤ length (pos e))%nat ∧ wf_curves e) → ∀ e, e ∈ elems (set_elems (rotated (A:=AR) c s <$> elems m) m) → (2 ≤ length (pos e))%nat ∧ wf_curves e.
Proof. intros H e He. cbn [set_elems elems] in He. apply elem_of_list_fmap in He as (e0 & -> & He0). apply (rotated_keeps (A:=AR)); by apply H. Qed.

(** Rotating by [a] and then by [b] is rotating by [a + b], for flat and for three-dimensional meshes of any order with any edges. *)
Theorem C82_sum a b x0 y0 (m : hexa (num AR)) : (∀ e, e ∈ elems m → wf_geom_elem (A:=AR) e ∧ wf_curves e) →
  ∃ m1 m2, rotate a x0 y0 m = Ok m1 ∧ rotate b x0 y0 m1 = Ok m2 ∧ rotate (a + b)%R x0 y0 m = Ok m2.
Proof.
  intros H. pose proof (ready m H) as R1. exists (set_elems (rotated (A:=AR) (cos a) (sin a) <$> elems m) m), (set_elems (rotated (A:=AR) (cos (a + b)) (sin (a + b)) <$> elems m) m).
  split; [by apply (rotate_2d_form (A:=AR))|]. split; [|by apply (rotate_2d_form (A:=AR))]. rewrite (rotate_2d_form (A:=AR)) by (by apply ready_again). f_equal. unfold set_elems. cbn [ndim nel ncurv nbc var lr1kind lr1 time istep wdsz endian elmap elems]. f_equal.
  rewrite <- list_fmap_compose. apply list_fmap_ext. intros i e _. cbn. apply rotated_twice.
Qed.
Print Assumptions C82_sum.
(** So the order of two rotations does not matter. *)
Theorem C82_order a b x0 y0 (m m1 m1' : hexa (num AR)) : (∀ e, e ∈ elems m → wf_geom_elem (A:=AR) e ∧ wf_curves e) →
  rotate a x0 y0 m = Ok m1 → rotate b x0 y0 m = Ok m1' → rotate b x0 y0 m1 = rotate a x0 y0 m1'.
Proof.
  intros H E1 E2. destruct (C82_sum a b x0 y0 m H) as (n1 & n2 & F1 & F2 & F3). destruct (C82_sum b a x0 y0 m H) as (k1 & k2 & G1 & G2 & G3).
  rewrite E1 in F1. assert (n1 = m1) as -> by congruence. rewrite E2 in G1. assert (k1 = m1') as -> by congruence. rewrite F2, G2. rewrite Rplus_comm in G3. congruence.
Qed.
Print Assumptions C82_order.
(** A rotation by a number of full turns gives the mesh back, and so does a rotation followed by the opposite one. *)
Theorem C82_full_turns (k : nat) x0 y0 (m : hexa (num AR)) : (∀ e, e ∈ elems m → wf_geom_elem (A:=AR) e ∧ wf_curves e) → rotate (2 * INR k * PI)%R x0 y0 m = Ok m.
Proof.
  intros H. rewrite (rotate_2d_form (A:=AR)) by (by apply ready). pose proof (cos_period 0 k) as Ec. pose proof (sin_period 0 k) as Es. rewrite Rplus_0_l in Ec, Es. rewrite Ec, Es, cos_0, sin_0. f_equal.
  assert (rotated (A:=AR) 1%R 0%R <$> elems m = elems m) as E; [|destruct m; cbn in E |- *; unfold set_elems; cbn; by rewrite E].
  apply list_eq. intros i. rewrite list_lookup_fmap. destruct (elems m !! i) as [e|] eqn:Ei; [|done]. cbn. f_equal. apply elem_of_list_lookup_2 in Ei. destruct (H e Ei). by apply rotated_zero.
Qed.
Print Assumptions C82_full_turns.
Theorem C82_back a x0 y0 (m : hexa (num AR)) : (∀ e, e ∈ elems m → wf_geom_elem (A:=AR) e ∧ wf_curves e) →
  ∃ m1, rotate a x0 y0 m = Ok m1 ∧ rotate (- a)%R x0 y0 m1 = Ok m.
Proof.
  intros H. destruct (C82_sum a (- a)%R x0 y0 m H) as (m1 & m2 & E1 & E2 & E3). exists m1. split; [done|]. rewrite E2. rewrite <- E3.
  pose proof (C82_full_turns 0 x0 y0 m H) as F. cbn [INR] in F. replace (2 * 0 * PI)%R with 0%R in F by ring. by replace (a + - a)%R with 0%R by ring.
Qed.
Print Assumptions C82_back.

(** In every arithmetic, rotating a flat mesh without arcs is mapping it by the rotation: the two tools agree to the last bit. *)
Theorem C82_as_map {A : arith} (cost sint x0 y0 : num A) (m : hexa (num A)) :
  (∀ e, e ∈ elems m → element2d e) → (∀ e i, e ∈ elems m → (i < 4)%nat → edge_type e i "" ∨ edge_type e i "m") →
  (∀ e i, e ∈ elems m → (4 <= i)%nat → ¬ edge_type e i "m") →
  ∃ m', rotate_2d cost sint x0 y0 m = Ok m' ∧
    map2D m (λ x y, (nsub (nmul cost x) (nmul sint y), nadd (nmul sint x) (nmul cost y))) false false = Ok (m, m').
Proof.
  intros H HT HN. exists (set_elems (rotated cost sint <$> elems m) m). split.
  { apply rotate_2d_form. intros e He. destruct (H e He) as (_ & L & _ & W & _). split; [rewrite L; lia|done]. }
  unfold map2D. assert (mapR (map_elem (λ x y, (nsub (nmul cost x) (nmul sint y), nadd (nmul sint x) (nmul cost y))) false false) (elems m) = Ok (zip (elems m) (rotated cost sint <$> elems m))) as E.
  { induction (elems m) as [|e es IH]; [done|]. cbn [mapR fmap list_fmap]. pose proof (rotated_mapped cost sint e (H e ltac:(constructor)) (λ i, HT e i ltac:(constructor)) (λ i, HN e i ltac:(constructor))) as X. unfold rot_x, rot_y in X. rewrite X. cbn [rbind].
    rewrite IH; [done| | |]; [intros e' He'; apply H; by constructor|intros e' i He'; apply HT; by constructor|intros e' i He'; apply HN; by constructor]. }
  rewrite E. cbn [rbind]. rewrite fst_zip, snd_zip by (by rewrite fmap_length). by destruct m.
Qed.
Print Assumptions C82_as_map.
Example C82_sample : (∀ e, e ∈ elems (mesh_of [square; plain] 3) → wf_geom_elem (A:=AR) e ∧ wf_curves e) ∧ (∀ e, e ∈ elems (mesh_of [plain] 0) → element2d e) ∧
  (∀ e i, e ∈ elems (mesh_of [plain] 0) → (i < 4)%nat → edge_type e i "" ∨ edge_type e i "m") ∧
  (∀ e i, e ∈ elems (mesh_of [plain] 0) → (4 <= i)%nat → ¬ edge_type e i "m") ∧
  rotate (PI / 2)%R 0%R 0%R (mesh_of [plain] 0) ≠ Ok (mesh_of [plain] 0).
Proof.
  assert (∀ e, e ∈ elems (mesh_of [square; plain] 3) → wf_geom_elem (A:=AR) e ∧ wf_curves e) as HW by (intros e He; apply (element2d_wf (A:=AR)); by apply C40_sample).
  assert (∀ e, e ∈ elems (mesh_of [plain] 0) → element2d e) as H2 by (intros e He; cbn in He; apply elem_of_list_singleton in He as ->; exact plain_2d).
  split; [done|]. split; [done|].
  split; [intros e i He Hi; cbn in He; apply elem_of_list_singleton in He as ->; destruct i as [|[|[|[|]]]]; try lia; by left|].
  split; [intros e i He Hi; cbn in He; apply elem_of_list_singleton in He as ->; unfold edge_type; change (ccurv plain) with (replicate 12 ""%string); intros X; apply lookup_replicate in X as [X _]; discriminate X|].
  rewrite (rotate_2d_form (A:=AR)) by (apply ready; intros e He; apply (element2d_wf (A:=AR)); by apply H2). intros X.
  assert ((λ e : elem (num AR), point e 0 0 1) <$> (elems (set_elems (rotated (A:=AR) (cos (PI / 2)) (sin (PI / 2)) <$> elems (mesh_of [plain] 0)) (mesh_of [plain] 0)) !! 0%nat) =
    (λ e : elem (num AR), point e 0 0 1) <$> (elems (mesh_of [plain] 0) !! 0%nat)) as Y by (apply (f_equal (λ r, match r with Ok m => (λ e : elem (num AR), point e 0 0 1) <$> (elems m !! 0%nat) | Raise _ => None end)) in X; exact X).
  cbn in Y. unfold rot_x, rot_y in Y. cbn in Y. rewrite cos_PI2, sin_PI2 in Y. injection Y as Y1 Y2. lra.
Qed.
Print Assumptions C82_sample.
