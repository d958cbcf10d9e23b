(** C81: transformations of the plane can be applied one after the other, and undone. *)
From Coq Require Import Lia Reals Lra.
From Verif Require Import Base Mesh MeshLemmas MeshSpec CheckProofs Core Tools Float Curve CurveSpec CurveProofs P_Curve WarpSpec WarpJoin WarpTwice.
Open Scope Z_scope.

(** Mapping by [f] and then by [g] gives exactly what mapping by the composition gives, for all kinds of edges, and has the same effect on the argument;
    the second mapping does not change its own argument. In every arithmetic. *)
Theorem C81_composition {A : arith} (f g : num A → num A → num A * num A) curvature boundary_curvature (m : hexa (num A)) :
  (∀ e, e ∈ elems m → element2d e) →
  ∃ m0 m1 m2, map2D m f curvature boundary_curvature = Ok (m0, m1) ∧ map2D m1 g curvature boundary_curvature = Ok (m1, m2) ∧
    map2D m (λ x y, let '(x', y') := f x y in g x' y') curvature boundary_curvature = Ok (m0, m2).
Proof.
  intros H. set (h := λ x y, g (f x y).1 (f x y).2).
  assert (∃ l0 l1 l2, mapR (map_elem f curvature boundary_curvature) (elems m) = Ok (zip l0 l1) ∧ mapR (map_elem g curvature boundary_curvature) l1 = Ok (zip l1 l2) ∧
    mapR (map_elem h curvature boundary_curvature) (elems m) = Ok (zip l0 l2) ∧ length l0 = length l1 ∧ length l1 = length l2) as (l0 & l1 & l2 & E1 & E2 & E3 & L1 & L2).
  { induction (elems m) as [|e es IH]; [by exists [], [], []|]. destruct IH as (l0 & l1 & l2 & E1 & E2 & E3 & L1 & L2); [intros e' He'; apply H; by constructor|].
    assert (element2d e) as He by (apply H; constructor). destruct (map_elem_full curvature boundary_curvature f e He) as (el & e1 & E & _).
    destruct (map_elem_twice curvature boundary_curvature f g e el e1 He E) as (el1 & e2 & E' & E'' & -> & _). exists (el :: l0), (e1 :: l1), (e2 :: l2).
    cbn [mapR]. rewrite E, E1, E', E2. cbn [rbind]. unfold h at 1. rewrite E''. cbn [rbind]. rewrite E3. cbn [rbind zip_with length]. split_and!; try done; lia. }
  exists (set_elems l0 m), (set_elems l1 m), (set_elems l2 m). unfold map2D. rewrite E1. cbn [rbind]. rewrite fst_zip, snd_zip by lia. split; [done|].
  change (elems (set_elems l1 m)) with l1. rewrite E2. cbn [rbind]. rewrite fst_zip, snd_zip by lia. split; [by destruct m|].
  assert (∀ l, mapR (map_elem (λ x y, let '(x', y') := f x y in g x' y') curvature boundary_curvature) l = mapR (map_elem h curvature boundary_curvature) l) as Eh.
  { assert (∀ e, map_elem (λ x y, let '(x', y') := f x y in g x' y') curvature boundary_curvature e = map_elem h curvature boundary_curvature e) as X.
    { intros e. unfold map_elem, h.
      assert (∀ me x, map_vertex (λ x y, let '(x', y') := f x y in g x' y') e me x = map_vertex (λ x y, g (f x y).1 (f x y).2) e me x) as X1.
      { intros me [i j]. unfold map_vertex. destruct (point e 0 i j) as [[[x y] z]|]; [|done]. cbn [of_opt rbind]. by destruct (f x y). }
      assert (∀ s x, map_edge (λ x y, let '(x', y') := f x y in g x' y') curvature boundary_curvature s x = map_edge (λ x y, g (f x y).1 (f x y).2) curvature boundary_curvature s x) as X2.
      { intros [a b] k. unfold map_edge. destruct (needs_mid curvature boundary_curvature a k) as [[|]|]; try done. cbn [rbind]. destruct (edge_mid a k) as [[[[x y] z] el]|]; [|done]. cbn [rbind]. by destruct (f x y). }
      assert (∀ l me, foldM (map_vertex (λ x y, let '(x', y') := f x y in g x' y') e) me l = foldM (map_vertex (λ x y, g (f x y).1 (f x y).2) e) me l) as X3.
      { induction l as [|x l IH]; intros me; [done|]. cbn [foldM]. rewrite X1. destruct (map_vertex _ e me x); [|done]. apply IH. }
      assert (∀ l s, foldM (map_edge (λ x y, let '(x', y') := f x y in g x' y') curvature boundary_curvature) s l = foldM (map_edge (λ x y, g (f x y).1 (f x y).2) curvature boundary_curvature) s l) as X4.
      { induction l as [|x l IH]; intros s; [done|]. cbn [foldM]. rewrite X2. destruct (map_edge _ _ _ s x); [|done]. apply IH. }
      rewrite X3. destruct (foldM _ _ _); [|done]. apply X4. }
    induction l as [|e l IH]; [done|]. cbn [mapR]. by rewrite X, IH. }
  rewrite Eh, E3. cbn [rbind]. by rewrite fst_zip, snd_zip by lia.
Qed.
Print Assumptions C81_composition.

(** The identity gives the mesh itself, if its edges are straight or have stored middles. *)
Theorem C81_identity {A : arith} (m : hexa (num A)) :
  (∀ e, e ∈ elems m → element2d e) → (∀ e i, e ∈ elems m → (i < 4)%nat → edge_type e i "" ∨ edge_type e i "m") →
  map2D m (λ x y, (x, y)) false false = Ok (m, m).
Proof.
  intros H HT. unfold map2D. assert (mapR (map_elem (λ x y, (x, y)) false false) (elems m) = Ok (zip (elems m) (elems m))) as E.
  { induction (elems m) as [|e es IH]; [done|]. cbn [mapR]. rewrite map_elem_id; [|apply H; constructor|intros i; apply HT; constructor|done]. cbn [rbind].
    rewrite IH; [done| |]; [intros e' He'; apply H; by constructor|intros e' i He'; apply HT; by constructor]. }
  rewrite E. cbn [rbind]. rewrite fst_zip, snd_zip by lia. by destruct m.
Qed.
Print Assumptions C81_identity.
(** So a transformation is undone by its inverse, and the argument is not changed. *)
Theorem C81_undone {A : arith} (f g : num A → num A → num A * num A) (m : hexa (num A)) :
  (∀ e, e ∈ elems m → element2d e) → (∀ e i, e ∈ elems m → (i < 4)%nat → edge_type e i "" ∨ edge_type e i "m") →
  (∀ x y, (let '(x', y') := f x y in g x' y') = (x, y)) →
  ∃ m1, map2D m f false false = Ok (m, m1) ∧ map2D m1 g false false = Ok (m1, m).
Proof.
  intros H HT Hinv. destruct (C81_composition f g false false m H) as (m0 & m1 & m2 & E1 & E2 & E3).
  assert (map2D m (λ x y, let '(x', y') := f x y in g x' y') false false = Ok (m, m)) as E.
  { unfold map2D. assert (mapR (map_elem (λ x y, let '(x', y') := f x y in g x' y') false false) (elems m) = Ok (zip (elems m) (elems m))) as E.
    { clear E1 E2 E3. induction (elems m) as [|e es IH]; [done|]. cbn [mapR]. rewrite map_elem_id; [|apply H; constructor|intros i; apply HT; constructor|done]. cbn [rbind].
      rewrite IH; [done| |]; [intros e' He'; apply H; by constructor|intros e' i He'; apply HT; by constructor]. }
    rewrite E. cbn [rbind]. rewrite fst_zip, snd_zip by lia. by destruct m. }
  rewrite E3 in E. assert (m0 = m ∧ m2 = m) as [-> ->] by (split; congruence). by exists m1.
Qed.
Print Assumptions C81_undone.
(** A mesh of a straight and a curved element; a stretching and the one that undoes it. *)
Definition stretch (a x y : R) : R * R := ((a * x)%R, (y + x)%R).
Definition unstretch (a x y : R) : R * R := ((x / a)%R, (y - x / a)%R).
Example C81_sample : (∀ e, e ∈ elems (mesh_of [square; plain] 3) → element2d e) ∧ (∀ e, e ∈ elems (mesh_of [plain] 0) → element2d e) ∧
  (∀ e i, e ∈ elems (mesh_of [plain] 0) → (i < 4)%nat → edge_type e i "" ∨ edge_type e i "m") ∧
  (∀ a x y, a ≠ 0%R → (let '(x', y') := stretch a x y in unstretch a x' y') = (x, y)) ∧ stretch 2 1 1 ≠ (1, 1)%R.
Proof.
  split; [apply C40_sample|]. split; [intros e He; cbn in He; apply elem_of_list_singleton in He as ->; exact plain_2d|].
  split; [intros e i He Hi; cbn in He; apply elem_of_list_singleton in He as ->; destruct i as [|[|[|[|]]]]; try lia; by left|].
  split; [intros a x y Ha; unfold stretch, unstretch; f_equal; field; done|]. unfold stretch. intros X. injection X as X _. lra.
Qed.
Print Assumptions C81_sample.
