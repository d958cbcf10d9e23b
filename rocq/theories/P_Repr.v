(** C69: printing a mesh or an element. *)
From Coq Require Import Lia Reals Lra.
From Verif Require Import Base Mesh Core Float FloatLaws MeshSpec LimsProofs ElemProofs Repr P_Elem Samples.
Open Scope Z_scope.

(** A mesh with at most one element cannot be printed. *)
Theorem C69_small_refuted {A : arith} show_Z show_N show_vec (m : hexa (num A)) : (length (elems m) ≤ 1)%nat →
  hexa_repr show_Z show_N show_vec m = Raise TypeError.
Proof. intros H. unfold hexa_repr. rewrite C19_fewer_than_two_raise by lia. done. Qed.
Print Assumptions C69_small_refuted.

(** With two elements or more, the text has the values of the mesh, the true extrema of the coordinates, and the first and the
    last element. *)
Definition summary (show_Z : Z → string) (show_N : f64 → string) (show_vec : list f64 → string) (m : hexa f64) (x y z : f64 * f64) (e0 e1 : elem f64) : list string :=
  let limit (p : f64 * f64) := String.append "(" (String.append (show_N p.1) (String.append ", " (String.append (show_N p.2) ")"))) in
  let centre e := String.append "<elem centered at " (String.append (show_vec (centroid (A:=A64) e)) ">") in
  ["<pymech.core.HexaData>"; String.append "Dimensions:    " (show_Z (Z.of_nat (ndim m))); String.append "Precision:     " (String.append (show_Z (wdsz m)) " bytes");
   "Mesh limits:"; String.append "  * x:         " (limit x); String.append "  * y:         " (limit y); String.append "  * z:         " (limit z);
   "Time:"; String.append "  * time:      " (show_N (time m)); String.append "  * istep:     " (show_Z (istep m));
   "Elements:"; String.append "  * nel:       " (show_Z (Z.of_nat (nel m)));
   String.append "  * elem:      [" (centre e0); "                ..."; String.append "                " (String.append (centre e1) "]"); ""]%string.
Theorem C69_shown show_Z show_N show_vec (m : hexa (num A64)) e0 e1 l nv nq nt ns :
  elems m = e0 :: l ++ [e1] → all_uniform (A:=A64) (elems m) 3 nv nq nt ns →
  ∃ x y z, hexa_repr (A:=A64) show_Z show_N show_vec m = Ok (summary show_Z show_N show_vec m x y z e0 e1) ∧ extrema_of (A:=A64) pos (elems m) 3 [x; y; z].
Proof.
  intros E H. assert (∃ e l', elems m = e0 :: e :: l') as (e & l' & E'). { rewrite E. destruct l; eauto. }
  destruct (C19_lims_are_extrema_partial m e0 e l' 3 nv nq nt ns E' H) as (d & Hd & Hx & _). pose proof Hx as [Hl _].
  destruct (l_pos d) as [|x [|y [|z [|]]]] eqn:Ep; cbn in Hl; try lia. exists x, y, z. split; [|exact Hx].
  unfold hexa_repr. rewrite Hd. cbn [rbind]. unfold lims_repr. rewrite Ep. cbn [lookup list_lookup of_opt rbind]. rewrite E. cbn [lookup list_lookup of_opt rbind].
  assert (last (e0 :: l ++ [e1]) = Some e1) as ->. { change (last ((e0 :: l) ++ [e1]) = Some e1). apply last_snoc. } cbn [of_opt rbind]. done.
Qed.
Print Assumptions C69_shown.

(** The centre shown for an element, over the real numbers: the point whose coordinates are the means of those of all points of
    the element. It lies between the extrema of the element, and for a linear element half way between opposite faces. *)
Open Scope R_scope.
Lemma mean_R (c : list R) : mean (A:=AR) c = foldr Rplus 0 c / INR (length c).
Proof.
  unfold mean. cbn [AR nofZ ndiv nadd num]. rewrite <- INR_IZR_INZ. f_equal.
  assert (∀ l a, foldl Rplus a l = a + foldr Rplus 0 l) as H. { induction l as [|x l IH]; intros a; cbn; [ring|]. rewrite IH. ring. }
  rewrite H. ring.
Qed.
Theorem C69_centroid_between (e : elem R) : wf_geom_elem (A:=AR) e → ∃ x y z cx cy cz, pos e = [x; y; z] ∧ centroid (A:=AR) e = [cx; cy; cz] ∧
  ∀ (c : list R) v, (c, v) ∈ [(x, cx); (y, cy); (z, cz)] → v * INR (length c) = foldr Rplus 0 c ∧ (∃ lo, lo ∈ c ∧ lo <= v) ∧ (∃ hi, hi ∈ c ∧ v <= hi).
Proof.
  intros (lx & ly & lz & _ & (Hx & Hy & Hz) & Hl & Hc). change (num AR) with R in *. destruct (pos e) as [|x [|y [|z [|]]]] eqn:Ep; cbn in Hl; try lia.
  exists x, y, z, (mean (A:=AR) x), (mean (A:=AR) y), (mean (A:=AR) z). split; [done|]. split; [unfold centroid; change (num AR) with R in *; rewrite Ep; done|].
  intros c v Hin. assert (c ∈ [x; y; z] ∧ v = mean (A:=AR) c) as [Hc' ->].
  { rewrite !elem_of_cons, elem_of_nil in Hin. destruct Hin as [[= -> ->]|[[= -> ->]|[[= -> ->]|[]]]]; (split; [set_solver|done]). }
  pose proof (Hc c Hc') as Hlen. assert (length c ≠ 0%nat) as Hn0 by nia. assert (INR (length c) ≠ 0) as Hn by (by apply not_0_INR).
  rewrite mean_R. split; [field; done|].
  assert (∀ (l : list R) k, l ≠ [] → (∀ t, t ∈ l → k < t) → k * INR (length l) < foldr Rplus 0 l) as Low.
  { induction l as [|t l IH]; intros k Hne Hk; [done|]. cbn [length foldr]. rewrite S_INR. pose proof (Hk t ltac:(by left)).
    destruct l as [|t' l]; [cbn; lra|]. specialize (IH k ltac:(done) ltac:(intros; apply Hk; by right)). lra. }
  assert (∀ (l : list R) k, l ≠ [] → (∀ t, t ∈ l → t < k) → foldr Rplus 0 l < k * INR (length l)) as High.
  { induction l as [|t l IH]; intros k Hne Hk; [done|]. cbn [length foldr]. rewrite S_INR. pose proof (Hk t ltac:(by left)).
    destruct l as [|t' l]; [cbn; lra|]. specialize (IH k ltac:(done) ltac:(intros; apply Hk; by right)). lra. }
  assert (c ≠ []) as Hne by (by destruct c). set (v := foldr Rplus 0 c / INR (length c)). assert (v * INR (length c) = foldr Rplus 0 c) as Ev by (unfold v; field; done).
  split.
  - destruct (Coq.Lists.List.Exists_dec (λ t, t <= v) c (λ t, Rle_dec t v)) as [Hex|Hex]; [apply Exists_exists in Hex as (lo & ? & ?); eauto|exfalso].
    assert (∀ t, t ∈ c → v < t) as Hall. { intros t Ht. apply Rnot_le_lt. intros X. apply Hex, Exists_exists. eauto. } pose proof (Low c v Hne Hall). lra.
  - destruct (Coq.Lists.List.Exists_dec (λ t, v <= t) c (λ t, Rle_dec v t)) as [Hex|Hex]; [apply Exists_exists in Hex as (lo & ? & ?); eauto|exfalso].
    assert (∀ t, t ∈ c → t < v) as Hall. { intros t Ht. apply Rnot_le_lt. intros X. apply Hex, Exists_exists. eauto. } pose proof (High c v Hne Hall). lra.
Qed.
Print Assumptions C69_centroid_between.
Theorem C69_centroid_faces (e : elem R) f g : wf_geom_elem (A:=AR) e → eshape e = (2, 2, 2)%nat ∨ eshape e = (2, 2, 1)%nat →
  (f, g) ∈ [(0%Z, 2%Z); (1%Z, 3%Z); (4%Z, 5%Z)] → ∃ p q : R * R * R, face_center (A:=AR) e f = Ok p ∧ face_center (A:=AR) e g = Ok q ∧
  centroid (A:=AR) e = [(p.1.1 + q.1.1) / 2; (p.1.2 + q.1.2) / 2; (p.2 + q.2) / 2].
Proof.
  intros (lx & ly & lz & Es & _ & Hl & Hc) Hsh Hfg. change (num AR) with R in *. destruct (pos e) as [|x [|y [|z [|]]]] eqn:Ep; cbn in Hl; try lia.
  pose proof (Hc x ltac:(set_solver)) as Lx. pose proof (Hc y ltac:(set_solver)) as Ly. pose proof (Hc z ltac:(set_solver)) as Lz. clear Hc Hl.
  assert (centroid (A:=AR) e = [mean (A:=AR) x; mean (A:=AR) y; mean (A:=AR) z]) as ->. { unfold centroid. change (num AR) with R. rewrite Ep. done. } rewrite !mean_R.
  assert (∀ a b c a' b' c' : R, a = a' → b = b' → c = c' → [a; b; c] = [a'; b'; c']) as H3 by congruence.
  destruct Hsh as [Hsh|Hsh]; rewrite Hsh in Es; injection Es as <- <- <-; cbn in Lx, Ly, Lz.
  - destruct x as [|x0 [|x1 [|x2 [|x3 [|x4 [|x5 [|x6 [|x7 [|]]]]]]]]]; try discriminate Lx. destruct y as [|y0 [|y1 [|y2 [|y3 [|y4 [|y5 [|y6 [|y7 [|]]]]]]]]]; try discriminate Ly.
    destruct z as [|z0 [|z1 [|z2 [|z3 [|z4 [|z5 [|z6 [|z7 [|]]]]]]]]]; try discriminate Lz.
    rewrite !elem_of_cons, elem_of_nil in Hfg. destruct Hfg as [[= -> ->]|[[= -> ->]|[[= -> ->]|[]]]];
      (eexists _, _; unfold face_center, point_py, point; change (num AR) with R; rewrite Hsh, Ep; (split; [reflexivity|]); (split; [reflexivity|]); apply H3; unfold mean4, nlit; cbn; field).
  - destruct x as [|x0 [|x1 [|x2 [|x3 [|]]]]]; try discriminate Lx. destruct y as [|y0 [|y1 [|y2 [|y3 [|]]]]]; try discriminate Ly. destruct z as [|z0 [|z1 [|z2 [|z3 [|]]]]]; try discriminate Lz.
    rewrite !elem_of_cons, elem_of_nil in Hfg. destruct Hfg as [[= -> ->]|[[= -> ->]|[[= -> ->]|[]]]];
      (eexists _, _; unfold face_center, point_py, point; change (num AR) with R; rewrite Hsh, Ep; (split; [reflexivity|]); (split; [reflexivity|]); apply H3; unfold mean4, nlit; cbn; field).
Qed.
Print Assumptions C69_centroid_faces.

(** The sample of C19, and an element of the reals. *)
Example C69_sample : ∃ e0 e1 l, elems box21 = e0 :: l ++ [e1] ∧ all_uniform (A:=A64) (elems box21) 3 3 0 0 0.
Proof.
  pose proof (proj2 C19_box) as H. assert (length (elems box21) = 2%nat) as L by (vm_compute; reflexivity).
  destruct (elems box21) as [|e0 [|e1 [|]]]; try discriminate L. exists e0, e1, []. done.
Qed.
Definition leaning : elem R := Elem (2, 2, 1)%nat [[0; 2; 1; 3]; [0; 0; 5; 7]; [0; 0; 0; 0]] [] [] [] [] [] [] [].
Example C69_centroid_sample : wf_geom_elem (A:=AR) leaning ∧ centroid (A:=AR) leaning = [3 / 2; 3; 0].
Proof.
  split.
  - exists 2%nat, 2%nat, 1%nat. split; [done|]. split; [lia|]. split; [done|]. intros c Hc. cbn in Hc. rewrite !elem_of_cons, elem_of_nil in Hc. destruct Hc as [->|[->|[->|[]]]]; done.
  - assert (∀ a b c a' b' c' : R, a = a' → b = b' → c = c' → [a; b; c] = [a'; b'; c']) as H3 by congruence. apply H3; rewrite mean_R; cbn; field.
Qed.
