(** C70: rotating a mesh and working on its connections commute, over the real numbers. *)
From Coq Require Import Lia Reals Lra.
From Verif Require Import Base Mesh Core Tools Float FloatLaws MeshLemmas MeshSpec CurveSpec CurveProofs BoxSpec BoxProofs Rigid
  Disc DiscSpec DiscDefaults DiscProofs P_Disc P_DiscJoin.
Open Scope Z_scope.

(** Every element has its points and its twelve curved edges. *)
Definition complete (m : hexa (num AR)) : Prop := ∀ e, e ∈ elems m → wf_geom_elem e ∧ wf_curves e.
Definition rotated (theta : R) (x0 y0 : R) (m : hexa (num AR)) : res (hexa (num AR)) := rotate_2d (A:=AR) (cos theta) (sin theta) x0 y0 m.

(** check_connectivity says the same (also which exception) about a mesh and the rotated mesh. *)
Theorem C70_check theta x0 y0 tol (m m' : hexa (num AR)) : complete m → rotated theta x0 y0 m = Ok m' →
  check_connectivity (A:=AR) tol m' = check_connectivity (A:=AR) tol m.
Proof. intros W H. exact (check_turned theta tol m m' (rotate_turned theta x0 y0 m m' W H)). Qed.
Print Assumptions C70_check.
(** Merging two rotated meshes gives the rotated merged mesh and the same number of connections (or the same exception). *)
Theorem C70_merge theta x0 y0 tol ignore_empty ignore_all (m m' o o' : hexa (num AR)) : complete m → complete o →
  rotated theta x0 y0 m = Ok m' → rotated theta x0 y0 o = Ok o' →
  rotated theta x0 y0 (merge (A:=AR) tol ignore_empty ignore_all m o).1 = Ok (merge (A:=AR) tol ignore_empty ignore_all m' o').1 ∧
  (merge (A:=AR) tol ignore_empty ignore_all m' o').2 = (merge (A:=AR) tol ignore_empty ignore_all m o).2.
Proof.
  intros W Wo H Ho. destruct (merge_turned theta tol ignore_empty ignore_all m m' o o' (rotate_turned theta x0 y0 m m' W H) (rotate_turned theta x0 y0 o o' Wo Ho)) as [H1 H2].
  split; [exact (turned_rotate theta x0 y0 _ _ H1)|exact H2].
Qed.
Print Assumptions C70_merge.
(** The same for generate_internal_bcs and delete_internal_bcs: mesh and number, or exception. *)
Definition commutes (theta x0 y0 : R) (f : hexa (num AR) → res (hexa (num AR) * Z)) (m m' : hexa (num AR)) : Prop :=
  match f m with
  | Ok (t, n) => ∃ t', f m' = Ok (t', n) ∧ rotated theta x0 y0 t = Ok t'
  | Raise e => f m' = Raise e
  end.
Lemma both_commutes theta x0 y0 f m m' : both (same_count theta) (f m) (f m') → commutes theta x0 y0 f m m'.
Proof.
  unfold both, commutes. destruct (f m) as [[t n]|e], (f m') as [[t' n']|e']; try done; [|by intros ->]. intros [H1 H2]. cbn [fst snd] in *. subst n'. exists t'.
  split; [done|]. exact (turned_rotate theta x0 y0 _ _ H1).
Qed.
Theorem C70_generate theta x0 y0 tol (m m' : hexa (num AR)) : complete m → rotated theta x0 y0 m = Ok m' →
  commutes theta x0 y0 (generate_internal_bcs (A:=AR) tol) m m' ∧ commutes theta x0 y0 (delete_internal_bcs (A:=AR)) m m'.
Proof.
  intros W H. pose proof (rotate_turned theta x0 y0 m m' W H) as T. split; apply both_commutes; [by apply generate_turned|by apply delete_turned].
Qed.
Print Assumptions C70_generate.

(** So the disc of gen_circle stays connected when it is turned by any angle; it is the non-trivial case for the hypotheses. *)
Lemma disc_complete bo r s ns no (cf bf : R → R) var bc (m : hexa R) : (1 ≤ no)%nat → gen_circle TR bo r s ns no cf bf var bc true = Ok m → complete m.
Proof.
  intros Hno E. destruct (gen_circle_inv TR bo r s ns no cf bf var bc true m Hno E) as [_ _ _ (l0 & l1 & l2 & l3 & l4 & El & K0 & K1 & K2 & K3 & K4)].
  assert (∀ l ni nj c cv, blocked (A:=AR) l ni nj c cv → (∀ i j, length (cv i j).1 = 12%nat ∧ length (cv i j).2 = 12%nat ∧ Forall (λ r, length r = 5%nat) (cv i j).2) → ∀ e, e ∈ l →
    wf_geom_elem (A:=AR) e ∧ wf_curves e) as HB.
  { intros l ni nj c cv [L B] Hcv e He. apply elem_of_list_lookup_1 in He as [k Hk]. pose proof (lookup_lt_Some _ _ _ Hk) as Hlt. rewrite L in Hlt.
    apply elnum_div in Hlt as (i & j & Hi & Hj & ->). destruct (B i j Hi Hj) as (e' & He' & [C D] & C1 & C2). rewrite Hk in He'. assert (e = e') as <- by congruence.
    split; [|unfold wf_curves; rewrite C1, C2; split_and!; apply Hcv]. exists 2%nat, 2%nat, 1%nat. split; [exact C|]. split; [lia|]. rewrite D. split; [done|].
    intros k Hk'. repeat (apply elem_of_cons in Hk' as [->|Hk']; [done|]). by apply elem_of_nil in Hk'. }
  assert (∀ i j : nat, length (no_curves (A:=AR)).1 = 12%nat ∧ length (no_curves (A:=AR)).2 = 12%nat ∧ Forall (λ r, length r = 5%nat) (no_curves (A:=AR)).2) as Hn.
  { intros _ _. split; [done|]. split; [done|]. repeat constructor. }
  assert (∀ i j, length (outer_curves (A:=AR) no r i j).1 = 12%nat ∧ length (outer_curves (A:=AR) no r i j).2 = 12%nat ∧ Forall (λ r, length r = 5%nat) (outer_curves (A:=AR) no r i j).2) as Ho.
  { intros i j. unfold outer_curves. destruct (_ =? _)%nat; [|by apply Hn]. split; [done|]. split; [done|]. repeat constructor. }
  intros e He. rewrite El, !elem_of_app in He. destruct He as [He|[He|[He|[He|He]]]].
  - exact (HB _ _ _ _ _ K0 Hn e He).
  - exact (HB _ _ _ _ _ K1 Ho e He).
  - exact (HB _ _ _ _ _ K2 Ho e He).
  - exact (HB _ _ _ _ _ K3 Ho e He).
  - exact (HB _ _ _ _ _ K4 Ho e He).
Qed.
Lemma complete_rotated theta x0 y0 m : complete m → ∃ m', rotated theta x0 y0 m = Ok m'.
Proof.
  intros W. unfold rotated, rotate_2d. assert (∃ l, mapR (rotate_elem (A:=AR) (cos theta) (sin theta)) (elems m) = Ok l) as [l ->]; [|by eexists].
  unfold complete in W. induction (elems m) as [|e es IH]; [by exists []|]. destruct IH as (l & E); [intros e' He'; apply W; by constructor|].
  destruct (rotate_elem_ok theta e) as (e' & Ee & M); [apply W; constructor|apply W; constructor|]. exists (e' :: l). cbn [mapR]. rewrite Ee. cbn [rbind]. by rewrite E.
Qed.
Open Scope R_scope.
Example C70_sample theta : ∃ m m' : hexa R, gen_circle TR "little" 1 (1 / 2) 2 2 default_curvature (λ x, x) [2; 2; 1; 0; 0]%nat ["W"%string] true = Ok m ∧
  complete m ∧ rotated theta 0 0 m = Ok m' ∧ check_connectivity (A:=AR) 0 m' = Ok true.
Proof.
  destruct C67_sample as (m & E & _ & C & _). assert (complete m) as W by (refine (disc_complete _ _ _ _ _ _ _ _ _ m _ E); lia).
  destruct (complete_rotated theta 0 0 m W) as [m' H]. exists m, m'. split; [exact E|]. split; [exact W|]. split; [exact H|]. exact (eq_trans (C70_check theta 0 0 0 m m' W H) C).
Qed.
