(** The result of rotate_2d in closed form; two rotations in turn; rotation as a transformation of the plane (C82). *)
From Coq Require Import Lia Reals Lra.
From Verif Require Import Base Mesh MeshLemmas MeshSpec CheckProofs Core Tools Float Curve CurveSpec CurveProofs P_Curve WarpSpec WarpJoin WarpTwice.
Open Scope Z_scope.

Section form.
Context {A : arith}.
Notation N := (num A).
Implicit Types (e : elem N) (m : hexa N).
Definition rot_one (c s : N) (t : string) (row : list N) : list N := if String.eqb t "m" then rot_row c s row else row.
Definition rotated (c s : N) e : elem N :=
  match pos e with
  | xs :: ys :: rest => set_curv (zip_with (rot_one c s) (ccurv e) (curv e)) (set_pos (zip_with (rot_x c s) xs ys :: zip_with (rot_y c s) xs ys :: rest) e)
  | _ => e
  end.
Lemma rotate_elem_form c s e : (2 ≤ length (pos e))%nat → wf_curves e → rotate_elem c s e = Ok (rotated c s e).
Proof.
  intros Hl Hw. unfold rotated. destruct (pos e) as [|xs [|ys rest]] eqn:Ep; [cbn in Hl; lia|cbn in Hl; lia|]. rewrite (rotate_elem_eq c s e xs ys rest Ep).
  set (e1 := set_pos _ e). destruct (rot_steps c s e1 12) as (e' & E & D1 & D2 & D3 & D4); [done|lia|]. rewrite E. f_equal. rewrite D1. f_equal.
  destruct Hw as (W1 & W2 & W3). change (ccurv e1) with (ccurv e) in *. change (curv e1) with (curv e) in *.
  apply list_eq. intros i. rewrite lookup_zip_with. destruct (decide (i < 12)%nat) as [Hi|Hi].
  - destruct (lookup_lt_is_Some_2 (ccurv e) i ltac:(lia)) as [t Ht]. destruct (lookup_lt_is_Some_2 (curv e) i ltac:(lia)) as [row Hr]. rewrite Ht, Hr. cbn. unfold rot_one.
    destruct (String.eqb_spec t "m") as [->|Hn]; [by apply D3|]. rewrite D4; [done|]. right. rewrite Ht. congruence.
  - rewrite (lookup_ge_None_2 (ccurv e)) by lia. cbn. rewrite lookup_ge_None. lia.
Qed.
Lemma rotated_keeps c s e : (2 ≤ length (pos e))%nat → wf_curves e → (2 ≤ length (pos (rotated c s e)))%nat ∧ wf_curves (rotated c s e).
Proof.
  intros Hl (W1 & W2 & W3). unfold rotated. destruct (pos e) as [|xs [|ys rest]] eqn:Ep; [cbn in Hl; lia|cbn in Hl; lia|]. split; [cbn; lia|].
  split; [cbn [set_curv curv]; rewrite zip_with_length; lia|]. split; [|done]. cbn [set_curv curv]. apply Forall_lookup. intros i row Hi. rewrite lookup_zip_with in Hi.
  apply bind_Some in Hi as (t & _ & Hi). apply bind_Some in Hi as (r & Hr & Hi). apply (inj Some) in Hi as <-. pose proof (proj1 (Forall_lookup _ _) W2 i r Hr) as L. cbn in L.
  unfold rot_one. destruct (String.eqb t "m"); [|done]. destruct r as [|a [|b r]]; try done.
Qed.
Lemma rotate_2d_form c s x0 y0 m : (∀ e, e ∈ elems m → (2 ≤ length (pos e))%nat ∧ wf_curves e) → rotate_2d c s x0 y0 m = Ok (set_elems (rotated c s <$> elems m) m).
Proof.
  intros H. unfold rotate_2d. assert (mapR (rotate_elem c s) (elems m) = Ok (rotated c s <$> elems m)) as ->; [|done].
  induction (elems m) as [|e es IH]; [done|]. cbn [mapR]. destruct (H e) as [H1 H2]; [constructor|]. rewrite rotate_elem_form by done. cbn [rbind]. rewrite IH; [done|]. intros e' He'. apply H. by constructor.
Qed.
(** A flat element whose first four edges are straight or have stored middles, and whose other edges have none. *)
Lemma rotated_mapped c s e : element2d e → (∀ i, (i < 4)%nat → edge_type e i "" ∨ edge_type e i "m") → (∀ i, (4 <= i)%nat → ¬ edge_type e i "m") →
  map_elem (λ x y, (rot_x c s x y, rot_y c s x y)) false false e = Ok (e, rotated c s e).
Proof.
  intros He Hty Hno. set (f := λ x y, (rot_x c s x y, rot_y c s x y)). destruct (map_elem_full false false f e He) as (el & me & E & M & W & D1 & D2 & D3).
  pose proof He as (Hs & Lp & Lc & (W1 & W2 & W3) & _).
  assert (∀ i, (i < 4)%nat → to_curve false false e i → ccurv e !! i = Some "m"%string) as Hm.
  { intros i Hi [H|[(t & H & Ht)|(H & _)]]; [done| |done]. destruct (Hty i Hi) as [X|X]; [|exact X]. unfold edge_type in X. congruence. }
  assert (∀ i, (4 <= i)%nat ∨ ¬ to_curve false false e i → ccurv e !! i ≠ Some "m"%string) as Hm'.
  { intros i [Hi|Hn] X; [by apply (Hno i Hi)|]. apply Hn. right. left. by exists "m"%string. }
  rewrite E. f_equal. f_equal.
  - rewrite D1. assert (curv el = curv e) as ->; [|by destruct e]. apply list_eq. intros i.
    assert ((i < 4)%nat ∧ to_curve false false e i ∨ ((4 <= i)%nat ∨ ¬ to_curve false false e i)) as [[Hi Ht]|Hn].
    { destruct (decide (i < 4)%nat) as [Hi|Hi]; [|right; left; lia]. destruct (to_curve_dec false false e i He Hi); [by left|by right; right]. }
    + rewrite D2 by done. unfold arg_row. rewrite decide_False; [done|]. by rewrite (Hm i Hi Ht).
    + by apply D3.
  - destruct (pos e) as [|xs [|ys [|zs [|]]]] eqn:Ep; try done.
    assert (length xs = 4%nat) as Lx by (apply Lc; repeat constructor). assert (length ys = 4%nat) as Ly by (apply Lc; repeat constructor). assert (length zs = 4%nat) as Lz by (apply Lc; repeat constructor).
    assert (∀ i row, curv e !! i = Some row → ∀ t, ccurv e !! i = Some t → curv (rotated c s e) !! i = Some (rot_one c s t row)) as Hc.
    { intros i row Hr t Ht. unfold rotated. rewrite Ep. cbn [set_curv curv]. by rewrite lookup_zip_with, Ht, Hr. }
    assert (curv (rotated c s e) = zip_with (rot_one c s) (ccurv e) (curv e)) as Ecv by (unfold rotated; by rewrite Ep).
    assert (ccurv (rotated c s e) = ccurv e) as Ecc by (unfold rotated; by rewrite Ep).
    assert (pos (rotated c s e) = [zip_with (rot_x c s) xs ys; zip_with (rot_y c s) xs ys; zs]) as Epp by (unfold rotated; by rewrite Ep).
    assert (eshape (rotated c s e) = (2, 2, 1)%nat) as Ess by (unfold rotated; by rewrite Ep).
    eapply (mapped_unique false false f (emid e) e); try done.
    + split; [unfold rotated; rewrite Ep; done|]. split; [rewrite Ecv, zip_with_length; lia|]. split; [by rewrite Ecc|]. split.
      { intros j i x y z Hp. unfold point in Hp |- *. rewrite Hs, Ep in Hp. rewrite Ess, Epp.
        destruct xs as [|x0 [|x1 [|x2 [|x3 [|]]]]]; try done. destruct ys as [|y0 [|y1 [|y2 [|y3 [|]]]]]; try done. destruct zs as [|z0 [|z1 [|z2 [|z3 [|]]]]]; try done.
        destruct j as [|[|j]]; [| |done]; (destruct i as [|[|i]]; [| |done]); cbn in Hp |- *; by simplify_eq. }
      split.
      * intros i Hi Ht. pose proof (Hm i Hi Ht) as Hmi. split; [by rewrite Ecc|]. destruct (lookup_lt_is_Some_2 (curv e) i ltac:(lia)) as [row Hr].
        pose proof (proj1 (Forall_lookup _ _) W2 i row Hr) as L. cbn in L. destruct row as [|r0 [|r1 [|r2 [|r3 [|r4 [|]]]]]]; try done.
        exists r0, r1, r2, [r0; r1; r2; r3; r4]. split; [unfold emid, edge_mid; by rewrite Hr, Hmi|]. split; [done|]. by rewrite (Hc i _ Hr _ Hmi).
      * intros i Hn. split; [by rewrite Ecc|]. specialize (Hm' i Hn). destruct (curv e !! i) as [row|] eqn:Hr.
        -- destruct (lookup_lt_is_Some_2 (ccurv e) i) as [t Ht]; [apply lookup_lt_Some in Hr; lia|]. rewrite (Hc i row Hr t Ht). unfold rot_one. destruct (String.eqb_spec t "m") as [->|]; [done|done].
        -- rewrite lookup_ge_None in Hr |- *. rewrite Ecv, zip_with_length. lia.
    + exists 2%nat, 2%nat, 1%nat. split; [done|]. split; [lia|]. rewrite Epp. split; [done|]. intros l Hl. rewrite !elem_of_cons, elem_of_nil in Hl.
      destruct Hl as [->|[->|[->|[]]]]; rewrite ?zip_with_length; cbn; lia.
Qed.
End form.

(** ** Over the real numbers *)
Lemma rotated_twice a b (e : elem (num AR)) : rotated (A:=AR) (cos b) (sin b) (rotated (A:=AR) (cos a) (sin a) e) = rotated (A:=AR) (cos (a + b)) (sin (a + b)) e.
Proof.
  assert (∀ x y : num AR, rot_x (A:=AR) (cos b) (sin b) (rot_x (A:=AR) (cos a) (sin a) x y) (rot_y (A:=AR) (cos a) (sin a) x y) = rot_x (A:=AR) (cos (a + b)) (sin (a + b)) x y) as Hx.
  { intros x y. unfold rot_x, rot_y. cbn. rewrite cos_plus, sin_plus. ring. }
  assert (∀ x y : num AR, rot_y (A:=AR) (cos b) (sin b) (rot_x (A:=AR) (cos a) (sin a) x y) (rot_y (A:=AR) (cos a) (sin a) x y) = rot_y (A:=AR) (cos (a + b)) (sin (a + b)) x y) as Hy.
  { intros x y. unfold rot_x, rot_y. cbn. rewrite cos_plus, sin_plus. ring. }
  assert (∀ t row, rot_one (A:=AR) (cos b) (sin b) t (rot_one (A:=AR) (cos a) (sin a) t row) = rot_one (A:=AR) (cos (a + b)) (sin (a + b)) t row) as Hr.
  { intros t row. unfold rot_one. destruct (String.eqb t "m"); [|done]. destruct row as [|x [|y row]]; [done|done|]. cbn [rot_row]. by rewrite Hx, Hy. }
  unfold rotated at 2 3. destruct (pos e) as [|xs [|ys rest]] eqn:Ep; [unfold rotated; by rewrite Ep|unfold rotated; by rewrite Ep|].
  unfold rotated. cbn [set_curv set_pos pos curv ccurv eshape vel pres temp scal bcs]. 
  assert (∀ xs ys : list (num AR), zip_with (rot_x (A:=AR) (cos b) (sin b)) (zip_with (rot_x (A:=AR) (cos a) (sin a)) xs ys) (zip_with (rot_y (A:=AR) (cos a) (sin a)) xs ys) = zip_with (rot_x (A:=AR) (cos (a + b)) (sin (a + b))) xs ys ∧
    zip_with (rot_y (A:=AR) (cos b) (sin b)) (zip_with (rot_x (A:=AR) (cos a) (sin a)) xs ys) (zip_with (rot_y (A:=AR) (cos a) (sin a)) xs ys) = zip_with (rot_y (A:=AR) (cos (a + b)) (sin (a + b))) xs ys) as Hz.
  { clear -Hx Hy. induction xs as [|x xs IH]; intros ys; [done|]. destruct ys as [|y ys]; [done|]. cbn [zip_with]. destruct (IH ys) as [-> ->]. by rewrite Hx, Hy. }
  assert (∀ (ts : list string) rows, zip_with (rot_one (A:=AR) (cos b) (sin b)) ts (zip_with (rot_one (A:=AR) (cos a) (sin a)) ts rows) = zip_with (rot_one (A:=AR) (cos (a + b)) (sin (a + b))) ts rows) as Hc.
  { clear -Hr. induction ts as [|t ts IH]; intros rows; [done|]. destruct rows as [|r rows]; [done|]. cbn [zip_with]. by rewrite IH, Hr. }
  destruct (Hz xs ys) as [Z1 Z2]. unfold set_curv, set_pos. cbn [eshape vel pres temp scal curv ccurv bcs pos]. rewrite Hc. rewrite Z1. rewrite Z2. reflexivity.
Qed.
Lemma rotated_zero (e : elem (num AR)) : wf_geom_elem (A:=AR) e → wf_curves e → rotated (A:=AR) 1%R 0%R e = e.
Proof.
  intros (lx & ly & lz & _ & _ & Lp & Lc) (W1 & W2 & W3).
  assert (∀ x y : num AR, rot_x (A:=AR) 1%R 0%R x y = x ∧ rot_y (A:=AR) 1%R 0%R x y = y) as Hxy by (intros x y; unfold rot_x, rot_y; cbn; split; ring).
  unfold rotated. destruct (pos e) as [|xs [|ys rest]] eqn:Ep; [done|done|].
  assert (length xs = length ys) as L by (rewrite (Lc xs), (Lc ys) by (repeat constructor); done).
  assert (zip_with (rot_x (A:=AR) 1%R 0%R) xs ys = xs ∧ zip_with (rot_y (A:=AR) 1%R 0%R) xs ys = ys) as [Z1 Z2].
  { clear -Hxy L. revert ys L. induction xs as [|x xs IH]; intros [|y ys] L; try done. cbn [zip_with]. injection L as L. destruct (IH ys L) as [E1 E2]. destruct (Hxy x y) as [X1 X2]. split; f_equal; done. }
  assert (zip_with (rot_one (A:=AR) 1%R 0%R) (ccurv e) (curv e) = curv e) as Z3.
  { assert (length (ccurv e) = length (curv e)) as L2 by congruence. clear -Hxy L2. revert L2. generalize (ccurv e) (curv e). induction l as [|t l IH]; intros [|r l0] L2; try done. cbn [zip_with]. injection L2 as L2. rewrite (IH _ L2). f_equal.
    unfold rot_one. destruct (String.eqb t "m"); [|done]. destruct r as [|x [|y r]]; [done|done|]. cbn [rot_row]. destruct (Hxy x y) as [X1 X2]. f_equal; [done|]. f_equal; done. }
  rewrite Z1, Z2, Z3. destruct e. cbn in *. unfold set_curv, set_pos. cbn. by rewrite Ep.
Qed.
