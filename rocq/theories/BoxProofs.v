(** Proofs about gen_box. *)
From Verif Require Import Base Mesh Core Tools MeshLemmas MeshSpec CheckProofs GeoLaws BoxSpec.
From Coq Require Import Lia.

Lemma elnum_inj nx i j i' j' : (i < nx)%nat → (i' < nx)%nat →
  elnum i j nx = elnum i' j' nx → i = i' ∧ j = j'.
Proof.
  unfold elnum. intros Hi Hi' H.
  assert (j = j') as ->; [|split; lia].
  destruct (Nat.lt_trichotomy j j') as [Hlt|[->|Hlt]]; [|done|]; exfalso; nia.
Qed.
Lemma elnum_lt nx ny i j : (i < nx)%nat → (j < ny)%nat → (elnum i j nx < nx * ny)%nat.
Proof. unfold elnum. intros. nia. Qed.
Lemma elnum_div nx ny k : (k < nx * ny)%nat →
  ∃ i j, (i < nx)%nat ∧ (j < ny)%nat ∧ k = elnum i j nx.
Proof.
  intros Hk. assert (0 < nx)%nat as Hn by nia.
  exists (k mod nx)%nat, (k / nx)%nat.
  split; [apply Nat.mod_upper_bound; lia|]. split; [apply Nat.div_lt_upper_bound; lia|].
  unfold elnum. pose proof (Nat.div_mod k nx). lia.
Qed.

Lemma foldM_pure {S B} (f : S → B → res S) (g : S → B → S) s l :
  (∀ s b, b ∈ l → f s b = Ok (g s b)) → foldM f s l = Ok (foldl g s l).
Proof.
  revert s. induction l as [|b l IH]; intros s H; cbn; [done|].
  rewrite H by left. cbn. apply IH. intros; apply H; by right.
Qed.

Section Box.
Context {A : arith}.
Notation N := (num A).
Implicit Types (e : elem N) (m : hexa N) (r : bcrec N).

(** ** One step of each loop, seen through one entry *)
Definition h_internal (nx ny i j f : nat) r : bcrec N :=
  let el := elnum i j nx in
  match f with
  | 0 => if negb (j =? 0) then box_link "E" (el + 1) 1 (elnum i (j - 1) nx + 1) 3 r else r
  | 1 => if negb (i =? nx - 1) then box_link "E" (el + 1) 2 (elnum (i + 1) j nx + 1) 4 r else r
  | 2 => if negb (j =? ny - 1) then box_link "E" (el + 1) 3 (elnum i (j + 1) nx + 1) 1 r else r
  | 3 => if negb (i =? 0) then box_link "E" (el + 1) 4 (elnum (i - 1) j nx + 1) 2 r else r
  | _ => r
  end%nat.

Lemma fmap_id_opt {X} (g : X → X) (o : option X) : (∀ x, g x = x) → o = g <$> o.
Proof. intros H. destruct o; cbn; [by rewrite H|done]. Qed.

Lemma box_internal_get nx ny m b i j i0 b0 j0 f0 : (i < nx)%nat → (i0 < nx)%nat →
  get_bc (box_internal nx ny m (b, i, j)) (elnum i0 j0 nx) b0 f0 =
  if decide ((b, i, j) = (b0, i0, j0)) then h_internal nx ny i0 j0 f0 <$> get_bc m (elnum i0 j0 nx) b0 f0
  else get_bc m (elnum i0 j0 nx) b0 f0.
Proof.
  intros Hi Hi0. unfold box_internal.
  destruct (decide _) as [[= -> -> ->]|Hne].
  - destruct f0 as [|[|[|[|f0]]]]; unfold h_internal;
      repeat match goal with
      | |- context [negb ?x] => destruct (negb x)
      end;
      repeat first [rewrite get_bc_alter_eq | rewrite get_bc_alter_ne by (intros [=])];
      try done; by apply fmap_id_opt.
  - assert (∀ k, (elnum i0 j0 nx, b0, f0) ≠ (elnum i j nx, b, k)) as Hk.
    { intros k [= He -> _]. apply elnum_inj in He as [-> ->]; done. }
    repeat match goal with
      | |- context [negb ?x] => destruct (negb x)
      end; repeat rewrite get_bc_alter_ne by apply Hk; done.
Qed.

Definition h_bt (nx ny : nat) (cb ct : string) (i j f : nat) r : bcrec N :=
  match f with
  | 0 => if (j =? 0) then box_bc cb (elnum i 0 nx + 1) 1 (elnum i (ny - 1) nx + 1) 3 r else r
  | 2 => if (j =? ny - 1) then box_bc ct (elnum i (ny - 1) nx + 1) 3 (elnum i 0 nx + 1) 1 r else r
  | _ => r
  end%nat.
Lemma box_bottom_top_get nx ny b cb ct m i i0 b0 j0 f0 : (i < nx)%nat → (i0 < nx)%nat →
  get_bc (box_bottom_top nx ny b cb ct m i) (elnum i0 j0 nx) b0 f0 =
  if decide ((b, i) = (b0, i0)) then h_bt nx ny cb ct i0 j0 f0 <$> get_bc m (elnum i0 j0 nx) b0 f0
  else get_bc m (elnum i0 j0 nx) b0 f0.
Proof.
  intros Hi Hi0. unfold box_bottom_top. rewrite !get_bc_alter.
  destruct (decide ((b, i) = (b0, i0))) as [[= -> ->]|Hne].
  - assert (∀ j k, (elnum i0 j0 nx, b0, f0) = (elnum i0 j nx, b0, k) ↔ j0 = j ∧ f0 = k) as Hk.
    { intros j k. split; [|by intros [-> ->]]. intros [= He ->].
      apply elnum_inj in He as [_ ->]; done. }
    destruct f0 as [|[|[|f0]]]; unfold h_bt.
    + rewrite (decide_False (P:=_ = (_, _, 2%nat))) by (rewrite Hk; lia).
      destruct (Nat.eqb_spec j0 0) as [->|Hj].
      * by rewrite decide_True by done.
      * rewrite decide_False by (rewrite Hk; lia). by apply fmap_id_opt.
    + rewrite !decide_False by (rewrite Hk; lia). by apply fmap_id_opt.
    + rewrite (decide_False (P:=_ = (_, _, 0%nat))) by (rewrite Hk; lia).
      destruct (Nat.eqb_spec j0 (ny - 1)) as [->|Hj].
      * by rewrite decide_True by done.
      * rewrite decide_False by (rewrite Hk; lia). by apply fmap_id_opt.
    + rewrite !decide_False by (rewrite Hk; lia). by apply fmap_id_opt.
  - assert (∀ j k, (elnum i0 j0 nx, b0, f0) ≠ (elnum i j nx, b, k)) as Hk.
    { intros j k [= He -> _]. apply elnum_inj in He as [-> ->]; done. }
    by rewrite !decide_False by apply Hk.
Qed.

Definition h_lr (nx : nat) (cl cr : string) (i j f : nat) r : bcrec N :=
  match f with
  | 1 => if (i =? nx - 1) then box_bc cr (elnum (nx - 1) j nx + 1) 2 (elnum 0 j nx + 1) 4 r else r
  | 3 => if (i =? 0) then box_bc cl (elnum 0 j nx + 1) 4 (elnum (nx - 1) j nx + 1) 2 r else r
  | _ => r
  end%nat.
Lemma box_left_right_get nx b cl cr m j i0 b0 j0 f0 : (i0 < nx)%nat →
  get_bc (box_left_right nx b cl cr m j) (elnum i0 j0 nx) b0 f0 =
  if decide ((b, j) = (b0, j0)) then h_lr nx cl cr i0 j0 f0 <$> get_bc m (elnum i0 j0 nx) b0 f0
  else get_bc m (elnum i0 j0 nx) b0 f0.
Proof.
  intros Hi0. unfold box_left_right. rewrite !get_bc_alter.
  destruct (decide ((b, j) = (b0, j0))) as [[= -> ->]|Hne].
  - assert (∀ i k, (i < nx)%nat → (elnum i0 j0 nx, b0, f0) = (elnum i j0 nx, b0, k) ↔ i0 = i ∧ f0 = k) as Hk.
    { intros i k Hi. split; [|by intros [-> ->]]. intros [= He ->].
      apply elnum_inj in He as [-> _]; done. }
    destruct f0 as [|[|[|[|f0]]]]; unfold h_lr.
    + rewrite !decide_False by (rewrite Hk; lia). by apply fmap_id_opt.
    + rewrite (decide_False (P:=_ = (_, _, 3%nat))) by (rewrite Hk; lia).
      destruct (Nat.eqb_spec i0 (nx - 1)) as [->|Hj].
      * by rewrite decide_True by done.
      * rewrite decide_False by (rewrite Hk; lia). by apply fmap_id_opt.
    + rewrite !decide_False by (rewrite Hk; lia). by apply fmap_id_opt.
    + rewrite (decide_False (P:=_ = (_, _, 1%nat))) by (rewrite Hk; lia).
      destruct (Nat.eqb_spec i0 0) as [->|Hj].
      * by rewrite decide_True by done.
      * rewrite decide_False by (rewrite Hk; lia). by apply fmap_id_opt.
    + rewrite !decide_False by (rewrite Hk; lia). by apply fmap_id_opt.
  - assert (∀ i k, (i < nx)%nat → (elnum i0 j0 nx, b0, f0) ≠ (elnum i j nx, b, k)) as Hk.
    { intros i k Hi [= He -> _]. apply elnum_inj in He as [-> ->]; done. }
    rewrite !decide_False by (apply Hk; lia). done.
Qed.

(** ** The whole loops *)
Lemma box_internal_all nx ny m nb i0 j0 b0 f0 : (i0 < nx)%nat → (j0 < ny)%nat → (b0 < nb)%nat →
  get_bc (foldl (box_internal nx ny) m (prod3 (range nb) (range nx) (range ny))) (elnum i0 j0 nx) b0 f0 =
  h_internal nx ny i0 j0 f0 <$> get_bc m (elnum i0 j0 nx) b0 f0.
Proof.
  intros Hi Hj Hb.
  apply (foldl_view_in (box_internal nx ny) (λ m, get_bc m (elnum i0 j0 nx) b0 f0)
           (fmap (h_internal nx ny i0 j0 f0)) (λ _, True) _ m (b0, i0, j0)).
  - apply NoDup_prod3; apply NoDup_range.
  - apply elem_of_prod3. rewrite !elem_of_range. done.
  - done.
  - done.
  - intros m' [[b i] j] _ Hin Hne. apply elem_of_prod3 in Hin as (_ & Hin & _).
    apply elem_of_range in Hin. rewrite box_internal_get by done. by rewrite decide_False.
  - intros m' _. rewrite box_internal_get by done. by rewrite decide_True.
Qed.

Definition bnd_step (nx ny : nat) (sd : nat → sides) m (b : nat) : hexa N :=
  foldl (box_left_right nx b (s_left (sd b)) (s_right (sd b)))
    (foldl (box_bottom_top nx ny b (s_bottom (sd b)) (s_top (sd b))) m (range nx)) (range ny).

Lemma bnd_step_get nx ny sd m b i0 b0 j0 f0 : (i0 < nx)%nat → (j0 < ny)%nat →
  get_bc (bnd_step nx ny sd m b) (elnum i0 j0 nx) b0 f0 =
  if decide (b = b0) then
    h_lr nx (s_left (sd b)) (s_right (sd b)) i0 j0 f0 <$>
      (h_bt nx ny (s_bottom (sd b)) (s_top (sd b)) i0 j0 f0 <$> get_bc m (elnum i0 j0 nx) b0 f0)
  else get_bc m (elnum i0 j0 nx) b0 f0.
Proof.
  intros Hi Hj. unfold bnd_step. destruct (decide (b = b0)) as [->|Hb].
  - rewrite (foldl_view_in _ (λ m, get_bc m (elnum i0 j0 nx) b0 f0)
      (fmap (h_lr nx (s_left (sd b0)) (s_right (sd b0)) i0 j0 f0)) (λ _, True) _ _ j0).
    + f_equal.
      rewrite (foldl_view_in _ (λ m, get_bc m (elnum i0 j0 nx) b0 f0)
        (fmap (h_bt nx ny (s_bottom (sd b0)) (s_top (sd b0)) i0 j0 f0)) (λ _, True) _ _ i0); try done.
      * apply NoDup_range.
      * by apply elem_of_range.
      * intros m' k _ Hin Hne. apply elem_of_range in Hin. rewrite box_bottom_top_get by done.
        rewrite decide_False; [done|]. by intros [= ->].
      * intros m' _. rewrite box_bottom_top_get by done. by rewrite decide_True.
    + apply NoDup_range.
    + by apply elem_of_range.
    + done.
    + done.
    + intros m' k _ Hin Hne. apply elem_of_range in Hin. rewrite box_left_right_get by done.
      rewrite decide_False; [done|]. by intros [= ->].
    + intros m' _. rewrite box_left_right_get by done. by rewrite decide_True.
  - rewrite (foldl_view_notin _ (λ m, get_bc m (elnum i0 j0 nx) b0 f0)).
    + rewrite (foldl_view_notin _ (λ m, get_bc m (elnum i0 j0 nx) b0 f0)); [done|].
      intros m' k Hin. apply elem_of_range in Hin. rewrite box_bottom_top_get by done.
      rewrite decide_False; [done|]. by intros [= ->].
    + intros m' k _. rewrite box_left_right_get by done.
      rewrite decide_False; [done|]. by intros [= ->].
Qed.

Lemma box_boundary_all nx ny sd m nb i0 j0 b0 f0 : (i0 < nx)%nat → (j0 < ny)%nat → (b0 < nb)%nat →
  get_bc (foldl (bnd_step nx ny sd) m (range nb)) (elnum i0 j0 nx) b0 f0 =
  h_lr nx (s_left (sd b0)) (s_right (sd b0)) i0 j0 f0 <$>
      (h_bt nx ny (s_bottom (sd b0)) (s_top (sd b0)) i0 j0 f0 <$> get_bc m (elnum i0 j0 nx) b0 f0).
Proof.
  intros Hi Hj Hb.
  apply (foldl_view_in (bnd_step nx ny sd) (λ m, get_bc m (elnum i0 j0 nx) b0 f0)
    (λ x, h_lr nx (s_left (sd b0)) (s_right (sd b0)) i0 j0 f0 <$>
      (h_bt nx ny (s_bottom (sd b0)) (s_top (sd b0)) i0 j0 f0 <$> x)) (λ _, True) _ m b0); try done.
  - apply NoDup_range.
  - by apply elem_of_range.
  - intros m' k _ Hin Hne. rewrite bnd_step_get by done. by rewrite decide_False.
  - intros m' _. rewrite bnd_step_get by done. by rewrite decide_True.
Qed.

(** ** Positions *)
Definition place_step (xs ys : nat → N) (nx : nat) m (x : nat * nat) : hexa N :=
  let '(i, j) := x in
  set_elems (alter (box_pos (xs i) (xs (i + 1)%nat) (ys j) (ys (j + 1)%nat))
    (elnum i j nx) (elems m)) m.
Lemma place_get xs ys nx ny m i0 j0 : (i0 < nx)%nat → (j0 < ny)%nat →
  elems (foldl (place_step xs ys nx) m (prod2 (range nx) (range ny))) !! elnum i0 j0 nx =
  box_pos (xs i0) (xs (i0 + 1)%nat) (ys j0) (ys (j0 + 1)%nat) <$> elems m !! elnum i0 j0 nx.
Proof.
  intros Hi Hj.
  apply (foldl_view_in (place_step xs ys nx) (λ m, elems m !! elnum i0 j0 nx)
    (fmap (box_pos (xs i0) (xs (i0 + 1)%nat) (ys j0) (ys (j0 + 1)%nat))) (λ _, True) _ m (i0, j0)).
  - apply NoDup_prod2; apply NoDup_range.
  - apply elem_of_prod2. by rewrite !elem_of_range.
  - done.
  - done.
  - intros m' [i j] _ Hin Hne. apply elem_of_prod2 in Hin as [Hin _]. apply elem_of_range in Hin.
    cbn. rewrite list_lookup_alter_ne; [done|]. intros He.
    apply elnum_inj in He as [-> ->]; done.
  - intros m' _. cbn. by rewrite list_lookup_alter.
Qed.
Lemma place_rest xs ys nx l m : 
  set_elems [] (foldl (place_step xs ys nx) m l) = set_elems [] m ∧
  length (elems (foldl (place_step xs ys nx) m l)) = length (elems m).
Proof.
  apply (foldl_inv _ (λ m', set_elems [] m' = set_elems [] m ∧ length (elems m') = length (elems m))).
  - done.
  - intros m' [i j] _ [H1 H2]. split; [exact H1|]. cbn. by rewrite alter_length.
Qed.

Lemma box_strip nx ny sd nb m : strip (foldl (bnd_step nx ny sd) m (range nb)) = strip m ∧
  bshape (foldl (bnd_step nx ny sd) m (range nb)) = bshape m.
Proof.
  apply (foldl_inv _ (λ m', strip m' = strip m ∧ bshape m' = bshape m)); [done|].
  intros m' b _ [H1 H2]. unfold bnd_step.
  apply (foldl_inv _ (λ m', strip m' = strip m ∧ bshape m' = bshape m)).
  - apply (foldl_inv _ (λ m', strip m' = strip m ∧ bshape m' = bshape m)); [done|].
    intros m1 k _ [H3 H4]. unfold box_bottom_top. rewrite !strip_alter, !bshape_alter. done.
  - intros m1 k _ [H3 H4]. unfold box_left_right. rewrite !strip_alter, !bshape_alter. done.
Qed.
Lemma box_internal_strip nx ny l m : strip (foldl (box_internal nx ny) m l) = strip m ∧
  bshape (foldl (box_internal nx ny) m l) = bshape m.
Proof.
  apply (foldl_inv _ (λ m', strip m' = strip m ∧ bshape m' = bshape m)); [done|].
  intros m' [[b i] j] _ [H1 H2]. unfold box_internal.
  repeat match goal with |- context [negb ?x] => destruct (negb x) end;
    rewrite ?strip_alter, ?bshape_alter; done.
Qed.
End Box.

(** ** The result *)
Section Result.
Context {A : arith}.
Notation N := (num A).
Implicit Types (e : elem N) (m : hexa N) (r : bcrec N).

Lemma new_hexa_get (z : N) bo nd ne k l v nb i b f : (i < ne)%nat → (b < nb)%nat → (f < 6)%nat →
  get_bc (new_hexa z bo nd ne k l v nb) i b f = Some (zero_bc z).
Proof.
  intros Hi Hb Hf. unfold get_bc, new_hexa. cbn [elems]. rewrite lookup_replicate_2 by done. cbn.
  rewrite lookup_replicate_2 by done. cbn. change (_ :: _) with (replicate 6 (zero_bc z)).
  by rewrite lookup_replicate_2.
Qed.

Lemma place_bcs (xs ys : nat → N) nx l m i b f :
  get_bc (foldl (place_step xs ys nx) m l) i b f = get_bc m i b f.
Proof.
  apply (foldl_view_notin _ (λ m, get_bc m i b f)). intros m' [i' j'] _.
  unfold get_bc. cbn. destruct (decide (i = elnum i' j' nx)) as [->|Hne].
  - rewrite list_lookup_alter. by destruct (elems m' !! _).
  - by rewrite list_lookup_alter_ne.
Qed.

Section Run.
Context (bo : string) (nx ny : nat) (xmin xmax ymin ymax : N) (var : list nat)
  (bxmin bxmax bymin bymax : option (list string)) (nb : nat) (sd : nat → sides).
Let per := replicate nb "P"%string.
Hypothesis Hnb : box_nbc var = Ok nb.
Hypothesis Hx : nleb (nsub xmax xmin) (nofZ 0) = false.
Hypothesis Hy : nleb (nsub ymax ymin) (nofZ 0) = false.
Hypothesis Hnx : (1 ≤ nx)%nat.
Hypothesis Hny : (1 ≤ ny)%nat.
Hypothesis Hsd : ∀ b, (b < nb)%nat →
  sides_of (default per bxmin) (default per bxmax) (default per bymin) (default per bymax) b = Some (sd b).

Definition box0 : hexa N := new_hexa (nofZ 0) bo 2 (nx * ny) PyList [2; 2; 1]%nat var nb.
Definition box1 : hexa N :=
  foldl (place_step (grid_coord xmin xmax nx) (grid_coord ymin ymax ny) nx) box0
    (prod2 (range nx) (range ny)).
Definition box2 (internal : bool) : hexa N :=
  if internal then foldl (box_internal nx ny) box1 (prod3 (range nb) (range nx) (range ny)) else box1.
Definition box3 internal : hexa N := foldl (bnd_step nx ny sd) (box2 internal) (range nb).

Lemma gen_box_eq internal :
  gen_box bo nx ny xmin xmax ymin ymax var bxmin bxmax bymin bymax internal = Ok (box3 internal).
Proof.
  unfold gen_box. rewrite Hnb. cbn [rbind]. rewrite Hx, Hy. cbv zeta.
  destruct (Nat.eqb_spec nx 0); [lia|]. destruct (Nat.eqb_spec ny 0); [lia|].
  cbn [orb negb andb]. rewrite andb_false_r. cbn [andb].
  rewrite (foldM_pure _ (bnd_step nx ny sd)); [done|].
  intros m b Hb. apply elem_of_range in Hb. specialize (Hsd b Hb). unfold sides_of in Hsd.
  unfold box_boundary, bnd_step. subst per.
  destruct (default (replicate nb "P"%string) bxmin !! b) as [l|]; [|done].
  destruct (default (replicate nb "P"%string) bxmax !! b) as [r|]; [|done].
  destruct (default (replicate nb "P"%string) bymin !! b) as [bo'|]; [|done].
  destruct (default (replicate nb "P"%string) bymax !! b) as [t|]; [|done].
  injection Hsd as <-. done.
Qed.

Lemma box3_strip internal : strip (box3 internal) = strip box1 ∧ bshape (box3 internal) = bshape box1.
Proof.
  unfold box3. destruct (box_strip nx ny sd nb (box2 internal)) as [-> ->]. unfold box2.
  destruct internal; [apply box_internal_strip|done].
Qed.

Lemma box1_elem i j : (i < nx)%nat → (j < ny)%nat →
  elems box1 !! elnum i j nx =
  Some (box_pos (grid_coord xmin xmax nx i) (grid_coord xmin xmax nx (i + 1))
          (grid_coord ymin ymax ny j) (grid_coord ymin ymax ny (j + 1))
          (new_elem (nofZ 0) var (2, 2, 1)%nat nb)).
Proof.
  intros Hi Hj. unfold box1. rewrite place_get by done. unfold box0, new_hexa. cbn [elems].
  rewrite lookup_replicate_2 by (by apply elnum_lt). done.
Qed.

Lemma box3_grid internal : is_grid nx ny xmin xmax ymin ymax (box3 internal) ∧
  nbc (box3 internal) = nb ∧ lr1 (box3 internal) = [2;2;1]%nat ∧ Mesh.var (box3 internal) = var.
Proof.
  destruct (box3_strip internal) as [Hs _].
  pose proof (strip_fields _ _ Hs) as (E1 & E2 & E3 & E4 & E5 & E6 & E7 & E8 & E9).
  destruct (place_rest (grid_coord xmin xmax nx) (grid_coord ymin ymax ny) nx
    (prod2 (range nx) (range ny)) box0) as [Hr Hl]. fold box1 in Hr, Hl.
  pose proof (f_equal ndim Hr) as F1. pose proof (f_equal nel Hr) as F2.
  pose proof (f_equal ncurv Hr) as F3. pose proof (f_equal nbc Hr) as F4.
  pose proof (f_equal Mesh.var Hr) as F5. pose proof (f_equal lr1 Hr) as F6.
  pose proof (f_equal elmap Hr) as F7.
  cbn [ndim nel ncurv nbc Mesh.var lr1 elmap set_elems box0 new_hexa] in *.
  split_and!; [|congruence|congruence|congruence].
  split; [congruence|]. split; [congruence|].
  split; [rewrite E9, Hl; unfold box0, new_hexa; cbn [elems]; apply replicate_length|].
  split; [congruence|]. split; [rewrite E8, F7; done|].
  intros i j Hi Hj. pose proof (box1_elem i j Hi Hj) as He.
  destruct (strip_elem_lookup _ _ _ _ (eq_sym Hs) He) as (e & He' & Hst).
  exists e. split; [exact He'|].
  unfold strip_elem, set_bcs in Hst. injection Hst as H1 H2 H3 H4 H5 H6 H7 H8.
  split; [by rewrite H1|]. split; [by rewrite H2|by rewrite H8].
Qed.

Lemma box3_wf internal : wf_mesh (box3 internal).
Proof.
  destruct (box3_grid internal) as [(G1 & G2 & G3 & _ & _ & G6) (Gn & _)].
  split.
  - split; [by left|]. split; [congruence|].
    intros e He. apply elem_of_list_lookup in He as (k & Hk).
    assert (bshape (box3 internal) !! k = Some (length <$> bcs e)) as Hb.
    { unfold bshape. by rewrite list_lookup_fmap, Hk. }
    assert (k < nx * ny)%nat as Hlt by (rewrite <- G3; by eapply lookup_lt_Some).
    apply elnum_div in Hlt as (i & j & Hi & Hj & ->).
    rewrite (proj2 (box3_strip internal)) in Hb. unfold bshape in Hb.
    rewrite list_lookup_fmap, box1_elem in Hb by done. cbn [fmap option_fmap option_map] in Hb.
    apply (inj Some) in Hb. cbn [box_pos set_pos bcs new_elem] in Hb.
    rewrite fmap_replicate in Hb. split.
    + apply (f_equal length) in Hb. by rewrite fmap_length, replicate_length, <- Gn in Hb.
    + intros row Hrow. assert (length row ∈ length <$> bcs e) as Hin by (by apply elem_of_list_fmap_1).
      rewrite <- Hb in Hin. apply elem_of_replicate in Hin as [? _]. done.
  - intros e He. apply elem_of_list_lookup in He as (k & Hk).
    assert (k < nx * ny)%nat as Hlt by (rewrite <- G3; by eapply lookup_lt_Some).
    apply elnum_div in Hlt as (i & j & Hi & Hj & ->).
    destruct (G6 i j Hi Hj) as (e' & He' & Hs & Hp & _). unfold elnum in Hk.
    rewrite He' in Hk. apply (inj Some) in Hk as <-.
    exists 2%nat, 2%nat, 1%nat. split; [done|]. split; [lia|]. rewrite Hp. split; [done|].
    intros c Hc. repeat (apply elem_of_cons in Hc as [->|Hc]; [done|]). by apply elem_of_nil in Hc.
Qed.

Lemma box3_get internal i j b f : (i < nx)%nat → (j < ny)%nat → (b < nb)%nat → (f < 6)%nat →
  get_bc (box3 internal) (elnum i j nx) b f =
  Some (h_lr nx (s_left (sd b)) (s_right (sd b)) i j f
     (h_bt nx ny (s_bottom (sd b)) (s_top (sd b)) i j f
        ((if internal then h_internal nx ny i j f else λ r, r) (zero_bc (nofZ 0))))).
Proof.
  intros Hi Hj Hb Hf. unfold box3. rewrite box_boundary_all by done. unfold box2.
  assert (get_bc box1 (elnum i j nx) b f = Some (zero_bc (nofZ 0))) as H1.
  { unfold box1. rewrite place_bcs. unfold box0. apply new_hexa_get; [|done|done].
    by apply elnum_lt. }
  destruct internal; [rewrite box_internal_all by done|]; rewrite H1; done.
Qed.

Lemma box_bc_spec t el f ce cf (r : bcrec N) : u3 t = t → t ≠ "E"%string →
  bt (box_bc t el f ce cf r) = t ∧ bel (box_bc t el f ce cf r) = Z.of_nat el ∧
  bface (box_bc t el f ce cf r) = Z.of_nat f ∧
  (is_conn t → bp3 (box_bc t el f ce cf r) = nofZ (Z.of_nat ce) ∧
               bp4 (box_bc t el f ce cf r) = nofZ (Z.of_nat cf)).
Proof.
  intros Hu HE. unfold box_bc. destruct (String.eqb_spec t "P") as [->|HP].
  - done.
  - cbn. split; [done|]. split; [done|]. split; [done|]. intros [?| ?]; done.
Qed.

Lemma box3_entry i j b f : (i < nx)%nat → (j < ny)%nat → (b < nb)%nat → (f < 4)%nat →
  sides_ok (sd b) →
  ∃ r, get_bc (box3 true) (i + nx * j)%nat b f = Some r ∧ is_cell_bc nx ny (sd b) i j f r.
Proof.
  intros Hi Hj Hb Hf (S1 & S2 & S3 & S4 & _).
  change (i + nx * j)%nat with (elnum i j nx). rewrite box3_get by lia.
  eexists; split; [reflexivity|]. unfold is_cell_bc, cell_face.
  destruct f as [|[|[|[|f]]]]; [| | | |lia]; cbn [h_lr h_bt h_internal].
  - destruct (Nat.eqb_spec j 0) as [->|Hj0].
    + rewrite decide_True by done. cbn [negb].
      match goal with |- context [box_bc ?t ?el ?f ?ce ?cf ?r] =>
        destruct (box_bc_spec t el f ce cf r) as (B1 & B2 & B3 & B4); [apply S1..|];
        rewrite B1, B2, B3 end.
      split; [done|]. split; [unfold elnum; lia|]. split; [lia|]. intros Hc.
      destruct (B4 Hc) as [B5 B6]. unfold points. rewrite B5, B6. unfold elnum. split; f_equal; rewrite ?Nat2Z.inj_add; first [reflexivity|lia].
    + rewrite decide_False by done. cbn [negb box_link bt bel bface].
      split; [done|]. split; [unfold elnum; lia|]. split; [lia|]. intros _.
      unfold points, box_link. cbn [bp3 bp4]. unfold elnum. split; f_equal; rewrite ?Nat2Z.inj_add; first [reflexivity|lia].
  - destruct (Nat.eqb_spec i (nx - 1)) as [->|Hj0].
    + rewrite decide_True by done. cbn [negb].
      match goal with |- context [box_bc ?t ?el ?f ?ce ?cf ?r] =>
        destruct (box_bc_spec t el f ce cf r) as (B1 & B2 & B3 & B4); [apply S2..|];
        rewrite B1, B2, B3 end.
      split; [done|]. split; [unfold elnum; lia|]. split; [lia|]. intros Hc.
      destruct (B4 Hc) as [B5 B6]. unfold points. rewrite B5, B6. unfold elnum. split; f_equal; rewrite ?Nat2Z.inj_add; first [reflexivity|lia].
    + rewrite decide_False by done. cbn [negb box_link bt bel bface].
      split; [done|]. split; [unfold elnum; lia|]. split; [lia|]. intros _.
      unfold points, box_link. cbn [bp3 bp4]. unfold elnum. split; f_equal; rewrite ?Nat2Z.inj_add; first [reflexivity|lia].
  - destruct (Nat.eqb_spec j (ny - 1)) as [->|Hj0].
    + rewrite decide_True by done. cbn [negb].
      match goal with |- context [box_bc ?t ?el ?f ?ce ?cf ?r] =>
        destruct (box_bc_spec t el f ce cf r) as (B1 & B2 & B3 & B4); [apply S3..|];
        rewrite B1, B2, B3 end.
      split; [done|]. split; [unfold elnum; lia|]. split; [lia|]. intros Hc.
      destruct (B4 Hc) as [B5 B6]. unfold points. rewrite B5, B6. unfold elnum. split; f_equal; rewrite ?Nat2Z.inj_add; first [reflexivity|lia].
    + rewrite decide_False by done. cbn [negb box_link bt bel bface].
      split; [done|]. split; [unfold elnum; lia|]. split; [lia|]. intros _.
      unfold points, box_link. cbn [bp3 bp4]. unfold elnum. split; f_equal; rewrite ?Nat2Z.inj_add; first [reflexivity|lia].
  - destruct (Nat.eqb_spec i 0) as [->|Hj0].
    + rewrite decide_True by done. cbn [negb].
      match goal with |- context [box_bc ?t ?el ?f ?ce ?cf ?r] =>
        destruct (box_bc_spec t el f ce cf r) as (B1 & B2 & B3 & B4); [apply S4..|];
        rewrite B1, B2, B3 end.
      split; [done|]. split; [unfold elnum; lia|]. split; [lia|]. intros Hc.
      destruct (B4 Hc) as [B5 B6]. unfold points. rewrite B5, B6. unfold elnum. split; f_equal; rewrite ?Nat2Z.inj_add; first [reflexivity|lia].
    + rewrite decide_False by done. cbn [negb box_link bt bel bface].
      split; [done|]. split; [unfold elnum; lia|]. split; [lia|]. intros _.
      unfold points, box_link. cbn [bp3 bp4]. unfold elnum. split; f_equal; rewrite ?Nat2Z.inj_add; first [reflexivity|lia].
Qed.

(** Without internal conditions the inner faces are left empty and the outer ones are the
    same. *)
Lemma box3_entry_no_internal i j b f : (i < nx)%nat → (j < ny)%nat → (b < nb)%nat → (f < 4)%nat →
  (on_boundary nx ny i j f →
    bt <$> get_bc (box3 false) (i + nx * j)%nat b f = bt <$> get_bc (box3 true) (i + nx * j)%nat b f) ∧
  (¬ on_boundary nx ny i j f → get_bc (box3 false) (i + nx * j)%nat b f = Some (zero_bc (nofZ 0))).
Proof.
  intros Hi Hj Hb Hf.
  change (i + nx * j)%nat with (elnum i j nx). rewrite !box3_get by lia.
  destruct f as [|[|[|[|f]]]]; [| | | |lia]; cbn [h_lr h_bt h_internal on_boundary].
  - destruct (Nat.eqb_spec j 0); done.
  - destruct (Nat.eqb_spec i (nx - 1)); done.
  - destruct (Nat.eqb_spec j (ny - 1)); done.
  - destruct (Nat.eqb_spec i 0); done.
Qed.
End Run.

(** ** Connectivity of a grid *)
Lemma cell_face_center e x0 x1 y0 y1 : is_cell e x0 x1 y0 y1 →
  face_center e 0 = Ok (mean4 x0 x0 x1 x1, mean4 y0 y0 y0 y0, mean4 (nofZ 0) (nofZ 0) (nofZ 0) (nofZ 0)) ∧
  face_center e 1 = Ok (mean4 x1 x1 x1 x1, mean4 y0 y0 y1 y1, mean4 (nofZ 0) (nofZ 0) (nofZ 0) (nofZ 0)) ∧
  face_center e 2 = Ok (mean4 x0 x0 x1 x1, mean4 y1 y1 y1 y1, mean4 (nofZ 0) (nofZ 0) (nofZ 0) (nofZ 0)) ∧
  face_center e 3 = Ok (mean4 x0 x0 x0 x0, mean4 y0 y0 y1 y1, mean4 (nofZ 0) (nofZ 0) (nofZ 0) (nofZ 0)).
Proof.
  intros (Hs & Hp & _). unfold face_center, point_py, point. rewrite Hs, Hp.
  split_and!; reflexivity.
Qed.

Section Conn.
Context (bnd : Z) (LA : arith_laws A bnd) (LG : geo_laws A).

Lemma grid_connectivity nx ny xmin xmax ymin ymax nb (sd : nat → sides) m tol :
  wf_mesh m → is_grid nx ny xmin xmax ymin ymax m → nbc m = nb →
  (∀ b, (b < nb)%nat → sides_ok (sd b)) →
  (∀ i j b f, (i < nx)%nat → (j < ny)%nat → (b < nb)%nat → (f < 4)%nat →
     ∃ r, get_bc m (i + nx * j)%nat b f = Some r ∧ is_cell_bc nx ny (sd b) i j f r) →
  Z.of_nat (nx * ny) <= bnd → 4 <= bnd → nleb (nofZ 0) tol = true →
  valid_connectivity tol m.
Proof.
  intros Hw (G1 & G2 & G3 & _ & _ & G6) Hnb Hs Hent Hbnd Hb4 Htol.
  intros k b f r (Hk & Hb & Hf) Hr Hc. rewrite G2 in Hk. rewrite Hnb in Hb. rewrite G1 in Hf.
  assert (Hf4 : (f < 4)%nat) by lia. clear Hf.
  apply elnum_div in Hk as (i & j & Hi & Hj & ->). unfold elnum in *.
  destruct (Hent i j b f Hi Hj Hb Hf4) as (r0 & Hr0 & Hc0).
  rewrite Hr in Hr0. apply (inj Some) in Hr0 as <-.
  unfold is_cell_bc in Hc0.
  (* the face on the other side is a face of the grid, with the same condition, and its
     other side is this face *)
  assert (∀ t i' j' f', cell_face nx ny (sd b) i j f = (t, (i', j', f')) → is_conn t →
    (i' < nx)%nat ∧ (j' < ny)%nat ∧ (f' < 4)%nat ∧
    cell_face nx ny (sd b) i' j' f' = (t, (i, j, f)) ∧
    (t = "E"%string → same_place tol m (i + nx * j) f (i' + nx * j') f')) as Hcf.
  { destruct (Hs b Hb) as (S1 & S2 & S3 & S4 & S5 & S6).
    intros t i' j' f' Hcell Ht. unfold cell_face in Hcell.
    assert (∀ i' j' f', (i' < nx)%nat → (j' < ny)%nat →
      (∀ e e', elems m !! (i + nx * j)%nat = Some e → elems m !! (i' + nx * j')%nat = Some e' →
        ∃ c, face_center e (Z.of_nat f) = Ok c ∧ face_center e' (Z.of_nat f') = Ok c) →
      same_place tol m (i + nx * j) f (i' + nx * j') f') as Hplace.
    { intros i1 j1 f1 Hi1 Hj1 Hfc.
      destruct (G6 i j Hi Hj) as (e & He & _). destruct (G6 i1 j1 Hi1 Hj1) as (e1 & He1 & _).
      destruct (Hfc e e1 He He1) as (c & C1 & C2).
      destruct Hw as [_ Hg].
      destruct (smallest_edge_Ok e) as [s Hse]; [apply Hg; by eapply elem_of_list_lookup_2|].
      destruct (smallest_edge_Ok e1) as [s1 Hse1]; [apply Hg; by eapply elem_of_list_lookup_2|].
      exists e, e1, c, c, s, s1. repeat (split; [done|]).
      destruct (smallest_edge_sqrt _ _ Hse) as [q ->]. destruct (smallest_edge_sqrt _ _ Hse1) as [q1 ->].
      by apply (geo_self A LG). }
    assert (∀ a b, (a < nx)%nat → (b < ny)%nat → ∀ e, elems m !! (a + nx * b)%nat = Some e →
      is_cell e (grid_coord xmin xmax nx a) (grid_coord xmin xmax nx (a + 1))
              (grid_coord ymin ymax ny b) (grid_coord ymin ymax ny (b + 1))) as Hcl.
    { intros a c Ha Hc' e He. destruct (G6 a c Ha Hc') as (e' & He' & Hcell').
      rewrite He in He'. by apply (inj Some) in He' as <-. }
    destruct f as [|[|[|[|f]]]]; [| | | |lia]; case_decide; injection Hcell as <- <- <- <-;
      (split; [lia|]); (split; [lia|]); (split; [lia|]); cbn [cell_face].
    - subst j. split; [|intros HE; by destruct S1 as (_ & ? & _)].
      rewrite decide_True by done. destruct Ht as [Ht|Ht]; [by destruct S1 as (_ & ? & _)|].
      by rewrite Ht, (proj1 S5 Ht).
    - split; [rewrite decide_False by lia; by replace (j - 1 + 1)%nat with j by lia|].
      intros _. apply Hplace; [lia|lia|]. intros e e' He He'.
      pose proof (cell_face_center e _ _ _ _ (Hcl i j Hi Hj e He)) as F.
      pose proof (cell_face_center e' _ _ _ _ (Hcl i (j - 1)%nat Hi ltac:(lia) e' He')) as G. replace (j - 1 + 1)%nat with j in G by lia.
      destruct F as (F0 & F1 & F2 & F3), G as (G0' & G1' & G2' & G3').
      eexists. split; [exact F0|exact G2'].
    - subst i. split; [|intros HE; by destruct S2 as (_ & ? & _)].
      rewrite decide_True by done. destruct Ht as [Ht|Ht]; [by destruct S2 as (_ & ? & _)|].
      by rewrite Ht, (proj2 S6 Ht).
    - split; [rewrite decide_False by lia; by replace (i + 1 - 1)%nat with i by lia|].
      intros _. apply Hplace; [lia|lia|]. intros e e' He He'.
      pose proof (cell_face_center e _ _ _ _ (Hcl i j Hi Hj e He)) as F.
      pose proof (cell_face_center e' _ _ _ _ (Hcl (i + 1)%nat j ltac:(lia) Hj e' He')) as G.
      destruct F as (F0 & F1 & F2 & F3), G as (G0' & G1' & G2' & G3').
      eexists. split; [exact F1|exact G3'].
    - subst j. split; [|intros HE; by destruct S3 as (_ & ? & _)].
      rewrite decide_True by done. destruct Ht as [Ht|Ht]; [by destruct S3 as (_ & ? & _)|].
      by rewrite Ht, (proj2 S5 Ht).
    - split; [rewrite decide_False by lia; by replace (j + 1 - 1)%nat with j by lia|].
      intros _. apply Hplace; [lia|lia|]. intros e e' He He'.
      pose proof (cell_face_center e _ _ _ _ (Hcl i j Hi Hj e He)) as F.
      pose proof (cell_face_center e' _ _ _ _ (Hcl i (j + 1)%nat Hi ltac:(lia) e' He')) as G.
      destruct F as (F0 & F1 & F2 & F3), G as (G0' & G1' & G2' & G3').
      eexists. split; [exact F2|exact G0'].
    - subst i. split; [|intros HE; by destruct S4 as (_ & ? & _)].
      rewrite decide_True by done. destruct Ht as [Ht|Ht]; [by destruct S4 as (_ & ? & _)|].
      by rewrite Ht, (proj1 S6 Ht).
    - split; [rewrite decide_False by lia; by replace (i - 1 + 1)%nat with i by lia|].
      intros _. apply Hplace; [lia|lia|]. intros e e' He He'.
      pose proof (cell_face_center e _ _ _ _ (Hcl i j Hi Hj e He)) as F.
      pose proof (cell_face_center e' _ _ _ _ (Hcl (i - 1)%nat j ltac:(lia) Hj e' He')) as G. replace (i - 1 + 1)%nat with i in G by lia.
      destruct F as (F0 & F1 & F2 & F3), G as (G0' & G1' & G2' & G3').
      eexists. split; [exact F3|exact G1']. }
  destruct (cell_face nx ny (sd b) i j f) as [t [[i' j'] f']] eqn:Ecf.
  destruct Hc0 as (Q1 & Q2 & Q3 & Q4). rewrite Q1 in Hc.
  destruct (Hcf t i' j' f' eq_refl Hc) as (Hi' & Hj' & Hf' & Hback & Hplace). specialize (Q4 Hc).
  destruct (Hent i' j' b f' Hi' Hj' Hb Hf') as (r' & Hr' & Hc').
  unfold is_cell_bc in Hc'. rewrite Hback in Hc'. destruct Hc' as (P1 & P2 & P3 & P4).
  specialize (P4 Hc).
  assert (∀ r i j f, (i < nx)%nat → (j < ny)%nat → (f < 4)%nat → points r (i + nx * j) f → names r (i + nx * j) f) as Hpn.
  { intros q a c g Ha Hc' Hg [E3 E4]. unfold names. rewrite E3, E4.
    pose proof (elnum_lt nx ny a c Ha Hc'). unfold elnum in *.
    split; apply (law_trunc A bnd LA); lia. }
  exists (i' + nx * j')%nat, f', r'. split.
  { split; [|lia]. rewrite G2. by apply elnum_lt. }
  split; [by apply Hpn|]. split; [done|]. split; [congruence|]. split; [by apply Hpn|].
  rewrite Q1. exact Hplace.
Qed.
End Conn.
End Result.
