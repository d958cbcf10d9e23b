(** The conditions of the blocks from which gen_circle builds the disc. *)
From Verif Require Import Base Mesh Core Tools MeshLemmas MeshSpec CheckProofs OpsProofs GeoLaws BoxSpec BoxProofs MergeSpec MergeProofs Disc DiscProofs.
From Coq Require Import Lia.
Open Scope Z_scope.

(** Conditions per field of the four sides of a block: bottom, right, top, left. *)
Definition block_sides (bcb bcr bct bcl : list string) (b : nat) : sides :=
  Sides (u3 (nth b bcb ""%string)) (u3 (nth b bcr ""%string)) (u3 (nth b bct ""%string)) (u3 (nth b bcl ""%string)).

Section block.
Context {A : arith}.
Local Notation N := (num A).
Implicit Types (e : elem N) (m : hexa N) (r : bcrec N).

(** The entries of a mesh of ni x nj elements: inner faces are connected to the face on the other side, the others carry the
    conditions of the sides. *)
Definition block_entries m (ni nj : nat) (sd : nat → sides) : Prop :=
  ∀ i j b f, (i < ni)%nat → (j < nj)%nat → (b < nbc m)%nat → (f < 4)%nat →
    ∃ r, get_bc m (elnum i j ni) b f = Some r ∧ let '(t, (i', j', g)) := cell_face ni nj (sd b) i j f in
      bt r = t ∧ (¬ on_boundary ni nj i j f → points r (elnum i' j' ni) g).

Definition g_bt (nj : nat) (cb ct : string) (j f : nat) r : bcrec N :=
  match f with
  | 0 => if (j =? 0) then set_bt cb r else r
  | 2 => if (j =? nj - 1) then set_bt ct r else r
  | _ => r
  end%nat.
Definition g_lr (ni : nat) (cl cr : string) (i f : nat) r : bcrec N :=
  match f with
  | 1 => if (i =? ni - 1) then set_bt cr r else r
  | 3 => if (i =? 0) then set_bt cl r else r
  | _ => r
  end%nat.
Definition bt_step (ni nj b : nat) (cb ct : string) m (i : nat) : hexa N :=
  alter_bc (set_bt ct) (elnum i (nj - 1) ni) b 2 (alter_bc (set_bt cb) (elnum i 0 ni) b 0 m).
Definition lr_step (ni b : nat) (cl cr : string) m (j : nat) : hexa N :=
  alter_bc (set_bt cl) (elnum 0 j ni) b 3 (alter_bc (set_bt cr) (elnum (ni - 1) j ni) b 1 m).
Lemma bt_step_get ni nj b cb ct m i i0 b0 j0 f0 : (i < ni)%nat → (i0 < ni)%nat →
  get_bc (bt_step ni nj b cb ct m i) (elnum i0 j0 ni) b0 f0 =
  if decide ((b, i) = (b0, i0)) then g_bt nj cb ct j0 f0 <$> get_bc m (elnum i0 j0 ni) b0 f0
  else get_bc m (elnum i0 j0 ni) b0 f0.
Proof.
  intros Hi Hi0. unfold bt_step. rewrite !get_bc_alter.
  destruct (decide ((b, i) = (b0, i0))) as [[= -> ->]|Hne].
  - assert (∀ j k, (elnum i0 j0 ni, b0, f0) = (elnum i0 j ni, b0, k) ↔ j0 = j ∧ f0 = k) as Hk.
    { intros j k. split; [|by intros [-> ->]]. intros [= He ->].
      apply elnum_inj in He as [_ ->]; done. }
    destruct f0 as [|[|[|f0]]]; unfold g_bt.
    + rewrite (decide_False (P:=_ = (_, _, 2%nat))) by (rewrite Hk; lia).
      destruct (Nat.eqb_spec j0 0) as [->|Hj].
      * by rewrite decide_True by done.
      * rewrite decide_False by (rewrite Hk; lia). by apply fmap_id_opt.
    + rewrite !decide_False by (rewrite Hk; lia). by apply fmap_id_opt.
    + rewrite (decide_False (P:=_ = (_, _, 0%nat))) by (rewrite Hk; lia).
      destruct (Nat.eqb_spec j0 (nj - 1)) as [->|Hj].
      * by rewrite decide_True by done.
      * rewrite decide_False by (rewrite Hk; lia). by apply fmap_id_opt.
    + rewrite !decide_False by (rewrite Hk; lia). by apply fmap_id_opt.
  - assert (∀ j k, (elnum i0 j0 ni, b0, f0) ≠ (elnum i j ni, b, k)) as Hk.
    { intros j k [= He -> _]. apply elnum_inj in He as [-> ->]; done. }
    by rewrite !decide_False by apply Hk.
Qed.
Lemma lr_step_get ni b cl cr m j i0 b0 j0 f0 : (i0 < ni)%nat →
  get_bc (lr_step ni b cl cr m j) (elnum i0 j0 ni) b0 f0 =
  if decide ((b, j) = (b0, j0)) then g_lr ni cl cr i0 f0 <$> get_bc m (elnum i0 j0 ni) b0 f0
  else get_bc m (elnum i0 j0 ni) b0 f0.
Proof.
  intros Hi0. unfold lr_step. rewrite !get_bc_alter.
  destruct (decide ((b, j) = (b0, j0))) as [[= -> ->]|Hne].
  - assert (∀ i k, (i < ni)%nat → (elnum i0 j0 ni, b0, f0) = (elnum i j0 ni, b0, k) ↔ i0 = i ∧ f0 = k) as Hk.
    { intros i k Hi. split; [|by intros [-> ->]]. intros [= He ->].
      apply elnum_inj in He as [-> _]; done. }
    destruct f0 as [|[|[|[|f0]]]]; unfold g_lr.
    + rewrite !decide_False by (rewrite Hk; lia). by apply fmap_id_opt.
    + rewrite (decide_False (P:=_ = (_, _, 3%nat))) by (rewrite Hk; lia).
      destruct (Nat.eqb_spec i0 (ni - 1)) as [->|Hj].
      * by rewrite decide_True by done.
      * rewrite decide_False by (rewrite Hk; lia). by apply fmap_id_opt.
    + rewrite !decide_False by (rewrite Hk; lia). by apply fmap_id_opt.
    + rewrite (decide_False (P:=_ = (_, _, 1%nat))) by (rewrite Hk; lia).
      destruct (Nat.eqb_spec i0 0) as [->|Hj].
      * by rewrite decide_True by done.
      * rewrite decide_False by (rewrite Hk; lia). by apply fmap_id_opt.
    + rewrite !decide_False by (rewrite Hk; lia). by apply fmap_id_opt.
  - assert (∀ i k, (i < ni)%nat → (elnum i0 j0 ni, b0, f0) ≠ (elnum i j ni, b, k)) as Hk.
    { intros i k Hi [= He -> _]. apply elnum_inj in He as [-> ->]; done. }
    rewrite !decide_False by (apply Hk; lia). done.
Qed.
Lemma disc_bcs_get ni nj cb cr ct cl m b i0 b0 j0 f0 : (i0 < ni)%nat → (j0 < nj)%nat →
  get_bc (disc_bcs ni nj cb cr ct cl m b) (elnum i0 j0 ni) b0 f0 =
  if decide (b = b0) then
    let s := block_sides cb cr ct cl b in
    g_lr ni (s_left s) (s_right s) i0 f0 <$> (g_bt nj (s_bottom s) (s_top s) j0 f0 <$> get_bc m (elnum i0 j0 ni) b0 f0)
  else get_bc m (elnum i0 j0 ni) b0 f0.
Proof.
  intros Hi Hj. set (s := block_sides cb cr ct cl b).
  change (disc_bcs ni nj cb cr ct cl m b) with (foldl (lr_step ni b (s_left s) (s_right s)) (foldl (bt_step ni nj b (s_bottom s) (s_top s)) m (range ni)) (range nj)).
  destruct (decide (b = b0)) as [<-|Hb]; cbv zeta.
  - rewrite (foldl_view_in _ (λ m, get_bc m (elnum i0 j0 ni) b f0) (fmap (g_lr ni (s_left s) (s_right s) i0 f0)) (λ _, True) _ _ j0).
    + f_equal. rewrite (foldl_view_in _ (λ m, get_bc m (elnum i0 j0 ni) b f0) (fmap (g_bt nj (s_bottom s) (s_top s) j0 f0)) (λ _, True) _ _ i0); try done.
      * apply NoDup_range.
      * by apply elem_of_range.
      * intros m' k _ Hin Hne. apply elem_of_range in Hin. rewrite bt_step_get by done. rewrite decide_False; [done|]. by intros [= ->].
      * intros m' _. rewrite bt_step_get by done. by rewrite decide_True.
    + apply NoDup_range.
    + by apply elem_of_range.
    + done.
    + done.
    + intros m' k _ Hin Hne. apply elem_of_range in Hin. rewrite lr_step_get by done. rewrite decide_False; [done|]. by intros [= ->].
    + intros m' _. rewrite lr_step_get by done. by rewrite decide_True.
  - rewrite (foldl_view_notin _ (λ m, get_bc m (elnum i0 j0 ni) b0 f0)).
    + rewrite (foldl_view_notin _ (λ m, get_bc m (elnum i0 j0 ni) b0 f0)); [done|].
      intros m' k Hin. apply elem_of_range in Hin. rewrite bt_step_get by done. rewrite decide_False; [done|]. by intros [= ->].
    + intros m' k _. rewrite lr_step_get by done. rewrite decide_False; [done|]. by intros [= ->].
Qed.
Lemma disc_connect_get ni nj nb m i0 j0 b0 f0 : (i0 < ni)%nat → (j0 < nj)%nat → (b0 < nb)%nat →
  get_bc (disc_connect ni nj nb m) (elnum i0 j0 ni) b0 f0 = h_internal ni nj i0 j0 f0 <$> get_bc m (elnum i0 j0 ni) b0 f0.
Proof.
  intros Hi Hj Hb. unfold disc_connect.
  apply (foldl_view_in (λ m x, let '(i, j, b) := x in box_internal ni nj m (b, i, j)) (λ m, get_bc m (elnum i0 j0 ni) b0 f0)
           (fmap (h_internal ni nj i0 j0 f0)) (λ _, True) _ m (i0, j0, b0)).
  - apply NoDup_prod3; apply NoDup_range.
  - apply elem_of_prod3. rewrite !elem_of_range. done.
  - done.
  - done.
  - intros m' [[i j] b] _ Hin Hne. apply elem_of_prod3 in Hin as (Hin & _). apply elem_of_range in Hin. rewrite box_internal_get by done.
    rewrite decide_False; [done|]. intros [= -> -> ->]. done.
  - intros m' _. rewrite box_internal_get by done. by rewrite decide_True.
Qed.
Lemma block_is_block bo ni nj place var nb b0 b1 b2 b3 : (∀ i j e, bcs (place i j e) = bcs e) →
  block_entries (disc_block bo ni nj place var nb true b0 b1 b2 b3) ni nj (block_sides b0 b1 b2 b3).
Proof.
  intros Hpl i j b f Hi Hj Hb Hf.
  destruct (disc_block_spec bo ni nj place var nb true b0 b1 b2 b3) as (R & _).
  assert (nbc (disc_block bo ni nj place var nb true b0 b1 b2 b3) = nb) as En. { by destruct (fields_set_elems _ _ R) as (_ & _ & _ & -> & _). }
  rewrite En in Hb. clear En R. unfold disc_block. cbv zeta.
  set (m0 := foldl _ (new_hexa _ _ _ _ _ _ _ _) _).
  assert (get_bc m0 (elnum i j ni) b f = Some (zero_bc (nofZ 0))) as E0.
  { assert (∀ k c g, get_bc m0 k c g = get_bc (new_hexa (nofZ 0) bo 2 (ni * nj) PyList [2; 2; 1]%nat var nb) k c g) as ->.
    { intros k c g. unfold m0. apply (foldl_inv _ (λ m, get_bc m k c g = get_bc (new_hexa (nofZ 0) bo 2 (ni * nj) PyList [2; 2; 1]%nat var nb) k c g)); [done|].
      intros s [i' j'] _ H. by rewrite get_bc_alter_elem. }
    unfold get_bc. change (elems (new_hexa (nofZ (a:=A) 0) bo 2 (ni * nj) PyList [2; 2; 1]%nat var nb)) with (replicate (ni * nj) (fresh (A:=A) var nb)).
    rewrite lookup_replicate_2 by (by apply elnum_lt). cbn [mbind option_bind]. change (bcs (fresh var nb)) with (replicate nb (replicate 6 (zero_bc (nofZ (a:=A) 0)))).
    rewrite lookup_replicate_2 by done. cbn [mbind option_bind]. rewrite lookup_replicate_2 by lia. done. }
  rewrite (foldl_view_in (disc_bcs ni nj b0 b1 b2 b3) (λ m, get_bc m (elnum i j ni) b f)
    (λ x, let s := block_sides b0 b1 b2 b3 b in g_lr ni (s_left s) (s_right s) i f <$> (g_bt nj (s_bottom s) (s_top s) j f <$> x)) (λ _, True) _ _ b).
  2: apply NoDup_range. 2: by apply elem_of_range. 2, 3: done.
  2: { intros m' k _ Hin Hne. rewrite disc_bcs_get by done. by rewrite decide_False. }
  2: { intros m' _. rewrite disc_bcs_get by done. by rewrite decide_True. }
  rewrite disc_connect_get by done. rewrite E0. cbv zeta. cbn [fmap option_fmap option_map]. eexists. split; [reflexivity|].
  destruct f as [|[|[|[|f]]]]; [| | | |lia]; cbn [cell_face g_bt g_lr h_internal on_boundary];
    match goal with |- context [decide (?x = ?y)] => destruct (Nat.eqb_spec x y) as [E|E]; [rewrite decide_True by done|rewrite decide_False by done] end;
    cbn [negb]; split; try done; intros _; split; cbn [box_link bp3 bp4]; f_equal; lia.
Qed.
End block.
