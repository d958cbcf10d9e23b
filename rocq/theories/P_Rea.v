(** Theorems about rea files: C15 to C17. *)
From Coq Require Import Lia Ascii Reals Lra.
From Flocq Require Import Core.Core IEEE754.BinarySingleNaN IEEE754.Binary IEEE754.Bits.
From Verif Require Import Base Float FloatLaws Mesh MeshLemmas Bytes BytesProofs Text TextProofs Decimal Field FieldSpec FieldProofs
  Re2 Re2Spec Re2Proofs Rea ReaSpec ReaProofs P_Re2.
Open Scope Z_scope.

(** ** Sample meshes: any number of copies of the first square of [two_squares] *)
Definition tile : elem f64 :=
  square 0 (<[2%nat := "C"%string]> none12) (<[2%nat := fz <$> [5; 6; 7; 8; 9]]> zero12)
    [bc_row ["W"; "E"; "v"; "W"; ""; ""]; bc_row ["t"; "E"; "I"; "t"; ""; ""]]%string.
Definition tiles (n : nat) : mesh64 :=
  let m := Hexa 2 n 0 2 [2; 0; 0; 0; 0]%nat PyList [2; 2; 1]%nat z64 0 8 "little" (replicate n tile) [] in
  set_ncurv (Z.of_nat (n_curves m)) m.
Lemma fz_blank z : 0 <= z <= bnd64 → leaves_blank (fz z).
Proof.
  intros H _ HN. exfalso. destruct (f64_of_Z_correct z ltac:(lia)) as (E & _). unfold fz in HN. rewrite E in HN.
  apply lt_IZR in HN. lia.
Qed.
Lemma z64_blank : leaves_blank z64.
Proof. intros _ H. cbn in H. lra. Qed.
Lemma plain_text_b n s : forallb (λ c, (33 <=? byte_val c) && (byte_val c <=? 126)) (str s) && (length (str s) <=? n)%nat = true → plain_text n s.
Proof.
  intros H. apply andb_true_iff in H as [H1 H2]. split; [|by apply Nat.leb_le]. apply List.Forall_forall. intros c Hc.
  rewrite forallb_forall in H1. apply H1, andb_true_iff in Hc as [? ?]. split; by apply Z.leb_le.
Qed.
Lemma bc_row_ok ne t f x : bc_row t !! f = Some x → (length t = 6)%nat → Forall (plain_text 2) t → plain_text 2 (bt x) ∧ numbers_fit ne x.
Proof.
  intros Hx Hl Ht. unfold bc_row in Hx. rewrite list_lookup_imap in Hx. apply fmap_Some in Hx as (s & Hs & ->).
  pose proof (lookup_lt_Some _ _ _ Hs) as Hf. rewrite Forall_lookup in Ht. split; [by apply (Ht f)|].
  assert (∀ z, 0 <= z <= 7 → leaves_blank (fz z)) as HB by (intros z Hz; apply fz_blank; unfold bnd64; lia).
  unfold numbers_fit, cond. cbn [bel bface bp3 bp4 bp5 bp6 bp7].
  destruct (ne <? 10 ^ 3); [lia|]. destruct (ne <? 10 ^ 6); [lia|]. split; [lia|]. split; [lia|].
  repeat apply List.Forall_cons; try apply List.Forall_nil; try apply z64_blank; apply HB; lia.
Qed.
Lemma tile_ok ne : rea_elem 2 2 ne tile.
Proof.
  split.
  - intros c z y x Hc Hz. rewrite (Hz eq_refl). destruct c as [|[|c]]; [| |lia]; destruct y, x;
      (eexists; split; [reflexivity|apply fz_blank; unfold bnd64; lia]).
  - split; [done|]. apply Forall_insert; [by apply Forall_replicate|done].
  - split; [done|]. apply Forall_insert; [apply Forall_replicate|]; by apply plain_text_b.
  - split; [done|]. by repeat (apply List.Forall_cons; [reflexivity|]).
  - intros b f r x Hr Hx. destruct b as [|[|b]]; cbn [lookup list_lookup bcs tile square] in Hr; [| |done]; injection Hr as <-;
      apply (bc_row_ok ne _ _ _ Hx); try done; repeat (apply List.Forall_cons; [by apply plain_text_b|]); apply List.Forall_nil.
Qed.
Lemma tiles_ok n : Z.of_nat n < 10 ^ 9 → rea_mesh (tiles n).
Proof.
  intros H. split; try done.
  - by left.
  - split; [apply replicate_length|done].
  - cbn. lia.
  - apply Forall_replicate, tile_ok.
Qed.

(** ** C15 *)
Theorem C15_rea_round_trip native m : rea_mesh m → consistent_types m →
  ∃ f m2 m', writerea m = (f, Ok m2) ∧ readrea native f = Ok m' ∧ mesh_read m m' ∧
    (** the types, and the numbers of connected elements and faces *)
    ∀ p b fc x, get_bc m p b fc = Some x → (fc < 2 * ndim m)%nat → ∃ x', get_bc m' p b fc = Some x' ∧
      bt x' = bt x ∧
      ∀ e s, 0 <= e < 10 ^ 7 → 0 <= s < 10 ^ 7 → bt x ≠ ""%string → bp3 x = fz e → bp4 x = fz s → bp3 x' = fz e ∧ bp4 x' = fz s.
Proof.
  intros Hm Hc. destruct (rea_round_trip native m Hm) as (f & HW & HR). pose proof (mesh_back_ok native m Hm) as HB.
  exists f, (e_mesh m), (mesh_back native m). do 3 (split; [done|]).
  intros p b fc x Hx Hf. destruct (Hc _ _ _ _ Hf Hx) as [Hc1 Hc2]. unfold get_bc in *.
  destruct (elems m !! p) as [e|] eqn:He; [|done]. cbn in Hx. destruct (bcs e !! b) as [r|] eqn:Hr; [|done]. cbn in Hx.
  destruct (mr_elems _ _ HB p e He) as (e' & He' & HE).
  assert (b < nbc m)%nat as Hb.
  { pose proof (rw_elems _ Hm) as HF. rewrite Forall_lookup in HF. destruct (ra_bcs _ _ _ _ (HF p e He)) as [<- _]. by apply lookup_lt_Some in Hr. }
  destruct (er_bcs _ _ _ _ _ _ HE b fc r x Hb Hf Hr Hx) as (r' & x' & Hr' & Hx' & HC).
  exists x'. rewrite He'. cbn. rewrite Hr'. cbn. split; [done|]. unfold cond_read in HC.
  destruct (unconnected x) eqn:HU.
  - unfold unconnected in HU. apply andb_true_iff in HU as [HU1 HU2]. apply orb_true_iff in HU1 as [HU1|HU1]; apply bool_decide_eq_true in HU1.
    + subst x'. cbn. split; [done|]. intros. congruence.
    + rewrite Hc2 in HU2; done.
  - destruct (bool_decide_reflect (bt x = ""%string)) as [E|E].
    { unfold unconnected in HU. rewrite bool_decide_true, Hc1 in HU; done. }
    destruct HC as (H1 & _ & H3 & H4 & _). split; [done|]. intros a s Ha Hs _ E3 E4.
    assert (10 ^ 7 <= 10 ^ Z.of_nat (bc_digits (Z.of_nat (nel m)))) as HD by (unfold bc_digits; destruct (_ <? _); lia).
    split.
    + rewrite E3 in H3. apply (rounded_Z _ _ _) in H3; [done|rewrite Z.abs_eq; lia|unfold bnd64; lia].
    + rewrite E4 in H4. apply (rounded_Z _ _ _) in H4; [done|rewrite Z.abs_eq; lia|unfold bnd64; lia].
Qed.
Print Assumptions C15_rea_round_trip.
(** The hypotheses hold of the sample with any number of elements, so in each of the three layouts. *)
Example C15_sample n : Z.of_nat n < 10 ^ 9 → rea_mesh (tiles n) ∧ consistent_types (tiles n).
Proof.
  intros H. split; [by apply tiles_ok|]. intros p b f x Hf Hx. unfold get_bc in Hx. cbn [elems tiles set_ncurv] in Hx.
  destruct (replicate n tile !! p) as [e|] eqn:He; [|done]. apply lookup_replicate in He as [-> _]. cbn [mbind option_bind] in Hx.
  change (2 * ndim (tiles n))%nat with 4%nat in Hf.
  destruct b as [|[|b]]; [| |done]; do 4 (destruct f as [|f]; [apply (inj Some) in Hx; rewrite <- Hx; split; intros E; first [vm_compute; reflexivity|vm_compute in E; discriminate E]|]); lia.
Qed.
(** In the sample of two elements there are a curved edge and a connected face; in the file of 1000 and of a
    million elements the conditions have other layouts. *)
Example C15_sample_content : n_curves (tiles 2) = 2%nat ∧ (bt <$> get_bc (tiles 2) 1 0 1) = Some "E"%string ∧
  (bp3 <$> get_bc (tiles 2) 1 0 1) = Some (fz 1) ∧ (bp4 <$> get_bc (tiles 2) 1 0 1) = Some (fz 2).
Proof. split; [vm_compute; reflexivity|]. split; [reflexivity|]. split; reflexivity. Qed.
(** The condition on the types is needed: with an empty type and non-zero parameters the type changes
    into "E", and "E" with zero parameters disappears. *)
Definition retype (t : string) (a : Z) (m : mesh64) : mesh64 :=
  set_elems ((λ e, set_bcs ((λ r, <[0%nat := cond t 1 1 a]> r) <$> bcs e) e) <$> elems m) m.
Definition types_after (m : mesh64) : option (list (option string)) :=
  match writerea m with
  | (f, Ok _) => match readrea Little f with
                 | Ok m' => Some ((λ p, bt <$> get_bc m' p 0 0) <$> [0; 1]%nat)
                 | Raise _ => None
                 end
  | _ => None
  end.
Lemma types_after_ok m l : rea_mesh m → types_after m = Some l →
  ∃ f m2 m', writerea m = (f, Ok m2) ∧ readrea Little f = Ok m' ∧ ((λ p, bt <$> get_bc m' p 0 0) <$> [0; 1]%nat) = l.
Proof.
  intros Hm H. unfold types_after in H. destruct (writerea m) as [f [m2|]]; [|done]. destruct (readrea Little f) as [m'|] eqn:HR; [|done].
  injection H as H. by exists f, m2, m'.
Qed.
Lemma retype_ok t a : plain_text 2 t → 0 <= a < 100 → rea_mesh (retype t a (tiles 2)).
Proof.
  intros Ht Ha. destruct (tiles_ok 2 ltac:(lia)) as [H1 H2 H3 H4 H5]. split; try done.
  cbn [elems retype tiles set_ncurv set_elems ndim nbc nel].
  assert (rea_elem 2 2 2 (set_bcs ((λ r, <[0%nat := cond t 1 1 a]> r) <$> bcs tile) tile)) as HT.
  { destruct (tile_ok 2) as [A1 A2 A3 A4 A5]. split; try done.
    { split; [done|]. by repeat (apply List.Forall_cons; [reflexivity|]). }
    intros b f r x Hr Hx. cbn [bcs set_bcs] in Hr. rewrite list_lookup_fmap in Hr. apply fmap_Some in Hr as (r0 & Hr0 & ->).
    destruct f as [|f].
    - destruct r0 as [|y r0]; [done|]. apply (inj Some) in Hx. rewrite <- Hx. split; [done|]. unfold numbers_fit, cond. change (2 <? 10 ^ 3) with true. cbn [bel bface]. lia.
    - apply (A5 b (S f) r0 x Hr0). by rewrite list_lookup_insert_ne in Hx. }
  apply List.Forall_cons; [exact HT|]. apply List.Forall_cons; [exact HT|]. apply List.Forall_nil.
Qed.
Theorem C15_inconsistent_types_refuted : ∃ m1 m2,
  (rea_mesh m1 ∧ (bt <$> get_bc m1 0 0 0) = Some ""%string ∧
    ∃ f n m', writerea m1 = (f, Ok n) ∧ readrea Little f = Ok m' ∧ (bt <$> get_bc m' 0 0 0) = Some "E"%string) ∧
  (rea_mesh m2 ∧ (bt <$> get_bc m2 0 0 0) = Some "E"%string ∧
    ∃ f n m', writerea m2 = (f, Ok n) ∧ readrea Little f = Ok m' ∧ (bt <$> get_bc m' 0 0 0) = Some ""%string).
Proof.
  exists (retype "" 5 (tiles 2)), (retype "E" 0 (tiles 2)). split.
  - assert (rea_mesh (retype "" 5 (tiles 2))) as Hm by (apply retype_ok; [by apply plain_text_b|lia]).
    split; [done|]. split; [reflexivity|].
    destruct (types_after_ok _ [Some "E"; Some "E"]%string Hm ltac:(vm_compute; reflexivity)) as (f & n & m' & HW & HR & HT).
    exists f, n, m'. do 2 (split; [done|]). by apply (inj2 cons) in HT as [-> _].
  - assert (rea_mesh (retype "E" 0 (tiles 2))) as Hm by (apply retype_ok; [by apply plain_text_b|lia]).
    split; [done|]. split; [reflexivity|].
    destruct (types_after_ok _ [Some ""; Some ""]%string Hm ltac:(vm_compute; reflexivity)) as (f & n & m' & HW & HR & HT).
    exists f, n, m'. do 2 (split; [done|]). by apply (inj2 cons) in HT as [-> _].
Qed.
Print Assumptions C15_inconsistent_types_refuted.

(** Numbers that have at most 7 significant digits come back unchanged. *)
Theorem C15_short_numbers_exact native m : rea_mesh m → ∃ f m2 m', writerea m = (f, Ok m2) ∧ readrea native f = Ok m' ∧
  ∀ p e, elems m !! p = Some e → ∃ e', elems m' !! p = Some e' ∧
    ∀ c z y x v, (c < ndim m)%nat → (ndim m = 2%nat → z = false) → corner e c z y x = Ok v →
      is_finite 53 1024 v = true → decimal_number 7 (B2R 53 1024 v) → corner e' c z y x = Ok v.
Proof.
  intros Hm. destruct (rea_round_trip native m Hm) as (f & HW & HR). pose proof (mesh_back_ok native m Hm) as HB.
  exists f, (e_mesh m), (mesh_back native m). do 2 (split; [done|]).
  intros p e He. destruct (mr_elems _ _ HB p e He) as (e' & He' & HE). exists e'. split; [done|].
  intros c z y x v Hc Hz Hv HF HD. destruct (er_pos _ _ _ _ _ _ HE c z y x Hc Hz) as (w & w' & H1 & H2 & H3).
  rewrite Hv in H1. injection H1 as <-. rewrite H2. f_equal. by apply (rounded_exact 7).
Qed.
Print Assumptions C15_short_numbers_exact.

(** ** C16 *)
(** [writerea] changes the conditions without type of the mesh it is given. *)
Definition bt_change (m : mesh64) : bool :=
  match writerea m with
  | (_, Ok m2) => negb (bool_decide ((bt <$> get_bc m2 0 0 0) = (bt <$> get_bc m 0 0 0)))
  | _ => false
  end.
Theorem C16_mesh_changed_refuted : ∃ m f m2, rea_mesh m ∧ writerea m = (f, Ok m2) ∧ m2 ≠ m.
Proof.
  pose (m := retype "" 5 (tiles 2)).
  assert (rea_mesh m) as Hm by (apply retype_ok; [by apply plain_text_b|lia]).
  assert (bt_change m = true) as HB by (vm_compute; reflexivity).
  unfold bt_change in HB. destruct (writerea m) as [f [m2|]] eqn:HW; [|done]. exists m, f, m2. do 2 (split; [done|]).
  intros ->. rewrite bool_decide_true in HB by done. done.
Qed.
Print Assumptions C16_mesh_changed_refuted.
(** What holds: only conditions without type change, and they become "E" with the same parameters; a mesh
    without such conditions is left alone. For every mesh, well formed or not. *)
Theorem C16_only_empty_types_change_partial m f m2 : writerea m = (f, Ok m2) → typed_only m m2.
Proof.
  unfold writerea. destruct (write_all (rea_lines m)) as [g [u|]]; cbn; [|done]. intros [= <- <-]. apply e_mesh_typed.
Qed.
Print Assumptions C16_only_empty_types_change_partial.
Theorem C16_typed_mesh_unchanged_partial m f m2 : (∀ p b fc x, get_bc m p b fc = Some x → bt x ≠ ""%string) →
  writerea m = (f, Ok m2) → m2 = m.
Proof.
  intros H. unfold writerea. destruct (write_all (rea_lines m)) as [g [u|]]; cbn; [|done]. intros [= <- <-]. by apply e_mesh_same.
Qed.
Print Assumptions C16_typed_mesh_unchanged_partial.
(** A mesh with all conditions typed that is written successfully. *)
Definition typed_tiles : mesh64 :=
  set_elems (replicate 2 (set_bcs (replicate 2 (bc_row ["W"; "E"; "v"; "W"; "W"; "W"]%string)) tile)) (tiles 2).
Example C16_sample : (∀ p b fc x, get_bc typed_tiles p b fc = Some x → bt x ≠ ""%string) ∧
  match writerea typed_tiles with (f, Ok m2) => (length f =? 0)%nat = false | _ => False end.
Proof.
  split; [|vm_compute; reflexivity]. intros p b fc x Hx. unfold get_bc in Hx. cbn [elems typed_tiles set_elems] in Hx.
  destruct (replicate 2 _ !! p) as [e|] eqn:He; [|done]. apply lookup_replicate in He as [-> _]. cbn [mbind option_bind bcs set_bcs] in Hx.
  destruct (replicate 2 _ !! b) as [r|] eqn:Hr; [|done]. apply lookup_replicate in Hr as [-> _]. cbn [mbind option_bind] in Hx.
  do 6 (destruct fc as [|fc]; [apply (inj Some) in Hx; rewrite <- Hx; intros E; vm_compute in E; discriminate E|]). done.
Qed.

(** ** C17 *)
(** Meshes that [writerea] writes without complaint, and whose file [readrea] does not read: one without
    conditions, one whose number of curved edges is out of date, one with a type of three characters,
    and one with a small negative coordinate. *)
Definition unreadable (m : mesh64) : bool :=
  match writerea m with
  | (f, Ok _) => match readrea Little f with Ok _ => false | Raise _ => true end
  | _ => false
  end.
Lemma unreadable_ok m : unreadable m = true → ∃ f m2 e, writerea m = (f, Ok m2) ∧ readrea Little f = Raise e.
Proof.
  unfold unreadable. destruct (writerea m) as [f [m2|]]; [|done]. destruct (readrea Little f) as [|e] eqn:E; [done|]. intros _. by exists f, m2, e.
Qed.
Definition move_corner (v : f64) (m : mesh64) : mesh64 :=
  set_elems ((λ e, set_pos ((λ a, <[1%nat := v]> a) <$> pos e) e) <$> elems m) m.
(** -1e-100 *)
Definition tiny_negative : f64 := dec_to_f64 true 1 (-100).

Theorem C17_unreadable_refuted : ∀ m, m ∈ [no_fields (tiles 2); set_ncurv 1 (tiles 2); set_ncurv 3 (tiles 2); retype "SYM" 0 (tiles 2);
    move_corner tiny_negative (tiles 2)] →
  ∃ f m2 e, writerea m = (f, Ok m2) ∧ readrea Little f = Raise e.
Proof.
  intros m Hm. apply unreadable_ok. repeat (apply elem_of_cons in Hm as [->|Hm]; [vm_compute; reflexivity|]). inversion Hm.
Qed.
Print Assumptions C17_unreadable_refuted.
(** What holds: with consistent arrays, at least one field of conditions, an up to date number of curved
    edges, types of at most 2 characters and numbers that fit their columns, the file is read. *)
Theorem C17_readable_partial native m : rea_mesh m → ∃ f m2 m', writerea m = (f, Ok m2) ∧ readrea native f = Ok m'.
Proof. intros Hm. destruct (rea_round_trip native m Hm) as (f & HW & HR). by exists f, (e_mesh m), (mesh_back native m). Qed.
Print Assumptions C17_readable_partial.
Example C17_sample n : Z.of_nat n < 10 ^ 9 → rea_mesh (tiles n).
Proof. apply tiles_ok. Qed.
