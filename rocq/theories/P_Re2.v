(** Theorems about re2 files: C11 to C14, and the re2 part of C09. *)
From Coq Require Import Lia Ascii.
From Flocq Require Import Core.Core IEEE754.BinarySingleNaN IEEE754.Binary IEEE754.Bits.
From Verif Require Import Base Float FloatLaws Mesh Bytes Text Field FieldSpec FieldProofs Re2 Re2Spec Re2Proofs.
Open Scope Z_scope.

(** ** A sample mesh: two squares, one curved edge, walls and an inlet, an internal face, two fields *)
Definition fz (z : Z) : f64 := f64_of_Z z.
Definition cond (t : string) (a b : Z) (p : Z) : bcrec f64 := Bc t a b (fz p) (fz (p + 1)) z64 z64 z64.
Definition square (x0 : Z) (cc : list string) (cv : list (list f64)) (bc : list (list (bcrec f64))) : elem f64 :=
  Elem (2, 2, 1)%nat [fz <$> [x0; x0 + 1; x0; x0 + 1]; fz <$> [0; 0; 1; 1]; replicate 4 z64] (replicate 3 (replicate 4 z64)) [] [] []
    cv cc bc.
Definition none12 : list string := replicate 12 ""%string.
Definition zero12 : list (list f64) := replicate 12 (replicate 5 z64).
Definition bc_row (l : list string) : list (bcrec f64) :=
  imap (λ f t, cond t 7 (Z.of_nat f) (Z.of_nat f)) l.
Definition two_squares (e : string) : mesh64 :=
  Hexa 2 2 99 2 [2; 0; 0; 0; 0]%nat PyList [2; 2; 1]%nat z64 0 8 e
    [ square 0 (<[2%nat := "C"%string]> none12) (<[2%nat := fz <$> [5; 6; 7; 8; 9]]> zero12)
        [bc_row ["W"; "E"; "v"; "W"; ""; ""]; bc_row ["t"; ""; "I"; "t"; ""; ""]]%string;
      square 1 none12 zero12
        [bc_row ["W"; "O"; "W"; "E"; ""; ""]; bc_row ["t"; "I"; "t"; "E"; ""; ""]]%string ]
    [1; 2].
Lemma two_squares_ok e : re2_mesh (two_squares e).
Proof.
  assert (∀ l, l ∈ [["W"; "E"; "v"; "W"; ""; ""]; ["t"; ""; "I"; "t"; ""; ""]; ["W"; "O"; "W"; "E"; ""; ""]; ["t"; "I"; "t"; "E"; ""; ""]]%string →
    Forall bc_type l) as HT.
  { assert (∀ c, byte_val c < 128 → is_space_str c = false → c ≠ Ascii.zero → bc_type (String c "")) as Hone.
    { intros c H1 H2 H3. split; [repeat constructor; done|]. split; [cbn; lia|]. cbn. by intros c' [= <-]. }
    intros l Hl. repeat (apply elem_of_cons in Hl as [->|Hl]); try (by inversion Hl);
    repeat (apply List.Forall_cons; [first [apply bc_type_empty|apply Hone; vm_compute; congruence]|]); apply List.Forall_nil. }
  assert (∀ x0 cc cv r1 r2, length cv = 12%nat → Forall (λ r, length r = 5%nat) cv → length cc = 12%nat → Forall curve_type cc →
    length r1 = 6%nat → length r2 = 6%nat → Forall bc_type r1 → Forall bc_type r2 →
    re2_elem 2 2 (square x0 cc cv [bc_row r1; bc_row r2])) as HS.
  { intros x0 cc cv r1 r2 H1 H2 H3 H4 H5 H6 H7 H8. split; try done.
    - intros [|[|c]] Hc; [by eexists|by eexists|lia].
    - split; [done|]. apply List.Forall_cons; [|apply List.Forall_cons; [|apply List.Forall_nil]]; unfold bc_row; by rewrite imap_length.
    - intros b f r x Hr Hx.
      assert (r = bc_row r1 ∨ r = bc_row r2) as [-> | ->].
      { destruct b as [|[|b]]; cbn in Hr; [injection Hr as <-; by left|injection Hr as <-; by right|done]. }
      all: unfold bc_row in Hx; rewrite list_lookup_imap in Hx; apply fmap_Some in Hx as (t & Ht & ->); cbn [bt cond].
      + rewrite Forall_lookup in H7. by eapply H7.
      + rewrite Forall_lookup in H8. by eapply H8. }
  split; try done.
  - by left.
  - assert (Forall (λ r : list f64, length r = 5%nat) zero12) as HZ by (apply Forall_replicate; done).
    assert (Forall curve_type none12) as HN by (apply Forall_replicate; by left).
    apply List.Forall_cons; [|apply List.Forall_cons; [|apply List.Forall_nil]]; apply HS; try done.
    + by apply Forall_insert.
    + apply Forall_insert; [done|]. right. by eexists.
    + apply HT. left.
    + apply HT. right; left.
    + apply HT. right; right; left.
    + apply HT. right; right; right; left.
Qed.

(** ** C11 *)
Theorem C11_re2_round_trip native m : re2_mesh m → asked_order native (endian m) = native →
  ∃ f m', writere2 native m = (Some f, Ok tt) ∧ readre2 native f = Ok m' ∧ same_mesh m' m ∧
    nbc m' = Nat.max 1 (nbc m) ∧ ncurv m' = Z.of_nat (n_curves m) ∧ endian m' = order_name native.
Proof.
  intros Hm Ho. exists (re2_file native m), (norm_mesh native m). rewrite writere2_ok, out_order_asked, Ho by done.
  split; [done|]. split; [by apply read_re2_file; [|left]|]. split; [by apply norm_same|]. split; [done|].
  split; [|done]. cbn [ncurv norm_mesh]. by rewrite n_curves_ok.
Qed.
Print Assumptions C11_re2_round_trip.
(** The hypotheses hold of the sample mesh, and the conclusion is not trivial there. *)
Example C11_sample : re2_mesh (two_squares "little") ∧ asked_order Little (endian (two_squares "little")) = Little ∧
  n_curves (two_squares "little") = 1%nat ∧ n_external (two_squares "little") 0 = 6%nat.
Proof. split; [apply two_squares_ok|]. vm_compute. done. Qed.
(** Without conditions the mesh read back has one (empty) field of conditions: nbc 0 becomes 1. *)
Definition no_fields (m : mesh64) : mesh64 := first_fields 0 m.
Theorem C11_no_fields_refuted : ∃ m f m', re2_mesh m ∧ writere2 Little m = (Some f, Ok tt) ∧ readre2 Little f = Ok m' ∧ nbc m' ≠ nbc m.
Proof.
  pose (m := no_fields (two_squares "little")).
  assert (re2_mesh m) as Hm by (apply first_fields_ok; [apply two_squares_ok|cbn; lia]).
  exists m, (re2_file Little m), (norm_mesh Little m). split; [done|]. split; [by rewrite writere2_ok|].
  split; [by apply read_re2_file; [|left]|]. cbn. lia.
Qed.
Print Assumptions C11_no_fields_refuted.
(** The bound on the number of elements is sharp: with 10^8 elements the columns of the header fuse,
    and no file with that header can be read. *)
Theorem C11_header_limit native l : readre2 native (re2_header (10 ^ 8) 3 ++ l) = Raise ValueError.
Proof.
  unfold readre2. rewrite BytesProofs.py_read_app by (vm_compute; reflexivity).
  replace (split (re2_header (10 ^ 8) 3)) with [str "#v002100000000"; str "3100000000"; str "this"; str "is"; str "the"; str "hdr"] by (vm_compute; reflexivity).
  reflexivity.
Qed.
Print Assumptions C11_header_limit.

(** ** C12 *)
(** In any byte order, a mesh without curved edges and without external conditions is read back. *)
Theorem C12_foreign_order_partial native m : re2_mesh m → n_curves m = 0%nat → (∀ b, (b < nbc m)%nat → n_external m b = 0%nat) →
  ∃ f m', writere2 native m = (Some f, Ok tt) ∧ readre2 native f = Ok m' ∧ same_mesh m' m ∧
    endian m' = order_name (asked_order native (endian m)).
Proof.
  intros Hm Hc Hb. eexists _, _. rewrite writere2_ok, out_order_asked by done. split; [done|].
  split; [apply read_re2_file; [done|by apply no_tables]|]. split; [by apply norm_same|]. done.
Qed.
Print Assumptions C12_foreign_order_partial.
Definition bare (e : string) : mesh64 :=
  Hexa 2 2 0 1 [2; 0; 0; 0; 0]%nat PyList [2; 2; 1]%nat z64 0 8 e
    [square 0 none12 zero12 [bc_row ["E"; "E"; ""; ""; ""; ""]%string]; square 1 none12 zero12 [bc_row ["E"; ""; ""; "E"; ""; ""]%string]] [1; 2].
Lemma bare_ok e : re2_mesh (bare e).
Proof.
  assert (bc_type "E") as HE by (split; [repeat constructor|split; [cbn; lia|cbn; by intros c' [= <-]]]).
  assert (∀ x0 r, length r = 6%nat → Forall bc_type r → re2_elem 2 1 (square x0 none12 zero12 [bc_row r])) as HS.
  { intros x0 r H1 H2. split; try done.
    - intros [|[|c]] Hc; [by eexists|by eexists|lia].
    - split; [done|]. by apply Forall_replicate.
    - split; [done|]. apply Forall_replicate. by left.
    - split; [done|]. apply List.Forall_cons; [|apply List.Forall_nil]. unfold bc_row. by rewrite imap_length.
    - intros b f r' x Hr Hx. apply list_lookup_singleton_Some in Hr as [_ <-].
      unfold bc_row in Hx. rewrite list_lookup_imap in Hx. apply fmap_Some in Hx as (t & Ht & ->). cbn [bt cond].
      rewrite Forall_lookup in H2. by eapply H2. }
  split; try done; [by left|].
  apply List.Forall_cons; [|apply List.Forall_cons; [|apply List.Forall_nil]]; apply HS; try done; repeat (apply List.Forall_cons; [first [exact HE|apply bc_type_empty]|]); apply List.Forall_nil.
Qed.
Example C12_sample : re2_mesh (bare "big") ∧ n_curves (bare "big") = 0%nat ∧ (∀ b, (b < nbc (bare "big"))%nat → n_external (bare "big") b = 0%nat) ∧
  asked_order Little (endian (bare "big")) = Big.
Proof.
  split; [apply bare_ok|]. split; [vm_compute; done|]. split; [|vm_compute; done]. intros [|b] Hb; [vm_compute; done|cbn in Hb; lia].
Qed.
(** In all other cases it is not: the counts of the tables are read in the machine's own byte order,
    and every count that occurs becomes 0. *)
Theorem C12_foreign_order_lost native m : re2_mesh m → asked_order native (endian m) = flip native →
  n_curves m ≠ 0%nat ∨ (∃ b, (b < nbc m)%nat ∧ n_external m b ≠ 0%nat) →
  ∃ f, writere2 native m = (Some f, Ok tt) ∧ ¬ ∃ m', readre2 native f = Ok m' ∧ same_mesh m' m.
Proof.
  intros Hm Ho H. eexists. rewrite writere2_ok, out_order_asked, Ho by done. split; [done|]. by apply foreign_lost.
Qed.
Print Assumptions C12_foreign_order_lost.
Theorem C12_refuted : ∀ native, ∃ m f, re2_mesh m ∧ endian m = order_name (flip native) ∧ writere2 native m = (Some f, Ok tt) ∧
  ¬ ∃ m', readre2 native f = Ok m' ∧ same_mesh m' m.
Proof.
  intros native. pose proof (two_squares_ok (order_name (flip native))) as Hm. exists (two_squares (order_name (flip native))).
  destruct (C12_foreign_order_lost native _ Hm) as (f & Hw & Hr); [by destruct native| |by exists f].
  left. by destruct native.
Qed.
Print Assumptions C12_refuted.

(** ** C13 *)
(** A proper prefix of a file is rejected, unless it ends exactly where the table of conditions of a
    field would begin. *)
Theorem C13_torn_partial native m t : re2_mesh m → asked_order native (endian m) = native →
  ∃ f, writere2 native m = (Some f, Ok tt) ∧ length f = re2_offset m (nbc m) ∧
    ((t < length f)%nat → (∀ k, (k < nbc m)%nat → t ≠ re2_offset m k) → ∃ x, readre2 native (take t f) = Raise x).
Proof.
  intros Hm Ho. exists (re2_file native m). rewrite writere2_ok, out_order_asked, Ho by done.
  split; [done|]. split; [by apply file_length|]. intros Ht Hk.
  destruct (torn_file native native m t Hm ltac:(by left) Ht) as [(k & Hlt & Ek)|H]; [|done]. by destruct (Hk k Hlt).
Qed.
Print Assumptions C13_torn_partial.
(** At these places the torn file is read, as the mesh with the conditions of the first fields only. *)
Theorem C13_torn_between_fields native m k : re2_mesh m → asked_order native (endian m) = native → (k ≤ nbc m)%nat →
  ∃ f m', writere2 native m = (Some f, Ok tt) ∧ readre2 native (take (re2_offset m k) f) = Ok m' ∧
    same_mesh m' (first_fields k m) ∧ nbc m' = Nat.max 1 k.
Proof.
  intros Hm Ho Hk. exists (re2_file native m), (norm_mesh native (first_fields k m)). rewrite writere2_ok, out_order_asked, Ho by done.
  split; [done|]. rewrite <- first_fields_file by done. pose proof (first_fields_ok k m Hm Hk) as Hf.
  split; [by apply read_re2_file; [|left]|]. split; [by apply norm_same|done].
Qed.
Print Assumptions C13_torn_between_fields.
Theorem C13_refuted : ∃ m f t m', re2_mesh m ∧ writere2 Little m = (Some f, Ok tt) ∧ (t < length f)%nat ∧
  readre2 Little (take t f) = Ok m' ∧ n_external m 0 = 6%nat ∧ n_external m' 0 = 0%nat.
Proof.
  pose (m := two_squares "little"). pose proof (two_squares_ok "little" : re2_mesh m) as Hm.
  exists m, (re2_file Little m), (re2_offset m 0), (norm_mesh Little (first_fields 0 m)).
  split; [done|]. split; [by rewrite writere2_ok|]. split; [rewrite file_length by done; vm_compute; lia|].
  rewrite <- first_fields_file by (done || lia). split; [apply read_re2_file; [apply first_fields_ok; [done|lia]|by left]|].
  split; vm_compute; reflexivity.
Qed.
Print Assumptions C13_refuted.
Example C13_sample : re2_offset (two_squares "little") 0 = 300%nat ∧ re2_offset (two_squares "little") 2 = 1084%nat.
Proof. vm_compute. done. Qed.

(** ** C14 *)
Theorem C14_fixed_point native m f m1 : re2_mesh m → asked_order native (endian m) = native →
  writere2 native m = (Some f, Ok tt) → readre2 native f = Ok m1 →
  (∀ p b g x, get_bc m1 p b g = Some x → bt x ≠ "E"%string) ∧
  ∃ f1, writere2 native m1 = (Some f1, Ok tt) ∧ readre2 native f1 = Ok m1.
Proof.
  intros Hm Ho Hw Hr. rewrite writere2_ok, out_order_asked, Ho in Hw by done. injection Hw as <-.
  rewrite read_re2_file in Hr by (done || by left). injection Hr as <-. split.
  - intros p b g x Hx HE. unfold get_bc in Hx. cbn [elems norm_mesh] in Hx. unfold state_after in Hx. rewrite list_lookup_imap in Hx.
    destruct (elems m !! p) as [e|]; [|done]. cbn [fmap option_fmap option_map mbind option_bind elem_after bcs set_bcs] in Hx.
    destruct (nbc m) as [|nb]; cbn [rows_after] in Hx.
    + destruct ([zero_row] !! b) as [r|] eqn:E; [|done]. apply list_lookup_singleton_Some in E as [_ <-]. cbn [mbind option_bind] in Hx.
      unfold zero_row in Hx. apply lookup_replicate in Hx as [-> _]. done.
    + unfold norm_rows in Hx. rewrite list_lookup_fmap in Hx. destruct (take (S nb) (bcs e) !! b) as [r|]; [|done].
      cbn [fmap option_fmap option_map mbind option_bind] in Hx. unfold norm_row in Hx. rewrite list_lookup_imap in Hx.
      destruct (r !! g) as [y|]; [|done]. cbn [fmap option_fmap option_map] in Hx. injection Hx as <-.
      destruct (g <? _)%nat; cbn [andb] in HE; [|done]. destruct (is_external (bt y)) eqn:E; [|done]. cbn [bt norm_bc] in HE. by rewrite HE in E.
  - pose proof (norm_mesh_ok native m Hm) as Hn. exists (re2_file native (norm_mesh native m)).
    rewrite writere2_ok by done. rewrite out_order_asked. cbn [endian norm_mesh].
    replace (asked_order native (order_name native)) with native by (by destruct native).
    split; [done|]. rewrite read_re2_file by (done || by left). by rewrite norm_mesh_twice.
Qed.
Print Assumptions C14_fixed_point.
Example C14_sample : ∃ f m1, re2_mesh (two_squares "little") ∧ writere2 Little (two_squares "little") = (Some f, Ok tt) ∧ readre2 Little f = Ok m1.
Proof.
  pose proof (two_squares_ok "little") as Hm. eexists _, _. split; [done|]. rewrite writere2_ok by done. split; [done|].
  apply read_re2_file; [done|by left].
Qed.

(** ** C09, re2 part *)
(** The contents of the target after a call: the previous ones if the file was never opened. *)
Definition contents_after (previous : bytes) (w : option bytes * res unit) : bytes := default previous w.1.
Theorem C09_re2_rejected native m previous :
  lr1kind m ≠ PyList ∨ lr1 m ≠ [2; 2; ndim m - 1]%nat ∨ head (var m) ≠ Some (ndim m) →
  contents_after previous (writere2 native m) = previous ∧ ∃ x, (writere2 native m).2 = Raise x.
Proof.
  intros H. assert (∃ x, re2_check m = Raise x) as [x Hx].
  { unfold re2_check. case_bool_decide as H1; cbn [andb negb]; [|by eexists]. case_bool_decide as H2; cbn [andb negb]; [|by eexists].
    destruct (var m) as [|v vs]; [by eexists|]. cbn. destruct (Nat.eqb_spec v (ndim m)) as [->|]; [|by eexists].
    exfalso. destruct H as [H|[H|H]]; by apply H. }
  unfold writere2. rewrite Hx. split; [done|]. by exists x.
Qed.
Print Assumptions C09_re2_rejected.
(** Nothing else is rejected: a mesh with consistent arrays is written in full. *)
Theorem C09_re2_accepted native m : re2_mesh m → ∃ f, writere2 native m = (Some f, Ok tt).
Proof. intros Hm. eexists. by apply writere2_ok. Qed.
Print Assumptions C09_re2_accepted.
