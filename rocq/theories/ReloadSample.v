(** A box of two layers of two by two elements for the theorems about reloaded meshes, and boolean checks of their hypotheses. *)
From Coq Require Import Lia Ascii.
From Flocq Require Import Core.Core IEEE754.BinarySingleNaN IEEE754.Binary IEEE754.Bits.
From Verif Require Import Base Float FloatLaws Mesh Core Tools Bytes Text Field Re2 Re2Spec Re2Proofs MeshSpec GibSpec MeshLemmas Samples Restore Reload.
Open Scope Z_scope.

Definition eq64 (x y : f64) : bool := bits_of_b64 x =? bits_of_b64 y.
Lemma eq64_ok x y : eq64 x y = true → x = y.
Proof. intros H. apply Z.eqb_eq in H. 
  rewrite <- (binary_float_of_bits_of_binary_float 52 11 eq_refl eq_refl eq_refl x), <- (binary_float_of_bits_of_binary_float 52 11 eq_refl eq_refl eq_refl y).
  exact (f_equal (binary_float_of_bits 52 11 eq_refl eq_refl eq_refl) H). Qed.
Definition eq_bc (r s : bcrec f64) : bool :=
  String.eqb (bt r) (bt s) && (bel r =? bel s) && (bface r =? bface s) && eq64 (bp3 r) (bp3 s) && eq64 (bp4 r) (bp4 s) &&
  eq64 (bp5 r) (bp5 s) && eq64 (bp6 r) (bp6 s) && eq64 (bp7 r) (bp7 s).
Lemma eq_bc_ok r s : eq_bc r s = true → r = s.
Proof.
  unfold eq_bc. rewrite !andb_true_iff. intros (((((((H1 & H2) & H3) & H4) & H5) & H6) & H7) & H8).
  apply String.eqb_eq in H1. apply Z.eqb_eq in H2, H3. apply eq64_ok in H4, H5, H6, H7, H8.
  destruct r as [a1 a2 a3 a4 a5 a6 a7 a8], s as [b1 b2 b3 b4 b5 b6 b7 b8]. cbn [bt bel bface bp3 bp4 bp5 bp6 bp7] in *. by subst.
Qed.
Definition eq_entry (o : option (bcrec f64)) (s : bcrec f64) : bool := match o with Some r => eq_bc r s | None => false end.
Lemma eq_entry_ok o s : eq_entry o s = true → o = Some s.
Proof. destruct o as [r|]; [|done]. intros H. f_equal. by apply eq_bc_ok. Qed.
Lemma eq_entry_self r : eq_entry (Some r) r = true.
Proof. unfold eq_entry, eq_bc, eq64. by rewrite String.eqb_refl, !Z.eqb_refl. Qed.

(** ** Checks *)
Definition linkedb (m : mesh64) (b i f j g : nat) : bool := eq_entry (get_bc m i b f) (internal_entry (A:=A64) i f j g).
Lemma linkedb_ok m b i f j g : linkedb m b i f j g = true ↔ linked (A:=A64) m b i f j g.
Proof.
  unfold linkedb, linked. split; [apply eq_entry_ok|].
  intros H. refine (eq_trans (f_equal (λ o, eq_entry o (internal_entry (A:=A64) i f j g)) H) (eq_entry_self _)).
Qed.
Definition innerb (m : mesh64) (i f : nat) : bool :=
  (i <? nel m)%nat && (f <? 2 * ndim m)%nat &&
  match get_bc m i 0 f with Some r => String.eqb (bt r) "" || String.eqb (bt r) "E" | None => false end.
Lemma innerb_ok m i f : inner (A:=A64) m i f → innerb m i f = true.
Proof.
  intros ([H1 H2] & r & Hr & Ht). unfold innerb.
  apply andb_true_iff; split; [apply andb_true_iff; split; by apply Nat.ltb_lt|].
  refine (eq_trans (f_equal (λ o : option (bcrec f64), match o with Some r => String.eqb (bt r) "" || String.eqb (bt r) "E" | None => false end) Hr) _).
  apply orb_true_iff. destruct Ht as [Ht|Ht]; [left|right]; by apply String.eqb_eq.
Qed.
Definition closeb (tol : f64) (m : mesh64) (i f j g : nat) : bool :=
  match elems m !! i, elems m !! j with
  | Some e, Some e' =>
    match face_center (A:=A64) e (Z.of_nat f), face_center (A:=A64) e' (Z.of_nat g), smallest_edge (A:=A64) e, smallest_edge (A:=A64) e' with
    | Ok c, Ok c', Ok s, Ok s' => nleb (a:=A64) (nsqrt (a:=A64) (dist2 (A:=A64) c c')) (nmul (a:=A64) tol (pymin (A:=A64) s s'))
    | _, _, _, _ => false
    end
  | _, _ => false
  end.
Lemma closeb_ok tol m i f j g : closeb tol m i f j g = true ↔ close_faces (A:=A64) tol m i f j g.
Proof.
  unfold closeb, close_faces. split.
  - destruct (elems m !! i) as [e|] eqn:E1; [|done]. destruct (elems m !! j) as [e'|] eqn:E2; [|done].
    destruct (face_center (A:=A64) e (Z.of_nat f)) as [c|] eqn:E3; [|done]. destruct (face_center (A:=A64) e' (Z.of_nat g)) as [c'|] eqn:E4; [|done].
    destruct (smallest_edge (A:=A64) e) as [s|] eqn:E5; [|done]. destruct (smallest_edge (A:=A64) e') as [s'|] eqn:E6; [|done].
    intros H. exists e, e', c, c', s, s'. done.
  - intros (e & e' & c & c' & s & s' & E1 & E2 & E3 & E4 & E5 & E6 & E7).
    destruct (elems m !! i) as [d|] eqn:D1; [|discriminate (eq_trans (eq_sym D1) E1)].
    destruct (elems m !! j) as [d'|] eqn:D2; [|discriminate (eq_trans (eq_sym D2) E2)].
    pose proof (eq_trans (eq_sym D1) E1) as F1. apply (inj Some) in F1. pose proof (eq_trans (eq_sym D2) E2) as F2. apply (inj Some) in F2. subst d d'.
    rewrite E3, E4, E5, E6. exact E7.
Qed.
Definition connectedb (tol : f64) (m : mesh64) : bool :=
  let faces := prod2 (range (nel m)) (range (2 * ndim m)) in
  forallb (λ '(i, b, f), match get_bc m i b f with
    | Some r => if String.eqb (bt r) "E" then
        (f <? 2 * ndim m)%nat && existsb (λ '(j, g), negb (i =? j)%nat &&
           forallb (λ b', linkedb m b' i f j g && linkedb m b' j g i f) (range (nbc m))) faces
      else true
    | None => true end) (prod3 (range (nel m)) (range (nbc m)) (range 6)) &&
  forallb (λ '(i, f), forallb (λ '(j, g), negb ((i <? j)%nat && innerb m i f && innerb m j g) ||
    Bool.eqb (closeb tol m i f j g) (linkedb m 0 i f j g)) faces) faces.
Lemma get_bc_bounds (m : mesh64) i b f r : wf_mesh (A:=A64) m → get_bc m i b f = Some r → (i < nel m ∧ b < nbc m ∧ f < 6)%nat.
Proof.
  intros [(W1 & W2 & W3) _] H. unfold get_bc in H. destruct (elems m !! i) as [e|] eqn:E; [|done]. cbn [mbind option_bind] in H.
  destruct (bcs e !! b) as [row|] eqn:R; [|done]. cbn [mbind option_bind] in H. destruct (W3 e) as [L1 L2]; [by eapply elem_of_list_lookup_2|].
  split; [exact (eq_ind _ (λ n, (i < n)%nat) (lookup_lt_Some _ _ _ E) _ W2)|].
  split; [exact (eq_ind _ (λ n, (b < n)%nat) (lookup_lt_Some _ _ _ R) _ L1)|].
  exact (eq_ind _ (λ n, (f < n)%nat) (lookup_lt_Some _ _ _ H) _ (L2 row (elem_of_list_lookup_2 _ _ _ R))).
Qed.
Lemma connectedb_ok tol m : wf_mesh (A:=A64) m → connectedb tol m = true → connected_by_place (A:=A64) tol m.
Proof.
  intros Hw H. unfold connectedb in H. cbv zeta in H. apply andb_true_iff in H as [H1 H2]. split.
  - intros i b f r Hr Ht. destruct (get_bc_bounds m i b f r Hw Hr) as (B1 & B2 & B3).
    pose proof (forallb_elem _ _ H1 (i, b, f) ltac:(apply elem_of_prod3; rewrite !elem_of_range; lia)) as H. cbv beta iota in H.
    rewrite (Hr : @get_bc f64 m i b f = Some r), (Ht : @bt f64 r = "E"%string) in H. change (String.eqb "E" "E") with true in H. cbv beta iota in H.
    apply andb_true_iff in H as [Hf H]. apply Nat.ltb_lt in Hf. split; [done|]. apply existsb_exists in H as ([j g] & Hin & H).
    apply elem_of_list_In, elem_of_prod2 in Hin as [Hj Hg]. rewrite elem_of_range in Hj, Hg. apply andb_true_iff in H as [Hij H].
    exists j, g. split; [done|]. split; [by apply negb_true_iff, Nat.eqb_neq in Hij|]. intros b' Hb'.
    pose proof (forallb_elem _ _ H b' ltac:(by apply elem_of_range)) as H'. cbv beta in H'. apply andb_true_iff in H' as [L1 L2].
    split; by apply linkedb_ok.
  - intros i f j g Hij Hi Hj. pose proof Hi as ([I1 I2] & _). pose proof Hj as ([J1 J2] & _).
    pose proof (forallb_elem _ _ H2 (i, f) ltac:(apply elem_of_prod2; rewrite !elem_of_range; done)) as H. cbv beta iota in H.
    pose proof (forallb_elem _ _ H (j, g) ltac:(apply elem_of_prod2; rewrite !elem_of_range; done)) as H'. cbv beta iota in H'.
    rewrite (proj2 (Nat.ltb_lt _ _) Hij), (innerb_ok _ _ _ Hi), (innerb_ok _ _ _ Hj) in H'. cbn [andb negb orb] in H'.
    apply Bool.eqb_prop in H'. rewrite <- closeb_ok, <- linkedb_ok, H'. done.
Qed.
Definition plainb (m : mesh64) : bool :=
  forallb (λ '(i, b, f), match get_bc m i b f with
    | Some r => String.eqb (bt r) "E" || eq_bc r (if (f <? 2 * ndim m)%nat && is_external (bt r)
        then Bc (bt r) (Z.of_nat i + 1) (Z.of_nat f + 1) (bp3 r) (bp4 r) (bp5 r) (bp6 r) (bp7 r) else zero_bc z64)
    | None => true end) (prod3 (range (nel m)) (range (nbc m)) (range 6)).
Lemma plainb_ok m : wf_mesh (A:=A64) m → plainb m = true → plain_conditions m.
Proof.
  intros Hw H i b f r Hr Ht. destruct (get_bc_bounds m i b f r Hw Hr) as (B1 & B2 & B3).
  pose proof (forallb_elem _ _ H (i, b, f) ltac:(apply elem_of_prod3; rewrite !elem_of_range; lia)) as H'. cbv beta iota in H'.
  rewrite Hr in H'. rewrite (proj2 (String.eqb_neq _ _) Ht) in H'. by apply eq_bc_ok in H'.
Qed.
Definition known_types : list string := [""; "E"; "P"; "v"; "O"; "W"; "SYM"]%string.
Definition re2_elemb (nd nb : nat) (e : elem f64) : bool :=
  bool_decide (eshape e = (2, 2, nd - 1)%nat) && (length (pos e) =? 3)%nat && forallb (λ a, length a =? 4 * (nd - 1))%nat (pos e) &&
  (length (curv e) =? 12)%nat && forallb (λ r, length r =? 5)%nat (curv e) &&
  (length (ccurv e) =? 12)%nat && forallb (λ t, String.eqb t "") (ccurv e) &&
  (length (bcs e) =? nb)%nat && forallb (λ r, length r =? 6)%nat (bcs e) &&
  forallb (λ r, forallb (λ x : bcrec f64, existsb (String.eqb (bt x)) known_types) r) (bcs e).
Lemma known_types_ok t : existsb (String.eqb t) known_types = true → bc_type t.
Proof.
  intros H. apply existsb_exists in H as (s & Hs & E). apply String.eqb_eq in E as <-. unfold known_types in Hs. cbn [In] in Hs.
  assert (∀ l, (forallb (λ c, byte_val c <? 128) (str l) && (length (str l) <=? 3)%nat &&
    match last (str l) with Some c => negb (is_space_str c) && negb (bool_decide (c = Ascii.zero)) | None => true end) = true → bc_type l) as K.
  { intros l H. apply andb_true_iff in H as [H H3]. apply andb_true_iff in H as [H1 H2]. split; [|split].
    - apply Forall_forall. intros c Hc. pose proof (forallb_elem _ _ H1 c Hc) as X. by apply Z.ltb_lt in X.
    - by apply Nat.leb_le in H2.
    - intros c Hc. rewrite Hc in H3. apply andb_true_iff in H3 as [X Y]. apply negb_true_iff in X, Y. by apply bool_decide_eq_false in Y. }
  apply K. repeat (destruct Hs as [<-|Hs]; [vm_compute; reflexivity|]). done.
Qed.
Lemma re2_elemb_ok nd nb e : (nd = 2 ∨ nd = 3)%nat → re2_elemb nd nb e = true → re2_elem nd nb e.
Proof.
  unfold re2_elemb. rewrite !andb_true_iff. intros Hnd (((((((((H1 & H2) & H3) & H4) & H5) & H6) & H7) & H8) & H9) & H10).
  apply bool_decide_eq_true in H1. apply Nat.eqb_eq in H2, H4, H6, H8. split.
  - done.
  - intros c Hc. destruct (lookup_lt_is_Some_2 (pos e) c) as [a Ha]; [lia|]. exists a. split; [done|].
    pose proof (forallb_elem _ _ H3 a (elem_of_list_lookup_2 _ _ _ Ha)) as X. by apply Nat.eqb_eq in X.
  - split; [done|]. apply Forall_forall. intros r Hr. pose proof (forallb_elem _ _ H5 r Hr) as X. by apply Nat.eqb_eq in X.
  - split; [done|]. apply Forall_forall. intros r Hr. pose proof (forallb_elem _ _ H7 r Hr) as X. left. by apply String.eqb_eq in X.
  - split; [done|]. apply Forall_forall. intros r Hr. pose proof (forallb_elem _ _ H9 r Hr) as X. by apply Nat.eqb_eq in X.
  - intros b f r x Hr Hx. pose proof (forallb_elem _ _ H10 r (elem_of_list_lookup_2 _ _ _ Hr)) as X. cbv beta in X.
    pose proof (forallb_elem _ _ X x (elem_of_list_lookup_2 _ _ _ Hx)) as Y. by apply known_types_ok.
Qed.
Definition re2_meshb (m : mesh64) : bool :=
  ((ndim m =? 2)%nat || (ndim m =? 3)%nat) && match lr1kind m with PyList => true | _ => false end && bool_decide (lr1 m = [2; 2; ndim m - 1]%nat) &&
  bool_decide (head (var m) = Some (ndim m)) && (length (elems m) =? nel m)%nat && (Z.of_nat (nel m) <? 10 ^ 8) && forallb (re2_elemb (ndim m) (nbc m)) (elems m).
Lemma re2_meshb_ok m : re2_meshb m = true → re2_mesh m.
Proof.
  unfold re2_meshb. rewrite !andb_true_iff. intros ((((((H1 & H2) & H3) & H4) & H5) & H6) & H7).
  assert (ndim m = 2 ∨ ndim m = 3)%nat as Hnd by (apply orb_true_iff in H1 as [X|X]; apply Nat.eqb_eq in X; auto).
  split; [done| | | |].
  - split; [by destruct (lr1kind m)|by apply bool_decide_eq_true in H3].
  - by apply bool_decide_eq_true in H4.
  - split; [by apply Nat.eqb_eq in H5|by apply Z.ltb_lt in H6].
  - apply Forall_forall. intros e He. apply re2_elemb_ok; [done|]. by apply (forallb_elem _ _ H7).
Qed.
Definition edgesb (m : mesh64) : bool :=
  forallb (λ e, match smallest_edge (A:=A64) e with Ok s => negb (nleb (a:=A64) s (nofZ (a:=A64) 0)) | Raise _ => true end) (elems m).
Lemma edgesb_ok m : edgesb m = true → ∀ e s, e ∈ elems m → smallest_edge (A:=A64) e = Ok s → nleb (a:=A64) s (nofZ (a:=A64) 0) = false.
Proof. intros H e s He Hs. pose proof (forallb_elem _ _ H e He) as X. cbv beta in X. rewrite Hs in X. by apply negb_true_iff in X. Qed.

(** ** The sample *)
Definition block : mesh64 := ok_or empty64
  (let! b := gen_box (A:=A64) "little" 2 2 (zf 0) (zf 2) (zf 0) (zf 1) [2; 2; 1; 0; 0]%nat (Some ["v"]%string) (Some ["O"]%string) (Some ["W"]%string) (Some ["W"]%string) true in
   extrude (A:=A64) b [zf 0; zf 1; zf 3] (Some ["W"]%string) (Some ["SYM"]%string) true).
