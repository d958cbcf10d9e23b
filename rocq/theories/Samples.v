(** Concrete meshes used to show that the hypotheses of the theorems are met, and a
    boolean form of well-formedness. *)
From Verif Require Import Base Mesh Core Tools Float FloatLaws MeshLemmas MeshSpec ExtrudeSpec.
From Coq Require Import Lia.

Section Wf.
Context {A : arith}.
Notation N := (num A).

Definition wf_bcsb (m : hexa N) : bool :=
  ((ndim m =? 2) || (ndim m =? 3))%nat && (length (elems m) =? nel m)%nat &&
  forallb (λ e, (length (bcs e) =? nbc m)%nat &&
    forallb (λ row : list (bcrec N), (length row =? 6)%nat) (bcs e)) (elems m).
Definition wf_geom_elemb (e : elem N) : bool :=
  let '(lx, ly, lz) := eshape e in
  ((2 <=? lx) && (2 <=? ly) && (1 <=? lz) && (length (pos e) =? 3))%nat &&
  forallb (λ c : list N, (length c =? lz * ly * lx)%nat) (pos e).
Definition wf_meshb (m : hexa N) : bool := wf_bcsb m && forallb wf_geom_elemb (elems m).

Lemma forallb_elem {X} (p : X → bool) l : forallb p l = true → ∀ x, x ∈ l → p x = true.
Proof. intros H x Hx. apply elem_of_list_In in Hx. by eapply forallb_forall in H. Qed.

Lemma wf_bcsb_ok m : wf_bcsb m = true → wf_bcs m.
Proof.
  unfold wf_bcsb. intros H. apply andb_prop in H as [H H3]. apply andb_prop in H as [H1 H2].
  apply Nat.eqb_eq in H2. split.
  { apply orb_prop in H1 as [H1|H1]; apply Nat.eqb_eq in H1; auto. }
  split; [done|].
  intros e He. pose proof (forallb_elem _ _ H3 e He) as H. cbn in H.
  apply andb_prop in H as [H4 H5]. apply Nat.eqb_eq in H4. split; [done|].
  intros row Hr. pose proof (forallb_elem _ _ H5 row Hr) as H. by apply Nat.eqb_eq in H.
Qed.
Lemma wf_meshb_ok m : wf_meshb m = true → wf_mesh m.
Proof.
  unfold wf_meshb. intros H. apply andb_prop in H as [H1 H2]. split; [by apply wf_bcsb_ok|].
  intros e He. pose proof (forallb_elem _ _ H2 e He) as H. unfold wf_geom_elemb in H.
  destruct (eshape e) as [[lx ly] lz] eqn:Es. exists lx, ly, lz. split; [done|].
  apply andb_prop in H as [H H5]. rewrite !andb_true_iff in H.
  rewrite !Nat.leb_le, Nat.eqb_eq in H. split; [lia|]. split; [lia|].
  intros c Hc. pose proof (forallb_elem _ _ H5 c Hc) as H'. by apply Nat.eqb_eq in H'.
Qed.
End Wf.

(** Total projection, used only on samples. *)
Definition ok_or {X} (d : X) (r : res X) : X := match r with Ok x => x | Raise _ => d end.

Definition zf (z : Z) : f64 := f64_of_Z z.
Definition empty64 : hexa (num A64) := new_hexa (zf 0 : num A64) "little" 2 0 PyList [2;2;1]%nat [2;1;0;0;0]%nat 1.
(** A 2 x 1 box on [0,2] x [0,1], walls on the left and right, periodic in y, one field. *)
Definition box21 : hexa (num A64) := ok_or empty64
  (gen_box (A:=A64) "little" 2 1 (zf 0) (zf 2) (zf 0) (zf 1) [2;1;0;0;0]%nat
     (Some ["W"]%string) (Some ["W"]%string) None None true).
Definition tol64 : f64 := nlit (A:=A64) 1 1000.

Example box21_checked : check_connectivity (A:=A64) tol64 box21 = Ok true.
Proof. vm_compute. reflexivity. Qed.

(** Type and references of one entry, without the floating-point values. *)
Definition bc_view (m : hexa (num A64)) (i b f : nat) : option (string * res Z * res Z) :=
  (λ r, (bt r, f64_trunc (bp3 r), f64_trunc (bp4 r))) <$> get_bc m i b f.

(** Equality of float64 values through their bit patterns (decidable by computation). *)
Definition f64_same (x y : f64) : bool :=
  Flocq.IEEE754.Bits.bits_of_b64 x =? Flocq.IEEE754.Bits.bits_of_b64 y.
Lemma f64_same_eq x y : f64_same x y = true → x = y.
Proof.
  unfold f64_same. intros H. apply Z.eqb_eq in H.
  apply (f_equal Flocq.IEEE754.Bits.b64_of_bits) in H.
  unfold Flocq.IEEE754.Bits.b64_of_bits, Flocq.IEEE754.Bits.bits_of_b64 in H.
  by rewrite !Flocq.IEEE754.Bits.binary_float_of_bits_of_binary_float in H.
Qed.

(** The connected faces of a sample refer to elements 1..1000, stored exactly. *)
Definition small_refsb (m : hexa (num A64)) : bool :=
  forallb (λ '(i, b, f), match get_bc m i b f with
     | Some r => negb (String.eqb (bt r) "E" || String.eqb (bt r) "P") ||
         match f64_trunc (bp3 r) with
         | Ok z => f64_same (bp3 r) (f64_of_Z z) && (1 <=? z) && (z <=? 1000)
         | Raise _ => false
         end
     | None => true end)
  (prod3 (range (nel m)) (range (nbc m)) (range (2 * ndim m))).
Lemma small_refsb_ok offset k m : small_refsb m = true → Z.abs offset <= 1000 →
  refs_within (A:=A64) bnd64 offset k m.
Proof.
  intros H Ho. split; [unfold bnd64; lia|]. intros i b f r (Hi & Hb & Hf) Hr Hc.
  unfold small_refsb in H. pose proof (forallb_elem _ _ H (i, b, f)) as H'. cbv beta iota in H'.
  rewrite Hr in H'.
  assert ((i, b, f) ∈ prod3 (range (nel m)) (range (nbc m)) (range (2 * ndim m))) as Hin.
  { apply elem_of_prod3. rewrite !elem_of_range. done. }
  specialize (H' Hin).
  assert (String.eqb (bt r) "E" || String.eqb (bt r) "P" = true) as Hc'.
  { destruct Hc as [->| ->]; done. }
  rewrite Hc' in H'. cbn [negb orb] in H'.
  destruct (f64_trunc (bp3 r)) as [z|]; [|done].
  apply andb_prop in H' as [H1 H3]. apply andb_prop in H1 as [H1 H2].
  exists z. split; [by apply f64_same_eq|]. unfold bnd64. lia.
Qed.

(** Boolean forms of pairing and coincidence for float64 samples. *)
Definition pairedb (m : hexa (num A64)) : bool :=
  forallb (λ '(i, b, f), match get_bc m i b f with
     | Some r => negb (String.eqb (bt r) "E" || String.eqb (bt r) "P") ||
         match f64_trunc (bp3 r), f64_trunc (bp4 r) with
         | Ok z, Ok w =>
           let j := Z.to_nat (z - 1) in let g := Z.to_nat (w - 1) in
           (j <? nel m)%nat && (g <? 2 * ndim m)%nat &&
           f64_same (bp3 r) (f64_of_Z (Z.of_nat j + 1)) && f64_same (bp4 r) (f64_of_Z (Z.of_nat g + 1)) &&
           match get_bc m j b g with
           | Some r' => String.eqb (bt r') (bt r) &&
               f64_same (bp3 r') (f64_of_Z (Z.of_nat i + 1)) && f64_same (bp4 r') (f64_of_Z (Z.of_nat f + 1))
           | None => false
           end
         | _, _ => false
         end
     | None => true end)
  (prod3 (range (nel m)) (range (nbc m)) (range (2 * ndim m))).
Lemma pairedb_ok m : pairedb m = true → paired (A:=A64) m.
Proof.
  intros H i b f r (Hi & Hb & Hf) Hr Hc.
  unfold pairedb in H. pose proof (forallb_elem _ _ H (i, b, f)) as H'. cbv beta iota in H'.
  rewrite Hr in H'.
  assert ((i, b, f) ∈ prod3 (range (nel m)) (range (nbc m)) (range (2 * ndim m))) as Hin.
  { apply elem_of_prod3. rewrite !elem_of_range. done. }
  specialize (H' Hin). apply orb_prop in H' as [H'|H'].
  { exfalso. destruct Hc as [Hc|Hc]; rewrite Hc in H'; discriminate. }
  destruct (f64_trunc (bp3 r)) as [z|]; [|done]. destruct (f64_trunc (bp4 r)) as [w|]; [|done].
  cbv zeta in H'. set (j := Z.to_nat (z - 1)) in *. set (g := Z.to_nat (w - 1)) in *.
  rewrite !andb_true_iff in H'. destruct H' as ((((H1 & H2) & H3) & H4) & H5).
  apply Nat.ltb_lt in H1, H2. apply f64_same_eq in H3, H4.
  destruct (get_bc m j b g) as [r'|] eqn:E; [|done].
  rewrite !andb_true_iff in H5. destruct H5 as ((H5 & H6) & H7). apply String.eqb_eq in H5.
  apply f64_same_eq in H6, H7. exists j, g, r'. done.
Qed.

Definition coord_same (c c' : res (f64 * f64 * f64)) : bool :=
  match c, c' with
  | Ok (x, y, z), Ok (x', y', z') => f64_same x x' && f64_same y y' && f64_same z z'
  | _, _ => false
  end.
Definition coincidentb (m : hexa (num A64)) : bool :=
  forallb (λ '(i, b, f), match get_bc m i b f with
     | Some r => negb (String.eqb (bt r) "E") ||
         forallb (λ '(j, g), 
           negb (f64_same (bp3 r) (f64_of_Z (Z.of_nat j + 1)) && f64_same (bp4 r) (f64_of_Z (Z.of_nat g + 1))) ||
           match elems m !! i, elems m !! j with
           | Some e, Some e' => coord_same (face_center (A:=A64) e (Z.of_nat f)) (face_center (A:=A64) e' (Z.of_nat g))
           | _, _ => true
           end) (prod2 (range (nel m)) (range (2 * ndim m)))
     | None => true end)
  (prod3 (range (nel m)) (range (nbc m)) (range (2 * ndim m))).
Lemma f64_same_refl x : f64_same x x = true.
Proof. unfold f64_same. apply Z.eqb_refl. Qed.
Lemma coincidentb_ok m : coincidentb m = true → coincident (A:=A64) m.
Proof.
  intros H i b f r j g e e' (Hi & Hb & Hf) Hr Ht (Hj & _ & Hg) [P3 P4] He He'.
  unfold coincidentb in H. pose proof (forallb_elem _ _ H (i, b, f)) as H'. cbv beta iota in H'.
  rewrite Hr in H'.
  assert ((i, b, f) ∈ prod3 (range (nel m)) (range (nbc m)) (range (2 * ndim m))) as Hin.
  { apply elem_of_prod3. rewrite !elem_of_range. done. }
  specialize (H' Hin). rewrite Ht in H'. cbn [String.eqb negb orb] in H'. 
  apply orb_prop in H' as [H'|H']; [discriminate|].
  pose proof (forallb_elem _ _ H' (j, g)) as H2. cbv beta iota in H2.
  assert ((j, g) ∈ prod2 (range (nel m)) (range (2 * ndim m))) as Hin2.
  { apply elem_of_prod2. rewrite !elem_of_range. done. }
  specialize (H2 Hin2). rewrite He, He' in H2. rewrite P3, P4 in H2.
  cbn [nofZ A64] in H2. rewrite !f64_same_refl in H2. cbn [andb negb orb] in H2.
  unfold coord_same in H2.
  destruct (face_center e (Z.of_nat f)) as [[[x y] z]|]; [|done].
  destruct (face_center e' (Z.of_nat g)) as [[[x' y'] z']|]; [|done].
  rewrite !andb_true_iff in H2. destruct H2 as ((E1 & E2) & E3).
  apply f64_same_eq in E1, E2, E3. by subst.
Qed.
