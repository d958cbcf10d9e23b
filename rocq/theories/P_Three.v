(** C79: three meshes are merged in two steps; the grouping does not matter. *)
From Coq Require Import Lia.
From Flocq Require Import Core.Core IEEE754.BinarySingleNaN IEEE754.Binary IEEE754.Bits.
From Verif Require Import Base Mesh Core Tools Float FloatLaws MeshLemmas MeshSpec MergeSpec OrderSpec CheckProofs Samples P_Merge ThreeSpec ThreeMerge.
Open Scope Z_scope.

(** Merging b into a and c into the result, and merging c into b and the result into a, glue the same number of faces in
    total, and give the same mesh. *)
Theorem C79_grouping {A : arith} (bnd : Z) (a b c : hexa (num A)) tol ie :
  arith_laws A bnd → all_compatible bnd a b c → (0 < nbc a)%nat → connected_mesh a → connected_mesh b → connected_mesh c →
  no_periodic a → no_periodic b → no_periodic c → at_most_one tol ie a b c →
  ∃ ab bc m1 m2 k1 k2 k3 k4,
    merge tol ie false a b = (ab, Ok k1) ∧ merge tol ie false ab c = (m1, Ok k2) ∧
    merge tol ie false b c = (bc, Ok k3) ∧ merge tol ie false a bc = (m2, Ok k4) ∧
    k1 + k2 = k3 + k4 ∧ same_mesh m1 m2 ∧ connected_mesh m1 ∧ connected_mesh m2.
Proof.
  intros LA Hcmp Hnb Ca Cb Cc Na Nb Nc Hone. pose proof Hone as (U1 & U2 & U3 & _).
  pose proof (cmp_ab bnd a b c Hcmp Hnb) as Q1. pose proof (cmp_bc bnd a b c Hcmp Hnb) as Q2.
  assert (0 < nbc b ∧ 0 < nbc c)%nat as [Hb Hc] by (destruct Hcmp as (_ & _ & _ & _ & _ & E1 & E2 & _); lia).
  assert (∀ s o : hexa (num A), compatible bnd s o → (0 < nbc s)%nat → connected_mesh s → connected_mesh o → no_periodic s → no_periodic o → unique_contacts tol ie s o →
    ∃ m k, merge tol ie false s o = (m, Ok k) ∧ is_append s o m ∧ is_glued tol ie s o m k ∧ connected_mesh m) as Hm.
  { intros s o Q Hs Cs Co Ns No U. assert (0 < nbc o)%nat as Ho by (destruct Q as (_ & _ & _ & <- & _); done).
    pose proof (no_periodic_meets tol ie s o Ns No Hs Ho) as Hp.
    destruct (C26_merge_glues bnd s o tol ie LA Q Hs Cs Co U Hp) as (m & k & E & HA & HG & _). destruct (C26_merge_connected bnd s o tol ie LA Q Hs Cs Co U Hp) as (m' & k' & E' & C').
    rewrite E in E'. assert (m' = m) as -> by congruence. by exists m, k. }
  destruct (Hm a b Q1 Hnb Ca Cb Na Nb U1) as (ab & k1 & Eab & Aab & Gab & Cab). destruct (Hm b c Q2 Hb Cb Cc Nb Nc U3) as (bc & k3 & Ebc & Abc & Gbc & Cbc).
  pose proof (Nab bnd a b c ab tol ie k1 Hcmp Hnb Ca Cb Na Nb Aab Gab) as Nab. pose proof (Nbc bnd a b c bc tol ie k3 Hcmp Hnb Cb Cc Nb Nc Abc Gbc) as Nbc.
  destruct (heads a b c ab bc Aab Abc) as (B1 & _).
  destruct (Hm ab c (cmp_ab_c bnd a b c ab bc Hcmp Aab Abc) ltac:(lia) Cab Cc Nab Nc (unique_ab_c bnd a b c ab bc tol ie k1 Hcmp Hnb Ca Cb Na Nb Hone Aab Gab Abc)) as (m1 & k2 & E1 & A1 & G1 & C1).
  destruct (Hm a bc (cmp_a_bc bnd a b c ab bc Hcmp Hnb Aab Abc) Hnb Ca Cbc Na Nbc (unique_a_bc bnd a b c ab bc tol ie k3 Hcmp Hnb Cb Cc Nb Nc Hone Aab Abc Gbc)) as (m2 & k4 & E2 & A2 & G2 & C2).
  exists ab, bc, m1, m2, k1, k2, k3, k4. split_and!; try done; [by eapply (counts bnd a b c ab bc m1 m2)|by eapply (three_same bnd a b c ab bc m1 m2)].
Qed.
Print Assumptions C79_grouping.

(** In float64, with up to 2^53 elements. *)
Theorem C79_grouping_float64 (a b c : hexa (num A64)) tol ie :
  all_compatible (A:=A64) bnd64 a b c → (0 < nbc a)%nat → connected_mesh (A:=A64) a → connected_mesh (A:=A64) b → connected_mesh (A:=A64) c →
  no_periodic (A:=A64) a → no_periodic (A:=A64) b → no_periodic (A:=A64) c → at_most_one (A:=A64) tol ie a b c →
  ∃ ab bc m1 m2 k1 k2 k3 k4,
    merge (A:=A64) tol ie false a b = (ab, Ok k1) ∧ merge (A:=A64) tol ie false ab c = (m1, Ok k2) ∧
    merge (A:=A64) tol ie false b c = (bc, Ok k3) ∧ merge (A:=A64) tol ie false a bc = (m2, Ok k4) ∧
    k1 + k2 = k3 + k4 ∧ same_mesh (A:=A64) m1 m2 ∧ connected_mesh (A:=A64) m1 ∧ connected_mesh (A:=A64) m2.
Proof. apply (C79_grouping bnd64). apply A64_laws. Qed.
Print Assumptions C79_grouping_float64.

(** Three boxes with walls: two side by side, and one on top of both. *)
Definition walled (x0 x1 y0 y1 : Z) : hexa (num A64) := ok_or empty64
  (gen_box (A:=A64) "little" 2 1 (zf x0) (zf x1) (zf y0) (zf y1) [2;1;0;0;0]%nat
     (Some ["W"]%string) (Some ["W"]%string) (Some ["W"]%string) (Some ["W"]%string) true).
Definition left_box := walled 0 2 0 1.
Definition right_box := walled 2 4 0 1.
Definition top_box := walled 1 3 1 2.
Definition no_periodicb (m : hexa (num A64)) : bool :=
  forallb (λ '(i, b, f), match get_bc m i b f with Some r => negb (String.eqb (bt r) "P") | None => true end)
    (prod3 (range (nel m)) (range (nbc m)) (range (2 * ndim m))).
Lemma no_periodicb_ok m : no_periodicb m = true → no_periodic (A:=A64) m.
Proof.
  intros H i f b r (H1 & H2 & H3) Hr. pose proof (forallb_elem _ _ H (i, b, f)) as H'. cbv beta iota in H'. rewrite Hr in H'.
  apply String.eqb_neq, negb_true_iff, H'. apply elem_of_prod3. rewrite !elem_of_range. done.
Qed.
Definition apartb (f g : (nat * nat) * (nat * nat) → nat * nat) (l l' : list ((nat * nat) * (nat * nat))) : bool :=
  forallb (λ p, forallb (λ q, negb (face_eqb (f p) (g q))) l') l.
Lemma apartb_ok f g l l' p q : apartb f g l l' = true → p ∈ l → q ∈ l' → f p ≠ g q.
Proof.
  intros H Hp Hq E. pose proof (forallb_elem _ _ H p Hp) as H1. cbv beta in H1. pose proof (forallb_elem _ _ H1 q Hq) as H2. cbv beta in H2.
  rewrite E, (proj2 (face_eqb_eq _ _) eq_refl) in H2. done.
Qed.
Definition three_okb (a b c : hexa (num A64)) : bool :=
  two_okb a b && two_okb b c && two_okb a c && no_periodicb a && no_periodicb b && no_periodicb c && (nel a + nel b + nel c <=? 1000)%nat &&
  apartb snd snd (contactsb tol64 false a b) (contactsb tol64 false a c) && apartb fst snd (contactsb tol64 false a b) (contactsb tol64 false b c) &&
  apartb fst fst (contactsb tol64 false a c) (contactsb tol64 false b c).
Lemma three_okb_ok a b c : three_okb a b c = true →
  all_compatible (A:=A64) bnd64 a b c ∧ (0 < nbc a)%nat ∧ connected_mesh (A:=A64) a ∧ connected_mesh (A:=A64) b ∧ connected_mesh (A:=A64) c ∧
  no_periodic (A:=A64) a ∧ no_periodic (A:=A64) b ∧ no_periodic (A:=A64) c ∧ at_most_one (A:=A64) tol64 false a b c.
Proof.
  unfold three_okb. rewrite !andb_true_iff, Nat.leb_le. intros (((((((((H1 & H2) & H3) & H4) & H5) & H6) & H7) & P1) & P2) & P3).
  destruct (two_okb_ok a b H1) as (C1 & B1 & Ca & Cb & U1 & _). destruct (two_okb_ok b c H2) as (C2 & _ & _ & Cc & U2 & _). destruct (two_okb_ok a c H3) as (C3 & _ & _ & _ & U3 & _).
  destruct C1 as (D1 & D2 & D3 & D4 & _), C2 as (E1 & E2 & _ & E4 & _). split; [unfold all_compatible, bnd64; split_and!; try done; lia|]. split; [done|]. split; [done|]. split; [done|]. split; [done|].
  split; [by apply no_periodicb_ok|]. split; [by apply no_periodicb_ok|]. split; [by apply no_periodicb_ok|]. split; [done|]. split; [done|]. split; [done|]. split_and!.
  - intros x y z K1 K2. apply contactsb_ok in K1, K2. by apply (apartb_ok _ _ _ _ _ _ P1 K1 K2).
  - intros x y z K1 K2. apply contactsb_ok in K1, K2. by apply (apartb_ok _ _ _ _ _ _ P2 K1 K2).
  - intros x y z K1 K2. apply contactsb_ok in K1, K2. by apply (apartb_ok _ _ _ _ _ _ P3 K1 K2).
Qed.
Example C79_sample : three_okb left_box right_box top_box = true ∧
  (contactsb tol64 false left_box right_box, contactsb tol64 false left_box top_box, contactsb tol64 false right_box top_box) =
    ([((0, 3), (1, 1))], [((0, 0), (1, 2))], [((1, 0), (0, 2))])%nat.
Proof. vm_compute. done. Qed.
Example C79_sample_values :
  let ab := (merge (A:=A64) tol64 false false left_box right_box).1 in
  let bc := (merge (A:=A64) tol64 false false right_box top_box).1 in
  let '(m1, k1) := merge (A:=A64) tol64 false false ab top_box in
  let '(m2, k2) := merge (A:=A64) tol64 false false left_box bc in
  k1 = Ok 2 ∧ k2 = Ok 2 ∧ bc_view m1 5 0 0 = Some ("E", Ok 3, Ok 3)%string ∧ bc_view m2 5 0 0 = Some ("E", Ok 3, Ok 3)%string ∧
  bc_view m1 1 0 2 = Some ("E", Ok 5, Ok 1)%string ∧ bc_view m2 1 0 2 = Some ("E", Ok 5, Ok 1)%string.
Proof. vm_compute. split_and!; reflexivity. Qed.
