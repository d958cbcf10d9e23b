(** A grid is conforming, and so its extrusion is valid. *)
From Coq Require Import Lia.
From Verif Require Import Base Mesh Core Tools MeshLemmas MeshSpec CheckProofs GeoLaws BoxSpec BoxProofs ExtrudeSpec BricksSpec.
Open Scope Z_scope.

Section Grid.
Context {A : arith}.
Notation N := (num A).
Context (bnd : Z) (LA : arith_laws A bnd).
Context (nx ny nb : nat) (xmin xmax ymin ymax : N) (sd : nat → sides) (m : hexa N).
Hypothesis Hg : is_grid nx ny xmin xmax ymin ymax m.
Hypothesis Hnb : nbc m = nb.
Hypothesis Hs : ∀ b, (b < nb)%nat → sides_ok (sd b).
Hypothesis Hent : ∀ i j b f, (i < nx)%nat → (j < ny)%nat → (b < nb)%nat → (f < 4)%nat →
  ∃ r, get_bc m (i + nx * j)%nat b f = Some r ∧ is_cell_bc nx ny (sd b) i j f r.
Hypothesis Hbnd : Z.of_nat (nx * ny) <= bnd.
Hypothesis Hb4 : 4 <= bnd.

Lemma points_fun r i j (f g : nat) : points (A:=A) r i f → points r j g → (i < nx * ny)%nat → (j < nx * ny)%nat → (f < 4)%nat → (g < 4)%nat → i = j ∧ f = g.
Proof.
  intros [P3 P4] [Q3 Q4] Hi Hj Hf Hg'. rewrite P3 in Q3. rewrite P4 in Q4.
  assert (∀ a b : Z, 0 <= a <= bnd → 0 <= b <= bnd → @nofZ A a = @nofZ A b → a = b) as Hinj.
  { intros a b Ha Hb E. assert (ntrunc (@nofZ A a) = Ok a) as Ea by (apply (law_trunc A bnd LA); lia).
    assert (ntrunc (@nofZ A b) = Ok b) as Eb by (apply (law_trunc A bnd LA); lia). rewrite E, Eb in Ea. congruence. }
  apply Hinj in Q3; [|lia|lia]. apply Hinj in Q4; [|lia|lia]. lia.
Qed.
Lemma cell_at i j e : (i < nx)%nat → (j < ny)%nat → elems m !! (i + nx * j)%nat = Some e →
  is_cell e (grid_coord xmin xmax nx i) (grid_coord xmin xmax nx (i + 1)) (grid_coord ymin ymax ny j) (grid_coord ymin ymax ny (j + 1)).
Proof.
  intros Hi Hj He. destruct Hg as (_ & _ & _ & _ & _ & G6). destruct (G6 i j Hi Hj) as (e' & He' & C). rewrite He in He'. by apply (inj Some) in He' as <-.
Qed.
(* the face on the other side *)
Lemma other_side b i j f t i' j' f' : (b < nb)%nat → (i < nx)%nat → (j < ny)%nat → (f < 4)%nat →
  cell_face nx ny (sd b) i j f = (t, (i', j', f')) → is_conn t →
  (i' < nx)%nat ∧ (j' < ny)%nat ∧ (f' < 4)%nat ∧ cell_face nx ny (sd b) i' j' f' = (t, (i, j, f)) ∧
  (t = "E"%string → ∀ e e', elems m !! (i + nx * j)%nat = Some e → elems m !! (i' + nx * j')%nat = Some e' →
     face_center e (Z.of_nat f) = face_center e' (Z.of_nat f')).
Proof.
  intros Hb Hi Hj Hf Hcell Ht. destruct (Hs b Hb) as (S1 & S2 & S3 & S4 & S5 & S6). unfold cell_face in Hcell.
  destruct f as [|[|[|[|f]]]]; [| | | |lia]; case_decide; injection Hcell as <- <- <- <-;
      (split; [lia|]); (split; [lia|]); (split; [lia|]); cbn [cell_face].
  - subst j. split; [|intros HE; by destruct S1 as (_ & ? & _)].
    rewrite decide_True by done. destruct Ht as [Ht|Ht]; [by destruct S1 as (_ & ? & _)|].
    by rewrite Ht, (proj1 S5 Ht).
  - split; [rewrite decide_False by lia; by replace (j - 1 + 1)%nat with j by lia|].
    intros _ e e' He He'.
    pose proof (cell_face_center e _ _ _ _ (cell_at i j e Hi Hj He)) as (F0 & _).
    pose proof (cell_face_center e' _ _ _ _ (cell_at i (j - 1)%nat e' Hi ltac:(lia) He')) as (_ & _ & G2' & _). replace (j - 1 + 1)%nat with j in G2' by lia.
    exact (eq_trans F0 (eq_sym G2')).
  - subst i. split; [|intros HE; by destruct S2 as (_ & ? & _)].
    rewrite decide_True by done. destruct Ht as [Ht|Ht]; [by destruct S2 as (_ & ? & _)|].
    by rewrite Ht, (proj2 S6 Ht).
  - split; [rewrite decide_False by lia; by replace (i + 1 - 1)%nat with i by lia|].
    intros _ e e' He He'.
    pose proof (cell_face_center e _ _ _ _ (cell_at i j e Hi Hj He)) as (_ & F1 & _).
    pose proof (cell_face_center e' _ _ _ _ (cell_at (i + 1)%nat j e' ltac:(lia) Hj He')) as (_ & _ & _ & G3').
    exact (eq_trans F1 (eq_sym G3')).
  - subst j. split; [|intros HE; by destruct S3 as (_ & ? & _)].
    rewrite decide_True by done. destruct Ht as [Ht|Ht]; [by destruct S3 as (_ & ? & _)|].
    by rewrite Ht, (proj2 S5 Ht).
  - split; [rewrite decide_False by lia; by replace (j + 1 - 1)%nat with j by lia|].
    intros _ e e' He He'.
    pose proof (cell_face_center e _ _ _ _ (cell_at i j e Hi Hj He)) as (_ & _ & F2 & _).
    pose proof (cell_face_center e' _ _ _ _ (cell_at i (j + 1)%nat e' Hi ltac:(lia) He')) as (G0' & _).
    exact (eq_trans F2 (eq_sym G0')).
  - subst i. split; [|intros HE; by destruct S4 as (_ & ? & _)].
    rewrite decide_True by done. destruct Ht as [Ht|Ht]; [by destruct S4 as (_ & ? & _)|].
    by rewrite Ht, (proj1 S6 Ht).
  - split; [rewrite decide_False by lia; by replace (i - 1 + 1)%nat with i by lia|].
    intros _ e e' He He'.
    pose proof (cell_face_center e _ _ _ _ (cell_at i j e Hi Hj He)) as (_ & _ & _ & F3).
    pose proof (cell_face_center e' _ _ _ _ (cell_at (i - 1)%nat j e' ltac:(lia) Hj He')) as (_ & G1' & _). replace (i - 1 + 1)%nat with i in G1' by lia.
    exact (eq_trans F3 (eq_sym G1')).
Qed.
Lemma grid_entry i b f r : in_mesh m i b f → get_bc m i b f = Some r →
  ∃ a c, i = (a + nx * c)%nat ∧ (a < nx)%nat ∧ (c < ny)%nat ∧ (b < nb)%nat ∧ (f < 4)%nat ∧ is_cell_bc nx ny (sd b) a c f r.
Proof.
  intros (Hi & Hb & Hf) Hr. destruct Hg as (G1 & G2 & _). rewrite G2 in Hi. rewrite Hnb in Hb. rewrite G1 in Hf.
  apply elnum_div in Hi as (a & c & Ha & Hc & ->). unfold elnum in *. exists a, c. destruct (Hent a c b f Ha Hc Hb ltac:(lia)) as (r0 & Hr0 & H0).
  rewrite Hr in Hr0. apply (inj Some) in Hr0 as <-. repeat (split; [done || lia|]). exact H0.
Qed.
Lemma grid_paired : paired m.
Proof.
  intros i b f r Hin Hr Hc. destruct (grid_entry i b f r Hin Hr) as (a & c & -> & Ha & Hc' & Hb & Hf & He).
  unfold is_cell_bc in He. destruct (cell_face nx ny (sd b) a c f) as [t [[a' c'] f']] eqn:E. destruct He as (T & _ & _ & P). rewrite T in Hc.
  destruct (other_side b a c f t a' c' f' Hb Ha Hc' Hf E Hc) as (Ha' & Hc'' & Hf' & E' & _).
  destruct (Hent a' c' b f' Ha' Hc'' Hb Hf') as (r' & Hr' & H'). unfold is_cell_bc in H'. rewrite E' in H'. destruct H' as (T' & _ & _ & P').
  exists (a' + nx * c')%nat, f', r'. split; [|split; [by apply P|split; [done|split; [congruence|by apply P']]]].
  pose proof Hg as (G1 & G2 & _). split; [rewrite G2; by apply elnum_lt|]. split; [lia|]. rewrite G1. lia.
Qed.
Lemma grid_coincident : coincident m.
Proof.
  intros i b f r j g e e' Hin Hr HE Hin' Hp He He'. destruct (grid_entry i b f r Hin Hr) as (a & c & -> & Ha & Hc' & Hb & Hf & Hbc).
  unfold is_cell_bc in Hbc. destruct (cell_face nx ny (sd b) a c f) as [t [[a' c'] f']] eqn:E. destruct Hbc as (T & _ & _ & P).
  assert (is_conn t) as Hc by (left; congruence).
  destruct (other_side b a c f t a' c' f' Hb Ha Hc' Hf E Hc) as (Ha' & Hc'' & Hf' & _ & Hfc).
  pose proof Hg as (G1 & G2 & _). destruct Hin' as (Hj & _ & Hg4). rewrite G2 in Hj. rewrite G1 in Hg4.
  destruct (points_fun r (a' + nx * c')%nat j f' g (P Hc) Hp) as [<- <-]; [by apply elnum_lt|done|done|lia|].
  apply Hfc; [congruence|done|done].
Qed.
End Grid.

Lemma box_linear {A : arith} bo nx ny (xmin xmax ymin ymax : num A) v0 rest nb sd internal :
  let var := v0 :: rest in (2 ≤ v0)%nat →
  linear2d (box3 bo nx ny xmin xmax ymin ymax var nb sd internal).
Proof.
  intros var Hv. destruct (box3_strip bo nx ny xmin xmax ymin ymax var nb sd internal) as [Hs _].
  pose proof (box3_grid bo nx ny xmin xmax ymin ymax var nb sd internal) as ((G1 & G2 & G3 & _ & _ & G6) & _ & Gl & Gv).
  set (m := box3 bo nx ny xmin xmax ymin ymax var nb sd internal) in *.
  pose proof (strip_fields _ _ Hs) as (_ & _ & _ & _ & _ & E6 & _).
  destruct (place_rest (grid_coord xmin xmax nx) (grid_coord ymin ymax ny) nx
    (prod2 (range nx) (range ny)) (box0 bo nx ny var nb)) as [Hr _]. pose proof (f_equal lr1kind Hr) as F6.
  split; [done|]. split; [exact (eq_trans E6 F6)|]. split; [done|]. split; [by exists v0, rest|].
  intros e He. apply elem_of_list_lookup in He as (k & Hk). assert (k < nx * ny)%nat as Hlt by (rewrite <- G3; by eapply lookup_lt_Some).
  apply elnum_div in Hlt as (i & j & Hi & Hj & ->).
  pose proof (box1_elem bo nx ny xmin xmax ymin ymax var nb i j Hi Hj) as He.
  destruct (strip_elem_lookup _ _ _ _ (eq_sym Hs) He) as (e' & He' & Hst). rewrite Hk in He'. apply (inj Some) in He' as <-.
  pose proof (f_equal eshape Hst) as Q1. pose proof (f_equal ccurv Hst) as Q2. pose proof (f_equal curv Hst) as Q3.
  split; [exact Q1|]. split; [exact (f_equal length Q2)|exact (f_equal length Q3)].
Qed.
