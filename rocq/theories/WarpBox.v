(** The sides of a grid run along each other; a box can be mapped. *)
From Coq Require Import Lia.
From Verif Require Import Base Mesh Core Tools MeshLemmas MeshSpec CheckProofs GeoLaws BoxSpec BoxProofs ExtrudeSpec BricksSpec Bricks CurveSpec WarpSpec.
Open Scope Z_scope.

Lemma cell_ends {A : arith} (e : elem (num A)) x0 x1 y0 y1 : is_cell e x0 x1 y0 y1 →
  (first_end e 0 = Some (x0, y0, nofZ 0) ∧ second_end e 0 = Some (x1, y0, nofZ 0)) ∧
  (first_end e 1 = Some (x1, y0, nofZ 0) ∧ second_end e 1 = Some (x1, y1, nofZ 0)) ∧
  (first_end e 2 = Some (x0, y1, nofZ 0) ∧ second_end e 2 = Some (x1, y1, nofZ 0)) ∧
  (first_end e 3 = Some (x0, y0, nofZ 0) ∧ second_end e 3 = Some (x0, y1, nofZ 0)).
Proof.
  intros (C1 & C2 & _). unfold first_end, second_end; cbn [side_points]. unfold point. rewrite C1, C2. done.
Qed.

Section Grid.
Context {A : arith}.
Notation N := (num A).
Context (bnd : Z) (LA : arith_laws A bnd).
Context (nx ny nb : nat) (xmin xmax ymin ymax : N) (sd : nat → sides) (m : hexa N).
Hypothesis Hg : is_grid nx ny xmin xmax ymin ymax m.
Hypothesis Hnb : nbc m = nb.
Hypothesis Hs : ∀ b, (b < nb)%nat → sides_ok (sd b).
Hypothesis Hent : ∀ i j b f, (i < nx)%nat → (j < ny)%nat → (b < nb)%nat → (f < 4)%nat →
  ∃ r, get_bc m (i + nx * j)%nat b f = Some r ∧ is_cell_bc nx ny (sd b) i j f r.
Hypothesis Hbnd : Z.of_nat (nx * ny) <= bnd.
Hypothesis Hb4 : 4 <= bnd.

Lemma grid_joined : joined along m.
Proof.
  intros i b f r j g e e' Hin Hr HE Hin' Hp He He'. destruct (grid_entry bnd nx ny nb xmin xmax ymin ymax sd m Hg Hnb Hent Hbnd i b f r Hin Hr) as (a & c & -> & Ha & Hc' & Hb & Hf & Hbc).
  unfold is_cell_bc in Hbc. destruct (cell_face nx ny (sd b) a c f) as [t [[a' c'] f']] eqn:E. destruct Hbc as (T & _ & _ & P).
  assert (is_conn t) as Hc by (left; congruence). assert (t = "E"%string) as Et by congruence.
  destruct (other_side bnd nx ny nb xmin xmax ymin ymax sd m Hg Hnb Hs Hbnd b a c f t a' c' f' Hb Ha Hc' Hf E Hc) as (Ha' & Hc'' & Hf' & _ & _).
  pose proof Hg as (G1 & G2 & _). destruct Hin' as (Hj & _ & Hg4). rewrite G2 in Hj. rewrite G1 in Hg4.
  destruct (points_fun bnd LA nx ny nb m Hnb Hbnd Hb4 r (a' + nx * c')%nat j f' g (P Hc) Hp) as [<- <-]; [by apply elnum_lt|done|done|lia|].
  pose proof (cell_ends e _ _ _ _ (cell_at nx ny xmin xmax ymin ymax m Hg a c e Ha Hc' He)) as ((A0 & B0) & (A1 & B1) & (A2 & B2) & (A3 & B3)).
  pose proof (cell_ends e' _ _ _ _ (cell_at nx ny xmin xmax ymin ymax m Hg a' c' e' Ha' Hc'' He')) as ((A0' & B0') & (A1' & B1') & (A2' & B2') & (A3' & B3')).
  destruct (Hs b Hb) as (S1 & S2 & S3 & S4 & _). unfold cell_face in E. unfold along.
  destruct f as [|[|[|[|f]]]]; [| | | |lia]; case_decide; injection E as E1 E2 E3 E4; subst a' c' f'; rewrite <- ?E1 in Et.
  - by destruct S1 as (_ & ? & _).
  - rewrite A0, B0, A2', B2'. by replace (c - 1 + 1)%nat with c by lia.
  - by destruct S2 as (_ & ? & _).
  - by rewrite A1, B1, A3', B3'.
  - by destruct S3 as (_ & ? & _).
  - by rewrite A2, B2, A0', B0'.
  - by destruct S4 as (_ & ? & _).
  - rewrite A3, B3, A1', B1'. by replace (a - 1 + 1)%nat with a by lia.
Qed.
End Grid.

Lemma box_element2d {A : arith} bo nx ny (xmin xmax ymin ymax : num A) var nb sd internal e : (1 ≤ nb)%nat → nbc (box3 bo nx ny xmin xmax ymin ymax var nb sd internal) = nb →
  wf_mesh (box3 bo nx ny xmin xmax ymin ymax var nb sd internal) →
  e ∈ elems (box3 bo nx ny xmin xmax ymin ymax var nb sd internal) → element2d e.
Proof.
  intros Hnb Eb [(_ & _ & Wb) Wg]. 
  destruct (box3_strip bo nx ny xmin xmax ymin ymax var nb sd internal) as [Hs _].
  pose proof (box3_grid bo nx ny xmin xmax ymin ymax var nb sd internal) as ((_ & _ & G3 & _) & _).
  set (m := box3 bo nx ny xmin xmax ymin ymax var nb sd internal) in *.
  intros He0. pose proof He0 as He1. apply elem_of_list_lookup in He0 as (k & Hk). assert (k < nx * ny)%nat as Hlt by (rewrite <- G3; by eapply lookup_lt_Some).
  apply elnum_div in Hlt as (i & j & Hi & Hj & ->).
  pose proof (box1_elem bo nx ny xmin xmax ymin ymax var nb i j Hi Hj) as He.
  destruct (strip_elem_lookup _ _ _ _ (eq_sym Hs) He) as (e' & He' & Hst). rewrite Hk in He'. apply (inj Some) in He' as <-.
  pose proof (f_equal eshape Hst) as Q1. pose proof (f_equal ccurv Hst) as Q2. pose proof (f_equal curv Hst) as Q3.
  destruct (Wg e He1) as (lx & ly & lz & W1 & _ & W3 & W4). assert (eshape e = (2, 2, 1)%nat) as Es by exact Q1. rewrite Es in W1. injection W1 as <- <- <-.
  destruct (Wb e He1) as [L1 L2]. split; [done|]. split; [done|]. split; [exact W4|]. split.
  - split; [exact (f_equal length Q3)|]. split; [|exact (f_equal length Q2)]. refine (eq_ind_r (Forall _) _ Q3). repeat constructor.
  - destruct (lookup_lt_is_Some_2 (bcs e) 0) as [row Hrow]; [rewrite L1, Eb; lia|]. exists row. split; [done|]. apply L2. by eapply elem_of_list_lookup_2.
Qed.
