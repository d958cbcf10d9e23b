(** C77: boxes of bricks, made by gen_box and extrude, in float64 as well as over the reals. *)
From Coq Require Import Lia Reals Lra.
From Flocq Require Import Core.Core IEEE754.BinarySingleNaN IEEE754.Binary IEEE754.Bits.
From Verif Require Import Base Mesh Core Tools Float FloatLaws MeshLemmas MeshSpec CheckProofs GeoLaws BoxSpec BoxProofs P_Box
  ExtrudeSpec ExtrudeProofs P_Extrude BricksSpec Bricks.
Open Scope Z_scope.

Lemma slab_brick {A : arith} (e2 e : elem (num A)) x0 x1 y0 y1 z0 z1 :
  is_cell e2 x0 x1 y0 y1 → length (curv e2) = 12%nat → is_slab e2 z0 z1 e → is_brick e x0 x1 y0 y1 z0 z1.
Proof.
  intros (C1 & C2 & C3) Lc (S1 & _ & S3 & S4 & S5). split; [done|]. split.
  - apply list_eq. intros c. destruct (decide (8 ≤ c)%nat) as [H8|H8]; [by rewrite (proj1 (S5 c H8)), C3|].
    assert (∀ q, (q < 4)%nat → ccurv e !! q = Some ""%string ∧ ccurv e !! (q + 4)%nat = Some ""%string) as Hq.
    { intros q Hq. destruct (lookup_lt_is_Some_2 (curv e2) q) as [row Hrow]; [lia|].
      destruct (S4 q ""%string row Hq) as (A1 & _ & A3 & _); [rewrite C3; apply lookup_replicate_2; lia|done|done]. }
    rewrite (lookup_replicate_2 12) by lia. destruct (decide (c < 4)%nat) as [H4|H4]; [by apply Hq|].
    destruct (Hq (c - 4)%nat ltac:(lia)) as [_ Q]. by replace (c - 4 + 4)%nat with c in Q by lia.
  - assert (∀ ky kx, (ky < 2)%nat → (kx < 2)%nat → point e2 0 ky kx = Some (if decide (kx = 0%nat) then x0 else x1, if decide (ky = 0%nat) then y0 else y1, nofZ 0)) as HP.
    { intros ky kx Hy Hx. unfold point. rewrite C1, C2. destruct ky as [|[|ky]], kx as [|[|kx]]; try lia; done. }
    intros kz ky kx Hz Hy Hx. destruct (S3 ky kx _ _ _ (HP ky kx Hy Hx)) as [P0 P1].
    destruct kz as [|[|kz]]; [exact P0|exact P1|lia].
Qed.

(** Every brick is in its place, every face of it carries the expected condition in every field, and
    the mesh passes both checks of the class. *)
Theorem C77_bricks {A : arith} (bnd : Z) bo nx ny (xmin xmax ymin ymax : num A) v0 rest
    bxmin bxmax bymin bymax nb (sd : nat → sides) z obc1 obc2 c1 c2 :
  arith_laws A bnd → geo_laws A →
  fields_of (v0 :: rest) nb → (2 ≤ v0)%nat → (1 ≤ nx)%nat → (1 ≤ ny)%nat → (2 ≤ length z)%nat →
  let nz := (length z - 1)%nat in Z.of_nat (nx * ny * nz) <= bnd → 6 <= bnd →
  nleb (nsub xmax xmin) (nofZ 0) = false → nleb (nsub ymax ymin) (nofZ 0) = false →
  (∀ b, (b < nb)%nat → sides_ok (sd b) ∧
     sides_of (given nb bxmin) (given nb bxmax) (given nb bymin) (given nb bymax) b = Some (sd b)) →
  conditions_given nb obc1 c1 → conditions_given nb obc2 c2 →
  (∀ b, (b < nb)%nat → end_condition (c1 b) ∧ end_condition (c2 b) ∧ (c1 b = "P"%string ↔ c2 b = "P"%string)) →
  ∃ m m3, gen_box bo nx ny xmin xmax ymin ymax (v0 :: rest) bxmin bxmax bymin bymax true = Ok m ∧
    extrude m z obc1 obc2 true = Ok m3 ∧
    is_bricks nx ny xmin xmax ymin ymax z m3 ∧ nbc m3 = nb ∧
    (∀ i j k b f, (i < nx)%nat → (j < ny)%nat → (k < nz)%nat → (b < nb)%nat → (f < 6)%nat →
       ∃ r, get_bc m3 (brick nx ny i j k) b f = Some r ∧ is_brick_bc nx ny nz (sd b) (c1 b) (c2 b) i j k f r) ∧
    (∀ tol, nleb (nofZ 0) tol = true → valid_connectivity tol m3 ∧ check_connectivity tol m3 = Ok true) ∧
    ((∀ b, (b < nb)%nat → c1 b ≠ ""%string ∧ c2 b ≠ ""%string) → check_bcs_present m3 = Ok true).
Proof.
  intros LA LG Hf Hv Hnx Hny Hz nz Hbnd H6 Hx Hy Hsd G1 G2 Hc.
  pose proof (fields_of_nbc _ _ Hf) as Hfn.
  assert (∀ b, (b < nb)%nat → sides_of (given nb bxmin) (given nb bxmax) (given nb bymin) (given nb bymax) b = Some (sd b)) as Hsd' by (intros b Hb; by apply Hsd).
  set (m := box3 bo nx ny xmin xmax ymin ymax (v0 :: rest) nb sd true).
  assert (gen_box bo nx ny xmin xmax ymin ymax (v0 :: rest) bxmin bxmax bymin bymax true = Ok m) as Em.
  { by apply (gen_box_eq bo nx ny xmin xmax ymin ymax (v0 :: rest) bxmin bxmax bymin bymax nb sd). }
  destruct (C37_gen_box_grid bo nx ny xmin xmax ymin ymax (v0 :: rest) bxmin bxmax bymin bymax true nb sd Hf Hnx Hny Hx Hy Hsd') as (m' & Em' & Hw & Hg & Hnb & _).
  rewrite Em in Em'. assert (m' = m) as -> by congruence. clear Em'.
  pose proof (C38_gen_box_faces bo nx ny xmin xmax ymin ymax (v0 :: rest) bxmin bxmax bymin bymax nb sd m Hf Hnx Hny Hx Hy Hsd Em) as Hent.
  pose proof (box_linear bo nx ny xmin xmax ymin ymax v0 rest nb sd true Hv : linear2d m) as Hlin.
  pose proof Hg as (D1 & D2 & D3 & D4 & _ & D6).
  assert (Z.of_nat (nx * ny) <= bnd) as Hb2 by (unfold nz in *; nia).
  assert (∀ b, (b < nb)%nat → sides_ok (sd b)) as Hso by (intros b Hb; by apply Hsd).
  assert (paired m) as Hp by (eapply (grid_paired bnd); eauto; lia).
  assert (coincident m) as Hco by (eapply (grid_coincident bnd); eauto; lia).
  rewrite <- Hnb in G1, G2, Hc. assert (Z.of_nat (nel m * (length z - 1)) <= bnd) as Hbz by (rewrite D2; exact Hbnd).
  pose proof (paired_refs bnd m _ (proj1 Hlin) Hp Hbz) as Hrefs.
  destruct (C34_extrude_stack bnd m z obc1 obc2 true c1 c2 LA Hw Hlin Hz Hrefs G1 G2) as (m3 & E3 & Hw3 & Hst); [intros b Hb; by apply Hc|].
  destruct (C35_extrude_faces bnd m m3 z obc1 obc2 c1 c2 LA Hw Hlin Hp Hz Hbz G1 G2 Hc E3) as [Hside Hend]. fold nz in Hside, Hend.
  exists m, m3. split; [done|]. split; [done|].
  destruct Hst as (S1 & S2 & S3 & _ & S5 & S6 & S7). rewrite D2 in S2, S7, Hside, Hend. rewrite Hnb in S5, Hend, Hc. fold nz in S2, S6.
  assert (∀ i j k b f, (i < nx)%nat → (j < ny)%nat → (k < nz)%nat → (b < nb)%nat → (f < 6)%nat →
       ∃ r, get_bc m3 (brick nx ny i j k) b f = Some r ∧ is_brick_bc nx ny nz (sd b) (c1 b) (c2 b) i j k f r) as Hall.
  { intros i j k b f Hi Hj Hk Hb Hf6. destruct (decide (f < 4)%nat) as [Hf4|Hf4].
    - destruct (Hside k (i + nx * j)%nat b f Hk) as (r & Hr & r2 & Hr2 & T & Eb & P & Fc & _).
      { split; [rewrite D2; by apply elnum_lt|]. split; [by rewrite Hnb|]. rewrite D1. cbn. lia. }
      exists r. split; [exact Hr|]. destruct (Hent i j b f Hi Hj Hb Hf4) as (r0 & Hr0 & Hbc). rewrite Hr2 in Hr0. apply (inj Some) in Hr0 as <-.
      unfold is_brick_bc. assert (brick_face nx ny nz (sd b) (c1 b) (c2 b) i j k f = let '(t, (i', j', f')) := cell_face nx ny (sd b) i j f in (t, (i', j', k, f'))) as ->.
      { destruct f as [|[|[|[|f]]]]; [done..|lia]. }
      unfold is_cell_bc in Hbc. destruct (cell_face nx ny (sd b) i j f) as [t [[i' j'] f']] eqn:Ecf. destruct Hbc as (Q1 & Q2 & Q3 & Q4).
      split; [congruence|]. split; [rewrite Eb, D2; done|]. split; [congruence|]. intros Hcn.
      assert (i' < nx ∧ j' < ny)%nat as [Hi' Hj'].
      { destruct (other_side bnd nx ny nb xmin xmax ymin ymax sd m Hg Hnb Hso Hb2 b i j f t i' j' f' Hb Hi Hj Hf4 Ecf Hcn) as (? & ? & _). done. }
      pose proof (P (i' + nx * j')%nat f') as P'. rewrite D2 in P'. apply P'; [by apply elnum_lt|by rewrite Q1|by apply Q4].
    - destruct (Hend k (i + nx * j)%nat b f Hk) as (r & Hr & Q1 & Q2 & Q3); [by apply elnum_lt|done|lia|]. exists r. split; [exact Hr|].
      unfold is_brick_bc. assert (f = 4 ∨ f = 5)%nat as [->| ->] by lia; cbn [brick_face].
      + rewrite decide_True in Q3 by done. destruct (decide (k = 0%nat)); destruct Q3 as [T P]; (split; [done|]); (split; [done|]); (split; [done|]); intros Hcn.
        * destruct (Hc b Hb) as ([_ H] & _). destruct Hcn as [Hcn|Hcn]; [done|]. by apply P.
        * exact P.
      + rewrite decide_False in Q3 by done. destruct (decide (k = nz - 1)%nat); destruct Q3 as [T P]; (split; [done|]); (split; [done|]); (split; [done|]); intros Hcn.
        * destruct (Hc b Hb) as (_ & [_ H] & _). destruct Hcn as [Hcn|Hcn]; [done|]. unfold brick. rewrite Nat.mul_0_r, Nat.add_0_r. by apply P.
        * exact P. }
  split; [|split; [done|split; [exact Hall|split]]].
  - split; [done|]. split; [done|]. split; [exact (eq_trans S3 S2)|]. split; [rewrite S6, D4; lia|].
    intros i j k z0 z1 Hi Hj Hk0 Hk1. destruct (D6 i j Hi Hj) as (e2 & He2 & Hcell).
    destruct (S7 k (i + nx * j)%nat e2 z0 z1 Hk0 Hk1 He2) as (e & He & Hsl). exists e. split; [exact He|].
    eapply slab_brick; [done| |done]. apply Hlin. by eapply elem_of_list_lookup_2.
  - intros tol Ht. rewrite <- Hnb in Hc. destruct (C35_extrude_valid bnd m z obc1 obc2 c1 c2 tol LA LG Hw Hlin Hp Hco Hz Hbz H6 G1 G2 Hc Ht) as (m4 & E4 & V1 & V2).
    rewrite E3 in E4. assert (m4 = m3) as -> by congruence. done.
  - intros Hne. apply check_bcs_present_iff; [by destruct Hw3|]. intros q b f r (Hq & Hb & Hf') Hr.
    rewrite S2 in Hq. rewrite S5 in Hb. rewrite S1 in Hf'.
    apply elnum_div in Hq as (q2 & k & Hq2 & Hk & ->). apply elnum_div in Hq2 as (i & j & Hi & Hj & ->). unfold elnum in Hr.
    destruct (Hall i j k b f Hi Hj Hk Hb ltac:(cbn in Hf'; lia)) as (r0 & Hr0 & Hbc). unfold brick in Hr0. rewrite Hr in Hr0. apply (inj Some) in Hr0 as <-.
    unfold is_brick_bc in Hbc. destruct (Hso b Hb) as (T1 & T2 & T3 & T4 & _). destruct (Hne b Hb) as [N1 N2].
    destruct f as [|[|[|[|[|[|f]]]]]]; [| | | | | |cbn in Hf'; lia]; cbn [brick_face cell_face] in Hbc; case_decide; destruct Hbc as [-> _]; try done;
      [apply T1|apply T2|apply T3|apply T4].
Qed.
Print Assumptions C77_bricks.

(** In float64: up to 2^53 bricks. *)
Theorem C77_bricks_float64 bo nx ny (xmin xmax ymin ymax : f64) v0 rest
    bxmin bxmax bymin bymax nb (sd : nat → sides) z obc1 obc2 c1 c2 :
  fields_of (v0 :: rest) nb → (2 ≤ v0)%nat → (1 ≤ nx)%nat → (1 ≤ ny)%nat → (2 ≤ length z)%nat →
  let nz := (length z - 1)%nat in Z.of_nat (nx * ny * nz) <= 2 ^ 53 →
  f64_leb (b64_minus mode_NE xmax xmin) (f64_of_Z 0) = false →
  f64_leb (b64_minus mode_NE ymax ymin) (f64_of_Z 0) = false →
  (∀ b, (b < nb)%nat → sides_ok (sd b) ∧
     sides_of (given nb bxmin) (given nb bxmax) (given nb bymin) (given nb bymax) b = Some (sd b)) →
  conditions_given nb obc1 c1 → conditions_given nb obc2 c2 →
  (∀ b, (b < nb)%nat → end_condition (c1 b) ∧ end_condition (c2 b) ∧ (c1 b = "P"%string ↔ c2 b = "P"%string)) →
  ∃ m m3, gen_box (A:=A64) bo nx ny xmin xmax ymin ymax (v0 :: rest) bxmin bxmax bymin bymax true = Ok m ∧
    extrude (A:=A64) m z obc1 obc2 true = Ok m3 ∧
    is_bricks (A:=A64) nx ny xmin xmax ymin ymax z m3 ∧ nbc m3 = nb ∧
    (∀ i j k b f, (i < nx)%nat → (j < ny)%nat → (k < nz)%nat → (b < nb)%nat → (f < 6)%nat →
       ∃ r, get_bc m3 (brick nx ny i j k) b f = Some r ∧ is_brick_bc (A:=A64) nx ny nz (sd b) (c1 b) (c2 b) i j k f r) ∧
    (∀ tol, f64_leb (f64_of_Z 0) tol = true → valid_connectivity (A:=A64) tol m3 ∧ check_connectivity (A:=A64) tol m3 = Ok true) ∧
    ((∀ b, (b < nb)%nat → c1 b ≠ ""%string ∧ c2 b ≠ ""%string) → check_bcs_present (A:=A64) m3 = Ok true).
Proof.
  intros ? ? ? ? ? nz ? ? ? ? ? ? ?.
  apply (C77_bricks (A:=A64) bnd64 bo nx ny xmin xmax ymin ymax v0 rest bxmin bxmax bymin bymax nb sd z obc1 obc2 c1 c2);
    try done; [apply A64_laws|apply A64_geo].
Qed.
Print Assumptions C77_bricks_float64.
(** Twelve bricks in two layers, periodic in x and y, with inflow below and outflow above. *)
Example C77_sample : ∃ m m3,
  gen_box (A:=A64) "little" 3 2 (f64_of_Z 0) (f64_of_Z 1) (f64_of_Z 0) (f64_of_Z 1) [2; 2; 1; 0; 0]%nat None None None None true = Ok m ∧
  extrude (A:=A64) m [f64_of_Z 0; f64_of_Z 1; f64_of_Z 3] (Some ["v"%string]) (Some ["O"%string]) true = Ok m3 ∧
  nel m3 = 12%nat ∧ check_bcs_present (A:=A64) m3 = Ok true ∧
  (∃ r, get_bc m3 6 0 3 = Some r ∧ bt r = "P"%string ∧ points (A:=A64) r 8 1) ∧
  (∃ r, get_bc m3 0 0 5 = Some r ∧ bt r = "E"%string ∧ points (A:=A64) r 6 4).
Proof.
  destruct (C77_bricks_float64 "little" 3 2 (f64_of_Z 0) (f64_of_Z 1) (f64_of_Z 0) (f64_of_Z 1) 2 [2; 1; 0; 0]%nat None None None None 1
    (λ _, Sides "P" "P" "P" "P") [f64_of_Z 0; f64_of_Z 1; f64_of_Z 3] (Some ["v"%string]) (Some ["O"%string]) (λ _, "v"%string) (λ _, "O"%string))
    as (m & m3 & E & E3 & (_ & Hn & _) & _ & Hb & _ & Hp).
  - exact C38_default_fields.
  - lia.
  - lia.
  - lia.
  - cbn. lia.
  - cbn. lia.
  - vm_compute. reflexivity.
  - vm_compute. reflexivity.
  - exact C38_default_sides.
  - split; [done|]. intros [|b] Hb; [done|lia].
  - split; [done|]. intros [|b] Hb; [done|lia].
  - intros b _. split; [done|]. split; [done|]. done.
  - exists m, m3. split; [exact E|]. split; [exact E3|]. split; [exact Hn|]. split; [by apply Hp|]. cbn [length Nat.sub] in Hb. split.
    + destruct (Hb 0 0 1 0 3)%nat as (r & Hr & W); [lia..|]. exists r. split; [exact Hr|]. cbn in W. destruct W as (W1 & _ & _ & W2). split; [done|]. apply W2. by right.
    + destruct (Hb 0 0 0 0 5)%nat as (r & Hr & W); [lia..|]. exists r. split; [exact Hr|]. cbn in W. destruct W as (W1 & _ & _ & W2). split; [done|]. apply W2. by left.
Qed.
