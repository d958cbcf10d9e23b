(** C37, C38, C52: gen_box. *)
From Coq Require Import Lia Reals Lra.
From Flocq Require Import Core.Core IEEE754.BinarySingleNaN IEEE754.Binary IEEE754.Bits.
From Verif Require Import Base Mesh Core Tools Float FloatLaws MeshLemmas MeshSpec CheckProofs
  GeoLaws BoxSpec BoxProofs Defaults Samples.
Open Scope Z_scope.

(** The number of boundary condition fields of a mesh with the variables [var]: one for the
    velocity, one for the temperature if present, one per scalar. *)
Definition fields_of (var : list nat) (nb : nat) : Prop :=
  ∃ v0 v1 v2 v3 v4 rest, var = v0 :: v1 :: v2 :: v3 :: v4 :: rest ∧
    nb = ((if decide (0 < v1)%nat then 1 else 0) + (if decide (0 < v3)%nat then 1 else 0) + v4)%nat.
Lemma fields_of_nbc var nb : fields_of var nb → box_nbc var = Ok nb.
Proof.
  intros (v0 & v1 & v2 & v3 & v4 & rest & -> & ->). unfold box_nbc.
  cbn [of_opt rbind lookup list_lookup].
  destruct (Nat.ltb_spec 0 v1), (Nat.ltb_spec 0 v3), (decide (0 < v1)%nat), (decide (0 < v3)%nat);
    try lia; done.
Qed.
(** The four lists of side conditions; a missing list means periodic in all fields. *)
Definition given (nb : nat) (o : option (list string)) : list string :=
  match o with Some l => l | None => replicate nb "P"%string end.

(** C37. With a positive extent in both directions, gen_box returns the regular grid. *)
Theorem C37_gen_box_grid {A : arith} bo nx ny (xmin xmax ymin ymax : num A) var
    bxmin bxmax bymin bymax internal nb (sd : nat → sides) :
  fields_of var nb → (1 ≤ nx)%nat → (1 ≤ ny)%nat →
  nleb (nsub xmax xmin) (nofZ 0) = false → nleb (nsub ymax ymin) (nofZ 0) = false →
  (∀ b, (b < nb)%nat →
     sides_of (given nb bxmin) (given nb bxmax) (given nb bymin) (given nb bymax) b = Some (sd b)) →
  ∃ m, gen_box bo nx ny xmin xmax ymin ymax var bxmin bxmax bymin bymax internal = Ok m ∧
    wf_mesh m ∧ is_grid nx ny xmin xmax ymin ymax m ∧
    nbc m = nb ∧ lr1 m = [2;2;1]%nat ∧ Mesh.var m = var.
Proof.
  intros Hf Hnx Hny Hx Hy Hsd. apply fields_of_nbc in Hf.
  eexists. split; [by apply (gen_box_eq bo nx ny xmin xmax ymin ymax var bxmin bxmax bymin bymax nb sd)|].
  split; [by apply box3_wf|]. destruct (box3_grid bo nx ny xmin xmax ymin ymax var nb sd internal) as (? & ? & ? & ?).
  done.
Qed.
Print Assumptions C37_gen_box_grid.

(** Over the real numbers the grid tiles [xmin, xmax] x [ymin, ymax]: the coordinates run from
    one end to the other in equal positive steps. *)
Theorem C37_grid_tiles (lo hi : R) (n : nat) : (lo < hi)%R → (1 ≤ n)%nat →
  grid_coord (A:=AR) lo hi n 0 = lo ∧ grid_coord (A:=AR) lo hi n n = hi ∧
  ∀ k, (k < n)%nat →
    (grid_coord (A:=AR) lo hi n (k + 1) - grid_coord (A:=AR) lo hi n k = (hi - lo) / INR n)%R ∧
    (grid_coord (A:=AR) lo hi n k < grid_coord (A:=AR) lo hi n (k + 1))%R.
Proof.
  intros Hlt Hn.
  assert (∀ k, grid_coord (A:=AR) lo hi n k = (lo + (hi - lo) * INR k / INR n)%R) as Hk.
  { intros k. rewrite !INR_IZR_INZ. reflexivity. }
  assert (0 < INR n)%R as Hpos by (apply lt_0_INR; lia).
  rewrite !Hk. change (INR 0) with 0%R.
  split; [change ((lo + (hi - lo) * 0 / INR n)%R = lo); field; lra|].
  split; [change ((lo + (hi - lo) * INR n / INR n)%R = hi); field; lra|].
  intros k _. rewrite !Hk, plus_INR. change (INR 1) with 1%R.
  assert (0 < (hi - lo) / INR n)%R by (apply Rdiv_lt_0_compat; lra).
  assert (lo + (hi - lo) * (INR k + 1) / INR n - (lo + (hi - lo) * INR k / INR n) = (hi - lo) / INR n)%R
    as E by (field; lra).
  split; [exact E|lra].
Qed.
Print Assumptions C37_grid_tiles.

(** Empty and inverted boxes are rejected. *)
Theorem C37_empty_rejected {A : arith} bo nx ny (xmin xmax ymin ymax : num A) var
    bxmin bxmax bymin bymax internal nb :
  fields_of var nb →
  nleb (nsub xmax xmin) (nofZ 0) = true ∨ nleb (nsub ymax ymin) (nofZ 0) = true →
  gen_box bo nx ny xmin xmax ymin ymax var bxmin bxmax bymin bymax internal = Raise ValueError.
Proof.
  intros Hf H. apply fields_of_nbc in Hf. unfold gen_box. rewrite Hf. cbn [rbind].
  destruct (nleb (nsub xmax xmin) (nofZ 0)); [done|]. destruct H as [H|H]; [done|]. by rewrite H.
Qed.
Print Assumptions C37_empty_rejected.

(** C38. Every face of every cell carries the expected condition in every field: internal
    faces refer to the neighbouring cell, outer faces carry the condition of their side, and
    periodic sides refer to the opposite cell. *)
Theorem C38_gen_box_faces {A : arith} bo nx ny (xmin xmax ymin ymax : num A) var
    bxmin bxmax bymin bymax nb (sd : nat → sides) m :
  fields_of var nb → (1 ≤ nx)%nat → (1 ≤ ny)%nat →
  nleb (nsub xmax xmin) (nofZ 0) = false → nleb (nsub ymax ymin) (nofZ 0) = false →
  (∀ b, (b < nb)%nat → sides_ok (sd b) ∧
     sides_of (given nb bxmin) (given nb bxmax) (given nb bymin) (given nb bymax) b = Some (sd b)) →
  gen_box bo nx ny xmin xmax ymin ymax var bxmin bxmax bymin bymax true = Ok m →
  ∀ i j b f, (i < nx)%nat → (j < ny)%nat → (b < nb)%nat → (f < 4)%nat →
    ∃ r, get_bc m (i + nx * j)%nat b f = Some r ∧ is_cell_bc nx ny (sd b) i j f r.
Proof.
  intros Hf Hnx Hny Hx Hy Hsd Hm. apply fields_of_nbc in Hf.
  rewrite (gen_box_eq bo nx ny xmin xmax ymin ymax var bxmin bxmax bymin bymax nb sd) in Hm;
    try done; [|intros b Hb; by apply Hsd].
  injection Hm as <-. intros i j b f Hi Hj Hb Hf4. apply box3_entry; try done. by apply Hsd.
Qed.
Print Assumptions C38_gen_box_faces.

(** ... so the mesh passes both checks of the class, with any non-negative tolerance. *)
Theorem C38_gen_box_valid {A : arith} (bnd : Z) bo nx ny (xmin xmax ymin ymax tol : num A) var
    bxmin bxmax bymin bymax nb (sd : nat → sides) :
  arith_laws A bnd → geo_laws A →
  fields_of var nb → (1 ≤ nx)%nat → (1 ≤ ny)%nat → Z.of_nat (nx * ny) <= bnd → 4 <= bnd →
  nleb (nsub xmax xmin) (nofZ 0) = false → nleb (nsub ymax ymin) (nofZ 0) = false →
  nleb (nofZ 0) tol = true →
  (∀ b, (b < nb)%nat → sides_ok (sd b) ∧
     sides_of (given nb bxmin) (given nb bxmax) (given nb bymin) (given nb bymax) b = Some (sd b)) →
  ∃ m, gen_box bo nx ny xmin xmax ymin ymax var bxmin bxmax bymin bymax true = Ok m ∧
    valid_connectivity tol m ∧ check_connectivity tol m = Ok true ∧ check_bcs_present m = Ok true.
Proof.
  intros LA LG Hf Hnx Hny Hbnd Hb4 Hx Hy Htol Hsd.
  destruct (C37_gen_box_grid bo nx ny xmin xmax ymin ymax var bxmin bxmax bymin bymax true nb sd)
    as (m & Hm & Hw & Hg & Hnb & _); try done; [intros b Hb; by apply Hsd|].
  exists m. split; [done|].
  pose proof (C38_gen_box_faces bo nx ny xmin xmax ymin ymax var bxmin bxmax bymin bymax nb sd m
    Hf Hnx Hny Hx Hy Hsd Hm) as Hent.
  assert (valid_connectivity tol m) as Hv.
  { eapply (grid_connectivity bnd LA LG); try done. intros b Hb; by apply Hsd. }
  split; [done|]. split; [by apply check_connectivity_iff|].
  apply check_bcs_present_iff; [by destruct Hw|].
  intros k b f r (Hk & Hb & Hf') Hr. destruct Hg as (G1 & G2 & _).
  rewrite G2 in Hk. rewrite Hnb in Hb. rewrite G1 in Hf'.
  apply elnum_div in Hk as (i & j & Hi & Hj & ->). unfold elnum in Hr.
  destruct (Hent i j b f Hi Hj Hb ltac:(lia)) as (r0 & Hr0 & Hc).
  rewrite Hr in Hr0. apply (inj Some) in Hr0 as <-. unfold is_cell_bc in Hc.
  destruct (Hsd b Hb) as [(S1 & S2 & S3 & S4 & _) _]. unfold cell_face in Hc.
  destruct f as [|[|[|f]]]; (case_decide; destruct Hc as [-> _]; [|done]).
  - apply S1. - apply S2. - apply S3. - apply S4.
Qed.
Print Assumptions C38_gen_box_valid.

(** The statement for float64. *)
Theorem C38_gen_box_valid_float64 bo nx ny (xmin xmax ymin ymax tol : f64) var
    bxmin bxmax bymin bymax nb (sd : nat → sides) :
  fields_of var nb → (1 ≤ nx)%nat → (1 ≤ ny)%nat → Z.of_nat (nx * ny) <= 2 ^ 53 →
  f64_leb (b64_minus mode_NE xmax xmin) (f64_of_Z 0) = false →
  f64_leb (b64_minus mode_NE ymax ymin) (f64_of_Z 0) = false →
  f64_leb (f64_of_Z 0) tol = true →
  (∀ b, (b < nb)%nat → sides_ok (sd b) ∧
     sides_of (given nb bxmin) (given nb bxmax) (given nb bymin) (given nb bymax) b = Some (sd b)) →
  ∃ m, gen_box (A:=A64) bo nx ny xmin xmax ymin ymax var bxmin bxmax bymin bymax true = Ok m ∧
    valid_connectivity (A:=A64) tol m ∧ check_connectivity (A:=A64) tol m = Ok true ∧
    check_bcs_present (A:=A64) m = Ok true.
Proof.
  intros ? ? ? ? ? ? ? ?.
  apply (C38_gen_box_valid (A:=A64) bnd64 bo nx ny xmin xmax ymin ymax tol var bxmin bxmax bymin bymax nb sd);
    try done; [apply A64_laws|apply A64_geo].
Qed.
Print Assumptions C38_gen_box_valid_float64.

(** With internal_bcs=False the inner faces are empty and the outer ones keep their condition. *)
Theorem C38_no_internal {A : arith} bo nx ny (xmin xmax ymin ymax : num A) var
    bxmin bxmax bymin bymax nb (sd : nat → sides) m :
  fields_of var nb → (1 ≤ nx)%nat → (1 ≤ ny)%nat →
  nleb (nsub xmax xmin) (nofZ 0) = false → nleb (nsub ymax ymin) (nofZ 0) = false →
  (∀ b, (b < nb)%nat → sides_ok (sd b) ∧
     sides_of (given nb bxmin) (given nb bxmax) (given nb bymin) (given nb bymax) b = Some (sd b)) →
  gen_box bo nx ny xmin xmax ymin ymax var bxmin bxmax bymin bymax false = Ok m →
  ∀ i j b f, (i < nx)%nat → (j < ny)%nat → (b < nb)%nat → (f < 4)%nat →
    ∃ r, get_bc m (i + nx * j)%nat b f = Some r ∧
      bt r = (if decide ((cell_face nx ny (sd b) i j f).1 = "E"%string) then ""%string
              else (cell_face nx ny (sd b) i j f).1).
Proof.
  intros Hf Hnx Hny Hx Hy Hsd Hm. apply fields_of_nbc in Hf.
  rewrite (gen_box_eq bo nx ny xmin xmax ymin ymax var bxmin bxmax bymin bymax nb sd) in Hm;
    try done; [|intros b Hb; by apply Hsd].
  injection Hm as <-. intros i j b f Hi Hj Hb Hf4.
  destruct (box3_entry_no_internal bo nx ny xmin xmax ymin ymax var nb sd Hnx Hny i j b f) as [H1 H2]; try done.
  destruct (box3_entry bo nx ny xmin xmax ymin ymax var nb sd Hnx Hny i j b f) as (r & Hr & Hc); try done; [by apply Hsd|].
  unfold is_cell_bc in Hc.
  destruct (cell_face nx ny (sd b) i j f) as [t [[i' j'] f']] eqn:E. cbn [fst]. destruct Hc as [Ht _].
  destruct (Hsd b Hb) as [((_ & S1 & _) & (_ & S2 & _) & (_ & S3 & _) & (_ & S4 & _) & _) _].
  assert (on_boundary nx ny i j f ↔ t ≠ "E"%string) as Hon.
  { unfold on_boundary. unfold cell_face in E.
    destruct f as [|[|[|f]]]; (case_decide; injection E as <- _ _ _; split; done). }
  case_decide as HE.
  - eexists. split; [apply H2; rewrite Hon; intros HN; by apply HN|done].
  - rewrite <- Hon in HE. specialize (H1 HE). rewrite Hr in H1.
    destruct (get_bc _ _ _ _) as [r'|]; [|done]. exists r'. split; [done|].
    injection H1 as H1. congruence.
Qed.
Print Assumptions C38_no_internal.

(** The hypotheses are met by the default call and by a box with walls. *)
Example C38_default_sides : ∀ b, (b < 1)%nat → sides_ok (Sides "P" "P" "P" "P") ∧
  sides_of (given 1 None) (given 1 None) (given 1 None) (given 1 None) b = Some (Sides "P" "P" "P" "P").
Proof.
  intros b Hb. assert (b = 0)%nat as -> by lia. split; [|done].
  unfold sides_ok, side_condition. cbn. repeat split; done.
Qed.
Example C38_default_fields : fields_of [2; 2; 1; 0; 0]%nat 1.
Proof. unfold fields_of. do 6 eexists. split; done. Qed.
Example C38_two_fields : ∃ m,
  gen_box (A:=A64) "little" 3 2 (zf 0) (zf 3) (zf (-1)) (zf 1) [2; 2; 1; 1; 0]%nat
    (Some ["v"; "t"]%string) (Some ["O"; "I"]%string) None None true = Ok m ∧
  check_connectivity (A:=A64) tol64 m = Ok true.
Proof.
  destruct (C38_gen_box_valid_float64 "little" 3 2 (zf 0) (zf 3) (zf (-1)) (zf 1) tol64 [2; 2; 1; 1; 0]%nat
    (Some ["v"; "t"]%string) (Some ["O"; "I"]%string) None None 2
    (λ b, if decide (b = 0)%nat then Sides "P" "O" "P" "v" else Sides "P" "I" "P" "t")) as (m & H1 & _ & H2 & _).
  - unfold fields_of. do 6 eexists. split; done.
  - lia. - lia. - vm_compute. discriminate. - vm_compute. reflexivity. - vm_compute. reflexivity.
  - vm_compute. reflexivity.
  - intros b Hb. destruct b as [|[|b]]; [| |lia]; (split; [|done]);
      unfold sides_ok, side_condition; cbn; repeat split; done.
  - eauto.
Qed.

(** Finding: one-sided periodicity is not rejected (extrude does reject it) and gives a mesh
    that fails the check. *)
Theorem C38_one_sided_periodic_refuted : ∃ m,
  gen_box (A:=A64) "little" 2 1 (zf 0) (zf 2) (zf 0) (zf 1) [2; 2; 1; 0; 0]%nat
    (Some ["P"]%string) (Some ["W"]%string) None None true = Ok m ∧
  check_connectivity (A:=A64) tol64 m = Raise ValueError.
Proof.
  assert (match gen_box (A:=A64) "little" 2 1 (zf 0) (zf 2) (zf 0) (zf 1) [2; 2; 1; 0; 0]%nat
    (Some ["P"]%string) (Some ["W"]%string) None None true with
    | Ok m => match check_connectivity (A:=A64) tol64 m with Raise ValueError => true | _ => false end
    | Raise _ => false end = true) as H by (vm_compute; reflexivity).
  destruct (gen_box _ _ _ _ _ _ _ _ _ _ _ _ _) as [m|]; [|done]. exists m. split; [done|].
  destruct (check_connectivity (A:=A64) tol64 m) as [|[]]; done.
Qed.
Print Assumptions C38_one_sided_periodic_refuted.

(** C52. The default [var] list is shared between calls. As long as nobody assigns to an item
    of the [var] list of a mesh made with the default, every call gives the same mesh... *)
Theorem C52_default_calls_agree_partial {A : arith} bo nx ny (xmin xmax ymin ymax : num A)
    (d : handle A) (ops : list var_op) :
  (∀ o, o ∈ ops → ∃ l, o = Rebind l) → h_var d = default_var →
  gen_box_default (do_ops (heap0, d) ops).1 bo nx ny xmin xmax ymin ymax =
  gen_box_default heap0 bo nx ny xmin xmax ymin ymax.
Proof.
  intros Hops _. unfold gen_box_default.
  assert ((do_ops (heap0, d) ops).1 !! default_var = heap0 !! default_var) as ->; [|done].
  unfold do_ops.
  assert (∀ s : heap * handle A, s.1 !! 0%nat = Some [2;2;1;0;0]%nat →
    (foldl do_op s ops).1 !! 0%nat = Some [2;2;1;0;0]%nat) as H; [|by apply H].
  induction ops as [|o ops IH]; intros s Hs; cbn; [done|]. apply IH.
  { intros o' Ho'. apply Hops. by right. }
  destruct (Hops o) as [l ->]; [left|]. destruct s as [h d'].
  cbn [do_op fst] in *. by apply lookup_app_l_Some.
Qed.
Print Assumptions C52_default_calls_agree_partial.

(** ... but an assignment to an item of [mesh.var] changes every later mesh: after
    [box.var[3] = 1] a call without arguments gives meshes with two boundary condition fields
    instead of one. *)
Definition nbc_after (ops : list var_op) : res nat :=
  let! d := gen_box_default (A:=A64) heap0 "little" 2 1 (zf 0) (zf 2) (zf 0) (zf 1) in
  let! d2 := gen_box_default (A:=A64) (do_ops (heap0, d) ops).1 "little" 2 1 (zf 0) (zf 2) (zf 0) (zf 1) in
  Ok (nbc (h_mesh d2)).
Theorem C52_default_leak_refuted : nbc_after [] = Ok 1%nat ∧ nbc_after [SetItem 3 1] = Ok 2%nat.
Proof. split; vm_compute; reflexivity. Qed.
Print Assumptions C52_default_leak_refuted.
