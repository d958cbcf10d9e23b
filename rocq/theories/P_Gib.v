(** C30 and C31: generate_internal_bcs. *)
From Coq Require Import Lia Reals Lra.
From Flocq Require Import Core.Core IEEE754.BinarySingleNaN IEEE754.Binary IEEE754.Bits.
From Verif Require Import Base Mesh Core Tools Float FloatLaws MeshLemmas MeshSpec CheckProofs
  OpsProofs GeoLaws ExtrudeSpec KeepSpec KeepProofs Samples P_Keep GibSpec GibProofs.
Open Scope Z_scope.

(** C30 and C31. The faces that had no condition in the first field are matched: connected faces
    point at each other in all fields, everything else is unchanged, no two open faces within the
    tolerance are left, and the returned number counts the connections once per field. *)
Theorem C30_generate_internal_bcs {A : arith} (m : hexa (num A)) tol :
  wf_mesh m → (1 ≤ nbc m)%nat →
  (∀ e s, e ∈ elems m → smallest_edge e = Ok s → nleb s (nofZ 0) = false) →
  ∃ m' n p, generate_internal_bcs tol m = Ok (m', n) ∧ matching tol m p ∧ is_connected m p m' ∧
    complete tol m p ∧ n = Z.of_nat (nbc m) * Z.of_nat (connections m p).
Proof.
  intros Hw Hb Hs. destruct (generate_internal_bcs_spec m tol Hw Hb Hs)
    as (m' & n & p & H1 & H2 & H3 & H4 & H5 & _). by exists m', n, p.
Qed.
Print Assumptions C30_generate_internal_bcs.

(** C30. Valid connectivity is kept, and so is the pairing of the connected faces. *)
Theorem C30_keeps_valid {A : arith} (bnd : Z) (m m' : hexa (num A)) tol n :
  geo_laws A → arith_laws A bnd → Z.of_nat (nel m) <= bnd → 6 <= bnd →
  wf_mesh m → (1 ≤ nbc m)%nat →
  (∀ e s, e ∈ elems m → smallest_edge e = Ok s → nltb (nofZ 0) s = true) →
  (∀ i b f r, open_face m i f → get_bc m i b f = Some r → ¬ is_conn (bt r)) →
  valid_connectivity tol m → paired m →
  generate_internal_bcs tol m = Ok (m', n) →
  wf_mesh m' ∧ valid_connectivity tol m' ∧ paired m' ∧ check_connectivity tol m' = Ok true.
Proof.
  intros G LA Hb1 Hb2 Hw Hb Hpos Ho Hv Hp E.
  assert (∀ e s, e ∈ elems m → smallest_edge e = Ok s → nleb s (nofZ 0) = false) as Hs.
  { intros e s He Hs. specialize (Hpos e s He Hs). destruct (nleb s (nofZ 0)) eqn:El; [|done].
    apply (geo_le A G) in El. congruence. }
  destruct (generate_internal_bcs_spec m tol Hw Hb Hs) as (m0 & n0 & p & E0 & Hm & Hc & _ & _ & Hst & Hsh).
  rewrite E in E0. injection E0 as <- <-.
  assert (wf_mesh m') as Hw' by (by apply (wf_mesh_shape m m')).
  assert (valid_connectivity tol m') as Hv' by (by apply (connected_valid m m' tol p bnd)).
  split_and!; try done.
  - by apply (connected_paired m m' tol p).
  - by apply check_connectivity_iff.
Qed.
Print Assumptions C30_keeps_valid.

(** C31. For one field the returned number is the number of connections: half the number of
    faces that became connected. *)
Theorem C31_complete_and_counted {A : arith} (m m' : hexa (num A)) tol n :
  wf_mesh m → (1 ≤ nbc m)%nat →
  (∀ e s, e ∈ elems m → smallest_edge e = Ok s → nleb s (nofZ 0) = false) →
  generate_internal_bcs tol m = Ok (m', n) →
  (∀ i f j g, (i < j)%nat → open_face m' i f → open_face m' j g → ¬ close_faces tol m' i f j g) ∧
  ∃ p, is_connected m p m' ∧ n = Z.of_nat (nbc m) * Z.of_nat (connections m p).
Proof.
  intros Hw Hb Hs E.
  destruct (generate_internal_bcs_spec m tol Hw Hb Hs) as (m0 & n0 & p & E0 & Hm & Hc & Hcomp & Hn & Hst & Hsh).
  rewrite E in E0. injection E0 as <- <-. split; [|by exists p].
  pose proof (strip_fields _ _ Hst) as (Fd & Fn & _).
  assert (∀ i f, open_face m' i f → open_face m i f ∧ p i f = None) as Hopen.
  { intros i f [[H1 H2] (r' & Hr' & Ht)]. rewrite Fn in H1. rewrite Fd in H2.
    destruct (wf_get_bc m i 0 f) as [r Hr]; [apply Hw|lia|lia|destruct (proj1 (proj1 Hw)); lia|].
    destruct Hc as [_ Hc]. destruct (Hc i 0%nat f r Hr) as (q & Hq & Hent). rewrite Hr' in Hq.
    apply (inj Some) in Hq. subst q. destruct (p i f) as [[j g]|] eqn:Ep.
    - destruct Hent as (E1 & _). rewrite Ht in E1. done.
    - subst r'. split; [|done]. split; [done|]. by exists r. }
  intros i f j g Hij Oi Oj (e & e' & c & c' & s & s' & D1 & D2 & D3 & D4 & D5 & D6 & D7).
  destruct (Hopen i f Oi) as [Oi0 Pi]. destruct (Hopen j g Oj) as [Oj0 Pj].
  apply (Hcomp i f j g Hij Oi0 Oj0 Pi Pj).
  assert (∀ k (x : elem (num A)), elems m' !! k = Some x → ∃ y : elem (num A), elems m !! k = Some y ∧ strip_elem y = strip_elem x) as Hel.
  { intros k x Hx. destruct Hc as [[_ HF] _]. destruct (Forall2_lookup_r _ _ _ _ _ HF Hx) as (y & Hy & Hxy & _).
    exists y. split; [done|]. by symmetry. }
  destruct (Hel i e D1) as (d & B1 & B2). destruct (Hel j e' D2) as (d' & B1' & B2').
  exists d, d', c, c', s, s'. split_and!; try done.
  - rewrite <- D3. by apply face_center_strip.
  - rewrite <- D4. by apply face_center_strip.
  - rewrite <- D5. by apply smallest_edge_strip.
  - rewrite <- D6. by apply smallest_edge_strip.
Qed.
Print Assumptions C31_complete_and_counted.

(** An edge of zero length is rejected. *)
Theorem C30_zero_edge_rejected {A : arith} (m : hexa (num A)) tol :
  wf_mesh m → (∃ e s, e ∈ elems m ∧ smallest_edge e = Ok s ∧ nleb s (nofZ 0) = true) →
  generate_internal_bcs tol m = Raise ValueError.
Proof.
  intros [(_ & Hlen & _) Hgeo] (e & s & He & Es & Hs). unfold generate_internal_bcs.
  rewrite (proj2 (Nat.eqb_eq _ _) Hlen). cbn [negb].
  assert (gib_scales m = Raise ValueError) as ->; [|done].
  unfold gib_scales. clear Hlen. induction (elems m) as [|x l IH]; [by apply elem_of_nil in He|]. cbn [mapR].
  destruct (smallest_edge_Ok x) as [t Et]; [apply Hgeo; left|]. rewrite Et. cbn [rbind].
  destruct (nleb t (nofZ 0)) eqn:El; [done|]. cbn [rbind]. apply elem_of_cons in He as [->|He].
  - rewrite Es in Et. injection Et as ->. congruence.
  - rewrite IH; [done| |done]. intros y Hy. apply Hgeo. by right.
Qed.
Print Assumptions C30_zero_edge_rejected.

(** Sample: the 4 x 1 box without its internal conditions. *)
Definition open41 : hexa (num A64) := (ok_or (empty64, 0) (delete_internal_bcs (A:=A64) box41)).1.
Definition open_conn_b (m : hexa (num A64)) : bool :=
  forallb (λ e : elem (num A64), forallb (λ f, match bcs e !! 0%nat ≫= (.!! f) with
    | Some r => negb (String.eqb (bt r) "") || forallb (λ b, match bcs e !! b ≫= (.!! f) with
        | Some q => negb (String.eqb (bt q) "E") && negb (String.eqb (bt q) "P") | None => true end) (range (length (bcs e)))
    | None => true end) (range 6)) (elems m).
Lemma open_conn_b_ok m : wf_mesh m → open_conn_b m = true →
  ∀ i b f r, open_face m i f → get_bc m i b f = Some r → ¬ is_conn (bt r).
Proof.
  intros Hw H i b f r [[H1 H2] (r0 & Hr0 & Ht)] Hr. unfold get_bc in Hr, Hr0.
  destruct (elems m !! i) as [e|] eqn:Ee; [|done].
  pose proof (forallb_elem _ _ H e (elem_of_list_lookup_2 _ _ _ Ee)) as H3.
  assert (f ∈ range 6) as Hf by (apply elem_of_range; destruct (proj1 (proj1 Hw)); lia).
  pose proof (forallb_elem _ _ H3 f Hf) as H4. cbn beta in H4. change (bcs e !! 0%nat ≫= (.!! f) = Some r0) in Hr0. change (bcs e !! b ≫= (.!! f) = Some r) in Hr.
  rewrite Hr0, Ht in H4. cbn [String.eqb negb orb] in H4.
  assert (b ∈ range (length (bcs e))) as Hb.
  { apply elem_of_range. destruct (bcs e !! b) eqn:Eb; [|done]. by eapply lookup_lt_Some. }
  pose proof (forallb_elem _ _ H4 b Hb) as H5. cbn beta in H5. rewrite Hr in H5.
  rewrite andb_true_iff, !negb_true_iff, !String.eqb_neq in H5. intros [?|?]; tauto.
Qed.
Definition positive_b (m : hexa (num A64)) : bool :=
  forallb (λ e : elem (num A64), match smallest_edge (A:=A64) e with Ok s => f64_ltb (f64_of_Z 0) s | Raise _ => true end) (elems m).
Lemma positive_b_ok m : positive_b m = true →
  ∀ e s, e ∈ elems m → smallest_edge (A:=A64) e = Ok s → nltb (a:=A64) (nofZ 0) s = true.
Proof.
  intros H e s He Es. pose proof (forallb_elem _ _ H e He) as H1. cbn beta in H1. by rewrite Es in H1.
Qed.

Example C30_sample : wf_mesh open41 ∧ (1 ≤ nbc open41)%nat ∧
  (∀ e s, e ∈ elems open41 → smallest_edge (A:=A64) e = Ok s → nltb (a:=A64) (nofZ 0) s = true) ∧
  (∀ i b f r, open_face open41 i f → get_bc open41 i b f = Some r → ¬ is_conn (bt r)) ∧
  valid_connectivity (A:=A64) tol64 open41 ∧ paired (A:=A64) open41 ∧
  open_face (A:=A64) open41 0 1 ∧
  (bc_view open41 0 0 1 = Some ("", Ok 0, Ok 0))%string ∧
  match generate_internal_bcs (A:=A64) tol64 open41 with
  | Ok (m', n) => n = 3 ∧ (bc_view m' 0 0 1 = Some ("E", Ok 2, Ok 4))%string ∧ (bc_view m' 1 0 3 = Some ("E", Ok 1, Ok 2))%string
  | Raise _ => False end.
Proof.
  assert (wf_mesh open41) as Hw by (apply wf_meshb_ok; vm_compute; reflexivity).
  split; [exact Hw|]. split; [vm_compute; lia|].
  split; [apply positive_b_ok; vm_compute; reflexivity|].
  split; [apply open_conn_b_ok; [exact Hw|vm_compute; reflexivity]|].
  split; [apply check_connectivity_iff; [exact Hw|vm_compute; reflexivity]|].
  split; [apply pairedb_ok; vm_compute; reflexivity|].
  split; [|split; vm_compute; [reflexivity|split_and!; reflexivity]].
  split; [change (nel open41) with 4%nat; change (ndim open41) with 2%nat; lia|].
  assert (bc_view open41 0 0 1 = Some ("", Ok 0, Ok 0))%string as H by (vm_compute; reflexivity).
  unfold bc_view in H. destruct (get_bc open41 0 0 1) as [r|]; [|done]. exists r. split; [done|].
  cbn [fmap option_fmap option_map] in H. injection H as H _ _. exact H.
Qed.

(** The returned number is not the number of connected pairs when there are several fields:
    one connection is counted twice in a mesh with velocity and temperature conditions. *)
Definition box21_two : hexa (num A64) := (ok_or (empty64, 0) (delete_internal_bcs (A:=A64) (ok_or empty64
  (gen_box (A:=A64) "little" 2 1 (zf 0) (zf 2) (zf 0) (zf 1) [2;2;1;1;0]%nat
     (Some ["W"; "t"]%string) (Some ["W"; "t"]%string) (Some ["P"; "P"]%string) (Some ["P"; "P"]%string) true)))).1.
Theorem C31_pairs_counted_per_field_refuted :
  nbc box21_two = 2%nat ∧ ∃ m' p, generate_internal_bcs (A:=A64) tol64 box21_two = Ok (m', 2) ∧
    is_connected box21_two p m' ∧ connections box21_two p = 1%nat.
Proof.
  split; [vm_compute; reflexivity|].
  destruct (C30_generate_internal_bcs (A:=A64) box21_two tol64) as (m' & n & p & E & _ & Hc & _ & Hn).
  - apply wf_meshb_ok. vm_compute. reflexivity.
  - vm_compute. lia.
  - intros e s He Es. assert (positive_b box21_two = true) as P by (vm_compute; reflexivity).
    pose proof (positive_b_ok _ P e s He Es) as Hp.
    destruct (nleb s (nofZ 0)) eqn:El; [|done]. apply (geo_le A64 A64_geo) in El. congruence.
  - assert (match generate_internal_bcs (A:=A64) tol64 box21_two with Ok (_, k) => k =? 2 | Raise _ => false end = true) as H
      by (vm_compute; reflexivity).
    rewrite E in H. apply Z.eqb_eq in H. subst n. exists m', p. rewrite E, H. split_and!; [done|done|].
    change (nbc box21_two) with 2%nat in H. lia.
Qed.
Print Assumptions C31_pairs_counted_per_field_refuted.
