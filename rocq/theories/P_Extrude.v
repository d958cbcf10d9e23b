(** C34, C35, C36 and the part of C33 about extrude. *)
From Coq Require Import Lia Reals Lra.
From Flocq Require Import Core.Core IEEE754.BinarySingleNaN IEEE754.Binary IEEE754.Bits.
From Verif Require Import Base Mesh Core Tools Float FloatLaws MeshLemmas MeshSpec CheckProofs
  OpsProofs GeoLaws BoxProofs ExtrudeSpec ExtrudeProofs Samples.
Open Scope Z_scope.

(** C34. The elements. *)
Theorem C34_extrude_stack {A : arith} (bnd : Z) (m : hexa (num A)) z obc1 obc2 internal c1 c2 :
  arith_laws A bnd → wf_mesh m → linear2d m → (2 ≤ length z)%nat →
  (∀ k, (k < length z - 1)%nat → refs_within bnd (Z.of_nat (k * nel m)) 0 m) →
  conditions_given (nbc m) obc1 c1 → conditions_given (nbc m) obc2 c2 →
  (∀ b, (b < nbc m)%nat → c1 b = "P"%string ↔ c2 b = "P"%string) →
  ∃ m3, extrude m z obc1 obc2 internal = Ok m3 ∧ wf_mesh m3 ∧ is_stack m z m3.
Proof.
  intros LA Hw Hlin Hz Hrefs [L1 C1] [L2 C2] HP.
  destruct (extrude_eq bnd LA m z obc1 obc2 c1 c2 Hw Hlin Hz Hrefs L1 L2 C1 C2 HP internal)
    as (first & lay & _ & S & B & Hlay & ->).
  eexists. split; [reflexivity|].
  split; [by eapply (m3_wf bnd LA m z obc1 obc2)|by eapply (m3_stack bnd LA m z obc1 obc2)].
Qed.
Print Assumptions C34_extrude_stack.

(** The count of curved edges stays right if it was right, and if the 2D mesh only curves its
    four edges. *)
Theorem C34_ncurv {A : arith} (m m3 : hexa (num A)) z :
  length (elems m) = nel m → linear2d m → is_stack m z m3 → (1 ≤ length z)%nat →
  ncurv m = curved_total m →
  (∀ e c, e ∈ elems m → (4 ≤ c < 12)%nat → ccurv e !! c = Some ""%string) →
  ncurv m3 = curved_total m3.
Proof.
  intros Hlen (_ & _ & _ & _ & L5) (S1 & S2 & S3 & _ & _ & S6 & Sel) Hz Hn H0.
  rewrite S6, Hn. unfold curved_total.
  set (h := λ i, match elems m !! i with Some e => curved_edges e | None => 0%nat end).
  rewrite (sum_stack curved_edges (λ i, 2 * h i)%nat (nel m) (length z - 1) (elems m3)).
  - assert (sum_list_with (λ i, 2 * h i)%nat (range (nel m)) = 2 * sum_list_with curved_edges (elems m))%nat as ->.
    2: { rewrite !Nat2Z.inj_mul. lia. }
    rewrite <- Hlen. assert (∀ (l : list (elem (num A))) k, (∀ i, h (k + i)%nat = match l !! i with Some e => curved_edges e | None => 0%nat end) →
      sum_list_with (λ i, 2 * h i)%nat (seq k (length l)) = 2 * sum_list_with curved_edges l)%nat as Hs.
    { induction l as [|e l IH]; intros k Hk; [done|]. cbn [length seq sum_list_with].
      rewrite (IH (S k)).
      - specialize (Hk 0%nat). rewrite Nat.add_0_r in Hk. cbn in Hk. rewrite Hk. lia.
      - intros i. specialize (Hk (S i)). replace (S k + i)%nat with (k + S i)%nat by lia. exact Hk. }
    by apply Hs.
  - by rewrite S3.
  - intros k i e Hk Hi He.
    destruct (lookup_lt_is_Some_2 (elems m) i) as [e2 He2]; [lia|].
    destruct (lookup_lt_is_Some_2 z k) as [z1 Hz1]; [lia|].
    destruct (lookup_lt_is_Some_2 z (k + 1)) as [z2 Hz2]; [lia|].
    destruct (Sel k i e2 z1 z2 Hz1 Hz2 He2) as (e' & He' & Hsl).
    rewrite He in He'. apply (inj Some) in He' as <-.
    assert (e2 ∈ elems m) as Hin by (by eapply elem_of_list_lookup_2).
    destruct (L5 e2 Hin) as (_ & Lc & Lv).
    rewrite (slab_curved e2 z1 z2 e Lc Lv Hsl) by (intros; by apply H0).
    unfold h. by rewrite He2.
Qed.
Print Assumptions C34_ncurv.

(** What is rejected: a mesh that is not 2D, elements with more than 2 x 2 points, missing
    geometry, or an end that is periodic when the other is not. *)
Theorem C34_extrude_rejects {A : arith} (m : hexa (num A)) z obc1 obc2 internal v0 rest :
  var m = v0 :: rest →
  (ndim m ≠ 2%nat ∨ lr1 m ≠ [2;2;1]%nat ∨ (v0 < 2)%nat ∨
   ∃ b t1 t2, default (replicate (nbc m) "P"%string) obc1 !! b = Some t1 ∧
     default (replicate (nbc m) "P"%string) obc2 !! b = Some t2 ∧
     (t1 = "P"%string ∧ t2 ≠ "P"%string ∨ t1 ≠ "P"%string ∧ t2 = "P"%string)) →
  extrude m z obc1 obc2 internal = Raise ValueError.
Proof.
  intros Hv H. unfold extrude. rewrite Hv.
  destruct (Nat.eqb_spec (ndim m) 2) as [E1|]; [|done]. cbn [negb].
  destruct (bool_decide_reflect (lr1kind m = PyList ∧ lr1 m = [2; 2; 1]%nat)) as [[_ E2]|]; [|done].
  cbn [negb lookup list_lookup].
  destruct (Nat.ltb_spec v0 2); [done|].
  destruct (one_sided_periodic _ _) eqn:Eo; [done|]. exfalso.
  destruct H as [?|[?|[?|(b & t1 & t2 & H1 & H2 & H)]]]; [done|done|lia|].
  unfold one_sided_periodic in Eo. apply not_true_iff_false in Eo. apply Eo.
  apply existsb_exists. exists (t1, t2). split.
  - apply elem_of_list_In, elem_of_list_lookup. exists b. apply lookup_zip_with_Some. eauto.
  - destruct H as [[-> H]|[H ->]].
    + apply String.eqb_neq in H. by rewrite H.
    + apply String.eqb_neq in H. by rewrite H.
Qed.
Print Assumptions C34_extrude_rejects.

(** C35. The entries of every face: side faces within the layer, bottom and top faces to the
    adjacent layers, and the given conditions on the two ends. *)
Theorem C35_extrude_faces {A : arith} (bnd : Z) (m m3 : hexa (num A)) z obc1 obc2 c1 c2 :
  let nz := (length z - 1)%nat in
  arith_laws A bnd → wf_mesh m → linear2d m → paired m → (2 ≤ length z)%nat →
  Z.of_nat (nel m * nz) <= bnd →
  conditions_given (nbc m) obc1 c1 → conditions_given (nbc m) obc2 c2 →
  (∀ b, (b < nbc m)%nat → end_condition (c1 b) ∧ end_condition (c2 b) ∧ (c1 b = "P"%string ↔ c2 b = "P"%string)) →
  extrude m z obc1 obc2 true = Ok m3 →
  (∀ k i b f, (k < nz)%nat → in_mesh m i b f →
     ∃ r', get_bc m3 (i + nel m * k)%nat b f = Some r' ∧ side_entry m k i b f r') ∧
  (∀ k i b f, (k < nz)%nat → (i < nel m)%nat → (b < nbc m)%nat → (f = 4 ∨ f = 5)%nat →
     ∃ r', get_bc m3 (i + nel m * k)%nat b f = Some r' ∧ end_entry (nel m) nz k (c1 b) (c2 b) i f r').
Proof.
  intros nz LA Hw Hlin Hp Hz Hbnd [L1 C1] [L2 C2] Hcond E.
  pose proof (paired_refs bnd m nz (proj1 Hlin) Hp Hbnd) as Hrefs.
  assert (∀ b, (b < nbc m)%nat → c1 b = "P"%string ↔ c2 b = "P"%string) as HP by (intros b Hb; by apply Hcond).
  destruct (extrude_eq bnd LA m z obc1 obc2 c1 c2 Hw Hlin Hz Hrefs L1 L2 C1 C2 HP true)
    as (first & lay & Hf & S & B & Hlay & E'). rewrite E in E'. injection E' as ->.
  cbn in Hf. subst first. split.
  - intros k i b f Hk Hin. pose proof Hin as (Hi & Hb & Hf). destruct Hlin as (L1' & _). rewrite L1' in Hf.
    rewrite (m3_get bnd LA m z obc1 obc2 c1 c2 Hw Hz Hrefs L1 L2 true m lay S B Hlay i k b f Hi Hk Hb).
    destruct (side_ok bnd LA m nz (proj1 Hw) L1' Hp Hbnd (lay k) k i b f Hk (Hlay k Hk) Hin) as (r' & -> & Hr').
    exists r'. split; [|done]. cbn [fmap option_fmap option_map]. f_equal. unfold h_end.
    rewrite decide_False by lia. rewrite decide_False by lia. done.
  - intros k i b f Hk Hi Hb Hf.
    rewrite (m3_get bnd LA m z obc1 obc2 c1 c2 Hw Hz Hrefs L1 L2 true m lay S B Hlay i k b f Hi Hk Hb).
    assert (wf_bcs (lay k) ∧ nel (lay k) = nel m ∧ nbc (lay k) = nbc m) as (Hwl & Hn & Hnb).
    { destruct (layer_strip bnd LA m z Hw Hrefs m k (lay k)) as [S' B']; auto.
      split; [eapply wf_bcs_shape; [apply Hw|done|done]|].
      apply strip_fields in S' as (_ & ? & _ & ? & _). done. }
    destruct (wf_get_bc (lay k) i b f Hwl) as [r Hr]; [lia|lia|lia|]. rewrite Hr.
    eexists. split; [reflexivity|]. destruct (Hcond b Hb) as ([U1 _] & [U2 _] & _). by apply end_ok.
Qed.
Print Assumptions C35_extrude_faces.

Theorem C35_extrude_valid {A : arith} (bnd : Z) (m : hexa (num A)) z obc1 obc2 c1 c2 (tol : num A) :
  arith_laws A bnd → geo_laws A → wf_mesh m → linear2d m → paired m → coincident m →
  (2 ≤ length z)%nat → Z.of_nat (nel m * (length z - 1)) <= bnd → 6 <= bnd →
  conditions_given (nbc m) obc1 c1 → conditions_given (nbc m) obc2 c2 →
  (∀ b, (b < nbc m)%nat → end_condition (c1 b) ∧ end_condition (c2 b) ∧ (c1 b = "P"%string ↔ c2 b = "P"%string)) →
  nleb (nofZ 0) tol = true →
  ∃ m3, extrude m z obc1 obc2 true = Ok m3 ∧ valid_connectivity tol m3 ∧
    check_connectivity tol m3 = Ok true.
Proof.
  intros LA LG Hw Hlin Hp Hco Hz Hbnd H6 G1 G2 Hcond Htol.
  pose proof (paired_refs bnd m _ (proj1 Hlin) Hp Hbnd) as Hrefs.
  destruct (C34_extrude_stack bnd m z obc1 obc2 true c1 c2 LA Hw Hlin Hz Hrefs G1 G2) as (m3 & E & Hw3 & Hst).
  { intros b Hb; by apply Hcond. }
  destruct (C35_extrude_faces bnd m m3 z obc1 obc2 c1 c2 LA Hw Hlin Hp Hz Hbnd G1 G2 Hcond E) as [Hs He].
  assert (valid_connectivity tol m3) as Hv by (by eapply (stack_valid bnd LA LG m z m3 c1 c2)).
  exists m3. split; [done|]. split; [done|]. by apply check_connectivity_iff.
Qed.
Print Assumptions C35_extrude_valid.

(** In float64, up to 2^53 elements. *)
Theorem C35_extrude_valid_float64 (m : hexa (num A64)) z obc1 obc2 c1 c2 (tol : f64) :
  wf_mesh m → linear2d (A:=A64) m → paired (A:=A64) m → coincident (A:=A64) m →
  (2 ≤ length z)%nat → Z.of_nat (nel m * (length z - 1)) <= 2 ^ 53 →
  conditions_given (nbc m) obc1 c1 → conditions_given (nbc m) obc2 c2 →
  (∀ b, (b < nbc m)%nat → end_condition (c1 b) ∧ end_condition (c2 b) ∧ (c1 b = "P"%string ↔ c2 b = "P"%string)) →
  f64_leb (f64_of_Z 0) tol = true →
  ∃ m3, extrude (A:=A64) m z obc1 obc2 true = Ok m3 ∧ valid_connectivity (A:=A64) tol m3 ∧
    check_connectivity (A:=A64) tol m3 = Ok true.
Proof.
  intros ? ? ? ? ? ? ? ? ? ?.
  apply (C35_extrude_valid (A:=A64) bnd64 m z obc1 obc2 c1 c2 tol); try done; [apply A64_laws|apply A64_geo].
Qed.
Print Assumptions C35_extrude_valid_float64.

(** C36, single layer: nothing internal is left. *)
Theorem C36_single_layer_partial {A : arith} (bnd : Z) (m m3 : hexa (num A)) z obc1 obc2 c1 c2 :
  arith_laws A bnd → wf_mesh m → linear2d m → length z = 2%nat →
  refs_within bnd 0 0 m →
  conditions_given (nbc m) obc1 c1 → conditions_given (nbc m) obc2 c2 →
  (∀ b, (b < nbc m)%nat → end_condition (c1 b) ∧ end_condition (c2 b) ∧ (c1 b = "P"%string ↔ c2 b = "P"%string)) →
  extrude m z obc1 obc2 false = Ok m3 →
  ∀ i b f r, in_mesh m3 i b f → get_bc m3 i b f = Some r → bt r ≠ "E"%string.
Proof.
  intros LA Hw Hlin Hz Hr0 [L1 C1] [L2 C2] Hcond E.
  assert (∀ k, (k < length z - 1)%nat → refs_within bnd (Z.of_nat (k * nel m)) 0 m) as Hrefs.
  { intros k Hk. replace k with 0%nat by lia. done. }
  assert (2 ≤ length z)%nat as Hz2 by lia.
  assert (∀ b, (b < nbc m)%nat → c1 b = "P"%string ↔ c2 b = "P"%string) as HP by (intros b Hb; by apply Hcond).
  destruct (extrude_eq bnd LA m z obc1 obc2 c1 c2 Hw Hlin Hz2 Hrefs L1 L2 C1 C2 HP false)
    as (first & lay & Hf & S & B & Hlay & E'). rewrite E in E'. injection E' as ->.
  cbn in Hf. destruct Hf as [nd Hdel].
  destruct (m3_fields bnd LA m z c1 c2 Hw Hrefs false first lay S B Hlay)
    as (F1 & F2 & _ & F4 & _).
  intros i b f r (Hi & Hb & Hf) Hr. rewrite F2 in Hi. rewrite F4 in Hb. rewrite F1 in Hf.
  replace (nel m * (length z - 1))%nat with (nel m) in Hi by lia.
  replace i with (i + nel m * 0)%nat in Hr by lia.
  rewrite (m3_get bnd LA m z obc1 obc2 c1 c2 Hw Hz2 Hrefs L1 L2 false first lay S B Hlay i 0 b f) in Hr by (done || lia).
  specialize (Hlay 0%nat ltac:(lia)). unfold is_layer in Hlay. rewrite decide_True in Hlay by done.
  rewrite Hlay in Hr.
  destruct (delete_spec m (proj1 Hw)) as (m' & n' & Ed & _ & _ & _ & Hd).
  rewrite Hdel in Ed. injection Ed as <- <-.
  destruct (wf_get_bc m i b f (proj1 Hw) Hi Hb) as [r0 Hr0']; [lia|].
  rewrite (Hd _ _ _ _ Hr0') in Hr. cbn [fmap option_fmap option_map] in Hr. apply (inj Some) in Hr as <-.
  destruct (Hcond b Hb) as ((U1 & N1) & (U2 & N2) & _). unfold h_end.
  destruct (decide _) as [[-> _]|H4].
  { rewrite U1. by destruct (String.eqb (c1 b) "P"). }
  destruct (decide _) as [[-> _]|H5].
  { rewrite U2. by destruct (String.eqb (c2 b) "P"). }
  destruct (String.eqb_spec (bt r0) "E"); done.
Qed.
Print Assumptions C36_single_layer_partial.

(** Samples: the 2 x 1 box. *)
Example C34_sample_linear2d : linear2d (A:=A64) box21.
Proof.
  split; [by vm_compute|]. split; [by vm_compute|]. split; [by vm_compute|].
  split; [exists 2%nat; eexists; split; [vm_compute; reflexivity|lia]|].
  assert (forallb (λ e : elem f64, bool_decide (eshape e = (2,2,1)%nat) &&
     (length (ccurv e) =? 12)%nat && (length (curv e) =? 12)%nat) (elems box21) = true) as H by (vm_compute; reflexivity).
  intros e He. pose proof (forallb_elem _ _ H e He) as H'. cbv beta in H'.
  rewrite !andb_true_iff, !Nat.eqb_eq in H'. destruct H' as ((H1 & H2) & H3). split; [|done].
  by apply bool_decide_eq_true in H1.
Qed.
Example C35_sample_paired : paired (A:=A64) box21.
Proof. apply pairedb_ok. vm_compute. reflexivity. Qed.
Example C35_sample_coincident : coincident (A:=A64) box21.
Proof. apply coincidentb_ok. vm_compute. reflexivity. Qed.
Example C35_sample : ∃ m3, extrude (A:=A64) box21 [zf 0; zf 1; zf 3; zf 4] (Some ["W"]%string) (Some ["O"]%string) true = Ok m3 ∧
  check_connectivity (A:=A64) tol64 m3 = Ok true.
Proof.
  assert (conditions_given (nbc box21) (Some ["W"]%string) (λ _, "W"%string)) as G1.
  { change (nbc box21) with 1%nat. split; [reflexivity|]. intros [|b] Hb; [reflexivity|lia]. }
  assert (conditions_given (nbc box21) (Some ["O"]%string) (λ _, "O"%string)) as G2.
  { change (nbc box21) with 1%nat. split; [reflexivity|]. intros [|b] Hb; [reflexivity|lia]. }
  assert (∀ b, (b < nbc box21)%nat → end_condition "W" ∧ end_condition "O" ∧ ("W"%string = "P"%string ↔ "O"%string = "P"%string)) as G3.
  { intros b _. unfold end_condition. split_and!; done. }
  assert (Z.of_nat (nel box21 * (length [zf 0; zf 1; zf 3; zf 4] - 1)) <= 2 ^ 53) as G4.
  { change (nel box21) with 2%nat. cbn. lia. }
  assert (wf_mesh box21) as G5 by (apply wf_meshb_ok; vm_compute; reflexivity).
  assert (2 ≤ length [zf 0; zf 1; zf 3; zf 4])%nat as G6 by (cbn; lia).
  assert (f64_leb (f64_of_Z 0) tol64 = true) as G7 by (vm_compute; reflexivity).
  destruct (C35_extrude_valid_float64 box21 [zf 0; zf 1; zf 3; zf 4] (Some ["W"]%string) (Some ["O"]%string)
    (λ _, "W"%string) (λ _, "O"%string) tol64 G5 C34_sample_linear2d C35_sample_paired
    C35_sample_coincident G6 G4 G1 G2 G3 G7) as (m3 & H1 & _ & H2).
  exists m3. split; [exact H1|exact H2].
Qed.

(** C36 does not hold for more than one layer: the copies are made of the mesh that still has
    its internal conditions. *)
Theorem C36_several_layers_refuted :
  ∃ m3, extrude (A:=A64) box21 [zf 0; zf 1; zf 2] None None false = Ok m3 ∧
    ∃ i b f r, in_mesh m3 i b f ∧ get_bc m3 i b f = Some r ∧ bt r = "E"%string.
Proof.
  assert (match extrude (A:=A64) box21 [zf 0; zf 1; zf 2] None None false with
    | Ok m3 => match get_bc m3 2 0 1 with
        | Some r => String.eqb (bt r) "E" && (2 <? nel m3)%nat && (0 <? nbc m3)%nat && (1 <? 2 * ndim m3)%nat
        | None => false end
    | Raise _ => false end = true) as H by (vm_compute; reflexivity).
  destruct (extrude _ _ _ _ _) as [m3|]; [|done]. exists m3. split; [done|].
  destruct (get_bc m3 2 0 1) as [r|] eqn:Er; [|done].
  rewrite !andb_true_iff, !Nat.ltb_lt, String.eqb_eq in H.
  exists 2%nat, 0%nat, 1%nat, r. unfold in_mesh. split_and!; try done; tauto.
Qed.
Print Assumptions C36_several_layers_refuted.

(** C35 does not hold for every valid mesh: connected faces that are only close, relative to
    the 2D edges, may be far apart relative to the thickness of a layer. *)
Definition thin2d : hexa (num A64) :=
  set_elems (alter (λ e, set_pos (alter (λ l : list f64, <[1%nat := nlit (A:=A64) 1001 1000]> l) 0%nat (pos e)) e)
    0%nat (elems box21)) box21.
Theorem C35_thin_layers_refuted :
  check_connectivity (A:=A64) tol64 thin2d = Ok true ∧
  ∃ m3, extrude (A:=A64) thin2d [zf 0; nlit (A:=A64) 1 100] None None true = Ok m3 ∧
    ∃ ex, check_connectivity (A:=A64) tol64 m3 = Raise ex.
Proof.
  split; [vm_compute; reflexivity|].
  assert (match extrude (A:=A64) thin2d [zf 0; nlit (A:=A64) 1 100] None None true with
    | Ok m3 => match check_connectivity (A:=A64) tol64 m3 with Ok _ => false | Raise _ => true end
    | Raise _ => false end = true) as H by (vm_compute; reflexivity).
  destruct (extrude _ _ _ _ _) as [m3|]; [|done]. exists m3. split; [done|].
  destruct (check_connectivity _ _) as [|ex]; [done|]. eauto.
Qed.
Print Assumptions C35_thin_layers_refuted.

(** C33 for extrude: the element map keeps the length of the 2D mesh. *)
Theorem C33_extrude_elmap_refuted :
  Permutation (elmap box21) [1; 2]%Z ∧
  ∃ m3, extrude (A:=A64) box21 [zf 0; zf 1; zf 2] None None true = Ok m3 ∧ nel m3 = 4%nat ∧
    length (elmap m3) = 2%nat.
Proof.
  split; [vm_compute; reflexivity|].
  assert (match extrude (A:=A64) box21 [zf 0; zf 1; zf 2] None None true with
    | Ok m3 => (nel m3 =? 4)%nat && (length (elmap m3) =? 2)%nat
    | Raise _ => false end = true) as H by (vm_compute; reflexivity).
  destruct (extrude _ _ _ _ _) as [m3|]; [|done]. exists m3. split; [done|].
  by rewrite andb_true_iff, !Nat.eqb_eq in H.
Qed.
Print Assumptions C33_extrude_elmap_refuted.
