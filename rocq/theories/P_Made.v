(** C78: histories of operations that include extrusion, over the real numbers. *)
From Coq Require Import Lia Reals Lra.
From Verif Require Import Base Mesh Core Tools Float FloatLaws MeshLemmas MeshSpec CheckProofs GeoLaws ElemProofs BoxSpec BoxProofs MergeSpec HistorySpec History P_Box P_History
  ExtrudeSpec ExtrudeProofs ExtrudeReal P_Extrude P_ExtrudeReal ExtrudeSound RotateSound MadeSpec Bricks CurveSpec CurveProofs P_Curve.
Open Scope Z_scope.

(** In every arithmetic, extruding a mesh whose connections are paired, the same in all fields and without self-partners gives such a mesh. *)
Theorem C78_extrude_connected {A : arith} (bnd : Z) (m : hexa (num A)) z obc1 obc2 c1 c2 :
  arith_laws A bnd → 6 <= bnd → connected_mesh m → linear2d m → (0 < nbc m)%nat → (2 ≤ length z)%nat → Z.of_nat (nel m * (length z - 1)) <= bnd →
  conditions_given (nbc m) obc1 c1 → conditions_given (nbc m) obc2 c2 →
  (∀ b, (b < nbc m)%nat → end_condition (c1 b) ∧ end_condition (c2 b) ∧ (c1 b = "P"%string ↔ c2 b = "P"%string)) →
  (∀ b, (b < nbc m)%nat → c1 b = "P"%string ↔ c1 0%nat = "P"%string) →
  ∃ m3, extrude m z obc1 obc2 true = Ok m3 ∧ connected_mesh m3 ∧ is_stack m z m3 ∧ ∀ e, e ∈ elems m3 → length (ccurv e) = 12%nat.
Proof.
  intros LA H6 Hm Hlin Hnb Hz Hbnd G1 G2 Hc Hper. destruct Hm as (W & P & U & NS) eqn:Em. clear Em.
  pose proof (paired_refs bnd m _ (proj1 Hlin) P Hbnd) as Hrefs.
  destruct (C34_extrude_stack bnd m z obc1 obc2 true c1 c2 LA W Hlin Hz Hrefs G1 G2) as (m3 & E & Hw3 & Hst); [intros b Hb; by apply Hc|].
  destruct (C35_extrude_faces bnd m m3 z obc1 obc2 c1 c2 LA W Hlin P Hz Hbnd G1 G2 Hc E) as [Hs He].
  exists m3. split; [done|]. split; [by apply (stack_connected bnd LA m m3 z c1 c2)|]. split; [done|].
  intros e. exact (stack_curves bnd m m3 z Hm Hlin Hz Hst Hbnd Hnb e).
Qed.
Print Assumptions C78_extrude_connected.

Lemma extrude_sound bnd tol (m m3 : hexa R) z obc1 obc2 : 6 <= bnd → (0 <= tol)%R → sound (A:=AR) bnd tol m → extrudable bnd tol m z obc1 obc2 →
  extrude (A:=AR) m z obc1 obc2 true = Ok m3 → sound (A:=AR) bnd tol m3.
Proof.
  intros H6 Ht S (Hlin & Hpl & Hz & Hne & Hbnd & Hcl & c1 & c2 & G1 & G2 & Hc) E. pose proof S as [Hm Hv Hed Hcv Hnb Hsz].
  assert (∀ b, (b < nbc m)%nat → end_condition (c1 b) ∧ end_condition (c2 b) ∧ (c1 b = "P"%string ↔ c2 b = "P"%string)) as Hc' by (intros b Hb; destruct (Hc b Hb) as (? & ? & ? & _); done).
  destruct (C78_extrude_connected (A:=AR) bnd m z obc1 obc2 c1 c2 (AR_laws bnd) H6 Hm Hlin Hnb Hz Hbnd G1 G2 Hc') as (m3' & E' & Hm3 & Hst & Hcv3); [intros b Hb; by destruct (Hc b Hb) as (_ & _ & _ & ?)|].
  rewrite E in E'. assert (m3' = m3) as -> by congruence. clear E'. pose proof Hm as (W & P & _). pose proof Hm3 as (W3 & _).
  pose proof Hst as (S1 & S2 & S3 & _ & S5 & _ & S7).
  split; [done| | |exact Hcv3|by rewrite S5|by rewrite S2].
  - apply check_connectivity_iff; [done|]. destruct (C35_extrude_valid_iff_real m z obc1 obc2 c1 c2 tol W Hlin P Hpl Hz G1 G2 Hc' Ht) as (m4 & E4 & Hiff).
    rewrite E in E4. assert (m4 = m3) as -> by congruence. by apply Hiff.
  - intros e s He Hs. pose proof He as He0. apply elem_of_list_lookup in He as (q & Hq). pose proof (lookup_lt_Some _ _ _ Hq) as Hlt. rewrite S3, S2 in Hlt. apply elnum_div in Hlt as (i & k & Hi & Hk & ->).
    change (num AR) with R in Hk. assert ((k < length z)%nat ∧ (k + 1 < length z)%nat) as [Hk1 Hk2] by lia.
    destruct (lookup_lt_is_Some_2 z k) as [z1 Hz1]; [done|]. destruct (lookup_lt_is_Some_2 z (k + 1)) as [z2 Hz2]; [done|].
    destruct (lookup_lt_is_Some_2 (elems m) i) as [e2 He2]; [pose proof (proj1 (proj2 (proj1 W))) as Hlen; change (num AR) with R in Hlen; rewrite Hlen; exact Hi|].
    assert (e2 ∈ elems m) as Hin by (by eapply elem_of_list_lookup_2).
    destruct (S7 k i e2 z1 z2 Hz1 Hz2 He2) as (e' & He' & Hsl). unfold elnum in Hq. rewrite Hq in He'. assert (e' = e) as -> by congruence.
    assert (wf_geom_elem (A:=AR) e2) as W2 by (by apply (proj2 W)). destruct (smallest_edge_Ok (A:=AR) e2 W2) as [s2 Hs2].
    pose proof (Hed e2 s2 Hin Hs2) as Hpos. cbn in Hpos. unfold Rltb in Hpos. destruct (Rlt_dec _ _) as [Hp|]; [|done].
    rewrite (slab_smallest e2 z1 z2 e s2 s W2 ltac:(by apply (proj2 (proj2 (proj2 (proj2 Hlin))) e2 Hin)) (Hpl e2 Hin) Hsl ltac:(by apply (proj2 W3)) Hs2 Hs).
    cbn. unfold Rltb. destruct (Rlt_dec _ _) as [|Hn]; [done|]. exfalso. apply Hn. apply Rmin_glb_lt; [exact Hp|]. apply Rabs_pos_lt. intros E0. apply (Hne k z1 z2 Hz1 Hz2). lra.
Qed.

(** Every mesh made from sound ones is sound, and passes the check. *)
Theorem C78_history bnd tol (given : hexa R → Prop) m : 6 <= bnd → (0 <= tol)%R →
  (∀ m, given m → sound (A:=AR) bnd tol m) → made bnd tol given m →
  sound (A:=AR) bnd tol m ∧ check_connectivity (A:=AR) tol m = Ok true.
Proof.
  intros H6 Ht HG HM. assert (sound (A:=AR) bnd tol m) as S; [|split; [done|]; apply check_connectivity_iff; [apply (so_connected _ _ _ S)|apply (so_valid _ _ _ S)]].
  assert (∀ m, built (A:=AR) bnd tol (sound (A:=AR) bnd tol) m → sound (A:=AR) bnd tol m) as HB.
  { intros m0 Hb. by apply (built_sound (A:=AR) bnd tol (AR_laws bnd) AR_geo H6 (sound (A:=AR) bnd tol) m0). }
  induction HM as [m Hm|m o m' n ie _ IHm _ IHo Hmg E|m m' els ext _ IHm Hnd Hext E|m m' n _ IHm E|m m' n _ IHm E|m m' theta x0 y0 _ IHm Hw E|m m' z obc1 obc2 _ IHm Hx E].
  - by apply HG.
  - apply HB. eapply built_merge; [apply built_given, IHm|apply built_given, IHo|exact Hmg|exact E].
  - apply HB. eapply built_keep; [apply built_given, IHm|exact Hnd|exact Hext|exact E].
  - apply HB. eapply built_delete; [apply built_given, IHm|exact E].
  - apply HB. eapply built_generate; [apply built_given, IHm|exact E].
  - by eapply rotate_sound.
  - by eapply extrude_sound.
Qed.
Print Assumptions C78_history.

(** No history gets stuck at an extrusion. *)
Theorem C78_progress bnd tol (given : hexa R → Prop) m z obc1 obc2 : 6 <= bnd → (0 <= tol)%R →
  (∀ m, given m → sound (A:=AR) bnd tol m) → made bnd tol given m → extrudable bnd tol m z obc1 obc2 →
  ∃ m3, extrude (A:=AR) m z obc1 obc2 true = Ok m3 ∧ nel m3 = (nel m * (length z - 1))%nat ∧ made bnd tol given m3.
Proof.
  intros H6 Ht HG HM Hx. destruct (C78_history bnd tol given m H6 Ht HG HM) as [S _]. pose proof Hx as (Hlin & Hpl & Hz & Hne & Hbnd & Hcl & c1 & c2 & G1 & G2 & Hc).
  destruct (C78_extrude_connected (A:=AR) bnd m z obc1 obc2 c1 c2 (AR_laws bnd) H6 (so_connected _ _ _ S) Hlin (so_fields _ _ _ S) Hz Hbnd G1 G2) as (m3 & E & _ & Hst & _).
  - intros b Hb. destruct (Hc b Hb) as (? & ? & ? & _). done.
  - intros b Hb. by destruct (Hc b Hb) as (_ & _ & _ & ?).
  - exists m3. split; [done|]. split; [by destruct Hst as (_ & -> & _)|]. by eapply made_extrude.
Qed.
Print Assumptions C78_progress.

Lemma box_curves bo nx ny (xmin xmax ymin ymax : R) var nb sd internal e : e ∈ elems (box3 (A:=AR) bo nx ny xmin xmax ymin ymax var nb sd internal) → wf_curves e.
Proof.
  destruct (box3_strip (A:=AR) bo nx ny xmin xmax ymin ymax var nb sd internal) as [Hs _].
  pose proof (box3_grid (A:=AR) bo nx ny xmin xmax ymin ymax var nb sd internal) as ((_ & _ & G3 & _) & _).
  set (m := box3 (A:=AR) bo nx ny xmin xmax ymin ymax var nb sd internal) in *.
  intros He. apply elem_of_list_lookup in He as (k & Hk). assert (k < nx * ny)%nat as Hlt by (change (num AR) with R in G3; rewrite <- G3; by eapply lookup_lt_Some).
  apply elnum_div in Hlt as (i & j & Hi & Hj & ->).
  pose proof (box1_elem (A:=AR) bo nx ny xmin xmax ymin ymax var nb i j Hi Hj) as He.
  destruct (strip_elem_lookup _ _ _ _ (eq_sym Hs) He) as (e' & He' & Hst). assert (e = e') as -> by (apply (inj Some); exact (eq_trans (eq_sym Hk) He')).
  pose proof (f_equal ccurv Hst) as Q2. pose proof (f_equal curv Hst) as Q3.
  split; [exact (f_equal length Q3)|]. split; [|exact (f_equal length Q2)]. refine (eq_ind_r (Forall _) _ Q3). repeat constructor.
Qed.
(** A box is a mesh to start from: it is sound, and can be extruded by any positions that increase or decrease. *)
Theorem C78_box bnd bo nx ny (xmin xmax ymin ymax tol : R) v0 rest bxmin bxmax bymin bymax nb (sd : nat → sides) z obc1 obc2 c1 c2 :
  let var := v0 :: rest in
  6 <= bnd → (0 <= tol)%R → fields_of var nb → (2 ≤ v0)%nat → (1 ≤ nb)%nat → (1 ≤ nx)%nat → (1 ≤ ny)%nat →
  Z.of_nat (nx * ny * (length z - 1)) <= bnd → (xmin < xmax)%R → (ymin < ymax)%R →
  (∀ b, (b < nb)%nat → sides_ok (sd b) ∧
     sides_of (given nb bxmin) (given nb bxmax) (given nb bymin) (given nb bymax) b = Some (sd b)) → same_periodicity nb sd →
  (2 ≤ length z)%nat → (∀ k z1 z2, z !! k = Some z1 → z !! (k + 1)%nat = Some z2 → z1 ≠ z2) →
  conditions_given nb obc1 c1 → conditions_given nb obc2 c2 →
  (∀ b, (b < nb)%nat → end_condition (c1 b) ∧ end_condition (c2 b) ∧ (c1 b = "P"%string ↔ c2 b = "P"%string) ∧ (c1 b = "P"%string ↔ c1 0%nat = "P"%string)) →
  ∃ m, gen_box (A:=AR) bo nx ny xmin xmax ymin ymax var bxmin bxmax bymin bymax true = Ok m ∧
    nel m = (nx * ny)%nat ∧ (∀ e, e ∈ elems m → wf_curves e) ∧ sound (A:=AR) bnd tol m ∧ extrudable bnd tol m z obc1 obc2.
Proof.
  intros var H6 Ht Hf Hv Hnb Hnx Hny Hbnd Hx Hy Hsd HP Hz Hne G1 G2 Hc. pose proof (AR_laws bnd) as LA.
  assert (nleb (a:=AR) (nsub (a:=AR) xmax xmin) (nofZ (a:=AR) 0) = false) as Lx by (cbn; unfold Rleb; destruct (Rle_dec _ _); [lra|done]).
  assert (nleb (a:=AR) (nsub (a:=AR) ymax ymin) (nofZ (a:=AR) 0) = false) as Ly by (cbn; unfold Rleb; destruct (Rle_dec _ _); [lra|done]).
  assert (∀ b, (b < nb)%nat → sides_of (given nb bxmin) (given nb bxmax) (given nb bymin) (given nb bymax) b = Some (sd b)) as Hsd' by (intros b Hb; by apply Hsd).
  set (m := box3 (A:=AR) bo nx ny xmin xmax ymin ymax var nb sd true).
  assert (gen_box (A:=AR) bo nx ny xmin xmax ymin ymax var bxmin bxmax bymin bymax true = Ok m) as Em by (pose proof (fields_of_nbc _ _ Hf); by apply (gen_box_eq (A:=AR) bo nx ny xmin xmax ymin ymax var bxmin bxmax bymin bymax nb sd)).
  destruct (C37_gen_box_grid (A:=AR) bo nx ny xmin xmax ymin ymax var bxmin bxmax bymin bymax true nb sd Hf Hnx Hny Lx Ly Hsd') as (m' & Em' & Hw & Hg & Eb & _).
  rewrite Em in Em'. assert (m' = m) as -> by congruence. clear Em'.
  pose proof (C38_gen_box_faces (A:=AR) bo nx ny xmin xmax ymin ymax var bxmin bxmax bymin bymax nb sd m Hf Hnx Hny Lx Ly Hsd Em) as Hent.
  pose proof (box_linear (A:=AR) bo nx ny xmin xmax ymin ymax v0 rest nb sd true Hv : linear2d (A:=AR) m) as Hlin.
  pose proof Hg as (D1 & D2 & D3 & D4 & _ & D6).
  assert (Z.of_nat (nx * ny) <= bnd) as Hb2 by (assert (1 ≤ length z - 1)%nat by lia; nia).
  assert (∀ b, (b < nb)%nat → sides_ok (sd b)) as Hso by (intros b Hb; by apply Hsd).
  assert (coincident (A:=AR) m) as Hco by (eapply (grid_coincident (A:=AR) bnd); eauto; lia).
  pose proof (C73_box bnd bo nx ny xmin xmax ymin ymax tol var bxmin bxmax bymin bymax nb sd m H6 Hb2 Ht Hf Hnb Hnx Hny Hx Hy Hsd HP Em) as So.
  exists m. split; [done|]. split; [exact D2|]. split; [intros e; exact (box_curves bo nx ny xmin xmax ymin ymax var nb sd true e)|]. split; [exact So|].
  split; [done|]. split.
  { intros e He. apply elem_of_list_lookup in He as (q & Hq). pose proof (lookup_lt_Some _ _ _ Hq) as Hlt. pose proof D3 as D3'; change (num AR) with R in D3'; rewrite D3' in Hlt. apply elnum_div in Hlt as (i & j & Hi & Hj & ->).
    destruct (D6 i j Hi Hj) as (e' & He' & (C1 & C2 & _)). unfold elnum in Hq. assert (e' = e) as -> by (apply (inj Some); exact (eq_trans (eq_sym He') Hq)). clear -C1 C2.
    assert (∀ ky kx p, point e 0 ky kx = Some p → p.2 = 0%R) as H0.
    { intros ky kx p. change (num AR) with R in C1, C2. unfold point. rewrite C1, C2. destruct ky as [|[|ky]], kx as [|[|kx]]; cbn; intros E; try discriminate E; injection E as <-; reflexivity. }
    intros ky kx ky' kx' p p' Hp Hp'. by rewrite (H0 _ _ _ Hp), (H0 _ _ _ Hp'). }
  split; [done|]. split; [done|]. split; [change (num AR) with R in D2; rewrite D2; exact Hbnd|]. split; [|change (num AR) with R in Eb; rewrite Eb; by exists c1, c2].
  intros i b f r j g e e' c c' s s' k z1 z2 Hin Hr HE Hin' Hpt He He' Hfc Hfc' Hs Hs' Hz1 Hz2.
  pose proof (Hco i b f r j g e e' Hin Hr HE Hin' Hpt He He') as Hcc. rewrite Hfc, Hfc' in Hcc. assert (c' = c) as -> by congruence.
  assert (plane_dist c c = 0%R) as ->.
  { destruct c as [[x y] w]. unfold plane_dist. cbn [fst snd]. rewrite <- R_sqrt.sqrt_0. f_equal. ring. }
  assert (∀ e s, e ∈ elems m → smallest_edge (A:=AR) e = Ok s → (0 < s)%R) as Hpos.
  { intros e0 s0 He0 Hs0. pose proof (so_edges (A:=AR) _ _ _ So e0 s0 He0 Hs0) as Hp. cbn in Hp. unfold Rltb in Hp. by destruct (Rlt_dec 0 s0). }
  apply Rmult_le_pos; [done|]. apply Rmin_glb; [|apply Rabs_pos]. apply Rlt_le, Rmin_glb_lt; [eapply (Hpos e)|eapply (Hpos e')]; [by eapply elem_of_list_lookup_2|done|by eapply elem_of_list_lookup_2|done].
Qed.
Print Assumptions C78_box.

(** Six cells, periodic in x and y, are extruded to twelve bricks; the bricks of the upper layer are kept, and the internal
    conditions of the result are deleted. The box can be rotated too. *)
Example C78_sample theta : ∃ m m3 m4 m5 n m',
  gen_box (A:=AR) "little" 3 2 0%R 1%R 0%R 1%R [2; 2; 1; 0; 0]%nat None None None None true = Ok m ∧
  extrude (A:=AR) m [0; 1; 3]%R (Some ["v"%string]) (Some ["O"%string]) true = Ok m3 ∧ nel m3 = 12%nat ∧
  keep_elements (A:=AR) m3 [6; 7; 8; 9; 10; 11]%nat "W" = Ok m4 ∧ nel m4 = 6%nat ∧ delete_internal_bcs (A:=AR) m4 = Ok (m5, n) ∧
  (∀ m', m' = m → sound (A:=AR) 100 (1/10)%R m') ∧ made 100 (1/10)%R (λ m', m' = m) m5 ∧
  rotate_2d (A:=AR) (cos theta) (sin theta) 0%R 0%R m = Ok m' ∧ made 100 (1/10)%R (λ m', m' = m) m'.
Proof.
  destruct (C78_box 100 "little" 3 2 0 1 0 1 (1/10) 2 [2; 1; 0; 0]%nat None None None None 1 (λ _, Sides "P" "P" "P" "P") [0; 1; 3]%R
    (Some ["v"%string]) (Some ["O"%string]) (λ _, "v"%string) (λ _, "O"%string)) as (m & E & N2 & Hw & S & X).
  - lia.
  - lra.
  - exact C38_default_fields.
  - lia.
  - lia.
  - lia.
  - lia.
  - cbn. lia.
  - lra.
  - lra.
  - intros [|b] Hb; [|lia]. split; [|done]. repeat split; done.
  - intros b Hb. done.
  - cbn. lia.
  - intros [|[|[|k]]] z1 z2 H1 H2; cbn in H1, H2; try discriminate; injection H1 as <-; injection H2 as <-; lra.
  - split; [done|]. by intros [|b] Hb; [|lia].
  - split; [done|]. by intros [|b] Hb; [|lia].
  - intros b Hb. repeat split; done.
  - assert (∀ m', m' = m → sound (A:=AR) 100 (1/10)%R m') as HG by (by intros m' ->).
    assert (made 100 (1/10)%R (λ m', m' = m) m) as M0 by (by apply made_given).
    destruct (C78_progress 100 (1/10)%R (λ m', m' = m) m _ _ _ ltac:(lia) ltac:(lra) HG M0 X) as (m3 & E3 & N3 & M3).
    assert (nel m3 = 12%nat) as N3' by (exact (eq_trans N3 (f_equal (λ x, (x * 2)%nat) N2))).
    destruct (C73_progress (A:=AR) 100 (1/10)%R (sound (A:=AR) 100 (1/10)%R) m3 (AR_laws 100) AR_geo ltac:(lia) (λ _ H, H)) as (_ & K & _).
    { apply built_given. by apply (C78_history 100 (1/10)%R (λ m', m' = m) m3 ltac:(lia) ltac:(lra) HG M3). }
    destruct (K [6; 7; 8; 9; 10; 11]%nat "W"%string) as (m4 & E4 & N4); [apply (bool_decide_unpack _); vm_compute; exact I| |].
    { intros i Hi. assert (i < 12)%nat as H; [|exact (eq_ind_r (λ x, (i < x)%nat) H N3')]. repeat (apply elem_of_cons in Hi as [->|Hi]; [lia|]). by apply not_elem_of_nil in Hi. }
    assert (made 100 (1/10)%R (λ m', m' = m) m4) as M4.
    { eapply made_keep; [exact M3| | |exact E4]; [apply (bool_decide_unpack _); vm_compute; exact I|]. intros [H|H]; discriminate H. }
    destruct (C73_progress (A:=AR) 100 (1/10)%R (sound (A:=AR) 100 (1/10)%R) m4 (AR_laws 100) AR_geo ltac:(lia) (λ _ H, H)) as (_ & _ & (m5 & n & E5) & _).
    { apply built_given. by apply (C78_history 100 (1/10)%R (λ m', m' = m) m4 ltac:(lia) ltac:(lra) HG M4). }
    destruct (C39_origin_partial theta 0%R 0%R m) as (m' & E' & _); [intros e He; split; [|exact (Hw e He)]; exact (proj2 (proj1 (so_connected (A:=AR) _ _ _ S)) e He)|].
    exists m, m3, m4, m5, n, m'. split_and!; try done; [eapply made_delete; [exact M4|exact E5]|]. eapply made_rotate; [exact M0|exact Hw|exact E'].
Qed.
