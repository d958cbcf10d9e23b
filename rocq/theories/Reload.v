(** Writing a mesh as re2, reading it and generating the internal conditions. *)
From Coq Require Import Lia Ascii.
From Flocq Require Import Core.Core IEEE754.BinarySingleNaN IEEE754.Binary IEEE754.Bits.
From Verif Require Import Base Float FloatLaws Mesh Core Tools Bytes Text Field Re2 Re2Spec Re2Proofs MeshSpec GibSpec MeshLemmas CheckProofs OpsProofs Restore.
Open Scope Z_scope.

(** ** Specification *)
(** Conditions that are not internal carry nothing that a re2 file does not store: external ones the numbers of their own
    element and face, the others nothing at all. *)
Definition plain_conditions (m : mesh64) : Prop := ∀ i b f (r : bcrec f64), get_bc m i b f = Some r → bt r ≠ "E"%string →
  r = if (f <? 2 * ndim m)%nat && is_external (bt r)
      then Bc (bt r) (Z.of_nat i + 1) (Z.of_nat f + 1) (bp3 r) (bp4 r) (bp5 r) (bp6 r) (bp7 r) else zero_bc z64.
(** Plane meshes lie in the plane z = 0. *)
Definition in_plane (m : mesh64) : Prop := ndim m = 2%nat → ∀ e, e ∈ elems m → pos e !! 2%nat = Some (replicate 4 z64).
(** The elements agree in shape, position, curved edges and all conditions. *)
Definition same_element (e' e : elem f64) : Prop := eshape e' = eshape e ∧ pos e' = pos e ∧ same_curves e' e ∧ bcs e' = bcs e.

(** ** Proof *)
Section Same.
Context {A : arith}.
Notation N := (num A).
(** Agreement in what the conditions and the geometry need. *)
Definition alike (m' m : hexa N) : Prop :=
  ndim m' = ndim m ∧ nel m' = nel m ∧ nbc m' = nbc m ∧
  Forall2 (λ e' e : elem N, eshape e' = eshape e ∧ pos e' = pos e ∧ bcs e' = bcs e) (elems m') (elems m).
Definition bare (e : elem N) : elem N := Elem (eshape e) (pos e) [] [] [] [] [] [] [].
Lemma face_center_alike (e e' : elem N) i : eshape e' = eshape e → pos e' = pos e → face_center e' i = face_center e i.
Proof.
  intros H1 H2. assert (∀ a b c, point_py e' a b c = point_py e a b c) as Hp.
  { intros. unfold point_py, point. by rewrite H1, H2. }
  unfold face_center. destruct (face_corners i) as [ks|]; [|done].
  assert (mapR (λ '(kx, ky, kz), point_py e' kz ky kx) ks = mapR (λ '(kx, ky, kz), point_py e kz ky kx) ks) as ->; [|done].
  induction ks as [|[[kx ky] kz] ks IH]; cbn; [done|]. by rewrite Hp, IH.
Qed.
Lemma smallest_edge_alike (e e' : elem N) : eshape e' = eshape e → pos e' = pos e → smallest_edge e' = smallest_edge e.
Proof.
  intros H1 H2. assert (∀ a b c, point_py e' a b c = point_py e a b c) as Hp.
  { intros. unfold point_py, point. by rewrite H1, H2. }
  unfold smallest_edge. rewrite H1. by rewrite !Hp.
Qed.
Lemma alike_elem m' m i e : alike m' m → elems m !! i = Some e → ∃ e', elems m' !! i = Some e' ∧ eshape e' = eshape e ∧ pos e' = pos e ∧ bcs e' = bcs e.
Proof. intros (_ & _ & _ & H) He. destruct (Forall2_lookup_r _ _ _ _ _ H He) as (e' & E & P). eauto. Qed.
Lemma alike_sym m' m : alike m' m → alike m m'.
Proof.
  intros (A1 & A2 & A3 & A4). split; [done|]. split; [done|]. split; [done|]. apply Forall2_flip.
  eapply Forall2_impl; [exact A4|]. cbv beta. intros x y (B1 & B2 & B3). done.
Qed.
Lemma alike_bc m' m i b f : alike m' m → get_bc m' i b f = get_bc m i b f.
Proof.
  intros H. unfold get_bc. destruct (elems m !! i) as [e|] eqn:E.
  - destruct (alike_elem m' m i e H E) as (e' & E' & _ & _ & B). rewrite E'. cbn [mbind option_bind]. by rewrite B.
  - destruct (elems m' !! i) as [e'|] eqn:E'; [|done]. destruct (alike_elem m m' i e' (alike_sym _ _ H) E') as (e & E2 & _). congruence.
Qed.
Lemma alike_close tol m' m i f j g : alike m' m → close_faces tol m i f j g → close_faces tol m' i f j g.
Proof.
  intros H (e & e' & c1 & c2 & s1 & s2 & E1 & E2 & E3 & E4 & E5 & E6 & E7).
  destruct (alike_elem _ _ _ _ H E1) as (d & D1 & D2 & D3 & _). destruct (alike_elem _ _ _ _ H E2) as (d' & D1' & D2' & D3' & _).
  exists d, d', c1, c2, s1, s2. rewrite (face_center_alike e d), (face_center_alike e' d'), (smallest_edge_alike e d), (smallest_edge_alike e' d') by done. done.
Qed.
Lemma alike_place tol m' m i f j g : alike m' m → same_place tol m i f j g → same_place tol m' i f j g.
Proof.
  intros H (e & e' & c1 & c2 & s1 & s2 & E1 & E2 & E3 & E4 & E5 & E6 & E7).
  destruct (alike_elem _ _ _ _ H E1) as (d & D1 & D2 & D3 & _). destruct (alike_elem _ _ _ _ H E2) as (d' & D1' & D2' & D3' & _).
  exists d, d', c1, c2, s1, s2. rewrite (face_center_alike e d), (face_center_alike e' d'), (smallest_edge_alike e d), (smallest_edge_alike e' d') by done. done.
Qed.
Lemma alike_wf m' m : alike m' m → wf_mesh m → wf_mesh m'.
Proof.
  intros H [(W1 & W2 & W3) W4]. pose proof H as (A1 & A2 & A3 & A4). split.
  - split; [by rewrite A1|]. split; [by rewrite A2, <- W2; eapply Forall2_length|]. intros e He. apply elem_of_list_lookup in He as [i He].
    destruct (alike_elem _ _ _ _ (alike_sym _ _ H) He) as (d & D1 & _ & _ & D4). rewrite <- D4, A3. apply W3. by eapply elem_of_list_lookup_2.
  - intros e He. apply elem_of_list_lookup in He as [i He]. destruct (alike_elem _ _ _ _ (alike_sym _ _ H) He) as (d & D1 & D2 & D3 & _).
    specialize (W4 d ltac:(by eapply elem_of_list_lookup_2)). unfold wf_geom_elem in *. by rewrite D2, D3 in W4.
Qed.
Lemma alike_valid tol m' m : alike m' m → valid_connectivity tol m → valid_connectivity tol m'.
Proof.
  intros H HV i b f r Hi Hr Hc. pose proof H as (A1 & A2 & A3 & _). rewrite (alike_bc _ _ _ _ _ H) in Hr.
  destruct (HV i b f r) as (j & g & r' & Hj & Hn & Hr' & Ht & Hn' & Hp); [unfold in_mesh in *; by rewrite A1, A2, A3 in Hi|done|done|].
  exists j, g, r'. rewrite A2, (alike_bc _ _ _ _ _ H). split_and!; try done; try apply Hj. intros HE. by apply (alike_place _ _ _ _ _ _ _ H), Hp.
Qed.
Lemma alike_check tol m' m : alike m' m → wf_mesh m → check_connectivity tol m' = Ok true ↔ check_connectivity tol m = Ok true.
Proof.
  intros H Hw. rewrite (check_connectivity_iff tol m Hw), (check_connectivity_iff tol m' (alike_wf _ _ H Hw)).
  split; apply alike_valid; [by apply alike_sym|done].
Qed.
Lemma alike_connected tol m' m : alike m' m → connected_by_place tol m → connected_by_place tol m'.
Proof.
  intros H [C1 C2]. pose proof H as (A1 & A2 & A3 & _).
  assert (∀ b i f j g, linked m' b i f j g ↔ linked m b i f j g) as HL by (intros; unfold linked; by rewrite (alike_bc _ _ _ _ _ H)).
  assert (∀ i f, inner m' i f ↔ inner m i f) as HI by (intros; unfold inner; by rewrite A1, A2, (alike_bc _ _ _ _ _ H)).
  split.
  - intros i b f r Hr Ht. rewrite (alike_bc _ _ _ _ _ H) in Hr. destruct (C1 i b f r Hr Ht) as (Hf & j & g & Hj & Hij & HA). rewrite A1, A2, A3.
    split; [done|]. exists j, g. split; [done|]. split; [done|]. intros b' Hb'. rewrite !HL. by apply HA.
  - intros i f j g Hij Hi Hj. rewrite HL, <- (C2 i f j g Hij) by (by apply HI). split; apply alike_close; [by apply alike_sym|done].
Qed.
End Same.

Lemma norm_pos_same nd nb (e : elem f64) : (nd = 2 ∨ nd = 3)%nat → re2_elem nd nb e → wf_geom_elem (A:=A64) e →
  (nd = 2%nat → pos e !! 2%nat = Some (replicate 4 z64)) → norm_pos nd e = pos e.
Proof.
  intros Hnd He (lx & ly & lz & _ & _ & HL & _) H2. unfold norm_pos. change (@pos (num A64) e) with (@pos f64 e) in HL. destruct (pos e) as [|a [|b [|c [|d l]]]]; try done.
  destruct Hnd as [->| ->]; [|done]. specialize (H2 eq_refl). cbn in H2. apply (inj Some) in H2 as ->. done.
Qed.
Lemma reload native m tol : re2_mesh m → wf_mesh (A:=A64) m → (1 ≤ nbc m)%nat →
  (∀ e s, e ∈ elems m → smallest_edge (A:=A64) e = Ok s → nleb (a:=A64) s (nofZ (a:=A64) 0) = false) →
  connected_by_place (A:=A64) tol m → plain_conditions m → in_plane m →
  ∃ m' n, generate_internal_bcs (A:=A64) tol (norm_mesh native m) = Ok (m', n) ∧ alike (A:=A64) m' m ∧
    ncurv m' = Z.of_nat (n_curves m) ∧ ∀ p e, elems m !! p = Some e → ∃ e', elems m' !! p = Some e' ∧ same_element e' e.
Proof.
  intros Hm Hw Hb Hs HC HP Hz. set (m0 := norm_mesh native m).
  set (back := λ e : elem f64, set_bcs (bcs e) (with_curves (ndim m) e)).
  set (m1 := set_elems (back <$> elems m) m0).
  pose proof (rm_elems _ Hm) as HE. rewrite Forall_forall in HE.
  assert (∀ e, e ∈ elems m → eshape (back e) = eshape e ∧ pos (back e) = pos e ∧ bcs (back e) = bcs e) as Hback.
  { intros e He. specialize (HE e He). split; [symmetry; apply (re_shape _ _ _ HE)|]. split; [|done].
    unfold back; cbn [pos set_bcs with_curves set_ccurv set_curv set_pos]. apply (norm_pos_same _ (nbc m)); [by apply rm_ndim|done|by apply Hw|].
    intros H2. by apply Hz. }
  assert (alike (A:=A64) m1 m) as HA.
  { split; [done|]. split; [done|]. split; [change (Nat.max 1 (@nbc f64 m) = @nbc f64 m); lia|]. unfold m1; cbn [elems set_elems].
    apply Forall2_fmap_l, Forall_Forall2_diag, Forall_forall. exact Hback. }
  assert (Z.of_nat (nel m1) <= bnd64) as Hn.
  { destruct (rm_nel _ Hm) as [_ Hn]. change (nel m1) with (nel m). unfold bnd64. lia. }
  assert (cleared (A:=A64) m1 m0) as HCl.
  { split; [|split].
    - change (set_elems (strip_elem <$> state_after m (nbc m)) m0 = set_elems (strip_elem <$> (back <$> elems m)) m0).
      apply (f_equal (λ l, set_elems l m0)).
      apply list_eq. intros p. unfold state_after. rewrite !list_lookup_fmap, list_lookup_imap. by destruct (elems m !! p).
    - unfold bshape. unfold m1, m0; cbn [set_elems norm_mesh elems]. apply list_eq. intros p. unfold state_after.
      rewrite !list_lookup_fmap, list_lookup_imap. destruct (elems m !! p) as [e|] eqn:E; [|done]. cbn [fmap option_fmap option_map]. f_equal.
      specialize (HE e (elem_of_list_lookup_2 _ _ _ E)). destruct (re_bcs _ _ _ HE) as [L _].
      unfold back; cbn [elem_after bcs set_bcs]. destruct (nbc m) as [|nb]; [lia|]. cbn [rows_after]. unfold norm_rows. rewrite <- L, firstn_all, <- list_fmap_compose.
      apply list_fmap_ext. intros k r _. unfold compose, norm_row. by rewrite imap_length.
    - intros i b f r Hr. assert (@get_bc f64 m i b f = @Some (bcrec f64) r) as Hr' by (exact (eq_trans (eq_sym (alike_bc _ _ _ _ _ HA)) Hr)).
      assert (get_bc m0 i b f = Some (if (f <? 2 * ndim m)%nat && is_external (bt r) then norm_bc i f r else zero_bc z64)) as E0.
      { unfold get_bc in Hr' |- *. unfold m0; cbn [norm_mesh elems]. unfold state_after. rewrite list_lookup_imap.
        destruct (elems m !! i) as [e|] eqn:E; [|done]. cbn [mbind option_bind fmap option_fmap option_map] in *.
        specialize (HE e (elem_of_list_lookup_2 _ _ _ E)). destruct (re_bcs _ _ _ HE) as [L _].
        cbn [elem_after bcs set_bcs]. destruct (nbc m) as [|nb]; [lia|]. cbn [rows_after]. unfold norm_rows. rewrite <- L, firstn_all, list_lookup_fmap.
        destruct (bcs e !! b) as [row|]; [|done]. cbn [mbind option_bind fmap option_fmap option_map] in *. unfold norm_row. rewrite list_lookup_imap.
        by rewrite Hr'. }
      refine (eq_trans E0 _). f_equal. destruct (String.eqb_spec (bt r) "E") as [Ht|Ht].
      + rewrite Ht. change (is_external "E") with false. by rewrite andb_false_r.
      + symmetry. apply (HP i b f r Hr' Ht). }
  destruct (restore_from (A:=A64) bnd64 A64_laws m1 m0 tol) as (n & p & EG & _); try done.
  - by apply (alike_wf _ _ HA).
  - change (1 ≤ Nat.max 1 (@nbc f64 m))%nat. lia.
  - intros e s He Es. unfold m1 in He; cbn [elems set_elems] in He. apply elem_of_list_fmap in He as (d & -> & Hd). destruct (Hback d Hd) as (B1 & B2 & _).
    apply (Hs d); [done|]. rewrite <- Es. symmetry. by apply smallest_edge_alike.
  - by apply (alike_connected _ _ _ HA).
  - exists m1, n. split; [done|]. split; [done|]. split; [unfold m1, m0; cbn [ncurv set_elems norm_mesh]; by rewrite n_curves_ok|].
    intros q e He. exists (back e). split; [unfold m1; cbn [elems set_elems]; by rewrite list_lookup_fmap, He|].
    destruct (Hback e (elem_of_list_lookup_2 _ _ _ He)) as (B1 & B2 & B3). split; [done|]. split; [done|]. split; [|done].
    split; [done|]. intros i t Ht Hne. unfold back; cbn [curv set_bcs with_curves set_ccurv set_curv]. unfold norm_curv.
    rewrite lookup_zip_with, Ht. cbn [mbind option_bind]. rewrite bool_decide_eq_false_2 by done. by destruct (curv e !! i).
Qed.
