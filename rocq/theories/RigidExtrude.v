(** Extruding and keeping elements, before and after a rotation, over the real numbers. *)
From Coq Require Import Lia Reals Lra.
From Verif Require Import Base Mesh Core Tools Float FloatLaws MeshLemmas MeshSpec CheckProofs Curve CurveSpec CurveProofs P_Curve WarpSpec WarpJoin WarpTwice RotateTwice Rigid.
Open Scope Z_scope.

(** ** One element, in any arithmetic *)
Section elem.
Context {A : arith}.
Notation N := (num A).
Context (c s : N).
Implicit Types (e : elem N).
Definition spun e : elem N := set_curv (zip_with (rot_one c s) (ccurv e) (curv e)) e.
Lemma third_spun t z row : length row = 5%nat → rot_one c s t (set_third z row) = set_third z (rot_one c s t row).
Proof. intros L. destruct row as [|r0 [|r1 [|r2 [|r3 [|r4 [|]]]]]]; try done. unfold rot_one. by destruct (String.eqb t "m"). Qed.
Lemma edge_spun z1 z2 e ic : wf_curves e → (ic < 4)%nat → extrude_curv_edge z1 z2 (spun e) ic = spun (extrude_curv_edge z1 z2 e ic) ∧ wf_curves (extrude_curv_edge z1 z2 e ic).
Proof.
  intros (W1 & W2 & W3) Hi. destruct e as [sh ps v p t sc cu cc b]. cbn [curv ccurv] in *.
  destruct cu as [|r0 [|r1 [|r2 [|r3 [|r4 [|r5 [|r6 [|r7 [|r8 [|r9 [|r10 [|r11 [|]]]]]]]]]]]]]; try done.
  destruct cc as [|t0 [|t1 [|t2 [|t3 [|t4 [|t5 [|t6 [|t7 [|t8 [|t9 [|t10 [|t11 [|]]]]]]]]]]]]]; try done.
  rewrite !Forall_cons in W2. destruct W2 as (L0 & L1 & L2 & L3 & L4 & L5 & L6 & L7 & L8 & L9 & L10 & L11 & _).
  assert (∀ (z : N) (row : list N), length row = 5%nat → length (set_third (A:=A) z row) = 5%nat) as L3' by (intros z row L; unfold set_third; by rewrite insert_length).
  split.
  - unfold extrude_curv_edge, spun, set_curv, set_ccurv. cbn [curv ccurv eshape pos vel pres temp scal bcs].
    destruct ic as [|[|[|[|]]]]; [| | | |lia]; cbn [nth zip_with Nat.add insert list_insert];
      match goal with |- context [if String.eqb ?t "m" then _ else _] => destruct (String.eqb t "m") eqn:Et end; cbn [alter list_alter zip_with]; rewrite ?third_spun by done; done.
  - unfold extrude_curv_edge, set_curv, set_ccurv, wf_curves. cbn [curv ccurv eshape pos vel pres temp scal bcs].
    destruct ic as [|[|[|[|]]]]; [| | | |lia]; cbn [nth zip_with Nat.add insert list_insert];
      match goal with |- context [if String.eqb ?t "m" then _ else _] => destruct (String.eqb t "m") eqn:Et end; cbn [alter list_alter]; (split; [done|]); (split; [|done]); repeat (apply List.Forall_cons; [first [done|by apply L3'] |]); constructor.
Qed.
Lemma extrude_rotated z1 z2 e2 e : eshape e2 = (2, 2, 1)%nat → wf_geom_elem e2 → wf_curves e → (2 ≤ length (pos e))%nat →
  extrude_elem z1 z2 (rotated c s e2) (rotated c s e) = rotated c s (extrude_elem z1 z2 e2 e) ∧ wf_curves (extrude_elem z1 z2 e2 e) ∧ wf_geom_elem (extrude_elem z1 z2 e2 e).
Proof.
  intros Hs (lx & ly & lz & E & _ & Lp & Lc) Hw Hl. rewrite Hs in E. injection E as <- <- <-. cbn in Lc.
  destruct (pos e2) as [|px [|py [|pz [|]]]] eqn:Ep; try done.
  assert (length px = 4%nat) as Lx by (apply Lc; repeat constructor). assert (length py = 4%nat) as Ly by (apply Lc; repeat constructor).
  unfold extrude_elem. set (q := extrude_pos z1 z2 e2 e).
  assert (pos q = [px ++ px; py ++ py; replicate 4 z1 ++ replicate 4 z2]) as Eq by (unfold q, extrude_pos; cbn [pos]; by rewrite Ep).
  assert (wf_curves q) as Wq by exact Hw.
  set (q' := set_pos [zip_with (rot_x c s) (px ++ px) (py ++ py); zip_with (rot_y c s) (px ++ px) (py ++ py); replicate 4 z1 ++ replicate 4 z2] q).
  assert (extrude_pos z1 z2 (rotated c s e2) (rotated c s e) = spun q') as ->.
  { unfold rotated at 1. rewrite Ep. unfold rotated. destruct (pos e) as [|xs [|ys rest]]; [cbn in Hl; lia|cbn in Hl; lia|].
    unfold q', q, spun, extrude_pos, set_pos, set_curv. cbn [curv ccurv eshape pos vel pres temp scal bcs]. by rewrite !zip_with_app by congruence. }
  assert (∀ l (a : elem N), (∀ x, x ∈ l → (x < 4)%nat) → wf_curves a → foldl (extrude_curv_edge z1 z2) (spun a) l = spun (foldl (extrude_curv_edge z1 z2) a l) ∧ wf_curves (foldl (extrude_curv_edge z1 z2) a l) ∧
    pos (foldl (extrude_curv_edge z1 z2) a l) = pos a ∧ eshape (foldl (extrude_curv_edge z1 z2) a l) = eshape a) as HF.
  { induction l as [|x l IH]; intros a Hx Wa; [done|]. cbn [foldl]. destruct (edge_spun z1 z2 a x Wa) as [-> W]; [apply Hx; by left|].
    destruct (IH _ (λ x Hx', Hx x ltac:(by right)) W) as (H1 & H2 & H3 & H4). split; [done|]. split; [done|]. split; [by rewrite H3|by rewrite H4]. }
  assert (∀ x, x ∈ range 4 → (x < 4)%nat) as HR by (intros x; by rewrite elem_of_range).
  destruct (HF (range 4) q' HR Wq) as (H1 & _). destruct (HF (range 4) q HR Wq) as (_ & H2 & H3 & H4). rewrite H1. split; [|split; [done|]].
  - unfold rotated. rewrite H3, Eq. unfold spun.
    assert (∀ l (a : elem N) p, foldl (extrude_curv_edge z1 z2) (set_pos p a) l = set_pos p (foldl (extrude_curv_edge z1 z2) a l)) as HP.
    { induction l as [|x l IH]; intros a p; [done|]. cbn [foldl]. rewrite <- IH. done. }
    unfold q'. rewrite HP. done.
  - exists 2%nat, 2%nat, 2%nat. rewrite H4, H3, Eq. split; [done|]. split; [lia|]. split; [done|]. intros l Hin. rewrite !elem_of_cons, elem_of_nil in Hin.
    destruct Hin as [->|[->|[->|[]]]]; rewrite app_length, ?replicate_length; cbn; lia.
Qed.
End elem.

(** ** Meshes *)
Lemma foldM_both2 {S B} (Q : S → S → Prop) (f f' : S → B → res S) s s' l : Q s s' → (∀ s s' b, Q s s' → both Q (f s b) (f' s' b)) → both Q (foldM f s l) (foldM f' s' l).
Proof.
  revert s s'. induction l as [|b l IH]; intros s s' H Hf; [exact H|]. cbn [foldM]. pose proof (Hf s s' b H) as Hb.
  destruct (f s b), (f' s' b); cbn [both rbind] in *; try done. by apply IH.
Qed.
Lemma foldl_both2 {S B} (Q : S → S → Prop) (f f' : S → B → S) s s' l : Q s s' → (∀ s s' b, Q s s' → Q (f s b) (f' s' b)) → Q (foldl f s l) (foldl f' s' l).
Proof. revert s s'. induction l as [|b l IH]; intros s s' H Hf; [exact H|]. cbn [foldl]. apply IH; [by apply Hf|done]. Qed.
Section rigid.
Context (theta : R).
Notation mesh := (hexa (num AR)).
Notation celem := (elem (num AR)).
Notation tm := (turned_mesh theta).
Lemma turned_rotated (e e' : celem) : turned theta e e' ↔ e' = rotated (A:=AR) (cos theta) (sin theta) e ∧ wf_geom_elem (A:=AR) e ∧ wf_curves e.
Proof.
  unfold turned. split; intros (H & W & C); (split; [|done]); destruct W as (lx & ly & lz & _ & _ & L & _).
  - rewrite (rotate_elem_form (A:=AR)) in H by (done || (rewrite L; lia)). congruence.
  - rewrite (rotate_elem_form (A:=AR)) by (done || (rewrite L; lia)). by rewrite H.
Qed.
Lemma turned_extrude z1 z2 (e2 e2' e e' : celem) : eshape e2 = (2, 2, 1)%nat → turned theta e2 e2' → turned theta e e' →
  turned theta (extrude_elem (A:=AR) z1 z2 e2 e) (extrude_elem (A:=AR) z1 z2 e2' e').
Proof.
  rewrite !turned_rotated. intros Hs (-> & W2 & C2) (-> & W & C). destruct (extrude_rotated (A:=AR) (cos theta) (sin theta) z1 z2 e2 e Hs W2 C) as (H1 & H2 & H3).
  { destruct W as (lx & ly & lz & _ & _ & L & _). rewrite L. lia. }
  split; [exact H1|]. split; [exact H3|exact H2].
Qed.
Lemma copies_turned m m' nz : tm m m' → both (Forall2 (turned theta)) (extrude_copies (A:=AR) m nz) (extrude_copies (A:=AR) m' nz).
Proof.
  intros H. destruct (turned_fields theta _ _ H) as (F1 & _). unfold extrude_copies. rewrite F1. apply foldM_both2; [constructor|]. intros a a' k Ha.
  pose proof (offset_both theta (Z.of_nat ((k + 1) * nel m)) 0 m m' H) as Ho. destruct (offset_connectivity _ 0 m) as [x|], (offset_connectivity _ 0 m') as [x'|]; cbn [both rbind] in *; try done.
  apply Forall2_app; [done|]. apply Ho.
Qed.
Lemma extrude_turned m m' z o1 o2 ib : tm m m' → (∀ e, e ∈ elems m → eshape e = (2, 2, 1)%nat) → both tm (extrude (A:=AR) m z o1 o2 ib) (extrude (A:=AR) m' z o1 o2 ib).
Proof.
  intros H Hs. pose proof H as [S F]. destruct (turned_fields theta _ _ H) as (F1 & F2 & F3 & F4 & F5).
  assert (ncurv m' = ncurv m) as F6 by exact (f_equal ncurv S). assert (var m' = var m) as F7 by exact (f_equal var S). assert (lr1kind m' = lr1kind m) as F8 by exact (f_equal lr1kind S).
  assert (time m' = time m) as F9 by exact (f_equal time S). assert (istep m' = istep m) as F10 by exact (f_equal istep S). assert (wdsz m' = wdsz m) as F11 by exact (f_equal wdsz S).
  assert (endian m' = endian m) as F12 by exact (f_equal endian S). assert (elmap m' = elmap m) as F13 by exact (f_equal elmap S).
  unfold extrude. rewrite F1, F2, F3, F4, F5, F6, F7, F8, F9, F10, F11, F12, F13.
  destruct (negb (ndim m =? 2)%nat); [done|]. destruct (negb (bool_decide _)); [done|]. destruct (var m !! 0%nat) as [v0|]; [|done]. destruct (v0 <? 2)%nat; [done|].
  destruct (one_sided_periodic _ _); [done|]. destruct (length z <? 2)%nat; [done|].
  assert (both tm (if ib then Ok m else let! d := delete_internal_bcs (A:=AR) m in Ok (fst d)) (if ib then Ok m' else let! d := delete_internal_bcs (A:=AR) m' in Ok (fst d))) as HF.
  { destruct ib; [exact H|]. pose proof (delete_turned theta m m' H) as Hd. destruct (delete_internal_bcs m) as [d|], (delete_internal_bcs m') as [d'|]; cbn [both rbind] in *; try done. apply Hd. }
  destruct (if ib then Ok m else _) as [first|], (if ib then Ok m' else _) as [first'|]; cbn [both rbind] in HF |- *; try done.
  pose proof (copies_turned m m' (length z - 1) H) as HC. destruct (extrude_copies m _) as [cp|], (extrude_copies m' _) as [cp'|]; cbn [both rbind] in HC |- *; try done.
  destruct (negb (length (elems m) =? nel m)%nat); [done|].
  match goal with |- both _ (foldM ?g ?a ?l) (foldM _ ?a' _) => assert (tm a a') as HA end.
  { match goal with |- tm (if ib then foldl _ ?a _ else _) (if ib then foldl _ ?a' _ else _) => assert (tm a a') as HG end.
    { apply (foldl_both2 tm).
      { split; [done|]. cbn [elems]. apply Forall2_app; [apply HF|done]. }
      { clear -H Hs. intros a a' [k i] Ha.
        pose proof (turned_nth theta m m' i H) as Hn. destruct (elems m !! i) as [e2|] eqn:E2, (elems m' !! i) as [e2'|]; try done.
        pose proof Ha as [Sa Fa]. split; [exact Sa|]. cbn [set_elems elems]. apply Forall2_same_length_lookup. rewrite !alter_length. split; [by eapply Forall2_length|]. intros j e e' He He'.
        destruct (decide ((i + nel m * k)%nat = j)) as [<-|Hne].
        - rewrite list_lookup_alter in He, He'. apply fmap_Some in He as (d & Ed & ->). apply fmap_Some in He' as (d' & Ed' & ->).
          pose proof (Forall2_lookup_lr _ _ _ _ _ _ Fa Ed Ed') as T. apply turned_extrude; [apply Hs; by eapply elem_of_list_lookup_2|done|done].
        - rewrite list_lookup_alter_ne in He, He' by done. exact (Forall2_lookup_lr _ _ _ _ _ _ Fa He He'). } }
    destruct ib; [|done]. destruct (turned_fields theta _ _ HG) as (_ & _ & _ & -> & _). apply foldl_turned; [done|]. clear. intros a a' [i b] Ha. unfold extrude_internal. apply foldl_turned; [by do 2 apply turned_alter|]. intros; by apply turned_alter. }
  apply foldM_both2; [exact HA|]. clear. intros a a' [i b] Ha. unfold extrude_end. repeat match goal with |- context [match ?x with Some _ => _ | None => _ end] => destruct x end; cbn [both]; try done. by do 2 apply turned_alter.
Qed.
End rigid.

(** ** keep_elements *)
Section keep.
Context (theta : R).
Notation tm := (turned_mesh theta).
Lemma ncurv_turned m m' : tm m m' → both tm (update_ncurv (A:=AR) m) (update_ncurv (A:=AR) m').
Proof.
  intros H. pose proof H as [S F]. unfold update_ncurv.
  match goal with |- both _ (rbind (foldM ?f ?a ?l) _) (rbind (foldM _ _ ?l') _) => assert (foldM f a l' = foldM f a l) as -> end.
  { apply (foldM_list (turned theta)); [exact F|]. intros n e e' T. apply turned_rotated in T as (-> & (lx & ly & lz & _ & _ & L & _) & _).
    assert (ccurv (rotated (A:=AR) (cos theta) (sin theta) e) = ccurv e) as ->; [|done]. unfold rotated. by destruct (pos e) as [|? [|]]. }
  destruct (foldM _ _ _) as [n|]; cbn [both rbind]; [|done]. split; [|exact F].
  transitivity (set_ncurv n (set_elems [] m')); [done|]. by rewrite S.
Qed.
Lemma keep_turned m m' els ext : tm m m' → both tm (keep_elements (A:=AR) m els ext) (keep_elements (A:=AR) m' els ext).
Proof.
  intros H. destruct (turned_fields theta _ _ H) as (F1 & F2 & F3 & F4 & F5). unfold keep_elements. rewrite F1, F2, F3.
  destruct (ke_tables _ _) as [[kept offs]|]; cbn [rbind]; [|done].
  match goal with |- both _ (rbind (upd_loop ?g ?s ?l) _) (rbind (upd_loop _ ?s' _) _) => pose proof (upd_both theta g s s' l (conj H eq_refl)) as HU end.
  destruct (upd_loop _ (m, 0) _) as [u|], (upd_loop _ (m', 0) _) as [u'|]; cbn [both rbind] in HU |- *; try done. destruct HU as [HU _].
  assert (both (Forall2 (turned theta)) (mapR (λ i, of_opt IndexError (elems u.1 !! i)) (sort_nat els)) (mapR (λ i, of_opt IndexError (elems u'.1 !! i)) (sort_nat els))) as HM.
  { induction (sort_nat els) as [|i l IH]; [constructor|]. cbn [mapR]. pose proof (turned_nth theta _ _ i HU) as Hn.
    destruct (elems u.1 !! i), (elems u'.1 !! i); cbn [of_opt rbind both]; try done.
    destruct (mapR _ l), (mapR _ l); cbn [both rbind] in *; try done. by constructor. }
  destruct (mapR _ _) as [n|], (mapR _ _) as [n'|]; cbn [both rbind] in HM |- *; try done.
  apply ncurv_turned. split; [|exact HM]. rewrite (Forall2_length _ _ _ HM). destruct HU as [SU _].
  transitivity (set_nel (length n') (set_elems [] u'.1)); [done|]. by rewrite SU.
Qed.
End keep.
