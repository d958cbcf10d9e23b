(** Rotations, over the real numbers: what depends on distances only does not notice them. *)
From Coq Require Import Lia Reals Lra.
From Verif Require Import Base Mesh Core Tools Float FloatLaws MeshLemmas MeshSpec CheckProofs CurveSpec CurveProofs.
Open Scope Z_scope.

Section rigid.
Context (theta : R).
Notation mesh := (hexa (num AR)).
Notation celem := (elem (num AR)).
Notation rot_elem := (rotate_elem (A:=AR) (cos theta) (sin theta)).
Definition spin (p : R * R * R) : R * R * R := rotation 0 0 theta p.
Lemma spin_dist p q : dist2 (A:=AR) (spin p) (spin q) = dist2 (A:=AR) p q.
Proof.
  unfold spin. destruct (rotation_dist 0 0 theta p q) as [_ H]. destruct p as [[a b] c], q as [[x y] z]. cbn [rotation dist2_space] in H. cbn [rotation]. unfold dist2, nsq. cbn.
  rewrite ?Rmult_1_r in H. lra.
Qed.
Definition turned (e e' : celem) : Prop := rot_elem e = Ok e' ∧ wf_geom_elem e ∧ wf_curves e.
Lemma turned_moved e e' : turned e e' → moved (rotation 0 0 theta) e e'.
Proof. intros (H & W & C). destruct (rotate_elem_ok theta e W C) as (e1 & E1 & M). assert (e1 = e') as -> by congruence. done. Qed.
Lemma turned_bcs e e' : turned e e' → bcs e' = bcs e ∧ eshape e' = eshape e.
Proof. intros H. destruct (turned_moved e e' H) as ((? & _ & _ & _ & _ & ?) & _). done. Qed.
Lemma rot_set_bcs b e e' : rot_elem e = Ok e' → rot_elem (set_bcs b e) = Ok (set_bcs b e').
Proof.
  unfold rotate_elem. change (pos (set_bcs b e)) with (pos e). destruct (pos e) as [|xs [|ys rest]]; try done.
  set (p := _ :: _ :: _). change (set_pos p (set_bcs b e)) with (set_bcs b (set_pos p e)). generalize (set_pos p e) as d. generalize (range 12) as l. clear p.
  induction l as [|k l IH]; intros d; cbn [foldM]; [congruence|]. change (ccurv (set_bcs b d)) with (ccurv d). change (curv (set_bcs b d)) with (curv d).
  destruct (of_opt IndexError (ccurv d !! k)) as [c|]; cbn [rbind]; [|done]. destruct (String.eqb c "m"); [|cbn [rbind]; apply IH].
  destruct (of_opt IndexError (curv d !! k)) as [row|]; cbn [rbind]; [|done]. destruct row as [|x [|y row]]; cbn [rbind]; [done|done|].
  match goal with |- context [set_curv ?cv (set_bcs b d)] => change (set_curv cv (set_bcs b d)) with (set_bcs b (set_curv cv d)) end. apply IH.
Qed.
Lemma turned_set_bcs b e e' : turned e e' → turned (set_bcs b e) (set_bcs b e').
Proof. intros (H & W & C). split; [by apply rot_set_bcs|]. split; [exact W|exact C]. Qed.
Lemma py_pos_lt n i p : py_pos n i = Some p → (p < n)%nat.
Proof. unfold py_pos. repeat case_match; intros [= <-]; lia. Qed.
Lemma turned_point e e' k j i : turned e e' → point_py (A:=AR) e' k j i = rmap spin (point_py (A:=AR) e k j i).
Proof.
  intros H. destruct (turned_bcs _ _ H) as [_ Es]. pose proof (turned_moved _ _ H) as (_ & _ & _ & P & _). destruct H as (_ & W & _).
  unfold point_py. rewrite Es. destruct (eshape e) as [[lx ly] lz] eqn:Sh. destruct (py_pos lz k) as [z|] eqn:Ez; [|done]. destruct (py_pos ly j) as [y|] eqn:Ey; [|done]. destruct (py_pos lx i) as [x|] eqn:Ex; [|done].
  destruct (point_Some (A:=AR) e z y x lx ly lz W Sh) as [q Hq]; [by eapply py_pos_lt|by eapply py_pos_lt|by eapply py_pos_lt|].
  refine (eq_trans (f_equal (of_opt IndexError) (P _ _ _ _ Hq)) _). exact (eq_sym (f_equal (λ o, rmap spin (of_opt IndexError o)) Hq)).
Qed.
Lemma turned_face e e' i : turned e e' → face_center (A:=AR) e' i = rmap spin (face_center (A:=AR) e i).
Proof.
  intros H. unfold face_center. destruct (face_corners i) as [ks|] eqn:Ek; [|done].
  assert (mapR (λ '(kx, ky, kz), point_py (A:=AR) e' kz ky kx) ks = rmap (map spin) (mapR (λ '(kx, ky, kz), point_py (A:=AR) e kz ky kx) ks)) as ->.
  { clear Ek. induction ks as [|[[kx ky] kz] ks IH]; [done|]. cbn [mapR]. rewrite (turned_point e e' _ _ _ H). destruct (point_py e kz ky kx) as [p|]; [|done]. cbn [rmap rbind]. rewrite IH. match goal with |- context [mapR ?f ks] => destruct (mapR f ks) end; done. }
  destruct (mapR _ ks) as [ps|]; [|done]. cbn [rmap rbind].
  destruct ps as [|[[x1 y1] z1] [|[[x2 y2] z2] [|[[x3 y3] z3] [|[[x4 y4] z4] [|[[? ?] ?]]]]]]; try done. cbn [map]. unfold spin. cbn [rotation rmap].
  assert (∀ a b c a' b' c' : R, a = a' → b = b' → c = c' → Ok (a, b, c) = Ok (a', b', c') :> res (R * R * R)) as H3 by congruence.
  apply H3; unfold mean4, nlit; cbn; ring.
Qed.
Lemma turned_edge e e' : turned e e' → smallest_edge (A:=AR) e' = smallest_edge (A:=AR) e.
Proof.
  intros H. unfold smallest_edge. destruct (turned_bcs _ _ H) as [_ ->]. destruct (eshape e) as [[lx ly] lz].
  rewrite !(turned_point e e' _ _ _ H).
  repeat match goal with |- rbind (rmap spin ?x) _ = _ => destruct x; cbn [rmap rbind]; [|done] end.
  destruct (1 <? lz)%nat; [|rewrite !spin_dist; done].
  rewrite ?(turned_point e e' _ _ _ H).
  repeat match goal with |- rbind (rmap spin ?x) _ = _ => destruct x; cbn [rmap rbind]; [|done] end.
  rewrite !spin_dist. done.
Qed.

(** ** Meshes *)
Definition turned_mesh (m m' : mesh) : Prop := set_elems [] m' = set_elems [] m ∧ Forall2 turned (elems m) (elems m').
Lemma rotate_turned x0 y0 m m' : (∀ e, e ∈ elems m → wf_geom_elem e ∧ wf_curves e) →
  rotate_2d (A:=AR) (cos theta) (sin theta) x0 y0 m = Ok m' → turned_mesh m m'.
Proof.
  intros Hw. unfold rotate_2d, turned_mesh. destruct (mapR rot_elem (elems m)) as [l|] eqn:E; [|done]. cbn [rbind]. intros [= <-]. split; [done|]. cbn [elems set_elems]. apply mapR_Ok in E.
  apply Forall2_same_length_lookup. split; [by apply Forall2_length in E|]. intros i e e' He He'. split; [exact (Forall2_lookup_lr _ _ _ _ _ _ E He He')|]. apply Hw. by eapply elem_of_list_lookup_2.
Qed.
Lemma turned_rotate x0 y0 m m' : turned_mesh m m' → rotate_2d (A:=AR) (cos theta) (sin theta) x0 y0 m = Ok m'.
Proof.
  intros [S F]. unfold rotate_2d. assert (mapR rot_elem (elems m) = Ok (elems m')) as ->. { apply mapR_Ok. eapply Forall2_impl; [exact F|]. intros e e' (H & _). exact H. }
  cbn [rbind]. f_equal. change (set_elems (elems m') (set_elems [] m) = m'). rewrite <- S. by destruct m'.
Qed.
Lemma turned_get m m' i b f : turned_mesh m m' → get_bc m' i b f = get_bc m i b f.
Proof.
  intros [_ F]. unfold get_bc. destruct (elems m !! i) as [e|] eqn:E.
  - destruct (Forall2_lookup_l _ _ _ _ _ F E) as (e' & -> & T). assert (Hb : bcs e' = bcs e) by exact (proj1 (turned_bcs _ _ T)). unfold mbind, option_bind. rewrite Hb. done.
  - assert (elems m' !! i = None) as ->; [|done]. apply lookup_ge_None. rewrite <- (Forall2_length _ _ _ F). by apply lookup_ge_None.
Qed.
Lemma turned_alter g i b f m m' : turned_mesh m m' → turned_mesh (alter_bc g i b f m) (alter_bc g i b f m').
Proof.
  intros [S F]. unfold alter_bc. split; [exact S|]. cbn [elems set_elems].
  apply Forall2_same_length_lookup. rewrite !alter_length. split; [by eapply Forall2_length|]. intros k e e' He He'.
  destruct (decide (i = k)) as [<-|Hne].
  - rewrite list_lookup_alter in He, He'. apply fmap_Some in He as (d & Ed & ->). apply fmap_Some in He' as (d' & Ed' & ->).
    pose proof (Forall2_lookup_lr _ _ _ _ _ _ F Ed Ed') as T. unfold alter_ebc. rewrite (proj1 (turned_bcs _ _ T)). by apply turned_set_bcs.
  - rewrite list_lookup_alter_ne in He, He' by done. exact (Forall2_lookup_lr _ _ _ _ _ _ F He He').
Qed.
Lemma turned_fields m m' : turned_mesh m m' → nel m' = nel m ∧ nbc m' = nbc m ∧ ndim m' = ndim m ∧ length (elems m') = length (elems m) ∧ lr1 m' = lr1 m.
Proof.
  intros [S F]. split; [exact (f_equal nel S)|]. split; [exact (f_equal nbc S)|]. split; [exact (f_equal ndim S)|]. split; [symmetry; by eapply Forall2_length|exact (f_equal lr1 S)].
Qed.
Definition same_count (s s' : mesh * Z) : Prop := turned_mesh s.1 s'.1 ∧ s'.2 = s.2.
Definition both {X} (Q : X → X → Prop) (x x' : res X) : Prop :=
  match x, x' with Ok a, Ok a' => Q a a' | Raise e, Raise e' => e' = e | _, _ => False end.
Lemma foldM_both {S B} (Q : S → S → Prop) (f : S → B → res S) s s' l : Q s s' → (∀ s s' b, b ∈ l → Q s s' → both Q (f s b) (f s' b)) → both Q (foldM f s l) (foldM f s' l).
Proof.
  revert s s'. induction l as [|b l IH]; intros s s' H Hf; [exact H|]. cbn [foldM]. pose proof (Hf s s' b ltac:(by left) H) as Hb.
  destruct (f s b), (f s' b); cbn [both rbind] in *; try done. apply IH; [done|]. intros; apply Hf; [by right|done].
Qed.
Lemma upd_both g s s' l : same_count s s' → both same_count (upd_loop (A:=AR) g s l) (upd_loop (A:=AR) g s' l).
Proof.
  intros H. apply foldM_both; [done|]. clear. intros s s' [[i b] f] _ [H1 H2]. unfold upd_step. rewrite (turned_get _ _ i b f H1).
  destruct (get_bc s.1 i b f) as [r|]; cbn [of_opt rbind both]; [|done]. destruct (g (i, b, f) r) as [rd|]; cbn [rbind both]; [|done].
  split; cbn [fst snd]; [by apply turned_alter|congruence].
Qed.
Lemma offset_both off k m m' : turned_mesh m m' → both turned_mesh (offset_connectivity (A:=AR) off k m) (offset_connectivity (A:=AR) off k m').
Proof.
  intros H. destruct (turned_fields _ _ H) as (F1 & F2 & F3 & F4 & _). unfold offset_connectivity. rewrite F2, F3, F4.
  match goal with |- both _ (rbind (upd_loop ?g (m, 0) ?l) _) _ => pose proof (upd_both g (m, 0) (m', 0) l ltac:(by split)) as H1 end.
  destruct (upd_loop _ (m, 0) _) as [s1|], (upd_loop _ (m', 0) _) as [s1'|]; cbn [both rbind] in *; try done.
  match goal with |- both _ (rbind (upd_loop ?g s1 ?l) _) _ => pose proof (upd_both g s1 s1' l H1) as H2 end.
  destruct (upd_loop _ s1 _) as [s2|], (upd_loop _ s1' _) as [s2'|]; cbn [both rbind] in *; try done. apply H2.
Qed.

(** ** check_connectivity *)
Lemma turned_ebc e e' b f : turned e e' → ebc (A:=AR) e' b f = ebc (A:=AR) e b f.
Proof. intros T. unfold ebc. by rewrite (proj1 (turned_bcs _ _ T)). Qed.
Lemma turned_ebc_py e e' b f : turned e e' → ebc_py (A:=AR) e' b f = ebc_py (A:=AR) e b f.
Proof. intros T. unfold ebc_py. by rewrite (proj1 (turned_bcs _ _ T)). Qed.
Lemma turned_nth m m' i : turned_mesh m m' → match elems m !! i, elems m' !! i with Some e, Some e' => turned e e' | None, None => True | _, _ => False end.
Proof. intros [_ F]. pose proof (proj1 (Forall2_lookup turned _ _) F i) as G. by destruct G. Qed.
Lemma foldM_list {S B} (K : B → B → Prop) (f f' : S → B → res S) s l l' : Forall2 K l l' → (∀ s b b', K b b' → f' s b' = f s b) → foldM f' s l' = foldM f s l.
Proof.
  intros F Hf. revert s. induction F as [|b b' l l' Hb F IH]; intros s; [done|]. cbn [foldM]. rewrite (Hf s b b' Hb). destruct (f s b); [apply IH|done].
Qed.
Definition at_same (x x' : (nat * celem) * nat * nat) : Prop := x'.1.1.1 = x.1.1.1 ∧ turned x.1.1.2 x'.1.1.2 ∧ x'.1.2 = x.1.2 ∧ x'.2 = x.2.
Lemma check_face_turned tol m m' err x x' : turned_mesh m m' → at_same x x' → check_face (A:=AR) tol m' err x' = check_face (A:=AR) tol m err x.
Proof.
  intros H. destruct x as [[[iel e] b] f], x' as [[[iel' e'] b'] f']. intros (? & T & ? & ?). cbn [fst snd] in *. subst. unfold check_face.
  rewrite (turned_ebc e e' b f T), (turned_face e e' _ T), (turned_edge e e' T), (proj1 (turned_fields _ _ H)).
  destruct (ebc e b f) as [r|]; cbn [rbind]; [|done]. case_bool_decide; [|done].
  destruct (ntrunc (bp3 r)) as [c|]; cbn [rbind]; [|done]. destruct (ntrunc (bp4 r)) as [cf|]; cbn [rbind]; [|done].
  destruct (face_center e (Z.of_nat f)) as [fc|]; cbn [rmap rbind]; [|done]. destruct (_ || _); [done|].
  pose proof (turned_nth m m' (Z.to_nat (c - 1)) H) as Hn. destruct (elems m !! Z.to_nat (c - 1)) as [d|], (elems m' !! Z.to_nat (c - 1)) as [d'|]; cbn [of_opt rbind]; try done.
  rewrite (turned_ebc_py d d' _ _ Hn), (turned_face d d' _ Hn), (turned_edge d d' Hn). destruct (ebc_py d b (cf - 1)) as [r1|]; cbn [rbind]; [|done].
  destruct (ntrunc (bp3 r1)); cbn [rbind]; [|done]. destruct (ntrunc (bp4 r1)); cbn [rbind]; [|done]. destruct (face_center d (cf - 1)) as [fd|]; cbn [rmap rbind]; [|done].
  destruct (_ || _ || _); [done|]. rewrite spin_dist. done.
Qed.
Lemma enumerate_same m m' : turned_mesh m m' → Forall2 (λ x x' : nat * celem, x'.1 = x.1 ∧ turned x.2 x'.2) (enumerate (elems m)) (enumerate (elems m')).
Proof.
  intros [_ F]. unfold enumerate. apply Forall2_same_length_lookup. rewrite !imap_length. split; [by eapply Forall2_length|]. intros i x x'. rewrite !list_lookup_imap.
  intros (e & He & ->)%fmap_Some_1 (e' & He' & ->)%fmap_Some_1. split; [done|]. exact (Forall2_lookup_lr _ _ _ _ _ _ F He He').
Qed.
Lemma check_turned tol m m' : turned_mesh m m' → check_connectivity (A:=AR) tol m' = check_connectivity (A:=AR) tol m.
Proof.
  intros H. unfold check_connectivity. destruct (turned_fields _ _ H) as (_ & -> & -> & _).
  match goal with |- rbind ?a _ = rbind ?b _ => assert (a = b) as -> end; [|done].
  apply (foldM_list at_same); [|intros; by apply check_face_turned].
  unfold prod3. pose proof (enumerate_same m m' H) as F. induction F as [|[i e] [i' e'] l l' [Hi T] F IH]; [constructor|]. cbn [fst snd] in *. subst i'.
  cbn [mbind list_bind]. apply Forall2_app; [|exact IH]. apply Forall2_same_length_lookup.
  assert (∀ (d : celem), (range (nbc m) ≫= λ b, (λ c, ((i, d), b, c)) <$> range (2 * ndim m)) = (λ '(b, c), ((i, d), b, c)) <$> prod2 (range (nbc m)) (range (2 * ndim m))) as Hp.
  { intros d. unfold prod2. generalize (range (nbc m)) as l1. induction l1 as [|b l1 IH1]; [done|]. cbn [mbind list_bind]. rewrite IH1, fmap_app. f_equal. rewrite <- list_fmap_compose. done. }
  rewrite !Hp, !fmap_length. split; [done|]. intros k x x' Hx Hx'. apply list_lookup_fmap_Some in Hx as ([b c] & Hk & ->). apply list_lookup_fmap_Some in Hx' as ([b' c'] & Hk' & ->).
  assert ((b', c') = (b, c)) as [= -> ->] by congruence. done.
Qed.

(** ** merge *)
Definition same_out (x x' : (mesh * Z) * res unit) : Prop := same_count x.1 x'.1 ∧ x'.2 = x.2.
Lemma loopS_same {B} (f : mesh * Z → B → (mesh * Z) * res unit) s s' l :
  same_count s s' → (∀ s s' b, b ∈ l → same_count s s' → same_out (f s b) (f s' b)) → same_out (loopS f s l) (loopS f s' l).
Proof.
  revert s s'. induction l as [|b l IH]; intros s s' H Hf; [by split|]. cbn [loopS]. destruct (Hf s s' b ltac:(by left) H) as [H1 H2].
  destruct (f s b) as [t r], (f s' b) as [t' r']. cbn [fst snd] in *. subst r'. destruct r; [|by split]. apply IH; [done|]. intros; apply Hf; [by right|done].
Qed.
Lemma close_turned tol e0 e0' f0 e1 e1' f1 : turned e0 e0' → turned e1 e1' → faces_close (A:=AR) tol e0' f0 e1' f1 = faces_close (A:=AR) tol e0 f0 e1 f1.
Proof.
  intros T0 T1. unfold faces_close. rewrite (turned_face _ _ _ T0), (turned_face _ _ _ T1), (turned_edge _ _ T0), (turned_edge _ _ T1).
  destruct (face_center e0 _) as [c0|]; cbn [rmap rbind]; [|done]. destruct (face_center e1 _) as [c1|]; cbn [rmap rbind]; [|done]. by rewrite spin_dist.
Qed.
Lemma foldl_turned {B} (f : mesh → B → mesh) m m' l : turned_mesh m m' → (∀ m m' b, turned_mesh m m' → turned_mesh (f m b) (f m' b)) → turned_mesh (foldl f m l) (foldl f m' l).
Proof. revert m m'. induction l as [|b l IH]; intros m m' H Hf; [done|]. cbn [foldl]. apply IH; [by apply Hf|done]. Qed.
Lemma glue_turned nb i0 f0 i1 f1 m m' : turned_mesh m m' → turned_mesh (glue (A:=AR) nb i0 f0 i1 f1 m) (glue (A:=AR) nb i0 f0 i1 f1 m').
Proof. intros H. apply foldl_turned; [done|]. intros. by apply turned_alter, turned_alter. Qed.
Lemma relink_both nb r0 r1 m m' : turned_mesh m m' → both turned_mesh (relink_periodic (A:=AR) nb r0 r1 m) (relink_periodic (A:=AR) nb r0 r1 m').
Proof.
  intros H. unfold relink_periodic. destruct (turned_fields _ _ H) as (_ & _ & _ & -> & _).
  do 4 (match goal with |- both _ (rbind ?x _) _ => destruct x; cbn [rbind both]; [|done] end).
  repeat (match goal with |- context [match py_pos ?n ?i with _ => _ end] => destruct (py_pos n i); [|done] end).
  cbn [both]. apply foldl_turned; [done|]. intros. by apply turned_alter, turned_alter.
Qed.
Lemma inner_same tol ie nb bc0 i0 f0 s s' x : same_count s s' → same_out (merge_inner (A:=AR) tol ie nb bc0 i0 f0 s x) (merge_inner (A:=AR) tol ie nb bc0 i0 f0 s' x).
Proof.
  destruct s as [m n], s' as [m' n'], x as [i1 f1]. intros [H E]. cbn [fst snd] in *. subst n'. assert (same_count (m, n) (m', n)) as Hs by done. unfold merge_inner. rewrite !(turned_get m m' _ _ _ H).
  pose proof (turned_nth m m' i0 H) as T0. pose proof (turned_nth m m' i1 H) as T1.
  destruct (elems m !! i0) as [e0|], (elems m' !! i0) as [e0'|]; try done. destruct (elems m !! i1) as [e1|], (elems m' !! i1) as [e1'|]; try done.
  destruct (get_bc m i0 0 f0) as [r0|]; [|done]. destruct (get_bc m i1 0 f1) as [r1|]; [|done]. destruct (eligible ie (bt r1)); [|done].
  rewrite (close_turned tol _ _ f0 _ _ f1 T0 T1). destruct (faces_close tol e0 f0 e1 f1) as [[]|]; [|done|done].
  assert (both turned_mesh (if String.eqb bc0 "P" && String.eqb (bt r1) "P" then relink_periodic (A:=AR) nb r0 r1 m else Ok m) (if String.eqb bc0 "P" && String.eqb (bt r1) "P" then relink_periodic (A:=AR) nb r0 r1 m' else Ok m')) as Hb.
  { destruct (_ && _); [by apply relink_both|done]. }
  destruct (if _ && _ then _ else Ok m) as [m1|], (if _ && _ then _ else Ok m') as [m1'|]; cbn [both] in Hb; try done.
  - split; [|done]. split; [by apply glue_turned|done].
  - subst. done.
Qed.
Lemma outer_same tol ie nb n1 nf s s' x : same_count s s' → same_out (merge_outer (A:=AR) tol ie nb n1 nf s x) (merge_outer (A:=AR) tol ie nb n1 nf s' x).
Proof.
  destruct x as [i0 f0]. intros H. unfold merge_outer. rewrite (turned_get _ _ i0 0%nat f0 (proj1 H)). destruct (get_bc s.1 i0 0 f0) as [r|]; [|done].
  destruct (eligible ie (bt r)); [|done]. apply loopS_same; [done|]. intros. by apply inner_same.
Qed.
Lemma append_both m m' o o' : turned_mesh m m' → turned_mesh o o' → both turned_mesh (merge_append (A:=AR) m o) (merge_append (A:=AR) m' o').
Proof.
  intros H Ho. unfold merge_append. rewrite (proj1 (turned_fields _ _ H)). pose proof (offset_both (Z.of_nat (nel m)) 0 o o' Ho) as Hb.
  destruct (offset_connectivity _ _ o) as [a|], (offset_connectivity _ _ o') as [a'|]; cbn [both rbind] in *; try done.
  destruct H as [S F], Ho as [So _], Hb as [_ Fa]. split; [|cbn [elems set_elems]; by apply Forall2_app].
  pose proof (f_equal nel So) as E1. pose proof (f_equal ncurv So) as E2. pose proof (f_equal elmap So) as E3. pose proof (f_equal elmap S) as E4. pose proof (f_equal ncurv S) as E5.
  cbn [nel ncurv elmap set_elems] in *. rewrite E1, E2, E3, E4, E5.
  exact (f_equal (λ h : mesh, set_elmap (elmap m ++ ((λ z, z + Z.of_nat (nel m)) <$> elmap o)) (set_ncurv (ncurv m + ncurv o) (set_nel (nel m + nel o)%nat h))) S).
Qed.
Lemma merge_turned tol ie ia m m' o o' : turned_mesh m m' → turned_mesh o o' →
  turned_mesh (merge (A:=AR) tol ie ia m o).1 (merge (A:=AR) tol ie ia m' o').1 ∧ (merge (A:=AR) tol ie ia m' o').2 = (merge (A:=AR) tol ie ia m o).2.
Proof.
  intros H Ho. unfold merge. destruct (turned_fields _ _ H) as (-> & -> & -> & _ & ->). destruct (turned_fields _ _ Ho) as (_ & -> & -> & _ & ->).
  destruct (negb _); [done|]. destruct (lr1 m) as [|l1 ?]; [done|]. destruct (lr1 o) as [|l2 ?]; [done|]. destruct (negb _); [done|].
  pose proof (append_both m m' o o' H Ho) as Hb. destruct (merge_append m o) as [a|], (merge_append m' o') as [a'|]; cbn [both] in Hb; try done; [|by subst].
  destruct (_ || _); [done|]. destruct (turned_fields _ _ Hb) as (-> & _ & -> & _).
  match goal with |- context [loopS ?f (a, 0) ?l] => assert (same_out (loopS f (a, 0) l) (loopS f (a', 0) l)) as Hl by (apply loopS_same; [by split|]; intros; by apply outer_same); destruct (loopS f (a, 0) l) as [[t n] r]; destruct (loopS f (a', 0) l) as [[t' n'] r'] end.
  destruct Hl as [[Ht Hn] Hr]. cbn [fst snd] in *. subst r' n'. by destruct r.
Qed.

(** ** generate_internal_bcs *)
Lemma mapR_list {B C} (K : B → B → Prop) (f f' : B → res C) l l' : Forall2 K l l' → (∀ b b', K b b' → f' b' = f b) → mapR f' l' = mapR f l.
Proof. intros F Hf. induction F as [|b b' l l' Hb F IH]; [done|]. cbn [mapR]. by rewrite (Hf b b' Hb), IH. Qed.
Lemma mapR_rmap {B C} (h : C → C) (f f' : B → res C) l : (∀ b, b ∈ l → f' b = rmap h (f b)) → mapR f' l = rmap (map h) (mapR f l).
Proof.
  intros Hf. induction l as [|b l IH]; [done|]. cbn [mapR]. rewrite (Hf b ltac:(by left)), IH by (intros; apply Hf; by right). destruct (f b); [|done]. cbn [rmap rbind]. by destruct (mapR f l).
Qed.
Lemma scales_turned m m' : turned_mesh m m' → gib_scales (A:=AR) m' = gib_scales (A:=AR) m.
Proof. intros [_ F]. unfold gib_scales. apply (mapR_list turned _ _ _ _ F). intros e e' T. by rewrite (turned_edge _ _ T). Qed.
Definition spin_b (x : R * R * R * bool) : R * R * R * bool := (spin x.1, x.2).
Lemma centres_turned m m' : turned_mesh m m' → gib_centres (A:=AR) m' = rmap (map (map spin_b)) (gib_centres (A:=AR) m).
Proof.
  intros H. unfold gib_centres. destruct (turned_fields _ _ H) as (-> & _ & -> & _). apply (mapR_rmap (map spin_b)). intros i _.
  pose proof (turned_nth m m' i H) as T. destruct (elems m !! i) as [e|], (elems m' !! i) as [e'|]; cbn [of_opt rbind]; try done.
  apply (mapR_rmap spin_b). intros f _. rewrite (turned_face _ _ _ T), (turned_ebc _ _ _ _ T). destruct (face_center e _) as [c|]; cbn [rmap rbind]; [|done]. by destruct (ebc e 0 f).
Qed.
Lemma gclose_turned tol sc (fc : list (list (R * R * R))) i1 f1 i2 f2 : gib_close (A:=AR) tol sc (map (map spin) fc) i1 f1 i2 f2 = gib_close (A:=AR) tol sc fc i1 f1 i2 f2.
Proof.
  unfold gib_close. destruct (sc !! i1) as [s1|]; [|done]. destruct (sc !! i2) as [s2|]; [|done].
  assert (∀ i f, (map (map spin) fc !! i ≫= (.!! f)) = spin <$> (fc !! i ≫= (.!! f))) as Hl.
  { intros i f. change (map (map spin) fc) with (map spin <$> fc). rewrite list_lookup_fmap. destruct (fc !! i) as [row|]; [|done]. cbn [fmap option_fmap option_map mbind option_bind]. change (map spin row) with (spin <$> row). by rewrite list_lookup_fmap. }
  change (num AR) with R in *. rewrite !Hl. destruct (fc !! i1 ≫= (.!! f1)) as [c1|]; [|done]. destruct (fc !! i2 ≫= (.!! f2)) as [c2|]; [|done].
  cbn [fmap option_fmap option_map]. pose proof (spin_dist c1 c2) as E. change (num AR) with R in *. by rewrite E.
Qed.
Definition same_gib (s s' : gib_state (A:=AR)) : Prop := turned_mesh s.1.1 s'.1.1 ∧ s'.1.2 = s.1.2 ∧ s'.2 = s.2.
Lemma search_turned tol sc fc i1 f1 l s s' : same_gib s s' → same_gib (gib_search (A:=AR) tol sc fc i1 f1 s l) (gib_search (A:=AR) tol sc (map (map spin) fc) i1 f1 s' l).
Proof.
  revert s s'. induction l as [|[i2 f2] l IH]; intros [[m lc] n] [[m' lc'] n'] H; [done|]. cbn [gib_search]. rewrite gclose_turned. destruct H as (H & E1 & E2). cbn [fst snd] in *. subst lc' n'.
  destruct (_ && _); [|by apply IH]. destruct (turned_fields _ _ H) as (_ & -> & _). split; [|done]. cbn [fst snd]. apply foldl_turned; [done|]. intros. by apply turned_alter, turned_alter.
Qed.
Lemma generate_turned tol m m' : turned_mesh m m' → both same_count (generate_internal_bcs (A:=AR) tol m) (generate_internal_bcs (A:=AR) tol m').
Proof.
  intros H. unfold generate_internal_bcs. destruct (turned_fields _ _ H) as (-> & _ & -> & -> & _). destruct (negb _); [done|]. rewrite (scales_turned m m' H), (centres_turned m m' H).
  destruct (gib_scales m) as [sc|]; cbn [rbind both]; [|done]. destruct (gib_centres m) as [tab|]; cbn [rmap rbind both]; [|done].
  assert ((λ row : list (R * R * R * bool), row.*1) <$> map (map spin_b) tab = map (map spin) ((λ row : list (R * R * R * bool), row.*1) <$> tab)) as E1.
  { clear. induction tab as [|row tab IH]; [done|]. cbn [map fmap list_fmap]. f_equal; [|exact IH]. clear. induction row as [|x row IH]; [done|]. cbn [map fmap list_fmap]. f_equal. exact IH. }
  assert ((λ row : list (R * R * R * bool), row.*2) <$> map (map spin_b) tab = (λ row : list (R * R * R * bool), row.*2) <$> tab) as E2.
  { clear. induction tab as [|row tab IH]; [done|]. cbn [map fmap list_fmap]. f_equal; [|exact IH]. clear. induction row as [|x row IH]; [done|]. cbn [map fmap list_fmap]. f_equal. exact IH. }
  change (num AR) with R in *. rewrite E1, E2. clear E1 E2.
  match goal with |- context [foldl ?f (m, ?lc, 0) ?l] => match goal with |- context [foldl ?f' (m', lc, 0) l] =>
    assert (∀ s s', same_gib s s' → same_gib (foldl f s l) (foldl f' s' l)) as Hg; [|specialize (Hg (m, lc, 0) (m', lc, 0) ltac:(done)); destruct (foldl f (m, lc, 0) l) as [[t c] n]; destruct (foldl f' (m', lc, 0) l) as [[t' c'] n']] end end.
  - induction (prod2 (range (nel m)) (range (2 * ndim m))) as [|[i1 f1] l IH]; intros [[t c] n] [[t' c'] n'] H0; [done|]. cbn [foldl]. apply IH. pose proof H0 as (_ & E1 & _). cbn [fst snd] in *. subst c'. destruct (lc_get _ _ _); [done|]. by apply search_turned.
  - destruct Hg as (G1 & _ & G3). by split.
Qed.
Lemma delete_turned m m' : turned_mesh m m' → both same_count (delete_internal_bcs (A:=AR) m) (delete_internal_bcs (A:=AR) m').
Proof. intros H. unfold delete_internal_bcs. destruct (turned_fields _ _ H) as (_ & -> & _ & -> & _). by apply upd_both. Qed.
End rigid.
