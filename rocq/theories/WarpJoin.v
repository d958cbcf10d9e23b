(** Mapping keeps the ends of connected sides together, and so the mesh valid. *)
From Coq Require Import Lia Reals Lra.
From Verif Require Import Base Mesh MeshLemmas MeshSpec CheckProofs Core Tools Float FloatLaws GeoLaws Curve CurveSpec CurveProofs MergeSpec ExtrudeSpec WarpSpec.
Open Scope Z_scope.

Section join.
Context {A : arith}.
Notation N := (num A).
Implicit Types (m : hexa N) (e : elem N).

Lemma side_ends_Some e f : eshape e = (2, 2, 1)%nat → wf_geom_elem e → ∃ p q, first_end e f = Some p ∧ second_end e f = Some q.
Proof.
  intros Hs Hw. assert (∀ a b, (a < 2)%nat → (b < 2)%nat → ∃ p, point e 0 a b = Some p) as H.
  { intros a b Ha Hb. by apply (point_Some e 0 a b 2 2 1 Hw Hs); lia. }
  unfold first_end, second_end. destruct f as [|[|[|f]]]; cbn [side_points];
    match goal with |- ∃ p q, point e 0 ?a ?b = _ ∧ point e 0 ?c ?d = _ => destruct (H a b ltac:(lia) ltac:(lia)) as [p Hp]; destruct (H c d ltac:(lia) ltac:(lia)) as [q Hq]; by exists p, q end.
Qed.
Lemma centre2d e f x y z x' y' z' : eshape e = (2, 2, 1)%nat → (f < 4)%nat → first_end e f = Some (x, y, z) → second_end e f = Some (x', y', z') →
  face_center e (Z.of_nat f) = Ok (mean4 x x x' x', mean4 y y y' y', mean4 z z z' z').
Proof.
  intros Hs Hf. unfold first_end, second_end, face_center.
  assert (∀ kx ky kz, point_py e kz ky kx = match py_pos 1 kz, py_pos 2 ky, py_pos 2 kx with Some z, Some y, Some x => of_opt IndexError (point e z y x) | _, _, _ => Raise IndexError end) as H.
  { intros. unfold point_py. by rewrite Hs. }
  destruct f as [|[|[|[|f]]]]; [| | | |lia]; cbn [side_points]; intros H1 H2;
    match goal with |- context [face_corners ?z] => let c := eval vm_compute in (face_corners z) in change (face_corners z) with c end; cbn [mapR]; rewrite !H;
    repeat match goal with |- context [py_pos ?n ?z] => let c := eval vm_compute in (py_pos n z) in change (py_pos n z) with c end; cbv beta iota; rewrite H1, H2; cbn [of_opt rbind]; reflexivity.
Qed.
Lemma along_centre e f e' g : eshape e = (2, 2, 1)%nat → eshape e' = (2, 2, 1)%nat → wf_geom_elem e → (f < 4)%nat → (g < 4)%nat →
  along e f e' g → face_center e (Z.of_nat f) = face_center e' (Z.of_nat g).
Proof.
  intros Hs Hs' Hw Hf Hg [H1 H2]. destruct (side_ends_Some e f Hs Hw) as ([[x y] z] & [[x' y'] z'] & P & Q).
  rewrite (centre2d e f _ _ _ _ _ _ Hs Hf P Q). rewrite P in H1. rewrite Q in H2. by rewrite (centre2d e' g _ _ _ _ _ _ Hs' Hg (eq_sym H1) (eq_sym H2)).
Qed.
Lemma joined_coincident m : ndim m = 2%nat → wf_mesh m → (∀ e, e ∈ elems m → eshape e = (2, 2, 1)%nat) → joined along m → coincident m.
Proof.
  intros Hd [_ Hw] Hs HJ i b f r j g e e' Hi Hr HE Hj Hp He He'. pose proof (elem_of_list_lookup_2 _ _ _ He). pose proof (elem_of_list_lookup_2 _ _ _ He').
  apply along_centre; [by apply Hs|by apply Hs|by apply Hw| | |by eapply HJ]; [destruct Hi as (_ & _ & Hi)|clear Hi; destruct Hj as (_ & _ & Hi)]; rewrite Hd in Hi; exact Hi.
Qed.
(** Coincident faces of a paired mesh are valid. *)
Lemma coincident_valid bnd m tol : arith_laws A bnd → geo_laws A → wf_mesh m → paired m → coincident m → Z.of_nat (nel m) <= bnd → 6 <= bnd →
  nleb (nofZ 0) tol = true → valid_connectivity tol m.
Proof.
  intros LA LG Hw HP HC Hb H6 Ht i b f r Hin Hr Hc. destruct (HP i b f r Hin Hr Hc) as (j & g & r' & Hj & Hp & Hr' & Ht' & Hp').
  assert (f < 6)%nat as Hf6 by (destruct Hin as (_ & _ & Hf); destruct Hw as [([D|D] & _) _]; rewrite D in Hf; lia).
  assert (g < 6)%nat as Hg6 by (destruct Hj as (_ & _ & Hf); destruct Hw as [([D|D] & _) _]; rewrite D in Hf; lia).
  assert (∀ (r : bcrec N) i f, (i < nel m)%nat → (f < 6)%nat → points r i f → names r i f) as Hpn.
  { intros r0 i0 f0 Hi0 Hf0 [E3 E4]. unfold names. rewrite E3, E4. split; apply (law_trunc A bnd LA); lia. }
  exists j, g, r'. split; [split; [apply Hj|done]|]. split; [apply Hpn; [apply Hj|done|done]|]. split; [done|]. split; [done|]. split; [apply Hpn; [apply Hin|done|done]|].
  intros HE. pose proof Hw as [(_ & Hl & _) Hg]. destruct (lookup_lt_is_Some_2 (elems m) i) as [e He]; [rewrite Hl; apply Hin|].
  destruct (lookup_lt_is_Some_2 (elems m) j) as [e' He']; [rewrite Hl; apply Hj|].
  pose proof (elem_of_list_lookup_2 _ _ _ He) as Hin1. pose proof (elem_of_list_lookup_2 _ _ _ He') as Hin2.
  destruct (smallest_edge_Ok e (Hg e Hin1)) as [s Hse]. destruct (smallest_edge_Ok e' (Hg e' Hin2)) as [s1 Hse1].
  destruct (face_center_Ok e (Z.of_nat f) (Hg e Hin1) ltac:(lia)) as [c Ec]. pose proof (HC i b f r j g e e' Hin Hr HE Hj Hp He He') as Ecc. rewrite Ec in Ecc.
  exists e, e', c, c, s, s1. split_and!; [done|done|done|done|done|done|].
  destruct (smallest_edge_sqrt _ _ Hse) as [x ->]. destruct (smallest_edge_sqrt _ _ Hse1) as [x1 ->]. by apply (geo_self A LG).
Qed.

(** ** What mapping does *)
Section map.
Context (f : N → N → N * N) (cv bcv : bool).
Definition image (p : N * N * N) : N * N * N := let '(x, y, z) := p in ((f x y).1, (f x y).2, z).
Lemma map_vertices_wf e me : element2d e → foldM (map_vertex f e) e (prod2 (range 2) (range 2)) = Ok me → wf_geom_elem me.
Proof.
  intros (Hs & Hp & Hc & _) E. 
  assert (∀ l me0 me, eshape me0 = (2, 2, 1)%nat → length (pos me0) = 3%nat → (∀ c, c ∈ pos me0 → length c = 4%nat) → foldM (map_vertex f e) me0 l = Ok me →
    eshape me = (2, 2, 1)%nat ∧ length (pos me) = 3%nat ∧ ∀ c, c ∈ pos me → length c = 4%nat) as H.
  { clear. induction l as [|[i j] l IH]; intros me0 me H1 H2 H3; cbn [foldM]; [intros [= <-]; done|].
    destruct (map_vertex f e me0 (i, j)) as [me1|] eqn:E1; cbn [rbind]; [|discriminate]. unfold map_vertex in E1.
    destruct (of_opt _ _) as [[[x y] z]|] in E1; cbn [rbind] in E1; [|discriminate]. destruct (f x y) as [a b]. injection E1 as <-.
    apply IH; unfold put_xy; cbn [set_pos eshape pos]; [done|by rewrite !alter_length|].
    intros c Hc. apply elem_of_list_lookup in Hc as [k Hk]. 
    assert (∀ (k : nat) (c : list N) (p : nat) (v : N) (q : nat) (ps : list (list N)), (∀ c, c ∈ ps → length c = 4%nat) → alter (<[p := v]>) q ps !! k = Some c → length c = 4%nat) as HA.
    { clear. intros k c p v q ps H Hk. destruct (decide (q = k)) as [->|Hq].
      - rewrite list_lookup_alter in Hk. apply fmap_Some in Hk as (c0 & H0 & ->). rewrite insert_length. apply H. by eapply elem_of_list_lookup_2.
      - rewrite list_lookup_alter_ne in Hk by done. apply H. by eapply elem_of_list_lookup_2. }
    eapply HA; [|exact Hk]. intros c1 Hc1. apply elem_of_list_lookup in Hc1 as [k1 Hk1]. eapply HA; [|exact Hk1]. exact H3. }
  destruct (H _ _ _ Hs Hp Hc E) as (H1 & H2 & H3). exists 2%nat, 2%nat, 1%nat. split; [done|]. split; [lia|]. split; [done|]. intros c Hc0. rewrite (H3 c Hc0). done.
Qed.
Lemma map_elem_wf e el me : element2d e → map_elem f cv bcv e = Ok (el, me) → wf_geom_elem me.
Proof.
  intros He. destruct (map_vertices_ok f e He) as (me0 & E0 & F0 & P0). unfold map_elem. rewrite E0. cbn [rbind].
  destruct (map_edges_ok f cv bcv e me0 4 He) as ([el' me'] & E & D1 & D2 & _); [by rewrite F0|by rewrite F0|done|]. rewrite E. intros [= -> ->].
  pose proof (map_vertices_wf e me0 He E0) as (lx & ly & lz & W). rewrite D2. by exists lx, ly, lz.
Qed.

Lemma map2D_result m : (∀ e, e ∈ elems m → element2d e) →
  ∃ m0 m', map2D m f cv bcv = Ok (m0, m') ∧ m' = set_elems (elems m') m ∧ length (elems m') = length (elems m) ∧
    ∀ i e', elems m' !! i = Some e' → ∃ e, elems m !! i = Some e ∧ same_data e e' ∧ wf_geom_elem e' ∧ length (ccurv e') = 12%nat ∧ length (curv e') = 12%nat ∧
      ∀ j k p, point e 0 j k = Some p → point e' 0 j k = Some (image p).
Proof.
  intros H. unfold map2D.
  assert (∃ l, mapR (map_elem f cv bcv) (elems m) = Ok l ∧
    Forall2 (λ e p, same_data e p.2 ∧ wf_geom_elem p.2 ∧ length (ccurv p.2) = 12%nat ∧ length (curv p.2) = 12%nat ∧ ∀ j k q, point e 0 j k = Some q → point p.2 0 j k = Some (image q)) (elems m) l) as (l & E & F).
  { induction (elems m) as [|e es IH]; [by exists []|]. destruct IH as (l & E & F); [intros e' He'; apply H; by constructor|].
    assert (element2d e) as He by (apply H; constructor).
    destruct (map_elem_ok f cv bcv e) as (el & me & Ee & (M1 & M2 & M3 & M4 & _) & _); [done|]. exists ((el, me) :: l). split.
    - cbn [mapR]. rewrite Ee. cbn [rbind]. by rewrite E.
    - constructor; [|done]. cbn [snd]. split; [done|]. split; [by eapply map_elem_wf|]. split; [done|]. split; [done|]. intros j k [[x y] z]. apply M4. }
  rewrite E. cbn [rbind]. eexists _, _. split; [reflexivity|]. cbn [set_elems elems]. split; [done|].
  split; [rewrite fmap_length; symmetry; by eapply Forall2_length|]. intros i e' He'.
  apply list_lookup_fmap_Some in He' as (p & Hl & ->). destruct (Forall2_lookup_r _ _ _ _ _ F Hl) as (e & He & M). by exists e.
Qed.

Context (m m' : hexa N) (Hs : ∀ e, e ∈ elems m → eshape e = (2, 2, 1)%nat) (Hw : wf_mesh m).
Context (Hm : m' = set_elems (elems m') m) (Hl : length (elems m') = length (elems m))
  (He : ∀ i e', elems m' !! i = Some e' → ∃ e, elems m !! i = Some e ∧ same_data e e' ∧ wf_geom_elem e' ∧ length (ccurv e') = 12%nat ∧ length (curv e') = 12%nat ∧
      ∀ j k p, point e 0 j k = Some p → point e' 0 j k = Some (image p)).
Lemma map_fields : ndim m' = ndim m ∧ nel m' = nel m ∧ nbc m' = nbc m ∧ lr1kind m' = lr1kind m ∧ lr1 m' = lr1 m ∧ var m' = var m.
Proof using Hm. by rewrite Hm. Qed.
Lemma map_get i b g : get_bc m' i b g = get_bc m i b g.
Proof using He Hl.
  unfold get_bc. destruct (elems m' !! i) as [e'|] eqn:E.
  - destruct (He i e' E) as (e & -> & (_ & _ & _ & _ & _ & Hb) & _). cbn. by rewrite Hb.
  - assert (elems m !! i = None) as -> by (apply lookup_ge_None in E; apply lookup_ge_None; lia). done.
Qed.
Lemma map_in i b g : in_mesh m' i b g ↔ in_mesh m i b g.
Proof using Hm. destruct map_fields as (F1 & F2 & F3 & _). unfold in_mesh. by rewrite F1, F2, F3. Qed.
Lemma map_wf : wf_mesh m'.
Proof using He Hl Hm Hw.
  destruct Hw as [(B1 & B2 & B3) Wg]. destruct map_fields as (F1 & F2 & F3 & _). split.
  - unfold wf_bcs. rewrite F1, F2, F3. split; [done|]. split; [by rewrite Hl|]. intros e' H'. apply elem_of_list_lookup in H' as [i Hi].
    destruct (He i e' Hi) as (e & Ee & (_ & _ & _ & _ & _ & Hb) & _). rewrite Hb. apply B3. by eapply elem_of_list_lookup_2.
  - intros e' H'. apply elem_of_list_lookup in H' as [i Hi]. by destruct (He i e' Hi) as (e & Ee & _ & W & _).
Qed.
Lemma map_shape e' : e' ∈ elems m' → eshape e' = (2, 2, 1)%nat.
Proof using He Hs.
  intros H'. apply elem_of_list_lookup in H' as [i Hi]. destruct (He i e' Hi) as (e & Ee & (Hb & _) & _). rewrite Hb. apply Hs. by eapply elem_of_list_lookup_2.
Qed.
Lemma map_paired : paired m → paired m'.
Proof using He Hl Hm.
  intros P i b g r Hi Hr Hc. rewrite map_get in Hr. apply map_in in Hi. destruct (P i b g r Hi Hr Hc) as (j & h & r' & Hj & H1 & H2 & H3). exists j, h, r'. rewrite map_get. split; [by apply map_in|done].
Qed.
Lemma map_connected : connected_mesh m → connected_mesh m'.
Proof using He Hl Hm Hw.
  intros (_ & P & U & NS). split; [exact map_wf|]. split; [by apply map_paired|]. split.
  - intros i b g r r0 Hi Hr Hr0. rewrite map_get in Hr, Hr0. apply map_in in Hi. by eapply U.
  - intros x r Hi Hr. rewrite map_get in Hr. apply map_in in Hi. by apply NS.
Qed.
Lemma map_ends i g e e' : elems m !! i = Some e → elems m' !! i = Some e' → first_end e' g = image <$> first_end e g ∧ second_end e' g = image <$> second_end e g.
Proof using He Hs Hw.
  intros Ee Ee'. destruct (He i e' Ee') as (e0 & E0 & _ & _ & _ & _ & HP). rewrite Ee in E0. apply (inj Some) in E0 as <-.
  pose proof (elem_of_list_lookup_2 _ _ _ Ee) as Hin. destruct (side_ends_Some e g (Hs e Hin) (proj2 Hw e Hin)) as (p & q & P & Q). rewrite P, Q. cbn [fmap option_fmap option_map].
  unfold first_end, second_end in *. destruct (side_points g) as [[a b] [c d]]. split; by apply HP.
Qed.
Lemma map_joined : joined along m → joined along m'.
Proof using He Hs Hw Hl Hm.
  intros J i b g r j h e1 e1' Hi Hr HE Hj Hp E1 E1'. rewrite map_get in Hr. apply map_in in Hi. apply map_in in Hj.
  destruct (He i e1 E1) as (e & Ee & _). destruct (He j e1' E1') as (e' & Ee' & _).
  destruct (J i b g r j h e e' Hi Hr HE Hj Hp Ee Ee') as [H1 H2]. destruct (map_ends i g e e1 Ee E1) as [Q1 Q2]. destruct (map_ends j h e' e1' Ee' E1') as [Q3 Q4].
  unfold along. by rewrite Q1, Q2, Q3, Q4, H1, H2.
Qed.
Lemma map_joined_either : joined along_or_against m → joined along_or_against m'.
Proof using He Hs Hw Hl Hm.
  intros J i b g r j h e1 e1' Hi Hr HE Hj Hp E1 E1'. rewrite map_get in Hr. apply map_in in Hi. apply map_in in Hj.
  destruct (He i e1 E1) as (e & Ee & _). destruct (He j e1' E1') as (e' & Ee' & _).
  destruct (map_ends i g e e1 Ee E1) as [Q1 Q2]. destruct (map_ends j h e' e1' Ee' E1') as [Q3 Q4].
  destruct (J i b g r j h e e' Hi Hr HE Hj Hp Ee Ee') as [[H1 H2]|[H1 H2]]; [left; unfold along|right]; by rewrite Q1, Q2, Q3, Q4, H1, H2.
Qed.
Lemma map_linear : linear2d m → linear2d m'.
Proof using He Hm Hs.
  intros (L1 & L2 & L3 & L4 & L5). destruct map_fields as (F1 & F2 & F3 & F4 & F5 & F6). unfold linear2d. rewrite F1, F4, F5, F6. repeat (split; [done|]).
  intros e' H'. split; [by apply map_shape|]. apply elem_of_list_lookup in H' as [i Hi]. by destruct (He i e' Hi) as (e & _ & _ & _ & H1 & H2 & _).
Qed.
End map.
End join.

(** Over the real numbers the order of the ends does not matter. *)
Lemma either_centre (e e' : elem R) f g : eshape e = (2, 2, 1)%nat → eshape e' = (2, 2, 1)%nat → wf_geom_elem (A:=AR) e → (f < 4)%nat → (g < 4)%nat →
  along_or_against (A:=AR) e f e' g → face_center (A:=AR) e (Z.of_nat f) = face_center (A:=AR) e' (Z.of_nat g).
Proof.
  intros Hs Hs' Hw Hf Hg [H|[H1 H2]]; [by apply (along_centre (A:=AR))|]. destruct (side_ends_Some (A:=AR) e f Hs Hw) as ([[x y] z] & [[x' y'] z'] & P & Q).
  rewrite (centre2d (A:=AR) e f _ _ _ _ _ _ Hs Hf P Q). rewrite (centre2d (A:=AR) e' g _ _ _ _ _ _ Hs' Hg (eq_trans (eq_sym H2) Q) (eq_trans (eq_sym H1) P)).
  unfold mean4. cbn. f_equal. f_equal; [f_equal|]; ring.
Qed.
Lemma joined_either_coincident (m : hexa R) : ndim m = 2%nat → wf_mesh (A:=AR) m → (∀ e, e ∈ elems m → eshape e = (2, 2, 1)%nat) → joined (A:=AR) (along_or_against (A:=AR)) m → coincident (A:=AR) m.
Proof.
  intros Hd [_ Hw] Hs HJ i b f r j g e e' Hi Hr HE Hj Hp He He'. pose proof (elem_of_list_lookup_2 _ _ _ He). pose proof (elem_of_list_lookup_2 _ _ _ He').
  apply either_centre; [by apply Hs|by apply Hs|by apply Hw| | |by eapply HJ]; [destruct Hi as (_ & _ & Hi)|clear Hi; destruct Hj as (_ & _ & Hi)]; change (num AR) with R in Hi; rewrite Hd in Hi; exact Hi.
Qed.
