(** extrude over the real numbers: face distances and shortest measured edges of the swept elements. *)
From Coq Require Import Lia Reals Lra.
From Verif Require Import Base Mesh Core Tools Float FloatLaws MeshLemmas MeshSpec CheckProofs OpsProofs GeoLaws ElemProofs ExtrudeSpec ExtrudeProofs.
Open Scope Z_scope.

(** The distance of two points in the plane. *)
Definition plane_dist (p q : R * R * R) : R := R_sqrt.sqrt ((p.1.1 - q.1.1) ^ 2 + (p.1.2 - q.1.2) ^ 2).
(** All points of the element have the same z. *)
Definition planar (e : elem R) : Prop := ∀ ky kx ky' kx' p p', point e 0 ky kx = Some p → point e 0 ky' kx' = Some p' → p.2 = p'.2.

Lemma slab_vertex e2 z1 z2 e v x y z : is_slab (A:=AR) e2 z1 z2 e → (v < 4)%nat → vertex e2 v = Some (x, y, z) →
  vertex e v = Some (x, y, z1) ∧ vertex e (v + 4) = Some (x, y, z2).
Proof.
  intros (_ & _ & H & _) Hv Hx. unfold vertex in *.
  assert (v / 4 = 0 ∧ (v + 4) / 4 = 1 ∧ ((v + 4) / 2) mod 2 = (v / 2) mod 2 ∧ (v + 4) mod 2 = v mod 2)%nat as (E1 & E2 & E3 & E4).
  { destruct v as [|[|[|[|v]]]]; [done..|lia]. }
  rewrite E1 in *. rewrite E2, E3, E4. by eapply H.
Qed.
Lemma vertex_four e2 : wf_geom_elem (A:=AR) e2 → eshape e2 = (2,2,1)%nat → ∀ v, (v < 4)%nat → ∃ p, vertex e2 v = Some p.
Proof.
  intros Hw Es v Hv. unfold vertex. apply (point_Some (A:=AR) e2 _ _ _ 2 2 1 Hw Es).
  all: destruct v as [|[|[|[|v]]]]; cbn; lia.
Qed.

Ltac listed := unfold measured2, measured3; repeat (first [apply elem_of_list_here|apply elem_of_list_further]).
Lemma slab_edge e2 z1 z2 e s2 s : wf_geom_elem (A:=AR) e2 → eshape e2 = (2,2,1)%nat → planar e2 → is_slab (A:=AR) e2 z1 z2 e →
  smallest_of e2 measured2 s2 → smallest_of e measured3 s → s = Rmin s2 (Rabs (z2 - z1)).
Proof.
  intros Hw Es Hpl Hsl [(u & v & p & q & Huv & Hp & Hq & E) Hle] [(u' & v' & p' & q' & Huv' & Hp' & Hq' & E') Hle'].
  pose proof (vertex_four e2 Hw Es) as H4.
  assert (∀ u v p q, (u < 4)%nat → (v < 4)%nat → vertex e2 u = Some p → vertex e2 v = Some q → p.2 = q.2) as Hz.
  { intros a b pa pb Ha Hb Ea Eb. unfold vertex in Ea, Eb.
    replace (a / 4)%nat with 0%nat in Ea by (destruct a as [|[|[|[|a]]]]; [done..|lia]).
    replace (b / 4)%nat with 0%nat in Eb by (destruct b as [|[|[|[|b]]]]; [done..|lia]).
    by eapply Hpl. }
  assert (∀ u v, (u, v) ∈ measured2 → (u < 4 ∧ v < 4)%nat) as Hm2.
  { intros a b Hab. unfold measured2 in Hab. rewrite !elem_of_cons, elem_of_nil in Hab.
    destruct Hab as [[= -> ->]|[[= -> ->]|[[= -> ->]|[[= -> ->]|[]]]]]; lia. }
  (* the swept element has the edges of the flat one, twice *)
  assert (∀ u v p q, (u, v) ∈ measured2 → vertex e2 u = Some p → vertex e2 v = Some q →
    ∃ p' q', vertex e u = Some p' ∧ vertex e v = Some q' ∧ distR p' q' = distR p q ∧
      ∃ p'' q'', vertex e (u + 4) = Some p'' ∧ vertex e (v + 4) = Some q'' ∧ distR p'' q'' = distR p q) as Hflat.
  { intros a b [[x y] w] [[x' y'] w'] Hab Ha Hb. destruct (Hm2 _ _ Hab) as [La Lb].
    destruct (slab_vertex e2 z1 z2 e a x y w Hsl La Ha) as [A1 A2]. destruct (slab_vertex e2 z1 z2 e b x' y' w' Hsl Lb Hb) as [B1 B2].
    pose proof (Hz _ _ _ _ La Lb Ha Hb) as Ew. cbn in Ew. subst w'.
    exists (x, y, z1), (x', y', z1). split; [done|]. split; [done|]. split; [unfold distR; f_equal; ring|].
    exists (x, y, z2), (x', y', z2). split; [done|]. split; [done|]. unfold distR. f_equal. ring. }
  assert (∀ v p q, (v < 4)%nat → vertex e v = Some p → vertex e (v + 4) = Some q → distR p q = Rabs (z2 - z1)) as Hup.
  { intros a pa pb La Ha Hb. destruct (H4 a La) as [[[x y] w] Hx]. destruct (slab_vertex e2 z1 z2 e a x y w Hsl La Hx) as [A1 A2].
    rewrite A1 in Ha. rewrite A2 in Hb. apply (inj Some) in Ha as <-. apply (inj Some) in Hb as <-.
    unfold distR. rewrite <- R_sqrt.sqrt_Rsqr_abs. f_equal. unfold Rsqr. ring. }
  apply Rle_antisym.
  - apply Rmin_glb.
    + destruct (Hflat u v p q Huv Hp Hq) as (pa & qa & Ha & Hb & Ed & _). rewrite E, <- Ed.
      apply (Hle' u v); [|done|done]. clear -Huv. unfold measured2 in Huv. rewrite !elem_of_cons, elem_of_nil in Huv.
      destruct Huv as [[= -> ->]|[[= -> ->]|[[= -> ->]|[[= -> ->]|[]]]]]; listed.
    + destruct (H4 0%nat ltac:(lia)) as [[[x y] w] Hx]. destruct (slab_vertex e2 z1 z2 e 0 x y w Hsl ltac:(lia) Hx) as [A1 A2].
      rewrite <- (Hup 0%nat _ _ ltac:(lia) A1 A2). apply (Hle' 0%nat 4%nat); [listed|done|exact A2].
  - rewrite E'. assert ((∃ a b, (a, b) ∈ measured2 ∧ ((u', v') = (a, b) ∨ (u', v') = (a + 4, b + 4))) ∨ ∃ a, a < 4 ∧ (u', v') = (a, a + 4))%nat as Hcases.
    { clear -Huv'. unfold measured3 in Huv'. rewrite !elem_of_cons, elem_of_nil in Huv'.
      destruct Huv' as [H|[H|[H|[H|[H|[H|[H|[H|[H|[H|[H|[H|[]]]]]]]]]]]]]; injection H as -> ->.
      all: first [right; exists 0%nat; split; [lia|reflexivity] | right; exists 1%nat; split; [lia|reflexivity] |
        right; exists 2%nat; split; [lia|reflexivity] | right; exists 3%nat; split; [lia|reflexivity] | left].
      - exists 0%nat, 1%nat. split; [listed|by left].
      - exists 1%nat, 2%nat. split; [listed|by left].
      - exists 2%nat, 3%nat. split; [listed|by left].
      - exists 3%nat, 0%nat. split; [listed|by left].
      - exists 0%nat, 1%nat. split; [listed|by right].
      - exists 1%nat, 2%nat. split; [listed|by right].
      - exists 2%nat, 3%nat. split; [listed|by right].
      - exists 3%nat, 0%nat. split; [listed|by right]. }
    destruct Hcases as [(a & b & Hab & Huv2)|(a & La & Huv2)].
    + destruct (Hm2 _ _ Hab) as [La Lb]. destruct (H4 a La) as [pa Ha]. destruct (H4 b Lb) as [pb Hb].
      destruct (Hflat a b pa pb Hab Ha Hb) as (p1 & q1 & P1 & Q1 & D1 & p2 & q2 & P2 & Q2 & D2).
      pose proof (Hle a b pa pb Hab Ha Hb) as Hm. eapply Rle_trans; [apply Rmin_l|].
      destruct Huv2 as [Huv2|Huv2]; injection Huv2 as Eu Ev; subst u' v'.
      * pose proof (eq_trans (eq_sym P1) Hp') as X1. pose proof (eq_trans (eq_sym Q1) Hq') as X2.
        apply (inj Some) in X1 as <-. apply (inj Some) in X2 as <-. by rewrite D1.
      * pose proof (eq_trans (eq_sym P2) Hp') as X1. pose proof (eq_trans (eq_sym Q2) Hq') as X2.
        apply (inj Some) in X1 as <-. apply (inj Some) in X2 as <-. by rewrite D2.
    + injection Huv2 as Eu Ev; subst u' v'. rewrite (Hup a p' q' La Hp' Hq'). apply Rmin_r.
Qed.

Lemma slab_smallest e2 z1 z2 e s2 s : wf_geom_elem (A:=AR) e2 → eshape e2 = (2,2,1)%nat → planar e2 → is_slab (A:=AR) e2 z1 z2 e → wf_geom_elem (A:=AR) e →
  smallest_edge (A:=AR) e2 = Ok s2 → smallest_edge (A:=AR) e = Ok s → s = Rmin s2 (Rabs (z2 - z1)).
Proof.
  intros Hw Es Hpl Hsl Hw3 E2 E3. pose proof Hsl as (Es3 & _).
  destruct (smallest_edge_measured e2 2 2 1 Hw Es) as (t2 & F2 & M2). destruct (smallest_edge_measured e 2 2 2 Hw3 Es3) as (t3 & F3 & M3).
  rewrite E2 in F2. injection F2 as <-. rewrite E3 in F3. injection F3 as <-. exact (slab_edge e2 z1 z2 e s2 s Hw Es Hpl Hsl M2 M3).
Qed.

(** Two side faces of the same layer are at the same place iff they are close enough in the plane. *)
Lemma slab_place m m3 tol i j f g e2 e2' e e' q q' z1 z2 c c' s s' :
  wf_mesh (A:=AR) m3 → elems m !! i = Some e2 → elems m !! j = Some e2' → wf_geom_elem (A:=AR) e2 → wf_geom_elem (A:=AR) e2' →
  eshape e2 = (2,2,1)%nat → eshape e2' = (2,2,1)%nat → planar e2 → planar e2' →
  elems m3 !! q = Some e → elems m3 !! q' = Some e' → is_slab (A:=AR) e2 z1 z2 e → is_slab (A:=AR) e2' z1 z2 e' →
  (f < 4)%nat → (g < 4)%nat → face_center (A:=AR) e2 (Z.of_nat f) = Ok c → face_center (A:=AR) e2' (Z.of_nat g) = Ok c' →
  smallest_edge (A:=AR) e2 = Ok s → smallest_edge (A:=AR) e2' = Ok s' →
  (same_place (A:=AR) tol m3 q f q' g ↔ plane_dist c c' <= tol * Rmin (Rmin s s') (Rabs (z2 - z1)))%R.
Proof.
  intros Hw3 He2 He2' Hg2 Hg2' Hs2 Hs2' Hp Hp' He He' Hsl Hsl' Hf Hg Hc Hc' Es Es'.
  assert (wf_geom_elem (A:=AR) e) as We by (apply (proj2 Hw3); by eapply elem_of_list_lookup_2).
  assert (wf_geom_elem (A:=AR) e') as We' by (apply (proj2 Hw3); by eapply elem_of_list_lookup_2).
  destruct (smallest_edge_Ok (A:=AR) e We) as [s3 E3]. destruct (smallest_edge_Ok (A:=AR) e' We') as [s3' E3'].
  pose proof (slab_smallest e2 z1 z2 e s s3 Hg2 Hs2 Hp Hsl We Es E3) as D.
  pose proof (slab_smallest e2' z1 z2 e' s' s3' Hg2' Hs2' Hp' Hsl' We' Es' E3') as D'.
  destruct (slab_faces (A:=AR) e2 e z1 z2 Hg2 Hs2 Hsl) as (fc & _ & _ & F1 & F2 & _).
  destruct (slab_faces (A:=AR) e2' e' z1 z2 Hg2' Hs2' Hsl') as (fc' & _ & _ & F1' & F2' & _).
  destruct (F1 f Hf) as [cz Fa]. destruct (F1' g Hg) as [cz' Fa']. specialize (F2 f Hf). specialize (F2' g Hg).
  rewrite Hc in Fa. injection Fa as ->. rewrite Hc' in Fa'. injection Fa' as ->.
  set (w := mean4 z1 z2 z1 z2) in *.
  assert (R_sqrt.sqrt (dist2 (A:=AR) (fst (fc' g), snd (fc' g), w) (fst (fc f), snd (fc f), w)) =
    plane_dist (fst (fc f), snd (fc f), cz) (fst (fc' g), snd (fc' g), cz')) as Ed.
  { unfold plane_dist, dist2, nsq. cbn. f_equal. ring. }
  assert (∀ x y : R, pymin (A:=AR) x y = Rmin x y) as Emin.
  { intros x y. unfold pymin. cbn. unfold Rltb, Rmin. destruct (Rlt_dec y x), (Rle_dec x y); try done; lra. }
  assert (Rmin s3 s3' = Rmin (Rmin s s') (Rabs (z2 - z1))) as Em.
  { rewrite D, D'. unfold Rmin. repeat destruct (Rle_dec _ _); lra. }
  assert (∀ x d : R, nltb (a:=AR) (nmul (a:=AR) tol x) (nsqrt (a:=AR) d) = false ↔ (R_sqrt.sqrt d <= tol * x)%R) as Hlt.
  { intros x d. change (Rltb (tol * x)%R (R_sqrt.sqrt d) = false ↔ (R_sqrt.sqrt d <= tol * x)%R). unfold Rltb.
    destruct (Rlt_dec _ _); (split; [|]); intros ?; first [done|lra]. }
  unfold same_place. split.
  - intros (a & a' & k & k' & t & t' & Ha & Ha' & K & K' & T & T' & H).
    rewrite He in Ha. apply (inj Some) in Ha as <-. rewrite He' in Ha'. apply (inj Some) in Ha' as <-.
    rewrite F2 in K. injection K as <-. rewrite F2' in K'. injection K' as <-.
    rewrite E3 in T. injection T as <-. rewrite E3' in T'. injection T' as <-.
    rewrite Emin, Em in H. apply Hlt in H. refine (Rle_trans _ _ _ (Req_le _ _ (eq_sym Ed)) H).
  - intros H. do 6 eexists. split; [exact He|]. split; [exact He'|]. split; [exact F2|]. split; [exact F2'|].
    split; [exact E3|]. split; [exact E3'|]. rewrite Emin, Em. apply Hlt. refine (Rle_trans _ _ _ (Req_le _ _ Ed) H).
Qed.
