(** Rotating keeps a mesh sound, over the real numbers. *)
From Coq Require Import Lia Reals Lra.
From Verif Require Import Base Mesh Core Tools Float FloatLaws MeshLemmas MeshSpec CheckProofs MergeSpec HistorySpec CurveSpec CurveProofs Rigid.
Open Scope Z_scope.

Lemma turned_geom theta e e' : turned theta e e' → wf_geom_elem (A:=AR) e'.
Proof.
  intros (E & (lx & ly & lz & Hs & Hl & Hp & Hc) & Hw). destruct (pos e) as [|xs [|ys [|zs [|]]]] eqn:Ep; try done.
  rewrite (rotate_elem_eq _ _ e xs ys [zs] Ep) in E. set (e1 := set_pos _ e) in E.
  destruct (rot_steps (A:=AR) (cos theta) (sin theta) e1 12) as (e2 & E2 & D1 & _); [done|lia|]. rewrite E in E2. assert (e2 = e') as -> by congruence.
  exists lx, ly, lz. rewrite D1. split; [exact Hs|]. split; [done|]. split; [done|]. change (pos (set_curv (curv e') e1)) with (pos e1). unfold e1. cbn [set_pos pos].
  pose proof (Hc xs ltac:(left)) as Lx. pose proof (Hc ys ltac:(right; left)) as Ly. pose proof (Hc zs ltac:(right; right; left)) as Lz.
  intros c Hin. apply elem_of_cons in Hin as [->|Hin]; [rewrite zip_with_length; change (num AR) with R in *; lia|]. apply elem_of_cons in Hin as [->|Hin]; [rewrite zip_with_length; change (num AR) with R in *; lia|].
  apply elem_of_cons in Hin as [->|Hin]; [done|by apply elem_of_nil in Hin].
Qed.
Lemma turned_wf theta m m' : turned_mesh theta m m' → wf_mesh (A:=AR) m → wf_mesh (A:=AR) m'.
Proof.
  intros T [Wb Wg]. destruct (turned_fields _ _ _ T) as (F1 & F2 & F3 & F4 & _). destruct T as [_ F]. split.
  - destruct Wb as (B1 & B2 & B3). unfold wf_bcs. rewrite F1, F2, F3, F4. split; [done|]. split; [done|]. 
    intros e' He'. apply elem_of_list_lookup in He' as [i Hi]. destruct (Forall2_lookup_r _ _ _ _ _ F Hi) as (e & He & Te). rewrite (proj1 (turned_bcs _ _ _ Te)). apply B3. by eapply elem_of_list_lookup_2.
  - intros e' He'. apply elem_of_list_lookup in He' as [i Hi]. destruct (Forall2_lookup_r _ _ _ _ _ F Hi) as (e & He & Te). by eapply turned_geom.
Qed.
Lemma turned_connected theta m m' : turned_mesh theta m m' → connected_mesh (A:=AR) m → connected_mesh (A:=AR) m'.
Proof.
  intros T (W & P & U & NS). destruct (turned_fields _ _ _ T) as (F1 & F2 & F3 & _). pose proof (λ i b f, turned_get theta m m' i b f T) as G.
  assert (∀ i b f, in_mesh m' i b f ↔ in_mesh m i b f) as HI by (intros i b f; unfold in_mesh; by rewrite F1, F2, F3).
  split; [by eapply turned_wf|]. split; [|split].
  - intros i b f r Hi Hr Hc. rewrite G in Hr. apply HI in Hi. destruct (P i b f r Hi Hr Hc) as (j & g & r' & Hj & H1 & H2 & H3). exists j, g, r'. rewrite G. split; [by apply HI|done].
  - intros i b f r r0 Hi Hr Hr0. rewrite G in Hr, Hr0. apply HI in Hi. by eapply U.
  - intros x r Hi Hr. rewrite G in Hr. apply HI in Hi. by apply NS.
Qed.
Lemma rotate_sound bnd tol theta x0 y0 (m m' : hexa R) : sound (A:=AR) bnd tol m → (∀ e, e ∈ elems m → wf_curves e) →
  rotate_2d (A:=AR) (cos theta) (sin theta) x0 y0 m = Ok m' → sound (A:=AR) bnd tol m'.
Proof.
  intros [C V E K N Z] Hw H. pose proof C as ((_ & Wg) & _). pose proof (rotate_turned theta x0 y0 m m' (λ e He, conj (Wg e He) (Hw e He)) H) as T.
  pose proof (turned_connected _ _ _ T C) as C'. destruct (turned_fields _ _ _ T) as (F1 & F2 & _). pose proof T as [_ F].
  split; [done| | | | |].
  - apply check_connectivity_iff; [apply C'|]. refine (eq_trans (check_turned theta tol m m' T) _). apply check_connectivity_iff; [apply C|done].
  - intros e' s He' Hs. apply elem_of_list_lookup in He' as [i Hi]. destruct (Forall2_lookup_r _ _ _ _ _ F Hi) as (e & He & Te). apply (E e s); [by eapply elem_of_list_lookup_2|]. exact (eq_trans (eq_sym (turned_edge theta e e' Te)) Hs).
  - intros e' He'. apply elem_of_list_lookup in He' as [i Hi]. destruct (Forall2_lookup_r _ _ _ _ _ F Hi) as (e & He & Te). destruct (turned_moved _ _ _ Te) as (_ & Hcc & _). refine (eq_trans (f_equal length Hcc) (K e _)). by eapply elem_of_list_lookup_2.
  - refine (eq_ind_r (λ n, (0 < n)%nat) N F2).
  - refine (eq_ind_r (λ n, Z.of_nat n <= bnd) Z F1).
Qed.
