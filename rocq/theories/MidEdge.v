(** Proofs about the edges of the elements that [extrude_mid] makes. *)
From Coq Require Import Lia.
From Verif Require Import Base Mesh Core Tools Curve Mid MeshLemmas MeshSpec CheckProofs OpsProofs GeoLaws BoxProofs
  ExtrudeSpec ExtrudeProofs MidSpec MidProofs MidBlock MidMesh MidEdgeSpec.
Open Scope Z_scope.

Section edges.
Context {A : arith}.
Notation N := (num A).
Implicit Types (e : elem N).

Definition table (l : list (elem N)) := (λ x, (λ c, (ccurv x !! c, edge_middle x c)) <$> range 12) <$> l.
Definition wanted (d : cut_elem) (zz : nat → N) := (λ n, (λ c, (Some (type_of (expected d zz n c)), expected d zz n c)) <$> range 12) <$> range 6.
Lemma table_get l d zz n c : table l = wanted d zz → (n < 6)%nat → (c < 12)%nat →
  ∃ x, l !! n = Some x ∧ ccurv x !! c = Some (type_of (expected d zz n c)) ∧ edge_middle x c = expected d zz n c.
Proof.
  intros H Hn Hc. apply (f_equal (lookup n)) in H. unfold table, wanted in H. rewrite !list_lookup_fmap in H.
  assert (∀ k j, (j < k)%nat → range k !! j = Some j) as Hr. { intros k j Hj. unfold range. by rewrite lookup_seq_lt. }
  rewrite (Hr 6%nat n Hn) in H. destruct (l !! n) as [x|]; [|done]. exists x. split; [done|]. cbn [fmap option_fmap option_map] in H. apply (inj Some) in H.
  apply (f_equal (lookup c)) in H. rewrite !list_lookup_fmap, (Hr 12%nat c Hc) in H. cbn [fmap option_fmap option_map] in H. apply (inj Some) in H.
  apply pair_equal_spec in H as [H1 H2]. by split.
Qed.
Lemma table_strip l l' : same_bshape l l' → table l' = table l.
Proof.
  intros H. unfold table. induction H as [|x y l l' [Hs _] H IH]; [done|]. cbn [fmap list_fmap]. f_equal; [|exact IH].
  unfold strip_elem, set_bcs in Hs. pose proof (f_equal ccurv Hs) as E1. pose proof (f_equal curv Hs) as E2. cbn in E1, E2.
  unfold edge_middle. by rewrite E1, E2.
Qed.

(** The steps of the code that concern the edges, from the six copies on. *)
Definition edge_steps (s : cutsides) (zz : nat → N) e (l0 l1 m0 m1 h0 h1 : vec (A:=A)) (e0 e1 : elem N) rest : res (elem N * list (elem N)) :=
  let! (e', e0, e1) := mid_cut s [l0; l1] [m0; m1] [h0; h1] (zz 0%nat) e e0 e1 in
  let! (e0, e1) := mid_side e' (s_l0 s) l0 m0 h0 e0 e1 in
  let! (e0, e1) := mid_side e' (s_l1 s) l1 m1 h1 e0 e1 in
  let l := mid_spread (mid_dup <$> (e0 :: e1 :: rest)) in
  let l := foldl (mid_zs s zz) l (range 4) in
  Ok (e', foldl mid_con l [(s_l0 s, s_c0 s); (s_l1 s, s_c1 s)]).
(** The middle of a side, if it is bent. *)
Definition bent_row (t : string) (row : list N) : option (N * N * N) :=
  match t, row with "m"%string, x :: y :: z :: _ => Some (x, y, z) | _, _ => None end.
Ltac rows r := destruct r as [|? [|? [|? [|? [|? [|]]]]]]; try done.
Lemma steps_table zz e (p00 p01 p10 p11 u0 u1 u2 u3 : vec (A:=A)) (P0 P1 P2 P3 P4 P5 : list (list N)) (b00 b01 b10 b11 : bool) lo hi :
  (b00 = b10 ∧ b01 = b11 ∧ b00 ≠ b01) ∨ (b00 = b01 ∧ b10 = b11 ∧ b00 ≠ b10) →
  (lo, hi) = (if b00 then if b10 then ([(0,0); (1,0)], [(0,1); (1,1)]) else ([(0,0); (0,1)], [(1,0); (1,1)])
             else if b10 then ([(1,0); (1,1)], [(0,0); (0,1)]) else ([(0,1); (1,1)], [(0,0); (1,0)]))%nat →
  rows_ok e → (∀ c, (c < 4)%nat → plain_edge e c) → (∀ c, (8 ≤ c < 12)%nat → ccurv e !! c = Some ""%string) →
  edge_mid e 0 = Ok (u0, e) → edge_mid e 1 = Ok (u1, e) → edge_mid e 2 = Ok (u2, e) → edge_mid e 3 = Ok (u3, e) →
  let s := mid_sides lo hi in let pt (c : nat * nat) := pick4 p00 p01 p10 p11 (fst c) (snd c) in let u := pick_side u0 u1 u2 u3 in
  let d := CutElem (pick4 b00 b01 b10 b11) (pick4 p00 p01 p10 p11) u (pick_side (edge_middle e 0) (edge_middle e 1) (edge_middle e 2) (edge_middle e 3)) in
  ∃ l0 l1 h0 h1, pt <$> lo = [l0; l1] ∧ pt <$> hi = [h0; h1] ∧
  ∃ l, edge_steps s zz e l0 l1 (u (s_l0 s)) (u (s_l1 s)) h0 h1 (set_pos3 P0 e) (set_pos3 P1 e) [set_pos3 P2 e; set_pos3 P3 e; set_pos3 P4 e; set_pos3 P5 e] = Ok (e, l) ∧
    table l = wanted d zz.
Proof.
  destruct p00 as [[? ?] ?], p01 as [[? ?] ?], p10 as [[? ?] ?], p11 as [[? ?] ?], u0 as [[? ?] ?], u1 as [[? ?] ?], u2 as [[? ?] ?], u3 as [[? ?] ?].
  intros Hb Hlh Hr Ht Hv E0 E1 E2 E3 s pt u d. pose proof Hr as (R1 & R2 & R3).
  destruct (ccurv e) as [|t0 [|t1 [|t2 [|t3 [|t4 [|t5 [|t6 [|t7 [|t8 [|t9 [|t10 [|t11 [|]]]]]]]]]]]]] eqn:Ec; try done.
  destruct (curv e) as [|r0 [|r1 [|r2 [|r3 [|r4 [|r5 [|r6 [|r7 [|r8 [|r9 [|r10 [|r11 [|]]]]]]]]]]]]] eqn:Ev; try done.
  assert (∀ r, r ∈ [r0; r1; r2; r3; r4; r5; r6; r7; r8; r9; r10; r11] → ∃ a b c d f, r = [a; b; c; d; f]) as H5.
  { intros r Hin. specialize (R3 r Hin). rows r. eauto 10. }
  assert (∀ c t, (8 ≤ c < 12)%nat → [t0; t1; t2; t3; t4; t5; t6; t7; t8; t9; t10; t11] !! c = Some t → t = ""%string) as Hv'.
  { intros c t Hc Hl. specialize (Hv c Hc). rewrite Hl in Hv. by injection Hv. }
  pose proof (Hv' 8%nat t8 ltac:(lia) eq_refl) as ->. pose proof (Hv' 9%nat t9 ltac:(lia) eq_refl) as ->.
  pose proof (Hv' 10%nat t10 ltac:(lia) eq_refl) as ->. pose proof (Hv' 11%nat t11 ltac:(lia) eq_refl) as ->. clear Hv' Hv.
  destruct (H5 r0) as (a0 & b0 & c0 & d0 & f0 & ->); [set_solver|]. destruct (H5 r1) as (a1 & b1 & c1 & d1 & f1 & ->); [set_solver|].
  destruct (H5 r2) as (a2 & b2 & c2 & d2 & f2 & ->); [set_solver|]. destruct (H5 r3) as (a3 & b3 & c3 & d3 & f3 & ->); [set_solver|]. clear H5 R3 R1 R2.
  assert (∀ c t, (c < 4)%nat → ccurv e !! c = Some t → t = ""%string ∨ t = "m"%string) as Ht'.
  { intros c t Hc Hl. destruct (Ht c Hc) as [H|H]; rewrite Hl in H; injection H as ->; auto. }
  rewrite Ec in Ht'. pose proof (Ht' 0%nat t0 ltac:(lia) eq_refl) as T0. pose proof (Ht' 1%nat t1 ltac:(lia) eq_refl) as T1.
  pose proof (Ht' 2%nat t2 ltac:(lia) eq_refl) as T2. pose proof (Ht' 3%nat t3 ltac:(lia) eq_refl) as T3. clear Ht Ht' Hr.
  assert (∀ n t a b c d f u, ccurv e !! n = Some t → curv e !! n = Some [a; b; c; d; f] → edge_mid e n = Ok (u, e) → t = "m"%string → u = (a, b, c)) as HM.
  { intros n' t' a b c d' f' v H1 H2 H3 ->. unfold edge_mid in H3. rewrite H1, H2 in H3. cbn in H3. by injection H3. }
  rewrite Ec, Ev in HM. pose proof (HM 0%nat _ _ _ _ _ _ _ eq_refl eq_refl E0) as M0. pose proof (HM 1%nat _ _ _ _ _ _ _ eq_refl eq_refl E1) as M1.
  pose proof (HM 2%nat _ _ _ _ _ _ _ eq_refl eq_refl E2) as M2. pose proof (HM 3%nat _ _ _ _ _ _ _ eq_refl eq_refl E3) as M3. clear HM.
  assert (∃ b0 b1, (b00, b01, b10, b11) = (b0, b1, b0, b1) ∧ b1 = negb b0 ∨ (b00, b01, b10, b11) = (b0, b0, b1, b1) ∧ b1 = negb b0) as (x & y & [[[= -> -> -> ->] ->]|[[= -> -> -> ->] ->]]).
  { exists b00. destruct Hb as [(<- & <- & H)|(<- & <- & H)]; eexists; [left; split; [reflexivity|]; by destruct b00, b01|right; split; [reflexivity|]; by destruct b00, b10]. }
  all: clear Hb; destruct x; cbn [negb] in Hlh; injection Hlh as -> ->; do 4 eexists; (split; [reflexivity|]); (split; [reflexivity|]).
  all: match goal with s := mid_sides ?a ?b |- _ => let v := eval vm_compute in (mid_sides a b) in change (mid_sides a b) with v in s; subst s end.
  all: subst u d; unfold edge_steps, mid_cut, ctype; cbn [s_hi s_lo s_l0 s_l1 s_c0 s_c1]; cbv beta zeta; unfold edge_middle; rewrite Ec, Ev; cbn [nth lookup list_lookup].
  all: destruct T0 as [-> | ->], T1 as [-> | ->], T2 as [-> | ->], T3 as [-> | ->]; cbn [String.eqb Ascii.eqb Bool.eqb andb orb]; repeat (first [rewrite E0|rewrite E1|rewrite E2|rewrite E3]; cbn [rbind]).
  all: clear E0 E1 E2 E3.
  all: repeat match goal with M : "m"%string = "m"%string → _ |- _ => specialize (M eq_refl); injection M as -> -> -> end.
  all: destruct e as [sh ps ve pr te sc cv cc bs]; cbn [ccurv curv] in Ec, Ev; subst cc cv.
  all: eexists; split; [vm_compute; reflexivity|vm_compute; reflexivity].
Qed.
End edges.
