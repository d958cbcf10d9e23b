(** Lemmas about curved edges. *)
From Coq Require Import Lia Reals Lra Psatz.
From Verif Require Import Base Mesh MeshLemmas MeshSpec Core Tools Float Curve CurveSpec.
Open Scope Z_scope.

(** ** Ends of edges *)
Lemma edge_ends_spec {A : arith} (e : elem (num A)) iedge p1 p2 : ends e iedge p1 p2 →
  ∃ z1 y1 x1 z2 y2 x2, edge_ends iedge = Some ((z1, y1, x1), (z2, y2, x2)) ∧ point e z1 y1 x1 = Some p1 ∧ point e z2 y2 x2 = Some p2.
Proof.
  intros [(H & A1 & A2)|[(H & A1 & A2)|(H & A1 & A2)]]; do 12 (destruct iedge as [|iedge]; [first [lia|by repeat eexists]|]); lia.
Qed.
(** ** Arcs *)
Open Scope R_scope.
Lemma arc_mid_ok (r x1 y1 z1 x2 y2 z2 : R) : r ≠ 0 → (x1, y1) ≠ (x2, y2) → (x2 - x1) ^ 2 + (y2 - y1) ^ 2 <= 4 * r ^ 2 →
  arc_middle r (x1, y1, z1) (x2, y2, z2) (arc_mid (A:=AR) r (x1, y1, z1) (x2, y2, z2)).
Proof.
  intros Hr Hn Hd. unfold arc_mid, nsq, two. cbn [AR nadd nsub nmul ndiv nofZ nabs nsqrt num].
  set (dx := x2 - x1) in *. set (dy := y2 - y1) in *.
  assert (0 < dx * dx + dy * dy) as HD.
  { destruct (Req_dec dx 0) as [E|E]; [destruct (Req_dec dy 0) as [E'|E']|].
    - exfalso. apply Hn. unfold dx, dy in *. f_equal; lra.
    - pose proof (Rsqr_pos_lt dy E'). unfold Rsqr in *. nra.
    - pose proof (Rsqr_pos_lt dx E). unfold Rsqr in *. nra. }
  set (q := r * r - dx * dx / 4 - dy * dy / 4). assert (0 <= q) as Hq by (unfold q; lra).
  set (D := dx * dx + dy * dy) in *. pose proof (sqrt_lt_R0 D HD) as HS. pose proof (sqrt_sqrt D ltac:(lra)) as HSS.
  set (h := R_sqrt.sqrt q). pose proof (sqrt_sqrt q Hq) as Hh. fold h in Hh. pose proof (sqrt_pos q) as Hh0. fold h in Hh0.
  set (S := R_sqrt.sqrt D) in *. set (a := Rabs r). pose proof (Rabs_pos_lt r Hr) as Ha. fold a in Ha.
  assert (a * a = r * r) as Haa by (unfold a; rewrite <- Rabs_mult; apply Rabs_pos_eq; nra).
  set (k := (a - h) / S * r / a).
  assert (k * S * a = (a - h) * r) as Hk by (unfold k; field; lra).
  assert (h <= a) as Hha. { destruct (Rle_or_lt h a) as [|X]; [done|]. exfalso. assert (h * h = r * r - D / 4) by (rewrite Hh; unfold q, D; lra). nra. }
  (* the number t with k S = t, t = (a - h) sign r *)
  set (t := k * S). assert (t * a = (a - h) * r) as Ht by exact Hk.
  assert (t * t = (a - h) * (a - h)) as Htt. { apply (Rmult_eq_reg_r (a * a)); [|nra]. replace (t * t * (a * a)) with ((t * a) * (t * a)) by ring. rewrite Ht. replace ((a - h) * r * ((a - h) * r)) with ((a - h) * (a - h) * (r * r)) by ring. rewrite Haa. ring. }
  assert (k * k * D = t * t) as HkD by (unfold t; rewrite <- HSS; ring).
  (* the centre, at distance h from the chord on the other side *)
  set (g := h / S * r / a). assert (g * S * a = h * r) as Hg by (unfold g; field; lra).
  assert (g * g * D = h * h) as HgD.
  { apply (Rmult_eq_reg_r (a * a)); [|nra]. replace (g * g * D * (a * a)) with ((g * S * a) * (g * S * a)) by (rewrite <- HSS; ring). rewrite Hg. replace (h * r * (h * r)) with (h * h * (r * r)) by ring. rewrite Haa. ring. }
  assert ((k + g) * (k + g) * D = r * r) as HkgD.
  { assert (k + g = r / S) as -> by (unfold k, g; field; lra). unfold Rdiv. replace (r * / S * (r * / S) * D) with (r * r * (/ S * / S * D)) by ring. rewrite <- HSS. field. lra. }
  unfold arc_middle, dist2_plane, middle_of, cross_plane. cbn [fst snd]. split_and!.
  - exists ((x1 + x2) / 2 - g * dy, (y1 + y2) / 2 + g * dx, 0). 
    assert (r ^ 2 = D / 4 + h * h) as Er by (rewrite Hh; unfold q, D; lra).
    split_and!.
    + rewrite Er, <- HgD. unfold D, dx, dy. field.
    + rewrite Er, <- HgD. unfold D, dx, dy. field.
    + replace (r ^ 2) with (r * r) by ring. rewrite <- HkgD. unfold D, dx, dy. field.
  - unfold dx, dy. field.
  - replace (((x2 + x1) / 2 + k * dy - (x1 + x2) / 2) ^ 2 + ((y2 + y1) / 2 - k * dx - (y1 + y2) / 2) ^ 2) with (k * k * D) by (unfold D; field).
    rewrite HkD, Htt. replace (r ^ 2) with (a * a) by (rewrite Haa; ring). nra.
  - fold dx dy. replace (dx * ((y2 + y1) / 2 - k * dx - y1) - dy * ((x2 + x1) / 2 + k * dy - x1)) with (- (k * D)) by (unfold D, dx, dy; field).
    assert (0 <= r * k) as X. { apply (Rmult_le_reg_r (S * a)); [nra|]. replace (r * k * (S * a)) with (r * (k * S * a)) by ring. rewrite Hk. nra. }
    nra.
  - lra.
Qed.
Lemma sphere_mid_ok (r : R) (c p1 p2 : pt) : middle_of p1 p2 ≠ c → dist2_space c (sphere_mid (A:=AR) r c p1 p2) = r ^ 2.
Proof.
  destruct c as [[cx cy] cz], p1 as [[x1 y1] z1], p2 as [[x2 y2] z2]. intros Hn. unfold sphere_mid, dist2_space, vadd, vsub, vdiv, vmul, nsq, two.
  cbn [AR nadd nsub nmul ndiv nofZ nsqrt num]. set (a := (x2 + x1) / 2 - cx). set (b := (y2 + y1) / 2 - cy). set (d := (z2 + z1) / 2 - cz).
  assert (0 < a * a + b * b + d * d) as HD.
  { destruct (Req_dec a 0) as [Ea|Ea]; [destruct (Req_dec b 0) as [Eb|Eb]; [destruct (Req_dec d 0) as [Ed|Ed]|]|].
    - exfalso. apply Hn. unfold middle_of. unfold a, b, d in *. f_equal; [f_equal|]; lra.
    - pose proof (Rsqr_pos_lt d Ed). unfold Rsqr in *. nra.
    - pose proof (Rsqr_pos_lt b Eb). unfold Rsqr in *. nra.
    - pose proof (Rsqr_pos_lt a Ea). unfold Rsqr in *. nra. }
  set (D := a * a + b * b + d * d) in *. pose proof (sqrt_lt_R0 D HD) as HS. pose proof (sqrt_sqrt D ltac:(lra)) as HSS. set (S := R_sqrt.sqrt D) in *.
  replace ((cx - (cx + a * r / S)) ^ 2 + (cy - (cy + b * r / S)) ^ 2 + (cz - (cz + d * r / S)) ^ 2) with (r ^ 2 * (D / (S * S))) by (unfold D; field; lra).
  rewrite HSS. field. lra.
Qed.
(** ** The circle through three points *)
Definition dot (p q : pt) : R := let '(a, b, c) := p in let '(x, y, z) := q in a * x + b * y + c * z.
Lemma heron d1 d2 d3 A B C : 0 <= d1 → 0 <= d2 → 0 <= d3 → d1 * d1 = A → d2 * d2 = B → d3 * d3 = A + B - 2 * C →
  (d1 + d2 + d3) / 2 * ((d1 + d2 + d3) / 2 - d1) * ((d1 + d2 + d3) / 2 - d2) * ((d1 + d2 + d3) / 2 - d3) = (A * B - C * C) / 4.
Proof.
  intros H1 H2 H3 E1 E2 E3. assert (C = (A + B - d3 * d3) / 2) as -> by lra. subst A B. field.
Qed.
Lemma sq3 a b c : 0 <= a * a + b * b + c * c.
Proof. pose proof (Rle_0_sqr a). pose proof (Rle_0_sqr b). pose proof (Rle_0_sqr c). unfold Rsqr in *. lra. Qed.
Lemma circle_ok (p1 p2 m : pt) r c : circle (A:=AR) p1 p2 m = (r, c) → r ≠ 0 →
  dist2_space c p1 = r ^ 2 ∧ dist2_space c p2 = r ^ 2 ∧ dist2_space c m = r ^ 2.
Proof.
  destruct p1 as [[x1 y1] z1], p2 as [[x2 y2] z2], m as [[mx my] mz]. unfold circle, vsub, vadd, vmul, vdiv, norm2, nsq, two, nlit.
  cbn [AR nadd nsub nmul ndiv nofZ nsqrt nltb nopp num].
  set (u1 := x1 - mx). set (u2 := y1 - my). set (u3 := z1 - mz). set (v1 := x2 - mx). set (v2 := y2 - my). set (v3 := z2 - mz).
  set (A := u1 * u1 + u2 * u2 + u3 * u3). set (B := v1 * v1 + v2 * v2 + v3 * v3). set (C := u1 * v1 + u2 * v2 + u3 * v3).
  replace ((mx - x1) * (mx - x1) + (my - y1) * (my - y1) + (mz - z1) * (mz - z1)) with A by (unfold A, u1, u2, u3; ring).
  replace ((x1 - x2) * (x1 - x2) + (y1 - y2) * (y1 - y2) + (z1 - z2) * (z1 - z2)) with (A + B - 2 * C) by (unfold A, B, C, u1, u2, u3, v1, v2, v3; ring).
  assert (0 <= A) as HA by apply sq3. assert (0 <= B) as HB by apply sq3.
  assert (0 <= A + B - 2 * C) as HC by (unfold A, B, C; pose proof (sq3 (u1 - v1) (u2 - v2) (u3 - v3)); lra).
  pose proof (sqrt_sqrt A HA) as S1. pose proof (sqrt_sqrt B HB) as S2. pose proof (sqrt_sqrt _ HC) as S3.
  pose proof (sqrt_pos A) as P1. pose proof (sqrt_pos B) as P2. pose proof (sqrt_pos (A + B - 2 * C)) as P3.
  set (d1 := R_sqrt.sqrt A) in *. set (d2 := R_sqrt.sqrt B) in *. set (d3 := R_sqrt.sqrt (A + B - 2 * C)) in *.
  rewrite (heron d1 d2 d3 A B C P1 P2 P3 S1 S2 S3). set (D := A * B - C * C). set (area := R_sqrt.sqrt (D / 4)).
  unfold Rltb at 1. destruct (Rlt_dec (1 / 10000 * d1 * d2) area) as [Har|]; [|intros H HR; apply pair_equal_spec in H as [H _]; exfalso; by apply HR].
  rewrite S1, S2, S3.
  assert (0 < area) as Hpos by (assert (0 <= 1 / 10000 * d1 * d2) by (apply Rmult_le_pos; [apply Rmult_le_pos; lra|lra]); lra).
  assert (0 <= D / 4) as HD4. { destruct (Rle_or_lt 0 (D / 4)) as [|X]; [done|]. unfold area in Hpos. rewrite sqrt_neg_0 in Hpos by lra. lra. }
  pose proof (sqrt_sqrt (D / 4) HD4) as SA. fold area in SA. assert (0 < D) as HD by nra.
  rewrite SA.
  intros H HR. apply pair_equal_spec in H as [Hr Hc].
  assert (r ^ 2 = A * B * (A + B - 2 * C) / (4 * D)) as Er.
  { assert (r ^ 2 = (d1 * d2 * d3 / (4 * area)) ^ 2) as -> by (subst r; destruct (Rltb _ _); ring).
    replace ((d1 * d2 * d3 / (4 * area)) ^ 2) with ((d1 * d1) * (d2 * d2) * (d3 * d3) / (16 * (area * area))) by (field; lra).
    rewrite S1, S2, S3, SA. field. lra. }
  (* the vector from m to the centre *)
  set (w1 := (B * (A - C) * u1 + A * (B - C) * v1) / (2 * D)). set (w2 := (B * (A - C) * u2 + A * (B - C) * v2) / (2 * D)). set (w3 := (B * (A - C) * u3 + A * (B - C) * v3) / (2 * D)).
  assert (c = (mx + w1, my + w2, mz + w3)) as ->.
  { subst c. unfold w1, w2, w3. f_equal; [f_equal|]; unfold u1, u2, u3, v1, v2, v3; field_simplify_eq; try lra; unfold D; ring. }
  assert (w1 * w1 + w2 * w2 + w3 * w3 = A * B * (A + B - 2 * C) / (4 * D)) as Ew.
  { assert (∀ a1 a3, ((a1 * u1 + a3 * v1) / (2 * D)) * ((a1 * u1 + a3 * v1) / (2 * D)) + ((a1 * u2 + a3 * v2) / (2 * D)) * ((a1 * u2 + a3 * v2) / (2 * D)) + ((a1 * u3 + a3 * v3) / (2 * D)) * ((a1 * u3 + a3 * v3) / (2 * D))
      = (a1 * a1 * (u1 * u1 + u2 * u2 + u3 * u3) + a3 * a3 * (v1 * v1 + v2 * v2 + v3 * v3) + 2 * a1 * a3 * (u1 * v1 + u2 * v2 + u3 * v3)) / (4 * D * D)) as X by (intros a1 a3; field; lra).
    unfold w1, w2, w3. rewrite X. fold A B C. unfold D. field. fold D. lra. }
  assert (u1 * w1 + u2 * w2 + u3 * w3 = A / 2) as Eu.
  { replace (u1 * w1 + u2 * w2 + u3 * w3) with ((B * (A - C) * (u1 * u1 + u2 * u2 + u3 * u3) + A * (B - C) * (u1 * v1 + u2 * v2 + u3 * v3)) / (2 * D)) by (unfold w1, w2, w3; field; lra).
    fold A C. unfold D. field. fold D. lra. }
  assert (v1 * w1 + v2 * w2 + v3 * w3 = B / 2) as Ev.
  { replace (v1 * w1 + v2 * w2 + v3 * w3) with ((B * (A - C) * (u1 * v1 + u2 * v2 + u3 * v3) + A * (B - C) * (v1 * v1 + v2 * v2 + v3 * v3)) / (2 * D)) by (unfold w1, w2, w3; field; lra).
    fold B C. unfold D. field. fold D. lra. }
  unfold dist2_space. rewrite Er, <- Ew. split_and!.
  - replace ((mx + w1 - x1) ^ 2 + (my + w2 - y1) ^ 2 + (mz + w3 - z1) ^ 2) with (w1 * w1 + w2 * w2 + w3 * w3 - 2 * (u1 * w1 + u2 * w2 + u3 * w3) + A) by (unfold A, u1, u2, u3; ring). rewrite Eu. lra.
  - replace ((mx + w1 - x2) ^ 2 + (my + w2 - y2) ^ 2 + (mz + w3 - z2) ^ 2) with (w1 * w1 + w2 * w2 + w3 * w3 - 2 * (v1 * w1 + v2 * w2 + v3 * w3) + B) by (unfold B, v1, v2, v3; ring). rewrite Ev. lra.
  - ring.
Qed.
(** When the circle is found, and on which side. *)
Definition sub3 (p q : pt) : pt := let '(a, b, c) := p in let '(x, y, z) := q in (a - x, b - y, c - z).
Lemma circle_found (p1 p2 m : pt) r c : circle (A:=AR) p1 p2 m = (r, c) →
  let A := dot (sub3 p1 m) (sub3 p1 m) in let B := dot (sub3 p2 m) (sub3 p2 m) in let C := dot (sub3 p1 m) (sub3 p2 m) in
  (4 / 100000000 * (A * B) < A * B - C * C → r ≠ 0 ∧ (0 < cross_plane p1 p2 m → r < 0) ∧ (cross_plane p1 p2 m <= 0 → 0 < r)) ∧
  (A * B - C * C <= 4 / 100000000 * (A * B) → r = 0 ∧ c = (0, 0, 0)).
Proof.
  destruct p1 as [[x1 y1] z1], p2 as [[x2 y2] z2], m as [[mx my] mz]. unfold circle, vsub, vadd, vmul, vdiv, norm2, nsq, two, nlit, dot, sub3, cross_plane.
  cbn [AR nadd nsub nmul ndiv nofZ nsqrt nltb nopp num].
  set (u1 := x1 - mx). set (u2 := y1 - my). set (u3 := z1 - mz). set (v1 := x2 - mx). set (v2 := y2 - my). set (v3 := z2 - mz).
  set (A := u1 * u1 + u2 * u2 + u3 * u3). set (B := v1 * v1 + v2 * v2 + v3 * v3). set (C := u1 * v1 + u2 * v2 + u3 * v3).
  replace ((mx - x1) * (mx - x1) + (my - y1) * (my - y1) + (mz - z1) * (mz - z1)) with A by (unfold A, u1, u2, u3; ring).
  replace ((x1 - x2) * (x1 - x2) + (y1 - y2) * (y1 - y2) + (z1 - z2) * (z1 - z2)) with (A + B - 2 * C) by (unfold A, B, C, u1, u2, u3, v1, v2, v3; ring).
  assert (0 <= A) as HA by apply sq3. assert (0 <= B) as HB by apply sq3.
  assert (0 <= A + B - 2 * C) as HC by (unfold A, B, C; pose proof (sq3 (u1 - v1) (u2 - v2) (u3 - v3)); lra).
  pose proof (sqrt_sqrt A HA) as S1. pose proof (sqrt_sqrt B HB) as S2. pose proof (sqrt_sqrt _ HC) as S3.
  pose proof (sqrt_pos A) as P1. pose proof (sqrt_pos B) as P2. pose proof (sqrt_pos (A + B - 2 * C)) as P3.
  set (d1 := R_sqrt.sqrt A) in *. set (d2 := R_sqrt.sqrt B) in *. set (d3 := R_sqrt.sqrt (A + B - 2 * C)) in *.
  rewrite (heron d1 d2 d3 A B C P1 P2 P3 S1 S2 S3). set (D := A * B - C * C). set (area := R_sqrt.sqrt (D / 4)).
  pose proof (sqrt_pos (D / 4)) as Pa. fold area in Pa.
  assert (0 <= 1 / 10000 * d1 * d2) as Pd by (apply Rmult_le_pos; [apply Rmult_le_pos; lra|lra]).
  assert ((1 / 10000 * d1 * d2) * (1 / 10000 * d1 * d2) = 1 / 100000000 * (A * B)) as Ed by (rewrite <- S1, <- S2; field).
  assert (0 <= A * B) as HAB by nra.
  unfold Rltb at 1. destruct (Rlt_dec (1 / 10000 * d1 * d2) area) as [Har|Har]; intros H; apply pair_equal_spec in H as [Hr Hc].
  - assert (0 <= D / 4) as HD4. { destruct (Rle_or_lt 0 (D / 4)) as [|X]; [done|]. unfold area in Har. rewrite sqrt_neg_0 in Har by lra. lra. }
    pose proof (sqrt_sqrt (D / 4) HD4) as SA. fold area in SA.
    assert (1 / 100000000 * (A * B) < D / 4) as HF by (rewrite <- SA, <- Ed; nra). split; [|intros X; lra]. intros _.
    assert (0 < area) as Pa' by lra. assert (0 < D) as HD by nra.
    assert (0 < A * B) as HAB' by (unfold D in HD; nra). assert (0 < d1 * d2) as Hd12. { destruct (Rtotal_order (d1 * d2) 0) as [X|[X|X]]; [nra| |lra]. exfalso. assert (A * B = (d1 * d2) * (d1 * d2)) as Y by (rewrite <- S1, <- S2; ring). rewrite X in Y. lra. }
    assert (0 < A + B - 2 * C) as HC'.
    { destruct (Rle_or_lt (A + B - 2 * C) 0) as [X|]; [|done]. exfalso. assert (A + B = 2 * C) by lra. assert ((A - B) * (A - B) = 4 * (C * C - A * B)) by (replace (4 * (C * C - A * B)) with ((2 * C) * (2 * C) - 4 * (A * B)) by ring; replace (2 * C) with (A + B) by lra; ring). pose proof (Rle_0_sqr (A - B)) as Y. unfold Rsqr in Y. unfold D in HD. lra. }
    assert (0 < d3) as Hd3 by (destruct P3 as [|E]; [done|]; rewrite <- E in S3; lra).
    assert (0 < d1 * d2 * d3 / (4 * area)) as Hq. { unfold Rdiv. apply Rmult_lt_0_compat; [nra|]. apply Rinv_0_lt_compat. lra. }
    set (q := d1 * d2 * d3 / (4 * area)) in *. unfold Rltb in Hr.
    match type of Hr with context [Rlt_dec ?t 0] => replace t with (- (3 * ((x2 - x1) * (my - y1) - (y2 - y1) * (mx - x1)))) in Hr by (unfold v1, v2; ring) end.
    destruct (Rlt_dec _ 0) as [X|X]; subst r; split_and!; try lra; intros Y; lra.
  - split; [|intros _; by rewrite <- Hr, <- Hc]. intros X. exfalso. apply Har. change (A * B - C * C) with D in X. clearbody D. assert (0 <= D / 4) as HD4 by lra.
    pose proof (sqrt_sqrt (D / 4) HD4) as SA. fold area in SA. destruct (Rlt_or_le (1 / 10000 * d1 * d2) area) as [|Y]; [done|]. exfalso.
    assert (area * area <= (1 / 10000 * d1 * d2) * (1 / 10000 * d1 * d2)) by nra. rewrite Ed, SA in *. lra.
Qed.
Close Scope R_scope.
(** ** Rotation *)
Section rotate.
Context {A : arith}.
Local Notation N := (num A).
Definition rot_row (c s : N) (row : list N) : list N :=
  match row with x :: y :: rest => rot_x c s x y :: rot_y c s x y :: rest | _ => row end.
Definition rot_step (c s : N) (e : elem N) (edge : nat) : res (elem N) :=
  let! t := of_opt IndexError (ccurv e !! edge) in
  if String.eqb t "m" then
    let! row := of_opt IndexError (curv e !! edge) in
    match row with
    | x :: y :: rest => Ok (set_curv (<[edge := rot_x c s x y :: rot_y c s x y :: rest]> (curv e)) e)
    | _ => Raise IndexError
    end
  else Ok e.
Definition rot_done (c s : N) (n : nat) (e e' : elem N) : Prop :=
  e' = set_curv (curv e') e ∧ length (curv e') = length (curv e) ∧
  (∀ i row, (i < n)%nat → ccurv e !! i = Some "m"%string → curv e !! i = Some row → curv e' !! i = Some (rot_row c s row)) ∧
  (∀ i, (n <= i)%nat ∨ ccurv e !! i ≠ Some "m"%string → curv e' !! i = curv e !! i).
Lemma rot_steps c s e n : wf_curves e → (n <= 12)%nat → ∃ e', foldM (rot_step c s) e (range n) = Ok e' ∧ rot_done c s n e e'.
Proof.
  intros (H1 & H2 & H3). induction n as [|n IH]; intros Hn.
  - exists e. split; [done|]. split; [by destruct e|]. split; [done|]. split; [lia|done].
  - destruct IH as (e' & E & D1 & D2 & D3 & D4); [lia|]. unfold range. rewrite seq_S, foldM_app, Nat.add_0_l. fold (range n). rewrite E. cbn [rbind foldM].
    unfold rot_step at 1. assert (ccurv e' = ccurv e) as Et by (by rewrite D1). rewrite Et.
    destruct (lookup_lt_is_Some_2 (ccurv e) n ltac:(lia)) as [t Ht]. rewrite Ht. cbn [of_opt rbind].
    destruct (String.eqb_spec t "m") as [->|Hm].
    + destruct (lookup_lt_is_Some_2 (curv e) n ltac:(lia)) as [row Hr]. pose proof (D4 n ltac:(left; lia)) as D4n. rewrite D4n, Hr. cbn [of_opt rbind].
      pose proof (proj1 (Forall_lookup _ _) H2 n row Hr) as HL. cbn in HL. destruct row as [|x [|y rest]]; try done.
      eexists. cbn [rbind]. split; [reflexivity|]. unfold rot_done. cbn [set_curv curv]. rewrite insert_length. split; [by rewrite D1|]. split; [done|]. split.
      * intros i row' Hi Hi1 Hi2. destruct (decide (i = n)) as [->|].
        -- rewrite list_lookup_insert by (rewrite D2; lia). rewrite Hr in Hi2. apply (inj Some) in Hi2. by subst row'.
        -- rewrite list_lookup_insert_ne by done. apply D3; [lia|done|done].
      * intros i Hi. destruct (decide (i = n)) as [->|]; [destruct Hi as [Hi|Hi]; [lia|done]|]. rewrite list_lookup_insert_ne by done. apply D4.
        destruct Hi as [Hi|Hi]; [left; lia|by right].
    + exists e'. cbn [rbind]. split; [done|]. split; [done|]. split; [done|]. split.
      * intros i row Hi Hi1 Hi2. destruct (decide (i = n)) as [->|]; [congruence|]. apply D3; [lia|done|done].
      * intros i Hi. apply D4. destruct Hi as [Hi|Hi]; [left; lia|by right].
Qed.
Lemma rotate_elem_eq c s e xs ys rest : pos e = xs :: ys :: rest →
  rotate_elem c s e = foldM (rot_step c s) (set_pos (zip_with (rot_x c s) xs ys :: zip_with (rot_y c s) xs ys :: rest) e) (range 12).
Proof. intros H. unfold rotate_elem. by rewrite H. Qed.
End rotate.
Lemma rotate_elem_ok theta (e : elem (num AR)) : wf_geom_elem e → wf_curves e →
  ∃ e', rotate_elem (A:=AR) (cos theta) (sin theta) e = Ok e' ∧ moved (rotation 0 0 theta) e e'.
Proof.
  intros (lx & ly & lz & Hs & _ & Hp & Hc) Hw. destruct (pos e) as [|xs [|ys [|zs [|]]]] eqn:Ep; try done. clear Hp.
  assert (length xs = length ys) as HL by (rewrite (Hc xs), (Hc ys); [done|repeat constructor|repeat constructor]).
  rewrite (rotate_elem_eq _ _ e xs ys [zs] Ep). set (e1 := set_pos _ e).
  destruct (rot_steps (A:=AR) (cos theta) (sin theta) e1 12) as (e' & E & D1 & D2 & D3 & D4); [done|lia|]. exists e'. split; [done|].
  assert (∀ x y : R, rotation 0 0 theta (x, y, 0%R) = (rot_x (A:=AR) (cos theta) (sin theta) x y, rot_y (A:=AR) (cos theta) (sin theta) x y, 0%R)) as HR.
  { intros x y. unfold rotation, rot_x, rot_y. cbn [AR nadd nsub nmul num]. apply pair_equal_spec; split; [apply pair_equal_spec; split; lra|done]. }
  assert (∀ x y z : R, rotation 0 0 theta (x, y, z) = (rot_x (A:=AR) (cos theta) (sin theta) x y, rot_y (A:=AR) (cos theta) (sin theta) x y, z)) as HR'.
  { intros x y z. specialize (HR x y). unfold rotation in *. apply pair_equal_spec in HR as [HR _]. apply pair_equal_spec; split; [exact HR|done]. }
  split; [rewrite D1; done|]. split; [by rewrite D1|]. split; [done|]. split_and!.
  - intros k j i p Hpt. rewrite D1. unfold point in *. cbn [set_curv set_pos e1 eshape pos]. unfold e1. change (num AR) with R in *. cbn [set_curv set_pos eshape pos]. rewrite Hs in Hpt |- *. destruct ((k <? lz)%nat && (j <? ly)%nat && (i <? lx)%nat); [|discriminate Hpt].
    rewrite Ep in Hpt. cbn [lookup list_lookup mbind option_bind] in *. rewrite !lookup_zip_with.
    destruct (xs !! _) as [x|]; [|done]. destruct (ys !! _) as [y|]; [|done]. destruct (zs !! _) as [z|]; [|done]. cbn [mbind option_bind] in *.
    apply (inj Some) in Hpt. subst p. by rewrite HR'.
  - intros i a b c d f Hm Hr. rewrite HR'. exact (D3 i [a; b; c; d; f] ltac:(destruct Hw as (_ & _ & Hw); apply lookup_lt_Some in Hm; change (num AR) with R in *; lia) Hm Hr).
  - intros i Hi. apply D4. by right.
Qed.
(** ** [map2D] *)
Section map.
Context {A : arith}.
Local Notation N := (num A).
Implicit Types e : elem N.
Definition after (t : string) (i : nat) (v : N * N * N) e : elem N := if String.eqb t "C" then put3 i v e else e.
Lemma edge_mid_inv e i v e1 : edge_mid e i = Ok (v, e1) → ∃ t, ccurv e !! i = Some t ∧ e1 = after t i v e.
Proof.
  unfold edge_mid, after. destruct (curv e !! i) as [row|]; [|done]. cbn [of_opt rbind]. destruct (ccurv e !! i) as [t|]; [|done]. cbn [of_opt rbind].
  destruct row as [|c0 [|c1 [|c2 [|c3 [|c4 [|]]]]]]; try done. intros H. exists t. split; [done|].
  destruct (String.eqb_spec t "m") as [T|_]; [rewrite T; by simplify_eq/=|]. destruct (edge_ends i) as [[[[z1 y1] x1] [[z2 y2] x2]]|]; [|done]. cbn [of_opt rbind] in H.
  destruct (point e z1 y1 x1) as [p1|]; [|done]. destruct (point e z2 y2 x2) as [p2|]; [|done]. cbn [of_opt rbind] in H.
  destruct (String.eqb_spec t "") as [T|_]; [rewrite T; by simplify_eq/=|]. destruct (String.eqb_spec t "C") as [T|_]; [congruence|].
  destruct (String.eqb t "s"); congruence.
Qed.
Lemma edge_mid_ext c e i v t e1 : c !! i = curv e !! i → ccurv e !! i = Some t → edge_mid e i = Ok (v, e1) → edge_mid (set_curv c e) i = Ok (v, after t i v (set_curv c e)).
Proof.
  intros Hc Ht. unfold edge_mid, after. cbn [set_curv curv ccurv]. rewrite Hc, Ht. destruct (curv e !! i) as [row|]; [|done]. cbn [of_opt rbind].
  destruct row as [|c0 [|c1 [|c2 [|c3 [|c4 [|]]]]]]; try done.
  destruct (String.eqb_spec t "m") as [T|_]; [rewrite T; intros H; by simplify_eq/=|]. destruct (edge_ends i) as [[[[z1 y1] x1] [[z2 y2] x2]]|]; [|done]. cbn [of_opt rbind].
  change (point (set_curv c e) z1 y1 x1) with (point e z1 y1 x1). change (point (set_curv c e) z2 y2 x2) with (point e z2 y2 x2).
  destruct (point e z1 y1 x1) as [p1|]; [|done]. destruct (point e z2 y2 x2) as [p2|]; [|done]. cbn [of_opt rbind]. intros H.
  destruct (String.eqb_spec t "") as [T|_]; [rewrite T; by simplify_eq/=|]. destruct (String.eqb_spec t "C") as [T|_]; [congruence|].
  destruct (String.eqb t "s"); by simplify_eq.
Qed.
Lemma point2d e j i : element2d e → (j < 2)%nat → (i < 2)%nat → ∃ p, point e 0 j i = Some p.
Proof.
  intros (Hs & Hp & Hc & _) Hj Hi. destruct (pos e) as [|xs [|ys [|zs [|]]]] eqn:Ep; try done.
  assert (∀ c, c ∈ pos e → ∃ v, c !! (j * 2 + i)%nat = Some v) as X.
  { intros c H. apply lookup_lt_is_Some_2. rewrite Ep in H. rewrite (Hc c H). lia. }
  unfold point. rewrite Hs. rewrite (proj2 (Nat.ltb_lt j 2)), (proj2 (Nat.ltb_lt i 2)) by done. cbn [Nat.ltb Nat.leb andb flat]. rewrite Nat.mul_0_l, Nat.add_0_l.
  rewrite Ep in *. cbn [lookup list_lookup mbind option_bind].
  destruct (X xs) as [x ->]; [repeat constructor|]. destruct (X ys) as [y ->]; [repeat constructor|]. destruct (X zs) as [z ->]; [repeat constructor|]. cbn. eauto.
Qed.
Lemma edge_mid_total e i : element2d e → (i < 4)%nat → ∃ v e1, edge_mid e i = Ok (v, e1).
Proof.
  intros He Hi. pose proof He as (_ & _ & _ & (H1 & H2 & H3) & _). unfold edge_mid.
  destruct (lookup_lt_is_Some_2 (curv e) i ltac:(lia)) as [row Hr]. destruct (lookup_lt_is_Some_2 (ccurv e) i ltac:(lia)) as [t Ht]. rewrite Hr, Ht. cbn [of_opt rbind].
  pose proof (proj1 (Forall_lookup _ _) H2 i row Hr) as HL. cbn in HL. destruct row as [|c0 [|c1 [|c2 [|c3 [|c4 [|]]]]]]; try done.
  destruct (String.eqb t "m"); [eauto|].
  assert (∃ y1 x1 y2 x2, edge_ends i = Some ((0, y1, x1), (0, y2, x2))%nat ∧ (y1 < 2 ∧ x1 < 2 ∧ y2 < 2 ∧ x2 < 2)%nat) as (y1 & x1 & y2 & x2 & E & B).
  { do 4 (destruct i as [|i]; [do 4 eexists; split; [reflexivity|]; lia|]). lia. }
  rewrite E. cbn [of_opt rbind]. destruct (point2d e y1 x1) as [p1 ->]; [done|lia|lia|]. destruct (point2d e y2 x2) as [p2 ->]; [done|lia|lia|]. cbn [of_opt rbind].
  destruct (String.eqb t ""); [eauto|]. destruct (String.eqb t "C"); [eauto|]. destruct (String.eqb t "s"); eauto.
Qed.
Lemma needs_mid_ok cv bcv c e i : element2d e → (i < 4)%nat → ∃ b, needs_mid cv bcv (set_curv c e) i = Ok b ∧ (b = true ↔ to_curve cv bcv e i).
Proof.
  intros (_ & _ & _ & (H1 & H2 & H3) & (row & Hb & HL)) Hi. unfold needs_mid, to_curve. destruct cv; [exists true; split; [done|]; split; [by left|done]|].
  cbn [set_curv ccurv]. destruct (lookup_lt_is_Some_2 (ccurv e) i ltac:(lia)) as [t Ht]. rewrite Ht. cbn [of_opt rbind].
  destruct (String.eqb_spec t "") as [->|Hn]; cbn [negb].
  2:{ exists true. split; [done|]. split; [|done]. intros _. right. left. by exists t. }
  destruct bcv.
  - unfold ebc. cbn [set_curv bcs]. destruct (lookup_lt_is_Some_2 row i ltac:(lia)) as [r Hr]. rewrite Hb. cbn [mbind option_bind]. rewrite Hr. cbn [of_opt rbind].
    eexists. split; [reflexivity|]. split.
    + intros E. right. right. split; [done|]. exists row, r. split; [done|]. split; [done|].
      destruct (String.eqb_spec (bt r) ""); [done|]. destruct (String.eqb_spec (bt r) "E"); done.
    + intros [|[(t & E & X)|(_ & row' & r' & E & E' & X & Y)]]; [done|by simplify_eq|]. simplify_eq.
      destruct (String.eqb_spec (bt r) ""); [done|]. destruct (String.eqb_spec (bt r) "E"); done.
  - exists false. split; [done|]. split; [done|]. intros [|[(t & E & X)|(? & _)]]; [done|by simplify_eq|done].
Qed.
(** The states of the loop over the edges. *)
Definition emid e i : N * N * N := match edge_mid e i with Ok (v, _) => v | Raise _ => (nofZ 0, nofZ 0, nofZ 0) end.
Definition arg_row e i : option (list N) :=
  if decide (ccurv e !! i = Some "C"%string) then (λ row, let '(a, b, c) := emid e i in a :: b :: c :: drop 3 row) <$> curv e !! i else curv e !! i.
Definition edges_done (f : N → N → N * N) (cv bcv : bool) (n : nat) (e me0 : elem N) (s : elem N * elem N) : Prop :=
  let '(el, me) := s in
  el = set_curv (curv el) e ∧ me = set_curv (curv me) (set_ccurv (ccurv me) me0) ∧
  length (curv el) = 12%nat ∧ length (curv me) = 12%nat ∧ length (ccurv me) = 12%nat ∧
  (∀ i, (i < n)%nat → to_curve cv bcv e i → curv el !! i = arg_row e i ∧ ccurv me !! i = Some "m"%string ∧
     ∃ x y z row, emid e i = (x, y, z) ∧ curv e !! i = Some row ∧ curv me !! i = Some ((f x y).1 :: (f x y).2 :: drop 2 row)) ∧
  (∀ i, (n <= i)%nat ∨ ¬ to_curve cv bcv e i → curv el !! i = curv e !! i ∧ ccurv me !! i = ccurv e !! i ∧ curv me !! i = curv e !! i).
Lemma map_edges_ok f cv bcv e me0 n : element2d e → curv me0 = curv e → ccurv me0 = ccurv e → (n <= 4)%nat →
  ∃ s, foldM (map_edge f cv bcv) (e, me0) (range n) = Ok s ∧ edges_done f cv bcv n e me0 s.
Proof.
  intros He Hc0 Hcc0. pose proof He as (_ & _ & _ & (H1 & H2 & H3) & _). induction n as [|n IH]; intros Hn.
  - exists (e, me0). split; [done|]. split; [by destruct e|]. split; [by destruct me0|]. rewrite Hc0, Hcc0. repeat (split; [done|]). split; [lia|done].
  - destruct IH as ([el me] & E & D1 & D2 & D3 & D4 & D5 & D6 & D7); [lia|]. unfold range. rewrite seq_S, foldM_app, Nat.add_0_l. fold (range n). rewrite E. cbn [rbind foldM].
    unfold map_edge at 1. rewrite D1. destruct (needs_mid_ok cv bcv (curv el) e n He ltac:(lia)) as (b & -> & Hb). cbn [rbind].
    destruct (D7 n ltac:(left; lia)) as (N1 & N2 & N3).
    destruct b.
    + destruct (edge_mid_total e n He ltac:(lia)) as (v & e1 & Ev). destruct (edge_mid_inv e n v e1 Ev) as (t & Ht & He1).
      rewrite (edge_mid_ext (curv el) e n v t e1 N1 Ht Ev). cbn [rbind]. destruct v as [[x y] z]. destruct (f x y) as [a b] eqn:Ef.
      cbn [rbind]. eexists. split; [reflexivity|]. destruct (lookup_lt_is_Some_2 (curv e) n ltac:(lia)) as [row Hr].
      assert (emid e n = (x, y, z)) as Em by (unfold emid; by rewrite Ev).
      set (el1 := after t n (x, y, z) (set_curv (curv el) e)).
      assert (el1 = set_curv (curv el1) e ∧ length (curv el1) = 12%nat ∧ curv el1 !! n = arg_row e n ∧ ∀ i, i ≠ n → curv el1 !! i = curv el !! i) as (L1 & L2 & L3 & L4).
      { unfold el1, after, put3, arg_row. rewrite Em. destruct (String.eqb_spec t "C") as [->|X].
        - rewrite decide_True by done. cbn [set_curv curv]. rewrite alter_length. split; [done|]. split; [done|]. split; [by rewrite list_lookup_alter, N1, Hr|].
          intros i Hi. by apply list_lookup_alter_ne.
        - rewrite decide_False by (intros Y; rewrite Ht in Y; by simplify_eq). cbn [set_curv curv]. split; [done|]. split; [done|]. split; [done|]. done. }
      unfold edges_done. split; [done|]. unfold put_mid. cbn [set_curv set_ccurv curv ccurv]. split; [by rewrite D2|]. split; [done|].
      rewrite alter_length, insert_length. split; [done|]. split; [done|]. split.
      * intros i Hi Hto. destruct (decide (i = n)) as [->|Hne].
        -- split; [done|]. split; [apply list_lookup_insert; lia|]. exists x, y, z, row. split; [done|]. split; [done|]. rewrite list_lookup_alter, N3, Hr. by rewrite Ef.
        -- destruct (D6 i ltac:(lia) Hto) as (Q1 & Q2 & Q3). split; [by rewrite L4|]. split; [by rewrite list_lookup_insert_ne|].
           destruct Q3 as (x' & y' & z' & row' & Q3 & Q4 & Q5). exists x', y', z', row'. split; [done|]. split; [done|]. by rewrite list_lookup_alter_ne.
      * intros i Hi. destruct (decide (i = n)) as [->|Hne]; [exfalso; destruct Hi as [Hi|Hi]; [lia|by apply Hi, Hb]|].
        destruct (D7 i) as (Q1 & Q2 & Q3); [destruct Hi as [Hi|Hi]; [left; lia|by right]|]. split; [by rewrite L4|].
        split; [by rewrite list_lookup_insert_ne|by rewrite list_lookup_alter_ne].
    + exists (set_curv (curv el) e, me). cbn [rbind]. split; [done|]. rewrite <- D1. split; [done|]. split; [done|]. repeat (split; [done|]). split.
      * intros i Hi Hto. destruct (decide (i = n)) as [->|]; [exfalso; apply Hb in Hto; done|]. apply D6; [lia|done].
      * intros i Hi. apply D7. destruct (decide (i = n)) as [->|]; [left; lia|]. destruct Hi as [Hi|Hi]; [left; lia|by right].
Qed.
Lemma map_vertices_ok f e : element2d e → ∃ me, foldM (map_vertex f e) e (prod2 (range 2) (range 2)) = Ok me ∧ me = set_pos (pos me) e ∧
  ∀ j i x y z, point e 0 j i = Some (x, y, z) → point me 0 j i = Some ((f x y).1, (f x y).2, z).
Proof.
  intros (Hs & Hp & Hc & _). destruct e as [sh ps v p t s cu cc b]. cbn [pos eshape] in *. subst sh.
  destruct ps as [|xs [|ys [|zs [|]]]]; try done.
  assert (length xs = 4%nat) as Hx by (apply Hc; constructor). assert (length ys = 4%nat) as Hy by (apply Hc; repeat constructor).
  assert (length zs = 4%nat) as Hz by (apply Hc; repeat constructor). clear Hc Hp.
  destruct xs as [|x0 [|x1 [|x2 [|x3 [|]]]]]; try done. destruct ys as [|y0 [|y1 [|y2 [|y3 [|]]]]]; try done. destruct zs as [|z0 [|z1 [|z2 [|z3 [|]]]]]; try done.
  destruct (f x0 y0) as [a0 b0] eqn:E0, (f x1 y1) as [a1 b1] eqn:E1, (f x2 y2) as [a2 b2] eqn:E2, (f x3 y3) as [a3 b3] eqn:E3.
  change (prod2 (range 2) (range 2)) with [(0, 0); (0, 1); (1, 0); (1, 1)]%nat. set (el := Elem _ _ _ _ _ _ _ _ _).
  assert (∀ me : elem N, map_vertex f el me (0, 0)%nat = Ok (put_xy (flat (eshape me) 0 0 0) a0 b0 me)) as M0 by (intros me; cbn; by rewrite E0).
  assert (∀ me : elem N, map_vertex f el me (0, 1)%nat = Ok (put_xy (flat (eshape me) 0 0 1) a1 b1 me)) as M1 by (intros me; cbn; by rewrite E1).
  assert (∀ me : elem N, map_vertex f el me (1, 0)%nat = Ok (put_xy (flat (eshape me) 0 1 0) a2 b2 me)) as M2 by (intros me; cbn; by rewrite E2).
  assert (∀ me : elem N, map_vertex f el me (1, 1)%nat = Ok (put_xy (flat (eshape me) 0 1 1) a3 b3 me)) as M3 by (intros me; cbn; by rewrite E3).
  cbn [foldM]. rewrite M0. cbn [rbind]. rewrite M1. cbn [rbind]. rewrite M2. cbn [rbind]. rewrite M3. cbn [rbind].
  eexists. split; [reflexivity|]. split; [done|]. intros j i x y z H.
  destruct j as [|[|j]]; [| |done]; (destruct i as [|[|i]]; [| |done]); cbn in H |- *; simplify_eq; by rewrite ?E0, ?E1, ?E2, ?E3.
Qed.
Lemma map_elem_ok f cv bcv e : element2d e → ∃ el me, map_elem f cv bcv e = Ok (el, me) ∧ mapped f cv bcv (emid e) e me ∧
  el = set_curv (curv el) e ∧ length (curv el) = 12%nat ∧
  (∀ i, (i < 4)%nat → to_curve cv bcv e i → curv el !! i = arg_row e i) ∧
  (∀ i, (4 <= i)%nat ∨ ¬ to_curve cv bcv e i → curv el !! i = curv e !! i).
Proof.
  intros He. destruct (map_vertices_ok f e He) as (me0 & E0 & F0 & P0). unfold map_elem. rewrite E0. cbn [rbind].
  destruct (map_edges_ok f cv bcv e me0 4 He) as ([el me] & E & D1 & D2 & D3 & D4 & D5 & D6 & D7); [by rewrite F0|by rewrite F0|done|].
  exists el, me. split; [done|]. split.
  { split; [rewrite D2, F0; done|]. split; [done|]. split; [done|]. split; [intros j i x y z H; rewrite D2; exact (P0 j i x y z H)|]. split.
    - intros i Hi Ht. destruct (D6 i Hi Ht) as (_ & Q). exact Q.
    - intros i Hi. destruct (D7 i Hi) as (_ & Q). exact Q. }
  split; [done|]. split; [done|]. split; [intros i Hi Ht; apply D6; done|]. intros i Hi. by apply D7.
Qed.
End map.
(** ** The circle, in terms of the specification *)
Open Scope R_scope.
Lemma circle_cases (p1 p2 m : pt) r c : circle (A:=AR) p1 p2 m = (r, c) →
  (¬ nearly_aligned p1 p2 m → r ≠ 0 ∧ (0 < cross_plane p1 p2 m → r < 0) ∧ (cross_plane p1 p2 m <= 0 → 0 < r)) ∧
  (nearly_aligned p1 p2 m → r = 0 ∧ c = (0, 0, 0)).
Proof.
  intros H. apply circle_found in H. cbn zeta in H. destruct p1 as [[a b] d], p2 as [[x y] z], m as [[u v] w].
  unfold nearly_aligned. cbn [cross2_space dist2_space dot sub3] in *. destruct H as [H1 H2].
  split; intros H; [apply H1|apply H2]; lra.
Qed.
(** Weights that add up to one leave a common height as it is. *)
Lemma circle_height (x1 y1 x2 y2 u v z : R) r a b c : circle (A:=AR) (x1, y1, z) (x2, y2, z) (u, v, z) = (r, (a, b, c)) → r ≠ 0 → c = z.
Proof.
  unfold circle, vsub, vadd, vmul, vdiv, norm2, nsq, two, nlit. cbn [AR nadd nsub nmul ndiv nofZ nsqrt nltb nopp num].
  set (d1 := R_sqrt.sqrt ((u - x1) * (u - x1) + (v - y1) * (v - y1) + (z - z) * (z - z))).
  set (d2 := R_sqrt.sqrt ((x2 - u) * (x2 - u) + (y2 - v) * (y2 - v) + (z - z) * (z - z))).
  set (d3 := R_sqrt.sqrt ((x1 - x2) * (x1 - x2) + (y1 - y2) * (y1 - y2) + (z - z) * (z - z))).
  set (s := (d1 + d2 + d3) / 2). set (P := s * (s - d1) * (s - d2) * (s - d3)). set (area := R_sqrt.sqrt P).
  match goal with |- context [if ?b then _ else _] => destruct b eqn:Eb end.
  2:{ intros H Hr. apply pair_equal_spec in H as [H _]. by rewrite <- H in Hr. }
  intros H _. assert (0 < area) as Ha. { unfold Rltb in Eb. destruct (Rlt_dec _ _) as [Eb2|] in Eb; [|done]. pose proof (sqrt_pos ((u - x1) * (u - x1) + (v - y1) * (v - y1) + (z - z) * (z - z))). pose proof (sqrt_pos ((x2 - u) * (x2 - u) + (y2 - v) * (y2 - v) + (z - z) * (z - z))). fold d1 in H0. fold d2 in H1. assert (0 <= d1 * d2) by (by apply Rmult_le_pos). lra. }
  assert (area * area = P) as HP. { apply sqrt_sqrt. destruct (Rle_dec 0 P); [done|]. exfalso. unfold area in Ha. rewrite sqrt_neg_0 in Ha; lra. }
  apply pair_equal_spec in H as [_ H]. apply pair_equal_spec in H as [_ H]. rewrite <- H, HP. unfold P, s. clear -HP Ha. assert (P ≠ 0) as HP0 by nra. unfold P, s in HP0. field_simplify_eq; [ring|].
  clear -HP0. clearbody d1 d2 d3. split_and!; intros X; apply HP0.
  - replace ((d1 + d2 + d3) / 2 - d3) with ((d1 + d2 + d3 - d3 * 2) / 2) by field. rewrite X. field.
  - replace ((d1 + d2 + d3) / 2 - d2) with ((d1 + d2 + d3 - d2 * 2) / 2) by field. rewrite X. field.
  - replace ((d1 + d2 + d3) / 2 - d1) with ((d1 + d2 + d3 - d1 * 2) / 2) by field. rewrite X. field.
  - rewrite X. field.
Qed.
(** Three points that are not aligned have one circle in their plane. *)
Lemma centre_unique (x1 y1 x2 y2 u v a b a' b' k k' : R) :
  (x1 - u) * (y2 - v) - (y1 - v) * (x2 - u) ≠ 0 →
  (a - x1) ^ 2 + (b - y1) ^ 2 = k → (a - x2) ^ 2 + (b - y2) ^ 2 = k → (a - u) ^ 2 + (b - v) ^ 2 = k →
  (a' - x1) ^ 2 + (b' - y1) ^ 2 = k' → (a' - x2) ^ 2 + (b' - y2) ^ 2 = k' → (a' - u) ^ 2 + (b' - v) ^ 2 = k' → k = k'.
Proof.
  intros HD H1 H2 H3 H1' H2' H3'. set (p := a - a'). set (q := b - b').
  assert (p * (x1 - u) + q * (y1 - v) = 0) as E1 by (unfold p, q; nra).
  assert (p * (x2 - u) + q * (y2 - v) = 0) as E2 by (unfold p, q; nra).
  assert (p * ((x1 - u) * (y2 - v) - (y1 - v) * (x2 - u)) = 0) as P.
  { replace (p * _) with ((p * (x1 - u) + q * (y1 - v)) * (y2 - v) - (p * (x2 - u) + q * (y2 - v)) * (y1 - v)) by ring. rewrite E1, E2. ring. }
  assert (q * ((x1 - u) * (y2 - v) - (y1 - v) * (x2 - u)) = 0) as Q.
  { replace (q * _) with ((p * (x2 - u) + q * (y2 - v)) * (x1 - u) - (p * (x1 - u) + q * (y1 - v)) * (x2 - u)) by ring. rewrite E1, E2. ring. }
  apply Rmult_integral in P as [P|P]; [|done]. apply Rmult_integral in Q as [Q|Q]; [|done].
  unfold p, q in P, Q. rewrite <- H3, <- H3'. replace a with a' by lra. replace b with b' by lra. done.
Qed.
Lemma circle_of_arc (r : R) (x1 y1 x2 y2 z : R) v : arc_middle r (x1, y1, z) (x2, y2, z) v → ¬ nearly_aligned (x1, y1, z) (x2, y2, z) v →
  (circle (A:=AR) (x1, y1, z) (x2, y2, z) v).1 = r.
Proof.
  destruct v as [[u w] h]. intros ((c & C1 & C2 & C3) & _ & _ & Hs & Hh) Hn. cbn [middle_of snd] in Hh. assert (h = z) as -> by lra. clear Hh.
  destruct (circle (A:=AR) (x1, y1, z) (x2, y2, z) (u, w, z)) as [r' [[a' b'] c']] eqn:E. cbn [fst].
  pose proof (circle_cases _ _ _ _ _ E) as [[Hr Hsign] _]; [done|]. pose proof (circle_height _ _ _ _ _ _ _ _ _ _ _ E Hr) as ->.
  apply circle_ok in E as (D1 & D2 & D3); [|done]. destruct c as [[a b] cz]. cbn [dist2_plane dist2_space cross_plane] in *.
  replace ((z - z) ^ 2) with 0 in D1, D2, D3 by ring. rewrite Rplus_0_r in D1, D2, D3.
  assert ((x1 - u) * (y2 - w) - (y1 - w) * (x2 - u) ≠ 0) as HD.
  { intros X. apply Hn. unfold nearly_aligned. cbn [cross2_space dist2_space]. replace (z - z) with 0 by ring. rewrite X.
    assert (0 <= (x1 - u) ^ 2 + (y1 - w) ^ 2 + 0 ^ 2) as Q1 by (pose proof (pow2_ge_0 (x1 - u)); pose proof (pow2_ge_0 (y1 - w)); lra). assert (0 <= (x2 - u) ^ 2 + (y2 - w) ^ 2 + 0 ^ 2) as Q2 by (pose proof (pow2_ge_0 (x2 - u)); pose proof (pow2_ge_0 (y2 - w)); lra). pose proof (Rmult_le_pos _ _ Q1 Q2). replace (((y1 - w) * 0 - 0 * (y2 - w)) ^ 2 + (0 * (x2 - u) - (x1 - u) * 0) ^ 2 + 0 ^ 2) with 0 by ring. lra. }
  assert (r ^ 2 = r' ^ 2) as Er by exact (centre_unique _ _ _ _ _ _ _ _ _ _ _ _ HD C1 C2 C3 D1 D2 D3).
  set (k := (x2 - x1) * (w - y1) - (y2 - y1) * (u - x1)) in *.
  assert (k ≠ 0) as Hk. { intros X. apply HD. unfold k in X. replace ((x1 - u) * (y2 - w) - (y1 - w) * (x2 - u)) with ((x2 - x1) * (w - y1) - (y2 - y1) * (u - x1)) by ring. exact X. }
  assert ((r - r') * (r + r') = 0) as F by nra. apply Rmult_integral in F as [F|F]; [lra|].
  destruct Hsign as [S1 S2]. destruct (Rle_dec k 0) as [L|L]; [specialize (S2 L)|specialize (S1 ltac:(lra))]; exfalso; nra.
Qed.
(** ** Rotations *)
Lemma rotation_dist x0 y0 theta p q : dist2_plane (rotation x0 y0 theta p) (rotation x0 y0 theta q) = dist2_plane p q ∧ dist2_space (rotation x0 y0 theta p) (rotation x0 y0 theta q) = dist2_space p q.
Proof.
  destruct p as [[a b] c], q as [[x y] z]. cbn [rotation dist2_plane dist2_space]. pose proof (sin2_cos2 theta) as H. unfold Rsqr in H.
  set (s := sin theta) in *. set (k := cos theta) in *.
  assert ((x0 + (k * (a - x0) - s * (b - y0)) - (x0 + (k * (x - x0) - s * (y - y0)))) ^ 2 + (y0 + (s * (a - x0) + k * (b - y0)) - (y0 + (s * (x - x0) + k * (y - y0)))) ^ 2
    = (s * s + k * k) * ((a - x) ^ 2 + (b - y) ^ 2)) as -> by ring. rewrite H. split; ring.
Qed.
Lemma rotation_centre x0 y0 theta p : cos theta ≠ 1 → (x0, y0) ≠ (0, 0) → rotation 0 0 theta p ≠ rotation x0 y0 theta p.
Proof.
  destruct p as [[a b] c]. intros Hc Hn H. cbn [rotation] in H. apply pair_equal_spec in H as [H _]. apply pair_equal_spec in H as [H1 H2].
  pose proof (sin2_cos2 theta) as H. unfold Rsqr in H. set (s := sin theta) in *. set (k := cos theta) in *.
  assert (x0 * (1 - k) + y0 * s = 0) as E1 by lra. assert (y0 * (1 - k) - x0 * s = 0) as E2 by lra.
  assert (x0 * (2 - 2 * k) = 0) as F1. { replace (2 - 2 * k) with ((1 - k) * (1 - k) + s * s) by lra. replace (x0 * _) with ((x0 * (1 - k) + y0 * s) * (1 - k) - (y0 * (1 - k) - x0 * s) * s) by ring. rewrite E1, E2. ring. }
  assert (y0 * (2 - 2 * k) = 0) as F2. { replace (2 - 2 * k) with ((1 - k) * (1 - k) + s * s) by lra. replace (y0 * _) with ((x0 * (1 - k) + y0 * s) * s + (y0 * (1 - k) - x0 * s) * (1 - k)) by ring. rewrite E1, E2. ring. }
  apply Rmult_integral in F1 as [F1|F1]; [|lra]. apply Rmult_integral in F2 as [F2|F2]; [|lra]. apply Hn. by rewrite F1, F2.
Qed.
