(** The blocks of the disc: the square and the four quarters. *)
From Coq Require Import Lia Reals Lra.
From Verif Require Import Base Mesh Core Tools Float FloatLaws MeshLemmas MeshSpec CheckProofs OpsProofs GeoLaws BoxSpec BoxProofs MergeSpec MergeProofs MergeTotal
  MergeTypes Disc DiscSpec DiscProofs DiscBlock DiscPlaces DiscJoin P_Disc P_Merge.
Open Scope Z_scope.

(** ** Elements with four corners *)
Definition dist (p p' : R * R) : R := R_sqrt.sqrt ((p.1 - p'.1) * (p.1 - p'.1) + (p.2 - p'.2) * (p.2 - p'.2)).
Lemma eq3 (a b c a' b' c' : R) : a = a' → b = b' → c = c' → Ok (a, b, c) = Ok (a', b', c') :> res (R * R * R).
Proof. congruence. Qed.
Section corners.
Context {A : arith}.
Local Notation N := (num A).
Lemma corners_faces (e : elem N) p00 p01 p10 p11 : corners e p00 p01 p10 p11 →
  let z := mean4 (nofZ (a:=A) 0) (nofZ 0) (nofZ 0) (nofZ 0) in
  face_center e 0 = Ok (mean4 p00.1 p00.1 p01.1 p01.1, mean4 p00.2 p00.2 p01.2 p01.2, z) ∧ face_center e 1 = Ok (mean4 p01.1 p01.1 p11.1 p11.1, mean4 p01.2 p01.2 p11.2 p11.2, z) ∧
  face_center e 2 = Ok (mean4 p10.1 p10.1 p11.1 p11.1, mean4 p10.2 p10.2 p11.2 p11.2, z) ∧ face_center e 3 = Ok (mean4 p00.1 p00.1 p10.1 p10.1, mean4 p00.2 p00.2 p10.2 p10.2, z).
Proof. intros [Hs Hp]. unfold face_center, point_py, point. rewrite Hs, Hp. split_and!; reflexivity. Qed.
Lemma corners_sizes (e : elem N) p00 p01 p10 p11 : corners e p00 p01 p10 p11 →
  let at_ (p : N * N) := (p.1, p.2, nofZ (a:=A) 0) in
  smallest_edge e = Ok (nsqrt (npmin_list (dist2 (at_ p00) (at_ p01)) [dist2 (at_ p01) (at_ p10); dist2 (at_ p10) (at_ p11); dist2 (at_ p11) (at_ p00)])).
Proof. intros [Hs Hp]. unfold smallest_edge, point_py, point. rewrite Hs, Hp. reflexivity. Qed.
End corners.
Lemma corners_center (e : elem (num AR)) (p00 p01 p10 p11 : R * R) : corners (A:=AR) e p00 p01 p10 p11 →
  face_center (A:=AR) e 0 = Ok ((middle p00 p01).1, (middle p00 p01).2, 0%R) ∧ face_center (A:=AR) e 1 = Ok ((middle p01 p11).1, (middle p01 p11).2, 0%R) ∧
  face_center (A:=AR) e 2 = Ok ((middle p10 p11).1, (middle p10 p11).2, 0%R) ∧ face_center (A:=AR) e 3 = Ok ((middle p00 p10).1, (middle p00 p10).2, 0%R).
Proof.
  intros C. destruct (corners_faces (A:=AR) e _ _ _ _ C) as (H0 & H1 & H2 & H3).
  assert (∀ a b, mean4 (A:=AR) a a b b = (a + b) / 2)%R as Hm by (intros a b; unfold mean4; cbn; field).
  assert (mean4 (A:=AR) (nofZ (a:=AR) 0) (nofZ (a:=AR) 0) (nofZ (a:=AR) 0) (nofZ (a:=AR) 0) = 0%R) as Hz by (unfold mean4; cbn; field).
  split_and!; [refine (eq_trans H0 _)|refine (eq_trans H1 _)|refine (eq_trans H2 _)|refine (eq_trans H3 _)]; apply eq3; first [exact Hz|apply Hm].
Qed.
Lemma corners_edge (e : elem (num AR)) (p00 p01 p10 p11 : R * R) : corners (A:=AR) e p00 p01 p10 p11 →
  ∃ sz, smallest_edge (A:=AR) e = Ok sz ∧ (0 <= sz)%R ∧ (sz <= dist p00 p01)%R ∧ (sz <= dist p10 p11)%R.
Proof.
  intros C. eexists. split; [exact (corners_sizes (A:=AR) e _ _ _ _ C)|]. split; [apply R_sqrt.sqrt_pos|].
  set (d1 := dist2 (A:=AR) _ _). set (d2 := dist2 (A:=AR) _ _). set (d3 := dist2 (A:=AR) _ _). set (d4 := dist2 (A:=AR) _ _).
  assert (∀ a b, npmin (A:=AR) a b <= a ∧ npmin (A:=AR) a b <= b)%R as Hm.
  { intros a b. unfold npmin. cbn. unfold Rltb. destruct (Rlt_dec _ _); cbn; [split; lra|]. split; try lra. }
  assert (npmin_list (A:=AR) d1 [d2; d3; d4] <= d1 ∧ npmin_list (A:=AR) d1 [d2; d3; d4] <= d3)%R as [M1 M3].
  { unfold npmin_list. cbn [foldl]. destruct (Hm d1 d2) as [A1 A2]. destruct (Hm (npmin (A:=AR) d1 d2) d3) as [A3 A4]. destruct (Hm (npmin (A:=AR) (npmin (A:=AR) d1 d2) d3) d4) as [A5 A6].
    change (num AR) with R in *. split; lra. }
  split; unfold dist; apply R_sqrt.sqrt_le_1_alt; [eapply Rle_trans; [exact M1|]|eapply Rle_trans; [exact M3|]]; right; unfold d1, d3, dist2, nsq; cbn; ring.
Qed.

(** ** Blocks *)
Lemma cell_back ni nj s s' i j f : (i < ni)%nat → (j < nj)%nat → (f < 4)%nat → ¬ on_boundary ni nj i j f →
  ∃ i' j' g, cell_face ni nj s i j f = ("E"%string, (i', j', g)) ∧ (i' < ni)%nat ∧ (j' < nj)%nat ∧ (g < 4)%nat ∧ ¬ on_boundary ni nj i' j' g ∧
    cell_face ni nj s' i' j' g = ("E"%string, (i, j, f)).
Proof.
  intros Hi Hj Hf Hb. destruct f as [|[|[|[|f]]]]; [| | | |lia]; cbn [on_boundary] in Hb; cbn [cell_face]; rewrite decide_False by done;
    eexists _, _, _; (split; [reflexivity|]); cbn [on_boundary cell_face]; (split; [lia|]); (split; [lia|]); (split; [lia|]); (split; [lia|]); rewrite decide_False by lia; repeat f_equal; lia.
Qed.
Lemma cell_side ni nj s i j f : (f < 4)%nat → on_boundary ni nj i j f →
  (cell_face ni nj s i j f).1 = match f with 0 => s_bottom s | 1 => s_right s | 2 => s_top s | _ => s_left s end%nat.
Proof. intros Hf Hb. destruct f as [|[|[|[|f]]]]; [| | | |lia]; cbn [on_boundary cell_face] in *; by rewrite decide_True. Qed.
Lemma on_boundary_dec ni nj i j f : {on_boundary ni nj i j f} + {¬ on_boundary ni nj i j f}.
Proof. destruct f as [|[|[|f]]]; cbn [on_boundary]; apply Nat.eq_dec. Qed.
(** The two ends of a face. *)
Definition ends (corner : nat → nat → R * R) (i j f : nat) : (R * R) * (R * R) :=
  match f with
  | 0 => (corner j i, corner j (i + 1))
  | 1 => (corner j (i + 1), corner (j + 1) (i + 1))
  | 2 => (corner (j + 1) i, corner (j + 1) (i + 1))
  | _ => (corner j i, corner (j + 1) i)
  end%nat.
Lemma ends_back corner ni nj s i j f i' j' g : (i < ni)%nat → (j < nj)%nat → (f < 4)%nat → ¬ on_boundary ni nj i j f → cell_face ni nj s i j f = ("E"%string, (i', j', g)) →
  ends corner i j f = ends corner i' j' g.
Proof.
  intros Hi Hj Hf Hb. destruct f as [|[|[|[|f]]]]; [| | | |lia]; cbn [on_boundary] in Hb; cbn [cell_face]; rewrite decide_False by done; intros [= <- <- <-]; cbn [ends];
    rewrite ?Nat.sub_add by lia; done.
Qed.
Lemma face_at (e : elem (num AR)) (corner : nat → nat → R * R) i j f : (f < 4)%nat →
  corners (A:=AR) e (corner j i) (corner j (i + 1)%nat) (corner (j + 1)%nat i) (corner (j + 1)%nat (i + 1)%nat) →
  let c := middle (ends corner i j f).1 (ends corner i j f).2 in face_center (A:=AR) e (Z.of_nat f) = Ok (c.1, c.2, 0%R).
Proof.
  intros Hf C. destruct (corners_center e _ _ _ _ C) as (H0 & H1 & H2 & H3). destruct f as [|[|[|[|f]]]]; [| | | |lia]; done.
Qed.
Definition quiet (s : sides) : Prop := ∀ t, t ∈ [s_bottom s; s_right s; s_top s; s_left s] → ¬ is_conn t.
Lemma cell_types ni nj s i j f : (f < 4)%nat → quiet s → on_boundary ni nj i j f → ¬ is_conn (cell_face ni nj s i j f).1.
Proof.
  intros Hf Hq Hb. rewrite cell_side by done. apply Hq. destruct f as [|[|[|[|f]]]]; set_solver.
Qed.
Lemma block_joined (m : mesh) ni nj corner cv sd : wf_mesh (A:=AR) m → ndim m = 2%nat → nel m = (ni * nj)%nat → (0 < nbc m)%nat →
  (∀ i b f r, get_bc m i b f = Some r → bt r ≠ "P"%string) →
  blocked (A:=AR) (elems m) ni nj corner cv → block_entries (A:=AR) m ni nj sd → (∀ b, quiet (sd b)) → joined m.
Proof.
  intros Wm Hd Hn Hnb NP B E Hq.
  assert (∀ k b f rc, in_mesh (A:=AR) m k b f → get_bc m k b f = Some rc → is_conn (bt rc) →
    ∃ i j i' j' g, (i < ni)%nat ∧ (j < nj)%nat ∧ (f < 4)%nat ∧ k = elnum i j ni ∧ ¬ on_boundary ni nj i j f ∧
      cell_face ni nj (sd b) i j f = ("E"%string, (i', j', g)) ∧ (i' < ni)%nat ∧ (j' < nj)%nat ∧ (g < 4)%nat ∧ ¬ on_boundary ni nj i' j' g ∧
      cell_face ni nj (sd b) i' j' g = ("E"%string, (i, j, f)) ∧ bt rc = "E"%string ∧ points (A:=AR) rc (elnum i' j' ni) g) as Key.
  { intros k b f rc (Hk & Hb & Hf) Hrc Hc. rewrite Hn in Hk. apply elnum_div in Hk as (i & j & Hi & Hj & ->). assert (f < 4)%nat as Hf4 by lia.
    destruct (E i j b f Hi Hj Hb Hf4) as (rc' & Hrc' & Hx). assert (rc' = rc) as -> by congruence.
    destruct (on_boundary_dec ni nj i j f) as [Hob|Hob].
    - exfalso. apply (cell_types ni nj (sd b) i j f Hf4 (Hq b) Hob). destruct (cell_face ni nj (sd b) i j f) as [t [[? ?] ?]]. destruct Hx as [<- _]. done.
    - destruct (cell_back ni nj (sd b) (sd b) i j f Hi Hj Hf4 Hob) as (i' & j' & g & E1 & I1 & I2 & I3 & I4 & E2). rewrite E1 in Hx. destruct Hx as [Ht Hp].
      exists i, j, i', j', g. split_and!; try done. by apply Hp. }
  split; [split; [done|split; [|split]]|split; [done|]].
  - intros k b f rc Hin Hrc Hc. destruct (Key k b f rc Hin Hrc Hc) as (i & j & i' & j' & g & Hi & Hj & Hf & -> & Hob & E1 & I1 & I2 & I3 & I4 & E2 & Ht & Hp).
    destruct Hin as (_ & Hb & _). destruct (E i' j' b g I1 I2 Hb I3) as (rc' & Hrc' & Hx). rewrite E2 in Hx. destruct Hx as [Ht' Hp'].
    exists (elnum i' j' ni), g, rc'. split; [split_and!; [rewrite Hn; by apply elnum_lt|done|lia]|]. split; [done|]. split; [done|]. split; [congruence|]. by apply Hp'.
  - intros k b f rc r0 Hin Hrc Hr0 Hc. pose proof Hin as (Hk & Hb & Hf). rewrite Hn in Hk. apply elnum_div in Hk as (i & j & Hi & Hj & ->). assert (f < 4)%nat as Hf4 by lia.
    destruct (E i j b f Hi Hj Hb Hf4) as (rc' & Hrc' & Hx). assert (rc' = rc) as -> by congruence. destruct (E i j 0%nat f Hi Hj Hnb Hf4) as (r0' & Hr0' & Hx0). assert (r0' = r0) as -> by congruence.
    destruct (on_boundary_dec ni nj i j f) as [Hob|Hob].
    + exfalso. pose proof (cell_types ni nj (sd b) i j f Hf4 (Hq b) Hob) as N1. pose proof (cell_types ni nj (sd 0%nat) i j f Hf4 (Hq 0%nat) Hob) as N2.
      destruct (cell_face ni nj (sd b) i j f) as [t [[? ?] ?]], (cell_face ni nj (sd 0%nat) i j f) as [t0 [[? ?] ?]]. destruct Hx as [<- _], Hx0 as [<- _]. cbn [fst] in *. tauto.
    + destruct (cell_back ni nj (sd b) (sd b) i j f Hi Hj Hf4 Hob) as (i' & j' & g & E1 & _). rewrite E1 in Hx. destruct Hx as [Ht Hp].
      assert (cell_face ni nj (sd 0%nat) i j f = ("E"%string, (i', j', g))) as E0.
      { destruct f as [|[|[|[|f]]]]; [| | | |lia]; cbn [on_boundary cell_face] in *; rewrite decide_False in * by done; done. }
      rewrite E0 in Hx0. destruct Hx0 as [Ht0 Hp0]. destruct (Hp Hob), (Hp0 Hob). split; [congruence|]. split; congruence.
  - intros x rc _ Hrc HP. by destruct (NP _ _ _ _ Hrc).
  - intros x y rc Hin Hrc HE HP. destruct (Key x.1 0%nat x.2 rc Hin Hrc (or_introl HE)) as (i & j & i' & j' & g & Hi & Hj & Hf & Ex & Hob & E1 & I1 & I2 & I3 & I4 & E2 & Ht & Hp).
    destruct (points_inj _ _ _ _ _ HP Hp) as [Y1 Y2]. destruct (proj2 B i j Hi Hj) as (e & He & C & _). destruct (proj2 B i' j' I1 I2) as (e' & He' & C' & _).
    pose proof (ends_back corner ni nj (sd 0%nat) i j x.2 i' j' g Hi Hj Hf Hob E1) as EE.
    split. { intros <-. destruct x as [x1 x2]. cbn [fst snd] in *. subst g. destruct x2 as [|[|[|[|?]]]]; [| | | |lia]; cbn [on_boundary cell_face] in *; rewrite decide_False in E1 by done; done. }
    eexists. split; eexists.
    + split; [rewrite Ex; exact He|]. exact (face_at e corner i j x.2 Hf C).
    + split; [rewrite Y1; exact He'|]. rewrite Y2, EE. exact (face_at e' corner i' j' g I3 C').
Qed.

Section parts.
Context (r s : R) (ns no : nat) (cf bf : R → R) (bc : list string).
Notation at_place := (at_place r s ns no bf).
Notation on_mesh := (on_mesh ns no).
Notation size_at := (size_at r s ns no bf).
Notation type_at := (type_at bc).
Notation described := (described r s ns no bf bc).
Notation vertex := (vertex r s ns no cf bf).
Notation diag := (diag r s no bf).
Notation hs := (hs r s).
Definition block_faces (ni nj : nat) (pl : nat → nat → nat → bool * place) : faces := λ x p,
  ∃ i j f, (i < ni)%nat ∧ (j < nj)%nat ∧ (f < 4)%nat ∧ on_boundary ni nj i j f ∧ x = (elnum i j ni, f) ∧ p = pl i j f.
Lemma block_described (m : mesh) ni nj corner cv sd pl : wf_mesh (A:=AR) m → ndim m = 2%nat → lr1 m = [2; 2; 1]%nat → nel m = (ni * nj)%nat → nbc m = length bc → (0 < length bc)%nat →
  (∀ i b f r, get_bc m i b f = Some r → bt r ≠ "P"%string) →
  blocked (A:=AR) (elems m) ni nj corner cv → block_entries (A:=AR) m ni nj sd → (∀ b, quiet (sd b)) →
  (∀ i j f, (i < ni)%nat → (j < nj)%nat → (f < 4)%nat → on_boundary ni nj i j f →
    on_mesh (pl i j f).2 ∧ (∀ b, (b < length bc)%nat → (cell_face ni nj (sd b) i j f).1 = type_at (pl i j f).2 b) ∧
    middle (ends corner i j f).1 (ends corner i j f).2 = at_place (pl i j f).2 ∧
    ∀ sz, (sz <= dist (corner j i) (corner j (i + 1)%nat))%R → (sz <= dist (corner (j + 1)%nat i) (corner (j + 1)%nat (i + 1)%nat))%R → size_at (pl i j f).1 (pl i j f).2 sz) →
  (∀ i j f i' j' f', (i < ni)%nat → (j < nj)%nat → (f < 4)%nat → on_boundary ni nj i j f → (i' < ni)%nat → (j' < nj)%nat → (f' < 4)%nat → on_boundary ni nj i' j' f' →
    (pl i j f).2 = (pl i' j' f').2 → (i, j, f) = (i', j', f')) →
  described m (block_faces ni nj pl).
Proof.
  intros Wm Hd Hl Hn Hb Hpos NP B E Hq H1 H2. split.
  - apply (block_joined m ni nj corner cv sd); try done. by rewrite Hb.
  - done.
  - intros [k f] rc Hk Hf Hrc HE. cbn [fst snd] in *. rewrite Hn in Hk. apply elnum_div in Hk as (i & j & Hi & Hj & ->). exists (pl i j f), i, j, f. split_and!; try done.
    destruct (on_boundary_dec ni nj i j f) as [|Hob]; [done|exfalso]. destruct (E i j 0%nat f Hi Hj ltac:(rewrite Hb; done) Hf) as (rc' & Hrc' & Hx).
    destruct (cell_back ni nj (sd 0%nat) (sd 0%nat) i j f Hi Hj Hf Hob) as (i' & j' & g & E1 & _). rewrite E1 in Hx. destruct Hx as [Hx _]. congruence.
  - intros x p (i & j & f & Hi & Hj & Hf & Hob & -> & ->). cbn [fst snd]. destruct (H1 i j f Hi Hj Hf Hob) as (G1 & G2 & G3 & G4).
    split; [split; [rewrite Hn; by apply elnum_lt|done]|]. split; [done|]. split.
    + intros b Hlt. destruct (E i j b f Hi Hj ltac:(rewrite Hb; done) Hf) as (rc & Hrc & Hx). exists rc. split; [done|]. rewrite <- (G2 b Hlt). destruct (cell_face ni nj (sd b) i j f) as [t [[? ?] ?]]. by destruct Hx.
    + destruct (proj2 B i j Hi Hj) as (e & He & C & _). destruct (corners_edge e _ _ _ _ C) as (sz & S1 & S2 & S3 & S4). exists e, sz.
      split; [done|]. split; [rewrite <- G3; exact (face_at e corner i j f Hf C)|]. split; [done|]. split; [done|]. by apply G4.
  - intros x x' p p' (i & j & f & Hi & Hj & Hf & Hob & -> & ->) (i' & j' & f' & Hi' & Hj' & Hf' & Hob' & -> & ->) Heq.
    assert ((i, j, f) = (i', j', f')) as [= -> -> ->] by (by apply H2). done.
  - intros x p p' (i & j & f & Hi & Hj & Hf & Hob & -> & ->) (i' & j' & f' & Hi' & Hj' & Hf' & Hob' & Ex & ->).
    injection Ex as Ek <-. apply elnum_inj in Ek as [<- <-]; done.
Qed.

Hypothesis (Hr : (0 < r)%R) (Hs : (0 < s < 1)%R) (Hns : (1 ≤ ns)%nat) (Hno : (1 ≤ no)%nat).
Hypothesis (bf0 : bf 0%R = 0%R) (bf1 : bf 1%R = 1%R) (cf0 : cf 0%R = 0%R) (cf1 : cf 1%R = 1%R).
Hypothesis (rising : ∀ i, (i < no)%nat → (bf (along i no) < bf (along (i + 1) no))%R).
Hypothesis (moderate : ∀ j, (j < ns)%nat → (dist (vertex j (no - 1)) (vertex j no) < 40 * (r / INR ns))%R ∧ (dist (vertex j (no - 1)) (vertex j no) < 40 * ((1 - s) * r))%R).
Hypothesis (Hbc : (0 < length bc)%nat) (Hty : ∀ t, t ∈ bc → u3 t ≠ "P"%string ∧ u3 t ≠ "E"%string).

(** *** The square *)
Definition square_places (i j f : nat) : bool * place :=
  (true, match f with 0 => Side 3 i | 1 => Side 0 j | 2 => Side 1 (ns - 1 - i) | _ => Side 2 (ns - 1 - j) end)%nat.
Lemma square_mid_x i j : middle (square_point r s ns i j) (square_point r s ns (i + 1) j) =
  ((2 * INR i + 1) * (hs / INR ns) - hs, hs * (2 * along j ns - 1))%R.
Proof.
  assert (0 < INR ns)%R by (apply lt_0_INR; lia). unfold middle, square_point. cbn [fst snd]. change (half_side r s) with hs. unfold along. rewrite plus_INR. change (INR 1) with 1%R.
  apply pair_equal_spec. split; field; lra.
Qed.
Lemma square_mid_y i j : middle (square_point r s ns i j) (square_point r s ns i (j + 1)) =
  (hs * (2 * along i ns - 1), (2 * INR j + 1) * (hs / INR ns) - hs)%R.
Proof.
  assert (0 < INR ns)%R by (apply lt_0_INR; lia). unfold middle, square_point. cbn [fst snd]. change (half_side r s) with hs. unfold along. rewrite plus_INR. change (INR 1) with 1%R.
  apply pair_equal_spec. split; field; lra.
Qed.
Lemma rev_INR i : (i < ns)%nat → INR (ns - 1 - i) = (INR ns - 1 - INR i)%R.
Proof. intros H. rewrite !minus_INR by lia. done. Qed.
Lemma con_at b : u3 (nth b (replicate (length bc) "con"%string) ""%string) = "con"%string ∨ u3 (nth b (replicate (length bc) "con"%string) ""%string) = ""%string.
Proof.
  destruct (decide (b < length bc)%nat) as [H|H]; [left|right].
  - rewrite (nth_lookup_Some _ _ _ "con"%string); [done|]. by apply lookup_replicate_2.
  - rewrite nth_overflow; [done|]. rewrite replicate_length. lia.
Qed.

Lemma con_in b : (b < length bc)%nat → u3 (nth b (replicate (length bc) "con"%string) ""%string) = "con"%string.
Proof. intros H. rewrite (nth_lookup_Some _ _ _ "con"%string); [done|]. by apply lookup_replicate_2. Qed.
Lemma con_quiet b : ¬ is_conn (u3 (nth b (replicate (length bc) "con"%string) ""%string)).
Proof. intros H. destruct (con_at b) as [E|E]; rewrite E in H; by destruct H. Qed.
Lemma bc_quiet b : ¬ is_conn (u3 (nth b bc ""%string)).
Proof.
  destruct (decide (b < length bc)%nat) as [H|H].
  - destruct (Hty (nth b bc ""%string)) as [P E]; [apply elem_of_list_In, nth_In; done|]. intros [X|X]; done.
  - rewrite nth_overflow by lia. by intros [X|X].
Qed.
Lemma square_described bo var : described (disc_square (A:=AR) bo r s ns var bc true) (block_faces ns ns square_places).
Proof.
  pose proof (square_calm (A:=AR) bo r s ns var bc true) as [Wm Cm]. pose proof (square_blocked (A:=AR) bo r s ns var bc true) as B.
  destruct (fields_set_elems _ _ (square_rest (A:=AR) bo r s ns var bc true)) as (D1 & D2 & _ & D4 & _ & _ & D7 & _).
  set (con := replicate (length bc) "con"%string).
  assert (block_entries (A:=AR) (disc_square (A:=AR) bo r s ns var bc true) ns ns (block_sides con con con con)) as E by (apply block_is_block; done).
  assert (0 < INR ns)%R as Pn by (apply lt_0_INR; lia). pose proof (hs_pos r s Hr Hs) as Ph.
  apply (block_described _ ns ns (λ j i, square_point r s ns i j) (λ _ _, no_curves) (block_sides con con con con)); try done.
  - intros i b f rc Hrc. exact (proj1 (Cm i b f rc Hrc)).
  - split; [exact (proj1 B)|]. intros i j Hi Hj. destruct (proj2 B i j Hi Hj) as (e & He & C & CC). exists e. split; [done|]. split; [|done]. rewrite !square_corner_R in C. exact C.
  - intros b t Ht. cbn [block_sides s_bottom s_right s_top s_left] in Ht. repeat (apply elem_of_cons in Ht as [->|Ht]; [apply con_quiet|]). by apply elem_of_nil in Ht.
  - intros i j f Hi Hj Hf Hob. split_and!.
    + destruct f as [|[|[|[|f]]]]; [| | | |lia]; split; cbn; lia.
    + intros b Hb. rewrite cell_side by done. cbn [block_sides s_bottom s_right s_top s_left]. unfold con. rewrite con_in by done. destruct f as [|[|[|[|f]]]]; [| | | |lia]; done.
    + destruct f as [|[|[|[|f]]]]; [| | | |lia]; cbn [on_boundary] in Hob; cbn [ends fst snd square_places]; unfold DiscPlaces.at_place; cbn [quarter_of].
      * destruct (side_facts r s ns no bf Hr Hs Hns Hno 3 i Hi) as (t & Et & Ev & _). rewrite Et, square_mid_x. cbn [quarters]. rewrite Hob, along_0, Ev. apply pair_equal_spec. split; ring.
      * cbn [quarters base]. rewrite Hob, Nat.sub_add by lia. done.
      * destruct (side_facts r s ns no bf Hr Hs Hns Hno 1 (ns - 1 - i) ltac:(lia)) as (t & Et & Ev & _). rewrite Et, square_mid_x. cbn [quarters]. rewrite Hob, Nat.sub_add, along_n, Ev, rev_INR by lia. apply pair_equal_spec. split; [field; lra|ring].
      * destruct (side_facts r s ns no bf Hr Hs Hns Hno 2 (ns - 1 - j) ltac:(lia)) as (t & Et & Ev & _). rewrite Et, square_mid_y. cbn [quarters]. rewrite Hob, along_0, Ev, rev_INR by lia. apply pair_equal_spec. split; [ring|field; lra].
    + intros sz S1 _. cbn [square_places fst snd]. unfold DiscPlaces.size_at. eapply Rle_trans; [exact S1|]. right. unfold dist, square_point. cbn [fst snd]. change (half_side r s) with hs.
      set (a := (2 * hs / INR ns)%R). replace (_ + _)%R with (a * a)%R; [apply R_sqrt.sqrt_square; left; apply Rdiv_lt_0_compat; lra|]. unfold a, along. rewrite plus_INR. change (INR 1) with 1%R. field. lra.
  - intros i j f i' j' f' Hi Hj Hf Hob Hi' Hj' Hf' Hob' Heq. destruct f as [|[|[|[|f]]]]; [| | | |lia]; destruct f' as [|[|[|[|f']]]]; try lia; cbn [square_places snd on_boundary] in *; try done; injection Heq as Heq; repeat f_equal; lia.
Qed.

(** *** The quarters *)
Definition quarter_places (q i j f : nat) : bool * place :=
  (false, match f with 0 => Seam q i | 1 => Arc q j | 2 => Seam (match q with 3 => 0 | _ => q + 1 end) i | _ => Side q j end)%nat.
Lemma vertex_low i : vertex 0 i = (diag i, - diag i)%R.
Proof.
  unfold DiscPlaces.vertex, mixed_point, DiscPlaces.diag, polar. cbv zeta. rewrite along_0. set (eta := bf (along i no)). set (g := cf eta).
  replace (2 * 0 - 1)%R with (- (1))%R by ring. rewrite atan_opp, atan_1. replace (PI / 2 * (0 - 1 / 2))%R with (- (PI / 4))%R by field.
  replace (g * - (PI / 4) + (1 - g) * - (PI / 4))%R with (- (PI / 4))%R by ring. rewrite cos_neg, sin_neg, cos_PI4, sin_PI4.
  pose proof sqrt2_bounds. unfold DiscPlaces.hs, hc, half_side. apply pair_equal_spec. split; field_simplify_eq; try lra; ring.
Qed.
Lemma vertex_high i : vertex ns i = (diag i, diag i).
Proof.
  pose proof (seam r s ns (bf (along i no)) (cf (bf (along i no))) Hns) as H. fold (vertex 0 i) in H. fold (vertex ns i) in H. rewrite vertex_low in H. cbn [quarters] in H. rewrite <- H.
  apply pair_equal_spec. split; ring.
Qed.
Lemma vertex_in j : vertex j 0 = square_point r s ns ns j.
Proof. unfold DiscPlaces.vertex. rewrite along_0, bf0, cf0. by apply on_square. Qed.
Lemma vertex_out j : vertex j no = arc_point r ns j.
Proof. unfold DiscPlaces.vertex. rewrite along_n, bf1, cf1 by done. apply on_circle. Qed.
Lemma quarters_middle q p p' : middle (quarters q p) (quarters q p') = quarters q (middle p p').
Proof.
  induction q as [|q IH]; [done|]. cbn [quarters]. destruct (quarters q p) as [x y], (quarters q p') as [x' y']. rewrite <- IH. unfold middle. cbn [fst snd]. apply pair_equal_spec. split; field.
Qed.
Lemma quarters_dist q p p' : dist (quarters q p) (quarters q p') = dist p p'.
Proof.
  induction q as [|q IH]; [done|]. cbn [quarters]. rewrite <- IH. destruct (quarters q p) as [x y], (quarters q p') as [x' y']. unfold dist. cbn [fst snd]. f_equal. ring.
Qed.
Record quarter (q : nat) (o : mesh) : Prop := {
  qo_dims : ndim o = 2%nat ∧ nel o = (no * ns)%nat ∧ lr1 o = [2; 2; 1]%nat ∧ nbc o = length bc;
  qo_calm : calm (A:=AR) (Z.of_nat (no * ns)) o;
  qo_blocked : blocked (A:=AR) (elems o) no ns (λ j i, quarters q (vertex j i)) (outer_curves (A:=AR) no r);
  qo_entries : block_entries (A:=AR) o no ns (block_sides (replicate (length bc) "con"%string) bc (replicate (length bc) "con"%string) (replicate (length bc) "con"%string))
}.
Lemma quarter_described q o : (q < 4)%nat → quarter q o → described o (block_faces no ns (quarter_places q)).
Proof.
  intros Hq [(D1 & D2 & D3 & D4) [Wm Cm] B E]. set (con := replicate (length bc) "con"%string) in *.
  assert (0 < INR ns)%R as Pn by (apply lt_0_INR; lia). pose proof (hs_pos r s Hr Hs) as Ph.
  apply (block_described _ no ns (λ j i, quarters q (vertex j i)) (outer_curves (A:=AR) no r) (block_sides con bc con con)); try done.
  - intros i b f rc Hrc. exact (proj1 (Cm i b f rc Hrc)).
  - intros b t Ht. cbn [block_sides s_bottom s_right s_top s_left] in Ht. repeat (apply elem_of_cons in Ht as [->|Ht]; [first [apply con_quiet|apply bc_quiet]|]). by apply elem_of_nil in Ht.
  - intros i j f Hi Hj Hf Hob. split_and!.
    + destruct f as [|[|[|[|f]]]]; [| | | |lia]; split; cbn [quarter_places snd quarter_of]; try lia. destruct q as [|[|[|[|q]]]]; lia.
    + intros b Hb. rewrite cell_side by done. cbn [block_sides s_bottom s_right s_top s_left]. unfold con. rewrite con_in by done. destruct f as [|[|[|[|f]]]]; [| | | |lia]; done.
    + destruct f as [|[|[|[|f]]]]; [| | | |lia]; cbn [on_boundary] in Hob; cbn [ends fst snd quarter_places]; rewrite quarters_middle; unfold DiscPlaces.at_place; cbn [quarter_of base].
      * by rewrite Hob, !vertex_low.
      * by rewrite Hob, Nat.sub_add, !vertex_out by lia.
      * rewrite Hob, Nat.sub_add, !vertex_high by lia. unfold middle. cbn [fst snd]. destruct q as [|[|[|[|q]]]]; [| | | |lia]; cbn [quarters Nat.add]; apply pair_equal_spec; split; field.
      * by rewrite Hob, !vertex_in.
    + intros sz S1 S2. rewrite quarters_dist in S1, S2.
      assert (∀ i, (i < no)%nat → ∀ a, a = 1%R ∨ a = (-1)%R → (dist (diag i, a * diag i) (diag (i + 1), a * diag (i + 1)) <= 3 / 2 * (diag (i + 1) - diag i)))%R as HD.
      { intros k Hk a Ha. destruct (seam_facts r s ns no bf Hr Hs Hns Hno bf0 rising 0 k Hk) as (_ & _ & _ & _ & Hlt). unfold dist. cbn [fst snd].
        set (d := (diag (k + 1) - diag k)%R) in *. assert (0 < d)%R by (unfold d; lra).
        replace (_ + _)%R with (d * d * 2)%R by (unfold d; destruct Ha as [-> | ->]; ring). rewrite R_sqrt.sqrt_mult by nra. rewrite R_sqrt.sqrt_square by lra. pose proof sqrt2_bounds. nra. }
      destruct f as [|[|[|[|f]]]]; [| | | |lia]; cbn [on_boundary] in Hob; cbn [fst snd quarter_places]; unfold DiscPlaces.size_at.
      * rewrite Hob, !vertex_low in S1. eapply Rle_trans; [exact S1|]. pose proof (HD i Hi (-1)%R ltac:(by right)) as X. replace (-1 * diag i)%R with (- diag i)%R in X by ring. replace (-1 * diag (i + 1))%R with (- diag (i + 1))%R in X by ring. exact X.
      * destruct (moderate j Hj) as [M1 M2]. rewrite Hob, Nat.sub_add in S1 by lia. split; eapply Rle_lt_trans; [exact S1|exact M1|exact S1|exact M2].
      * rewrite Hob, Nat.sub_add, !vertex_high in S2 by lia. eapply Rle_trans; [exact S2|]. pose proof (HD i Hi 1%R ltac:(by left)) as X. rewrite !Rmult_1_l in X. exact X.
      * done.
  - intros i j f i' j' f' Hi Hj Hf Hob Hi' Hj' Hf' Hob' Heq. destruct f as [|[|[|[|f]]]]; [| | | |lia]; destruct f' as [|[|[|[|f']]]]; try lia; cbn [quarter_places snd on_boundary] in *; try done; injection Heq as Heq; try (repeat f_equal; lia).
    all: exfalso; destruct q as [|[|[|[|q]]]]; lia.
Qed.
Lemma first_quarter bo var : quarter 0 (disc_o TR bo cf bf r s ns no var bc true).
Proof.
  destruct (fields_set_elems _ _ (o_rest TR bo cf bf r s ns no var bc true)) as (D1 & D2 & _ & D4 & _ & _ & D7 & _).
  split.
  - done.
  - exact (o_calm TR bo cf bf r s ns no var bc true Hno Hty).
  - pose proof (o_blocked TR bo cf bf r s ns no var bc true Hno) as B. split; [exact (proj1 B)|]. intros i j Hi Hj. destruct (proj2 B i j Hi Hj) as (e & He & C & CC). exists e. split; [done|]. split; [|done].
    rewrite !o_corner_R in C. exact C.
  - set (con := replicate (length bc) "con"%string). intros i j b f Hi Hj Hb Hf.
    assert (∀ m k c g, get_bc (disc_curve (A:=AR) r ns no m) k c g = get_bc m k c g) as Hcv.
    { intros m k c g. unfold disc_curve. apply (foldl_inv _ (λ m', get_bc m' k c g = get_bc m k c g)); [done|]. intros m1 jj _ H. rewrite get_bc_alter_elem by done. exact H. }
    unfold disc_o. rewrite Hcv. refine (block_is_block (A:=AR) bo no ns _ var (length bc) con bc con con _ i j b f Hi Hj _ Hf); [done|]. rewrite D4 in Hb.
    match goal with |- (_ < nbc (disc_block ?bo' ?ni ?nj ?pl ?v ?nb ?ib ?b0 ?b1 ?b2 ?b3))%nat => destruct (disc_block_spec (A:=AR) bo' ni nj pl v nb ib b0 b1 b2 b3) as (Rs & _) end.
    destruct (fields_set_elems _ _ Rs) as (_ & _ & _ & -> & _). exact Hb.
Qed.
Lemma next_quarter q o : quarter q o → let t := nmul (a:=AR) half (pi TR) in
  ∃ o', rotate_2d (A:=AR) (cosf TR t) (sinf TR t) (nofZ (a:=AR) 0) (nofZ (a:=AR) 0) o = Ok o' ∧ quarter (S q) o'.
Proof.
  intros [Dm Cm B E] t. destruct (rotate_blocked (A:=AR) (cosf TR t) (sinf TR t) (nofZ (a:=AR) 0) (nofZ (a:=AR) 0) o _ _ _ _ B (outer_curves_mid (A:=AR) no r)) as (Er & B' & Hp).
  eexists. split; [exact Er|]. split.
  - exact Dm.
  - exact (turned_calm (A:=AR) _ _ _ o _ _ _ _ B (outer_curves_mid (A:=AR) no r) Cm).
  - split; [exact (proj1 B')|]. intros i j Hi Hj. destruct (proj2 B' i j Hi Hj) as (e & He & C & CC). exists e. split; [done|]. split; [|done].
    assert (∀ p, turn (A:=AR) (cosf TR t) (sinf TR t) (quarters q p) = quarters (S q) p) as Ht.
    { intros p. unfold t. cbn [TR cosf sinf pi]. change (nmul (a:=AR) half PI) with (half (A:=AR) * PI)%R. rewrite half_R, turn_quarter. cbn [quarters]. done. }
    rewrite !Ht in C. exact C.
  - intros i j b f Hi Hj Hb Hf. destruct (E i j b f Hi Hj Hb Hf) as (rc & Hrc & Hx). exists rc. split; [|exact Hx]. rewrite <- Hrc.
    unfold get_bc. cbn [set_elems elems]. rewrite list_lookup_fmap. destruct (elems o !! elnum i j no) as [e|] eqn:He; [|done]. cbn [fmap option_fmap option_map mbind option_bind].
    rewrite (Hp e (elem_of_list_lookup_2 _ _ _ He)). done.
Qed.
End parts.
