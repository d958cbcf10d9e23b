(** Proofs about the edges that elements of the result of [extrude_mid] share. *)
From Coq Require Import Lia.
From Verif Require Import Base Mesh Core Tools Curve Mid MeshLemmas MeshSpec CheckProofs OpsProofs GeoLaws BoxProofs
  ExtrudeSpec ExtrudeProofs MidSpec MidProofs MidBlock MidMesh MidEdgeSpec.
Open Scope Z_scope.

Section fit.
Context {A : arith}.
Notation N := (num A).
Implicit Types (e : elem N) (m : hexa N) (d : cut_elem (A:=A)).

(** What an edge is part of. *)
Inductive kind := KNone | KSide (s : nat) | KCut | KHalf (far : bool) (s : nat).
Definition kind_of d (n c : nat) : kind :=
  match edge_ends c with
  | None => KNone
  | Some ((l, j, i), (l', j', i')) =>
    let k := fst (place n l (is_low d j i)) in let k' := fst (place n l' (is_low d j' i')) in
    if (c <? 8)%nat then
      if Bool.eqb (is_low d j i) (is_low d j' i') then (if k then KCut else KSide (c mod 4))
      else if k || k' then KHalf (if is_low d j i then k else k') (c mod 4) else KSide (c mod 4)
    else if Bool.eqb k k' then KNone else KHalf true (cut_side_at d j i)
  end.
Definition curve d (K : kind) : option (N * N) :=
  match K with KNone => None | KSide s => whole_side d s | KCut => cut_middle d | KHalf far s => half_of d far s end.
Definition zmid (z : list N) (H H' : nat) : N :=
  if (H =? H')%nat then nth H z (nofZ 0) else nmul (nlit 1 2) (nadd (nth (Nat.min H H') z (nofZ 0)) (nth (Nat.max H H') z (nofZ 0))).
Lemma zmid_sym z H H' : zmid z H H' = zmid z H' H.
Proof. unfold zmid. rewrite Nat.min_comm, Nat.max_comm, (Nat.eqb_sym H' H). destruct (Nat.eqb_spec H H') as [->|]; done. Qed.
(** Where a vertex is, seen from above, and its height. *)
Definition vxy d n l j i : N * N := xy (if fst (place n l (is_low d j i)) then at_middle d (cut_side_at d j i) else at_corner d j i).
Definition vh d n l j i : nat := snd (place n l (is_low d j i)).
Lemma expected_kind d z k n c l j i l' j' i' : edge_ends c = Some ((l, j, i), (l', j', i')) →
  expected d (zk z k) n c = '(x, y) ← curve d (kind_of d n c); Some (x, y, zmid z (4 * k + vh d n l j i) (4 * k + vh d n l' j' i')).
Proof.
  intros E. unfold expected, kind_of, vh. rewrite E. destruct (place n l (is_low d j i)) as [a h]. destruct (place n l' (is_low d j' i')) as [a' h']. cbn [fst snd].
  assert ((if (h =? h')%nat then zk z k h else nmul (nlit 1 2) (nadd (zk z k (h `min` h')) (zk z k (h `max` h')))) = zmid z (4 * k + h) (4 * k + h')) as ->.
  { unfold zmid, zk. destruct (Nat.eqb_spec h h') as [->|Hn]; [by rewrite Nat.eqb_refl|]. destruct (Nat.eqb_spec (4 * k + h) (4 * k + h')) as [|_]; [lia|].
    by rewrite Nat.add_min_distr_l, Nat.add_max_distr_l. }
  destruct (c <? 8)%nat.
  - destruct (Bool.eqb _ _); [by destruct a|]. by destruct (a || a').
  - by destruct (Bool.eqb a a').
Qed.

Definition corner_on d (n : nat) (P Q : N * N) : Prop :=
  let '((j, i), (j', i')) := side_ends n in P = xy (at_corner d j i) ∧ Q = xy (at_corner d j' i').
Definition is_cut d (n : nat) : Prop := (n < 4)%nat ∧ let '((j, i), (j', i')) := side_ends n in is_low d j i ≠ is_low d j' i'.
Definition descr d (K : kind) (P : N * N) (H : nat) (P' : N * N) (H' : nat) : Prop :=
  match K with
  | KNone => P = P' ∧ H ≠ H'
  | KSide s => H = H' ∧ (s < 4)%nat ∧ (corner_on d s P P' ∨ corner_on d s P' P)
  | KCut => H = H' ∧ let '(_, _, a, b) := sides_of d in
            P = xy (at_middle d a) ∧ P' = xy (at_middle d b) ∨ P' = xy (at_middle d a) ∧ P = xy (at_middle d b)
  | KHalf far s => is_cut d s ∧ (P = xy (at_middle d s) ∧ P' = xy (end_of d (negb far) s) ∨ P' = xy (at_middle d s) ∧ P = xy (end_of d (negb far) s))
  end.
Lemma descr_sym d K P H P' H' : descr d K P H P' H' → descr d K P' H' P H.
Proof.
  destruct K; cbn [descr].
  - intros [-> ?]. by split.
  - intros (-> & ? & [?|?]); split_and!; tauto.
  - destruct (sides_of d) as [[[lo hi] a] b]. intros [-> [[? ?]|[? ?]]]; split; tauto.
  - intros [? [[? ?]|[? ?]]]; split; tauto.
Qed.
Lemma edge_descr (b00 b01 b10 b11 : bool) cor mid bnt n c :
  (b00 = b10 ∧ b01 = b11 ∧ b00 ≠ b01) ∨ (b00 = b01 ∧ b10 = b11 ∧ b00 ≠ b10) → (n < 6)%nat → (c < 12)%nat →
  let d := CutElem (A:=A) (pick4 b00 b01 b10 b11) cor mid bnt in
  ∃ l j i l' j' i', edge_ends c = Some ((l, j, i), (l', j', i')) ∧ (l < 2 ∧ j < 2 ∧ i < 2 ∧ l' < 2 ∧ j' < 2 ∧ i' < 2)%nat ∧
    (vh d n l j i < 5)%nat ∧ (vh d n l' j' i' < 5)%nat ∧
    descr d (kind_of d n c) (vxy d n l j i) (vh d n l j i) (vxy d n l' j' i') (vh d n l' j' i').
Proof.
  intros Hb Hn Hc d.
  assert (∃ b0 b1, (b00, b01, b10, b11) = (b0, b1, b0, b1) ∧ b1 = negb b0 ∨ (b00, b01, b10, b11) = (b0, b0, b1, b1) ∧ b1 = negb b0) as (x & y & [[[= -> -> -> ->] ->]|[[= -> -> -> ->] ->]]).
  { exists b00. destruct Hb as [(<- & <- & H)|(<- & <- & H)]; eexists; [left; split; [reflexivity|]; by destruct b00, b01|right; split; [reflexivity|]; by destruct b00, b10]. }
  all: clear Hb; subst d; destruct x; cbn [negb].
  all: destruct c as [|[|[|[|[|[|[|[|[|[|[|[|c]]]]]]]]]]]]; [..|lia].
  all: do 6 eexists; (split; [reflexivity|]); (split; [lia|]).
  all: destruct n as [|[|[|[|[|[|n]]]]]]; [..|lia].
  all: (split; [vm_compute; lia|]); (split; [vm_compute; lia|]).
  all: match goal with |- descr ?d ?K ?P ?H ?Q ?H' =>
    let K' := eval vm_compute in K in let h := eval vm_compute in H in let h' := eval vm_compute in H' in
    change (descr d K' P h Q h') end; cbn [descr].
  all: try (split; [reflexivity|lia]).
  all: try (split; [reflexivity|]; split; [lia|]; first [left; split; reflexivity|right; split; reflexivity]).
  all: try (split; [reflexivity|]; first [left; split; reflexivity|right; split; reflexivity]).
  all: (split; [split; [lia|vm_compute; discriminate]|]; first [left; split; reflexivity|right; split; reflexivity]).
Qed.

(** ** A 2D element *)
Lemma cut_side f e n : is_cut (cut_of f e) n ↔ side_cut f e n.
Proof.
  unfold is_cut, side_cut, side_low. destruct (decide (n < 4)%nat) as [Hn|Hn]; [|split; intros [? _]; lia].
  destruct n as [|[|[|[|]]]]; [..|lia]; cbn; tauto.
Qed.
Lemma corner_side f e n P Q : (n < 4)%nat → corner_on (cut_of f e) n P Q ↔ side_at e n P Q.
Proof. intros Hn. destruct n as [|[|[|[|]]]]; [..|lia]; done. Qed.
Lemma middle_side f e n : (n < 4)%nat → at_middle (cut_of f e) n = middle_of e n.
Proof. intros Hn. destruct n as [|[|[|[|]]]]; [..|lia]; done. Qed.
Lemma bent_side f e n : (n < 4)%nat → bent (cut_of f e) n = edge_middle e n.
Proof. intros Hn. destruct n as [|[|[|[|]]]]; [..|lia]; done. Qed.
Lemma side_corners e n P Q : (n < 4)%nat → side_at e n P Q →
  (∃ j i, (j < 2)%nat ∧ (i < 2)%nat ∧ P = xy (corner_of e j i)) ∧ (∃ j i, (j < 2)%nat ∧ (i < 2)%nat ∧ Q = xy (corner_of e j i)).
Proof. intros Hn. destruct n as [|[|[|[|]]]]; [..|lia]; cbn; intros [-> ->]; split; do 2 eexists; (split; [|split; [|reflexivity]]; lia). Qed.
Lemma low_xy f e j i j' i' e' : four_points e → four_points e' → (j < 2)%nat → (i < 2)%nat → (j' < 2)%nat → (i' < 2)%nat →
  xy (corner_of e j i) = xy (corner_of e' j' i') → low f e j i = low f e' j' i'.
Proof.
  intros H4 H4' Hj Hi Hj' Hi'. unfold low, corner_of. destruct (four_point e j i H4 Hj Hi) as [[[x y] z] ->].
  destruct (four_point e' j' i' H4' Hj' Hi') as [[[x' y'] z'] ->]. unfold xy. cbn. intros H. apply pair_equal_spec in H as [-> ->]. done.
Qed.
(** The two ends of a cut side: the low one and the high one. *)
Definition cut_ends f e n (P Q : N * N) : Prop := P = xy (end_of (cut_of f e) true n) ∧ Q = xy (end_of (cut_of f e) false n).
Definition low_at f e (P : N * N) (b : bool) : Prop := ∃ j i, (j < 2)%nat ∧ (i < 2)%nat ∧ P = xy (corner_of e j i) ∧ low f e j i = b.
Lemma end_low f e n b : side_cut f e n → low_at f e (xy (end_of (cut_of f e) b n)) b.
Proof.
  intros [Hn Hc]. unfold side_low in Hc. destruct n as [|[|[|[|]]]]; [..|lia]; cbn in Hc;
    unfold end_of; cbn [side_ends nth cut_of is_low at_corner pick4];
    match goal with |- context [Bool.eqb ?x b] => destruct (Bool.eqb_spec x b) as [E|E] end;
    do 2 eexists; (split; [|split; [|split; [reflexivity|]]]); try lia; try exact E;
    match goal with |- ?g = _ => destruct g, b; try done; exfalso end;
    match type of Hc with ?x ≠ ?y => destruct x, y; done end.
Qed.
Lemma low_at_same f e e' P b b' : four_points e → four_points e' → low_at f e P b → low_at f e' P b' → b = b'.
Proof. intros H4 H4' (j & i & Hj & Hi & -> & <-) (j' & i' & Hj' & Hi' & E & <-). by eapply low_xy. Qed.
Lemma side_cut_ends f e n P Q : side_cut f e n → side_at e n P Q → cut_ends f e n P Q ∨ cut_ends f e n Q P.
Proof.
  intros [Hn Hc]. unfold side_low in Hc. unfold cut_ends, end_of. destruct n as [|[|[|[|]]]]; [..|lia]; cbn in Hc; cbn; intros [-> ->];
    match type of Hc with ?x ≠ ?y => destruct x, y; try done end; tauto.
Qed.
Lemma sides_cut f e : cut_across f e → let '(_, _, a, b) := sides_of (cut_of f e) in side_cut f e a ∧ side_cut f e b ∧
  ∀ j i, (j < 2)%nat → (i < 2)%nat → ∃ P Q, (side_at e a P Q ∨ side_at e b P Q) ∧ (xy (corner_of e j i) = P ∨ xy (corner_of e j i) = Q).
Proof.
  unfold cut_across, sides_of. cbn [cut_of is_low pick4]. unfold side_cut, side_low. intros H.
  assert (∀ j i, (j < 2)%nat → (i < 2)%nat → (∃ P Q, (side_at e 0 P Q ∨ side_at e 2 P Q) ∧ (xy (corner_of e j i) = P ∨ xy (corner_of e j i) = Q)) ∧
    (∃ P Q, (side_at e 3 P Q ∨ side_at e 1 P Q) ∧ (xy (corner_of e j i) = P ∨ xy (corner_of e j i) = Q))) as Hco.
  { intros j i Hj Hi. assert ((j = 0 ∨ j = 1) ∧ (i = 0 ∨ i = 1))%nat as [[-> | ->] [-> | ->]] by lia; cbn; split; do 2 eexists;
      (first [split; [left; split; reflexivity|]; tauto|split; [right; split; reflexivity|]; tauto]). }
  destruct (low f e 0 0) eqn:L1, (low f e 1 0) eqn:L2, (low f e 0 1) eqn:L3, (low f e 1 1) eqn:L4;
    try (exfalso; destruct H as [(? & ? & ?)|(? & ? & ?)]; congruence); cbn; rewrite ?L1, ?L2, ?L3, ?L4;
    (split; [split; [lia|done]|]); (split; [split; [lia|done]|]); intros j i Hj Hi; by apply Hco.
Qed.
Lemma cut_point_at f e j i p : cut_across f e → (j < 2)%nat → (i < 2)%nat → cut_point f e j i p →
  at_middle (cut_of f e) (cut_side_at (cut_of f e) j i) = p.
Proof.
  intros Hc Hj Hi (n & e' & [Hn Hs] & Hend & Em).
  assert (cut_side_at (cut_of f e) j i = n) as ->.
  { clear Em. unfold side_low in Hs. unfold cut_side_at, sides_of. cbn [cut_of is_low pick4]. unfold cut_across in Hc.
    assert ((j = 0 ∨ j = 1) ∧ (i = 0 ∨ i = 1))%nat as [[-> | ->] [-> | ->]] by lia;
    destruct n as [|[|[|[|]]]]; try lia; cbn in Hs, Hend; try (exfalso; destruct Hend; congruence);
    destruct (low f e 0 0), (low f e 1 0), (low f e 0 1), (low f e 1 1); try done; try (exfalso; destruct Hc as [(? & ? & ?)|(? & ? & ?)]; congruence). }
  rewrite middle_side by done. unfold middle_of. by rewrite Em.
Qed.
Lemma half_xy (lo mid hi lo' mid' hi' : N * N * N) : xy lo = xy lo' → xy mid = xy mid' → xy hi = xy hi' → side_halves lo mid hi = side_halves lo' mid' hi'.
Proof.
  destruct lo as [[? ?] ?], mid as [[? ?] ?], hi as [[? ?] ?], lo' as [[? ?] ?], mid' as [[? ?] ?], hi' as [[? ?] ?]. unfold xy. cbn [fst snd].
  intros H1 H2 H3. apply pair_equal_spec in H1 as [-> ->]. apply pair_equal_spec in H2 as [-> ->]. apply pair_equal_spec in H3 as [-> ->]. done.
Qed.

Lemma curve_fit f m i1 i2 e1 e2 K1 K2 P H P' H' : sides_agree m → cuts_apart f m → no_twins m →
  (∀ e, e ∈ elems m → four_points e ∧ cut_across f e) → elems m !! i1 = Some e1 → elems m !! i2 = Some e2 →
  descr (cut_of f e1) K1 P H P' H' → descr (cut_of f e2) K2 P H P' H' → curve (cut_of f e1) K1 = curve (cut_of f e2) K2.
Proof.
  intros Hs Ha Ht He E1 E2. pose proof (elem_of_list_lookup_2 _ _ _ E1) as I1. pose proof (elem_of_list_lookup_2 _ _ _ E2) as I2.
  assert (∀ e e' n n', e ∈ elems m → e' ∈ elems m → side_cut f e n → (n' < 4)%nat → ∀ P Q, side_at e' n' P Q → xy (middle_of e n) ≠ P ∧ xy (middle_of e n) ≠ Q) as Hmc.
  { intros e e' n n' Hi Hi' Hc Hn' R S HRS. destruct (Ha e e' n Hi Hi' Hc) as [Hx _]. destruct (side_corners e' n' R S Hn' HRS) as [(j & i & Hj & Hk & ->) (j' & i' & Hj' & Hk' & ->)].
    split; by apply Hx. }
  assert (∀ e e' n n' b, e ∈ elems m → e' ∈ elems m → side_cut f e n → side_cut f e' n' → xy (middle_of e n) ≠ xy (end_of (cut_of f e') b n')) as Hme.
  { intros e e' n n' b Hi Hi' Hc Hc'. destruct (end_low f e' n' b Hc') as (j & i & Hj & Hk & -> & _). by apply (Ha e e' n Hi Hi' Hc). }
  assert (∀ e s, e ∈ elems m → is_cut (cut_of f e) s → side_cut f e s ∧ at_middle (cut_of f e) s = middle_of e s) as Hcut.
  { intros e s Hi Hc. apply cut_side in Hc. split; [done|]. apply middle_side. apply Hc. }
  pose proof (sides_cut f e1 (proj2 (He e1 I1))) as S1. pose proof (sides_cut f e2 (proj2 (He e2 I2))) as S2.
  destruct K1 as [|s1| |far1 s1], K2 as [|s2| |far2 s2]; cbn [descr]; try done.
  (* none *)
  - by intros [_ Hn] [Hh _].
  - by intros [_ Hn] [Hh _].
  - intros [-> _] [Hc Hx]. destruct (Hcut e2 s2 I2 Hc) as [Hc' Em]. rewrite Em in Hx. exfalso. pose proof (Hme e2 e2 s2 s2 (negb far2) I2 I2 Hc' Hc').
    destruct Hx as [[? ?]|[? ?]]; congruence.
  - by intros [Hh _] [_ Hn].
  (* sides *)
  - intros (_ & Hn1 & D1) (_ & Hn2 & D2). rewrite !corner_side in D1 by done. rewrite !corner_side in D2 by done.
    assert (same_side_ends e1 s1 e2 s2) as Hss. { destruct D1 as [D1|D1]; [exists P, P'|exists P', P]; split; [done|tauto|done|tauto]. }
    pose proof (Hs e1 e2 s1 s2 I1 I2 Hn1 Hn2 Hss) as Hm. cbn [curve]. unfold whole_side. rewrite !bent_side by done.
    destruct (edge_middle e1 s1) as [[[x y] w]|], (edge_middle e2 s2) as [[[x' y'] w']|]; try done.
  - intros (_ & Hn1 & D1) [_ D2]. rewrite !corner_side in D1 by done. destruct (sides_of (cut_of f e2)) as [[[lo hi] a] b]. destruct S2 as (Ca & Cb & _).
    rewrite !middle_side in D2 by (apply Ca || apply Cb). exfalso.
    destruct D1 as [D1|D1]; pose proof (Hmc e2 e1 a s1 I2 I1 Ca Hn1 _ _ D1) as [? ?]; pose proof (Hmc e2 e1 b s1 I2 I1 Cb Hn1 _ _ D1) as [? ?]; destruct D2 as [[? ?]|[? ?]]; congruence.
  - intros (_ & Hn1 & D1) [Hc D2]. rewrite !corner_side in D1 by done. destruct (Hcut e2 s2 I2 Hc) as [Hc' Em]. rewrite Em in D2. exfalso.
    destruct D1 as [D1|D1]; pose proof (Hmc e2 e1 s2 s1 I2 I1 Hc' Hn1 _ _ D1) as [? ?]; destruct D2 as [[? ?]|[? ?]]; congruence.
  (* cuts *)
  - by intros [Hh _] [_ Hn].
  - intros [_ D1] (_ & Hn2 & D2). rewrite !corner_side in D2 by done. destruct (sides_of (cut_of f e1)) as [[[lo hi] a] b]. destruct S1 as (Ca & Cb & _).
    rewrite !middle_side in D1 by (apply Ca || apply Cb). exfalso.
    destruct D2 as [D2|D2]; pose proof (Hmc e1 e2 a s2 I1 I2 Ca Hn2 _ _ D2) as [? ?]; pose proof (Hmc e1 e2 b s2 I1 I2 Cb Hn2 _ _ D2) as [? ?]; destruct D1 as [[? ?]|[? ?]]; congruence.
  - intros [_ D1] [_ D2]. assert (i1 = i2) as ->; [|by rewrite E1 in E2; injection E2 as ->].
    destruct (sides_of (cut_of f e1)) as [[[lo hi] a] b]. destruct S1 as (Ca & Cb & Hall).
    destruct (sides_of (cut_of f e2)) as [[[lo' hi'] a'] b']. destruct S2 as (Ca' & Cb' & _).
    rewrite !middle_side in D1 by (apply Ca || apply Cb). rewrite !middle_side in D2 by (apply Ca' || apply Cb').
    apply (Ht i1 i2 e1 e2 E1 E2). intros j k Hj Hk. destruct (Hall j k Hj Hk) as (R & S & Hab & Hx).
    assert (∃ n n', side_cut f e1 n ∧ side_cut f e2 n' ∧ side_at e1 n R S ∧ xy (middle_of e1 n) = xy (middle_of e2 n')) as (n & n' & Hn & Hn' & Hat & Hm).
    { destruct Hab as [Hab|Hab]; [exists a|exists b]; (destruct D1 as [[? ?]|[? ?]], D2 as [[? ?]|[? ?]]); (first [exists a'; split_and!; [done|done|done|congruence]|exists b'; split_and!; [done|done|done|congruence]]). }
    destruct (Ha e1 e2 n I1 I2 Hn) as [_ Hx2]. destruct (Hx2 n' Hn' Hm) as (R' & S' & H1 & H2).
    assert (R' = R ∧ S' = S) as [-> ->]. { destruct n as [|[|[|[|]]]]; cbn in H1, Hat; try (destruct Hn as [? _]; lia); destruct H1 as [-> ->], Hat as [-> ->]; done. }
    assert ((∃ j i, (j < 2)%nat ∧ (i < 2)%nat ∧ R = xy (corner_of e2 j i)) ∧ (∃ j i, (j < 2)%nat ∧ (i < 2)%nat ∧ S = xy (corner_of e2 j i))) as [(j1 & k1 & ? & ? & ER) (j2 & k2 & ? & ? & ES)].
    { destruct Hn' as [Hn' _]. destruct H2 as [H2|H2]; apply (side_corners e2 n' _ _ Hn') in H2; tauto. }
    destruct Hx as [->| ->]; eauto 10.
  - intros [_ D1] [Hc D2]. destruct (Hcut e2 s2 I2 Hc) as [Hc' Em]. rewrite Em in D2. destruct (sides_of (cut_of f e1)) as [[[lo hi] a] b]. destruct S1 as (Ca & Cb & _).
    rewrite !middle_side in D1 by (apply Ca || apply Cb). exfalso.
    pose proof (Hme e1 e2 a s2 (negb far2) I1 I2 Ca Hc'). pose proof (Hme e1 e2 b s2 (negb far2) I1 I2 Cb Hc'). destruct D1 as [[? ?]|[? ?]], D2 as [[? ?]|[? ?]]; congruence.
  (* halves *)
  - intros [Hc D1] [-> _]. destruct (Hcut e1 s1 I1 Hc) as [Hc' Em]. rewrite Em in D1. exfalso. pose proof (Hme e1 e1 s1 s1 (negb far1) I1 I1 Hc' Hc').
    destruct D1 as [[? ?]|[? ?]]; congruence.
  - intros [Hc D1] (_ & Hn2 & D2). rewrite !corner_side in D2 by done. destruct (Hcut e1 s1 I1 Hc) as [Hc' Em]. rewrite Em in D1. exfalso.
    destruct D2 as [D2|D2]; pose proof (Hmc e1 e2 s1 s2 I1 I2 Hc' Hn2 _ _ D2) as [? ?]; destruct D1 as [[? ?]|[? ?]]; congruence.
  - intros [Hc D1] [_ D2]. destruct (Hcut e1 s1 I1 Hc) as [Hc' Em]. rewrite Em in D1. destruct (sides_of (cut_of f e2)) as [[[lo hi] a] b]. destruct S2 as (Ca & Cb & _).
    rewrite !middle_side in D2 by (apply Ca || apply Cb). exfalso.
    pose proof (Hme e2 e1 a s1 (negb far1) I2 I1 Ca Hc'). pose proof (Hme e2 e1 b s1 (negb far1) I2 I1 Cb Hc'). destruct D1 as [[? ?]|[? ?]], D2 as [[? ?]|[? ?]]; congruence.
  - intros [Hc1 D1] [Hc2 D2]. destruct (Hcut e1 s1 I1 Hc1) as [C1 Em1]. destruct (Hcut e2 s2 I2 Hc2) as [C2 Em2]. rewrite Em1 in D1. rewrite Em2 in D2.
    assert (xy (middle_of e1 s1) = xy (middle_of e2 s2) ∧ xy (end_of (cut_of f e1) (negb far1) s1) = xy (end_of (cut_of f e2) (negb far2) s2)) as [Hm Hend].
    { pose proof (Hme e1 e2 s1 s2 (negb far2) I1 I2 C1 C2). pose proof (Hme e2 e1 s2 s1 (negb far1) I2 I1 C2 C1).
      destruct D1 as [[? ?]|[? ?]], D2 as [[? ?]|[? ?]]; split; congruence. }
    assert (far1 = far2) as ->.
    { assert (negb far1 = negb far2) as Hf; [|by destruct far1, far2]. pose proof (end_low f e1 s1 (negb far1) C1) as L1. pose proof (end_low f e2 s2 (negb far2) C2) as L2.
      rewrite <- Hend in L2. eapply low_at_same; [| |exact L1|exact L2]; by apply He. }
    destruct (Ha e1 e2 s1 I1 I2 C1) as [_ Hx]. pose proof (Hx s2 C2 Hm) as Hss. pose proof (Hs e1 e2 s1 s2 I1 I2 (proj1 C1) (proj1 C2) Hss) as Hmid.
    destruct Hss as (R & S & A1 & A2).
    assert (xy (end_of (cut_of f e1) true s1) = xy (end_of (cut_of f e2) true s2) ∧ xy (end_of (cut_of f e1) false s1) = xy (end_of (cut_of f e2) false s2)) as [Et Ef].
    { pose proof (end_low f e1 s1 true C1) as T1. pose proof (end_low f e1 s1 false C1) as F1. pose proof (end_low f e2 s2 true C2) as T2. pose proof (end_low f e2 s2 false C2) as F2.
      assert (∀ b, low_at f e1 (xy (end_of (cut_of f e1) true s1)) true → low_at f e2 (xy (end_of (cut_of f e1) true s1)) b → b = true) as Q1.
      { intros b Q Q'. symmetry. eapply low_at_same; [| |exact Q|exact Q']; by apply He. }
      assert ((cut_ends f e1 s1 R S ∧ cut_ends f e2 s2 R S) ∨ (cut_ends f e1 s1 S R ∧ cut_ends f e2 s2 S R) ∨ (cut_ends f e1 s1 R S ∧ cut_ends f e2 s2 S R) ∨ (cut_ends f e1 s1 S R ∧ cut_ends f e2 s2 R S)) as Hcase.
      { pose proof (side_cut_ends f e1 s1 R S C1 A1). destruct A2 as [A2|A2]; pose proof (side_cut_ends f e2 s2 _ _ C2 A2); tauto. }
      unfold cut_ends in Hcase. destruct Hcase as [[[-> ->] [? ?]]|[[[-> ->] [? ?]]|[[[Ex Ey] [Ez Ew]]|[[Ex Ey] [Ez Ew]]]]]; [by split|by split|..].
      - rewrite <- Ex in Q1. rewrite <- Ex in T1. rewrite <- Ew in F2. by pose proof (Q1 false T1 F2).
      - rewrite <- Ex in Q1. rewrite <- Ex in T1. rewrite <- Ew in F2. by pose proof (Q1 false T1 F2). }
    cbn [curve]. unfold half_of. rewrite !bent_side by (apply C1 || apply C2).
    destruct (edge_middle e1 s1) as [mid1|], (edge_middle e2 s2) as [mid2|]; try done. cbn in Hmid. apply (inj Some) in Hmid. cbn.
    rewrite (half_xy _ _ _ _ _ _ Et Hmid Ef). done.
Qed.
End fit.
