(** Merging the blocks of the disc connects the faces that lie at the same place, and no others. *)
From Coq Require Import Lia Reals Lra.
From Verif Require Import Base Mesh Core Tools Float FloatLaws MeshLemmas MeshSpec CheckProofs OpsProofs GeoLaws BoxSpec BoxProofs MergeSpec MergeProofs MergeTotal
  MergeTypes Disc DiscSpec DiscProofs DiscBlock DiscPlaces P_Disc P_Merge.
Open Scope Z_scope.

Notation mesh := (hexa (num AR)).
Implicit Types (m : mesh) (x y : nat * nat).

Definition centre m x (c : R * R * R) : Prop := ∃ e, elems m !! x.1 = Some e ∧ face_center (A:=AR) e (Z.of_nat x.2) = Ok c.
(** A mesh with consistent connectivity, without periodic faces, whose connected faces coincide. *)
Definition joined m : Prop :=
  connected_mesh (A:=AR) m ∧ (∀ i b f r, get_bc m i b f = Some r → bt r ≠ "P"%string) ∧
  (∀ x y r, in_mesh (A:=AR) m x.1 0 x.2 → get_bc m x.1 0 x.2 = Some r → bt r = "E"%string → points (A:=AR) r y.1 y.2 →
    x ≠ y ∧ ∃ c, centre m x c ∧ centre m y c).

Lemma points_inj (r : bcrec (num AR)) j g j' g' : points (A:=AR) r j g → points (A:=AR) r j' g' → j = j' ∧ g = g'.
Proof.
  intros [P1 P2] [Q1 Q2]. rewrite P1 in Q1. rewrite P2 in Q2. cbn in Q1, Q2. apply eq_IZR in Q1, Q2. lia.
Qed.
Lemma append_geo (self other m' : mesh) : is_append (A:=AR) self other m' → length (elems self) = nel self →
  (∀ i e, elems self !! i = Some e → ∃ e', elems m' !! i = Some e' ∧ strip_elem (N:=num AR) e' = strip_elem e) ∧
  (∀ i e, elems other !! i = Some e → ∃ e', elems m' !! (nel self + i)%nat = Some e' ∧ strip_elem (N:=num AR) e' = strip_elem e).
Proof.
  intros (_ & _ & _ & _ & l1 & l2 & E & F1 & F2) Hl. pose proof (Forall2_length _ _ _ F1) as L1. split; intros i e He.
  - destruct (Forall2_lookup_l _ _ _ _ _ F1 He) as (e' & He' & S). exists e'. split; [|exact S]. rewrite E. by apply lookup_app_l_Some.
  - destruct (Forall2_lookup_l _ _ _ _ _ F2 He) as (e' & He' & S). exists e'. split; [|exact S]. rewrite E, lookup_app_r by lia. rewrite <- L1, Hl, Nat.add_comm, Nat.add_sub. done.
Qed.

(** ** One merge *)
Section glue.
Context (self other m' : mesh) (tol : R) (n : Z).
Hypothesis (Js : joined self) (Jo : joined other) (Hd : ndim self = 2%nat) (Hd' : ndim other = 2%nat) (Hnb : (0 < nbc self)%nat) (Hbb : nbc self = nbc other).
Hypothesis (Hunique : unique_contacts (A:=AR) tol true self other).
Hypothesis (Hsame : ∀ x y, contact (A:=AR) tol true self other x y → ∃ c, centre other x c ∧ centre self y c).
Hypothesis (Hap : is_append (A:=AR) self other m') (Hgl : is_glued (A:=AR) tol true self other m' n) (Wm : wf_mesh (A:=AR) m') (Pm : paired (A:=AR) m').
Hypothesis (Hty : ∀ x b r, get_bc m' x.1 b x.2 = Some r →
    ((x.1 < nel self)%nat → ∃ r0, get_bc self x.1 b x.2 = Some r0 ∧ (r = r0 ∨ changed_entry (A:=AR) tol (some_periodic (A:=AR) self ∨ some_periodic (A:=AR) other) m' b x r)) ∧
    ((nel self ≤ x.1)%nat → ∃ r0, get_bc other (x.1 - nel self) b x.2 = Some r0 ∧ (same_but_numbers (A:=AR) r0 r ∨ changed_entry (A:=AR) tol (some_periodic (A:=AR) self ∨ some_periodic (A:=AR) other) m' b x r))).

Lemma app_nel : nel m' = (nel self + nel other)%nat. Proof. by destruct Hap as (? & _). Qed.
Lemma app_dims : ndim m' = 2%nat ∧ nbc m' = nbc self ∧ lr1 m' = lr1 self.
Proof.
  destruct Hap as (_ & _ & _ & K & _). split; [exact (eq_trans (f_equal ndim K) Hd)|]. split; [exact (f_equal nbc K)|exact (f_equal lr1 K)].
Qed.
Lemma glued_self y b r' : (y.1 < nel self)%nat → (b < nbc self)%nat → (y.2 < 4)%nat → get_bc m' y.1 b y.2 = Some r' →
  (∃ x, contact (A:=AR) tol true self other x y ∧ bt r' = "E"%string ∧ points (A:=AR) r' (nel self + x.1) x.2) ∨
  ((∀ x, ¬ contact (A:=AR) tol true self other x y) ∧ get_bc self y.1 b y.2 = Some r').
Proof.
  intros Hy Hb Hf Hr. destruct Hgl as (C & _ & _ & HC & HL & HS & _). destruct (decide (y ∈ C.*2)) as [Hin|Hout].
  - left. apply elem_of_list_fmap in Hin as ([x y'] & Ey & Hin). cbn in Ey. subst y'. exists x. split; [by apply HC|].
    destruct (HL x y b Hin) as (_ & r & Hr' & Ht & Hp); [destruct app_dims as (_ & -> & _); done|]. assert (r = r') as -> by congruence. done.
  - right. assert (∀ x, (x, y) ∉ C) as Hn. { intros x Hx. apply Hout. apply elem_of_list_fmap. exists (x, y). done. }
    split; [intros x Hc; by apply (Hn x), HC|].
    destruct Js as ((Ws & _) & NP & _). destruct (wf_get_bc (A:=AR) self y.1 b y.2 (proj1 Ws) Hy Hb ltac:(lia)) as [r0 Hr0].
    assert (get_bc m' y.1 b y.2 = Some r0) as E; [|congruence]. apply HS; [done|done|]. intros (r1 & Hr1 & HP). by apply (NP _ _ _ _ Hr1).
Qed.
Lemma glued_other x b r' : (x.1 < nel other)%nat → (b < nbc self)%nat → (x.2 < 4)%nat → get_bc m' (nel self + x.1) b x.2 = Some r' →
  (∃ y, contact (A:=AR) tol true self other x y ∧ bt r' = "E"%string ∧ points (A:=AR) r' y.1 y.2) ∨
  ((∀ y, ¬ contact (A:=AR) tol true self other x y) ∧ ∃ r, get_bc other x.1 b x.2 = Some r ∧ shifted_entry (A:=AR) (nel self) r r').
Proof.
  intros Hx Hb Hf Hr. destruct Hgl as (C & _ & _ & HC & HL & _ & HS & _). destruct (decide (x ∈ C.*1)) as [Hin|Hout].
  - left. apply elem_of_list_fmap in Hin as ([x' y] & Ey & Hin). cbn in Ey. subst x'. exists y. split; [by apply HC|].
    destruct (HL x y b Hin) as [(r & Hr' & Ht & Hp) _]; [destruct app_dims as (_ & -> & _); done|]. cbn [shifted fst snd] in Hr'. assert (r = r') as -> by congruence. done.
  - right. assert (∀ y, (x, y) ∉ C) as Hn. { intros y Hy. apply Hout. apply elem_of_list_fmap. exists (x, y). done. }
    split; [intros y Hc; by apply (Hn y), HC|].
    destruct Jo as ((Wo & _) & NP & _). destruct (wf_get_bc (A:=AR) other x.1 b x.2 (proj1 Wo) Hx ltac:(lia) ltac:(lia)) as [r0 Hr0]. exists r0. split; [done|].
    destruct (HS x b r0) as (r1 & Hr1 & Sh & _); [done|split_and!; [done|lia|lia]|done| |].
    + intros (r1 & Hr1 & HP). by apply (NP _ _ _ _ Hr1).
    + assert (r1 = r') as -> by congruence. done.
Qed.
Lemma glued_noP i b f r : get_bc m' i b f = Some r → bt r ≠ "P"%string.
Proof.
  intros Hr HP. destruct Js as (_ & NPs & _), Jo as (_ & NPo & _).
  assert (¬ (some_periodic (A:=AR) self ∨ some_periodic (A:=AR) other)) as Hnp.
  { intros [(i' & b' & f' & r' & Hr' & H')|(i' & b' & f' & r' & Hr' & H')]; [by apply (NPs _ _ _ _ Hr')|by apply (NPo _ _ _ _ Hr')]. }
  destruct (Hty (i, f) b r Hr) as [H1 H2]. cbn [fst snd] in *. destruct (decide (i < nel self)%nat) as [Hi|Hi].
  - destruct (H1 Hi) as (r0 & Hr0 & [->|[[E _]|[_ X]]]); [by apply (NPs _ _ _ _ Hr0)|congruence|done].
  - destruct (H2 ltac:(lia)) as (r0 & Hr0 & [S|[[E _]|[_ X]]]); [|congruence|done]. apply (NPo _ _ _ _ Hr0). unfold same_but_numbers in S.
    assert (bt r = bt r0) as <-; [|done]. exact (f_equal bt S).
Qed.
Lemma centre_self y c : centre self y c → centre m' y c.
Proof.
  intros (e & He & Hc). destruct Js as ((Ws & _) & _). destruct (append_geo self other m' Hap) as [G _]; [apply (proj1 Ws)|].
  destruct (G _ _ He) as (e' & He' & S). exists e'. split; [done|]. rewrite <- Hc. exact (face_center_strip (A:=AR) e e' (Z.of_nat y.2) S).
Qed.
Lemma centre_other x c : centre other x c → centre m' (shifted (nel self) x) c.
Proof.
  intros (e & He & Hc). destruct Js as ((Ws & _) & _). destruct (append_geo self other m' Hap) as [_ G]; [apply (proj1 Ws)|].
  destruct (G _ _ He) as (e' & He' & S). exists e'. split; [done|]. rewrite <- Hc. exact (face_center_strip (A:=AR) e e' (Z.of_nat x.2) S).
Qed.
Lemma in_mesh_cases i b f : in_mesh (A:=AR) m' i b f → (b < nbc self)%nat ∧ (f < 4)%nat ∧ ((i < nel self)%nat ∨ ∃ i0, (i0 < nel other)%nat ∧ i = (nel self + i0)%nat).
Proof.
  intros (H1 & H2 & H3). destruct app_dims as (E1 & E2 & _). rewrite app_nel in H1. rewrite E2 in H2. rewrite E1 in H3. split; [done|]. split; [lia|].
  destruct (decide (i < nel self)%nat); [by left|]. right. exists (i - nel self)%nat. split; lia.
Qed.
Lemma glued_joined : joined m'.
Proof.
  pose proof Js as ((Ws & Ps & Us & Ns) & NPs & Cs). pose proof Jo as ((Wo & Po & Uo & No) & NPo & Co).
  split; [split; [exact Wm|split; [exact Pm|split]]|split].
  - intros i b f r r0 Hin Hr Hr0 Hc. destruct (in_mesh_cases _ _ _ Hin) as (Hb & Hf & [Hi|(i0 & Hi & ->)]).
    + destruct (glued_self (i, f) b r Hi Hb Hf Hr) as [(x & C & T & P)|(C & G)], (glued_self (i, f) 0 r0 Hi ltac:(lia) Hf Hr0) as [(x' & C' & T' & P')|(C' & G')].
      * assert (x = x') as -> by (by eapply (proj2 Hunique)). destruct P as [P1 P2], P' as [Q1 Q2]. split; [congruence|]. split; congruence.
      * by destruct (C' x).
      * by destruct (C x').
      * apply (Us i b f r r0); [split_and!; [done|done|lia]|done..].
    + destruct (glued_other (i0, f) b r Hi Hb Hf Hr) as [(x & C & T & P)|(C & q & G & S)], (glued_other (i0, f) 0 r0 Hi ltac:(lia) Hf Hr0) as [(x' & C' & T' & P')|(C' & q' & G' & S')].
      * assert (x = x') as -> by (by eapply (proj1 Hunique)). destruct P as [P1 P2], P' as [Q1 Q2]. split; [congruence|]. split; congruence.
      * by destruct (C' x).
      * by destruct (C x').
      * destruct S as (S1 & _ & S3 & _ & _ & _ & S7 & _), S' as (S1' & _ & S3' & _ & _ & _ & S7' & _). rewrite S1, S1' in Hc.
        destruct (Uo i0 b f q q') as (U1 & U2 & U3); [split_and!; [done|lia|lia]|done..|].
        assert (is_conn (bt q) ∧ is_conn (bt q')) as [X X'] by (rewrite U1 in *; tauto).
        split; [congruence|]. split; [|congruence]. destruct (S7 X) as (j & g & P1 & P2), (S7' X') as (j' & g' & P1' & P2').
        assert (j = j') as ->; [|destruct P2, P2'; congruence]. assert (points (A:=AR) q j' g') as P3 by (destruct P1'; split; congruence). by destruct (points_inj _ _ _ _ _ P1 P3).
  - intros x r _ Hr HP. by destruct (glued_noP _ _ _ _ Hr).
  - exact glued_noP.
  - intros x y r Hin Hr HE HP. destruct x as [i f]. cbn [fst snd] in *. destruct (in_mesh_cases _ _ _ Hin) as (Hb & Hf & [Hi|(i0 & Hi & ->)]).
    + destruct (glued_self (i, f) 0 r Hi Hb Hf Hr) as [(x & C & _ & P)|(_ & G)].
      * destruct (points_inj _ _ _ _ _ P HP) as [E1 E2]. assert (y = shifted (nel self) x) as -> by (destruct y; cbn in *; unfold shifted; congruence).
        destruct (Hsame _ _ C) as (c & H1 & H2). split; [intros Ei; apply (f_equal fst) in Ei; cbn [fst shifted] in Ei; lia|]. exists c. split; [by apply centre_self|by apply centre_other].
      * destruct (Cs (i, f) y r) as (Hne & c & H1 & H2); [split_and!; cbn [fst snd]; [done|done|lia]|done..|]. split; [done|]. exists c. split; by apply centre_self.
    + destruct (glued_other (i0, f) 0 r Hi Hb Hf Hr) as [(z & C & _ & P)|(_ & q & G & S)].
      * destruct (points_inj _ _ _ _ _ P HP) as [E1 E2]. assert (y = z) as -> by (destruct y, z; cbn in *; congruence).
        destruct (Hsame _ _ C) as (c & H1 & H2). destruct C as (_ & ((Hz & _) & _) & _). split; [destruct z; cbn [fst] in Hz; intros Ei; apply (f_equal fst) in Ei; cbn [fst] in Ei; lia|].
        exists c. split; [by apply (centre_other (i0, f))|by apply centre_self].
      * destruct S as (S1 & _ & _ & _ & _ & _ & S7 & _). assert (is_conn (bt q)) as X by (left; congruence). destruct (S7 X) as (j & g & P1 & P2).
        destruct (points_inj _ _ _ _ _ P2 HP) as [E1 E2]. destruct (Co (i0, f) (j, g) q) as (Hne & c & H1 & H2); [split_and!; cbn [fst snd]; [done|lia|lia]|done|congruence|done|].
        assert (y = shifted (nel self) (j, g)) as -> by (destruct y; cbn in *; unfold shifted; cbn; congruence).
        split; [intros Ei; apply Hne; pose proof (f_equal fst Ei) as E3; pose proof (f_equal snd Ei) as E4; cbn [fst snd shifted] in E3, E4; f_equal; [lia|done]|]. exists c. split; [by apply (centre_other (i0, f))|]. by apply centre_other.
Qed.
End glue.

(** ** Meshes whose open faces lie at known places *)
Section described.
Context (r s : R) (ns no : nat) (cf bf : R → R) (bc : list string).
Notation at_place := (at_place r s ns no bf).
Notation on_mesh := (on_mesh ns no).
Notation size_at := (size_at r s ns no bf).
Definition type_at (P : place) (b : nat) : string := match P with Arc _ _ => u3 (nth b bc ""%string) | _ => "con"%string end.
(** [F x (sq, P)]: the face x, of an element of the square if sq, is not connected and lies at P. *)
Definition faces := nat * nat → bool * place → Prop.
Record described m (F : faces) : Prop := {
  ds_joined : joined m;
  ds_dim : ndim m = 2%nat ∧ lr1 m = [2; 2; 1]%nat ∧ nbc m = length bc;
  ds_open : ∀ x rc, (x.1 < nel m)%nat → (x.2 < 4)%nat → get_bc m x.1 0 x.2 = Some rc → bt rc ≠ "E"%string → ∃ p, F x p;
  ds_face : ∀ x p, F x p → (x.1 < nel m ∧ x.2 < 4)%nat ∧ on_mesh p.2 ∧
    (∀ b, (b < length bc)%nat → ∃ rc, get_bc m x.1 b x.2 = Some rc ∧ bt rc = type_at p.2 b) ∧
    ∃ e sz, elems m !! x.1 = Some e ∧ face_center (A:=AR) e (Z.of_nat x.2) = Ok ((at_place p.2).1, (at_place p.2).2, 0%R) ∧
      smallest_edge (A:=AR) e = Ok sz ∧ (0 <= sz)%R ∧ size_at p.1 p.2 sz;
  ds_inj : ∀ x x' p p', F x p → F x' p' → p.2 = p'.2 → x = x';
  ds_fun : ∀ x p p', F x p → F x p' → p = p'
}.
(** The faces that remain open when the faces at the same place are connected. *)
Definition merged (n : nat) (Fs Fo : faces) : faces := λ y p,
  (Fs y p ∧ ∀ x p', Fo x p' → p'.2 ≠ p.2) ∨ (∃ x, y = shifted n x ∧ Fo x p ∧ ∀ z p', Fs z p' → p'.2 ≠ p.2).

Hypothesis (Hr : (0 < r)%R) (Hs : (0 < s < 1)%R) (Hns : (1 ≤ ns)%nat) (Hno : (1 ≤ no)%nat).
Hypothesis (bf0 : bf 0%R = 0%R) (bf1 : bf 1%R = 1%R) (rising : ∀ i, (i < no)%nat → (bf (along i no) < bf (along (i + 1) no))%R).
Hypothesis (Hbc : (0 < length bc)%nat).

Definition tol100 : R := nlit (A:=AR) 1 100.
Lemma tol100_R : tol100 = (1 / 100)%R. Proof. unfold tol100, nlit. cbn. lra. Qed.

Lemma contact_place self other Fs Fo : described self Fs → described other Fo →
  (∀ x p, Fo x p → p.1 = false) →
  (∀ y p, Fs y p → match p.2 with Side _ _ => p.1 = true | Seam _ _ => p.1 = false | Arc q' _ => p.1 = false ∧ ∀ x p' q j, Fo x p' → p'.2 = Arc q j → q ≠ q' end) →
  ∀ x y, contact (A:=AR) tol100 true self other x y ↔ ∃ p p', Fo x p ∧ Fs y p' ∧ p.2 = p'.2.
Proof.
  intros Ds Do HFo HFs x y. split.
  - intros ((Hx & r0 & Hr0 & Hx1 & _) & (Hy & r1 & Hr1 & Hy1 & _) & e & e' & c & c' & z & z' & He & He' & Hc & Hc' & Hz & Hz' & Hle).
    destruct (ds_dim _ _ Ds) as (Dd & _), (ds_dim _ _ Do) as (Dd' & _).
    destruct (ds_open _ _ Do x r0) as [p Hp]; [lia|lia|done|done|]. destruct (ds_open _ _ Ds y r1) as [p' Hp']; [lia|lia|done|done|].
    exists p, p'. split; [done|]. split; [done|].
    destruct (ds_face _ _ Do x p Hp) as (_ & On & _ & e0 & sz & G1 & G2 & G3 & G4 & G5). destruct (ds_face _ _ Ds y p' Hp') as (_ & On' & _ & e1 & sz' & K1 & K2 & K3 & K4 & K5).
    assert (e = e0) as -> by congruence. assert (e' = e1) as -> by congruence.
    assert (c = ((at_place p.2).1, (at_place p.2).2, 0%R)) as -> by congruence. assert (c' = ((at_place p'.2).1, (at_place p'.2).2, 0%R)) as -> by congruence.
    assert (z = sz) as -> by congruence. assert (z' = sz') as -> by congruence.
    assert ({p.2 = p'.2} + {p.2 ≠ p'.2}) as [Eq|Ne]; [|exact Eq|].
    { decide equality; apply Nat.eq_dec. }
    exfalso. set (X := at_place p.2) in *. set (X' := at_place p'.2) in *.
    set (dx := (X.1 - X'.1)%R). set (dy := (X.2 - X'.2)%R).
    assert (R_sqrt.sqrt (dx * dx + dy * dy) <= tol100 * Rmin sz sz')%R as Hle'.
    { unfold dist2, nsq, pymin in Hle. cbn in Hle. unfold Rleb, Rltb in Hle. change (num AR) with R in *.
      destruct (Rle_dec _ _) as [L|]; [|done]. replace (dx * dx + dy * dy)%R with ((X'.1 - X.1) * (X'.1 - X.1) + (X'.2 - X.2) * (X'.2 - X.2) + (0 - 0) * (0 - 0))%R by (unfold dx, dy; ring).
      eapply Rle_trans; [exact L|]. apply Rmult_le_compat_l; [rewrite tol100_R; lra|]. unfold Rmin. destruct (Rlt_dec sz' sz), (Rle_dec sz sz'); lra. }
    rewrite tol100_R in Hle'. set (D := R_sqrt.sqrt (dx * dx + dy * dy)) in *.
    assert (D * D = dx * dx + dy * dy)%R as ED. { unfold D. apply R_sqrt.sqrt_sqrt. pose proof (Rle_0_sqr dx). pose proof (Rle_0_sqr dy). unfold Rsqr in *. lra. }
    pose proof (Rmin_l sz sz') as M1. pose proof (Rmin_r sz sz') as M2.
    pose proof (HFo x p Hp) as F1. pose proof (HFs y p' Hp') as F2.
    apply (places_apart r s ns no bf Hr Hs Hns Hno bf0 rising p.1 p'.1 p.2 p'.2 sz sz' D); try done.
    + by destruct p.2.
    + destruct p'.2 as [| |q' j'] eqn:E'; [done|done|]. destruct F2 as [F2 F3]. split; [done|]. destruct p.2 as [| |q j] eqn:E; [done|done|]. by apply (F3 x p q j).
    + apply R_sqrt.sqrt_pos.
    + lra.
    + lra.
    + fold X X'. fold dx dy. rewrite <- ED. lra.
  - intros (p & p' & Hp & Hp' & E). destruct (ds_dim _ _ Ds) as (Dd & _), (ds_dim _ _ Do) as (Dd' & _).
    destruct (ds_face _ _ Do x p Hp) as (Ix & On & T & e0 & sz & G1 & G2 & G3 & G4 & G5). destruct (ds_face _ _ Ds y p' Hp') as (Iy & On' & T' & e1 & sz' & K1 & K2 & K3 & K4 & K5).
    assert (∀ b, type_at p.2 b = "con"%string) as Con.
    { intros b. pose proof (HFs y p' Hp') as F2. rewrite <- E in F2. destruct p.2 as [| |q j] eqn:Ep; [done|done|]. destruct F2 as [_ F2]. by destruct (F2 x p q j Hp Ep). }
    destruct (T 0%nat Hbc) as (r0 & Hr0 & Ht0). destruct (T' 0%nat Hbc) as (r1 & Hr1 & Ht1). rewrite <- E, Con in Ht1. rewrite Con in Ht0.
    split_and!.
    + split; [lia|]. exists r0. rewrite Ht0. done.
    + split; [lia|]. exists r1. rewrite Ht1. done.
    + eexists e0, e1, _, _, sz, sz'. split_and!; try done. rewrite E. set (X := at_place p'.2). unfold dist2, nsq, pymin. cbn -[tol100]. unfold Rleb, Rltb.
      destruct (Rle_dec _ _) as [|L]; [done|]. exfalso. apply L. replace ((X.1 - X.1) * (X.1 - X.1) + (X.2 - X.2) * (X.2 - X.2) + (0 - 0) * (0 - 0))%R with 0%R by ring.
      rewrite R_sqrt.sqrt_0. rewrite tol100_R. destruct (Rlt_dec sz' sz); lra.
Qed.

Lemma merge_described self other Fs Fo : described self Fs → described other Fo →
  (∀ x p, Fo x p → p.1 = false) →
  (∀ y p, Fs y p → match p.2 with Side _ _ => p.1 = true | Seam _ _ => p.1 = false | Arc q' _ => p.1 = false ∧ ∀ x p' q j, Fo x p' → p'.2 = Arc q j → q ≠ q' end) →
  ∃ m', disc_merge (A:=AR) true self other = Ok m' ∧ nel m' = (nel self + nel other)%nat ∧ described m' (merged (nel self) Fs Fo).
Proof.
  intros Ds Do HFo HFs. pose proof (contact_place self other Fs Fo Ds Do HFo HFs) as HC.
  destruct (ds_dim _ _ Ds) as (Dd & Dl & Db), (ds_dim _ _ Do) as (Dd' & Dl' & Db'). pose proof (ds_joined _ _ Ds) as Js. pose proof (ds_joined _ _ Do) as Jo.
  assert (unique_contacts (A:=AR) tol100 true self other) as HU.
  { split.
    - intros x y y' H H'. apply HC in H as (p & p' & G1 & G2 & G3), H' as (q & q' & K1 & K2 & K3). rewrite (ds_fun _ _ Do x p q G1 K1) in G3.
      apply (ds_inj _ _ Ds y y' p' q' G2 K2). congruence.
    - intros x x' y H H'. apply HC in H as (p & p' & G1 & G2 & G3), H' as (q & q' & K1 & K2 & K3). rewrite (ds_fun _ _ Ds y p' q' G2 K2) in G3.
      apply (ds_inj _ _ Do x x' p q G1 K1). congruence. }
  assert (periodic_meets_periodic (A:=AR) tol100 true self other) as HP.
  { intros x y _. split; intros (rc & Hrc & X); exfalso; [by apply (proj1 (proj2 Jo) _ _ _ _ Hrc)|by apply (proj1 (proj2 Js) _ _ _ _ Hrc)]. }
  set (bnd := Z.of_nat (nel self + nel other) + 6).
  destruct (C26_merge_glues (A:=AR) bnd self other tol100 true (AR_laws bnd)) as (m' & n & EM & Hap & Hgl & Wm & Pm); try done.
  { unfold compatible. change (num AR) with R in *. rewrite Dd, Dd', Dl, Dl'. split_and!; [done|done|by eexists|congruence|unfold bnd; lia|unfold bnd; lia]. }
  { change (num AR) with R in *. rewrite Db. done. }
  { exact (proj1 Js). } { exact (proj1 Jo). }
  assert (∀ x y, contact (A:=AR) tol100 true self other x y → ∃ c, centre other x c ∧ centre self y c) as Hsame.
  { intros x y H. apply HC in H as (p & p' & G1 & G2 & G3).
    destruct (ds_face _ _ Do x p G1) as (_ & _ & _ & e & sz & X1 & X2 & _). destruct (ds_face _ _ Ds y p' G2) as (_ & _ & _ & e' & sz' & Y1 & Y2 & _).
    rewrite <- G3 in Y2. eexists. split; eexists; (split; [eassumption|eassumption]). }
  pose proof (C26_merge_types (A:=AR) self other m' tol100 true false n EM (proj1 (proj2 (proj1 (proj1 (proj1 Js)))))) as Hty.
  assert (0 < nbc self)%nat as Hnb by (rewrite Db; done). assert (nbc self = nbc other) as Hbb by congruence.
  pose proof (glued_joined self other m' tol100 n Js Jo Dd Dd' Hnb Hbb HU Hsame Hap Hgl Wm Pm Hty) as Jm.
  pose proof (app_dims self other m' Dd Hap) as (D1 & D2 & D3). pose proof (app_nel self other m' Hap) as D4.
  destruct (append_geo self other m' Hap (proj1 (proj2 (proj1 (proj1 (proj1 Js)))))) as [Gs Go].
  exists m'. split; [change (disc_merge (A:=AR) true self other) with (let '(m, x) := merge (A:=AR) tol100 true false self other in let! _ := x in Ok m); rewrite EM; done|]. split; [done|].
  pose proof (λ y b r', glued_self self other m' tol100 n Js Dd Dd' Hnb Hbb Hap Hgl y b r') as GS.
  pose proof (λ x b r', glued_other self other m' tol100 n Jo Dd Dd' Hnb Hbb Hap Hgl x b r') as GO.
  split.
  - exact Jm.
  - split_and!; congruence.
  - intros x rc Hx Hf Hrc HE. destruct (decide (x.1 < nel self)%nat) as [Hi|Hi].
    + destruct (GS x 0%nat rc Hi Hnb Hf Hrc) as [(z & _ & E & _)|(Hnc & Hg)]; [done|].
      destruct (ds_open _ _ Ds x rc Hi Hf Hg HE) as [p Hp]. exists p. left. split; [done|]. intros z p' Hz E. apply (Hnc z). apply HC. exists p', p. done.
    + assert (x = shifted (nel self) ((x.1 - nel self)%nat, x.2)) as Ex. { destruct x; unfold shifted; cbn [fst snd] in *. f_equal. lia. }
      set (x0 := ((x.1 - nel self)%nat, x.2)) in *. assert (x0.1 < nel other)%nat as Hx0 by (unfold x0; cbn [fst]; lia).
      rewrite Ex in Hrc. cbn [shifted fst snd] in Hrc.
      destruct (GO x0 0%nat rc Hx0 Hnb Hf Hrc) as [(z & _ & E & _)|(Hnc & r0 & Hg & Sh)]; [done|].
      destruct (ds_open _ _ Do x0 r0 Hx0 Hf Hg) as [p Hp]; [destruct Sh as (<- & _); done|]. exists p. right. exists x0. split; [done|]. split; [done|].
      intros z p' Hz E. apply (Hnc z). apply HC. exists p, p'. done.
  - intros x p [[Hp Hn]|(x0 & -> & Hp & Hn)].
    + destruct (ds_face _ _ Ds x p Hp) as ((I1 & I2) & On & T & e & sz & K1 & K2 & K3 & K4 & K5). split; [lia|]. split; [done|]. split.
      * intros b Hb. destruct (T b Hb) as (rc & Hrc & Ht).
        assert (b < nbc self)%nat as Hb' by (rewrite Db; done).
        assert (b < nbc m')%nat as Hb2 by (rewrite D2; done).
        destruct (wf_get_bc (A:=AR) m' x.1 b x.2 (proj1 Wm) ltac:(lia) Hb2 ltac:(lia)) as [r' Hr'].
        exists r'. split; [done|]. destruct (GS x b r' I1 Hb' I2 Hr') as [(z & C & _)|(_ & Hg)]; [|congruence].
        apply HC in C as (q & q' & Q1 & Q2 & Q3). rewrite (ds_fun _ _ Ds x q' p Q2 Hp) in Q3. by destruct (Hn z q Q1).
      * destruct (Gs _ _ K1) as (e' & He' & St). exists e', sz. split; [done|]. split; [refine (eq_trans (face_center_strip (A:=AR) e e' _ St) K2)|].
        split; [refine (eq_trans (smallest_edge_strip (A:=AR) e e' St) K3)|]. done.
    + destruct (ds_face _ _ Do x0 p Hp) as ((I1 & I2) & On & T & e & sz & K1 & K2 & K3 & K4 & K5). split; [unfold shifted; cbn [fst snd]; lia|]. split; [done|]. split.
      * intros b Hb. destruct (T b Hb) as (rc & Hrc & Ht).
        assert (b < nbc self)%nat as Hb' by (rewrite Db; done).
        assert (b < nbc m')%nat as Hb2 by (rewrite D2; done).
        destruct (wf_get_bc (A:=AR) m' (nel self + x0.1) b x0.2 (proj1 Wm) ltac:(lia) Hb2 ltac:(lia)) as [r' Hr'].
        exists r'. split; [done|]. destruct (GO x0 b r' I1 Hb' I2 Hr') as [(z & C & _)|(_ & r1 & Hg & Sh)].
        -- apply HC in C as (q & q' & Q1 & Q2 & Q3). rewrite (ds_fun _ _ Do x0 q p Q1 Hp) in Q3. by destruct (Hn z q' Q2).
        -- destruct Sh as (-> & _). congruence.
      * destruct (Go _ _ K1) as (e' & He' & St). exists e', sz. split; [done|]. split; [refine (eq_trans (face_center_strip (A:=AR) e e' _ St) K2)|].
        split; [refine (eq_trans (smallest_edge_strip (A:=AR) e e' St) K3)|]. done.
  - intros x x' p p' [[H1 H2]|(z & -> & H1 & H2)] [[H1' H2']|(z' & -> & H1' & H2')] E.
    + by apply (ds_inj _ _ Ds x x' p p').
    + by destruct (H2 z' p' H1').
    + by destruct (H2' z p H1).
    + by rewrite (ds_inj _ _ Do z z' p p').
  - intros x p p' [[H1 H2]|(z & -> & H1 & H2)] [[H1' H2']|(z' & Ez & H1' & H2')].
    + by apply (ds_fun _ _ Ds x).
    + destruct (ds_face _ _ Ds x p H1) as ((I1 & _) & _). subst x. cbn in I1. lia.
    + destruct (ds_face _ _ Ds _ p' H1') as ((I1 & _) & _). cbn in I1. lia.
    + assert (z = z') as -> by (destruct z, z'; unfold shifted in Ez; cbn in Ez; f_equal; [|congruence]; injection Ez; lia). by apply (ds_fun _ _ Do z').
Qed.
End described.
