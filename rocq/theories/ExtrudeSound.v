(** Extruding keeps everything that further operations need. *)
From Coq Require Import Lia.
From Verif Require Import Base Mesh Core Tools MeshLemmas MeshSpec CheckProofs GeoLaws BoxSpec BoxProofs MergeSpec ExtrudeSpec ExtrudeProofs.
Open Scope Z_scope.

Section Sound.
Context {A : arith}.
Notation N := (num A).
Context (bnd : Z) (LA : arith_laws A bnd).
Context (m m3 : hexa N) (z : list N) (c1 c2 : nat → string).
Let n := nel m.
Let nz := (length z - 1)%nat.
Hypothesis Hm : connected_mesh m.
Hypothesis Hlin : linear2d m.
Hypothesis Hz : (2 ≤ length z)%nat.
Hypothesis Hw3 : wf_mesh m3.
Hypothesis Hst : is_stack m z m3.
Hypothesis Hside : ∀ k i b f, (k < nz)%nat → in_mesh m i b f →
     ∃ r', get_bc m3 (i + n * k)%nat b f = Some r' ∧ side_entry m k i b f r'.
Hypothesis Hend : ∀ k i b f, (k < nz)%nat → (i < n)%nat → (b < nbc m)%nat → (f = 4 ∨ f = 5)%nat →
     ∃ r', get_bc m3 (i + n * k)%nat b f = Some r' ∧ end_entry n nz k (c1 b) (c2 b) i f r'.
Hypothesis Hbnd : Z.of_nat (n * nz) <= bnd.
Hypothesis H6 : 6 <= bnd.
Hypothesis Hcond : ∀ b, (b < nbc m)%nat → end_condition (c1 b) ∧ end_condition (c2 b) ∧ (c1 b = "P"%string ↔ c2 b = "P"%string).
Hypothesis Hnb : (0 < nbc m)%nat.
(* the ends are periodic in all the fields or in none *)
Hypothesis Hper : ∀ b, (b < nbc m)%nat → c1 b = "P"%string ↔ c1 0%nat = "P"%string.

Lemma points_inj r i j (f g : nat) : points (A:=A) r i f → points r j g → (i < n * nz)%nat → (j < n * nz)%nat → (f < 6)%nat → (g < 6)%nat → i = j ∧ f = g.
Proof.
  intros [P3 P4] [Q3 Q4] Hi Hj Hf Hg'. rewrite P3 in Q3. rewrite P4 in Q4.
  assert (∀ a b : Z, 0 <= a <= bnd → 0 <= b <= bnd → @nofZ A a = @nofZ A b → a = b) as Hinj.
  { intros a b Ha Hb E. assert (ntrunc (@nofZ A a) = Ok a) as Ea by (apply (law_trunc A bnd LA); lia).
    assert (ntrunc (@nofZ A b) = Ok b) as Eb by (apply (law_trunc A bnd LA); lia). rewrite E, Eb in Ea. congruence. }
  apply Hinj in Q3; [|lia|lia]. apply Hinj in Q4; [|lia|lia]. lia.
Qed.
Lemma num_lt i k : (i < n)%nat → (k < nz)%nat → (i + n * k < n * nz)%nat.
Proof. intros. by apply elnum_lt. Qed.
Lemma in3 i k b f : (i < n)%nat → (k < nz)%nat → (b < nbc m)%nat → (f < 6)%nat → in_mesh m3 (i + n * k) b f.
Proof.
  intros Hi Hk Hb Hf. destruct Hst as (S1 & S2 & _ & _ & S5 & _). fold n nz in S2. split; [rewrite S2; by apply num_lt|]. split; [by rewrite S5|]. rewrite S1. cbn. lia.
Qed.
Lemma in2 i b f : (i < n)%nat → (b < nbc m)%nat → (f < 4)%nat → in_mesh m i b f.
Proof. intros Hi Hb Hf. split; [done|]. split; [done|]. rewrite (proj1 Hlin). cbn. lia. Qed.
Lemma from3 q b f : in_mesh m3 q b f → ∃ i k, q = (i + n * k)%nat ∧ (i < n)%nat ∧ (k < nz)%nat ∧ (b < nbc m)%nat ∧ (f < 6)%nat.
Proof.
  intros (Hq & Hb & Hf). destruct Hst as (S1 & S2 & _ & _ & S5 & _). fold n nz in S2. rewrite S2 in Hq. rewrite S5 in Hb. rewrite S1 in Hf.
  apply elnum_div in Hq as (i & k & Hi & Hk & ->). exists i, k. split; [done|]. split; [done|]. split; [done|]. split; [done|]. cbn in Hf. lia.
Qed.
Lemma end_conn k b f : (k < nz)%nat → (b < nbc m)%nat → (f = 4 ∨ f = 5)%nat → ∀ i r, (i < n)%nat → get_bc m3 (i + n * k)%nat b f = Some r → is_conn (bt r) →
  ∃ k' g, (k' < nz)%nat ∧ (g = 4 ∨ g = 5)%nat ∧ g ≠ f ∧ points r (i + n * k')%nat g ∧
    ∃ r', get_bc m3 (i + n * k')%nat b g = Some r' ∧ bt r' = bt r ∧ points r' (i + n * k)%nat f.
Proof.
  intros Hk Hb Hf i r Hi Hr Hc. destruct (Hend k i b f Hk Hi Hb Hf) as (r0 & Hr0 & _ & _ & E). rewrite Hr in Hr0. apply (inj Some) in Hr0 as <-.
  destruct (Hcond b Hb) as ([_ N1] & [_ N2] & HP).
  destruct Hf as [->| ->].
  - rewrite decide_True in E by done. destruct (decide (k = 0%nat)) as [->|Hk0].
    + destruct E as [T P]. assert (c1 b = "P"%string) as Hc1. { rewrite T in Hc. destruct Hc as [|Hc]; [done|]. congruence. }
      destruct (Hend (nz - 1)%nat i b 5%nat ltac:(lia) Hi Hb ltac:(by right)) as (r' & Hr' & _ & _ & E'). rewrite decide_False, decide_True in E' by done.
      destruct E' as [T' P']. exists (nz - 1)%nat, 5%nat. split; [lia|]. split; [by right|]. split; [done|]. split; [by apply P|]. exists r'. split; [done|].
      assert (c2 b = "P"%string) as Hc2 by by apply HP. split; [congruence|]. rewrite Nat.mul_0_r, Nat.add_0_r. by apply P'.
    + destruct E as [T P]. destruct (Hend (k - 1)%nat i b 5%nat ltac:(lia) Hi Hb ltac:(by right)) as (r' & Hr' & _ & _ & E').
      rewrite decide_False, decide_False in E' by lia. destruct E' as [T' P']. replace (k - 1 + 1)%nat with k in P' by lia.
      exists (k - 1)%nat, 5%nat. split; [lia|]. split; [by right|]. split; [done|]. split; [done|]. exists r'. split; [done|]. split; [congruence|done].
  - rewrite decide_False in E by done. destruct (decide (k = nz - 1)%nat) as [->|Hk0].
    + destruct E as [T P]. assert (c2 b = "P"%string) as Hc2. { rewrite T in Hc. destruct Hc as [|Hc]; [done|]. congruence. }
      destruct (Hend 0%nat i b 4%nat ltac:(lia) Hi Hb ltac:(by left)) as (r' & Hr' & _ & _ & E'). rewrite !decide_True in E' by done.
      destruct E' as [T' P']. exists 0%nat, 4%nat. split; [lia|]. split; [by left|]. split; [done|]. split; [rewrite Nat.mul_0_r, Nat.add_0_r; by apply P|]. exists r'. split; [done|].
      assert (c1 b = "P"%string) as Hc1 by by apply HP. split; [congruence|]. by apply P'.
    + destruct E as [T P]. destruct (Hend (k + 1)%nat i b 4%nat ltac:(lia) Hi Hb ltac:(by left)) as (r' & Hr' & _ & _ & E').
      rewrite decide_True, decide_False in E' by lia. destruct E' as [T' P']. replace (k + 1 - 1)%nat with k in P' by lia.
      exists (k + 1)%nat, 4%nat. split; [lia|]. split; [by left|]. split; [done|]. split; [done|]. exists r'. split; [done|]. split; [congruence|done].
Qed.
Lemma side_conn k b f : (k < nz)%nat → (b < nbc m)%nat → (f < 4)%nat → ∀ i r, (i < n)%nat → get_bc m3 (i + n * k)%nat b f = Some r → is_conn (bt r) →
  ∃ j g r2, (j < n)%nat ∧ (g < 4)%nat ∧ get_bc m i b f = Some r2 ∧ bt r2 = bt r ∧ points r2 j g ∧ points r (j + n * k)%nat g ∧
    ∃ r', get_bc m3 (j + n * k)%nat b g = Some r' ∧ bt r' = bt r ∧ points r' (i + n * k)%nat f.
Proof.
  intros Hk Hb Hf i r Hi Hr Hc. destruct Hm as (_ & Hp & _).
  destruct (Hside k i b f Hk (in2 i b f Hi Hb Hf)) as (r0 & Hr0 & r2 & Hr2 & T & _ & P & _). rewrite Hr in Hr0. apply (inj Some) in Hr0 as <-.
  rewrite T in Hc. destruct (Hp i b f r2 (in2 i b f Hi Hb Hf) Hr2 Hc) as (j & g & r2' & Hin & HP & Hr2' & T2 & HP').
  pose proof Hin as (Hj & _ & Hg). rewrite (proj1 Hlin) in Hg.
  destruct (Hside k j b g Hk Hin) as (r' & Hr' & q & Hq & T' & _ & P' & _). rewrite Hr2' in Hq. apply (inj Some) in Hq as <-.
  exists j, g, r2. split; [done|]. split; [lia|]. split; [done|]. split; [done|]. split; [done|]. split; [by apply P|].
  exists r'. split; [done|]. split; [congruence|]. apply P'; [done|by rewrite T2|done].
Qed.
Lemma stack_connected : connected_mesh m3.
Proof.
  split; [done|]. split; [|split].
  - intros q b f r Hin Hr Hc. destruct (from3 q b f Hin) as (i & k & -> & Hi & Hk & Hb & Hf). destruct (decide (f < 4)%nat) as [Hf4|Hf4].
    + destruct (side_conn k b f Hk Hb Hf4 i r Hi Hr Hc) as (j & g & r2 & Hj & Hg & _ & _ & _ & P & r' & Hr' & T' & P').
      exists (j + n * k)%nat, g, r'. split; [apply in3; [done|done|done|lia]|]. done.
    + destruct (end_conn k b f Hk Hb ltac:(lia) i r Hi Hr Hc) as (k' & g & Hk' & Hg & _ & P & r' & Hr' & T' & P').
      exists (i + n * k')%nat, g, r'. split; [apply in3; [done|done|done|lia]|]. done.
  - intros q b f r r0 Hin Hr Hr0 Hc. destruct (from3 q b f Hin) as (i & k & -> & Hi & Hk & Hb & Hf). destruct (decide (f < 4)%nat) as [Hf4|Hf4].
    + destruct (Hside k i b f Hk (in2 i b f Hi Hb Hf4)) as (x & Hx & r2 & Hr2 & T & _ & P & _ & B4 & _). rewrite Hr in Hx. apply (inj Some) in Hx as <-.
      destruct (Hside k i 0%nat f Hk (in2 i 0%nat f Hi Hnb Hf4)) as (x & Hx & r20 & Hr20 & T0 & _ & P0 & _ & B40 & _). rewrite Hr0 in Hx. apply (inj Some) in Hx as <-.
      destruct Hm as (_ & Hp & Hu & _). rewrite T, T0 in Hc. destruct (Hu i b f r2 r20 (in2 i b f Hi Hb Hf4) Hr2 Hr20 Hc) as (U1 & U3 & U4).
      split; [congruence|]. split; [|congruence].
      assert (is_conn (bt r2)) as Hc2 by (destruct Hc as [|Hc]; [done|by rewrite U1]).
      destruct (Hp i b f r2 (in2 i b f Hi Hb Hf4) Hr2 Hc2) as (j & g & _ & (Hj & _) & HP & _).
      destruct (P j g Hj Hc2 HP) as [Q3 _]. destruct (P0 j g Hj) as [Q30 _]; [by rewrite <- U1|split; destruct HP; congruence|]. congruence.
    + destruct (Hend k i b f Hk Hi Hb ltac:(lia)) as (x & Hx & _ & _ & E). rewrite Hr in Hx. apply (inj Some) in Hx as <-.
      destruct (Hend k i 0%nat f Hk Hi Hnb ltac:(lia)) as (x & Hx & _ & _ & E0). rewrite Hr0 in Hx. apply (inj Some) in Hx as <-.
      assert (∀ q g, bt r = bt r0 → points r q g → points r0 q g → bt r = bt r0 ∧ bp3 r = bp3 r0 ∧ bp4 r = bp4 r0) as Hfin.
      { intros q g Ht [X3 X4] [Y3 Y4]. split; [done|]. split; congruence. }
      destruct (Hcond b Hb) as ([_ N1] & [_ N2] & HP). destruct (Hcond 0%nat Hnb) as ([_ N10] & [_ N20] & HP0). specialize (Hper b Hb).
      destruct (decide (f = 4%nat)) as [->|Hf5].
      * destruct (decide (k = 0%nat)) as [->|Hk0]; destruct E as [T P], E0 as [T0 P0]; [|by eapply Hfin; [congruence|exact P|exact P0]].
        assert (c1 b = "P"%string) as Hc1. { rewrite T, T0 in Hc. destruct Hc as [[|]|[|Hc]]; try done. by apply Hper. }
        assert (c1 0%nat = "P"%string) as Hc10 by by apply Hper. eapply Hfin; [congruence|by apply P|by apply P0].
      * destruct (decide (k = nz - 1)%nat) as [->|Hk0]; destruct E as [T P], E0 as [T0 P0]; [|by eapply Hfin; [congruence|exact P|exact P0]].
        assert (c2 b = "P"%string) as Hc2. { rewrite T, T0 in Hc. destruct Hc as [[|]|[|Hc]]; try done. by apply HP, Hper, HP0. }
        assert (c2 0%nat = "P"%string) as Hc20 by by apply HP0, Hper, HP. eapply Hfin; [congruence|by apply P|by apply P0].
  - intros [q f] r Hin Hr HT Hself. cbn [fst snd] in *. destruct (from3 q 0%nat f Hin) as (i & k & -> & Hi & Hk & Hb & Hf). destruct (decide (f < 4)%nat) as [Hf4|Hf4].
    + destruct (side_conn k 0%nat f Hk Hb Hf4 i r Hi Hr ltac:(by right)) as (j & g & r2 & Hj & Hg & Hr2 & T2 & P2 & P & _).
      destruct (points_inj r _ _ _ _ Hself P) as [Eq <-]; [by apply num_lt|by apply num_lt|done|lia|]. assert (i = j) as <- by lia.
      destruct Hm as (_ & _ & _ & Hns). refine (Hns (i, f) r2 _ Hr2 _ P2); [by apply in2|congruence].
    + destruct (end_conn k 0%nat f Hk Hb ltac:(lia) i r Hi Hr ltac:(by right)) as (k' & g & Hk' & Hg & Hne & P & _).
      destruct (points_inj r _ _ _ _ Hself P) as [_ Eq]; [by apply num_lt|by apply num_lt|done|lia|done].
Qed.
Lemma stack_curves e : e ∈ elems m3 → length (ccurv e) = 12%nat.
Proof.
  intros He. apply elem_of_list_lookup in He as (q & Hq). destruct Hst as (S1 & S2 & S3 & _ & _ & _ & S7). fold n nz in S2, S7.
  pose proof (lookup_lt_Some _ _ _ Hq) as Hlt. rewrite S3, S2 in Hlt. apply elnum_div in Hlt as (i & k & Hi & Hk & ->).
  destruct (lookup_lt_is_Some_2 z k) as [z1 Hz1]; [unfold nz in *; lia|]. destruct (lookup_lt_is_Some_2 z (k + 1)) as [z2 Hz2]; [unfold nz in *; lia|].
  destruct (lookup_lt_is_Some_2 (elems m) i) as [e2 He2]; [destruct Hm as ([(_ & -> & _) _] & _); done|].
  destruct (S7 k i e2 z1 z2 Hz1 Hz2 He2) as (e' & He' & _ & _ & _ & _ & Hc). unfold elnum in Hq. rewrite Hq in He'. apply (inj Some) in He' as <-.
  destruct Hlin as (_ & _ & _ & _ & HL). destruct (HL e2) as (_ & L & _); [by eapply elem_of_list_lookup_2|].
  destruct (Hc 11%nat ltac:(lia)) as [C11 _]. destruct (Hc 12%nat ltac:(lia)) as [C12 _].
  destruct (lookup_lt_is_Some_2 (ccurv e2) 11) as [t Ht]; [lia|]. rewrite Ht in C11. apply lookup_lt_Some in C11.
  rewrite (lookup_ge_None_2 (ccurv e2) 12) in C12 by lia. apply lookup_ge_None_1 in C12. lia.
Qed.
End Sound.
