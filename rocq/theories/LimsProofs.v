(** DataLims, smallest_edge, face_center. *)
From Coq Require Import Lia Reals Lra.
From Flocq Require Import Core.Core IEEE754.BinarySingleNaN IEEE754.Binary IEEE754.Bits.
From Verif Require Import Base Mesh Core Float MeshLemmas MeshSpec CheckProofs.
Open Scope Z_scope.

(** The order laws of numbers that are not NaN. *)
Record order_laws (A : arith) : Prop := {
  ord_ltb : ∀ x y : num A, nisnan x = false → nisnan y = false → nltb x y = negb (nleb y x);
  ord_refl : ∀ x : num A, nisnan x = false → nleb x x = true;
  ord_trans : ∀ x y z : num A, nisnan x = false → nisnan y = false → nisnan z = false →
    nleb x y = true → nleb y z = true → nleb x z = true;
  ord_total : ∀ x y : num A, nisnan x = false → nisnan y = false → nleb x y = true ∨ nleb y x = true
}.

Lemma AR_order : order_laws AR.
Proof.
  split; cbn; unfold Rltb, Rleb; intros.
  - destruct (Rlt_dec x y), (Rle_dec y x); cbn; try done; lra.
  - destruct (Rle_dec x x); [done|lra].
  - destruct (Rle_dec x y), (Rle_dec y z), (Rle_dec x z); try done; lra.
  - destruct (Rle_dec x y), (Rle_dec y x); auto; lra.
Qed.

(** Comparison of non-NaN float64 values through extended reals: -inf, reals, +inf. *)
Definition ext (x : f64) : Z * R :=
  match x with
  | B754_infinity _ _ s => (if s then -1 else 1, 0%R)
  | _ => (0, B2R 53 1024 x)
  end.
Definition ext_le (a b : Z * R) : Prop := a.1 < b.1 ∨ (a.1 = b.1 ∧ (a.2 <= b.2)%R).
Lemma f64_leb_ext x y : is_nan 53 1024 x = false → is_nan 53 1024 y = false →
  f64_leb x y = true ↔ ext_le (ext x) (ext y).
Proof.
  intros Nx Ny. unfold f64_leb, ext_le, ext, b64_compare.
  destruct (is_finite 53 1024 x) eqn:Fx; [destruct (is_finite 53 1024 y) eqn:Fy|].
  - rewrite Bcompare_correct by done.
    assert (∀ z : f64, is_finite 53 1024 z = true →
      match z with B754_infinity _ _ s => (if s then -1 else 1, 0%R) | _ => (0, B2R 53 1024 z) end
      = (0, B2R 53 1024 z)) as HE by (intros []; done).
    rewrite (HE x Fx), (HE y Fy). cbn [fst snd].
    destruct (Rcompare_spec (B2R 53 1024 x) (B2R 53 1024 y)).
    + split; [intros _; right; split; [done|lra]|done].
    + split; [intros _; right; split; [done|lra]|done].
    + split; [done|]. intros [?|[_ ?]]; [lia|lra].
  - destruct y as [s'|s'| |s']; try discriminate; destruct x as [s|s| |s]; try discriminate;
      destruct s, s'; cbn [fst snd]; (split; intros H;
        [try (left; cbn; lia); try discriminate|
         try reflexivity; destruct H as [H|[H _]]; cbn in H; lia]).
  - destruct x as [s|s| |s]; try discriminate; destruct y as [s'|s'| |s']; try discriminate;
      destruct s, s'; cbn [fst snd]; (split; intros H;
        [try (left; cbn; lia); try (right; cbn; split; [reflexivity|lra]); try discriminate|
         try reflexivity; destruct H as [H|[H _]]; cbn in H; lia]).
Qed.
Lemma A64_order : order_laws A64.
Proof.
  assert (∀ x y : f64, is_nan 53 1024 x = false → is_nan 53 1024 y = false →
     f64_ltb x y = negb (f64_leb y x)) as Hlt.
  { intros x y Hx Hy. unfold f64_ltb, f64_leb, b64_compare.
    rewrite (Bcompare_swap 53 1024 x y).
    assert (Bcompare 53 1024 x y ≠ None) as H.
    { destruct (is_finite 53 1024 x) eqn:Fx; [destruct (is_finite 53 1024 y) eqn:Fy|].
      - by rewrite Bcompare_correct.
      - destruct x as [[]|[]| |[]], y as [[]|[]| |[]]; done.
      - destruct x as [[]|[]| |[]], y as [[]|[]| |[]]; done. }
    destruct (Bcompare 53 1024 x y) as [[]|]; try done. }
  split; cbn; [exact Hlt|..]; intros.
  - apply f64_leb_ext; [done..|]. right. split; [done|lra].
  - apply f64_leb_ext in H2, H3; [|done..]. apply f64_leb_ext; [done..|].
    unfold ext_le in *. destruct H2 as [?|[? ?]], H3 as [?|[? ?]]; [left; lia..|].
    right. split; [lia|lra].
  - rewrite !f64_leb_ext by done. unfold ext_le.
    destruct (Z.lt_total (ext x).1 (ext y).1) as [?|[->|?]]; [auto| |auto].
    destruct (Rle_dec (ext x).2 (ext y).2); [auto|]. right. right. split; [done|lra].
Qed.

Section Lims.
Context {A : arith} (OA : order_laws A).
Notation N := (num A).

(** [v] is the minimum of [l] as numpy defines it: NaN if a NaN occurs, otherwise an
    element that bounds all the others. *)
Definition is_min (l : list N) (v : N) : Prop :=
  v ∈ l ∧ (nisnan v = true ∨ ∀ x, x ∈ l → nisnan x = false ∧ nleb v x = true).
Definition is_max (l : list N) (v : N) : Prop :=
  v ∈ l ∧ (nisnan v = true ∨ ∀ x, x ∈ l → nisnan x = false ∧ nleb x v = true).

Lemma npmin_spec l1 l2 a b : is_min l1 a → is_min l2 b → is_min (l1 ++ l2) (npmin a b).
Proof.
  intros [Ia Ha] [Ib Hb]. unfold npmin, is_min.
  destruct (nisnan a) eqn:Na; [split; [set_solver|auto]|].
  destruct (nisnan b) eqn:Nb; [split; [set_solver|auto]|].
  destruct Ha as [|Ha]; [congruence|]. destruct Hb as [|Hb]; [congruence|].
  rewrite (ord_ltb _ OA) by done. destruct (nleb a b) eqn:Hab; cbn.
  - split; [set_solver|]. right. intros x [Hx|Hx]%elem_of_app; [auto|].
    destruct (Hb x Hx) as [Nx Hbx]. split; [done|]. by apply (ord_trans _ OA) with b.
  - split; [set_solver|]. right. intros x [Hx|Hx]%elem_of_app; [|auto].
    destruct (Ha x Hx) as [Nx Hax]. split; [done|]. apply (ord_trans _ OA) with a; try done.
    destruct (ord_total _ OA a b); [done|done|congruence|done].
Qed.
Lemma npmax_spec l1 l2 a b : is_max l1 a → is_max l2 b → is_max (l1 ++ l2) (npmax a b).
Proof.
  intros [Ia Ha] [Ib Hb]. unfold npmax, is_max.
  destruct (nisnan a) eqn:Na; [split; [set_solver|auto]|].
  destruct (nisnan b) eqn:Nb; [split; [set_solver|auto]|].
  destruct Ha as [|Ha]; [congruence|]. destruct Hb as [|Hb]; [congruence|].
  rewrite (ord_ltb _ OA) by done. destruct (nleb b a) eqn:Hab; cbn.
  - split; [set_solver|]. right. intros x [Hx|Hx]%elem_of_app; [auto|].
    destruct (Hb x Hx) as [Nx Hbx]. split; [done|]. by apply (ord_trans _ OA) with b.
  - split; [set_solver|]. right. intros x [Hx|Hx]%elem_of_app; [|auto].
    destruct (Ha x Hx) as [Nx Hax]. split; [done|]. apply (ord_trans _ OA) with a; try done.
    destruct (ord_total _ OA a b); [done|done|done|congruence].
Qed.
Lemma is_min_single x : is_min [x] x.
Proof.
  split; [set_solver|]. destruct (nisnan x) eqn:E; [auto|]. right. intros y ->%elem_of_list_singleton.
  split; [done|by apply (ord_refl _ OA)].
Qed.
Lemma is_max_single x : is_max [x] x.
Proof.
  split; [set_solver|]. destruct (nisnan x) eqn:E; [auto|]. right. intros y ->%elem_of_list_singleton.
  split; [done|by apply (ord_refl _ OA)].
Qed.
Lemma fold_npmin l : ∀ l0 x, is_min l0 x → is_min (l0 ++ l) (foldl npmin x l).
Proof.
  induction l as [|y l IH]; intros l0 x H; cbn; [by rewrite app_nil_r|].
  replace (l0 ++ y :: l) with ((l0 ++ [y]) ++ l) by (by rewrite <- app_assoc).
  apply IH, npmin_spec; [done|apply is_min_single].
Qed.
Lemma fold_npmax l : ∀ l0 x, is_max l0 x → is_max (l0 ++ l) (foldl npmax x l).
Proof.
  induction l as [|y l IH]; intros l0 x H; cbn; [by rewrite app_nil_r|].
  replace (l0 ++ y :: l) with ((l0 ++ [y]) ++ l) by (by rewrite <- app_assoc).
  apply IH, npmax_spec; [done|apply is_max_single].
Qed.

(** All the values of component [c] of a variable, over the elements. *)
Definition comp_values (get : elem N → list (list N)) (l : list (elem N)) (c : nat) : list N :=
  l ≫= (λ e, default [] (get e !! c)).
Definition extrema_of (get : elem N → list (list N)) (l : list (elem N)) (n : nat)
    (lims : list (N * N)) : Prop :=
  length lims = n ∧ ∀ c lo hi, lims !! c = Some (lo, hi) →
    is_min (comp_values get l c) lo ∧ is_max (comp_values get l c) hi.
(** Every component of the variable has the same number of components everywhere and no
    component is empty. *)
Definition uniform (get : elem N → list (list N)) (l : list (elem N)) (n : nat) : Prop :=
  ∀ e, e ∈ l → length (get e) = n ∧ ∀ c, c ∈ get e → c ≠ [].

Lemma comp_lims_spec x v : comp_lims x = Ok v → is_min x v.1 ∧ is_max x v.2.
Proof.
  destruct x as [|a l]; cbn; [done|]. intros [= <-]. cbn. split.
  - apply (fold_npmin l [a] a), is_min_single.
  - apply (fold_npmax l [a] a), is_max_single.
Qed.
Lemma elem_lims_spec get e n : uniform get [e] n →
  ∃ p, mapR comp_lims (get e) = Ok p ∧ extrema_of get [e] n p.
Proof.
  intros H. destruct (H e) as [Hn Hc]; [by left|].
  assert (∃ p, mapR comp_lims (get e) = Ok p) as [p Hp].
  { clear -Hc. induction (get e) as [|x l IH]; cbn; [eauto|].
    destruct x as [|a x]; [by destruct (Hc [] ltac:(by left))|]. cbn.
    destruct IH as [p ->]; [intros; apply Hc; by right|]. cbn. eauto. }
  exists p. split; [done|]. apply mapR_Ok in Hp. split.
  { by rewrite <- (Forall2_length _ _ _ Hp). }
  intros c lo hi Hl. destruct (Forall2_lookup_r _ _ _ _ _ Hp Hl) as (x & Hx & Hcl).
  apply comp_lims_spec in Hcl. unfold comp_values. cbn. rewrite Hx. cbn. by rewrite app_nil_r.
Qed.
Lemma join_lims_spec get l1 l2 n p q : extrema_of get l1 n p → extrema_of get l2 n q →
  ∃ r, join_lims p q = Ok r ∧ extrema_of get (l1 ++ l2) n r.
Proof.
  intros [Lp Hp] [Lq Hq]. unfold join_lims. rewrite Lp, Lq, Nat.eqb_refl.
  eexists. split; [done|]. split; [rewrite zip_with_length; lia|].
  intros c lo hi H. apply lookup_zip_with_Some in H as ([a b] & [a' b'] & [= -> ->] & Ha & Hb).
  destruct (Hp _ _ _ Ha), (Hq _ _ _ Hb). cbn.
  unfold comp_values. rewrite bind_app. split; [by apply npmin_spec|by apply npmax_spec].
Qed.

(** The extrema of all five variables. *)
Definition dict_extrema (l : list (elem N)) (np nv nq nt ns : nat) (d : limdict A) : Prop :=
  extrema_of pos l np (l_pos d) ∧ extrema_of vel l nv (l_vel d) ∧ extrema_of pres l nq (l_pres d) ∧
  extrema_of temp l nt (l_temp d) ∧ extrema_of scal l ns (l_scal d).
Definition all_uniform (l : list (elem N)) (np nv nq nt ns : nat) : Prop :=
  uniform pos l np ∧ uniform vel l nv ∧ uniform pres l nq ∧ uniform temp l nt ∧ uniform scal l ns.

Lemma uniform_sub get l l' n : uniform get l n → (∀ e, e ∈ l' → e ∈ l) → uniform get l' n.
Proof. intros H Hs e He. apply H. auto. Qed.
Lemma all_uniform_sub l l' np nv nq nt ns : all_uniform l np nv nq nt ns → (∀ e, e ∈ l' → e ∈ l) →
  all_uniform l' np nv nq nt ns.
Proof. intros (?&?&?&?&?) Hs. split_and!; by eapply uniform_sub. Qed.

Lemma lims_per_element_spec e np nv nq nt ns : all_uniform [e] np nv nq nt ns →
  ∃ d, lims_per_element e = Ok d ∧ dict_extrema [e] np nv nq nt ns d.
Proof.
  intros (H1&H2&H3&H4&H5). unfold lims_per_element.
  destruct (elem_lims_spec pos e np H1) as (p1 & -> & Q1). cbn [rbind].
  destruct (elem_lims_spec vel e nv H2) as (p2 & -> & Q2). cbn [rbind].
  destruct (elem_lims_spec pres e nq H3) as (p3 & -> & Q3). cbn [rbind].
  destruct (elem_lims_spec temp e nt H4) as (p4 & -> & Q4). cbn [rbind].
  destruct (elem_lims_spec scal e ns H5) as (p5 & -> & Q5). cbn [rbind].
  eexists. split; [done|]. exact (conj Q1 (conj Q2 (conj Q3 (conj Q4 Q5)))).
Qed.
Lemma join_dict_spec l1 l2 np nv nq nt ns a b :
  dict_extrema l1 np nv nq nt ns a → dict_extrema l2 np nv nq nt ns b →
  ∃ d, join_dict a b = Ok d ∧ dict_extrema (l1 ++ l2) np nv nq nt ns d.
Proof.
  intros (H1&H2&H3&H4&H5) (G1&G2&G3&G4&G5). unfold join_dict.
  destruct (join_lims_spec _ _ _ _ _ _ H1 G1) as (p1 & -> & Q1). cbn [rbind].
  destruct (join_lims_spec _ _ _ _ _ _ H2 G2) as (p2 & -> & Q2). cbn [rbind].
  destruct (join_lims_spec _ _ _ _ _ _ H3 G3) as (p3 & -> & Q3). cbn [rbind].
  destruct (join_lims_spec _ _ _ _ _ _ H4 G4) as (p4 & -> & Q4). cbn [rbind].
  destruct (join_lims_spec _ _ _ _ _ _ H5 G5) as (p5 & -> & Q5). cbn [rbind].
  eexists. split; [done|]. exact (conj Q1 (conj Q2 (conj Q3 (conj Q4 Q5)))).
Qed.

Lemma data_lims_spec e0 e1 l np nv nq nt ns :
  all_uniform (e0 :: e1 :: l) np nv nq nt ns →
  ∃ d, data_lims (e0 :: e1 :: l) = Ok d ∧ dict_extrema (e0 :: e1 :: l) np nv nq nt ns d.
Proof.
  intros HU. unfold data_lims. cbn [foldM].
  destruct (lims_per_element_spec e0 np nv nq nt ns) as (d0 & E0 & Q0).
  { eapply all_uniform_sub; [done|]. intros; set_solver. }
  destruct (lims_per_element_spec e1 np nv nq nt ns) as (d1 & E1 & Q1).
  { eapply all_uniform_sub; [done|]. intros; set_solver. }
  unfold lims_aggregator at 1. cbn [acc_dict]. rewrite E0. cbn [rbind]. rewrite E1. cbn [rbind].
  destruct (join_dict_spec _ _ _ _ _ _ _ _ _ Q0 Q1) as (d & Ed & Qd). rewrite Ed. cbn [rbind].
  assert (∀ l dn d, (∀ e, e ∈ l → all_uniform [e] np nv nq nt ns) → dict_extrema dn np nv nq nt ns d →
    ∃ d', foldM lims_aggregator (AccDict d) l = Ok (AccDict d') ∧ dict_extrema (dn ++ l) np nv nq nt ns d')
    as Hf.
  { clear -OA. induction l as [|e l IH]; intros dn d Hl Hd; cbn [foldM].
    - exists d. by rewrite app_nil_r.
    - destruct (lims_per_element_spec e np nv nq nt ns) as (de & Ee & Qe); [apply Hl; by left|].
      unfold lims_aggregator at 1. cbn [acc_dict rbind]. rewrite Ee. cbn [rbind].
      destruct (join_dict_spec _ _ _ _ _ _ _ _ _ Hd Qe) as (d2 & Ed2 & Q2). rewrite Ed2. cbn [rbind].
      replace (dn ++ e :: l) with ((dn ++ [e]) ++ l) by (by rewrite <- app_assoc).
      apply IH; [intros; apply Hl; by right|done]. }
  destruct (Hf l ([e0] ++ [e1]) d) as (d' & -> & Qd'); [|done|].
  { intros e He. eapply all_uniform_sub; [done|]. intros; set_solver. }
  cbn [rbind]. exists d'. done.
Qed.
End Lims.
