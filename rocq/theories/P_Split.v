(** C45, C60: extrude_refine. *)
From Coq Require Import Lia.
From Verif Require Import Base Mesh Core Tools Curve Mid Split Float FloatLaws MeshLemmas MeshSpec CheckProofs OpsProofs GeoLaws LimsProofs BoxProofs
  MergeSpec ExtrudeSpec ExtrudeProofs P_Extrude MidSpec MidProofs MidFinal P_Mid SplitSpec SplitProofs SplitResult SplitFinal Samples.
Open Scope Z_scope.

Lemma refine_args {A : arith} {P} (m m3 : hexa (num A)) z obc1 obc2 (Fs : list (num A → num A → P → num A)) ps h internal nz :
  length z = (nz + 1)%nat → extrude_refine m z obc1 obc2 (Some Fs) (Some ps) h internal = Ok m3 →
  length ps = length Fs ∧ Z.of_nat nz mod pow2 (h + 1) = 0 ∧ Z.of_nat nz mod pow2 (Z.of_nat (length Fs) - h + 1) = 0.
Proof.
  intros Hz E. unfold extrude_refine in E. cbv zeta in E.
  destruct (negb _); [done|]. destruct (negb _); [done|]. destruct (of_opt _ _); [|done]. cbn [rbind] in E.
  destruct (_ <? _)%nat; [done|]. destruct (one_sided_periodic _ _); [done|]. destruct (Nat.eqb_spec (length ps) (length Fs)) as [Eq|]; [|done].
  cbn [negb] in E. rewrite Hz in E. replace (Z.of_nat (nz + 1) - 1) with (Z.of_nat nz) in E by lia. split; [done|].
  destruct (Z.eqb_spec (Z.of_nat nz mod pow2 (h + 1)) 0); [|done].
  destruct (Z.eqb_spec (Z.of_nat nz mod pow2 (Z.of_nat (length Fs) - h + 1)) 0); done.
Qed.
(** The elements of the new mesh, if there is one: the elements outside of all lines, then for every line those inside and
    those cut by it, each with its own number of layers. *)
Theorem C60_elements {A : arith} {P} (bnd : Z) (m m3 : hexa (num A)) z obc1 obc2 c1 c2 (Fs : list (num A → num A → P → num A)) ps h internal nz :
  arith_laws A bnd → mul_law (A:=A) bnd → order_laws A → nisnan (nofZ (a:=A) 0) = false →
  wf_mesh m → linear2d m → paired m → length z = (nz + 1)%nat → (1 ≤ nz)%nat → Z.of_nat (6 * nel m * nz) <= bnd →
  conditions_given (nbc m) obc1 c1 → conditions_given (nbc m) obc2 c2 →
  (∀ b, (b < nbc m)%nat → c1 b = "P"%string ↔ c2 b = "P"%string) →
  let fs := zip_with with_par Fs ps in
  (∀ f e, f ∈ fs → e ∈ elems m → defined_at f e) → cuttable fs h m →
  extrude_refine m z obc1 obc2 (Some Fs) (Some ps) h internal = Ok m3 →
  is_refined fs h m z m3 ∧ nel m3 = sum_list_with (λ e, copies (length fs) h nz (part_of fs e)) (elems m).
Proof.
  intros LA LM OA H0 Hw Hlin Hp Hz Hnz Hb G1 G2 HP fs Hd Hmid E.
  destruct (refine_args m m3 z obc1 obc2 Fs ps h internal nz Hz E) as (Hps & D1 & D2).
  assert (length fs = length Fs) as Hfs by (by apply fs_length).
  rewrite Hfs. eapply (refine_result bnd LA LM OA H0 (nbc m) (default (replicate (nbc m) "P"%string) obc1) (default (replicate (nbc m) "P"%string) obc2)
    c1 c2 internal False G1 G2 HP m z nz h Fs ps); try done.
  split; [done|]. split; [done|]. split; [done|]. etransitivity; [|exact Hb]. nia.
Qed.
Print Assumptions C60_elements.

(** There is a new mesh whenever the layers can be merged by two often enough. Without internal conditions the faces 5 and 6, which a
    2D mesh does not use, must not be marked periodic. *)
Theorem C60_returns {A : arith} {P} (bnd : Z) (m : hexa (num A)) z obc1 obc2 c1 c2 (Fs : list (num A → num A → P → num A)) ps h internal nz :
  arith_laws A bnd → mul_law (A:=A) bnd → order_laws A → nisnan (nofZ (a:=A) 0) = false → 6 <= bnd →
  wf_mesh m → linear2d m → paired m → length z = (nz + 1)%nat → (1 ≤ nz)%nat → Z.of_nat (6 * nel m * nz) <= bnd →
  conditions_given (nbc m) obc1 c1 → conditions_given (nbc m) obc2 c2 →
  (∀ b, (b < nbc m)%nat → end_condition (c1 b) ∧ end_condition (c2 b) ∧ (c1 b = "P"%string ↔ c2 b = "P"%string)) →
  length ps = length Fs → let fs := zip_with with_par Fs ps in
  (∀ f e, f ∈ fs → e ∈ elems m → defined_at f e) → cuttable fs h m →
  (2 ^ Z.abs (h + 1) | Z.of_nat nz) → (2 ^ Z.abs (Z.of_nat (length Fs) - h + 1) | Z.of_nat nz) →
  (internal = true ∨ ∀ i b f r, get_bc m i b f = Some r → (4 ≤ f)%nat → bt r ≠ "P"%string) →
  ∃ m3, extrude_refine m z obc1 obc2 (Some Fs) (Some ps) h internal = Ok m3 ∧ wf_mesh m3 ∧ conn_refs m3 ∧ is_refined fs h m z m3 ∧
    nel m3 = sum_list_with (λ e, copies (length fs) h nz (part_of fs e)) (elems m).
Proof.
  intros LA LM OA H0 H6 Hw Hlin Hp Hz Hnz Hb G1 G2 HP Hps fs Hd Hmid D1 D2 Hfl.
  assert (good bnd m) as Hm. { split; [done|]. split; [done|]. split; [done|]. etransitivity; [|exact Hb]. nia. }
  assert (∀ x, 2 ^ Z.abs x ≠ 0) as Hnp by (intros x; apply pow2_nz).
  apply Z.mod_divide in D1; [|apply Hnp]. apply Z.mod_divide in D2; [|apply Hnp].
  assert (∀ b, (b < nbc m)%nat → c1 b = "P"%string ↔ c2 b = "P"%string) as HP' by (intros b ?; by apply HP).
  destruct (refine_returns bnd LA LM OA H0 (nbc m) (default (replicate (nbc m) "P"%string) obc1) (default (replicate (nbc m) "P"%string) obc2)
    c1 c2 internal True G1 G2 HP' m z nz h Fs ps Hz Hnz Hps D1 D2 Hm Hb Hmid (λ _, Hfl) obc1 obc2 eq_refl eq_refl eq_refl Hd H6) as (m3 & E & W & C); [|done|].
  { intros b Hbb. by destruct (HP b Hbb) as (? & ? & _). }
  exists m3. split; [done|]. split; [done|]. split; [done|]. by eapply (C60_elements bnd m m3 z obc1 obc2 c1 c2 Fs ps h internal nz).
Qed.
Print Assumptions C60_returns.

(** The conditions of the new mesh: those of the 2D mesh around it, the given ones at its two ends, internal ones between layers
    and between the pieces of a cut element; an entry that is none of these has been joined to a face at the same place. *)
Theorem C60_conditions {A : arith} {P} (bnd : Z) (m m3 : hexa (num A)) z obc1 obc2 c1 c2 (Fs : list (num A → num A → P → num A)) ps h nz :
  arith_laws A bnd → mul_law (A:=A) bnd → order_laws A → nisnan (nofZ (a:=A) 0) = false →
  wf_mesh m → linear2d m → paired m → length z = (nz + 1)%nat → (1 ≤ nz)%nat → Z.of_nat (6 * nel m * nz) <= bnd →
  conditions_given (nbc m) obc1 c1 → conditions_given (nbc m) obc2 c2 →
  (∀ b, (b < nbc m)%nat → end_condition (c1 b) ∧ end_condition (c2 b) ∧ (c1 b = "P"%string ↔ c2 b = "P"%string)) →
  let fs := zip_with with_par Fs ps in
  (∀ f e, f ∈ fs → e ∈ elems m → defined_at f e) → cuttable fs h m →
  extrude_refine m z obc1 obc2 (Some Fs) (Some ps) h true = Ok m3 →
  ∃ block, elems m3 = parts (length fs) ≫= block ∧
    (∀ p, p ∈ parts (length fs) → length (block p) = (length (filter (λ e, part_of fs e = p) (elems m)) * copies (length fs) h nz p)%nat) ∧
    has_types fs h m nz c1 c2 m3 block.
Proof.
  intros LA LM OA H0 Hw Hlin Hp Hz Hnz Hb G1 G2 HP fs Hd Hmid E.
  destruct (refine_args m m3 z obc1 obc2 Fs ps h true nz Hz E) as (Hps & D1 & D2).
  assert (length fs = length Fs) as Hfs by (by apply fs_length).
  rewrite Hfs. eapply (refine_types bnd LA LM OA H0 (nbc m) (default (replicate (nbc m) "P"%string) obc1) (default (replicate (nbc m) "P"%string) obc2)
    c1 c2 true True G1 G2 (λ b Hb, proj2 (proj2 (HP b Hb))) m z nz h Fs ps); try done.
  - split; [done|]. split; [done|]. split; [done|]. etransitivity; [|exact Hb]. nia.
  - intros _. by left.
  - intros b Hbb. by destruct (HP b Hbb) as (? & ? & _).
Qed.
Print Assumptions C60_conditions.

(** A number of layers that is not a multiple of the two powers is rejected, as are lists of different lengths. *)
Theorem C45_rejects {A : arith} {P} (m : hexa (num A)) z obc1 obc2 (Fs : list (num A → num A → P → num A)) funpar h internal v0 rest :
  var m = v0 :: rest →
  ndim m ≠ 2%nat ∨ lr1 m ≠ [2;2;1]%nat ∨ (v0 < 2)%nat ∨ (∃ ps, funpar = Some ps ∧ length ps ≠ length Fs) ∨
    ¬ (2 ^ Z.abs (h + 1) | Z.of_nat (length z) - 1) ∨ ¬ (2 ^ Z.abs (Z.of_nat (length Fs) - h + 1) | Z.of_nat (length z) - 1) →
  extrude_refine m z obc1 obc2 (Some Fs) funpar h internal = Raise ValueError.
Proof.
  intros Hv H. unfold extrude_refine. cbv zeta. rewrite Hv.
  destruct (Nat.eqb_spec (ndim m) 2) as [E1|]; [|done]. cbn [negb].
  destruct (bool_decide_reflect (lr1kind m = PyList ∧ lr1 m = [2; 2; 1]%nat)) as [[_ E2]|]; [|done].
  cbn [negb lookup list_lookup of_opt rbind]. destruct (Nat.ltb_spec v0 2); [done|]. destruct (one_sided_periodic _ _); [done|].
  assert (∀ x, pow2 x ≠ 0) as Hnp by (intros x; apply pow2_nz).
  destruct H as [?|[?|[?|[(ps & -> & Hl)|H]]]]; [done|done|lia| |].
  - destruct (Nat.eqb_spec (length ps) (length Fs)); done.
  - destruct (match funpar with Some l => _ | None => false end); [done|].
    destruct (Z.eqb_spec ((Z.of_nat (length z) - 1) mod pow2 (h + 1)) 0) as [E|]; [|done].
    destruct (Z.eqb_spec ((Z.of_nat (length z) - 1) mod pow2 (Z.of_nat (length Fs) - h + 1)) 0) as [E'|]; [|done].
    exfalso. apply Z.mod_divide in E; [|apply Hnp]. apply Z.mod_divide in E'; [|apply Hnp]. by destruct H.
Qed.
Print Assumptions C45_rejects.

(** The documented defaults do not work: without functions nothing is extruded, *)
Theorem C45_fun_none_refuted {A : arith} {P} (m : hexa (num A)) z obc1 obc2 (funpar : option (list P)) h internal m3 :
  extrude_refine m z obc1 obc2 None funpar h internal ≠ Ok m3.
Proof.
  unfold extrude_refine. cbv zeta. destruct (negb _); [done|]. destruct (negb _); [done|]. destruct (of_opt _ _); [|done]. cbn [rbind].
  destruct (_ <? _)%nat; [done|]. by destruct (one_sided_periodic _ _).
Qed.
Print Assumptions C45_fun_none_refuted.
Lemma mapR_length {X Y} (f : X → res Y) l l' : mapR f l = Ok l' → length l' = length l.
Proof.
  revert l'. induction l as [|x l IH]; intros l' H; cbn [mapR] in H; [by injection H as <-|].
  destruct (f x); [|done]. cbn [rbind] in H. destruct (mapR f l) as [l0|] eqn:E; [|done]. cbn [rbind] in H. injection H as <-. cbn. f_equal. by apply IH.
Qed.
Lemma split_length {A : arith} {P} internal funpar (l : list (nat * (num A → num A → P → num A))) : ∀ acc m acc' m',
  foldM (λ s x, let '(parts, ext) := s in let '(k, f) := x in let! (im, x) := refine_split internal funpar ext k f in Ok (parts ++ [im], x)) (acc, m) l
    = Ok (acc', m') → length acc' = (length acc + length l)%nat.
Proof.
  induction l as [|[k f] l IH]; intros acc m acc' m' H; cbn [foldM] in H.
  { injection H as <- <-. cbn. lia. }
  destruct (refine_split internal funpar m k f) as [[im x]|]; [|done]. cbn [rbind] in H. apply IH in H. rewrite app_length in H. cbn in *. lia.
Qed.
(** without parameters for the functions neither, *)
Theorem C45_funpar_none_refuted {A : arith} {P} (m : hexa (num A)) z obc1 obc2 (F : num A → num A → P → num A) Fs h internal m3 :
  extrude_refine m z obc1 obc2 (Some (F :: Fs)) None h internal ≠ Ok m3.
Proof.
  unfold extrude_refine. cbv zeta. destruct (negb _); [done|]. destruct (negb _); [done|]. destruct (of_opt _ _); [|done]. cbn [rbind].
  destruct (_ <? _)%nat; [done|]. destruct (one_sided_periodic _ _); [done|]. destruct (_ || _); [done|].
  destruct (if internal then _ else _) as [d|]; [|done]. cbn [rbind].
  destruct (foldM _ ([], d) _) as [[prs ext]|] eqn:Ef; [|done]. cbn [rbind]. apply split_length in Ef.
  destruct (update_ncurv ext) as [ext'|]; [|done]. cbn [rbind]. destruct (mapR _ prs) as [prs'|] eqn:Em; [|done]. cbn [rbind].
  apply mapR_length in Em. destruct prs' as [|[i md] prs']; [cbn in *; lia|].
  unfold enumerate. cbn [imap zip zip_with mapR]. unfold refine_extrude at 1. destruct (negb _); [done|]. cbn [refine_par].
  destruct (extrude i _ _ _ _); done.
Qed.
Print Assumptions C45_funpar_none_refuted.
(** and with an empty list of functions an odd number of layers, that the simple extrusion accepts, is rejected. *)
Theorem C45_no_functions_refuted {A : arith} {P} (bnd : Z) (m : hexa (num A)) z obc1 obc2 c1 c2 internal nz :
  arith_laws A bnd → wf_mesh m → linear2d m → paired m → length z = (2 * nz + 2)%nat → Z.of_nat (nel m * (2 * nz + 1)) <= bnd →
  conditions_given (nbc m) obc1 c1 → conditions_given (nbc m) obc2 c2 →
  (∀ b, (b < nbc m)%nat → c1 b = "P"%string ↔ c2 b = "P"%string) →
  (∃ m3, extrude m z obc1 obc2 internal = Ok m3 ∧ is_stack m z m3) ∧
  extrude_refine m z obc1 obc2 (Some []) (None (A:=list P)) 0 internal = Raise ValueError.
Proof.
  intros LA Hw Hlin Hp Hz Hb G1 G2 HP. split.
  - destruct (C34_extrude_stack bnd m z obc1 obc2 internal c1 c2 LA Hw Hlin ltac:(lia)) as (m3 & E & _ & Hs); [|done|done|done|by exists m3].
    rewrite Hz. replace (2 * nz + 2 - 1)%nat with (2 * nz + 1)%nat by lia. apply paired_refs; [apply Hlin|done|done].
  - destruct Hlin as (L1 & L2 & L3 & (v0 & rest & L4 & L5) & _). eapply C45_rejects; [exact L4|]. do 4 right. left.
    rewrite Hz. change (2 ^ Z.abs (0 + 1)) with 2. intros [c Hc]. lia.
Qed.
Print Assumptions C45_no_functions_refuted.

(** Sample: a 1 x 3 box, periodic in x with walls in y, with the line y = 3/2; four layers inside and two outside. *)
Definition split13 : hexa (num A64) := ok_or empty64
  (gen_box (A:=A64) "little" 1 3 (zf 0) (zf 1) (zf 0) (zf 3) [2;1;0;0;0]%nat
     (Some ["P"]%string) (Some ["P"]%string) (Some ["W"]%string) (Some ["W"]%string) true).
Definition above (x y p : num A64) : num A64 := nsub y p.
Definition z4 : list (num A64) := zf <$> [0; 1; 2; 3; 4].
Definition height : num A64 := nlit 3 2.
Definition line : num A64 → num A64 → num A64 := with_par (A:=A64) above height.

Example C60_sample_wf : wf_mesh split13.
Proof. apply wf_meshb_ok. vm_compute. reflexivity. Qed.
Example C60_sample_linear2d : linear2d (A:=A64) split13.
Proof.
  split; [by vm_compute|]. split; [by vm_compute|]. split; [by vm_compute|].
  split; [exists 2%nat; eexists; split; [vm_compute; reflexivity|lia]|].
  assert (forallb (λ e : elem f64, bool_decide (eshape e = (2,2,1)%nat) &&
     (length (ccurv e) =? 12)%nat && (length (curv e) =? 12)%nat) (elems split13) = true) as H by (vm_compute; reflexivity).
  intros e He. pose proof (forallb_elem _ _ H e He) as H'. cbv beta in H'.
  rewrite !andb_true_iff, !Nat.eqb_eq in H'. destruct H' as ((H1 & H2) & H3). split; [|done].
  by apply bool_decide_eq_true in H1.
Qed.
Example C60_sample_paired : paired (A:=A64) split13.
Proof. apply pairedb_ok. vm_compute. reflexivity. Qed.
(** Tests for the hypotheses. *)
Section tests.
Context {A : arith}.
Implicit Types (e : elem (num A)) (f : num A → num A → num A).
Definition definedb f e : bool := bool_decide (eshape e = (2, 2, 1)%nat) &&
  forallb (λ '(j, i), match point e 0 j i with Some (x, y, _) => negb (nisnan (f x y)) | None => true end) [(0, 0); (0, 1); (1, 0); (1, 1)]%nat.
Lemma definedb_ok f e : definedb f e = true → defined_at f e.
Proof.
  unfold definedb. intros H j i x y z Hp. apply andb_prop in H as [Hs H]. apply bool_decide_eq_true in Hs. rewrite forallb_forall in H.
  assert (j < 2 ∧ i < 2)%nat as [Hj Hi].
  { unfold point in Hp. rewrite Hs in Hp. destruct (Nat.ltb_spec j 2); [|done]. destruct (Nat.ltb_spec i 2); [|done]. done. }
  specialize (H (j, i)). cbv beta iota in H. rewrite Hp in H. apply negb_true_iff, H. cbn. destruct j as [|[|]], i as [|[|]]; lia || auto.
Qed.
Definition cutb (fs : list (num A → num A → num A)) (h : Z) e : bool :=
  match part_of fs e with
  | Middle k => match fs !! k with
    | Some f => (length (ccurv e) =? 12)%nat && (length (curv e) =? 12)%nat && forallb (λ r : list (num A), (length r =? 5)%nat) (curv e) &&
       forallb (λ t, String.eqb t "") (ccurv e) &&
       (let l := low (finer h k f) e in eqb (l 0 0) (l 1 0) && eqb (l 0 1) (l 1 1) && negb (eqb (l 0 0) (l 0 1)) ||
                                          eqb (l 0 0) (l 0 1) && eqb (l 1 0) (l 1 1) && negb (eqb (l 0 0) (l 1 0)))%nat
    | None => true
    end
  | _ => true
  end.
Lemma cutb_ok fs h m : forallb (cutb fs h) (elems m) = true → cuttable fs h m.
Proof.
  intros H k f e Hf He Hp. pose proof (forallb_elem _ _ H e He) as H'. unfold cutb in H'. rewrite Hp, Hf in H'. cbv zeta in H'.
  rewrite !andb_true_iff, !Nat.eqb_eq in H'. destruct H' as ((((H1 & H2) & H3) & H4) & H5).
  assert (∀ c t, ccurv e !! c = Some t → t = ""%string) as Ht.
  { intros c t Hc. pose proof (forallb_elem _ _ H4 t (elem_of_list_lookup_2 _ _ _ Hc)) as X. by apply String.eqb_eq in X. }
  split; [split_and!; [done|done| |]|split].
  - intros row Hr. pose proof (forallb_elem _ _ H3 row Hr) as X. by apply Nat.eqb_eq in X.
  - intros c _ Hc. by apply Ht in Hc.
  - intros c _ Hc. by apply Ht in Hc.
  - rewrite orb_true_iff, !andb_true_iff, !negb_true_iff, !eqb_true_iff, !eqb_false_iff in H5. destruct H5 as [((? & ?) & ?)|((? & ?) & ?)]; [left|right]; done.
Qed.
End tests.
Example C60_sample_defined f e : f ∈ [line] → e ∈ elems split13 → defined_at (A:=A64) f e.
Proof.
  assert (forallb (definedb (A:=A64) line) (elems split13) = true) as H by (vm_compute; reflexivity).
  intros Hf He. apply elem_of_list_singleton in Hf as ->. exact (definedb_ok (A:=A64) line e (forallb_elem _ _ H e He)).
Qed.
Example C60_sample_cut : cuttable (A:=A64) [line] 0 split13.
Proof. apply cutb_ok. vm_compute. reflexivity. Qed.
Example C60_sample : ∃ m3, extrude_refine (A:=A64) split13 z4 None None (Some [above]) (Some [height]) 0 true = Ok m3 ∧
  conn_refs (A:=A64) m3 ∧ is_refined (A:=A64) [line] 0 split13 z4 m3 ∧ nel m3 = 12%nat.
Proof.
  assert (conditions_given (nbc split13) None (λ _, "P"%string)) as G1.
  { change (nbc split13) with 1%nat. split; [reflexivity|]. intros [|b] Hb; [reflexivity|lia]. }
  destruct (C60_returns (A:=A64) (P:=num A64) bnd64 split13 z4 None None (λ _, "P"%string) (λ _, "P"%string) [above] [height] 0 true 4
    A64_laws A64_mul A64_order) as (m3 & E & _ & C & R & L).
  - reflexivity.
  - unfold bnd64. lia.
  - exact C60_sample_wf.
  - exact C60_sample_linear2d.
  - exact C60_sample_paired.
  - reflexivity.
  - lia.
  - change (nel split13) with 3%nat. unfold bnd64. cbn. lia.
  - exact G1.
  - exact G1.
  - intros b _. unfold end_condition. split_and!; done.
  - reflexivity.
  - exact C60_sample_defined.
  - exact C60_sample_cut.
  - by exists 2.
  - by exists 1.
  - left. reflexivity.
  - exists m3. split; [exact E|]. split; [exact C|]. split; [exact R|]. refine (eq_trans L _). vm_compute. reflexivity.
Qed.
Example C60_sample_quiet : ∃ m3, extrude_refine (A:=A64) split13 z4 (Some ["v"]%string) (Some ["O"]%string) (Some [above]) (Some [height]) 0 false = Ok m3 ∧
  conn_refs (A:=A64) m3 ∧ is_refined (A:=A64) [line] 0 split13 z4 m3 ∧ nel m3 = 12%nat.
Proof.
  assert (∀ t, conditions_given (nbc split13) (Some [t]) (λ _, t)) as G1.
  { intros t. change (nbc split13) with 1%nat. split; [reflexivity|]. intros [|b] Hb; [reflexivity|lia]. }
  assert (forallb (λ e : elem (num A64), forallb (λ row : list (bcrec (num A64)), forallb (λ r, negb (String.eqb (bt r) "P")) (drop 4 row)) (bcs e)) (elems split13) = true) as Hq
    by (vm_compute; reflexivity).
  destruct (C60_returns (A:=A64) (P:=num A64) bnd64 split13 z4 (Some ["v"]%string) (Some ["O"]%string) (λ _, "v"%string) (λ _, "O"%string) [above] [height] 0 false 4
    A64_laws A64_mul A64_order) as (m3 & E & _ & C & R & L).
  - reflexivity.
  - unfold bnd64. lia.
  - exact C60_sample_wf.
  - exact C60_sample_linear2d.
  - exact C60_sample_paired.
  - reflexivity.
  - lia.
  - change (nel split13) with 3%nat. unfold bnd64. cbn. lia.
  - exact (G1 "v"%string).
  - exact (G1 "O"%string).
  - intros b _. unfold end_condition. split_and!; done.
  - reflexivity.
  - exact C60_sample_defined.
  - exact C60_sample_cut.
  - by exists 2.
  - by exists 1.
  - right. intros i b f r Hr Hf. apply get_bc_Some_shape in Hr as (e & row & He & Hb & Hr).
    pose proof (forallb_elem _ _ Hq e (elem_of_list_lookup_2 _ _ _ He)) as H1. pose proof (forallb_elem _ _ H1 row (elem_of_list_lookup_2 _ _ _ Hb)) as H2.
    assert (r ∈ drop 4 row) as Hin. { apply elem_of_list_lookup. exists (f - 4)%nat. rewrite lookup_drop. by replace (4 + (f - 4))%nat with f by lia. }
    pose proof (forallb_elem _ _ H2 r Hin) as H3. apply negb_true_iff, String.eqb_neq in H3. exact H3.
  - exists m3. split; [exact E|]. split; [exact C|]. split; [exact R|]. refine (eq_trans L _). vm_compute. reflexivity.
Qed.
(** The same by computation: nothing is left of the marks between the parts. *)
Example C60_sample_run :
  match extrude_refine (A:=A64) split13 z4 None None (Some [above]) (Some [height]) 0 true with
  | Ok m3 => (nel m3, ncurv m3, check_connectivity (A:=A64) tol64 m3) = (12%nat, 0, Ok true) ∧
      (λ e, match bcs e with row :: _ => bt <$> row | [] => [] end) <$> elems m3 =
        [["E"; "P"; "W"; "P"; "P"; "E"]; ["E"; "P"; "W"; "P"; "E"; "P"];
         ["W"; "P"; "E"; "P"; "P"; "E"]; ["W"; "P"; "E"; "P"; "E"; "E"]; ["W"; "P"; "E"; "P"; "E"; "E"]; ["W"; "P"; "E"; "P"; "E"; "P"];
         ["E"; "P"; "E"; "P"; "P"; "E"]; ["E"; "P"; "E"; "P"; "P"; "E"]; ["E"; "P"; "E"; "P"; "E"; "E"]; ["E"; "P"; "E"; "P"; "E"; "E"];
         ["E"; "P"; "E"; "P"; "E"; "P"]; ["E"; "P"; "E"; "P"; "E"; "P"]]%string
  | Raise _ => False
  end.
Proof. vm_compute. split; reflexivity. Qed.
Example C60_conditions_sample : ∃ m3 block, extrude_refine (A:=A64) split13 z4 None None (Some [above]) (Some [height]) 0 true = Ok m3 ∧
  elems m3 = parts 1 ≫= block ∧ has_types (A:=A64) [line] 0 split13 4 (λ _, "P"%string) (λ _, "P"%string) m3 block.
Proof.
  assert (conditions_given (nbc split13) None (λ _, "P"%string)) as G1.
  { change (nbc split13) with 1%nat. split; [reflexivity|]. intros [|b] Hb; [reflexivity|lia]. }
  destruct C60_sample as (m3 & E & _). exists m3.
  destruct (C60_conditions (A:=A64) (P:=num A64) bnd64 split13 m3 z4 None None (λ _, "P"%string) (λ _, "P"%string) [above] [height] 0 4
    A64_laws A64_mul A64_order) as (block & B1 & _ & B2).
  - reflexivity.
  - exact C60_sample_wf.
  - exact C60_sample_linear2d.
  - exact C60_sample_paired.
  - reflexivity.
  - lia.
  - change (nel split13) with 3%nat. unfold bnd64. cbn. lia.
  - exact G1.
  - exact G1.
  - intros b _. unfold end_condition. split_and!; done.
  - exact C60_sample_defined.
  - exact C60_sample_cut.
  - exact E.
  - exists block. split; [exact E|]. split; [exact B1|exact B2].
Qed.
(** The exceptions without functions and without parameters. *)
Example C45_defaults_sample :
  extrude_refine (A:=A64) (P:=num A64) split13 z4 None None None None 0 true = Raise TypeError ∧
  extrude_refine (A:=A64) split13 z4 None None (Some [above]) None 0 true = Raise TypeError.
Proof. split; vm_compute; reflexivity. Qed.
