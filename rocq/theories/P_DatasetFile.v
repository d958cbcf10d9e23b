(** C72: a field written with [writenek] and opened with [open_dataset]. *)
From Coq Require Import Lia Ascii Reals Lra.
From Flocq Require Import Core.Core IEEE754.BinarySingleNaN IEEE754.Binary IEEE754.Bits.
From Verif Require Import Base Float FloatLaws Mesh MeshLemmas Bytes Text TextProofs Decimal Field FieldSpec FieldProofs Re2
  Dataset DatasetSpec DatasetProofs P_Dataset DatasetFileSpec DatasetFile.
Open Scope Z_scope.

(** ** No variable hides another *)
Theorem C72_names m : NoDup ((λ '(n, k, c), n) <$> shown m).
Proof.
  unfold shown. rewrite !fmap_app. rewrite <- (list_fmap_compose (λ i, (scalar_name i, FScal, i))).
  assert (NoDup (((λ '(n, _, _), n) ∘ (λ i, (scalar_name i, FScal, i))) <$> seq 0 (nvar m FScal))) as HS.
  { apply NoDup_fmap_2; [|apply NoDup_seq]. intros i j E. by apply scalar_name_inj. }
  assert (∀ n, n ∈ ((λ '(n, _, _), n) ∘ (λ i, (scalar_name i, FScal, i))) <$> seq 0 (nvar m FScal) → ∃ s, n = String "s" s) as HH.
  { intros n Hn. apply elem_of_list_fmap in Hn as (i & -> & _). apply scalar_name_head. }
  destruct (nvar m FPres =? 0)%nat, (nvar m FTemp =? 0)%nat; cbn [fmap list_fmap app];
    repeat (apply NoDup_cons; split; [rewrite ?not_elem_of_cons; split_and?; try done; intros Hn; apply HH in Hn as [s Hs]; discriminate Hs|]); exact HS.
Qed.
Print Assumptions C72_names.

(** ** One element *)
Lemma shown_elem r m m' p e e' : field_mesh m → elems m !! p = Some e → elems m' !! p = Some e' →
  (∀ k c, (c < nvar m k)%nat → ∃ a a', cell m p k c = Some a ∧ cell m' p k c = Some a' ∧ (to64 <$> a') = (λ v, r (to64 v)) <$> a) →
  shaped (V64 z64) (lr1_triple (lr1 m)) (var m) e' →
  ∀ k c, (c < width (var m) k)%nat → get_f k (elem64 e') !! c = Some (shown_values r m p k c).
Proof.
  intros FM He He' HC [_ HS] k c Hc.
  assert (get_f k (elem64 e') = fmap (fmap (M:=list) to64) (get_f k e')) as -> by (by destruct k).
  rewrite list_lookup_fmap. unfold shown_values. destruct (Nat.ltb_spec c (nvar m k)) as [H|H].
  - destruct (HC k c H) as (a & a' & Ha & Ha' & E). unfold cell in Ha' at 1. rewrite He' in Ha'. cbn [mbind option_bind] in Ha'.
    rewrite Ha', Ha. cbn [fmap option_fmap option_map default]. by rewrite E.
  - destruct (HS k) as [_ H2]. rewrite H2 by exact H. destruct (fm_lr1 m FM) as (lx & ly & lz & E & _). unfold points_of. rewrite E.
    cbn [lr1_triple nth zarr]. rewrite lookup_replicate_2 by done. cbn [fmap option_fmap option_map foldr]. rewrite fmap_replicate. f_equal. f_equal. lia.
Qed.
Lemma list3 {A} (l : list A) a b c : length l = 3%nat → l !! 0%nat = Some a → l !! 1%nat = Some b → l !! 2%nat = Some c → l = [a; b; c].
Proof. intros H H0 H1 H2. destruct l as [|x [|y [|z [|]]]]; cbn in *; congruence. Qed.
Lemma points_pos m : field_mesh m → (0 < points_of m)%nat.
Proof. intros FM. destruct (fm_lr1 m FM) as (lx & ly & lz & E & H & _). unfold points_of. rewrite E. cbn [foldr]. nia. Qed.
Lemma shown_dset r m p e' xs ys zs d : field_mesh m → box_of r m p xs ys zs → eshape e' = lr1_triple (lr1 m) →
  (∀ k, length (get_f k e') = width (var m) k) →
  (∀ k c, (c < width (var m) k)%nat → get_f k e' !! c = Some (shown_values r m p k c)) →
  tensor e' xs ys zs ∧ (elem_dset e' = Ok d → ds_x d = xs → ds_y d = ys → ds_z d = zs → dataset_of r m p xs ys zs d).
Proof.
  intros FM (B0 & B1 & B2 & B3) Es HL HG.
  assert (pos e' = [shown_values r m p FPos 0; shown_values r m p FPos 1; shown_values r m p FPos 2]) as Hp.
  { apply list3; [exact (HL FPos)|exact (HG FPos 0%nat ltac:(cbn; lia))|exact (HG FPos 1%nat ltac:(cbn; lia))|exact (HG FPos 2%nat ltac:(cbn; lia))]. }
  assert (vel e' = [shown_values r m p FVel 0; shown_values r m p FVel 1; shown_values r m p FVel 2]) as Hv.
  { apply list3; [exact (HL FVel)|exact (HG FVel 0%nat ltac:(cbn; lia))|exact (HG FVel 1%nat ltac:(cbn; lia))|exact (HG FVel 2%nat ltac:(cbn; lia))]. }
  split.
  { split; [by rewrite Es, B0|]. split; [by rewrite Hp, B1, B2, B3|]. by rewrite Hv. }
  intros E X Y Z. split; [done|]. split; [done|]. split; [done|]. rewrite (elem_dset_vars _ _ _ _ _ _ _ _ E Hp Hv). unfold shown. rewrite !fmap_app.
  f_equal. pose proof (points_pos m FM) as PP.
  assert (∀ l : list (list f64), has_size (eshape e') l = negb (length l =? 0)%nat) as Hsz.
  { intros l. rewrite Es. unfold points_of in PP. rewrite B0 in PP. rewrite B0. cbn [foldr] in PP. cbn [lr1_triple nth has_size]. f_equal.
    destruct (Nat.eqb_spec (length l) 0) as [->|]; [done|]. apply Nat.eqb_neq. nia. }
  rewrite !Hsz. pose proof (HL FPres) as LP. pose proof (HL FTemp) as LT. pose proof (HL FScal) as LS. cbn [get_f width kidx] in LP, LT, LS.
  change (nth 2 (var m) 0%nat) with (nvar m FPres) in LP. change (nth 3 (var m) 0%nat) with (nvar m FTemp) in LT. change (nth 4 (var m) 0%nat) with (nvar m FScal) in LS.
  f_equal; [|f_equal].
  - rewrite LP. destruct (Nat.eqb_spec (nvar m FPres) 0) as [H|H]; [done|]. cbn [negb fmap list_fmap]. f_equal. f_equal. apply nth_lookup_Some.
    apply (HG FPres 0%nat). cbn [width kidx]. unfold nvar in H. cbn [kidx] in H. lia.
  - rewrite LT. destruct (Nat.eqb_spec (nvar m FTemp) 0) as [H|H]; [done|]. cbn [negb fmap list_fmap]. f_equal. f_equal. apply nth_lookup_Some.
    apply (HG FTemp 0%nat). cbn [width kidx]. unfold nvar in H. cbn [kidx] in H. lia.
  - assert ((if negb (length (scal e') =? 0)%nat then imap (λ i a, (scalar_name i, a)) (scal e') else []) = imap (λ i a, (scalar_name i, a)) (scal e')) as ->.
    { destruct (scal e'); done. }
    apply list_eq. intros i. rewrite list_lookup_imap, !list_lookup_fmap. destruct (Nat.lt_ge_cases i (nvar m FScal)) as [H|H].
    + rewrite lookup_seq_lt by done. cbn [fmap option_fmap option_map]. rewrite (HG FScal i H : scal e' !! i = _). done.
    + rewrite lookup_seq_ge by done. rewrite (lookup_ge_None_2 (scal e') i) by lia. done.
Qed.
(** ** C72 *)
(** [r] is what storing does to a number: nothing in double precision, rounding to the nearest float32 in single
    precision. *)
Theorem C72_written_field_opened decimal native native' path m : field_mesh m → all_f64 m → is_finite 53 1024 (to64 (time m)) = true →
  digits_of_unicode decimal → nek_name path → 10 ∉ path →
  ∃ (r : f64 → f64) f, (wdsz m = 8 → ∀ x, r x = x) ∧ (wdsz m = 4 → ∀ x, nearest32 x (r x)) ∧
    writenek native m = (f, Ok tt) ∧
    ∀ xs ys zs : nat → list f64,
      (∀ p, (p < nel m)%nat → box_of r m p (xs p) (ys p) (zs p) ∧ apart (xs p) ∧ apart (ys p) ∧ apart (zs p) ∧
        increasing (xs p) ∧ increasing (ys p) ∧ increasing (zs p)) →
      ∃ ds t, open_dataset decimal native' path f = Ok (ds, t) ∧ length ds = nel m ∧
        (∀ p, (p < nel m)%nat → ∃ d, ds !! p = Some d ∧ dataset_of r m p (xs p) (ys p) (zs p) d) ∧
        (* the time of the field, to 14 digits *)
        ∃ dec, closest 14 (B2R 53 1024 (to64 (time m))) dec ∧ nearest64 (Bsign 53 1024 (to64 (time m))) dec t.
Proof.
  intros FM HA HT HD HN HP. destruct (roundtrip native native' D64 m FM (λ _, HA)) as (f & m' & H1 & H2 & H3 & H4 & _ & H6).
  set (r := λ x : f64, to64 (cast D64 (enc m (V64 x)))). exists r, f.
  split; [intros Hw x; unfold r, enc; by rewrite Hw|]. split.
  { intros Hw x. unfold r, enc. rewrite Hw. cbn [Z.eqb Pos.eqb cast to64]. apply widen_narrow_nearest. }
  split; [done|]. intros xs ys zs HB.
  destruct H3 as (E1 & E2 & E3 & E4 & _ & _ & _). destruct H6 as [L6 C6]. destruct (fm_nel m FM) as [Ln _].
  pose proof (readnek_shaped _ _ _ _ _ H2) as HS. rewrite E3, E4 in HS. cbn [zeroV] in HS. change (B754_zero 53 1024 false) with z64 in HS.
  assert (∀ p, (p < nel m)%nat → ∃ e' d, elems m' !! p = Some e' ∧ elem_dset (elem64 e') = Ok d ∧ dataset_of r m p (xs p) (ys p) (zs p) d) as HE.
  { intros p Hp. assert (is_Some (elems m !! p)) as [e He] by (apply lookup_lt_is_Some; lia).
    assert (is_Some (elems m' !! p)) as [e' He'] by (apply lookup_lt_is_Some; lia).
    destruct (HB p Hp) as (B & Ax & Ay & Az & Ix & Iy & Iz).
    pose proof (proj1 (Forall_lookup _ _) HS p e' He') as HSe.
    assert (∀ k c, (c < width (var m) k)%nat → get_f k (elem64 e') !! c = Some (shown_values r m p k c)) as HG.
    { eapply (shown_elem r m m' p e e'); try done.
      intros k c Hc. destruct (C6 p k c Hp Hc) as (a & Ha & Ha'). eexists a, _. split; [done|]. split; [exact Ha'|].
      rewrite <- list_fmap_compose. pose proof (HA p k c a Hc Ha) as HF. apply list_eq. intros i. rewrite !list_lookup_fmap.
        destruct (a !! i) as [v|] eqn:Ev; [|done]. cbn [fmap option_fmap option_map]. f_equal.
        apply (proj1 (Forall_lookup _ _) HF) in Ev as [x ->]. done. }
    destruct HSe as [Es Hk].
    assert (∀ k, length (get_f k (elem64 e')) = width (var m) k) as HL.
    { intros k. destruct (Hk k) as [<- _]. destruct k; cbn [get_f elem64 pos vel pres temp scal]; apply fmap_length. }
    destruct (fm_lr1 m FM) as (lx & ly & lz & El & Hl & _).
    assert (xs p ≠ [] ∧ ys p ≠ [] ∧ zs p ≠ []) as (Nx & Ny & Nz).
    { destruct B as (B0 & _). rewrite El in B0. injection B0 as Bx By Bz. split_and!; intros E0; [rewrite E0 in Bx|rewrite E0 in By|rewrite E0 in Bz]; cbn in *; lia. }
    pose proof (λ d, shown_dset r m p (elem64 e') (xs p) (ys p) (zs p) d FM B Es HL HG) as HD'.
    destruct (C56_labels_partial (elem64 e') (xs p) (ys p) (zs p)) as (d & Hd & X & Y & Z & _); try done.
    { exact (proj1 (HD' (Dset [] [] [] []))). }
    exists e', d. split; [done|]. split; [done|]. by apply (proj2 (HD' d)). }
  assert (∃ ds, mapR elem_dset (elem64 <$> elems m') = Ok ds) as [ds Hds].
  { assert (∀ l, (∀ e, e ∈ l → ∃ d, elem_dset e = Ok d) → ∃ ds, mapR elem_dset l = Ok ds) as HM.
    { induction l as [|e l IH]; [by exists []|]. intros H. destruct (H e ltac:(left)) as [d Ed]. destruct IH as [ds IH]; [intros; apply H; by right|].
      exists (d :: ds). cbn [mapR]. by rewrite Ed, IH. }
    apply HM. intros e He. apply elem_of_list_fmap in He as (e' & -> & He'). apply elem_of_list_lookup in He' as [p Hp].
    destruct (HE p) as (e1 & d & G1 & G2 & _); [apply lookup_lt_Some in Hp; lia|]. rewrite Hp in G1. injection G1 as <-. by exists d. }
  exists ds, (to64 (time m')). split.
  { unfold open_dataset. rewrite (C50_accepted_partial decimal path HD HN HP). cbn [negb]. rewrite H2. cbn [rbind]. by rewrite Hds. }
  apply mapR_Ok in Hds. split; [rewrite <- (Forall2_length _ _ _ Hds), fmap_length; lia|]. split.
  - intros p Hp. destruct (HE p Hp) as (e' & d & G1 & G2 & G3). exists d. split; [|done].
    assert ((elem64 <$> elems m') !! p = Some (elem64 e')) as Hl by (by rewrite list_lookup_fmap, G1).
    destruct (Forall2_lookup_l _ _ _ _ _ Hds Hl) as (d' & Hd' & Ed). rewrite Ed in G2. by injection G2 as <-.
  - rewrite H4. cbn [to64]. destruct (written 13 (to64 (time m)) HT) as (M & k & _ & _ & _ & _ & HC & _ & _ & HN2). eexists. split; [exact HC|exact HN2].
Qed.
Print Assumptions C72_written_field_opened.

(** ** A plane field of two elements with 3 x 2 points, without velocity, with a pressure and a scalar *)
Definition sx (p : nat) : list Z := match p with 0%nat => [0; 1; 3] | _ => [3; 4; 7] end.
Definition sy : list Z := [-2; 5].
Definition plane_elem (p : nat) : elem fval :=
  let a (g : Z * Z * Z → Z) := (λ t, V64 (z (g t))) <$> prod3 [0] sy (sx p) in
  Elem (3, 2, 1)%nat [a (λ '(_, _, x), x); a (λ '(_, y, _), y)] [] [a (λ '(_, y, x), x * y)] [] [a (λ '(_, y, x), x - y)] [] [] [].
Definition plane : mesh :=
  Hexa 2 2 0 0 [2; 0; 1; 0; 1]%nat PyTuple [3; 2; 1]%nat (V64 (z 12)) 7 8 "big" [plane_elem 0; plane_elem 1] [2; 1].
Lemma plane_arrays e k c : e ∈ elems plane → (c < nvar plane k)%nat → ∃ l : list Z, get_f k e !! c = Some ((λ n, V64 (z n)) <$> l) ∧ length l = 6%nat.
Proof.
  intros He Hc. cbn [elems plane] in He.
  assert (∀ (a : list (Z * Z * Z)) (g : Z * Z * Z → Z), length a = 6%nat → ∃ l : list Z, Some ((λ t, V64 (z (g t))) <$> a) = Some ((λ n, V64 (z n)) <$> l) ∧ length l = 6%nat) as HA.
  { intros a g Ha. exists (g <$> a). rewrite <- list_fmap_compose, fmap_length. done. }
  apply elem_of_cons in He as [-> |He]; [|apply elem_of_list_singleton in He as ->];
    (destruct k; cbn [nvar kidx plane var nth] in Hc; [destruct c as [|[|c]]; [| |lia]|lia|destruct c; [|lia]|lia|destruct c; [|lia]];
     cbn [get_f plane_elem pos pres scal lookup list_lookup]; apply HA; reflexivity).
Qed.
Example C72_sample_field : field_mesh plane ∧ all_f64 plane ∧ is_finite 53 1024 (to64 (time plane)) = true.
Proof.
  split; [|split].
  - split.
    + exists 3%nat, 2%nat, 1%nat. split; [done|]. split; [lia|done].
    + exists 2, 0, 1, 0, 1. split; [done|]. split_and!; auto; try lia.
    + done.
    + apply perm_swap.
    + cbn. lia.
    + by right.
    + intros e k c He Hc. destruct (plane_arrays e k c He Hc) as (l & E & L). eexists. split; [exact E|]. by rewrite fmap_length, L.
  - intros p k c a Hc Ha. unfold cell in Ha. destruct (elems plane !! p) as [e|] eqn:He; [|done]. cbn [mbind option_bind] in Ha.
    destruct (plane_arrays e k c (elem_of_list_lookup_2 _ _ _ He) Hc) as (l & E & _). rewrite E in Ha. injection Ha as <-.
    apply Forall_fmap, Forall_forall. intros n _. by eexists.
  - vm_compute. reflexivity.
Qed.
Example C72_sample_boxes (r : f64 → f64) : (∀ x, r x = x) → ∀ p, (p < nel plane)%nat →
  box_of r plane p (z <$> sx p) (z <$> sy) (z <$> [0]) ∧ apart (z <$> sx p) ∧ apart (z <$> sy) ∧ apart (z <$> [0]) ∧
  increasing (z <$> sx p) ∧ increasing (z <$> sy) ∧ increasing (z <$> [0]).
Proof.
  intros Hr p Hp.
  assert (apart (z <$> sx p) ∧ increasing (z <$> sx p)) as [Ax Ix].
  { destruct p as [|p]; cbn [sx]; (split; [apply apart_ints; [repeat constructor; cbn; lia|by apply (bool_decide_unpack _)]|
      apply increasing_ints; [repeat constructor; cbn; lia|repeat constructor; lia]]). }
  split.
  - split; [by destruct p|]. unfold shown_values, cell. cbn [nvar kidx plane var nth Nat.ltb Nat.leb elems].
    assert (∀ g : Z * Z * Z → Z, (λ v : fval, r (to64 v)) <$> ((λ t, V64 (z (g t))) <$> prod3 [0] sy (sx p)) = (λ t, z (g t)) <$> prod3 [0] sy (sx p)) as HG.
    { intros g. rewrite <- list_fmap_compose. apply list_fmap_ext. intros i t _. unfold compose. cbn [to64]. by rewrite Hr. }
    destruct p as [|[|p]]; [| |cbn in Hp; lia]; cbn [lookup list_lookup mbind option_bind get_f plane_elem pos default];
      (split; [etransitivity; [exact (HG (λ '(_, _, x), x))|reflexivity]|split; [etransitivity; [exact (HG (λ '(_, y, _), y))|reflexivity]|reflexivity]]).
  - split; [exact Ax|]. split; [apply apart_ints; [repeat constructor; cbn; lia|by apply (bool_decide_unpack _)]|].
    split; [apply apart_ints; [repeat constructor; cbn; lia|by apply (bool_decide_unpack _)]|]. split; [exact Ix|].
    split; apply increasing_ints; repeat constructor; cbn; lia.
Qed.
(** What the dataset of the second element holds. *)
Example C72_sample : match open_dataset ascii_digit Little (ascii_path "plane0.f00001") (writenek Big plane).1 with
  | Ok ([_; d], t) => (bits_of_b64 <$> ds_x d, (ds_vars d).*1, bits_of_b64 t) = (bits_of_b64 <$> (z <$> [3; 4; 7]), ["xmesh"; "ymesh"; "zmesh"; "ux"; "uy"; "uz"; "pressure"; "s01"]%string, bits_of_b64 (z 12))
  | _ => False
  end.
Proof. vm_compute. reflexivity. Qed.
