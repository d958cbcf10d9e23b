(** C01 to C10: field files. *)
From Coq Require Import Lia Ascii Reals Lra.
From Flocq Require Import Core.Core IEEE754.BinarySingleNaN IEEE754.Binary IEEE754.Bits.
From Verif Require Import Base Float FloatLaws Mesh Bytes BytesProofs Text TextProofs Decimal Field FieldSpec FieldSkipSpec FieldProofs FieldSkip.
Open Scope Z_scope.

(** ** Samples *)
(** Two 2 x 2 x 2 elements, stored in the order 2, 1, with positions, velocity, pressure and two
    scalars; the values are distinct. *)
Definition fill (v : Z → fval) (m : mesh) : mesh :=
  set_elems (imap (λ p e, let f k := imap (λ c a, imap (λ i _, v (Z.of_nat (((p * 5 + kidx k) * 3 + c) * 8 + i) - 50)) a) (get_f k e) in
    Elem (eshape e) (f FPos) (f FVel) (f FPres) (f FTemp) (f FScal) (curv e) (ccurv e) (bcs e)) (elems m)) m.
Definition third (z : Z) : f64 := b64_div mode_NE (f64_of_Z z) (f64_of_Z 3).
Definition sample (native : order) (endian : string) (wd : Z) : mesh :=
  let m := fill (λ z, V64 (third z)) (new_hexa (V64 (f64_of_Z 0)) (order_name native) 3 2 PyTuple [2;2;2]%nat [3;3;1;0;2]%nat 0) in
  Hexa (ndim m) (nel m) (ncurv m) (nbc m) (var m) (lr1kind m) (lr1 m)
    (V64 (third 1)) (- 12) wd endian (elems m) [2; 1].
Lemma sample_field_mesh native endian wd : wd = 4 ∨ wd = 8 → field_mesh (sample native endian wd).
Proof.
  intros Hw. split.
  - exists 2%nat, 2%nat, 2%nat. split; [done|]. split; [lia|done].
  - exists 3, 3, 1, 0, 2. split; [done|]. split_and!; auto; try lia.
  - done.
  - apply perm_swap.
  - cbn. lia.
  - done.
  - intros e k c He Hc. cbn [elems sample fill set_elems imap new_hexa] in He.
    destruct native; (apply elem_of_cons in He as [-> |He]; [|apply elem_of_cons in He as [-> |He]; [|by apply elem_of_nil in He]]);
    destruct k; cbn [nvar kidx var sample nth] in Hc; (destruct c as [|[|[|c]]]; [| | |cbn in Hc; lia]; try (cbn in Hc; lia));
    (eexists; split; [reflexivity|reflexivity]).
Qed.

Lemma sample_all_f64 native endian wd : all_f64 (sample native endian wd).
Proof.
  intros p k c a _ Ha. unfold cell in Ha. cbn [sample elems fill set_elems new_hexa] in Ha.
  rewrite list_lookup_imap in Ha. destruct (replicate _ _ !! p) as [e|]; [|done]. cbn [fmap option_fmap option_map mbind option_bind] in Ha.
  assert (∀ (g : nat → list fval → list fval) l c a, imap g l !! c = Some a → (∀ i l, Forall (λ v, ∃ x, v = V64 x) (g i l)) →
    Forall (λ v, ∃ x, v = V64 x) a) as HF.
  { intros g l c0 a0 H Hg. rewrite list_lookup_imap in H. destruct (l !! c0); [|done]. injection H as <-. apply Hg. }
  assert (∀ (w : nat → Z) (l : list fval), Forall (λ v, ∃ x, v = V64 x) (imap (λ i _, V64 (third (w i))) l)) as HV.
  { intros w l. apply Forall_lookup_2. intros i y Hy. rewrite list_lookup_imap in Hy. destruct (l !! i); [|done]. injection Hy as <-. by eexists. }
  destruct k; cbn [get_f] in Ha; (eapply HF; [exact Ha|]); intros; cbn beta; apply HV.
Qed.

(** ** C01 *)
Theorem C01_float64_round_trip native native' m : field_mesh m → wdsz m = 8 → all_f64 m →
  ∃ f m', writenek native m = (f, Ok tt) ∧ readnek native' D64 [] f = Ok m' ∧ same_metadata m' m ∧
    fields_rel (λ v v', v' = v) m m'.
Proof.
  intros FM Hw Ha. destruct (roundtrip native native' D64 m FM (λ _, Ha)) as (f & m' & H1 & H2 & H3 & _ & _ & H6).
  exists f, m'. split_and!; try done. eapply fields_via_rel; [exact H6|]. intros p k c a Hc Hca.
  eapply Forall_impl; [exact (Ha p k c a Hc Hca)|]. intros v [x ->]. unfold enc. by rewrite Hw.
Qed.
Print Assumptions C01_float64_round_trip.
Example C01_case : field_mesh (sample Little "big" 8) ∧ wdsz (sample Little "big" 8) = 8 ∧ all_f64 (sample Little "big" 8).
Proof. split; [apply sample_field_mesh; auto|]. split; [done|apply sample_all_f64]. Qed.

(** ** C02 *)
Theorem C02_float32_round_trip native native' m : field_mesh m → wdsz m = 4 → all_f64 m →
  ∃ f m', writenek native m = (f, Ok tt) ∧ readnek native' D64 [] f = Ok m' ∧ same_metadata m' m ∧
    fields_rel (λ v v', ∃ x y, v = V64 x ∧ v' = V64 y ∧ nearest32 x y) m m' ∧
    (* a second round trip changes nothing *)
    ∃ f' m'', writenek native m' = (f', Ok tt) ∧ readnek native' D64 [] f' = Ok m'' ∧ same_metadata m'' m' ∧
      fields_rel (λ v v', v' = v) m' m''.
Proof.
  intros FM Hw Ha. destruct (roundtrip native native' D64 m FM ltac:(intros ?; lia)) as (f & m' & H1 & H2 & H3 & _ & _ & H6).
  exists f, m'. split_and!; try done.
  { eapply fields_via_rel; [exact H6|]. intros p k c a Hc Hca. eapply Forall_impl; [exact (Ha p k c a Hc Hca)|].
    intros v [x ->]. unfold enc. rewrite Hw. cbn. eexists x, _. split; [done|]. split; [done|]. apply widen_narrow_nearest. }
  pose proof (field_mesh_via _ _ _ FM H3 H6) as FM'.
  assert (wdsz m' = 4) as Hw' by (destruct H3 as (_ & _ & _ & _ & _ & -> & _); done).
  destruct (roundtrip native native' D64 m' FM' ltac:(intros ?; lia)) as (f' & m'' & G1 & G2 & G3 & _ & _ & G6).
  exists f', m''. split_and!; try done.
  eapply fields_via_rel; [exact G6|]. intros p k c b Hc Hb.
  destruct (fields_via_cells _ _ _ _ _ _ _ FM H3 H6 Hc Hb) as (a & Hca & ->).
  assert (nvar m' k = nvar m k) as Env by (apply kidx_nvar; by destruct H3 as (_ & _ & _ & -> & _)). rewrite Env in Hc.
  apply Forall_fmap. eapply Forall_impl; [exact (Ha p k c a Hc Hca)|]. intros v [x ->]. unfold compose, enc. rewrite Hw, Hw'. cbn.
  by rewrite narrow_widen_narrow.
Qed.
Print Assumptions C02_float32_round_trip.
Example C02_case : field_mesh (sample Big "little" 4) ∧ wdsz (sample Big "little" 4) = 4 ∧ all_f64 (sample Big "little" 4).
Proof. split; [apply sample_field_mesh; auto|]. split; [done|apply sample_all_f64]. Qed.

(** ** C03 *)
Theorem C03_header_round_trip wd ox oy oz ne nf t st fi nfl v : header_fits wd ox oy oz ne nf st fi nfl v →
  ∃ h h', mk_header wd [ox; oy; oz] ne nf t st fi nfl [] v = Ok h ∧ length (as_bytestring h) = 132%nat ∧
    read_header (as_bytestring h) = Ok h' ∧
    h_wdsz h' = wd ∧ h_orders h' = [ox; oy; oz] ∧ h_nel h' = ne ∧ h_nelf h' = nf ∧ h_istep h' = st ∧ h_fid h' = fi ∧
    h_nfiles h' = nfl ∧ h_vars h' = v ∧ h_variables h' = h_variables h.
Proof.
  intros HF. pose proof (mk_header_ok _ _ _ _ _ _ t _ _ _ _ HF) as E.
  destruct (header_roundtrip _ _ _ _ _ _ t _ _ _ _ _ HF E) as [H1 H2]. eexists _, _. split; [exact E|]. split; [exact H1|].
  split; [exact H2|]. done.
Qed.
Print Assumptions C03_header_round_trip.
Example C03_case : header_fits 8 8 8 1 1234 617 (- 3000) 1 2 [2; 2; 1; 1; 11].
Proof. repeat split; try lia; auto. exists 2, 2, 1, 1, 11. split_and!; auto; lia. Qed.
(** A header that announces no variable at all cannot be read back. *)
Example C03_no_variables :
  (let! h := mk_header 8 [8; 8; 1] 4 4 (f64_of_Z 0) 0 0 1 [] [0; 0; 0; 0; 0] in read_header (as_bytestring h)) = Raise OSError.
Proof. vm_compute. reflexivity. Qed.

(** ** C04 *)
Theorem C04_time_14_digits wd ox oy oz ne nf t st fi nfl v : header_fits wd ox oy oz ne nf st fi nfl v →
  is_finite 53 1024 t = true →
  ∃ h h' (d : R), mk_header wd [ox; oy; oz] ne nf t st fi nfl [] v = Ok h ∧ read_header (as_bytestring h) = Ok h' ∧
    (* the decimal number in the header *)
    closest 14 (B2R 53 1024 t) d ∧
    (* the number read is the nearest float64 to it *)
    nearest64 (Bsign 53 1024 t) d (h_time h').
Proof.
  intros HF Ht. pose proof (mk_header_ok _ _ _ _ _ _ t _ _ _ _ HF) as E.
  destruct (header_roundtrip _ _ _ _ _ _ t _ _ _ _ _ HF E) as [H1 H2].
  destruct (written 13 t Ht) as (M & k & _ & _ & _ & _ & HC & _ & _ & HN).
  eexists _, _, _. split; [exact E|]. split; [exact H2|]. split; [exact HC|exact HN].
Qed.
Print Assumptions C04_time_14_digits.
(** A time with at most 14 significant digits is read back exactly. *)
Theorem C04_short_time_exact wd ox oy oz ne nf t st fi nfl v : header_fits wd ox oy oz ne nf st fi nfl v →
  is_finite 53 1024 t = true → decimal_number 14 (B2R 53 1024 t) →
  ∃ h h', mk_header wd [ox; oy; oz] ne nf t st fi nfl [] v = Ok h ∧ read_header (as_bytestring h) = Ok h' ∧ h_time h' = t.
Proof.
  intros HF Ht Hd. pose proof (mk_header_ok _ _ _ _ _ _ t _ _ _ _ HF) as E.
  destruct (header_roundtrip _ _ _ _ _ _ t _ _ _ _ _ HF E) as [H1 H2].
  eexists _, _. split; [exact E|]. split; [exact H2|]. cbn [h_time]. by apply txt_exact.
Qed.
Print Assumptions C04_short_time_exact.
(** Writing the time that was read gives the same header, and so the same time again. *)
Theorem C04_time_stable wd ox oy oz ne nf t st fi nfl v : header_fits wd ox oy oz ne nf st fi nfl v →
  is_finite 53 1024 t = true → B2R 53 1024 t = 0%R ∨ (bpow ten (-307) <= Rabs (B2R 53 1024 t))%R →
  ∃ h h', mk_header wd [ox; oy; oz] ne nf t st fi nfl [] v = Ok h ∧ read_header (as_bytestring h) = Ok h' ∧
    (is_finite 53 1024 (h_time h') = true →
     ∃ h2 h2', mk_header wd [ox; oy; oz] ne nf (h_time h') st fi nfl [] v = Ok h2 ∧ as_bytestring h2 = as_bytestring h ∧
       read_header (as_bytestring h2) = Ok h2' ∧ h_time h2' = h_time h').
Proof.
  intros HF Ht Hs. pose proof (mk_header_ok _ _ _ _ _ _ t _ _ _ _ HF) as E.
  destruct (header_roundtrip _ _ _ _ _ _ t _ _ _ _ _ HF E) as [H1 H2].
  eexists _, _. split; [exact E|]. split; [exact H2|]. cbn [h_time]. intros Hy.
  pose proof (mk_header_ok _ _ _ _ _ _ (txt_value 13 t) _ _ _ _ HF) as E'.
  destruct (header_roundtrip _ _ _ _ _ _ (txt_value 13 t) _ _ _ _ _ HF E') as [H1' H2'].
  destruct (txt_stable 13 t) as [S1 S2]; [lia|done|done|done|].
  eexists _, _. split; [exact E'|]. split; [|split; [exact H2'|cbn [h_time]; exact S2]].
  unfold as_bytestring. cbn. by rewrite S1.
Qed.
Print Assumptions C04_time_stable.
Example C04_case : is_finite 53 1024 (third 1) = true ∧ (bpow ten (-307) <= Rabs (B2R 53 1024 (third 1)))%R ∧
  is_finite 53 1024 (txt_value 13 (third 1)) = true ∧ decimal_number 14 (B2R 53 1024 (f64_of_Z 1234)).
Proof.
  split; [vm_compute; reflexivity|]. split; [|split; [vm_compute; reflexivity|]].
  - rewrite <- FF2R_B2FF. replace (B2FF 53 1024 (third 1)) with (F754_finite false 6004799503160661 (-54)) by (vm_compute; reflexivity).
    cbn [FF2R cond_Zopp]. rewrite Rabs_pos_eq by (by apply F2R_ge_0). apply Rle_trans with (bpow radix2 (52 + -54)).
    + apply Rle_trans with (bpow ten (-1)); [apply bpow_le; lia|]. change (bpow ten (-1)) with (/ 10)%R. change (bpow radix2 (52 + -54)) with (/ 4)%R. lra.
    + rewrite bpow_plus. unfold F2R. cbn [Fnum Fexp]. apply Rmult_le_compat_r; [apply bpow_ge_0|]. change (bpow radix2 52) with (IZR (2 ^ 52)). apply IZR_le. lia.
  - exists 1234, 0. split; [cbn; lia|]. destruct (f64_of_Z_correct 1234) as [-> _]; [vm_compute; discriminate|]. cbn. ring.
Qed.

(** ** C05 *)
Theorem C05_endian_neutral native native' dt m : field_mesh m → (wdsz m = 8 → all_f64 m) →
  ∃ f m', writenek native m = (f, Ok tt) ∧ readnek native' dt [] f = Ok m' ∧ same_metadata m' m ∧
    (endian m = "little" ∨ endian m = "big" → endian m' = endian m)%string ∧
    ((endian m ≠ "little" ∧ endian m ≠ "big")%string → endian m' = order_name native) ∧
    (* the values do not depend on the two machines or on the order asked for *)
    ∀ native1 native2 e1, ∃ f1 m1,
      let m_e := Hexa (ndim m) (nel m) (ncurv m) (nbc m) (var m) (lr1kind m) (lr1 m) (time m) (istep m) (wdsz m) e1 (elems m) (elmap m) in
      writenek native1 m_e = (f1, Ok tt) ∧ readnek native2 dt [] f1 = Ok m1 ∧ time m1 = time m' ∧
      ∀ p k c, (p < nel m)%nat → (c < nvar m k)%nat → cell m1 p k c = cell m' p k c.
Proof.
  intros FM W. destruct (roundtrip native native' dt m FM W) as (f & m' & H1 & H2 & H3 & H4 & H5 & H6).
  exists f, m'. split_and!; try done.
  - rewrite H5. unfold asked_order. intros [-> | ->]; done.
  - rewrite H5. unfold asked_order. intros [E1 E2]. by rewrite !bool_decide_eq_false_2.
  - intros native1 native2 e1. set (m_e := Hexa _ _ _ _ _ _ _ _ _ _ _ _ _).
    assert (field_mesh m_e) as FMe by (destruct FM; by split).
    destruct (roundtrip native1 native2 dt m_e FMe W) as (f1 & m1 & G1 & G2 & G3 & G4 & G5 & G6).
    exists f1, m1. cbn zeta. split_and!; try done; [by rewrite G4, H4|]. intros p k c Hp Hc. destruct H6 as [_ H6], G6 as [_ G6].
    destruct (H6 p k c Hp Hc) as (a & Ha & ->). destruct (G6 p k c Hp Hc) as (b & Hb & ->).
    assert (Some a = Some b) as [= <-]; [|done]. rewrite <- Ha, <- Hb. done.
Qed.
Print Assumptions C05_endian_neutral.
Example C05_case : field_mesh (sample Big "native" 8) ∧ all_f64 (sample Big "native" 8).
Proof. split; [apply sample_field_mesh; auto|apply sample_all_f64]. Qed.

(** ** C06 *)
(** Partial: only for files that hold all the elements of the mesh. *)
Theorem C06_skip_vars_partial native dt s f m h : read_header (take 132 f) = Ok h → h_nelf h = h_nel h →
  readnek native dt [] f = Ok m →
  ∃ m', readnek native dt s f = Ok m' ∧ set_elems [] m' = set_elems [] m ∧ length (elems m') = length (elems m) ∧
    ∀ p k c, (p < nel m)%nat → (c < nvar m k)%nat →
      (¬ named s k c → cell m' p k c = cell m p k c) ∧
      (named s k c → cell m' p k c = Some (replicate (foldr Nat.mul 1%nat (lr1 m)) (zeroV dt))).
Proof. apply skip_vars. Qed.
Print Assumptions C06_skip_vars_partial.
Definition ok_b {A} (r : res A) : bool := match r with Ok _ => true | Raise _ => false end.
Definition sample_file : bytes := (writenek Little (sample Little "big" 8)).1.
Example C06_case : match read_header (take 132 sample_file) with Ok h => h_nelf h =? h_nel h | Raise _ => false end = true ∧
  ok_b (readnek Little D64 [] sample_file) = true ∧ ok_b (readnek Little D64 ["uy"; "s02"; "p"]%string sample_file) = true.
Proof. split_and!; vm_compute; reflexivity. Qed.

(** The full statement fails for a file that holds part of the elements, as written by a
    parallel run with several output files. One element of two, with x, y, t and three scalars. *)
Definition bits_of (v : fval) : Z := match v with V64 x => bits_of_b64 x | V32 x => bits_of_b32 x end.
Definition cell_bits (m : mesh) (p : nat) (k : fkind) (c : nat) : option (list Z) := option_map (map bits_of) (cell m p k c).
Definition part_header : bytes :=
  match mk_header 4 [1; 1; 1] 2 1 (f64_of_Z 0) 0 0 2 [] [2; 0; 0; 1; 3] with Ok h => as_bytestring h | Raise _ => [] end.
Definition part_file : bytes :=
  field_file Little part_header [1] (λ k, match k with FPos => 2 | FTemp => 1 | FScal => 3 | _ => 0 end)%nat
    (λ j k c, [V32 (narrow (f64_of_Z (10 * Z.of_nat (kidx k) + Z.of_nat c)))]).
(** Leaving out one coordinate, and the last two scalars. *)
Example C06_last_case : match read_header (take 132 part_file) with Ok h => negb (h_nelf h =? h_nel h) | Raise _ => false end = true ∧
  (∀ h, read_header (take 132 part_file) = Ok h → nothing_after ["y"; "s02"; "s03"]%string (h_count h)) ∧
  ok_b (readnek Little D64 [] part_file) = true.
Proof.
  split_and!; [vm_compute; reflexivity| |vm_compute; reflexivity].
  intros h H. assert (h_vars h = [2; 0; 0; 1; 3]) as Hv.
  { assert (match read_header (take 132 part_file) with Ok h => bool_decide (h_vars h = [2; 0; 0; 1; 3]) | Raise _ => false end = true) as HB by (vm_compute; reflexivity).
    rewrite H in HB. by apply bool_decide_eq_true in HB. }
  split.
  - intros k k' c' Hk Hn Hs _. exfalso. assert (named ["y"; "s02"; "s03"]%string k 0) as (x & H1 & H2) by (by apply Hs).
    destruct k; unfold h_count in Hn; rewrite Hv in Hn; cbn in Hn; try lia; cbn in Hk; [| |destruct k'; cbn in Hk; lia].
    + cbn in H1. apply elem_of_list_singleton in H1 as ->. by repeat (apply elem_of_cons in H2 as [H2|H2]; [done|]); apply elem_of_nil in H2.
    + cbn in H1. repeat (apply elem_of_cons in H1 as [->|H1]); [| |by apply elem_of_nil in H1];
        by repeat (apply elem_of_cons in H2 as [H2|H2]; [done|]); apply elem_of_nil in H2.
  - intros c c' Hc Hc' _. unfold h_count in Hc'. rewrite Hv in Hc'. cbn in Hc'.
    assert (c' = 1 ∨ c' = 2)%nat as [->| ->] by lia; apply skb_named; vm_compute; reflexivity.
Qed.
(** Files that hold part of the elements: right if nothing is read after a quantity that is left
    out. Partial: when something is, see [C06_refuted]. *)
Theorem C06_skip_last_partial native dt s f m h : read_header (take 132 f) = Ok h → nothing_after s (h_count h) →
  readnek native dt [] f = Ok m →
  ∃ m', readnek native dt s f = Ok m' ∧ set_elems [] m' = set_elems [] m ∧ length (elems m') = length (elems m) ∧
    ∀ p k c, (p < nel m)%nat → (c < nvar m k)%nat →
      (¬ named s k c → cell m' p k c = cell m p k c) ∧
      (named s k c → cell m' p k c = Some (replicate (foldr Nat.mul 1%nat (lr1 m)) (zeroV dt))).
Proof. apply skip_vars_part. Qed.
Print Assumptions C06_skip_last_partial.
Theorem C06_refuted : ∃ s m m', readnek Little D64 [] part_file = Ok m ∧ readnek Little D64 s part_file = Ok m' ∧
  (0 < nel m ∧ 0 < nvar m FTemp)%nat ∧ ¬ named s FTemp 0 ∧ cell m' 0 FTemp 0 ≠ cell m 0 FTemp 0.
Proof.
  set (s := ["x"; "y"; "s01"; "s02"; "s03"]%string). exists s.
  assert (match readnek Little D64 [] part_file, readnek Little D64 s part_file with
    | Ok m, Ok m' => (0 <? nel m)%nat && (0 <? nvar m FTemp)%nat && bool_decide (cell_bits m 0 FTemp 0 ≠ cell_bits m' 0 FTemp 0)
    | _, _ => false end = true) as H by (vm_compute; reflexivity).
  destruct (readnek Little D64 [] part_file) as [m|]; [|exact (False_ind _ (Bool.diff_false_true H))].
  destruct (readnek Little D64 s part_file) as [m'|]; [|exact (False_ind _ (Bool.diff_false_true H))].
  apply andb_true_iff in H as [H H3]. apply andb_true_iff in H as [H1 H2]. apply Nat.ltb_lt in H1, H2. apply bool_decide_eq_true in H3.
  exists m, m'. split_and!; try done.
  - intros Hn. apply skb_named in Hn. vm_compute in Hn. discriminate Hn.
  - intros E. apply H3. unfold cell_bits. by rewrite E.
Qed.
Print Assumptions C06_refuted.

(** ** C07 *)
(** Any file with a readable header [H] and with the blocks [V]; whatever follows is ignored. *)
Theorem C07_element_map native dt o H h elmap V rest :
  length H = 132%nat → read_header H = Ok h → 0 <= h_nel h → Forall (λ z, 0 <= z) (h_orders h) → Forall (λ z, 0 <= z) (h_vars h) →
  h_nelf h = Z.of_nat (length elmap) → map_ok elmap (h_nel h) →
  (∀ j k c, (j < length elmap)%nat → (c < h_count h k)%nat →
     Forall (has_dtype (h_real h)) (V j k c) ∧ Z.of_nat (length (V j k c)) = h_npts h) →
  ∃ m', readnek native dt [] (field_file o H elmap (h_count h) V ++ rest) = Ok m' ∧
    meta_of m' = (Z.to_nat (h_ndims h), Z.to_nat (h_nel h), Z.to_nat <$> h_orders h, Z.to_nat <$> h_vars h,
                  V64 (h_time h), h_istep h, h_wdsz h, order_name o, elmap) ∧
    length (elems m') = Z.to_nat (h_nel h) ∧
    (* block [j] is in the element the map says, or in element [j] when the map has a zero *)
    (∀ j z k c, 0 ∉ elmap → elmap !! j = Some z → (c < h_count h k)%nat → cell m' (Z.to_nat (z - 1)) k c = Some (cast dt <$> V j k c)) ∧
    (∀ j k c, 0 ∈ elmap → (j < length elmap)%nat → (c < h_count h k)%nat → cell m' j k c = Some (cast dt <$> V j k c)) ∧
    (* elements without a block are zero *)
    (∀ p k c, (p < Z.to_nat (h_nel h))%nat → (c < h_count h k)%nat →
       (if bool_decide (0 ∈ elmap) then (length elmap ≤ p)%nat else Z.of_nat p + 1 ∉ elmap) →
       cell m' p k c = Some (replicate (Z.to_nat (h_npts h)) (zeroV dt))).
Proof.
  intros HL HH Hn Ho Hv Hf Hm HV. destruct (read_file native dt o H h elmap V rest HL HH (conj Hn (conj Ho Hv)) Hf Hm HV)
    as (m' & E & Hmeta & Hlen & Hc & Hz).
  exists m'. split_and!; try done.
  - intros j z k c H0 Hj Hk. rewrite <- (Hc j k c); [|by eapply lookup_lt_Some|done]. unfold dest.
    rewrite bool_decide_eq_false_2 by done. by rewrite (nth_lookup_Some _ _ _ _ Hj).
  - intros j k c H0 Hj Hk. rewrite <- (Hc j k c) by done. unfold dest. by rewrite bool_decide_eq_true_2.
  - intros p k c Hp Hk Hmis. apply Hz; [done|done|]. intros j Hj. unfold dest. case_bool_decide as E0; [lia|].
    intros <-. apply Hmis. destruct (lookup_lt_is_Some_2 _ _ Hj) as [z Ez]. rewrite (nth_lookup_Some _ _ _ _ Ez).
    destruct Hm as (_ & _ & Hm). destruct (Hm E0) as [_ F]. rewrite Forall_forall in F.
    specialize (F z (elem_of_list_lookup_2 _ _ _ Ez)). rewrite Z2Nat.id by lia. rewrite Z.sub_add. by eapply elem_of_list_lookup_2.
Qed.
Print Assumptions C07_element_map.
(** Two files that hold the same fields in different element orders give the same element data. *)
Theorem C07_order_irrelevant native dt o1 o2 H1 H2 h1 h2 map1 map2 V1 V2 rest1 rest2 :
  length H1 = 132%nat → read_header H1 = Ok h1 → length H2 = 132%nat → read_header H2 = Ok h2 →
  h_orders h2 = h_orders h1 → h_vars h2 = h_vars h1 → h_nel h2 = h_nel h1 →
  0 <= h_nel h1 → Forall (λ z, 0 <= z) (h_orders h1) → Forall (λ z, 0 <= z) (h_vars h1) →
  h_nel h1 < 2 ^ 31 → h_nelf h1 = h_nel h1 → h_nelf h2 = h_nel h1 →
  map1 ≡ₚ ((λ i, Z.of_nat i + 1) <$> seq 0 (Z.to_nat (h_nel h1))) → map2 ≡ₚ map1 →
  (∀ j k c, (j < length map1)%nat → (c < h_count h1 k)%nat →
     Forall (has_dtype (h_real h1)) (V1 j k c) ∧ Z.of_nat (length (V1 j k c)) = h_npts h1) →
  (∀ j k c, (j < length map2)%nat → (c < h_count h2 k)%nat →
     Forall (has_dtype (h_real h2)) (V2 j k c) ∧ Z.of_nat (length (V2 j k c)) = h_npts h2) →
  (∀ j1 j2 z k c, map1 !! j1 = Some z → map2 !! j2 = Some z → V1 j1 k c = V2 j2 k c) →
  ∃ m1 m2, readnek native dt [] (field_file o1 H1 map1 (h_count h1) V1 ++ rest1) = Ok m1 ∧
    readnek native dt [] (field_file o2 H2 map2 (h_count h2) V2 ++ rest2) = Ok m2 ∧
    length (elems m1) = length (elems m2) ∧
    ∀ p k c, (p < length (elems m1))%nat → (c < nvar m1 k)%nat → cell m1 p k c = cell m2 p k c.
Proof.
  intros L1 R1 L2 R2 Eo Ev En Hn Ho Hv Hb F1 F2 P1 P2 HV1 HV2 HVV.
  assert (∀ map, map ≡ₚ ((λ i, Z.of_nat i + 1) <$> seq 0 (Z.to_nat (h_nel h1))) → map_ok map (h_nel h1) ∧ 0 ∉ map ∧
    Z.of_nat (length map) = h_nel h1 ∧ ∀ p, (p < Z.to_nat (h_nel h1))%nat → ∃ j, map !! j = Some (Z.of_nat p + 1)) as HM.
  { intros map P. assert (∀ z, z ∈ map ↔ 1 <= z <= h_nel h1) as Hin.
    { intros z. rewrite P, elem_of_list_fmap. setoid_rewrite elem_of_seq. split; [intros (i & -> & Hi); lia|].
      intros Hz. exists (Z.to_nat (z - 1)). lia. }
    split_and!.
    - split; [apply Forall_forall; intros z Hz; apply Hin in Hz; lia|]. split; [intros H0; apply Hin in H0; lia|].
      intros _. split; [|apply Forall_forall; intros z Hz; by apply Hin].
      rewrite P. apply NoDup_fmap_2; [intros ? ? ?; lia|apply NoDup_seq].
    - intros H0. apply Hin in H0. lia.
    - rewrite P, fmap_length, seq_length. lia.
    - intros p Hp. apply elem_of_list_lookup, Hin. lia. }
  destruct (HM map1 P1) as (K1 & Z1 & N1 & S1). destruct (HM map2 (Permutation_trans P2 P1)) as (K2 & Z2 & N2 & S2).
  destruct (C07_element_map native dt o1 H1 h1 map1 V1 rest1) as (m1 & E1 & M1 & G1 & C1 & _); try done; try congruence; try lia.
  destruct (C07_element_map native dt o2 H2 h2 map2 V2 rest2) as (m2 & E2 & M2 & G2 & C2 & _); try done; try congruence; try (rewrite ?En, ?Eo, ?Ev; first [done|lia]).
  exists m1, m2. split_and!; try done; [congruence|]. intros p k c Hp Hc.
  assert (var m1 = Z.to_nat <$> h_vars h1) as Ev1 by (unfold meta_of in M1; congruence).
  assert (∀ l : list Z, nth (kidx k) (Z.to_nat <$> l) 0%nat = Z.to_nat (nth (kidx k) l 0)) as Hnth.
  { intros l. generalize (kidx k). induction l as [|z l IH]; intros [|i]; cbn; auto. }
  assert (c < h_count h1 k)%nat as Hc1 by (unfold nvar in Hc; rewrite Ev1, Hnth in Hc; done).
  assert (c < h_count h2 k)%nat as Hc2 by (unfold h_count; rewrite Ev; done).
  rewrite G1 in Hp. destruct (S1 p Hp) as [j1 J1]. destruct (S2 p Hp) as [j2 J2].
  pose proof (C1 j1 _ k c Z1 J1 Hc1) as Q1. pose proof (C2 j2 _ k c Z2 J2 Hc2) as Q2.
  rewrite Z.add_simpl_r, Nat2Z.id in Q1, Q2. rewrite Q1, Q2. by rewrite (HVV j1 j2 _ k c J1 J2).
Qed.
Print Assumptions C07_order_irrelevant.
Example C07_case : map_ok [3; 1; 2] 3 ∧ map_ok [0; 7; 7] 3 ∧ map_ok [5; 2] 6.
Proof.
  split_and!; (split; [repeat (constructor; [lia|]); constructor|]).
  - split; [intros H; exfalso; revert H; rewrite !elem_of_cons, elem_of_nil; lia|]. intros _. split; [|repeat (constructor; [lia|]); constructor].
    apply (bool_decide_unpack _). vm_compute. done.
  - split; [cbn; lia|]. intros H. exfalso. apply H. left.
  - split; [intros H; exfalso; revert H; rewrite !elem_of_cons, elem_of_nil; lia|]. intros _. split; [|repeat (constructor; [lia|]); constructor].
    apply (bool_decide_unpack _). vm_compute. done.
Qed.
Example C07_case_file : match read_header part_header with
  | Ok h => (length part_header =? 132)%nat && (h_nelf h =? 1) && forallb (λ z, 0 <=? z) (h_orders h ++ h_vars h) && bool_decide (h_count h FScal = 3%nat)
  | Raise _ => false end = true.
Proof. vm_compute. reflexivity. Qed.

(** ** C08 *)
Theorem C08_torn native dt f n h : read_header (take 132 f) = Ok h → Z.of_nat n < data_end h → (n < length f)%nat →
  ∃ e, readnek native dt [] (take n f) = Raise e.
Proof. apply torn. Qed.
Print Assumptions C08_torn.
(** The same for the files writenek makes, with the size of the header, tag, map and fields spelled out. *)
Theorem C08_torn_written native native' dt m f n : field_mesh m → (wdsz m = 8 → all_f64 m) → writenek native m = (f, Ok tt) →
  Z.of_nat n < 132 + 4 + 4 * Z.of_nat (nel m) +
    wdsz m * Z.of_nat (nel m * foldr Nat.mul 1%nat (lr1 m) * (nvar m FPos + nvar m FVel + nvar m FPres + nvar m FTemp + nvar m FScal))%nat →
  ∃ e, readnek native' dt [] (take n f) = Raise e.
Proof.
  intros FM W E Hn. destruct (write_file native m FM W) as [tr HW]. rewrite E in HW. apply (f_equal fst) in HW. cbn [fst] in HW.
  destruct (mesh_header_ok m FM) as (_ & HL & HR). set (h := read_back (mesh_header m)) in *.
  assert (read_header (take 132 f) = Ok h) as HH.
  { rewrite HW. unfold field_file. rewrite <- !app_assoc. rewrite <- HL at 1. by rewrite take_app. }
  destruct (roundtrip native native' dt m FM W) as (f0 & m0 & E0 & R0 & _). rewrite E in E0. apply (f_equal fst) in E0. cbn [fst] in E0. rewrite <- E0 in R0. clear HW E0.
  pose proof (readnek_length native' dt f m0 h HH R0) as HD.
  assert (data_end h = 132 + 4 + 4 * Z.of_nat (nel m) +
    wdsz m * Z.of_nat (nel m * foldr Nat.mul 1%nat (lr1 m) * (nvar m FPos + nvar m FVel + nvar m FPres + nvar m FTemp + nvar m FScal))%nat) as ED.
  { unfold data_end. rewrite !(h_count_mesh m h) by done.
    assert (h_npts h = Z.of_nat (foldr Nat.mul 1%nat (lr1 m))) as ->.
    { unfold h. cbn. generalize (lr1 m). intros l. induction l as [|v l IH]; [done|]. cbn [fmap list_fmap foldr]. rewrite IH. lia. }
    change (h_nelf h) with (Z.of_nat (nel m)). change (h_wdsz h) with (wdsz m). rewrite !Nat2Z.inj_mul. ring. }
  apply (torn native' dt f n h HH); [lia|]. lia.
Qed.
Print Assumptions C08_torn_written.
Example C08_case : ok_b (writenek Little (sample Little "big" 8)).2 = true ∧
  (length sample_file = 132 + 4 + 8 + 8 * 2 * 8 * 9 + 8 * 2 * 9)%nat ∧
  ok_b (readnek Little D64 [] (take 1000 sample_file)) = false.
Proof. split_and!; vm_compute; reflexivity. Qed.
(** The min/max trailer of 3D files is never read: its loss goes unnoticed. *)
Example C08_trailer_ignored : ok_b (readnek Little D64 [] (take (132 + 4 + 8 + 8 * 2 * 8 * 9) sample_file)) = true.
Proof. vm_compute. reflexivity. Qed.

(** ** C09 *)
(** The property fails: with any other word size the call raises, and the file is left empty. *)
Theorem C09_refuted native m : length (lr1 m) = 3%nat → wdsz m ≠ 4 → wdsz m ≠ 8 → writenek native m = ([], Raise ValueError).
Proof.
  intros Hl H4 H8. unfold writenek, write_header, mk_header.
  rewrite (proj2 (Z.eqb_neq _ _) H4), (proj2 (Z.eqb_neq _ _) H8). done.
Qed.
Print Assumptions C09_refuted.
Example C09_case : length (lr1 (sample Little "big" 5)) = 3%nat ∧ wdsz (sample Little "big" 5) = 5.
Proof. done. Qed.

(** ** C10 *)
(** Partial: for files with word size 4. [f] is any file writenek makes. *)
Theorem C10_float32_rewritten_partial native native' m : field_mesh m → wdsz m = 4 →
  ∃ f m', writenek native m = (f, Ok tt) ∧ readnek native' D32 [] f = Ok m' ∧ same_metadata m' m ∧
    ∃ f' m'', writenek native m' = (f', Ok tt) ∧ readnek native' D32 [] f' = Ok m'' ∧ same_metadata m'' m' ∧
      fields_rel (λ v v', v' = v) m' m''.
Proof.
  intros FM Hw. destruct (roundtrip native native' D32 m FM ltac:(intros ?; lia)) as (f & m' & H1 & H2 & H3 & _ & _ & H6).
  exists f, m'. split_and!; try done.
  pose proof (field_mesh_via _ _ _ FM H3 H6) as FM'.
  assert (wdsz m' = 4) as Hw' by (destruct H3 as (_ & _ & _ & _ & _ & -> & _); done).
  destruct (roundtrip native native' D32 m' FM' ltac:(intros ?; lia)) as (f' & m'' & G1 & G2 & G3 & _ & _ & G6).
  exists f', m''. split_and!; try done.
  eapply fields_via_rel; [exact G6|]. intros p k c b Hc Hb.
  destruct (fields_via_cells _ _ _ _ _ _ _ FM H3 H6 Hc Hb) as (a & Hca & ->).
  apply Forall_fmap, Forall_true. intros v. unfold compose, enc. rewrite Hw, Hw'. cbn. by destruct v.
Qed.
Print Assumptions C10_float32_rewritten_partial.
Example C10_case : field_mesh (sample Big "little" 4) ∧ wdsz (sample Big "little" 4) = 4.
Proof. split; [apply sample_field_mesh; auto|done]. Qed.
(** With word size 8 the second file announces 8 byte numbers and holds 4 byte ones. *)
Theorem C10_refuted : ∃ m f m' f', field_mesh m ∧ all_f64 m ∧ writenek Little m = (f, Ok tt) ∧ readnek Little D32 [] f = Ok m' ∧
  writenek Little m' = (f', Ok tt) ∧ ∃ e, readnek Little D32 [] f' = Raise e.
Proof.
  set (m := sample Little "little" 8). exists m.
  assert (match writenek Little m with (f, Ok tt) => match readnek Little D32 [] f with Ok m' => 
    match writenek Little m' with (f', Ok tt) => negb (ok_b (readnek Little D32 [] f')) | _ => false end | Raise _ => false end | _ => false end = true) as H
    by (vm_compute; reflexivity).
  destruct (writenek Little m) as [f [[]|]]; [|exact (False_ind _ (Bool.diff_false_true H))].
  destruct (readnek Little D32 [] f) as [m'|] eqn:E1; [|exact (False_ind _ (Bool.diff_false_true H))].
  destruct (writenek Little m') as [f' [[]|]] eqn:E2; [|exact (False_ind _ (Bool.diff_false_true H))].
  destruct (readnek Little D32 [] f') as [m''|e] eqn:E3; [exact (False_ind _ (Bool.diff_false_true H))|].
  exists f, m', f'. split; [apply sample_field_mesh; auto|]. split; [apply sample_all_f64|]. split; [done|]. split; [exact E1|].
  split; [exact E2|]. by exists e.
Qed.
Print Assumptions C10_refuted.
