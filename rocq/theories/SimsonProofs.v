(** Reading SIMSON files. *)
From Coq Require Import Lia Ascii Reals Lra.
From Flocq Require Import Core.Core IEEE754.BinarySingleNaN IEEE754.Binary IEEE754.Bits.
From Verif Require Import Base Float FloatLaws FloatOps Mesh Bytes BytesProofs Text Field Re2 Simson SimsonSpec.
Open Scope Z_scope.

Lemma numbers_length o l : length (numbers o l) = (length l * 8)%nat.
Proof. unfold numbers. rewrite (bind_length 8); [lia|]. intros; apply f64_bytes_length. Qed.
Lemma unpack_numbers o l n : n = Z.of_nat (length l) → unpack_f64 o n (numbers o l) = Ok l.
Proof.
  intros ->. unfold unpack_f64. rewrite numbers_length, (proj2 (Z.eqb_eq _ _)) by lia. rewrite Nat2Z.id. f_equal.
  unfold numbers. rewrite <- (app_nil_r (l ≫= f64_bytes o)), chunks_app by (intros; apply f64_bytes_length).
  rewrite <- list_fmap_compose. etransitivity; [|apply list_fmap_id]. apply list_fmap_ext. intros i x _. apply f64_read_bytes.
Qed.
Lemma next_i32_ok o z l : - 2 ^ 31 <= z < 2 ^ 31 → next_i32 o (i32_bytes o z ++ l) = Ok (z, l).
Proof.
  intros H. unfold next_i32. rewrite py_read_app by (by rewrite i32_bytes_length).
  rewrite <- (app_nil_r (i32_bytes o z)). change (i32_bytes o z ++ []) with ([z] ≫= i32_bytes o).
  change 1 with (Z.of_nat (length [z])). rewrite unpack_i32_bytes; [done|]. by constructor.
Qed.
Lemma next_f64_ok o x l : next_f64 o (f64_bytes o x ++ l) = Ok (x, l).
Proof.
  unfold next_f64. rewrite py_read_app by (by rewrite f64_bytes_length).
  replace (f64_bytes o x) with (numbers o [x]) by (unfold numbers; cbn; by rewrite app_nil_r). by rewrite unpack_numbers.
Qed.
Lemma pass_app n e l : n = Z.of_nat (length e) → pass n (e ++ l) = l.
Proof. intros H. unfold pass. by rewrite py_read_app. Qed.
Lemma size_int32 n : size31 n → - 2 ^ 31 <= Z.of_nat n < 2 ^ 31.
Proof. unfold size31. lia. Qed.

(** ** Plane files *)
Lemma next_block_ok o nt b xs l : length b = 4%nat → nt = Z.of_nat (length xs) → next_block o nt (b ++ numbers o xs ++ l) = Ok (xs, l).
Proof.
  intros Hb ->. unfold next_block. rewrite pass_app by (by rewrite Hb). rewrite py_read_app by (rewrite numbers_length; lia).
  by rewrite unpack_numbers.
Qed.
Lemma tag_order o : (if i32_read Little (i32_bytes o 8) <=? 1000 then (Little, Z.quot (i32_read Little (i32_bytes o 8)) 4)
  else (Big, Z.quot (i32_read Big (i32_bytes o 8)) 4)) = (o, 2).
Proof. destruct o; vm_compute; reflexivity. Qed.
Lemma unpack_one o l : length l = 4%nat → unpack_i32 o 1 l = Ok [i32_read o l].
Proof.
  intros H. unfold unpack_i32. rewrite H. cbn [Z.of_nat]. change (Z.of_nat 4 =? 4 * Z.max 0 1) with true. cbn [Z.to_nat chunks].
  change (Z.to_nat 1) with 1%nat. cbn [chunks fmap list_fmap]. rewrite take_ge by lia. done.
Qed.
Ltac plane_lengths HL HM :=
  apply Forall_cons in HL as [Lx HL]; apply Forall_cons in HL as [Ly HL]; apply Forall_cons in HL as [Ld _];
  apply Forall_cons in HM as [La HM]; apply Forall_cons in HM as [Lb HM]; apply Forall_cons in HM as [Lc HM];
  apply Forall_cons in HM as [Ld' HM]; apply Forall_cons in HM as [Le HM]; apply Forall_cons in HM as [Lf _].
Lemma readplane_ok o p : plane_ok p → let n0 := p_n0 p in let n1 := p_n1 p in
  readplane (plane_bytes o p) = Ok (Plane [reshape_F n0 n1 (p_x p); reshape_F n0 n1 (p_y p)] (reshape_F n0 n1 (p_d p)) [Z.of_nat n0; Z.of_nat n1] 2).
Proof.
  destruct p as [n0 n1 x y d0 [[[[[a b] c] d] e] f] tl]. unfold plane_ok, plane_bytes, plane_body. cbn [p_n0 p_n1 p_x p_y p_d p_marks p_end].
  intros (H0 & H1 & HL & HM). cbv beta iota in HM. plane_lengths HL HM.
  rewrite <- !app_assoc. unfold readplane. rewrite py_read_app by (by rewrite i32_bytes_length).
  rewrite !unpack_one by apply i32_bytes_length. cbn [rbind nth]. rewrite tag_order. change (Z.to_nat 2) with 2%nat. cbn [read_sizes].
  rewrite next_i32_ok by (by apply size_int32). cbn [rbind]. rewrite next_i32_ok by (by apply size_int32). cbn [rbind].
  rewrite pass_app by (by rewrite La). cbn [Z.eqb Pos.eqb existsb nth foldr].
  rewrite !(proj2 (Z.ltb_ge _ _)) by lia. cbn [orb]. rewrite !Nat2Z.id.
  rewrite next_block_ok by (rewrite ?Lx; first [done|lia]). cbn [rbind]. rewrite pass_app by (by rewrite Lc).
  rewrite next_block_ok by (rewrite ?Ly; first [done|lia]). cbn [rbind]. rewrite pass_app by (by rewrite Le).
  rewrite next_block_ok by (rewrite ?Ld; first [done|lia]). done.
Qed.
Lemma reshape_fastest n0 n1 l : length l = (n0 * n1)%nat → fastest n0 n1 l (reshape_F n0 n1 l).
Proof.
  intros HL. unfold reshape_F, range. split; [by rewrite fmap_length, seq_length|]. intros i j Hi Hj.
  eexists. split; [rewrite list_lookup_fmap, lookup_seq_lt by done; reflexivity|]. split; [by rewrite fmap_length, seq_length|].
  rewrite list_lookup_fmap, lookup_seq_lt by done. cbn [fmap option_fmap option_map]. rewrite !Nat.add_0_l.
  assert (i + n0 * j < length l)%nat as Hk by (rewrite HL; nia).
  apply lookup_lt_is_Some_2 in Hk as (v & Hv). by rewrite (nth_lookup_Some _ _ _ _ Hv).
Qed.
(** Files of one and three dimensions are never read. *)
Lemma next_i32_raise {B} o l (k : res B) : (∃ x, k = Raise x) → ∃ x, (let! _ := next_i32 o l in k) = Raise x.
Proof. intros (x & ->). destruct (next_i32 o l) as [r|x']; cbn; eauto. Qed.
Lemma readplane_dims file x d nn nd : readplane file = Ok (Plane x d nn nd) → nd = 2.
Proof.
  unfold readplane. destruct (py_read 4 file) as [tb l]. destruct (unpack_i32 Little 1 tb) as [tl|]; [|done]. cbn [rbind].
  destruct (unpack_i32 Big 1 tb) as [tB|]; [|done]. cbn [rbind].
  destruct (if nth 0 tl 0 <=? 1000 then _ else _) as [o nd']. destruct (read_sizes _ _ l) as [[nn' l']|]; [|done]. cbn [rbind].
  destruct (Z.eqb_spec nd' 2) as [->|E].
  - destruct (existsb _ nn'); [done|]. destruct (next_block o _ _) as [[? ?]|]; [|done]. cbn [rbind].
    destruct (next_block o _ _) as [[? ?]|]; [|done]. cbn [rbind]. destruct (next_block o _ _) as [[? ?]|]; [|done]. cbn [rbind]. by intros [= <- <- <- <-].
  - destruct ((nd' =? 1) || (nd' =? 3)); [|done]. destruct (existsb _ nn'); [done|]. destruct (next_i32 o _); cbn; done.
Qed.
(** Torn files. *)
Lemma next_i32_short o l : (length l < 4)%nat → ∃ x, next_i32 o l = Raise x.
Proof.
  intros H. unfold next_i32, py_read. cbn [Z.ltb Z.compare]. unfold unpack_i32. rewrite take_length.
  rewrite (proj2 (Z.eqb_neq _ _)) by lia. by eexists.
Qed.

Lemma next_block_len o nt l r l' : 0 < nt → next_block o nt l = Ok (r, l') → (4 + 8 * nt <= Z.of_nat (length l)) ∧ length l = (length l' + 4 + 8 * Z.to_nat nt)%nat.
Proof.
  intros Hn. unfold next_block, pass, py_read. cbn [Z.ltb Z.compare snd]. rewrite (proj2 (Z.ltb_ge _ _)) by lia.
  unfold unpack_f64. rewrite take_length, drop_length.
  destruct (Z.eqb_spec (Z.of_nat (Nat.min (Z.to_nat (nt * 8)) (length l - Z.to_nat 4))) (8 * Z.max 0 nt)) as [E|E]; [|done].
  cbn [rbind]. intros [= _ <-]. rewrite !drop_length. lia.
Qed.
Lemma pass_len n l : 0 <= n → length (pass n l) = (length l - Z.to_nat n)%nat.
Proof. intros H. unfold pass, py_read. rewrite (proj2 (Z.ltb_ge _ _)) by lia. cbn [snd]. apply drop_length. Qed.
Lemma readplane_short file : (length file < 4)%nat → ∃ x, readplane file = Raise x.
Proof.
  intros H. unfold readplane, py_read. cbn [Z.ltb Z.compare]. unfold unpack_i32. rewrite take_length.
  rewrite (proj2 (Z.eqb_neq _ _)) by lia. by eexists.
Qed.
(** Reading the two sizes from a prefix. *)
Lemma next_i32_prefix o z k l : - 2 ^ 31 <= z < 2 ^ 31 →
  next_i32 o (take k (i32_bytes o z ++ l)) = Ok (z, take (k - 4) l) ∧ (4 ≤ k)%nat ∨ ∃ x, next_i32 o (take k (i32_bytes o z ++ l)) = Raise x.
Proof.
  intros Hz. destruct (Nat.lt_ge_cases k 4) as [H|H].
  - right. apply next_i32_short. rewrite take_length. lia.
  - left. split; [|done]. rewrite take_app_ge by (rewrite i32_bytes_length; lia). rewrite i32_bytes_length. by apply next_i32_ok.
Qed.
Lemma readplane_torn o p k : plane_ok p → (0 < p_n0 p)%nat → (0 < p_n1 p)%nat → (k < length (plane_body o p))%nat →
  ∃ x, readplane (take k (plane_body o p)) = Raise x.
Proof.
  destruct p as [n0 n1 x y d0 [[[[[a b] c] d] e] f] tl]. unfold plane_ok, plane_body. cbn [p_n0 p_n1 p_x p_y p_d p_marks p_end].
  intros (H0 & H1 & HL & HM) P0 P1 Hk. cbv beta iota in HM. plane_lengths HL HM.
  rewrite !app_length, !numbers_length, !i32_bytes_length, La, Lb, Lc, Ld', Le, Lf, Lx, Ly, Ld in Hk.
  destruct (Nat.lt_ge_cases k 4) as [Hk4|Hk4]; [apply readplane_short; rewrite take_length; lia|].
  rewrite take_app_ge by (rewrite i32_bytes_length; lia). rewrite i32_bytes_length. unfold readplane.
  rewrite py_read_app by (by rewrite i32_bytes_length).
  rewrite !unpack_one by apply i32_bytes_length. cbn [rbind nth]. rewrite tag_order. change (Z.to_nat 2) with 2%nat. cbn [read_sizes].
  match goal with |- context [take (k - 4) (i32_bytes o ?z ++ ?l)] => destruct (next_i32_prefix o z (k - 4) l ltac:(by apply size_int32)) as [[-> Hk8]|[? ->]] end; [|by eexists].
  cbn [rbind].
  match goal with |- context [take ?k' (i32_bytes o ?z ++ ?l)] => destruct (next_i32_prefix o z k' l ltac:(by apply size_int32)) as [[-> Hk12]|[? ->]] end; [|by eexists].
  cbn [rbind]. cbn [Z.eqb Pos.eqb existsb nth foldr]. rewrite !(proj2 (Z.ltb_ge _ _)) by lia. cbn [orb].
  match goal with |- context [pass 4 (take ?k' ?l)] => set (L := take k' l) end.
  assert (length L < 24 + 24 * (n0 * n1))%nat as HLen by (unfold L; rewrite take_length; lia).
  clearbody L. set (nt := Z.of_nat n0 * (Z.of_nat n1 * 1)).
  assert (nt = Z.of_nat (n0 * n1)) as HN by (unfold nt; lia). assert (0 < nt) as HP by (rewrite HN; nia).
  clearbody nt.
  destruct (next_block o nt (pass 4 L)) as [[r1 l1]|] eqn:E1; [|by eexists]. cbn [rbind].
  destruct (next_block o nt (pass 4 l1)) as [[r2 l2]|] eqn:E2; [|by eexists]. cbn [rbind].
  destruct (next_block o nt (pass 4 l2)) as [[r3 l3]|] eqn:E3; [|by eexists]. exfalso.
  apply next_block_len in E1, E2, E3; [|done..]. rewrite pass_len in E1, E2, E3 by lia. lia.
Qed.

(** ** DNS files *)
Lemma dns_row_ok o nx r rows l : length r = nx → stream o (r :: rows) l → ∃ l', dns_row o nx l = Ok (r, l') ∧ stream o rows l'.
Proof.
  intros Hr (e & l' & -> & He & Hs). unfold dns_row. rewrite py_read_app by (rewrite numbers_length; lia).
  rewrite unpack_numbers by lia. cbn [rbind]. eexists. split; [done|]. destruct He as [->|He]; [done|].
  unfold junk in He. by rewrite pass_app by (by rewrite He).
Qed.
Lemma dns_rows_ok o nx rs rows l : Forall (λ r, length r = nx) rs → stream o (rs ++ rows) l →
  ∃ l', dns_rows o nx (length rs) l = Ok (rs, l') ∧ stream o rows l'.
Proof.
  intros H. revert l. induction H as [|r rs Hr _ IH]; intros l Hs; [by exists l|].
  destruct (dns_row_ok o nx r (rs ++ rows) l Hr Hs) as (l1 & E1 & Hs1). destruct (IH l1 Hs1) as (l2 & E2 & Hs2).
  exists l2. split; [|done]. cbn. rewrite E1. cbn. by rewrite E2.
Qed.
Section dns.
Context (o : order) (nx ny nz : nat) (row : nat → nat → nat → list f64).
Context (Hrow : ∀ c iz iy, length (row c iz iy) = nx).
Definition lines (c iz : nat) : list (list cplx) := (λ iy, dns_line nx (Z.of_nat nx * Z.of_nat nz) c (row c iz iy)) <$> range ny.
Definition raw (c iz : nat) : list (list f64) := row c iz <$> range ny.
Definition store (c : nat) (fou : fourier) (izs : list nat) : fourier := foldl (λ f iz, <[fplane nz iz := lines c iz]> f) fou izs.
Lemma dns_planes_ok c izs : ∀ fou rows l, stream o ((izs ≫= raw c) ++ rows) l →
  ∃ l', foldM (dns_plane o nx ny nz c) (fou, l) izs = Ok (store c fou izs, l') ∧ stream o rows l'.
Proof.
  induction izs as [|iz izs IH]; intros fou rows l Hs; [by exists l|].
  cbn [mbind list_bind] in Hs. rewrite <- (app_assoc (raw c iz)) in Hs.
  destruct (dns_rows_ok o nx (raw c iz) ((izs ≫= raw c) ++ rows) l) as (l1 & E1 & Hs1); [|done|].
  { apply List.Forall_forall. intros r Hr. apply elem_of_list_In, elem_of_list_fmap in Hr as (iy & -> & _). apply Hrow. }
  unfold raw at 1 in E1. rewrite fmap_length in E1. unfold range at 1 in E1. rewrite seq_length in E1.
  destruct (IH (<[fplane nz iz := lines c iz]> fou) rows l1 Hs1) as (l2 & E2 & Hs2).
  exists l2. split; [|done]. cbn [foldM]. unfold dns_plane at 1. rewrite E1. cbn [rbind].
  assert (dns_line nx (Z.of_nat nx * Z.of_nat nz) c <$> raw c iz = lines c iz) as -> by (unfold raw, lines; by rewrite <- list_fmap_compose).
  exact E2.
Qed.
Lemma store_length c izs : ∀ fou, length (store c fou izs) = length fou.
Proof. unfold store. induction izs as [|iz izs IH]; intros fou; [done|]. cbn. rewrite IH. apply insert_length. Qed.
Lemma store_snoc c fou izs iz : store c fou (izs ++ [iz]) = <[fplane nz iz := lines c iz]> (store c fou izs).
Proof. unfold store. by rewrite foldl_app. Qed.
(** The plane that was stored last in place [k]. *)
Definition last_in (k : nat) (izs : list nat) : option nat := last (filter (λ iz, fplane nz iz = k) izs).
Lemma store_lookup c fou izs k : (k < length fou)%nat →
  store c fou izs !! k = match last_in k izs with Some iz => Some (lines c iz) | None => fou !! k end.
Proof.
  intros Hk. induction izs as [|iz izs IH] using rev_ind; [done|]. rewrite store_snoc. unfold last_in. rewrite filter_app, filter_cons, filter_nil.
  destruct (decide (fplane nz iz = k)) as [E|E].
  - rewrite last_snoc, E. apply (list_lookup_insert (store c fou izs)). by rewrite store_length.
  - rewrite app_nil_r. etransitivity; [exact (list_lookup_insert_ne (store c fou izs) _ _ (lines c iz) E)|exact IH].
Qed.
Definition fou0 : fourier := replicate nz (replicate ny (replicate (nx / 2 + 1) (creal z64))).
Definition stored (c : nat) : fourier := store c fou0 (range nz).
Lemma store_again c c' : store c (stored c') (range nz) = stored c.
Proof.
  apply list_eq. intros k. assert (length (stored c') = nz ∧ length fou0 = nz) as [HL HL0].
  { unfold stored. rewrite store_length. unfold fou0. by rewrite replicate_length. }
  destruct (Nat.lt_ge_cases k nz) as [Hk|Hk].
  - assert (∀ c, stored c !! k = match last_in k (range nz) with Some iz => Some (lines c iz) | None => fou0 !! k end) as HS.
    { intros c1. assert (k < length fou0)%nat as Hk0 by (rewrite HL0; exact Hk). exact (store_lookup c1 fou0 (range nz) k Hk0). }
    rewrite (store_lookup c (stored c')) by (rewrite HL; exact Hk). rewrite !HS.
    by destruct (last_in k (range nz)) as [iz|].
  - rewrite !lookup_ge_None_2; [done| |].
    + unfold stored. rewrite store_length, HL0. exact Hk.
    + rewrite store_length, HL. exact Hk.
Qed.
Lemma dns_components_ok fft : ∀ l, stream o (range 3 ≫= λ c, range nz ≫= raw c) l →
  ∃ f l', foldM (dns_component fft o nx ny nz) (fou0, [], l) (range 3) = Ok (f, [fft (stored 0) nx nz; fft (stored 1) nx nz; fft (stored 2) nx nz], l').
Proof.
  intros l. change (range 3) with [0; 1; 2]%nat. cbn [mbind list_bind]. rewrite app_nil_r. intros Hs.
  destruct (dns_planes_ok 0 (range nz) fou0 _ _ Hs) as (l1 & E1 & Hs1).
  destruct (dns_planes_ok 1 (range nz) (stored 0) _ _ Hs1) as (l2 & E2 & Hs2). rewrite store_again in E2.
  rewrite <- (app_nil_r (range nz ≫= raw 2)) in Hs2.
  destruct (dns_planes_ok 2 (range nz) (stored 1) _ _ Hs2) as (l3 & E3 & Hs3). rewrite store_again in E3.
  exists (stored 2), l3. cbn [foldM]. unfold dns_component. rewrite E1. cbn [rbind]. fold (stored 0). rewrite E2. cbn [rbind]. rewrite E3. done.
Qed.
End dns.

Lemma pass_f64_ok o xs l : pass_f64 o (length xs) (numbers o xs ++ l) = Ok l.
Proof.
  induction xs as [|x xs IH]; [done|]. cbn [length pass_f64]. unfold numbers. cbn [mbind list_bind]. rewrite <- app_assoc.
  rewrite next_f64_ok. cbn [rbind]. exact IH.
Qed.
Lemma flow_part_ok o (b : bool) n ns m l : flow_bytes o ((if b then [n] else []) ++ ns) m →
  ∃ m', flow_part o b n (m ++ l) = Ok (m' ++ l) ∧ flow_bytes o ns m'.
Proof.
  destruct b; intros H; cbn in H; [|by exists m]. inversion H as [|? xs e ? l' Hx He Hl]; subst. exists l'. split; [|done].
  unfold flow_part. rewrite <- !app_assoc, pass_f64_ok. cbn [rbind]. unfold junk in He. by rewrite pass_app by (by rewrite He).
Qed.
Lemma flow_dependent_ok o fl m l : flow_bytes o (flow_groups fl) m → flow_dependent o 0 fl (m ++ l) = Ok l.
Proof.
  unfold flow_groups, flow_dependent. intros H.
  assert (Z.abs fl =? 20 = (fl =? 20) || (fl =? -20)) as ->.
  { destruct (Z.eqb_spec (Z.abs fl) 20), (Z.eqb_spec fl 20), (Z.eqb_spec fl (-20)); cbn; lia. }
  destruct (flow_part_ok _ _ _ _ _ l H) as (m1 & -> & H1). cbn [rbind].
  destruct (flow_part_ok _ _ _ _ _ l H1) as (m2 & -> & H2). cbn [rbind].
  destruct (flow_part_ok _ _ _ _ _ l H2) as (m3 & -> & H3). cbn [rbind].
  destruct (flow_part_ok _ _ _ _ _ l H3) as (m4 & -> & H4). cbn [rbind].
  rewrite <- (app_nil_r (if (fl =? 20) || (fl =? -20) then _ else _)) in H4.
  destruct (flow_part_ok _ _ _ _ _ l H4) as (m5 & -> & H5). inversion H5. done.
Qed.
Lemma dns_tag o : let L := i32_read Little (i32_bytes o 44) in let B := i32_read Big (i32_bytes o 44) in
  let ok t := (44 <=? t) && (t <=? 1644) in
  negb (ok L || ok B) = false ∧ (if ok L then (Little, (L - 44) / 16) else (Big, (B - 44) / 16)) = (o, 0).
Proof. destruct o; vm_compute; done. Qed.
Lemma dns_header_ok o d file : dns_ok d → dns_file o d file →
  let '(nx, ny, nz) := d_sizes d in ∃ rows, stream o (all_rows d) rows ∧
  dns_header file = Ok (inr (DnsHead o ((d_box d).1, ndiv (a:=A64) (f64_of_Z 2) (d_star d), (d_box d).2) (d_time d) (Z.of_nat nx, Z.of_nat ny, Z.of_nat nz) 0, rows)).
Proof.
  unfold dns_ok, dns_file. destruct (d_sizes d) as [[nx ny] nz] eqn:ES.
  intros (Hx & Hz & Sx & Sy & Sz & Hs & Hi1 & Hi2 & Hi3 & _) (e1 & e2 & e3 & e4 & more & rows & J1 & J2 & J3 & J4 & HF & HS & ->).
  exists rows. split; [done|]. unfold junk in *. unfold dns_header.
  rewrite py_read_app by (by rewrite i32_bytes_length). rewrite !unpack_one by apply i32_bytes_length. cbn [rbind nth].
  destruct (dns_tag o) as [T1 T2]. rewrite T1, T2. clear T1 T2.
  rewrite next_f64_ok. cbn [rbind]. rewrite next_i32_ok by done. cbn [rbind]. rewrite !next_f64_ok. cbn [rbind]. rewrite next_f64_ok. cbn [rbind].
  rewrite next_f64_ok. cbn [rbind]. rewrite (pass_app 8 e1) by (by rewrite J1). change (Z.to_nat 0) with 0%nat. cbn [scalar_header rbind]. rewrite (pass_app 8 e2) by (by rewrite J2).
  rewrite next_i32_ok by (by apply size_int32). cbn [rbind]. rewrite next_i32_ok by (by apply size_int32). cbn [rbind].
  rewrite next_i32_ok by (by apply size_int32). cbn [rbind]. rewrite next_i32_ok by done. cbn [rbind]. rewrite (pass_app 8 e3) by (by rewrite J3).
  rewrite next_i32_ok by done. cbn [rbind]. rewrite next_f64_ok. cbn [rbind]. rewrite Hs. rewrite (pass_app 8 e4) by (by rewrite J4).
  rewrite flow_dependent_ok by done. done.
Qed.
(** What the reader has in its buffer after component [c]. *)
Definition buffer (d : dns) (c : nat) : fourier := let '(nx, ny, nz) := d_sizes d in stored nx ny nz (d_row d) c.
Definition dns_mesh (native o : order) fft pi cos (d : dns) : mesh64 :=
  let '(nx, ny, nz) := d_sizes d in
  let nd := if 1 <? Z.of_nat nz then 3%nat else 2%nat in
  let var := [nd; nd; 0; 0; 0]%nat in
  let m := new_hexa z64 (order_name native) nd 1 PyList [nx; ny; nz] var 0 in
  let vel := [fft (buffer d 0) nx nz; fft (buffer d 1) nx nz; fft (buffer d 2) nx nz] in
  let box := ((d_box d).1, ndiv (a:=A64) (f64_of_Z 2) (d_star d), (d_box d).2) in
  let set e := Elem (eshape e) (dns_geometry pi cos box nx ny nz) vel (pres e) (temp e) (scal e) (curv e) (ccurv e) (bcs e) in
  Hexa nd 1 0 0 var PyList [nx; ny; nz] (d_time d) 0 8 (order_name o) (set <$> elems m) (elmap m).
Lemma fmap_of_bind {A B C} (f : B → C) (g : A → list B) (l : list A) : f <$> (l ≫= g) = l ≫= λ x, f <$> g x.
Proof. induction l as [|x l IH]; [done|]. cbn [mbind list_bind]. by rewrite fmap_app, <- IH. Qed.
Lemma all_rows_eq d : let '(nx, ny, nz) := d_sizes d in all_rows d = range 3 ≫= λ c, range nz ≫= λ iz, d_row d c iz <$> range ny.
Proof.
  unfold all_rows. destruct (d_sizes d) as [[nx ny] nz]. unfold prod3.
  rewrite fmap_of_bind. apply list_bind_ext; [|done]. intros c. rewrite fmap_of_bind. apply list_bind_ext; [|done].
  intros iz. rewrite <- list_fmap_compose. done.
Qed.
Lemma readdns_ok native fft pi cos o d file : dns_ok d → dns_file o d file →
  readdns native fft pi cos file = Ok (inr (dns_mesh native o fft pi cos d)).
Proof.
  intros Hd Hf. pose proof (dns_header_ok o d file Hd Hf) as HH. pose proof (all_rows_eq d) as HA. unfold dns_mesh, buffer.
  unfold dns_ok in Hd. destruct (d_sizes d) as [[nx ny] nz]. destruct HH as (rows & HS & HH). rewrite HA in HS.
  destruct Hd as (Hx & Hz & _ & _ & _ & _ & _ & _ & _ & Hrow).
  unfold readdns. rewrite HH. cbn [rbind h_size h_order h_box h_time h_nscal]. change (Z.to_nat 0) with 0%nat.
  rewrite !(proj2 (Z.ltb_ge _ 0)) by lia. rewrite !(proj2 (Z.eqb_neq _ 0)) by lia. cbn [orb]. rewrite !Nat2Z.id.
  destruct (dns_components_ok o nx ny nz (d_row d) Hrow fft rows HS) as (f & l1 & E). 
  match goal with |- context [foldM ?F ?S ?L] => replace (foldM F S L) with (Ok (f, [fft (stored nx ny nz (d_row d) 0) nx nz; fft (stored nx ny nz (d_row d) 1) nx nz; fft (stored nx ny nz (d_row d) 2) nx nz], l1)) by (symmetry; exact E) end. reflexivity.
Qed.

(** ** Which planes survive *)
Lemma last_in_some nz k izs iz : last_in nz k izs = Some iz → fplane nz iz = k.
Proof. intros H. unfold last_in in H. apply last_Some_elem_of, elem_of_list_filter in H. tauto. Qed.
Lemma last_in_range nz iz : (iz < nz)%nat → (∀ iz', (iz < iz' < nz)%nat → fplane nz iz' ≠ fplane nz iz) →
  last_in nz (fplane nz iz) (range nz) = Some iz.
Proof.
  intros Hiz H. assert (range nz = seq 0 (S iz) ++ seq (S iz) (nz - S iz)) as ->.
  { unfold range. replace nz with (S iz + (nz - S iz))%nat at 1 by lia. apply seq_app. }
  unfold last_in. rewrite filter_app.
  assert (filter (λ iz', fplane nz iz' = fplane nz iz) (seq (S iz) (nz - S iz)) = []) as ->.
  { apply elem_of_nil_inv. intros x Hx. apply elem_of_list_filter in Hx as [E Hx]. apply elem_of_seq in Hx. apply (H x); [lia|done]. }
  rewrite app_nil_r, seq_S, filter_app, filter_cons_True, filter_nil by done. by rewrite last_snoc.
Qed.
Lemma fplane_lt nz iz : (iz < nz)%nat → (fplane nz iz < nz)%nat.
Proof. intros H. unfold fplane. destruct (2 * iz <=? nz)%nat eqn:E; [lia|]. apply Nat.leb_gt in E. pose proof (Nat.div_mod nz 2 ltac:(lia)). lia. Qed.
(** The last plane of the file shares its place with an earlier one as soon as there are three planes. *)
Lemma fplane_last nz k : (3 <= nz)%nat → k = fplane nz (nz - 1) → (k < nz - 1)%nat ∧ fplane nz k = k.
Proof.
  intros H Hk. unfold fplane in Hk. rewrite (proj2 (Nat.leb_gt _ _)) in Hk by lia.
  pose proof (Nat.div_mod nz 2 ltac:(lia)). pose proof (Nat.mod_upper_bound nz 2 ltac:(lia)).
  split; [lia|]. unfold fplane. by rewrite (proj2 (Nat.leb_le _ _)) by lia.
Qed.
Lemma fplane_small nz iz : (nz <= 2)%nat → (iz < nz)%nat → fplane nz iz = iz.
Proof. intros H1 H2. unfold fplane. rewrite (proj2 (Nat.leb_le _ _)); [done|]. lia. Qed.
(** Where two planes meet. *)
Lemma fplane_meet nz i j : (i < j < nz)%nat → fplane nz i = fplane nz j → (2 * i <= nz)%nat ∧ (nz < 2 * j)%nat.
Proof.
  intros H E. unfold fplane in E. pose proof (Nat.div_mod nz 2 ltac:(lia)). pose proof (Nat.mod_upper_bound nz 2 ltac:(lia)).
  destruct (2 * i <=? nz)%nat eqn:Ei, (2 * j <=? nz)%nat eqn:Ej; rewrite ?Nat.leb_le, ?Nat.leb_gt in *; lia.
Qed.
Lemma fplane_high nz j : (j < nz)%nat → (nz < 2 * j)%nat → (fplane nz (nz - 1) <= fplane nz j)%nat.
Proof.
  intros H Hj. unfold fplane. pose proof (Nat.div_mod nz 2 ltac:(lia)). pose proof (Nat.mod_upper_bound nz 2 ltac:(lia)).
  destruct (2 * j <=? nz)%nat eqn:Ej, (2 * (nz - 1) <=? nz)%nat eqn:En; rewrite ?Nat.leb_le, ?Nat.leb_gt in *; lia.
Qed.
(** The buffers do not depend on a plane that is overwritten. *)
Lemma stored_eq nx ny nz row row' c k : (3 <= nz)%nat → k = fplane nz (nz - 1) →
  (∀ iz iy, iz ≠ k → row' c iz iy = row c iz iy) → stored nx ny nz row' c = stored nx ny nz row c.
Proof.
  intros Hz Hk H. apply list_eq. intros j. assert (length (fou0 nx ny nz) = nz) as HL by (unfold fou0; by rewrite replicate_length).
  destruct (decide (j < nz)%nat) as [Hj|Hj].
  2:{ unfold stored. rewrite !(lookup_ge_None_2); [done| |]; rewrite store_length, HL; lia. }
  unfold stored.
  transitivity (match last_in nz j (range nz) with Some iz => Some (lines nx ny nz row' c iz) | None => fou0 nx ny nz !! j end).
  { apply store_lookup. rewrite HL. exact Hj. }
  transitivity (match last_in nz j (range nz) with Some iz => Some (lines nx ny nz row c iz) | None => fou0 nx ny nz !! j end).
  2:{ symmetry. apply store_lookup. rewrite HL. exact Hj. }
  destruct (last_in nz j (range nz)) as [iz|] eqn:E; [|done]. f_equal. unfold lines. apply list_fmap_ext. intros ? iy _. f_equal. apply H.
  intros ->. destruct (fplane_last nz k Hz Hk) as [H1 H2].
  pose proof (last_in_some _ _ _ _ E) as E2. rewrite H2 in E2. subst j.
  pose proof (last_in_range nz (nz - 1) ltac:(lia) ltac:(lia)) as E3. rewrite <- Hk, E in E3. apply (inj Some) in E3. lia.
Qed.
Lemma stored_at nx ny nz row c iz : (iz < nz)%nat → (∀ iz', (iz < iz' < nz)%nat → fplane nz iz' ≠ fplane nz iz) →
  stored nx ny nz row c !! fplane nz iz = Some (lines nx ny nz row c iz).
Proof.
  intros H1 H2. pose proof (store_lookup nx ny nz row c (fou0 nx ny nz) (range nz) (fplane nz iz)) as X.
  rewrite (last_in_range nz iz H1 H2) in X. apply X. unfold fou0. rewrite replicate_length. by apply fplane_lt.
Qed.
Lemma readplane_1d_3d o n rest : n = 1 ∨ n = 3 → ∃ x, readplane (i32_bytes o (4 * n) ++ rest) = Raise x.
Proof.
  intros H. unfold readplane. rewrite py_read_app by (by rewrite i32_bytes_length).
  rewrite !unpack_one by apply i32_bytes_length. cbn [rbind nth].
  assert ((if i32_read Little (i32_bytes o (4 * n)) <=? 1000 then (Little, Z.quot (i32_read Little (i32_bytes o (4 * n))) 4)
    else (Big, Z.quot (i32_read Big (i32_bytes o (4 * n))) 4)) = (o, n)) as -> by (destruct o, H as [-> | ->]; vm_compute; reflexivity).
  destruct (read_sizes o (Z.to_nat n) rest) as [[nn l]|]; [|by eexists]. cbn [rbind].
  assert ((n =? 2) = false ∧ (n =? 1) || (n =? 3) = true) as [-> ->] by (destruct H as [-> | ->]; done).
  destruct (existsb _ nn); [by eexists|]. destruct (next_i32 o _) as [[]|]; cbn; by eexists.
Qed.

(** ** The stored numbers *)
Lemma add0_isr x y a : isr x a → isr y 0 → isr (nadd (a:=A64) x y) a ∧ isr (nadd (a:=A64) y x) a.
Proof.
  intros Hx Hy. split.
  - pose proof (add_isr x y a 0 Hx Hy) as H. rewrite Rplus_0_r, (rn_isr x a Hx) in H. by apply H, (fits_isr x).
  - pose proof (add_isr y x 0 a Hy Hx) as H. rewrite Rplus_0_l, (rn_isr x a Hx) in H. by apply H, (fits_isr x).
Qed.
Lemma sub0_isr x y a : isr x a → isr y 0 → isr (nsub (a:=A64) x y) a.
Proof. intros Hx Hy. pose proof (sub_isr x y a 0 Hx Hy) as H. rewrite Rminus_0_r, (rn_isr x a Hx) in H. by apply H, (fits_isr x). Qed.
Lemma fits_0 : fits 0.
Proof. unfold fits. rewrite rn_0, Rabs_R0. apply bpow_gt_0. Qed.
Lemma mul0_isr x y a : isr x a → isr y 0 → isr (nmul (a:=A64) x y) 0 ∧ isr (nmul (a:=A64) y x) 0.
Proof.
  intros Hx Hy. split.
  - pose proof (mul_isr x y a 0 Hx Hy) as H. rewrite Rmult_0_r, rn_0 in H. by apply H, fits_0.
  - pose proof (mul_isr y x 0 a Hy Hx) as H. rewrite Rmult_0_l, rn_0 in H. by apply H, fits_0.
Qed.
Lemma z64_isr : isr z64 0.
Proof. exact (of_Z_isr 0 ltac:(lia)). Qed.
(** A complex number times a real one. *)
Lemma cmul_real a b r s t u : isr a s → isr b t → isr r u → fits (s * u) → fits (t * u) →
  isr (cmul (a, b) (creal r)).1 (rn (s * u)) ∧ isr (cmul (a, b) (creal r)).2 (rn (t * u)).
Proof.
  intros Ha Hb Hr F1 F2. unfold cmul, creal. cbn [fst snd]. split.
  - apply sub0_isr; [by apply mul_isr|]. exact (proj1 (mul0_isr b z64 t Hb z64_isr)).
  - refine (proj2 (add0_isr _ _ _ _ (proj1 (mul0_isr a z64 s Ha z64_isr)))). by apply mul_isr.
Qed.
Lemma dns_value_isr n c re im : Z.of_nat n <= 2 ^ 53 → in_range n re → in_range n im →
  scaled n c re (dns_value (Z.of_nat n) c re im).1 ∧ scaled n c im (dns_value (Z.of_nat n) c re im).2.
Proof.
  intros Hn [Fr Rr] [Fi Ri]. pose proof (of_Z_isr 1 ltac:(lia)) as H1. pose proof (of_Z_isr (Z.of_nat n) ltac:(lia)) as HN. rewrite <- INR_IZR_INZ in HN.
  pose proof (isr_self re Fr) as Hr. pose proof (isr_self im Fi) as Hi. set (s := B2R 53 1024 re) in *. set (t := B2R 53 1024 im) in *.
  unfold dns_value. set (w := cadd _ _).
  assert (isr w.1 s ∧ isr w.2 t) as [W1 W2].
  { unfold w, cadd, cmul, creal. cbn [fst snd]. split.
    - refine (proj1 (add0_isr _ _ _ Hr _)). apply sub0_isr; [exact (proj2 (mul0_isr im z64 t Hi z64_isr))|]. exact (proj1 (mul0_isr (f64_of_Z 1) z64 1 H1 z64_isr)).
    - refine (proj2 (add0_isr _ _ _ _ z64_isr)). refine (proj2 (add0_isr _ _ _ _ (proj1 (mul0_isr z64 z64 0 z64_isr z64_isr)))).
      pose proof (mul_isr (f64_of_Z 1) im 1 t H1 Hi) as X. rewrite Rmult_1_l, (rn_isr im t Hi) in X. by apply X, (fits_isr im). }
  destruct w as [w1 w2]. cbn [fst snd] in W1, W2. destruct (cmul_real w1 w2 _ s t _ W1 W2 HN Rr Ri) as [V1 V2].
  set (v := cmul (w1, w2) _) in *. destruct v as [v1 v2]. cbn [fst snd] in V1, V2.
  assert (isr (f64_of_Z ((-1) ^ Z.of_nat c)) ((-1) ^ c) ∧ ((-1) ^ c = 1 ∨ (-1) ^ c = -1)%R) as [Hs Hc].
  { assert ((-1) ^ Z.of_nat c = 1 ∨ (-1) ^ Z.of_nat c = -1) as HZ.
    { clear. induction c as [|c IH]; [by left|]. rewrite Nat2Z.inj_succ, Z.pow_succ_r by lia. lia. }
    assert (IZR ((-1) ^ Z.of_nat c) = (-1) ^ c)%R as <- by (by rewrite <- pow_IZR).
    split; [apply of_Z_isr; lia|]. destruct HZ as [->| ->]; [by left|by right]. }
  assert (∀ x y, isr x y → fits (y * (-1) ^ c) ∧ rn (y * (-1) ^ c) = ((-1) ^ c * y)%R) as HX.
  { intros x y Hx. pose proof (rn_isr x y Hx) as E. pose proof (fits_isr x y Hx) as F. unfold fits in *.
    assert (rn (y * (-1) ^ c) = ((-1) ^ c * y)%R) as X.
    { destruct Hc as [->| ->]; [by rewrite Rmult_1_r, Rmult_1_l|]. replace (y * -1)%R with (- y)%R by lra. rewrite rn_opp, E. lra. }
    split; [|done]. rewrite X. rewrite E in F. destruct Hc as [->| ->]; [by rewrite Rmult_1_l|]. replace (-1 * y)%R with (- y)%R by lra. by rewrite Rabs_Ropp. }
  destruct (HX _ _ V1) as [P1 Q1]. destruct (HX _ _ V2) as [P2 Q2].
  destruct (cmul_real v1 v2 _ _ _ _ V1 V2 Hs P1 P2) as [R1 R2]. rewrite Q1 in R1. rewrite Q2 in R2. split; [exact R1|exact R2].
Qed.
Lemma dns_line_stored nx n c fi : Z.of_nat n <= 2 ^ 53 → stored_row nx n c fi (dns_line nx (Z.of_nat n) c fi).
Proof.
  intros Hn. unfold dns_line. set (f := λ ix, dns_value (Z.of_nat n) c (nth (2 * ix) fi z64) (nth (2 * ix + 1) fi z64)). unfold stored_row.
  assert (length (f <$> range (nx / 2)) = nx / 2)%nat as HL by (rewrite fmap_length; apply seq_length).
  assert (∀ ix, (ix < nx / 2)%nat → (f <$> range (nx / 2)) !! ix = Some (f ix)) as HF by (intros ix Hix; unfold range; by rewrite list_lookup_fmap, lookup_seq_lt).
  generalize dependent (f <$> range (nx / 2)). intros l HL HF.
  split; [rewrite app_length; cbn [length]; lia|]. split.
  { transitivity ((l ++ [creal z64]) !! (length l + 0)%nat); [by rewrite HL, Nat.add_0_r|]. by rewrite lookup_app_r, Nat.add_comm, Nat.add_sub by lia. }
  intros ix re im Hix Hre Him Rr Ri.
  assert ((l ++ [creal z64]) !! ix = Some (f ix)) as E by (rewrite <- (HF ix Hix); apply lookup_app_l; lia).
  assert (f ix = dns_value (Z.of_nat n) c re im) as E'.
  { unfold f. by rewrite (nth_lookup_Some _ _ _ _ Hre), (nth_lookup_Some _ _ _ _ Him). }
  destruct (dns_value_isr n c re im Hn Rr Ri) as [A B]. exists (f ix).1, (f ix).2. rewrite E'. split; [|done]. rewrite <- E'.
  transitivity (Some (f ix)); [exact E|]. by destruct (f ix).
Qed.
