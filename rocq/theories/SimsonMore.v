(** readdns: torn files, passive scalars. *)
From Coq Require Import Lia Ascii Reals Lra.
From Flocq Require Import Core.Core IEEE754.BinarySingleNaN IEEE754.Binary IEEE754.Bits.
From Verif Require Import Base Float FloatLaws Mesh Bytes BytesProofs Text Field Re2 Simson SimsonSpec SimsonProofs.
Open Scope Z_scope.

(** ** How much the reader needs *)
Lemma next_f64_len o l r l' : next_f64 o l = Ok (r, l') → (8 ≤ length l)%nat ∧ length l' = (length l - 8)%nat.
Proof.
  unfold next_f64, py_read. cbn [Z.ltb Z.compare]. unfold unpack_f64. rewrite take_length.
  destruct (Z.eqb_spec (Z.of_nat (Nat.min (Z.to_nat 8) (length l))) (8 * Z.max 0 1)) as [E|E]; [|done].
  cbn [rbind]. intros [= _ <-]. rewrite drop_length. lia.
Qed.
Lemma next_f64_prefix o x k l :
  next_f64 o (take k (f64_bytes o x ++ l)) = Ok (x, take (k - 8) l) ∧ (8 ≤ k)%nat ∨ ∃ y, next_f64 o (take k (f64_bytes o x ++ l)) = Raise y.
Proof.
  destruct (next_f64 o (take k (f64_bytes o x ++ l))) as [[r l']|y] eqn:E; [left|right; by eexists].
  apply next_f64_len in E as E'. rewrite take_length in E'.
  assert (8 ≤ k)%nat as Hk by lia. split; [|done]. rewrite <- E.
  rewrite take_app_ge by (rewrite f64_bytes_length; lia). rewrite f64_bytes_length. by rewrite next_f64_ok.
Qed.
Lemma pass_prefix n e k l : Z.of_nat (length e) = n → pass n (take k (e ++ l)) = take (k - length e) l.
Proof.
  intros He. unfold pass, py_read. rewrite (proj2 (Z.ltb_ge _ _)) by lia. cbn [snd]. rewrite <- He, Nat2Z.id.
  rewrite skipn_firstn_comm. by rewrite drop_app.
Qed.
Lemma pass_f64_len o n : ∀ l l', pass_f64 o n l = Ok l' → (8 * n ≤ length l)%nat ∧ length l' = (length l - 8 * n)%nat.
Proof.
  induction n as [|n IH]; intros l l'; [intros [= <-]; lia|]. cbn [pass_f64].
  destruct (next_f64 o l) as [[r l1]|] eqn:E; [|done]. cbn [rbind]. intros H. apply next_f64_len in E. apply IH in H. lia.
Qed.
Lemma flow_part_len o (b : bool) n l l' : flow_part o b n l = Ok l' → length l' = (length l - if b then 8 * n + 8 else 0)%nat.
Proof.
  destruct b; [|intros [= <-]; lia]. unfold flow_part. destruct (pass_f64 o n l) as [l1|] eqn:E; [|done]. cbn [rbind].
  intros [= <-]. apply pass_f64_len in E. rewrite pass_len by lia. lia.
Qed.
Lemma flow_dependent_len o fl l l' : flow_dependent o 0 fl l = Ok l' → length l' = (length l - sum_list_with group_size (flow_groups fl))%nat.
Proof.
  unfold flow_dependent, flow_groups. intros H.
  assert (Z.abs fl =? 20 = (fl =? 20) || (fl =? -20)) as E20.
  { destruct (Z.eqb_spec (Z.abs fl) 20), (Z.eqb_spec fl 20), (Z.eqb_spec fl (-20)); cbn; lia. }
  rewrite E20 in H.
  destruct (flow_part o (fl =? -1) 1 l) as [l1|] eqn:E1; [|done]. cbn [rbind] in H. apply flow_part_len in E1.
  destruct (flow_part o (fl =? -2) 2 l1) as [l2|] eqn:E2; [|done]. cbn [rbind] in H. apply flow_part_len in E2.
  destruct (flow_part o ((fl =? 4) || (fl =? 5)) 2 l2) as [l3|] eqn:E3; [|done]. cbn [rbind] in H. apply flow_part_len in E3.
  destruct (flow_part o ((4 <=? fl) && (fl <=? 9)) 4 l3) as [l4|] eqn:E4; [|done]. cbn [rbind] in H. apply flow_part_len in E4.
  apply flow_part_len in H.
  rewrite !sum_list_with_app.
  destruct (fl =? -1), (fl =? -2), ((fl =? 4) || (fl =? 5)), ((4 <=? fl) && (fl <=? 9)), ((fl =? 20) || (fl =? -20)); cbn [sum_list_with group_size] in *; unfold group_size; lia.
Qed.
Lemma dns_row_len o nx l r l' : (0 < nx)%nat → dns_row o nx l = Ok (r, l') → (8 * nx ≤ length l)%nat ∧ length l' = (length l - (8 * nx + 8))%nat.
Proof.
  intros Hx. unfold dns_row, py_read. rewrite (proj2 (Z.ltb_ge _ _)) by lia. unfold unpack_f64. rewrite take_length.
  destruct (Z.eqb_spec (Z.of_nat (Nat.min (Z.to_nat (Z.of_nat nx * 8)) (length l))) (8 * Z.max 0 (Z.of_nat nx))) as [E|E]; [|done].
  cbn [rbind]. intros [= _ <-]. rewrite pass_len by lia. rewrite drop_length. lia.
Qed.
(** Enough bytes for [n] rows, of which the last may lack its marker. *)
Definition enough (nx n L : nat) : Prop := (n * (8 * nx + 8) ≤ L + 8)%nat.
Lemma enough_add nx n n' L : (0 < nx)%nat → enough nx n L → enough nx n' (L - n * (8 * nx + 8)) → enough nx (n + n') L.
Proof.
  unfold enough. intros Hx H1 H2. destruct n' as [|n']; [lia|]. remember (8 * nx + 8)%nat as w.
  assert (w ≤ S n' * w)%nat by lia. assert (16 ≤ w)%nat by lia. destruct (Nat.le_gt_cases (n * w) L); [lia|].
  replace (L - n * w)%nat with 0%nat in H2 by lia. lia.
Qed.
Lemma dns_rows_len o nx n : (0 < nx)%nat → ∀ l rs l', dns_rows o nx n l = Ok (rs, l') → enough nx n (length l) ∧ length l' = (length l - n * (8 * nx + 8))%nat.
Proof.
  intros Hx. induction n as [|n IH]; intros l rs l'; [intros [= <- <-]; unfold enough; lia|]. cbn [dns_rows].
  destruct (dns_row o nx l) as [[r l1]|] eqn:E; [|done]. cbn [rbind]. apply dns_row_len in E; [|done].
  destruct (dns_rows o nx n l1) as [[rs1 l2]|] eqn:E2; [|done]. cbn [rbind]. intros [= <- <-]. apply IH in E2 as [E2 E3].
  split; [|rewrite E3; lia]. apply (enough_add nx 1 n); [done|unfold enough; lia|]. replace (length l - 1 * (8 * nx + 8))%nat with (length l1) by lia. done.
Qed.
Lemma dns_planes_len o nx ny nz c : (0 < nx)%nat → ∀ izs fou l fou' l', foldM (dns_plane o nx ny nz c) (fou, l) izs = Ok (fou', l') →
  enough nx (length izs * ny) (length l) ∧ length l' = (length l - length izs * ny * (8 * nx + 8))%nat.
Proof.
  intros Hx. induction izs as [|iz izs IH]; intros fou l fou' l'; [intros [= <- <-]; unfold enough; cbn; lia|]. cbn [foldM]. unfold dns_plane at 1.
  destruct (dns_rows o nx ny l) as [[rs l1]|] eqn:E; [|done]. cbn [rbind]. intros H. apply dns_rows_len in E as [E1 E2]; [|done].
  apply IH in H as [H1 H2]. cbn [length]. split; [|rewrite H2, E2; lia]. apply (enough_add nx ny); [done|done|]. by rewrite <- E2.
Qed.
Lemma dns_components_len fft o nx ny nz : (0 < nx)%nat → ∀ cs st fou' v' l', foldM (dns_component fft o nx ny nz) st cs = Ok (fou', v', l') →
  enough nx (length cs * (nz * ny)) (length st.2) ∧ length l' = (length st.2 - length cs * (nz * ny) * (8 * nx + 8))%nat.
Proof.
  intros Hx. induction cs as [|c cs IH]; intros [[fou v] l] fou' v' l'; [intros [= <- <- <-]; unfold enough; cbn; lia|]. cbn [foldM]. unfold dns_component at 1.
  destruct (foldM (dns_plane o nx ny nz c) (fou, l) (range nz)) as [[f1 l1]|] eqn:E; [|done]. cbn [rbind]. intros H.
  apply dns_planes_len in E as [E1 E2]; [|done]. unfold range in E1, E2. rewrite seq_length in E1, E2. apply IH in H as [H1 H2]. cbn [snd length] in *.
  split; [|rewrite H2, E2; lia]. apply (enough_add nx (nz * ny)); [done|done|]. by rewrite <- E2.
Qed.

(** ** Torn files *)
Ltac tk := rewrite ?app_length, ?i32_bytes_length, ?f64_bytes_length.
Lemma readdns_torn native fft pi cos o d file k : dns_ok d → dns_file o d file → let '(nx, ny, nz) := d_sizes d in (0 < ny)%nat →
  (k < dns_length d)%nat → ∃ x, readdns native fft pi cos (take k file) = Raise x.
Proof.
  unfold dns_ok, dns_file, dns_length. destruct (d_sizes d) as [[nx ny] nz].
  intros (Hx & Hz & Sx & Sy & Sz & Hs & Hi1 & Hi2 & Hi3 & _) (e1 & e2 & e3 & e4 & more & rows & J1 & J2 & J3 & J4 & _ & _ & ->) Hy Hk.
  unfold junk in *. unfold readdns.
  destruct (dns_header _) as [r|x] eqn:EH; [|by exists x]. cbn [rbind].
  unfold dns_header in EH.
  destruct (Nat.lt_ge_cases k 4) as [Hk4|Hk4].
  { exfalso. unfold py_read in EH. cbn [Z.ltb Z.compare] in EH. unfold unpack_i32 in EH. rewrite take_length, (proj2 (Z.eqb_neq _ _)) in EH; [done|].
    rewrite take_length. lia. }
  rewrite take_app_ge, i32_bytes_length in EH by (rewrite i32_bytes_length; lia).
  rewrite py_read_app in EH by (by rewrite i32_bytes_length). rewrite !unpack_one in EH by apply i32_bytes_length. cbn [rbind nth] in EH.
  destruct (dns_tag o) as [T1 T2]. rewrite T1, T2 in EH. clear T1 T2.
  destruct (next_f64_prefix o (d_re d) (k - 4) (i32_bytes o (d_flag d) ++ f64_bytes o (d_box d).1 ++ f64_bytes o (d_box d).2 ++
      f64_bytes o (d_time d) ++ e1 ++ e2 ++
      i32_bytes o (Z.of_nat nx) ++ i32_bytes o (Z.of_nat ny) ++ i32_bytes o (Z.of_nat nz) ++ i32_bytes o (d_sym d) ++ e3 ++
      i32_bytes o (d_flow d) ++ f64_bytes o (d_star d) ++ e4 ++ more ++ rows)) as [[E ?]|[y E]]; rewrite E in EH; [|done]. cbn [rbind] in EH. clear E.
  Ltac fstep EH := match type of EH with context [next_f64 ?o (take ?k (f64_bytes ?o ?x ++ ?l))] =>
    let E := fresh in destruct (next_f64_prefix o x k l) as [[E ?]|[? E]]; rewrite E in EH; [|done]; cbn [rbind] in EH; clear E end.
  Ltac istep EH := match type of EH with context [next_i32 ?o (take ?k (i32_bytes ?o ?x ++ ?l))] =>
    let E := fresh in destruct (next_i32_prefix o x k l) as [[E ?]|[? E]]; [first [by apply size_int32|done]|rewrite E in EH|rewrite E in EH; done]; cbn [rbind] in EH; clear E end.
  istep EH. fstep EH. fstep EH. fstep EH. rewrite pass_prefix in EH by (by rewrite J1). change (Z.to_nat 0) with 0%nat in EH. cbn [scalar_header rbind] in EH.
  rewrite pass_prefix in EH by (by rewrite J2). istep EH. istep EH. istep EH. istep EH. rewrite pass_prefix in EH by (by rewrite J3).
  istep EH. fstep EH. rewrite Hs in EH. rewrite pass_prefix in EH by (by rewrite J4).
  match type of EH with context [take ?k' (more ++ rows)] => set (L := take k' (more ++ rows)) in *; assert (length L ≤ k')%nat as HL by (unfold L; rewrite take_length; lia) end.
  destruct (flow_dependent o 0 (d_flow d) L) as [L1|] eqn:EF; [|done]. apply flow_dependent_len in EF. cbn [rbind] in EH. injection EH as <-.
  cbn [h_size h_order h_box h_time h_nscal]. rewrite !(proj2 (Z.ltb_ge _ 0)) by lia. rewrite !(proj2 (Z.eqb_neq _ 0)) by lia. cbn [orb]. rewrite !Nat2Z.id.
  match goal with |- context [foldM (dns_component ?a ?b ?c ?d ?e) ?S ?R] => destruct (foldM (dns_component a b c d e) S R) as [[[f v] l']|x] eqn:EC end; [|by exists x].
  exfalso. apply dns_components_len in EC as [EC _]; [|done]. unfold enough in EC. change (length (range 3)) with 3%nat in EC. cbn [snd] in EC.
  rewrite EF in EC. rewrite J1, J2, J3, J4 in HL. clear -HL EC Hk Hx Hy Hz.
  clearbody L. assert (16 ≤ nz * ny * (8 * nx + 8))%nat as HX by nia.
  replace (3 * nz * ny * (8 * nx + 8))%nat with (3 * (nz * ny * (8 * nx + 8)))%nat in Hk by lia.
  replace (3 * (nz * ny) * (8 * nx + 8))%nat with (3 * (nz * ny * (8 * nx + 8)))%nat in EC by lia.
  generalize dependent (nz * ny * (8 * nx + 8))%nat. generalize dependent (sum_list_with group_size (flow_groups (d_flow d))). intros. lia.
Qed.
Lemma stream_take o nx rows : Forall (λ r, length r = nx) rows → ∀ l k, stream o rows l → (length rows * (8 * nx + 8) ≤ k + 8)%nat → stream o rows (take k l).
Proof.
  induction 1 as [|r rows Hr _ IH]; intros l k; [done|]. cbn [stream length]. intros (e & l' & -> & He & Hs) Hk.
  rewrite take_app_ge by (rewrite numbers_length; lia). rewrite numbers_length, Hr.
  destruct rows as [|r' rows].
  - exists (take (k - nx * 8) (e ++ l')), []. split; [by rewrite app_nil_r|]. split; [by left|done].
  - destruct He as [He|He]; [done|]. unfold junk in He. cbn [length] in Hk. rewrite take_app_ge by lia. rewrite He.
    exists e, (take (k - nx * 8 - 8) l'). split; [done|]. split; [by right|]. apply IH; [done|]. cbn [length]. lia.
Qed.
Lemma flow_bytes_length o ns m : flow_bytes o ns m → length m = sum_list_with group_size ns.
Proof.
  induction 1 as [|n xs e ns l Hx He _ IH]; [done|]. unfold junk in He. rewrite !app_length, numbers_length, IH, He, Hx. cbn [sum_list_with].
  unfold group_size at 2. lia.
Qed.
Lemma bind_length' {X Y} n (g : X → list Y) l : (∀ x, length (g x) = n) → length (l ≫= g) = (length l * n)%nat.
Proof. intros H. induction l as [|x l IH]; [done|]. rewrite bind_cons, app_length, H, IH. cbn [length]. lia. Qed.
Lemma all_rows_length d : let '(nx, ny, nz) := d_sizes d in length (all_rows d) = (3 * nz * ny)%nat.
Proof.
  pose proof (all_rows_eq d) as H. destruct (d_sizes d) as [[nx ny] nz]. rewrite H.
  rewrite (bind_length' (nz * ny)); [change (length (range 3)) with 3%nat; lia|]. intros c.
  rewrite (bind_length' ny); [unfold range; rewrite seq_length; lia|]. intros iz. rewrite fmap_length. unfold range. apply seq_length.
Qed.
Lemma dns_file_take o d file k : dns_ok d → dns_file o d file → let '(nx, ny, nz) := d_sizes d in (0 < ny)%nat →
  (dns_length d ≤ k)%nat → dns_file o d (take k file).
Proof.
  pose proof (all_rows_length d) as HR. unfold dns_ok, dns_file, dns_length.
  assert (∀ nx ny nz, d_sizes d = (nx, ny, nz) → (∀ c iz iy, length (d_row d c iz iy) = nx) → Forall (λ r, length r = nx) (all_rows d)) as HF0.
  { intros nx ny nz E Hrow. apply List.Forall_forall. intros r Hr. apply elem_of_list_In in Hr. unfold all_rows in Hr. rewrite E in Hr.
    apply elem_of_list_fmap in Hr as ([[c iz] iy] & -> & _). apply Hrow. }
  destruct (d_sizes d) as [[nx ny] nz] eqn:ES. specialize (HF0 nx ny nz eq_refl).
  intros (Hx & Hz & Sx & Sy & Sz & Hs & Hi1 & Hi2 & Hi3 & Hrow) (e1 & e2 & e3 & e4 & more & rows & J1 & J2 & J3 & J4 & HF & HS & ->) Hy Hk.
  exists e1, e2, e3, e4, more, (take (k - 100 - length more) rows). do 4 (split; [done|]). split; [done|].
  pose proof (flow_bytes_length _ _ _ HF) as Lm.
  assert (16 ≤ nz * ny * (8 * nx + 8))%nat as HX by nia.
  split.
  - apply (stream_take o nx); [by apply HF0|done|]. rewrite HR, Lm. 
    replace (3 * nz * ny * (8 * nx + 8))%nat with (3 * (nz * ny * (8 * nx + 8)))%nat in * by lia. lia.
  - unfold junk in *. assert (100 + length more ≤ k)%nat as Hk'.
    { rewrite Lm. replace (3 * nz * ny * (8 * nx + 8))%nat with (3 * (nz * ny * (8 * nx + 8)))%nat in * by lia. lia. }
    clear -J1 J2 J3 J4 Hk'.
    Ltac cut1 := match goal with |- take ?k (?a ++ ?l) = ?a ++ ?r => rewrite (take_app_ge a l k) by (rewrite ?i32_bytes_length, ?f64_bytes_length; lia); f_equal; rewrite ?i32_bytes_length, ?f64_bytes_length end.
    do 16 cut1. replace (k - 4 - 8 - 4 - 8 - 8 - 8 - length e1 - length e2 - 4 - 4 - 4 - 4 - length e3 - 4 - 8 - length e4)%nat with (k - 100)%nat by lia.
    rewrite take_app_ge by lia. done.
Qed.

(** ** Text that is not a number *)
(** Characters that no number contains. *)
Definition foreign (c : ascii) : bool :=
  negb (is_space c) && negb (is_digit c) && negb (Ascii.eqb c "-") && negb (Ascii.eqb c "+") && negb (Ascii.eqb c ".") &&
  forallb (λ x, negb (Ascii.eqb (lower c) x)) (str "infityae") && negb (byte_val c =? 0).
Lemma lstrip_keeps c l : is_space c = false → c ∈ l → c ∈ lstrip l.
Proof.
  intros Hc. induction l as [|x l IH]; [done|]. cbn [lstrip]. intros H. destruct (is_space x) eqn:E; [|done].
  apply elem_of_cons in H as [->|H]; [congruence|auto].
Qed.
Lemma ltrim0_keeps c l : byte_val c =? 0 = false → c ∈ l → c ∈ ltrim0 l.
Proof.
  intros Hc. induction l as [|x l IH]; [done|]. cbn [ltrim0]. intros H. destruct (byte_val x =? 0) eqn:E; [|done].
  apply elem_of_cons in H as [->|H]; [congruence|auto].
Qed.
Lemma elem_of_rev' {B} (c : B) l : c ∈ rev l ↔ c ∈ l.
Proof. rewrite !elem_of_list_In. symmetry. apply in_rev. Qed.
Lemma read_digits_foreign c l : is_digit c = false → c ∈ l → ∀ acc, read_digits acc l = None.
Proof.
  intros Hc. induction l as [|x l IH]; intros H acc; [by apply elem_of_nil in H|]. cbn [read_digits]. unfold is_digit in Hc.
  apply elem_of_cons in H as [<-|H]; [by destruct (digit_val c)|]. destruct (digit_val x); [auto|done].
Qed.
Lemma span_digits_app l : let '(a, b) := span_digits l in l = a ++ b ∧ Forall (λ c, is_digit c = true) a.
Proof.
  induction l as [|x l IH]; [done|]. cbn [span_digits]. destruct (is_digit x) eqn:E; [|done]. destruct (span_digits l) as [a b].
  destruct IH as [-> IH]. split; [done|by constructor].
Qed.
Lemma read_sign_keeps c l : Ascii.eqb c "-" = false → Ascii.eqb c "+" = false → c ∈ l → c ∈ (read_sign l).2.
Proof.
  intros H1 H2 Hin. destruct l as [|x l]; [done|]. cbn [read_sign]. destruct (Ascii.eqb x "-") eqn:E1; [|destruct (Ascii.eqb x "+") eqn:E2; [|done]]; cbn [snd].
  - apply elem_of_cons in Hin as [->|Hin]; [congruence|done].
  - apply elem_of_cons in Hin as [->|Hin]; [congruence|done].
Qed.
Lemma foreign_no_digit c : foreign c = true → is_digit c = false ∧ is_space c = false ∧ Ascii.eqb c "-" = false ∧ Ascii.eqb c "+" = false ∧ Ascii.eqb c "." = false ∧
  (∀ x, x ∈ str "infityae" → lower c ≠ x) ∧ byte_val c =? 0 = false.
Proof.
  unfold foreign. rewrite !andb_true_iff, !negb_true_iff. intros ((((((H1 & H2) & H3) & H4) & H5) & H6) & H7).
  repeat (split; [done|]). split; [|done]. intros x Hx E. rewrite forallb_forall in H6. apply elem_of_list_In, H6 in Hx.
  rewrite E, Ascii.eqb_refl in Hx. done.
Qed.
Lemma read_decimal_foreign c l : foreign c = true → c ∈ l → read_decimal l = None.
Proof.
  intros Hc Hin. apply foreign_no_digit in Hc as (Hd & _ & Hm & Hp & Hdot & Hl & _). unfold read_decimal.
  pose proof (span_digits_app l) as H1. destruct (span_digits l) as [ip r1]. destruct H1 as [-> F1].
  assert (∀ a b, c ∈ a ++ b → Forall (λ c, is_digit c = true) a → c ∈ b) as Hnot.
  { intros a b H F. apply elem_of_app in H as [H|H]; [|done]. rewrite Forall_forall in F. apply F in H. congruence. }
  pose proof (Hnot _ _ Hin F1) as Hr1. destruct r1 as [|x r1]; [by apply elem_of_nil in Hr1|].
  cbv beta iota.
  match goal with |- match ?t with (_, _) => _ end = _ => assert (∃ fp r2, t = (fp, r2) ∧ c ∈ r2) as (fp & r2 & -> & Hr2) end.
  { destruct (Ascii.eqb x ".") eqn:E; [|by exists [], (x :: r1)]. pose proof (span_digits_app r1) as H2. destruct (span_digits r1) as [fp r2].
    destruct H2 as [-> F2]. exists fp, r2. split; [done|]. apply elem_of_cons in Hr1 as [->|Hr1]; [congruence|by eapply Hnot]. }
  destruct (ip ++ fp) as [|d ds]; [done|]. destruct (read_digits 0 (d :: ds)); [|done]. cbn [mbind option_bind].
  destruct r2 as [|y r2]; [by apply elem_of_nil in Hr2|]. destruct (Ascii.eqb (lower y) "e") eqn:E; [|done].
  assert (c ∈ r2) as Hc2.
  { apply elem_of_cons in Hr2 as [<-|Hr2]; [|done]. apply Ascii.eqb_eq in E. exfalso. apply (Hl "e"%char); [|done]. vm_compute. set_solver. }
  apply (read_sign_keeps c r2 Hm Hp) in Hc2. destruct (read_sign r2) as [s es]. cbn [snd] in Hc2. destruct es as [|w es]; [done|].
  by rewrite (read_digits_foreign c (w :: es) Hd Hc2).
Qed.
Lemma py_float_foreign c l : foreign c = true → c ∈ l → py_float l = Raise ValueError.
Proof.
  intros Hc Hin. pose proof Hc as (Hd & Hsp & Hm & Hp & Hdot & Hl & _)%foreign_no_digit. unfold py_float.
  assert (c ∈ strip l) as Hs.
  { unfold strip. rewrite elem_of_rev'. apply lstrip_keeps; [done|]. rewrite elem_of_rev'. by apply lstrip_keeps. }
  apply (read_sign_keeps c _ Hm Hp) in Hs. destruct (read_sign (strip l)) as [s t]. cbn [snd] in Hs.
  assert (∀ w, (∀ x, x ∈ str w → x ∈ str "infityae") → bytes_eqb (lower <$> t) (str w) = false) as Hw.
  { intros w Hw. unfold bytes_eqb. apply bool_decide_eq_false. intros E. apply (Hl (lower c)); [|done]. apply Hw. rewrite <- E.
    apply elem_of_list_fmap. by exists c. }
  rewrite !Hw; [by rewrite (read_decimal_foreign c)|..]; vm_compute; set_solver.
Qed.
Lemma store_bytes_foreign c l : foreign c = true → c ∈ l → store_bytes l = Raise ValueError.
Proof.
  intros Hc Hin. pose proof Hc as (_ & _ & _ & _ & _ & _ & H0)%foreign_no_digit. unfold store_bytes. apply (py_float_foreign c); [done|].
  rewrite elem_of_rev'. apply ltrim0_keeps; [done|]. by rewrite elem_of_rev'.
Qed.

(** ** The highest byte of a number *)
Lemma to_le_top n z : byte_of ((z / 256 ^ Z.of_nat n) mod 256) ∈ to_le (S n) z.
Proof.
  revert z. induction n as [|n IH]; intros z.
  - cbn [to_le]. rewrite Z.div_1_r. apply elem_of_list_here.
  - change (to_le (S (S n)) z) with (byte_of (z mod 256) :: to_le (S n) (z / 256)). apply elem_of_list_further.
    specialize (IH (z / 256)). rewrite Z.div_div in IH by lia. replace (256 ^ Z.of_nat (S n)) with (256 * 256 ^ Z.of_nat n); [done|].
    rewrite Nat2Z.inj_succ, Z.pow_succ_r by lia. done.
Qed.
Lemma f64_bytes_top o x : byte_of ((bits_of_b64 x / 2 ^ 56) mod 256) ∈ f64_bytes o x.
Proof.
  pose proof (to_le_top 7 (bits_of_b64 x)) as H. change (256 ^ Z.of_nat 7) with (2 ^ 56) in H. unfold f64_bytes, word, to_order.
  destruct o; [done|]. by rewrite elem_of_rev'.
Qed.
Lemma moderate_bits x : moderate x → ∃ s k r, (s = 0 ∨ s = 128) ∧ (k = 63 ∨ k = 64) ∧ 0 <= r < 2 ^ 56 ∧ bits_of_b64 x = (s + k) * 2 ^ 56 + r.
Proof.
  intros [Hf [H1 H2]]. pose proof (bpow_gt_0 radix2 (-15)) as H0.
  destruct x as [s|s|s pl Hpl|s m e Hb]; try done.
  { cbn [B2R] in H1. rewrite Rabs_R0 in H1. lra. }
  cbn [B2R] in H1, H2. unfold Defs.F2R in H1, H2. cbn [Defs.Fnum Defs.Fexp] in H1, H2.
  rewrite Rabs_mult, (Rabs_right (bpow _ _)) in H1, H2 by (apply Rle_ge, bpow_ge_0). rewrite <- abs_IZR, abs_cond_Zopp in H1, H2. cbn [Z.abs] in H1, H2.
  pose proof Hb as Hb'. unfold SpecFloat.bounded, SpecFloat.canonical_mantissa in Hb'. apply andb_true_iff in Hb' as [Hc _]. apply Zeq_bool_eq in Hc. unfold SpecFloat.fexp, SpecFloat.emin in Hc.
  rewrite Digits.Zpos_digits2_pos in Hc.
  pose proof (Digits.Zdigits_correct radix2 (Z.pos m)) as HD. cbn [Z.abs] in HD. set (g := Digits.Zdigits radix2 (Z.pos m)) in *.
  assert (g <= 53) as Hg by lia.
  assert (Z.pos m < 2 ^ 53) as Hm.
  { eapply Z.lt_le_trans; [apply HD|]. apply Z.pow_le_mono_r; [reflexivity|done]. }
  assert (-68 < e) as He1.
  { destruct (Z.le_gt_cases e (-68)) as [C|C]; [exfalso|done]. apply (Rlt_irrefl (bpow radix2 (-15))). eapply Rle_lt_trans; [exact H1|].
    apply (Rlt_le_trans _ (bpow radix2 53 * bpow radix2 (-68))%R); [|rewrite <- bpow_plus; apply Rle_refl].
    apply (Rlt_le_trans _ (bpow radix2 53 * bpow radix2 e)%R).
    - apply Rmult_lt_compat_r; [apply bpow_gt_0|]. rewrite <- IZR_Zpower by lia. apply IZR_lt. exact Hm.
    - apply Rmult_le_compat_l; [apply bpow_ge_0|]. by apply bpow_le. }
  assert (g = 53) as Eg by lia. rewrite Eg in HD. destruct HD as [HD _]. change (radix2 ^ (53 - 1)) with (2 ^ 52) in HD.
  assert (e < -35) as He2.
  { destruct (Z.le_gt_cases (-35) e) as [C|C]; [exfalso|done]. apply (Rlt_irrefl (bpow radix2 17)). eapply Rle_lt_trans; [|exact H2].
    replace (bpow radix2 17) with (bpow radix2 52 * bpow radix2 (-35))%R by (rewrite <- bpow_plus; done).
    apply Rmult_le_compat; [apply bpow_ge_0|apply bpow_ge_0| |by apply bpow_le]. rewrite <- IZR_Zpower by lia. apply IZR_le. exact HD. }
  unfold bits_of_b64, bits_of_binary_float. replace (0 <=? Z.pos m - 2 ^ 52) with true by (symmetry; apply Z.leb_le; lia).
  unfold join_bits. rewrite Z.shiftl_mul_pow2 by lia. change (SpecFloat.emin (52 + 1) (2 ^ (11 - 1))) with (-1074).
  exists (if s then 128 else 0), ((e + 1075) / 16), ((e + 1075) mod 16 * 2 ^ 52 + (Z.pos m - 2 ^ 52)).
  assert (63 <= (e + 1075) / 16 < 65) as Hk by (split; [apply Z.div_le_lower_bound; lia|apply Z.div_lt_upper_bound; lia]).
  pose proof (Z.div_mod (e + 1075) 16 ltac:(lia)) as HM. pose proof (Z.mod_pos_bound (e + 1075) 16 ltac:(lia)) as HB.
  set (q := (e + 1075) / 16) in *. set (t := (e + 1075) mod 16) in *.
  split; [destruct s; auto|]. split; [lia|]. change (2 ^ 56) with (16 * 2 ^ 52). split; [lia|].
  change (2 ^ 11) with 2048. replace (e - -1074 + 1) with (16 * q + t) by lia. destruct s; lia.
Qed.
Lemma moderate_foreign o x : moderate x → ∃ c, foreign c = true ∧ c ∈ f64_bytes o x.
Proof.
  intros (s & k & r & Hs & Hk & Hr & E)%moderate_bits. eexists. split; [|apply f64_bytes_top]. rewrite E.
  rewrite Z.div_add_l by done. rewrite (Z.div_small r) by done. destruct Hs as [->| ->], Hk as [->| ->]; vm_compute; reflexivity.
Qed.
(** ** The tag of a file with scalars *)
Lemma dns_tag_scal o n : (1 ≤ n ≤ 100)%nat → let t := i32_bytes o (44 + 16 * Z.of_nat n) in
  let ok t := (44 <=? t) && (t <=? 1644) in
  (if ok (i32_read Little t) then (Little, (i32_read Little t - 44) / 16) else (Big, (i32_read Big t - 44) / 16)) = (o, Z.of_nat n) ∧
  ok (i32_read Little t) || ok (i32_read Big t) = true.
Proof.
  intros Hn. cbv zeta.
  assert (forallb (λ n, let t := i32_bytes o (44 + 16 * Z.of_nat n) in let ok t := (44 <=? t) && (t <=? 1644) in
    bool_decide ((if ok (i32_read Little t) then (Little, (i32_read Little t - 44) / 16) else (Big, (i32_read Big t - 44) / 16)) = (o, Z.of_nat n)) &&
    (ok (i32_read Little t) || ok (i32_read Big t))) (seq 1 100) = true) as H by (destruct o; vm_compute; reflexivity).
  rewrite forallb_forall in H. specialize (H n ltac:(apply in_seq; lia)). cbv zeta in H. apply andb_true_iff in H as [H1 H2].
  apply bool_decide_eq_true in H1. done.
Qed.
Lemma scalars_raise native fft pi cos o n re fl bx bz t e pr rest : (1 ≤ n ≤ 100)%nat → - 2 ^ 31 <= fl < 2 ^ 31 → junk 8 e → moderate pr →
  readdns native fft pi cos (scalar_file o n re fl bx bz t e pr rest) = Raise ValueError.
Proof.
  intros Hn Hfl He Hpr. unfold junk in He. unfold readdns, dns_header, scalar_file.
  rewrite py_read_app by (by rewrite i32_bytes_length). rewrite !unpack_one by apply i32_bytes_length. cbn [rbind nth].
  destruct (dns_tag_scal o n Hn) as [T1 T2]. cbv zeta in T1, T2. rewrite T2, T1. cbn [negb]. clear T1 T2.
  rewrite next_f64_ok. cbn [rbind]. rewrite next_i32_ok by done. cbn [rbind]. rewrite !next_f64_ok. cbn [rbind]. rewrite next_f64_ok. cbn [rbind].
  rewrite next_f64_ok. cbn [rbind]. rewrite (pass_app 8 e) by (by rewrite He). rewrite Nat2Z.id.
  destruct n as [|n]; [lia|]. cbn [scalar_header]. rewrite py_read_app by (by rewrite f64_bytes_length).
  destruct (moderate_foreign o pr Hpr) as (c & Hc & Hin). by rewrite (store_bytes_foreign c).
Qed.
