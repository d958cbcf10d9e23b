(** The contents of SIMSON files. *)
From Coq Require Import Lia Ascii Reals.
From Flocq Require Import Core.Core IEEE754.BinarySingleNaN IEEE754.Binary IEEE754.Bits.
From Verif Require Import Base Float Mesh Bytes Text Field Re2 Simson.
Open Scope Z_scope.

(** ** Plane files of two dimensions: Fortran records, each between two markers of four bytes *)
Definition size31 (n : nat) : Prop := Z.of_nat n < 2 ^ 31.
Definition numbers (o : order) (l : list f64) : bytes := l ≫= f64_bytes o.
Record plane_file := PlaneFile {
  p_n0 : nat; p_n1 : nat; p_x : list f64; p_y : list f64; p_d : list f64;
  p_marks : bytes * bytes * bytes * bytes * bytes * bytes; p_end : bytes }.
Definition plane_ok (p : plane_file) : Prop :=
  size31 (p_n0 p) ∧ size31 (p_n1 p) ∧
  Forall (λ l, length l = (p_n0 p * p_n1 p)%nat) [p_x p; p_y p; p_d p] ∧
  let '(a, b, c, d, e, f) := p_marks p in Forall (λ l : bytes, length l = 4%nat) [a; b; c; d; e; f].
(** The first marker, 8, is the number of bytes of the two sizes. *)
Definition plane_body (o : order) (p : plane_file) : bytes :=
  let '(a, b, c, d, e, f) := p_marks p in
  i32_bytes o 8 ++ i32_bytes o (Z.of_nat (p_n0 p)) ++ i32_bytes o (Z.of_nat (p_n1 p)) ++ a ++
  (b ++ numbers o (p_x p) ++ c) ++ (d ++ numbers o (p_y p) ++ e) ++ (f ++ numbers o (p_d p)).
Definition plane_bytes (o : order) (p : plane_file) : bytes := plane_body o p ++ p_end p.
(** Entry (i, j) of an array of which the first index runs fastest in the file. *)
Definition fastest (n0 n1 : nat) (l : list f64) (a : list (list f64)) : Prop :=
  length a = n0 ∧ ∀ i j, (i < n0)%nat → (j < n1)%nat → ∃ r, a !! i = Some r ∧ length r = n1 ∧ r !! j = l !! (i + n0 * j)%nat.

(** ** DNS files without passive scalars *)
Record dns := Dns {
  d_re : f64; d_flag : Z; d_box : f64 * f64; d_time : f64; d_sizes : nat * nat * nat; d_sym : Z;
  d_flow : Z; d_star : f64; d_more : list f64;
  (** component, plane, line: the numbers of one row *)
  d_row : nat → nat → nat → list f64 }.
(** Bytes that are not looked at. *)
Definition junk (n : nat) (l : bytes) : Prop := length l = n.
(** The groups of numbers that follow the header, by flow type. *)
Definition flow_groups (fl : Z) : list nat :=
  (if fl =? -1 then [1%nat] else []) ++ (if fl =? -2 then [2%nat] else []) ++
  (if (fl =? 4) || (fl =? 5) then [2%nat] else []) ++ (if (4 <=? fl) && (fl <=? 9) then [4%nat] else []) ++
  (if (fl =? 20) || (fl =? -20) then [0%nat] else []).
Inductive flow_bytes (o : order) : list nat → bytes → Prop :=
  | flow_nil : flow_bytes o [] []
  | flow_cons n xs e ns l : length xs = n → junk 8 e → flow_bytes o ns l → flow_bytes o (n :: ns) (numbers o xs ++ e ++ l).
(** The rows, with eight bytes of markers between them, and anything after the last one. *)
Fixpoint stream (o : order) (rows : list (list f64)) (l : bytes) : Prop :=
  match rows with
  | [] => True
  | r :: rows => ∃ e l', l = numbers o r ++ e ++ l' ∧ (rows = [] ∨ junk 8 e) ∧ stream o rows l'
  end.
Definition all_rows (d : dns) : list (list f64) :=
  let '(nx, ny, nz) := d_sizes d in (λ '(c, iz, iy), d_row d c iz iy) <$> prod3 (range 3) (range nz) (range ny).
Definition dns_ok (d : dns) : Prop :=
  let '(nx, ny, nz) := d_sizes d in
  (0 < nx)%nat ∧ (0 < nz)%nat ∧ size31 nx ∧ size31 ny ∧ size31 nz ∧
  f64_eqb (d_star d) z64 = false ∧ - 2 ^ 31 <= d_flag d < 2 ^ 31 ∧ - 2 ^ 31 <= d_sym d < 2 ^ 31 ∧ - 2 ^ 31 <= d_flow d < 2 ^ 31 ∧
  ∀ c iz iy, length (d_row d c iz iy) = nx.
Definition dns_file (o : order) (d : dns) (file : bytes) : Prop :=
  let '(nx, ny, nz) := d_sizes d in
  ∃ e1 e2 e3 e4 more rows, junk 8 e1 ∧ junk 8 e2 ∧ junk 8 e3 ∧ junk 8 e4 ∧ flow_bytes o (flow_groups (d_flow d)) more ∧ stream o (all_rows d) rows ∧
    file = i32_bytes o 44 ++ f64_bytes o (d_re d) ++ i32_bytes o (d_flag d) ++ f64_bytes o (d_box d).1 ++ f64_bytes o (d_box d).2 ++
      f64_bytes o (d_time d) ++ e1 ++ e2 ++
      i32_bytes o (Z.of_nat nx) ++ i32_bytes o (Z.of_nat ny) ++ i32_bytes o (Z.of_nat nz) ++ i32_bytes o (d_sym d) ++ e3 ++
      i32_bytes o (d_flow d) ++ f64_bytes o (d_star d) ++ e4 ++ more ++ rows.
(** A group of numbers with the markers after it. *)
Definition group_size (n : nat) : nat := (8 * n + 8)%nat.
(** The number of bytes up to the end of the last row of numbers. *)
Definition dns_length (d : dns) : nat :=
  let '(nx, ny, nz) := d_sizes d in
  (100 + sum_list_with group_size (flow_groups (d_flow d)) + 3 * nz * ny * (8 * nx + 8) - 8)%nat.
(** Numbers of moderate size, such as Prandtl numbers. *)
Definition moderate (x : f64) : Prop := is_finite 53 1024 x = true ∧ (bpow radix2 (-15) <= Rabs (B2R 53 1024 x) < bpow radix2 17)%R.
(** The header of a file with [n] passive scalars, up to the first Prandtl number. *)
Definition scalar_file (o : order) (n : nat) (re : f64) (flag : Z) (bx bz t : f64) (e : bytes) (pr : f64) (rest : bytes) : bytes :=
  i32_bytes o (44 + 16 * Z.of_nat n) ++ f64_bytes o re ++ i32_bytes o flag ++ f64_bytes o bx ++ f64_bytes o bz ++
  f64_bytes o t ++ e ++ f64_bytes o pr ++ rest.
(** Row [r] of complex numbers holds the pairs of numbers of [fi] times nx nz, rounded, with the sign of (-1)^c, and
    a zero after them. Pairs of which a part is not finite, or too large for that, may give anything. *)
Definition rounded (r : R) : R := round radix2 (FLT_exp (-1074) 53) ZnearestE r.
Definition in_range (n : nat) (x : f64) : Prop :=
  is_finite 53 1024 x = true ∧ (Rabs (rounded (B2R 53 1024 x * INR n)) < bpow radix2 1024)%R.
Definition scaled (n c : nat) (x y : f64) : Prop :=
  is_finite 53 1024 y = true ∧ B2R 53 1024 y = ((-1) ^ c * rounded (B2R 53 1024 x * INR n))%R.
Definition stored_row (nx n c : nat) (fi : list f64) (r : list cplx) : Prop :=
  length r = (nx / 2 + 1)%nat ∧ r !! (nx / 2)%nat = Some (z64, z64) ∧
  ∀ ix re im, (ix < nx / 2)%nat → fi !! (2 * ix)%nat = Some re → fi !! (2 * ix + 1)%nat = Some im → in_range n re → in_range n im →
    ∃ a b, r !! ix = Some (a, b) ∧ scaled n c re a ∧ scaled n c im b.
(** Plane [iz] of component [c] as it is stored. *)
Definition stored_plane (d : dns) (c iz : nat) (p : list (list cplx)) : Prop :=
  let '(nx, ny, nz) := d_sizes d in
  length p = ny ∧ ∀ iy r, p !! iy = Some r → stored_row nx (nx * nz) c (d_row d c iz iy) r.
(** Everything but plane [k] of each component is the same. *)
Definition same_but_plane (k : nat) (d d' : dns) : Prop :=
  d_box d' = d_box d ∧ d_time d' = d_time d ∧ d_sizes d' = d_sizes d ∧ d_star d' = d_star d ∧
  ∀ c iz iy, iz ≠ k → d_row d' c iz iy = d_row d c iz iy.
