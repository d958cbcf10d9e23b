(** What the theorems about field files say, in terms of the files and of the public attributes. *)
From Coq Require Import Lia Ascii Reals.
From Flocq Require Import Core.Core IEEE754.BinarySingleNaN IEEE754.Binary IEEE754.Bits.
From Verif Require Import Base Float Mesh Bytes Text Field.
Open Scope Z_scope.

(** Component [c] of field [k] of element [p]. *)
Definition cell {N} (m : hexa N) (p : nat) (k : fkind) (c : nat) : option (list N) :=
  elems m !! p ≫= λ e, get_f k e !! c.

(** ** Which meshes a field file can describe *)
(** The five counts of [var]: positions and velocity have none or [nd] components, pressure and
    temperature none or one; something is stored. The name list fits the header. *)
Definition header_vars (nd : Z) (v : list Z) : Prop :=
  ∃ vx vu vp vt vs, v = [vx; vu; vp; vt; vs] ∧ (vx = 0 ∨ vx = nd) ∧ (vu = 0 ∨ vu = nd) ∧
    (vp = 0 ∨ vp = 1) ∧ (vt = 0 ∨ vt = 1) ∧ 0 <= vs < 10 ^ 9 ∧ 0 < vx + vu + vp + vt + vs.
(** The values that fit the columns of the header. *)
Definition header_fits (wd : Z) (ox oy oz ne nf st fi nfl : Z) (v : list Z) : Prop :=
  (wd = 4 ∨ wd = 8) ∧ 0 <= ox < 100 ∧ 0 <= oy < 100 ∧ 0 <= oz < 100 ∧ 0 <= ne < 10 ^ 10 ∧ 0 <= nf < 10 ^ 10 ∧
  Z.abs st < 10 ^ 9 ∧ 0 <= fi < 10 ^ 6 ∧ 0 <= nfl < 10 ^ 6 ∧ header_vars (if 1 <? oz then 3 else 2) v.
(** A mesh with consistent array shapes whose sizes fit the columns of the header. *)
Record field_mesh (m : mesh) : Prop := {
  fm_lr1 : ∃ lx ly lz, lr1 m = [lx; ly; lz] ∧ (1 ≤ lx < 100 ∧ 1 ≤ ly < 100 ∧ 1 ≤ lz < 100)%nat ∧
    ndim m = (if (1 <? lz)%nat then 3 else 2)%nat;
  fm_var : header_vars (Z.of_nat (ndim m)) (Z.of_nat <$> var m);
  fm_nel : length (elems m) = nel m ∧ Z.of_nat (nel m) < 2 ^ 31;
  fm_elmap : elmap m ≡ₚ ((λ i, Z.of_nat i + 1) <$> seq 0 (nel m));
  fm_istep : Z.abs (istep m) < 10 ^ 9;
  fm_wdsz : wdsz m = 4 ∨ wdsz m = 8;
  fm_arrays : ∀ e k c, e ∈ elems m → (c < nvar m k)%nat →
    ∃ a, get_f k e !! c = Some a ∧ length a = foldr Nat.mul 1%nat (lr1 m)
}.
(** Every array holds float64 numbers. *)
Definition all_f64 (m : mesh) : Prop :=
  ∀ p k c a, (c < nvar m k)%nat → cell m p k c = Some a → Forall (λ v, ∃ x, v = V64 x) a.
(** The byte order asked for by [data.endian]. *)
Definition asked_order (native : order) (endian : string) : order :=
  if bool_decide (endian = "little"%string) then Little
  else if bool_decide (endian = "big"%string) then Big else native.

(** Metadata other than the time and the arrays. *)
Definition same_metadata (m' m : mesh) : Prop :=
  ndim m' = ndim m ∧ nel m' = nel m ∧ lr1 m' = lr1 m ∧ var m' = var m ∧ istep m' = istep m ∧
  wdsz m' = wdsz m ∧ elmap m' = elmap m.
(** Every stored value of [m'] is [g] of the corresponding value of [m]. *)
Definition fields_via (g : fval → fval) (m' m : mesh) : Prop :=
  length (elems m') = length (elems m) ∧
  ∀ p k c, (p < nel m)%nat → (c < nvar m k)%nat →
    ∃ a, cell m p k c = Some a ∧ cell m' p k c = Some (g <$> a).

(** [y] is the float64 holding the float32 nearest to [x], ties to even; too large values become
    infinite, infinities stay and NaNs stay NaNs. *)
Definition rnd32 (v : R) : R := round radix2 (FLT_exp (3 - 128 - 24) 24) ZnearestE v.
Definition nearest32 (x y : f64) : Prop :=
  match x with
  | B754_nan _ _ _ _ _ => is_nan 53 1024 y = true
  | B754_infinity _ _ _ => y = x
  | _ => ((Rabs (rnd32 (B2R 53 1024 x)) < bpow radix2 128)%R →
            is_finite 53 1024 y = true ∧ B2R 53 1024 y = rnd32 (B2R 53 1024 x) ∧ Bsign 53 1024 y = Bsign 53 1024 x) ∧
         ((bpow radix2 128 <= Rabs (rnd32 (B2R 53 1024 x)))%R → y = B754_infinity 53 1024 (Bsign 53 1024 x))
  end.
(** Every stored value of [m'] is in relation [P] with the corresponding value of [m]. *)
Definition fields_rel (P : fval → fval → Prop) (m m' : mesh) : Prop :=
  length (elems m') = length (elems m) ∧
  ∀ p k c, (p < nel m)%nat → (c < nvar m k)%nat →
    ∃ a a', cell m p k c = Some a ∧ cell m' p k c = Some a' ∧ Forall2 P a a'.

(** ** Field files in general *)
(** The order in which a file with [n] elements stores its blocks: for positions, velocity, pressure
    and temperature, element by element; for scalars, scalar by scalar. *)
Definition storage (n : nat) (nv : fkind → nat) : list (nat * fkind * nat) :=
  ([FPos; FVel; FPres; FTemp] ≫= λ k, seq 0 n ≫= λ j, (λ c, (j, k, c)) <$> seq 0 (nv k)) ++
  (seq 0 (nv FScal) ≫= λ c, (λ j, (j, FScal, c)) <$> seq 0 n).
(** A file: 132 bytes of header, the tag 6.54321, the element map, the blocks. [V j k c] is the
    [j]-th stored block of component [c] of field [k]. *)
Definition field_file (o : order) (H : bytes) (elmap : list Z) (nv : fkind → nat)
    (V : nat → fkind → nat → list fval) : bytes :=
  H ++ f32_bytes o (narrow tag64) ++ (elmap ≫= i32_bytes o) ++
  (storage (length elmap) nv ≫= λ b, V b.1.1 b.1.2 b.2 ≫= fval_bytes o).
(** The number of components of field [k] announced by a header. *)
Definition h_count (h : header) (k : fkind) : nat := Z.to_nat (nth (kidx k) (h_vars h) 0).
(** The element map of a file for [ne] elements: either distinct element numbers, or a list with a
    zero, which is ignored. *)
Definition map_ok (elmap : list Z) (ne : Z) : Prop :=
  Forall (λ z, - 2 ^ 31 <= z < 2 ^ 31) elmap ∧
  (0 ∈ elmap → Z.of_nat (length elmap) <= ne) ∧ (0 ∉ elmap → NoDup elmap ∧ Forall (λ z, 1 <= z <= ne) elmap).
(** Where the [j]-th block goes. *)
Definition dest (elmap : list Z) (j : nat) : nat :=
  if bool_decide (0 ∈ elmap) then j else Z.to_nat (nth j elmap 0 - 1).
(** The end of the field data in a file with header [h]. *)
Definition data_end (h : header) : Z :=
  136 + 4 * h_nelf h + h_npts h * h_wdsz h * h_nelf h *
    Z.of_nat (h_count h FPos + h_count h FVel + h_count h FPres + h_count h FTemp + h_count h FScal).

(** The names under which [skip_vars] can list component [c] of field [k]. *)
Definition var_names (k : fkind) (c : nat) : list string :=
  match k with
  | FPos => [nth c ["x"; "y"; "z"] ""]
  | FVel => [nth c ["ux"; "uy"; "uz"] ""; nth c ["vx"; "vy"; "vz"] ""]
  | FPres => ["p"; "pressure"]
  | FTemp => ["t"; "temperature"]
  | FScal => [String.string_of_list_ascii ("s"%char :: dec_pad0 2 (Z.of_nat c + 1))]
  end%string.
Definition named (s : list string) (k : fkind) (c : nat) : Prop := ∃ n, n ∈ var_names k c ∧ n ∈ s.

(** Everything but the arrays. *)
Definition meta_of (m : mesh) : nat * nat * list nat * list nat * fval * Z * Z * string * list Z :=
  (ndim m, nel m, lr1 m, var m, time m, istep m, wdsz m, endian m, elmap m).
