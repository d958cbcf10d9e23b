(** SIMSON files: [readdns] and [readplane] of /repo/src/pymech/simsonsuite.py. *)
From Coq Require Import Lia Ascii.
From Flocq Require Import Core.Core IEEE754.BinarySingleNaN IEEE754.Binary IEEE754.Bits.
From Verif Require Import Base Float Mesh Bytes Text Field Re2.
Open Scope Z_scope.

(** [struct.unpack(o + n*"d", l)]: the buffer must have exactly the right size. *)
Definition unpack_f64 (o : order) (n : Z) (l : bytes) : res (list f64) :=
  if Z.of_nat (length l) =? 8 * Z.max 0 n then Ok (f64_read o <$> chunks 8 (Z.to_nat n) l) else Raise StructError.
(** [struct.unpack(o + "i", infile.read(4))[0]] and the same with "d" and 8. *)
Definition next_i32 (o : order) (l : bytes) : res (Z * bytes) :=
  let '(b, l) := py_read 4 l in let! v := unpack_i32 o 1 b in Ok (nth 0 v 0, l).
Definition next_f64 (o : order) (l : bytes) : res (f64 * bytes) :=
  let '(b, l) := py_read 8 l in let! v := unpack_f64 o 1 b in Ok (nth 0 v z64, l).
(** [eol = infile.read(n)], not looked at. *)
Definition pass (n : Z) (l : bytes) : bytes := (py_read n l).2.

(** ** [readplane] (simsonsuite.py 245-369) *)
(** What is returned: an error code, or coordinates, data, sizes and dimension. *)
Inductive plane :=
  | PlaneError (code : Z)
  | Plane (x : list (list (list f64))) (d : list (list f64)) (nn : list Z) (nd : Z).
(** [np.reshape(l, (n0, n1), "F")], by rows. *)
Definition reshape_F (n0 n1 : nat) (l : list f64) : list (list f64) :=
  (λ i, (λ j, nth (i + n0 * j) l z64) <$> range n1) <$> range n0.
(** The grid sizes (simsonsuite.py 287-290). *)
Fixpoint read_sizes (o : order) (n : nat) (l : bytes) : res (list Z * bytes) :=
  match n with
  | O => Ok ([], l)
  | S n => let! (z, l) := next_i32 o l in let! (zs, l) := read_sizes o n l in Ok (z :: zs, l)
  end.
(** One record of [nt] numbers between two markers that are not looked at (simsonsuite.py 326-332). *)
Definition next_block (o : order) (nt : Z) (l : bytes) : res (list f64 * bytes) :=
  let l := pass 4 l in let '(b, l) := py_read (nt * 8) l in
  let! v := unpack_f64 o nt b in Ok (v, l).
Definition readplane (file : bytes) : res plane :=
  let '(tb, l) := py_read 4 file in
  let! tl := unpack_i32 Little 1 tb in let! tB := unpack_i32 Big 1 tb in
  let etagL := nth 0 tl 0 in let etagB := nth 0 tB 0 in
  (* [int(etag / 4)]: exact in float64, truncated towards zero *)
  let '(o, nd) := if etagL <=? 1000 then (Little, Z.quot etagL 4) else (Big, Z.quot etagB 4) in
  let! (nn, l) := read_sizes o (Z.to_nat nd) l in
  let nt := foldr Z.mul 1 nn in
  let l := pass 4 l in
  if nd =? 2 then
    if existsb (λ n, n <? 0) nn then Raise ValueError else
    let n0 := Z.to_nat (nth 0 nn 0) in let n1 := Z.to_nat (nth 1 nn 0) in
    let! (x, l) := next_block o nt l in let l := pass 4 l in
    let! (y, l) := next_block o nt l in let l := pass 4 l in
    let! (d, l) := next_block o nt l in
    Ok (Plane [reshape_F n0 n1 x; reshape_F n0 n1 y] (reshape_F n0 n1 d) nn nd)
  else if (nd =? 1) || (nd =? 3) then
    if existsb (λ n, n <? 0) nn then Raise ValueError else
    (* [struct.unpack(...)[0] / 8] is a float, which [infile.read] does not accept (318-319, 338-339) *)
    let! _ := next_i32 o l in Raise TypeError
  else Ok (PlaneError (-3)).

(** ** [readdns] (simsonsuite.py 13-241) *)
Definition cplx : Type := f64 * f64.
Definition cadd (a b : cplx) : cplx := (nadd (a:=A64) a.1 b.1, nadd (a:=A64) a.2 b.2).
Definition cmul (a b : cplx) : cplx :=
  (nsub (a:=A64) (nmul (a:=A64) a.1 b.1) (nmul (a:=A64) a.2 b.2), nadd (a:=A64) (nmul (a:=A64) a.1 b.2) (nmul (a:=A64) a.2 b.1)).
Definition creal (x : f64) : cplx := (x, z64).
(** [(re + 1j * im) * nppl * (-1) ** idim] (simsonsuite.py 205), in Python's complex arithmetic. *)
Definition dns_value (nppl : Z) (idim : nat) (re im : f64) : cplx :=
  cmul (cmul (cadd (creal re) (cmul (z64, f64_of_Z 1) (creal im))) (creal (f64_of_Z nppl))) (creal (f64_of_Z ((-1) ^ Z.of_nat idim))).
(** One row: the last of the [nx // 2 + 1] columns is never written and stays zero (simsonsuite.py 203-206). *)
Definition dns_line (nx : nat) (nppl : Z) (idim : nat) (fi : list f64) : list cplx :=
  ((λ ix, dns_value nppl idim (nth (2 * ix) fi z64) (nth (2 * ix + 1) fi z64)) <$> range (nx / 2)) ++ [creal z64].
Definition dns_row (o : order) (nx : nat) (l : bytes) : res (list f64 * bytes) :=
  let '(b, l) := py_read (Z.of_nat nx * 8) l in
  let! fi := unpack_f64 o (Z.of_nat nx) b in Ok (fi, pass 8 l).
Fixpoint dns_rows (o : order) (nx n : nat) (l : bytes) : res (list (list f64) * bytes) :=
  match n with
  | O => Ok ([], l)
  | S n => let! (r, l) := dns_row o nx l in let! (rs, l) := dns_rows o nx n l in Ok (r :: rs, l)
  end.
(** The Fourier plane in which plane [iz] of the file is stored (simsonsuite.py 196-199). *)
Definition fplane (nz iz : nat) : nat := if (2 * iz <=? nz)%nat then iz else (nz / 2 * 3 - (iz + 1))%nat.
Definition fourier : Type := list (list (list cplx)).
Definition dns_plane (o : order) (nx ny nz idim : nat) (st : fourier * bytes) (iz : nat) : res (fourier * bytes) :=
  let '(fou, l) := st in
  let! (rows, l) := dns_rows o nx ny l in
  Ok (<[fplane nz iz := dns_line nx (Z.of_nat nx * Z.of_nat nz) idim <$> rows]> fou, l).
(** One velocity component (simsonsuite.py 195-211). The buffer [fou] goes on to the next one. [fft fou nx nz]
    stands for [np.fft.irfft2(fou, (nx, nz), (2, 0))], which is not modelled. *)
Definition dns_component (fft : fourier → nat → nat → list f64) (o : order) (nx ny nz : nat)
    (st : fourier * list (list f64) * bytes) (idim : nat) : res (fourier * list (list f64) * bytes) :=
  let '(fou, vel, l) := st in
  let! (fou, l) := foldM (dns_plane o nx ny nz idim) (fou, l) (range nz) in
  Ok (fou, vel ++ [fft fou nx nz], l).
(** The passive scalars (simsonsuite.py 214-232): the same without the sign. *)
Definition scal_value (nppl : Z) (re im : f64) : cplx :=
  cmul (cadd (creal re) (cmul (z64, f64_of_Z 1) (creal im))) (creal (f64_of_Z nppl)).
Definition scal_line (nx : nat) (nppl : Z) (fi : list f64) : list cplx :=
  ((λ ix, scal_value nppl (nth (2 * ix) fi z64) (nth (2 * ix + 1) fi z64)) <$> range (nx / 2)) ++ [creal z64].
Definition scal_plane (o : order) (nx ny nz : nat) (st : fourier * bytes) (iz : nat) : res (fourier * bytes) :=
  let '(fou, l) := st in
  let! (rows, l) := dns_rows o nx ny l in
  Ok (<[fplane nz iz := scal_line nx (Z.of_nat nx * Z.of_nat nz) <$> rows]> fou, l).
Definition scal_component (fft : fourier → nat → nat → list f64) (o : order) (nx ny nz : nat)
    (st : fourier * list (list f64) * bytes) (_ : nat) : res (fourier * list (list f64) * bytes) :=
  let '(fou, scal, l) := st in
  let! (fou, l) := foldM (scal_plane o nx ny nz) (fou, l) (range nz) in
  Ok (fou, scal ++ [fft fou nx nz], l).
(** The header (simsonsuite.py 35-145): either an error code, or what is kept of it. *)
Record dns_head := DnsHead { h_order : order; h_box : f64 * f64 * f64; h_time : f64; h_size : Z * Z * Z; h_nscal : Z }.
(** The quantities that depend on the flow type (simsonsuite.py 116-145) are read and not kept. *)
Fixpoint pass_f64 (o : order) (n : nat) (l : bytes) : res bytes :=
  match n with O => Ok l | S n => let! (_, l) := next_f64 o l in pass_f64 o n l end.
Definition flow_part (o : order) (b : bool) (n : nat) (l : bytes) : res bytes :=
  if b then let! l := pass_f64 o n l in Ok (pass 8 l) else Ok l.
Definition flow_dependent (o : order) (nscal : nat) (fl : Z) (l : bytes) : res bytes :=
  let! l := flow_part o (fl =? -1) 1 l in
  let! l := flow_part o (fl =? -2) 2 l in
  let! l := flow_part o ((fl =? 4) || (fl =? 5)) 2 l in
  let! l := flow_part o ((4 <=? fl) && (fl <=? 9)) 4 l in
  flow_part o (Z.abs fl =? 20) nscal l.
(** [pr[i] = b] for an array of float64 and eight bytes [b] (simsonsuite.py 75-78): numpy takes the bytes, without the null bytes at the end,
    for the text of a number, as [float] does. The bytes of a float64 are then unpacked, which cannot fail; nothing is kept. *)
Fixpoint ltrim0 (l : bytes) : bytes := match l with c :: l' => if byte_val c =? 0 then ltrim0 l' else l | [] => [] end.
Definition store_bytes (b : bytes) : res f64 := py_float (rev (ltrim0 (rev b))).
Fixpoint scalar_header (n : nat) (l : bytes) : res bytes :=
  match n with
  | O => Ok l
  | S n =>
    let '(b, l) := py_read 8 l in let! _ := store_bytes b in
    let '(b, l) := py_read 8 l in let! _ := store_bytes b in
    scalar_header n l
  end.
Definition dns_header (file : bytes) : res (Z + dns_head * bytes) :=
  let '(tb, l) := py_read 4 file in
  let! tl := unpack_i32 Little 1 tb in let! tB := unpack_i32 Big 1 tb in
  let etagL := nth 0 tl 0 in let etagB := nth 0 tB 0 in
  let ok t := (44 <=? t) && (t <=? 1644) in
  if negb (ok etagL || ok etagB) then Ok (inl (-3)) else
  let '(o, nscal) := if ok etagL then (Little, (etagL - 44) / 16) else (Big, (etagB - 44) / 16) in
  let! (_, l) := next_f64 o l in
  let! (_, l) := next_i32 o l in
  let! (bx, l) := next_f64 o l in let! (bz, l) := next_f64 o l in
  let! (t, l) := next_f64 o l in
  let l := pass 8 l in
  let! l := scalar_header (Z.to_nat nscal) l in
  let l := pass 8 l in
  let! (nx, l) := next_i32 o l in let! (ny, l) := next_i32 o l in let! (nz, l) := next_i32 o l in
  let! (_, l) := next_i32 o l in
  let l := pass 8 l in
  let! (fl, l) := next_i32 o l in
  let! (dstar, l) := next_f64 o l in
  if f64_eqb dstar z64 then Raise ZeroDivisionError else
  let l := pass 8 l in
  let! l := flow_dependent o (Z.to_nat nscal) fl l in
  Ok (inr (DnsHead o (bx, ndiv (a:=A64) (f64_of_Z 2) dstar, bz) t (nx, ny, nz) nscal, l)).
(** An array of which each entry depends on its indices. *)
Definition tabulate (nx ny nz : nat) (f : nat → nat → nat → f64) : list f64 :=
  (λ '(iz, iy, ix), f iz iy ix) <$> prod3 (range nz) (range ny) (range nx).
(** The geometry (simsonsuite.py 180-191); [pi] and [cos] stand for [np.arccos(-1.0)] and [np.cos]. *)
Definition dns_geometry (pi : f64) (cos : f64 → f64) (box : f64 * f64 * f64) (nx ny nz : nat) : list (list f64) :=
  let '(bx, by_, bz) := box in
  let fz n := f64_of_Z (Z.of_nat n) in
  let div := ndiv (a:=A64) in let mul := nmul (a:=A64) in let sub := nsub (a:=A64) in
  [ tabulate nx ny nz (λ _ _ ix, mul (div bx (fz nx)) (fz ix));
    tabulate nx ny nz (λ _ iy _, div (mul by_ (sub (f64_of_Z 1) (cos (mul (div pi (f64_of_Z (Z.of_nat ny - 1))) (fz iy))))) (f64_of_Z 2));
    tabulate nx ny nz (λ iz _ _, mul (div bz (fz nz)) (sub (fz iz) (div (fz nz) (f64_of_Z 2)))) ].
(** Simplification: the two numbers of the box size are read one after the other (simsonsuite.py 61-62 reads
    them together), as are the three sizes (86-87); the exception for a short file is the same. *)
Definition readdns (native : order) (fft : fourier → nat → nat → list f64) (pi : f64) (cos : f64 → f64) (file : bytes)
    : res (Z + mesh64) :=
  let! r := dns_header file in
  match r with
  | inl code => Ok (inl code)
  | inr (h, l) =>
    let '(nx, ny, nz) := h_size h in let o := h_order h in
    if (nx <? 0) || (ny <? 0) || (nz <? 0) then Raise ValueError else
    if (nx =? 0) || (nz =? 0) then Raise ZeroDivisionError else
    let nd := if 1 <? nz then 3%nat else 2%nat in
    let nx := Z.to_nat nx in let ny := Z.to_nat ny in let nz := Z.to_nat nz in
    let nscal := Z.to_nat (h_nscal h) in
    let var := [nd; nd; 0; 0; nscal]%nat in
    let m := new_hexa z64 (order_name native) nd 1 PyList [nx; ny; nz] var 0 in
    let fou := replicate nz (replicate ny (replicate (nx / 2 + 1) (creal z64))) in
    let! (fou, vel, l) := foldM (dns_component fft o nx ny nz) (fou, [], l) (range 3) in
    let! (_, scal, _) := foldM (scal_component fft o nx ny nz) (fou, [], l) (range nscal) in
    let set e := Elem (eshape e) (dns_geometry pi cos (h_box h) nx ny nz) vel (pres e) (temp e) scal (curv e) (ccurv e) (bcs e) in
    Ok (inr (Hexa nd 1 0 0 var PyList [nx; ny; nz] (h_time h) 0 8 (order_name o) (set <$> elems m) (elmap m)))
  end.
