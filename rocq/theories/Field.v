(** Field files: /repo/src/pymech/neksuite/field.py. *)
From Coq Require Import Lia Ascii.
From Flocq Require Import Core.Core IEEE754.BinarySingleNaN IEEE754.Binary IEEE754.Bits.
From Verif Require Import Base Float Mesh Bytes Text.
Open Scope Z_scope.

(** A mesh as the file functions see it: every number carries the precision of its array. *)
Notation mesh := (hexa fval).

(** The five kinds of field of an element (core.py 123-134). *)
Inductive fkind := FPos | FVel | FPres | FTemp | FScal.
#[global] Instance fkind_eq_dec : EqDecision fkind.
Proof. solve_decision. Defined.
Definition get_f {N} (k : fkind) (e : elem N) : list (list N) :=
  match k with FPos => pos e | FVel => vel e | FPres => pres e | FTemp => temp e | FScal => scal e end.
Definition set_f {N} (k : fkind) (v : list (list N)) (e : elem N) : elem N :=
  match k with
  | FPos => Elem (eshape e) v (vel e) (pres e) (temp e) (scal e) (curv e) (ccurv e) (bcs e)
  | FVel => Elem (eshape e) (pos e) v (pres e) (temp e) (scal e) (curv e) (ccurv e) (bcs e)
  | FPres => Elem (eshape e) (pos e) (vel e) v (temp e) (scal e) (curv e) (ccurv e) (bcs e)
  | FTemp => Elem (eshape e) (pos e) (vel e) (pres e) v (scal e) (curv e) (ccurv e) (bcs e)
  | FScal => Elem (eshape e) (pos e) (vel e) (pres e) (temp e) v (curv e) (ccurv e) (bcs e)
  end.
(** Its place in [data.var] / [h.nb_vars]. *)
Definition kidx (k : fkind) : nat :=
  match k with FPos => 0 | FVel => 1 | FPres => 2 | FTemp => 3 | FScal => 4 end.

(** ** Header (field.py 32-170) *)
(** [Header] (field.py 33-71). *)
Record header := Hdr {
  h_wdsz : Z; h_orders : list Z; h_nel : Z; h_nelf : Z; h_time : f64; h_istep : Z; h_fid : Z; h_nfiles : Z;
  h_variables : bytes; h_real : dtype; h_npts : Z; h_ndims : Z; h_vars : list Z
}.
Definition has_char (c : ascii) (l : bytes) : bool := existsb (Ascii.eqb c) l.
(** [variables[variables.index(c) + 1 :]]. *)
Fixpoint after_char (c : ascii) (l : bytes) : bytes :=
  match l with [] => [] | c' :: l => if Ascii.eqb c c' then l else after_char c l end.
(** [_variables_to_nb_vars] (field.py 100-123). Simplification: decoding the bytes cannot fail here
    (Python raises on invalid UTF-8). *)
Definition variables_to_nb_vars (vs : bytes) (nd : Z) : res (list Z) :=
  let! ns := (if has_char "S" vs then py_int (after_char "S" vs) else Ok 0) in
  Ok [if has_char "X" vs then nd else 0; if has_char "U" vs then nd else 0;
      if has_char "P" vs then 1 else 0; if has_char "T" vs then 1 else 0; ns].
(** [_nb_vars_to_variables] (field.py 125-132); [nth] stands for the subscripts of a tuple of five. *)
Definition nb_vars_to_variables (v : list Z) : bytes :=
  (if 0 <? nth 0 v 0 then ["X"%char] else []) ++ (if 0 <? nth 1 v 0 then ["U"%char] else []) ++
  (if 0 <? nth 2 v 0 then ["P"%char] else []) ++ (if 0 <? nth 3 v 0 then ["T"%char] else []) ++
  (if 0 <? nth 4 v 0 then "S"%char :: dec_pad0 2 (nth 4 v 0) else []).
(** [Header.__init__] and [__attrs_post_init__] (field.py 73-98). *)
Definition mk_header (wdsz : Z) (orders : list Z) (nel nelf : Z) (t : f64) (istep fid nfiles : Z)
    (variables : bytes) (nb_vars : list Z) : res header :=
  let! rt := (if wdsz =? 4 then Ok D32 else if wdsz =? 8 then Ok D64 else Raise ValueError) in
  let npts := foldr Z.mul 1 orders in
  let! o2 := of_opt IndexError (orders !! 2%nat) in
  let nd := 2 + (if 1 <? o2 then 1 else 0) in
  match variables, nb_vars with
  | [], [] => Raise ValueError
  | _ :: _, _ =>
    let! nv := variables_to_nb_vars variables nd in
    Ok (Hdr wdsz orders nel nelf t istep fid nfiles variables rt npts nd nv)
  | [], _ => Ok (Hdr wdsz orders nel nelf t istep fid nfiles (nb_vars_to_variables nb_vars) rt npts nd nb_vars)
  end.
(** [as_bytestring] (field.py 134-148). *)
Definition as_bytestring (h : header) : bytes :=
  ljust 132 (str "#std " ++ rjust 1 (dec_int (h_wdsz h)) ++ sp ::
    rjust 2 (dec_int (nth 0 (h_orders h) 0)) ++ sp :: rjust 2 (dec_int (nth 1 (h_orders h) 0)) ++ sp ::
    rjust 2 (dec_int (nth 2 (h_orders h) 0)) ++ sp :: rjust 10 (dec_int (h_nel h)) ++ sp ::
    rjust 10 (dec_int (h_nelf h)) ++ sp :: rjust 20 (fmt_e true 13 (h_time h)) ++ sp ::
    rjust 9 (dec_int (h_istep h)) ++ sp :: rjust 6 (dec_int (h_fid h)) ++ sp ::
    rjust 6 (dec_int (h_nfiles h)) ++ sp :: h_variables h).
(** [read_header] (field.py 151-170) on the 132 bytes it reads. *)
Definition read_header (l : bytes) : res header :=
  match split l with
  | _ :: wd :: ox :: oy :: oz :: ne :: nf :: tm :: st :: fi :: nfl :: vs :: _ =>
    let! wd := py_int wd in
    let! ox := py_int ox in let! oy := py_int oy in let! oz := py_int oz in
    let! ne := py_int ne in let! nf := py_int nf in
    let! tm := py_float tm in let! st := py_int st in let! fi := py_int fi in let! nfl := py_int nfl in
    mk_header wd [ox; oy; oz] ne nf tm st fi nfl vs []
  | _ => Raise OSError
  end.

(** ** readnek (field.py 174-372) *)
(** The constant 6.54321 and the test of the tag (field.py 200-214). *)
Definition tag64 : f64 := dec_to_f64 false 654321 (- 5).
Definition tag_test (x : f64) : res bool :=
  let! z := f64_trunc (b64_mult mode_NE x (f64_of_Z 100000)) in
  Ok (f64_eqb (b64_div mode_NE (f64_of_Z z) (f64_of_Z 100000)) tag64).
Definition read_tag (l : bytes) : res order :=
  let! xl := unpack_f32 Little l in let! tl := tag_test xl in
  let! xb := unpack_f32 Big l in let! tb := tag_test xb in
  if tl then Ok Little else if tb then Ok Big else Raise ValueError.

(** What the loops of readnek do to the file, in order: read (or seek over) component [i] of field
    [k] of element [iel], or seek over [n] blocks. *)
Inductive fop := Block (iel : Z) (k : fkind) (i : nat) (skip : bool) | SkipN (n : Z).
(** [read_file_into_data] and [skip_elements] (field.py 237-248), with the element lookup of the
    enclosing loops. *)
Definition set_comp {N} (k : fkind) (i : nat) (v : list N) (e : elem N) : elem N :=
  set_f k (<[i := v]> (get_f k e)) e.
Definition fop_step (o : order) (h : header) (dt : dtype) (st : mesh * bytes) (op : fop) : res (mesh * bytes) :=
  let '(m, l) := st in
  let bytes_elem := h_npts h * h_wdsz h in
  match op with
  | SkipN n => Ok (m, py_skip (bytes_elem * n) l)
  | Block iel k i skip =>
    let! p := of_opt IndexError (py_pos (length (elems m)) iel) in
    if skip then Ok (m, py_skip bytes_elem l) else
    let '(fi, l') := py_read bytes_elem l in
    let! vs := frombuffer o (h_real h) (Z.to_nat (h_npts h)) fi in
    Ok (set_elems (alter (set_comp k i (cast dt <$> vs)) p (elems m)) m, l')
  end.
(** [element_idxs] (field.py 259-267 and the same lines in the other sections). *)
Definition element_idxs (elmap : list Z) (nelf : Z) : list Z :=
  if bool_decide (0 ∈ elmap) then Z.of_nat <$> range (Z.to_nat nelf) else (λ z, z - 1) <$> elmap.
(** Geometry, velocity, pressure, temperature (field.py 250-339). *)
Definition field_ops (k : fkind) (nv : nat) (allskip : bool) (skip : nat → bool) (idxs : list Z) (nelems : Z) : list fop :=
  if (nv =? 0)%nat then []
  else if allskip then [SkipN (nelems * Z.of_nat nv)]
  else idxs ≫= λ iel, (λ i, Block iel k i (skip i)) <$> range nv.
(** Scalars (field.py 341-366). *)
Definition scal_ops (nv : nat) (skip : nat → bool) (idxs : list Z) (nelems : Z) : list fop :=
  if (nv =? 0)%nat then []
  else if forallb skip (range nv) then [SkipN (nelems * Z.of_nat nv)]
  else range nv ≫= λ i, if skip i then [SkipN nelems] else (λ iel, Block iel FScal i false) <$> idxs.
Definition in_skip (skip_vars : list string) (s : string) : bool := bool_decide (s ∈ skip_vars).
Definition geometry_vars : list string := ["x"; "y"; "z"]%string.
Definition velocity_vars1 : list string := ["ux"; "uy"; "uz"]%string.
Definition velocity_vars2 : list string := ["vx"; "vy"; "vz"]%string.
(** [f"s{i:02d}"] *)
Definition scalar_var (i : nat) : string :=
  String.string_of_list_ascii ("s"%char :: dec_pad0 2 (Z.of_nat i + 1)).
Definition readnek_ops (h : header) (elmap : list Z) (skip_vars : list string) : list fop :=
  let nv k := Z.to_nat (nth (kidx k) (h_vars h) 0) in
  let idxs := element_idxs elmap (h_nelf h) in
  let isin n i := in_skip skip_vars (nth i n EmptyString) in
  field_ops FPos (nv FPos) (forallb (isin geometry_vars) (range (nv FPos))) (isin geometry_vars) idxs (h_nel h) ++
  field_ops FVel (nv FVel)
    (forallb (isin velocity_vars1) (range (nv FVel)) || forallb (isin velocity_vars2) (range (nv FVel)))
    (λ i, isin velocity_vars1 i || isin velocity_vars2 i) idxs (h_nel h) ++
  field_ops FPres (nv FPres) (in_skip skip_vars "p" || in_skip skip_vars "pressure") (λ _, false) idxs (h_nel h) ++
  field_ops FTemp (nv FTemp) (in_skip skip_vars "t" || in_skip skip_vars "temperature") (λ _, false) idxs (h_nel h) ++
  scal_ops (nv FScal) (λ i, in_skip skip_vars (scalar_var i)) idxs (h_nel h).
(** [HexaData(h.nb_dims, h.nb_elems, h.orders, h.nb_vars, 0, dtype)] and the attributes set on it
    (field.py 224-233). numpy refuses negative shapes and lengths with ValueError; simplification:
    also when there are no elements to allocate. *)
Definition init_data (native : order) (h : header) (dt : dtype) (o : order) (elmap : list Z) : res mesh :=
  if (h_nel h <? 0) || existsb (λ z, z <? 0) (h_orders h) || existsb (λ z, z <? 0) (h_vars h) then Raise ValueError else
  let m := new_hexa (zeroV dt) (order_name native) (Z.to_nat (h_ndims h)) (Z.to_nat (h_nel h)) PyTuple
             (Z.to_nat <$> h_orders h) (Z.to_nat <$> h_vars h) 0 in
  Ok (Hexa (ndim m) (nel m) (ncurv m) (nbc m) (var m) (lr1kind m) (lr1 m)
        (V64 (h_time h)) (h_istep h) (h_wdsz h) (order_name o) (elems m) elmap).
(** [readnek(fname, dtype, skip_vars)] on the contents of the file; [native] is the byte order of the
    machine. *)
Definition readnek (native : order) (dt : dtype) (skip_vars : list string) (file : bytes) : res mesh :=
  let '(hb, l) := py_read 132 file in
  let! h := read_header hb in
  let '(tagb, l) := py_read 4 l in
  let! o := read_tag tagb in
  let '(mapb, l) := py_read (4 * h_nelf h) l in
  let! elmap := unpack_i32 o (h_nelf h) mapb in
  let! m := init_data native h dt o elmap in
  let! r := foldM (fop_step o h dt) (m, l) (readnek_ops h elmap skip_vars) in
  Ok r.1.

(** ** writenek (field.py 376-540) *)
(** The order of the bytes [correct_endianness(a).tofile(...)] writes (field.py 419-436). *)
Definition flip (o : order) : order := match o with Little => Big | Big => Little end.
Definition out_order (native : order) (endian : string) : order :=
  if bool_decide (endian = "big"%string ∨ endian = "little"%string) then
    if bool_decide (endian = order_name native) then native else flip native
  else native.
Definition elem_at (m : mesh) (z : Z) : res (elem fval) := of_opt IndexError (py_get (elems m) (z - 1)).
Definition comp_at (m : mesh) (z : Z) (k : fkind) (i : nat) : res (list fval) :=
  let! e := elem_at m z in of_opt IndexError (get_f k e !! i).
(** [write_ndarray_to_file] (field.py 452-458). *)
Definition ndarray_bytes (o : order) (m : mesh) (a : list fval) : bytes :=
  (if wdsz m =? 4 then cast D32 <$> a else a) ≫= fval_bytes o.
(** [np.min] / [np.max] of an array, [astype(np.float32)] (field.py 491-532). Simplification: which of
    two equal zeros of different sign, or of several NaNs, numpy returns is not specified. *)
Definition vmin (a b : fval) : fval :=
  if is_nan 53 1024 (to64 a) then a else if is_nan 53 1024 (to64 b) then b else if f64_ltb (to64 b) (to64 a) then b else a.
Definition vmax (a b : fval) : fval :=
  if is_nan 53 1024 (to64 a) then a else if is_nan 53 1024 (to64 b) then b else if f64_ltb (to64 a) (to64 b) then b else a.
Definition minmax_bytes (o : order) (a : list fval) : res bytes :=
  match a with
  | [] => Raise ValueError
  | x :: a => Ok (fval_bytes o (cast D32 (foldl vmin x a)) ++ fval_bytes o (cast D32 (foldl vmax x a)))
  end.
Definition nvar (m : mesh) (k : fkind) : nat := nth (kidx k) (var m) 0%nat.
(** The blocks in the order in which they are written (field.py 460-487). *)
Definition write_blocks (m : mesh) : list (Z * fkind * nat) :=
  ([FPos; FVel; FPres; FTemp] ≫= λ k, elmap m ≫= λ iel, (λ i, (iel, k, i)) <$> range (nvar m k)) ++
  (range (nvar m FScal) ≫= λ i, (λ iel, (iel, FScal, i)) <$> elmap m).
(** The blocks of the trailer (field.py 490-532). *)
Definition minmax_blocks (m : mesh) : list (Z * fkind * nat) :=
  if (ndim m =? 3)%nat then
    [FPos; FVel; FPres; FTemp; FScal] ≫= λ k, elmap m ≫= λ iel, (λ i, (iel, k, i)) <$> range (nvar m k)
  else [].
Definition write_header (m : mesh) : res bytes :=
  let! h := mk_header (wdsz m) (Z.of_nat <$> lr1 m) (Z.of_nat (nel m)) (Z.of_nat (nel m)) (to64 (time m)) (istep m) 0 1
              [] (Z.of_nat <$> var m) in
  Ok (as_bytestring h).
(** The contents of the file after [writenek(fname, data)], and how the call ended. The file is opened
    for writing, hence emptied, first (field.py 387). Simplification: the element map is an int32 array. *)
Definition writenek (native : order) (m : mesh) : bytes * res unit :=
  let o := out_order native (endian m) in
  write_all (write_header m :: Ok (f32_bytes o (narrow tag64)) :: Ok (elmap m ≫= i32_bytes o) ::
    ((λ b, let '(iel, k, i) := b in let! a := comp_at m iel k i in Ok (ndarray_bytes o m a)) <$> write_blocks m) ++
    ((λ b, let '(iel, k, i) := b in let! a := comp_at m iel k i in minmax_bytes o a) <$> minmax_blocks m)).
