(** Binary mesh files: [readre2] and [writere2] of /repo/src/pymech/neksuite/mesh.py (601-905). *)
From Coq Require Import Lia Ascii.
From Flocq Require Import Core.Core IEEE754.BinarySingleNaN IEEE754.Binary IEEE754.Bits.
From Verif Require Import Base Float Mesh Bytes Text Field.
Open Scope Z_scope.

Notation mesh64 := (hexa f64).
Definition z64 : f64 := B754_zero 53 1024 false.

(** [el.pos[c, kz, ky, kx]], with the bounds check of numpy. *)
Definition pos_at {N} (e : elem N) (c kz ky kx : nat) : res N :=
  let '(lx, ly, lz) := eshape e in
  if (kz <? lz)%nat && (ky <? ly)%nat && (kx <? lx)%nat then
    of_opt IndexError (pos e !! c ≫= (.!! flat (eshape e) kz ky kx))
  else Raise IndexError.

(** A record of seven float64 numbers and eight bytes: dtype "f8, f8, f8, f8, f8, f8, f8, S8"
    (mesh.py 866, 889). *)
Definition rec8 : Type := list f64 * bytes.
(** Storing a byte string in an S8 field: cut to eight bytes, or filled with NULs. *)
Definition s8 (l : bytes) : bytes := take 8 (l ++ replicate 8 Ascii.zero).
(** A record on disk. [byteswap] of a structured array leaves the S8 field as it is. *)
Definition rec8_bytes (o : order) (r : rec8) : bytes := (r.1 ≫= f64_bytes o) ++ r.2.

(** ** [writere2] (mesh.py 749-905) *)
(** The header (mesh.py 789-791). *)
Definition re2_header (ne nd : Z) : bytes :=
  ljust 80 (str "#v002" ++ rjust 9 (dec_int ne) ++ rjust 3 (dec_int nd) ++ rjust 9 (dec_int ne) ++
            str " this is the hdr").
(** The four vertices of one z layer, in the order of the file (mesh.py 848-851). *)
Definition quad (e : elem f64) (idim iz : nat) : res (list f64) :=
  let! a := pos_at e idim iz 0 0 in let! b := pos_at e idim iz 0 1 in
  let! c := pos_at e idim iz 1 1 in let! d := pos_at e idim iz 1 0 in Ok [a; b; c; d].
(** The geometry of one element (mesh.py 832-852). For ndim 2 and 3 the loops fill the whole of the
    array [xyz] but its first entry, in order; the model lists the entries in that order. Other
    dimensions do not reach a complete file because [pos] has three components and [lr1] must be
    [2, 2, ndim - 1]; for ndim 0 and 1, where the array would stay zero, the model differs. *)
Definition geometry (nd : nat) (e : elem f64) : res (list f64) :=
  let! qs := mapR (λ '(idim, iz), quad e idim iz) (prod2 (range nd) (range (nd - 1))) in
  Ok (z64 :: concat qs).
(** [curved_edges] (mesh.py 857-861), with the record of each (mesh.py 867-875). *)
Definition curve_record (e : elem f64) (iel iedge : nat) : res rec8 :=
  let! row := of_opt IndexError (curv e !! iedge) in
  if (length row <? 5)%nat then Raise IndexError else
  let! c := of_opt IndexError (ccurv e !! iedge) in
  Ok (f64_of_Z (Z.of_nat iel + 1) :: f64_of_Z (Z.of_nat iedge + 1) :: take 5 row, s8 (str c)).
Definition curved_edges (es : list (elem f64)) : res (list (nat * elem f64 * nat)) :=
  let! ll := mapR (λ '(iel, e), mapR (λ iedge,
      let! c := of_opt IndexError (ccurv e !! iedge) in
      Ok (if bool_decide (c = ""%string) then [] else [(iel, e, iedge)])) (range 12))
    (imap (λ i e, (i, e)) es) in
  Ok (concat (concat ll)).
Definition bc_at (e : elem f64) (b f : nat) : res (bcrec f64) :=
  let! r := of_opt IndexError (bcs e !! b) in of_opt IndexError (r !! f).
(** [bc_faces] (mesh.py 881-889), with the record of each (mesh.py 894-903). *)
Definition bc_faces (nd b : nat) (es : list (elem f64)) : res (list (nat * elem f64 * nat)) :=
  let! ll := mapR (λ '(iel, e), mapR (λ iface,
      let! r := bc_at e b iface in
      Ok (if bool_decide (bt r = ""%string) || bool_decide (bt r = "E"%string) then [] else [(iel, e, iface)]))
        (range (2 * nd))) (imap (λ i e, (i, e)) es) in
  Ok (concat (concat ll)).
Definition bc_record (b : nat) (e : elem f64) (iel iface : nat) : res rec8 :=
  let! r := bc_at e b iface in
  Ok ([f64_of_Z (Z.of_nat iel + 1); f64_of_Z (Z.of_nat iface + 1); bp3 r; bp4 r; bp5 r; bp6 r; bp7 r],
      s8 (ljust 8 (str (bt r)))).
(** One table: the number of records as a float64, then the records (mesh.py 868-878, 890-905). *)
Definition table (o : order) (rows : res (list (nat * elem f64 * nat)))
    (rec : elem f64 → nat → nat → res rec8) : list (res bytes) :=
  [ (let! l := rows in Ok (f64_bytes o (f64_of_Z (Z.of_nat (length l)))));
    (let! l := rows in let! rs := mapR (λ '(iel, e, j), rec e iel j) l in Ok (rs ≫= rec8_bytes o)) ].
(** The checks that come before the file is opened (mesh.py 761-779). [lr1] is compared as a Python
    list: a tuple differs from it. *)
Definition re2_check (m : mesh64) : res unit :=
  if negb (bool_decide (lr1kind m = PyList) && bool_decide (lr1 m = [2; 2; ndim m - 1]%nat))
  then Raise ValueError else
  let! v := of_opt IndexError (var m !! 0%nat) in
  if (v =? ndim m)%nat then Ok tt else Raise ValueError.
(** What is in the file afterwards ([None] if the file was never opened), and the outcome. The tag is
    written in the requested byte order (mesh.py 793-816), as are all the numbers. *)
Definition writere2 (native : order) (m : mesh64) : option bytes * res unit :=
  match re2_check m with
  | Raise x => (None, Raise x)
  | Ok _ =>
    let o := out_order native (endian m) in
    let nd := ndim m in
    let '(f, r) := write_all (
      [Ok (re2_header (Z.of_nat (nel m)) (Z.of_nat nd)); Ok (f32_bytes o (narrow tag64))] ++
      ((λ e, let! g := geometry nd e in Ok (g ≫= f64_bytes o)) <$> elems m) ++
      table o (curved_edges (elems m)) curve_record ++
      (range (nbc m) ≫= λ b, table o (bc_faces nd b (elems m)) (bc_record b))) in
    (Some f, r)
  end.

(** ** [readre2] (mesh.py 601-746) *)
(** [np.frombuffer(l, dtype=o+"d", count=n)]. *)
Definition floats (o : order) (n : nat) (l : bytes) : res (list f64) :=
  if (length l <? n * 8)%nat then Raise ValueError else Ok (f64_read o <$> chunks 8 n l).
(** [int(np.frombuffer(buf)[0])] (mesh.py 689, 725): the machine's byte order, whatever the file. *)
Definition count_of (native : order) (l : bytes) : res Z :=
  if (length l =? 8)%nat then ntrunc (a:=A64) (f64_read native l) else Raise ValueError.
(** Python's [bytes.decode] for ASCII; simplification: other valid UTF-8 is an error here. *)
Definition decode (l : bytes) : res bytes :=
  if forallb (λ c, byte_val c <? 128) l then Ok l else Raise UnicodeError.
(** [str.rstrip()]: text strings also treat the separators 28-31 as white space. *)
Definition is_space_str (c : ascii) : bool := is_space c || ((28 <=? byte_val c) && (byte_val c <=? 31)).
Fixpoint drop_while (p : ascii → bool) (l : bytes) : bytes :=
  match l with c :: l' => if p c then drop_while p l' else l | [] => [] end.
Definition rstrip (l : bytes) : bytes := rev (drop_while is_space_str (rev l)).
Definition to_string (l : bytes) : string := String.string_of_list_ascii l.

(** The vertices of one element (mesh.py 670-681). *)
Definition set_quad (fi : list f64) (sh : nat * nat * nat) (k : nat) (iz : nat) (c : list f64) : list f64 :=
  <[flat sh iz 1 0 := nth (k + 4) fi z64]> (<[flat sh iz 1 1 := nth (k + 3) fi z64]>
  (<[flat sh iz 0 1 := nth (k + 2) fi z64]> (<[flat sh iz 0 0 := nth (k + 1) fi z64]> c))).
Definition set_geometry (nd : nat) (fi : list f64) (e : elem f64) : elem f64 :=
  foldl (λ e '(idim, iz),
    set_pos (alter (set_quad fi (eshape e) (2 ^ nd * idim + 4 * iz) iz) idim (pos e)) e)
    e (prod2 (range nd) (range (nd - 1))).
(** One record of a table: the eight words of [np.frombuffer(..., count=8, offset=64*i)]. *)
Definition record (o : order) (buf : bytes) (i : nat) : res (list f64) := floats o 8 (drop (i * 64) buf).
(** [curv[7].tobytes()]: a numpy scalar is in the machine's byte order. *)
Definition scalar_bytes (native : order) (ws : list f64) : bytes := f64_bytes native (nth 7 ws z64).
(** One curved edge (mesh.py 692-712). *)
Definition curve_step (native o : order) (buf : bytes) (es : list (elem f64)) (i : nat) : res (list (elem f64)) :=
  let! ws := record o buf i in
  let! iel := ntrunc (a:=A64) (nth 0 ws z64) in
  let! iedge := ntrunc (a:=A64) (nth 1 ws z64) in
  let! c := decode (take 1 (scalar_bytes native ws)) in
  let! p := of_opt IndexError (py_pos (length es) (iel - 1)) in
  let! e := of_opt IndexError (es !! p) in
  let! j := of_opt IndexError (py_pos (length (curv e)) (iedge - 1)) in
  let! j' := of_opt IndexError (py_pos (length (ccurv e)) (iedge - 1)) in
  Ok (<[p := set_ccurv (<[j' := to_string c]> (ccurv e)) (set_curv (<[j := take 5 (drop 2 ws)]> (curv e)) e)]> es).
(** One boundary condition (mesh.py 730-748). *)
Definition bc_step (native o : order) (ifield : nat) (buf : bytes) (es : list (elem f64)) (i : nat) : res (list (elem f64)) :=
  let! ws := record o buf i in
  let! iel := ntrunc (a:=A64) (nth 0 ws z64) in
  let! iface := ntrunc (a:=A64) (nth 1 ws z64) in
  let! t := decode (scalar_bytes native ws) in
  let! p := of_opt IndexError (py_pos (length es) (iel - 1)) in
  let! e := of_opt IndexError (es !! p) in
  let! row := of_opt IndexError (bcs e !! ifield) in
  let! j := of_opt IndexError (py_pos (length row) (iface - 1)) in
  let r := Bc (u3 (to_string (rstrip t))) iel iface (nth 2 ws z64) (nth 3 ws z64) (nth 4 ws z64) (nth 5 ws z64) (nth 6 ws z64) in
  Ok (<[p := set_bcs (<[ifield := <[j := r]> row]> (bcs e)) e]> es).
(** The reading of one more field of conditions: [el.bcs] gets one more row of zeros (mesh.py 719-723). *)
Definition more_bcs (e : elem f64) : elem f64 :=
  set_bcs (bcs e ++ ((λ r, replicate (length r) (zero_bc z64)) <$> take 1 (bcs e))) e.
(** The loop over the fields (mesh.py 716-745). Each round takes eight bytes, so that a fuel larger
    than the number of bytes is enough ([bc_fields_fuel] in Re2Proofs). *)
Fixpoint bc_fields (fuel : nat) (native o : order) (ifield nb : nat) (es : list (elem f64)) (l : bytes)
    : res (list (elem f64) * nat) :=
  match fuel with
  | O => Raise ValueError
  | S fuel =>
    let '(cb, l) := py_read 8 l in
    match cb with
    | [] => Ok (es, nb)
    | _ =>
      let '(es, nb) := if (0 <? ifield)%nat then (more_bcs <$> es, S nb) else (es, nb) in
      let! n := count_of native cb in
      let '(buf, l) := py_read (8 * (8 * n)) l in
      let! es := foldM (bc_step native o ifield buf) es (range (Z.to_nat n)) in
      bc_fields fuel native o (S ifield) nb es l
    end
  end.
(** [readre2] (mesh.py 601-746). Simplification: a header with ndim other than 2 and 3, or with a
    negative number of elements, is an error here; Python goes on with arrays of odd shapes. *)
Definition readre2 (native : order) (l0 : bytes) : res mesh64 :=
  let '(hb, l1) := py_read 80 l0 in
  let! t1 := of_opt IndexError (split hb !! 1%nat) in let! ne := py_int t1 in
  let! t2 := of_opt IndexError (split hb !! 2%nat) in let! nd := py_int t2 in
  let '(tb, l2) := py_read 4 l1 in
  let! o := read_tag tb in
  if negb ((nd =? 2) || (nd =? 3)) || (ne <? 0) then Raise ValueError else
  let ndn := Z.to_nat nd in let nen := Z.to_nat ne in
  let lr := [2; 2; ndn - 1]%nat in
  let m := new_hexa z64 (order_name native) ndn nen PyList lr [ndn; 0; 0; 0; 0]%nat 1 in
  let cnt := (ndn * 2 ^ ndn + 1)%nat in
  let '(gb, l3) := py_read (Z.of_nat cnt * 8 * ne) l2 in
  let! es := mapR (λ '(iel, e), let! fi := floats o cnt (drop (cnt * 8 * iel) gb) in Ok (set_geometry ndn fi e))
      (imap (λ i e, (i, e)) (elems m)) in
  let '(cb, l4) := py_read 8 l3 in
  let! nc := count_of native cb in
  let '(buf, l5) := py_read (8 * (8 * nc)) l4 in
  let! es := foldM (curve_step native o buf) es (range (Z.to_nat nc)) in
  let! (es, nb) := bc_fields (S (length l5)) native o 0 1 es l5 in
  Ok (Hexa ndn nen nc nb (var m) PyList lr z64 0 8 (order_name o) es (elmap m)).
