(** Text mesh files: [readrea] and [writerea] of /repo/src/pymech/neksuite/mesh.py (12-598). *)
From Coq Require Import Lia Ascii.
From Flocq Require Import Core.Core IEEE754.BinarySingleNaN IEEE754.Binary IEEE754.Bits.
From Verif Require Import Base Float Mesh Bytes Text Field Re2.
Open Scope Z_scope.

(** Files are opened in text mode. Simplification: texts are ASCII, and hold no carriage return (which
    Python would turn into a newline when reading). *)
Definition nl : ascii := "010"%char.
Definition line (s : bytes) : bytes := s ++ [nl].
(** The lines of a file, as [for line in infile] and [readline] give them: each with its newline. *)
Fixpoint lines (l : bytes) : list bytes :=
  match l with
  | [] => []
  | c :: l => if Ascii.eqb c nl then [c] :: lines l
              else match lines l with [] => [[c]] | x :: xs => (c :: x) :: xs end
  end.

(** ** [writerea] (mesh.py 199-598) *)
(** The fixed text at the beginning (mesh.py 216-217, 219-372) and at the end (mesh.py 560-592). *)
Definition rea_head1 : list string := [
    "****** PARAMETERS ******";
    "   2.6000     NEKTON VERSION" ]%string.
Definition rea_head2 : list string := [
    "         118 PARAMETERS FOLLOW";
    "   1.00000     P001: DENSITY";
    "  -1000.00     P002: VISCOSITY";
    "   0.00000     P003: BETAG";
    "   0.00000     P004: GTHETA";
    "   0.00000     P005: PGRADX";
    "   0.00000     P006: ";
    "   1.00000     P007: RHOCP";
    "   1.00000     P008: CONDUCT";
    "   0.00000     P009: ";
    "   0.00000     P010: FINTIME";
    "   103         P011: NSTEPS";
    "  -1.00000E-03 P012: DT";
    "   0.00000     P013: IOCOMM";
    "   0.00000     P014: IOTIME";
    "   10          P015: IOSTEP";
    "   0.00000     P016: PSSOLVER: 0=default";
    "   1.00000     P017: ";
    "   0.00000     P018: GRID <0 --> # cells on screen";
    "   0.00000     P019: INTYPE";
    "   10.0000     P020: NORDER";
    "   1.00000E-09 P021: DIVERGENCE";
    "   1.00000E-09 P022: HELMHOLTZ";
    "   0.00000     P023: NPSCAL";
    "   1.00000E-02 P024: TOLREL";
    "   1.00000E-02 P025: TOLABS";
    "   1.00000     P026: COURANT/NTAU";
    "   3.00000     P027: TORDER";
    "   0.00000     P028: TORDER: mesh velocity (0: p28=p27)";
    "   0.00000     P029: = magnetic visc if > 0, = -1/Rm if < 0";
    "   0.00000     P030: > 0 ==> properties set in uservp()";
    "   0.00000     P031: NPERT: #perturbation modes";
    "   0.00000     P032: #BCs in re2 file, if > 0";
    "   0.00000     P033: ";
    "   0.00000     P034: ";
    "   0.00000     P035: ";
    "   0.00000     P036: XMAGNET";
    "   0.00000     P037: NGRIDS";
    "   0.00000     P038: NORDER2";
    "   0.00000     P039: NORDER3";
    "   0.00000     P040: ";
    "   0.00000     P041: 1-->multiplicattive SEMG";
    "   0.00000     P042: 0=gmres/1=pcg";
    "   0.00000     P043: 0=semg/1=schwarz";
    "   0.00000     P044: 0=E-based/1=A-based prec.";
    "   0.00000     P045: Relaxation factor for DTFS";
    "   0.00000     P046: reserved";
    "   0.00000     P047: vnu: mesh material prop.";
    "   0.00000     P048: ";
    "   0.00000     P049: ";
    "   0.00000     P050: ";
    "   0.00000     P051: ";
    "   0.00000     P052: IOHIS";
    "   0.00000     P053: ";
    "   0.00000     P054: fixed flow rate dir: |p54|=1,2,3=x,y,z";
    "   0.00000     P055: vol.flow rate (p54>0) or Ubar (p54<0)";
    "   0.00000     P056: ";
    "   0.00000     P057: ";
    "   0.00000     P058: ";
    "   0.00000     P059: !=0 --> full Jac. eval. for each el.";
    "   0.00000     P060: !=0 --> init. velocity to small nonzero";
    "   0.00000     P061: ";
    "   0.00000     P062: >0 --> force byte_swap for output";
    "   8.00000     P063: =8 --> force 8-byte output";
    "   0.00000     P064: =1 --> perturbation restart";
    "   1.00000     P065: #iofiles (eg, 0 or 64); <0 --> sep. dirs";
    "   6.00000     P066: output : <0=ascii, else binary";
    "   6.00000     P067: restart: <0=ascii, else binary";
    "   0.00000     P068: iastep: freq for avg_all (0=iostep)";
    "   0.00000     P069:       : freq of srf dump";
    "   0.00000     P070: ";
    "   0.00000     P071: ";
    "   0.00000     P072: ";
    "   0.00000     P073: ";
    "   0.00000     P074: ";
    "   0.00000     P075: ";
    "   0.00000     P076: ";
    "   0.00000     P077: ";
    "   0.00000     P078: ";
    "   0.00000     P079: ";
    "   0.00000     P080: ";
    "   0.00000     P081: ";
    "   0.00000     P082: ";
    "   0.00000     P083: ";
    "   0.00000     P084: != 0 --> sets initial timestep if p12>0";
    "   0.00000     P085: dt retio of p84 !=0, for timesteps>0";
    "   0.00000     P086: reserved";
    "   0.00000     P087: ";
    "   0.00000     P088: ";
    "   0.00000     P089: ";
    "   0.00000     P090: ";
    "   0.00000     P091: ";
    "   0.00000     P092: ";
    "   20.0000     P093: Number of previous pressure solns saved";
    "   9.00000     P094: start projecting velocity after p94 step";
    "   9.00000     P095: start projecting pressure after p95 step";
    "   0.00000     P096: ";
    "   0.00000     P097: ";
    "   0.00000     P098: ";
    "   3.00000     P099: dealiasing: <0--> off /3--> old /4-->new";
    "   0.00000     P100: ";
    "   0.00000     P101: Number of additional modes to filter";
    "   0.00000     P102: Dump out divergence at each time step";
    "   0.01000     P103: weight of stabilizing filter";
    "   0.00000     P104: ";
    "   0.00000     P105: ";
    "   0.00000     P106: ";
    "   0.00000     P107: !=0 --> add h2 array in hmholtz eqn";
    "   0.00000     P108: ";
    "   0.00000     P109: ";
    "   0.00000     P110: ";
    "   0.00000     P111: ";
    "   0.00000     P112: ";
    "   0.00000     P113: ";
    "   0.00000     P114: ";
    "   0.00000     P115: ";
    "   0.00000     P116: ";
    "   0.00000     P117: ";
    "   0.00000     P118: ";
    "      4  Lines of passive scalar data follows2 CONDUCT, 2RHOCP";
    "   1.00000        1.00000        1.00000        1.00000        1.00000";
    "   1.00000        1.00000        1.00000        1.00000";
    "   1.00000        1.00000        1.00000        1.00000        1.00000";
    "   1.00000        1.00000        1.00000        1.00000";
    "         13   LOGICAL SWITCHES FOLLOW";
    " T      IFFLOW";
    " F      IFHEAT";
    " T      IFTRAN";
    " T F F F F F F F F F F  IFNAV & IFADVC (convection in P.S. fields)";
    " F F T T T T T T T T T T  IFTMSH (IF mesh for this field is T mesh)";
    " F      IFAXIS";
    " F      IFSTRS";
    " F      IFSPLIT";
    " F      IFMGRID";
    " F      IFMODEL";
    " F      IFKEPS";
    " F      IFMVBD";
    " F      IFCHAR";
    "   2.00000       2.00000      -1.00000      -1.00000     XFAC,YFAC,XZERO,YZERO";
    "  ***** MESH DATA *****  6 lines are X,Y,Z;X,Y,Z. Columns corners 1-4;5-8" ]%string.
Definition rea_tail : list string := [
    "    0 PRESOLVE/RESTART OPTIONS  *****";
    "    7         INITIAL CONDITIONS *****";
    " C Default";
    " C Default";
    " C Default";
    " C Default";
    " C Default";
    " C Default";
    " C Default";
    "  ***** DRIVE FORCE DATA ***** BODY FORCE, FLOW, Q";
    "    4                 Lines of Drive force data follow";
    " C";
    " C";
    " C";
    " C";
    " ***** Variable Property Data ***** Overrrides Parameter data.";
    "    1 Lines follow.";
    "    0 PACKETS OF DATA FOLLOW";
    " ***** HISTORY AND INTEGRAL DATA *****";
    "    0   POINTS.  Hcode, I,J,H,IEL";
    " ***** OUTPUT FIELD SPECIFICATION *****";
    "    6 SPECIFICATIONS FOLLOW";
    "    F      COORDINATES";
    "    T      VELOCITY";
    "    T      PRESSURE";
    "    F      TEMPERATURE";
    "    F      TEMPERATURE GRADIENT";
    "    0      PASSIVE SCALARS";
    " ***** OBJECT SPECIFICATION *****";
    "        0 Surface Objects";
    "        0 Volume  Objects";
    "        0 Edge    Objects";
    "        0 Point   Objects" ]%string.

(** [{:14.6e}] and [{:18.11e}]. *)
Definition fl (x : f64) : bytes := rjust 14 (fmt_e false 6 x).
Definition fl18 (x : f64) : bytes := rjust 18 (fmt_e false 11 x).
Definition int_w (w : nat) (z : Z) : bytes := rjust w (dec_int z).
(** [el.pos[c, kz, ky, kx]] where each index is 0 or -1. *)
Definition corner (e : elem f64) (c : nat) (z y x : bool) : res f64 :=
  let '(lx, ly, lz) := eshape e in
  pos_at e c (if z then lz - 1 else 0)%nat (if y then ly - 1 else 0)%nat (if x then lx - 1 else 0)%nat.
(** One line of coordinates: x, y or z of the four corners of one face (mesh.py 378-444). *)
Definition quad_line (e : elem f64) (c : nat) (z : bool) : res bytes :=
  let! a := corner e c z false false in let! b := corner e c z false true in
  let! g := corner e c z true true in let! d := corner e c z true false in
  Ok (line (fl a ++ fl b ++ fl g ++ fl d)).
Definition elem_at {N} (m : hexa N) (iel : nat) : res (elem N) := of_opt IndexError (elems m !! iel).
(** The vertices of one element (mesh.py 375-444). *)
Definition geometry_lines (m : mesh64) (iel : nat) : list (res bytes) :=
  Ok (line (str "           ELEMENT " ++ int_w 10 (Z.of_nat iel + 1) ++ str " [  1a]    GROUP 1")) ::
  ((λ '(z, c), let! e := elem_at m iel in quad_line e c z) <$>
   match ndim m with
   | 2%nat => prod2 [false] [0; 1]%nat
   | 3%nat => prod2 [false; true] [0; 1; 2]%nat
   | _ => []
   end).
(** One curved edge, in the layout for the number of elements (mesh.py 451-501). *)
Definition curve_ints (ne : Z) (iedge iel : Z) : bytes :=
  if ne <? 10 ^ 3 then int_w 3 iedge ++ int_w 3 iel
  else if ne <? 10 ^ 6 then int_w 2 iedge ++ int_w 6 iel
  else int_w 2 iedge ++ int_w 10 iel.
Definition curve_line (ne : Z) (iedge iel : Z) (row : list f64) (c : string) : bytes :=
  line (curve_ints ne iedge iel ++ (row ≫= fl) ++ rjust 2 (str c)).
Definition curve_lines (m : mesh64) (iel iedge : nat) : list (res bytes) :=
  match (let! e := elem_at m iel in let! c := of_opt IndexError (ccurv e !! iedge) in
         if bool_decide (c = ""%string) then Ok [] else
         let! row := of_opt IndexError (curv e !! iedge) in
         if (length row <? 5)%nat then Raise IndexError
         else Ok [curve_line (Z.of_nat (nel m)) (Z.of_nat iedge + 1) (Z.of_nat iel + 1) (take 5 row) c]) with
  | Ok ls => Ok <$> ls
  | Raise x => [Raise x]
  end.
(** An empty condition is turned into ["E" iel iface] in the caller's mesh (mesh.py 517-520). *)
Definition e_rec (iel iface : nat) (r : bcrec f64) : bcrec f64 :=
  if bool_decide (bt r = ""%string)
  then Bc "E" (Z.of_nat iel + 1) (Z.of_nat iface + 1) (bp3 r) (bp4 r) (bp5 r) (bp6 r) (bp7 r) else r.
(** One condition, in the layout for the number of elements (mesh.py 521-558). *)
Definition bc_line (ne : Z) (r : bcrec f64) : bytes :=
  line (sp :: ljust 2 (str (bt r)) ++ [sp] ++
    if ne <? 10 ^ 3 then int_w 3 (bel r) ++ int_w 3 (bface r) ++ fl (bp3 r) ++ fl (bp4 r) ++ fl (bp5 r) ++ fl (bp6 r) ++ fl (bp7 r)
    else if ne <? 10 ^ 6 then int_w 6 (bel r) ++ fl (bp3 r) ++ fl (bp4 r) ++ fl (bp5 r) ++ fl (bp6 r) ++ fl (bp7 r)
    else int_w 11 (bel r) ++ int_w 1 (bface r) ++ fl18 (bp3 r) ++ fl18 (bp4 r) ++ fl18 (bp5 r) ++ fl18 (bp6 r) ++ fl18 (bp7 r)).
Definition bc_lines (m : mesh64) (ibc : nat) : list (res bytes) :=
  (match ibc with
   | O => []
   | S O => [Ok (line (str "  ***** THERMAL BOUNDARY CONDITIONS *****"))]
   | _ => [Ok (line (str "  ***** PASSIVE SCALAR " ++ int_w 4 (Z.of_nat ibc - 1) ++ str " BOUNDARY CONDITIONS *****"))]
   end) ++
  ((λ '(iel, iface), let! e := elem_at m iel in let! r := bc_at e ibc iface in
     Ok (bc_line (Z.of_nat (nel m)) (e_rec iel iface r))) <$> prod2 (range (nel m)) (range (2 * ndim m))).
Definition rea_lines (m : mesh64) : list (res bytes) :=
  let ne := Z.of_nat (nel m) in let nd := Z.of_nat (ndim m) in
  ((Ok ∘ line ∘ str) <$> rea_head1) ++
  [Ok (line (str "   " ++ int_w 1 nd ++ str " DIMENSIONAL RUN"))] ++
  ((Ok ∘ line ∘ str) <$> rea_head2) ++
  [Ok (line (str "  " ++ int_w 10 ne ++ [sp] ++ int_w 1 nd ++ [sp] ++ int_w 10 ne ++ str " NEL,NDIM,NELV"))] ++
  (range (nel m) ≫= geometry_lines m) ++
  [Ok (line (str "  ***** CURVED SIDE DATA *****"));
   Ok (line (str "  " ++ int_w 10 (ncurv m) ++ str " Curved sides follow IEDGE,IEL,CURVE(I),I=1,5, CCURVE"))] ++
  (prod2 (range (nel m)) (range 12) ≫= λ '(iel, iedge), curve_lines m iel iedge) ++
  [Ok (line (str "  ***** BOUNDARY CONDITIONS *****")); Ok (line (str "  ***** FLUID BOUNDARY CONDITIONS *****"))] ++
  (range (nbc m) ≫= bc_lines m) ++
  (if (nbc m <? 2)%nat then [Ok (line (str "  ***** NO THERMAL BOUNDARY CONDITIONS *****"))] else []) ++
  ((Ok ∘ line ∘ str) <$> rea_tail).
(** The caller's mesh afterwards. *)
Definition e_elem (nb nf iel : nat) (e : elem f64) : elem f64 :=
  set_bcs (imap (λ b row, if (b <? nb)%nat then imap (λ f r, if (f <? nf)%nat then e_rec iel f r else r) row else row) (bcs e)) e.
Definition e_mesh (m : mesh64) : mesh64 :=
  set_elems (imap (λ i e, if (i <? nel m)%nat then e_elem (nbc m) (2 * ndim m) i e else e) (elems m)) m.
(** What is in the file afterwards, and either the caller's mesh after the call or the exception (the
    state of the mesh after an exception is not modelled). *)
Definition writerea (m : mesh64) : bytes * res mesh64 :=
  let '(f, r) := write_all (rea_lines m) in (f, let! _ := r in Ok (e_mesh m)).

(** ** [readrea] (mesh.py 12-195) *)
(** [line[a:b]] *)
Definition sl (a b : nat) (l : bytes) : bytes := take (b - a) (drop a l).
Definition tok (i : nat) (l : bytes) : res bytes := of_opt IndexError (split l !! i).
(** [infile.readline()]: the empty string at the end of the file. *)
Definition readline (ls : list bytes) : bytes * list bytes := match ls with [] => ([], []) | l :: ls => (l, ls) end.
(** A loop over [ps] that reads one line per round. *)
Fixpoint with_lines {S P} (step : S → P → bytes → res S) (ps : list P) (s : S) (ls : list bytes) : res (S * list bytes) :=
  match ps with
  | [] => Ok (s, ls)
  | p :: ps => let '(l, ls) := readline ls in let! s := step s p l in with_lines step ps s ls
  end.
Definition skip (n : Z) (ls : list bytes) : res (unit * list bytes) :=
  with_lines (λ s _ _, Ok s) (range (Z.to_nat n)) tt ls.
(** Lines that are counted as the head of a field of conditions (mesh.py 28-31). *)
Definition is_bc_head (l : bytes) : bool :=
  let ts := split l in existsb (bytes_eqb (str "BOUNDARY")) (drop 2 ts) && negb (existsb (bytes_eqb (str "NO")) ts).
(** The int32 fields of a condition. *)
Definition to_i32 (z : Z) : res Z := if (- 2 ^ 31 <=? z) && (z <? 2 ^ 31) then Ok z else Raise OverflowError.
(** One line of coordinates (mesh.py 96-101). A position is the element with either nothing (the line
    with its number, mesh.py 93) or the layer and the coordinate. *)
Definition geom_positions (nd ne : nat) : list (nat * option (nat * nat)) :=
  range ne ≫= λ iel, (iel, None) :: ((λ p, (iel, Some p)) <$> prod2 (range (nd - 1)) (range nd)).
Definition geom_step (es : list (elem f64)) (p : nat * option (nat * nat)) (l : bytes) : res (list (elem f64)) :=
  match p with
  | (_, None) => Ok es
  | (iel, Some (idim, jdim)) =>
    let! t0 := tok 0 l in let! x0 := py_float t0 in let! t1 := tok 1 l in let! x1 := py_float t1 in
    let! t2 := tok 2 l in let! x2 := py_float t2 in let! t3 := tok 3 l in let! x3 := py_float t3 in
    Ok (alter (λ e, set_pos (alter (set_quad [z64; x0; x1; x2; x3] (eshape e) 0 idim) jdim (pos e)) e) iel es)
  end.
(** [n] numbers of width [w] from column [a]. *)
Definition columns (a w n : nat) (l : bytes) : res (list f64) :=
  mapR (λ k, py_float (sl (a + w * k) (a + w * k + w) l)) (range n).
(** One curved edge (mesh.py 111-141). *)
Definition rea_curve_step (ne : Z) (es : list (elem f64)) (_ : nat) (l : bytes) : res (list (elem f64)) :=
  let '(a, b) := if ne <? 10 ^ 3 then (3, 6)%nat else if ne <? 10 ^ 6 then (2, 8)%nat else (2, 12)%nat in
  let! iedge := py_int (sl 0 a l) in
  let! iel := py_int (sl a b l) in
  let! p := of_opt IndexError (py_pos (length es) (iel - 1)) in
  let! e := of_opt IndexError (es !! p) in
  let! j := of_opt IndexError (py_pos (length (curv e)) (iedge - 1)) in
  let! row := columns b 14 5 l in
  let! c := tok 0 (sl (b + 70) (b + 73) l) in
  let! j' := of_opt IndexError (py_pos (length (ccurv e)) (iedge - 1)) in
  Ok (<[p := set_ccurv (<[j' := to_string c]> (ccurv e)) (set_curv (<[j := row]> (curv e)) e)]> es).
(** One condition (mesh.py 149-187). A position is the field with either nothing (its head line) or the
    element and the face. *)
Definition bc_positions (nd ne nb : nat) : list (nat * option (nat * nat)) :=
  range nb ≫= λ ibc, (ibc, None) :: ((λ p, (ibc, Some p)) <$> prod2 (range ne) (range (2 * nd))).
Definition rea_bc (ne : Z) (iel iface : nat) (l : bytes) : res (bcrec f64) :=
  let t := u3 (to_string (strip (sl 1 3 l))) in
  let! (a, f, xs) :=
    if ne <? 10 ^ 3 then
      let! a := py_int (sl 4 7 l) in let! a := to_i32 a in
      let! f := py_int (sl 7 10 l) in let! f := to_i32 f in let! xs := columns 10 14 5 l in Ok (a, f, xs)
    else if ne <? 10 ^ 6 then
      let! a := to_i32 (Z.of_nat iel + 1) in let! xs := columns 10 14 5 l in Ok (a, Z.of_nat iface + 1, xs)
    else
      let! a := py_int (sl 4 15 l) in let! a := to_i32 a in
      let! f := py_int (sl 15 16 l) in let! f := to_i32 f in let! xs := columns 16 18 5 l in Ok (a, f, xs) in
  let r := Bc t a f (nth 0 xs z64) (nth 1 xs z64) (nth 2 xs z64) (nth 3 xs z64) (nth 4 xs z64) in
  Ok (if bool_decide (bt r = "E"%string) && f64_eqb (bp3 r) z64 then zero_bc z64 else r).
Definition rea_bc_step (ne : Z) (es : list (elem f64)) (p : nat * option (nat * nat)) (l : bytes) : res (list (elem f64)) :=
  match p with
  | (_, None) => Ok es
  | (ibc, Some (iel, iface)) =>
    let! r := rea_bc ne iel iface l in
    Ok (alter (alter_ebc (λ _, r) ibc iface) iel es)
  end.
(** The head of the file (mesh.py 33-75): the dimension, and the lines that follow it. The parameters are
    read but not kept. *)
Definition rea_head (ls : list bytes) : res (Z * list bytes) :=
  let '(_, ls) := readline ls in let '(_, ls) := readline ls in
  let '(l, ls) := readline ls in let! t := tok 0 l in let! nd := py_int t in
  let '(l, ls) := readline ls in let! t := tok 0 l in let! npar := py_int t in
  if npar <? 0 then Raise ValueError else
  let! (_, ls) := with_lines (λ s _ l, let! t := tok 0 l in let! _ := py_float t in Ok s) (range (Z.to_nat npar)) tt ls in
  let '(l, ls) := readline ls in let! t := tok 0 l in let! n := py_int t in let! (_, ls) := skip n ls in
  let '(l, ls) := readline ls in let! t := tok 0 l in let! n := py_int t in let! (_, ls) := skip n ls in
  let '(_, ls) := readline ls in
  let '(_, ls) := readline ls in Ok (nd, ls).
(** The rest of the file (mesh.py 77-187), with the number of fields of conditions. *)
Definition rea_body (native : order) (nb : nat) (nd : Z) (ls : list bytes) : res mesh64 :=
  let '(l, ls) := readline ls in let! t := tok 0 l in let! ne := py_int t in
  if negb ((nd =? 2) || (nd =? 3)) || (ne <? 0) then Raise ValueError else
  let ndn := Z.to_nat nd in let nen := Z.to_nat ne in
  let m := new_hexa z64 (order_name native) ndn nen PyList [2; 2; ndn - 1]%nat [ndn; 0; 0; 0; 0]%nat nb in
  let! (es, ls) := with_lines geom_step (geom_positions ndn nen) (elems m) ls in
  let '(_, ls) := readline ls in
  let '(l, ls) := readline ls in let! t := tok 0 l in let! nc := py_int t in
  let! (es, ls) := with_lines (rea_curve_step ne) (range (Z.to_nat nc)) es ls in
  let '(_, ls) := readline ls in
  let! (es, _) := with_lines (rea_bc_step ne) (bc_positions ndn nen nb) es ls in
  Ok (set_ncurv nc (set_elems es m)).
(** [readrea]. Simplification: a file with ndim other than 2 and 3, or with a negative number of elements,
    is an error here, as for [readre2]. *)
Definition readrea (native : order) (f : bytes) : res mesh64 :=
  let ls := lines f in
  let nb := length (filter (λ l, is_bc_head l = true) ls) in
  let! (nd, ls) := rea_head ls in
  rea_body native nb nd ls.
