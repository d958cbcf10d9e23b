(** Model of the classes of /repo/src/pymech/core.py (proofs are elsewhere). *)
From Verif Require Import Base Mesh.
From Coq Require Import Lia.

Section Core.
Context {A : arith}.
Notation N := (num A).
Implicit Types (e : elem N) (m : hexa N).

(** [pos[:, kz, ky, kx]] with Python indices (core.py 219-222). *)
Definition point_py e (kz ky kx : Z) : res (N * N * N) :=
  let '(lx, ly, lz) := eshape e in
  match py_pos lz kz, py_pos ly ky, py_pos lx kx with
  | Some z, Some y, Some x => of_opt IndexError (point e z y x)
  | _, _, _ => Raise IndexError
  end.

(** core.py 187-218: the four (kx, ky, kz) of face [i]. *)
Definition face_corners (i : Z) : option (list (Z * Z * Z)) :=
  if i =? 0 then Some [(0,0,0); (0,0,-1); (-1,0,0); (-1,0,-1)]
  else if i =? 1 then Some [(-1,0,0); (-1,0,-1); (-1,-1,0); (-1,-1,-1)]
  else if i =? 2 then Some [(0,-1,0); (0,-1,-1); (-1,-1,0); (-1,-1,-1)]
  else if i =? 3 then Some [(0,0,0); (0,0,-1); (0,-1,0); (0,-1,-1)]
  else if i =? 4 then Some [(0,0,0); (0,-1,0); (-1,0,0); (-1,-1,0)]
  else if i =? 5 then Some [(0,0,-1); (0,-1,-1); (-1,0,-1); (-1,-1,-1)]
  else None.

(** [0.25 * (a + b + c + d)] *)
Definition mean4 (a b c d : N) : N := nmul (nlit 1 4) (nadd (nadd (nadd a b) c) d).

(** [Elem.face_center] (core.py 184-227): an invalid number is logged and then
    the unassigned [kx1] is used (UnboundLocalError). *)
Definition face_center e (i : Z) : res (N * N * N) :=
  match face_corners i with
  | None => Raise UnboundLocalError
  | Some ks =>
    let! ps := mapR (λ '(kx, ky, kz), point_py e kz ky kx) ks in
    match ps with
    | [(x1,y1,z1); (x2,y2,z2); (x3,y3,z3); (x4,y4,z4)] =>
        Ok (mean4 x1 x2 x3 x4, mean4 y1 y2 y3 y4, mean4 z1 z2 z3 z4)
    | _ => Raise ValueError
    end
  end.

(** [(x2 - x1) ** 2 + (y2 - y1) ** 2 + (z2 - z1) ** 2] *)
Definition dist2 (p1 p2 : N * N * N) : N :=
  let '(x1, y1, z1) := p1 in
  let '(x2, y2, z2) := p2 in
  nadd (nadd (nsq (nsub x2 x1)) (nsq (nsub y2 y1))) (nsq (nsub z2 z1)).

(** [np.min] of a non-empty list. *)
Definition npmin_list (x : N) (l : list N) : N := foldl npmin x l.

(** [Elem.smallest_edge] (core.py 147-182), with the vertex pairs in the order in
    which the code compares them (1-2, 2-3, 3-4, 4-1, then 5-6, 6-7, 7-8, 8-5, 1-5,
    2-6, 3-7, 4-8 in 3D, where vertex 3 is pos[:, 0, 1, 0] and 4 is pos[:, 0, 1, 1]). *)
Definition smallest_edge e : res N :=
  let '(lx, ly, lz) := eshape e in
  let! p1 := point_py e 0 0 0 in
  let! p2 := point_py e 0 0 1 in
  let! p3 := point_py e 0 1 0 in
  let! p4 := point_py e 0 1 1 in
  if (1 <? lz)%nat then
    let! p5 := point_py e 1 0 0 in
    let! p6 := point_py e 1 0 1 in
    let! p7 := point_py e 1 1 0 in
    let! p8 := point_py e 1 1 1 in
    Ok (nsqrt (npmin_list (dist2 p1 p2)
      [dist2 p2 p3; dist2 p3 p4; dist2 p4 p1; dist2 p5 p6; dist2 p6 p7; dist2 p7 p8;
       dist2 p8 p5; dist2 p1 p5; dist2 p2 p6; dist2 p3 p7; dist2 p4 p8]))
  else Ok (nsqrt (npmin_list (dist2 p1 p2) [dist2 p2 p3; dist2 p3 p4; dist2 p4 p1])).

(** [enumerate(self.elem)] *)
Definition enumerate {B} (l : list B) : list (nat * B) := imap (λ i b, (i, b)) l.

(** [el.bcs[b, f]] with non-negative indices, and with a Python face index. *)
Definition ebc e (b f : nat) : res (bcrec N) :=
  of_opt IndexError (r ← bcs e !! b; r !! f).
Definition ebc_py e (b : nat) (f : Z) : res (bcrec N) :=
  of_opt IndexError (r ← bcs e !! b; py_get r f).

(** [HexaData.check_connectivity] (core.py 276-347). Log messages are dropped. *)
Definition check_face (tol : N) m (err : bool) (x : (nat * elem N) * nat * nat) : res bool :=
  let '((iel, el), ibc, iface) := x in
  let! r := ebc el ibc iface in
  if bool_decide (bt r = "E"%string ∨ bt r = "P"%string) then
    let! c := ntrunc (bp3 r) in
    let connected_iel := c - 1 in
    let! cf := ntrunc (bp4 r) in
    let connected_face := cf - 1 in
    let! fc := face_center el (Z.of_nat iface) in
    if (connected_iel <? 0) || (Z.of_nat (nel m) <=? connected_iel) then Ok true
    else
      let! el1 := of_opt IndexError (elems m !! Z.to_nat connected_iel) in
      let! r1 := ebc_py el1 ibc connected_face in
      let! iel1 := ntrunc (bp3 r1) in
      let! iface1 := ntrunc (bp4 r1) in
      let! fc1 := face_center el1 connected_face in
      if negb (bool_decide (bt r1 = bt r)) || negb (iel1 - 1 =? Z.of_nat iel)
         || negb (iface1 - 1 =? Z.of_nat iface) then Ok true
      else if bool_decide (bt r = "E"%string) then
        let dist := nsqrt (dist2 fc1 fc) in
        let! s0 := smallest_edge el in
        let! s1 := smallest_edge el1 in
        let max_dist := nmul tol (pymin s0 s1) in
        Ok (err || nltb max_dist dist)
      else Ok err
  else Ok err.

Definition check_connectivity (tol : N) m : res bool :=
  let! err := foldM (check_face tol m) false
    (prod3 (enumerate (elems m)) (range (nbc m)) (range (2 * ndim m))) in
  if err then Raise ValueError else Ok (negb err).

(** [HexaData.check_bcs_present] (core.py 349-372). *)
Definition check_bcs_present m : res bool :=
  let! ok := foldM (λ ok '((iel, el), ibc, iface),
      let! r := ebc el ibc iface in
      Ok (if String.eqb (bt r) "" then false else ok))
    true (prod3 (enumerate (elems m)) (range (nbc m)) (range (2 * ndim m))) in
  if ok then Ok ok else Raise ValueError.

(** A loop that rewrites one entry [elem[i].bcs[b, f]] per iteration, for the
    triples (i, b, f) of a list, and adds to a counter. *)
Definition upd_step (g : nat * nat * nat → bcrec N → res (bcrec N * Z))
    (s : hexa N * Z) (x : nat * nat * nat) : res (hexa N * Z) :=
  let '(i, b, f) := x in
  let! r := of_opt IndexError (get_bc (fst s) i b f) in
  let! rd := g x r in
  Ok (alter_bc (λ _, fst rd) i b f (fst s), snd s + snd rd).
Definition upd_loop g (s : hexa N * Z) (l : list (nat * nat * nat)) : res (hexa N * Z) :=
  foldM (upd_step g) s l.

(** [HexaData.offset_connectivity] (core.py 504-531). Simplification: [iel_min] is
    a non-negative integer, and the i4 index does not overflow. *)
Definition offset_bc3 (offset : Z) (iel_min : nat) (r : bcrec N) : res (bcrec N * Z) :=
  if bool_decide (bt r = "E"%string ∨ bt r = "P"%string) then
    let! k := ntrunc (bp3 r) in
    Ok (if Z.of_nat iel_min <? k then set_bp3 (nadd (bp3 r) (nofZ offset)) r else r, 0)
  else Ok (r, 0).
Definition offset_bc1 (offset : Z) (iel_min : nat) (r : bcrec N) : res (bcrec N * Z) :=
  Ok (if Z.of_nat iel_min <? bel r then set_bel (bel r + offset) r else r, 0).
Definition offset_connectivity (offset : Z) (iel_min : nat) m : res (hexa N) :=
  let! s := upd_loop (λ _, offset_bc3 offset iel_min) (m, 0)
    (prod3 (range (length (elems m))) (range (nbc m)) (range (2 * ndim m))) in
  let! s := upd_loop (λ _, offset_bc1 offset iel_min) s
    (prod3 (range2 iel_min (length (elems m))) (range (nbc m)) (range (2 * ndim m))) in
  Ok (fst s).

(** A loop whose body updates a state and may raise; the state reached is kept. *)
Fixpoint loopS {S B} (f : S → B → S * res unit) (s : S) (l : list B) : S * res unit :=
  match l with
  | [] => (s, Ok tt)
  | b :: l => match f s b with
              | (s', Ok _) => loopS f s' l
              | (s', Raise e) => (s', Raise e)
              end
  end.

(** core.py 436 and 442: may this face be connected to something? *)
Definition eligible (ignore_empty : bool) (t : string) : bool :=
  negb (String.eqb t "E") && negb (ignore_empty && String.eqb t "").

(** core.py 444-448: are the two faces at the same place? *)
Definition faces_close (tol : N) (e0 : elem N) (f0 : nat) (e1 : elem N) (f1 : nat) : res bool :=
  let! c0 := face_center e0 (Z.of_nat f0) in
  let! c1 := face_center e1 (Z.of_nat f1) in
  let dist := nsqrt (dist2 c0 c1) in
  let! s0 := smallest_edge e0 in
  let! s1 := smallest_edge e1 in
  Ok (nleb dist (nmul tol (pymin s0 s1))).

(** Assignments of type, connected element and connected face to one entry. *)
Definition link (t : string) (iel iface : Z) (r : bcrec N) : bcrec N :=
  set_bp4 (nofZ iface) (set_bp3 (nofZ iel) (set_bt t r)).

(** core.py 466-472: connect the two faces in the first [nb] fields. *)
Definition glue (nb : nat) (i0 f0 i1 f1 : nat) m : hexa N :=
  foldl (λ m b,
    alter_bc (link "E" (Z.of_nat i0 + 1) (Z.of_nat f0 + 1)) i1 b f1
      (alter_bc (link "E" (Z.of_nat i1 + 1) (Z.of_nat f1 + 1)) i0 b f0 m)) m (range nb).

(** core.py 450-464: reconnect the periodic partners of the two faces. *)
Definition relink_periodic (nb : nat) (r0 r1 : bcrec N) m : res (hexa N) :=
  let! ip0 := ntrunc (bp3 r0) in
  let! ip1 := ntrunc (bp3 r1) in
  let! fp0 := ntrunc (bp4 r0) in
  let! fp1 := ntrunc (bp4 r1) in
  match py_pos (length (elems m)) (ip0 - 1), py_pos (length (elems m)) (ip1 - 1),
        py_pos 6 (fp0 - 1), py_pos 6 (fp1 - 1) with
  | Some i0, Some i1, Some f0, Some f1 =>
      Ok (foldl (λ m b,
            alter_bc (link "P" ip0 fp0) i1 b f1 (alter_bc (link "P" ip1 fp1) i0 b f0 m))
          m (range nb))
  | _, _, _, _ => Raise IndexError
  end.

(** core.py 438-473: the inner loop of merge. *)
Definition merge_inner (tol : N) (ignore_empty : bool) (nb : nat) (bc0 : string)
    (iel0 iface0 : nat) (s : hexa N * Z) (x : nat * nat) : (hexa N * Z) * res unit :=
  let '(m, n) := s in
  let '(iel1, iface1) := x in
  match elems m !! iel0, elems m !! iel1, get_bc m iel0 0 iface0, get_bc m iel1 0 iface1 with
  | Some e0, Some e1, Some r0, Some r1 =>
    if eligible ignore_empty (bt r1) then
      match faces_close tol e0 iface0 e1 iface1 with
      | Raise ex => (s, Raise ex)
      | Ok false => (s, Ok tt)
      | Ok true =>
        match (if String.eqb bc0 "P" && String.eqb (bt r1) "P"
               then relink_periodic nb r0 r1 m else Ok m) with
        | Raise ex => (s, Raise ex)
        | Ok m1 => ((glue nb iel0 iface0 iel1 iface1 m1, n + 1), Ok tt)
        end
      end
    else (s, Ok tt)
  | _, _, _, _ => (s, Raise IndexError)
  end.

(** core.py 432-436: the outer loop of merge. *)
Definition merge_outer (tol : N) (ignore_empty : bool) (nb nel1 nfaces : nat)
    (s : hexa N * Z) (x : nat * nat) : (hexa N * Z) * res unit :=
  let '(iel0, iface0) := x in
  match get_bc (fst s) iel0 0 iface0 with
  | None => (s, Raise IndexError)
  | Some r0 =>
    if eligible ignore_empty (bt r0) then
      loopS (merge_inner tol ignore_empty nb (bt r0) iel0 iface0) s
        (prod2 (range nel1) (range nfaces))
    else (s, Ok tt)
  end.

(** core.py 410-418: append the other mesh. *)
Definition merge_append m (other : hexa N) : res (hexa N) :=
  let! add := offset_connectivity (Z.of_nat (nel m)) 0 other in
  Ok (set_elems (elems m ++ elems add)
       (set_elmap (elmap m ++ ((λ z, z + Z.of_nat (nel m)) <$> elmap other))
         (set_ncurv (ncurv m + ncurv other) (set_nel (nel m + nel other)%nat m)))).

(** [HexaData.merge] (core.py 374-476): the mesh afterwards and the result. If the
    offset of the copied mesh raises (an infinite or NaN reference), the counters of
    the mesh have already been updated in Python; the model returns the mesh before
    the call in that case. Element lists shorter than [nel] are not distinguished
    from missing entries (IndexError). *)
Definition merge (tol : N) (ignore_empty ignore_all_bcs : bool) (self other : hexa N)
    : hexa N * res Z :=
  if negb (ndim self =? ndim other)%nat then (self, Raise ValueError)
  else match lr1 self, lr1 other with
  | l1 :: _, l2 :: _ =>
    if negb (l1 =? l2)%nat then (self, Raise ValueError)
    else match merge_append self other with
    | Raise ex => (self, Raise ex)
    | Ok m =>
      let nb := Nat.min (nbc self) (nbc other) in
      if (nb =? 0)%nat || ignore_all_bcs then (m, Ok 0)
      else
        let nfaces := (2 * ndim m)%nat in
        match loopS (merge_outer tol ignore_empty nb (nel self) nfaces) (m, 0)
                (prod2 (range2 (nel self) (nel m)) (range nfaces)) with
        | ((m', n), Ok _) => (m', Ok n)
        | ((m', _), Raise ex) => (m', Raise ex)
        end
    end
  | _, _ => (self, Raise IndexError)
  end.

(** [HexaData.get_points] (core.py 478-490): for each element the list of its
    points (x, y, z). An element whose arrays have another size than lx1*ly1*lz1
    raises (ValueError), unless it has size one (numpy broadcasts). *)
Definition broadcast (n : nat) (l : list N) : res (list N) :=
  if (length l =? n)%nat then Ok l
  else match l with [x] => Ok (replicate n x) | _ => Raise ValueError end.
Definition elem_points (nxyz : nat) e : res (list (N * N * N)) :=
  match pos e with
  | [px; py; pz] =>
    let! x := broadcast nxyz px in
    let! y := broadcast nxyz py in
    let! z := broadcast nxyz pz in
    Ok (zip_with (λ '(a, b) c, (a, b, c)) (zip x y) z)
  | _ => Raise IndexError
  end.
Definition get_points m : res (list (list (N * N * N))) :=
  match lr1 m with
  | [lx; ly; lz] =>
    let nxyz := (lx * ly * lz)%nat in
    let! l := mapR (elem_points nxyz) (take (nel m) (elems m)) in
    Ok (l ++ replicate (nel m - length (elems m)) (replicate nxyz (nofZ 0, nofZ 0, nofZ 0)))
  | _ => Raise ValueError
  end.

(** [HexaData.update_ncurv] (core.py 492-502). *)
Definition update_ncurv m : res (hexa N) :=
  let! n := foldM (λ n el,
      foldM (λ n iedge,
        let! c := of_opt IndexError (ccurv el !! iedge) in
        Ok (if String.eqb c "" then n else n + 1)) n (range 12)) 0 (elems m) in
  Ok (set_ncurv n m).

(** ** DataLims (core.py 31-98) *)

(** Extrema of the five variables, by variable and component. *)
Record limdict := Lims {
  l_pos : list (N * N); l_vel : list (N * N); l_pres : list (N * N);
  l_temp : list (N * N); l_scal : list (N * N) }.

(** [arr.min((1,2,3))], [arr.max((1,2,3))] (core.py 79-83): one pair per component;
    a zero-size component raises ValueError. *)
Definition comp_lims (c : list N) : res (N * N) :=
  match c with
  | [] => Raise ValueError
  | x :: l => Ok (foldl npmin x l, foldl npmax x l)
  end.
Definition lims_per_element e : res limdict :=
  let! p := mapR comp_lims (pos e) in
  let! v := mapR comp_lims (vel e) in
  let! q := mapR comp_lims (pres e) in
  let! t := mapR comp_lims (temp e) in
  let! s := mapR comp_lims (scal e) in
  Ok (Lims p v q t s).

(** [np.minimum]/[np.maximum] of the extrema of one variable (core.py 91-97).
    Different numbers of components raise (numpy would broadcast a single one). *)
Definition join_lims (a b : list (N * N)) : res (list (N * N)) :=
  if (length a =? length b)%nat
  then Ok (zip_with (λ x y, (npmin (fst x) (fst y), npmax (snd x) (snd y))) a b)
  else Raise ValueError.
Definition join_dict (a b : limdict) : res limdict :=
  let! p := join_lims (l_pos a) (l_pos b) in
  let! v := join_lims (l_vel a) (l_vel b) in
  let! q := join_lims (l_pres a) (l_pres b) in
  let! t := join_lims (l_temp a) (l_temp b) in
  let! s := join_lims (l_scal a) (l_scal b) in
  Ok (Lims p v q t s).

(** The accumulator of [reduce] is an element or a dictionary (core.py 76-77). *)
Inductive acc := AccElem (e : elem N) | AccDict (d : limdict).
Definition acc_dict (a : acc) : res limdict :=
  match a with AccElem e => lims_per_element e | AccDict d => Ok d end.
Definition lims_aggregator (a : acc) (e : elem N) : res acc :=
  let! l1 := acc_dict a in
  let! l2 := lims_per_element e in
  let! d := join_dict l1 l2 in
  Ok (AccDict d).

(** [DataLims.__init__] (core.py 44-58): [reduce] without initial value raises
    TypeError on an empty list and returns the element itself on a single one, which
    cannot be subscripted (TypeError). *)
Definition data_lims (l : list (elem N)) : res limdict :=
  match l with
  | [] => Raise TypeError
  | e :: l =>
    let! a := foldM lims_aggregator (AccElem e) l in
    match a with
    | AccElem _ => Raise TypeError
    | AccDict d => Ok d
    end
  end.
(** [HexaData.lims] (core.py 272-274). *)
Definition lims m : res limdict := data_lims (elems m).

End Core.
Arguments limdict : clear implicits.

(** Attribute assignment on a [DataLims] object (core.py 68-72): the object is its
    attribute dictionary; [_initialized] is one of the attributes. [del] is Python's
    default [__delattr__], which the class does not override. *)
Inductive aval (N : Type) := AvLims (l : list (N * N)) | AvBool (b : bool) | AvNames (l : list string).
Arguments AvLims {N}. Arguments AvBool {N}. Arguments AvNames {N}.
Definition obj (N : Type) := list (string * aval N).
Fixpoint attr {N} (o : obj N) (s : string) : option (aval N) :=
  match o with
  | [] => None
  | (k, v) :: o => if String.eqb k s then Some v else attr o s
  end.
Fixpoint put_attr {N} (o : obj N) (s : string) (v : aval N) : obj N :=
  match o with
  | [] => [(s, v)]
  | (k, w) :: o => if String.eqb k s then (k, v) :: o else (k, w) :: put_attr o s v
  end.
Definition setattr {N} (o : obj N) (s : string) (v : aval N) : obj N * res unit :=
  match attr o "_initialized" with
  | Some (AvBool true) => (o, Raise AttributeError)
  | _ => (put_attr o s v, Ok tt)
  end.
Definition delattr {N} (o : obj N) (s : string) : obj N * res unit :=
  match attr o s with
  | None => (o, Raise AttributeError)
  | Some _ => (filter (λ kv, kv.1 ≠ s) o, Ok tt)
  end.
(** The object constructed by [DataLims.__init__] (core.py 45-58). *)
Definition lims_object {A : arith} (d : limdict A) : res (obj (num A)) :=
  let step (o : obj (num A)) kv := let '(k, v) := kv in
    match setattr o k v with (o', Ok _) => Ok o' | (_, Raise e) => Raise e end in
  foldM step [] [("_variables"%string, AvNames ["pos"; "vel"; "pres"; "temp"; "scal"]%string);
    ("pos"%string, AvLims (l_pos d)); ("vel"%string, AvLims (l_vel d));
    ("pres"%string, AvLims (l_pres d)); ("temp"%string, AvLims (l_temp d));
    ("scal"%string, AvLims (l_scal d)); ("_initialized"%string, AvBool true)].
