(** xarray datasets: [can_open_nek_dataset], [open_dataset], [_open_nek_dataset] and [_NekDataStore] of
    /repo/src/pymech/dataset.py. What xarray makes of the elements' variables ([combine_by_coords]) is not modelled. *)
From Coq Require Import Lia Ascii.
From Flocq Require Import Core.Core IEEE754.BinarySingleNaN IEEE754.Binary IEEE754.Bits.
From Verif Require Import Base Float Mesh Bytes Text Field Re2.
Open Scope Z_scope.

(** ** The name of the file (dataset.py 17-58) *)
(** A path is the list of the code points of [str(path)]; [decimal] says which code points are matched by [\d]. *)
Definition path : Type := list Z.
Definition ascii_path (s : string) : path := (λ c, Z.of_N (N_of_ascii c)) <$> String.list_ascii_of_string s.
Section match_path.
Context (decimal : Z → bool).
(** [s] without the text [t] at its beginning. *)
Fixpoint after_prefix (t s : path) : option path :=
  match t, s with
  | [], _ => Some s
  | a :: t, b :: s => if a =? b then after_prefix t s else None
  | _ :: _, [] => None
  end.
(** [\.f(\d{5}|ld)] at the beginning of [s]. *)
Definition nek_ext (s : path) : bool :=
  match after_prefix (ascii_path ".f") s with
  | None => false
  | Some t => (length (take 5 t) =? 5)%nat && forallb decimal (take 5 t) ||
              match after_prefix (ascii_path "ld") t with Some _ => true | None => false end
  end.
(** [nek_ext_pattern.match(str(path))]: [.*] stops at the end of a line, and nothing asks for the end of the text. *)
Fixpoint can_open (s : path) : bool :=
  nek_ext s || match s with c :: s => if c =? 10 then false else can_open s | [] => false end.
End match_path.

(** ** Coordinates of one element (dataset.py 136-145) *)
(** [np.round(x, 8)]: multiply, round to an integer, divide. *)
Definition f64_rint (x : f64) : f64 := Bnearbyint 53 1024 _ unop_nan_pl64 mode_NE x.
Definition np_round8 (x : f64) : f64 :=
  b64_div mode_NE (f64_rint (b64_mult mode_NE x (f64_of_Z (10 ^ 8)))) (f64_of_Z (10 ^ 8)).
(** A stable sort of values with their places, and the first of each run of equal values: [np.unique] with
    [return_index]. Simplification: NaN, which numpy sorts to the end, is not treated specially. *)
Fixpoint insert_sorted (p : f64 * nat) (l : list (f64 * nat)) : list (f64 * nat) :=
  match l with [] => [p] | q :: l' => if f64_ltb q.1 p.1 then q :: insert_sorted p l' else p :: l end.
Definition sorted_places (l : list f64) : list (f64 * nat) := foldr insert_sorted [] (imap (λ i x, (x, i)) l).
Fixpoint skip_equal (prev : f64) (l : list (f64 * nat)) : list (f64 * nat) :=
  match l with [] => [] | p :: l => if f64_eqb p.1 prev then skip_equal p.1 l else p :: skip_equal p.1 l end.
Definition firsts (l : list (f64 * nat)) : list (f64 * nat) := match l with [] => [] | p :: l => p :: skip_equal p.1 l end.
Definition meshgrid_to_dim (mesh : list f64) : list f64 :=
  (λ p, nth p.2 mesh z64) <$> firsts (sorted_places (np_round8 <$> mesh)).

(** ** Variables of one element (dataset.py 159-193) *)
Record dset := Dset { ds_x : list f64; ds_y : list f64; ds_z : list f64; ds_vars : list (string * list f64) }.
(** ["s{:02d}".format(i + 1)] *)
Definition scalar_name (i : nat) : string := String.string_of_list_ascii ("s"%char :: dec_pad0 2 (Z.of_nat i + 1)).
(** [elem.pres.size] *)
Definition has_size {N} (sh : nat * nat * nat) (a : list (list N)) : bool :=
  let '(lx, ly, lz) := sh in negb (length a * (lz * ly * lx) =? 0)%nat.
(** xarray raises ValueError when a coordinate does not have as many values as the arrays in its direction, and
    [_open_nek_dataset] turns that into NotImplementedError (dataset.py 75-88). *)
Definition elem_dset (e : elem f64) : res dset :=
  let '(lx, ly, lz) := eshape e in
  let get k i := of_opt IndexError (get_f k e !! i) in
  let! px := get FPos 0%nat in let! py := get FPos 1%nat in let! pz := get FPos 2%nat in
  let! ux := get FVel 0%nat in let! uy := get FVel 1%nat in let! uz := get FVel 2%nat in
  let x := meshgrid_to_dim px in let y := meshgrid_to_dim py in let z := meshgrid_to_dim pz in
  if negb ((length x =? lx) && (length y =? ly) && (length z =? lz))%nat then Raise NotImplementedError else
  Ok (Dset x y z ([("xmesh", px); ("ymesh", py); ("zmesh", pz); ("ux", ux); ("uy", uy); ("uz", uz)]%string ++
    (if has_size (eshape e) (pres e) then [("pressure"%string, nth 0 (pres e) [])] else []) ++
    (if has_size (eshape e) (temp e) then [("temperature"%string, nth 0 (temp e) [])] else []) ++
    (if has_size (eshape e) (scal e) then imap (λ i a, (scalar_name i, a)) (scal e) else []))).
(** ** [open_dataset] (dataset.py 43-58, 70-100): one dataset for each element, and the time. *)
Definition elem64 (e : elem fval) : elem f64 :=
  let f := fmap (fmap (M:=list) to64) in
  Elem (eshape e) (f (pos e)) (f (vel e)) (f (pres e)) (f (temp e)) (f (scal e)) (f (curv e)) (ccurv e) [].
Definition open_dataset (decimal : Z → bool) (native : order) (p : path) (file : bytes) : res (list dset * f64) :=
  if negb (can_open decimal p) then Raise NotImplementedError else
  let! m := readnek native D64 [] file in
  let! l := mapR elem_dset (elem64 <$> elems m) in
  Ok (l, to64 (time m)).
