(** The data structures of /repo/src/pymech/core.py. *)
From Verif Require Import Base.
From Coq Require Import Lia.

(** One entry of [Elem.bcs] (core.py 135-137): type (U3), element and face number
    (i4, i4), five parameters. *)
Record bcrec (N : Type) := Bc {
  bt : string; bel : Z; bface : Z;
  bp3 : N; bp4 : N; bp5 : N; bp6 : N; bp7 : N
}.
Arguments Bc {N}. Arguments bt {N}. Arguments bel {N}. Arguments bface {N}.
Arguments bp3 {N}. Arguments bp4 {N}. Arguments bp5 {N}. Arguments bp6 {N}. Arguments bp7 {N}.

(** [Elem] (core.py 102-137). A numpy array of shape (n, lz, ly, lx) is a list of
    [n] components, each a list of lz*ly*lx numbers in C order; the common
    (lx, ly, lz) is kept in [eshape]. [curv] is the list of the 12 rows of 5
    numbers; [ccurv] the 12 strings; [bcs] is indexed by field, then by face. *)
Record elem (N : Type) := Elem {
  eshape : nat * nat * nat;
  pos : list (list N); vel : list (list N); pres : list (list N);
  temp : list (list N); scal : list (list N);
  curv : list (list N); ccurv : list string;
  bcs : list (list (bcrec N))
}.
Arguments Elem {N}. Arguments eshape {N}. Arguments pos {N}. Arguments vel {N}.
Arguments pres {N}. Arguments temp {N}. Arguments scal {N}. Arguments curv {N}.
Arguments ccurv {N}. Arguments bcs {N}.

(** Python distinguishes [[2, 2, 1]] from [(2, 2, 1)] in comparisons; both kinds
    occur as [lr1] (readnek makes tuples, readre2 lists). *)
Inductive seqkind := PyList | PyTuple.
#[global] Instance seqkind_eq_dec : EqDecision seqkind.
Proof. solve_decision. Defined.

(** [HexaData] (core.py 231-250). [elem] is the list [elems]; [nel] is the stored
    counter, which is not necessarily the length of the list. *)
Record hexa (N : Type) := Hexa {
  ndim : nat; nel : nat; ncurv : Z; nbc : nat;
  var : list nat; lr1kind : seqkind; lr1 : list nat;
  time : N; istep : Z; wdsz : Z; endian : string;
  elems : list (elem N); elmap : list Z
}.
Arguments Hexa {N}. Arguments ndim {N}. Arguments nel {N}. Arguments ncurv {N}.
Arguments nbc {N}. Arguments var {N}. Arguments lr1kind {N}. Arguments lr1 {N}.
Arguments time {N}. Arguments istep {N}. Arguments wdsz {N}. Arguments endian {N}.
Arguments elems {N}. Arguments elmap {N}.

(** Functional updates (Python attribute assignments). *)
Section Setters.
Context {N : Type}.
Implicit Types (m : hexa N) (e : elem N) (b : bcrec N).

Definition set_bt (t : string) b := Bc t (bel b) (bface b) (bp3 b) (bp4 b) (bp5 b) (bp6 b) (bp7 b).
Definition set_bel (z : Z) b := Bc (bt b) z (bface b) (bp3 b) (bp4 b) (bp5 b) (bp6 b) (bp7 b).
Definition set_bface (z : Z) b := Bc (bt b) (bel b) z (bp3 b) (bp4 b) (bp5 b) (bp6 b) (bp7 b).
Definition set_bp3 (x : N) b := Bc (bt b) (bel b) (bface b) x (bp4 b) (bp5 b) (bp6 b) (bp7 b).
Definition set_bp4 (x : N) b := Bc (bt b) (bel b) (bface b) (bp3 b) x (bp5 b) (bp6 b) (bp7 b).

Definition set_pos v e := Elem (eshape e) v (vel e) (pres e) (temp e) (scal e) (curv e) (ccurv e) (bcs e).
Definition set_curv v e := Elem (eshape e) (pos e) (vel e) (pres e) (temp e) (scal e) v (ccurv e) (bcs e).
Definition set_ccurv v e := Elem (eshape e) (pos e) (vel e) (pres e) (temp e) (scal e) (curv e) v (bcs e).
Definition set_bcs v e := Elem (eshape e) (pos e) (vel e) (pres e) (temp e) (scal e) (curv e) (ccurv e) v.

Definition set_elems v m := Hexa (ndim m) (nel m) (ncurv m) (nbc m) (var m) (lr1kind m) (lr1 m)
  (time m) (istep m) (wdsz m) (endian m) v (elmap m).
Definition set_nel v m := Hexa (ndim m) v (ncurv m) (nbc m) (var m) (lr1kind m) (lr1 m)
  (time m) (istep m) (wdsz m) (endian m) (elems m) (elmap m).
Definition set_ncurv v m := Hexa (ndim m) (nel m) v (nbc m) (var m) (lr1kind m) (lr1 m)
  (time m) (istep m) (wdsz m) (endian m) (elems m) (elmap m).
Definition set_elmap v m := Hexa (ndim m) (nel m) (ncurv m) (nbc m) (var m) (lr1kind m) (lr1 m)
  (time m) (istep m) (wdsz m) (endian m) (elems m) v.

(** [self.elem[i].bcs[b, f]] and assignment into it. An assignment outside the
    arrays (IndexError in Python) is the identity here; every use in the model is
    guarded, or shown to be in range by the well-formedness predicate. *)
Definition get_bc m (i b f : nat) : option (bcrec N) :=
  e ← elems m !! i; r ← bcs e !! b; r !! f.
Definition alter_bcs (g : bcrec N → bcrec N) (b f : nat) (l : list (list (bcrec N))) :=
  alter (alter g f) b l.
Definition alter_ebc (g : bcrec N → bcrec N) (b f : nat) e := set_bcs (alter_bcs g b f (bcs e)) e.
Definition alter_bc (g : bcrec N → bcrec N) (i b f : nat) m :=
  set_elems (alter (alter_ebc g b f) i (elems m)) m.
End Setters.
Arguments get_bc : simpl never.
Arguments alter_bc : simpl never.

(** numpy's U3 assignment: at most three characters are kept, and trailing NULs
    are not part of the value. *)
Fixpoint strip_nul_tail (l : list Ascii.ascii) : list Ascii.ascii :=
  match l with
  | [] => []
  | c :: l => match strip_nul_tail l with
              | [] => if Ascii.eqb c Ascii.zero then [] else [c]
              | l' => c :: l'
              end
  end.
Definition u3 (s : string) : string :=
  String.string_of_list_ascii (strip_nul_tail (take 3 (String.list_ascii_of_string s))).

(** [Elem.__init__] (core.py 120-137); [z] is the zero of the array type. *)
Definition zero_bc {N} (z : N) : bcrec N := Bc "" 0 0 z z z z z.
Definition zarr {N} (z : N) (n : nat) (lr1 : nat * nat * nat) : list (list N) :=
  let '(lx, ly, lz) := lr1 in replicate n (replicate (lz * ly * lx) z).
Definition new_elem {N} (z : N) (var : list nat) (lr1 : nat * nat * nat) (nbc : nat) : elem N :=
  Elem lr1 (zarr z 3 lr1) (zarr z 3 lr1)
    (zarr z (nth 2 var 0%nat) lr1) (zarr z (nth 3 var 0%nat) lr1) (zarr z (nth 4 var 0%nat) lr1)
    (replicate 12 (replicate 5 z)) (replicate 12 EmptyString)
    (replicate nbc (replicate 6 (zero_bc z))).

(** [HexaData.__init__] (core.py 234-250); [byteorder] is [sys.byteorder]. The
    element map is 1, 2, ..., nel (core.py 250). *)
Definition lr1_triple (l : list nat) : nat * nat * nat :=
  (nth 0 l 0%nat, nth 1 l 0%nat, nth 2 l 0%nat).
Definition new_hexa {N} (z : N) (byteorder : string) (ndim nel : nat) (kind : seqkind)
    (lr1 : list nat) (var : list nat) (nbc : nat) : hexa N :=
  Hexa ndim nel 0 nbc var kind lr1 z 0 8 byteorder
    (replicate nel (new_elem z var (lr1_triple lr1) nbc))
    ((λ i, Z.of_nat i + 1) <$> range nel).

(** The coordinates [pos[:, kz, ky, kx]] of one point, with Python's negative
    indices already resolved by the caller. *)
Definition flat (sh : nat * nat * nat) (kz ky kx : nat) : nat :=
  let '(lx, ly, lz) := sh in ((kz * ly + ky) * lx + kx)%nat.
Definition point {N} (e : elem N) (kz ky kx : nat) : option (N * N * N) :=
  let '(lx, ly, lz) := eshape e in
  if (kz <? lz)%nat && (ky <? ly)%nat && (kx <? lx)%nat then
    let p := flat (eshape e) kz ky kx in
    x ← pos e !! 0%nat ≫= (.!! p);
    y ← pos e !! 1%nat ≫= (.!! p);
    z ← pos e !! 2%nat ≫= (.!! p);
    Some (x, y, z)
  else None.
