(** Specification vocabulary for meshes. It only mentions the fields of the data
    structures and the results of [face_center] and [smallest_edge]. *)
From Verif Require Import Base Mesh Core.
From Coq Require Import Lia.

Section Spec.
Context {A : arith}.
Notation N := (num A).
Implicit Types (m : hexa N) (e : elem N) (r : bcrec N).

(** Conditions that refer to another face: internal and periodic. *)
Definition is_conn (t : string) : Prop := t = "E"%string ∨ t = "P"%string.

(** The arrays have the sizes announced by the counters. *)
Definition wf_bcs m : Prop :=
  (ndim m = 2%nat ∨ ndim m = 3%nat) ∧ length (elems m) = nel m ∧
  ∀ e, e ∈ elems m → length (bcs e) = nbc m ∧ ∀ row, row ∈ bcs e → length row = 6%nat.
Definition wf_geom_elem e : Prop :=
  ∃ lx ly lz, eshape e = (lx, ly, lz) ∧ (2 ≤ lx ∧ 2 ≤ ly ∧ 1 ≤ lz)%nat ∧
    length (pos e) = 3%nat ∧ ∀ c, c ∈ pos e → length c = (lz * ly * lx)%nat.
Definition wf_mesh m : Prop := wf_bcs m ∧ ∀ e, e ∈ elems m → wf_geom_elem e.

Definition in_mesh m (i b f : nat) : Prop := (i < nel m ∧ b < nbc m ∧ f < 2 * ndim m)%nat.

(** The entry names element [j] and face [g] (the file format counts from 1). *)
Definition names r (j g : nat) : Prop :=
  ntrunc (bp3 r) = Ok (Z.of_nat j + 1) ∧ ntrunc (bp4 r) = Ok (Z.of_nat g + 1).
(** The same, with the numbers stored exactly. *)
Definition points r (j g : nat) : Prop :=
  bp3 r = nofZ (Z.of_nat j + 1) ∧ bp4 r = nofZ (Z.of_nat g + 1).

(** The centres of the two faces are within [tol] times the smaller of the two
    element scales. *)
Definition same_place (tol : N) m (i f j g : nat) : Prop :=
  ∃ e e' c c' s s',
    elems m !! i = Some e ∧ elems m !! j = Some e' ∧
    face_center e (Z.of_nat f) = Ok c ∧ face_center e' (Z.of_nat g) = Ok c' ∧
    smallest_edge e = Ok s ∧ smallest_edge e' = Ok s' ∧
    nltb (nmul tol (pymin s s')) (nsqrt (dist2 c' c)) = false.

(** Valid connectivity: every internal or periodic face names an existing face that
    carries the same condition and names it in return; internal faces coincide. *)
Definition valid_connectivity (tol : N) m : Prop :=
  ∀ i b f r, in_mesh m i b f → get_bc m i b f = Some r → is_conn (bt r) →
  ∃ j g r', (j < nel m ∧ g < 6)%nat ∧ names r j g ∧
    get_bc m j b g = Some r' ∧ bt r' = bt r ∧ names r' i f ∧
    (bt r = "E"%string → same_place tol m i f j g).

(** Valid connectivity without the geometric part, with exact numbers: the
    connected faces are paired. *)
Definition paired m : Prop :=
  ∀ i b f r, in_mesh m i b f → get_bc m i b f = Some r → is_conn (bt r) →
  ∃ j g r', in_mesh m j b g ∧ points r j g ∧
    get_bc m j b g = Some r' ∧ bt r' = bt r ∧ points r' i f.

(** The boundary condition entries of two meshes have the same layout, and everything
    else in the two meshes is the same. *)
Definition same_but_bcs m m' : Prop :=
  set_elems [] m' = set_elems [] m ∧
  Forall2 (λ e e', set_bcs [] e' = set_bcs [] e ∧
    Forall2 (λ row row' : list (bcrec N), length row' = length row) (bcs e) (bcs e'))
    (elems m) (elems m').
(** What is expected of one entry of the mesh after a shift by [offset] above [k];
    integers up to [bnd] are stored exactly. *)
Definition offset_entry (bnd offset : Z) (k : nat) m (i b f : nat) r r' : Prop :=
  bt r' = bt r ∧ bface r' = bface r ∧ bp4 r' = bp4 r ∧ bp5 r' = bp5 r ∧ bp6 r' = bp6 r ∧
  bp7 r' = bp7 r ∧
  (in_mesh m i b f ∧ is_conn (bt r) → ∀ z, Z.abs z <= bnd → bp3 r = nofZ z →
     bp3 r' = nofZ (if bool_decide (Z.of_nat k < z) then z + offset else z)) ∧
  (¬ (in_mesh m i b f ∧ is_conn (bt r)) → bp3 r' = bp3 r) ∧
  bel r' = (if bool_decide (in_mesh m i b f ∧ (k ≤ i)%nat ∧ Z.of_nat k < bel r)
            then bel r + offset else bel r).

(** The references of the connected faces are stored exactly, before and after. *)
Definition refs_within (bnd : Z) (offset : Z) (k : nat) m : Prop :=
  Z.abs offset <= bnd ∧
  ∀ i b f r, in_mesh m i b f → get_bc m i b f = Some r → is_conn (bt r) →
    ∃ z, bp3 r = nofZ z ∧ Z.abs z <= bnd ∧ (Z.of_nat k < z → Z.abs (z + offset) <= bnd).

(** The number of entries that satisfy a test, over all elements, fields and faces. *)
Definition count_bcs (p : bcrec N → bool) m : Z :=
  Z.of_nat (length (List.filter p (elems m ≫= (λ e, bcs e ≫= id)))).


End Spec.
