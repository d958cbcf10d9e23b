(** What an extruded mesh is expected to look like. Independent of the model of extrude. *)
From Verif Require Import Base Mesh Core MeshSpec.
From Coq Require Import Lia.

Section Spec.
Context {A : arith}.
Notation N := (num A).
Implicit Types (m : hexa N) (e : elem N) (r : bcrec N).

(** A linear 2D mesh: every element has four vertices. *)
Definition linear2d m : Prop :=
  ndim m = 2%nat ∧ lr1kind m = PyList ∧ lr1 m = [2;2;1]%nat ∧
  (∃ v0 rest, var m = v0 :: rest ∧ (2 ≤ v0)%nat) ∧
  ∀ e, e ∈ elems m → eshape e = (2, 2, 1)%nat ∧ length (ccurv e) = 12%nat ∧ length (curv e) = 12%nat.

(** Element [e] is the element [e2] of the 2D mesh swept from z1 to z2: vertices and edges.
    Edges 0-3 of [e] are those of [e2] at z1, edges 4-7 those at z2; the stored midpoint of an
    'm' edge gets the z of its end; edges 8-11 are unchanged. *)
Definition edge_row (t : string) (z : N) (row : list N) : list N :=
  if String.eqb t "m" then <[2%nat := z]> row else row.
Definition is_slab e2 (z1 z2 : N) e : Prop :=
  eshape e = (2, 2, 2)%nat ∧ length (pos e) = 3%nat ∧
  (∀ ky kx x y z, point e2 0 ky kx = Some (x, y, z) →
     point e 0 ky kx = Some (x, y, z1) ∧ point e 1 ky kx = Some (x, y, z2)) ∧
  (∀ c t row, (c < 4)%nat → ccurv e2 !! c = Some t → curv e2 !! c = Some row →
     ccurv e !! c = Some t ∧ curv e !! c = Some (edge_row t z1 row) ∧
     ccurv e !! (c + 4)%nat = Some t ∧ curv e !! (c + 4)%nat = Some (edge_row t z2 row)) ∧
  (∀ c, (8 ≤ c)%nat → ccurv e !! c = ccurv e2 !! c ∧ curv e !! c = curv e2 !! c).

(** The mesh [m3] is [m] swept through the positions z: element i + nel*k is element i of [m]
    between z_k and z_{k+1}. *)
Definition is_stack m (z : list N) m3 : Prop :=
  let nz := (length z - 1)%nat in
  ndim m3 = 3%nat ∧ nel m3 = (nel m * nz)%nat ∧ length (elems m3) = nel m3 ∧
  lr1 m3 = [2;2;2]%nat ∧ nbc m3 = nbc m ∧ ncurv m3 = 2 * Z.of_nat nz * ncurv m ∧
  ∀ k i e2 z1 z2, z !! k = Some z1 → z !! (k + 1)%nat = Some z2 → elems m !! i = Some e2 →
    ∃ e, elems m3 !! (i + nel m * k)%nat = Some e ∧ is_slab e2 z1 z2 e.

(** Side faces of layer k repeat the conditions of the 2D mesh, referring to the same layer; the
    rest of the entry is that of the 2D mesh. *)
Definition side_entry m (k i b f : nat) r' : Prop :=
  ∃ r, get_bc m i b f = Some r ∧ bt r' = bt r ∧
    bel r' = Z.of_nat (i + nel m * k) + 1 ∧
    (∀ j g, (j < nel m)%nat → is_conn (bt r) → points r j g → points r' (j + nel m * k)%nat g) ∧
    bface r' = bface r ∧ bp4 r' = bp4 r ∧ bp5 r' = bp5 r ∧ bp6 r' = bp6 r ∧ bp7 r' = bp7 r ∧
    (¬ is_conn (bt r) → bp3 r' = bp3 r).
(** Faces 4 (bottom) and 5 (top): internal between layers, the given conditions at the ends,
    which refer to each other when periodic. *)
Definition end_entry (n nz k : nat) (c1 c2 : string) (i f : nat) r' : Prop :=
  bel r' = Z.of_nat (i + n * k) + 1 ∧ bface r' = Z.of_nat f + 1 ∧
  if decide (f = 4%nat) then
    if decide (k = 0%nat) then bt r' = c1 ∧ (c1 = "P"%string → points r' (i + n * (nz - 1)) 5)
    else bt r' = "E"%string ∧ points r' (i + n * (k - 1)) 5
  else
    if decide (k = nz - 1)%nat then bt r' = c2 ∧ (c2 = "P"%string → points r' i 4)
    else bt r' = "E"%string ∧ points r' (i + n * (k + 1)) 4.

(** The connected faces of internal conditions are at exactly the same place. *)
Definition coincident m : Prop :=
  ∀ i b f r j g e e', in_mesh m i b f → get_bc m i b f = Some r → bt r = "E"%string →
    in_mesh m j b g → points r j g → elems m !! i = Some e → elems m !! j = Some e' →
    face_center e (Z.of_nat f) = face_center e' (Z.of_nat g).

(** Conditions a user may give for an end. *)
Definition end_condition (c : string) : Prop := u3 c = c ∧ c ≠ "E"%string.
(** The conditions given for an end in each field; a missing list means periodic. *)
Definition conditions_given (nb : nat) (o : option (list string)) (c : nat → string) : Prop :=
  length (default (replicate nb "P"%string) o) = nb ∧
  ∀ b, (b < nb)%nat → default (replicate nb "P"%string) o !! b = Some (c b).
(** The number of curved edges of a mesh. *)
Definition curved_edges (e : elem N) : nat := length (List.filter (λ c, negb (String.eqb c "")) (ccurv e)).
Definition curved_total m : Z := Z.of_nat (sum_list_with curved_edges (elems m)).
End Spec.
