(** What a regular box is expected to look like. Independent of the model of gen_box. *)
From Verif Require Import Base Mesh Core MeshSpec.
From Coq Require Import Lia.

(** Conditions of the four sides in one field: bottom (y min), right (x max), top (y max),
    left (x min). *)
Record sides := Sides { s_bottom : string; s_right : string; s_top : string; s_left : string }.

(** The condition of face [f] of cell (i, j) of an nx x ny grid, and the face on the other side
    of it: cell coordinates and face number. Faces are 0 bottom, 1 right, 2 top, 3 left; on
    the boundary of the box "the other side" is the opposite end of the row or column. *)
Definition cell_face (nx ny : nat) (s : sides) (i j f : nat) : string * (nat * nat * nat) :=
  match f with
  | 0 => if decide (j = 0) then (s_bottom s, (i, ny - 1, 2)) else ("E"%string, (i, j - 1, 2))
  | 1 => if decide (i = nx - 1) then (s_right s, (0, j, 3)) else ("E"%string, (i + 1, j, 3))
  | 2 => if decide (j = ny - 1) then (s_top s, (i, 0, 0)) else ("E"%string, (i, j + 1, 0))
  | _ => if decide (i = 0) then (s_left s, (nx - 1, j, 1)) else ("E"%string, (i - 1, j, 1))
  end%nat.
(** The faces of the cell that lie on the boundary of the box. *)
Definition on_boundary (nx ny i j f : nat) : Prop :=
  match f with
  | 0 => j = 0 | 1 => i = nx - 1 | 2 => j = ny - 1 | _ => i = 0
  end%nat.

(** A condition that a user may give for a side: at most three characters, not empty, and not
    the internal condition. *)
Definition side_condition (c : string) : Prop := u3 c = c ∧ c ≠ "E"%string ∧ c ≠ ""%string.
Definition sides_ok (s : sides) : Prop :=
  side_condition (s_bottom s) ∧ side_condition (s_right s) ∧
  side_condition (s_top s) ∧ side_condition (s_left s) ∧
  (s_bottom s = "P"%string ↔ s_top s = "P"%string) ∧
  (s_left s = "P"%string ↔ s_right s = "P"%string).

(** The conditions of field [b] given by the four lists. *)
Definition sides_of (xmin xmax ymin ymax : list string) (b : nat) : option sides :=
  match xmin !! b, xmax !! b, ymin !! b, ymax !! b with
  | Some l, Some r, Some bo, Some t => Some (Sides bo r t l)
  | _, _, _, _ => None
  end.

Section Spec.
Context {A : arith}.
Notation N := (num A).

(** The [k]-th of the n+1 grid coordinates, as computed: lo + len*k/n. *)
Definition grid_coord (lo hi : N) (n k : nat) : N :=
  nadd lo (ndiv (nmul (nsub hi lo) (nofZ (Z.of_nat k))) (nofZ (Z.of_nat n))).

(** Element [e] is the cell [x0, x1] x [y0, y1] at z = 0: four vertices, x running fastest. *)
Definition is_cell (e : elem N) (x0 x1 y0 y1 : N) : Prop :=
  eshape e = (2, 2, 1)%nat ∧
  pos e = [[x0; x1; x0; x1]; [y0; y0; y1; y1]; [nofZ 0; nofZ 0; nofZ 0; nofZ 0]] ∧
  ccurv e = replicate 12 ""%string.

(** The mesh is the nx x ny grid: element i + nx*j is the cell (i, j). *)
Definition is_grid (nx ny : nat) (xmin xmax ymin ymax : N) (m : hexa N) : Prop :=
  ndim m = 2%nat ∧ nel m = (nx * ny)%nat ∧ length (elems m) = (nx * ny)%nat ∧ ncurv m = 0 ∧
  elmap m = (λ k, Z.of_nat k + 1) <$> seq 0 (nx * ny) ∧
  ∀ i j, (i < nx)%nat → (j < ny)%nat → ∃ e, elems m !! (i + nx * j)%nat = Some e ∧
    is_cell e (grid_coord xmin xmax nx i) (grid_coord xmin xmax nx (i + 1))
              (grid_coord ymin ymax ny j) (grid_coord ymin ymax ny (j + 1)).

(** Entry of face [f] of cell (i, j): condition, own numbers, and for internal and periodic
    conditions the face on the other side. *)
Definition is_cell_bc (nx ny : nat) (s : sides) (i j f : nat) (r : bcrec N) : Prop :=
  let '(t, (i', j', f')) := cell_face nx ny s i j f in
  bt r = t ∧ bel r = Z.of_nat (i + nx * j) + 1 ∧ bface r = Z.of_nat f + 1 ∧
  (is_conn t → points r (i' + nx * j')%nat f').
End Spec.
