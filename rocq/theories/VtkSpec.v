(** What [hexa2vtk] should produce. *)
From Coq Require Import Lia.
From Verif Require Import Base Mesh Field Vtk.
Open Scope Z_scope.

(** The points that are kept in one direction of [l] points: all, or the two ends. *)
Definition kept (ds : bool) (l : nat) : nat := if ds then 2%nat else l.
Definition kept_at (ds : bool) (l i : nat) : nat := if ds then (i * (l - 1))%nat else i.
(** The number of the point (kx, ky, kz) of element [iel]. *)
Definition point_no (n : nat * nat * nat) (iel kz ky kx : nat) : nat :=
  let '(nx, ny, nz) := n in (iel * (nx * ny * nz) + ((kz * ny + ky) * nx + kx))%nat.
(** The corners of a cell, in the order of VTK: around the lower face, then around the upper face. *)
Definition hex_corners : list (nat * nat * nat) :=
  [(0, 0, 0); (1, 0, 0); (1, 1, 0); (0, 1, 0); (0, 0, 1); (1, 0, 1); (1, 1, 1); (0, 1, 1)]%nat.
Definition corner_points (n : nat * nat * nat) (iel kz ky kx : nat) : list nat :=
  (λ '(dx, dy, dz), point_no n iel (kz + dz) (ky + dy) (kx + dx)) <$> hex_corners.
(** The values of field [k] at one point. *)
Definition value_at {N} (e : elem N) (k : fkind) (kz ky kx : nat) : list N :=
  omap (λ a, a !! flat (eshape e) kz ky kx) (get_f k e).
(** Three-dimensional fields with positions and consistent arrays. *)
Record vtk_mesh {N} (m : hexa N) (lx ly lz vu vp vt vs : nat) : Prop := {
  vm_lr1 : lr1 m = [lx; ly; lz]; vm_size : (2 <= lx ∧ 2 <= ly ∧ 2 <= lz)%nat; vm_dim : ndim m = 3%nat;
  vm_var : var m = [3; vu; vp; vt; vs]%nat;
  vm_vars : (vu = 0 ∨ vu = 3)%nat ∧ (vp <= 1)%nat ∧ (vt <= 1)%nat;
  vm_nel : length (elems m) = nel m;
  vm_elems : Forall (λ e, eshape e = (lx, ly, lz) ∧
    ∀ k, Forall (λ a, length a = (lz * ly * lx)%nat) (get_f k e) ∧
         length (get_f k e) = match k with FPos | FVel => 3%nat | FPres => vp | FTemp => vt | FScal => vs end) (elems m) }.
(** Row [point_no ...] of an array holds field [k] at every point that is kept; [None] if the field is absent. *)
Definition rows_hold {N} (ds : bool) (m : hexa N) (lx ly lz : nat) (k : fkind) (w : nat) (a : option (list (list N))) : Prop :=
  match w with
  | O => a = None
  | _ => ∃ rows, a = Some rows ∧ ∀ iel e kz ky kx, elems m !! iel = Some e →
      (kz < kept ds lz)%nat → (ky < kept ds ly)%nat → (kx < kept ds lx)%nat →
      ∃ row, rows !! point_no (kept ds lx, kept ds ly, kept ds lz) iel kz ky kx = Some row ∧ length row = w ∧
        row = value_at e k (kept_at ds lz kz) (kept_at ds ly ky) (kept_at ds lx kx)
  end.
