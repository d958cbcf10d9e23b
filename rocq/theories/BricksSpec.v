(** A box of bricks (C77): the regular grid of BoxSpec swept through given positions z.
    Independent of the models of gen_box and extrude. *)
From Verif Require Import Base Mesh Core MeshSpec BoxSpec.
From Coq Require Import Lia.

Section Spec.
Context {A : arith}.
Notation N := (num A).

(** The element is the brick [x0, x1] x [y0, y1] x [z0, z1] with straight edges. *)
Definition is_brick (e : elem N) (x0 x1 y0 y1 z0 z1 : N) : Prop :=
  eshape e = (2, 2, 2)%nat ∧ ccurv e = replicate 12 ""%string ∧
  ∀ kz ky kx, (kz < 2)%nat → (ky < 2)%nat → (kx < 2)%nat →
    point e kz ky kx = Some (if decide (kx = 0%nat) then x0 else x1, if decide (ky = 0%nat) then y0 else y1,
                             if decide (kz = 0%nat) then z0 else z1).

(** The number of brick (i, j, k): x runs fastest, then y, then z. *)
Definition brick (nx ny i j k : nat) : nat := (i + nx * j + nx * ny * k)%nat.

Definition is_bricks (nx ny : nat) (xmin xmax ymin ymax : N) (z : list N) (m : hexa N) : Prop :=
  let nz := (length z - 1)%nat in
  ndim m = 3%nat ∧ nel m = (nx * ny * nz)%nat ∧ length (elems m) = (nx * ny * nz)%nat ∧ ncurv m = 0 ∧
  ∀ i j k z0 z1, (i < nx)%nat → (j < ny)%nat → z !! k = Some z0 → z !! (k + 1)%nat = Some z1 →
    ∃ e, elems m !! brick nx ny i j k = Some e ∧
      is_brick e (grid_coord xmin xmax nx i) (grid_coord xmin xmax nx (i + 1))
                 (grid_coord ymin ymax ny j) (grid_coord ymin ymax ny (j + 1)) z0 z1.

(** The condition of face [f] of brick (i, j, k) and the face on the other side of it; faces 0 to 3
    are those of the cells, 4 is the bottom (z0) and 5 the top (z1). [c1] and [c2] are the
    conditions of the two ends. *)
Definition brick_face (nx ny nz : nat) (s : sides) (c1 c2 : string) (i j k f : nat) : string * (nat * nat * nat * nat) :=
  match f with
  | 4 => if decide (k = 0) then (c1, (i, j, nz - 1, 5)) else ("E"%string, (i, j, k - 1, 5))
  | 5 => if decide (k = nz - 1) then (c2, (i, j, 0, 4)) else ("E"%string, (i, j, k + 1, 4))
  | _ => let '(t, (i', j', f')) := cell_face nx ny s i j f in (t, (i', j', k, f'))
  end%nat.
Definition is_brick_bc (nx ny nz : nat) (s : sides) (c1 c2 : string) (i j k f : nat) (r : bcrec N) : Prop :=
  let '(t, (i', j', k', f')) := brick_face nx ny nz s c1 c2 i j k f in
  bt r = t ∧ bel r = Z.of_nat (brick nx ny i j k) + 1 ∧ bface r = Z.of_nat f + 1 ∧
  (is_conn t → points r (brick nx ny i' j' k') f').
End Spec.
