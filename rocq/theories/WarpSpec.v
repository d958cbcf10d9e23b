(** Meshes whose connected sides have the same ends (C80). *)
From Verif Require Import Base Mesh Core MeshSpec.
From Coq Require Import Lia.

Section Spec.
Context {A : arith}.
Notation N := (num A).
Implicit Types (m : hexa N) (e : elem N).

(** The two ends of a side of a 2D element, as (row, column): sides 0 and 2 follow the first direction, 1 and 3 the second. *)
Definition side_points (f : nat) : (nat * nat) * (nat * nat) :=
  match f with
  | 0 => ((0, 0), (0, 1)) | 1 => ((0, 1), (1, 1)) | 2 => ((1, 0), (1, 1)) | _ => ((0, 0), (1, 0))
  end%nat.
Definition first_end e f : option (N * N * N) := let '((a, b), _) := side_points f in point e 0 a b.
Definition second_end e f : option (N * N * N) := let '(_, (a, b)) := side_points f in point e 0 a b.
(** The two sides run along each other: they have the same ends, in the same order. *)
Definition along e (f : nat) e' (g : nat) : Prop := first_end e f = first_end e' g ∧ second_end e f = second_end e' g.
(** They have the same ends, in one order or the other. *)
Definition along_or_against e (f : nat) e' (g : nat) : Prop :=
  along e f e' g ∨ first_end e f = second_end e' g ∧ second_end e f = first_end e' g.

(** Every internal side and the side it names have the same ends. *)
Definition joined (P : elem N → nat → elem N → nat → Prop) m : Prop :=
  ∀ i b f r j g e e', in_mesh m i b f → get_bc m i b f = Some r → bt r = "E"%string →
    in_mesh m j b g → points r j g → elems m !! i = Some e → elems m !! j = Some e' → P e f e' g.
End Spec.
