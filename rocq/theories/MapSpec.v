(** The contents of a partition map and its file. *)
From Coq Require Import Lia Ascii.
From Verif Require Import Base Float Mesh Bytes Text Field Map.
Open Scope Z_scope.

Definition int32 (z : Z) : Prop := - 2 ^ 31 <= z < 2 ^ 31.
(** Each element has a rank and its vertices. *)
Definition ma2_records (nv : nat) (recs : list (Z * list Z)) : Prop :=
  Forall (λ '(rank, vs), int32 rank ∧ Forall int32 vs ∧ length vs = nv) recs.
(** The header: 132 bytes whose second and sixth words are the number of elements and of vertices. *)
Definition ma2_header (h : bytes) (ne nv : nat) : Prop :=
  length h = 132%nat ∧ split h !! 1%nat = Some (dec_int (Z.of_nat ne)) ∧
  split h !! 5%nat = Some (dec_int (Z.of_nat (ne * nv))).
(** 6.54321 as a float32. *)
Definition tag_bytes (o : order) : bytes := f32_bytes o (narrow tag64).
Definition ma2_file (o : order) (h : bytes) (recs : list (Z * list Z)) : bytes :=
  h ++ tag_bytes o ++ (recs ≫= λ '(rank, vs), (rank :: vs) ≫= i32_bytes o).
