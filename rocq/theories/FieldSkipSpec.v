(** Which variables may be left out of a file that holds part of the elements (C06). *)
From Verif Require Import Base Mesh Field FieldSpec.

(** The variables are stored in the order position, velocity, pressure, temperature, scalars, and
    the scalars one after the other. No variable is read after a quantity that is left out: one of
    which every component is named, or a scalar that is named. [count] is how many components the
    file has of each. *)
Definition nothing_after (s : list string) (count : fkind → nat) : Prop :=
  (∀ k k' c', (kidx k < kidx k')%nat → (0 < count k)%nat → (∀ c, (c < count k)%nat → named s k c) → (c' < count k')%nat → named s k' c') ∧
  (∀ c c', (c < c')%nat → (c' < count FScal)%nat → named s FScal c → named s FScal c').

