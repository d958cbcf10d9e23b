(** What generate_internal_bcs is expected to do. Independent of its model. *)
From Verif Require Import Base Mesh Core MeshSpec.
From Coq Require Import Lia.

Section Spec.
Context {A : arith}.
Notation N := (num A).
Implicit Types (m : hexa N) (e : elem N) (r : bcrec N).

(** A face of the mesh whose condition in the first field is empty. *)
Definition open_face m (i f : nat) : Prop :=
  (i < nel m ∧ f < 2 * ndim m)%nat ∧ ∃ r, get_bc m i 0 f = Some r ∧ bt r = ""%string.

(** The centres of the faces are within [tol] times the smaller scale. *)
Definition close_faces (tol : N) m (i f j g : nat) : Prop :=
  ∃ e e' c c' s s', elems m !! i = Some e ∧ elems m !! j = Some e' ∧
    face_center e (Z.of_nat f) = Ok c ∧ face_center e' (Z.of_nat g) = Ok c' ∧
    smallest_edge e = Ok s ∧ smallest_edge e' = Ok s' ∧
    nleb (nsqrt (dist2 c c')) (nmul tol (pymin s s')) = true.

(** A matching of the open faces: each face has at most one partner, which is an open face of
    another element, close to it, and has it as its partner. *)
Definition matching (tol : N) m (p : nat → nat → option (nat * nat)) : Prop :=
  ∀ i f j g, p i f = Some (j, g) →
    p j g = Some (i, f) ∧ i ≠ j ∧ open_face m i f ∧ open_face m j g ∧
    ((i < j)%nat → close_faces tol m i f j g).

(** Number of connections of a matching. *)
Definition forward (p : nat → nat → option (nat * nat)) (x : nat * nat) : bool :=
  match p x.1 x.2 with Some (j, _) => (x.1 <? j)%nat | None => false end.
Definition connections m p : nat :=
  length (List.filter (forward p) (prod2 (range (nel m)) (range (2 * ndim m)))).

(** The entry of a face connected to (j, g). *)
Definition connected_entry (i f j g : nat) r r' : Prop :=
  bt r' = "E"%string ∧ bel r' = Z.of_nat i + 1 ∧ bface r' = Z.of_nat f + 1 ∧ points r' j g ∧
  bp5 r' = bp5 r ∧ bp6 r' = bp6 r ∧ bp7 r' = bp7 r.

(** [m'] is [m] with the faces of the matching connected in all the fields. *)
Definition is_connected m p m' : Prop :=
  same_but_bcs m m' ∧
  ∀ i b f r, get_bc m i b f = Some r →
    ∃ r', get_bc m' i b f = Some r' ∧
      match p i f with Some (j, g) => connected_entry i f j g r r' | None => r' = r end.

(** No two open faces of different elements are left that could be connected. *)
Definition complete (tol : N) m (p : nat → nat → option (nat * nat)) : Prop :=
  ∀ i f j g, (i < j)%nat → open_face m i f → open_face m j g → p i f = None → p j g = None →
    ¬ close_faces tol m i f j g.
End Spec.
