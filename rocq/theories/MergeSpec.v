(** What merge is expected to do. Independent of its model. *)
From Verif Require Import Base Mesh Core MeshSpec.
From Coq Require Import Lia.

Section Spec.
Context {A : arith}.
Notation N := (num A).
Implicit Types (m : hexa N) (e : elem N) (r : bcrec N) (x y z w : nat * nat).

(** Everything but the boundary conditions of an element: geometry, curvature, fields. *)
Definition same_elem e e' : Prop := set_bcs [] e' = set_bcs [] e.

(** [m'] has the elements of [self] followed by those of [other]. *)
Definition is_append (self other m' : hexa N) : Prop :=
  nel m' = (nel self + nel other)%nat ∧ ncurv m' = ncurv self + ncurv other ∧
  elmap m' = elmap self ++ ((λ k, k + Z.of_nat (nel self)) <$> elmap other) ∧
  set_elmap [] (set_ncurv 0 (set_nel 0 (set_elems [] m'))) =
    set_elmap [] (set_ncurv 0 (set_nel 0 (set_elems [] self))) ∧
  ∃ l1 l2, elems m' = l1 ++ l2 ∧ Forall2 same_elem (elems self) l1 ∧ Forall2 same_elem (elems other) l2.

(** Every connected entry names a face of the mesh (which need not name it back). *)
Definition conn_refs m : Prop :=
  ∀ i b f r, in_mesh m i b f → get_bc m i b f = Some r → is_conn (bt r) → ∃ j g, in_mesh m j b g ∧ points r j g.

(** A face that may be glued: its condition in the first field is not internal and, if empty
    conditions are ignored, not empty. A face is a pair (element, face). *)
Definition free_face (ignore_empty : bool) m x : Prop :=
  (x.1 < nel m ∧ x.2 < 2 * ndim m)%nat ∧
  ∃ r, get_bc m x.1 0 x.2 = Some r ∧ bt r ≠ "E"%string ∧ (ignore_empty = true → bt r ≠ ""%string).

(** Face [x] of [other] is at the same place as face [y] of [self]. *)
Definition touching (tol : N) self other x y : Prop :=
  ∃ e e' c c' s s', elems other !! x.1 = Some e ∧ elems self !! y.1 = Some e' ∧
    face_center e (Z.of_nat x.2) = Ok c ∧ face_center e' (Z.of_nat y.2) = Ok c' ∧
    smallest_edge e = Ok s ∧ smallest_edge e' = Ok s' ∧
    nleb (nsqrt (dist2 c c')) (nmul tol (pymin s s')) = true.
Definition contact (tol : N) (ignore_empty : bool) self other x y : Prop :=
  free_face ignore_empty other x ∧ free_face ignore_empty self y ∧ touching tol self other x y.

(** Each face meets at most one face. *)
Definition unique_contacts tol ie self other : Prop :=
  (∀ x y y', contact tol ie self other x y → contact tol ie self other x y' → y = y') ∧
  (∀ x x' y, contact tol ie self other x y → contact tol ie self other x' y → x = x').
Definition periodic m x : Prop := ∃ r, get_bc m x.1 0 x.2 = Some r ∧ bt r = "P"%string.
Definition periodic_meets_periodic tol ie self other : Prop :=
  ∀ x y, contact tol ie self other x y → periodic other x ↔ periodic self y.

(** The connections are the same in all the fields, and no periodic face is its own partner. *)
Definition uniform m : Prop :=
  ∀ i b f r r0, in_mesh m i b f → get_bc m i b f = Some r → get_bc m i 0 f = Some r0 →
    is_conn (bt r) ∨ is_conn (bt r0) → bt r = bt r0 ∧ bp3 r = bp3 r0 ∧ bp4 r = bp4 r0.
Definition no_self_partner m : Prop :=
  ∀ x r, in_mesh m x.1 0 x.2 → get_bc m x.1 0 x.2 = Some r → bt r = "P"%string → ¬ points r x.1 x.2.

(** A mesh with consistent connectivity; two meshes that can be merged. *)
Definition connected_mesh m : Prop := wf_mesh m ∧ paired m ∧ uniform m ∧ no_self_partner m.
Definition compatible (bnd : Z) (self other : hexa N) : Prop :=
  ndim self = ndim other ∧ head (lr1 self) = head (lr1 other) ∧ is_Some (head (lr1 self)) ∧
  nbc self = nbc other ∧ Z.of_nat (nel self + nel other) <= bnd ∧ 6 <= bnd.

(** Face [x] carries type [t] and names face [y], in field [b]. *)
Definition linked m (b : nat) x (t : string) y : Prop :=
  ∃ r, get_bc m x.1 b x.2 = Some r ∧ bt r = t ∧ points r y.1 y.2.
(** The number of face [x] of the second mesh in the merged mesh. *)
Definition shifted (n : nat) x : nat * nat := ((n + x.1)%nat, x.2).

(** An entry of the second mesh after its references have been shifted by [n]. *)
Definition shifted_entry (n : nat) r r' : Prop :=
  bt r' = bt r ∧ bface r' = bface r ∧ bp4 r' = bp4 r ∧ bp5 r' = bp5 r ∧ bp6 r' = bp6 r ∧ bp7 r' = bp7 r ∧
  (is_conn (bt r) → ∃ j g, points r j g ∧ points r' (n + j) g) ∧ (¬ is_conn (bt r) → bp3 r' = bp3 r).

(** Partners of periodic conditions in the given meshes, with the numbers of the merged mesh. *)
Definition partners self other z w : Prop :=
  (in_mesh self z.1 0 z.2 ∧ in_mesh self w.1 0 w.2 ∧ linked self 0 z "P" w) ∨
  ∃ x y, in_mesh other x.1 0 x.2 ∧ in_mesh other y.1 0 y.2 ∧ z = shifted (nel self) x ∧ w = shifted (nel self) y ∧ linked other 0 x "P" y.
(** The two faces of a contact, in any order. *)
Definition in_contact (n : nat) (C : list ((nat * nat) * (nat * nat))) z w : Prop :=
  ∃ x y, (x, y) ∈ C ∧ ((z, w) = (shifted n x, y) ∨ (z, w) = (y, shifted n x)).
(** Go to the partner; if it has been glued to a face, go on to the partner of that one, and so on. *)
Inductive leads (partner contact : nat * nat → nat * nat → Prop) : nat * nat → nat * nat → Prop :=
| leads_partner z w : partner z w → leads partner contact z w
| leads_on z u v w : partner z u → contact u v → leads partner contact v w → leads partner contact z w.
(** Where [z] leads to, if that is not glued. *)
Definition leads_to_end self other (C : list ((nat * nat) * (nat * nat))) z w : Prop :=
  leads (partners self other) (in_contact (nel self) C) z w ∧ ∀ v, ¬ in_contact (nel self) C w v.

(** The contacts are glued in all the fields; the entries of the faces that are neither glued nor
    periodic are those of the given meshes; an unglued periodic face remains periodic, and its new partner is the face
    that it leads to over the glued periodic faces. *)
Definition is_glued tol ie (self other m' : hexa N) (n : Z) : Prop :=
  ∃ C : list ((nat * nat) * (nat * nat)), NoDup C ∧ n = Z.of_nat (length C) ∧
    (∀ x y, (x, y) ∈ C ↔ contact tol ie self other x y) ∧
    (∀ x y b, (x, y) ∈ C → (b < nbc m')%nat →
       linked m' b (shifted (nel self) x) "E" y ∧ linked m' b y "E" (shifted (nel self) x)) ∧
    (∀ y b r, (∀ x, (x, y) ∉ C) → get_bc self y.1 b y.2 = Some r → ¬ periodic self y →
       get_bc m' y.1 b y.2 = Some r) ∧
    (∀ x b r, (∀ y, (x, y) ∉ C) → in_mesh other x.1 b x.2 → get_bc other x.1 b x.2 = Some r → ¬ periodic other x →
       ∃ r', get_bc m' (nel self + x.1) b x.2 = Some r' ∧ shifted_entry (nel self) r r' ∧
         (is_conn (bt r) → ∀ j g, (j < nel other)%nat → points r j g → points r' (nel self + j) g)) ∧
    (∀ y, (∀ x, (x, y) ∉ C) → periodic self y → in_mesh self y.1 0 y.2 →
       ∃ w, leads_to_end self other C y w ∧ ∀ b, (b < nbc m')%nat → linked m' b y "P" w) ∧
    (∀ x, (∀ y, (x, y) ∉ C) → periodic other x → in_mesh other x.1 0 x.2 →
       ∃ w, leads_to_end self other C (shifted (nel self) x) w ∧ ∀ b, (b < nbc m')%nat → linked m' b (shifted (nel self) x) "P" w).
(** An entry that merging meshes has changed: the face is connected to a face at the same place, or there were periodic faces
    and it is one of them now. *)
Definition some_periodic m : Prop := ∃ i b f r, get_bc m i b f = Some r ∧ bt r = "P"%string.
Definition changed_entry tol (periodics : Prop) m (b : nat) x r : Prop :=
  (bt r = "E"%string ∧ ∃ y, in_mesh m y.1 b y.2 ∧ points r y.1 y.2 ∧ (touching tol m m x y ∨ touching tol m m y x)) ∨
  (bt r = "P"%string ∧ periodics).
(** Nothing but the element numbers differs. *)
Definition same_but_numbers r r' : Prop := set_bp3 (nofZ 0) (set_bel 0 r') = set_bp3 (nofZ 0) (set_bel 0 r).
End Spec.
