(** Model of the shared default argument of gen_box (meshtools.py 1363) and gen_circle (1529):
    [var=[2, 2, 1, 0, 0]] is one list object, created when the module is loaded; a mesh built
    with the default keeps a reference to that object ([self.var = var], core.py 239).

    A process state maps object numbers to list contents. Object [default_var] is the default
    argument of gen_box. A mesh handle is the mesh and the object that holds its [var]. *)
From Verif Require Import Base Mesh Core Tools.
From Coq Require Import Lia.

Section Defaults.
Context {A : arith}.
Notation N := (num A).

Definition heap := list (list nat).
Definition default_var : nat := 0.
(** The state after [import pymech.meshtools] (meshtools.py 1363). *)
Definition heap0 : heap := [[2; 2; 1; 0; 0]%nat].

Record handle := Handle { h_mesh : hexa N; h_var : nat }.

(** A call of gen_box without [var] and with default boundary conditions (meshtools.py
    1356-1516). *)
Definition gen_box_default (h : heap) (byteorder : string) (nx ny : nat) (xmin xmax ymin ymax : N)
    : res handle :=
  let! v := of_opt IndexError (h !! default_var) in
  let! m := gen_box byteorder nx ny xmin xmax ymin ymax v None None None None true in
  Ok (Handle m default_var).

(** What a caller can do to the [var] list of a mesh it holds: [mesh.var[k] = n] changes the
    object; [mesh.var = l] makes a new object. *)
Inductive var_op := SetItem (k : nat) (n : nat) | Rebind (l : list nat).
Definition do_op (s : heap * handle) (o : var_op) : heap * handle :=
  let '(h, d) := s in
  match o with
  | SetItem k n => (alter (<[k := n]>) (h_var d) h, d)
  | Rebind l => (h ++ [l], Handle (h_mesh d) (length h))
  end.
Definition do_ops (s : heap * handle) (l : list var_op) : heap * handle := foldl do_op s l.
End Defaults.
Arguments handle : clear implicits.
