(** Common vocabulary of the model: Python exceptions as values, Python
    indexing, loops as folds, and the record of arithmetic operations over which
    the mesh code is generic.

    Models no particular function of /repo; it models the parts of Python and
    numpy that the functions of /repo/src/pymech use. *)
From stdpp Require Export base list list_numbers option strings sets.
From Coq Require Export ZArith.
From Coq Require Import Lia.
Export ListNotations.
Open Scope Z_scope.

(** Exceptions raised by the modelled code (Python built-in exception names;
    [StructError] is [struct.error], [OSError] is also [IOError]). *)
Inductive exn :=
  | ValueError | IndexError | TypeError | KeyError | AttributeError
  | StructError | OSError | OverflowError | UnboundLocalError
  | ZeroDivisionError | NotImplementedError | UnicodeError.

Inductive res (A : Type) :=
  | Ok (a : A)
  | Raise (e : exn).
Arguments Ok {A} a.
Arguments Raise {A} e.

Definition rbind {A B} (x : res A) (f : A → res B) : res B :=
  match x with Ok a => f a | Raise e => Raise e end.
Notation "'let!' x := e1 'in' e2" := (rbind e1 (λ x, e2))
  (at level 200, x pattern, e1 at level 200, e2 at level 200, right associativity).
Definition rmap {A B} (f : A → B) (x : res A) : res B :=
  match x with Ok a => Ok (f a) | Raise e => Raise e end.
Definition of_opt {A} (e : exn) (o : option A) : res A :=
  match o with Some a => Ok a | None => Raise e end.

(** [for a in l: s = f(s, a)], stopping at the first exception. *)
Fixpoint foldM {S A} (f : S → A → res S) (s : S) (l : list A) : res S :=
  match l with
  | [] => Ok s
  | a :: l => let! s' := f s a in foldM f s' l
  end.

(** [[f(a) for a in l]], stopping at the first exception. *)
Fixpoint mapR {A B} (f : A → res B) (l : list A) : res (list B) :=
  match l with
  | [] => Ok []
  | a :: l => let! b := f a in let! bs := mapR f l in Ok (b :: bs)
  end.

(** [range(n)] and [range(a, b)]. *)
Definition range (n : nat) : list nat := seq 0 n.
Definition range2 (a b : nat) : list nat := seq a (b - a).

(** [itertools.product(l1, l2)]: the rightmost iterable varies fastest. *)
Definition prod2 {A B} (l1 : list A) (l2 : list B) : list (A * B) :=
  l1 ≫= λ a, (λ b, (a, b)) <$> l2.
Definition prod3 {A B C} (l1 : list A) (l2 : list B) (l3 : list C) : list (A * B * C) :=
  l1 ≫= λ a, l2 ≫= λ b, (λ c, (a, b, c)) <$> l3.

(** Python subscript with a possibly negative index: the position it denotes. *)
Definition py_pos (len : nat) (i : Z) : option nat :=
  if (0 <=? i) && (i <? Z.of_nat len) then Some (Z.to_nat i)
  else if (- Z.of_nat len <=? i) && (i <? 0) then Some (Z.to_nat (Z.of_nat len + i))
  else None.
Definition py_get {A} (l : list A) (i : Z) : option A :=
  p ← py_pos (length l) i; l !! p.

(** Arithmetic on the numbers stored in a mesh. Instances: binary64 (numpy's
    float64) and the real numbers. [ntrunc] is Python's [int(x)] on a float;
    [nisnan] lets minimum/maximum propagate NaN the way numpy does. *)
Record arith := Arith {
  num : Type;
  nofZ : Z → num;
  nadd : num → num → num;
  nsub : num → num → num;
  nmul : num → num → num;
  ndiv : num → num → num;
  nopp : num → num;
  nabs : num → num;
  nsqrt : num → num;
  nltb : num → num → bool;
  nleb : num → num → bool;
  neqb : num → num → bool;
  nisnan : num → bool;
  ntrunc : num → res Z
}.
Arguments nofZ {a}. Arguments nadd {a}. Arguments nsub {a}. Arguments nmul {a}.
Arguments ndiv {a}. Arguments nopp {a}. Arguments nabs {a}. Arguments nsqrt {a}.
Arguments nltb {a}. Arguments nleb {a}. Arguments neqb {a}. Arguments nisnan {a}.
Arguments ntrunc {a}.

(** A decimal literal such as [0.25] or [1e-3], given as a fraction of two
    integers that are exact in the arithmetic. *)
Definition nlit {A : arith} (p q : Z) : num A := ndiv (nofZ p) (nofZ q).
(** [x ** 2] *)
Definition nsq {A : arith} (x : num A) : num A := nmul x x.
(** Python's [min(a, b)]. *)
Definition pymin {A : arith} (a b : num A) : num A := if nltb b a then b else a.
(** [np.minimum] / [np.maximum] of two scalars: NaN wins. *)
Definition npmin {A : arith} (a b : num A) : num A :=
  if nisnan a then a else if nisnan b then b else if nltb b a then b else a.
Definition npmax {A : arith} (a b : num A) : num A :=
  if nisnan a then a else if nisnan b then b else if nltb a b then b else a.

(** The laws the index-level theorems need: integers of absolute value at most
    [bnd] are stored exactly. Both instances are proved to satisfy them. *)
Record arith_laws (A : arith) (bnd : Z) : Prop := {
  law_trunc : ∀ z, Z.abs z <= bnd → ntrunc (nofZ (a:=A) z) = Ok z;
  law_add : ∀ x y, Z.abs x <= bnd → Z.abs y <= bnd → Z.abs (x + y) <= bnd →
    nadd (nofZ (a:=A) x) (nofZ y) = nofZ (x + y);
  law_sub : ∀ x y, Z.abs x <= bnd → Z.abs y <= bnd → Z.abs (x - y) <= bnd →
    nsub (nofZ (a:=A) x) (nofZ y) = nofZ (x - y)
}.
