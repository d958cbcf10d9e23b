(** Proofs about [extrude_mid]: the vertices of the six elements and the faces they share. *)
From Coq Require Import Lia.
From Verif Require Import Base Mesh Core Tools Curve Mid MeshLemmas MeshSpec CheckProofs OpsProofs GeoLaws BoxProofs
  ExtrudeSpec ExtrudeProofs MidSpec MidProofs MidBlock MidMesh.
Open Scope Z_scope.

Section geo.
Context {A : arith}.
Notation N := (num A).
Notation vec := (vec (A:=A)).
Implicit Types (e : elem N) (r : bcrec N).

Definition zat (p : vec) (h : N) : vec := (fst (fst p), snd (fst p), h).
(** The middle of the cut side at a corner, from the middles of the two cut sides. *)
Definition side_mid (lo hi : list (nat * nat)) (m0 m1 : vec) (c : nat * nat) : vec :=
  if bool_decide (lo !! 0%nat = Some c ∨ hi !! 0%nat = Some c) then m0 else m1.
Definition vtx e (lo hi : list (nat * nat)) (m0 m1 : vec) (zz : nat → N) (n level : nat) (c : nat * nat) : vec :=
  let '(at_cut, h) := place n level (bool_decide (c ∈ lo)) in
  zat (if at_cut then side_mid lo hi m0 m1 c else corner e c) (zz h).
Lemma six_point e lo hi m0 m1 zz n x l j i : (lo, hi) ∈ cuts → six_of e lo hi m0 m1 zz !! n = Some x →
  (l < 2)%nat → (j < 2)%nat → (i < 2)%nat → point x l j i = Some (vtx e lo hi m0 m1 zz n l (j, i)).
Proof.
  intros Hc Hx Hl Hj Hi. unfold six_of, mid_six in Hx. rewrite list_lookup_fmap in Hx. unfold cuts in Hc. rewrite !elem_of_cons, elem_of_nil in Hc.
  unfold vtx, zat.
  destruct n as [|[|[|[|[|[|n]]]]]]; cbn [lookup list_lookup fmap option_fmap option_map] in Hx; try done; apply (inj Some) in Hx as <-;
  rewrite mid_pos_point by done; f_equal;
  (destruct l as [|[|]]; [| |lia]); (destruct j as [|[|]]; [| |lia]); (destruct i as [|[|]]; [| |lia]);
  destruct Hc as [Hc|[Hc|[Hc|[Hc|[]]]]]; injection Hc as -> ->;
  cbn -[corner bool_decide]; unfold mid_at; cbn -[corner];
  repeat match goal with |- context [corner e ?c] => let p := fresh "p" in set (p := corner e c); destruct p as [[? ?] ?] end;
  destruct m0 as [[? ?] ?]; destruct m1 as [[? ?] ?]; reflexivity.
Qed.
End geo.
