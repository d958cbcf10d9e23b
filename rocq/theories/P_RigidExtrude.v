(** C83: rotating commutes with extruding and with keeping elements, over the real numbers. *)
From Coq Require Import Lia Reals Lra.
From Verif Require Import Base Mesh Core Tools Float FloatLaws MeshLemmas MeshSpec CurveSpec CurveProofs Rigid P_Rigid RigidExtrude.
Open Scope Z_scope.

(** Doing [f] after the rotation gives what the rotation gives after [f]; if one raises, the other raises the same exception. *)
Definition commutes_with (theta x0 y0 : R) (f : hexa (num AR) → res (hexa (num AR))) (m m' : hexa (num AR)) : Prop :=
  match f m with
  | Ok t => ∃ t', f m' = Ok t' ∧ rotated theta x0 y0 t = Ok t'
  | Raise e => f m' = Raise e
  end.
Lemma both_commutes_with theta x0 y0 f m m' : both (turned_mesh theta) (f m) (f m') → commutes_with theta x0 y0 f m m'.
Proof.
  unfold both, commutes_with. destruct (f m) as [t|e], (f m') as [t'|e']; try done; [|by intros ->]. intros H. exists t'.
  split; [done|]. exact (turned_rotate theta x0 y0 _ _ H).
Qed.

(** extrude: any layers, any conditions at the two ends, with or without internal connections. *)
Theorem C83_extrude theta x0 y0 (m m' : hexa (num AR)) z bc1 bc2 internal_bcs : complete m → (∀ e, e ∈ elems m → eshape e = (2, 2, 1)%nat) →
  rotated theta x0 y0 m = Ok m' → commutes_with theta x0 y0 (λ m, extrude (A:=AR) m z bc1 bc2 internal_bcs) m m'.
Proof. intros W Hs H. apply both_commutes_with, extrude_turned; [exact (rotate_turned theta x0 y0 m m' W H)|done]. Qed.
Print Assumptions C83_extrude.

(** keep_elements: any elements, any condition for the new boundary. *)
Theorem C83_keep theta x0 y0 (m m' : hexa (num AR)) els ext : complete m →
  rotated theta x0 y0 m = Ok m' → commutes_with theta x0 y0 (λ m, keep_elements (A:=AR) m els ext) m m'.
Proof. intros W H. apply both_commutes_with, keep_turned. exact (rotate_turned theta x0 y0 m m' W H). Qed.
Print Assumptions C83_keep.

(** Two connected squares and a third one apart, each with a midpoint edge and an arc. *)
Definition link_to {N} (zero e f : N) : bcrec N := Bc "E" 1 1 e f zero zero zero.
Definition wall {N} (zero : N) : bcrec N := Bc "W" 1 1 zero zero zero zero zero.
Definition square {N} (n : nat → N) (tip : N) (a b : nat) (row : list (bcrec N)) : elem N :=
  Elem (2, 2, 1)%nat [[n a; n b; n a; n b]; [n 0; n 0; n 1; n 1]; [n 0; n 0; n 0; n 0]]%nat [] [] [] []
    ([[tip; n 0; n 0; n 0; n 0]; [n 2; n 0; n 0; n 0; n 0]]%nat ++ replicate 10 (replicate 5 (n 0%nat))) ("m"%string :: "C"%string :: replicate 10 ""%string) [row].
Definition three {N} (n : nat → N) (tip : N) : hexa N :=
  let w := wall (n 0%nat) in let l e f := link_to (n 0%nat) (n e) (n f) in
  Hexa 2 3 6 1 [2; 0; 0; 0; 0]%nat PyList [2; 2; 1]%nat (n 0%nat) 0 8 "little"
    [square n tip 0 1 [w; l 2%nat 4%nat; w; w; w; w]; square n tip 1 2 [w; w; w; l 1%nat 2%nat; w; w]; square n tip 5 6 [w; w; w; w; w; w]] [1; 2; 3].
Definition threeR : hexa (num AR) := three INR (1 / 2)%R.
Example C83_sample theta : complete threeR ∧ (∀ e, e ∈ elems threeR → eshape e = (2, 2, 1)%nat) ∧ ∃ m', rotated theta 0 0 threeR = Ok m'.
Proof.
  assert (complete threeR) as W.
  { intros e He. unfold threeR, three in He. cbn [elems] in He. rewrite !elem_of_cons, elem_of_nil in He.
    destruct He as [->|[->|[->|[]]]]; (split; [exists 2%nat, 2%nat, 1%nat; split; [done|]; split; [lia|]; split; [done|]; intros c Hc; cbn [pos square] in Hc; rewrite !elem_of_cons, elem_of_nil in Hc; by destruct Hc as [->|[->|[->|[]]]]|]);
      (split; [done|]; split; [|done]; cbn; repeat constructor). }
  assert (∀ e, e ∈ elems threeR → eshape e = (2, 2, 1)%nat) as S.
  { intros e He. unfold threeR, three in He. cbn [elems] in He. rewrite !elem_of_cons, elem_of_nil in He. by destruct He as [->|[->|[->|[]]]]. }
  split; [exact W|]. split; [exact S|].
  exact (complete_rotated theta 0 0 threeR W).
Qed.
