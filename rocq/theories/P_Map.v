(** Theorems about partition maps: C18. *)
From Coq Require Import Lia Ascii Reals.
From Verif Require Import Base Float FloatLaws Mesh Bytes BytesProofs Text TextProofs Field Map MapSpec MapProofs.
Open Scope Z_scope.

(** ** C18 *)
(** The vertices and the ranks come back as the float64 numbers of the same value, in either byte order,
    and whatever follows them in the file. *)
Theorem C18_readma2 o h nv recs rest : (0 < length recs)%nat →
  Z.of_nat (length recs) <= 2 ^ 53 → Z.of_nat (length recs * nv) <= 2 ^ 53 →
  ma2_header h (length recs) nv → ma2_records nv recs →
  ∃ cell procmap, readma2 (ma2_file o h recs ++ rest) = Ok (cell, procmap) ∧
    length cell = length recs ∧ length procmap = length recs ∧
    ∀ iel rank vs, recs !! iel = Some (rank, vs) →
      procmap !! iel = Some (f64_of_Z rank) ∧ cell !! iel = Some (f64_of_Z <$> vs).
Proof.
  intros H1 H2 H3 H4 H5. do 2 eexists. split; [by apply (readma2_ok o h nv recs rest)|].
  split; [apply fmap_length|]. split; [apply fmap_length|]. intros iel rank vs Hr. by rewrite !list_lookup_fmap, Hr.
Qed.
Print Assumptions C18_readma2.
(** The numbers are stored exactly. *)
Theorem C18_exact z z' : int32 z → int32 z' → f64_of_Z z = f64_of_Z z' → z = z'.
Proof.
  intros H H' E. destruct (f64_of_Z_correct z) as (X & _); [unfold bnd64, int32 in *; lia|].
  destruct (f64_of_Z_correct z') as (Y & _); [unfold bnd64, int32 in *; lia|].
  rewrite E, Y in X. by apply eq_IZR in X.
Qed.
Print Assumptions C18_exact.
(** A file that ends too early is rejected. *)
Theorem C18_torn o h nv recs n : (0 < length recs)%nat →
  Z.of_nat (length recs) <= 2 ^ 53 → Z.of_nat (length recs * nv) <= 2 ^ 53 →
  ma2_header h (length recs) nv → ma2_records nv recs → (n < length (ma2_file o h recs))%nat →
  ∃ x, readma2 (take n (ma2_file o h recs)) = Raise x.
Proof. apply readma2_torn. Qed.
Print Assumptions C18_torn.
(** A map of two elements with four vertices each. *)
Definition sample_map : list (Z * list Z) := [(0, [1; 2; 3; 4]); (1, [2; 5; 4; -6])].
Definition sample_header : bytes := ljust 132 (str "#v001         2         2         1         2         8         6         0").
Example C18_sample : (0 < length sample_map)%nat ∧ ma2_header sample_header (length sample_map) 4 ∧ ma2_records 4 sample_map.
Proof.
  split; [cbn; lia|]. split.
  - split; [vm_compute; reflexivity|]. split; vm_compute; reflexivity.
  - unfold sample_map, ma2_records, int32. repeat (apply List.Forall_cons; [split; [lia|]; split; [|done]; repeat (apply List.Forall_cons; [lia|]); apply List.Forall_nil|]).
    apply List.Forall_nil.
Qed.
