(** A boolean well-formedness check, used only to show that example data sets meet the hypotheses. *)
From Verif Require Import Base Num ModelCommon Spec F64 ProofData Decide.

Definition wf_datasetb {P : platform} (nc nt : nat) (d : dataset) : bool :=
  negb (length (feature_rows d) =? 0) &&
  (length (labels d) =? length (feature_rows d)) &&
  forallb (fun r : list F => length r =? nc) (feature_rows d) &&
  forallb (fun r : list F => length r =? nt) (labels d) &&
  beq (create_feature_columns (feature_rows d)) (Ok (feature_columns d)) &&
  forallb (forallb (fun x => fleb x x)) (feature_rows d) &&
  (N.of_nat nc <=? 2 ^ 32)%N.

Lemma wf_datasetb_ok {P : platform} nc nt d : wf_datasetb nc nt d = true -> wf_dataset nc nt d.
Proof.
  unfold wf_datasetb. rewrite !andb_true_iff. intros [[[[[[H1 H2] H3] H4] H5] H6] H7].
  apply negb_true_iff, Nat.eqb_neq in H1. apply Nat.eqb_eq in H2. apply beq_ok in H5. apply N.leb_le in H7.
  assert (R : rectangular nc (feature_rows d)).
  { apply Forall_forall. intros r Hr. rewrite forallb_forall in H3. now apply Nat.eqb_eq, H3. }
  assert (NE : feature_rows d <> []) by (intros E; rewrite E in H1; auto).
  constructor; auto.
  - apply Forall_forall. intros r Hr. rewrite forallb_forall in H4. now apply Nat.eqb_eq, H4.
  - destruct (create_feature_columns_rect nc (feature_rows d) NE R) as (c & E & T). congruence.
  - apply Forall_forall. intros r Hr. rewrite forallb_forall in H6. apply Forall_forall. intros x Hx.
    specialize (H6 r Hr). rewrite forallb_forall in H6. now apply H6.
Qed.

(** Proves that a closed binary64 data set is well formed. *)
Ltac check_wf := apply wf_datasetb_ok; vm_compute; reflexivity.
