(** Boolean equality of model values over binary64, so that concrete examples can be checked by
    computation without normalising Flocq's embedded proofs. *)
From Coq Require Import Eqdep_dec.
From Flocq Require Import IEEE754.BinarySingleNaN.
From Verif Require Import Base Num ModelCommon ModelTree ModelBoost F64.

Class BEq (A : Type) := { beq : A -> A -> bool; beq_ok : forall a b, beq a b = true -> a = b }.

Definition f64_beq (a b : f64) : bool :=
  match a, b with
  | B754_zero s, B754_zero t => Bool.eqb s t
  | B754_infinity s, B754_infinity t => Bool.eqb s t
  | B754_nan, B754_nan => true
  | B754_finite s m e _, B754_finite t n f _ => Bool.eqb s t && Pos.eqb m n && Z.eqb e f
  | _, _ => false
  end.

Lemma f64_beq_ok a b : f64_beq a b = true -> a = b.
Proof.
  destruct a as [s|s| |s m e Ha], b as [t|t| |t n f Hb]; simpl; try discriminate; auto.
  - intros H. now apply eqb_prop in H as ->.
  - intros H. now apply eqb_prop in H as ->.
  - rewrite !andb_true_iff. intros [[H1 H2] H3]. apply eqb_prop in H1. apply Pos.eqb_eq in H2.
    apply Z.eqb_eq in H3. subst. f_equal. apply UIP_dec. decide equality.
Qed.

#[export] Instance BEq_f64 : BEq f64 := {| beq := f64_beq; beq_ok := f64_beq_ok |}.
#[export] Instance BEq_F (P : platform) : BEq (@F (f64_ops P)) := {| beq := f64_beq : @F (f64_ops P) -> @F (f64_ops P) -> bool; beq_ok := f64_beq_ok |}.
#[export] Instance BEq_nat : BEq nat := {| beq := Nat.eqb; beq_ok := fun a b => proj1 (Nat.eqb_eq a b) |}.
#[export] Instance BEq_N : BEq N := {| beq := N.eqb; beq_ok := fun a b => proj1 (N.eqb_eq a b) |}.
#[export] Instance BEq_bool : BEq bool := {| beq := Bool.eqb; beq_ok := eqb_prop |}.

Section Gen.
Context {A B : Type} `{BEq A} `{BEq B}.

Fixpoint list_beq (a b : list A) : bool :=
  match a, b with
  | [], [] => true
  | x :: s, y :: t => beq x y && list_beq s t
  | _, _ => false
  end.
Lemma list_beq_ok a b : list_beq a b = true -> a = b.
Proof.
  revert b; induction a as [|x a IH]; intros [|y b]; simpl; try discriminate; auto.
  rewrite andb_true_iff. intros [H1 H2]. f_equal; [now apply beq_ok|auto].
Qed.

Definition prod_beq (a b : A * B) : bool := beq (fst a) (fst b) && beq (snd a) (snd b).
Lemma prod_beq_ok a b : prod_beq a b = true -> a = b.
Proof.
  destruct a, b. unfold prod_beq. simpl. rewrite andb_true_iff. intros [H1 H2].
  f_equal; now apply beq_ok.
Qed.

Definition option_beq (a b : option A) : bool :=
  match a, b with Some x, Some y => beq x y | None, None => true | _, _ => false end.
Lemma option_beq_ok a b : option_beq a b = true -> a = b.
Proof. destruct a, b; simpl; try discriminate; auto. intros; f_equal; now apply beq_ok. Qed.

Definition res_beq (a b : res A) : bool :=
  match a, b with
  | Ok x, Ok y => beq x y | Panic, Panic => true | OutOfFuel, OutOfFuel => true | _, _ => false end.
Lemma res_beq_ok a b : res_beq a b = true -> a = b.
Proof. destruct a, b; simpl; try discriminate; auto. intros; f_equal; now apply beq_ok. Qed.
End Gen.

#[export] Instance BEq_list A `{BEq A} : BEq (list A) := {| beq := list_beq; beq_ok := list_beq_ok |}.
#[export] Instance BEq_prod A B `{BEq A} `{BEq B} : BEq (A * B) := {| beq := prod_beq; beq_ok := prod_beq_ok |}.
#[export] Instance BEq_option A `{BEq A} : BEq (option A) := {| beq := option_beq; beq_ok := option_beq_ok |}.
#[export] Instance BEq_res A `{BEq A} : BEq (res A) := {| beq := res_beq; beq_ok := res_beq_ok |}.

Section Model.
Context {P : platform}.

Ltac solve_record :=
  let HH := fresh in intros a b HH; rewrite ?andb_true_iff in HH;
  repeat match goal with H : _ /\ _ |- _ => destruct H end;
  repeat match goal with H : beq _ _ = true |- _ => apply beq_ok in H end;
  destruct a, b; simpl in *; congruence.

#[export] Instance BEq_dataset : BEq (@dataset (f64_ops P)).
Proof.
  refine {| beq := fun a b => beq (feature_rows a) (feature_rows b) && beq (labels a) (labels b) &&
             beq (feature_columns a) (feature_columns b) |}. solve_record.
Defined.

#[export] Instance BEq_sorted : BEq (@sorted_dataset (f64_ops P)).
Proof.
  refine {| beq := fun a b => beq (s_labels a) (s_labels b) && beq (s_columns a) (s_columns b) |}. solve_record.
Defined.

#[export] Instance BEq_question : BEq (@question (f64_ops P)).
Proof.
  refine {| beq := fun a b => beq (q_column a) (q_column b) && beq (q_value a) (q_value b) |}. solve_record.
Defined.

#[export] Instance BEq_best_split : BEq (@best_split (f64_ops P)).
Proof.
  refine {| beq := fun a b => beq (bs_gain a) (bs_gain b) && beq (bs_question a) (bs_question b) |}. solve_record.
Defined.

#[export] Instance BEq_bt : BEq (@best_threshold (f64_ops P)).
Proof.
  refine {| beq := fun a b => beq (bt_loss a) (bt_loss b) && beq (bt_threshold a) (bt_threshold b) |}. solve_record.
Defined.

#[export] Instance BEq_rl : BEq (@regression_leaf (f64_ops P)).
Proof. refine {| beq := fun a b => beq (rl_data a) (rl_data b) |}. solve_record. Defined.

#[export] Instance BEq_rln : BEq (@regression_leaf_np (f64_ops P)).
Proof. refine {| beq := fun a b => beq (rln_data a) (rln_data b) |}. solve_record. Defined.

#[export] Instance BEq_gl : BEq (@grad_boost_leaf (f64_ops P)).
Proof. refine {| beq := fun a b => beq (gl_output a) (gl_output b) |}. solve_record. Defined.

#[export] Instance BEq_al : BEq (@amg_leaf (f64_ops P)).
Proof. refine {| beq := fun a b => beq (al_max a) (al_max b) && beq (al_class a) (al_class b) |}. solve_record. Defined.

Fixpoint tree_beq {L} `{BEq L} (a b : @tree_node (f64_ops P) L) : bool :=
  match a, b with
  | TreeNode _ q1 t1 e1 l1, TreeNode _ q2 t2 e2 l2 =>
      beq q1 q2 &&
      match t1, t2 with Some x, Some y => tree_beq x y | None, None => true | _, _ => false end &&
      match e1, e2 with Some x, Some y => tree_beq x y | None, None => true | _, _ => false end &&
      option_beq l1 l2
  end.

Lemma tree_beq_ok {L} `{BEq L} : forall a b : @tree_node (f64_ops P) L, tree_beq a b = true -> a = b.
Proof.
  fix IH 1. intros [q1 t1 e1 l1] [q2 t2 e2 l2]. cbn [tree_beq]. intros HH.
  apply andb_true_iff in HH as [HH H4]. apply andb_true_iff in HH as [HH H3].
  apply andb_true_iff in HH as [H1 H2]. generalize (conj (conj (conj H1 H2) H3) H4). clear H1 H2 H3 H4.
  intros [[[H1 H2] H3] H4]. apply (beq_ok (BEq := BEq_question)) in H1. apply option_beq_ok in H4.
  f_equal; auto.
  - destruct t1, t2; try discriminate; auto. f_equal. now apply IH.
  - destruct e1, e2; try discriminate; auto. f_equal. now apply IH.
Qed.

#[export] Instance BEq_tree L `{BEq L} : BEq (@tree_node (f64_ops P) L) :=
  {| beq := tree_beq; beq_ok := tree_beq_ok |}.

#[export] Instance BEq_model L `{BEq L} : BEq (@model (f64_ops P) L).
Proof.
  refine {| beq := fun a b => beq (m_trees a) (m_trees b) && beq (m_initial_guess a) (m_initial_guess b) &&
             beq (m_learning_rate a) (m_learning_rate b) |}. solve_record.
Defined.

End Model.

(** Proves a closed equation between model values by computing both sides. *)
Ltac compute_eq := apply beq_ok; vm_compute; reflexivity.
Ltac compute_eqs := cbv zeta; repeat match goal with |- _ /\ _ => split end; compute_eq.
(** Proves that a closed list is not empty. *)
Ltac compute_nonempty :=
  let HH := fresh in intros HH; apply (f_equal (@length _)) in HH; vm_compute in HH; discriminate HH.
