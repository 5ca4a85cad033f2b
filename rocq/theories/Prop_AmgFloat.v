(** Property C81: an AMG leaf whose training rows are all learned perfectly. *)
From Coq Require Import Reals ZArith.
From Flocq Require Import Core.
From Flocq Require Import IEEE754.BinarySingleNaN.
From Verif Require Import Base Num ModelCommon ModelTree ModelBoost Spec SpecTree F64 SpecScore SpecPredict SpecSaturate
  ProofAmgFloat Decide Check Demo DemoAmg.
Local Open Scope R_scope.
Local Existing Instance f64_ops.

(** If at iteration [k] every residual of the training rows that share a leaf with [x] is zero, that leaf turns
    finite scores of [x] into minus infinity for class 0 and plus infinity for all others, class 1 is answered, and
    the scores never become finite again. *)
Theorem C81_perfect_leaf_answers_class_1 (P : platform) (nc nt : nat) (d : @dataset (f64_ops P)) (cfg : @tree_config (f64_ops P)) (n : nat) (lr : F)
    (m : amg_boost_model) (k : nat) (t : tree_node amg_leaf) (scores : list (list F)) (x s : list F) :
  wf_dataset nc nt d -> (2 <= nt)%nat -> (Z.of_nat nt <= 2 ^ 40)%Z -> is_finite (lr : f64) = true -> 0 < B2R (lr : f64) ->
  amg_boost_train d cfg n lr = Ok m -> (k < n)%nat ->
  nth_error (m_trees m) k = Some t -> mapM (amg_boost_raw (first_trees k m)) (feature_rows d) = Ok scores ->
  (nc <= length x)%nat ->
  (forall row y v, In (row, y) (samples_like x t (residual_data d scores)) -> In v y -> is_finite (v : f64) = true /\ B2R v = 0) ->
  amg_boost_raw (first_trees k m) x = Ok s -> Forall (fun v : F => is_finite (v : f64) = true) s ->
  amg_boost_raw (first_trees (S k) m) x = Ok ((B754_infinity true : f64) :: repeat (B754_infinity false : f64) (nt - 1)) /\
  (exists p, amg_boost_predict (first_trees (S k) m) x = Ok p /\ one_hot nt 1 p) /\
  exists s', amg_boost_raw m x = Ok s' /\ length s' = nt /\
    forall j v, nth_error s' j = Some v -> (v : f64) = B754_infinity (Nat.eqb j 0) \/ (v : f64) = B754_nan.
Proof. exact (amg_collapse P nc nt d cfg n lr m k t scores x s). Qed.
Print Assumptions C81_perfect_leaf_answers_class_1.

(** Two rows of two classes, both classified correctly after one iteration with finite scores and all residuals zero;
    after the second iteration both are given class 1. *)
Example C81_example :
  @wf_dataset (f64_ops series_platform) 1 2 perfect /\
  (m <- amg_boost_train perfect perfect_cfg 2 (n64 402);;
   scores <- mapM (amg_boost_raw (first_trees 1 m)) (feature_rows perfect);;
   t <- unwrap (nth_error (m_trees m) 1);;
   before <- mapM (amg_boost_predict (first_trees 1 m)) (feature_rows perfect);;
   after <- mapM (amg_boost_predict m) (feature_rows perfect);;
   Ok (forallb (forallb (fun x : f64 => is_finite x)) scores,
       map (fun row => map (fun s => map (fun v : f64 => match v with B754_zero _ => true | _ => false end) (snd s)) (samples_like row t (residual_data perfect scores))) (feature_rows perfect),
       map (map (fun v : f64 => Beqb v Bone)) before, map (map (fun v : f64 => Beqb v Bone)) after))
  = Ok (true, [[[true; true]; [true; true]]; [[true; true]; [true; true]]], [[true; false]; [false; true]], [[false; true]; [false; true]]).
Proof. split; [check_wf|]. vm_compute. reflexivity. Qed.
