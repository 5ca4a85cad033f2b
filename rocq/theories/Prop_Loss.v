(** Property C102: classification iterations with small steps lower the log-loss by a stated amount, in exact arithmetic. *)
From Coq Require Import Reals.
From Verif Require Import Base Num ModelCommon ModelTree ModelBoost Spec SpecTree XR SpecExact SpecScore SpecClass SpecGradient SpecLoss ProofLoss DemoBoostExact DemoLoss.
Local Open Scope R_scope.

(* ------------------------------------------------------------------ *)
(** ** C102 *)

(** One more iteration: if no training score moves by more than 1/2, the log-loss falls by at least the stated amount;
    and no score moves that far if no class is closer than [eps] to probability 0 or 1 and the rate is small beside [eps]. *)
Theorem C102_multi_class_iteration (nc nt : nat) (d : dataset) (cfg : tree_config) (n : nat) (lr : R) (m m' : multi_class_boost_model) :
  (2 <= nt)%nat -> (Z.of_nat nt <= 2 ^ 53)%Z -> wf_dataset nc nt d -> one_hot_labels nt d -> 0 < lr ->
  multi_class_boost_train d cfg n (Fin lr) = Ok m -> multi_class_boost_train d cfg (S n) (Fin lr) = Ok m' ->
  exists ss ss' cs, mapM (multi_class_boost_raw m) (feature_rows d) = Ok (map (map Fin) ss) /\
    mapM (multi_class_boost_raw m') (feature_rows d) = Ok (map (map Fin) ss') /\ classes nt d cs /\
    (moves_at_most (1 / 2) ss ss' ->
       total_loss (combine ss' cs) + ((INR nt / (2 * (INR nt - 1))) / lr - 1) * steps_variance ss ss' <= total_loss (combine ss cs) /\
       (lr < (INR nt / (2 * (INR nt - 1))) -> ss' = ss \/ total_loss (combine ss' cs) < total_loss (combine ss cs))) /\
    (forall eps, 0 < eps -> (forall s j, In s ss -> (j < nt)%nat -> eps <= probability s j <= 1 - eps) ->
       lr <= INR nt * eps / (2 * (INR nt - 1)) -> moves_at_most (1 / 2) ss ss').
Proof. exact (multi_class_drop nc nt d cfg n lr m m'). Qed.
Print Assumptions C102_multi_class_iteration.

(** Over several such iterations the log-loss does not rise, and before the first it is [ln nt] a row. *)
Theorem C102_multi_class_run (nc nt : nat) (d : dataset) (cfg : tree_config) (i n : nat) (lr : R) (mi m : multi_class_boost_model) :
  (2 <= nt)%nat -> (Z.of_nat nt <= 2 ^ 53)%Z -> wf_dataset nc nt d -> one_hot_labels nt d ->
  0 < lr <= (INR nt / (2 * (INR nt - 1))) -> (i <= n)%nat ->
  multi_class_boost_train d cfg i (Fin lr) = Ok mi -> multi_class_boost_train d cfg n (Fin lr) = Ok m ->
  (forall k a b sa sb, (i <= k < n)%nat -> multi_class_boost_train d cfg k (Fin lr) = Ok a -> multi_class_boost_train d cfg (S k) (Fin lr) = Ok b ->
     mapM (multi_class_boost_raw a) (feature_rows d) = Ok (map (map Fin) sa) -> mapM (multi_class_boost_raw b) (feature_rows d) = Ok (map (map Fin) sb) ->
     moves_at_most (1 / 2) sa sb) ->
  exists ss ss' cs, mapM (multi_class_boost_raw mi) (feature_rows d) = Ok (map (map Fin) ss) /\
    mapM (multi_class_boost_raw m) (feature_rows d) = Ok (map (map Fin) ss') /\ classes nt d cs /\
    total_loss (combine ss' cs) <= total_loss (combine ss cs) /\
    (i = 0%nat -> total_loss (combine ss cs) = INR (length (feature_rows d)) * ln (INR nt)).
Proof. exact (multi_class_never_higher nc nt d cfg i n lr mi m). Qed.
Print Assumptions C102_multi_class_run.

(** A first iteration at a rate of at most 1/(2(nt-1)) lowers the log-loss, unless it leaves every training score as it was. *)
Theorem C102_multi_class_first_iteration (nc nt : nat) (d : dataset) (cfg : tree_config) (lr : R) (m : multi_class_boost_model) :
  (2 <= nt)%nat -> (Z.of_nat nt <= 2 ^ 53)%Z -> wf_dataset nc nt d -> one_hot_labels nt d -> 0 < lr <= 1 / (2 * (INR nt - 1)) ->
  multi_class_boost_train d cfg 1 (Fin lr) = Ok m ->
  exists ss cs, mapM (multi_class_boost_raw m) (feature_rows d) = Ok (map (map Fin) ss) /\ classes nt d cs /\
    (ss = map (fun _ => repeat (1 / INR nt) nt) (feature_rows d) \/
     total_loss (combine ss cs) < INR (length (feature_rows d)) * ln (INR nt)).
Proof. exact (multi_class_first_drop nc nt d cfg lr m). Qed.
Print Assumptions C102_multi_class_first_iteration.

(** One more iteration: if no training score moves by more than 1/2, the log-loss falls by at least the stated amount;
    and no score moves that far if no class is closer than [eps] to probability 0 or 1 and the rate is small beside [eps]. *)
Theorem C102_amg_iteration (nc nt : nat) (d : dataset) (cfg : tree_config) (n : nat) (lr : R) (m m' : amg_boost_model) :
  (2 <= nt)%nat -> (Z.of_nat nt <= 2 ^ 53)%Z -> wf_dataset nc nt d -> one_hot_labels nt d -> 0 < lr ->
  amg_boost_train d cfg n (Fin lr) = Ok m -> amg_boost_train d cfg (S n) (Fin lr) = Ok m' ->
  exists ss ss' cs, mapM (amg_boost_raw m) (feature_rows d) = Ok (map (map Fin) ss) /\
    mapM (amg_boost_raw m') (feature_rows d) = Ok (map (map Fin) ss') /\ classes nt d cs /\
    (moves_at_most (1 / 2) ss ss' ->
       total_loss (combine ss' cs) + (1 / lr - 1) * steps_variance ss ss' <= total_loss (combine ss cs) /\
       (lr < 1 -> ss' = ss \/ total_loss (combine ss' cs) < total_loss (combine ss cs))) /\
    (forall eps, 0 < eps -> (forall s j, In s ss -> (j < nt)%nat -> eps <= probability s j <= 1 - eps) ->
       lr <= INR nt * eps / (2 * (INR nt - 1)) -> moves_at_most (1 / 2) ss ss').
Proof. exact (amg_drop nc nt d cfg n lr m m'). Qed.
Print Assumptions C102_amg_iteration.

(** Over several such iterations the log-loss does not rise, and before the first it is [ln nt] a row. *)
Theorem C102_amg_run (nc nt : nat) (d : dataset) (cfg : tree_config) (i n : nat) (lr : R) (mi m : amg_boost_model) :
  (2 <= nt)%nat -> (Z.of_nat nt <= 2 ^ 53)%Z -> wf_dataset nc nt d -> one_hot_labels nt d ->
  0 < lr <= 1 -> (i <= n)%nat ->
  amg_boost_train d cfg i (Fin lr) = Ok mi -> amg_boost_train d cfg n (Fin lr) = Ok m ->
  (forall k a b sa sb, (i <= k < n)%nat -> amg_boost_train d cfg k (Fin lr) = Ok a -> amg_boost_train d cfg (S k) (Fin lr) = Ok b ->
     mapM (amg_boost_raw a) (feature_rows d) = Ok (map (map Fin) sa) -> mapM (amg_boost_raw b) (feature_rows d) = Ok (map (map Fin) sb) ->
     moves_at_most (1 / 2) sa sb) ->
  exists ss ss' cs, mapM (amg_boost_raw mi) (feature_rows d) = Ok (map (map Fin) ss) /\
    mapM (amg_boost_raw m) (feature_rows d) = Ok (map (map Fin) ss') /\ classes nt d cs /\
    total_loss (combine ss' cs) <= total_loss (combine ss cs) /\
    (i = 0%nat -> total_loss (combine ss cs) = INR (length (feature_rows d)) * ln (INR nt)).
Proof. exact (amg_never_higher nc nt d cfg i n lr mi m). Qed.
Print Assumptions C102_amg_run.

(** A first iteration at a rate of at most 1/(2(nt-1)) lowers the log-loss, unless it leaves every training score as it was. *)
Theorem C102_amg_first_iteration (nc nt : nat) (d : dataset) (cfg : tree_config) (lr : R) (m : amg_boost_model) :
  (2 <= nt)%nat -> (Z.of_nat nt <= 2 ^ 53)%Z -> wf_dataset nc nt d -> one_hot_labels nt d -> 0 < lr <= 1 / (2 * (INR nt - 1)) ->
  amg_boost_train d cfg 1 (Fin lr) = Ok m ->
  exists ss cs, mapM (amg_boost_raw m) (feature_rows d) = Ok (map (map Fin) ss) /\ classes nt d cs /\
    (ss = map (fun _ => repeat (1 / INR nt) nt) (feature_rows d) \/
     total_loss (combine ss cs) < INR (length (feature_rows d)) * ln (INR nt)).
Proof. exact (amg_first_drop nc nt d cfg lr m). Qed.
Print Assumptions C102_amg_first_iteration.

(** A large rate can raise the log-loss. *)
Theorem C102_limit_needed : exists (d : dataset) (cfg : tree_config) (m m' : multi_class_boost_model) (ss ss' : list (list R)) (cs : list nat),
  wf_dataset 1 2 d /\ one_hot_labels 2 d /\
  multi_class_boost_train d cfg 0 (Fin 6) = Ok m /\ multi_class_boost_train d cfg 1 (Fin 6) = Ok m' /\
  mapM (multi_class_boost_raw m) (feature_rows d) = Ok (map (map Fin) ss) /\
  mapM (multi_class_boost_raw m') (feature_rows d) = Ok (map (map Fin) ss') /\ classes 2 d cs /\
  total_loss (combine ss cs) < total_loss (combine ss' cs).
Proof. exact (ex_intro _ trio (ex_intro _ (two_cfg 3) match trio_rises with ex_intro _ m (ex_intro _ m' (ex_intro _ a (ex_intro _ b (ex_intro _ cs H)))) =>
  ex_intro _ m (ex_intro _ m' (ex_intro _ a (ex_intro _ b (ex_intro _ cs (conj (proj1 trio_wf) (conj trio_one_hot H)))))) end)). Qed.
Print Assumptions C102_limit_needed.

Example C102_example : wf_dataset 1 2 trio /\ one_hot_labels 2 trio /\
  (forall n lr, exists m, multi_class_boost_train trio (two_cfg 3) n (Fin lr) = Ok m) /\
  (forall n lr, exists m, amg_boost_train trio (two_cfg 3) n (Fin lr) = Ok m) /\
  (exists m ss cs, multi_class_boost_train trio (two_cfg 3) 1 (Fin (1 / 2)) = Ok m /\
     mapM (multi_class_boost_raw m) (feature_rows trio) = Ok (map (map Fin) ss) /\ classes 2 trio cs /\ total_loss (combine ss cs) < 3 * ln 2) /\
  (forall m m' sa sb, multi_class_boost_train trio (two_cfg 3) 0 (Fin (1 / 2)) = Ok m -> multi_class_boost_train trio (two_cfg 3) 1 (Fin (1 / 2)) = Ok m' ->
     mapM (multi_class_boost_raw m) (feature_rows trio) = Ok (map (map Fin) sa) -> mapM (multi_class_boost_raw m') (feature_rows trio) = Ok (map (map Fin) sb) ->
     moves_at_most (1 / 2) sa sb).
Proof.
  exact (conj (proj1 trio_wf) (conj trio_one_hot (conj (fun n lr => trio_multi 3 n _) (conj (fun n lr => trio_amg 3 n _) (conj trio_falls trio_small))))).
Qed.
