(** Property C67: what one boosting iteration does to the training error, in exact arithmetic. *)
From Coq Require Import Reals.
From Verif Require Import Base Num ModelCommon ModelTree ModelBoost Spec SpecTree XR SpecExact SpecScore SpecFit SpecStage ProofStage ProofWitness DemoExact DemoBoostExact DemoStage ProofStall DemoStall.
Local Open Scope R_scope.

(* ------------------------------------------------------------------ *)
(** ** C67 *)

(** [os] are the outputs of the added tree for the training rows; they average to 0. *)
Theorem C67_stage_error (nc nt : nat) (d : dataset) (ls : list (list R)) (cfg : tree_config) (n : nat) (lr : R) (m m' : regression_boost_model) :
  wf_dataset nc nt d -> real_labels ls d -> (0 < nt)%nat ->
  regression_boost_train d cfg n (Fin lr) = Ok m -> regression_boost_train d cfg (S n) (Fin lr) = Ok m' ->
  exists t os e, nth_error (m_trees m') n = Some t /\ outputs t (feature_rows d) os /\ rectangular nt os /\
    (forall j, (j < nt)%nat -> mean (target j os) = 0) /\
    regression_boost_score m d = Ok (Fin e) /\
    regression_boost_score m' d = Ok (Fin (e - lr * (2 - lr) * (total_variance nt os / INR nt))).
Proof. exact (stage_error' nc nt d ls cfg n lr m m'). Qed.
Print Assumptions C67_stage_error.

(** Rates outside (0, 2) never reduce the training error. *)
Theorem C67_outside_the_range (nc nt : nat) (d : dataset) (ls : list (list R)) (cfg : tree_config) (n : nat) (lr : R) (m m' : regression_boost_model) :
  wf_dataset nc nt d -> real_labels ls d -> (0 < nt)%nat -> lr <= 0 \/ 2 <= lr ->
  regression_boost_train d cfg n (Fin lr) = Ok m -> regression_boost_train d cfg (S n) (Fin lr) = Ok m' ->
  exists e e', regression_boost_score m d = Ok (Fin e) /\ regression_boost_score m' d = Ok (Fin e') /\ e <= e'.
Proof. exact (fun W Hl Hk => outside_range nc nt d ls cfg lr W Hl Hk n m m'). Qed.
Print Assumptions C67_outside_the_range.

(** An iteration that does not change the training error is followed only by such iterations. *)
Theorem C67_no_progress_is_final (nc nt : nat) (d : dataset) (ls : list (list R)) (cfg : tree_config) (n k : nat) (lr e : R)
    (m m' m2 : regression_boost_model) :
  wf_dataset nc nt d -> real_labels ls d -> (0 < nt)%nat ->
  regression_boost_train d cfg n (Fin lr) = Ok m -> regression_boost_train d cfg (S n) (Fin lr) = Ok m' ->
  regression_boost_score m d = Ok (Fin e) -> regression_boost_score m' d = Ok (Fin e) ->
  regression_boost_train d cfg (n + k) (Fin lr) = Ok m2 -> regression_boost_score m2 d = Ok (Fin e).
Proof. exact (fun W Hl Hk => stalled nc nt d ls cfg lr W Hl Hk n k m m' m2 e). Qed.
Print Assumptions C67_no_progress_is_final.

(** Nor does any later model answer any row differently, training row or not, unless the rate is 2. *)
Theorem C67_no_progress_no_change (nc nt : nat) (d : dataset) (ls : list (list R)) (cfg : tree_config) (n k : nat) (lr e : R)
    (m m' m2 : regression_boost_model) (row : list xr) :
  wf_dataset nc nt d -> real_labels ls d -> (0 < nt)%nat -> lr <> 2 ->
  regression_boost_train d cfg n (Fin lr) = Ok m -> regression_boost_train d cfg (S n) (Fin lr) = Ok m' ->
  regression_boost_score m d = Ok (Fin e) -> regression_boost_score m' d = Ok (Fin e) ->
  regression_boost_train d cfg (n + k) (Fin lr) = Ok m2 -> (nc <= length row)%nat ->
  regression_boost_predict m2 row = regression_boost_predict m row.
Proof. exact (fun W Hl Hk => stalled_answers nc nt d ls cfg lr W Hl Hk n k m m' m2 e row). Qed.
Print Assumptions C67_no_progress_no_change.

(** At rate 2 the error stays at 18 while the answer for row 7 goes from 3 to 15. *)
Theorem C67_rate_two_needed : exists m m', regression_boost_train plain (plain_cfg 2) 0 (Fin 2) = Ok m /\
  regression_boost_train plain (plain_cfg 2) 1 (Fin 2) = Ok m' /\
  regression_boost_score m plain = Ok (Fin 18) /\ regression_boost_score m' plain = Ok (Fin 18) /\
  regression_boost_predict m [Fin 7] = Ok [Fin 3] /\ regression_boost_predict m' [Fin 7] = Ok [Fin 15].
Proof. exact plain_rate_two. Qed.
Print Assumptions C67_rate_two_needed.

(** One iteration at rate [lr] and one at rate [2 - lr] end with the same training error. *)
Theorem C67_mirrored_rates (nc nt : nat) (d : dataset) (ls : list (list R)) (cfg : tree_config) (lr : R) (m m' m2 : regression_boost_model) :
  wf_dataset nc nt d -> real_labels ls d -> (0 < nt)%nat ->
  regression_boost_train d cfg 0 (Fin lr) = Ok m -> regression_boost_train d cfg 1 (Fin lr) = Ok m' ->
  regression_boost_train d cfg 1 (Fin (2 - lr)) = Ok m2 -> regression_boost_score m2 d = regression_boost_score m' d.
Proof. exact (rates_mirrored nc nt d ls cfg lr m m' m2). Qed.
Print Assumptions C67_mirrored_rates.

(** Training error 18; one iteration leaves a quarter at rate 1/2, four times as much at rate 3, and nothing changes once
    rate 1 has brought it to 0. *)
Example C67_example :
  wf_dataset 1 1 plain /\ real_labels [[9]; [0]; [0]] plain /\
  (exists m m', regression_boost_train plain (plain_cfg 2) 0 (Fin (1/2)) = Ok m /\ regression_boost_train plain (plain_cfg 2) 1 (Fin (1/2)) = Ok m' /\
     regression_boost_score m plain = Ok (Fin 18) /\ regression_boost_score m' plain = Ok (Fin ((1 - 1/2) * (1 - 1/2) * 18))) /\
  (exists m m', regression_boost_train plain (plain_cfg 2) 0 (Fin 3) = Ok m /\ regression_boost_train plain (plain_cfg 2) 1 (Fin 3) = Ok m' /\
     regression_boost_score m plain = Ok (Fin 18) /\ regression_boost_score m' plain = Ok (Fin 72)) /\
  (exists m m' m2, regression_boost_train plain (plain_cfg 2) 1 (Fin 1) = Ok m /\ regression_boost_train plain (plain_cfg 2) 2 (Fin 1) = Ok m' /\
     regression_boost_score m plain = Ok (Fin 0) /\ regression_boost_score m' plain = Ok (Fin 0) /\
     regression_boost_train plain (plain_cfg 2) (1 + 9) (Fin 1) = Ok m2).
Proof. exact (conj (proj1 plain_wf) (conj (proj2 plain_wf) (conj (plain_step (1/2)) (conj plain_above_two plain_done)))). Qed.
