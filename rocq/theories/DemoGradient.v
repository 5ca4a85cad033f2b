(** Example values for C68. *)
From Coq Require Import Reals Lra Lia.
From Verif Require Import Base Num ModelCommon ModelTree ModelBoost Spec XR SpecExact SpecClass SpecGradient ProofReal ProofBoostExact ProofClassExact ProofGradient ProofWitness DemoBoostExact.
Local Open Scope R_scope.

(** One row with even scores and class 0: the residual is 1/2 and the Newton step 2, of which the leaf stores one half. *)
Lemma even_newton : newton_step (group_loss 0 [([0; 0], 0%nat)]) 2.
Proof.
  pose proof (group_newton 2 [([0; 0], 0%nat)] 0 ltac:(lia) ltac:(discriminate)) as H.
  replace 2 with (Rsum (target 0 (map (residual 2) [([0; 0], 0%nat)])) / curvature (target 0 (map (residual 2) [([0; 0], 0%nat)]))).
  - apply H; [|lia]. constructor; [cbn; lia|constructor].
  - unfold target, curvature. cbn [map]. rewrite residual_nth by (cbn; lia). cbn [Nat.eqb snd fst]. unfold probability. cbn [nth map]. rewrite !Rsum_cons, exp_0. change (Rsum []) with 0.
    replace (1 - 1 / (1 + (1 + 0))) with (1/2) by field. rewrite Rabs_right by lra. field.
Qed.
