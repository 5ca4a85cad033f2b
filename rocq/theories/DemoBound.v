(** Example values for C71. *)
From Coq Require Import Reals Lra.
From Verif Require Import Base Num ModelCommon ModelTree ModelBoost Spec XR SpecExact ProofWitness DemoExact DemoBoostExact.
Local Open Scope R_scope.

Lemma plain_spread : INR (length plain_labels) * variance (target 0 plain_labels) = 54 /\ mean (target 0 plain_labels) = 3.
Proof. unfold plain_labels, variance, mean, target. cbn. split; field. Qed.
