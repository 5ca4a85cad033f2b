(** Specification vocabulary: the loss that classification ensembles reduce (exact arithmetic, C68). *)
From Coq Require Import Reals List.
From Verif Require Import Base Num ModelCommon Spec XR SpecExact SpecClass.
Local Open Scope R_scope.

(** The log-loss of class scores [s] when the true class is [c]. *)
Definition log_loss (s : list R) (c : nat) : R := - ln (probability s c).

(** The scores with [x] added to entry [j]. *)
Definition raised (j : nat) (x : R) (s : list R) : list R :=
  map (fun i => nth i s 0 + (if Nat.eqb i j then x else 0)) (seq 0 (length s)).

(** The log-loss of a group of (scores, true class) pairs when [x] is added to each score of class [j]. *)
Definition group_loss (j : nat) (group : list (list R * nat)) (x : R) : R :=
  Rsum (map (fun p => log_loss (raised j x (fst p)) (snd p)) group).

(** [v] is one Newton step, from 0, towards the minimum of [loss]: minus first derivative over second derivative, the
    latter positive. *)
Definition newton_step (loss : R -> R) (v : R) : Prop :=
  exists slope curve, (forall x, derivable_pt_lim loss x (slope x)) /\ derivable_pt_lim slope 0 curve /\ 0 < curve /\
    v = - slope 0 / curve.

(** The log-loss of a list of (scores, true class) pairs. *)
Definition total_loss (group : list (list R * nat)) : R := Rsum (map (fun p => log_loss (fst p) (snd p)) group).

(** The scores a fraction [x] of the way from [s] to [s']. *)
Definition between (x : R) (s s' : list R) : list R := map (fun p => fst p + x * (snd p - fst p)) (combine s s').

(** [cs] are the classes of the one-hot labels of [d]. *)
Definition classes (k : nat) (d : @dataset xr_ops) (cs : list nat) : Prop :=
  Forall2 (fun y c => one_hot k (N.of_nat c) y) (labels d) cs.
