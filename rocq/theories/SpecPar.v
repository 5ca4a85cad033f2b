(** What it means for a parallel program to be independent of its schedule. *)
From Verif Require Import Base ModelPar.

(** [p'] can be reached from [p]: some workers have made some steps. *)
Inductive run {A} : prog A -> prog A -> Prop :=
| run_here p : run p p
| run_on p p' p'' : step p p' -> run p' p'' -> run p p''.

(** Under every schedule [p] finishes, and with outcome [r]: no run goes on for ever, and a run that
    has not reached [r] yet can still make a step. The last clause says that some run does end. *)
Definition always_gives {A} (p : prog A) (r : res A) : Prop :=
  (~ exists trace : nat -> prog A, trace 0 = p /\ forall n, step (trace n) (trace (S n))) /\
  (forall p', run p p' -> p' = Ret r \/ exists p'', step p' p'') /\
  run p (Ret r).

(** A call that ends: it returns or panics. *)
Definition ends {A} (r : res A) : Prop := r = Panic \/ exists a, r = Ok a.
