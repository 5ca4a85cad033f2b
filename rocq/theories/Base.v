(** The error monad and loop combinators used by the model. *)
From Coq Require Export List Arith NArith ZArith Bool Lia.
Export ListNotations.
Set Implicit Arguments.

(** Outcome of a Rust call: a value, a panic, or (tree builders only) an exhausted recursion budget. *)
Inductive res (A : Type) : Type :=
| Ok : A -> res A
| Panic : res A
| OutOfFuel : res A.
Arguments Ok {A} _.
Arguments Panic {A}.
Arguments OutOfFuel {A}.

Definition bind {A B} (m : res A) (f : A -> res B) : res B :=
  match m with Ok a => f a | Panic => Panic | OutOfFuel => OutOfFuel end.
Notation "x <- m ;; f" := (bind m (fun x => f)) (at level 61, m at next level, right associativity).
Notation "' p <- m ;; f" := (bind m (fun p => f)) (at level 61, p pattern, m at next level, right associativity).

(** [v[i]] with Rust's bounds check. *)
Definition idx {A} (l : list A) (i : nat) : res A :=
  match nth_error l i with Some x => Ok x | None => Panic end.

(** [v[i]] where [i] comes from a [u32]/[usize] value held in [N]. *)
Definition idxN {A} (l : list A) (i : N) : res A :=
  if (i <? N.of_nat (length l))%N then idx l (N.to_nat i) else Panic.

Fixpoint list_set {A} (l : list A) (i : nat) (x : A) : list A :=
  match l, i with
  | [], _ => []
  | _ :: t, 0 => x :: t
  | y :: t, S j => y :: list_set t j x
  end.

(** [v[i] = x] with Rust's bounds check. *)
Definition upd {A} (l : list A) (i : nat) (x : A) : res (list A) :=
  if i <? length l then Ok (list_set l i x) else Panic.

Definition updN {A} (l : list A) (i : N) (x : A) : res (list A) :=
  if (i <? N.of_nat (length l))%N then upd l (N.to_nat i) x else Panic.

(** [for x in l { s = f(s, x) }] *)
Fixpoint foldM {S A} (f : S -> A -> res S) (l : list A) (s : S) : res S :=
  match l with
  | [] => Ok s
  | x :: t => s' <- f s x;; foldM f t s'
  end.

(** [for i in 0..n { s = f(s, i) }] *)
Definition for_range {S} (n : nat) (f : S -> nat -> res S) (s : S) : res S :=
  foldM f (seq 0 n) s.

(** [iter().map(f).collect()] for a fallible [f]. *)
Fixpoint mapM {A B} (f : A -> res B) (l : list A) : res (list B) :=
  match l with
  | [] => Ok []
  | x :: t => y <- f x;; ys <- mapM f t;; Ok (y :: ys)
  end.

(** [Option::unwrap] *)
Definition unwrap {A} (o : option A) : res A :=
  match o with Some x => Ok x | None => Panic end.

(** [iter().enumerate()] *)
Definition enumerate {A} (l : list A) : list (nat * A) := combine (seq 0 (length l)) l.

(** [n as u32] *)
Definition as_u32 (n : nat) : N := (N.of_nat n mod 2 ^ 32)%N.
