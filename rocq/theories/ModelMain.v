(** The binary64 constant and function that only main/src/main.rs uses. *)
From Coq Require Import ZArith.
From Flocq Require Import IEEE754.BinarySingleNaN.
From Verif Require Import F64.

(** The literal [0.1] (main.rs:30): the correctly rounded quotient 1/10. *)
Definition tenth : f64 := Bdiv mode_NE Bone (f64_of_Z 10%Z).

(** [f64::sqrt] (main.rs:39): correctly rounded, as IEEE-754 requires. *)
Definition sqrt64 : f64 -> f64 := Bsqrt mode_NE.
