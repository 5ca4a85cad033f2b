(** Data for the examples about AMG leaves without residuals. Not used by any theorem. *)
From Coq Require Import ZArith.
From Flocq Require Import IEEE754.BinarySingleNaN.
From Verif Require Import Base Num ModelCommon ModelTree ModelBoost F64 Decide Demo.

(** A platform whose [exp x] is the Taylor polynomial of degree 16 at [x / 1024], squared ten times. *)
Definition squared (x : f64) : f64 := Bmult mode_NE x x.
Definition series (y : f64) : f64 :=
  fold_right (fun i acc => Bplus mode_NE Bone (Bmult mode_NE (Bdiv mode_NE y (f64_of_Z i)) acc)) Bone
    [1; 2; 3; 4; 5; 6; 7; 8; 9; 10; 11; 12; 13; 14; 15; 16]%Z.
Definition series_platform : platform :=
  mkPlatform (fun x => Nat.iter 10 squared (series (Bdiv mode_NE x (f64_of_Z 1024)))) squared false.

(** Two rows, one of each class; learning rate 402. *)
Definition perfect : @dataset (f64_ops series_platform) :=
  @mkDS (f64_ops series_platform) [[n64 0]; [n64 1]] [[n64 1; n64 0]; [n64 0; n64 1]] [[n64 0; n64 1]].
Definition perfect_cfg : @tree_config (f64_ops series_platform) := @mkTC (f64_ops series_platform) (split_finder_new Variance) false 2 3.

(** Two rows of the first and the third of three classes, and two of the second and the third. *)
Definition skipped : @dataset (f64_ops series_platform) :=
  @mkDS (f64_ops series_platform) [[n64 0]; [n64 1]] [[n64 1; n64 0; n64 0]; [n64 0; n64 0; n64 1]] [[n64 0; n64 1]].
Definition headless : @dataset (f64_ops series_platform) :=
  @mkDS (f64_ops series_platform) [[n64 0]; [n64 1]] [[n64 0; n64 1; n64 0]; [n64 0; n64 0; n64 1]] [[n64 0; n64 1]].
Definition skipped_cfg : @tree_config (f64_ops series_platform) := @mkTC (f64_ops series_platform) (split_finder_new Variance) false 3 3.
