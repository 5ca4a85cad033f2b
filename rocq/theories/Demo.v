(** Data for the examples beside the theorems. Not used by any theorem. *)
From Flocq Require Import IEEE754.BinarySingleNaN.
From Verif Require Import Base Num ModelCommon ModelTree ModelBoost F64 Decide.

(** A platform whose [exp] is 1 + x + x*x/2. *)
Definition taylor_platform : platform :=
  mkPlatform (fun x => Bplus mode_NE (Bplus mode_NE Bone x) (Bdiv mode_NE (Bmult mode_NE x x) (f64_of_Z 2)))
             (fun x => Bmult mode_NE x x) true.

Definition n64 (k : Z) : f64 := f64_of_Z k.

(** Four rows, one feature, two classes. *)
Definition four : @dataset (f64_ops taylor_platform) :=
  @mkDS (f64_ops taylor_platform)
    [[n64 1]; [n64 2]; [n64 3]; [n64 4]]
    [[n64 1; n64 0]; [n64 1; n64 0]; [n64 0; n64 1]; [n64 1; n64 0]]
    [[n64 1; n64 2; n64 3; n64 4]].
Definition four_cfg (m : N) (threads : bool) : @tree_config (f64_ops taylor_platform) :=
  mkTC (split_finder_new Variance) threads 2 m.
