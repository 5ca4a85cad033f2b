(** Example test sets for C110, with a feature row that occurs twice. *)
From Coq Require Import Reals Lra Lia Permutation.
From Flocq Require Import IEEE754.BinarySingleNaN.
From Verif Require Import Base Num F64 ModelCommon ModelTree ModelBoost Spec SpecTree XR SpecExact SpecScore SpecTwins ProofWitness Decide Check Demo.
Local Open Scope R_scope.

(** Row 0 occurs with the labels 0 and 2. *)
Definition twins_labels : list (list R) := [[0]; [9]; [2]].
Definition twins : @dataset xr_ops := real_data [[0]; [3]; [0]] [[0; 3; 0]] twins_labels.
Definition twins_groups : list (list xr * list (list R)) := [([Fin 3], [[9]]); ([Fin 0], [[0]; [2]])].

Lemma twins_wf : wf_dataset 1 1 twins /\ real_labels twins_labels twins.
Proof. unfold twins. real_wf. Qed.

Lemma twins_rect : rectangular 1 twins_labels.
Proof. repeat constructor. Qed.

Lemma twins_listed : Permutation (combine (feature_rows twins) twins_labels) (listed twins_groups).
Proof. cbn. apply perm_swap. Qed.

Lemma twins_irreducible : irreducible_error 1 twins_groups = 2 / 3.
Proof. unfold irreducible_error, listed, twins_groups, total_variance, variance, mean, target. cbn. field. Qed.

(** Rows of [four] with one more occurrence of the last, of the other class. *)
Definition disputed : @dataset (f64_ops taylor_platform) :=
  @mkDS (f64_ops taylor_platform) [[n64 4]; [n64 1]; [n64 4]; [n64 4]] [[n64 1; n64 0]; [n64 1; n64 0]; [n64 0; n64 1]; [n64 1; n64 0]]
    [[n64 4; n64 1; n64 4; n64 4]].
Definition disputed_groups : list (list f64 * list (list f64)) :=
  [([n64 1], [[n64 1; n64 0]]); ([n64 4], [[n64 1; n64 0]; [n64 0; n64 1]; [n64 1; n64 0]])].

Lemma disputed_listed : Permutation (samples disputed) (@listed (list f64) (list f64) disputed_groups).
Proof. unfold samples, disputed, disputed_groups, listed. cbn [feature_rows labels combine flat_map map app fst snd]. apply perm_swap. Qed.
