(** Data for the examples of C101. *)
From Coq Require Import Lia Bool.
From Flocq Require Import IEEE754.BinarySingleNaN.
From Verif Require Import Base Num ModelCommon ModelTree ModelBoost Spec SpecTree SpecScore F64 Decide Check Demo DemoColumns DemoColumnsBoost.
Local Open Scope nat_scope.
Local Notation O := (f64_ops taylor_platform).
Local Existing Instance f64_ops.

(** Doubling feature 0 and subtracting 100 from the others, on the integers 0..9. *)
Definition small_integers : list f64 := map n64 [0; 1; 2; 3; 4; 5; 6; 7; 8; 9]%Z.
Definition stretch (j : nat) (x : f64) : f64 := match j with 0 => Bplus mode_NE x x | _ => Bminus mode_NE x (n64 100) end.

Lemma stretch_increasing : @increasing_on O (fun _ x => In x small_integers) stretch.
Proof.
  intros j x y Hx Hy.
  assert (H : forallb (fun j => forallb (fun x => forallb (fun y => Bool.eqb (@fleb O (stretch j x) (stretch j y)) (@fleb O x y)) small_integers) small_integers) [0; 1] = true)
    by (vm_compute; reflexivity).
  rewrite forallb_forall in H. assert (Hj : In (match j with 0 => 0 | _ => 1 end) [0; 1]) by (destruct j; simpl; auto).
  specialize (H _ Hj). rewrite forallb_forall in H. specialize (H _ Hx). rewrite forallb_forall in H. specialize (H _ Hy).
  apply eqb_prop in H. destruct j; exact H.
Qed.

Lemma mixed_in : Forall (@row_in O (fun _ x => In x small_integers)) (feature_rows mixed).
Proof.
  repeat (apply Forall_cons; [intros [|[|[|j]]] x Hx; try discriminate; injection Hx as <-; unfold small_integers; simpl; tauto|]). apply Forall_nil.
Qed.

(** The first thresholds before and after. *)
Definition first_values (r : res (@regression_boost_model O)) : res (list f64) := m <- r;; Ok (map (fun t => q_value (nd_question t)) (m_trees m)).
Lemma mixed_values :
  first_values (regression_boost_train mixed mixed_cfg 3 rate) = Ok [n64 3; n64 3; n64 3] /\
  first_values (regression_boost_train (@transform O stretch mixed) mixed_cfg 3 rate) = Ok [n64 6; n64 6; n64 6].
Proof. compute_eqs. Qed.

Lemma mixed_trained : (exists m, regression_boost_train mixed mixed_cfg 3 rate = Ok m) /\
  (exists m, multi_class_boost_train mixed_classes mixed_classes_cfg 3 rate = Ok m) /\ (exists m, amg_boost_train mixed_classes mixed_classes_cfg 3 rate = Ok m).
Proof.
  destruct mixed_stages as (m & H & _). destruct mixed_class_stages as (m' & H' & _). destruct mixed_amg_stages as (m'' & H'' & _). split; [exists m; exact H|]. split; [exists m'; exact H'|exists m''; exact H''].
Qed.
