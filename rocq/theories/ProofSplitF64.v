(** Binary64-specific facts about the split finder. *)
From Coq Require Import Reals.
From Flocq Require Import IEEE754.BinarySingleNaN.
From Verif Require Import Base Num ModelCommon ModelTree Lib Spec F64 ProofSplit ProofSplit2 Decide Check.

Lemma gain_is_a_number (P : platform) nc nt d b :
  wf_dataset nc nt d -> find_best_split d (N.of_nat nt) = Ok b -> is_nan (bs_gain b) = false.
Proof.
  intros W E. destruct (split_usable (f64_laws P) nc nt d W) as (b' & E' & H & _).
  rewrite E in E'. injection E' as <-.
  apply (fleb_nan_r _ (f64_laws P)) in H. cbn in H. now destruct (bs_gain b).
Qed.

Local Definition z (n : Z) : f64 := f64_of_Z n.
Local Definition tenth : f64 := Bdiv mode_NE (z 1) (z 10).
Local Definition pure4 : @dataset (f64_ops demo_platform) :=
  @mkDS (f64_ops demo_platform) [[z 0]; [z 1]; [z 2]; [z 3]] [[tenth]; [tenth]; [tenth]; [tenth]] [[z 0; z 1; z 2; z 3]].

Lemma pure_node_split :
  exists (P : platform) (d : @dataset (f64_ops P)) (l : list f64) (b : @best_split (f64_ops P)),
    wf_dataset 1 1 d /\ (forall x, In x (labels d) -> x = l) /\
    find_best_split d 1 = Ok b /\ fltb f0 (bs_gain b) = true.
Proof.
  exists demo_platform, pure4, [tenth].
  destruct (find_best_split pure4 1) as [b| |] eqn:E.
  2:{ exfalso. assert (H : (match find_best_split pure4 1 with Ok _ => true | _ => false end) = true) by (vm_compute; reflexivity).
      rewrite E in H. discriminate. }
  2:{ exfalso. assert (H : (match find_best_split pure4 1 with Ok _ => true | _ => false end) = true) by (vm_compute; reflexivity).
      rewrite E in H. discriminate. }
  exists b. split; [check_wf|]. split.
  { intros x [H|[H|[H|[H|[]]]]]; symmetry; exact H. }
  split; [reflexivity|].
  assert (H : (match find_best_split pure4 1 with Ok b => fltb f0 (bs_gain b) | _ => false end) = true) by (vm_compute; reflexivity).
  rewrite E in H. exact H.
Qed.
