(** A concrete case for the range of residuals in binary64. *)
From Coq Require Import Reals Lra Lia ZArith.
From Flocq Require Import Core IEEE754.BinarySingleNaN.
From Verif Require Import Base Num ModelCommon ModelTree ModelBoost Spec SpecTree SpecScore F64 ProofClassF64 ProofError Decide Check Demo.
Lemma f64_value (x : f64) k : (Z.abs k <= 1000)%Z -> Beqb x (n64 k) = true -> is_finite x = true -> B2R x = IZR k.
Proof.
  intros Hk E Fx. destruct (of_Z_exact k) as (V & F1 & _); [lia|].
  unfold n64 in E. rewrite Beqb_correct in E by assumption. rewrite <- V. revert E. destruct (Req_bool_spec (B2R x) (B2R (f64_of_Z k))); [auto|discriminate].
Qed.
Lemma one_hot_pair : one_hot (O := f64_ops taylor_platform) 2 0 [n64 1; n64 0].
Proof. 
  split; [reflexivity|]. split; [reflexivity|]. intros [|[|i]] Hi; [exact (f_equal Some (eq_sym Bone_of_Z))|reflexivity|lia].
Qed.
Lemma exponential_of_zero (x : f64) : In x [n64 0; n64 0] -> B2R (p_exp taylor_platform x) = 1%R.
Proof. intros [<-|[<-|[]]]; apply (f64_value _ 1); first [lia|vm_compute; reflexivity]. Qed.
Lemma total_of_two : 
  let total := fold_left (Bplus mode_NE) (map (p_exp taylor_platform) [n64 0; n64 0]) (B754_zero true) in
  is_finite total = true /\ B2R total = 2%R.
Proof. intros total. split; [vm_compute; reflexivity|]. apply (f64_value _ 2); first [lia|vm_compute; reflexivity]. Qed.
