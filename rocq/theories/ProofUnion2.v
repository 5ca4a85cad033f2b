(** Accuracies of two test sets taken together, in binary64 (C111). *)
From Coq Require Import Reals Lia.
From Flocq Require Import IEEE754.BinarySingleNaN.
From Verif Require Import Base Num ModelCommon ModelTree ModelBoost Lib F64 Spec SpecTree SpecScore SpecF64 SpecUnion ProofScoreF64.

Lemma combine_app_eq {A B} (a a' : list A) (b b' : list B) : length a = length b -> combine (a ++ a') (b ++ b') = combine a b ++ combine a' b'.
Proof. revert b. induction a as [|x a IH]; intros [|y b] H; try discriminate; auto. cbn [app combine]. f_equal. apply IH. now injection H. Qed.

Section Union2.
Context (P : platform).
Let O := f64_ops P.
Local Existing Instance O.

Lemma correct_together (predict : list F -> res (list F)) (a b c : dataset) :
  length (labels a) = length (feature_rows a) -> together a b c ->
  length (correct_samples predict c) = length (correct_samples predict a) + length (correct_samples predict b).
Proof.
  intros HL [H1 H2]. unfold correct_samples, samples. rewrite H1, H2, combine_app_eq by (symmetry; exact HL). now rewrite filter_app, app_length.
Qed.

Lemma accuracy_together (predict : list F -> res (list F)) (score : dataset -> res F) (a b c : dataset) :
  (forall test, length (labels test) = length (feature_rows test) -> feature_rows test <> [] -> (Z.of_nat (length (feature_rows test)) <= 2 ^ 53)%Z ->
     Forall (fun row => exists v, predict row = Ok v) (feature_rows test) ->
     exists r, score test = Ok r /\ is_fraction (length (correct_samples predict test)) (length (feature_rows test)) r) ->
  scorable predict a -> scorable predict b -> (Z.of_nat (length (feature_rows c)) <= 2 ^ 53)%Z -> together a b c ->
  exists ka kb ra rb rc, score a = Ok ra /\ score b = Ok rb /\ score c = Ok rc /\
    is_fraction ka (length (feature_rows a)) ra /\ is_fraction kb (length (feature_rows b)) rb /\
    is_fraction (ka + kb) (length (feature_rows a) + length (feature_rows b)) rc.
Proof.
  intros HS (La & Na & Fa) (Lb & Nb & Fb) HN HT. pose proof (correct_together predict a b c La HT) as HC. destruct HT as [H1 H2].
  assert (HL : length (feature_rows c) = length (feature_rows a) + length (feature_rows b)) by (rewrite H1; apply app_length).
  destruct (HS a La Na ltac:(lia) Fa) as (ra & Ea & Ra). destruct (HS b Lb Nb ltac:(lia) Fb) as (rb & Eb & Rb).
  destruct (HS c) as (rc & Ec & Rc).
  - rewrite H1, H2, !app_length. congruence.
  - rewrite H1. destruct (feature_rows a); [congruence|discriminate].
  - exact HN.
  - rewrite H1. apply Forall_app. auto.
  - do 2 eexists. exists ra, rb, rc. split; [exact Ea|]. split; [exact Eb|]. split; [exact Ec|]. split; [exact Ra|]. split; [exact Rb|].
    rewrite <- HC, <- HL. exact Rc.
Qed.

End Union2.
