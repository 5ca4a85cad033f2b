(** Two data sets whose labels differ by a power of two: the regression trees and ensembles in binary64. *)
From Coq Require Import Reals Lra Lia ZArith Bool List.
From Flocq Require Import Core.
From Flocq Require Import IEEE754.BinarySingleNaN.
From Verif Require Import Base Num F64 ModelCommon ModelTree ModelBoost Lib Spec SpecTree SpecScore SpecFit SpecMirror SpecScale ProofData ProofSort ProofSplit ProofSplit2
  ProofTree ProofTree3 ProofScore ProofBoost ProofBoost2 ProofRel ProofRound ProofError ProofMirror ProofNull ProofNull2 ProofScale.
Import ListNotations.
Local Open Scope R_scope.

Section Scale.
Variable P : platform.
Local Notation O := (f64_ops P).
Local Existing Instance f64_ops.
Variable k : Z.

Local Notation bpow := (bpow radix2).
Local Notation num j := (f64_of_Z (Z.of_nat j)).

(** Labels, means, and numbers built from squares of labels. *)
Definition lab : f64 -> f64 -> Prop := sc k (-302) 1 250.
Definition mea : f64 -> f64 -> Prop := sc k (-394) 1 291.
Definition vari : f64 -> f64 -> Prop := sc (k + k) (-880) 1 623.
Definition loss : f64 -> f64 -> Prop := sc (k + k) (-972) 1 710.

Definition many (j : nat) : Prop := (Z.of_nat j <= 2 ^ 40)%Z.

(** A number, or an infinity on both sides. *)
Definition ext (x y : f64) : Prop := loss x y \/ exists s, x = B754_infinity s /\ y = B754_infinity s.

Lemma less_ext x x' y y' : ext x x' -> ext y y' -> Bltb x y = Bltb x' y'.
Proof.
  intros [H|(s & -> & ->)] [G|(t & -> & ->)].
  - eapply less_sc; [exact H|exact G].
  - destruct H as [H1 H2 _ _ _ _ _]. destruct x as [| | |], x' as [| | |]; try discriminate; reflexivity.
  - destruct G as [H1 H2 _ _ _ _ _]. destruct y as [| | |], y' as [| | |]; try discriminate; reflexivity.
  - reflexivity.
Qed.
Lemma zero_ext x x' : ext x x' -> Beqb x (B754_zero false) = Beqb x' (B754_zero false).
Proof. intros [H|(s & -> & ->)]; [eapply zero_eqb_sc; exact H|reflexivity]. Qed.
Lemma gain_ext v v' x x' :
  sc (k + k) (-972) 1 705 v v' -> (sc (k + k) (-972) 1 705 x x' \/ exists s, x = B754_infinity s /\ x' = B754_infinity s) ->
  ext (Bminus mode_NE v x) (Bminus mode_NE v' x').
Proof.
  intros H [G|(s & -> & ->)].
  - left. eapply (sc_shift _ (-972) (1 + 1) 705 (-972) 1 710); try lia. eapply minus_sc; eauto; lia.
  - right. destruct H as [H1 H2 _ _ _ _ _]. exists (negb s).
    destruct v as [| | |], v' as [| | |]; try discriminate; destruct s; auto.
Qed.

Definition tracker_sc (b : Z) (j : nat) (t t' : @tracker O) : Prop :=
  tr_n t = num j /\ tr_n t' = num j /\ Forall2 (sc k (-302) b 250) (lm_sum (tr_m t)) (lm_sum (tr_m t')) /\
  Forall2 (sc (k + k) (-604) b 500) (lm_sumsq (tr_m t)) (lm_sumsq (tr_m t')) /\
  ((1 <= j)%nat -> Forall2 mea (lm_mean (tr_m t)) (lm_mean (tr_m t'))).

Lemma square_lab x x' : lab x x' -> sc (k + k) (-604) 1 500 (Bmult mode_NE x x) (Bmult mode_NE x' x').
Proof. intros H. apply (mult_sc k k (-302) (-302) 250 250); try lia; auto. Qed.

Lemma mean_sc b j s s' : many j -> (0 <= b <= 2 ^ 41)%Z -> Forall2 (sc k (-302) b 250) s s' -> (1 <= j)%nat ->
  Forall2 mea (map (fun s : f64 => Bdiv mode_NE s (num j)) s) (map (fun s : f64 => Bdiv mode_NE s (num j)) s').
Proof.
  intros Hj Hb Hs H1. eapply map_rel; [|exact Hs]. intros x x' Hx. cbn beta.
  eapply (sc_shift _ (-394) b 250 (-394) 41 291); try lia. apply (div_sc k (-302) b 250); auto; lia.
Qed.

Lemma pleft_sc b j t t' (l l' : list f64) : (many (S j)) -> (0 <= b < 2 ^ 41)%Z -> tracker_sc b j t t' -> Forall2 lab l l' ->
  tracker_sc (b + 1) (S j) (pleft t l) (pleft t' l').
Proof.
  intros Hj Hb (N1 & N2 & Hs & Hq & _) Hl. unfold pleft, tracker_sc. cbn [tr_n tr_m lm_sum lm_sumsq lm_mean].
  assert (U : @fadd O (num j) f1 = num (S j)) by (apply (co_up _ (f64_countable P) j); unfold few, many in *; lia).
  rewrite N1, N2, U. split; auto. split; auto.
  assert (H : Forall2 (sc k (-302) (b + 1) 250) (map2 (@fadd O) (lm_sum (tr_m t)) l) (map2 (@fadd O) (lm_sum (tr_m t')) l')).
  { eapply map2_rel; [|exact Hs|exact Hl]. intros. apply plus_sc; auto; lia. }
  split; auto. split; [|intros H1; apply (mean_sc (b + 1) (S j)); auto; lia].
  eapply map2_rel; [|exact Hq|exact Hl]. intros. apply plus_sc; try lia; auto. now apply square_lab.
Qed.

Lemma pright_sc b j t t' (l l' : list f64) : (many (S j)) -> (0 <= b < 2 ^ 41)%Z -> tracker_sc b (S j) t t' -> Forall2 lab l l' ->
  tracker_sc (b + 1) j (pright t l) (pright t' l').
Proof.
  intros Hj Hb (N1 & N2 & Hs & Hq & _) Hl. unfold pright, tracker_sc. cbn [tr_n tr_m lm_sum lm_sumsq lm_mean].
  assert (U : @fsub O (num (S j)) f1 = num j) by (apply (co_down _ (f64_countable P) j); unfold few, many in *; lia).
  rewrite N1, N2, U. split; auto. split; auto.
  assert (H : Forall2 (sc k (-302) (b + 1) 250) (map2 (@fsub O) (lm_sum (tr_m t)) l) (map2 (@fsub O) (lm_sum (tr_m t')) l')).
  { eapply map2_rel; [|exact Hs|exact Hl]. intros. apply minus_sc; auto; lia. }
  split; auto. split; [|intros H1; apply (mean_sc (b + 1) j); auto; unfold many in *; lia].
  eapply map2_rel; [|exact Hq|exact Hl]. intros. apply minus_sc; try lia; auto. now apply square_lab.
Qed.

Lemma pvar_sc b j t t' : many j -> (1 <= j)%nat -> (0 <= b <= 2 ^ 41)%Z -> tracker_sc b j t t' ->
  Forall2 vari (pvar (O:=O) (tr_m t) (num j)) (pvar (O:=O) (tr_m t') (num j)).
Proof.
  intros Hj H1 Hb (N1 & N2 & Hs & Hq & Hm). unfold pvar. eapply map2_rel; [|exact (Hm H1)|exact Hq].
  intros x x' y y' Hx Hy. unfold calculate_variance, mea, vari in *. cbn [fdiv fsub fmul O f64_ops].
  apply (sc_shift _ (-880) 2 622 (-880) 1 623); try lia. apply (div_sc (k + k) (-788) 2 622); auto; try lia.
  change 2%Z with (1 + 1)%Z. apply minus_sc; try lia.
  - eapply (sc_shift _ (-604) b 500 (-788) 41 622); try lia. exact Hy.
  - replace (k + k)%Z with (0 + (k + k))%Z at 1 by lia. apply (mult_sc 0 (k + k) 0 (-788) 40 582); try lia.
    + apply count_sc; auto. lia.
    + apply (mult_sc k k (-394) (-394) 291 291); auto; lia.
Qed.

Lemma fsum_sc q B l l' : (-1022 <= q)%Z -> (-1074 <= B <= 900)%Z -> many (length l) -> Forall2 (sc (k + k) q 1 B) l l' ->
  sc (k + k) q 1 (B + 40) (fsum (O:=O) l) (fsum (O:=O) l').
Proof.
  intros Hq HB Hn H. eapply (sc_shift _ q (Z.of_nat (length l)) B q 40 (B + 40)); try lia; [exact Hn|]. unfold many in Hn. unfold fsum.
  cut (forall (c : nat) (a a' : f64), (Z.of_nat c + Z.of_nat (length l) <= 2 ^ 40)%Z -> sc (k + k) q (Z.of_nat c) B a a' ->
     sc (k + k) q (Z.of_nat (c + length l)) B (fold_left (@fadd O) l a) (fold_left (@fadd O) l' a')).
  { intros HI. apply (HI 0%nat); [cbn [Z.of_nat]; lia|]. cbn [fsum0 O f64_ops]. destruct (p_sum_from_negative_zero P); apply zero_sc; cbn; lia. }
  clear Hn. induction H as [|x x' l l' Hx H IH]; intros c a a' Hc Ha; cbn [fold_left length] in *; [now rewrite Nat.add_0_r|].
  replace (c + S (length l))%nat with (S c + length l)%nat by lia. apply IH; [lia|].
  replace (Z.of_nat (S c)) with (Z.of_nat c + 1)%Z by lia. apply plus_sc; auto; lia.
Qed.

Lemma ploss_sc b c i j nt l l' r r' : many (i + j) -> (1 <= i)%nat -> (1 <= j)%nat -> (0 <= b <= 2 ^ 41)%Z -> (0 <= c <= 2 ^ 41)%Z ->
  many nt -> (length (lm_sumsq (tr_m l)) <= nt)%nat ->
  tracker_sc b i l l' -> tracker_sc c j r r' -> sc (k + k) (-972) 1 704 (ploss (O:=O) l r) (ploss (O:=O) l' r').
Proof.
  intros Hij Hi Hj Hb Hc Hnt Hlen HL HR. pose proof HL as (N1 & N2 & _). pose proof HR as (N3 & N4 & _). unfold ploss.
  assert (U : @fadd O (num i) (num j) = num (i + j)) by (apply (co_add _ (f64_countable P) i j); unfold few, many in *; lia).
  rewrite N1, N2, N3, N4, U.
  assert (Oi : many i) by (unfold many in *; lia). assert (Oj : many j) by (unfold many in *; lia).
  assert (HW : forall a x x', many a -> vari x x' -> sc (k + k) (-972) 1 663 (@fmul O (@fdiv O (num a) (num (i + j))) x) (@fmul O (@fdiv O (num a) (num (i + j))) x')).
  { intros a x x' Ha Hx. replace (k + k)%Z with (0 + (k + k))%Z by lia. apply (mult_sc 0 (k + k) (-92) (-880) 40 623); try lia; auto.
    apply (div_sc 0 0 1 40); try lia; auto. apply count_sc; auto. lia. }
  change 704%Z with (664 + 40)%Z. apply fsum_sc; try lia.
  - rewrite map2_length. unfold pvar. rewrite map2_length. unfold many in *. lia.
  - eapply map2_rel; [|eapply (pvar_sc b i); eauto|eapply (pvar_sc c j); eauto]. intros x x' y y' Hx Hy. cbn beta.
    apply (sc_shift _ (-972) (1 + 1) 663 (-972) 1 664); try lia. apply plus_sc; try lia; apply HW; auto.
Qed.

(** The best threshold so far. *)
Definition bestloss (x y : f64) : Prop := sc (k + k) (-972) 1 704 x y \/ exists s, x = B754_infinity s /\ y = B754_infinity s.
Lemma bestloss_ext x y : bestloss x y -> ext x y.
Proof. intros [H|H]; [left|now right]. eapply (sc_shift _ (-972) 1 704 (-972) 0 710); try lia. exact H. Qed.

Definition thr (b b' : @best_threshold O) : Prop := bestloss (bt_loss b) (bt_loss b') /\ bt_threshold b = bt_threshold b'.
Definition value_sc (v v' : f64 * list f64) : Prop := fst v = fst v' /\ Forall2 lab (snd v) (snd v').

Definition scan_sc (nt : nat) (b c : Z) (i j : nat) (s s' : @scan_state O) : Prop :=
  thr (sc_best s) (sc_best s') /\ (length (lm_sumsq (tr_m (sc_left s))) <= nt)%nat /\
  tracker_sc b i (sc_left s) (sc_left s') /\ tracker_sc c j (sc_right s) (sc_right s').

Lemma pstep_sc nt (prev : f64) b c i j s s' v v' : many nt -> many (i + S j) -> (0 <= b < 2 ^ 41)%Z -> (0 <= c < 2 ^ 41)%Z -> (i = 0%nat -> Beqb (fst v) prev = true) ->
  scan_sc nt b c i (S j) s s' -> value_sc v v' -> scan_sc nt (b + 1) (c + 1) (S i) j (pstep (O:=O) prev s v) (pstep (O:=O) prev s' v').
Proof.
  intros Hnt Hok Hb Hc H0 ((Hl & Ht) & Hn & HL & HR) (Ev & Hv). destruct v as [x l], v' as [x' l']. cbn [fst snd] in *. subst x'.
  unfold pstep, scan_sc. cbn [sc_best sc_left sc_right fst snd].
  split; [|split; [|split; [apply pleft_sc; auto|apply pright_sc; auto]]]; try (unfold many in *; lia).
  - cbn [feqb fltb O f64_ops]. destruct (Beqb x prev) eqn:Ef; cbn [negb]; [split; auto|].
    assert (Hi : (1 <= i)%nat) by (destruct i; [specialize (H0 eq_refl); congruence|lia]).
    assert (H1 : bestloss (ploss (O:=O) (sc_left s) (sc_right s)) (ploss (O:=O) (sc_left s') (sc_right s'))) by (left; apply (ploss_sc b c i (S j) nt); auto; lia).
    rewrite <- (less_ext _ _ _ _ (bestloss_ext _ _ H1) (bestloss_ext _ _ Hl)).
    destruct (Bltb _ _); split; auto.
  - unfold pleft. cbn [tr_m lm_sumsq]. rewrite map2_length. lia.
Qed.

Lemma zero_tracker_sc nt : tracker_sc 0 0 (zero_tracker (O:=O) nt) (zero_tracker (O:=O) nt).
Proof.
  unfold tracker_sc, zero_tracker. cbn [tr_n tr_m lm_sum lm_sumsq lm_mean].
  split; [symmetry; apply (co_0 _ (f64_countable P))|]. split; [symmetry; apply (co_0 _ (f64_countable P))|].
  split; [apply repeat_rel; apply zero_sc; lia|]. split; [apply repeat_rel; apply zero_sc; lia|]. lia.
Qed.

Lemma pscan_sc nt t t' v v' : many nt -> many (length v) -> tracker_sc (Z.of_nat (length v)) (length v) t t' -> Forall2 value_sc v v' ->
  (forall x l, hd_error v = Some (x, l) -> Beqb x x = true) -> thr (sc_best (pscan (O:=O) nt t v)) (sc_best (pscan (O:=O) nt t' v')).
Proof.
  intros Hnt Hok Ht Hv Hh.
  assert (H0 : scan_sc nt 0 (Z.of_nat (length v)) 0 (length v) (mkScan (O:=O) (mkBT (O:=O) (@finf O) (@f0 O)) (zero_tracker (O:=O) nt) t) (mkScan (O:=O) (mkBT (O:=O) (@finf O) (@f0 O)) (zero_tracker (O:=O) nt) t')).
  { split; [split; [right; exists false; split; reflexivity|reflexivity]|]. split; [cbn; rewrite repeat_length; lia|]. split; auto. apply zero_tracker_sc. }
  unfold pscan. destruct Hv as [|[x l] [x' l'] v v' Hx Hv]; [apply H0|]. pose proof Hx as [Ex _]. cbn [fst] in Ex. subst x'.
  specialize (Hh x l eq_refl). set (N := length ((x, l) :: v)) in *.
  cut (forall i w w' s s', Forall2 value_sc w w' -> (i + length w = N)%nat -> (i = 0%nat -> forall y, hd_error w = Some y -> Beqb (fst y) x = true) ->
    scan_sc nt (Z.of_nat i) (Z.of_nat (N + i)) i (length w) s s' -> thr (sc_best (fold_left (pstep (O:=O) x) w s)) (sc_best (fold_left (pstep (O:=O) x) w' s'))).
  { intros HI. apply (HI 0%nat); auto.
    - intros _ y Ey. injection Ey as <-. exact Hh.
    - rewrite Nat.add_0_r. exact H0. }
  clear Hv Hx Hh Ht H0. clearbody N. intros i w w' s s' Hw. revert i s s'. induction Hw as [|y y' w w' Hy Hw IH]; intros i s s' HN Hh Hs; [apply Hs|].
  cbn [fold_left length] in *. apply (IH (S i)).
  - lia.
  - discriminate.
  - replace (Z.of_nat (S i)) with (Z.of_nat i + 1)%Z by lia. replace (Z.of_nat (N + S i)) with (Z.of_nat (N + i) + 1)%Z by lia.
    unfold many in Hok. apply pstep_sc; auto; unfold many; lia.
Qed.

Lemma colsum_sc nt (ls ls' : list (list f64)) : many (length ls) -> Forall2 (Forall2 lab) ls ls' ->
  Forall2 (sc k (-302) (Z.of_nat (length ls)) 250) (colsum (O:=O) nt ls) (colsum (O:=O) nt ls').
Proof.
  intros Hok H. unfold colsum, many in *.
  cut (forall (i : nat) (a a' : list f64), (Z.of_nat (i + length ls) <= 2 ^ 40)%Z -> Forall2 (sc k (-302) (Z.of_nat i) 250) a a' ->
    Forall2 (sc k (-302) (Z.of_nat (i + length ls)) 250) (fold_left (map2 (@fadd O)) ls a) (fold_left (map2 (@fadd O)) ls' a')).
  { intros HI. apply (HI 0%nat); auto. apply repeat_rel, zero_sc. cbn; lia. }
  clear Hok. induction H as [|l l' ls ls' Hl H IH]; intros i a a' Hok Ha; cbn [fold_left length] in *; [now rewrite Nat.add_0_r|].
  replace (i + S (length ls))%nat with (S i + length ls)%nat by lia. apply IH; [lia|].
  eapply map2_rel; [|exact Ha|exact Hl]. intros. replace (Z.of_nat (S i)) with (Z.of_nat i + 1)%Z by lia. apply plus_sc; auto; lia.
Qed.

Lemma colsumsq_sc nt (ls ls' : list (list f64)) : many (length ls) -> Forall2 (Forall2 lab) ls ls' ->
  Forall2 (sc (k + k) (-604) (Z.of_nat (length ls)) 500) (colsumsq (O:=O) nt ls) (colsumsq (O:=O) nt ls').
Proof.
  intros Hok H. unfold colsumsq, many in *.
  cut (forall (i : nat) (a a' : list f64), (Z.of_nat (i + length ls) <= 2 ^ 40)%Z -> Forall2 (sc (k + k) (-604) (Z.of_nat i) 500) a a' ->
    Forall2 (sc (k + k) (-604) (Z.of_nat (i + length ls)) 500) (fold_left (map2 (sqacc (O:=O))) ls a) (fold_left (map2 (sqacc (O:=O))) ls' a')).
  { intros HI. apply (HI 0%nat); auto. apply repeat_rel, zero_sc. cbn; lia. }
  clear Hok. induction H as [|l l' ls ls' Hl H IH]; intros i a a' Hok Ha; cbn [fold_left length] in *; [now rewrite Nat.add_0_r|].
  replace (i + S (length ls))%nat with (S i + length ls)%nat by lia. apply IH; [lia|].
  eapply map2_rel; [|exact Ha|exact Hl]. intros. replace (Z.of_nat (S i)) with (Z.of_nat i + 1)%Z by lia. unfold sqacc. apply plus_sc; auto; try lia.
  now apply square_lab.
Qed.

Lemma pmetrics_sc nt (ls ls' : list (list f64)) : many (length ls) -> Forall2 (Forall2 lab) ls ls' ->
  tracker_sc (Z.of_nat (length ls)) (length ls) (ptotal (O:=O) nt ls) (ptotal (O:=O) nt ls').
Proof.
  intros Hok H. unfold ptotal, tracker_sc, pmetrics. cbn [tr_n tr_m lm_sum lm_sumsq lm_mean].
  assert (EL : @length (list (@F O)) ls' = @length (list (@F O)) ls) by (symmetry; exact (Forall2_length _ _ _ H)). rewrite EL.
  split; [reflexivity|]. split; [reflexivity|]. split; [now apply colsum_sc|]. split; [now apply colsumsq_sc|].
  intros H1. apply (mean_sc (Z.of_nat (length ls)) (length ls)); auto; [unfold many in Hok; lia|now apply colsum_sc].
Qed.

Lemma colmean_sc nt (ls ls' : list (list f64)) : many (length ls) -> ls <> [] -> Forall2 (Forall2 lab) ls ls' ->
  Forall2 mea (colmean (O:=O) nt ls) (colmean (O:=O) nt ls').
Proof.
  intros Hok Hne H. destruct (pmetrics_sc nt ls ls' Hok H) as (_ & _ & _ & _ & Hm). apply Hm. destruct ls; [congruence|cbn; lia].
Qed.

Definition spl (b b' : @best_split O) : Prop := ext (bs_gain b) (bs_gain b') /\ bs_question b = bs_question b'.

Lemma fold_keeps_length {A} (f : list A -> list f64 -> list A) ls a : (forall a l, length (f a l) <= length a)%nat -> (length (fold_left f ls a) <= length a)%nat.
Proof. intros Hf. revert a. induction ls as [|l ls IH]; intros a; cbn [fold_left]; [lia|]. specialize (IH (f a l)). specialize (Hf a l). lia. Qed.

Lemma pfind_sc nt (ls ls' : list (list f64)) cs cs' : many nt -> many (length ls) -> ls <> [] ->
  Forall2 (Forall2 lab) ls ls' -> Forall2 (fun v v' => length v = length ls /\ (forall x l, hd_error v = Some (x, l) -> Beqb x x = true) /\ Forall2 value_sc v v') cs cs' ->
  spl (pfind (O:=O) nt ls cs) (pfind (O:=O) nt ls' cs').
Proof.
  intros Hnt Hok Hne Hl Hcs. unfold pfind, pselect. pose proof (pmetrics_sc nt ls ls' Hok Hl) as HT.
  assert (Hv : sc (k + k) (-972) 1 705 (ptotal_variance (O:=O) nt ls) (ptotal_variance (O:=O) nt ls')).
  { unfold ptotal_variance.
    assert (EL : @length (list (@F O)) ls' = @length (list (@F O)) ls) by (symmetry; exact (Forall2_length _ _ _ Hl)). rewrite EL. cbn [f_of_nat O f64_ops].
    eapply (sc_shift _ (-880) 1 (623 + 40) (-972) 0 705); try lia. apply fsum_sc; try lia.
    - unfold pvar. rewrite map2_length. unfold pmetrics. cbn [lm_sumsq lm_mean]. unfold colsumsq.
      assert (length (fold_left (map2 (sqacc (O:=O))) ls (repeat f0 nt)) <= length (repeat (@f0 O) nt))%nat by (apply fold_keeps_length; intros; rewrite map2_length; lia).
      rewrite repeat_length in H. unfold many in *. lia.
    - apply (pvar_sc (Z.of_nat (length ls)) (length ls) (ptotal (O:=O) nt ls) (ptotal (O:=O) nt ls')); auto.
      + destruct ls; [congruence|cbn; lia].
      + unfold many in Hok. lia. }
  eapply (fold_rel spl (fun p p' : nat * @best_threshold O => fst p = fst p' /\ thr (snd p) (snd p'))).
  - intros b b' [i r] [i' r'] (Hg & Eq) (Ei & Hr & Er). cbn [fst snd] in *. subst i'. unfold pselect_step. cbn [fst snd].
    assert (H : ext (@fsub O (ptotal_variance (O:=O) nt ls) (bt_loss r)) (@fsub O (ptotal_variance (O:=O) nt ls') (bt_loss r'))).
    { apply gain_ext; auto.
      destruct Hr as [Hr|Hr]; [left|now right]. eapply (sc_shift _ (-972) 1 704 (-972) 0 705); try lia. exact Hr. }
    cbn [fltb O f64_ops]. rewrite <- (less_ext _ _ _ _ Hg H). destruct (Bltb _ _); split; auto. cbn [bs_question]. now rewrite Er.
  - apply enumerate_rel. eapply map_rel; [|exact Hcs]. intros v v' (Lv & Hh & H). unfold pcolumn.
    assert (Lv' : @length (f64 * list f64) v = @length (list f64) ls) by exact Lv.
    apply pscan_sc; auto; rewrite Lv'; auto.
  - split; [left; apply zero_sc; lia|reflexivity].
Qed.

(* ------------------------------------------------------------------ *)
(** ** Trees *)

Lemma find_sc nc nt (d d' : @dataset O) b : many nt -> many (length (labels d)) -> data_rel (O:=O) lab nc nt d d' -> find_best_split d (N.of_nat nt) = Ok b ->
  exists b', find_best_split d' (N.of_nat nt) = Ok b' /\ spl b b'.
Proof.
  intros Hnt Hok (W & W' & Er & Ec & Hl) Eb. rewrite (find_best_split_eq (f64_laws P) nc nt d W) in Eb. injection Eb as <-.
  exists (pfind (O:=O) nt (labels d') (dvls (O:=O) d')). split; [exact (find_best_split_eq (f64_laws P) nc nt d' W')|].
  apply pfind_sc; auto; [eapply (wf_some_labels (O:=O)); eauto|]. unfold dvls. rewrite Ec.
  assert (H : forall col, In col (feature_columns d) -> Forall (is_num (O:=O)) col) by (intros col; apply (wf_column_num _ _ _ _ W)).
  assert (HLc : forall col, In col (feature_columns d) -> length col = length (labels d)).
  { intros col Hin. apply In_nth_error in Hin as (j & Hj). destruct (proj2 (wf_columns _ _ _ W) j col Hj) as [L _]. rewrite L. symmetry. apply (wf_lengths _ _ _ W). }
  revert H HLc. generalize (feature_columns d) as cols. induction cols as [|col cols IH]; intros H HLc; cbn [map]; constructor; [|apply IH; intros; [apply H|apply HLc]; now right].
  pose proof (H col (or_introl eq_refl)) as Hn. destruct (the_sort_spec (f64_laws P) col Hn) as [_ Hsv]. pose proof Hsv as [Hperm _].
  assert (Lc := HLc col (or_introl eq_refl)).
  pose proof (sorted_version_length _ _ Hsv) as LL.
  split; [unfold vls_of; rewrite map_length; first [exact (eq_trans LL Lc)|exact (eq_trans (eq_sym LL) Lc)]|]. split.
  - intros x l Hh. unfold vls_of in Hh. destruct (the_sort (O:=O) col) as [|[y i] r] eqn:Es; [discriminate|]. cbn in Hh. injection Hh as <- _.
    assert (Hin : nth_error col i = Some y) by (apply (value_positions_In col (y, i)); eapply Permutation.Permutation_in; [exact Hperm|now left]).
    rewrite Forall_forall in Hn. specialize (Hn y (nth_error_In _ _ Hin)). pose proof (feqb_fleb _ (f64_laws P) y y) as Q. unfold is_num in Hn. rewrite Hn in Q. exact Q.
  - exact (vls_rel (O:=O) lab _ _ _ Hl).
Qed.

Lemma stop_sc b b' level top : spl b b' -> stop_here (O:=O) b' level top = stop_here (O:=O) b level top.
Proof.
  intros (Hg & _). unfold stop_here. assert (E : @feqb O (bs_gain b') (@f0 O) = @feqb O (bs_gain b) (@f0 O)) by (symmetry; exact (zero_ext _ _ Hg)). now rewrite E.
Qed.

Lemma built_sc {L} (mk : @dataset O -> res L) nc nt (cfg : @tree_config O) level (d d' : @dataset O) t t' :
  standard cfg -> tc_number_of_classes cfg = N.of_nat nt -> many nt -> many (length (labels d)) ->
  built mk cfg level d t -> built mk cfg level d' t' -> data_rel (O:=O) lab nc nt d d' ->
  tree_map (fun _ => tt) t' = tree_map (fun _ => tt) t /\
  forall row,
    (find_leaf_node_for_data row t = Panic /\ find_leaf_node_for_data row t' = Panic) \/
    exists x x' l l', find_leaf_node_for_data row t = Ok l /\ mk x = Ok l /\
      find_leaf_node_for_data row t' = Ok l' /\ mk x' = Ok l' /\ data_rel (O:=O) lab nc nt x x' /\ many (length (labels x)).
Proof.
  intros St Hn Hnt Hok B. revert d' t'.
  assert (Hf : forall (d d' : @dataset O) b, many (length (labels d)) -> data_rel (O:=O) lab nc nt d d' -> tc_split_finder cfg d (tc_number_of_classes cfg) = Ok b ->
    exists b', tc_split_finder cfg d' (tc_number_of_classes cfg) = Ok b' /\ spl b b').
  { intros x x' b Ho M Eb. rewrite St, Hn in *. cbn [split_finder_new] in *. eapply find_sc; eauto. }
  induction B as [level d b l Es Est El|level d b fd td t f Es Est Ep Bt IHt Bf IHf]; intros d' t' B' M.
  - destruct (Hf _ _ _ Hok M Es) as (b' & Es' & Hb). pose proof (stop_sc b b' level (tc_max_levels cfg) Hb) as Est'.
    destruct (built_inv _ _ _ _ _ _ B' Es') as [(_ & l' & El' & ->)|(X & _)]; [|congruence].
    rewrite <- (proj2 Hb). split; [reflexivity|]. intros row. right. exists d, d', l, l'. auto 6.
  - destruct (Hf _ _ _ Hok M Es) as (b' & Es' & Hb). pose proof (stop_sc b b' level (tc_max_levels cfg) Hb) as Est'.
    destruct (built_inv _ _ _ _ _ _ B' Es') as [(X & _)|(_ & fd' & td' & a & e & Ep' & Ba & Bc & ->)]; [congruence|].
    rewrite <- (proj2 Hb) in *. destruct (partition_rel _ _ _ _ _ _ _ _ _ _ M Ep Ep') as [Mf Mt].
    pose proof (partition_shrinks _ _ _ _ Ep) as [S1 S2].
    assert (Sl : (length (labels fd) <= length (labels d) /\ length (labels td) <= length (labels d))%nat).
    { destruct M as (W & _). destruct Mf as (Wf & _). destruct Mt as (Wt & _). rewrite (wf_lengths _ _ _ W), (wf_lengths _ _ _ Wf), (wf_lengths _ _ _ Wt). lia. }
    assert (Of : many (length (labels fd))) by (unfold many in *; lia).
    assert (Ot : many (length (labels td))) by (unfold many in *; lia).
    destruct (IHt Ot _ _ Ba Mt) as [T1 T2]. destruct (IHf Of _ _ Bc Mf) as [F1 F2].
    split; [cbn; now rewrite T1, F1|]. intros row. cbn [node_new find_leaf_node_for_data].
    assert (HS : solve (bs_question b) row = Panic \/ exists v, solve (bs_question b) row = Ok v).
    { unfold solve, idxN, idx; destruct (_ <? _)%N; [|left; reflexivity]; match goal with |- context [nth_error row ?i] => destruct (nth_error row i) end; cbn [bind]; [right; eexists; reflexivity|left; reflexivity]. }
    destruct HS as [->|([|] & ->)]; cbn [bind]; [left; auto|apply T2|apply F2].
Qed.

Theorem tree_sc nc nt (d d' : @dataset O) (cfg : @tree_config O) t t' :
  standard cfg -> tc_number_of_classes cfg = N.of_nat nt -> many nt -> many (length (labels d)) -> data_rel (O:=O) lab nc nt d d' ->
  regression_tree_new d cfg = Ok t -> regression_tree_new d' cfg = Ok t' ->
  tree_map (fun _ => tt) t' = tree_map (fun _ => tt) t /\
  forall row, result_rel (Forall2 mea) (tree_prediction row t) (tree_prediction row t').
Proof.
  intros Hst Hn Hnt Hok M E1 E2. rewrite regression_tree_new_eq in E1, E2. apply build_with_built in E1. apply build_with_built in E2.
  destruct (built_sc _ _ _ _ _ _ _ _ _ Hst Hn Hnt Hok E1 E2 M) as [A B]. split; auto. intros row. unfold result_rel.
  unfold tree_prediction. destruct (B row) as [[-> ->]|(x & x' & l & l' & -> & X1 & -> & X2 & (Wx & Wx' & _ & _ & Hl) & Ox)]; [left; auto|right].
  unfold mk_reg in X1, X2. cbn [bind] in *. injection X1 as <-. injection X2 as <-. cbn [rl_data unwrap bind].
  exists (colmean (O:=O) nt (labels x)), (colmean (O:=O) nt (labels x')).
  rewrite !(avg_label_eq (O:=O) nt) by (eauto using (@wf_some_labels O), wf_labels). split; auto. split; auto.
  apply colmean_sc; auto. eapply (wf_some_labels (O:=O)); eauto.
Qed.

Lemma gb_tree_sc nc nt (d d' : @dataset O) (cfg : @tree_config O) t t' :
  standard cfg -> tc_number_of_classes cfg = N.of_nat nt -> many nt -> many (length (labels d)) -> data_rel (O:=O) lab nc nt d d' ->
  grad_boost_tree_new d cfg (leaf_output_calculator_new Regression) = Ok t ->
  grad_boost_tree_new d' cfg (leaf_output_calculator_new Regression) = Ok t' ->
  tree_map (fun _ => tt) t' = tree_map (fun _ => tt) t /\
  forall row, result_rel (fun o o' => length o = nt /\ Forall2 mea o o') (gb_out (O:=O) row t) (gb_out (O:=O) row t').
Proof.
  intros Hst Hn Hnt Hok M E1 E2. rewrite grad_boost_tree_new_eq in E1, E2. apply build_with_built in E1. apply build_with_built in E2.
  destruct (built_sc _ _ _ _ _ _ _ _ _ Hst Hn Hnt Hok E1 E2 M) as [A B]. split; auto. intros row. unfold result_rel.
  unfold gb_out. destruct (B row) as [[-> ->]|(x & x' & l & l' & -> & X1 & -> & X2 & (Wx & Wx' & _ & _ & Hl) & Ox)]; [left; auto|right].
  unfold mk_gb in X1, X2. cbn [leaf_output_calculator_new] in X1, X2. unfold calculate_leaf_output_squared_loss in X1, X2.
  rewrite (calculate_average_f64_vector_eq (O:=O) nt) in X1, X2 by (eauto using (@wf_some_labels O), wf_labels).
  cbn [bind] in *. injection X1 as <-. injection X2 as <-. cbn [gl_output unwrap bind].
  exists (colmean (O:=O) nt (labels x)), (colmean (O:=O) nt (labels x')).
  pose proof (wf_labels _ _ _ Wx) as R1.
  split; auto. split; auto. split; [unfold colmean; rewrite map_length, colsum_length by (now apply rect_ge); reflexivity|].
  apply colmean_sc; auto. eapply (wf_some_labels (O:=O)); eauto.
Qed.

(* ------------------------------------------------------------------ *)
(** ** Regression ensembles *)

Definition out_sc (nt : nat) (t t' : tree_node (@grad_boost_leaf O)) : Prop :=
  tree_map (fun _ => tt) t' = tree_map (fun _ => tt) t /\
  forall row, result_rel (fun o o' => length o = nt /\ Forall2 mea o o') (gb_out (O:=O) row t) (gb_out (O:=O) row t').

(** Answers after at most 2^40 trees. *)
Definition ans : f64 -> f64 -> Prop := sc k (-546) (1 + 2 ^ 40) 391.

Lemma raw_sc nt (lr : f64) (g g' : list f64) row ts ts' : sc 0 (-152) 1 100 lr lr -> many (length ts) ->
  length g = nt -> Forall2 mea g g' -> Forall2 (out_sc nt) ts ts' ->
  result_rel (Forall2 ans) (raw (O:=O) (gb_out (O:=O)) lr g row ts) (raw (O:=O) (gb_out (O:=O)) lr g' row ts').
Proof.
  intros Hlr Hts Hn Hg H.
  assert (D : result_rel (fun os os' => length os = length ts /\ Forall (fun o => length o = nt) os /\ Forall2 (Forall2 mea) os os')
       (mapM (fun t => gb_out (O:=O) row t) ts) (mapM (fun t => gb_out (O:=O) row t) ts')).
  { clear Hts. induction H as [|t t' ts ts' [_ Ht] H IH]; [right; exists [], []; cbn; repeat split; constructor|].
    cbn [mapM]. destruct (Ht row) as [[-> ->]|(o & o' & Eo & Eo' & L1 & Ho)]; [left; auto|].
    rewrite Eo, Eo'. cbn [bind]. destruct IH as [[-> ->]|(os & os' & -> & -> & A0 & A & B)]; [left; auto|right].
    exists (o :: os), (o' :: os'). cbn [bind length]. repeat split; auto. }
  assert (Hw : forall ts, mapM (fun t => o <- gb_out (O:=O) row t;; Ok (weighted (O:=O) lr o)) ts = (os <- mapM (fun t => gb_out (O:=O) row t) ts;; Ok (map (weighted (O:=O) lr) os))).
  { clear. induction ts as [|t ts IH]; [reflexivity|]. cbn [mapM]. destruct (gb_out (O:=O) row t); cbn [bind]; auto. rewrite IH.
    destruct (mapM (fun t : tree_node (@grad_boost_leaf O) => gb_out (O:=O) row t) ts); reflexivity. }
  unfold raw, result_rel. rewrite !Hw. destruct D as [[-> ->]|(os & os' & -> & -> & A0 & A & B)]; [left; auto|right]. cbn [bind].
  rewrite !add_leaf_outputs_eq.
  - eexists _, _. split; [reflexivity|]. split; [reflexivity|].
    cut (forall (i : nat) (h h' : list f64), (Z.of_nat (i + length os) <= 2 ^ 40)%Z -> Forall2 (sc k (-546) (1 + Z.of_nat i) 391) h h' ->
       Forall2 ans (fold_left (map2 (@fadd O)) (map (weighted (O:=O) lr) os) h) (fold_left (map2 (@fadd O)) (map (weighted (O:=O) lr) os') h')).
    { intros HI. apply (HI 0%nat); [rewrite A0; exact Hts|]. eapply Forall2_impl; [|exact Hg]. intros x y Hxy.
      eapply (sc_shift _ (-394) 1 291 (-546) 0 391); try lia. exact Hxy. }
    clear -B Hlr. induction B as [|o o' os os' Ho B IH]; intros i h h' Hi Hh; cbn [map fold_left length] in *.
    + eapply Forall2_impl; [|exact Hh]. intros x y Hxy. eapply sc_weaken; [| |exact Hxy]; [lia|]. apply Rmult_le_compat_r; [apply bpow_ge_0|]. apply IZR_le. lia.
    + apply (IH (S i)); [lia|]. eapply map2_rel; [|exact Hh|eapply map_rel; [|exact Ho]].
      * intros x x' y y' Hx Hy. replace (1 + Z.of_nat (S i))%Z with ((1 + Z.of_nat i) + 1)%Z by lia. apply plus_sc; try lia; [exact Hx|exact Hy].
      * intros x x' Hx. replace k with (0 + k)%Z by lia. apply (mult_sc 0 k (-152) (-394) 100 291); try lia; auto.
  - rewrite Forall_map. assert (EG : @length (@F O) g' = nt) by (rewrite <- Hn; symmetry; exact (Forall2_length _ _ _ Hg)). rewrite EG. clear -A B. induction B as [|o o' os os' Ho B IH]; constructor; inversion A; subst; auto.
    unfold weighted. rewrite map_length. apply Nat.eq_le_incl. exact (Forall2_length _ _ _ Ho).
  - rewrite Forall_map. eapply Forall_impl; [|exact A]. intros o Ho. unfold weighted. rewrite map_length. apply Nat.eq_le_incl. exact (eq_trans Hn (eq_sym Ho)).
Qed.

Lemma differences_sc (ls ls' ps ps' : list (list f64)) : Forall2 (Forall2 lab) ls ls' -> Forall2 (Forall2 ans) ps ps' ->
  Forall2 (Forall2 (fun x y => exists n, sc k (-546) n 391 x y)) (differences (O:=O) ls ps) (differences (O:=O) ls' ps').
Proof.
  intros Hl Hp. unfold differences. eapply map_rel; [|eapply combine_rel; [exact Hl|exact Hp]].
  intros [a b] [a' b'] [Ha Hb]. cbn [fst snd] in *. eapply map_rel; [|eapply combine_rel; [exact Ha|exact Hb]].
  intros [x y] [x' y'] [Hx Hy]. cbn [fst snd] in *. exists (1 + (1 + 2 ^ 40))%Z. apply minus_sc; try lia; [|exact Hy].
  eapply (sc_shift _ (-302) 1 250 (-546) 0 391); try lia. exact Hx.
Qed.

(** A scaled pair of moderate numbers. *)
Lemma moderate_lab x y : (-100 <= k <= 100)%Z -> moderate 150 x -> scaled_by k x y -> lab x y.
Proof.
  intros Hk (_ & M) (Fx & Fy & Ey).
  assert (GR : forall z : f64, B2R z = 0 \/ bpow (-250) <= Rabs (B2R z) -> grid (-302) (B2R z)).
  { intros z [->|Hz]; [apply grid_0|]. rewrite <- (rnd_B2R z). change (-302)%Z with (-250 - 52)%Z. apply rnd_grid_least; [lia|auto]. }
  assert (B : forall z, z = 0 \/ bpow (-250) <= Rabs z <= bpow 250 -> Rabs z <= 1 * bpow 250).
  { intros z [->|Hz]; rewrite Rmult_1_l; [rewrite Rabs_R0; apply bpow_ge_0|lra]. }
  assert (Mx : B2R x = 0 \/ bpow (-250) <= Rabs (B2R x) <= bpow 250).
  { destruct M as [M|M]; [now left|right]. assert (bpow (-250) <= bpow (- (150))) by (apply bpow_le; lia). assert (bpow 150 <= bpow 250) by (apply bpow_le; lia). lra. }
  assert (My : B2R y = 0 \/ bpow (-250) <= Rabs (B2R y) <= bpow 250).
  { rewrite Ey. destruct M as [->|M]; [left; ring|right]. rewrite Rabs_mult, (Rabs_pos_eq (bpow k)) by apply bpow_ge_0.
    split; [apply Rle_trans with (bpow (-100) * bpow (- (150)))|apply Rle_trans with (bpow 100 * bpow 150)].
    - rewrite <- bpow_plus. apply bpow_le. lia.
    - apply Rmult_le_compat; try apply bpow_ge_0; [apply bpow_le; lia|lra].
    - apply Rmult_le_compat; try apply bpow_ge_0; [apply Rabs_pos|apply bpow_le; lia|lra].
    - rewrite <- bpow_plus. apply bpow_le. lia. }
  constructor; auto; apply GR; tauto.
Qed.

Section Boost.
Variables (nc nt : nat) (d d' : @dataset O) (cfg : @tree_config O) (n : nat) (lr : f64) (m m' : @regression_boost_model O).
Hypotheses (Hk : (-100 <= k <= 100)%Z) (Hst : standard cfg) (Hc : tc_number_of_classes cfg = N.of_nat nt) (Hnt : many nt) (Hok : many (length (labels d))) (Hn : many n)
  (M : data_rel (O:=O) lab nc nt d d') (Hlr : sc 0 (-152) 1 100 lr lr)
  (E : regression_boost_train d cfg n lr = Ok m) (E' : regression_boost_train d' cfg n lr = Ok m')
  (HR : forall j preds, (j < n)%nat -> regression_boost_all_predictions (first_trees j m) d = Ok preds ->
          Forall (Forall (moderate 150)) (differences (O:=O) (labels d) preds)).

Lemma guess_sc : m_learning_rate m = lr /\ m_learning_rate m' = lr /\ length (m_initial_guess m) = nt /\
  Forall2 mea (m_initial_guess m) (m_initial_guess m') /\ length (m_trees m) = n /\ length (m_trees m') = n.
Proof.
  pose proof M as (W & W' & _ & _ & Hl).
  destruct (regression_shape nt d cfg n lr m (wf_labels _ _ _ W) E) as (L1 & R1 & G1 & V1).
  destruct (regression_shape nt d' cfg n lr m' (wf_labels _ _ _ W') E') as (L2 & R2 & G2 & V2).
  repeat split; auto.
  apply boosting_loop_Ok in E as (X1 & _). apply boosting_loop_Ok in E' as (X2 & _).
  unfold determine_initial_guess in X1, X2. cbn [td_labels td_data] in X1, X2.
  rewrite (calculate_average_f64_vector_eq (O:=O) nt) in X1, X2 by (eauto using (@wf_some_labels O), wf_labels).
  destruct (idx (labels d) 0) as [a| |]; [|discriminate X1|discriminate X1]. destruct (idx (labels d') 0) as [a'| |]; [|discriminate X2|discriminate X2].
  cbn [bind] in *. injection X1 as <-. injection X2 as <-. apply colmean_sc; auto. eapply (wf_some_labels (O:=O)); eauto.
Qed.

Lemma trees_sc : forall j, (j <= n)%nat -> Forall2 (out_sc nt) (firstn j (m_trees m)) (firstn j (m_trees m')).
Proof.
  pose proof M as (W & W' & Er & Ec & Hl). destruct guess_sc as (R1 & R2 & Ln & Hg & L1 & L2).
  induction j as [|j IH]; intros Hj; [constructor|]. specialize (IH ltac:(lia)).
  destruct (regression_stage _ cfg n lr m j (wf_lengths _ _ _ W) E Hj) as (preds & t & Ep & Hs & Ht & Eb).
  destruct (regression_stage _ cfg n lr m' j (wf_lengths _ _ _ W') E' Hj) as (preds' & t' & Ep' & Hs' & Ht' & Eb').
  rewrite (firstn_next _ _ _ Ht), (firstn_next _ _ _ Ht'). apply Forall2_app; auto. constructor; [|constructor].
  pose proof (HR j preds Hj Ep) as HM.
  unfold regression_boost_all_predictions in Ep, Ep'. rewrite all_predictions_eq in Ep, Ep'. rewrite Er in Ep'.
  assert (HPs : Forall2 (Forall2 ans) preds preds').
  { eapply mapM_rel; [|exact Ep|exact Ep']. intros row _. unfold regression_boost_predict. rewrite !predict_instance_raw.
    cbn [first_trees m_trees m_initial_guess m_learning_rate]. rewrite R1, R2. apply (raw_sc nt); auto.
    rewrite firstn_length. unfold many in *. lia. }
  rewrite Er, Ec in Eb'.
  assert (Wd : forall (x : @dataset O) ps, wf_dataset nc nt x -> feature_rows x = feature_rows d -> feature_columns x = feature_columns d ->
     Forall2 (fun y s : list (@F O) => length y = length s) (labels x) ps ->
     wf_dataset nc nt (mkDS (feature_rows d) (differences (O:=O) (labels x) ps) (feature_columns d)) /\ length (differences (O:=O) (labels x) ps) = length (labels x)).
  { intros x ps Wx Erx Ecx Hx. assert (Rp : rectangular nt ps).
    { pose proof (wf_labels _ _ _ Wx) as R. clear -Hx R. unfold rectangular in *. induction Hx; constructor; inversion R; subst; auto; congruence. }
    destruct (differences_rect nt (labels x) ps (Forall2_length _ _ _ Hx) (wf_labels _ _ _ Wx) Rp) as [Q1 Q2].
    split; auto. rewrite <- Erx, <- Ecx. apply (with_labels_wf nc nt x _ Wx); auto. rewrite Q1. apply (wf_lengths _ _ _ Wx). }
  destruct (Wd d preds W eq_refl eq_refl Hs) as [Wd1 Ld1]. destruct (Wd d' preds' W' Er Ec Hs') as [Wd2 _].
  refine (gb_tree_sc nc nt _ _ cfg t t' Hst Hc Hnt _ _ Eb Eb'); cbn [labels].
  - rewrite Ld1. exact Hok.
  - split; auto. split; auto. cbn [feature_rows feature_columns labels]. split; auto. split; auto.
    pose proof (differences_sc _ _ _ _ Hl HPs) as HD. revert HD HM. clear -Hk.
    generalize (differences (O:=O) (labels d) preds) as a, (differences (O:=O) (labels d') preds') as b. intros a b HD.
    induction HD as [|l l' a b Hl HD IH]; intros HM; constructor; inversion HM as [|? ? M1 M2]; subst; auto. clear IH HM M2 HD.
    induction Hl as [|x y l l' (c & Hx) Hl IH]; constructor; inversion M1; subst; auto. apply moderate_lab; auto.
    destruct Hx as [Q1 Q2 Q3 _ _ _ _]. split; auto.
Qed.

Theorem boost_sc :
  Forall2 (fun t t' => tree_map (fun _ => tt) t' = tree_map (fun _ => tt) t) (m_trees m) (m_trees m') /\
  forall row, result_rel (Forall2 ans) (regression_boost_predict m row) (regression_boost_predict m' row).
Proof.
  destruct guess_sc as (R1 & R2 & Ln & Hg & L1 & L2). pose proof (trees_sc n (Nat.le_refl n)) as HF.
  rewrite <- L1 in HF at 1. rewrite <- L2 in HF. rewrite !firstn_all in HF.
  split; [eapply Forall2_impl; [|exact HF]; now intros t t' [A _]|].
  intros row. unfold regression_boost_predict. rewrite !predict_instance_raw, R1, R2. apply (raw_sc nt); auto.
  rewrite L1. exact Hn.
Qed.
End Boost.

(* ------------------------------------------------------------------ *)
(** ** The data set of the specification *)

Lemma scaled_data nc nt (d : @dataset O) ls : (-100 <= k <= 100)%Z -> wf_dataset nc nt d -> Forall (Forall (moderate 150)) (labels d) ->
  Forall2 (Forall2 (scaled_by k)) (labels d) ls -> data_rel (O:=O) lab nc nt d (with_other_labels d ls).
Proof.
  intros Hk W Hm Hs. assert (Hl : Forall2 (Forall2 lab) (labels d) ls).
  { revert Hm. clear -Hk Hs. induction Hs as [|l l' a b Hl HD IH]; intros HM; constructor; inversion HM as [|? ? M1 M2]; subst; auto. clear IH HM M2 HD.
    induction Hl as [|x y l l' Hx Hl IH]; constructor; inversion M1; subst; auto. apply moderate_lab; auto. }
  split; [exact W|]. split; [|split; [reflexivity|split; [reflexivity|exact Hl]]].
  assert (R : rectangular nt ls).
  { pose proof (wf_labels _ _ _ W) as R. clear -Hs R. unfold rectangular in *. induction Hs as [|l l' a b Hl Hs IH]; constructor; inversion R; subst; auto.
    symmetry. exact (Forall2_length _ _ _ Hl). }
  unfold with_other_labels. apply (with_labels_wf nc nt d _ W); auto.
  rewrite <- (wf_lengths _ _ _ W). symmetry. exact (Forall2_length _ _ _ Hs).
Qed.

Lemma answers_sc q n B r r' : result_rel (Forall2 (sc k q n B)) r r' -> answers_related (scaled_by k) r r'.
Proof.
  intros [H|(p & p' & E1 & E2 & H)]; [now left|right]. exists p, p'. split; auto. split; auto. eapply Forall2_impl; [|exact H].
  intros x y [H1 H2 H3 _ _ _ _]. split; auto.
Qed.

Theorem scaled_tree nc nt (d : @dataset O) (ls : list (list f64)) (cfg : @tree_config O) t t' :
  wf_dataset nc nt d -> standard cfg -> tc_number_of_classes cfg = N.of_nat nt -> (-100 <= k <= 100)%Z ->
  (Z.of_nat (length (feature_rows d)) <= 2 ^ 40)%Z -> (Z.of_nat nt <= 2 ^ 40)%Z ->
  Forall (Forall (moderate 150)) (labels d) -> Forall2 (Forall2 (scaled_by k)) (labels d) ls ->
  regression_tree_new d cfg = Ok t -> regression_tree_new (with_other_labels d ls) cfg = Ok t' ->
  tree_map (fun _ => tt) t' = tree_map (fun _ => tt) t /\
  forall row, answers_related (scaled_by k) (tree_prediction row t) (tree_prediction row t').
Proof.
  intros W St Hc Hk Hr Hn Hm Hs E1 E2.
  destruct (tree_sc nc nt d (with_other_labels d ls) cfg t t' St Hc Hn) as [A B]; auto.
  - unfold many. rewrite (wf_lengths _ _ _ W). exact Hr.
  - now apply scaled_data.
  - split; auto. intros row. eapply answers_sc, B.
Qed.

Theorem scaled_ensemble nc nt (d : @dataset O) (ls : list (list f64)) (cfg : @tree_config O) n (lr : f64) (m m' : @regression_boost_model O) :
  wf_dataset nc nt d -> standard cfg -> tc_number_of_classes cfg = N.of_nat nt -> (-100 <= k <= 100)%Z ->
  (Z.of_nat (length (feature_rows d)) <= 2 ^ 40)%Z -> (Z.of_nat nt <= 2 ^ 40)%Z -> (Z.of_nat n <= 2 ^ 40)%Z -> moderate 100 lr ->
  Forall (Forall (moderate 150)) (labels d) -> Forall2 (Forall2 (scaled_by k)) (labels d) ls ->
  regression_boost_train d cfg n (lr : @F O) = Ok m -> regression_boost_train (with_other_labels d ls) cfg n (lr : @F O) = Ok m' ->
  (forall j preds, (j < n)%nat -> regression_boost_all_predictions (first_trees j m) d = Ok preds ->
     Forall (Forall (moderate 150)) (differences (O:=O) (labels d) preds)) ->
  Forall2 (fun t t' => tree_map (fun _ => tt) t' = tree_map (fun _ => tt) t) (m_trees m) (m_trees m') /\
  forall row, answers_related (scaled_by k) (regression_boost_predict m row) (regression_boost_predict m' row).
Proof.
  intros W St Hc Hk Hr Hn Hi Hlr Hm Hs E1 E2 HR.
  destruct (boost_sc nc nt d (with_other_labels d ls) cfg n lr m m' Hk St Hc Hn) as [A B]; auto.
  - unfold many. rewrite (wf_lengths _ _ _ W). exact Hr.
  - now apply scaled_data.
  - destruct Hlr as [Fl Ml]. assert (G : grid (-152) (B2R lr)).
    { destruct Ml as [->|Hz]; [apply grid_0|]. rewrite <- (rnd_B2R lr). change (-152)%Z with (-100 - 52)%Z. apply rnd_grid_least; [lia|right; apply Hz]. }
    assert (Bd : Rabs (B2R lr) <= 1 * bpow 100) by (rewrite Rmult_1_l; destruct Ml as [->|Hz]; [rewrite Rabs_R0; apply bpow_ge_0|apply Hz]).
    constructor; auto. cbn [Raux.bpow]. ring.
  - split; auto. intros row. eapply answers_sc, B.
Qed.
End Scale.
