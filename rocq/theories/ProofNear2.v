(** The running sums of the split finder in binary64 on labels of bounded size. *)
From Coq Require Import Reals Lra Lia ZArith Permutation.
From Flocq Require Import Core.
From Flocq Require Import IEEE754.BinarySingleNaN.
From Verif Require Import Base Num F64 XR ModelCommon ModelTree Lib Spec SpecExact ProofReal ProofScoreF64 ProofRound ProofError ProofPredict
  ProofData ProofSplit ProofSplit2 ProofSplitExact ProofScan ProofInt ProofInt2 ProofNear.
Local Open Scope R_scope.

Definition rl (ls : list (list f64)) : list (list R) := map (map B2R) ls.

Lemma target_rl j ls : target j (rl ls) = map (fun l : list f64 => B2R (@nth f64 j l (B754_zero false : f64))) ls.
Proof. unfold target, rl. rewrite map_map. apply map_ext. intros l. change 0 with (B2R (B754_zero false : f64)) at 1. apply map_nth. Qed.

Lemma nth_map2_gen {A} (f : A -> A -> A) a : forall b d j, (j < length a)%nat -> (j < length b)%nat ->
  nth j (map2 f a b) d = f (nth j a d) (nth j b d).
Proof.
  induction a as [|x a IH]; intros [|y b] d [|j] H1 H2; cbn [length] in *; try lia; cbn [map2 nth]; [reflexivity|]. apply IH; lia.
Qed.

Lemma sumsq_app a b : sumsq (a ++ b) = sumsq a + sumsq b.
Proof. unfold sumsq. now rewrite map_app, Rsum_app. Qed.

Lemma sumsq_one x : sumsq [x] = x * x.
Proof. unfold sumsq. cbn [map Rsum fold_right]. ring. Qed.

Lemma variance_nonneg l : 0 <= variance l.
Proof.
  unfold variance. destruct l as [|x l]; [cbn; lra|]. apply Rmult_le_pos.
  - apply Rsum_nonneg. intros y Hy. apply in_map_iff in Hy as (z & <- & _). apply Rle_0_sqr.
  - left. apply Rinv_0_lt_compat, lt_0_INR. cbn [length]. lia.
Qed.

Section Near2.
Context (P : platform) (N : nat) (B : R) (k : nat).
Hypothesis (HN : (1 <= N)%nat).
Hypothesis (HN' : (Z.of_nat N <= 2 ^ 20)%Z).
Hypothesis (HB : bpow radix2 (-400) <= B <= bpow radix2 400).
Local Existing Instance f64_ops.
Local Remove Hints xr_ops : typeclass_instances.

Let U := B * B.
Let NR := INR N.
Let dS := 2 * ulp1 * NR * B.
Let dQ := 4 * ulp1 * NR * U.
Notation z0 := (B754_zero false : f64).

Definition small (x : f64) : Prop := is_finite x = true /\ Rabs (B2R x) <= B.
Definition good (ls : list (list f64)) : Prop := Forall (fun l => length l = k /\ Forall small l) ls.

Lemma small_nth l j : length l = k -> Forall small l -> (j < k)%nat -> small (nth j l z0).
Proof. intros Hl H Hj. rewrite Forall_forall in H. apply H. apply nth_In. lia. Qed.

Lemma sum_bound j ls : (j < k)%nat -> good ls ->
  Rabs (Rsum (target j (rl ls))) <= INR (length ls) * B /\ 0 <= sumsq (target j (rl ls)) <= INR (length ls) * U.
Proof.
  intros Hj H. rewrite target_rl. induction H as [|l ls [Hl Hs] _ IH]; cbn [map length].
  - unfold sumsq. cbn [map Rsum fold_right INR]. rewrite Rabs_R0. lra.
  - destruct IH as [I1 I2]. destruct (small_nth l j Hl Hs Hj) as [_ Hx]. pose proof (sq_bound B _ Hx) as Hq. fold U in Hq.
    rewrite S_INR, Rsum_cons. unfold sumsq in *. cbn [map]. rewrite Rsum_cons. rewrite !Rmult_plus_distr_r, !Rmult_1_l. split; [eapply Rle_trans; [apply Rabs_triang|]|].
    + rewrite Rplus_comm. apply Rplus_le_compat; [exact I1|exact Hx].
    + destruct Hq as [Q1 Q2], I2 as [J1 J2]. split; [now apply Rplus_le_le_0_compat|]. rewrite Rplus_comm. apply Rplus_le_compat; [exact J2|exact Q2].
Qed.

Definition addf (x y : f64) : f64 := Bplus mode_NE x y.
Definition subf (x y : f64) : f64 := Bminus mode_NE x y.
Definition addsq (x y : f64) : f64 := Bplus mode_NE x (Bmult mode_NE y y).
Definition subsq (x y : f64) : f64 := Bminus mode_NE x (Bmult mode_NE y y).

(** The two running vectors of sums. *)
Record nsum (c : nat) (S Q : list f64) (ls : list (list f64)) : Prop := {
  ns_ls : length S = k;
  ns_lq : length Q = k;
  ns_s : forall j, (j < k)%nat -> is_finite (nth j S z0) = true /\ Rabs (B2R (nth j S z0) - Rsum (target j (rl ls))) <= INR c * dS;
  ns_q : forall j, (j < k)%nat -> is_finite (nth j Q z0) = true /\ Rabs (B2R (nth j Q z0) - sumsq (target j (rl ls))) <= INR c * dQ }.

Lemma nsum_add c S Q ls l : (c < 2 * N)%nat -> (length (ls ++ [l]) <= N)%nat -> good (ls ++ [l]) -> nsum c S Q ls ->
  nsum (Datatypes.S c) (map2 addf S l) (map2 addsq Q l) (ls ++ [l]).
Proof.
  intros Hc Hlen Hg [L1 L2 HS HQ]. pose proof Hg as Hg'. apply Forall_app in Hg' as [_ Hl]. inversion Hl as [|? ? [Ll Hsm] _]; subst x l0.
  apply le_INR in Hlen. fold NR in Hlen. pose proof (B_pos B HB) as HBp. pose proof (U_pos B HB) as HUp. fold U in HUp.
  constructor; [rewrite map2_length, L1, Ll; apply Nat.min_id|rewrite map2_length, L2, Ll; apply Nat.min_id| |]; intros j Hj; destruct (small_nth l j Ll Hsm Hj) as [Fx Bx];
    destruct (sum_bound j _ Hj Hg) as [Bs Bq]; rewrite nth_map2_gen by lia;
    rewrite target_rl in *; rewrite map_app in *; cbn [map] in *.
  - destruct (HS j Hj) as [F1 E1]. rewrite target_rl in E1. rewrite Rsum_app in *. cbn [Rsum fold_right] in *. rewrite Rplus_0_r in *.
    destruct (op_step N B HN HN' HB (B2R (nth j S z0)) (B2R (nth j l z0)) c _ Hc E1) as [R1 R2].
    { eapply Rle_trans; [exact Bs|]. apply Rmult_le_compat_r; [left; exact HBp|exact Hlen]. }
    destruct (plus_value _ _ F1 Fx R1) as [F2 V2]. split; [exact F2|]. rewrite <- V2 in R2. exact R2.
  - destruct (HQ j Hj) as [F1 E1]. rewrite target_rl in E1. rewrite sumsq_app, sumsq_one in *.
    destruct (square_near N B HN HB _ Fx Bx) as [F2 E2].
    destruct (sq_step N B HN HN' HB (B2R (nth j Q z0)) (B2R (Bmult mode_NE (nth j l z0) (nth j l z0))) c _ _ Hc E1 E2) as [R1 R2].
    { rewrite Rabs_pos_eq by exact (proj1 Bq). eapply Rle_trans; [exact (proj2 Bq)|]. apply Rmult_le_compat_r; [left; exact HUp|exact Hlen]. }
    destruct (plus_value _ _ F1 F2 R1) as [F3 V3]. split; [exact F3|]. rewrite <- V3 in R2. exact R2.
Qed.

Lemma nsum_sub c S Q ls l : (c < 2 * N)%nat -> (length ls <= N)%nat -> good (l :: ls) -> nsum c S Q (l :: ls) ->
  nsum (Datatypes.S c) (map2 subf S l) (map2 subsq Q l) ls.
Proof.
  intros Hc Hlen Hg [L1 L2 HS HQ]. inversion Hg as [|? ? [Ll Hsm] Hg']; subst x l0.
  apply le_INR in Hlen. fold NR in Hlen. pose proof (B_pos B HB) as HBp. pose proof (U_pos B HB) as HUp. fold U in HUp.
  constructor; [rewrite map2_length, L1, Ll; apply Nat.min_id|rewrite map2_length, L2, Ll; apply Nat.min_id| |]; intros j Hj; destruct (small_nth l j Ll Hsm Hj) as [Fx Bx];
    destruct (sum_bound j _ Hj Hg') as [Bs Bq]; rewrite nth_map2_gen by lia;
    rewrite target_rl in *.
  - destruct (HS j Hj) as [F1 E1]. rewrite target_rl in E1. cbn [map] in E1. rewrite Rsum_cons in E1.
    destruct (op_step N B HN HN' HB (B2R (nth j S z0)) (- B2R (nth j l z0)) c _ Hc E1) as [R1 R2].
    { match goal with |- Rabs (?a + ?b + - ?a) <= _ => replace (a + b + - a) with b by ring end. eapply Rle_trans; [exact Bs|]. apply Rmult_le_compat_r; [left; exact HBp|exact Hlen]. }
    destruct (minus_value _ _ F1 Fx R1) as [F2 V2]. split; [exact F2|]. unfold Rminus in V2 at 1. rewrite <- V2 in R2.
    match type of R2 with Rabs (_ - (?a + ?b + - ?a)) <= _ => replace (a + b + - a) with b in R2 by ring end. exact R2.
  - destruct (HQ j Hj) as [F1 E1]. rewrite target_rl in E1. unfold sumsq in E1 at 1. cbn [map] in E1. rewrite Rsum_cons in E1.
    change (Rsum (map (fun x => x * x) ?l)) with (sumsq l) in E1.
    destruct (square_near N B HN HB _ Fx Bx) as [F2 E2].
    assert (E2' : Rabs (- B2R (Bmult mode_NE (nth j l z0) (nth j l z0)) - - (B2R (nth j l z0) * B2R (nth j l z0))) <= ulp1 * (B * B) + eta1).
    { match goal with |- Rabs (- ?a - - ?b) <= _ => replace (- a - - b) with (- (a - b)) by ring end. now rewrite Rabs_Ropp. }
    destruct (sq_step N B HN HN' HB (B2R (nth j Q z0)) (- B2R (Bmult mode_NE (nth j l z0) (nth j l z0))) c _ _ Hc E1 E2') as [R1 R2].
    { match goal with |- Rabs (?a + ?b + - ?a) <= _ => replace (a + b + - a) with b by ring end. rewrite Rabs_pos_eq by exact (proj1 Bq). eapply Rle_trans; [exact (proj2 Bq)|]. apply Rmult_le_compat_r; [left; exact HUp|exact Hlen]. }
    destruct (minus_value _ _ F1 F2 R1) as [F3 V3]. split; [exact F3|]. unfold Rminus in V3 at 1. rewrite <- V3 in R2.
    match type of R2 with Rabs (_ - (?a + ?b + - ?a)) <= _ => replace (a + b + - a) with b in R2 by ring end. exact R2.
Qed.

Lemma nsum_zero : nsum 0 (repeat z0 k) (repeat z0 k) [].
Proof.
  constructor; try apply repeat_length; intros j Hj; rewrite nth_repeat; split; try reflexivity;
    unfold sumsq; cbn [target rl map Rsum fold_right INR B2R]; rewrite Rminus_0_r, Rabs_R0; lra.
Qed.

Lemma target_perm j a b : Permutation a b -> Permutation (target j (rl a)) (target j (rl b)).
Proof. intros H. unfold target, rl. now do 2 apply Permutation_map. Qed.

Lemma nsum_perm c S Q a b : Permutation a b -> nsum c S Q a -> nsum c S Q b.
Proof.
  intros H [L1 L2 HS HQ]. constructor; auto; intros j Hj; pose proof (target_perm j _ _ H) as Hp.
  - rewrite <- (Rsum_perm _ _ Hp). auto.
  - unfold sumsq. rewrite <- (Rsum_perm _ _ (Permutation_map (fun x => x * x) Hp)). apply HQ, Hj.
Qed.

Lemma nsum_total ls : (length ls <= N)%nat -> good ls -> nsum (length ls) (@colsum (f64_ops P) k ls) (@colsumsq (f64_ops P) k ls) ls.
Proof.
  intros Hlen Hg. unfold colsum, colsumsq.
  cut (forall b a S Q, (length (a ++ b) <= N)%nat -> good (a ++ b) -> nsum (length a) S Q a ->
         nsum (length (a ++ b)) (fold_left (map2 addf) b S) (fold_left (map2 addsq) b Q) (a ++ b)).
  { intros H. apply (H ls [] (repeat z0 k) (repeat z0 k)); auto. exact nsum_zero. }
  clear ls Hlen Hg. induction b as [|l b IH]; intros a S Q Hlen Hg H; [now rewrite app_nil_r|].
  cbn [fold_left]. change (a ++ l :: b) with (a ++ [l] ++ b) in *. rewrite app_assoc in *.
  apply IH; auto. apply Forall_app in Hg as [Hg _].
  assert (HL : (length (a ++ [l]) <= N)%nat) by (rewrite !app_length in *; cbn [length] in *; lia).
  pose proof (nsum_add (length a) S Q a l ltac:(rewrite app_length in HL; cbn [length] in HL; lia) HL Hg H) as H'.
  replace (length (a ++ [l])) with (Datatypes.S (length a)) by (rewrite app_length; cbn [length]; lia). exact H'.
Qed.

(** A tracker near the exact sums of the labels [ls]. *)
Record near (c : nat) (t : tracker) (ls : list (list f64)) : Prop := {
  nr_n : tr_n t = f64_of_Z (Z.of_nat (length ls));
  nr_sum : nsum c (lm_sum (tr_m t)) (lm_sumsq (tr_m t)) ls;
  nr_mean : ls <> [] -> lm_mean (tr_m t) = map (fun s => Bdiv mode_NE s (f64_of_Z (Z.of_nat (length ls)))) (lm_sum (tr_m t)) }.

Lemma near_perm c t a b : Permutation a b -> near c t a -> near c t b.
Proof.
  intros H [H1 H2 H3]. constructor.
  - now rewrite <- (Permutation_length H).
  - now apply (nsum_perm _ _ _ a).
  - intros Hb. rewrite <- (Permutation_length H). apply H3. intros ->. apply Permutation_nil in H. contradiction.
Qed.

Lemma near_left c t ls l : (c < 2 * N)%nat -> (length (ls ++ [l]) <= N)%nat -> good (ls ++ [l]) -> near c t ls ->
  near (S c) (pleft t l) (ls ++ [l]).
Proof.
  intros Hc Hlen Hg [H1 H2 H3].
  assert (EN : fadd (tr_n t) f1 = f64_of_Z (Z.of_nat (length (ls ++ [l])))).
  { rewrite H1. rewrite app_length in *. cbn [length] in *. cbn [fadd f1 f64_ops]. rewrite f64_of_Z_succ by lia. f_equal. lia. }
  constructor; cbn [pleft tr_n tr_m lm_sum lm_sumsq lm_mean]; auto.
  - exact (nsum_add c _ _ ls l Hc Hlen Hg H2).
  - intros _. rewrite EN. reflexivity.
Qed.

Lemma near_right c t ls l : (c < 2 * N)%nat -> (length (l :: ls) <= N)%nat -> good (l :: ls) -> near c t (l :: ls) ->
  near (S c) (pright t l) ls.
Proof.
  intros Hc Hlen Hg [H1 H2 H3]. cbn [length] in *.
  assert (EN : fsub (tr_n t) f1 = f64_of_Z (Z.of_nat (length ls))).
  { rewrite H1. cbn [fsub f1 f64_ops]. rewrite Bone_of_Z, minus_Z by lia. f_equal. lia. }
  constructor; cbn [pright tr_n tr_m lm_sum lm_sumsq lm_mean]; auto.
  - apply (nsum_sub c _ _ ls l Hc ltac:(lia) Hg H2).
  - intros _. rewrite EN. reflexivity.
Qed.

Lemma near_zero : near 0 (zero_tracker k) [].
Proof. constructor; cbn [zero_tracker tr_n tr_m lm_sum lm_sumsq lm_mean]; [reflexivity|exact nsum_zero|congruence]. Qed.

Lemma near_total ls : (length ls <= N)%nat -> good ls -> near (length ls) (ptotal k ls) ls.
Proof. intros Hlen Hg. constructor; [reflexivity|now apply nsum_total|reflexivity]. Qed.

(** The variances a tracker gives. *)
Definition nvar (t : tracker) (m : nat) (j : nat) : f64 :=
  let mu := Bdiv mode_NE (nth j (lm_sum (tr_m t)) z0) (f64_of_Z (Z.of_nat m)) in
  Bdiv mode_NE (Bminus mode_NE (nth j (lm_sumsq (tr_m t)) z0) (Bmult mode_NE (f64_of_Z (Z.of_nat m)) (Bmult mode_NE mu mu))) (f64_of_Z (Z.of_nat m)).

Lemma near_pvar c t ls : near c t ls -> ls <> [] -> pvar (tr_m t) (tr_n t) = map (nvar t (length ls)) (seq 0 k).
Proof.
  intros [H1 [L1 L2 _ _] H3] Hne. unfold pvar. rewrite (H3 Hne), H1.
  assert (E1 : lm_sum (tr_m t) = map (fun j => nth j (lm_sum (tr_m t)) z0) (seq 0 k)) by (rewrite <- L1; symmetry; apply (@map_nth_seq_all f64)).
  assert (E2 : lm_sumsq (tr_m t) = map (fun j => nth j (lm_sumsq (tr_m t)) z0) (seq 0 k)) by (rewrite <- L2; symmetry; apply (@map_nth_seq_all f64)).
  rewrite E1, E2 at 1. rewrite map_map. rewrite (map2_map_map _ _ _ (seq 0 k)). reflexivity.
Qed.

Lemma nvar_near c t ls j : near c t ls -> ls <> [] -> (c <= 2 * N)%nat -> (length ls <= N)%nat -> good ls -> (j < k)%nat ->
  let v := nvar t (length ls) j in
  is_finite v = true /\ Rabs (B2R v) <= 2 * U /\
  Rabs (B2R v - variance (target j (rl ls))) <= 27 * (ulp1 * (NR * NR) / INR (length ls)) * U /\ Rabs (variance (target j (rl ls))) <= U.
Proof.
  intros [_ [_ _ HS HQ] _] Hne Hc Hlen Hg Hj v. destruct (HS j Hj) as [F1 E1]. destruct (HQ j Hj) as [F2 E2]. destruct (sum_bound j ls Hj Hg) as [B1 B2].
  assert (Hm : (1 <= length ls <= N)%nat) by (destruct ls; [congruence|cbn [length] in *; lia]).
  assert (Hc' : INR c <= 2 * NR). { unfold NR. change 2 with (INR 2). rewrite <- mult_INR. apply le_INR. lia. }
  pose proof (NR_pos N HN) as H1. fold NR in H1. pose proof (B_pos B HB) as H2. pose proof (U_pos B HB) as H3. fold U in H3. pose proof ulp1_pos as H4.
  assert (HdS : 0 <= dS) by (unfold dS; repeat apply Rmult_le_pos; lra). assert (HdQ : 0 <= dQ) by (unfold dQ; repeat apply Rmult_le_pos; lra).
  assert (E1' : Rabs (B2R (nth j (lm_sum (tr_m t)) z0) - Rsum (target j (rl ls))) <= 2 * NR * dS) by (eapply Rle_trans; [exact E1|]; apply Rmult_le_compat_r; lra).
  assert (E2' : Rabs (B2R (nth j (lm_sumsq (tr_m t)) z0) - sumsq (target j (rl ls))) <= 2 * NR * dQ) by (eapply Rle_trans; [exact E2|]; apply Rmult_le_compat_r; lra).
  destruct (var_near N B HN HN' HB _ _ (length ls) _ _ Hm F1 F2 E1' E2' B1 B2) as (Fv & Bv & Ev).
  assert (Hte : target j (rl ls) <> []).
  { unfold target, rl. destruct ls; [congruence|discriminate]. }
  pose proof (variance_moments _ Hte) as VM. assert (LT : length (target j (rl ls)) = length ls) by (rewrite target_length; apply map_length). rewrite LT in VM.
  split; [exact Fv|]. split; [exact Bv|]. split.
  - rewrite <- VM. exact Ev.
  - rewrite Rabs_pos_eq by apply variance_nonneg. rewrite <- VM.
    assert (HM : 0 < INR (length ls)) by (apply lt_0_INR; lia).
    apply Rmult_le_reg_r with (INR (length ls)); [exact HM|]. unfold Rdiv at 1. rewrite Rmult_assoc, Rinv_l, Rmult_1_r by lra.
    assert (0 <= INR (length ls) * (Rsum (target j (rl ls)) / INR (length ls) * (Rsum (target j (rl ls)) / INR (length ls)))).
    { apply Rmult_le_pos; [lra|]. apply Rle_0_sqr. }
    lra.
Qed.

Lemma good_app a b : good (a ++ b) <-> good a /\ good b.
Proof. apply Forall_app. Qed.

(** The total variance. *)
Lemma total_near ls : length ls = N -> good ls -> (Z.of_nat k <= 2 ^ 40)%Z ->
  let tv := @ptotal_variance (f64_ops P) k ls in
  is_finite tv = true /\ Rabs (B2R tv - total_variance k (rl ls)) <= INR k * (3 * ulp1 * (INR k * U) + 3 * (27 * (ulp1 * NR) * U)) /\
  Rabs (total_variance k (rl ls)) <= INR k * U.
Proof.
  intros Hlen Hg Hk tv. assert (Hne : ls <> []) by (intros ->; cbn in Hlen; lia).
  pose proof (near_total ls ltac:(lia) Hg) as H.
  assert (Etv : tv = @fsum (f64_ops P) (map (nvar (@ptotal (f64_ops P) k ls) (length ls)) (seq 0 k))).
  { unfold tv, ptotal_variance. f_equal. exact (near_pvar _ _ _ H Hne). }
  rewrite Etv. apply (sum_near P N B HN HN' HB 27 _ (fun j => variance (target j (rl ls)))); [lra|exact Hk|].
  intros j Hj. destruct (nvar_near _ _ _ j H Hne ltac:(lia) ltac:(lia) Hg Hj) as (A1 & A2 & A3 & A4). split; [exact A1|]. split; [exact A4|].
  pose proof (NR_pos N HN) as H1. fold NR in H1. rewrite Hlen in A3. fold NR in A3.
  replace (27 * (ulp1 * (NR * NR) / NR) * U) with (27 * (ulp1 * NR) * U) in A3 by (field; lra). rewrite <- Hlen in A3 at 1. exact A3.
Qed.

(** The loss of a cut. *)
Lemma cut_near c1 c2 t1 t2 a b : near c1 t1 a -> near c2 t2 b -> a <> [] -> b <> [] -> (length a + length b = N)%nat ->
  (c1 <= 2 * N)%nat -> (c2 <= 2 * N)%nat -> good a -> good b -> (Z.of_nat k <= 2 ^ 40)%Z ->
  is_finite (ploss t1 t2) = true /\
  Rabs (B2R (ploss t1 t2) - remaining_variance k (rl a) (rl b)) <= INR k * (3 * ulp1 * (INR k * U) + 3 * (75 * (ulp1 * NR) * U)) /\
  Rabs (remaining_variance k (rl a) (rl b)) <= INR k * U.
Proof.
  intros H1 H2 Ha Hb Hab Hc1 Hc2 Ga Gb Hk.
  assert (La : (1 <= length a)%nat) by (destruct a; [congruence|cbn [length]; lia]).
  assert (Lb : (1 <= length b)%nat) by (destruct b; [congruence|cbn [length]; lia]).
  set (f := fun j => loss64 (Z.of_nat (length a)) (Z.of_nat (length b)) (nvar t1 (length a) j) (nvar t2 (length b) j)).
  set (wa := INR (length a) / INR (length a + length b)). set (wb := INR (length b) / INR (length a + length b)).
  set (g := fun j => wa * variance (target j (rl a)) + wb * variance (target j (rl b))).
  assert (El : ploss t1 t2 = @fsum (f64_ops P) (map f (seq 0 k))).
  { unfold ploss. rewrite (near_pvar _ _ _ H1 Ha), (near_pvar _ _ _ H2 Hb), (nr_n _ _ _ H1), (nr_n _ _ _ H2). rewrite map2_map_map. reflexivity. }
  assert (Eg : remaining_variance k (rl a) (rl b) = Rsum (map g (seq 0 k))).
  { unfold remaining_variance, total_variance. assert (R1 : length (rl a) = length a) by apply map_length. assert (R2 : length (rl b) = length b) by apply map_length.
    rewrite R1, R2. fold wa wb. unfold g.
    rewrite <- !Rsum_map_mult, <- Rsum_map_plus. reflexivity. }
  rewrite El, Eg. apply (sum_near P N B HN HN' HB 75 f g); [lra|exact Hk|].
  intros j Hj.
  destruct (nvar_near _ _ _ j H1 Ha Hc1 ltac:(lia) Ga Hj) as (A1 & A2 & A3 & A4).
  destruct (nvar_near _ _ _ j H2 Hb Hc2 ltac:(lia) Gb Hj) as (B1 & B2 & B3 & B4).
  destruct (loss_near N B HN HN' HB (length a) (length b) _ _ _ _ La Lb Hab A1 B1 A4 B4 A2 B2 A3 B3) as [F1 E1].
  split; [exact F1|]. split; [|exact E1].
  assert (Pa : 0 < INR (length a)) by (apply lt_0_INR; lia). assert (Pb : 0 < INR (length b)) by (apply lt_0_INR; lia).
  assert (Ew : wa + wb = 1) by (unfold wa, wb; rewrite plus_INR; field; lra).
  assert (Hwa : 0 <= wa) by (unfold wa; rewrite plus_INR; apply Rmult_le_pos; [lra|left; apply Rinv_0_lt_compat; lra]).
  assert (Hwb : 0 <= wb) by (unfold wb; rewrite plus_INR; apply Rmult_le_pos; [lra|left; apply Rinv_0_lt_compat; lra]).
  unfold g. eapply Rle_trans; [apply Rabs_triang|]. rewrite !Rabs_mult, (Rabs_pos_eq wa), (Rabs_pos_eq wb) by lra.
  fold U. apply Rle_trans with (wa * U + wb * U); [|rewrite <- Rmult_plus_distr_r, Ew; lra].
  apply Rplus_le_compat; apply Rmult_le_compat_l; auto.
Qed.

(** The trackers of a scan. *)
Lemma scan_near total (all : list (f64 * list f64)) : length all = N -> good (map snd all) -> near N total (map snd all) ->
  forall i, (i <= length all)%nat ->
    near i (left_at k all i) (firstn i (map snd all)) /\ near (N + i) (right_at total all i) (skipn i (map snd all)).
Proof.
  intros HL Hg Ht. induction i as [|i IH]; intros Hi.
  - split; [exact near_zero|]. rewrite Nat.add_0_r. exact Ht.
  - destruct IH as [IL IR]; [lia|].
    destruct (nth_error all i) as [[v l]|] eqn:E; [|apply nth_error_None in E; lia].
    assert (E' : nth_error (map snd all) i = Some l) by (rewrite nth_error_map, E; reflexivity).
    unfold left_at, right_at. rewrite (@firstn_snoc (@F (f64_ops P) * list (@F (f64_ops P))) all i (v, l) E), map_app, !fold_left_app.
    change (fold_left (@pleft (f64_ops P)) (map snd (firstn i all)) (zero_tracker k)) with (left_at k all i).
    change (fold_left (@pright (f64_ops P)) (map snd (firstn i all)) total) with (right_at total all i). cbn [map snd fold_left].
    pose proof (firstn_snoc _ _ _ E') as EF. pose proof (skipn_nth _ _ _ E') as ES.
    assert (Gs : good (firstn (S i) (map snd all)) /\ good (skipn i (map snd all))).
    { split; [apply (proj1 (good_app (firstn (S i) (map snd all)) (skipn (S i) (map snd all)))); now rewrite firstn_skipn|].
      apply (proj1 (good_app (firstn i (map snd all)) (skipn i (map snd all)))). now rewrite firstn_skipn. }
    destruct Gs as [G1 G2]. rewrite EF in *. rewrite ES in G2, IR.
    split.
    + apply near_left; auto; [lia|]. rewrite <- EF, firstn_length, map_length. lia.
    + rewrite Nat.add_succ_r. apply near_right; auto; [lia|]. rewrite <- ES, skipn_length, map_length. lia.
Qed.

Lemma loss_at_near total (all : list (f64 * list f64)) i : length all = N -> good (map snd all) -> near N total (map snd all) ->
  (0 < i < length all)%nat -> (Z.of_nat k <= 2 ^ 40)%Z ->
  let a := firstn i (map snd all) in let b := skipn i (map snd all) in
  is_finite (loss_at k total all i) = true /\
  Rabs (B2R (loss_at k total all i) - remaining_variance k (rl a) (rl b)) <= INR k * (3 * ulp1 * (INR k * U) + 3 * (75 * (ulp1 * NR) * U)) /\
  Rabs (remaining_variance k (rl a) (rl b)) <= INR k * U.
Proof.
  intros HL Hg Ht Hi Hk a b. destruct (scan_near total all HL Hg Ht i) as [H1 H2]; [lia|].
  assert (G : good a /\ good b) by (apply good_app; unfold a, b; now rewrite firstn_skipn). destruct G as [Ga Gb].
  assert (La : length a = i) by (unfold a; rewrite firstn_length, map_length; lia).
  assert (Lb : length b = (N - i)%nat) by (unfold b; rewrite skipn_length, map_length; lia).
  apply (cut_near i (N + i)); auto; try lia.
  - intros E. rewrite E in La. cbn in La. lia.
  - intros E. rewrite E in Lb. cbn in Lb. lia.
Qed.

End Near2.
