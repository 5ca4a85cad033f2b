(** A target with the same label in every row, in an arithmetic where such a target has no variance. *)
From Verif Require Import Base Num ModelCommon ModelTree ModelBoost Lib Spec SpecTree SpecScore SpecFit SpecInsert ProofData ProofSort ProofSplit ProofSplit2
  ProofTree ProofTree3 ProofScore ProofBoost ProofBoost2 ProofRel.

(** Counting up to numbers of rows that meet [ok] is exact. *)
Record countable {O : NumOps} (ok : nat -> Prop) : Prop := mkCountable {
  co_le i j : i <= j -> ok j -> ok i;
  co_0 : f_of_nat 0 = f0;
  co_up j : ok (S j) -> fadd (f_of_nat j) f1 = f_of_nat (S j);
  co_down j : ok (S j) -> fsub (f_of_nat (S j)) f1 = f_of_nat j;
  co_add i j : ok (i + j) -> fadd (f_of_nat i) (f_of_nat j) = f_of_nat (i + j) }.

(** What is needed of a label [c] for a target that is [c] everywhere to have no variance. *)
Record null_label {O : NumOps} (E : F -> F -> Prop) (ok : nat -> Prop) (c : F) : Prop := mkNull {
  nu_0 : E f0 (fmul (f_of_nat 0) c);
  nu_0sq : E f0 (fmul (f_of_nat 0) (fmul c c));
  nu_up j : ok (S j) -> E (fadd (fmul (f_of_nat j) c) c) (fmul (f_of_nat (S j)) c);
  nu_upsq j : ok (S j) -> E (fadd (fmul (f_of_nat j) (fmul c c)) (fmul c c)) (fmul (f_of_nat (S j)) (fmul c c));
  nu_down j : ok (S j) -> E (fsub (fmul (f_of_nat (S j)) c) c) (fmul (f_of_nat j) c);
  nu_downsq j : ok (S j) -> E (fsub (fmul (f_of_nat (S j)) (fmul c c)) (fmul c c)) (fmul (f_of_nat j) (fmul c c));
  nu_mean j : ok j -> 1 <= j -> E (fdiv (fmul (f_of_nat j) c) (f_of_nat j)) c;
  nu_var j : ok j -> 1 <= j -> E (fdiv (fsub (fmul (f_of_nat j) (fmul c c)) (fmul (f_of_nat j) (fmul c c))) (f_of_nat j)) f0;
  nu_diff : E (fsub c c) f0;
  nu_plus : E (fadd c f0) c }.

Record neutral {O : NumOps} (E : F -> F -> Prop) (ok : nat -> Prop) : Prop := mkNeutral {
  ne_refl x : E x x;
  ne_trans x y z : E x y -> E y z -> E x z;
  ne_zero x : E (fadd x f0) x;
  ne_weight i j : ok (i + j) -> 1 <= i + j -> E (fmul (fdiv (f_of_nat i) (f_of_nat (i + j))) f0) f0 }.

Lemma map2_app {A B C} (f : A -> B -> C) a a' b b' : length a = length b -> map2 f (a ++ a') (b ++ b') = map2 f a b ++ map2 f a' b'.
Proof. revert b. induction a as [|x a IH]; intros [|y b] H; try discriminate; cbn [app map2]; auto. now rewrite IH by (injection H; auto). Qed.

Section Null.
Context {O : NumOps} (LW : NumLaws O) (E : F -> F -> Prop) (HP : preserved E E) (ok : nat -> Prop) (HC : countable ok) (HN : neutral E ok)
  (p : nat).

Local Notation "# n" := (f_of_nat n) (at level 1, format "# n").
Local Notation Es := (Forall2 E).

(** [l'] is [l] with an entry like [z] inserted before position [p]. *)
Definition ins (z : F) (l l' : list F) : Prop :=
  exists a b a' b' z', l = a ++ b /\ l' = a' ++ z' :: b' /\ length a = p /\ length a' = p /\ Es a a' /\ Es b b' /\ E z z'.

Lemma ins_length z l l' : ins z l l' -> length l' = S (length l).
Proof.
  intros (a & b & a' & b' & z' & -> & -> & La & La' & Ha & Hb & Hz). rewrite !app_length. cbn [length].
  rewrite (Forall2_length _ _ _ Ha), (Forall2_length _ _ _ Hb). lia.
Qed.

Hypothesis sym : forall x y, E x y -> E y x.

Lemma ins_like z w l l' : E z w -> ins z l l' -> ins w l l'.
Proof.
  intros H (a & b & a' & b' & z' & -> & -> & La & La' & Ha & Hb & Hz). exists a, b, a', b', z'. repeat split; auto.
  eapply (ne_trans _ _ HN); [apply sym; exact H|exact Hz].
Qed.

Lemma ins_map2 f z w a a' b b' : (forall x x' y y', E x x' -> E y y' -> E (f x y) (f x' y')) ->
  ins z a a' -> ins w b b' -> ins (f z w) (map2 f a b) (map2 f a' b').
Proof.
  intros Hf (a1 & a2 & a1' & a2' & z' & -> & -> & La & La' & Ha & Hb & Hz) (b1 & b2 & b1' & b2' & w' & -> & -> & Lb & Lb' & Ha2 & Hb2 & Hw).
  rewrite !map2_app by congruence. cbn [map2]. exists (map2 f a1 b1), (map2 f a2 b2), (map2 f a1' b1'), (map2 f a2' b2'), (f z' w').
  repeat split; auto; try (rewrite map2_length; lia); eapply map2_rel; eauto.
Qed.

Lemma ins_map f z a a' : (forall x x', E x x' -> E (f x) (f x')) -> ins z a a' -> ins (f z) (map f a) (map f a').
Proof.
  intros Hf (a1 & a2 & a1' & a2' & z' & -> & -> & La & La' & Ha & Hb & Hz). rewrite !map_app. cbn [map].
  exists (map f a1), (map f a2), (map f a1'), (map f a2'), (f z'). repeat split; auto; try (rewrite map_length; auto); eapply map_rel; eauto.
Qed.

Lemma ins_repeat x k : p <= k -> ins x (repeat x k) (repeat x (S k)).
Proof.
  intros H. exists (repeat x p), (repeat x (k - p)), (repeat x p), (repeat x (k - p)), x.
  rewrite <- repeat_app, !repeat_length. repeat split; auto.
  - f_equal. lia.
  - change (x :: repeat x (k - p)) with (repeat x (S (k - p))). rewrite <- repeat_app. f_equal. lia.
  - apply repeat_rel, (ne_refl _ _ HN).
  - apply repeat_rel, (ne_refl _ _ HN).
  - apply (ne_refl _ _ HN).
Qed.

Lemma fsum_ins z l l' : E z f0 -> ins z l l' -> E (fsum l) (fsum l').
Proof.
  intros H0 (a & b & a' & b' & z' & -> & -> & La & La' & Ha & Hb & Hz). unfold fsum. rewrite !fold_left_app. cbn [fold_left].
  assert (H1 : E (fold_left fadd a fsum0) (fold_left fadd a' fsum0)).
  { eapply fold_rel; eauto; [apply (pr_add _ _ HP)|apply (pr_ssum0 _ _ HP)]. }
  eapply fold_rel; [apply (pr_add _ _ HP)|exact Hb|].
  apply (ne_trans _ _ HN _ (fadd (fold_left fadd a fsum0) f0)); [apply sym, (ne_zero _ _ HN)|].
  apply (pr_add _ _ HP); auto. apply (ne_trans _ _ HN _ z); auto.
Qed.

(* ------------------------------------------------------------------ *)
(** ** The split finder *)

Section Label.
Variables (c : F) (Hc : null_label E ok c).

Definition tracker_ins (j : nat) (t t' : tracker) : Prop :=
  tr_n t = #j /\ tr_n t' = #j /\ ins (fmul #j c) (lm_sum (tr_m t)) (lm_sum (tr_m t')) /\
  ins (fmul #j (fmul c c)) (lm_sumsq (tr_m t)) (lm_sumsq (tr_m t')) /\
  (1 <= j -> ins c (lm_mean (tr_m t)) (lm_mean (tr_m t'))).

Lemma mean_ins j s s' : ok j -> ins (fmul #j c) s s' -> 1 <= j -> ins c (map (fun s => fdiv s #j) s) (map (fun s => fdiv s #j) s').
Proof.
  intros Hj Hs H1. eapply ins_like; [apply (nu_mean _ _ _ Hc j Hj H1)|]. apply (ins_map (fun s => fdiv s #j)); auto.
  intros. now apply (pr_div _ _ HP).
Qed.

Lemma pleft_ins j t t' l l' : ok (S j) -> tracker_ins j t t' -> ins c l l' -> tracker_ins (S j) (pleft t l) (pleft t' l').
Proof.
  intros Hj (N1 & N2 & Hs & Hq & _) Hl. unfold pleft, tracker_ins. cbn [tr_n tr_m lm_sum lm_sumsq lm_mean].
  rewrite N1, N2, (co_up _ HC j Hj). split; auto. split; auto.
  assert (H : ins (fmul #(S j) c) (map2 fadd (lm_sum (tr_m t)) l) (map2 fadd (lm_sum (tr_m t')) l')).
  { eapply ins_like; [apply (nu_up _ _ _ Hc j Hj)|]. apply ins_map2; auto. apply (pr_add _ _ HP). }
  split; auto. split; [|now apply mean_ins].
  eapply ins_like; [apply (nu_upsq _ _ _ Hc j Hj)|]. apply (ins_map2 sqacc (fmul #j (fmul c c)) c); auto.
  intros. apply (pr_add _ _ HP); auto. now apply (pr_square _ _ HP).
Qed.

Lemma pright_ins j t t' l l' : ok (S j) -> tracker_ins (S j) t t' -> ins c l l' -> tracker_ins j (pright t l) (pright t' l').
Proof.
  intros Hj (N1 & N2 & Hs & Hq & _) Hl. unfold pright, tracker_ins. cbn [tr_n tr_m lm_sum lm_sumsq lm_mean].
  rewrite N1, N2, (co_down _ HC j Hj). split; auto. split; auto.
  assert (H : ins (fmul #j c) (map2 fsub (lm_sum (tr_m t)) l) (map2 fsub (lm_sum (tr_m t')) l')).
  { eapply ins_like; [apply (nu_down _ _ _ Hc j Hj)|]. apply ins_map2; auto. apply (pr_sub _ _ HP). }
  split; auto. split; [|apply mean_ins; auto; apply (co_le _ HC j (S j)); auto].
  eapply ins_like; [apply (nu_downsq _ _ _ Hc j Hj)|]. apply (ins_map2 sqdec (fmul #(S j) (fmul c c)) c); auto.
  intros. apply (pr_sub _ _ HP); auto. now apply (pr_square _ _ HP).
Qed.

Lemma pvar_ins j t t' : ok j -> 1 <= j -> tracker_ins j t t' -> ins f0 (pvar (tr_m t) #j) (pvar (tr_m t') #j).
Proof.
  intros Hj H1 (N1 & N2 & Hs & Hq & Hm). unfold pvar. eapply ins_like; [apply (nu_var _ _ _ Hc j Hj H1)|].
  apply (ins_map2 (fun mean q => calculate_variance (fmul mean mean) q #j) c (fmul #j (fmul c c))); auto.
  intros x x' y y' Hx Hy. unfold calculate_variance. apply (pr_div _ _ HP). apply (pr_sub _ _ HP); auto.
  apply (pr_scale _ _ HP). now apply (pr_square _ _ HP).
Qed.

Lemma ploss_ins i j l l' r r' : ok (i + j) -> 1 <= i -> 1 <= j -> tracker_ins i l l' -> tracker_ins j r r' -> E (ploss l r) (ploss l' r').
Proof.
  intros Hij Hi Hj HL HR. pose proof HL as (N1 & N2 & _). pose proof HR as (N3 & N4 & _). unfold ploss.
  rewrite N1, N2, N3, N4, (co_add _ HC i j Hij).
  assert (Oi : ok i) by (apply (co_le _ HC i (i + j)); auto; lia). assert (Oj : ok j) by (apply (co_le _ HC j (i + j)); auto; lia).
  apply (fsum_ins (fadd (fmul (fdiv #i #(i + j)) f0) (fmul (fdiv #j #(i + j)) f0))).
  - apply (ne_trans _ _ HN _ (fadd f0 f0)); [|apply (ne_zero _ _ HN)].
    apply (pr_add _ _ HP); [apply (ne_weight _ _ HN); auto; lia|]. rewrite (Nat.add_comm i j) in *. apply (ne_weight _ _ HN); auto; lia.
  - apply (ins_map2 (fun a b => fadd (fmul (fdiv #i #(i + j)) a) (fmul (fdiv #j #(i + j)) b))).
    + intros. apply (pr_add _ _ HP); now apply (pr_scale _ _ HP).
    + now apply pvar_ins.
    + now apply pvar_ins.
Qed.

Definition scan_ins (i j : nat) (s s' : scan_state) : Prop :=
  threshold_rel E (sc_best s) (sc_best s') /\ tracker_ins i (sc_left s) (sc_left s') /\ tracker_ins j (sc_right s) (sc_right s').
Definition value_ins (v v' : F * list F) : Prop := fst v = fst v' /\ ins c (snd v) (snd v').

Lemma pstep_ins prev i j s s' v v' : ok (i + S j) -> (i = 0 -> feqb (fst v) prev = true) ->
  scan_ins i (S j) s s' -> value_ins v v' -> scan_ins (S i) j (pstep prev s v) (pstep prev s' v').
Proof.
  intros Hok H0 ((Hl & Ht) & HL & HR) (Ev & Hv). unfold pstep, scan_ins. cbn [sc_best sc_left sc_right].
  split; [|split; [apply pleft_ins; auto|apply pright_ins; auto]]; try (eapply (co_le _ HC); [|exact Hok]; lia).
  rewrite <- Ev. destruct (feqb (fst v) prev) eqn:Ef; cbn [negb]; [split; auto|].
  assert (1 <= i) by (destruct i; [specialize (H0 eq_refl); congruence|lia]).
  assert (H1 : E (ploss (sc_left s) (sc_right s)) (ploss (sc_left s') (sc_right s'))) by (apply (ploss_ins i (S j)); auto; lia).
  rewrite <- (pr_less _ _ HP _ _ _ _ H1 Hl). destruct (fltb _ _); split; auto.
Qed.

Lemma zero_ins k : p <= k -> tracker_ins 0 (zero_tracker k) (zero_tracker (S k)).
Proof.
  intros H. unfold tracker_ins, zero_tracker. cbn [tr_n tr_m lm_sum lm_sumsq lm_mean]. rewrite <- (co_0 _ HC).
  split; auto. split; auto. rewrite (co_0 _ HC) at 2 3 5 6.
  split; [eapply ins_like; [apply (nu_0 _ _ _ Hc)|now apply ins_repeat]|].
  split; [eapply ins_like; [apply (nu_0sq _ _ _ Hc)|now apply ins_repeat]|]. lia.
Qed.

Lemma pscan_ins k t t' v v' : p <= k -> ok (length v) -> tracker_ins (length v) t t' -> Forall2 value_ins v v' ->
  (forall x l, hd_error v = Some (x, l) -> feqb x x = true) -> threshold_rel E (sc_best (pscan k t v)) (sc_best (pscan (S k) t' v')).
Proof.
  intros Hp Hok Ht Hv Hh. assert (H0 : scan_ins 0 (length v) (mkScan (mkBT finf f0) (zero_tracker k) t) (mkScan (mkBT finf f0) (zero_tracker (S k)) t')).
  { split; [split; [apply (pr_sinf _ _ HP)|reflexivity]|]. split; auto. now apply zero_ins. }
  unfold pscan. destruct Hv as [|[x l] [x' l'] v v' Hx Hv]; [apply H0|]. pose proof Hx as [Ex _]. cbn [fst] in Ex. subst x'.
  specialize (Hh x l eq_refl).
  cut (forall i w w' s s', Forall2 value_ins w w' -> ok (i + length w) -> (i = 0 -> forall y, hd_error w = Some y -> feqb (fst y) x = true) ->
    scan_ins i (length w) s s' -> threshold_rel E (sc_best (fold_left (pstep x) w s)) (sc_best (fold_left (pstep x) w' s'))).
  { intros HI. apply (HI 0); auto. intros _ y Ey. injection Ey as <-. exact Hh. }
  clear Hv Hx Hh Ht H0 Hok. intros i w w' s s' Hw. revert i s s'. induction Hw as [|y y' w w' Hy Hw IH]; intros i s s' Hok Hh Hs; [apply Hs|].
  cbn [fold_left length] in *. apply (IH (S i)).
  - now replace (S i + length w) with (i + S (length w)) by lia.
  - discriminate.
  - apply pstep_ins; auto.
Qed.

Lemma pmetrics_ins k ls ls' : p <= k -> ok (length ls) -> Forall2 (ins c) ls ls' ->
  tracker_ins (length ls) (mkTr #(length ls) (pmetrics k ls)) (mkTr #(length ls') (pmetrics (S k) ls')).
Proof.
  intros Hp Hok H. rewrite <- (Forall2_length _ _ _ H). unfold tracker_ins, pmetrics. cbn [tr_n tr_m lm_sum lm_sumsq lm_mean]. rewrite <- (Forall2_length _ _ _ H).
  split; auto. split; auto.
  assert (Hs : ins (fmul #(length ls) c) (colsum k ls) (colsum (S k) ls')).
  { unfold colsum. cut (forall i a a', ok (i + length ls) -> ins (fmul #i c) a a' -> ins (fmul #(i + length ls) c) (fold_left (map2 fadd) ls a) (fold_left (map2 fadd) ls' a')).
    { intros HI. apply (HI 0); auto. eapply ins_like; [apply (nu_0 _ _ _ Hc)|now apply ins_repeat]. }
    clear Hok. induction H as [|l l' ls ls' Hl H IH]; intros i a a' Hok Ha; cbn [fold_left length]; [now rewrite Nat.add_0_r|].
    replace (i + S (length ls)) with (S i + length ls) by lia. apply IH; [now replace (S i + length ls) with (i + S (length ls)) by lia|].
    eapply ins_like; [apply (nu_up _ _ _ Hc i)|apply ins_map2; auto; apply (pr_add _ _ HP)]. eapply (co_le _ HC); [|exact Hok]. cbn [length]. lia. }
  split; auto. split; [|now apply mean_ins].
  unfold colsumsq. cut (forall i a a', ok (i + length ls) -> ins (fmul #i (fmul c c)) a a' -> ins (fmul #(i + length ls) (fmul c c)) (fold_left (map2 sqacc) ls a) (fold_left (map2 sqacc) ls' a')).
  { intros HI. apply (HI 0); auto. eapply ins_like; [apply (nu_0sq _ _ _ Hc)|now apply ins_repeat]. }
  clear Hok Hs. induction H as [|l l' ls ls' Hl H IH]; intros i a a' Hok Ha; cbn [fold_left length]; [now rewrite Nat.add_0_r|].
  replace (i + S (length ls)) with (S i + length ls) by lia. apply IH; [now replace (S i + length ls) with (i + S (length ls)) by lia|].
  eapply ins_like; [apply (nu_upsq _ _ _ Hc i)|apply (ins_map2 sqacc (fmul #i (fmul c c)) c); auto].
  - eapply (co_le _ HC); [|exact Hok]. cbn [length]. lia.
  - intros. apply (pr_add _ _ HP); auto. now apply (pr_square _ _ HP).
Qed.

Lemma colmean_ins k ls ls' : p <= k -> ok (length ls) -> ls <> [] -> Forall2 (ins c) ls ls' -> ins c (colmean k ls) (colmean (S k) ls').
Proof.
  intros Hp Hok Hne H. destruct (pmetrics_ins k ls ls' Hp Hok H) as (_ & _ & _ & _ & Hm). apply Hm. destruct ls; [congruence|cbn; lia].
Qed.

Lemma pfind_ins k ls ls' cs cs' : p <= k -> ok (length ls) -> ls <> [] ->
  Forall2 (ins c) ls ls' -> Forall2 (fun v v' => length v = length ls /\ (forall x l, hd_error v = Some (x, l) -> feqb x x = true) /\ Forall2 value_ins v v') cs cs' ->
  split_rel E (pfind k ls cs) (pfind (S k) ls' cs').
Proof.
  intros Hp Hok Hne Hl Hcs. unfold pfind, pselect. pose proof (pmetrics_ins k ls ls' Hp Hok Hl) as HT.
  assert (Hv : E (ptotal_variance k ls) (ptotal_variance (S k) ls')).
  { unfold ptotal_variance. rewrite <- (Forall2_length _ _ _ Hl). apply (fsum_ins f0); [apply (ne_refl _ _ HN)|].
    apply (pvar_ins (length ls) (mkTr #(length ls) (pmetrics k ls)) (mkTr #(length ls') (pmetrics (S k) ls'))); auto.
    destruct ls; [congruence|cbn; lia]. }
  eapply (fold_rel (split_rel E) (fun p p' : nat * best_threshold => fst p = fst p' /\ threshold_rel E (snd p) (snd p'))).
  - intros b b' [i r] [i' r'] (Hg & Eq) (Ei & Hr & Er). cbn [fst snd] in *. subst i'. unfold pselect_step. cbn [fst snd].
    assert (H : E (fsub (ptotal_variance k ls) (bt_loss r)) (fsub (ptotal_variance (S k) ls') (bt_loss r'))) by now apply (pr_sub _ _ HP).
    rewrite <- (pr_less _ _ HP _ _ _ _ Hg H). destruct (fltb _ _); split; auto. cbn [bs_question]. now rewrite Er.
  - apply enumerate_rel. eapply map_rel; [|exact Hcs]. intros v v' (Lv & Hh & H). unfold pcolumn.
    apply pscan_ins; auto; rewrite Lv; auto.
  - split; [apply (ne_refl _ _ HN)|reflexivity].
Qed.

(* ------------------------------------------------------------------ *)
(** ** Data sets and trees *)

Definition data_ins (nc nt : nat) (d d' : dataset) : Prop :=
  wf_dataset nc nt d /\ wf_dataset nc (S nt) d' /\ feature_rows d' = feature_rows d /\ feature_columns d' = feature_columns d /\
  Forall2 (ins c) (labels d) (labels d').

Lemma vls_ins ls ls' col n : Forall2 (ins c) ls ls' -> length ls = n -> Forall (fun q : F * nat => snd q < n) col ->
  Forall2 value_ins (vls_of ls col) (vls_of ls' col).
Proof.
  intros H Hn Hcol. unfold vls_of. induction Hcol as [|q col Hq Hcol IH]; cbn [map]; constructor; auto. split; [reflexivity|]. cbn [snd].
  revert Hq. rewrite <- Hn. clear -H. generalize (snd q) as i. induction H as [|l l' ls ls' Hl H IH]; intros [|i] Hi; cbn [length nth] in *; auto; try lia.
  apply IH. lia.
Qed.

Lemma find_ins nc nt d d' b : p <= nt -> ok (length (labels d)) -> data_ins nc nt d d' -> find_best_split d (N.of_nat nt) = Ok b ->
  exists b', find_best_split d' (N.of_nat (S nt)) = Ok b' /\ split_rel E b b'.
Proof.
  intros Hp Hok (W & W' & Er & Ec & Hl) Eb. rewrite (find_best_split_eq LW nc nt d W) in Eb. injection Eb as <-.
  exists (pfind (S nt) (labels d') (dvls d')). split; [exact (find_best_split_eq LW nc (S nt) d' W')|].
  apply pfind_ins; auto; [eapply wf_some_labels; eauto|]. unfold dvls. rewrite Ec.
  assert (H : forall col, In col (feature_columns d) -> Forall is_num col) by (intros col; apply (wf_column_num _ _ _ _ W)).
  assert (HLc : forall col, In col (feature_columns d) -> length col = length (labels d)).
  { intros col Hin. apply In_nth_error in Hin as (j & Hj). destruct (proj2 (wf_columns _ _ _ W) j col Hj) as [L _]. rewrite L. symmetry. apply (wf_lengths _ _ _ W). }
  revert H HLc. generalize (feature_columns d) as cols. induction cols as [|col cols IH]; intros H HLc; cbn [map]; constructor; [|apply IH; intros; [apply H|apply HLc]; now right].
  pose proof (H col (or_introl eq_refl)) as Hn. destruct (the_sort_spec LW col Hn) as [_ Hsv]. pose proof Hsv as [Hperm _].
  assert (Lc := HLc col (or_introl eq_refl)).
  pose proof (sorted_version_length _ _ Hsv) as LL.
  split; [unfold vls_of; rewrite map_length; congruence|]. split.
  - intros x l Hh. unfold vls_of in Hh. destruct (the_sort col) as [|[y i] r] eqn:Es; [discriminate|]. cbn in Hh. injection Hh as <- _.
    assert (Hin : nth_error col i = Some y) by (apply (value_positions_In col (y, i)); eapply Permutation_in; [exact Hperm|now left]).
    rewrite Forall_forall in Hn. specialize (Hn y (nth_error_In _ _ Hin)). rewrite (feqb_fleb _ LW). unfold is_num in Hn. now rewrite Hn.
  - apply (vls_ins _ _ _ (length (labels d))); auto. apply Forall_forall. intros [y i] Hin. cbn [snd].
    assert (Hin' : nth_error col i = Some y) by (apply (value_positions_In col (y, i)); eapply Permutation_in; [exact Hperm|exact Hin]).
    rewrite <- Lc. apply nth_error_Some. congruence.
Qed.

Lemma partition_rows_ins q rows ls ls' x : Forall2 (ins c) ls ls' -> partition_rows q rows ls = Ok x ->
  exists x', partition_rows q rows ls' = Ok x' /\ fst (fst x') = fst (fst x) /\ fst (snd x') = fst (snd x) /\
    Forall2 (ins c) (snd (fst x)) (snd (fst x')) /\ Forall2 (ins c) (snd (snd x)) (snd (snd x')).
Proof.
  intros H. unfold partition_rows.
  set (z := (([], []), ([], [])) : (list (list F) * list (list F)) * (list (list F) * list (list F))).
  assert (Hz : fst (fst z) = fst (fst z) /\ fst (snd z) = fst (snd z) /\ Forall2 (ins c) (snd (fst z)) (snd (fst z)) /\ Forall2 (ins c) (snd (snd z)) (snd (snd z)))
    by (repeat split; constructor).
  revert Hz. generalize z at 2 4 6 8 10 as y'. generalize z as y. clear z. revert rows.
  induction H as [|l l' ls ls' Hl H IH]; intros [|r rows] [[tr tl] [fr fl]] [[tr' tl'] [fr' fl']] (E1 & E2 & H1 & H2); cbn [fst snd] in *; subst tr' fr';
    try (intros E0; cbn in E0; injection E0 as <-; eexists; split; [reflexivity|]; cbn [fst snd]; auto; fail).
  cbn [combine foldM fst snd]. destruct (solve q r) as [b| |]; cbn [bind]; try discriminate.
  destruct b; intros E0; (eapply IH; [|exact E0]); cbn [fst snd]; repeat split; auto; apply Forall2_app; auto.
Qed.

Lemma partition_ins nc nt d d' q fd td fd' td' : data_ins nc nt d d' ->
  partition d q = Ok (fd, td) -> partition d' q = Ok (fd', td') -> data_ins nc nt fd fd' /\ data_ins nc nt td td'.
Proof.
  intros (W & W' & Er & Ec & Hl) P P'.
  destruct (partition_wf nc nt _ _ _ _ W P) as (_ & Wf & Wt & _). destruct (partition_wf nc (S nt) _ _ _ _ W' P') as (_ & Wf' & Wt' & _).
  unfold partition in P, P'. rewrite Er in P'.
  destruct (partition_rows q (feature_rows d) (labels d)) as [[[tr tl] [fr fl]]| |] eqn:E0; [|discriminate P|discriminate P].
  destruct (partition_rows_ins q _ _ _ _ Hl E0) as ([[tr' tl'] [fr' fl']] & E' & E1 & E2 & H1 & H2). cbn [fst snd] in *. subst tr' fr'.
  rewrite E' in P'. cbn [bind] in P, P'.
  destruct (create_feature_columns fr) as [fc| |]; [|discriminate P|discriminate P].
  destruct (create_feature_columns tr) as [tc| |]; [|discriminate P|discriminate P]. cbn [bind] in P, P'.
  injection P as <- <-. injection P' as <- <-. split; (split; [auto|]; split; [auto|]; cbn [feature_rows feature_columns labels]; auto).
Qed.

Lemma built_ins {L L'} (mk : dataset -> res L) (mk' : dataset -> res L') nc nt cfg level d d' t t' :
  standard cfg -> tc_number_of_classes cfg = N.of_nat nt -> p <= nt -> ok (length (labels d)) ->
  built mk cfg level d t -> built mk' (one_more_target cfg) level d' t' -> data_ins nc nt d d' ->
  tree_map (fun _ => tt) t' = tree_map (fun _ => tt) t /\
  forall row,
    (find_leaf_node_for_data row t = Panic /\ find_leaf_node_for_data row t' = Panic) \/
    exists x x' l l', find_leaf_node_for_data row t = Ok l /\ mk x = Ok l /\
      find_leaf_node_for_data row t' = Ok l' /\ mk' x' = Ok l' /\ data_ins nc nt x x' /\ ok (length (labels x)).
Proof.
  intros St Hn Hp Hok B. revert d' t'.
  assert (Hf : forall d d' b, ok (length (labels d)) -> data_ins nc nt d d' -> tc_split_finder cfg d (tc_number_of_classes cfg) = Ok b ->
    exists b', tc_split_finder (one_more_target cfg) d' (tc_number_of_classes (one_more_target cfg)) = Ok b' /\ split_rel E b b').
  { intros x x' b Ho M Eb. unfold one_more_target. cbn [tc_split_finder tc_number_of_classes]. rewrite St, Hn in *. cbn [split_finder_new] in *.
    replace (N.of_nat nt + 1)%N with (N.of_nat (S nt)) by lia. eapply find_ins; eauto. }
  assert (Ht : tc_max_levels (one_more_target cfg) = tc_max_levels cfg) by reflexivity.
  induction B as [level d b l Es Est El|level d b fd td t f Es Est Ep Bt IHt Bf IHf]; intros d' t' B' M.
  - destruct (Hf _ _ _ Hok M Es) as (b' & Es' & Hb). pose proof (stop_rel E E HP b b' level (tc_max_levels cfg) Hb) as Est'.
    destruct (built_inv _ _ _ _ _ _ B' Es') as [(_ & l' & El' & ->)|(X & _)]; [|congruence].
    rewrite <- (proj2 Hb). split; [reflexivity|]. intros row. right. exists d, d', l, l'. auto 6.
  - destruct (Hf _ _ _ Hok M Es) as (b' & Es' & Hb). pose proof (stop_rel E E HP b b' level (tc_max_levels cfg) Hb) as Est'.
    destruct (built_inv _ _ _ _ _ _ B' Es') as [(X & _)|(_ & fd' & td' & a & e & Ep' & Ba & Bc & ->)]; [congruence|].
    rewrite <- (proj2 Hb) in *. destruct (partition_ins _ _ _ _ _ _ _ _ _ M Ep Ep') as [Mf Mt].
    pose proof (partition_shrinks _ _ _ _ Ep) as [S1 S2].
    assert (Sl : length (labels fd) <= length (labels d) /\ length (labels td) <= length (labels d)).
    { destruct M as (W & _). destruct Mf as (Wf & _). destruct Mt as (Wt & _). rewrite (wf_lengths _ _ _ W), (wf_lengths _ _ _ Wf), (wf_lengths _ _ _ Wt). lia. }
    assert (Of : ok (length (labels fd))) by (eapply (co_le _ HC); [|exact Hok]; lia).
    assert (Ot : ok (length (labels td))) by (eapply (co_le _ HC); [|exact Hok]; lia).
    destruct (IHt Ot _ _ Ba Mt) as [T1 T2]. destruct (IHf Of _ _ Bc Mf) as [F1 F2].
    split; [cbn; now rewrite T1, F1|]. intros row. cbn [node_new find_leaf_node_for_data].
    assert (HS : solve (bs_question b) row = Panic \/ exists v, solve (bs_question b) row = Ok v).
    { unfold solve, idxN, idx; destruct (_ <? _)%N; [|left; reflexivity]; match goal with |- context [nth_error row ?i] => destruct (nth_error row i) end; cbn [bind]; [right; eexists; reflexivity|left; reflexivity]. }
    destruct HS as [->|([|] & ->)]; cbn [bind]; [left; auto|apply T2|apply F2].
Qed.

Theorem tree_ins nc nt d d' cfg t t' :
  standard cfg -> tc_number_of_classes cfg = N.of_nat nt -> p <= nt -> ok (length (labels d)) -> data_ins nc nt d d' ->
  regression_tree_new d cfg = Ok t -> regression_tree_new d' (one_more_target cfg) = Ok t' ->
  tree_map (fun _ => tt) t' = tree_map (fun _ => tt) t /\
  forall row, result_rel (ins c) (tree_prediction row t) (tree_prediction row t').
Proof.
  intros Hst Hn Hp Hok M E1 E2. rewrite regression_tree_new_eq in E1, E2. apply build_with_built in E1. apply build_with_built in E2.
  destruct (built_ins _ _ _ _ _ _ _ _ _ _ Hst Hn Hp Hok E1 E2 M) as [A B]. split; auto. intros row. unfold result_rel.
  unfold tree_prediction. destruct (B row) as [[-> ->]|(x & x' & l & l' & -> & X1 & -> & X2 & (Wx & Wx' & _ & _ & Hl) & Ox)]; [left; auto|right].
  unfold mk_reg in X1, X2. cbn [bind] in *. injection X1 as <-. injection X2 as <-. cbn [rl_data unwrap bind].
  exists (colmean nt (labels x)), (colmean (S nt) (labels x')).
  rewrite (avg_label_eq nt), (avg_label_eq (S nt)) by (eauto using wf_some_labels, wf_labels). split; auto. split; auto.
  apply colmean_ins; auto. eapply wf_some_labels; eauto.
Qed.

Lemma gb_tree_ins nc nt d d' cfg t t' :
  standard cfg -> tc_number_of_classes cfg = N.of_nat nt -> p <= nt -> ok (length (labels d)) -> data_ins nc nt d d' ->
  grad_boost_tree_new d cfg (leaf_output_calculator_new Regression) = Ok t ->
  grad_boost_tree_new d' (one_more_target cfg) (leaf_output_calculator_new Regression) = Ok t' ->
  tree_map (fun _ => tt) t' = tree_map (fun _ => tt) t /\
  forall row, result_rel (fun o o' => length o = nt /\ ins c o o') (gb_out row t) (gb_out row t').
Proof.
  intros Hst Hn Hp Hok M E1 E2. rewrite grad_boost_tree_new_eq in E1, E2. apply build_with_built in E1. apply build_with_built in E2.
  destruct (built_ins _ _ _ _ _ _ _ _ _ _ Hst Hn Hp Hok E1 E2 M) as [A B]. split; auto. intros row. unfold result_rel.
  unfold gb_out. destruct (B row) as [[-> ->]|(x & x' & l & l' & -> & X1 & -> & X2 & (Wx & Wx' & _ & _ & Hl) & Ox)]; [left; auto|right].
  unfold mk_gb in X1, X2. cbn [leaf_output_calculator_new] in X1, X2. unfold calculate_leaf_output_squared_loss in X1, X2.
  rewrite (calculate_average_f64_vector_eq nt) in X1 by (eauto using wf_some_labels, wf_labels).
  rewrite (calculate_average_f64_vector_eq (S nt)) in X2 by (eauto using wf_some_labels, wf_labels).
  cbn [bind] in *. injection X1 as <-. injection X2 as <-. cbn [gl_output unwrap bind].
  exists (colmean nt (labels x)), (colmean (S nt) (labels x')).
  pose proof (wf_labels _ _ _ Wx) as R1.
  split; auto. split; auto. split; [unfold colmean; rewrite map_length, colsum_length by (now apply rect_ge); reflexivity|].
  apply colmean_ins; auto. eapply wf_some_labels; eauto.
Qed.

End Label.

(* ------------------------------------------------------------------ *)
(** ** Regression ensembles *)

Definition out_ins (nt : nat) (t t' : tree_node grad_boost_leaf) : Prop :=
  tree_map (fun _ => tt) t' = tree_map (fun _ => tt) t /\
  forall row, result_rel (fun o o' => length o = nt /\ ins f0 o o') (gb_out row t) (gb_out row t').

Lemma raw_ins nt lr c g g' row ts ts' : E (fmul lr f0) f0 -> E (fadd c f0) c ->
  length g = nt -> ins c g g' -> Forall2 (out_ins nt) ts ts' ->
  result_rel (ins c) (raw gb_out lr g row ts) (raw gb_out lr g' row ts').
Proof.
  intros Hlr Hc Hn Hg H.
  assert (D : result_rel (fun os os' => Forall (fun o => length o = nt) os /\ Forall2 (ins f0) os os')
       (mapM (fun t => gb_out row t) ts) (mapM (fun t => gb_out row t) ts')).
  { induction H as [|t t' ts ts' [_ Ht] H IH]; [right; exists [], []; cbn; repeat split; constructor|].
    cbn [mapM]. destruct (Ht row) as [[-> ->]|(o & o' & Eo & Eo' & L1 & Ho)]; [left; auto|].
    rewrite Eo, Eo'. cbn [bind]. destruct IH as [[-> ->]|(os & os' & -> & -> & A & B)]; [left; auto|right].
    exists (o :: os), (o' :: os'). cbn [bind]. repeat split; auto. }
  assert (Hw : forall ts, mapM (fun t => o <- gb_out row t;; Ok (weighted lr o)) ts = (os <- mapM (fun t => gb_out row t) ts;; Ok (map (weighted lr) os))).
  { clear. induction ts as [|t ts IH]; [reflexivity|]. cbn [mapM]. destruct (gb_out row t); cbn [bind]; auto. rewrite IH.
    destruct (mapM (fun t : tree_node grad_boost_leaf => gb_out row t) ts); reflexivity. }
  unfold raw, result_rel. rewrite !Hw. destruct D as [[-> ->]|(os & os' & -> & -> & A & B)]; [left; auto|right]. cbn [bind].
  rewrite !add_leaf_outputs_eq.
  - eexists _, _. split; [reflexivity|]. split; [reflexivity|]. clear Hn A.
    revert g g' Hg. induction B as [|o o' os os' Ho B IH]; intros g g' Hg; cbn [map fold_left]; auto. apply IH.
    eapply ins_like; [|apply (ins_map2 fadd c (fmul lr f0) g g' (weighted lr o) (weighted lr o')); auto].
    + eapply (ne_trans _ _ HN); [|exact Hc]. apply (pr_add _ _ HP); auto. apply (ne_refl _ _ HN).
    + apply (pr_add _ _ HP).
    + unfold weighted. apply (ins_map (fun x => fmul lr x)); auto. intros. now apply (pr_scale _ _ HP).
  - rewrite Forall_map. apply ins_length in Hg. rewrite Hg, Hn. clear -A B. induction B as [|o o' os os' Ho B IH]; constructor; inversion A; subst; auto.
    unfold weighted. rewrite map_length, (ins_length _ _ _ Ho). auto.
  - rewrite Forall_map. eapply Forall_impl; [|exact A]. intros o Ho. unfold weighted. rewrite map_length, Ho, Hn. auto.
Qed.

Lemma differences_ins z w ls ls' ps ps' : Forall2 (ins z) ls ls' -> Forall2 (ins w) ps ps' -> Forall2 (ins (fsub z w)) (differences ls ps) (differences ls' ps').
Proof.
  assert (D : forall a b, map (fun q => fsub (fst q) (snd q)) (combine a b) = map2 fsub a b) by (intros; now rewrite map2_combine).
  intros Hl. revert ps ps'. unfold differences. induction Hl as [|l l' ls ls' H Hl IH]; intros ps ps' Hp; [constructor|].
  destruct Hp as [|q q' ps ps' Hq Hp]; cbn [combine map fst snd]; constructor; [|now apply IH]. rewrite !D. apply ins_map2; auto. apply (pr_sub _ _ HP).
Qed.

Section Boost.
Variables (c : F) (Hc : null_label E ok c) (H0 : null_label E ok f0) (nc nt : nat) (d d' : dataset) (cfg : tree_config) (n : nat) (lr : F) (m m' : regression_boost_model).
Hypotheses (Hst : standard cfg) (Hnt : tc_number_of_classes cfg = N.of_nat nt) (Hp : p <= nt) (Hok : ok (length (labels d))) (M : data_ins c nc nt d d')
  (Hlr : E (fmul lr f0) f0)
  (E1 : regression_boost_train d cfg n lr = Ok m) (E2 : regression_boost_train d' (one_more_target cfg) n lr = Ok m').

Lemma guess_ins : m_learning_rate m = lr /\ m_learning_rate m' = lr /\ length (m_initial_guess m) = nt /\
  ins c (m_initial_guess m) (m_initial_guess m') /\ length (m_trees m) = n /\ length (m_trees m') = n.
Proof.
  pose proof M as (W & W' & _ & _ & Hl).
  destruct (regression_shape nt d cfg n lr m (wf_labels _ _ _ W) E1) as (L1 & R1 & G1 & V1).
  destruct (regression_shape (S nt) d' (one_more_target cfg) n lr m' (wf_labels _ _ _ W') E2) as (L2 & R2 & G2 & V2).
  repeat split; auto.
  apply boosting_loop_Ok in E1 as (X1 & _). apply boosting_loop_Ok in E2 as (X2 & _).
  unfold determine_initial_guess in X1, X2. cbn [td_labels td_data] in X1, X2.
  rewrite (calculate_average_f64_vector_eq nt) in X1 by (eauto using wf_some_labels, wf_labels).
  rewrite (calculate_average_f64_vector_eq (S nt)) in X2 by (eauto using wf_some_labels, wf_labels).
  destruct (idx (labels d) 0) as [a| |]; [|discriminate X1|discriminate X1]. destruct (idx (labels d') 0) as [a'| |]; [|discriminate X2|discriminate X2].
  cbn [bind] in *. injection X1 as <-. injection X2 as <-. apply (colmean_ins c Hc); auto. eapply wf_some_labels; eauto.
Qed.

Lemma trees_ins : forall k, k <= n -> Forall2 (out_ins nt) (firstn k (m_trees m)) (firstn k (m_trees m')).
Proof.
  pose proof M as (W & W' & Er & Ec & Hl). destruct guess_ins as (R1 & R2 & Ln & Hg & L1 & L2).
  induction k as [|k IH]; intros Hk; [constructor|]. specialize (IH ltac:(lia)).
  destruct (regression_stage _ cfg n lr m k (wf_lengths _ _ _ W) E1 Hk) as (preds & t & Ep & Hs & Ht & Eb).
  destruct (regression_stage _ (one_more_target cfg) n lr m' k (wf_lengths _ _ _ W') E2 Hk) as (preds' & t' & Ep' & Hs' & Ht' & Eb').
  rewrite (firstn_next _ _ _ Ht), (firstn_next _ _ _ Ht'). apply Forall2_app; auto. constructor; [|constructor].
  unfold regression_boost_all_predictions in Ep, Ep'. rewrite all_predictions_eq in Ep, Ep'. rewrite Er in Ep'.
  assert (HPs : Forall2 (ins c) preds preds').
  { eapply mapM_rel; [|exact Ep|exact Ep']. intros row _. unfold regression_boost_predict. rewrite !predict_instance_raw.
    cbn [first_trees m_trees m_initial_guess m_learning_rate]. rewrite R1, R2. apply (raw_ins nt); auto. apply (nu_plus _ _ _ Hc). }
  rewrite Er, Ec in Eb'.
  assert (Wd : forall x k' ps, wf_dataset nc k' x -> feature_rows x = feature_rows d -> feature_columns x = feature_columns d ->
     Forall2 (fun y s => length y = length s) (labels x) ps ->
     wf_dataset nc k' (mkDS (feature_rows d) (differences (labels x) ps) (feature_columns d)) /\ length (differences (labels x) ps) = length (labels x)).
  { intros x k' ps Wx Erx Ecx Hx. assert (Rp : rectangular k' ps).
    { pose proof (wf_labels _ _ _ Wx) as R. clear -Hx R. unfold rectangular in *. induction Hx; constructor; inversion R; subst; auto; congruence. }
    destruct (differences_rect k' (labels x) ps (Forall2_length _ _ _ Hx) (wf_labels _ _ _ Wx) Rp) as [Q1 Q2].
    split; auto. rewrite <- Erx, <- Ecx. apply (with_labels_wf nc k' x _ Wx); auto. rewrite Q1. apply (wf_lengths _ _ _ Wx). }
  destruct (Wd d nt preds W eq_refl eq_refl Hs) as [Wd1 Ld1]. destruct (Wd d' (S nt) preds' W' Er Ec Hs') as [Wd2 _].
  refine (gb_tree_ins f0 H0 nc nt _ _ cfg t t' Hst Hnt Hp _ _ Eb Eb'); cbn [labels].
  - rewrite Ld1. exact Hok.
  - split; auto. split; auto. cbn [feature_rows feature_columns labels]. split; auto. split; auto.
    eapply Forall2_impl; [|eapply differences_ins; [exact Hl|exact HPs]]. intros a b Hab. eapply ins_like; [|exact Hab]. apply (nu_diff _ _ _ Hc).
Qed.

Theorem boost_ins :
  Forall2 (fun t t' => tree_map (fun _ => tt) t' = tree_map (fun _ => tt) t) (m_trees m) (m_trees m') /\
  forall row, result_rel (ins c) (regression_boost_predict m row) (regression_boost_predict m' row).
Proof.
  destruct guess_ins as (R1 & R2 & Ln & Hg & L1 & L2). pose proof (trees_ins n (Nat.le_refl n)) as HF.
  rewrite <- L1 in HF at 1. rewrite <- L2 in HF. rewrite !firstn_all in HF.
  split; [eapply Forall2_impl; [|exact HF]; now intros t t' [A _]|].
  intros row. unfold regression_boost_predict. rewrite !predict_instance_raw, R1, R2. apply (raw_ins nt); auto. apply (nu_plus _ _ _ Hc).
Qed.
End Boost.

(** The data set of the specification. *)
Lemma inserted c nc nt d : p <= nt -> wf_dataset nc nt d -> data_ins c nc nt d (with_constant_target p c d).
Proof.
  intros Hp W. pose proof (wf_labels _ _ _ W) as R.
  assert (HI : Forall2 (ins c) (labels d) (map (insert_at p c) (labels d))).
  { induction R as [|l ls Hl R IH]; cbn [map]; constructor; auto.
    exists (firstn p l), (skipn p l), (firstn p l), (skipn p l), c. rewrite firstn_skipn, firstn_length.
    repeat split; auto; try lia; try (apply eq_rel; apply (ne_refl _ _ HN)). apply (ne_refl _ _ HN). }
  split; auto. split; [|split; [reflexivity|split; [reflexivity|exact HI]]].
  destruct W as [W1 W2 W3 W4 W5 W6 W7]. constructor; cbn [with_constant_target feature_rows labels feature_columns]; auto.
  - now rewrite map_length.
  - unfold rectangular. rewrite Forall_map. eapply Forall_impl; [|exact R]. intros l Hl. unfold insert_at.
    cbn beta in *. rewrite app_length. cbn [length]. rewrite firstn_length, skipn_length. lia.
Qed.

End Null.
