(** Real-number facts: sums, means, variances. *)
From Coq Require Import Reals Lra Permutation.
From Verif Require Import Base Num ModelCommon XR Spec SpecExact Lib.
Local Open Scope R_scope.

Lemma Rsum_app a b : Rsum (a ++ b) = Rsum a + Rsum b.
Proof. induction a; simpl; [lra|]. unfold Rsum in *. rewrite IHa. lra. Qed.

Lemma Rsum_perm a b : Permutation a b -> Rsum a = Rsum b.
Proof. unfold Rsum. induction 1; simpl; lra. Qed.

Lemma Rsum_cons x l : Rsum (x :: l) = x + Rsum l.
Proof. reflexivity. Qed.

Lemma Rsum_map_plus {A} (f g : A -> R) l : Rsum (map (fun x => f x + g x) l) = Rsum (map f l) + Rsum (map g l).
Proof. induction l; simpl map; rewrite ?Rsum_cons; [simpl; lra|]. rewrite IHl. lra. Qed.

Lemma Rsum_map_mult {A} c (f : A -> R) l : Rsum (map (fun x => c * f x) l) = c * Rsum (map f l).
Proof. induction l; simpl map; rewrite ?Rsum_cons; [simpl; lra|]. rewrite IHl. lra. Qed.

Lemma Rsum_map_const {A} c (l : list A) : Rsum (map (fun _ => c) l) = INR (length l) * c.
Proof.
  induction l; simpl map; rewrite ?Rsum_cons; [simpl; lra|]. rewrite IHl.
  cbn [length]. rewrite S_INR. lra.
Qed.

Lemma Rsum_map_ext {A} (f g : A -> R) l : (forall x, In x l -> f x = g x) -> Rsum (map f l) = Rsum (map g l).
Proof. intros H. f_equal. apply map_ext_in. auto. Qed.

Lemma Rsum_map_le {A} (f g : A -> R) l : (forall x, In x l -> f x <= g x) -> Rsum (map f l) <= Rsum (map g l).
Proof.
  induction l as [|a l IH]; intros H; simpl map; rewrite ?Rsum_cons; [simpl; lra|].
  pose proof (H a (or_introl eq_refl)). assert (Rsum (map f l) <= Rsum (map g l)) by (apply IH; intros; apply H; now right). lra.
Qed.

Lemma Rsum_nonneg l : (forall x, In x l -> 0 <= x) -> 0 <= Rsum l.
Proof.
  induction l as [|a l IH]; intros H; rewrite ?Rsum_cons; [simpl; lra|].
  pose proof (H a (or_introl eq_refl)). assert (0 <= Rsum l) by (apply IH; intros; apply H; now right). lra.
Qed.

Lemma Rsum_zero_all l : (forall x, In x l -> 0 <= x) -> Rsum l = 0 -> forall x, In x l -> x = 0.
Proof.
  induction l as [|a l IH]; intros H E x []; rewrite Rsum_cons in E.
  - subst. pose proof (H x (or_introl eq_refl)). assert (0 <= Rsum l) by (apply Rsum_nonneg; intros; apply H; now right). lra.
  - apply IH; auto. { intros; apply H; now right. }
    pose proof (H a (or_introl eq_refl)). assert (0 <= Rsum l) by (apply Rsum_nonneg; intros; apply H; now right). lra.
Qed.

Lemma Rsum_swap {A B} (f : A -> B -> R) (la : list A) (lb : list B) :
  Rsum (map (fun a => Rsum (map (f a) lb)) la) = Rsum (map (fun b => Rsum (map (fun a => f a b) la)) lb).
Proof.
  induction la as [|a la IH]; simpl map.
  - rewrite Rsum_map_const. simpl. lra.
  - rewrite Rsum_cons, IH, <- Rsum_map_plus. reflexivity.
Qed.

Lemma INR_pos {A} (l : list A) : l <> [] -> 0 < INR (length l).
Proof. destruct l; [congruence|]. intros _. apply lt_0_INR. simpl. lia. Qed.

(** Sum of squared deviations from a point. *)
Definition dev (c : R) (l : list R) : R := Rsum (map (fun x => (x - c) * (x - c)) l).
Definition sse (l : list R) : R := dev (mean l) l.
Definition sumsq (l : list R) : R := Rsum (map (fun x => x * x) l).

Lemma dev_nonneg c l : 0 <= dev c l.
Proof. apply Rsum_nonneg. intros x Hx. apply in_map_iff in Hx as (y & <- & _). apply Rle_0_sqr. Qed.

Lemma dev_expand c l : dev c l = sumsq l - 2 * c * Rsum l + INR (length l) * (c * c).
Proof.
  unfold dev, sumsq. induction l; simpl map; rewrite ?Rsum_cons; [simpl; lra|].
  rewrite IHl. cbn [length]. rewrite S_INR. lra.
Qed.

Lemma mean_sum l : l <> [] -> INR (length l) * mean l = Rsum l.
Proof. intros H. pose proof (INR_pos l H). unfold mean. field. lra. Qed.

(** Deviation from any point = deviation from the mean + squared distance. *)
Lemma dev_mean c l : dev c l = sse l + INR (length l) * ((c - mean l) * (c - mean l)).
Proof.
  destruct l as [|x l]; [unfold sse, dev; simpl; lra|].
  set (l' := x :: l). assert (Hne : l' <> []) by discriminate.
  unfold sse. rewrite !dev_expand. pose proof (mean_sum l' Hne) as Hm.
  assert (E : Rsum l' = INR (length l') * mean l') by lra. rewrite E. lra.
Qed.

Lemma sse_le_dev c l : sse l <= dev c l.
Proof.
  rewrite (dev_mean c l). pose proof (pos_INR (length l)). pose proof (Rle_0_sqr (c - mean l)) as H0. unfold Rsqr in H0.
  assert (0 <= INR (length l) * ((c - mean l) * (c - mean l))) by (apply Rmult_le_pos; auto). lra.
Qed.

Lemma dev_app c a b : dev c (a ++ b) = dev c a + dev c b.
Proof. unfold dev. now rewrite map_app, Rsum_app. Qed.

Lemma dev_perm c a b : Permutation a b -> dev c a = dev c b.
Proof. intros H. unfold dev. apply Rsum_perm. now apply Permutation_map. Qed.

Lemma mean_perm a b : Permutation a b -> mean a = mean b.
Proof. intros H. unfold mean. now rewrite (Rsum_perm _ _ H), (Permutation_length H). Qed.

Lemma sse_perm a b : Permutation a b -> sse a = sse b.
Proof. intros H. unfold sse. rewrite (mean_perm _ _ H). now apply dev_perm. Qed.

Lemma variance_sse l : variance l = sse l / INR (length l).
Proof. reflexivity. Qed.

Lemma variance_perm a b : Permutation a b -> variance a = variance b.
Proof. intros H. rewrite !variance_sse, (sse_perm _ _ H), (Permutation_length H). reflexivity. Qed.

Lemma sse_split a b : sse a + sse b <= sse (a ++ b).
Proof.
  unfold sse at 3. rewrite dev_app.
  pose proof (sse_le_dev (mean (a ++ b)) a). pose proof (sse_le_dev (mean (a ++ b)) b). lra.
Qed.

Lemma sse_variance l : INR (length l) * variance l = sse l.
Proof.
  destruct l as [|x l]; [unfold sse, dev; simpl; lra|].
  rewrite variance_sse. field. apply not_0_INR. discriminate.
Qed.

(* ------------------------------------------------------------------ *)
(** ** Several targets *)

Definition tsse (k : nat) (ls : list (list R)) : R := Rsum (map (fun t => sse (target t ls)) (seq 0 k)).

Lemma target_app t a b : target t (a ++ b) = target t a ++ target t b.
Proof. apply map_app. Qed.
Lemma target_length t ls : length (target t ls) = length ls.
Proof. apply map_length. Qed.

Lemma tsse_total k ls : INR (length ls) * total_variance k ls = tsse k ls.
Proof.
  unfold total_variance, tsse. rewrite <- Rsum_map_mult. apply Rsum_map_ext. intros t _.
  rewrite <- (target_length t ls). apply sse_variance.
Qed.

Lemma total_variance_tsse k ls : ls <> [] -> total_variance k ls = tsse k ls / INR (length ls).
Proof. intros H. pose proof (INR_pos ls H). rewrite <- tsse_total. field. lra. Qed.

Lemma tsse_nonneg k ls : 0 <= tsse k ls.
Proof. apply Rsum_nonneg. intros x Hx. apply in_map_iff in Hx as (t & <- & _). apply dev_nonneg. Qed.

Lemma tsse_split k a b : tsse k a + tsse k b <= tsse k (a ++ b).
Proof.
  unfold tsse. rewrite <- Rsum_map_plus. apply Rsum_map_le. intros t _. rewrite target_app. apply sse_split.
Qed.

Lemma tsse_perm k a b : Permutation a b -> tsse k a = tsse k b.
Proof. intros H. apply Rsum_map_ext. intros t _. apply sse_perm. now apply Permutation_map. Qed.

Lemma total_variance_perm k a b : Permutation a b -> total_variance k a = total_variance k b.
Proof. intros H. apply Rsum_map_ext. intros t _. apply variance_perm. now apply Permutation_map. Qed.

Lemma total_variance_nonneg k ls : 0 <= total_variance k ls.
Proof.
  destruct ls as [|x ls].
  - unfold total_variance. apply Rsum_nonneg. intros y Hy. apply in_map_iff in Hy as (t & <- & _).
    unfold variance. simpl. lra.
  - rewrite total_variance_tsse by discriminate. apply Rmult_le_pos; [apply tsse_nonneg|].
    apply Rlt_le, Rinv_0_lt_compat, INR_pos. discriminate.
Qed.

Lemma remaining_tsse k a b :
  a ++ b <> [] -> remaining_variance k a b = (tsse k a + tsse k b) / INR (length (a ++ b)).
Proof.
  intros H. pose proof (INR_pos _ H) as Hp. unfold remaining_variance.
  rewrite <- app_length, <- !tsse_total. field. lra.
Qed.

Lemma remaining_nonneg k a b : 0 <= remaining_variance k a b.
Proof.
  destruct (a ++ b) as [|x l] eqn:E.
  - apply app_eq_nil in E as [-> ->]. unfold remaining_variance. simpl. lra.
  - rewrite remaining_tsse by (rewrite E; discriminate). apply Rmult_le_pos.
    + pose proof (tsse_nonneg k a). pose proof (tsse_nonneg k b). lra.
    + apply Rlt_le, Rinv_0_lt_compat, INR_pos. rewrite E. discriminate.
Qed.

Lemma gain_nonneg k ls a b : Permutation (a ++ b) ls -> 0 <= total_variance k ls - remaining_variance k a b.
Proof.
  intros H. destruct ls as [|x ls].
  - apply Permutation_sym, Permutation_nil, app_eq_nil in H as [-> ->].
    unfold remaining_variance. pose proof (total_variance_nonneg k []). simpl. lra.
  - assert (Hne : a ++ b <> []). { intros E. rewrite E in H. apply Permutation_nil in H. discriminate. }
    rewrite remaining_tsse by auto. rewrite total_variance_tsse by discriminate.
    rewrite (Permutation_length H). pose proof (tsse_split k a b). rewrite (tsse_perm k _ _ H) in *.
    pose proof (INR_pos (x :: ls) ltac:(discriminate)) as Hp. apply Rinv_0_lt_compat in Hp.
    unfold Rdiv. assert ((tsse k a + tsse k b) * / INR (length (x :: ls)) <= tsse k (x :: ls) * / INR (length (x :: ls)))
      by (apply Rmult_le_compat_r; lra). lra.
Qed.

Lemma gain_empty k ls a b : Permutation (a ++ b) ls -> a = [] \/ b = [] -> total_variance k ls - remaining_variance k a b = 0.
Proof.
  intros H Hab. destruct ls as [|x ls].
  - apply Permutation_sym, Permutation_nil, app_eq_nil in H as [-> ->].
    unfold remaining_variance, total_variance, variance. simpl.
    assert (E : Rsum (map (fun _ => 0 / 0) (seq 0 k)) = 0) by (rewrite Rsum_map_const; lra). rewrite E. lra.
  - assert (Hne : a ++ b <> []). { intros E. rewrite E in H. apply Permutation_nil in H. discriminate. }
    rewrite remaining_tsse by auto. rewrite total_variance_tsse by discriminate.
    rewrite (Permutation_length H), <- (tsse_perm k _ _ H).
    assert (E0 : tsse k [] = 0).
    { unfold tsse, sse, dev, target. simpl. rewrite Rsum_map_const. lra. }
    destruct Hab as [-> | ->]; rewrite ?app_nil_r, E0; simpl; lra.
Qed.
