(** The split finder in exact arithmetic. *)
From Coq Require Import Reals Lra Permutation Sorted.
From Verif Require Import Base Num ModelCommon ModelTree Lib XR Spec SpecExact ProofReal ProofData ProofSort ProofSplit ProofSplit2.
Local Open Scope R_scope.

(* ------------------------------------------------------------------ *)
(** ** Vectors of finite values *)

Lemma map_seq_nth (l : list R) k : length l = k -> map (fun t => nth t l 0) (seq 0 k) = l.
Proof.
  intros <-. induction l as [|x l IH]; [reflexivity|]. cbn [length seq map nth]. f_equal.
  rewrite <- seq_shift, map_map. exact IH.
Qed.

Lemma map2_map_map {A B C} (f : B -> C -> A) (g : nat -> B) (h : nat -> C) l :
  map2 f (map g l) (map h l) = map (fun t => f (g t) (h t)) l.
Proof. induction l; simpl; auto. now f_equal. Qed.

Lemma map2_Fin (op : xr -> xr -> xr) (h : R -> R -> R) g l k :
  (forall a b, op (Fin a) (Fin b) = Fin (h a b)) -> length l = k ->
  map2 op (map Fin (map g (seq 0 k))) (map Fin l) = map Fin (map (fun t => h (g t) (nth t l 0)) (seq 0 k)).
Proof.
  intros H L. rewrite <- (map_seq_nth l k L) at 1. rewrite !map_map, map2_map_map. apply map_ext. intros t. apply H.
Qed.

Lemma fold_Fin (op : xr -> xr -> xr) (h : R -> R -> R) k ls g :
  (forall a b, op (Fin a) (Fin b) = Fin (h a b)) -> rectangular k ls ->
  fold_left (map2 op) (map (map Fin) ls) (map Fin (map g (seq 0 k))) =
  map Fin (map (fun t => fold_left h (target t ls) (g t)) (seq 0 k)).
Proof.
  intros H Hr. revert g. induction Hr as [|l ls Hl _ IH]; intros g; [reflexivity|].
  cbn [map fold_left target]. rewrite (map2_Fin op h) by auto. rewrite IH. reflexivity.
Qed.

Lemma repeat_map_seq {A} (x : A) k : repeat x k = map (fun _ => x) (seq 0 k).
Proof.
  induction k; [reflexivity|]. cbn [repeat seq map]. f_equal. rewrite <- seq_shift, map_map. exact IHk.
Qed.

Lemma repeat_Fin0 k : repeat (@f0 xr_ops) k = map Fin (map (fun _ => 0) (seq 0 k)).
Proof. rewrite map_map. exact (repeat_map_seq (Fin 0) k). Qed.

Lemma fold_Rplus l a : fold_left Rplus l a = a + Rsum l.
Proof. revert a. induction l; intros; cbn [fold_left Rsum fold_right]; [lra|]. rewrite IHl. fold (Rsum l). lra. Qed.

Lemma fold_Rsq l a : fold_left (fun q x => q + x * x) l a = a + sumsq l.
Proof.
  revert a. unfold sumsq. induction l; intros; cbn [fold_left map]; rewrite ?Rsum_cons; [simpl; lra|]. rewrite IHl. lra.
Qed.

Lemma xsub_Fin a b : xsub (Fin a) (Fin b) = Fin (a - b).
Proof. reflexivity. Qed.

Definition vs (k : nat) (ls : list (list R)) : list R := map (fun t => Rsum (target t ls)) (seq 0 k).
Definition vq (k : nat) (ls : list (list R)) : list R := map (fun t => sumsq (target t ls)) (seq 0 k).

Lemma colsum_Fin k ls : rectangular k ls -> colsum k (map (map Fin) ls) = map Fin (vs k ls).
Proof.
  intros H. unfold colsum. rewrite repeat_Fin0. etransitivity.
  - exact (fold_Fin xadd Rplus k ls (fun _ => 0) (fun a b => eq_refl) H).
  - f_equal. apply map_ext. intros t. rewrite fold_Rplus. lra.
Qed.

Lemma colsumsq_Fin k ls : rectangular k ls -> colsumsq k (map (map Fin) ls) = map Fin (vq k ls).
Proof.
  intros H. unfold colsumsq. rewrite repeat_Fin0. etransitivity.
  - exact (fold_Fin sqacc (fun q x => q + x * x) k ls (fun _ => 0) (fun a b => eq_refl) H).
  - f_equal. apply map_ext. intros t. rewrite fold_Rsq. lra.
Qed.

Lemma fsum_Fin l : fsum (map Fin l) = Fin (Rsum l).
Proof.
  unfold fsum. change (@fsum0 xr_ops) with (Fin 0).
  transitivity (Fin (fold_left Rplus l 0)); [|f_equal; rewrite fold_Rplus; lra].
  generalize 0. induction l as [|x l IH]; intros a; [reflexivity|]. cbn [map fold_left]. exact (IH (a + x)).
Qed.

(* ------------------------------------------------------------------ *)
(** ** Trackers hold the sums of the labels on their side *)

Record tracks (k : nat) (t : tracker) (ls : list (list R)) : Prop := {
  tk_n : tr_n t = Fin (INR (length ls));
  tk_sum : lm_sum (tr_m t) = map Fin (vs k ls);
  tk_sq : lm_sumsq (tr_m t) = map Fin (vq k ls);
  tk_mean : ls <> [] -> lm_mean (tr_m t) = map Fin (map (fun s => s / INR (length ls)) (vs k ls)) }.

Lemma vs_perm k a b : Permutation a b -> vs k a = vs k b.
Proof. intros H. apply map_ext. intros t. apply Rsum_perm. now apply Permutation_map. Qed.
Lemma vq_perm k a b : Permutation a b -> vq k a = vq k b.
Proof. intros H. apply map_ext. intros t. apply Rsum_perm. apply Permutation_map. now apply Permutation_map. Qed.

Lemma tracks_perm k t a b : Permutation a b -> tracks k t a -> tracks k t b.
Proof.
  intros H [H1 H2 H3 H4]. constructor.
  - now rewrite <- (Permutation_length H).
  - now rewrite <- (vs_perm k _ _ H).
  - now rewrite <- (vq_perm k _ _ H).
  - intros Hb. rewrite <- (vs_perm k _ _ H), <- (Permutation_length H). apply H4.
    intros ->. apply Permutation_nil in H. contradiction.
Qed.

Lemma map_div_Fin n l : n <> 0 -> map (fun s : xr => xdiv s (Fin n)) (map Fin l) = map Fin (map (fun s => s / n) l).
Proof. intros Hn. rewrite !map_map. apply map_ext. intros s. now apply xdiv_Fin. Qed.

Lemma nonempty_INR {A} (l : list A) : l <> [] -> INR (length l) <> 0.
Proof. intros H. pose proof (INR_pos l H). lra. Qed.

Lemma tracks_pleft k t ls l : tracks k t ls -> length l = k -> tracks k (pleft t (map Fin l)) (ls ++ [l]).
Proof.
  intros [H1 H2 H3 H4] Hl. unfold pleft.
  assert (ES : map2 fadd (lm_sum (tr_m t)) (map Fin l) = map Fin (vs k (ls ++ [l]))).
  { rewrite H2. unfold vs. etransitivity; [exact (map2_Fin xadd Rplus _ l k (fun a b => eq_refl) Hl)|].
    f_equal. apply map_ext. intros i. rewrite target_app, Rsum_app. simpl. lra. }
  assert (EN : fadd (tr_n t) f1 = Fin (INR (length (ls ++ [l])))).
  { rewrite H1, app_length, Nat.add_1_r, S_INR. reflexivity. }
  constructor; cbn [tr_n tr_m lm_sum lm_sumsq lm_mean]; auto.
  - rewrite H3. unfold vq. etransitivity; [exact (map2_Fin sqacc (fun q x => q + x * x) _ l k (fun a b => eq_refl) Hl)|].
    f_equal. apply map_ext. intros i. rewrite target_app. unfold sumsq. rewrite map_app, Rsum_app. simpl. lra.
  - intros Hne. rewrite ES, EN. apply map_div_Fin. now apply nonempty_INR.
Qed.

Lemma tracks_pright k t ls l : tracks k t (l :: ls) -> length l = k -> tracks k (pright t (map Fin l)) ls.
Proof.
  intros [H1 H2 H3 H4] Hl. unfold pright.
  assert (ES : map2 fsub (lm_sum (tr_m t)) (map Fin l) = map Fin (vs k ls)).
  { rewrite H2. unfold vs. etransitivity; [exact (map2_Fin xsub Rminus _ l k (fun a b => eq_refl) Hl)|].
    f_equal. apply map_ext. intros i. cbn [target map]. rewrite Rsum_cons. fold (target i ls). lra. }
  assert (EN : fsub (tr_n t) f1 = Fin (INR (length ls))).
  { rewrite H1. cbn [length]. rewrite S_INR.
    change (Fin (INR (length ls) + 1 + - 1) = Fin (INR (length ls))). f_equal. lra. }
  constructor; cbn [tr_n tr_m lm_sum lm_sumsq lm_mean]; auto.
  - rewrite H3. unfold vq. etransitivity; [exact (map2_Fin sqdec (fun q x => q - x * x) _ l k (fun a b => eq_refl) Hl)|].
    f_equal. apply map_ext. intros i. unfold sumsq. cbn [target map]. rewrite Rsum_cons. fold (target i ls). lra.
  - intros Hne. rewrite ES, EN. apply map_div_Fin. now apply nonempty_INR.
Qed.

Lemma tracks_zero k : tracks k (zero_tracker k) [].
Proof.
  constructor; cbn [zero_tracker tr_n tr_m lm_sum lm_sumsq lm_mean].
  - reflexivity.
  - unfold vs. rewrite repeat_map_seq, map_map. reflexivity.
  - unfold vq. rewrite repeat_map_seq, map_map. reflexivity.
  - congruence.
Qed.

Lemma tracks_total k ls : rectangular k ls -> ls <> [] -> tracks k (ptotal k (map (map Fin) ls)) ls.
Proof.
  intros Hr Hne. constructor; cbn [ptotal pmetrics tr_n tr_m lm_sum lm_sumsq lm_mean].
  - rewrite map_length. reflexivity.
  - now apply colsum_Fin.
  - now apply colsumsq_Fin.
  - intros _. rewrite colsum_Fin by auto. rewrite map_length. apply map_div_Fin. now apply nonempty_INR.
Qed.

Lemma variance_moments l : l <> [] ->
  (sumsq l - INR (length l) * (Rsum l / INR (length l) * (Rsum l / INR (length l)))) / INR (length l) = variance l.
Proof.
  intros H. rewrite variance_sse. unfold sse. rewrite dev_expand. unfold mean.
  pose proof (nonempty_INR l H). field. auto.
Qed.

Lemma tracks_pvar k t ls : tracks k t ls -> ls <> [] ->
  pvar (tr_m t) (tr_n t) = map Fin (map (fun t => variance (target t ls)) (seq 0 k)).
Proof.
  intros [H1 H2 H3 H4] Hne. unfold pvar. rewrite (H4 Hne), H3, H1. unfold vs, vq.
  rewrite !map_map, map2_map_map. apply map_ext. intros i. unfold calculate_variance.
  pose proof (nonempty_INR ls Hne) as Hn.
  rewrite <- variance_moments. 2:{ intros E. apply map_eq_nil in E. contradiction. }
  rewrite !target_length. cbn [fsub fmul xr_ops xmul].
  change (@fdiv xr_ops) with xdiv. rewrite xsub_Fin. now apply xdiv_Fin.
Qed.

Lemma tracks_ploss k l r a b : tracks k l a -> tracks k r b -> a <> [] -> b <> [] ->
  ploss l r = Fin (remaining_variance k a b).
Proof.
  intros Hl Hr Ha Hb. unfold ploss. rewrite (tracks_pvar k l a Hl Ha), (tracks_pvar k r b Hr Hb).
  rewrite (tk_n _ _ _ Hl), (tk_n _ _ _ Hr).
  rewrite !map_map, map2_map_map.
  assert (Hn : INR (length a + length b) <> 0).
  { apply not_0_INR. destruct a; [congruence|]. simpl. lia. }
  match goal with |- fsum (map ?f ?s) = _ =>
    replace (map f s) with (map Fin (map (fun t =>
      INR (length a) / INR (length a + length b) * variance (target t a) +
      INR (length b) / INR (length a + length b) * variance (target t b)) s)) end.
  - rewrite fsum_Fin. f_equal. unfold remaining_variance, total_variance.
    rewrite <- !Rsum_map_mult, <- Rsum_map_plus. reflexivity.
  - rewrite map_map. apply map_ext. intros t.
    cbn [fadd xr_ops xadd]. rewrite <- plus_INR.
    change (@fdiv xr_ops) with xdiv. rewrite !xdiv_Fin by auto. reflexivity.
Qed.

(* ------------------------------------------------------------------ *)
(** ** One column *)

Definition fin_row (p : xr * list R) : xr * list xr := (fst p, map Fin (snd p)).

Section Column.
Variables (k : nat) (all : list (xr * list R)) (prev : xr).

Definition cost (i : nat) : R := remaining_variance k (firstn i (map snd all)) (skipn i (map snd all)).
(** Position [i] is a cut the scan evaluates: its value is [v], which differs from the first value. *)
Definition cut (i : nat) (v : xr) : Prop := exists l, nth_error all i = Some (v, l) /\ xeqb v prev = false.

Definition best_upto (n : nat) (b : best_threshold) : Prop :=
  (b = mkBT PInf (Fin 0) /\ forall i v, (i < n)%nat -> ~ cut i v) \/
  (exists i v, (i < n)%nat /\ cut i v /\ b = mkBT (Fin (cost i)) v /\
     (forall j w, (j < n)%nat -> cut j w -> cost i <= cost j) /\
     (forall j w, (j < i)%nat -> cut j w -> cost i < cost j)).

Lemma best_upto_skip n b : (forall v, ~ cut n v) -> best_upto n b -> best_upto (S n) b.
Proof.
  intros Hn [[Hb H]|(i & v & Hi & Hc & Hb & H1 & H2)].
  - left. split; auto. intros j w Hj Hw. destruct (Nat.eq_dec j n) as [->|]; [now apply (Hn w)|].
    apply (H j w); auto. lia.
  - right. exists i, v. repeat split; auto; try lia.
    intros j w Hj Hw. destruct (Nat.eq_dec j n) as [->|]; [now apply Hn in Hw|]. apply (H1 j w); auto. lia.
Qed.

Lemma best_upto_cut n b v : cut n v -> best_upto n b ->
  best_upto (S n) (if xltb (Fin (cost n)) (bt_loss b) then mkBT (Fin (cost n)) v else b).
Proof.
  intros Hn [[Hb H]|(i & w & Hi & Hc & Hb & H1 & H2)].
  - rewrite Hb. cbn [bt_loss]. change (xltb (Fin (cost n)) PInf) with true. cbn iota.
    right. exists n, v. repeat split; auto.
    + intros j w Hj Hw. destruct (Nat.eq_dec j n) as [->|]; [lra|]. exfalso. apply (H j w); auto. lia.
    + intros j w Hj Hw. exfalso. now apply (H j w).
  - rewrite Hb. cbn [bt_loss]. destruct (xltb (Fin (cost n)) (Fin (cost i))) eqn:E.
    + apply xltb_Fin in E. right. exists n, v. repeat split; auto.
      * intros j u Hj Hu. destruct (Nat.eq_dec j n) as [->|]; [lra|].
        assert (cost i <= cost j) by (apply (H1 j u); auto; lia). lra.
      * intros j u Hj Hu. assert (cost i <= cost j) by (apply (H1 j u); auto). lra.
    + assert (cost i <= cost n).
      { apply Rnot_lt_le. intros Hlt. apply xltb_Fin in Hlt. congruence. }
      right. exists i, w. repeat split; auto.
      intros j u Hj Hu. destruct (Nat.eq_dec j n) as [->|]; [auto|]. apply (H1 j u); auto. lia.
Qed.

Lemma scan_best pre post s :
  all = pre ++ post -> rectangular k (map snd all) ->
  (forall v l, nth_error all 0 = Some (v, l) -> xeqb v prev = true) ->
  tracks k (sc_left s) (map snd pre) -> tracks k (sc_right s) (map snd post) ->
  best_upto (length pre) (sc_best s) ->
  best_upto (length all) (sc_best (fold_left (pstep prev) (map fin_row post) s)).
Proof.
  revert pre s. induction post as [|[v l] post IH]; intros pre s E Hr H0 HL HR HB.
  - rewrite app_nil_r in E. subst. exact HB.
  - cbn [map fold_left]. apply (IH (pre ++ [(v, l)])); auto.
    + now rewrite <- app_assoc.
    + rewrite map_app. cbn [map]. apply tracks_pleft; auto.
      rewrite E, map_app in Hr. apply Forall_app in Hr as [_ Hr]. now inversion Hr.
    + cbn [pstep sc_right]. apply tracks_pright; auto.
      rewrite E, map_app in Hr. apply Forall_app in Hr as [_ Hr]. now inversion Hr.
    + rewrite app_length, Nat.add_1_r. cbn [pstep sc_best fin_row fst].
      change (@feqb xr_ops) with xeqb. change (@fltb xr_ops) with xltb.
      assert (En : nth_error all (length pre) = Some (v, l)).
      { rewrite E, nth_error_app2, Nat.sub_diag; auto. }
      destruct (xeqb v prev) eqn:Ev; cbn [negb].
      * apply best_upto_skip; auto. intros w (l' & Hw & Hne). congruence.
      * assert (Hpre : pre <> []).
        { intros ->. rewrite (H0 v l) in Ev; [discriminate|]. now rewrite E. }
        assert (Hpre' : map snd pre <> []) by (intros Em; apply map_eq_nil in Em; contradiction).
        rewrite (tracks_ploss k _ _ (map snd pre) (map snd ((v, l) :: post))); auto; [|discriminate].
        replace (remaining_variance k (map snd pre) (map snd ((v, l) :: post))) with (cost (length pre)).
        2:{ unfold cost. rewrite E, map_app. rewrite <- (map_length snd pre).
            rewrite firstn_app, firstn_all, Nat.sub_diag. cbn [firstn]. rewrite app_nil_r.
            rewrite skipn_app, skipn_all, Nat.sub_diag. reflexivity. }
        apply best_upto_cut; auto. exists l. auto.
Qed.
End Column.

Lemma pcolumn_exact k ls all p0 :
  rectangular k ls -> ls <> [] -> Permutation ls (map snd all) -> hd_error all = Some p0 -> xeqb (fst p0) (fst p0) = true ->
  best_upto k all (fst p0) (length all) (pcolumn k (map (map Fin) ls) (map fin_row all)).
Proof.
  intros Hr Hne Hp H0 Hnum. unfold pcolumn, pscan. destruct all as [|[v l] all']; [discriminate|].
  injection H0 as <-. cbn [fst] in *. set (all := (v, l) :: all') in *. cbn [map fin_row fst].
  change ((v, map Fin (snd (v, l))) :: map fin_row all') with (map fin_row all).
  apply (scan_best k all v [] all); auto.
  - unfold rectangular in *. now rewrite <- Hp.
  - intros v' l' E. injection E as <- <-. exact Hnum.
  - apply tracks_zero.
  - apply (tracks_perm k _ ls); auto. now apply tracks_total.
  - left. split; auto. intros i w Hi. simpl in Hi. lia.
Qed.

(* ------------------------------------------------------------------ *)
(** ** The whole finder *)

Definition ordered (ls : list (list R)) (r : list (xr * nat)) : list (xr * list R) :=
  map (fun p => (fst p, nth (snd p) ls [])) r.

Lemma vls_ordered ls r : vls_of (map (map Fin) ls) r = map fin_row (ordered ls r).
Proof.
  unfold vls_of, ordered. rewrite map_map. apply map_ext. intros [v i]. unfold fin_row. cbn [fst snd]. f_equal.
  change (@nil (@F xr_ops)) with (map Fin []). apply map_nth.
Qed.

Lemma ordered_labels ls r : map snd (ordered ls r) = labels_in_order ls r.
Proof. unfold ordered, labels_in_order. rewrite map_map. reflexivity. Qed.

Lemma map_nth_seq (ls : list (list R)) : map (fun i => nth i ls []) (seq 0 (length ls)) = ls.
Proof. apply map_nth_seq_all. Qed.

Lemma value_positions_snd (col : list xr) : map snd (value_positions col) = seq 0 (length col).
Proof. unfold value_positions. rewrite map_snd_combine; auto. now rewrite seq_length. Qed.

Lemma labels_in_order_perm ls (col : list xr) r :
  sorted_version col r -> length col = length ls -> Permutation ls (labels_in_order ls r).
Proof.
  intros [Hp _] L. unfold labels_in_order. rewrite <- (map_map snd (fun i => nth i ls [])).
  rewrite (Permutation_map snd Hp), value_positions_snd, L, map_nth_seq. reflexivity.
Qed.

Lemma wf_col_length nc nt (d : @dataset xr_ops) ls col :
  wf_dataset nc nt d -> real_labels ls d -> In col (feature_columns d) -> length col = length ls.
Proof.
  intros W Hl Hin. apply In_nth_error in Hin as (j & Hj). destruct (wf_columns _ _ _ W) as [_ Ht].
  destruct (Ht _ _ Hj) as [-> _]. rewrite <- (wf_lengths _ _ _ W), Hl, map_length. reflexivity.
Qed.

Lemma real_rect nc nt d ls : wf_dataset nc nt d -> real_labels ls d -> rectangular nt ls /\ ls <> [].
Proof.
  intros W Hl. split.
  - pose proof (wf_labels _ _ _ W) as H. rewrite Hl in H. unfold rectangular in *. rewrite Forall_map in H.
    eapply Forall_impl; [|exact H]. intros a Ha. cbv beta in Ha. now rewrite map_length in Ha.
  - intros ->. pose proof (wf_nonempty _ _ _ W). pose proof (wf_lengths _ _ _ W) as L. rewrite Hl in L.
    destruct (feature_rows d); [congruence|discriminate].
Qed.

Lemma ptotal_variance_exact k ls : rectangular k ls -> ls <> [] ->
  ptotal_variance k (map (map Fin) ls) = Fin (total_variance k ls).
Proof.
  intros Hr Hne. unfold ptotal_variance.
  change (fsum (pvar (tr_m (ptotal k (map (map Fin) ls))) (tr_n (ptotal k (map (map Fin) ls)))) = Fin (total_variance k ls)).
  rewrite (tracks_pvar k _ ls) by auto using tracks_total. apply fsum_Fin.
Qed.

Lemma sorted_head_le (r : list (xr * nat)) m i p :
  StronglySorted pair_lt r -> hd_error r = Some m -> nth_error r i = Some p -> i = 0%nat \/ xleb (fst m) (fst p) = true.
Proof.
  intros HS Hm Hi. destruct r as [|m' r]; [discriminate|]. injection Hm as ->. destruct i as [|i]; [auto|]. right. simpl in Hi.
  inversion HS as [|? ? _ HF]; subst. rewrite Forall_forall in HF. specialize (HF p (nth_error_In _ _ Hi)).
  destruct HF as [H|[H _]].
  - change (@fltb xr_ops) with xltb in H. unfold xltb in H. now apply andb_true_iff in H.
  - change (@feqb xr_ops) with xeqb in H. unfold xeqb in H. now apply andb_true_iff in H.
Qed.

Lemma considered_cut nc nt d ls j (col : list xr) (r : list (xr * nat)) :
  wf_dataset nc nt d -> real_labels ls d -> nth_error (feature_columns d) j = Some col -> sorted_version col r ->
  exists m, hd_error r = Some m /\ is_num (fst m) /\
    hd_error (ordered ls r) = Some (fst m, nth (snd m) ls []) /\
    forall i v, cut (ordered ls r) (fst m) i v <-> considered d j r i v.
Proof.
  intros W Hl Hj HS.
  assert (Hlen : length r = length ls).
  { etransitivity; [exact (sorted_version_length _ _ HS)|]. eapply wf_col_length; eauto. now apply nth_error_In in Hj. }
  destruct (real_rect _ _ _ _ W Hl) as [_ Hne].
  destruct r as [|m r']; [destruct ls; [congruence|discriminate]|].
  exists m. split; [reflexivity|].
  assert (Hnum : Forall is_num (map fst (m :: r'))).
  { destruct HS as [Hp _]. unfold value_positions in Hp. apply (Permutation_map fst) in Hp.
    rewrite map_fst_combine in Hp by now rewrite seq_length.
    rewrite Hp. eapply wf_column_num; eauto. eapply nth_error_In; eauto. }
  split; [now inversion Hnum|]. split; [reflexivity|]. intros i v. unfold cut, considered, ordered. split.
  - intros (l & Hi & Hneq). split; [eauto|].
    rewrite nth_error_map in Hi. destruct (nth_error (m :: r') i) as [[v' id]|] eqn:Ei; [|discriminate].
    cbn [option_map fst snd] in Hi. injection Hi as -> _. exists id, m. repeat split; auto.
    destruct (sorted_head_le _ m i _ (proj2 HS) eq_refl Ei) as [->|Hle].
    + injection Ei as ->. cbn [fst] in *. inversion Hnum as [|? ? Hn _]; subst. unfold is_num in Hn.
      change (@fleb xr_ops) with xleb in Hn. unfold xeqb in Hneq. rewrite Hn in Hneq. discriminate Hneq.
    + cbn [fst] in Hle. unfold xltb. rewrite Hle. unfold xeqb in Hneq. rewrite Hle in Hneq.
      rewrite andb_true_r in Hneq. rewrite Hneq. reflexivity.
  - intros (_ & id & m' & Hi & Hm & Hlt). injection Hm as <-. exists (nth id ls []).
    rewrite nth_error_map, Hi. split; [reflexivity|].
    unfold xltb in Hlt. apply andb_true_iff in Hlt as [_ Hlt]. apply negb_true_iff in Hlt.
    unfold xeqb. now rewrite Hlt.
Qed.

Lemma cost_cut_gain k ls col r i :
  sorted_version col r -> length col = length ls ->
  cut_gain k i (labels_in_order ls r) = total_variance k ls - cost k (ordered ls r) i.
Proof.
  intros HS L. unfold cut_gain, cost. rewrite ordered_labels.
  now rewrite <- (total_variance_perm k _ _ (labels_in_order_perm ls col r HS L)).
Qed.

(** The finder's result: the largest variance reduction over all considered cuts, first column, first position. *)
Theorem split_exact nc nt d ls b :
  wf_dataset nc nt d -> real_labels ls d -> find_best_split d (N.of_nat nt) = Ok b ->
  exists g, bs_gain b = Fin g /\
    (forall j r i v, considered d j r i v -> cut_gain nt i (labels_in_order ls r) <= g) /\
    ((g = 0 /\ b = no_split) \/
     (0 < g /\ exists j r i v, considered d j r i v /\ cut_gain nt i (labels_in_order ls r) = g /\
        bs_question b = Question (N.of_nat j) v /\
        (forall i' v', (i' < i)%nat -> considered d j r i' v' -> cut_gain nt i' (labels_in_order ls r) < g) /\
        (forall j' r' i' v', (j' < j)%nat -> considered d j' r' i' v' -> cut_gain nt i' (labels_in_order ls r') < g))).
Proof.
  intros W Hl E. rewrite (find_best_split_eq xr_laws nc nt d W) in E. injection E as <-.
  destruct (real_rect _ _ _ _ W Hl) as [Hr Hne].
  unfold pfind. rewrite Hl. rewrite (ptotal_variance_exact nt ls Hr Hne).
  set (tv := total_variance nt ls).
  assert (Hcols : forall j t, nth_error (map (pcolumn nt (map (map Fin) ls)) (dvls d)) j = Some t ->
    exists r, (exists col, nth_error (feature_columns d) j = Some col /\ sorted_version col r) /\
      ((t = mkBT PInf (Fin 0) /\ forall i v, ~ considered d j r i v) \/
       (exists i v, considered d j r i v /\ t = mkBT (Fin (tv - cut_gain nt i (labels_in_order ls r))) v /\
          (forall i' v', considered d j r i' v' ->
             cut_gain nt i' (labels_in_order ls r) <= cut_gain nt i (labels_in_order ls r)) /\
          (forall i' v', (i' < i)%nat -> considered d j r i' v' ->
             cut_gain nt i' (labels_in_order ls r) < cut_gain nt i (labels_in_order ls r))))).
  { intros j t Hj. unfold dvls in Hj. rewrite map_map, nth_error_map in Hj.
    destruct (nth_error (feature_columns d) j) as [col|] eqn:Ec; [|discriminate]. injection Hj as <-.
    assert (HS : sorted_version col (the_sort col)).
    { apply (the_sort_spec xr_laws). eapply wf_column_num; eauto. eapply nth_error_In; eauto. }
    assert (L : length col = length ls) by (eapply wf_col_length; eauto; eapply nth_error_In; eauto).
    exists (the_sort col). split; [eauto|].
    destruct (considered_cut nc nt d ls j col _ W Hl Ec HS) as (m & Hm & Hnum & Hhd & Hcut).
    assert (ET : pcolumn nt (map (map Fin) ls) (vls_of (labels d) (the_sort col)) =
      pcolumn nt (map (map Fin) ls) (map fin_row (ordered ls (the_sort col)))).
    { f_equal. etransitivity; [|apply vls_ordered]. f_equal. exact Hl. }
    assert (HB := pcolumn_exact nt ls (ordered ls (the_sort col)) (fst m, nth (snd m) ls []) Hr Hne).
    rewrite ordered_labels in HB. specialize (HB (labels_in_order_perm ls col _ HS L) Hhd).
    cbn [fst] in HB. specialize (HB ltac:(unfold xeqb; unfold is_num in Hnum; change (@fleb xr_ops) with xleb in Hnum; now rewrite Hnum)).
    assert (Hlen : forall i v, considered d j (the_sort col) i v -> (i < length (ordered ls (the_sort col)))%nat).
    { intros i v Hc. apply Hcut in Hc as (l & Hc & _). apply nth_error_Some. congruence. }
    destruct HB as [[HB HN]|(i & v & Hi & Hc & HB & H1 & H2)].
    - left. split; [exact (eq_trans ET HB)|]. intros i v Hc. apply (HN i v); [eauto|]. now apply Hcut.
    - right. exists i, v. apply Hcut in Hc. split; auto. split; [|split].
      + etransitivity; [exact (eq_trans ET HB)|]. f_equal. f_equal. rewrite (cost_cut_gain nt ls col) by auto. fold tv. lra.
      + intros i' v' Hc'. rewrite !(cost_cut_gain nt ls col) by auto.
        assert (cost nt (ordered ls (the_sort col)) i <= cost nt (ordered ls (the_sort col)) i')
          by (apply (H1 i' v'); [eauto|now apply Hcut]). lra.
      + intros i' v' Hlt Hc'. rewrite !(cost_cut_gain nt ls col) by auto.
        assert (cost nt (ordered ls (the_sort col)) i < cost nt (ordered ls (the_sort col)) i')
          by (apply (H2 i' v'); [auto|now apply Hcut]). lra. }
  set (rs := map (@pcolumn xr_ops nt (map (map Fin) ls)) (dvls d)) in *.
  assert (Hlen : length rs = length (feature_columns d)) by (unfold rs, dvls; now rewrite !map_length).
  (* the sorted form of a column is unique *)
  assert (Hgain : forall j r i v, considered d j r i v -> exists t, nth_error rs j = Some t /\
     exists h, fsub (Fin tv) (bt_loss t) = Fin h /\ cut_gain nt i (labels_in_order ls r) <= h).
  { intros j r i v Hc. pose proof Hc as [(col & Hj & HS) _].
    destruct (nth_error rs j) as [t|] eqn:Et.
    2:{ apply nth_error_None in Et. rewrite Hlen in Et.
        assert (j < length (feature_columns d))%nat by (apply nth_error_Some; congruence). lia. }
    exists t. split; auto. destruct (Hcols j t Et) as (r' & (col' & Hj' & HS') & Hcase).
    assert (col' = col) by congruence. subst col'.
    assert (r' = r) by (eapply (sorted_version_unique xr_laws); eauto). subst r'.
    destruct Hcase as [[_ HN]|(i0 & v0 & Hc0 & Ht & H1 & _)]; [exfalso; eapply HN; eauto|].
    exists (cut_gain nt i0 (labels_in_order ls r)). split; [|eauto].
    rewrite Ht. cbn [bt_loss]. change (@fsub xr_ops) with xsub. rewrite xsub_Fin. f_equal. lra. }
  destruct (pselect_spec xr_laws (Fin tv) rs) as [[Hb HN]|(j & t & Ht & Hb & Hpos & Hfirst & Hmax)].
  - exists 0. rewrite Hb. split; [reflexivity|]. split; [|now left].
    intros j r i v Hc. destruct (Hgain j r i v Hc) as (t & Et & h & Eh & Hle).
    rewrite Forall_forall in HN. specialize (HN t (nth_error_In _ _ Et)). rewrite Eh in HN.
    apply Rnot_lt_le. intros Hlt. assert (Hh : 0 < h) by lra. apply xltb_Fin in Hh.
    change (@fltb xr_ops) with xltb in HN. change (@f0 xr_ops) with (Fin 0) in HN. congruence.
  - destruct (Hcols j t Ht) as (r & (col & Hj & HS) & [[Et _]|(i & v & Hc & Et & H1 & H2)]).
    { exfalso. rewrite Hb in Hpos. cbn [bs_gain] in Hpos. rewrite Et in Hpos. cbn [bt_loss] in Hpos.
      rewrite (fsub_inf _ xr_laws) in Hpos. discriminate Hpos. }
    set (g := cut_gain nt i (labels_in_order ls r)) in *.
    assert (Eg : fsub (Fin tv) (bt_loss t) = Fin g).
    { rewrite Et. cbn [bt_loss]. change (@fsub xr_ops) with xsub. rewrite xsub_Fin. f_equal. lra. }
    rewrite Eg in Hb. exists g. rewrite Hb in *. cbn [bs_gain bs_question] in *.
    split; [reflexivity|].
    assert (Hcg : forall t' h, fsub (Fin tv) (bt_loss t') = Fin h -> exists h', col_gain (Fin tv) t' = Fin h' /\ h <= h').
    { intros t' h Eh. unfold col_gain. rewrite Eh.
      change (exists h', (if xltb (Fin 0) (Fin h) then Fin h else Fin 0) = Fin h' /\ h <= h').
      destruct (xltb (Fin 0) (Fin h)) eqn:El; [exists h; split; [reflexivity|lra]|].
      exists 0. split; [reflexivity|]. apply Rnot_lt_le. intros Hlt. apply xltb_Fin in Hlt. congruence. }
    split; [|right; split].
    + intros j' r' i' v' Hc'. destruct (Hgain j' r' i' v' Hc') as (t' & Et' & h & Eh & Hle).
      specialize (Hmax j' t' Et'). destruct (Hcg t' h Eh) as (h' & Eh' & Hle'). rewrite Eh' in Hmax.
      apply xleb_Fin in Hmax. lra.
    + apply xltb_Fin in Hpos. exact Hpos.
    + exists j, r, i, v. split; auto. split; auto. split; [|split].
      * rewrite Et. cbn [bt_threshold]. f_equal. apply (as_u32_small j nc); [|exact (wf_u32 _ _ _ W)].
        destruct (wf_columns _ _ _ W) as [<- _]. apply nth_error_Some. congruence.
      * exact H2.
      * intros j' r' i' v' Hlt Hc'. destruct (Hgain j' r' i' v' Hc') as (t' & Et' & h & Eh & Hle).
        specialize (Hfirst j' t' Hlt Et'). destruct (Hcg t' h Eh) as (h' & Eh' & Hle'). rewrite Eh' in Hfirst.
        apply xltb_Fin in Hfirst. lra.
Qed.
