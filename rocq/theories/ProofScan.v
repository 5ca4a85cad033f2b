(** The threshold scan in any arithmetic: the smallest of the computed losses. *)
From Verif Require Import Base Num ModelCommon ModelTree Lib Spec ProofData ProofSort ProofSplit ProofSplit2.

Section Scan.
Context {O : NumOps} (LW : NumLaws O).

Definition left_at (k : nat) (vls : list (F * list F)) (i : nat) : tracker :=
  fold_left pleft (map snd (firstn i vls)) (zero_tracker k).
Definition right_at (total : tracker) (vls : list (F * list F)) (i : nat) : tracker :=
  fold_left pright (map snd (firstn i vls)) total.
Definition loss_at (k : nat) (total : tracker) (vls : list (F * list F)) (i : nat) : F :=
  ploss (left_at k vls i) (right_at total vls i).

Definition is_cut (prev : F) (vls : list (F * list F)) (i : nat) (v : F) : Prop :=
  exists l, nth_error vls i = Some (v, l) /\ feqb v prev = false.

Record best_of (prev : F) (k : nat) (total : tracker) (vls : list (F * list F)) (n : nat) (b : best_threshold) : Prop := {
  bo_num : is_num (bt_loss b);
  bo_le : forall i v, i < n -> is_cut prev vls i v -> is_num (loss_at k total vls i) -> fleb (bt_loss b) (loss_at k total vls i) = true;
  bo_is : b = mkBT finf f0 \/ exists i v, i < n /\ is_cut prev vls i v /\ b = mkBT (loss_at k total vls i) v }.

Lemma firstn_snoc {A} (l : list A) i x : nth_error l i = Some x -> firstn (S i) l = firstn i l ++ [x].
Proof. revert i. induction l as [|y l IH]; intros [|i] H; try discriminate; cbn in *; [congruence|]. f_equal. auto. Qed.

Lemma scan_best_of prev k total vls : is_num finf -> forall n, n <= length vls ->
  let s := fold_left (pstep prev) (firstn n vls) (mkScan (mkBT finf f0) (zero_tracker k) total) in
  best_of prev k total vls n (sc_best s) /\ sc_left s = left_at k vls n /\ sc_right s = right_at total vls n.
Proof.
  intros Hinf n. induction n as [|n IH]; intros Hn.
  - cbn. split; [|split; reflexivity]. constructor; auto. intros i v Hi. lia.
  - destruct IH as (HB & HL & HR); [lia|].
    destruct (nth_error vls n) as [[v l]|] eqn:E; [|apply nth_error_None in E; lia].
    unfold left_at, right_at. rewrite (firstn_snoc _ _ _ E), !map_app, !fold_left_app. cbn [map fold_left snd].
    fold (left_at k vls n) (right_at total vls n). set (s := fold_left (pstep prev) (firstn n vls) _) in *.
    split; [|unfold pstep; cbn [sc_left sc_right snd]; now rewrite HL, HR].
    unfold pstep. cbn [sc_best fst]. rewrite HL, HR. fold (loss_at k total vls n).
    destruct (feqb v prev) eqn:Ev; cbn [negb].
    + destruct HB as [H1 H2 H3]. constructor; auto.
      * intros i w Hi Hc. destruct (Nat.eq_dec i n) as [->|]; [|apply (H2 i w); auto; lia].
        destruct Hc as (l' & Hc & Hw). congruence.
      * destruct H3 as [?|(i & w & Hi & Hc & ->)]; auto. right. exists i, w. auto.
    + assert (Hc : is_cut prev vls n v) by (exists l; auto).
      destruct HB as [H1 H2 H3]. destruct (fltb (loss_at k total vls n) (bt_loss (sc_best s))) eqn:El.
      * constructor; cbn [bt_loss].
        -- now apply (fltb_num LW) in El.
        -- intros i w Hi Hw Hnum. destruct (Nat.eq_dec i n) as [->|]; [exact Hnum|].
           apply (fleb_trans _ LW _ (bt_loss (sc_best s))).
           ++ now apply (fltb_le LW).
           ++ apply (H2 i w); auto. lia.
        -- right. exists n, v. auto.
      * constructor; auto.
        -- intros i w Hi Hw Hnum. destruct (Nat.eq_dec i n) as [->|]; [now apply (fltb_false_le LW)|]. apply (H2 i w); auto. lia.
        -- destruct H3 as [?|(i & w & Hi & Hw & ->)]; auto. right. exists i, w. auto.
Qed.

Lemma pscan_best_of prev l0 k total vls : is_num finf -> hd_error vls = Some (prev, l0) ->
  best_of prev k total vls (length vls) (sc_best (pscan k total vls)).
Proof.
  intros Hinf Hh. unfold pscan. destruct vls as [|[p l] vls]; [discriminate|]. injection Hh as -> ->.
  pose proof (scan_best_of prev k total ((prev, l0) :: vls) Hinf _ (le_n _)) as (H & _). now rewrite firstn_all in H.
Qed.

End Scan.
