(** Proofs about printed trees and the main program (C54, C55). *)
From Coq Require Import String Ascii.
From Verif Require Import Base Num ModelCommon ModelTree ModelBoost ModelPrint Lib Spec SpecTree SpecScore SpecPrint
  ProofData ProofCsv ProofTree ProofTree3 ProofScore ProofBoost ProofBoost2.
Local Open Scope list_scope.

(* ------------------------------------------------------------------ *)
(** ** Texts as lists of characters *)

Notation chars := list_ascii_of_string.

Lemma chars_app s t : chars (s ++ t)%string = chars s ++ chars t.
Proof. induction s as [|c s IH]; simpl; auto. now rewrite IH. Qed.
Lemma chars_inj s t : chars s = chars t -> s = t.
Proof. intros H. rewrite <- (string_of_list_ascii_of_string s), <- (string_of_list_ascii_of_string t). now rewrite H. Qed.
Lemma append_cancel s t t' : (s ++ t)%string = (s ++ t')%string -> t = t'.
Proof. induction s as [|c s IH]; simpl; auto. intros H. inversion H. auto. Qed.

(** A text free of stop characters is determined by what it is when a stop character follows. *)
Lemma stop_split (stop : ascii -> Prop) (s s' r r' : list ascii) c c' :
  (forall x, In x s -> ~ stop x) -> (forall x, In x s' -> ~ stop x) -> stop c -> stop c' ->
  s ++ c :: r = s' ++ c' :: r' -> s = s' /\ c :: r = c' :: r'.
Proof.
  revert s'. induction s as [|x s IH]; intros [|y s'] Hs Hs' Hc Hc' E; simpl in E; auto.
  - inversion E; subst. exfalso. apply (Hs' y); simpl; auto.
  - inversion E; subst. exfalso. apply (Hs c'); simpl; auto.
  - inversion E; subst. destruct (IH s') as [-> ?]; auto; intros z Hz; [apply Hs|apply Hs']; simpl; auto.
Qed.

(** The last occurrence of a character splits a text. *)
Lemma last_split (c : ascii) (s s' d d' : list ascii) :
  ~ In c d -> ~ In c d' -> s ++ c :: d = s' ++ c :: d' -> s = s' /\ d = d'.
Proof.
  intros Hd Hd' E.
  assert (E2 : rev d ++ c :: rev s = rev d' ++ c :: rev s').
  { apply (f_equal (@rev _)) in E. rewrite !rev_app_distr in E. simpl in E. rewrite <- !app_assoc in E. exact E. }
  destruct (stop_split (eq c) (rev d) (rev d') (rev s) (rev s') c c) as [E3 E4]; auto.
  - intros x Hx <-. apply Hd. now apply in_rev.
  - intros x Hx <-. apply Hd'. now apply in_rev.
  - apply (f_equal (@rev _)) in E3. rewrite !rev_involutive in E3. inversion E4 as [E5].
    apply (f_equal (@rev _)) in E5. rewrite !rev_involutive in E5. auto.
Qed.

(** [debug] can be read back from a text in which a comma or a closing bracket follows. *)
Definition item_readable {A} (debug : A -> string) : Prop :=
  (forall a b c c' r r', (c = "," \/ c = "]")%char -> (c' = "," \/ c' = "]")%char ->
     chars (debug a) ++ c :: r = chars (debug b) ++ c' :: r' -> a = b /\ c :: r = c' :: r') /\
  (forall a r r', chars (debug a) ++ r <> "]"%char :: r').

Lemma debug_items_cons {A} (debug : A -> string) x l :
  chars (debug_items debug (x :: l)) = chars (debug x) ++
    match l with [] => [] | _ => ","%char :: " "%char :: chars (debug_items debug l) end.
Proof. destruct l; simpl; [now rewrite app_nil_r|]. rewrite chars_app. f_equal. Qed.

Lemma items_readable {A} (debug : A -> string) : item_readable debug ->
  forall l l' r r', chars (debug_items debug l) ++ "]"%char :: r = chars (debug_items debug l') ++ "]"%char :: r' ->
    l = l' /\ r = r'.
Proof.
  intros [H1 H2]. induction l as [|x l IH]; intros [|x' l'] r r' E.
  - simpl in E. inversion E. auto.
  - rewrite debug_items_cons, <- app_assoc in E. simpl in E. symmetry in E. now apply H2 in E.
  - rewrite debug_items_cons, <- app_assoc in E. simpl in E. now apply H2 in E.
  - rewrite !debug_items_cons, <- !app_assoc in E.
    destruct l as [|y l], l' as [|y' l']; cbn [app] in E.
    + apply H1 in E as [-> E]; auto. inversion E. auto.
    + apply H1 in E as [-> E]; auto. inversion E.
    + apply H1 in E as [-> E]; auto. inversion E.
    + apply H1 in E as [-> E]; auto. apply (f_equal (@tl _)) in E. cbn [tl] in E.
      apply (f_equal (@tl _)) in E. cbn [tl] in E. apply IH in E as [E ->]. inversion E. auto.
Qed.

Lemma debug_vec_chars {A} (debug : A -> string) l : chars (debug_vec debug l) = "["%char :: chars (debug_items debug l) ++ ["]"%char].
Proof. unfold debug_vec. simpl. now rewrite chars_app. Qed.

Lemma vec_readable {A} (debug : A -> string) : item_readable debug ->
  forall l l' r r', chars (debug_vec debug l) ++ r = chars (debug_vec debug l') ++ r' -> l = l' /\ r = r'.
Proof.
  intros H l l' r r' E. rewrite !debug_vec_chars in E. cbn [app] in E. rewrite <- !app_assoc in E. cbn [app] in E.
  inversion E as [E']. now apply (items_readable debug H) in E'.
Qed.

Lemma vec_item_readable {A} (debug : A -> string) : item_readable debug -> item_readable (debug_vec debug).
Proof.
  intros H. split.
  - intros a b c c' r r' _ _ E. now apply (vec_readable debug H) in E.
  - intros a r r' E. rewrite debug_vec_chars in E. discriminate E.
Qed.

Section Print.
Context {O : NumOps}.

Lemma f64_item_readable fmt : readable_formats fmt -> item_readable (debug_f64 fmt).
Proof.
  intros R. split.
  - intros a b c c' r r' Hc Hc' E.
    apply (stop_split (fun x => x = "," \/ x = "]")%char) in E as [E ?]; auto.
    + split; auto. apply (rf_debug _ R). now apply chars_inj.
    + intros x Hx [->| ->]; [now apply (rf_debug_comma _ R a)|now apply (rf_debug_close _ R a)].
    + intros x Hx [->| ->]; [now apply (rf_debug_comma _ R b)|now apply (rf_debug_close _ R b)].
  - intros a r r' E. destruct (chars (debug_f64 fmt a)) as [|x s] eqn:Ea.
    + apply (rf_debug_nonempty _ R a). now apply chars_inj.
    + simpl in E. inversion E; subst. apply (rf_debug_close _ R a). rewrite Ea. simpl. auto.
Qed.

Lemma debug_row_inj fmt : readable_formats fmt -> forall a b, debug_vec (debug_f64 fmt) a = debug_vec (debug_f64 fmt) b -> a = b.
Proof.
  intros R a b E. apply (f_equal chars) in E. 
  assert (E' : chars (debug_vec (debug_f64 fmt) a) ++ [] = chars (debug_vec (debug_f64 fmt) b) ++ []) by now rewrite E.
  now apply (vec_readable _ (f64_item_readable fmt R)) in E'.
Qed.

Lemma debug_dataset_inj fmt : readable_formats fmt ->
  forall d d' r r', chars (debug_dataset fmt d) ++ r = chars (debug_dataset fmt d') ++ r' -> d = d' /\ r = r'.
Proof.
  intros R d d' r r' E. unfold debug_dataset in E. rewrite !chars_app in E. rewrite <- !app_assoc in E.
  pose proof (vec_readable _ (vec_item_readable _ (f64_item_readable fmt R))) as V.
  apply app_inv_head in E. apply V in E as [E1 E]. apply app_inv_head in E. apply V in E as [E2 E].
  apply app_inv_head in E. apply V in E as [E3 E]. apply app_inv_head in E.
  destruct d, d'; simpl in *; subst; auto.
Qed.

Lemma debug_leaf_inj fmt : readable_formats fmt ->
  forall o o', debug_option (debug_dataset fmt) o = debug_option (debug_dataset fmt) o' -> o = o'.
Proof.
  intros R [d|] [d'|] E; auto; unfold debug_option in E; try discriminate E.
  apply append_cancel in E. apply (f_equal chars) in E. rewrite !chars_app in E.
  apply (debug_dataset_inj fmt R) in E as [-> _]. auto.
Qed.

Lemma question_text_inj fmt : readable_formats fmt -> forall q q' name name',
  question_to_string fmt q name = question_to_string fmt q' name' -> q_value q = q_value q' /\ name = name'.
Proof.
  intros R q q' name name' E. unfold question_to_string in E. apply append_cancel in E.
  apply (f_equal chars) in E. rewrite !chars_app in E.
  change (chars " >= ") with ([" "; ">"; "="] ++ [" "])%char in E. rewrite <- !app_assoc in E. cbn [app] in E.
  change (" " :: ">" :: "=" :: " " :: chars (display_f64 fmt (q_value q)))%char
    with ([" "; ">"; "="] ++ " " :: chars (display_f64 fmt (q_value q)))%char in E.
  change (" " :: ">" :: "=" :: " " :: chars (display_f64 fmt (q_value q')))%char
    with ([" "; ">"; "="] ++ " " :: chars (display_f64 fmt (q_value q')))%char in E.
  rewrite !app_assoc in E. apply last_split in E as [E1 E2].
  - split.
    + apply (rf_display _ R). now apply chars_inj.
    + apply app_inv_tail in E1. now apply chars_inj.
  - apply (rf_display_blank _ R).
  - apply (rf_display_blank _ R).
Qed.

(* ------------------------------------------------------------------ *)
(** ** The printer on proper trees *)

Lemma print_leaf fmt q l sp names :
  print_tree_regression fmt (TreeNode _ q None None (Some l)) sp names =
  ([(sp ++ " Predict:" ++ debug_option (debug_dataset fmt) (rl_data l))%string], Ok tt).
Proof. reflexivity. Qed.

Lemma print_node fmt q t f sp names :
  print_tree_regression fmt (TreeNode _ q (Some t) (Some f) None) sp names =
  and_then (without_output (idxN names (q_column q))) (fun name =>
  and_then (println (sp ++ " " ++ debug_str fmt (question_to_string fmt q name))%string) (fun _ =>
  and_then (println (sp ++ "--> True: ")%string) (fun _ =>
  and_then (print_tree_regression fmt t (sp ++ "    ")%string names) (fun _ =>
  and_then (println (sp ++ "--> False: ")%string) (fun _ =>
  print_tree_regression fmt f (sp ++ "    ")%string names))))).
Proof. reflexivity. Qed.

(** A successful print of an inner node, taken apart. *)
Lemma print_node_inv fmt q t f sp names ls :
  print_tree_regression fmt (TreeNode _ q (Some t) (Some f) None) sp names = (ls, Ok tt) ->
  exists name lt lf, idxN names (q_column q) = Ok name /\
    print_tree_regression fmt t (sp ++ "    ")%string names = (lt, Ok tt) /\
    print_tree_regression fmt f (sp ++ "    ")%string names = (lf, Ok tt) /\
    ls = (sp ++ " " ++ debug_str fmt (question_to_string fmt q name))%string :: (sp ++ "--> True: ")%string ::
         lt ++ (sp ++ "--> False: ")%string :: lf.
Proof.
  rewrite print_node. unfold and_then, println, without_output. cbn [fst snd].
  destruct (idxN names (q_column q)) as [name| |]; cbn [fst snd]; try discriminate.
  destruct (print_tree_regression fmt t _ names) as [lt [[]| |]]; cbn [fst snd]; try discriminate.
  destruct (print_tree_regression fmt f _ names) as [lf [[]| |]]; cbn [fst snd]; try discriminate.
  intros H. inversion H. exists name, lt, lf. repeat split; auto.
Qed.

Lemma print_node_ok fmt q t f sp names name lt lf :
  idxN names (q_column q) = Ok name ->
  print_tree_regression fmt t (sp ++ "    ")%string names = (lt, Ok tt) ->
  print_tree_regression fmt f (sp ++ "    ")%string names = (lf, Ok tt) ->
  print_tree_regression fmt (TreeNode _ q (Some t) (Some f) None) sp names =
    ((sp ++ " " ++ debug_str fmt (question_to_string fmt q name))%string :: (sp ++ "--> True: ")%string ::
         lt ++ (sp ++ "--> False: ")%string :: lf, Ok tt).
Proof. intros E1 E2 E3. rewrite print_node. unfold and_then, println, without_output. cbn [fst snd].
  rewrite E1. cbn [fst snd]. rewrite E2, E3. reflexivity. Qed.

Lemma idxN_ok {A} (l : list A) i : N.to_nat i < length l -> exists x, idxN l i = Ok x.
Proof.
  intros H. unfold idxN, idx. destruct (N.ltb_spec i (N.of_nat (length l))) as [_|H']; [|lia].
  destruct (nth_error l (N.to_nat i)) eqn:E; eauto. apply nth_error_None in E. lia.
Qed.
Lemma idxN_inv {A} (l : list A) i x : idxN l i = Ok x -> nth_error l (N.to_nat i) = Some x /\ N.to_nat i < length l.
Proof.
  unfold idxN, idx. destruct (N.ltb_spec i (N.of_nat (length l))) as [H|_]; [|discriminate].
  destruct (nth_error l (N.to_nat i)) eqn:E; [|discriminate]. intros X. inversion X; subst. split; auto. lia.
Qed.
Lemma idxN_out {A} (l : list A) i : length l <= N.to_nat i -> idxN l i = Panic.
Proof. intros H. unfold idxN. destruct (N.ltb_spec i (N.of_nat (length l))) as [H'|_]; auto. lia. Qed.

(** The outcome is decided by the names alone. *)
Lemma print_outcome fmt t : proper t -> forall sp names,
  (asks_beyond (length names) t /\ snd (print_tree_regression fmt t sp names) = Panic) \/
  (~ asks_beyond (length names) t /\
   exists ls, print_tree_regression fmt t sp names = (ls, Ok tt) /\ length ls = 4 * length (leaves t) - 3 /\ 1 <= length (leaves t)).
Proof.
  induction 1 as [q l|q t f Ht IHt Hf IHf]; intros sp names.
  - right. split; [intros H; inversion H|]. rewrite print_leaf. eexists. split; [reflexivity|]. simpl. lia.
  - destruct (le_lt_dec (length names) (N.to_nat (q_column q))) as [Hq|Hq].
    + left. split; [now apply (ab_here (length names))|]. rewrite print_node. unfold and_then, without_output at 1. cbn [fst snd].
      now rewrite idxN_out.
    + destruct (idxN_ok names (q_column q) Hq) as [name En].
      destruct (IHt (sp ++ "    ")%string names) as [[B E]|[B (lt & E & HL & H1)]].
      * left. split; [now apply (ab_true (length names))|].
        rewrite print_node. unfold and_then, println, without_output. cbn [fst snd]. rewrite En. cbn [fst snd]. now rewrite E.
      * destruct (IHf (sp ++ "    ")%string names) as [[B' E']|[B' (lf & E' & HL' & H1')]].
        -- left. split; [now apply (ab_false (length names))|].
           rewrite print_node. unfold and_then, println, without_output. cbn [fst snd]. rewrite En. cbn [fst snd].
           rewrite E. cbn [fst snd]. now rewrite E'.
        -- right. split.
           { intros A. unfold node_new in A. inversion A; subst; try lia; auto. }
           rewrite (print_node_ok fmt q t f sp names name lt lf); auto. eexists. split; [reflexivity|].
           simpl. rewrite !app_length. simpl. rewrite HL, HL'. rewrite app_nil_r || idtac. lia.
Qed.

Lemma asks_below_beyond {L} (t : tree_node L) nc n : proper t -> asks_below nc t -> nc <= n -> ~ asks_beyond n t.
Proof.
  intros P A Hn B. revert P A. unfold node_new in B. induction B as [q t f H|q t f B IH|q t f B IH]; simpl; intros P (H1 & H2 & H3); inversion P; subst; auto; lia.
Qed.

(** C54: printing a built tree *)
Theorem print_built fmt nc nt d cfg t names : wf_dataset nc nt d -> regression_tree_new d cfg = Ok t -> nc <= length names ->
  exists ls, print_tree_regression fmt t "" names = (ls, Ok tt) /\ length ls = 4 * length (leaves t) - 3.
Proof.
  intros W E Hn. destruct (trees_proper d cfg (leaf_output_calculator_new Regression)) as [Hp _]. pose proof (Hp t E) as P.
  destruct (print_outcome fmt t P ""%string names) as [[B _]|[_ (ls & El & HL & _)]]; eauto.
  exfalso. rewrite regression_tree_new_eq in E. apply build_with_built in E.
  apply (asks_below_beyond t nc (length names)) in B; auto. eapply built_asks; eauto.
Qed.

Theorem print_panics_exactly fmt d cfg t names : regression_tree_new d cfg = Ok t ->
  (snd (print_tree_regression fmt t "" names) = Panic <-> asks_beyond (length names) t) /\
  snd (print_tree_regression fmt t "" names) <> OutOfFuel.
Proof.
  intros E. destruct (trees_proper d cfg (leaf_output_calculator_new Regression)) as [Hp _]. pose proof (Hp t E) as P.
  destruct (print_outcome fmt t P ""%string names) as [[B Ep]|[B (ls & El & _)]].
  - rewrite Ep. split; [tauto|discriminate].
  - rewrite El. simpl. split; [|discriminate]. split; [discriminate|tauto].
Qed.

Lemma print_more fmt t : proper t -> forall sp names more ls ls',
  print_tree_regression fmt t sp names = (ls, Ok tt) -> print_tree_regression fmt t sp (names ++ more) = (ls', Ok tt) -> ls = ls'.
Proof.
  induction 1 as [q l|q t f Ht IHt Hf IHf]; intros sp names more ls ls' E E'.
  - rewrite print_leaf in E, E'. congruence.
  - apply print_node_inv in E as (name & lt & lf & En & Et & Ef & ->). apply print_node_inv in E' as (name' & lt' & lf' & En' & Et' & Ef' & ->).
    apply idxN_inv in En as [En L]. apply idxN_inv in En' as [En' _]. rewrite nth_error_app1 in En' by auto.
    assert (name' = name) as -> by congruence. rewrite (IHt _ _ _ _ _ Et Et'), (IHf _ _ _ _ _ Ef Ef'). reflexivity.
Qed.

(** C54: what has been printed before a panic *)
Lemma print_stops fmt t : proper t -> forall sp names more all,
  print_tree_regression fmt t sp (names ++ more) = (all, Ok tt) -> asks_beyond (length names) t ->
  exists lines level q name rest,
    print_tree_regression fmt t sp names = (lines, Panic) /\
    length names <= N.to_nat (q_column q) /\ nth_error (names ++ more) (N.to_nat (q_column q)) = Some name /\
    all = lines ++ (sp ++ blanks level ++ " " ++ debug_str fmt (question_to_string fmt q name))%string :: rest.
Proof.
  induction 1 as [q l|q t f Ht IHt Hf IHf]; intros sp names more all E B; [inversion B|].
  apply print_node_inv in E as (name & lt & lf & En & Et & Ef & ->). apply idxN_inv in En as [En _].
  assert (Sp : forall s, ((sp ++ "    ") ++ s)%string = (sp ++ blanks 4 ++ s)%string).
  { intros s. apply chars_inj. rewrite !chars_app, <- app_assoc. reflexivity. }
  assert (Bl : forall k s, (blanks 4 ++ blanks k ++ s)%string = (blanks (4 + k) ++ s)%string) by reflexivity.
  destruct (le_lt_dec (length names) (N.to_nat (q_column q))) as [Hq|Hq].
  - exists [], 0, q, name. eexists. split; [|split; [exact Hq|split; [exact En|reflexivity]]].
    rewrite print_node. unfold and_then, without_output at 1. cbn [fst snd]. now rewrite idxN_out.
  - destruct (idxN_ok names (q_column q) Hq) as [name' En']. apply idxN_inv in En' as En''. destruct En'' as [En'' _].
    assert (name' = name) as -> by (rewrite nth_error_app1 in En by auto; congruence).
    destruct (print_outcome fmt t Ht (sp ++ "    ")%string names) as [[Bt _]|[Bt (lt' & E' & _)]].
    + destruct (IHt _ _ _ _ Et Bt) as (lines & level & q' & name' & rest & P1 & P2 & P3 & ->).
      exists ((sp ++ " " ++ debug_str fmt (question_to_string fmt q name))%string :: (sp ++ "--> True: ")%string :: lines), (4 + level), q', name'.
      eexists. split; [|split; [exact P2|split; [exact P3|]]].
      * rewrite print_node. unfold and_then, println, without_output. cbn [fst snd]. rewrite En'. cbn [fst snd]. rewrite P1. reflexivity.
      * cbn [app]. rewrite <- app_assoc. cbn [app]. rewrite Sp, Bl. reflexivity.
    + assert (Bf : asks_beyond (length names) f) by (unfold node_new in B; inversion B; subst; auto; [lia|contradiction]).
      destruct (IHf _ _ _ _ Ef Bf) as (lines & level & q' & name' & rest & P1 & P2 & P3 & ->).
      assert (lt' = lt) as -> by (eapply (print_more fmt t Ht); eauto).
      exists ((sp ++ " " ++ debug_str fmt (question_to_string fmt q name))%string :: (sp ++ "--> True: ")%string :: lt ++ (sp ++ "--> False: ")%string :: lines),
        (4 + level), q', name'.
      eexists. split; [|split; [exact P2|split; [exact P3|]]].
      * rewrite print_node. unfold and_then, println, without_output. cbn [fst snd]. rewrite En'. cbn [fst snd]. rewrite E'. cbn [fst snd].
        rewrite P1. cbn [fst snd app]. reflexivity.
      * cbn [app]. rewrite <- app_assoc. cbn [app]. rewrite Sp, Bl. reflexivity.
Qed.

Theorem print_before_panic fmt d cfg t names more all : regression_tree_new d cfg = Ok t ->
  print_tree_regression fmt t "" (names ++ more) = (all, Ok tt) -> asks_beyond (length names) t ->
  exists lines level q name rest,
    print_tree_regression fmt t "" names = (lines, Panic) /\
    length names <= N.to_nat (q_column q) /\ nth_error (names ++ more) (N.to_nat (q_column q)) = Some name /\
    all = lines ++ (blanks level ++ " " ++ debug_str fmt (question_to_string fmt q name))%string :: rest.
Proof.
  intros E. destruct (trees_proper d cfg (leaf_output_calculator_new Regression)) as [Hp _]. exact (print_stops fmt t (Hp t E) ""%string names more all).
Qed.

(** ** Faithfulness *)

Lemma blanks_app a b : (blanks a ++ blanks b)%string = blanks (a + b).
Proof. induction a as [|a IH]; simpl; auto. now rewrite IH. Qed.

Lemma print_prefix fmt names : readable_formats fmt -> NoDup names -> forall t, proper t -> forall t', proper t' ->
  forall sp ls ls' r r', print_tree_regression fmt t sp names = (ls, Ok tt) -> print_tree_regression fmt t' sp names = (ls', Ok tt) ->
    ls ++ r = ls' ++ r' -> same_tree t t' /\ r = r'.
Proof.
  intros R ND. induction 1 as [q l|q t f Ht IHt Hf IHf]; intros t' P'; destruct P' as [q' l'|q' t' f' Ht' Hf'];
    intros sp ls ls' r r' E E' H.
  - rewrite print_leaf in E, E'. inversion E; inversion E'; subst. cbn [app] in H. inversion H as [[H1 H2]].
    split; auto. apply append_cancel in H1. inversion H1 as [H3]. apply (debug_leaf_inj fmt R) in H3.
    replace l' with l by (destruct l, l'; simpl in *; congruence). constructor.
  - exfalso. rewrite print_leaf in E. apply print_node_inv in E' as (name & lt & lf & _ & _ & _ & ->). inversion E; subst.
    cbn [app] in H. inversion H as [[H1 H2]]. apply append_cancel in H1.
    destruct (rf_str_quote _ R (question_to_string fmt q' name)) as [s' Es]. rewrite Es in H1. discriminate H1.
  - exfalso. rewrite print_leaf in E'. apply print_node_inv in E as (name & lt & lf & _ & _ & _ & ->). inversion E'; subst.
    cbn [app] in H. inversion H as [[H1 H2]]. apply append_cancel in H1.
    destruct (rf_str_quote _ R (question_to_string fmt q name)) as [s' Es]. rewrite Es in H1. discriminate H1.
  - apply print_node_inv in E as (name & lt & lf & En & Et & Ef & ->).
    apply print_node_inv in E' as (name' & lt' & lf' & En' & Et' & Ef' & ->).
    cbn [app] in H. inversion H as [[H1 H2]]. clear H. rewrite <- !app_assoc in H2. cbn [app] in H2.
    apply append_cancel in H1. inversion H1 as [H3]. apply (rf_str _ R) in H3.
    apply (question_text_inj fmt R) in H3 as [Hv ->].
    apply (IHt t' Ht' _ _ _ _ _ Et Et') in H2 as [S1 H2]. inversion H2 as [H4].
    apply (IHf f' Hf' _ _ _ _ _ Ef Ef') in H4 as [S2 ->]. split; auto.
    apply idxN_inv in En as [En _]. apply idxN_inv in En' as [En' Hlt].
    assert (N.to_nat (q_column q) = N.to_nat (q_column q')) as Hc.
    { apply (proj1 (NoDup_nth_error names) ND); [apply nth_error_Some; congruence|congruence]. }
    apply N2Nat.inj in Hc. replace q' with q by (destruct q, q'; simpl in *; congruence). now constructor.
Qed.

Theorem print_faithful fmt d d' cfg cfg' t t' names ls : readable_formats fmt -> NoDup names ->
  regression_tree_new d cfg = Ok t -> regression_tree_new d' cfg' = Ok t' ->
  print_tree_regression fmt t "" names = (ls, Ok tt) -> print_tree_regression fmt t' "" names = (ls, Ok tt) ->
  same_tree t t'.
Proof.
  intros R ND E E' Ep Ep'.
  destruct (trees_proper d cfg (leaf_output_calculator_new Regression)) as [Hp _]. destruct (trees_proper d' cfg' (leaf_output_calculator_new Regression)) as [Hp' _].
  exact (proj1 (print_prefix fmt names R ND t (Hp t E) t' (Hp' t' E') ""%string ls ls [] [] Ep Ep' eq_refl)).
Qed.

Theorem same_tree_same_lookup {L} (t t' : tree_node L) row : same_tree t t' ->
  path row t = path row t' /\ find_leaf_node_for_data row t = find_leaf_node_for_data row t'.
Proof.
  induction 1 as [q q' l|q t f t' f' _ [H1 H2] _ [H3 H4]]; simpl; [auto|].
  rewrite H1, H3. split; auto. destruct (solve q row) as [[|]| |]; simpl; auto.
Qed.

(** ** Where each node's line is *)
Lemma print_node_lines fmt names t : proper t -> forall k p n ls, print_tree_regression fmt t (blanks (4 * k)) names = (ls, Ok tt) ->
  node_at p t = Some n ->
  match n with
  | TreeNode _ q _ _ (Some l) =>
      exists before after, ls = before ++ (blanks (4 * (k + length p)) ++ " Predict:" ++ debug_option (debug_dataset fmt) (rl_data l))%string :: after
  | TreeNode _ q _ _ None =>
      exists name before under_true under_false after, nth_error names (N.to_nat (q_column q)) = Some name /\
        ls = before ++ [(blanks (4 * (k + length p)) ++ " " ++ debug_str fmt (question_to_string fmt q name))%string;
                        (blanks (4 * (k + length p)) ++ "--> True: ")%string] ++ under_true ++
             [(blanks (4 * (k + length p)) ++ "--> False: ")%string] ++ under_false ++ after /\
        (forall m, node_at (p ++ [true]) t = Some m -> print_tree_regression fmt m (blanks (4 * (k + S (length p)))) names = (under_true, Ok tt)) /\
        (forall m, node_at (p ++ [false]) t = Some m -> print_tree_regression fmt m (blanks (4 * (k + S (length p)))) names = (under_false, Ok tt))
  end.
Proof.
  induction 1 as [q l|q t f Ht IHt Hf IHf]; intros k p n ls E Hn.
  - destruct p as [|[|] p]; simpl in Hn; inversion Hn; subst n. rewrite print_leaf in E.
    apply (f_equal fst) in E. cbn [fst] in E. subst ls. exists [], []. cbn [length]. rewrite (Nat.add_0_r k). reflexivity.
  - apply print_node_inv in E as (name & lt & lf & En & Et & Ef & ->).
    assert (Es : (blanks (4 * k) ++ "    ")%string = blanks (4 * S k)).
    { change "    "%string with (blanks 4). rewrite blanks_app. f_equal. lia. }
    rewrite Es in Et, Ef. apply idxN_inv in En as [En _].
    destruct p as [|[|] p]; cbn [node_at] in Hn.
    + inversion Hn; subst n. exists name, [], lt, lf, []. cbn [length]. rewrite (Nat.add_0_r k), app_nil_r. split; auto. split; auto.
      replace (k + 1) with (S k) by lia. split; intros m Hm; simpl in Hm; inversion Hm; subst; auto.
    + specialize (IHt (S k) p n lt Et Hn). replace (k + length (true :: p)) with (S k + length p) by (simpl; lia).
      replace (k + S (length (true :: p))) with (S k + S (length p)) by (simpl; lia).
      destruct n as [q' t1 f1 [l|]].
      * destruct IHt as (b & a & ->).
        exists ([(blanks (4 * k) ++ " " ++ debug_str fmt (question_to_string fmt q name))%string; (blanks (4 * k) ++ "--> True: ")%string] ++ b),
          (a ++ (blanks (4 * k) ++ "--> False: ")%string :: lf).
        simpl. now rewrite <- app_assoc.
      * destruct IHt as (name' & b & ut & uf & a & Hn' & -> & HT & HF).
        exists name', ([(blanks (4 * k) ++ " " ++ debug_str fmt (question_to_string fmt q name))%string; (blanks (4 * k) ++ "--> True: ")%string] ++ b),
          ut, uf, (a ++ (blanks (4 * k) ++ "--> False: ")%string :: lf).
        split; auto. split; [|split; [exact HT|exact HF]].
        cbn [app]. rewrite <- !app_assoc. cbn [app]. rewrite <- !app_assoc. cbn [app]. rewrite <- !app_assoc. reflexivity.
    + specialize (IHf (S k) p n lf Ef Hn). replace (k + length (false :: p)) with (S k + length p) by (simpl; lia).
      replace (k + S (length (false :: p))) with (S k + S (length p)) by (simpl; lia).
      destruct n as [q' t1 f1 [l|]].
      * destruct IHf as (b & a & ->).
        exists ([(blanks (4 * k) ++ " " ++ debug_str fmt (question_to_string fmt q name))%string; (blanks (4 * k) ++ "--> True: ")%string] ++ lt ++ (blanks (4 * k) ++ "--> False: ")%string :: b), a.
        cbn [app]. rewrite <- !app_assoc. reflexivity.
      * destruct IHf as (name' & b & ut & uf & a & Hn' & -> & HT & HF).
        exists name', ([(blanks (4 * k) ++ " " ++ debug_str fmt (question_to_string fmt q name))%string; (blanks (4 * k) ++ "--> True: ")%string] ++ lt ++ (blanks (4 * k) ++ "--> False: ")%string :: b),
          ut, uf, a.
        split; auto. split; [|split; [exact HT|exact HF]].
        cbn [app]. rewrite <- !app_assoc. cbn [app]. reflexivity.
Qed.

(** C54, as stated for built trees. *)
Theorem print_built_lines fmt names d cfg t p n ls : regression_tree_new d cfg = Ok t ->
  print_tree_regression fmt t "" names = (ls, Ok tt) -> node_at p t = Some n ->
  match n with
  | TreeNode _ q _ _ (Some l) =>
      exists before after, ls = before ++ (blanks (4 * length p) ++ " Predict:" ++ debug_option (debug_dataset fmt) (rl_data l))%string :: after
  | TreeNode _ q _ _ None =>
      exists name before under_true under_false after, nth_error names (N.to_nat (q_column q)) = Some name /\
        ls = before ++ [(blanks (4 * length p) ++ " " ++ debug_str fmt (question_to_string fmt q name))%string;
                        (blanks (4 * length p) ++ "--> True: ")%string] ++ under_true ++
             [(blanks (4 * length p) ++ "--> False: ")%string] ++ under_false ++ after /\
        (forall m, node_at (p ++ [true]) t = Some m -> print_tree_regression fmt m (blanks (4 * S (length p))) names = (under_true, Ok tt)) /\
        (forall m, node_at (p ++ [false]) t = Some m -> print_tree_regression fmt m (blanks (4 * S (length p))) names = (under_false, Ok tt))
  end.
Proof.
  intros E Ep Hn. destruct (trees_proper d cfg (leaf_output_calculator_new Regression)) as [Hp _].
  exact (print_node_lines fmt names t (Hp t E) 0 p n ls Ep Hn).
Qed.

(* ------------------------------------------------------------------ *)
(** ** The main program *)

Lemma and_then_ok {A B} (a : A) (f : A -> printing B) : and_then (without_output (Ok a)) f = f a.
Proof. unfold and_then, without_output. cbn [fst snd app]. now destruct (f a). Qed.
Lemma and_then_panic {A B} (f : A -> printing B) : and_then (without_output Panic) f = ([], Panic).
Proof. reflexivity. Qed.
Lemma and_then_line {B} s (f : unit -> printing B) : and_then (println s) f = (s :: fst (f tt), snd (f tt)).
Proof. reflexivity. Qed.

Notation train_features := "./common/data-files/multi-target/features_train_mt.csv"%string.
Notation train_labels := "./common/data-files/multi-target/labels_train_mt.csv"%string.
Notation test_features := "./common/data-files/multi-target/features_test_mt.csv"%string.
Notation test_labels := "./common/data-files/multi-target/labels_test_mt.csv"%string.

Theorem main_runs (LW : NumLaws O) fmt files elapsed rate square_root nc d test :
  read_csv_data_multi_target (files train_features) (files train_labels) = Ok d ->
  read_csv_data_multi_target (files test_features) (files test_labels) = Ok test ->
  wf_dataset nc 10 d -> 10 < length (labels d) ->
  Forall (fun row => nc <= length row) (feature_rows test) -> rectangular 10 (labels test) ->
  labels test <> [] -> length (labels test) <= length (feature_rows test) ->
  exists label11 m ps first_label first_prediction,
    nth_error (labels d) 10 = Some label11 /\
    regression_boost_train d main_tree_config 300 rate = Ok m /\
    Forall2 (fun row p => regression_boost_predict m row = Ok p) (feature_rows test) ps /\
    nth_error (labels test) 0 = Some first_label /\ nth_error ps 0 = Some first_prediction /\
    let mse := mean_squared_error_of fsum0 (combine (labels test) ps) in
    main_program fmt files elapsed rate square_root =
      ([debug_vec (debug_f64 fmt) label11; ("Elapsed time: " ++ elapsed)%string; debug_f64 fmt mse;
        debug_f64 fmt (square_root mse); debug_vec (debug_f64 fmt) first_label; debug_vec (debug_f64 fmt) first_prediction], Ok tt).
Proof.
  intros Ed Et W H10 Hr Hl Hne Hle.
  destruct (nth_error (labels d) 10) as [label11|] eqn:E11; [|apply nth_error_None in E11; lia].
  destruct (regression_total_run LW nc 10 d main_tree_config 300 rate W eq_refl eq_refl ltac:(now compute)) as (m & Em & HP).
  assert (exists ps, Forall2 (fun row p => regression_boost_predict m row = Ok p /\ length p = 10) (feature_rows test) ps) as [ps HF].
  { clear -Hr HP. induction (feature_rows test) as [|r rs IH]; [exists []; constructor|].
    inversion Hr; subst. destruct (IH H2) as [ps Hps]. destruct (HP r H1) as (p & Ep & Lp). exists (p :: ps). constructor; auto. }
  assert (HF1 : Forall2 (fun row p => regression_boost_predict m row = Ok p) (feature_rows test) ps).
  { eapply Forall2_impl; [|exact HF]. intros a b [H _]. exact H. }
  destruct (labels test) as [|first_label ls] eqn:EL; [congruence|]. rewrite <- EL in *.
  destruct (feature_rows test) as [|row0 rows] eqn:ER; [simpl in Hle; rewrite EL in Hle; simpl in Hle; lia|]. rewrite <- ER in *.
  destruct ps as [|p0 ps']; [rewrite ER in HF; inversion HF|].
  assert (Ep0 : regression_boost_predict m row0 = Ok p0) by (rewrite ER in HF1; now inversion HF1).
  exists label11, m, (p0 :: ps'), first_label, p0. split; auto. split; auto. split; auto.
  split; [now rewrite EL|]. split; auto. intros mse.
  assert (Es : regression_boost_score m test = Ok mse).
  { apply regression_score_eq; auto. apply Forall_forall. intros [a b] Hab. simpl.
    assert (length a = 10). { apply in_combine_l in Hab. unfold rectangular in Hl. rewrite Forall_forall in Hl. now apply Hl. }
    assert (length b = 10).
    { apply in_combine_r in Hab. clear -HF Hab. induction HF as [|x y xs ys [_ H] _ IH]; [destruct Hab|]. destruct Hab as [->|Hab]; auto. }
    congruence. }
  unfold main_program. rewrite Ed, and_then_ok. unfold idx at 1. rewrite E11, and_then_ok, and_then_line.
  rewrite Em, and_then_ok, and_then_line. rewrite Et, and_then_ok. rewrite Es, and_then_ok. cbv zeta.
  rewrite !and_then_line. unfold idx. rewrite ER, EL. cbn [nth_error]. rewrite and_then_ok, Ep0, and_then_ok, and_then_ok.
  rewrite and_then_line. reflexivity.
Qed.

Theorem main_missing_training_data fmt files elapsed rate square_root :
  files train_features = None \/ files train_labels = None ->
  main_program fmt files elapsed rate square_root = ([], Panic).
Proof.
  intros H. unfold main_program.
  assert (read_csv_data_multi_target (files train_features) (files train_labels) = Panic) as ->.
  { apply read_two_files_panics. destruct H as [-> | ->]; auto. }
  apply and_then_panic.
Qed.

Theorem main_short_training_data fmt files elapsed rate square_root d :
  read_csv_data_multi_target (files train_features) (files train_labels) = Ok d -> length (labels d) <= 10 ->
  main_program fmt files elapsed rate square_root = ([], Panic).
Proof.
  intros E H. unfold main_program. rewrite E, and_then_ok. unfold idx at 1.
  rewrite (proj2 (nth_error_None (labels d) 10) H). apply and_then_panic.
Qed.

Theorem main_missing_test_data (LW : NumLaws O) fmt files elapsed rate square_root nc d :
  read_csv_data_multi_target (files train_features) (files train_labels) = Ok d ->
  wf_dataset nc 10 d -> 10 < length (labels d) ->
  files test_features = None \/ files test_labels = None ->
  exists label11, nth_error (labels d) 10 = Some label11 /\
    main_program fmt files elapsed rate square_root =
      ([debug_vec (debug_f64 fmt) label11; ("Elapsed time: " ++ elapsed)%string], Panic).
Proof.
  intros Ed W H10 H.
  destruct (nth_error (labels d) 10) as [label11|] eqn:E11; [|apply nth_error_None in E11; lia].
  destruct (regression_total_run LW nc 10 d main_tree_config 300 rate W eq_refl eq_refl ltac:(now compute)) as (m & Em & _).
  exists label11. split; auto.
  assert (Et : read_csv_data_multi_target (files test_features) (files test_labels) = Panic).
  { apply read_two_files_panics. destruct H as [-> | ->]; auto. }
  unfold main_program. rewrite Ed, and_then_ok. unfold idx at 1. rewrite E11, and_then_ok, and_then_line.
  rewrite Em, and_then_ok, and_then_line. rewrite Et, and_then_panic. reflexivity.
Qed.

End Print.
