(** Lemmas about the error monad, loops and lists. *)
From Coq Require Export Permutation Sorted.
From Verif Require Import Base.

Lemma bind_Ok {A B} (m : res A) (f : A -> res B) y :
  bind m f = Ok y <-> exists x, m = Ok x /\ f x = Ok y.
Proof.
  split.
  - destruct m; simpl; intros H; try discriminate. eauto.
  - intros (x & -> & H). exact H.
Qed.

Lemma bind_assoc {A B C} (m : res A) (f : A -> res B) (g : B -> res C) :
  bind (bind m f) g = bind m (fun x => bind (f x) g).
Proof. destruct m; reflexivity. Qed.

Ltac inv_bind H :=
  match type of H with
  | bind ?m ?f = Ok ?y =>
      let x := fresh "x" in let E := fresh "E" in
      apply bind_Ok in H; destruct H as (x & E & H)
  end.

Lemma idx_Ok {A} (l : list A) i x : idx l i = Ok x <-> nth_error l i = Some x.
Proof. unfold idx. destruct (nth_error l i); split; congruence. Qed.

Lemma idx_Panic {A} (l : list A) i : idx l i = Panic <-> length l <= i.
Proof.
  unfold idx. destruct (nth_error l i) eqn:E.
  - split; [discriminate|]. intros H. apply nth_error_None in H. congruence.
  - split; auto. intros _. now apply nth_error_None.
Qed.

Lemma idx_fuel {A} (l : list A) i : idx l i <> OutOfFuel.
Proof. unfold idx. destruct (nth_error l i); discriminate. Qed.

Lemma idx_nth {A} (l : list A) i d : i < length l -> idx l i = Ok (nth i l d).
Proof. intros H. apply idx_Ok. now apply nth_error_nth'. Qed.

Lemma length_list_set {A} (l : list A) i x : length (list_set l i x) = length l.
Proof. revert i; induction l as [|a l IH]; intros [|i]; simpl; auto. Qed.

Lemma nth_error_list_set {A} (l : list A) i x j :
  nth_error (list_set l i x) j =
  if (i =? j) && (j <? length l) then Some x else nth_error l j.
Proof.
  revert i j; induction l as [|a l IH]; intros i j; simpl.
  - destruct i, j; simpl; try reflexivity. now rewrite andb_false_r.
  - destruct i, j; simpl; try reflexivity. now rewrite IH.
Qed.

Lemma list_set_app_r {A} (a b : list A) i x :
  list_set (a ++ b) (length a + i) x = a ++ list_set b i x.
Proof. induction a as [|y a IH]; simpl; [reflexivity|]. now rewrite IH. Qed.

Lemma list_set_middle {A} (a b : list A) y x :
  list_set (a ++ y :: b) (length a) x = a ++ x :: b.
Proof. rewrite <- (Nat.add_0_r (length a)), list_set_app_r. reflexivity. Qed.

Lemma list_set_comm {A} (l : list A) i j x y :
  i <> j -> list_set (list_set l i x) j y = list_set (list_set l j y) i x.
Proof.
  revert i j; induction l as [|a l IH]; intros [|i] [|j] H; simpl; try reflexivity; try congruence.
  f_equal. apply IH. congruence.
Qed.

Lemma upd_Ok {A} (l : list A) i x l' : upd l i x = Ok l' <-> i < length l /\ l' = list_set l i x.
Proof.
  unfold upd. destruct (Nat.ltb_spec i (length l)); split; intros; try discriminate.
  - split; congruence.
  - f_equal; symmetry; tauto.
  - lia.
Qed.

Lemma upd_lt {A} (l : list A) i x : i < length l -> upd l i x = Ok (list_set l i x).
Proof. intros; now apply upd_Ok. Qed.

Lemma upd_Panic {A} (l : list A) i x : upd l i x = Panic <-> length l <= i.
Proof.
  unfold upd. destruct (Nat.ltb_spec i (length l)); split; intros; try discriminate; auto; lia.
Qed.

Lemma updN_upd {A} (l : list A) i x : updN l i x = upd l (N.to_nat i) x.
Proof.
  unfold updN. destruct (N.ltb_spec i (N.of_nat (length l))); auto.
  unfold upd. destruct (Nat.ltb_spec (N.to_nat i) (length l)); auto. lia.
Qed.

Lemma idxN_idx {A} (l : list A) i : idxN l i = idx l (N.to_nat i).
Proof.
  unfold idxN. destruct (N.ltb_spec i (N.of_nat (length l))); auto.
  symmetry. apply idx_Panic. lia.
Qed.

(* ------------------------------------------------------------------ *)
(** ** foldM, for_range, mapM *)

Lemma foldM_app {S A} (f : S -> A -> res S) a b s :
  foldM f (a ++ b) s = bind (foldM f a s) (foldM f b).
Proof.
  revert s; induction a as [|x a IH]; intros s; simpl; [reflexivity|].
  rewrite bind_assoc. destruct (f s x); simpl; auto.
Qed.

Lemma foldM_ext {S A} (f g : S -> A -> res S) l s :
  (forall s x, In x l -> f s x = g s x) -> foldM f l s = foldM g l s.
Proof.
  revert s; induction l as [|x l IH]; intros s H; simpl; [reflexivity|].
  rewrite H by (left; reflexivity). destruct (g s x); simpl; auto.
  apply IH. intros; apply H; now right.
Qed.

(** Invariant indexed by the processed prefix. *)
Lemma foldM_inv {S A} (P : list A -> S -> Prop) (f : S -> A -> res S) l s :
  P [] s ->
  (forall pre x post s', l = pre ++ x :: post -> P pre s' ->
     exists s'', f s' x = Ok s'' /\ P (pre ++ [x]) s'') ->
  exists s', foldM f l s = Ok s' /\ P l s'.
Proof.
  intros H0 Hs.
  cut (forall post pre s, l = pre ++ post -> P pre s -> exists s', foldM f post s = Ok s' /\ P l s').
  { intros H. apply (H l [] s); auto. }
  induction post as [|x post IH]; intros pre s1 E HP; simpl.
  - rewrite app_nil_r in E. subst. eauto.
  - destruct (Hs pre x post s1 E HP) as (s2 & E2 & HP2). rewrite E2. simpl.
    apply (IH (pre ++ [x])); [|assumption]. rewrite <- app_assoc. exact E.
Qed.

(** Same for a fold known to return. *)
Lemma foldM_inv_Ok {S A} (P : list A -> S -> Prop) (f : S -> A -> res S) l s s' :
  foldM f l s = Ok s' ->
  P [] s ->
  (forall pre x post s1 s2, l = pre ++ x :: post -> P pre s1 -> f s1 x = Ok s2 -> P (pre ++ [x]) s2) ->
  P l s'.
Proof.
  intros E H0 Hs.
  cut (forall post pre s, l = pre ++ post -> P pre s -> foldM f post s = Ok s' -> P l s').
  { intros H. now apply (H l [] s). }
  clear E H0 s.
  induction post as [|x post IH]; intros pre s1 El HP E; simpl in E.
  - rewrite app_nil_r in El. congruence.
  - inv_bind E. apply (IH (pre ++ [x]) x0); auto.
    + now rewrite <- app_assoc.
    + now apply (Hs pre x post s1).
Qed.

Lemma foldM_pure {S A} (g : S -> A -> S) l s :
  foldM (fun s x => Ok (g s x)) l s = Ok (fold_left g l s).
Proof. revert s; induction l as [|x l IH]; intros s; simpl; auto. Qed.

Lemma foldM_Ok_pure {S A} (f : S -> A -> res S) (g : S -> A -> S) (Inv : S -> Prop) l s :
  Inv s -> (forall s x, In x l -> Inv s -> f s x = Ok (g s x) /\ Inv (g s x)) ->
  foldM f l s = Ok (fold_left g l s) /\ Inv (fold_left g l s).
Proof.
  revert s; induction l as [|x l IH]; intros s H0 H; simpl; [auto|].
  destruct (H s x) as [E HI]; [now left|assumption|]. rewrite E. simpl.
  apply IH; auto. intros; apply H; auto. now right.
Qed.

Lemma foldM_fuel {S A} (f : S -> A -> res S) l s :
  (forall s x, f s x <> OutOfFuel) -> foldM f l s <> OutOfFuel.
Proof.
  intros H. revert s; induction l as [|x l IH]; intros s; simpl; [discriminate|].
  specialize (H s x). destruct (f s x); simpl; auto; try discriminate.
Qed.

Lemma for_range_inv {S} (P : nat -> S -> Prop) n (f : S -> nat -> res S) s :
  P 0 s ->
  (forall i s, i < n -> P i s -> exists s', f s i = Ok s' /\ P (i + 1) s') ->
  exists s', for_range n f s = Ok s' /\ P n s'.
Proof.
  intros H0 Hs. unfold for_range.
  destruct (@foldM_inv S nat (fun pre s => P (length pre) s) f (seq 0 n) s) as (s' & E & H); auto.
  - intros pre x post s' E HP.
    assert (x = length pre).
    { apply (f_equal (fun l => nth_error l (length pre))) in E.
      rewrite nth_error_app2, Nat.sub_diag in E by lia. simpl in E.
      destruct (lt_dec (length pre) n).
      - rewrite nth_error_nth' with (d := 0) in E by (now rewrite seq_length).
        rewrite seq_nth in E by assumption. injection E; intros; simpl in *; congruence.
      - replace (nth_error (seq 0 n) (length pre)) with (@None nat) in E; [discriminate|].
        symmetry. apply nth_error_None. rewrite seq_length. lia. }
    subst x. destruct (Hs (length pre) s') as (s'' & E' & H'); auto.
    + apply (f_equal (@length nat)) in E. rewrite seq_length, app_length in E. simpl in E. lia.
    + exists s''. rewrite app_length. auto.
  - exists s'. rewrite seq_length in H. auto.
Qed.

Lemma for_range_S {S} n (f : S -> nat -> res S) s :
  for_range (n + 1) f s = bind (for_range n f s) (fun s' => f s' n).
Proof.
  unfold for_range. rewrite seq_app. rewrite foldM_app. simpl.
  destruct (foldM f (seq 0 n) s); simpl; auto. destruct (f s0 n); reflexivity.
Qed.

Lemma for_range_fuel {S} n (f : S -> nat -> res S) s :
  (forall s x, f s x <> OutOfFuel) -> for_range n f s <> OutOfFuel.
Proof. apply foldM_fuel. Qed.

Lemma for_range_ext {S} n (f g : S -> nat -> res S) s :
  (forall s i, i < n -> f s i = g s i) -> for_range n f s = for_range n g s.
Proof.
  intros H. apply foldM_ext. intros s' x Hx. apply in_seq in Hx. apply H. lia.
Qed.

(** [for i in 0..n { acc.push(g(i)) }] *)
Lemma for_range_push {A} n (g : nat -> res A) (acc : list A) :
  for_range n (fun acc i => x <- g i;; Ok (acc ++ [x])) acc =
  bind (mapM g (seq 0 n)) (fun l => Ok (acc ++ l)).
Proof.
  unfold for_range. generalize (seq 0 n) as l. intros l. revert acc.
  induction l as [|i l IH]; intros acc; simpl.
  - now rewrite app_nil_r.
  - rewrite !bind_assoc. destruct (g i); simpl; auto. rewrite IH, bind_assoc.
    destruct (mapM g l); simpl; auto. now rewrite <- app_assoc.
Qed.

Lemma foldM_push {A B} (g : A -> res B) (l : list A) (acc : list B) :
  foldM (fun acc x => y <- g x;; Ok (acc ++ [y])) l acc =
  bind (mapM g l) (fun r => Ok (acc ++ r)).
Proof.
  revert acc. induction l as [|i l IH]; intros acc; simpl.
  - now rewrite app_nil_r.
  - rewrite !bind_assoc. destruct (g i); simpl; auto. rewrite IH, bind_assoc.
    destruct (mapM g l); simpl; auto. now rewrite <- app_assoc.
Qed.

Lemma Forall2_length {A B} (R : A -> B -> Prop) a b : Forall2 R a b -> length a = length b.
Proof. induction 1; simpl; auto. Qed.

Lemma Forall2_impl {A B} (R S : A -> B -> Prop) a b :
  (forall x y, R x y -> S x y) -> Forall2 R a b -> Forall2 S a b.
Proof. induction 2; constructor; auto. Qed.

Lemma mapM_Forall2 {A B} (f : A -> res B) l r :
  mapM f l = Ok r <-> Forall2 (fun x y => f x = Ok y) l r.
Proof.
  revert r; induction l as [|x l IH]; intros r; simpl.
  - split; intros H; [injection H as <-; constructor|inversion H; reflexivity].
  - split; intros H.
    + inv_bind H. inv_bind H. injection H as <-. constructor; auto. now apply IH.
    + inversion H as [|? y ? r' Hy Hr]; subst. rewrite Hy. simpl. apply IH in Hr. rewrite Hr. reflexivity.
Qed.

Lemma mapM_pure {A B} (f : A -> res B) (g : A -> B) l :
  (forall x, In x l -> f x = Ok (g x)) -> mapM f l = Ok (map g l).
Proof.
  induction l as [|x l IH]; intros H; simpl; [reflexivity|].
  rewrite H by (now left). simpl. rewrite IH; auto. intros; apply H; now right.
Qed.

Lemma mapM_ext {A B} (f g : A -> res B) l :
  (forall x, In x l -> f x = g x) -> mapM f l = mapM g l.
Proof.
  induction l as [|x l IH]; intros H; simpl; [reflexivity|].
  rewrite H by (now left). destruct (g x); simpl; auto. rewrite IH; auto. intros; apply H; now right.
Qed.

Lemma mapM_length {A B} (f : A -> res B) l r : mapM f l = Ok r -> length r = length l.
Proof. intros H. apply mapM_Forall2 in H. symmetry. eapply Forall2_length; eauto. Qed.

Lemma mapM_app {A B} (f : A -> res B) a b :
  mapM f (a ++ b) = bind (mapM f a) (fun x => bind (mapM f b) (fun y => Ok (x ++ y))).
Proof.
  induction a as [|x a IH]; simpl.
  - destruct (mapM f b); reflexivity.
  - destruct (f x); simpl; auto. rewrite IH, !bind_assoc. destruct (mapM f a); simpl; auto.
    destruct (mapM f b); simpl; auto.
Qed.

Lemma mapM_map {A B C} (f : B -> res C) (g : A -> B) l : mapM f (map g l) = mapM (fun x => f (g x)) l.
Proof. induction l as [|x l IH]; simpl; auto. destruct (f (g x)); simpl; auto. now rewrite IH. Qed.

Lemma mapM_fuel {A B} (f : A -> res B) l : (forall x, In x l -> f x <> OutOfFuel) -> mapM f l <> OutOfFuel.
Proof.
  induction l as [|x l IH]; intros H; simpl; [discriminate|].
  assert (Hx := H x (or_introl eq_refl)). destruct (f x); simpl; auto; try discriminate.
  assert (IH' : mapM f l <> OutOfFuel) by (apply IH; intros; apply H; now right).
  destruct (mapM f l); simpl; auto; discriminate.
Qed.

Lemma mapM_Panic {A B} (f : A -> res B) l :
  (forall x, In x l -> f x <> OutOfFuel) ->
  (mapM f l = Panic <-> exists x, In x l /\ f x = Panic).
Proof.
  induction l as [|x l IH]; intros H; simpl.
  - split; [discriminate|intros (? & [] & _)].
  - assert (Hx := H x (or_introl eq_refl)).
    assert (Hl : forall y, In y l -> f y <> OutOfFuel) by (intros; apply H; now right).
    specialize (IH Hl). pose proof (mapM_fuel f l Hl) as Hf.
    destruct (f x) eqn:E; simpl.
    + destruct (mapM f l) eqn:E'; simpl.
      * split; [discriminate|]. intros (y & [<-|Hy] & E''); [congruence|].
        destruct IH as [_ IH]. assert (Ok l0 = Panic) by eauto. discriminate.
      * split; auto. intros _. destruct (proj1 IH eq_refl) as (y & Hy & Ey). eauto.
      * congruence.
    + split; auto. intros _. eauto.
    + congruence.
Qed.

Lemma mapM_idx_seq {A} (l : list A) : mapM (idx l) (seq 0 (length l)) = Ok l.
Proof.
  apply mapM_Forall2.
  cut (forall pre, Forall2 (fun x y => idx (pre ++ l) x = Ok y) (seq (length pre) (length l)) l).
  { intros H. apply (H []). }
  induction l as [|x l IH]; intros pre; simpl; constructor.
  - apply idx_Ok. rewrite nth_error_app2, Nat.sub_diag by lia. reflexivity.
  - specialize (IH (pre ++ [x])). rewrite app_length in IH. simpl in IH.
    rewrite Nat.add_1_r in IH. rewrite <- app_assoc in IH. exact IH.
Qed.

(** Iterating over indices and reading the element is iterating over the elements. *)
Lemma mapM_seq_idx {A B} (l : list A) (f : A -> res B) :
  mapM (fun i => x <- idx l i;; f x) (seq 0 (length l)) = mapM f l.
Proof.
  cut (forall pre post, l = pre ++ post ->
     mapM (fun i => x <- idx l i;; f x) (seq (length pre) (length post)) = mapM f post).
  { intros H. apply (H [] l). reflexivity. }
  intros pre post; revert pre. induction post as [|x post IH]; intros pre E; [reflexivity|].
  cbn [seq length mapM].
  assert (Hi : idx l (length pre) = Ok x).
  { apply idx_Ok. rewrite E, nth_error_app2, Nat.sub_diag by lia. reflexivity. }
  rewrite Hi. simpl. destruct (f x); simpl; auto.
  specialize (IH (pre ++ [x])). rewrite app_length in IH. simpl in IH. rewrite Nat.add_1_r in IH.
  rewrite IH; [reflexivity|]. rewrite <- app_assoc. exact E.
Qed.

Lemma foldM_seq_idx {A S} (l : list A) (f : S -> A -> res S) s :
  for_range (length l) (fun s i => x <- idx l i;; f s x) s = foldM f l s.
Proof.
  unfold for_range.
  cut (forall pre post, l = pre ++ post -> forall s,
     foldM (fun s i => x <- idx l i;; f s x) (seq (length pre) (length post)) s = foldM f post s).
  { intros H. apply (H [] l). reflexivity. }
  intros pre post; revert pre. induction post as [|x post IH]; intros pre E s'; [reflexivity|].
  cbn [seq length foldM].
  assert (Hi : idx l (length pre) = Ok x).
  { apply idx_Ok. rewrite E, nth_error_app2, Nat.sub_diag by lia. reflexivity. }
  rewrite Hi. simpl. destruct (f s' x); simpl; auto.
  specialize (IH (pre ++ [x])). rewrite app_length in IH. simpl in IH. rewrite Nat.add_1_r in IH.
  apply IH. rewrite <- app_assoc. exact E.
Qed.

(* ------------------------------------------------------------------ *)
(** ** Elementwise updates *)

Fixpoint map2 {A B C} (f : A -> B -> C) (a : list A) (b : list B) : list C :=
  match a, b with
  | x :: s, y :: t => f x y :: map2 f s t
  | _, _ => []
  end.

Lemma map2_combine {A B C} (f : A -> B -> C) a b :
  map2 f a b = map (fun p => f (fst p) (snd p)) (combine a b).
Proof. revert b; induction a as [|x a IH]; intros [|y b]; simpl; auto. now rewrite IH. Qed.

Lemma map2_length {A B C} (f : A -> B -> C) a b : length (map2 f a b) = Nat.min (length a) (length b).
Proof. revert b; induction a as [|x a IH]; intros [|y b]; simpl; auto. Qed.

Lemma nth_error_map2 {A B C} (f : A -> B -> C) a b i :
  nth_error (map2 f a b) i =
  match nth_error a i, nth_error b i with Some x, Some y => Some (f x y) | _, _ => None end.
Proof.
  revert b i; induction a as [|x a IH]; intros [|y b] [|i]; simpl; auto.
  destruct (nth_error a i); reflexivity.
Qed.

Lemma map2_ext {A B C} (f g : A -> B -> C) a b :
  (forall x y, In (x, y) (combine a b) -> f x y = g x y) -> map2 f a b = map2 g a b.
Proof.
  revert b; induction a as [|x a IH]; intros [|y b] H; simpl; auto. f_equal.
  - apply H. now left.
  - apply IH. intros; apply H. now right.
Qed.

Lemma map2_app {A B C} (f : A -> B -> C) a a' b b' :
  length a = length b -> map2 f (a ++ a') (b ++ b') = map2 f a b ++ map2 f a' b'.
Proof. revert b; induction a as [|x a IH]; intros [|y b] H; simpl in *; try discriminate; auto. f_equal; auto. Qed.

Lemma map2_map_l {A B C D} (f : A -> B -> C) (g : D -> A) a b :
  map2 f (map g a) b = map2 (fun x y => f (g x) y) a b.
Proof. revert b; induction a as [|x a IH]; intros [|y b]; simpl; auto. now rewrite IH. Qed.

Lemma map2_map_r {A B C D} (f : A -> B -> C) (g : D -> B) a b :
  map2 f a (map g b) = map2 (fun x y => f x (g y)) a b.
Proof. revert b; induction a as [|x a IH]; intros [|y b]; simpl; auto. now rewrite IH. Qed.

Lemma map_map2 {A B C D} (f : A -> B -> C) (g : C -> D) a b :
  map g (map2 f a b) = map2 (fun x y => g (f x y)) a b.
Proof. revert b; induction a as [|x a IH]; intros [|y b]; simpl; auto. now rewrite IH. Qed.

Lemma map2_swap {A B C} (f : A -> B -> C) a b : map2 f a b = map2 (fun y x => f x y) b a.
Proof. revert b; induction a as [|x a IH]; intros [|y b]; simpl; auto. now rewrite IH. Qed.

Lemma map2_diag {A C} (f : A -> A -> C) a : map2 f a a = map (fun x => f x x) a.
Proof. induction a as [|x a IH]; simpl; auto. now rewrite IH. Qed.

Lemma map2_repeat_l {A B C} (f : A -> B -> C) x b n :
  length b = n -> map2 f (repeat x n) b = map (f x) b.
Proof. revert n; induction b as [|y b IH]; intros [|n] H; simpl in *; try discriminate; auto. f_equal. auto. Qed.

Lemma map2_repeat_r {A B C} (f : A -> B -> C) y a n :
  length a = n -> map2 f a (repeat y n) = map (fun x => f x y) a.
Proof. revert n; induction a as [|x a IH]; intros [|n] H; simpl in *; try discriminate; auto. f_equal. auto. Qed.

(** An in-place elementwise update loop. [g i x] is the new value at [i]. *)
Lemma for_range_update {A} (h : list A -> nat -> res (list A)) (g : nat -> A -> A) (l : list A) :
  (forall pre x post, length pre + S (length post) = length l ->
     h (pre ++ x :: post) (length pre) = Ok (pre ++ g (length pre) x :: post)) ->
  for_range (length l) h l = Ok (map2 g (seq 0 (length l)) l).
Proof.
  intros H. unfold for_range.
  cut (forall post pre, length pre + length post = length l ->
     foldM h (seq (length pre) (length post)) (pre ++ post) =
     Ok (pre ++ map2 g (seq (length pre) (length post)) post)).
  { intros Hc. specialize (Hc l []). simpl in Hc. apply Hc. reflexivity. }
  induction post as [|x post IH]; intros pre Hl; [reflexivity|].
  cbn [seq length foldM]. rewrite H by (simpl in Hl; lia). simpl.
  specialize (IH (pre ++ [g (length pre) x])).
  rewrite app_length in IH. simpl in IH. rewrite Nat.add_1_r in IH.
  rewrite <- !app_assoc in IH. apply IH. simpl in Hl. lia.
Qed.

Lemma idx_middle {A} (a : list A) x b : idx (a ++ x :: b) (length a) = Ok x.
Proof. apply idx_Ok. rewrite nth_error_app2, Nat.sub_diag by lia. reflexivity. Qed.

Lemma upd_middle {A} (a : list A) x b y : upd (a ++ x :: b) (length a) y = Ok (a ++ y :: b).
Proof. rewrite upd_lt, list_set_middle; auto. rewrite app_length. simpl. lia. Qed.

Lemma map2_seq_map {A B} (g : A -> B) (l : list A) k :
  map2 (fun _ x => g x) (seq k (length l)) l = map g l.
Proof. revert k; induction l as [|x l IH]; intros k; simpl; auto. now rewrite IH. Qed.

Lemma enumerate_cons_gen {A} (l : list A) k :
  combine (seq k (length l)) l = map2 pair (seq k (length l)) l.
Proof. rewrite map2_combine. rewrite <- (map_id (combine _ _)) at 1. apply map_ext. now intros []. Qed.

Lemma nth_error_enumerate {A} (l : list A) i :
  nth_error (enumerate l) i = option_map (fun x => (i, x)) (nth_error l i).
Proof.
  unfold enumerate. rewrite enumerate_cons_gen, nth_error_map2.
  destruct (nth_error l i) as [x|] eqn:E; simpl.
  - assert (i < length l) by (apply nth_error_Some; congruence).
    rewrite nth_error_nth' with (d := 0) by (now rewrite seq_length).
    rewrite seq_nth by assumption. reflexivity.
  - now destruct (nth_error (seq 0 (length l)) i).
Qed.

Lemma combine_app {A B} (a a' : list A) (b b' : list B) :
  length a = length b -> combine (a ++ a') (b ++ b') = combine a b ++ combine a' b'.
Proof. revert b; induction a as [|x a IH]; intros [|y b] H; simpl in *; try discriminate; auto. f_equal; auto. Qed.

Lemma enumerate_app {A} (a b : list A) :
  enumerate (a ++ b) = enumerate a ++ combine (seq (length a) (length b)) b.
Proof.
  unfold enumerate. rewrite app_length, seq_app. simpl. apply combine_app. apply seq_length.
Qed.

Lemma map_snd_enumerate {A} (l : list A) : map snd (enumerate l) = l.
Proof.
  unfold enumerate. generalize 0. induction l as [|x l IH]; intros k; simpl; auto. now rewrite IH.
Qed.

Lemma enumerate_length {A} (l : list A) : length (enumerate l) = length l.
Proof. unfold enumerate. rewrite combine_length, seq_length. lia. Qed.

Lemma nth_error_repeat_lt {A} (x : A) n i : i < n -> nth_error (repeat x n) i = Some x.
Proof.
  intros H. destruct (nth_error (repeat x n) i) eqn:E.
  - apply nth_error_In in E. apply repeat_spec in E. congruence.
  - apply nth_error_None in E. rewrite repeat_length in E. lia.
Qed.

Lemma nth_error_ext {A} (a b : list A) : (forall i, nth_error a i = nth_error b i) -> a = b.
Proof.
  revert b; induction a as [|x a IH]; intros [|y b] H; auto.
  - specialize (H 0); discriminate.
  - specialize (H 0); discriminate.
  - f_equal.
    + specialize (H 0). simpl in H. congruence.
    + apply IH. intros i. apply (H (S i)).
Qed.

Lemma Forall2_nth {A B} (R : A -> B -> Prop) a b :
  Forall2 R a b <-> length a = length b /\
    forall i x y, nth_error a i = Some x -> nth_error b i = Some y -> R x y.
Proof.
  split.
  - intros H. split; [eapply Forall2_length; eauto|].
    induction H; intros [|i] u v; simpl; try discriminate.
    + intros E1 E2. congruence.
    + apply IHForall2.
  - revert b; induction a as [|x a IH]; intros [|y b] [Hl H]; simpl in *; try discriminate; constructor.
    + apply (H 0); reflexivity.
    + apply IH. split; [lia|]. intros i. apply (H (S i)).
Qed.

Lemma filter_map_swap {A B} (f : A -> B) (p : B -> bool) l :
  filter p (map f l) = map f (filter (fun x => p (f x)) l).
Proof. induction l as [|x l IH]; simpl; auto. destruct (p (f x)); simpl; now rewrite IH. Qed.

Lemma combine_map_fst_snd {A B} (l : list (A * B)) : combine (map fst l) (map snd l) = l.
Proof. induction l as [|[a b] l IH]; simpl; auto. now rewrite IH. Qed.

Lemma map_fst_combine {A B} (a : list A) (b : list B) : length a = length b -> map fst (combine a b) = a.
Proof. revert b; induction a as [|x a IH]; intros [|y b] H; simpl in *; try discriminate; auto. f_equal; auto. Qed.

Lemma map_snd_combine {A B} (a : list A) (b : list B) : length a = length b -> map snd (combine a b) = b.
Proof. revert b; induction a as [|x a IH]; intros [|y b] H; simpl in *; try discriminate; auto. f_equal; auto. Qed.
