(** A constant target in exact arithmetic, and a target that is 0 everywhere in binary64. *)
From Coq Require Import Reals Lra Lia ZArith Bool.
From Flocq Require Import Core.
From Flocq Require Import IEEE754.BinarySingleNaN.
From Verif Require Import Base Num F64 XR ModelCommon ModelTree ModelBoost Lib Spec SpecTree SpecFit SpecMirror SpecInsert ProofData ProofTree ProofBoost ProofRound ProofError
  ProofRel ProofMirror ProofMirror2 ProofNull.
Local Open Scope R_scope.

(* ------------------------------------------------------------------ *)
(** ** Exact arithmetic *)

Lemma xr_preserved : @preserved xr_ops eq eq.
Proof. constructor; intros; subst; reflexivity. Qed.

Lemma xr_countable : @countable xr_ops (fun _ => True).
Proof.
  constructor; auto; intros.
  - cbn [fadd f_of_nat f1 xr_ops xadd]. now rewrite S_INR.
  - cbn [fsub f_of_nat f1 xr_ops xsub xneg xadd]. rewrite S_INR. f_equal. ring.
  - cbn [fadd f_of_nat xr_ops xadd]. now rewrite plus_INR.
Qed.

Lemma xr_neutral : @neutral xr_ops eq (fun _ => True).
Proof.
  constructor; intros; subst; auto.
  - cbn [fadd f0 xr_ops]. destruct x; cbn; auto. f_equal. ring.
  - cbn [fmul fdiv f_of_nat f0 xr_ops]. rewrite xdiv_Fin.
    + cbn [xmul]. f_equal. ring.
    + apply not_0_INR. lia.
Qed.

Lemma xr_null r : @null_label xr_ops eq (fun _ => True) (Fin r).
Proof.
  constructor; cbn [fadd fsub fmul fdiv f_of_nat f0 xr_ops xmul xadd xsub xneg]; intros; rewrite ?S_INR; try (f_equal; cbn [INR]; ring).
  - assert (INR j <> 0) by (apply not_0_INR; lia). rewrite xdiv_Fin by auto. f_equal. now field.
  - assert (INR j <> 0) by (apply not_0_INR; lia). rewrite xdiv_Fin by auto. f_equal. now field.
Qed.

Lemma eq_Forall2 {A} (l l' : list A) : Forall2 eq l l' -> l' = l.
Proof. induction 1; congruence. Qed.

Lemma ins_insert {O : NumOps} (E : F -> F -> Prop) p z l l' : ins E p z l l' ->
  exists l0 z', l' = insert_at p z' l0 /\ Forall2 E l l0 /\ E z z'.
Proof.
  intros (a & b & a' & b' & z' & -> & -> & La & La' & Ha & Hb & Hz). exists (a' ++ b'), z'. split; [|split; auto; now apply Forall2_app].
  unfold insert_at. rewrite firstn_app, skipn_app, La', Nat.sub_diag, firstn_O, skipn_O, app_nil_r, firstn_all2, skipn_all2 by lia. reflexivity.
Qed.

Lemma exact_answers p r a a' : result_rel (@ins xr_ops eq p (Fin r)) a a' ->
  (a = Panic /\ a' = Panic) \/ exists q, a = Ok q /\ a' = Ok (insert_at p (Fin r) q).
Proof.
  intros [H|(q & q' & E1 & E2 & H)]; [left; exact H|right]. exists q. split; auto.
  apply ins_insert in H as (l0 & z & -> & H1 & H2). apply eq_Forall2 in H1. subst l0. rewrite E2. do 2 f_equal. symmetry. exact H2.
Qed.

Theorem exact_tree_constant nc nt p r (d : @dataset xr_ops) cfg t t' :
  wf_dataset nc nt d -> (p <= nt)%nat -> standard cfg -> tc_number_of_classes cfg = N.of_nat nt ->
  regression_tree_new d cfg = Ok t -> regression_tree_new (with_constant_target p (Fin r : @F xr_ops) d) (one_more_target cfg) = Ok t' ->
  tree_map (fun _ => tt) t' = tree_map (fun _ => tt) t /\
  forall row, (tree_prediction row t = Panic /\ tree_prediction row t' = Panic) \/
    exists q, tree_prediction row t = Ok q /\ tree_prediction row t' = Ok (insert_at p (Fin r : @F xr_ops) q).
Proof.
  intros W Hp St Hc E E'.
  destruct (tree_ins xr_laws eq xr_preserved _ xr_countable xr_neutral p (@eq_sym _) (Fin r) (xr_null r) nc nt d _ cfg t t' St Hc Hp I
    (inserted eq _ xr_neutral p (Fin r) nc nt d Hp W) E E') as [A B].
  split; auto. intros row. apply exact_answers, B.
Qed.

Theorem exact_boost_constant nc nt p r (d : @dataset xr_ops) cfg n lr (m m' : @regression_boost_model xr_ops) :
  wf_dataset nc nt d -> (p <= nt)%nat -> standard cfg -> tc_number_of_classes cfg = N.of_nat nt ->
  regression_boost_train d cfg n (Fin lr : @F xr_ops) = Ok m ->
  regression_boost_train (with_constant_target p (Fin r : @F xr_ops) d) (one_more_target cfg) n (Fin lr : @F xr_ops) = Ok m' ->
  Forall2 (fun t t' => tree_map (fun _ => tt) t' = tree_map (fun _ => tt) t) (m_trees m) (m_trees m') /\
  forall row, (regression_boost_predict m row = Panic /\ regression_boost_predict m' row = Panic) \/
    exists q, regression_boost_predict m row = Ok q /\ regression_boost_predict m' row = Ok (insert_at p (Fin r : @F xr_ops) q).
Proof.
  intros W Hp St Hc E E'.
  destruct (boost_ins xr_laws eq xr_preserved _ xr_countable xr_neutral p (@eq_sym _) (Fin r) (xr_null r) (xr_null 0) nc nt d _ cfg n (Fin lr) m m' St Hc Hp I
    (inserted eq _ xr_neutral p (Fin r) nc nt d Hp W)) as [A B]; auto.
  - cbn. f_equal. ring.
  - split; auto. intros row. apply exact_answers, B.
Qed.

(* ------------------------------------------------------------------ *)
(** ** Binary64 *)

Section Binary64.
Variable P : platform.
Local Notation O := (f64_ops P).

Definition few (n : nat) : Prop := (Z.of_nat n <= 2 ^ 53)%Z.
Definition is_zero (x : f64) : Prop := exists s, x = B754_zero s.

Lemma zeros_same x y : is_zero x -> is_zero y -> mirror false x y.
Proof. intros (s & ->) (t & ->). reflexivity. Qed.

Lemma count_value j : few j -> is_finite (f64_of_Z (Z.of_nat j)) = true /\ B2R (f64_of_Z (Z.of_nat j)) = INR j.
Proof.
  intros H. destruct (of_Z_exact (Z.of_nat j)) as (V & Fj & _); [unfold few in H; lia|]. split; auto. now rewrite V, <- INR_IZR_INZ.
Qed.

Lemma count_nonzero j : few j -> (1 <= j)%nat -> exists s m e H, f64_of_Z (Z.of_nat j) = B754_finite s m e H.
Proof.
  intros H H1. destruct (count_value j H) as [Fj V]. assert (Hz : INR j <> 0) by (apply not_0_INR; lia).
  destruct (f64_of_Z (Z.of_nat j)) as [s|s| |s m e He]; try discriminate; [cbn in V; congruence|]. eauto.
Qed.

Lemma mult_zero x z : is_finite x = true -> is_zero z -> is_zero (Bmult mode_NE x z).
Proof. intros Fx (s & ->). destruct x; try discriminate; cbn; eexists; reflexivity. Qed.
Lemma zero_mult x z : is_zero z -> is_zero x -> is_zero (Bmult mode_NE x z).
Proof. intros (s & ->) (t & ->). cbn. eexists; reflexivity. Qed.
Lemma plus_zeros x z : is_zero x -> is_zero z -> is_zero (Bplus mode_NE x z).
Proof. intros (s & ->) (t & ->). destruct s, t; eexists; reflexivity. Qed.
Lemma minus_zeros x z : is_zero x -> is_zero z -> is_zero (Bminus mode_NE x z).
Proof. intros (s & ->) (t & ->). destruct s, t; eexists; reflexivity. Qed.
Lemma div_zero z j : is_zero z -> few j -> (1 <= j)%nat -> is_zero (Bdiv mode_NE z (f64_of_Z (Z.of_nat j))).
Proof. intros (s & ->) H H1. destruct (count_nonzero j H H1) as (t & m & e & He & ->). eexists; reflexivity. Qed.

Lemma mirror_trans x y z : mirror false x y -> mirror false y z -> mirror false x z.
Proof.
  destruct x as [s|s| |s m e H], y as [s'|s'| |s' m' e' H'], z as [s''|s''| |s'' m'' e'' H'']; cbn; try tauto; try congruence.
  intros -> ->. now destruct s.
Qed.
Lemma mirror_symm x y : mirror false x y -> mirror false y x.
Proof. destruct x as [s|s| |s m e H], y as [s'|s'| |s' m' e' H']; cbn; auto. intros ->. now destruct s. Qed.

Lemma f64_countable : @countable O few.
Proof.
  constructor.
  - unfold few. intros; lia.
  - exact (f_of_nat_0 _ (f64_laws P)).
  - intros j H. apply (f_of_nat_S _ (f64_laws P)). unfold few in H. lia.
  - intros j H. assert (Hj : few j) by (unfold few in *; lia). destruct (count_value (S j) H) as [F1 V1]. destruct (count_value j Hj) as [F0 V0].
    assert (V : B2R (Bone : f64) = 1) by apply Bone_correct. assert (F1' : is_finite (Bone : f64) = true) by apply is_finite_Bone.
    assert (D : B2R (f64_of_Z (Z.of_nat (S j))) - B2R (Bone : f64) = INR j) by (rewrite V1, V, S_INR; ring).
    assert (G : rnd (INR j) = INR j) by (rewrite <- V0; apply rnd_B2R).
    destruct (minus_value (f64_of_Z (Z.of_nat (S j))) Bone F1 F1') as [Fm Vm].
    { rewrite D, G, <- V0. apply abs_B2R_lt_emax. }
    cbn [fsub f_of_nat f1 O f64_ops]. rewrite D, G in Vm. apply B2R_Bsign_inj; auto; [congruence|].
    destruct j as [|j].
    + vm_compute. reflexivity.
    + rewrite !sign_value by (auto; rewrite ?Vm, ?V0; apply not_0_INR; lia). now rewrite Vm, V0.
  - intros i j H. assert (Hi : few i) by (unfold few in *; lia). assert (Hj : few j) by (unfold few in *; lia).
    destruct (count_value i Hi) as [F1 V1]. destruct (count_value j Hj) as [F0 V0]. destruct (count_value (i + j) H) as [F2 V2].
    assert (D : B2R (f64_of_Z (Z.of_nat i)) + B2R (f64_of_Z (Z.of_nat j)) = INR (i + j)) by (rewrite V1, V0, plus_INR; ring).
    assert (G : rnd (INR (i + j)) = INR (i + j)) by (rewrite <- V2; apply rnd_B2R).
    destruct (plus_value _ _ F1 F0) as [Fm Vm].
    { rewrite D, G, <- V2. apply abs_B2R_lt_emax. }
    cbn [fadd f_of_nat O f64_ops]. rewrite D, G in Vm. apply B2R_Bsign_inj; auto; [congruence|].
    destruct (Nat.eq_dec (i + j) 0) as [E|E].
    + assert (i = 0 /\ j = 0)%nat as [-> ->] by lia. vm_compute. reflexivity.
    + rewrite !sign_value by (auto; rewrite ?Vm, ?V2; apply not_0_INR; lia). now rewrite Vm, V2.
Qed.

Lemma f64_neutral : @neutral O (mirror false) few.
Proof.
  constructor.
  - apply mirror_refl.
  - apply mirror_trans.
  - intros x. cbn [fadd f0 O f64_ops]. destruct x as [[|]|[|]| |s m e H]; cbn; reflexivity.
  - intros i j H H1. cbn [fmul fdiv f_of_nat f0 O f64_ops]. assert (Hi : few i) by (unfold few in *; lia).
    destruct (count_value i Hi) as [F1 V1]. destruct (count_value (i + j) H) as [F2 V2].
    assert (Hz : INR (i + j) <> 0) by (apply not_0_INR; lia).
    apply zeros_same; [|eexists; reflexivity]. apply mult_zero; [|eexists; reflexivity].
    apply (div_value _ _ F1); [now rewrite V2|]. rewrite V1, V2.
    apply Rle_lt_trans with 1; [|apply one_lt_emax]. rewrite <- rnd_1. rewrite Rabs_pos_eq.
    + apply rnd_le. apply Rmult_le_reg_r with (INR (i + j)); [apply lt_0_INR; lia|]. unfold Rdiv. rewrite Rmult_assoc, Rinv_l, Rmult_1_r, Rmult_1_l by auto.
      apply le_INR. lia.
    + rewrite <- rnd_0. apply rnd_le. apply Rmult_le_pos; [apply pos_INR|]. apply Rlt_le, Rinv_0_lt_compat, lt_0_INR. lia.
Qed.

Lemma f64_null s : @null_label O (mirror false) few (B754_zero s).
Proof.
  assert (Z0 : is_zero (B754_zero s)) by (eexists; reflexivity).
  assert (Zs : is_zero (Bmult mode_NE (B754_zero s) (B754_zero s))) by (now apply zero_mult).
  assert (Hm : forall j z, few j -> is_zero z -> is_zero (Bmult mode_NE (f64_of_Z (Z.of_nat j)) z)).
  { intros j z H Hz. apply mult_zero; auto. now apply count_value. }
  assert (F0 : few 0) by (unfold few; cbn; lia).
  assert (Fd : forall j, few (S j) -> few j) by (intros j; unfold few; lia).
  constructor; cbn [fadd fsub fmul fdiv f_of_nat f0 O f64_ops]; intros; apply zeros_same; auto 6 using plus_zeros, minus_zeros, div_zero; try (eexists; reflexivity).
  apply plus_zeros; auto. eexists; reflexivity.
Qed.

Lemma f64_answers p c a a' : result_rel (@ins O (mirror false) p c) a a' ->
  (a = Panic /\ a' = Panic) \/ exists q q' z, a = Ok q /\ a' = Ok (insert_at p z q') /\ Forall2 same_number q q' /\ same_number c z.
Proof.
  intros [H|(q & q' & E1 & E2 & H)]; [left; exact H|right].
  apply ins_insert in H as (l0 & z & -> & H1 & H2). exists q, l0, z. split; auto. split; auto. split; [|now apply same_mirror].
  eapply Forall2_impl; [|exact H1]. intros x y. apply same_mirror.
Qed.

Theorem f64_tree_zero nc nt p s (d : @dataset O) (cfg : @tree_config O) t t' :
  wf_dataset nc nt d -> (Z.of_nat (length (labels d)) <= 2 ^ 53)%Z -> (p <= nt)%nat -> standard cfg -> tc_number_of_classes cfg = N.of_nat nt ->
  regression_tree_new d cfg = Ok t -> regression_tree_new (with_constant_target p (B754_zero s : @F O) d) (one_more_target cfg) = Ok t' ->
  tree_map (fun _ => tt) t' = tree_map (fun _ => tt) t /\
  forall row, (tree_prediction row t = Panic /\ tree_prediction row t' = Panic) \/
    exists (q q' : list f64) (z : f64), tree_prediction row t = Ok q /\ tree_prediction row t' = Ok (insert_at p z q') /\
      Forall2 same_number q q' /\ same_number (B754_zero false) z.
Proof.
  intros W Hn Hp St Hc E E'.
  destruct (tree_ins (O:=O) (f64_laws P) (mirror false) (negation_preserved P false) few f64_countable f64_neutral p mirror_symm (B754_zero s) (f64_null s) nc nt d _ cfg t t' St Hc Hp Hn
    (inserted (O:=O) (mirror false) few f64_neutral p (B754_zero s : @F O) nc nt d Hp W) E E') as [A B].
  split; auto. intros row. apply f64_answers.
  destruct (B row) as [H|(q & q' & E1 & E2 & H)]; [now left|right]. exists q, q'. split; [exact E1|]. split; [exact E2|].
  eapply (ins_like (O:=O) (mirror false) few f64_neutral p mirror_symm); [|exact H]. reflexivity.
Qed.

Theorem f64_boost_zero nc nt p s (d : @dataset O) (cfg : @tree_config O) n (lr : f64) (m m' : @regression_boost_model O) :
  wf_dataset nc nt d -> (Z.of_nat (length (labels d)) <= 2 ^ 53)%Z -> (p <= nt)%nat -> standard cfg -> tc_number_of_classes cfg = N.of_nat nt ->
  is_finite lr = true ->
  regression_boost_train d cfg n (lr : @F O) = Ok m -> regression_boost_train (with_constant_target p (B754_zero s : @F O) d) (one_more_target cfg) n (lr : @F O) = Ok m' ->
  Forall2 (fun t t' => tree_map (fun _ => tt) t' = tree_map (fun _ => tt) t) (m_trees m) (m_trees m') /\
  forall row, (regression_boost_predict m row = Panic /\ regression_boost_predict m' row = Panic) \/
    exists (q q' : list f64) (z : f64), regression_boost_predict m row = Ok q /\ regression_boost_predict m' row = Ok (insert_at p z q') /\
      Forall2 same_number q q' /\ same_number (B754_zero false) z.
Proof.
  intros W Hn Hp St Hc Fl E E'.
  destruct (boost_ins (O:=O) (f64_laws P) (mirror false) (negation_preserved P false) few f64_countable f64_neutral p mirror_symm (B754_zero s) (f64_null s) (f64_null false) nc nt d _ cfg n lr m m' St Hc Hp Hn
    (inserted (O:=O) (mirror false) few f64_neutral p (B754_zero s : @F O) nc nt d Hp W)) as [A B]; auto.
  - apply zeros_same; [apply mult_zero; auto; eexists; reflexivity|eexists; reflexivity].
  - split; auto. intros row. apply f64_answers.
    destruct (B row) as [H|(q & q' & E1 & E2 & H)]; [now left|right]. exists q, q'. split; [exact E1|]. split; [exact E2|].
    eapply (ins_like (O:=O) (mirror false) few f64_neutral p mirror_symm); [|exact H]. reflexivity.
Qed.
End Binary64.
