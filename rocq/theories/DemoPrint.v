(** A concrete readable formatting of binary64, for the examples about printing. Not used by any theorem. *)
From Coq Require Import String Ascii.
From Flocq Require Import IEEE754.BinarySingleNaN.
From Verif Require Import Base Num ModelCommon ModelTree ModelPrint SpecPrint F64 Decide Demo ProofPrint.
Local Open Scope string_scope.

(** Binary digits, least significant first; the leading 1 is the final "I". *)
Fixpoint show_pos (p : positive) : string :=
  match p with xH => "I" | xO p => String "0" (show_pos p) | xI p => String "1" (show_pos p) end.
Definition show_Z (z : Z) : string :=
  match z with Z0 => "0" | Zpos p => String "+" (show_pos p) | Zneg p => String "-" (show_pos p) end.
Definition show_sign (s : bool) : string := if s then "-" else "+".
Definition show_f64 (x : f64) : string :=
  match x with
  | B754_zero s => "z" ++ show_sign s
  | B754_infinity s => "i" ++ show_sign s
  | B754_nan => "n"
  | B754_finite s m e _ => show_sign s ++ show_pos m ++ show_Z e
  end.
(** Texts in quotation marks. *)
Definition quote (s : string) : string := String """" (s ++ """").

Definition bit_formats (P : platform) : @formats (f64_ops P) := @mkFormats (f64_ops P) show_f64 show_f64 quote.

Lemma show_pos_inj p : forall q r r', (show_pos p ++ r = show_pos q ++ r')%string -> p = q /\ r = r'.
Proof.
  induction p as [p IH|p IH|]; intros [q|q|] r r' E; simpl in E; try discriminate E; inversion E as [E'].
  - now apply IH in E' as [-> ->].
  - now apply IH in E' as [-> ->].
  - auto.
Qed.
Lemma show_Z_inj y z : show_Z y = show_Z z -> y = z.
Proof.
  destruct y as [|p|p], z as [|q|q]; simpl; intros E; try discriminate E; auto; inversion E as [E'];
    assert (E2 : (show_pos p ++ "" = show_pos q ++ "")%string) by now rewrite E'.
  - now apply show_pos_inj in E2 as [-> _].
  - now apply show_pos_inj in E2 as [-> _].
Qed.
Lemma show_sign_inj s t r r' : (show_sign s ++ r = show_sign t ++ r')%string -> s = t /\ r = r'.
Proof. destruct s, t; simpl; intros E; inversion E; auto. Qed.

Lemma show_f64_inj x y : show_f64 x = show_f64 y -> x = y.
Proof.
  destruct x as [s|s| |s m e Hx], y as [t|t| |t n f Hy]; simpl; intros E; try discriminate E; auto;
    try (destruct s; discriminate E); try (destruct t; discriminate E); try (destruct s, t; inversion E; reflexivity).
  apply show_sign_inj in E as [-> E]. apply show_pos_inj in E as [-> E]. apply show_Z_inj in E as ->.
  apply f64_beq_ok. simpl. now rewrite Bool.eqb_reflx, Pos.eqb_refl, Z.eqb_refl.
Qed.

Definition digit (c : ascii) : bool :=
  existsb (Ascii.eqb c) ["0"; "1"; "I"; "+"; "-"; "z"; "i"; "n"]%char.
Definition digits (s : string) : bool := forallb digit (list_ascii_of_string s).
Lemma digits_app s t : digits (s ++ t) = (digits s && digits t)%bool.
Proof. unfold digits. now rewrite chars_app, forallb_app. Qed.
Lemma digits_pos p : digits (show_pos p) = true.
Proof. induction p; simpl; auto. Qed.
Lemma digits_f64 x : digits (show_f64 x) = true.
Proof.
  destruct x as [s|s| |s m e Hx]; cbn [show_f64]; try (now destruct s); auto. rewrite !digits_app, digits_pos.
  destruct s, e as [|p|p]; auto; exact (digits_pos p).
Qed.
Lemma lacks_f64 c x : digit c = false -> lacks c (show_f64 x).
Proof.
  intros Hc H. pose proof (digits_f64 x) as D. unfold digits in D. rewrite forallb_forall in D. apply D in H. congruence.
Qed.

Theorem bit_formats_readable P : @readable_formats (f64_ops P) (bit_formats P).
Proof.
  constructor; simpl.
  - exact show_f64_inj.
  - intros x. now apply lacks_f64.
  - exact show_f64_inj.
  - intros x. destruct x as [s|s| |s m e Hx]; simpl; try discriminate; destruct s; discriminate.
  - intros x. now apply lacks_f64.
  - intros x. now apply lacks_f64.
  - unfold quote. intros s s' E. inversion E as [E']. apply (f_equal list_ascii_of_string) in E'. rewrite !chars_app in E'.
    apply app_inv_tail in E'. now apply chars_inj.
  - unfold quote. eauto.
Qed.

(** Eleven rows with one feature and ten targets, as a data set and as the four files the main program reads. *)
Definition eleven_rows : list (list f64) := map (fun k => [n64 (Z.of_nat k)]) (seq 1 11).
Definition eleven_labels : list (list f64) := map (fun k => map (fun j => n64 (Z.of_nat (k * j))) (seq 0 10)) (seq 1 11).
Definition eleven : @dataset (f64_ops taylor_platform) :=
  @mkDS (f64_ops taylor_platform) eleven_rows eleven_labels [map (fun k => n64 (Z.of_nat k)) (seq 1 11)].
Definition demo_files (path : string) : option (@csv_file (f64_ops taylor_platform)) :=
  if existsb (String.eqb path)
       ["./common/data-files/multi-target/features_train_mt.csv"; "./common/data-files/multi-target/features_test_mt.csv"]
  then Some (@mkCsv (f64_ops taylor_platform) ["x"] (map Some eleven_rows))
  else Some (@mkCsv (f64_ops taylor_platform) ["y"] (map Some eleven_labels)).
