(** Model of printing: [Question::to_string], tree/tree_print.rs, the derived [Debug] of data sets, and
    main/src/main.rs. *)
From Coq Require Import String Ascii.
From Verif Require Import Base Num ModelCommon ModelTree ModelBoost.
Local Open Scope string_scope.
Local Open Scope list_scope.

Section Print.
Context {O : NumOps}.

(** The standard library's formatting of the two primitive types that occur: [{}] and [{:?}] of [f64], [{:?}] of [str]. *)
Record formats := mkFormats {
  display_f64 : F -> string;
  debug_f64 : F -> string;
  debug_str : string -> string }.

(** A call that prints: the lines written so far (one per [println!]) and its outcome. After a panic the
    lines written before it remain. *)
Definition printing (A : Type) : Type := list string * res A.
Definition println (line : string) : printing unit := ([line], Ok tt).
Definition without_output {A} (r : res A) : printing A := ([], r).
Definition and_then {A B} (m : printing A) (f : A -> printing B) : printing B :=
  match snd m with
  | Ok a => (fst m ++ fst (f a), snd (f a))
  | Panic => (fst m, Panic)
  | OutOfFuel => (fst m, OutOfFuel)
  end.
Notation "x <~ m ;; f" := (and_then m (fun x => f)) (at level 61, m at next level, right associativity).

Context (fmt : formats).

(** The derived/library [Debug] of [Vec]: [[a, b, c]] *)
Fixpoint debug_items {A} (debug : A -> string) (l : list A) : string :=
  match l with
  | [] => ""
  | [x] => debug x
  | x :: t => debug x ++ ", " ++ debug_items debug t
  end%string.
Definition debug_vec {A} (debug : A -> string) (l : list A) : string :=
  ("[" ++ debug_items debug l ++ "]")%string.

(** [Debug] of [Option] *)
Definition debug_option {A} (debug : A -> string) (o : option A) : string :=
  match o with Some x => ("Some(" ++ debug x ++ ")")%string | None => "None" end.

(** datasets.rs:8 ([#[derive(Debug)]]), fields in declaration order 10-12 *)
Definition debug_dataset (d : dataset) : string :=
  ("MultiTargetDataSet { feature_rows: " ++ debug_vec (debug_vec (debug_f64 fmt)) (feature_rows d) ++
   ", labels: " ++ debug_vec (debug_vec (debug_f64 fmt)) (labels d) ++
   ", feature_columns: " ++ debug_vec (debug_vec (debug_f64 fmt)) (feature_columns d) ++ " }")%string.

(** question.rs:19-21 *)
Definition question_to_string (q : question) (feature_name : string) : string :=
  ("Is " ++ feature_name ++ " >= " ++ display_f64 fmt (q_value q))%string.

(** tree_print.rs:3-35 *)
Fixpoint print_tree_regression (root : tree_node regression_leaf) (spacing : string) (feature_names : list string)
  : printing unit :=
  match root with
  | TreeNode _ q true_branch false_branch leaf =>
      match leaf with
      | Some leaf_ref =>
          println (spacing ++ " Predict:" ++ debug_option debug_dataset (rl_data leaf_ref))%string
      | None =>
          name <~ without_output (idxN feature_names (q_column q));;
          _ <~ println (spacing ++ " " ++ debug_str fmt (question_to_string q name))%string;;
          _ <~ println (spacing ++ "--> True: ")%string;;
          _ <~ match true_branch with
               | Some t => print_tree_regression t (spacing ++ "    ")%string feature_names
               | None => without_output Panic
               end;;
          _ <~ println (spacing ++ "--> False: ")%string;;
          match false_branch with
          | Some f => print_tree_regression f (spacing ++ "    ")%string feature_names
          | None => without_output Panic
          end
      end
  end.

(* ------------------------------------------------------------------ *)
(** ** main/src/main.rs *)

(** main.rs:22-27 *)
Definition main_tree_config : tree_config := mkTC (split_finder_new Variance) true 10 3.

(** main.rs:13-46. [files path] is what the file at [path] holds ([None]: it cannot be opened); [elapsed] is the
    text of the measured time, [rate] the literal [0.1] and [square_root] is [f64::sqrt]. The parallel constructs inside
    [train] are replaced by their sequential meaning, which theorem C45 justifies. *)
Definition main_program (files : string -> option csv_file) (elapsed : string) (rate : F) (square_root : F -> F)
  : printing unit :=
  true_data <~ without_output (read_csv_data_multi_target
                 (files "./common/data-files/multi-target/features_train_mt.csv")
                 (files "./common/data-files/multi-target/labels_train_mt.csv"));;
  label <~ without_output (idx (labels true_data) 10);;
  _ <~ println (debug_vec (debug_f64 fmt) label);;
  grad_boost_ensemble <~ without_output (regression_boost_train true_data main_tree_config 300 rate);;
  _ <~ println ("Elapsed time: " ++ elapsed)%string;;
  test_set <~ without_output (read_csv_data_multi_target
                (files "./common/data-files/multi-target/features_test_mt.csv")
                (files "./common/data-files/multi-target/labels_test_mt.csv"));;
  mean_squared_error <~ without_output (regression_boost_score grad_boost_ensemble test_set);;
  let root_mean_squared_error := square_root mean_squared_error in
  _ <~ println (debug_f64 fmt mean_squared_error);;
  _ <~ println (debug_f64 fmt root_mean_squared_error);;
  row <~ without_output (idx (feature_rows test_set) 0);;
  prediction <~ without_output (regression_boost_predict grad_boost_ensemble row);;
  label <~ without_output (idx (labels test_set) 0);;
  _ <~ println (debug_vec (debug_f64 fmt) label);;
  println (debug_vec (debug_f64 fmt) prediction).

End Print.
