(** Properties C54 and C55: printed trees and the main program, in binary64 arithmetic on every platform. *)
From Coq Require Import String.
From Flocq Require Import IEEE754.BinarySingleNaN.
From Verif Require Import Base Num ModelCommon ModelTree ModelBoost ModelPrint Spec SpecTree SpecScore SpecPrint F64 ModelMain ProofPrint
  Decide Check Demo DemoPrint.
Local Open Scope list_scope.
Local Open Scope nat_scope.

(* ------------------------------------------------------------------ *)
(** ** C54 *)

Theorem C54_prints_every_node (P : platform) (fmt : formats) (nc nt : nat) (d : dataset) (cfg : tree_config)
    (t : tree_node regression_leaf) (names : list string) :
  wf_dataset nc nt d -> regression_tree_new d cfg = Ok t -> nc <= length names ->
  exists lines, print_tree_regression fmt t "" names = (lines, Ok tt) /\ length lines = 4 * length (leaves t) - 3.
Proof. exact (print_built fmt nc nt d cfg t names). Qed.
Print Assumptions C54_prints_every_node.

Theorem C54_lines_of_a_node (P : platform) (fmt : formats) (names : list string) (d : dataset) (cfg : tree_config)
    (t n : tree_node regression_leaf) (way : list bool) (lines : list string) :
  regression_tree_new d cfg = Ok t -> print_tree_regression fmt t "" names = (lines, Ok tt) -> node_at way t = Some n ->
  match n with
  | TreeNode _ _ _ _ (Some l) =>
      exists before after,
        lines = before ++ (blanks (4 * length way) ++ " Predict:" ++ debug_option (debug_dataset fmt) (rl_data l))%string :: after
  | TreeNode _ q _ _ None =>
      exists name before under_true under_false after,
        nth_error names (N.to_nat (q_column q)) = Some name /\
        lines = before ++ [(blanks (4 * length way) ++ " " ++ debug_str fmt ("Is " ++ name ++ " >= " ++ display_f64 fmt (q_value q)))%string;
                           (blanks (4 * length way) ++ "--> True: ")%string] ++ under_true ++
                [(blanks (4 * length way) ++ "--> False: ")%string] ++ under_false ++ after /\
        (forall m, node_at (way ++ [true]) t = Some m ->
           print_tree_regression fmt m (blanks (4 * S (length way))) names = (under_true, Ok tt)) /\
        (forall m, node_at (way ++ [false]) t = Some m ->
           print_tree_regression fmt m (blanks (4 * S (length way))) names = (under_false, Ok tt))
  end.
Proof. exact (print_built_lines fmt names d cfg t way n lines). Qed.
Print Assumptions C54_lines_of_a_node.

Theorem C54_panics_exactly (P : platform) (fmt : formats) (d : dataset) (cfg : tree_config)
    (t : tree_node regression_leaf) (names : list string) :
  regression_tree_new d cfg = Ok t ->
  (snd (print_tree_regression fmt t "" names) = Panic <-> asks_beyond (length names) t) /\
  snd (print_tree_regression fmt t "" names) <> OutOfFuel.
Proof. exact (print_panics_exactly fmt d cfg t names). Qed.
Print Assumptions C54_panics_exactly.

Theorem C54_printed_before_a_panic (P : platform) (fmt : formats) (d : dataset) (cfg : tree_config)
    (t : tree_node regression_leaf) (names more : list string) (all : list string) :
  regression_tree_new d cfg = Ok t ->
  print_tree_regression fmt t "" (names ++ more) = (all, Ok tt) -> asks_beyond (length names) t ->
  exists lines level q name rest,
    print_tree_regression fmt t "" names = (lines, Panic) /\
    length names <= N.to_nat (q_column q) /\ nth_error (names ++ more) (N.to_nat (q_column q)) = Some name /\
    all = lines ++ (blanks level ++ " " ++ debug_str fmt ("Is " ++ name ++ " >= " ++ display_f64 fmt (q_value q)))%string :: rest.
Proof. exact (print_before_panic fmt d cfg t names more all). Qed.
Print Assumptions C54_printed_before_a_panic.

Theorem C54_text_determines_the_tree (P : platform) (fmt : formats) (d d' : dataset) (cfg cfg' : tree_config)
    (t t' : tree_node regression_leaf) (names : list string) (lines : list string) :
  readable_formats fmt -> NoDup names ->
  regression_tree_new d cfg = Ok t -> regression_tree_new d' cfg' = Ok t' ->
  print_tree_regression fmt t "" names = (lines, Ok tt) -> print_tree_regression fmt t' "" names = (lines, Ok tt) ->
  same_tree t t' /\
  forall row, path row t = path row t' /\ find_leaf_node_for_data row t = find_leaf_node_for_data row t'.
Proof.
  exact (fun R N E E' H H' => let S := print_faithful fmt d d' cfg cfg' t t' names lines R N E E' H H' in
         conj S (fun row => same_tree_same_lookup t t' row S)).
Qed.
Print Assumptions C54_text_determines_the_tree.

Example C54_example :
  let O := f64_ops taylor_platform in
  let fmt := bit_formats taylor_platform in
  readable_formats fmt /\ wf_dataset 1 2 four /\
  (t <- regression_tree_new four (four_cfg 1 false);;
   _ <- snd (print_tree_regression fmt t "" ["width"%string]);;
   Ok (map (fun s => list_ascii_of_string (substring 0 14 s)) (fst (print_tree_regression fmt t "" ["width"%string])),
       length (leaves t))) =
  Ok (map list_ascii_of_string
       [" ""Is width >= "; "--> True: "; "     Predict:S"; "--> False: "; "     Predict:S"]%string, 2) /\
  (t <- regression_tree_new four (four_cfg 1 false);; snd (print_tree_regression fmt t "" [])) = Panic.
Proof.
  split; [exact (bit_formats_readable taylor_platform)|]. split; [check_wf|]. split; vm_compute; reflexivity.
Qed.

(* ------------------------------------------------------------------ *)
(** ** C55 *)

Theorem C55_main_reports_the_test_error (P : platform) (fmt : formats) (files : string -> option csv_file) (elapsed : string)
    (nc : nat) (d test : dataset) :
  read_csv_data_multi_target (files "./common/data-files/multi-target/features_train_mt.csv"%string)
                             (files "./common/data-files/multi-target/labels_train_mt.csv"%string) = Ok d ->
  read_csv_data_multi_target (files "./common/data-files/multi-target/features_test_mt.csv"%string)
                             (files "./common/data-files/multi-target/labels_test_mt.csv"%string) = Ok test ->
  wf_dataset nc 10 d -> 10 < length (labels d) ->
  Forall (fun row => nc <= length row) (feature_rows test) -> rectangular 10 (labels test) ->
  labels test <> [] -> length (labels test) <= length (feature_rows test) ->
  exists eleventh_label model predictions first_label first_prediction,
    nth_error (labels d) 10 = Some eleventh_label /\
    regression_boost_train d (mkTC (split_finder_new Variance) true 10 3) 300 tenth = Ok model /\
    Forall2 (fun row p => regression_boost_predict model row = Ok p) (feature_rows test) predictions /\
    nth_error (labels test) 0 = Some first_label /\ nth_error predictions 0 = Some first_prediction /\
    let mse := mean_squared_error_of fsum0 (combine (labels test) predictions) in
    main_program fmt files elapsed tenth sqrt64 =
      ([debug_vec (debug_f64 fmt) eleventh_label; ("Elapsed time: " ++ elapsed)%string; debug_f64 fmt mse;
        debug_f64 fmt (sqrt64 mse); debug_vec (debug_f64 fmt) first_label; debug_vec (debug_f64 fmt) first_prediction], Ok tt).
Proof. exact (main_runs (f64_laws P) fmt files elapsed tenth sqrt64 nc d test). Qed.
Print Assumptions C55_main_reports_the_test_error.

Theorem C55_missing_training_data (P : platform) (fmt : formats) (files : string -> option csv_file) (elapsed : string) :
  files "./common/data-files/multi-target/features_train_mt.csv"%string = None \/
  files "./common/data-files/multi-target/labels_train_mt.csv"%string = None ->
  main_program fmt files elapsed tenth sqrt64 = ([], Panic).
Proof. exact (main_missing_training_data fmt files elapsed tenth sqrt64). Qed.
Print Assumptions C55_missing_training_data.

Theorem C55_too_few_training_labels (P : platform) (fmt : formats) (files : string -> option csv_file) (elapsed : string) (d : dataset) :
  read_csv_data_multi_target (files "./common/data-files/multi-target/features_train_mt.csv"%string)
                             (files "./common/data-files/multi-target/labels_train_mt.csv"%string) = Ok d ->
  length (labels d) <= 10 ->
  main_program fmt files elapsed tenth sqrt64 = ([], Panic).
Proof. exact (main_short_training_data fmt files elapsed tenth sqrt64 d). Qed.
Print Assumptions C55_too_few_training_labels.

Theorem C55_missing_test_data (P : platform) (fmt : formats) (files : string -> option csv_file) (elapsed : string)
    (nc : nat) (d : dataset) :
  read_csv_data_multi_target (files "./common/data-files/multi-target/features_train_mt.csv"%string)
                             (files "./common/data-files/multi-target/labels_train_mt.csv"%string) = Ok d ->
  wf_dataset nc 10 d -> 10 < length (labels d) ->
  files "./common/data-files/multi-target/features_test_mt.csv"%string = None \/
  files "./common/data-files/multi-target/labels_test_mt.csv"%string = None ->
  exists eleventh_label, nth_error (labels d) 10 = Some eleventh_label /\
    main_program fmt files elapsed tenth sqrt64 =
      ([debug_vec (debug_f64 fmt) eleventh_label; ("Elapsed time: " ++ elapsed)%string], Panic).
Proof. exact (main_missing_test_data (f64_laws P) fmt files elapsed tenth sqrt64 nc d). Qed.
Print Assumptions C55_missing_test_data.

Example C55_example :
  let O := f64_ops taylor_platform in
  read_csv_data_multi_target (demo_files "./common/data-files/multi-target/features_train_mt.csv")
                             (demo_files "./common/data-files/multi-target/labels_train_mt.csv") = Ok eleven /\
  wf_dataset 1 10 eleven /\ 10 < length (labels eleven) /\
  Forall (fun row => 1 <= length row) (feature_rows eleven) /\ rectangular 10 (labels eleven) /\
  labels eleven <> [] /\ length (labels eleven) <= length (feature_rows eleven).
Proof.
  split; [compute_eq|]. split; [check_wf|]. split; [exact (le_n 11)|].
  split; [repeat constructor|]. split; [repeat constructor|]. split; [discriminate|repeat constructor].
Qed.
