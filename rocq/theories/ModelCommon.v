(** Model of the crate [common] (/repo/common/src). *)
From Coq Require Import String.
From Verif Require Import Base Num.

Section Common.
Context {O : NumOps}.

(** datasets.rs:3-6 *)
Record single_dataset := mkSingle { sd_features : list (list F); sd_labels : list F }.

(** datasets.rs:9-13 *)
Record dataset := mkDS {
  feature_rows : list (list F);
  labels : list (list F);
  feature_columns : list (list F) }.

(** datasets.rs:16-19. Label references are modelled by the (immutable) vectors they point to. *)
Record sorted_dataset := mkSDS {
  s_labels : list (list F);
  s_columns : list (list (F * nat)) }.

(** question.rs:4-12 *)
Record question := Question { q_column : N; q_value : F }.

(** question.rs:14-17: [row[self.column as usize] >= self.value] *)
Definition solve (q : question) (row : list F) : res bool :=
  v <- idxN row (q_column q);;
  Ok (fleb (q_value q) v).

(** results.rs:4-7 *)
Record best_threshold := mkBT { bt_loss : F; bt_threshold : F }.

(** results.rs:10-13 *)
Record best_split := mkBS { bs_gain : F; bs_question : question }.

(* ------------------------------------------------------------------ *)
(** ** numerical_calculations.rs *)

(** Shared shape of numerical_calculations.rs:1-17 and 57-73: length assertion, then zip/map/collect. *)
Definition zip_with (f : F -> F -> F) (first second : list F) : res (list F) :=
  if length first =? length second
  then Ok (map (fun p => f (fst p) (snd p)) (combine first second))
  else Panic.

(** numerical_calculations.rs:1-8 *)
Definition add_f64_slices_as_vector := zip_with fadd.
(** numerical_calculations.rs:10-17 *)
Definition subtract_f64_slices_as_vector := zip_with fsub.
(** numerical_calculations.rs:57-64 *)
Definition multiply_f64_slices_as_vector := zip_with fmul.
(** numerical_calculations.rs:66-73 *)
Definition divide_f64_slices_as_vector := zip_with fdiv.

(** numerical_calculations.rs:19-31 *)
Definition calculate_average_f64_vector (vv : list (list F)) : res (list F) :=
  first <- idx vv 0;;
  let inner := length first in
  avg <- for_range (length vv) (fun avg i =>
           for_range inner (fun avg j =>
             row <- idx vv i;;
             x <- idx row j;;
             a <- idx avg j;;
             upd avg j (fadd a x)) avg) (repeat f0 inner);;
  for_range inner (fun avg j =>
    a <- idx avg j;;
    upd avg j (fdiv a (f_of_nat (length vv)))) avg.

(** [Iterator::sum] for f64: a left fold from [fsum0] (core::iter::Sum). *)
Definition fsum (l : list F) : F := fold_left fadd l fsum0.

(** numerical_calculations.rs:33-46 *)
Definition mean_sum_of_squared_differences_between_f64_slices (first second : list F) : res F :=
  if length first =? length second
  then
    let squared_differences :=
      map (fun p => fsqr (fsub (fst p) (snd p))) (combine first second) in
    Ok (fdiv (fsum squared_differences) (f_of_nat (length first)))
  else Panic.

(** numerical_calculations.rs:48-55 *)
Definition sum_of_f64_vectors (vv : list (list F)) : res (list F) :=
  first <- idx vv 0;;
  foldM (fun sum_vector inner => add_f64_slices_as_vector sum_vector inner)
        vv (repeat f0 (length first)).

(** numerical_calculations.rs:75-77 *)
Definition multiply_f64_slice_by_f64_scalar (scalar : F) (v : list F) : list F :=
  map (fun element => fmul element scalar) v.

(* ------------------------------------------------------------------ *)
(** ** data_reader.rs *)

(** What the [csv] crate hands over for a readable file: the header record and, per data record,
    [Some fields] or [None] when it does not deserialize into [Vec<f64>] (the reader is the default,
    non-flexible one, so a record of another length than the header is also [None]).
    Simplification: tokenising and number parsing are not modelled. *)
Record csv_file := mkCsv { csv_header : list string; csv_records : list (option (list F)) }.

(** data_reader.rs:72-82. [None] as file: [File::open] fails, [expect] panics.
    Inner [None]: the [Err] returned through [result?]. *)
Definition read_data (file : option csv_file) : res (option (list (list F))) :=
  match file with
  | None => Panic
  | Some f =>
      Ok (fold_left (fun data r =>
            match data, r with
            | Some d, Some record => Some (d ++ [record])
            | _, _ => None
            end) (csv_records f) (Some []))
  end.

(** [Vec::pop]: remaining vector and popped element. *)
Definition vec_pop {A} (l : list A) : list A * option A :=
  match rev l with
  | [] => ([], None)
  | x :: r => (rev r, Some x)
  end.

(** data_reader.rs:84-94 *)
Definition parse_data_into_features_and_labels (data_set : list (list F)) : res single_dataset :=
  s <- foldM (fun acc row =>
         let '(copy, popped) := vec_pop row in
         label <- unwrap popped;;
         Ok (fst acc ++ [copy], snd acc ++ [label])) data_set ([], []);;
  Ok (mkSingle (fst s) (snd s)).

(** data_reader.rs:96-104 *)
Definition create_multi_target_labels (lbls : list F) (number_of_targets : nat) : res (list (list F)) :=
  foldM (fun acc label =>
    mt <- updN (repeat f0 number_of_targets) (f_to_usize label) f1;;
    Ok (acc ++ [mt])) lbls [].

(** data_reader.rs:106-116 (and the identical loop at 22-29) *)
Definition create_feature_columns (rows : list (list F)) : res (list (list F)) :=
  first <- idx rows 0;;
  for_range (length first) (fun columns col =>
    column <- for_range (length rows) (fun column row =>
      r <- idx rows row;;
      x <- idx r col;;
      Ok (column ++ [x])) [];;
    Ok (columns ++ [column])) [].

(** data_reader.rs:9-12 *)
Definition read_csv_data (file : option csv_file) : res single_dataset :=
  r <- read_data file;;
  data_set_read <- unwrap r;;
  parse_data_into_features_and_labels data_set_read.

(** data_reader.rs:14-36 *)
Definition read_csv_data_one_hot_multi_target (file : option csv_file) (number_of_targets : nat)
  : res dataset :=
  r <- read_data file;;
  data_set_read <- unwrap r;;
  ds <- parse_data_into_features_and_labels data_set_read;;
  multi_target_labels <- create_multi_target_labels (sd_labels ds) number_of_targets;;
  columns <- create_feature_columns (sd_features ds);;
  Ok (mkDS (sd_features ds) multi_target_labels columns).

(** data_reader.rs:38-52 *)
Definition read_csv_data_multi_target (file_features file_labels : option csv_file) : res dataset :=
  rf <- read_data file_features;;
  data_set_features <- unwrap rf;;
  rl <- read_data file_labels;;
  data_set_labels <- unwrap rl;;
  columns <- create_feature_columns data_set_features;;
  Ok (mkDS data_set_features data_set_labels columns).

(** data_reader.rs:54-69 *)
Definition get_feature_names (file : option csv_file) : res (list string) :=
  f <- unwrap file;;
  for_range (length (csv_header f)) (fun names i =>
    name <- idx (csv_header f) i;;
    Ok (names ++ [name])) [].

(* ------------------------------------------------------------------ *)
(** ** feature_sorter.rs *)

(** [f64::partial_cmp] *)
Definition f_partial_cmp (x y : F) : option comparison :=
  match fleb x y, fleb y x with
  | true, true => Some Eq
  | true, false => Some Lt
  | false, true => Some Gt
  | false, false => None
  end.

(** [partial_cmp] on the tuple [(f64, usize)]: lexicographic. *)
Definition pair_partial_cmp (a b : F * nat) : option comparison :=
  match f_partial_cmp (fst a) (fst b) with
  | Some Eq => Some (Nat.compare (snd a) (snd b))
  | c => c
  end.

(** Stable insertion with the comparator [|a, b| a.partial_cmp(&b).unwrap()]. *)
Fixpoint insert_sorted (x : F * nat) (l : list (F * nat)) : res (list (F * nat)) :=
  match l with
  | [] => Ok [x]
  | y :: t =>
      match pair_partial_cmp x y with
      | None => Panic
      | Some Gt => t' <- insert_sorted x t;; Ok (y :: t')
      | Some _ => Ok (x :: y :: t)
      end
  end.

(** [slice::sort_by] with that comparator. Simplification: the standard library's merge sort is
    replaced by insertion sort; theorem C04 shows the sorted result is unique and that the call
    panics exactly when a NaN must be compared, so any stable comparison sort gives the same result. *)
Fixpoint sort_pairs (l : list (F * nat)) : res (list (F * nat)) :=
  match l with
  | [] => Ok []
  | x :: t => t' <- sort_pairs t;; insert_sorted x t'
  end.

(** feature_sorter.rs:1-8 *)
Definition get_sorted_feature_tuple_vector (feature_column : list F) : res (list (F * nat)) :=
  let feature_tuple_vector :=
    fold_left (fun v p => v ++ [(snd p, fst p)]) (enumerate feature_column) [] in
  sort_pairs feature_tuple_vector.

(* ------------------------------------------------------------------ *)
(** ** data_processor.rs *)

(** data_processor.rs:7-24 *)
Definition create_dataset_with_sorted_features (d : dataset) : res sorted_dataset :=
  sorted_feature_columns <- foldM (fun acc feature_column =>
    sorted_feature_col <- get_sorted_feature_tuple_vector feature_column;;
    Ok (acc ++ [sorted_feature_col])) (feature_columns d) [];;
  let label_refs := fold_left (fun acc label => acc ++ [label]) (labels d) [] in
  Ok (mkSDS label_refs sorted_feature_columns).

(** First loop of data_processor.rs:71-81: marks the indices before the first value [>= split_value];
    yields [first_encounter_index], which stays 0 when no value reaches the threshold. *)
Fixpoint mark_false_until (split_value : F) (col : list (F * nat)) (i : nat) (false_indices : list nat)
  : res (list nat * nat) :=
  match col with
  | [] => Ok (false_indices, 0)
  | (value, index) :: rest =>
      if fleb split_value value then Ok (false_indices, i)
      else fi <- upd false_indices index 1;;
           mark_false_until split_value rest (S i) fi
  end.

(** data_processor.rs:61-88. The [u8] marks 0/1 are modelled by [nat]. *)
Definition collect_indices_for_partitioning (d : sorted_dataset) (split_column : nat)
    (split_value : F) (all_labels_size : nat) : res (list nat * list nat) :=
  col <- idx (s_columns d) split_column;;
  '(false_indices, first_encounter_index) <-
     mark_false_until split_value col 0 (repeat 0 all_labels_size);;
  true_indices <- foldM (fun ti i =>
      p <- idx col i;;
      upd ti (snd p) 1)
    (seq first_encounter_index (length col - first_encounter_index)) (repeat 0 all_labels_size);;
  Ok (true_indices, false_indices).

(** data_processor.rs:90-105 *)
Definition collect_partitioned_labels (true_indices false_indices : list nat)
    (all_labels : list (list F)) : res (list (list F) * list (list F)) :=
  for_range (length all_labels) (fun acc i =>
    t <- idx true_indices i;;
    if t =? 1 then
      l <- idx all_labels i;; Ok (fst acc ++ [l], snd acc)
    else
      f <- idx false_indices i;;
      if f =? 1 then
        l <- idx all_labels i;; Ok (fst acc, snd acc ++ [l])
      else Ok acc) ([], []).

(** Body of the closure at data_processor.rs:121-134 *)
Definition partition_feature_column (true_indices : list nat) (col : list (F * nat))
  : res (list (F * nat) * list (F * nat)) :=
  foldM (fun acc p =>
    t <- idx true_indices (snd p);;
    if t =? 1 then Ok (fst acc ++ [p], snd acc)
    else Ok (fst acc, snd acc ++ [p])) col ([], []).

(** data_processor.rs:107-153; the rayon [par_iter().map().collect()] is [mapM] here, see ModelPar.v
    for its schedules; collecting into a pair of vectors is [split]. *)
Definition collect_partitioned_feature_columns (d : sorted_dataset) (true_indices : list nat)
  : res (list (list (F * nat)) * list (list (F * nat))) :=
  pairs <- mapM (partition_feature_column true_indices) (s_columns d);;
  Ok (split pairs).

(** data_processor.rs:26-59 *)
Definition new_partition (d : sorted_dataset) (split_column : nat) (split_value : F)
    (all_labels : list (list F)) : res (sorted_dataset * sorted_dataset) :=
  '(true_indices, false_indices) <-
     collect_indices_for_partitioning d split_column split_value (length all_labels);;
  '(true_labels, false_labels) <-
     collect_partitioned_labels true_indices false_indices all_labels;;
  '(true_columns, false_columns) <- collect_partitioned_feature_columns d true_indices;;
  Ok (mkSDS true_labels true_columns, mkSDS false_labels false_columns).

End Common.
