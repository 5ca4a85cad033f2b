(** Properties C01-C08 and C50: data handling, in binary64 arithmetic on every platform. *)
From Coq Require Import Permutation Sorted Reals.
From Flocq Require Import IEEE754.BinarySingleNaN.
From Verif Require Import Base Num ModelCommon ModelTree Spec F64 ProofData ProofSort ProofCsv Decide.
Local Open Scope nat_scope.

Definition z (n : Z) : f64 := f64_of_Z n.
Definition NaN : f64 := B754_nan.

(* ------------------------------------------------------------------ *)
(** ** C01 *)

Theorem C01_columns_are_the_transpose (P : platform) (rows cols : list (list F)) :
  create_feature_columns rows = Ok cols <->
  exists first, nth_error rows 0 = Some first /\
    Forall (fun r => length first <= length r) rows /\
    is_transpose (length first) rows cols.
Proof. exact (create_feature_columns_Ok rows cols). Qed.
Print Assumptions C01_columns_are_the_transpose.

Theorem C01_panics_exactly (P : platform) (rows : list (list F)) :
  create_feature_columns rows = Panic <->
  rows = [] \/ exists first rest r, rows = first :: rest /\ In r rest /\ length r < length first.
Proof. exact (create_feature_columns_Panic rows). Qed.
Print Assumptions C01_panics_exactly.

Theorem C01_no_other_outcome (P : platform) (rows : list (list F)) :
  create_feature_columns rows <> OutOfFuel.
Proof. exact (create_feature_columns_fuel rows). Qed.
Print Assumptions C01_no_other_outcome.

Example C01_example :
  create_feature_columns (O := f64_ops demo_platform) [[z 1; z 2]; [z 3; z 4; z 9]; [z 5; NaN]]
  = Ok [[z 1; z 3; z 5]; [z 2; z 4; NaN]]
  /\ create_feature_columns (O := f64_ops demo_platform) [[z 1; z 2]; [z 3]] = Panic.
Proof. compute_eqs. Qed.

(* ------------------------------------------------------------------ *)
(** ** C02 *)

Theorem C02_one_hot (P : platform) (lbls : list F) (k : nat) (r : list (list F)) :
  create_multi_target_labels lbls k = Ok r <->
  Forall2 (fun label v => one_hot k (f_to_usize label) v) lbls r.
Proof. exact (create_multi_target_labels_Ok lbls k r). Qed.
Print Assumptions C02_one_hot.

Theorem C02_panics_exactly (P : platform) (lbls : list F) (k : nat) :
  create_multi_target_labels lbls k = Panic <->
  exists label, In label lbls /\ (N.of_nat k <= f_to_usize label)%N.
Proof. exact (create_multi_target_labels_Panic lbls k). Qed.
Print Assumptions C02_panics_exactly.

(** The cast: truncation toward zero, saturating; negative and NaN give class 0. *)
Theorem C02_cast_truncates (P : platform) (x : F) :
  (is_nan x = true -> f_to_usize x = 0%N) /\
  (x = B754_infinity true -> f_to_usize x = 0%N) /\
  (x = B754_infinity false -> f_to_usize x = (2 ^ 64 - 1)%N) /\
  (is_finite x = true -> (B2R x < 1)%R -> f_to_usize x = 0%N) /\
  (is_finite x = true -> (0 <= B2R x < IZR (2 ^ 64))%R ->
     (IZR (Z.of_N (f_to_usize x)) <= B2R x < IZR (Z.of_N (f_to_usize x)) + 1)%R) /\
  (is_finite x = true -> (IZR (2 ^ 64) <= B2R x)%R -> f_to_usize x = (2 ^ 64 - 1)%N).
Proof. exact (f64_to_usize_spec x). Qed.
Print Assumptions C02_cast_truncates.

Example C02_example :
  create_multi_target_labels (O := f64_ops demo_platform)
    [z 2; Bdiv mode_NE (z 3) (z 2); NaN; z (-7)] 3
  = Ok [[z 0; z 0; z 1]; [z 0; z 1; z 0]; [z 1; z 0; z 0]; [z 1; z 0; z 0]]
  /\ create_multi_target_labels (O := f64_ops demo_platform) [z 3] 3 = Panic.
Proof. compute_eqs. Qed.

(* ------------------------------------------------------------------ *)
(** ** C03 *)

Theorem C03_one_hot_file_keeps_records (P : platform) (f : csv_file) (k : nat) (d : dataset) :
  read_csv_data_one_hot_multi_target (Some f) k = Ok d ->
  exists recs, csv_records f = map Some recs /\
    length (feature_rows d) = length recs /\ length (labels d) = length recs /\
    (forall i rec, nth_error recs i = Some rec ->
       exists row label v, rec = row ++ [label] /\ nth_error (feature_rows d) i = Some row /\
         nth_error (labels d) i = Some v /\ one_hot k (f_to_usize label) v) /\
    exists first, nth_error (feature_rows d) 0 = Some first /\
      is_transpose (length first) (feature_rows d) (feature_columns d).
Proof. exact (read_one_hot_records f k d). Qed.
Print Assumptions C03_one_hot_file_keeps_records.

Theorem C03_rectangular_file_is_well_formed (P : platform) (f : csv_file) (k nc : nat) (recs : list (list F)) :
  csv_records f = map Some recs -> recs <> [] -> rectangular (S nc) recs ->
  (forall row label, In (row ++ [label]) recs -> (f_to_usize label < N.of_nat k)%N) ->
  exists d, read_csv_data_one_hot_multi_target (Some f) k = Ok d /\
    feature_rows d <> [] /\ length (labels d) = length (feature_rows d) /\
    rectangular nc (feature_rows d) /\ rectangular k (labels d) /\
    is_transpose nc (feature_rows d) (feature_columns d).
Proof. exact (read_one_hot_wf f k nc recs). Qed.
Print Assumptions C03_rectangular_file_is_well_formed.

Theorem C03_one_hot_file_panics (P : platform) (file : option csv_file) (k : nat) :
  match file with
  | None => True
  | Some f => In None (csv_records f) \/ In (Some []) (csv_records f) \/ csv_records f = []
  end -> read_csv_data_one_hot_multi_target file k = Panic.
Proof. exact (read_one_hot_panics file k). Qed.
Print Assumptions C03_one_hot_file_panics.

Theorem C03_single_target_file (P : platform) (f : csv_file) (d : single_dataset) :
  read_csv_data (Some f) = Ok d <->
  exists recs, csv_records f = map Some recs /\
    length (sd_features d) = length recs /\ length (sd_labels d) = length recs /\
    forall i rec, nth_error recs i = Some rec ->
      exists row label, rec = row ++ [label] /\ nth_error (sd_features d) i = Some row /\
        nth_error (sd_labels d) i = Some label.
Proof. exact (read_single_records f d). Qed.
Print Assumptions C03_single_target_file.

Theorem C03_two_files (P : platform) (ff fl : csv_file) (d : dataset) :
  read_csv_data_multi_target (Some ff) (Some fl) = Ok d <->
  csv_records ff = map Some (feature_rows d) /\ csv_records fl = map Some (labels d) /\
  exists first, nth_error (feature_rows d) 0 = Some first /\
    Forall (fun r => length first <= length r) (feature_rows d) /\
    is_transpose (length first) (feature_rows d) (feature_columns d).
Proof. exact (read_two_files ff fl d). Qed.
Print Assumptions C03_two_files.

Theorem C03_two_files_panic (P : platform) (file_f file_l : option csv_file) :
  match file_f with None => True | Some f => In None (csv_records f) \/ csv_records f = [] end \/
  match file_l with None => True | Some f => In None (csv_records f) end ->
  read_csv_data_multi_target file_f file_l = Panic.
Proof. exact (read_two_files_panics file_f file_l). Qed.
Print Assumptions C03_two_files_panic.

Theorem C03_feature_names (P : platform) (file : option csv_file) :
  get_feature_names file = match file with Some f => Ok (csv_header f) | None => Panic end.
Proof. exact (get_feature_names_spec file). Qed.
Print Assumptions C03_feature_names.

Example C03_example :
  let O := f64_ops demo_platform in
  let f := @mkCsv O nil [Some [z 5; z 6; z 1]; Some [z 7; z 8; z 0]] in
  rectangular 3 [[z 5; z 6; z 1]; [z 7; z 8; z 0]] /\
  read_csv_data_one_hot_multi_target (Some f) 2
  = Ok (@mkDS O [[z 5; z 6]; [z 7; z 8]] [[z 0; z 1]; [z 1; z 0]] [[z 5; z 7]; [z 6; z 8]]).
Proof. split; [repeat constructor|compute_eq]. Qed.

(* ------------------------------------------------------------------ *)
(** ** C04 *)

Theorem C04_sorted_permutation (P : platform) (col : list F) (r : list (F * nat)) :
  get_sorted_feature_tuple_vector col = Ok r <->
  (length col <= 1 \/ Forall is_num col) /\ sorted_version col r.
Proof. exact (get_sorted_iff (f64_laws P) col r). Qed.
Print Assumptions C04_sorted_permutation.

Theorem C04_unique (P : platform) (col : list F) (a b : list (F * nat)) :
  sorted_version col a -> sorted_version col b -> a = b.
Proof. exact (sorted_version_unique (f64_laws P) col a b). Qed.
Print Assumptions C04_unique.

Theorem C04_panics_exactly (P : platform) (col : list F) :
  get_sorted_feature_tuple_vector col = Panic <->
  2 <= length col /\ Exists (fun x => ~ is_num x) col.
Proof. exact (get_sorted_Panic (f64_laws P) col). Qed.
Print Assumptions C04_panics_exactly.

Theorem C04_is_num_means_not_NaN (P : platform) (x : F) : is_num x <-> is_nan x = false.
Proof. exact (f64_is_num x). Qed.
Print Assumptions C04_is_num_means_not_NaN.

Example C04_example :
  let O := f64_ops demo_platform in
  get_sorted_feature_tuple_vector (O := O) [z 3; z 0; B754_infinity true; z 3; B754_zero true]
  = Ok [(B754_infinity true, 2); (z 0, 1); (B754_zero true, 4); (z 3, 0); (z 3, 3)]
  /\ get_sorted_feature_tuple_vector (O := O) [z 3; NaN] = Panic.
Proof. compute_eqs. Qed.

(* ------------------------------------------------------------------ *)
(** ** C05 *)

Theorem C05_same_data_sorted (P : platform) (d : dataset) (s : sorted_dataset) :
  create_dataset_with_sorted_features d = Ok s <->
  s_labels s = labels d /\
  Forall2 (fun col r => (length col <= 1 \/ Forall is_num col) /\ sorted_version col r)
    (feature_columns d) (s_columns s).
Proof. exact (create_dataset_with_sorted_features_Ok (f64_laws P) d s). Qed.
Print Assumptions C05_same_data_sorted.

Theorem C05_total (P : platform) (d : dataset) :
  Forall (Forall is_num) (feature_columns d) ->
  exists s, create_dataset_with_sorted_features d = Ok s.
Proof. exact (create_dataset_with_sorted_features_total (f64_laws P) d). Qed.
Print Assumptions C05_total.

(** No row lost, duplicated or re-indexed: the result is the sorted form of rows 0..n-1. *)
Theorem C05_row_indices (P : platform) (nc nt : nat) (d : dataset) (s : sorted_dataset) :
  wf_dataset nc nt d -> create_dataset_with_sorted_features d = Ok s ->
  node_data nc (feature_rows d) (labels d) (seq 0 (length (labels d))) s.
Proof. exact (sorted_root_node (f64_laws P) nc nt d s). Qed.
Print Assumptions C05_row_indices.

Definition small : @dataset (f64_ops demo_platform) :=
  @mkDS (f64_ops demo_platform)
    [[z 5; z 1]; [z 2; z 1]; [z 9; z 0]]
    [[z 1; z 0]; [z 0; z 1]; [z 1; z 0]]
    [[z 5; z 2; z 9]; [z 1; z 1; z 0]].

Example C05_example :
  create_dataset_with_sorted_features small
  = Ok (@mkSDS (f64_ops demo_platform) [[z 1; z 0]; [z 0; z 1]; [z 1; z 0]]
          [[(z 2, 1); (z 5, 0); (z 9, 2)]; [(z 0, 2); (z 1, 0); (z 1, 1)]]).
Proof. compute_eqs. Qed.

Example small_is_well_formed : wf_dataset 2 2 small.
Proof.
  constructor; try (repeat constructor; fail); try discriminate.
  - split; auto. intros [|[|[|j]]] col Hj; try discriminate; injection Hj as <-;
      (split; [reflexivity|]); intros [|[|[|[|i]]]] row Hi; try discriminate; injection Hi as <-;
      split; try reflexivity; repeat constructor.
Qed.

(* ------------------------------------------------------------------ *)
(** ** C06 *)

Theorem C06_partition_splits_by_the_question (P : platform) (nc : nat) (d : dataset) (q : question) :
  length (labels d) = length (feature_rows d) -> rectangular nc (feature_rows d) ->
  N.to_nat (q_column q) < nc ->
  filter (fun p => answers q (fst p)) (samples d) <> [] ->
  filter (fun p => negb (answers q (fst p))) (samples d) <> [] ->
  exists fd td, partition d q = Ok (fd, td) /\
    feature_rows td = map fst (filter (fun p => answers q (fst p)) (samples d)) /\
    labels td = map snd (filter (fun p => answers q (fst p)) (samples d)) /\
    is_transpose nc (feature_rows td) (feature_columns td) /\
    feature_rows fd = map fst (filter (fun p => negb (answers q (fst p))) (samples d)) /\
    labels fd = map snd (filter (fun p => negb (answers q (fst p))) (samples d)) /\
    is_transpose nc (feature_rows fd) (feature_columns fd).
Proof. exact (partition_Ok nc d q). Qed.
Print Assumptions C06_partition_splits_by_the_question.

Theorem C06_panics_exactly (P : platform) (nc : nat) (d : dataset) (q : question) :
  length (labels d) = length (feature_rows d) -> rectangular nc (feature_rows d) ->
  (partition d q = Panic <->
   (N.of_nat nc <= q_column q)%N \/
   filter (fun p => answers q (fst p)) (samples d) = [] \/
   filter (fun p => negb (answers q (fst p))) (samples d) = []).
Proof. exact (partition_Panic nc d q). Qed.
Print Assumptions C06_panics_exactly.

Example C06_example :
  let O := f64_ops demo_platform in
  let q := @Question O 0 (z 5) in
  filter (fun p => answers q (fst p)) (samples small) <> [] /\
  filter (fun p => negb (answers q (fst p))) (samples small) <> [] /\
  partition small q =
    Ok (@mkDS O [[z 2; z 1]] [[z 0; z 1]] [[z 2]; [z 1]],
        @mkDS O [[z 5; z 1]; [z 9; z 0]] [[z 1; z 0]; [z 1; z 0]] [[z 5; z 9]; [z 1; z 0]]) /\
  partition small (@Question O 0 (z 10)) = Panic.
Proof. split; [compute_nonempty|split; [compute_nonempty|compute_eqs]]. Qed.

(* ------------------------------------------------------------------ *)
(** ** C07 *)

Theorem C07_new_partition_splits_by_value (P : platform) (nc : nat) (rows all_labels : list (list F))
    (ids : list nat) (s : sorted_dataset) (c : nat) (v : F) :
  node_data nc rows all_labels ids s -> c < nc ->
  Exists (fun i => reaches rows c v i = true) ids ->
  exists t f, new_partition s c v all_labels = Ok (t, f) /\
    node_data nc rows all_labels (filter (reaches rows c v) ids) t /\
    node_data nc rows all_labels (filter (fun i => negb (reaches rows c v i)) ids) f.
Proof. exact (new_partition_node (f64_laws P) nc rows all_labels ids s c v). Qed.
Print Assumptions C07_new_partition_splits_by_value.

Example C07_example :
  let O := f64_ops demo_platform in
  Exists (fun i => reaches (feature_rows small) 0 (z 5) i = true) (seq 0 3) /\
  (s <- create_dataset_with_sorted_features small;; new_partition s 0 (z 5) (labels small)) =
      Ok (@mkSDS O [[z 1; z 0]; [z 1; z 0]] [[(z 5, 0); (z 9, 2)]; [(z 0, 2); (z 1, 0)]],
          @mkSDS O [[z 0; z 1]] [[(z 2, 1)]; [(z 1, 1)]]).
Proof. split; [left; reflexivity|compute_eq]. Qed.

(* ------------------------------------------------------------------ *)
(** ** C08 *)

(** The full property fails: no row reaches 10, yet all rows are returned as the true side. *)
Theorem C08_refuted :
  exists (P : platform) nc rows all_labels ids s c v t f,
    node_data nc rows all_labels ids s /\ c < nc /\
    new_partition s c v all_labels = Ok (t, f) /\
    ~ node_data nc rows all_labels (filter (reaches rows c v) ids) t.
Proof.
  set (s := @mkSDS (f64_ops demo_platform) [[z 1; z 0]; [z 0; z 1]; [z 1; z 0]]
          [[(z 2, 1); (z 5, 0); (z 9, 2)]; [(z 0, 2); (z 1, 0); (z 1, 1)]]).
  exists demo_platform, 2, (feature_rows small), (labels small), (seq 0 3), s, 0, (z 10), s,
    (@mkSDS (f64_ops demo_platform) [] [[]; []]).
  split; [exact (sorted_root_node (f64_laws demo_platform) 2 2 small s small_is_well_formed C05_example)|].
  split; [repeat constructor|]. split; [compute_eq|].
  intros [_ _ H _ _]. apply Lib.Forall2_length in H. vm_compute in H. discriminate.
Qed.
Print Assumptions C08_refuted.

(** What happens then, for every input: all rows on the true side, none on the false side. *)
Theorem C08_unreached_threshold (P : platform) (nc : nat) (rows all_labels : list (list F))
    (ids : list nat) (s : sorted_dataset) (c : nat) (v : F) :
  node_data nc rows all_labels ids s -> c < nc ->
  Forall (fun i => reaches rows c v i = false) ids ->
  exists t f, new_partition s c v all_labels = Ok (t, f) /\
    node_data nc rows all_labels ids t /\ node_data nc rows all_labels [] f.
Proof. exact (new_partition_unreached nc rows all_labels ids s c v). Qed.
Print Assumptions C08_unreached_threshold.

(* ------------------------------------------------------------------ *)
(** ** C50 *)

(** [r] is elementwise [f] of [a] and [b]. *)
Definition elementwise {P : platform} (f : F -> F -> F) (a b r : list F) : Prop :=
  length a = length b /\ length r = length a /\
  forall i x y, nth_error a i = Some x -> nth_error b i = Some y -> nth_error r i = Some (f x y).

Theorem C50_elementwise (P : platform) (a b r : list F) :
  (add_f64_slices_as_vector a b = Ok r <-> elementwise fadd a b r) /\
  (subtract_f64_slices_as_vector a b = Ok r <-> elementwise fsub a b r) /\
  (multiply_f64_slices_as_vector a b = Ok r <-> elementwise fmul a b r) /\
  (divide_f64_slices_as_vector a b = Ok r <-> elementwise fdiv a b r).
Proof. exact (conj (zip_with_spec _ a b r) (conj (zip_with_spec _ a b r)
               (conj (zip_with_spec _ a b r) (zip_with_spec _ a b r)))). Qed.
Print Assumptions C50_elementwise.

Theorem C50_length_mismatch_panics (P : platform) (a b : list F) :
  (add_f64_slices_as_vector a b = Panic <-> length a <> length b) /\
  (subtract_f64_slices_as_vector a b = Panic <-> length a <> length b) /\
  (multiply_f64_slices_as_vector a b = Panic <-> length a <> length b) /\
  (divide_f64_slices_as_vector a b = Panic <-> length a <> length b).
Proof. exact (conj (zip_with_Panic _ a b) (conj (zip_with_Panic _ a b)
               (conj (zip_with_Panic _ a b) (zip_with_Panic _ a b)))). Qed.
Print Assumptions C50_length_mismatch_panics.

Theorem C50_scale (P : platform) (s : F) (v r : list F) :
  multiply_f64_slice_by_f64_scalar s v = r <->
  length r = length v /\ forall i x, nth_error v i = Some x -> nth_error r i = Some (fmul x s).
Proof. exact (scale_spec s v r). Qed.
Print Assumptions C50_scale.

(** The mean of the squared differences, added up left to right. *)
Theorem C50_mean_squared_difference (P : platform) (a b : list F) :
  (length a = length b ->
   exists sq, elementwise (fun x y => fsqr (fsub x y)) a b sq /\
     mean_sum_of_squared_differences_between_f64_slices a b = Ok (fdiv (fold_left fadd sq fsum0) (f_of_nat (length a)))) /\
  (length a <> length b -> mean_sum_of_squared_differences_between_f64_slices a b = Panic).
Proof. exact (mean_squared_spec a b). Qed.
Print Assumptions C50_mean_squared_difference.

(** Entry [j] of the result is the left-to-right sum, from 0, of the entries [j] of the vectors. *)
Theorem C50_sum (P : platform) (vv : list (list F)) (k : nat) :
  vv <> [] -> rectangular k vv ->
  exists r, sum_of_f64_vectors vv = Ok r /\ length r = k /\
    forall j col, j < k -> Forall2 (fun v x => nth_error v j = Some x) vv col ->
      nth_error r j = Some (fold_left fadd col f0).
Proof. exact (sum_of_f64_vectors_spec vv k). Qed.
Print Assumptions C50_sum.

Theorem C50_sum_panics (P : platform) (vv : list (list F)) :
  sum_of_f64_vectors vv = Panic <->
  vv = [] \/ exists first rest v, vv = first :: rest /\ In v rest /\ length v <> length first.
Proof. exact (sum_of_f64_vectors_Panic vv). Qed.
Print Assumptions C50_sum_panics.

Theorem C50_average (P : platform) (vv : list (list F)) (first : list F) :
  nth_error vv 0 = Some first -> Forall (fun v => length first <= length v) vv ->
  exists r, calculate_average_f64_vector vv = Ok r /\ length r = length first /\
    forall j col, j < length first -> Forall2 (fun v x => nth_error v j = Some x) vv col ->
      nth_error r j = Some (fdiv (fold_left fadd col f0) (f_of_nat (length vv))).
Proof. exact (calculate_average_spec vv first). Qed.
Print Assumptions C50_average.

Theorem C50_average_panics (P : platform) (vv : list (list F)) :
  calculate_average_f64_vector vv = Panic <->
  vv = [] \/ exists first rest v, vv = first :: rest /\ In v rest /\ length v < length first.
Proof. exact (calculate_average_f64_vector_Panic vv). Qed.
Print Assumptions C50_average_panics.

Example C50_example :
  let O := f64_ops demo_platform in
  calculate_average_f64_vector (O := O) [[z 1; z 2]; [z 3; z 6]] = Ok [z 2; z 4] /\
  sum_of_f64_vectors (O := O) [[z 1; z 2]; [z 3; z 6]] = Ok [z 4; z 8] /\
  divide_f64_slices_as_vector (O := O) [z 6; z 1] [z 3; z 1] = Ok [z 2; z 1] /\
  add_f64_slices_as_vector (O := O) [z 6] [z 3; z 1] = Panic.
Proof. compute_eqs. Qed.
