{
 "C08": {
  "note": "The property is false of the code: C08_refuted gives a witness and C08_unreached_threshold says exactly what happens for every threshold no row reaches; C07 is the property for reached thresholds."
 },
 "C03": {
  "note": "CSV tokenising and float parsing are inputs of the model."
 },
 "C10": {
  "note": "False of the code when the reported threshold value is repeated in its column (C10_refuted). Proved whenever that value occurs once, in particular for distinct values. C51 says exactly what is computed in all cases."
 },
 "C11": {
  "note": "False of the code with repeated values (C11_refuted). Proved whenever the reported threshold value occurs once. C12 holds without any such assumption."
 },
 "C14": {
  "note": "Exact arithmetic, as stated. C14_binary64_counterexample shows the f64 exception."
 },
 "C16": {
  "note": "False of the code with repeated values (C16_refuted). Proved whenever rows sharing a value above the column minimum have the same label."
 },
 "C27": {
  "note": "Exact arithmetic for mean and range; in f64 the mean in the code's order (C27_prediction_is_the_leaf_average) and a counterexample to the range bound, as stated."
 },
 "C28": {
  "note": "Exact arithmetic, as stated; for any two depth limits m <= m'."
 },
 "C39": {
  "note": "Exact arithmetic, as stated. In f64: C39_overflow_is_nan for overflow, C39_binary64_range for the closed range without it."
 },
 "C38": {
  "note": "Exact arithmetic, as stated, with the exact factor for deep trees and a witness above rate 2."
 },
 "C22": {
  "note": "Every interleaving of rayon::join and of the parallel maps; panics included. The closures' lack of side effects is read off the Rust types."
 },
 "C23": {
  "note": "par_iter().map().collect() under every interleaving, and each of its uses in the code."
 },
 "C45": {
  "note": "Whole training runs as parallel programs, under every interleaving."
 },
 "C54": {
  "note": "Lines as written by println!; formatting of f64 and str is a parameter (readable_formats says what injectivity needs of it)."
 },
 "C55": {
  "note": "The file system, the measured time and the formatting are parameters; f64::sqrt and 0.1 are correctly rounded."
 },
 "C56": {
  "note": "Absolute error bound for whole-number labels; the exact values are those of the exact-arithmetic model (C51) on the same table."
 },
 "C57": {
  "note": "The training-error theorem assumes powf(0.0, 2.0) = 0.0."
 },
 "C58": {
  "note": "Rounding to nearest even of the exact mean (Flocq's round)."
 }
}