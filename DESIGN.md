# Formal model of multi-target-decision-tree-learners

## 1. Approach

The Rust code is a pure core (no shared mutable state, no I/O after CSV loading), so it is
modelled as total Gallina functions in an explicit error monad

    res A := Ok a | Panic | OutOfFuel

`Panic` stands for every Rust panic (index out of bounds, failed `assert_eq!`, `unwrap` on `None`/`Err`);
`OutOfFuel` is the "recursion budget exhausted" value of the tree builders. The budget is the number of rows
plus one, and C17 proves for every input that it is never exhausted.
Loops over indices are `foldM` over `seq 0 n` with checked reads (`idx`) and writes (`upd`),
so the model panics where the code panics.

### Numbers

Every definition is parametric in a record `NumOps` (carrier and the f64 operations the code uses).
Two instances:

* `f64_ops P` - IEEE-754 binary64, round to nearest even: Flocq's `binary_float 53 1024` (all NaNs identified).
  `P : platform` holds what IEEE does not fix: `exp`, `powf(_,2.)`, and whether `Iterator::sum` starts at
  `+0.0` or `-0.0` (it changed between Rust releases). Theorems quantify over every `P`.
* `xr_ops` - exact arithmetic: reals plus `+inf`, `-inf`, `NaN`, no rounding, unsigned zero (`x/0` uses +0).

Structural properties are proved for every `NumOps` satisfying a handful of comparison laws (`NumLaws`),
which both instances are proved to satisfy, and are stated for f64. Properties that are about the mathematics
(variance reduction, optimality, training error, softmax) are stated for `xr_ops`; where rounding breaks them
a `_counterexample` theorem gives an f64 witness.

### Concurrency

`rayon::join` and `par_iter().map().collect()` get a small-step interleaving semantics (`ModelPar.v`);
schedule-independence theorems quantify over all executions of it.

### Properties the code violates

Where the code does not have a property, the list keeps the full statement, a theorem `Cxx_refuted` gives a
witness, further theorems prove the largest part that holds, and the manifest says `partial`
(C08, C10, C11, C16). C51 says exactly what the split finder computes in all cases.

### Layout

Models are in `Model*.v`, the vocabulary of the statements in `Spec*.v`, proofs in `Proof*.v`, and the property
theorems alone in `Prop_*.v`: each closed by `exact`, followed by `Print Assumptions` and by an `Example`
showing that a concrete case meets its hypotheses.

## 2. Files

<!-- files -->
| file | content |
|------|---------|
| `Base.v` | The error monad and loop combinators used by the model. |
| `Num.v` | The floating-point operations the code uses, as a record, and the comparison laws proofs may use. |
| `ModelCommon.v` | Model of the crate [common] (/repo/common/src). |
| `ModelTree.v` | Model of the crate [multi-target-decision-tree] (/repo/multi-target-decision-tree/src). |
| `ModelBoost.v` | Model of the crate [multi-target-grad-boost] (/repo/multi-target-grad-boost/src). |
| `F64.v` | IEEE-754 binary64 instance of [NumOps] (Flocq), and its comparison laws. |
| `XR.v` | Exact-arithmetic instance of [NumOps]: real numbers with +inf, -inf and NaN, no rounding. |
| `Decide.v` | Boolean equality of model values over binary64, so that concrete examples can be checked by computation without normalising Flocq's embedded proofs. |
| `Lib.v` | Lemmas about the error monad, loops and lists. |
| `Spec.v` | Specification vocabulary: what the property statements mean, without reference to how the code computes. Only data types of the model are used here. |
| `ProofData.v` | Proofs about the [common] crate: columns, one-hot labels, CSV, sorting, partitioning, vectors. |
| `ProofSort.v` | Proofs about sorting and the two partitioning functions. |
| `ProofCsv.v` | Proofs about the CSV entry points and the f64 cast. |
| `Prop_Data.v` | Properties C01-C08 and C50: data handling, in binary64 arithmetic on every platform. |
| `ProofSplit.v` | Pure characterisation of the split finder, for any arithmetic satisfying [NumLaws]. |
| `ProofSplit2.v` | The split finder on well-formed data: usability, tie-breaking, panics, increasing transforms. |
| `SpecTree.v` | Specification vocabulary for trees. |
| `ProofTree.v` | Tree building: one generic builder, termination, totality, structure. |
| `ProofTree2.v` | The sorted-column builder gives the same tree as the row-partition builder. |
| `ProofTransform.v` | Increasing feature transforms commute with tree building. |
| `Check.v` | A boolean well-formedness check, used only to show that example data sets meet the hypotheses. |
| `ProofTree3.v` | Final forms of the tree theorems, for any arithmetic satisfying [NumLaws]. |
| `ProofSplitF64.v` | Binary64-specific facts about the split finder. |
| `Prop_Split.v` | Properties C09, C13 and the binary64 part of C14: the split finder, on every platform. |
| `Prop_Tree.v` | Properties C15, C17-C21 and C24-C26: decision trees, in binary64 arithmetic on every platform. |
| `SpecExact.v` | Specification vocabulary for exact arithmetic: real-valued means, variances and variance reductions, and the questions' true effect on a table. |
| `ProofReal.v` | Real-number facts: sums, means, variances. |
| `ProofSplitExact.v` | The split finder in exact arithmetic. |
| `ProofSplitExact2.v` | Consequences of the exact description of the split finder. |
| `ProofWitness.v` | Concrete exact-arithmetic data sets: examples, and counterexamples with repeated feature values. |
| `Prop_SplitExact.v` | Properties C10, C11, C12, C14, C16 and C51: the split finder in exact arithmetic. |
| `SpecScore.v` | Specification vocabulary for predictions, scores and ensembles. |
| `SpecF64.v` | Specification vocabulary for rounded fractions in binary64. |
| `ProofScore.v` | Predictions and scores, for any arithmetic. |
| `ProofBoost.v` | The boosting loop and additive predictions, for any arithmetic. |
| `ProofScoreF64.v` | The accuracy fraction in binary64. |
| `ProofScore2.v` | Final forms of the score and prediction theorems, for any arithmetic. |
| `ProofBoost2.v` | Final forms of some ensemble theorems, for any arithmetic. |
| `Demo.v` | Data for the examples beside the theorems. Not used by any theorem. |
| `Prop_Score.v` | Properties C30, C31, C41, C46 and C47 (accuracy): predictions and scores, in binary64 arithmetic on every platform. |
| `Prop_Boost.v` | Properties C33-C37, C42 (structure), C44 and C49 (no iterations): the three ensembles, in binary64 arithmetic on every platform. |
| `SpecFit.v` | Specification vocabulary for how well trees and ensembles fit. |
| `ProofTreeExact.v` | Regression trees in exact arithmetic: predictions are means (C27), deeper trees fit no worse (C28), deep trees fit consistent data exactly (C29). |
| `DemoExact.v` | Concrete exact-arithmetic trees for the examples. |
| `Prop_TreeExact.v` | Properties C27, C28, C29: regression trees in exact arithmetic. |
| `ProofScore3.v` | The prediction of a regression tree, in any arithmetic. |
| `ProofTreeF64.v` | A tree prediction outside the range of its labels, in binary64. |
| `Prop_TreeFloat.v` | Property C27 in binary64 arithmetic: the prediction is the leaf's mean in the code's summation order, and the range bound of exact arithmetic does not survive rounding. |
| `ProofLeaf.v` | What the leaves of built trees hold, row by row. |
| `SpecError.v` | Specification vocabulary for errors in exact arithmetic. |
| `SpecClass.v` | Specification vocabulary for classification ensembles in exact arithmetic. |
| `SpecAffine.v` | Specification vocabulary: rescaled and shifted labels (exact arithmetic). |
| `ProofScoreExact.v` | Scores in exact arithmetic (C32, C47). |
| `ProofBoostExact.v` | Regression boosting in exact arithmetic (C32 trained models, C38, C49). |
| `ProofClassExact.v` | Classification ensembles in exact arithmetic (C39, C40, C42). |
| `ProofClassRun.v` | Training runs of the classification ensembles in exact arithmetic (C40, C43). |
| `ProofShift.v` | Rescaling and shifting the labels (C48). |
| `DemoBoostExact.v` | Concrete exact-arithmetic ensembles for the examples. |
| `Prop_BoostExact.v` | Properties C32, C38, C39, C40, C42 (sum), C43, C47 (regression), C48, C49 (zero rate) and C52: scores and ensembles in exact arithmetic. |
| `ProofRound.v` | Rounding facts for binary64 operations. |
| `ProofClassF64.v` | Residuals of the classification ensembles in binary64 (C39). |
| `Prop_ClassFloat.v` | Property C39 in binary64 arithmetic: an overflowing exponential gives a NaN residual, and without overflow residuals stay within [-1, 1] (the bounds of exact arithmetic, closed by rounding). |
| `ModelPar.v` | The parallel constructs of the code, and every program of the crates that uses them. |
| `SpecPar.v` | What it means for a parallel program to be independent of its schedule. |
| `ProofPar.v` | Schedule independence of the parallel constructs, and of every program of ModelPar.v. |
| `Prop_Par.v` | Properties C22, C23 and C45: parallel execution, under every schedule. |
| `ProofTight.v` | Sharper forms of some theorems, added after testing the statements against wrong programs. |
| `ModelPrint.v` | Model of printing: [Question::to_string], tree/tree_print.rs, the derived [Debug] of data sets, and main/src/main.rs. |
| `ModelMain.v` | The binary64 constant and function that only main/src/main.rs uses. |
| `SpecPrint.v` | Specification vocabulary for printed trees and for the main program. |
| `ProofPrint.v` | Proofs about printed trees and the main program (C54, C55). |
| `DemoPrint.v` | A concrete readable formatting of binary64, for the examples about printing. Not used by any theorem. |
| `Prop_Print.v` | Properties C54 and C55: printed trees and the main program, in binary64 arithmetic on every platform. |
| `SpecInt.v` | Specification vocabulary for binary64 data sets whose labels are small integers, such as one-hot class labels or counts. |
| `ProofError.v` | Rounding errors of the variance computations in binary64 when the labels are integers. |
| `ProofScan.v` | The threshold scan in any arithmetic: the smallest of the computed losses. |
| `ProofInt.v` | The split finder in binary64 on integer labels. |
| `ProofInt2.v` | The split finder in binary64 on integer labels: its gain and question against exact arithmetic. |
| `ProofInt3.v` | The split finder in binary64 on integer labels: the whole finder. |
| `ProofInt4.v` | Consequences of the error bound: near-optimal questions, pure nodes, and when a zero gain is a true zero. |
| `ProofInt5.v` | Trees grown in binary64 on integer labels. |
| `ProofInt6.v` | The theorems on integer labels, stated with [integer_labels] instead of integer lists. |
| `DemoInt.v` | The four-row example meets the hypotheses of the theorems on integer labels. |
| `Prop_SplitInt.v` | Property C56: in binary64, on integer labels, the split finder's gain is accurate. |
| `Prop_TreeInt.v` | Properties C57 and C58: trees grown in binary64 on integer labels. |
| `ConformData.v` | The small data files of /repo/common/data-files, written by tools/gen_conform.py. A number is (digits, decimal places). |
| `Conform.v` | The repository's own tests, replayed on the model. These are tests of the model, not proofs: no theorem uses them. Every assertion of the unit and integration tests whose data files are in the repository appears here, except those on the 1348-row digits file. |
| `ConformWine.v` | The repository's test on the wine data, replayed on the model (see Conform.v). |
| `SpecExtra.v` | Specification vocabulary for redundant features (C59) and tree size (C60). |
| `ProofRedundant.v` | Redundant columns change nothing (C59). |
| `ProofSize.v` | Tree size (C60). |
| `Prop_Extra.v` | Properties C59 and C60: redundant features, longer rows and tree size, in binary64 arithmetic on every platform. |
| `SpecOrder.v` | Specification vocabulary for the order of the training rows (C61, C62). |
| `ProofOrder.v` | Growing a tree from the same rows in another order (C61, C62). |
| `ProofOrderExact.v` | Row order in exact arithmetic (C61). |
| `ProofOrderInt.v` | Row order in binary64 with integer labels (C62). |
| `DemoOrder.v` | Example data for the row-order theorems (C61, C62). |
| `Prop_OrderExact.v` | Property C61: the order of the training rows, in exact arithmetic. |
| `Prop_OrderInt.v` | Property C62: the order of the training rows, in binary64 arithmetic with integer labels, on every platform. |
| `SpecStep.v` | Specification vocabulary for where a model's answers can change (C63). |
| `ProofStep.v` | A model's answers change only at training values (C63). |
| `Prop_Step.v` | Property C63: a model's answers change only at training values, in binary64 arithmetic on every platform. |
| `SpecPanic.v` | Specification vocabulary for when training panics (C64). |
| `ProofPanic.v` | Training on data of consistent shape panics exactly if it is empty or has a NaN feature among several rows (C64). |
| `Prop_Panic.v` | Property C64: exactly when training panics, in binary64 arithmetic on every platform. |
| `ProofBalance.v` | Training predictions balance the training labels, in exact arithmetic (C65). |
| `Prop_Balance.v` | Property C65: training predictions average to the training labels, in exact arithmetic. |
| `SpecRename.v` | Specification vocabulary: the targets in another order (exact arithmetic, C66). |
| `ProofRename.v` | Renaming the targets (C66). |
| `DemoRename.v` | Example data for the target-order theorems (C66). |
| `Prop_Rename.v` | Property C66: the targets in another order, in exact arithmetic. |
| `SpecStage.v` | Specification vocabulary: the outputs of one tree of an ensemble (exact arithmetic, C67). |
| `ProofStage.v` | What one boosting stage does to the training error, in exact arithmetic (C67). |
| `DemoStage.v` | Example runs for C67. |
| `Prop_Stage.v` | Property C67: what one boosting iteration does to the training error, in exact arithmetic. |
| `SpecGradient.v` | Specification vocabulary: the loss that classification ensembles reduce (exact arithmetic, C68). |
| `ProofGradient.v` | Boosting stages follow the gradient of the log-loss (C68). |
| `DemoGradient.v` | Example values for C68. |
| `Prop_Gradient.v` | Property C68: classification ensembles follow the gradient of the log-loss, in exact arithmetic. |
| `ProofDescent.v` | Each classification iteration moves the scores in a direction of falling log-loss (C69). |
| `DemoDescent.v` | An example run for C69: one row of class 0 among two classes. |
| `Prop_Descent.v` | Property C69: an iteration moves the scores in a direction of falling log-loss, in exact arithmetic. |
| `SpecColumns.v` | Specification vocabulary: the feature columns in another order (C70). |
| `ProofColumns.v` | The feature columns in another order (C70). |
| `DemoColumns.v` | Facts about binary64 and data for the examples of C70. |
| `Prop_Columns.v` | Property C70: the order of the feature columns, in binary64 arithmetic on every platform. |
| `ProofBound.v` | How far a regression ensemble's answers can be from the mean label, in exact arithmetic (C71). |
| `DemoBound.v` | Example values for C71. |
| `Prop_Bound.v` | Property C71: how far a regression ensemble's answers can be from the mean label, in exact arithmetic. |
| `SpecCopies.v` | Specification vocabulary: a training set with every row repeated (C72). |
| `ProofCopies.v` | Repeating every training row (C72). |
| `DemoCopies.v` | Example data for C72. |
| `Prop_Copies.v` | Property C72: repeating every training row, in exact arithmetic (and why not in binary64). |
| `SpecPredict.v` | Specification vocabulary for the rounding errors of ensemble predictions. |
| `ProofPredict.v` | Rounding errors of ensemble predictions in binary64. |
| `DemoPredict.v` | Concrete cases for the rounding-error bounds. |
| `Prop_Rounding.v` | Properties C73 and C74: how far rounding takes binary64 predictions and averages from their exact values. |
| `ProofMse.v` | Rounding errors of the mean squared error in binary64. |
| `ProofSoftmax.v` | Rounding errors of class probabilities and residuals in binary64. |
| `DemoAccuracy.v` | Concrete cases for the accuracy of test errors and residuals. |
| `DemoClassF64.v` | A concrete case for the range of residuals in binary64. |
| `Prop_Accuracy.v` | Properties C75 and C76: how far rounding takes binary64 test errors and residuals from their exact values. |
| `SpecNear.v` | Specification vocabulary for binary64 data sets with arbitrary finite labels of bounded size. |
| `ProofNear.v` | Rounding errors of the variance computations in binary64 for labels of bounded size. |
| `ProofNear2.v` | The running sums of the split finder in binary64 on labels of bounded size. |
| `ProofNear3.v` | The split finder in binary64 on labels of bounded size: the whole finder. |
| `DemoNear.v` | A four-row example with labels that are not integers. |
| `Prop_SplitReal.v` | Property C77: in binary64, on any finite labels of bounded size, the split finder's gain is accurate. |
| `SpecNode.v` | Specification vocabulary: the training samples that reach a node of a tree. |
| `ProofNode.v` | The samples behind every node of a built tree, and what that says about split quality in binary64. |
| `Prop_NodeReal.v` | Property C78: in binary64, on labels of bounded size, trees ask nearly the best question at every node and stop above the depth limit only where no question gains more than the rounding error. |
| `SpecSaturate.v` | Specification vocabulary for classification leaves in binary64. |
| `ProofLeafFloat.v` | Classification leaf outputs in binary64: when they are finite and how accurate they then are. |
| `ProofSaturate.v` | Classification leaves in binary64: finite outputs, accuracy, and NaN scores. |
| `ProofCollapse.v` | The arithmetic behind a two-row run whose scores turn into NaN in the second boosting iteration. |
| `ProofCollapse2.v` | A two-row classification run whose training accuracy falls from 1 to 0 in the second boosting iteration. |
| `DemoSaturate.v` | Examples for classification leaves in binary64. |
| `Prop_Saturate.v` | Properties C79 and C80: the leaf outputs of classification trees in binary64. |
| `ProofAmgFloat.v` | AMG leaves without residuals in binary64. |
| `DemoAmg.v` | Data for the examples about AMG leaves without residuals. Not used by any theorem. |
| `Prop_AmgFloat.v` | Property C81: an AMG leaf whose training rows are all learned perfectly. |
| `SpecFitFloat.v` | Specification vocabulary for the training error of a regression ensemble in binary64. |
| `ProofFitFloat.v` | Boosting for regression in binary64: one more iteration increases the training error by at most rounding. |
| `DemoFitFloat.v` | Data for the examples about the training error of regression ensembles in binary64. |
| `Prop_FitFloat.v` | Property C82: the training error of a regression ensemble in binary64, one iteration after another. |
| `ProofNearLabel.v` | Little to gain on consistent data means that the labels are close together (C83). |
| `SpecNearFit.v` | Specification vocabulary for nearly pure leaves in binary64. |
| `ProofNearFit.v` | Trees grown in binary64 on consistent tables of arbitrary bounded labels nearly fit (C83). |
| `DemoNearFit.v` | Examples for nearly fitting trees: four separable rows, and two labels too close together to be told apart. |
| `Prop_NearFit.v` | Property C83: in binary64 a deep enough tree nearly fits consistent data, and no more than nearly. |
| `ProofDeepFloat.v` | Deeper trees fit no worse in binary64, up to rounding (C84). |
| `DemoDeepFloat.v` | A deeper tree that fits one target worse in binary64. |
| `Prop_DeepFloat.v` | Property C84: in binary64, a deeper regression tree fits the training data no worse, up to rounding. |
| `SpecMirror.v` | Specification: numbers, labels and data sets that differ by their sign. |
| `ProofRel.v` | Two data sets with the same features and related labels: the split finder, the trees and the regression ensembles computed from them are related. Proved for any arithmetic with relations that its operations preserve: [RL] relates labels and everything linear in them, [RS] relates squares of labels. |
| `ProofMirror.v` | Binary64 arithmetic does not distinguish a number from its mirror image: negating the operands of an addition, a subtraction, or one operand of a product or quotient negates the result, for all numbers, infinities and NaNs included, up to the sign of zeros. |
| `ProofMirror2.v` | Negated labels, and labels with other signs of zero. |
| `Prop_Mirror.v` | Property C85: in binary64, negating every label negates every answer of a regression model. |
| `SpecInsert.v` | Specification: data sets with one more target. |
| `ProofNull.v` | A target with the same label in every row, in an arithmetic where such a target has no variance. |
| `ProofNull2.v` | A constant target in exact arithmetic, and a target that is 0 everywhere in binary64. |
| `Prop_Null.v` | Property C86: a target with the same label in every row does not influence a regression model. |
| `SpecScale.v` | Specification: numbers that differ by a power of two. |
| `ProofScale.v` | Rounding commutes with multiplication by a power of two, away from the ends of the exponent range. |
| `ProofScale2.v` | Two data sets whose labels differ by a power of two: the regression trees and ensembles in binary64. |
| `DemoScale.v` | Concrete labels that differ by a power of two, checked by computation. |
| `Prop_Scale.v` | Property C87: in binary64, multiplying every label by the same power of two multiplies every answer of a regression model by it, exactly. |
| `ProofAnswers.v` | Answers of a regression ensemble in binary64 for rows it has not seen. |
| `ProofZeroRate.v` | A zero learning rate in binary64: every answer is the starting point, whatever the number of iterations. |
| `DemoAnswers.v` | Data for the examples about answers of regression ensembles in binary64. |
| `Prop_Answers.v` | Property C88, and C49 (zero rate) in binary64: a regression ensemble's answers to arbitrary rows. |
| `SpecRotate.v` | Specification vocabulary: affine maps of the target space that preserve shapes (exact arithmetic). |
| `ProofRotate.v` | Maps of the target space that preserve shapes: same questions, mapped answers. |
| `DemoRotate.v` | Data for the examples about maps of the target space. |
| `Prop_Rotate.v` | Property C89: maps of the target space that preserve shapes, in exact arithmetic. |
| `SpecBelow.v` | Specification vocabulary for C90: the subtree at a node and the rows that reach it. |
| `ProofBelow.v` | The subtree at a node is the tree of the rows that reach it, for any arithmetic. |
| `Prop_Below.v` | Property C90: subtrees are trees of the rows that reach them, in binary64 arithmetic on every platform. |
| `SpecRenameAmg.v` | Specification vocabulary: leaves of AMG trees in which one class is ahead (exact arithmetic, C66). |
| `ProofRenameAmg.v` | Renaming the classes of an AMG ensemble (C66). |
| `DemoRenameAmg.v` | Example data for the renaming of classes in AMG ensembles (C66). |
| `Prop_RenameAmg.v` | Property C66, AMG ensembles: the classes in another order, in exact arithmetic. |
| `SpecClear.v` | Specification vocabulary: decisions that are clear, in exact arithmetic, by more than a given margin (C91). |
| `ProofClear.v` | Decisions that are clear by more than the rounding error are the same in binary64 and in exact arithmetic (C91). |
| `ProofClear2.v` | The leaves of binary64 and exact trees that follow the same decisions (C91). |
| `ProofClear3.v` | A single regression tree whose decisions are clear (C91). |
| `ProofClear4.v` | One boosting stage in binary64 and in exact arithmetic, with clear decisions (C91). |
| `ProofClear5.v` | A regression ensemble whose decisions are clear: binary64, from labels with a little noise, and exact arithmetic from the true labels agree up to the noise and rounding (C91, C93). |
| `DemoClear.v` | Five rows with a binary feature: every decision of a two-tree ensemble is clear. |
| `Prop_Clear.v` | Property C91: where exact arithmetic decides clearly, binary64 decides the same way and its answers are the exact ones up to rounding. |
| `SpecNoise.v` | Specification vocabulary: two tables that differ by a little noise in the labels (C92). |
| `ProofNoise.v` | Regression trees under label noise (C92). |
| `DemoNoise.v` | A noisy copy of the five-row example. |
| `Prop_Noise.v` | Property C92: a little noise in the labels does not change the questions of a clear regression tree. |
| `ProofNoise2.v` | Regression ensembles under label noise (C93). |
| `DemoNoise2.v` | A copy of the five-row example with very little noise, for two trees. |
| `Prop_NoiseEnsemble.v` | Property C93: a little noise in the labels does not change the questions of a clear regression ensemble. |
| `SpecGrown.v` | Specification vocabulary: trees that fit their training data, and points between two vectors (exact arithmetic). |
| `ProofGrown.v` | Boosting with trees that already fit the training data (C94). |
| `DemoGrown.v` | A concrete ensemble of fully grown trees for the example of C94. |
| `Prop_Grown.v` | Property C94: boosting trees that already fit the training data, in exact arithmetic. |
| `SpecVote.v` | Specification vocabulary: classification tables and the share of the largest class. |
| `ProofVote.v` | How many training rows a tree classifies correctly (C95). |
| `Prop_Vote.v` | Property C95: how many training rows a classification tree gets right, in binary64 on every platform. |
| `SpecLearn.v` | Specification vocabulary: a feature that tells all rows apart (exact arithmetic, C96). |
| `ProofLearn.v` | Boosting learns any table with a feature that tells the rows apart (C96). |
| `DemoLearn.v` | Example runs for C96: the three-row table, and exclusive or, which trees of one level never learn. |
| `Prop_Learn.v` | Property C96: boosting learns any table with a feature that tells the rows apart, in exact arithmetic. |
| `ProofLearnFloat.v` | Boosting learns the training labels up to rounding in binary64 when one feature tells the rows apart (C97). |
| `DemoLearnFloat.v` | The four rows of [fractions] meet the hypotheses of C97. |
| `Prop_LearnFloat.v` | Property C97: in binary64, boosting learns a table with a feature that tells the rows apart, up to rounding. |
| `ProofBalanceFloat.v` | Training predictions average to the training labels up to rounding in binary64 (C98). |
| `DemoBalanceFloat.v` | Data for the examples about the average prediction in binary64. |
| `Prop_BalanceFloat.v` | Property C98: in binary64, the average training prediction is the average training label up to rounding. |
| `ProofOrderFloat.v` | The order of the test rows changes a reported mean squared error by rounding only (C99). |
| `DemoOrderFloat.v` | Data for the examples about the order of test rows in binary64. |
| `Prop_OrderFloat.v` | Property C99: in binary64, the order of the test rows changes a reported mean squared error by rounding only. |
| `SpecColumnsBoost.v` | Specification vocabulary: ensembles trained on reordered feature columns (C100). |
| `ProofColumnsBoost.v` | Ensembles trained on reordered feature columns (C100). |
| `DemoColumnsBoost.v` | Data for the examples of C100. |
| `Prop_ColumnsBoost.v` | Property C100: the order of the feature columns and ensembles, in binary64 arithmetic on every platform. |
| `SpecTransformBoost.v` | Specification vocabulary: ensembles trained on transformed features (C101). |
| `ProofTransformBoost.v` | Ensembles trained on transformed features (C101). |
| `DemoTransformBoost.v` | Data for the examples of C101. |
| `Prop_TransformBoost.v` | Property C101: ensembles and increasing transforms of the features, in binary64 arithmetic on every platform. |
| `SpecLoss.v` | Specification vocabulary: by how much a classification iteration lowers the log-loss (exact arithmetic, C102). |
| `ProofLoss.v` | Proofs for C102: classification iterations with small steps lower the log-loss. |
| `DemoLoss.v` | Example runs for C102: three rows in one leaf, two of class 0 and one of class 1. |
| `Prop_Loss.v` | Property C102: classification iterations with small steps lower the log-loss by a stated amount, in exact arithmetic. |
| `ProofSeparate.v` | Deep classification ensembles on consistent data in exact arithmetic (C103). |
| `DemoSeparate.v` | Example runs for C103: two rows of different classes. |
| `Prop_Separate.v` | Property C103: with deep enough trees a classification ensemble separates consistent training rows, in exact arithmetic. |
| `ProofFirst.v` | The first iteration of a classification ensemble answers like the classification tree, in exact arithmetic (C104). |
| `DemoFirst.v` | Example runs for C104: two rows of different classes. |
| `Prop_First.v` | Property C104: after its first iteration a classification ensemble answers like the single tree, in exact arithmetic. |
| `ProofRestart.v` | Regression boosting can be continued by boosting the residuals, in exact arithmetic (C105). |
| `ProofBlend.v` | One regression boosting iteration blends the mean with the single tree, in exact arithmetic (C106). |
| `DemoRestart.v` | Example runs for C105 and C106: three rows, of which one stands out. |
| `Prop_Restart.v` | Properties C105 and C106: boosting continues on the residuals, and its first iteration blends the mean with the single tree, in exact arithmetic. |
| `ProofAmgSum.v` | The scores of an AMG ensemble always add up to 1, in exact arithmetic (C42). |
| `Prop_AmgSum.v` | Property C42, scores: the class scores of an AMG ensemble add up to 1, in exact arithmetic. |
| `ProofStall.v` | A regression ensemble that stops making progress answers the same for ever, in exact arithmetic (C67). |
| `DemoStall.v` | Example run for C67: at rate 2 the error stays while the answers move. |
| `ProofAbsent.v` | A class that no training row has, in exact arithmetic (C107). |
| `DemoAbsent.v` | Example runs for C107: two rows, three classes, no row has the first. |
| `DemoAbsentFloat.v` | Floating-point runs for C107: a perfectly fitted ensemble answers a class that no training row has. |
| `Prop_Absent.v` | Property C107: a class that no training row has. |
| `SpecCalibrate.v` | Specification vocabulary: what predictions leave over on the training rows of one leaf (exact arithmetic, C108). |
| `ProofCalibrate.v` | Each regression boosting iteration removes a fixed share of what is left over in every leaf of its tree, in exact arithmetic (C108). |
| `Prop_Calibrate.v` | Property C108: what an iteration leaves over in the leaves of its tree, in exact arithmetic. |
| `ProofLedger.v` | The training error is the label variance minus what the trees explain, in exact arithmetic (C109). |
| `Prop_Ledger.v` | Property C109: the training error is the label variance minus what the trees explain, in exact arithmetic. |
| `SpecTwins.v` | Specification vocabulary for C110: test rows with the same features. |
| `ProofTwins.v` | Test rows with the same features cannot be told apart (C110). |
| `ProofTwins2.v` | Test rows with the same features: the number of correct answers (C110). |
| `ProofTwins3.v` | Test rows with the same features: accuracies in binary64 (C110). |
| `DemoTwins.v` | Example test sets for C110, with a feature row that occurs twice. |
| `Prop_Twins.v` | Property C110: test rows with the same features. |
| `SpecUnion.v` | Specification vocabulary for C111: two test sets taken together. |
| `ProofUnion2.v` | Accuracies of two test sets taken together, in binary64 (C111). |
| `ProofUnion.v` | Scores of two test sets taken together (C111). |
| `Prop_Union.v` | Property C111: scores of two test sets taken together. |
| `SpecQuiet.v` | Specification vocabulary for C112: training that cannot ask anything. |
| `ProofQuiet.v` | Training that cannot ask anything (C112). |
| `ProofQuiet2.v` | Training that cannot ask anything: every row is answered with the mean label, in exact arithmetic (C112). |
| `ProofQuiet3.v` | Training that cannot ask anything: classification ensembles after one iteration, in exact arithmetic (C112). |
| `DemoQuiet.v` | Example training sets for C112: rows that all have the same features. |
| `Prop_Quiet.v` | Property C112: training that cannot ask anything. |
<!-- /files -->

## 3. Plan per property

| id | modelled by | proof |
|----|-------------|-------|
| C01 | `create_feature_columns` literal nested loop | induction on loops; panic iff |
| C02 | `create_multi_target_labels`, `to_usize` cast | list induction; f64 cast from Flocq `Btrunc` |
| C03 | `read_data` etc. over already tokenised CSV | composition of C01, C02 |
| C04 | insertion sort with the fallible comparator | sortedness, permutation, uniqueness |
| C05 | `create_dataset_with_sorted_features` | from C04 |
| C06 | `partition` | induction on zipped rows |
| C07, C08 | `new_partition` with the 0/1 index vectors | prefix/suffix argument on the sorted column; C08 refuted by witness |
| C09 | `find_best_split` | invariant of the threshold scan (best is initial or a seen non-minimal value) |
| C10-C12 | trackers in exact arithmetic | loop invariant: trackers are prefix sums; variance identity; C10, C11 refuted by witness with duplicates |
| C13 | column loop | invariant "first maximum" |
| C14 | exact: total = loss = 0; f64: witness | computation |
| C15 | order embedding of features | simulation of sort, scan, partition, build |
| C16 | characterisation is order-independent | argmax uniqueness; refuted with duplicates |
| C17-C21 | builders | induction on fuel / tree |
| C22, C23 | small-step task machine | each reachable state denotes one sequential result; progress; termination by measure |
| C24 | both builders | simulation: node data = filter of the global sorted data |
| C25, C26 | builders | induction on fuel |
| C27, C28 | scorer in exact arithmetic | mean bounds; the mean minimises the squared error |
| C29 | exact trees | by C51 a node with two different labels and distinct rows always has a considered cut with positive gain |
| C30 | `predict_class` | argmax loop invariant |
| C31 | accuracy loop; Flocq rounding | exact counting below 2^53, monotone rounding |
| C32 | mean squared error loops | exact arithmetic |
| C33-C37 | boosting loop | induction on iterations; training-side labels = predictions |
| C38 | exact arithmetic | per-leaf contraction |
| C39 | softmax | exact: positive terms; f64: rounding of each operation |
| C40 | leaf outputs | invariant over iterations: residuals stay in (-1,1), so denominators are positive |
| C41 | argmax loop | loop invariant |
| C42 | AMG leaf and its reconstruction | argmax loop; exact sum |
| C43 | two-class symmetry | simulation of both training loops |
| C44 | training and prediction | totality of every stage, induction on iterations |
| C45 | whole training runs as parallel programs | C22 composed over iterations |
| C46 | scorers | list induction |
| C47 | scorers | permutation invariance |
| C48, C52 | affine label maps | simulation of scan, build and boosting |
| C49 | boosting loop | induction on iterations |
| C50 | vector helpers | list induction |
| C51 | split finder, all cuts | loop invariant over positions |
| C53 | leaves of boosting trees | C21 and C25 |
| C54 | `print_tree_regression` as lines plus outcome | induction on proper trees; prefix-decoding argument for injectivity |
| C55 | `main` as lines plus outcome over a file system | composition of C03, C44, C46 |
| C56 | split finder on whole-number labels in binary64 | sums of bounded integers are exact in binary64; relative error of each later operation, added up |
| C57 | trees on whole-number labels in binary64 | C56's bound against the least positive true gain; induction on the build |
| C58 | leaf averages of whole-number labels | exact sums, one correctly rounded division |
| C59 | data set with appended redundant columns; rows with appended entries | a redundant column's best gain is no larger than an earlier column's and the search keeps the first maximum; induction on the build and on the boosting stages |
| C60 | node and leaf counts | induction on the build; both sides of a partition are non-empty |
| C61 | training on permuted rows, exact arithmetic | the split finder is insensitive to the order (C16); induction on the build, then on the boosting stages |
| C62 | training on permuted rows, binary64 with whole-number labels | sums are exact, so the losses at considered cuts are the same floats; induction on the build |
| C63 | trees, ensembles and their lookup, binary64 | induction on the build: thresholds are entries of the node's column above its first sorted entry; lookups compare the same booleans |
| C64 | training on rectangular data with possible NaN features, binary64 | totality theorems of C17/C44 generalised to any labels in one direction; the sort's comparison fails in the other |
| C65 | training predictions of trees and regression ensembles, exact arithmetic | the rows of a leaf sum to zero around its average; induction on the build, then on the stages: residuals average to zero |
| C66 | training on reordered targets, exact arithmetic | the split finder's total variance is a sum over targets; averages, softmax and leaf outputs commute with the order; induction on the build, then on the stages; for AMG, the leaf of a row is renamed because its largest output is unique or 0 |
| C67 | one more iteration of regression boosting, exact arithmetic | per leaf the output is the mean residual, so the cross term equals the square; summed over the leaves |
| C68 | stages of the two classification ensembles, exact arithmetic, derivatives from the standard library | the log-loss in one score is ln(A + B e^x) minus a linear term; first and second derivatives are p - [c=j] and p(1-p) |
| C69 | one more iteration of the classification ensembles, exact arithmetic | the derivative along the step is minus the sum over leaves of squared residual sums over curvatures; zero only if every output is zero |
| C70 | `find_best_split` and the three tree builders on reordered columns, binary64 | each single column gives the same candidate; the winner of the reordered list is the same candidate (equal positive binary64 numbers are identical), then induction over the tree |
| C71 | `RegressionBoost` training and prediction, exact arithmetic | each leaf output is an average of residuals, so by Cauchy-Schwarz at most the root of the training error sum, which never grows for rates in [0,2] (C67) |
| C72 | split finder, tree builders and ensembles on a set with every row m times, exact arithmetic | the sorted column of the copies is the column with each entry m times; between two multiples of m the gain is at most the interpolation of its neighbours (convexity), so the first best cut is the same; induction over the tree and over the stages; a binary64 counterexample by evaluation |
| C73 | ensemble predictions in binary64 | induction over the trees with the standard model of rounding (relative error 2^-53 and absolute error 2^-1075 per operation), no overflow below 2^1000 |
| C74 | leaf averages and initial guesses in binary64 | the same summation lemma, then one division; the averages are those of C27, C33 and C53 |
| C75 | test errors in binary64 | sums of non-negative terms have a relative error bound, by induction; the square of the platform is assumed accurate to one unit in the last place |
| C76 | residuals of classification ensembles in binary64 | relative error of the total of the exponentials, then a division, a product and a subtraction; the exponential of the platform is assumed accurate to one unit in the last place, and a correctly rounded platform shows that one exists |
| C77 | split finder in binary64 on arbitrary finite labels | running sums and sums of squares stay within a per-operation drift of the exact ones (invariant over the scan, additions on the left, subtractions on the right); error of the variance, the weighted sum and the gain; then the argument of C56 with that bound |
| C78 | C77 at every node of a built tree | induction over the build: the data set behind a node holds exactly the samples that answer the questions above it like the row; C77 applied to that data set |
| C79 | leaf outputs of the model over binary64 (`SpecSaturate.residual_entry` says which residuals are covered) | error analysis shows the denominator is zero or bounded away from zero; NaN propagates through the loop by induction; the collapsing run is computed symbolically from the bounds on `exp`, for every depth |
| C80 | the same outputs against the exact formula of `SpecClass.class_output` | summation error of numerator and denominator, relative to the sum of absolute residuals |
| C81 | AMG leaves of the model over binary64 | all outputs are NaN (C79), so the maximum keeps its start value minus infinity and class 0; infinities and NaN are absorbing under addition |
| C82 | regression ensembles of the model over binary64 | induction on the tree: a step of lr times the group mean does not increase the sum of squares for 0 <= lr <= 2; residual, leaf average, product and sum are each within a few units in the last place; the root mean square moves by at most the largest change; induction on iterations bounds the predictions |
| C83 | trees of the model over binary64 | C77 bounds the exact gain of every cut in a leaf by e(n); a suffix of the sorted labels then has nearly the overall mean, and so has every row above the minimum of some column; rows at the minimum of every column share one label and deviations add up to zero; C74 for the rounding of the average |
| C84 | regression trees of the model over binary64 | the shallower tree is the deeper one cut (C26), so its predictions are constant on the deeper tree's groups, where the exact average is the best constant; C74 bounds the rounding of each average; the root mean square moves by at most the largest change |
| C85 | regression trees and ensembles of the model over binary64 | a relation between two runs (opposite for values linear in the labels, equal for quadratic ones) that every operation preserves, because rounding to nearest is symmetric; then induction over the scan, the tree and the iterations |
| C86 | regression trees and ensembles of the model over exact arithmetic and over binary64 | a relation between two runs (one list is the other with an entry inserted) preserved by the scan, by the partition and by the iterations, instantiated with equality and with equality up to the sign of zeros; example of the failure |
| C87 | regression trees and ensembles of the model over binary64 | rounding commutes with powers of two away from the ends of the exponent range; each number of a run is tracked with a grid it lies on and a bound, so that no step leaves that range; relation between the two runs preserved by the scan, the partition and the iterations; example of the failure by underflow |
| C88 | regression ensemble of the model over binary64 | C82's bound on the training error bounds every residual, hence every leaf output; induction over the iterations adds the outputs and the rounding errors; example of the overflow |
| C89 | regression trees and ensembles of the model over exact arithmetic | the summed variance is the mean squared distance from the mean vector, which M multiplies by one factor, so that all costs are multiplied by it; relation between the two runs preserved by scan, partition and iterations; example of a map that changes the question |
| C90 | the three tree builders | relation between a node's build and the build started at level 0 with the remaining depth; the partitions on the path compose to one filter of the rows |
| C91 | regression trees and the regression boosting loop, in binary64 and in exact arithmetic | the two runs are compared node by node: labels that differ by eps move every variance reduction by at most 16 nt B eps, so a clear decision is the same; the gap between the runs, as a root mean square over the training rows, grows by at most one rounding unit per iteration because exact leaf means do not expand it |
| C92 | regression trees in binary64 and in exact arithmetic | the binary64 run on the noisy table is compared with the exact run on the original one, node by node, with the noise as the distance between the labels |
| C93 | regression ensembles in binary64 and in exact arithmetic | the residual tables of the noisy binary64 run and of the exact run are compared stage by stage; a stage maps the difference of the residuals to its deviation from lr times the leaf means, which does not increase its root mean square |
| C94 | regression tree and regression ensemble in exact arithmetic | the residuals after k trees are (1-lr)^k times the centred labels, so that tree k is built on an affine image of the original table; C42's affine invariance carries T over |
| C95 | tree building, predict_class and calculate_accuracy in binary64 | induction over the built tree: a leaf gets its largest class right, and the largest class of a node is at most the sum of those of its branches; monotone rounding |
| C96 | regression boosting end to end in exact arithmetic | algebra: the variance of a sequence is at most n^2 times the best reduction by one cut (prefix sums); the split finder considers every cut of a column without ties; the error of the boosted stage follows from the balance of leaf means; induction over iterations; exclusive or by case analysis over all questions |
| C97 | regression boosting end to end in f64 | the near-optimal first question (C77) against the cut bound of C96; sums of squares before and after subtracting shrunken leaf means, by induction over the built tree; rounding of residuals and updates (C82); a linear recurrence over iterations; the score by C75 |
| C98 | tree and ensemble predictions on the training rows in f64 | the exact deviations from leaf means sum to zero, by induction over the built tree; rounding of leaf means, residuals and updates from C74 and C82; induction over iterations; a concrete tree for the allowance |
| C99 | regression scoring in f64 | predictions permute with the rows, the exact error does not depend on order, and both reported errors are close to it by C75; a concrete test set for the allowance |
| C100 | the three ensembles on a data set and on its reordered columns | induction over the trees: equal training scores give equal residuals (C35, C36), the tree theorem C70 applies to each stage, and lookups agree on reordered rows; a tied table for the last part |
| C101 | the three ensembles on a data set and on its transform | boosting trees are regression trees with mapped leaves (C25), so C15 gives the tree and the leaf of every row; induction over the trees with equal residuals (C35, C36) |
| C102 | the two classification ensembles over the exact numbers | e^x <= 1+x+x^2 bounds the loss of a row by its slope and the variance of its step; in each leaf the slope is at least C times the variance because the leaf output is the Newton step (C38, C69); induction over the iterations |
| C103 | the two classification ensembles over the exact numbers | every leaf of a deep tree holds one residual vector, so its outputs are +-(K-1)/K over the probability of missing; the lead of the right class grows by at least lr*C an iteration; ln x <= x - 1 turns leads into log-loss |
| C104 | the two classification ensembles and the classification tree over the exact numbers | the first residuals are the labels shifted by -1/K, so the tree is the same (C48); all curvatures are (1/K)(1-1/K), so leaf outputs are K*p - 1 and ordered like the votes; a zero lead forces class 0 for AMG |
| C105 | regression boosting over the exact numbers | residuals average to 0 (C65), so the second model starts from 0; by induction both runs meet the same residual data at every iteration because l-(a+b) = (l-a)-b, so they build the same trees |
| C106 | regression boosting and the regression tree over the exact numbers | the first residuals are the labels shifted by minus their mean, so the tree is the same with shifted leaves (C48) |
| C107 | trees in binary64, ensembles over the exact numbers | tree: the class with most votes in the leaf has a vote; ensembles: in every leaf the residuals of the absent class lie in (-1,0), so its output is at most -(K-1)/K while some other class gains; induction over the trees |
| C108 | regression boosting over the exact numbers | the leaf output is the mean residual of the rows that reach it; all these rows get the same output, so subtracting lr times it scales their mean |
| C109 | regression boosting over the exact numbers | the stage equation of C67 summed over the trees by induction; scores are non-negative; monotone convergence |
| C110 | errors over the exact numbers, accuracies in binary64 | the error of a group answered alike is its variance plus the squared distance from its mean; a correct one-hot answer is a vote for its class; sums over a permutation of the test samples |
| C111 | errors over the exact numbers, accuracies in binary64 | scores as sums over the test samples (C31, C32); sums and counts over a concatenation |
| C112 | answers alike and the class of the tree in binary64, the mean and the class of the ensembles over the exact numbers | no cut lies between equal values, so every tree is one leaf; residuals about the mean average to zero; C104 for the ensembles |

No property is outside what a model can express.

## 4. Trusted base

* Coq 8.16.1 kernel (no kernel check is switched off, no plugins).
* Axioms: none of our own. Print Assumptions lists at most the standard library's axioms behind the real numbers,
  see section 5 (Flocq's arithmetic operators carry proofs about the reals, so even purely structural f64 statements
  list them).
* That the Gallina definitions were transcribed faithfully from the cited lines.

### Modelled / not modelled

Modelled: all of `common/src` except the CSV tokeniser (crate `csv`); all of `multi-target-decision-tree/src`;
all of `multi-target-grad-boost/src`; `main/src/main.rs`.

The assertions of the repository's tests hold of the model (`Conform.v`, `ConformWine.v`). Left out: the tests on
the 1348-row digits file, and those whose data files are not in the repository.

Not modelled: tests and benches (they only call the above); file I/O and CSV tokenising (their
result is an input of the model); the text of formatted numbers and quoted strings (a parameter); memory allocation failure, stack overflow, wall-clock performance, NaN payloads,
overflow of `usize` lengths and of `u32` counters (lists are unbounded); interference between parallel closures
(they borrow immutably, as the Rust types guarantee).
u32 columns are stored modulo 2^32 as the `as u32` casts do.

## 5. What Print Assumptions lists for each theorem

<!-- assumptions -->
Key: C = `Classical_Prop.classic`, D = `ClassicalDedekindReals.sig_not_dec`, S = `ClassicalDedekindReals.sig_forall_dec`, X = `FunctionalExtensionality.functional_extensionality_dep`.

* **CDSX** (258 theorems): `C01_columns_are_the_transpose`, `C01_no_other_outcome`, `C01_panics_exactly`, `C02_cast_truncates`, `C02_one_hot`, `C02_panics_exactly`, `C03_feature_names`, `C03_one_hot_file_keeps_records`, `C03_one_hot_file_panics`, `C03_rectangular_file_is_well_formed`, `C03_single_target_file`, `C03_two_files`, `C03_two_files_panic`, `C04_is_num_means_not_NaN`, `C04_panics_exactly`, `C04_sorted_permutation`, `C04_unique`, `C05_row_indices`, `C05_same_data_sorted`, `C05_total`, `C06_panics_exactly`, `C06_partition_splits_by_the_question`, `C07_new_partition_splits_by_value`, `C08_refuted`, `C08_unreached_threshold`, `C09_gain_is_a_number`, `C09_reported_split_is_usable`, `C100_amg`, `C100_multi_class`, `C100_regression`, `C100_ties_break_by_position`, `C101_amg`, `C101_multi_class`, `C101_regression`, `C102_amg_first_iteration`, `C102_amg_iteration`, `C102_amg_run`, `C102_limit_needed`, `C102_multi_class_first_iteration`, `C102_multi_class_iteration`, `C102_multi_class_run`, `C103_amg_separates`, `C103_multi_class_separates`, `C107_exact_arithmetic_needed`, `C107_tree`, `C110_amg_accuracy`, `C110_multi_class_accuracy`, `C110_tree_accuracy`, `C111_amg_accuracy`, `C111_multi_class_accuracy`, `C111_tree_accuracy`, `C112_same_answers`, `C112_tree_class`, `C13_best_of_the_columns`, `C14_binary64_counterexample`, `C15_increasing_transforms`, `C17_amg_tree_total`, `C17_budget_is_immaterial`, `C17_class_count_mismatch_panics`, `C17_grad_boost_tree_total`, `C17_regression_tree_total`, `C17_terminates`, `C18_amg_tree_depth`, `C18_grad_boost_tree_depth`, `C18_regression_tree_depth`, `C19_lookup_finds_a_leaf`, `C19_lookup_of_short_rows`, `C19_trees_are_proper`, `C20_leaves_partition_the_training_set`, `C21_leaf_holds_the_rows_on_the_path`, `C21_training_rows_reach_their_leaf`, `C22_single_threaded_calls_end`, `C22_sorted_tree_does_not_depend_on_the_schedule`, `C22_trees_do_not_depend_on_the_schedule`, `C23_column_partitioning`, `C23_column_scans`, `C23_residuals`, `C23_sorted_column_scans`, `C24_both_strategies_build_the_same_tree`, `C24_same_error`, `C25_amg_tree_is_a_regression_tree`, `C25_grad_boost_tree_is_a_regression_tree`, `C26_deeper_trees_refine`, `C27_float_range_counterexample`, `C27_prediction_is_the_leaf_average`, `C30_answer_is_unique`, `C30_majority_class`, `C30_majority_class_of_leaf`, `C30_no_votes_is_class_0`, `C31_all_or_none`, `C31_amg_accuracy_is_a_fraction`, `C31_empty_test_set_is_nan`, `C31_multi_class_accuracy_is_a_fraction`, `C31_tree_accuracy_is_a_fraction`, `C33_amg_shape`, `C33_multi_class_shape`, `C33_regression_shape`, `C34_amg_prefix`, `C34_multi_class_prefix`, `C34_regression_prefix`, `C35_stage_fits_residuals`, `C36_amg_stage_fits_residuals`, `C36_multi_class_stage_fits_residuals`, `C37_amg_score_is_a_sum`, `C37_multi_class_score_is_a_sum`, `C37_prediction_is_a_sum`, `C37_trained_prediction_is_a_sum`, `C39_binary64_range`, `C39_overflow_is_nan`, `C41_amg_answers_one_class`, `C41_answer_is_unique`, `C41_empty_scores_panic`, `C41_multi_class_answers_one_class`, `C42_leaf_of_any_row`, `C42_leaf_stores_largest_entry`, `C42_prediction`, `C42_reconstruction`, `C42_training_update`, `C44_amg_total`, `C44_multi_class_total`, `C44_regression_total`, `C45_ensembles_do_not_depend_on_the_schedule`, `C45_training_ends`, `C46_classification_scores`, `C46_missing_values_panic`, `C46_predictions_are_pointwise`, `C46_regression_score`, `C47_accuracy_ignores_order`, `C49_no_iterations`, `C49_zero_learning_rate_f64`, `C50_average`, `C50_average_panics`, `C50_elementwise`, `C50_length_mismatch_panics`, `C50_mean_squared_difference`, `C50_scale`, `C50_sum`, `C50_sum_panics`, `C53_amg_leaf`, `C53_classification_leaf`, `C53_every_leaf_is_reached`, `C53_regression_leaf_is_the_average`, `C54_lines_of_a_node`, `C54_panics_exactly`, `C54_printed_before_a_panic`, `C54_prints_every_node`, `C54_text_determines_the_tree`, `C55_main_reports_the_test_error`, `C55_missing_test_data`, `C55_missing_training_data`, `C55_too_few_training_labels`, `C56_gain_accuracy`, `C56_gain_bounds_every_question`, `C56_gain_near_the_exact_gain`, `C56_reported_question_nearly_best`, `C57_deep_tree_has_no_training_error`, `C57_deep_tree_predicts_training_labels`, `C57_leaf_above_the_limit_has_one_label`, `C57_pure_node_has_no_gain`, `C57_pure_node_is_a_leaf`, `C57_zero_gain_means_nothing_to_gain`, `C58_prediction_is_the_rounded_mean`, `C59_amg_tree`, `C59_ensemble_scores`, `C59_ensembles`, `C59_grad_boost_tree`, `C59_longer_rows`, `C59_regression_tree`, `C59_tree_scores`, `C60_amg_tree_size`, `C60_grad_boost_tree_size`, `C60_regression_tree_size`, `C62_boosted_trees`, `C62_regression_tree`, `C62_regression_tree_answers`, `C62_same_split`, `C63_ensemble_answers`, `C63_out_of_range`, `C63_questions`, `C63_tree_answers`, `C64_ensembles`, `C64_trees`, `C68_amg_gradient`, `C68_amg_newton`, `C68_multi_class_gradient`, `C68_multi_class_newton`, `C69_amg_first_iteration`, `C69_amg_iteration`, `C69_multi_class_first_iteration`, `C69_multi_class_iteration`, `C70_amg_tree`, `C70_gain`, `C70_grad_boost_tree`, `C70_question`, `C70_regression_tree`, `C70_ties_break_by_position`, `C72_binary64_counterexample`, `C73_amg_score`, `C73_multi_class_score`, `C73_regression`, `C74_boosted_leaf_output`, `C74_initial_guess`, `C74_tree_prediction`, `C75_ensemble_score`, `C75_tree_error`, `C76_residual`, `C77_gain_accuracy`, `C77_gain_bounds_every_question`, `C77_gain_near_the_exact_gain`, `C77_reported_question_nearly_best`, `C78_leaf_above_the_limit_has_little_to_gain`, `C78_questions_nearly_best`, `C79_leaf_entry_is_finite_exactly_when`, `C79_learned_class_becomes_nan`, `C79_residuals_of_moderate_scores`, `C79_training_accuracy_falls_from_1_to_0`, `C80_leaf_output_error`, `C81_perfect_leaf_answers_class_1`, `C82_one_iteration`, `C82_strictly_worse`, `C82_whole_run`, `C83_close_labels_share_a_leaf`, `C83_deep_tree_nearly_fits`, `C83_leaves_above_the_limit_are_nearly_pure`, `C84_deeper_fits_no_worse`, `C84_no_worse_than_the_average`, `C84_strictly_worse`, `C85_negated_ensemble`, `C85_negated_tree`, `C85_zero_signs_ensemble`, `C85_zero_signs_tree`, `C86_zero_target_ensemble`, `C86_zero_target_tree`, `C87_scaled_ensemble`, `C87_scaled_tree`, `C88_answers_stay_near_the_mean`, `C88_giant_labels_overflow`, `C89_stretching_one_target_matters`, `C90_amg_tree`, `C90_grad_boost_tree`, `C90_other_rows_do_not_matter`, `C90_regression_tree`, `C91_clear_ensemble_is_the_exact_ensemble`, `C91_clear_tree_is_the_exact_tree`, `C92_noise_does_not_change_clear_questions`, `C93_noise_does_not_change_clear_ensembles`, `C95_deep_tree_classifies_everything`, `C95_deeper_trees_classify_no_worse`, `C95_training_accuracy_is_the_share_of_the_leaf_majorities`, `C97_one_iteration`, `C97_reported_score`, `C97_whole_run`, `C98_allowance_needed`, `C98_ensemble`, `C98_tree`, `C99_allowance_needed`, `C99_ensemble`, `C99_tree`

* **DSX** (112 theorems): `C103_amg_full_score`, `C103_amg_learns`, `C103_multi_class_full_score`, `C103_multi_class_learns`, `C104_amg_answer`, `C104_amg_score`, `C104_amg_scores`, `C104_multi_class_answer`, `C104_multi_class_score`, `C104_multi_class_scores`, `C105_regression`, `C105_trained`, `C106_blend`, `C106_full_step`, `C106_full_step_error`, `C107_amg_answer`, `C107_amg_scores`, `C107_iteration_needed`, `C107_multi_class_scores`, `C108_rate_one`, `C108_share_removed`, `C109_bounded`, `C109_converges`, `C109_ledger`, `C109_some_small_step`, `C10_distinct_values_partial`, `C10_gain_is_the_true_reduction_partial`, `C10_refuted`, `C110_ensemble_error`, `C110_tree_error`, `C111_ensemble_error`, `C111_tree_error`, `C112_ensemble_mean`, `C112_first_classes`, `C112_tree_mean`, `C11_distinct_values_partial`, `C11_optimal_partial`, `C11_refuted`, `C12_gain_bounds_every_question`, `C12_zero_gain_means_nothing_to_gain`, `C14_pure_node_has_no_gain`, `C14_pure_node_is_a_leaf`, `C16_refuted`, `C16_row_order_partial`, `C27_prediction_is_the_leaf_mean`, `C28_deeper_fits_no_worse`, `C28_single_leaf_error_is_the_variance`, `C29_deep_tree_has_no_training_error`, `C29_deep_tree_predicts_training_labels`, `C29_leaf_above_the_limit_has_one_label`, `C32_ensemble_score`, `C32_trained_predictions`, `C32_tree_error`, `C38_above_two_counterexample`, `C38_boosting_fits_no_worse`, `C38_deep_trees_scale_the_score`, `C39_amg_run`, `C39_multi_class_run`, `C39_residuals`, `C40_amg_leaf_outputs`, `C40_amg_one_class`, `C40_multi_class_leaf_outputs`, `C40_multi_class_one_class`, `C42_scores_sum_to_one`, `C42_sums_to_zero`, `C43_two_classes`, `C47_ensemble_score_ignores_order`, `C47_tree_error_ignores_order`, `C48_ensemble_shift`, `C48_tree_shift`, `C49_zero_learning_rate`, `C51_best_considered_cut`, `C52_ensemble_rescaling`, `C52_tree_rescaling`, `C61_boosted_trees`, `C61_classification_ensembles`, `C61_regression_ensemble`, `C61_regression_tree`, `C61_regression_tree_answers`, `C65_ensemble`, `C65_tree`, `C66_amg_ensemble`, `C66_multi_class_ensemble`, `C66_regression_ensemble`, `C66_tree`, `C67_mirrored_rates`, `C67_no_progress_is_final`, `C67_no_progress_no_change`, `C67_outside_the_range`, `C67_rate_two_needed`, `C67_stage_error`, `C71_answers_stay_near_the_mean`, `C72_boosted_trees`, `C72_classification_ensembles`, `C72_copies_in_any_order`, `C72_question`, `C72_regression_ensemble`, `C72_regression_tree`, `C72_regression_tree_answers`, `C86_constant_target_ensemble`, `C86_constant_target_tree`, `C89_ensemble`, `C89_targets_from_one_ensemble`, `C89_targets_from_one_tree`, `C89_tree`, `C94_boosting_a_fitting_tree_is_that_tree_shrunk`, `C94_deep_ensembles_answer_training_rows`, `C96_an_iteration_moves_towards_the_tree_error`, `C96_boosting_learns_the_training_labels`, `C96_every_iteration_removes_a_share`, `C96_exclusive_or_is_never_learnt`, `C96_training_error_falls_geometrically`

* **none** (3 theorems): `C23_outcome_is_unique`, `C23_parallel_map_keeps_order`, `C23_parallel_map_panics`

<!-- /assumptions -->
