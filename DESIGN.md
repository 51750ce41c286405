# Formal model of CubeFlix/nn in Coq 8.16.1

Properties are listed in `properties.jsonl`, the theorems of each property in
`MANIFEST.json`, the attempts to break the theorems by wrong programs in
`seeded/LOG.jsonl`. All Coq files are in `rocq/theories`.

## Approach

* **Numbers** (`Num.v`). All code is modelled once, over a record `Num` of float64
  operations *without laws*. Instances: `RNum` (`NumR.v`, the real numbers, "exact
  arithmetic"), `B64 L` (`NumB64.v`, IEEE-754 binary64 from Flocq with NaN payloads; `L`
  supplies `exp`, `log`, `pow`, which IEEE does not fix), `QNum` (`NumQ.v`, rationals, only
  for computed examples and counterexamples). Theorems stated for every `K : Num` hold bit
  for bit for any float64 semantics. Where such a theorem needs a fact about numbers it is a
  hypothesis: `int_faithful` (small integers survive the conversion to float64 and back),
  `min_faithful` (`math.Min` on small integers), `bits_ok` (Float64frombits inverts
  Float64bits). They are proved for the instances (`C42_semantics`, `C55_semantics`).
  Calculus is done on `RNum`; float-specific theorems are on `B64 L` for every `L`.
* **Memory** (`Heap.v`). Aliasing matters in this code base, so `[][]float64` is modelled
  as slice headers into a heap of backing arrays of row references; rows live in a heap of
  float arrays. Layers and optimizers are heap objects (Go pointers). A Go function is a
  state transformer that ends in `Ret v`, `Fail err` (non-nil error) or `Panic`, always with
  the state it leaves behind.
* **Code**. Function by function, loop by loop, each definition with file and lines:
  `Matrix.v` (matrix.go), `Activation.v`, `Misc.v`, `Accuracy.v`, `Loss.v`, `Network.v`
  (network.go and the part of binomial.go it uses), `Optimizers.v`, `ModelGo.v` (model.go,
  InitLogger), `LayerData.v`, `ModelData.v`.
* **Specification**, written without reference to the code model: `Spec.v` (pure matrices as
  lists of rows), `PureSpec.v` (layers and losses as functions of pure matrices), `OptSpec.v`
  (optimizers as recurrences), `ModelSpec.v` (networks, batches, epochs, log lines),
  `GradSpec.v`/`NetGradSpec.v` (derivatives along curves, objectives), `CodecSpec.v` (the
  file format). `Repr.v` defines when a heap state *is* a pure matrix or layer (`own`,
  `lown`) and what may change (`frame`, `fresh`).
* **Proofs**: the heap programs refine the specification, with frame conditions saying what
  does *not* change (`*Proofs.v`, `*Facts.v`); then properties of the pure functions.
* **Properties** (`Prop*.v`): only theorems closed by `exact`, each followed by
  `Print Assumptions`, and an `Example` per property showing that its hypotheses are met by
  a non-trivial state. A guarantee that the code does not give is a theorem ending in
  `_refuted`, whose statement is an existence witness.

## Per property

| id | modelled | proof |
|----|----------|-------|
| C01-C09 | matrix.go on the heap | loop invariants; frame relation |
| C10,C16-C19 | activation.go, Clip | in-place loop lemma; real analysis for C17,C18; B64 witness for C18 |
| C11-C15 | misc.go, accuracy.go; rand.Shuffle as Fisher-Yates over an arbitrary index stream | loop invariants; permutations; Flocq rounding monotonicity |
| C20-C23,C32 | network.go constructors and passes | refinement to pure layer functions |
| C24-C31 | same, over `RNum` | derivative along arbitrary curves + adjoint identity; refutations by explicit witness |
| C33-C37 | loss.go | as above |
| C38-C41 | optimizers.go, optimizer objects on the heap | induction over update histories |
| C42-C44,C51,C52,C54 | model.go | induction over call sequences / layer lists |
| C45,C53 | Backward over `RNum` | induction over layers composing adjoint identities |
| C46-C50,C67,C70 | Fit | induction over batches and epochs, refinement to an abstract trainer |
| C55-C66,C68 | layer_data.go, model_data.go over byte lists; file system as crash states; map order as an arbitrary permutation | the loaders compute the independent decoder of `CodecSpec.v`; round trips and prefixes are facts about that decoder |
| C71-C73 | Fit on single-layer models; Fit on permuted samples | convexity and smoothness of both objectives, descent lemma, telescoping over epochs; permutation invariance of finite sums; `vm_compute` witness in binary64 |
| C74,C75 | Fit from states with zero gradients | zero gradients are preserved through batches and epochs by every optimizer without history |
| C76-C79 | Fit and Update called with arguments that do not fit together | the training refinement up to the first offending step, then the panic or error of that step |
| C80 | optimizers over `RNum` | Cauchy-Schwarz on the exact formulas of C39 and C40 |
| C69 | every exported function, programs as arbitrary sequences of calls | one monotonicity lemma per function, induction over programs |
| C81 | any program of Fit and Predict calls on several models | the refinement of C48 with new optimizer storage shown to be freshly allocated; induction on the program |
| C82 | the programs of examples/*_test.go as one model program (`Session.v`) | composition of C20, C42, C48, C50 and C56 |
| C83 | Fit on models with equal units or features | the gradients of C45's pure form agree entry by entry, so do the updates of C38 to C40; then the refinement of C48 |
| C84 | Fit on models with units that are never active | the gradient of C45's pure form is zero in the unit's column and in the next layer's row; Flocq for the float64 form |
| C85 | binomial.Rand with all three methods (`Binomial.v`), arbitrary streams, fuel for the rejection loops | counting tuples by induction; induction on the fuel |
| C86 | Fit and Predict in float64 | NaN is absorbing for +, -, *, / (Flocq); the backward pass of C45's pure form carries it to every gradient; induction over the mini-batches, then C48 and C52 |
| C87 | DropoutLayer.Forward, ForwardNoDropout, Backward averaged over all draws (exact arithmetic) | counting draw sequences; linearity |
| C88 | ShuffleDataset as a function of the integers drawn | Fisher-Yates bijection by induction |
| C89 | sums of softmax weights under Fit (exact arithmetic) | rows of the softmax gradient sum to zero; induction over training |
| C90 | rounding error of Dot and Predict (float64) | Flocq's rounding theorems, running error analysis layer by layer |
| C91 | mini-batch SGD on exactly solvable linear regression converges (exact arithmetic) | every batch step moves towards every exact fit (Fejér monotone), summed over batches and epochs |
| C92 | damaged model files | the damaged file is the file of another model, then the round trip of C56; decoding stops at a wrong tag |
| C93 | training on repeated data: cross-entropies average over samples, squared/absolute errors sum | every backward pass is homogeneous in the loss gradient; sums over repeated rows are multiples; then the update and induction over epochs |
| C94 | the unit tests of /repo as model programs (`Tests.v`) return true | computation for the deterministic ones; the others by composing C18–C20, C33, C42, C47, C48, C56 |
| C95 | the hand-written loop of optimizers_test.go trains exactly like Fit with whole batches; float64 softmax outputs lie in [0,1] or are NaN | both are refined to plain training; the in-place clip is the identity on softmax outputs (rounding is monotone) |
| C96 | float64 softmax and sigmoid outputs in [0,1] or NaN, losses and Adam caches never negative | sign and range invariants of the rounded operations carried through the refinement theorems |
| C97 | reordering features, hidden units and outputs commutes with training, prediction and loss (reals); refuted for float64 | every forward, backward and update formula commutes with the reordering; induction over layers and batches |
| C98 | goroutines evaluating models on one heap, switching after any layer, all get the right outputs | a layer call keeps parameters and all existing matrices; induction over the schedule |
| C99 | momentum and decay converge on linear and softmax regression (reals); monotone descent with momentum refuted | Fit with whole batches is the iteration of one step; heavy-ball energy and shifted distance; summed comparison steps |
| C100 | integer overflow in Fit (`IntGo.v`), huge batch sizes | range analysis; monotone rounding; then C48 |
| C101 | robustness: Lipschitz bound of a network and certified predictions | `net_near` by induction over layers, then C52 |
| C102 | collapse of linear layers; exclusive or | `collapse` by induction; parallelogram argument |
| C103 | the example programs (`ExamplesGo.v`) and their data | composition of data generation, C14, C82 and C48; the file by computation |
| C104 | text of errors, log lines and the log file (`TextGo.v`) against readers (`TextSpec.v`) | induction on digits, Flocq's rounding, C70 and C67 |
| C105 | capacity of one hidden layer (`CapacitySpec.v`) | a separating direction by induction on the dimension, one unit per sample from left to right; counting kinks |
| C106 | universal approximation (`Approx.v`) | Heine's theorem, piecewise linear interpolation built unit by unit |
| C107 | saved files (`FilesSpec.v`) | the decoder of `CodecModel.v` run on the encoding gives back model and rest, so equal concatenations give equal models; induction over the models with the growth of the heap |
| C108 | weights before and behind a unit (`BalanceSpec.v`) | Euler's identity for the activations cell by cell, so that parameters times gradients agree before and behind the unit; sum over the batches |
| C109 | scaled units (`RescaleSpec.v`) | induction over the layers; one explicit step |
| C110 | zero matrices, optimizers at rest (`StillSpec.v`) | gradients of a fitting model are zero, layer by layer and batch by batch; an explicit float64 step |
| C111 | mixed movements (`PartsSpec.v`) | rows of a batch through all layers; an explicit Adam step |
| C112 | single samples, means (`EvalSpec.v`) | rows of a batch through all layers; sums over a permutation; an explicit pair of samples |
| C113 | last layers, 0-1 targets (`LossAccSpec.v`) | counting misses with their least loss; explicit classifiers |
| C114 | unseen directions, blank features (`SpanSpec.v`) | the first layer's gradient is a combination of the inputs, batch by batch; an explicit Adam step |
| C115 | shares of samples (`NoiseSpec.v`) | Gibbs' inequality over classes of equal inputs; double counting; an explicit classifier |
| C116 | alternating layers, the cube, uniform continuity (`DeepSpec.v`) | the layers keep a running maximum of cones around grid points; a kernel vector of the first layer |
| C117 | residual sums, the factor of each loss (`CalibSpec.v`) | the gradient of the last bias is the column sum of the residuals; telescoping over the epochs |
| C118 | Gram matrix, eigenvectors, components of the residuals (`ModesSpec.v`) | one step maps the residuals by I - rate*(2/o)*Gram; powers of a factor above 1 in size |
| C119 | scores, separable classes (`SepSpec.v`) | the rate of convergence compares with a scaled separating layer; a first maximum can be made strict |
| C120 | number of pieces, thin networks (`PiecesSpec.v`), the alternating data of C105 | one layer multiplies the number of pieces by at most (units + 1); the tent map composed with itself |
| C121 | distance of parameters, neighbouring data sets (`StableSpec.v`) | a gradient step of a convex smooth function is non-expansive; the gradients of neighbouring data sets differ in one of n terms |
| C122 | eigenvectors of the Gram matrix, residual modes (`ModesSpec.v`), momentum from zero (`RateSpec.v`) | the recurrence x(t+2) = x(t+1) + mu (x(t+1) - x(t)) - a x(t+1) through the roots of its characteristic polynomial (`HeavyRec.v`) |
| C123 | the inference path with fused additions (`FmaGo.v`), the bounds of C90 (`RoundSpec.v`) | one rounding of x*y + z loses no more than two; a float64 witness for the different class |
| C124 | training run in self-tracking rationals (`TNum`, `TrackSpec.v`), `carry` from float64 to R and to `TNum` | one simulation proof, used twice (R and float64); every operation keeps value and error bound; a float64 witness where rounding switches a unit |
| C125 | isometries and recoded inputs, weights and velocities (`RotateSpec.v`) | the first layer computes the same, its weight gradient is recoded like its weights; Adam witness with the 3-4-5 rotation |
| C126 | layers with tags, equal tags share rows; sequential updates seen by the whole group (`TieSpec.v`) | update loop over heap with shared rows; sum of gradients over the group is the derivative along a common motion; witness with one ReLU object twice |
| C127 | binomial and Poisson probabilities, waiting times | derivative of the Pade fraction against log(1+z); Stirling's expansion step by step through artanh; the attempt unfolded; +Inf threshold in float64 |
| C128 | backpropagation with overwriting, gram matrices | the backward loop with aliased caches; per-batch views spliced back into x; Gram matrices are positive semidefinite |
| C129 | index arithmetic and error propagation through the backward loop | the loop is run down to the layer at fault for any continuation predicate that passes through binds |
| C130 | merging of linear layers, monotone activations | the winner of a row of affine functions is a system of linear inequalities, which convex combinations preserve |
| C131 | two runs with targets and last biases moved by the same vector | the loss gradient depends on the difference of output and target only, and every update adds something that does not depend on the parameter |
| C132 | float64 order on the extended line, generic monotone arithmetic | rounding, clamping at overflow and the activations are monotone; NaNs are incomparable |
| C133 | lock-step simulation of three training runs | the residual, the gradients and both SGD rules are linear; batches are cut alike |
| C134 | NaN and infinity absorption (C86), 514 epochs computed by the kernel | no update turns a non-finite parameter into a finite one; prefixes of training |
| C135 | simulation between two runs, for any number type with sign laws (FlipNum.v) | rounding to nearest is odd, so negation commutes with every operation on the path |
| C136 | the simulation of C135 with one sign per input feature | signs cancel in every product of a feature and its weight; gradients of the weights inherit the sign of the feature |

## What is modelled, and what is not

Modelled: all functions of accuracy.go, activation.go, layer_data.go, loss.go, matrix.go,
misc.go, model.go, model_data.go, network.go, optimizers.go; InitLogger of nn.go; `Rand` of
binomial.go (`Binomial.v`, where the unbounded rejection loops take fuel). The library only
calls `Rand` with N = 1 (network.go:785), which `Network.v` models separately; C85 proves the
two agree. The 33 unit tests of the package are programs of the model too (`Tests.v`; what they
print is left out).

Simplifications and omissions:

* **Integers.** Go's `int` is the unbounded `Z`; int8/int32 conversions wrap explicitly.
  Overflow of 64-bit ints is modelled for the batch arithmetic of Fit (`IntGo.v`, C100); elsewhere
  the code only multiplies or adds sizes of matrices in memory, and overflow is not modelled.
* **Rows** are whole arrays. Two rows may be the same array, but not partially overlapping
  (a caller could build such rows by re-slicing; the library never does).
* **Allocation** always succeeds; running time and out-of-memory are not modelled (C65
  counts cells).
* **Floating point.** No fused multiply-add (Go may fuse on some architectures; amd64 does
  not), except in `FmaGo.v`, where any additions of the forward pass may be fused (C123). C124 compares float64 training with
  exact training by running the plain training in a third arithmetic, `TNum` (rationals with an error
  bound and a validity flag); it vouches for nothing that goes through `pow`, `exp` or `log`. NaN payloads are those of Flocq's operations and not claimed to match hardware;
  theorems about bit patterns concern values that are only moved. `exp`, `log`, `pow` are
  arbitrary functions in `B64 L`. In `RNum`, division by zero is Coq's total division and
  `pow` of a non-positive base to a non-integer exponent is unspecified.
* **Random numbers** are arbitrary infinite streams in the state; seeding and the generators
  themselves (math/rand, x/exp/rand) are not modelled. `rand.Shuffle` is the Fisher-Yates
  loop of the Go library over arbitrary draws.
* **Logger.** Its presence and the sequence of lines. Their text (`TextGo.v`, for binary64) follows
  the documentation of packages fmt and log; the date and time are a parameter, and the verbose
  flag's destination is not modelled.
* **Interfaces.** The six layer structs are one record with a kind, and so are optimizers and
  losses; method calls dispatch on the kind. User-defined implementations of the interfaces
  are not possible outside the package (unexported methods), except by embedding a library
  type in a struct of the caller; such types are not modelled.
* **Model struct** is passed by value and returned; a nil pointer receiver is not modelled.
  Goroutines are modelled only for evaluation (C98, switching between layer calls); training is sequential,
  and data races on the cached fields inside one layer call are outside the model.
* **Maps.** OptimizerValues is an association list; wherever the code iterates over the map
  the order is an arbitrary permutation.
* **Buffers and files.** The unread position of a buffer after an error is not modelled.
  Files: create, one write that may stop after any number of bytes, one read that may return
  any number of bytes; reordering of writes below the file system is not modelled, nor are
  permissions, links or concurrent writers.
* **Errors** carry the constructor and its numbers or message; the messages of NewSGDOptimizer and
  NewAdamOptimizer leave out the number at their end. Errors from the operating system are opaque.
* **Example programs** (`ExamplesGo.v`). math.Sin and math.Cos are arbitrary functions, encoding/csv
  is modelled for files without quotes and carriage returns, strconv.ParseFloat for plain decimal
  numbers of at most 15 digits (its bitSize 8 means 64) and is arbitrary otherwise. Opening
  iris.data, seeding, the time and what t.Logf prints are left out. `IrisData.v` contains the file.
* **getValues/setValues** of layers and losses are inlined where they are used; the
  conversions through float64 they perform are kept.

## Trusted base

1. Coq 8.16.1's kernel (including the VM used by `vm_compute` in computed examples and
   counterexamples); no kernel check is switched off and no axiom is added.
2. The faithfulness of the code model to the Go source, as described above, and of the
   specification files to the English statements.
3. The axioms listed by `Print Assumptions`, below. All are axioms of Coq's standard library:
   the classical axioms behind the real numbers
   (`ClassicalDedekindReals.sig_not_dec`, `ClassicalDedekindReals.sig_forall_dec`),
   functional extensionality (`FunctionalExtensionality.functional_extensionality_dep`) and
   excluded middle (`Classical_Prop.classic`). Flocq and Coquelicot add none.

### Print Assumptions

<!-- assumptions:begin -->
**No axioms** (closed under the global context) - 210 theorems:

C01_NewMatrix_error, C01_NewMatrix_fresh_zero, C02_from_slice, C02_rectangular_refuted, C02_shares_storage, C03_bad_index_error_refuted, C03_get_reads, C03_negative_index_panics, C03_out_of_bounds, C03_set_then_get, C04_GetColumn_copy, C04_GetRow_alias, C04_SetColumn_copy, C04_SetRow_alias, C04_errors, C05_Add, C05_Neg_Scalar, C05_Sub, C05_shape_error, C06_Dot, C06_Dot_error, C07_T, C07_T_Dot, C07_T_T, C08_Sum, C09_Equals, C100_no_overflow, C103_csv, C103_csv_ragged, C103_iris, C103_iris_file, C103_iris_unread, C103_sine, C103_sine_remainder, C103_spiral, C104_error_numbers, C104_errors, C104_int, C104_warning, C104_which_pass_refuted, C107_first_only, C107_same_file, C107_sequence, C10_in_place, C10_in_place_derivatives, C11_bad_label_error_refuted, C11_bad_label_panics, C11_bad_size, C11_one_hot, C126_equal, C126_fit, C126_one_object_refuted, C128_fit, C128_inputs, C128_plain, C129_narrow, C129_wide, C129_wide_first, C12_argmax_refuted, C12_row_max, C13_threshold, C14_shuffle_pairs, C15_binary, C15_categorical, C15_regression, C16_leaky_relu, C16_relu, C17_sigmoid, C18_softmax, C19_clip, C20_bad_dropout, C20_bad_size, C20_bad_slope, C20_new_adam, C20_new_layer, C20_new_loss, C20_new_sgd, C20_optimizer_type, C21_forward, C21_width_error, C22_outputs, C22_predictions, C23_backward, C23_fused_error, C23_softmax_error, C23_width_error, C29_more_inputs_panics, C29_more_outputs, C29_square, C30_training, C32_init, C33_binary_cross_entropy, C33_cross_entropy, C33_mean_absolute, C33_mean_squared, C35_more_columns, C37_backward_effect, C37_few_labels_panic, C37_forward_effect, C37_rows_error, C37_width_error, C38_sgd, C39_momentum, C40_adam, C41_atomic_refuted, C41_bias_error_wedges, C41_weight_error_forgets, C42_add_layer, C42_add_layers, C42_consistent, C43_atomic_refuted, C43_installs, C43_mismatch, C43_trainable, C44_empty_refuted, C44_outputs, C44_width, C46_negative_nothing, C46_negative_panics, C46_partition, C46_whole, C47_never_fails, C48_fit, C48_sigmoid_refuted, C49_anyhow, C49_logging, C50_split, C51_again, C51_answers, C51_empty_refuted, C51_pure, C52_bad_type, C52_predict, C54_forward_backward, C54_interleaved_refuted, C55_bad_shape, C55_round_trip, C56_finalize, C56_round_trip, C56_trained, C57_evaluate, C57_predict, C58_truncated, C58_truncated_layer, C59_accepted, C59_decodes, C59_layer, C59_predicts, C60_negative_length_refuted, C60_no_logger_refuted, C60_panic_iff, C61_layer, C61_little_endian, C61_model, C62_long, C63_crash, C63_load, C63_prefix, C63_save, C64_full, C64_short, C65_allocates, C65_bounded_refuted, C66_resave, C67_init_logger, C67_logged, C67_never_returned, C67_panics, C67_returned_refuted, C68_plain_sgd, C69_stable, C70_log_lines, C76_late_layer, C76_reports_error_refuted, C77_extra_reported_refuted, C77_extra_samples, C77_few_reported_refuted, C77_few_samples, C77_same_start, C78_no_labels, C78_no_labels_no_batch, C78_wrong_inputs, C78_wrong_labels, C79_larger_gradient, C79_larger_reported_refuted, C79_small_bias_gradient, C79_small_weight_gradient, C79_smaller_reported_refuted, C81_dropout_refuted, C81_independent, C81_sharing_refuted, C82_prepared, C82_session, C83_dropout_refuted, C83_features, C83_output, C83_units, C85_fuel, C85_one, C87_draws, C88_count, C88_uniform, C92_bias, C92_inputs, C92_magic, C92_tag, C92_weight, C95_any, C98_alone, C98_shared.

Axioms `ClassicalDedekindReals.sig_forall_dec`, `FunctionalExtensionality.functional_extensionality_dep` - 3 theorems:

C104_float, C104_float_monotone, C104_nan.

Axioms `ClassicalDedekindReals.sig_forall_dec`, `ClassicalDedekindReals.sig_not_dec`, `Classical_Prop.classic`, `FunctionalExtensionality.functional_extensionality_dep` - 284 theorems:

C06_Dot_assoc, C06_Dot_distributes, C09_Equals_reflexive, C09_Equals_symmetric, C09_reflexive_refuted, C100_any_batch, C100_huge, C101_binary, C101_class, C101_predict, C101_sharp, C102_collapse, C102_hidden_refuted, C102_trained, C102_xor, C102_xor_classes, C103_TestIris, C103_TestSine, C103_TestSpiral, C103_iris_error_refuted, C103_iris_nearest, C103_one_point, C103_parse, C103_parse_value, C103_spiral_distance, C104_accuracy, C104_accuracy_large_refuted, C104_error_lines, C104_file, C104_fit_errors, C104_info, C104_level, C104_one_line, C104_training, C104_warning_line_refuted, C104_zero_loss_refuted, C105_classes, C105_memorise, C105_trained, C105_width, C106_approximate, C108_adam_refuted, C108_run, C108_step, C109_loss, C109_predict, C109_training_refuted, C110_adam_refuted, C110_still, C111_adam_refuted, C111_parts, C111_spare, C112_accuracy, C112_accuracy_order, C112_accuracy_parts, C112_loss, C112_loss_order, C112_loss_parts, C112_order_refuted, C113_binary, C113_categorical, C113_converse_refuted, C113_regression, C113_rows_refuted, C113_sharp, C114_adam_refuted, C114_feature, C114_span, C115_accuracy, C115_loss, C115_sharp, C116_depth, C116_narrow, C116_narrow_trained, C117_average, C117_bias, C117_rest, C118_diverges, C118_modes, C118_one_sample, C119_exactly, C119_loss, C119_only_if, C119_positive, C119_speed, C120_deep, C120_pieces, C120_shallow, C120_trained, C121_no_further, C121_stable, C122_beats, C122_course, C122_exactly, C122_fast, C122_slow, C123_Dot, C123_class, C123_predict, C123_same_class_refuted, C123_unfused, C124_fit, C124_unsure_refuted, C125_adam_refuted, C125_predict, C125_train, C126_gradient, C127_cauchy, C127_cauchy_again, C127_every_value_refuted, C127_log, C127_poisson, C128_form, C128_learns_refuted, C12_row_max_binary64, C12_row_max_real, C130_bits, C130_class_zero_refuted, C130_classes, C130_hidden_refuted, C131_predict, C131_relu_refuted, C131_train, C132_binary, C132_exact, C132_float, C132_strict_refuted, C133_adam_refuted, C133_mae_refuted, C133_predict, C133_train, C134_check, C134_finite_refuted, C135_predict, C135_predict_exact, C135_relu_refuted, C135_train, C135_train_exact, C136_predict, C136_predict_exact, C136_scale_refuted, C136_shift_refuted, C136_train, C136_train_exact, C13_idempotent_binary64, C13_idempotent_real, C13_nan_becomes_one, C15_perfect_binary64, C15_perfect_real, C15_unit_interval_binary64, C15_unit_interval_real, C15_unit_interval_rows_binary64, C15_unit_interval_rows_real, C16_relu_binary64, C16_relu_idempotent_binary64, C16_relu_idempotent_real, C16_relu_real, C17_sigmoid_prime_real, C17_sigmoid_real, C18_binary64_refuted, C18_distribution_real, C18_overflow_is_nan, C18_shift_invariant_real, C19_idempotent_binary64, C19_idempotent_real, C19_range_binary64, C19_range_real, C19_strict_refuted, C24_linear_gradient, C24_vjp_partials, C25_hidden_gradient, C26_leaky_gradient, C26_slope_zero_refuted, C27_softmax_gradient, C28_fused_gradient, C28_soft_labels_refuted, C29_gradient_refuted, C30_dropout_one_binary64, C30_finite_output_refuted, C30_keep_probability_real, C30_output_real, C30_zero_dropout_real, C31_dropout_gradient, C31_dropout_gradient_refuted, C33_exact, C33_first_row_only_mae_refuted, C33_first_row_only_refuted, C34_bce_gradient, C34_ce_gradient, C34_mse_forward_refuted, C34_mse_gradient, C34_soft_labels_refuted, C35_more_columns_refuted, C35_one_column, C36_binary_cross_entropy, C36_cross_entropy, C36_mse_mae, C38_exact, C39_exact, C40_exact, C40_standard_if_equal, C40_standard_refuted, C42_semantics, C45_backpropagation, C45_exact, C53_descent, C55_semantics, C58_panic_refuted, C59_accuracy_type_refuted, C62_round_trip_refuted, C62_silent_loss_refuted, C63_atomic_refuted, C64_short_read_refuted, C68_momentum_refuted, C71_any_rate_refuted, C71_linear_converges, C72_softmax_converges, C73_float_order_refuted, C73_row_order, C74_fresh_optimizers, C74_mae_never_trains, C75_zero_network_never_learns, C80_adam_first_step, C80_adam_step_bounded, C80_at_most_rate_refuted, C80_momentum_step_bounded, C82_float, C84_first_layer, C84_float, C84_later_layer, C85_certain, C85_direct, C85_law, C85_mirror, C85_nan, C85_range, C85_terminates_refuted, C86_for_ever, C86_one_nan, C86_predictions, C87_gradients, C87_outputs, C89_adam_refuted, C89_soft_labels_refuted, C89_softmax, C90_Dot, C90_class, C90_class_refuted, C90_predict, C91_converges, C91_never_further, C91_no_exact_fit_refuted, C91_rate, C92_damage_reported_refuted, C93_adam, C93_average, C93_same_refuted, C93_sum, C94_accuracy, C94_data, C94_loss, C94_matrix, C94_matrix_scalar, C94_misc, C94_model, C94_network, C94_optimizers, C95_float, C95_real, C95_softmax_float, C96_adam, C96_denominator, C96_layers, C96_loss, C96_model_loss, C97_float_refuted, C97_loss, C97_predict, C97_train, C99_adam_refuted, C99_decay, C99_decay_limit, C99_momentum, C99_monotone_refuted.
<!-- assumptions:end -->
