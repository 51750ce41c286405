{
 "claims": [
  {
   "property": "C01",
   "status": "proved",
   "theorems": [
    "C01_NewMatrix_error",
    "C01_NewMatrix_fresh_zero"
   ],
   "note": ""
  },
  {
   "property": "C02",
   "status": "proved",
   "theorems": [
    "C02_from_slice",
    "C02_shares_storage",
    "C02_rectangular_refuted"
   ],
   "note": "The guarantee 'nil error implies rectangular' is refuted by C02_rectangular_refuted."
  },
  {
   "property": "C03",
   "status": "proved",
   "theorems": [
    "C03_set_then_get",
    "C03_get_reads",
    "C03_out_of_bounds",
    "C03_negative_index_panics",
    "C03_bad_index_error_refuted"
   ],
   "note": "A negative index panics (C03_negative_index_panics), so the documented out-of-range error is refuted by C03_bad_index_error_refuted."
  },
  {
   "property": "C04",
   "status": "proved",
   "theorems": [
    "C04_GetRow_alias",
    "C04_GetColumn_copy",
    "C04_SetRow_alias",
    "C04_SetColumn_copy",
    "C04_errors"
   ],
   "note": ""
  },
  {
   "property": "C05",
   "status": "proved",
   "theorems": [
    "C05_Add",
    "C05_Sub",
    "C05_Neg_Scalar",
    "C05_shape_error"
   ],
   "note": ""
  },
  {
   "property": "C06",
   "status": "proved",
   "theorems": [
    "C06_Dot",
    "C06_Dot_error",
    "C06_Dot_assoc",
    "C06_Dot_distributes"
   ],
   "note": ""
  },
  {
   "property": "C07",
   "status": "proved",
   "theorems": [
    "C07_T",
    "C07_T_T",
    "C07_T_Dot"
   ],
   "note": ""
  },
  {
   "property": "C08",
   "status": "proved",
   "theorems": [
    "C08_Sum"
   ],
   "note": ""
  },
  {
   "property": "C09",
   "status": "proved",
   "theorems": [
    "C09_Equals",
    "C09_Equals_symmetric",
    "C09_Equals_reflexive",
    "C09_reflexive_refuted"
   ],
   "note": "Reflexivity holds exactly for NaN-free matrices (binary64)."
  },
  {
   "property": "C10",
   "status": "proved",
   "theorems": [
    "C10_in_place",
    "C10_in_place_derivatives"
   ],
   "note": ""
  },
  {
   "property": "C11",
   "status": "proved",
   "theorems": [
    "C11_bad_size",
    "C11_one_hot",
    "C11_bad_label_panics",
    "C11_bad_label_error_refuted"
   ],
   "note": ""
  },
  {
   "property": "C12",
   "status": "proved",
   "theorems": [
    "C12_row_max",
    "C12_row_max_real",
    "C12_row_max_binary64",
    "C12_argmax_refuted"
   ],
   "note": ""
  },
  {
   "property": "C13",
   "status": "proved",
   "theorems": [
    "C13_threshold",
    "C13_idempotent_real",
    "C13_idempotent_binary64",
    "C13_nan_becomes_one"
   ],
   "note": ""
  },
  {
   "property": "C14",
   "status": "proved",
   "theorems": [
    "C14_shuffle_pairs"
   ],
   "note": ""
  },
  {
   "property": "C15",
   "status": "proved",
   "theorems": [
    "C15_regression",
    "C15_categorical",
    "C15_binary",
    "C15_unit_interval_real",
    "C15_unit_interval_rows_real",
    "C15_unit_interval_binary64",
    "C15_unit_interval_rows_binary64",
    "C15_perfect_binary64",
    "C15_perfect_real"
   ],
   "note": ""
  },
  {
   "property": "C16",
   "status": "proved",
   "theorems": [
    "C16_relu",
    "C16_relu_real",
    "C16_relu_binary64",
    "C16_relu_idempotent_real",
    "C16_relu_idempotent_binary64",
    "C16_leaky_relu"
   ],
   "note": ""
  },
  {
   "property": "C17",
   "status": "proved",
   "theorems": [
    "C17_sigmoid",
    "C17_sigmoid_real",
    "C17_sigmoid_prime_real"
   ],
   "note": ""
  },
  {
   "property": "C18",
   "status": "proved",
   "theorems": [
    "C18_softmax",
    "C18_distribution_real",
    "C18_shift_invariant_real",
    "C18_overflow_is_nan",
    "C18_binary64_refuted"
   ],
   "note": ""
  },
  {
   "property": "C19",
   "status": "proved",
   "theorems": [
    "C19_clip",
    "C19_range_real",
    "C19_range_binary64",
    "C19_idempotent_real",
    "C19_idempotent_binary64",
    "C19_strict_refuted"
   ],
   "note": ""
  },
  {
   "property": "C20",
   "status": "proved",
   "theorems": [
    "C20_bad_size",
    "C20_bad_slope",
    "C20_bad_dropout",
    "C20_new_layer",
    "C20_new_loss",
    "C20_new_sgd",
    "C20_new_adam",
    "C20_optimizer_type"
   ],
   "note": ""
  },
  {
   "property": "C21",
   "status": "proved",
   "theorems": [
    "C21_width_error",
    "C21_forward"
   ],
   "note": ""
  },
  {
   "property": "C22",
   "status": "proved",
   "theorems": [
    "C22_outputs",
    "C22_predictions"
   ],
   "note": ""
  },
  {
   "property": "C23",
   "status": "proved",
   "theorems": [
    "C23_backward",
    "C23_width_error",
    "C23_softmax_error",
    "C23_fused_error"
   ],
   "note": ""
  },
  {
   "property": "C24",
   "status": "proved",
   "theorems": [
    "C24_vjp_partials",
    "C24_linear_gradient"
   ],
   "note": ""
  },
  {
   "property": "C25",
   "status": "proved",
   "theorems": [
    "C25_hidden_gradient"
   ],
   "note": ""
  },
  {
   "property": "C26",
   "status": "proved",
   "theorems": [
    "C26_leaky_gradient",
    "C26_slope_zero_refuted"
   ],
   "note": ""
  },
  {
   "property": "C27",
   "status": "proved",
   "theorems": [
    "C27_softmax_gradient"
   ],
   "note": ""
  },
  {
   "property": "C28",
   "status": "proved",
   "theorems": [
    "C28_fused_gradient",
    "C28_soft_labels_refuted"
   ],
   "note": ""
  },
  {
   "property": "C29",
   "status": "proved",
   "theorems": [
    "C29_more_inputs_panics",
    "C29_square",
    "C29_more_outputs",
    "C29_gradient_refuted"
   ],
   "note": ""
  },
  {
   "property": "C30",
   "status": "proved",
   "theorems": [
    "C30_training",
    "C30_keep_probability_real",
    "C30_output_real",
    "C30_zero_dropout_real",
    "C30_dropout_one_binary64",
    "C30_finite_output_refuted"
   ],
   "note": ""
  },
  {
   "property": "C31",
   "status": "proved",
   "theorems": [
    "C31_dropout_gradient",
    "C31_dropout_gradient_refuted"
   ],
   "note": ""
  },
  {
   "property": "C32",
   "status": "proved",
   "theorems": [
    "C32_init"
   ],
   "note": ""
  },
  {
   "property": "C33",
   "status": "proved",
   "theorems": [
    "C33_mean_squared",
    "C33_mean_absolute",
    "C33_cross_entropy",
    "C33_binary_cross_entropy",
    "C33_exact",
    "C33_first_row_only_refuted",
    "C33_first_row_only_mae_refuted"
   ],
   "note": ""
  },
  {
   "property": "C34",
   "status": "proved",
   "theorems": [
    "C34_mse_gradient",
    "C34_ce_gradient",
    "C34_bce_gradient",
    "C34_mse_forward_refuted",
    "C34_soft_labels_refuted"
   ],
   "note": ""
  },
  {
   "property": "C35",
   "status": "proved",
   "theorems": [
    "C35_one_column",
    "C35_more_columns",
    "C35_more_columns_refuted"
   ],
   "note": ""
  },
  {
   "property": "C36",
   "status": "proved",
   "theorems": [
    "C36_mse_mae",
    "C36_cross_entropy",
    "C36_binary_cross_entropy"
   ],
   "note": ""
  },
  {
   "property": "C37",
   "status": "proved",
   "theorems": [
    "C37_width_error",
    "C37_rows_error",
    "C37_forward_effect",
    "C37_backward_effect",
    "C37_few_labels_panic"
   ],
   "note": ""
  },
  {
   "property": "C38",
   "status": "proved",
   "theorems": [
    "C38_sgd",
    "C38_exact"
   ],
   "note": ""
  },
  {
   "property": "C39",
   "status": "proved",
   "theorems": [
    "C39_momentum",
    "C39_exact"
   ],
   "note": ""
  },
  {
   "property": "C40",
   "status": "proved",
   "theorems": [
    "C40_adam",
    "C40_exact",
    "C40_standard_if_equal",
    "C40_standard_refuted"
   ],
   "note": ""
  },
  {
   "property": "C41",
   "status": "proved",
   "theorems": [
    "C41_weight_error_forgets",
    "C41_bias_error_wedges",
    "C41_atomic_refuted"
   ],
   "note": ""
  },
  {
   "property": "C42",
   "status": "proved",
   "theorems": [
    "C42_semantics",
    "C42_add_layers",
    "C42_add_layer",
    "C42_consistent"
   ],
   "note": ""
  },
  {
   "property": "C43",
   "status": "proved",
   "theorems": [
    "C43_mismatch",
    "C43_installs",
    "C43_trainable",
    "C43_atomic_refuted"
   ],
   "note": ""
  },
  {
   "property": "C44",
   "status": "proved",
   "theorems": [
    "C44_outputs",
    "C44_width",
    "C44_empty_refuted"
   ],
   "note": ""
  },
  {
   "property": "C45",
   "status": "proved",
   "theorems": [
    "C45_backpropagation",
    "C45_exact"
   ],
   "note": ""
  },
  {
   "property": "C46",
   "status": "proved",
   "theorems": [
    "C46_partition",
    "C46_whole",
    "C46_negative_nothing",
    "C46_negative_panics"
   ],
   "note": ""
  },
  {
   "property": "C47",
   "status": "proved",
   "theorems": [
    "C47_never_fails"
   ],
   "note": ""
  },
  {
   "property": "C48",
   "status": "proved",
   "theorems": [
    "C48_fit",
    "C48_sigmoid_refuted"
   ],
   "note": ""
  },
  {
   "property": "C49",
   "status": "proved",
   "theorems": [
    "C49_anyhow",
    "C49_logging"
   ],
   "note": ""
  },
  {
   "property": "C50",
   "status": "proved",
   "theorems": [
    "C50_split"
   ],
   "note": ""
  },
  {
   "property": "C51",
   "status": "proved",
   "theorems": [
    "C51_pure",
    "C51_answers",
    "C51_again",
    "C51_empty_refuted"
   ],
   "note": ""
  },
  {
   "property": "C52",
   "status": "proved",
   "theorems": [
    "C52_predict",
    "C52_bad_type"
   ],
   "note": ""
  },
  {
   "property": "C53",
   "status": "proved",
   "theorems": [
    "C53_descent"
   ],
   "note": ""
  },
  {
   "property": "C54",
   "status": "proved",
   "theorems": [
    "C54_forward_backward",
    "C54_interleaved_refuted"
   ],
   "note": ""
  },
  {
   "property": "C55",
   "status": "proved",
   "theorems": [
    "C55_semantics",
    "C55_round_trip",
    "C55_bad_shape"
   ],
   "note": ""
  },
  {
   "property": "C56",
   "status": "proved",
   "theorems": [
    "C56_round_trip",
    "C56_finalize",
    "C56_trained"
   ],
   "note": ""
  },
  {
   "property": "C57",
   "status": "proved",
   "theorems": [
    "C57_predict",
    "C57_evaluate"
   ],
   "note": ""
  },
  {
   "property": "C58",
   "status": "proved",
   "theorems": [
    "C58_truncated",
    "C58_truncated_layer",
    "C58_panic_refuted"
   ],
   "note": "Proved for processes with an initialised logger, and for lengths outside 5..8 without one; with a nil logger a prefix of 5 to 8 bytes panics (C58_panic_refuted)."
  },
  {
   "property": "C59",
   "status": "proved",
   "theorems": [
    "C59_accepted",
    "C59_decodes",
    "C59_predicts",
    "C59_layer",
    "C59_accuracy_type_refuted"
   ],
   "note": "decode_model is an independent description of the accepted files. The accuracy type is not validated, so Predict may fail later (C59_accuracy_type_refuted)."
  },
  {
   "property": "C60",
   "status": "proved",
   "theorems": [
    "C60_panic_iff",
    "C60_negative_length_refuted",
    "C60_no_logger_refuted"
   ],
   "note": "The claim that bad data never panics is false: exact characterisation in C60_panic_iff, witnesses in the two refutations."
  },
  {
   "property": "C61",
   "status": "proved",
   "theorems": [
    "C61_layer",
    "C61_model",
    "C61_little_endian"
   ],
   "note": ""
  },
  {
   "property": "C62",
   "status": "proved",
   "theorems": [
    "C62_long",
    "C62_round_trip_refuted",
    "C62_silent_loss_refuted"
   ],
   "note": "False as a round trip: 128..256 layers are always rejected on load; 257 layers load silently as one layer."
  },
  {
   "property": "C63",
   "status": "proved",
   "theorems": [
    "C63_save",
    "C63_load",
    "C63_prefix",
    "C63_crash",
    "C63_atomic_refuted"
   ],
   "note": "Crash points are prefixes of the written data; reordering of disk writes is not modelled. Atomic replacement is refuted."
  },
  {
   "property": "C64",
   "status": "proved",
   "theorems": [
    "C64_full",
    "C64_short",
    "C64_short_read_refuted"
   ],
   "note": "Correct with full reads; short reads zero the tail (refuted)."
  },
  {
   "property": "C65",
   "status": "proved",
   "theorems": [
    "C65_allocates",
    "C65_bounded_refuted"
   ],
   "note": "The bound is false for every header (C65_allocates); stated as a refutation with 2^31-1 rows and columns."
  },
  {
   "property": "C66",
   "status": "proved",
   "theorems": [
    "C66_resave"
   ],
   "note": ""
  },
  {
   "property": "C67",
   "status": "proved",
   "theorems": [
    "C67_logged",
    "C67_never_returned",
    "C67_panics",
    "C67_returned_refuted",
    "C67_init_logger"
   ],
   "note": ""
  },
  {
   "property": "C68",
   "status": "proved",
   "theorems": [
    "C68_plain_sgd",
    "C68_momentum_refuted"
   ],
   "note": "Equal for SGD without decay and momentum (C68_plain_sgd); refuted with momentum."
  },
  {
   "property": "C69",
   "status": "proved",
   "theorems": [
    "C69_stable"
   ],
   "note": ""
  },
  {
   "property": "C70",
   "status": "proved",
   "theorems": [
    "C70_log_lines"
   ],
   "note": ""
  },
  {
   "property": "C71",
   "status": "proved",
   "theorems": [
    "C71_linear_converges",
    "C71_any_rate_refuted"
   ],
   "note": "Exact arithmetic. The claim for any learning rate is refuted (C71_any_rate_refuted)."
  },
  {
   "property": "C72",
   "status": "proved",
   "theorems": [
    "C72_softmax_converges"
   ],
   "note": "Exact arithmetic; one-hot labels."
  },
  {
   "property": "C73",
   "status": "proved",
   "theorems": [
    "C73_row_order",
    "C73_float_order_refuted"
   ],
   "note": "Exact arithmetic; refuted for float64 (C73_float_order_refuted)."
  },
  {
   "property": "C74",
   "status": "proved",
   "theorems": [
    "C74_mae_never_trains",
    "C74_fresh_optimizers"
   ],
   "note": "Exact arithmetic. Optimizers without history (zero momentum and cache), as installed by Finalize (C74_fresh_optimizers)."
  },
  {
   "property": "C75",
   "status": "proved",
   "theorems": [
    "C75_zero_network_never_learns"
   ],
   "note": "Exact arithmetic. Excludes Softmax and Sigmoid before the last layer (their output is not zero)."
  },
  {
   "property": "C76",
   "status": "proved",
   "theorems": [
    "C76_late_layer",
    "C76_reports_error_refuted"
   ],
   "note": "Added layer of equal input and output size, not Sigmoid, sharing no storage."
  },
  {
   "property": "C77",
   "status": "proved",
   "theorems": [
    "C77_same_start",
    "C77_extra_samples",
    "C77_few_samples",
    "C77_extra_reported_refuted",
    "C77_few_reported_refuted"
   ],
   "note": "The case of fewer samples with spare capacity behind the slice is not covered (Go then reads past the declared rows)."
  },
  {
   "property": "C78",
   "status": "proved",
   "theorems": [
    "C78_wrong_inputs",
    "C78_wrong_labels",
    "C78_no_labels",
    "C78_no_labels_no_batch"
   ],
   "note": "Numbers of samples and labels equal; see C77 for the other case."
  },
  {
   "property": "C79",
   "status": "proved",
   "theorems": [
    "C79_larger_gradient",
    "C79_small_weight_gradient",
    "C79_small_bias_gradient",
    "C79_larger_reported_refuted",
    "C79_smaller_reported_refuted"
   ],
   "note": "Gradients not empty."
  },
  {
   "property": "C80",
   "status": "proved",
   "theorems": [
    "C80_adam_step_bounded",
    "C80_adam_first_step",
    "C80_at_most_rate_refuted",
    "C80_momentum_step_bounded"
   ],
   "note": "Exact arithmetic. The bound by the learning rate itself is refuted."
  },
  {
   "property": "C81",
   "status": "proved",
   "theorems": [
    "C81_independent",
    "C81_dropout_refuted",
    "C81_sharing_refuted"
   ],
   "note": "The Fit calls log nothing (logEvery 0); C49 covers logging."
  },
  {
   "property": "C82",
   "status": "proved",
   "theorems": [
    "C82_session",
    "C82_float",
    "C82_prepared"
   ],
   "note": "Fit logs nothing here (logEvery 0). The sum of samples and batch size is at most 2^52."
  },
  {
   "property": "C83",
   "status": "proved",
   "theorems": [
    "C83_units",
    "C83_output",
    "C83_features",
    "C83_dropout_refuted"
   ],
   "note": "Follows the code through the refinement of C48; holds for float64."
  },
  {
   "property": "C84",
   "status": "proved",
   "theorems": [
    "C84_first_layer",
    "C84_later_layer",
    "C84_float"
   ],
   "note": "The later-layer and the optimizer-independent forms are in exact arithmetic; the float64 form is for the first layer and plain SGD."
  },
  {
   "property": "C85",
   "status": "proved",
   "theorems": [
    "C85_direct",
    "C85_law",
    "C85_range",
    "C85_certain",
    "C85_mirror",
    "C85_fuel",
    "C85_one",
    "C85_nan",
    "C85_terminates_refuted"
   ],
   "note": "Range, certain outcomes and mirror image are in exact arithmetic with math.Floor exact; math.Lgamma, Log1p and Tan are arbitrary functions. The distribution is proved for the direct method; for the rejection methods only the range and the symmetry."
  },
  {
   "property": "C86",
   "status": "proved",
   "theorems": [
    "C86_one_nan",
    "C86_predictions",
    "C86_for_ever"
   ],
   "note": "Assumes math.Exp(NaN) = NaN, as documented; the other library functions are arbitrary."
  },
  {
   "property": "C87",
   "status": "proved",
   "theorems": [
    "C87_draws",
    "C87_outputs",
    "C87_gradients"
   ],
   "note": ""
  },
  {
   "property": "C88",
   "status": "proved",
   "theorems": [
    "C88_uniform",
    "C88_count"
   ],
   "note": ""
  },
  {
   "property": "C89",
   "status": "proved",
   "theorems": [
    "C89_softmax",
    "C89_adam_refuted",
    "C89_soft_labels_refuted"
   ],
   "note": ""
  },
  {
   "property": "C90",
   "status": "proved",
   "theorems": [
    "C90_Dot",
    "C90_predict",
    "C90_class",
    "C90_class_refuted"
   ],
   "note": "sigmoid and softmax layers are excluded: the accuracy of math.Exp is not documented"
  },
  {
   "property": "C91",
   "status": "proved",
   "theorems": [
    "C91_never_further",
    "C91_rate",
    "C91_converges",
    "C91_no_exact_fit_refuted"
   ],
   "note": "exact arithmetic; full-batch training on arbitrary data is C71"
  },
  {
   "property": "C92",
   "status": "proved",
   "theorems": [
    "C92_weight",
    "C92_bias",
    "C92_inputs",
    "C92_magic",
    "C92_tag",
    "C92_damage_reported_refuted"
   ],
   "note": "the format has no checksum"
  },
  {
   "property": "C93",
   "status": "proved",
   "theorems": [
    "C93_average",
    "C93_sum",
    "C93_adam",
    "C93_same_refuted"
   ],
   "note": "the mean losses are means over the outputs only, so their gradients grow with the batch"
  },
  {
   "property": "C94",
   "status": "proved",
   "theorems": [
    "C94_matrix",
    "C94_matrix_scalar",
    "C94_misc",
    "C94_accuracy",
    "C94_loss",
    "C94_network",
    "C94_model",
    "C94_data",
    "C94_optimizers"
   ],
   "note": "deterministic tests by computation with an abstract math library; the others from the refinement theorems"
  },
  {
   "property": "C95",
   "status": "proved",
   "theorems": [
    "C95_any",
    "C95_real",
    "C95_float",
    "C95_softmax_float"
   ],
   "note": "float64 version: monotone rounding bounds each exponential by the rounded sum"
  },
  {
   "property": "C96",
   "status": "proved",
   "theorems": [
    "C96_layers",
    "C96_loss",
    "C96_model_loss",
    "C96_adam",
    "C96_denominator"
   ],
   "note": "rounding is monotone and keeps signs; hypotheses on exp, pow and log are stated in the theorems"
  },
  {
   "property": "C97",
   "status": "proved",
   "theorems": [
    "C97_train",
    "C97_predict",
    "C97_loss",
    "C97_float_refuted"
   ],
   "note": "finite sums are invariant under reordering; float64 refuted by a three-term sum"
  },
  {
   "property": "C98",
   "status": "proved",
   "theorems": [
    "C98_shared",
    "C98_alone"
   ],
   "note": "each step only writes the caches of one layer and fresh memory; induction over the schedule"
  },
  {
   "property": "C99",
   "status": "proved",
   "theorems": [
    "C99_momentum",
    "C99_monotone_refuted",
    "C99_decay",
    "C99_decay_limit",
    "C99_adam_refuted"
   ],
   "note": "energy argument (objective plus kinetic term) and a shifted distance; harmonic sums diverge; refuted: one sample rises from 0 to 1/16"
  },
  {
   "property": "C100",
   "status": "proved",
   "theorems": [
    "C100_no_overflow",
    "C100_huge",
    "C100_any_batch"
   ],
   "note": "range analysis of the batch loop; rounding to float64 is monotone"
  },
  {
   "property": "C101",
   "status": "proved",
   "theorems": [
    "C101_predict",
    "C101_class",
    "C101_binary",
    "C101_sharp"
   ],
   "note": "mean value theorem for the sigmoid; softmax as sigmoid of the log odds; induction over the layers"
  },
  {
   "property": "C102",
   "status": "proved",
   "theorems": [
    "C102_collapse",
    "C102_xor",
    "C102_xor_classes",
    "C102_trained",
    "C102_hidden_refuted"
   ],
   "note": "merging of affine maps; the affine outputs of the four samples add up crosswise while the activations are monotone"
  },
  {
   "property": "C103",
   "status": "proved",
   "theorems": [
    "C103_spiral",
    "C103_iris",
    "C103_iris_unread",
    "C103_sine",
    "C103_sine_remainder",
    "C103_TestSpiral",
    "C103_TestIris",
    "C103_TestSine",
    "C103_iris_error_refuted",
    "C103_iris_file",
    "C103_iris_nearest",
    "C103_parse",
    "C103_parse_value",
    "C103_csv",
    "C103_csv_ragged",
    "C103_spiral_distance",
    "C103_one_point"
   ],
   "note": "the three programs, with any parameters and with their own"
  },
  {
   "property": "C104",
   "status": "proved",
   "theorems": [
    "C104_int",
    "C104_float",
    "C104_float_monotone",
    "C104_nan",
    "C104_errors",
    "C104_error_lines",
    "C104_error_numbers",
    "C104_level",
    "C104_warning",
    "C104_fit_errors",
    "C104_which_pass_refuted",
    "C104_info",
    "C104_training",
    "C104_file",
    "C104_one_line",
    "C104_warning_line_refuted",
    "C104_accuracy",
    "C104_accuracy_large_refuted",
    "C104_zero_loss_refuted"
   ],
   "note": "%d, %f, error messages, log lines and the log file"
  },
  {
   "property": "C105",
   "status": "proved",
   "theorems": [
    "C105_memorise",
    "C105_classes",
    "C105_width",
    "C105_trained"
   ],
   "note": "memorisation with n units, impossibility for 2n+3 alternating samples"
  },
  {
   "property": "C106",
   "status": "proved",
   "theorems": [
    "C106_approximate"
   ],
   "note": "universal approximation in one variable"
  },
  {
   "property": "C107",
   "status": "proved",
   "theorems": [
    "C107_same_file",
    "C107_sequence",
    "C107_first_only"
   ],
   "note": "unique decodability; sequences of saved models in one buffer"
  },
  {
   "property": "C108",
   "status": "proved",
   "theorems": [
    "C108_step",
    "C108_run",
    "C108_adam_refuted"
   ],
   "note": "conservation law of homogeneous units under SGD; false for Adam"
  },
  {
   "property": "C109",
   "status": "proved",
   "theorems": [
    "C109_predict",
    "C109_loss",
    "C109_training_refuted"
   ],
   "note": "positive rescaling of units; not respected by SGD"
  },
  {
   "property": "C110",
   "status": "proved",
   "theorems": [
    "C110_still",
    "C110_adam_refuted"
   ],
   "note": "C110_adam_refuted is the float64 counterexample: NewAdamOptimizer checks the learning rate and the decay only."
  },
  {
   "property": "C111",
   "status": "proved",
   "theorems": [
    "C111_parts",
    "C111_spare",
    "C111_adam_refuted"
   ],
   "note": "C111_adam_refuted: on a sample that occurs twice Adam does not move twice as far."
  },
  {
   "property": "C112",
   "status": "proved",
   "theorems": [
    "C112_accuracy",
    "C112_loss",
    "C112_accuracy_parts",
    "C112_loss_parts",
    "C112_accuracy_order",
    "C112_loss_order",
    "C112_order_refuted"
   ],
   "note": "C112_order_refuted: swapping two samples changes the mean squared error of the data set, because only the first row is read."
  },
  {
   "property": "C113",
   "status": "proved",
   "theorems": [
    "C113_categorical",
    "C113_binary",
    "C113_regression",
    "C113_sharp",
    "C113_converse_refuted",
    "C113_rows_refuted"
   ],
   "note": "C113_rows_refuted: the code's squared error reads the first sample only, so a loss of 0 goes with an accuracy of 1/2."
  },
  {
   "property": "C114",
   "status": "proved",
   "theorems": [
    "C114_span",
    "C114_feature",
    "C114_adam_refuted"
   ],
   "note": "C114_adam_refuted: one Adam step on a single sample leaves the line of the input."
  },
  {
   "property": "C115",
   "status": "proved",
   "theorems": [
    "C115_loss",
    "C115_accuracy",
    "C115_sharp"
   ],
   "note": "The largest shares enter as any bound B on the shares of the samples with the same input."
  },
  {
   "property": "C116",
   "status": "proved",
   "theorems": [
    "C116_depth",
    "C116_narrow",
    "C116_narrow_trained"
   ],
   "note": "The parameters are constructed (a running maximum of cones over a grid); nothing is claimed about training finding them. C116_narrow and C116_narrow_trained give the limit."
  },
  {
   "property": "C117",
   "status": "proved",
   "theorems": [
    "C117_bias",
    "C117_rest",
    "C117_average"
   ],
   "note": "Full batches, plain SGD in the last layer (the earlier layers may use any optimizer), no dropout layers, exact arithmetic."
  },
  {
   "property": "C118",
   "status": "proved",
   "theorems": [
    "C118_modes",
    "C118_diverges",
    "C118_one_sample"
   ],
   "note": "Complements the convergence theorems by the exact course and the exact limit of the rate."
  },
  {
   "property": "C119",
   "status": "proved",
   "theorems": [
    "C119_exactly",
    "C119_speed",
    "C119_loss",
    "C119_positive",
    "C119_only_if"
   ],
   "note": "Full batches and plain SGD, one softmax layer, exact arithmetic; the positive loss holds for every model ending in softmax."
  },
  {
   "property": "C120",
   "status": "proved",
   "theorems": [
    "C120_deep",
    "C120_shallow",
    "C120_pieces",
    "C120_trained"
   ],
   "note": "Exact arithmetic; parameters are placed in the heap of an existing model, training is not claimed to find them."
  },
  {
   "property": "C121",
   "status": "proved",
   "theorems": [
    "C121_no_further",
    "C121_stable"
   ],
   "note": "Exact arithmetic, plain SGD and full batches."
  },
  {
   "property": "C122",
   "status": "proved",
   "theorems": [
    "C122_course",
    "C122_exactly",
    "C122_fast",
    "C122_slow",
    "C122_beats"
   ],
   "note": "Exact arithmetic, no decay, full batches, one linear layer."
  },
  {
   "property": "C123",
   "status": "proved",
   "theorems": [
    "C123_unfused",
    "C123_Dot",
    "C123_predict",
    "C123_class",
    "C123_same_class_refuted"
   ],
   "note": "Inference only; layers that call math.Exp are left out as in C90. FmaGo.v repeats the inference path with a choice of fused additions and is proved equal to the model when nothing is fused."
  },
  {
   "property": "C124",
   "status": "proved",
   "theorems": [
    "C124_fit",
    "C124_unsure_refuted"
   ],
   "note": "Entries whose t_ok flag is false carry no promise: a possible overflow, a division by an uncertain divisor, or math.Pow and math.Sqrt, so nothing is promised under Adam. The underflow term is 2^-200 instead of 2^-1075 (coarser, still sound)."
  },
  {
   "property": "C125",
   "status": "proved",
   "theorems": [
    "C125_train",
    "C125_predict",
    "C125_adam_refuted"
   ],
   "note": "Exact arithmetic (R). Dropout layers are included when both runs draw the same random numbers."
  },
  {
   "property": "C126",
   "status": "proved",
   "theorems": [
    "C126_fit",
    "C126_equal",
    "C126_gradient",
    "C126_one_object_refuted"
   ],
   "note": "Logging is off in C126_fit. The gradient statement is in exact arithmetic (R), without active dropout. Tying is done by the caller through the exported Weights and Biases pointers."
  },
  {
   "property": "C127",
   "status": "proved",
   "theorems": [
    "C127_poisson",
    "C127_log",
    "C127_cauchy",
    "C127_cauchy_again",
    "C127_every_value_refuted"
   ],
   "note": "In exact arithmetic (R) except the refutation, with math.Lgamma and math.Log1p exact at the points used; probabilities above 1/2 follow by C85_mirror. That the Cauchy acceptance value is at most 1 is not proved."
  },
  {
   "property": "C128",
   "status": "proved",
   "theorems": [
    "C128_fit",
    "C128_plain",
    "C128_inputs",
    "C128_form",
    "C128_learns_refuted"
   ],
   "note": "Sigmoid layers have to be square (in = out). The inputs must have distinct row arrays, apart from targets, validation data, parameters and optimizer matrices. C128_form and C128_learns_refuted are in exact arithmetic with plain SGD."
  },
  {
   "property": "C129",
   "status": "proved",
   "theorems": [
    "C129_narrow",
    "C129_wide",
    "C129_wide_first"
   ],
   "note": "The wide case assumes that the logger is set (without it the error path dereferences a nil logger, C67) and that the layer before is not a softmax layer (its Backward checks its cached outputs first; that case is not proved). The wide first layer is proved for SGD without momentum."
  },
  {
   "property": "C130",
   "status": "proved",
   "theorems": [
    "C130_classes",
    "C130_bits",
    "C130_class_zero_refuted",
    "C130_hidden_refuted"
   ],
   "note": "In exact arithmetic. Leaky layers need a slope that is not negative. The binary statement excludes a softmax last layer."
  },
  {
   "property": "C131",
   "status": "proved",
   "theorems": [
    "C131_train",
    "C131_predict",
    "C131_relu_refuted"
   ],
   "note": "In exact arithmetic. With dropout layers both runs must see the same random numbers."
  },
  {
   "property": "C132",
   "status": "proved",
   "theorems": [
    "C132_float",
    "C132_binary",
    "C132_exact",
    "C132_strict_refuted"
   ],
   "note": "Float64 means separately rounded products and sums (no fused multiply-add). With sigmoid layers the float64 theorems assume an Exp that is monotone and not negative. Predictions by RowMax are not covered."
  },
  {
   "property": "C133",
   "status": "proved",
   "theorems": [
    "C133_train",
    "C133_predict",
    "C133_mae_refuted",
    "C133_adam_refuted"
   ],
   "note": "Over the reals. The refutations are one linear unit with the mean absolute error, and one with the squared error and Adam."
  },
  {
   "property": "C134",
   "status": "proved",
   "theorems": [
    "C134_check",
    "C134_finite_refuted"
   ],
   "note": "The check compares two runs from the same state. The refutation is a kernel computation of 514 epochs in float64."
  },
  {
   "property": "C135",
   "status": "proved",
   "theorems": [
    "C135_train",
    "C135_predict",
    "C135_train_exact",
    "C135_predict_exact",
    "C135_relu_refuted"
   ],
   "note": "One simulation proof over an abstract number type with sign laws (flip_laws), instantiated for the reals and for binary64. For Adam in float64 the hypothesis even_square asks that math.Pow(x, 2) ignores the sign of x. The predictions are compared for regression models only (no classes)."
  },
  {
   "property": "C136",
   "status": "proved",
   "theorems": [
    "C136_train",
    "C136_predict",
    "C136_train_exact",
    "C136_predict_exact",
    "C136_scale_refuted",
    "C136_shift_refuted"
   ],
   "note": "The float64 and Adam counterpart of C125 for reflections of coordinates. Predictions are compared for all three accuracy types. Scaling or shifting a feature instead of turning its sign is refuted by C136_scale_refuted and C136_shift_refuted."
  }
 ]
}