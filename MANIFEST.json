{
 "claims": [
  {
   "property": "C01",
   "status": "proved",
   "theorems": [
    "C01_vector_history_coherent",
    "C01_coherent_sizes"
   ],
   "note": "All client programs (finite trees of calls, arbitrary arguments and references); coherence of sizes, ownership, no leak."
  },
  {
   "property": "C02",
   "status": "proved",
   "theorems": [
    "C02_vector_history_refines",
    "C02_push_back",
    "C02_append",
    "C02_append_null",
    "C02_insert",
    "C02_insert_out_of_range",
    "C02_remove",
    "C02_remove_out_of_range",
    "C02_remove_unordered",
    "C02_invert",
    "C02_fill",
    "C02_element_get",
    "C02_element_get_out_of_range",
    "C02_element_set",
    "C02_element_set_negative",
    "C02_index",
    "C02_index_out_of_range",
    "C02_resize"
   ],
   "note": "Single calls for every scalar arithmetic, plus refinement of whole client programs."
  },
  {
   "property": "C03",
   "status": "proved",
   "theorems": [
    "C03_find",
    "C03_erase"
   ],
   "note": ""
  },
  {
   "property": "C04",
   "status": "proved",
   "theorems": [
    "C04_erase_multiple"
   ],
   "note": ""
  },
  {
   "property": "C05",
   "status": "proved",
   "theorems": [
    "C05_sort_ieee",
    "C05_sort"
   ],
   "note": "Any strict weak order; instance: IEEE-754 floats of any format without NaN."
  },
  {
   "property": "C06",
   "status": "proved",
   "theorems": [
    "C06_ordered_insert_ieee",
    "C06_ordered_insert"
   ],
   "note": ""
  },
  {
   "property": "C07",
   "status": "proved",
   "theorems": [
    "C07_add",
    "C07_sub",
    "C07_hadamard",
    "C07_max",
    "C07_min"
   ],
   "note": ""
  },
  {
   "property": "C08",
   "status": "proved",
   "theorems": [
    "C08_log",
    "C08_log10",
    "C08_exp",
    "C08_erf",
    "C08_exponentiate",
    "C08_sqrt",
    "C08_cbrt",
    "C08_abs",
    "C08_sin",
    "C08_scalar_multiply",
    "C08_scalar_add",
    "C08_cos",
    "C08_scalar_multiplyb_null"
   ],
   "note": "In-place cos() proved to compute square roots (defect in the code)."
  },
  {
   "property": "C09",
   "status": "proved",
   "theorems": [
    "C09_division_new_into",
    "C09_division_inplace_undefined",
    "C09_division_inplace_noop"
   ],
   "note": "The in-place form is proved to be undefined behaviour on every non-empty input (defect in the code)."
  },
  {
   "property": "C10",
   "status": "proved",
   "theorems": [
    "C10_matrix_duplicate",
    "C10_matrix_set_from",
    "C10_matrix_set_from_null",
    "C10_matrix_writes_independent",
    "C10_duplicate",
    "C10_set_from",
    "C10_writes_independent"
   ],
   "note": ""
  },
  {
   "property": "C11",
   "status": "proved",
   "theorems": [
    "C11_matrix_get_data",
    "C11_matrix_roundtrip",
    "C11_matrix_set_data_malformed",
    "C11_get_data",
    "C11_roundtrip",
    "C11_set_data"
   ],
   "note": ""
  },
  {
   "property": "C12",
   "status": "proved",
   "theorems": [
    "C12_dot_real",
    "C12_sum_real",
    "C12_norm_real",
    "C12_dist_real",
    "C12_dot_symmetric",
    "C12_dot_additive",
    "C12_dot_homogeneous",
    "C12_cauchy_schwarz",
    "C12_distance_metric",
    "C12_dot_fold",
    "C12_sum_fold",
    "C12_norm_sq_fold",
    "C12_dist_sq_fold",
    "C12_null"
   ],
   "note": "Folds for any arithmetic (PropVec); laws over exact reals (PropReal)."
  },
  {
   "property": "C13",
   "status": "proved",
   "theorems": [
    "C13_max_element_ieee",
    "C13_min_element_ieee",
    "C13_max_element",
    "C13_min_element",
    "C13_empty"
   ],
   "note": ""
  },
  {
   "property": "C14",
   "status": "proved",
   "theorems": [
    "C14_flatten",
    "C14_flattenn",
    "C14_vecn",
    "C14_vecn_full"
   ],
   "note": ""
  },
  {
   "property": "C15",
   "status": "proved",
   "theorems": [
    "C15_element_get",
    "C15_element_set",
    "C15_element_set_out_of_range",
    "C15_get_after_set",
    "C15_element_get_index",
    "C15_element_index_out_of_range"
   ],
   "note": ""
  },
  {
   "property": "C16",
   "status": "proved",
   "theorems": [
    "C16_row_add",
    "C16_row_add_first",
    "C16_row_add_rejected",
    "C16_rows_add",
    "C16_rows_add_rejected",
    "C16_row_remove",
    "C16_row_remove_unordered",
    "C16_row_swap",
    "C16_row_set",
    "C16_row_get",
    "C16_out_of_range",
    "C16_row_set_wrong_width",
    "C16_set_from_rows",
    "C16_reset"
   ],
   "note": ""
  },
  {
   "property": "C17",
   "status": "proved",
   "theorems": [
    "C17_multn",
    "C17_mult",
    "C17_multb",
    "C17_rejected",
    "C17_mult_self_is_zero",
    "C17_multb_right_operand_is_zero",
    "C17_multb_left_operand_is_zero"
   ],
   "note": ""
  },
  {
   "property": "C18",
   "status": "proved",
   "theorems": [
    "C18_mult_assoc",
    "C18_mult_add_right",
    "C18_mult_add_left",
    "C18_add_comm",
    "C18_identity_unit",
    "C18_transpose_involution",
    "C18_transpose_mult"
   ],
   "note": ""
  },
  {
   "property": "C19",
   "status": "proved",
   "theorems": [
    "C19_transpose",
    "C19_transposeb_self"
   ],
   "note": ""
  },
  {
   "property": "C20",
   "status": "proved",
   "theorems": [
    "C20_kronecker",
    "C20_kronecker_inplace_undefined",
    "C20_kronecker_inplace_1x1"
   ],
   "note": ""
  },
  {
   "property": "C21",
   "status": "proved",
   "theorems": [
    "C21_add",
    "C21_sub",
    "C21_hadamard",
    "C21_division",
    "C21_max",
    "C21_min",
    "C21_log",
    "C21_log10",
    "C21_exp",
    "C21_erf",
    "C21_exponentiate",
    "C21_sqrt",
    "C21_cbrt",
    "C21_abs",
    "C21_sin",
    "C21_cos",
    "C21_scalar_multiply",
    "C21_scalar_add"
   ],
   "note": ""
  },
  {
   "property": "C22",
   "status": "proved",
   "theorems": [
    "C22_det_expansion",
    "C22_det_1x1",
    "C22_det",
    "C22_det_mult",
    "C22_det_transpose"
   ],
   "note": ""
  },
  {
   "property": "C23",
   "status": "proved",
   "theorems": [
    "C23_inverse_1x1",
    "C23_adjoint_not_square",
    "C23_adjoint",
    "C23_inverse",
    "C23_invertible_iff",
    "C23_mult_inverse"
   ],
   "note": ""
  },
  {
   "property": "C24",
   "status": "proved",
   "theorems": [
    "C24_solve",
    "C24_mult_solve"
   ],
   "note": ""
  },
  {
   "property": "C25",
   "status": "proved",
   "theorems": [
    "C25_powern_nonneg",
    "C25_powern_add",
    "C25_powern_neg",
    "C25_powern_cancel"
   ],
   "note": ""
  },
  {
   "property": "C26",
   "status": "proved",
   "theorems": [
    "C26_pinverse",
    "C26_pinverse_iff_symmetric"
   ],
   "note": ""
  },
  {
   "property": "C27",
   "status": "proved",
   "theorems": [
    "C27_rotation_entries",
    "C27_orthogonal",
    "C27_det_one",
    "C27_rotate",
    "C27_rotate_back",
    "C27_2d_not_rotation",
    "C27_axis2_not_rotation"
   ],
   "note": ""
  },
  {
   "property": "C28",
   "status": "proved",
   "theorems": [
    "C28_constants",
    "C28_identity",
    "C28_identity_mat",
    "C28_trace",
    "C28_diagonal",
    "C28_diagnm",
    "C28_outer_product",
    "C28_flatten"
   ],
   "note": ""
  },
  {
   "property": "C29",
   "status": "proved",
   "theorems": [
    "C29_mult_vec",
    "C29_mult_vec_too_long",
    "C29_add_vec",
    "C29_subtract_matrix_rows",
    "C29_subtract_matrix_rows_mismatch"
   ],
   "note": ""
  },
  {
   "property": "C30",
   "status": "proved",
   "theorems": [
    "C30_matrix_equal_approx",
    "C30_vector_equal_approx"
   ],
   "note": ""
  },
  {
   "property": "C31",
   "status": "proved",
   "theorems": [
    "C31_chebyshev",
    "C31_mean",
    "C31_variance",
    "C31_covariance",
    "C31_null",
    "C31_mean_translation",
    "C31_mean_additive",
    "C31_mean_homogeneous",
    "C31_variance_nonneg_zero",
    "C31_variance_translation",
    "C31_variance_scale",
    "C31_covariance_symmetric",
    "C31_covariance_self",
    "C31_covariance_additive",
    "C31_covariance_homogeneous",
    "C31_correlation_bounded"
   ],
   "note": ""
  },
  {
   "property": "C32",
   "status": "proved",
   "theorems": [
    "C32_least_squares",
    "C32_uni_lin_reg"
   ],
   "note": ""
  },
  {
   "property": "C33",
   "status": "proved",
   "theorems": [
    "C33_median_even",
    "C33_median_odd",
    "C33_median_single",
    "C33_median_empty"
   ],
   "note": ""
  },
  {
   "property": "C34",
   "status": "proved",
   "theorems": [
    "C34_values",
    "C34_chain",
    "C34_power_means",
    "C34_weighted_mean",
    "C34_heronian",
    "C34_heinz",
    "C34_log_mean",
    "C34_neuman_sandor_degenerate",
    "C34_idempotent",
    "C34_identric_symmetric",
    "C34_abs_avg_deviation",
    "C34_neuman_sandor",
    "C34_stolarsky",
    "C34_stolarsky_special",
    "C34_identric"
   ],
   "note": ""
  },
  {
   "property": "C35",
   "status": "proved",
   "theorems": [
    "C35_mode",
    "C35_mode_exists",
    "C35_mode_empty_ub",
    "C35_range",
    "C35_mode_ieee",
    "C35_range_ieee"
   ],
   "note": ""
  },
  {
   "property": "C36",
   "status": "proved",
   "theorems": [
    "C36_derivative",
    "C36_leaky_relu",
    "C36_elu",
    "C36_selu",
    "C36_arsech_refuted",
    "C36_dispatch",
    "C36_dispatch_refuted",
    "C36_gelu"
   ],
   "note": "selu, arsech and the enum dispatch refuted (defects). GELU derivative not covered (its rounded coefficients only approximate the derivative)."
  },
  {
   "property": "C37",
   "status": "proved",
   "theorems": [
    "C37_norm_vector",
    "C37_norm_matrix",
    "C37_deriv_vector",
    "C37_deriv_matrix",
    "C37_matrix_null_refuted",
    "C37_arcsch_deriv_vector_refuted",
    "C37_cloglog_deriv_refuted",
    "C37_softmax_deriv_matrix_diverges",
    "C37_null_argument",
    "C37_elementwise"
   ],
   "note": "Defective forms proved as *_refuted. softmax_deriv_normm (list of Jacobians) modelled, not characterised."
  },
  {
   "property": "C38",
   "status": "proved",
   "theorems": [
    "C38_inverse_functions",
    "C38_ranges",
    "C38_softmax_vector",
    "C38_softmax_matrix",
    "C38_softmax_distribution",
    "C38_softmax_jacobian",
    "C38_adj_softmax_vector",
    "C38_adj_softmax_matrix",
    "C38_softmax_deriv_vector_is_softmax",
    "C38_gelu"
   ],
   "note": ""
  },
  {
   "property": "C39",
   "status": "proved",
   "theorems": [
    "C39_cost_value",
    "C39_cost_mismatch",
    "C39_huber_value",
    "C39_weighted_hinge_vector",
    "C39_weighted_hinge_matrix_refuted",
    "C39_cost_null",
    "C39_mse_normalisation_refuted"
   ],
   "note": "values are over exact reals; the code evaluates parts in double and parts in float"
  },
  {
   "property": "C40",
   "status": "proved",
   "theorems": [
    "C40_mse_gradient",
    "C40_rmse_gradient_vector",
    "C40_rmse_direction_matrix",
    "C40_cross_entropy_gradient",
    "C40_mbe_gradient_vector",
    "C40_mbe_matrix_shape_refuted",
    "C40_hinge_gradient",
    "C40_wasserstein_gradient",
    "C40_log_loss_gradient",
    "C40_mae_deriv_value",
    "C40_mae_gradient_refuted",
    "C40_huber_inside",
    "C40_huber_outside_refuted",
    "C40_deriv_mismatch_vector",
    "C40_deriv_mismatch_matrix_refuted"
   ],
   "note": ""
  },
  {
   "property": "C41",
   "status": "proved",
   "theorems": [
    "C41_error_costs",
    "C41_hinge",
    "C41_cross_entropy_minimum",
    "C41_huber"
   ],
   "note": ""
  },
  {
   "property": "C42",
   "status": "proved",
   "theorems": [
    "C42_reg_term",
    "C42_reg_gradient",
    "C42_reg_weights",
    "C42_clipping",
    "C42_ridge_shrinks"
   ],
   "note": ""
  },
  {
   "property": "C43",
   "status": "proved",
   "theorems": [
    "C43_svm_value",
    "C43_svm_gradient",
    "C43_svm_bounded_below"
   ],
   "note": ""
  },
  {
   "property": "C44",
   "status": "proved",
   "theorems": [
    "C44_cholesky",
    "C44_factor_unique",
    "C44_round_trip",
    "C44_lower_only",
    "C44_not_square"
   ],
   "note": ""
  },
  {
   "property": "C45",
   "status": "proved",
   "theorems": [
    "C45_gram_schmidt",
    "C45_qrd",
    "C45_qr_unique"
   ],
   "note": ""
  },
  {
   "property": "C46",
   "status": "proved",
   "theorems": [
    "C46_inverse",
    "C46_pinverse",
    "C46_solve",
    "C46_covariance_matrix",
    "C46_projection"
   ],
   "note": "covariance matrix proved for rows >= columns (the code mis-sizes the other case)"
  },
  {
   "property": "C47",
   "status": "proved",
   "theorems": [
    "C47_square",
    "C47_tall",
    "C47_wide"
   ],
   "note": "Square matrices right; tall and wide behaviour proved as it is (defects)."
  },
  {
   "property": "C48",
   "status": "proved",
   "theorems": [
    "C48_mv_batches",
    "C48_mv_labels_refuted",
    "C48_m_batches",
    "C48_mm_batches",
    "C48_mv_inputs_partition",
    "C48_mm_partition_iff",
    "C48_mm_rows_lost",
    "C48_no_batches_UB"
   ],
   "note": "Row content, freshness and frame of every batch; the wrong label batches and wrong strides are proved as they are."
  },
  {
   "property": "C49",
   "status": "proved",
   "theorems": [
    "C49_performance_vec",
    "C49_performance_large_refuted",
    "C49_performance_mat",
    "C49_accuracy",
    "C49_precision",
    "C49_recall_binary",
    "C49_f1",
    "C49_scores_short_UB",
    "C49_recall_multiclass_refuted"
   ],
   "note": "Over the reals; the vector of rounded predictions is compared with the approximate equality the code uses."
  },
  {
   "property": "C50",
   "status": "proved",
   "theorems": [
    "C50_gd_run",
    "C50_evaluatem",
    "C50_predictions",
    "C50_gd_epoch",
    "C50_gd_descent",
    "C50_gd_rate",
    "C50_mle_is_gd"
   ],
   "note": "Run theorems hold in any scalar arithmetic (including regularised steps); gradient, descent and rate over the reals for unregularised steps."
  },
  {
   "property": "C51",
   "status": "proved",
   "theorems": [
    "C51_sgd_run",
    "C51_mbgd_run",
    "C51_mbgd_one_batch",
    "C51_mbgd_ignores_labels_refuted",
    "C51_mbgd_bad_size_UB",
    "C51_sgd_regret",
    "C51_sgd_lin_contracts",
    "C51_sgd_regret_run"
   ],
   "note": "Random draws are an oracle parameter of the model; regret and contraction over the reals without regularisation."
  },
  {
   "property": "C52",
   "status": "proved",
   "theorems": [
    "C52_normal_equation_run",
    "C52_normal_equation",
    "C52_normal_equation_joint_iff",
    "C52_newton_full_step"
   ],
   "note": "Run theorem in any arithmetic; optimality over the reals. One column is excluded because det of a 1x1 matrix is 0 in the code."
  },
  {
   "property": "C53",
   "status": "proved",
   "theorems": [
    "C53_adaptive_run",
    "C53_adaptive_textbook",
    "C53_weights_frozen_refuted",
    "C53_only_first_label_refuted",
    "C53_adagrad_bounded"
   ],
   "note": "Run theorem in any arithmetic; textbook recurrences (GlmSpec2.v) and the frozen-weights defect over the reals."
  },
  {
   "property": "C54",
   "status": "proved",
   "theorems": [
    "C54_new_log",
    "C54_new_lin",
    "C54_new_lin_UB",
    "C54_fit",
    "C54_small_parameters_ignored_refuted",
    "C54_model_test",
    "C54_model_set_test",
    "C54_score",
    "C54_uninitialised"
   ],
   "note": "Construction in any arithmetic; convergence and the ignored small parameters over the reals."
  },
  {
   "property": "C55",
   "status": "proved",
   "theorems": [
    "C55_neighbours",
    "C55_neighbours_full",
    "C55_model_test",
    "C55_model_test_label",
    "C55_constant",
    "C55_one_neighbour",
    "C55_null_output",
    "C55_null_output_trained",
    "C55_null_input",
    "C55_null_query",
    "C55_model_set_test",
    "C55_model_set_test_null",
    "C55_score"
   ],
   "note": "Search and vote in any arithmetic with a strict weak order on the distances; score over the reals. The refuted parts (fewer neighbours, row-number votes) are stated as what the code does."
  },
  {
   "property": "C56",
   "status": "proved",
   "theorems": [
    "C56_kmeanspp_two_clusters_refuted",
    "C56_train",
    "C56_train_more",
    "C56_train_learns_nothing_refuted",
    "C56_model_test",
    "C56_model_set_test",
    "C56_model_set_test_before_training_refuted",
    "C56_reconfigure",
    "C56_null",
    "C56_update_optimal",
    "C56_epoch_descends",
    "C56_score",
    "C56_train_descends",
    "C56_train_raises_error_refuted"
   ],
   "note": "silhouette_scores is not modelled; the random row numbers are a parameter. kmeans++ is covered for two clusters only (undefined behaviour)."
  },
  {
   "property": "C57",
   "status": "proved",
   "theorems": [
    "C57_row_get_vector_refuted",
    "C57_x_slice_refuted",
    "C57_y_slice_refuted",
    "C57_element_get",
    "C57_element_set",
    "C57_element_set_out_of_range",
    "C57_get_after_set",
    "C57_flat_index",
    "C57_row_get",
    "C57_row_get_into",
    "C57_row_get_vector_ignores_slice",
    "C57_row_set",
    "C57_row_rejected",
    "C57_x_slice_get_swaps",
    "C57_x_slice_set_swaps",
    "C57_y_slice_get_swaps",
    "C57_y_slice_set_swaps"
   ],
   "note": "Over an abstract scalar; images, strings and std::vector adapters of MLPPTensor3 are not modelled."
  },
  {
   "property": "C58",
   "status": "proved",
   "theorems": [
    "C58_every_tensor_is_its_slices",
    "C58_slice_add",
    "C58_slice_add_rejected",
    "C58_slice_remove",
    "C58_remove_unordered_first",
    "C58_remove_unordered_UB",
    "C58_slice_swap",
    "C58_slice_set",
    "C58_slice_set_rejected",
    "C58_slice_get",
    "C58_slice_get_into",
    "C58_slice_get_rejected",
    "C58_slice_get_into_null_UB",
    "C58_any_edit_sequence"
   ],
   "note": "z_slices_add_image and the other image functions are not modelled."
  },
  {
   "property": "C59",
   "status": "proved",
   "theorems": [
    "C59_binary",
    "C59_binary_rejected",
    "C59_unary",
    "C59_scalar",
    "C59_scalar_into_uses_own_entries",
    "C59_fill",
    "C59_copies",
    "C59_copies_independent",
    "C59_shape_set",
    "C59_resize",
    "C59_reset",
    "C59_flatten",
    "C59_set_from_matrix",
    "C59_set_from_matrices",
    "C59_set_from_vectors",
    "C59_roundtrip",
    "C59_set_data_malformed",
    "C59_is_equal_approx",
    "C59_is_equal_approx_other",
    "C59_tensor_vec_mult"
   ],
   "note": "Malformed set_from_mlpp_vectors input (null or wrongly sized later entries, which leave uninitialised rows) is modelled but not characterised."
  },
  {
   "property": "C60",
   "status": "proved",
   "theorems": [
    "C60_new",
    "C60_first_use_UB",
    "C60_initialize_refused",
    "C60_uninitialised",
    "C60_setters",
    "C60_setter_discards_training",
    "C60_gd_run",
    "C60_sgd_run",
    "C60_mbgd_run",
    "C60_mbgd_ignores_labels_refuted",
    "C60_mbgd_bad_size_UB"
   ],
   "note": "ui and save are not modelled; drawn values and indices are parameters; for the run theorems the unwritten hidden biases are assumed to be some readable values."
  },
  {
   "property": "C61",
   "status": "proved",
   "theorems": [
    "C61_model_test",
    "C61_model_set_test",
    "C61_score",
    "C61_gd",
    "C61_gd_output_layer",
    "C61_gd_descends",
    "C61_gd_fixed_points",
    "C61_gd_hidden_layer_refuted",
    "C61_sgd"
   ],
   "note": "Exact reals; the descent bound is existential; hypotheses met in ExMlp.v."
  },
  {
   "property": "C62",
   "status": "proved",
   "theorems": [
    "C62_vector",
    "C62_matrix",
    "C62_matrix_no_columns_UB",
    "C62_vector_limits",
    "C62_matrix_scale_refuted",
    "C62_matrix_limits"
   ],
   "note": "Draws are parameters; std::normal_distribution is taken as mean/stddev times a standard draw; exact reals."
  },
  {
   "property": "C63",
   "status": "proved",
   "theorems": [
    "C63_forward",
    "C63_forward_redraws",
    "C63_new_UB",
    "C63_test",
    "C63_test_is_row",
    "C63_setters",
    "C63_set_weights_lost",
    "C63_ignores_input_refuted"
   ],
   "note": "The forward theorems assume the bias vector is readable, which holds after set_bias; C63_new_UB shows what a fresh layer does."
  },
  {
   "property": "C64",
   "status": "proved",
   "theorems": [
    "C64_forward",
    "C64_forward_redraws",
    "C64_test",
    "C64_setters",
    "C64_new"
   ],
   "note": "Exact reals."
  },
  {
   "property": "C65",
   "status": "proved",
   "theorems": [
    "C65_model_set_test",
    "C65_learned_weights_ignored_refuted",
    "C65_forward",
    "C65_score",
    "C65_model_test",
    "C65_cost",
    "C65_cost_single_hidden_refuted",
    "C65_add_layer_UB",
    "C65_new",
    "C65_add_output_layer"
   ],
   "note": "Exact reals; draws are parameters of each call; ui and save are not modelled."
  },
  {
   "property": "C66",
   "status": "proved",
   "theorems": [
    "C66_step",
    "C66_rate",
    "C66_rate_step",
    "C66_rate_decreases",
    "C66_gradient_descent",
    "C66_nothing_learned_refuted",
    "C66_mbgd",
    "C66_sgd_UB"
   ],
   "note": "Training theorems cover networks without hidden layers (a hidden layer cannot be added without undefined behaviour, C65_add_layer_UB); the adaptive optimisers (momentum .. amsgrad) are not modelled; MAE is excluded for mbgd and sgd because its derivative needs a matching shape that the code does not provide."
  },
  {
   "property": "C67",
   "status": "proved",
   "theorems": [
    "C67_model_test",
    "C67_model_set_test",
    "C67_indices",
    "C67_null",
    "C67_threshold",
    "C67_chebyshev",
    "C67_small_sample",
    "C67_threshold_monotone"
   ],
   "note": "Exact reals. model_set_test_bind only repacks its result and is not modelled."
  },
  {
   "property": "C68",
   "status": "proved",
   "theorems": [
    "C68_new",
    "C68_model_test",
    "C68_uses_the_data_refuted",
    "C68_model_set_test",
    "C68_null_UB"
   ],
   "note": "IEEE-754 floats of any precision and exponent range with all arithmetic in that format; log and exp are arbitrary except at zero, minus infinity and NaN (C Annex F). The default constructor is not modelled."
  },
  {
   "property": "C69",
   "status": "proved",
   "theorems": [
    "C69_model_test_any",
    "C69_model_set_test_any",
    "C69_refuses_null",
    "C69_refuses_size",
    "C69_tanh_set_output_set_refuted",
    "C69_probit_set_output_set",
    "C69_new",
    "C69_link_derivative",
    "C69_model_test",
    "C69_model_set_test",
    "C69_link_increasing"
   ],
   "note": "Constructors draw weights: the draws are parameters. MLPPProbitReg::train_mbgd does not type-check as modelled and is left out."
  },
  {
   "property": "C70",
   "status": "proved",
   "theorems": [
    "C70_gd_run",
    "C70_gd_path",
    "C70_small_rate",
    "C70_cloglog_path",
    "C70_cloglog_gd_refuted",
    "C70_cloglog_mle_refuted"
   ],
   "note": "Run theorem over any scalar; gradients over exact reals. Regularisation is in the run theorem, not in the gradient theorems."
  },
  {
   "property": "C71",
   "status": "proved",
   "theorems": [
    "C71_sgd_run",
    "C71_sgd_path",
    "C71_tanh_sgd_weights_refuted"
   ],
   "note": "The draws are parameters (any in-range indices)."
  },
  {
   "property": "C72",
   "status": "proved",
   "theorems": [
    "C72_mbgd_run",
    "C72_mbgd_ignores_labels_refuted",
    "C72_tanh_mbgd_UB",
    "C72_tanh_mbgd_UB_trained",
    "C72_mbgd_path"
   ],
   "note": "MLPPProbitReg::train_mbgd is not modelled."
  },
  {
   "property": "C73",
   "status": "proved",
   "theorems": [
    "C73_first_derivative",
    "C73_second_derivative",
    "C73_third_derivative",
    "C73_first_error",
    "C73_exact",
    "C73_constant",
    "C73_linear_error",
    "C73_linear_exact",
    "C73_quadratic_exact",
    "C73_cubic_is_quadratic",
    "C73_single_precision_vanishes",
    "C73_single_precision_linear"
   ],
   "note": "Exact reals; the single_precision theorems state what becomes of the step 1e-10 in float."
  },
  {
   "property": "C74",
   "status": "proved",
   "theorems": [
    "C74_newton_iterates",
    "C74_epoch_count",
    "C74_no_epochs",
    "C74_newton_root",
    "C74_newton_affine",
    "C74_newton_convex",
    "C74_halley_iterates",
    "C74_halley_root",
    "C74_halley_affine",
    "C74_inverse_quadratic",
    "C74_inv_quad",
    "C74_inv_quad_short",
    "C74_euler",
    "C74_euler_none",
    "C74_euler_error",
    "C74_eulerv",
    "C74_eulerv_error",
    "C74_growth",
    "C74_single_precision_newton"
   ],
   "note": "Exact reals."
  },
  {
   "property": "C75",
   "status": "proved",
   "theorems": [
    "C75_partial",
    "C75_partial_mean",
    "C75_second",
    "C75_second_mean",
    "C75_third",
    "C75_jacobian",
    "C75_hessian",
    "C75_tensor",
    "C75_symmetric",
    "C75_jacobian_affine",
    "C75_hessian_quadratic",
    "C75_tensor_quadratic",
    "C75_laplacian",
    "C75_laplacian_quadratic",
    "C75_bad_axis"
   ],
   "note": "Entries over exact reals; third_order_tensorvt is not modelled."
  },
  {
   "property": "C76",
   "status": "proved",
   "theorems": [
    "C76_linear",
    "C76_linear_affine",
    "C76_quadratic",
    "C76_cubic",
    "C76_derivative_test"
   ],
   "note": "The branch of the test for other than two variables (eigenvalues) is a parameter."
  },
  {
   "property": "C77",
   "status": "proved",
   "theorems": [
    "C77_new",
    "C77_set_c",
    "C77_model_test_any",
    "C77_model_set_test_any",
    "C77_refuses_null",
    "C77_refuses_size",
    "C77_set_output_set_refuted",
    "C77_model_test",
    "C77_model_set_test",
    "C77_score"
   ],
   "note": "Weights and bias drawn by the constructor are parameters."
  },
  {
   "property": "C78",
   "status": "proved",
   "theorems": [
    "C78_sgd_run",
    "C78_sgd_path",
    "C78_sgd_bounded",
    "C78_sgd_span"
   ],
   "note": "The draws are a parameter."
  },
  {
   "property": "C79",
   "status": "proved",
   "theorems": [
    "C79_gd_run",
    "C79_gd_path",
    "C79_bias_rows",
    "C79_gd_bias_refuted"
   ],
   "note": "Exact reals; C79_gd_run for any arithmetic."
  },
  {
   "property": "C80",
   "status": "proved",
   "theorems": [
    "C80_mbgd_run",
    "C80_mbgd_weights_refuted",
    "C80_mbgd_bias_path"
   ],
   "note": "Exact reals; C80_mbgd_run for any arithmetic."
  },
  {
   "property": "C81",
   "status": "proved",
   "theorems": [
    "C81_split",
    "C81_every_order",
    "C81_too_large",
    "C81_null",
    "C81_fraction"
   ],
   "note": "The values of Math::rand are a parameter."
  },
  {
   "property": "C82",
   "status": "proved",
   "theorems": [
    "C82_feature_scaling",
    "C82_range",
    "C82_constant_refuted"
   ],
   "note": "C82_range: s_inf stands for a number larger than all entries."
  },
  {
   "property": "C83",
   "status": "proved",
   "theorems": [
    "C83_mean_centering",
    "C83_mean_normalization",
    "C83_centred",
    "C83_standardised",
    "C83_features_refuted"
   ],
   "note": "C83_mean_centering and C83_mean_normalization hold in any arithmetic."
  },
  {
   "property": "C84",
   "status": "proved",
   "theorems": [
    "C84_one_hot",
    "C84_recover",
    "C84_null",
    "C84_bad_label_UB"
   ],
   "note": "Any arithmetic."
  },
  {
   "property": "C85",
   "status": "proved",
   "theorems": [
    "C85_formula",
    "C85_null",
    "C85_basis",
    "C85_inverse",
    "C85_energy",
    "C85_dc",
    "C85_rectangular_refuted"
   ],
   "note": "Exact reals with cos and pi; sizes up to 2^30 (2 * k + 1 is an int)."
  },
  {
   "property": "C86",
   "status": "proved",
   "theorems": [
    "C86_square",
    "C86_stride_one",
    "C86_wide_refuted",
    "C86_nonsquare_refuted",
    "C86_stride_refuted",
    "C86_stride_zero",
    "C86_textbook"
   ],
   "note": "Sums of loop counters are Z in the model. Filters with fs = 0 and fs > rows + 2P are outside the theorems."
  },
  {
   "property": "C87",
   "status": "proved",
   "theorems": [
    "C87_unread_refuted",
    "C87_average",
    "C87_global_average",
    "C87_extreme",
    "C87_global_extreme"
   ],
   "note": "As C86; rectangular images only for global_pool_2d."
  },
  {
   "property": "C88",
   "status": "proved",
   "theorems": [
    "C88_formula",
    "C88_unit",
    "C88_refuted",
    "C88_symmetric"
   ],
   "note": "Exact reals. In a float build the expressions with Math_PI are evaluated in double."
  },
  {
   "property": "C89",
   "status": "proved",
   "theorems": [
    "C89_dy",
    "C89_dx",
    "C89_dx_wide_refuted",
    "C89_grad"
   ],
   "note": "Exact reals. grad_orientation (atan2) is not modelled."
  },
  {
   "property": "C90",
   "status": "proved",
   "theorems": [
    "C90_formula",
    "C90_scale",
    "C90_straight_edge",
    "C90_null"
   ],
   "note": "Exact reals; wide images inherit the defect of dx (C89) and are excluded. The answer is a square of side rows even for narrower images. compute_m is C91."
  },
  {
   "property": "C91",
   "status": "proved",
   "theorems": [
    "C91_slices",
    "C91_global_slices",
    "C91_null",
    "C91_average",
    "C91_global_average",
    "C91_structure"
   ],
   "note": "Pooling: every scalar type for the slice-wise statements, exact reals for the averages. Square slices for pool_3d (non-square ones inherit C87)."
  },
  {
   "property": "C92",
   "status": "proved",
   "theorems": [
    "C92_bank_refuted",
    "C92_null",
    "C92_formula",
    "C92_one_channel_refuted"
   ],
   "note": "Without padding; the padded branch is modelled (conv3_pad) but no theorem is proved about it. C92_bank_refuted and C92_one_channel_refuted state what the code does instead of a convolution."
  }
 ]
}