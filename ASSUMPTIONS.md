# Print Assumptions of every theorem of MANIFEST.json

Generated by `tools/assumptions.py` (re-run it after a build). All axioms below are in Coq's standard library. This run covers the theorems of C01-C56; later ones are not listed here (vcheck reports the axioms of the whole development).

## Closed under the global context (no axioms)

C01_coherent_sizes, C01_vector_history_coherent, C02_append, C02_append_null, C02_element_get, C02_element_get_out_of_range, C02_element_set, C02_element_set_negative, C02_fill, C02_index, C02_index_out_of_range, C02_insert, C02_insert_out_of_range, C02_invert, C02_push_back, C02_remove, C02_remove_out_of_range, C02_remove_unordered, C02_resize, C02_vector_history_refines, C03_erase, C03_find, C04_erase_multiple, C05_sort, C06_ordered_insert, C07_add, C07_hadamard, C07_max, C07_min, C07_sub, C08_abs, C08_cbrt, C08_cos, C08_erf, C08_exp, C08_exponentiate, C08_log, C08_log10, C08_scalar_add, C08_scalar_multiply, C08_scalar_multiplyb_null, C08_sin, C08_sqrt, C09_division_inplace_noop, C09_division_inplace_undefined, C09_division_new_into, C10_duplicate, C10_matrix_duplicate, C10_matrix_set_from, C10_matrix_set_from_null, C10_matrix_writes_independent, C10_set_from, C10_writes_independent, C11_get_data, C11_matrix_get_data, C11_matrix_roundtrip, C11_matrix_set_data_malformed, C11_roundtrip, C11_set_data, C12_dist_sq_fold, C12_dot_fold, C12_norm_sq_fold, C12_null, C12_sum_fold, C13_empty, C13_max_element, C13_min_element, C14_flatten, C14_flattenn, C14_vecn, C14_vecn_full, C15_element_get, C15_element_get_index, C15_element_index_out_of_range, C15_element_set, C15_element_set_out_of_range, C15_get_after_set, C16_out_of_range, C16_reset, C16_row_add, C16_row_add_first, C16_row_add_rejected, C16_row_get, C16_row_remove, C16_row_remove_unordered, C16_row_set, C16_row_set_wrong_width, C16_row_swap, C16_rows_add, C16_rows_add_rejected, C16_set_from_rows, C17_mult, C17_mult_self_is_zero, C17_multb, C17_multb_left_operand_is_zero, C17_multb_right_operand_is_zero, C17_multn, C17_rejected, C18_add_comm, C18_identity_unit, C18_mult_add_left, C18_mult_add_right, C18_mult_assoc, C18_transpose_involution, C18_transpose_mult, C19_transpose, C19_transposeb_self, C20_kronecker, C20_kronecker_inplace_1x1, C20_kronecker_inplace_undefined, C21_abs, C21_add, C21_cbrt, C21_cos, C21_division, C21_erf, C21_exp, C21_exponentiate, C21_hadamard, C21_log, C21_log10, C21_max, C21_min, C21_scalar_add, C21_scalar_multiply, C21_sin, C21_sqrt, C21_sub, C22_det, C22_det_1x1, C22_det_expansion, C22_det_mult, C22_det_transpose, C23_adjoint, C23_adjoint_not_square, C23_inverse, C23_inverse_1x1, C23_invertible_iff, C23_mult_inverse, C24_mult_solve, C24_solve, C25_powern_add, C25_powern_cancel, C25_powern_neg, C25_powern_nonneg, C26_pinverse, C26_pinverse_iff_symmetric, C28_constants, C28_diagnm, C28_diagonal, C28_flatten, C28_identity, C28_identity_mat, C28_outer_product, C28_trace, C29_add_vec, C29_mult_vec, C29_mult_vec_too_long, C29_subtract_matrix_rows, C29_subtract_matrix_rows_mismatch, C30_matrix_equal_approx, C30_vector_equal_approx, C33_median_empty, C33_median_even, C33_median_odd, C33_median_single, C35_mode, C35_mode_empty_ub, C35_mode_exists, C35_range, C37_elementwise, C37_softmax_deriv_matrix_diverges, C39_cost_mismatch, C39_cost_null, C48_m_batches, C48_mm_batches, C48_mm_partition_iff, C48_mm_rows_lost, C48_mv_batches, C48_mv_inputs_partition, C48_mv_labels_refuted, C48_no_batches_UB, C50_evaluatem, C50_gd_run, C51_mbgd_bad_size_UB, C51_mbgd_ignores_labels_refuted, C51_mbgd_one_batch, C51_mbgd_run, C51_sgd_run, C52_normal_equation_run, C53_adaptive_run, C54_new_lin, C54_new_lin_UB, C54_new_log, C55_constant, C55_model_set_test, C55_model_set_test_null, C55_model_test, C55_model_test_label, C55_neighbours, C55_neighbours_full, C55_null_input, C55_null_output, C55_null_output_trained, C55_null_query, C55_one_neighbour, C56_kmeanspp_two_clusters_refuted, C56_model_set_test, C56_model_set_test_before_training_refuted, C56_model_test, C56_null, C56_train, C56_train_learns_nothing_refuted, C56_train_more

## `ClassicalDedekindReals.sig_forall_dec`, `FunctionalExtensionality.functional_extensionality_dep`

C44_factor_unique, C45_qr_unique

## `ClassicalDedekindReals.sig_forall_dec`, `ClassicalDedekindReals.sig_not_dec`, `Classical_Prop.classic`, `FunctionalExtensionality.functional_extensionality_dep`

C05_sort_ieee, C06_ordered_insert_ieee, C12_cauchy_schwarz, C12_dist_real, C12_distance_metric, C12_dot_additive, C12_dot_homogeneous, C12_dot_real, C12_dot_symmetric, C12_norm_real, C12_sum_real, C13_max_element_ieee, C13_min_element_ieee, C27_2d_not_rotation, C27_axis2_not_rotation, C27_det_one, C27_orthogonal, C27_rotate, C27_rotation_entries, C31_chebyshev, C31_correlation_bounded, C31_covariance, C31_covariance_additive, C31_covariance_homogeneous, C31_covariance_self, C31_covariance_symmetric, C31_mean, C31_mean_additive, C31_mean_homogeneous, C31_mean_translation, C31_null, C31_variance, C31_variance_nonneg_zero, C31_variance_scale, C31_variance_translation, C32_least_squares, C32_uni_lin_reg, C34_abs_avg_deviation, C34_chain, C34_heinz, C34_heronian, C34_idempotent, C34_identric, C34_identric_symmetric, C34_log_mean, C34_neuman_sandor, C34_neuman_sandor_degenerate, C34_power_means, C34_stolarsky, C34_stolarsky_special, C34_values, C34_weighted_mean, C35_mode_ieee, C35_range_ieee, C36_arsech_refuted, C36_derivative, C36_dispatch, C36_dispatch_refuted, C36_elu, C36_leaky_relu, C36_selu, C37_arcsch_deriv_vector_refuted, C37_cloglog_deriv_refuted, C37_deriv_matrix, C37_deriv_vector, C37_matrix_null_refuted, C37_norm_matrix, C37_norm_vector, C37_null_argument, C38_adj_softmax_matrix, C38_adj_softmax_vector, C38_inverse_functions, C38_ranges, C38_softmax_deriv_vector_is_softmax, C38_softmax_distribution, C38_softmax_jacobian, C38_softmax_matrix, C38_softmax_vector, C39_cost_value, C39_huber_value, C39_mse_normalisation_refuted, C39_weighted_hinge_matrix_refuted, C39_weighted_hinge_vector, C40_cross_entropy_gradient, C40_deriv_mismatch_matrix_refuted, C40_deriv_mismatch_vector, C40_hinge_gradient, C40_huber_inside, C40_huber_outside_refuted, C40_log_loss_gradient, C40_mae_deriv_value, C40_mae_gradient_refuted, C40_mbe_gradient_vector, C40_mbe_matrix_shape_refuted, C40_mse_gradient, C40_rmse_direction_matrix, C40_rmse_gradient_vector, C40_wasserstein_gradient, C41_cross_entropy_minimum, C41_error_costs, C41_hinge, C41_huber, C42_clipping, C42_reg_gradient, C42_reg_term, C42_reg_weights, C42_ridge_shrinks, C43_svm_bounded_below, C43_svm_gradient, C43_svm_value, C44_cholesky, C44_lower_only, C44_not_square, C44_round_trip, C45_gram_schmidt, C45_qrd, C46_covariance_matrix, C46_projection, C49_accuracy, C49_f1, C49_performance_large_refuted, C49_performance_mat, C49_performance_vec, C49_precision, C49_recall_binary, C49_recall_multiclass_refuted, C49_scores_short_UB, C50_gd_descent, C50_gd_epoch, C50_gd_rate, C50_mle_is_gd, C50_predictions, C51_sgd_lin_contracts, C51_sgd_regret, C51_sgd_regret_run, C53_adagrad_bounded, C53_adaptive_textbook, C53_only_first_label_refuted, C53_weights_frozen_refuted, C54_fit, C54_model_set_test, C54_model_test, C54_score, C54_small_parameters_ignored_refuted, C54_uninitialised, C55_score, C56_epoch_descends, C56_score, C56_train_descends, C56_train_raises_error_refuted, C56_update_optimal

## `ClassicalDedekindReals.sig_forall_dec`, `ClassicalDedekindReals.sig_not_dec`, `ClassicalEpsilon.constructive_indefinite_description`, `Classical_Prop.classic`, `FunctionalExtensionality.functional_extensionality_dep`

C27_rotate_back, C46_inverse, C46_pinverse, C46_solve, C47_square, C47_tall, C47_wide, C52_newton_full_step, C52_normal_equation, C52_normal_equation_joint_iff
