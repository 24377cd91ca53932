{
 "C01": {
  "note": "All client programs (finite trees of calls, arbitrary arguments and references); coherence of sizes, ownership, no leak."
 },
 "C02": {
  "note": "Single calls for every scalar arithmetic, plus refinement of whole client programs."
 },
 "C09": {
  "note": "The in-place form is proved to be undefined behaviour on every non-empty input (defect in the code)."
 },
 "C08": {
  "note": "In-place cos() proved to compute square roots (defect in the code)."
 },
 "C12": {
  "note": "Folds for any arithmetic (PropVec); laws over exact reals (PropReal)."
 },
 "C05": {
  "note": "Any strict weak order; instance: IEEE-754 floats of any format without NaN."
 },
 "C36": {
  "note": "selu, arsech and the enum dispatch refuted (defects). GELU derivative not covered (its rounded coefficients only approximate the derivative)."
 },
 "C37": {
  "note": "Defective forms proved as *_refuted. softmax_deriv_normm (list of Jacobians) modelled, not characterised."
 },
 "C38": {
  "note": ""
 },
 "C39": {
  "note": "values are over exact reals; the code evaluates parts in double and parts in float"
 },
 "C40": {
  "note": ""
 },
 "C41": {
  "note": ""
 },
 "C42": {
  "note": ""
 },
 "C46": {
  "note": "covariance matrix proved for rows >= columns (the code mis-sizes the other case)"
 },
 "C47": {
  "note": "Square matrices right; tall and wide behaviour proved as it is (defects)."
 },
 "C48": {
  "note": "Row content, freshness and frame of every batch; the wrong label batches and wrong strides are proved as they are."
 },
 "C49": {
  "note": "Over the reals; the vector of rounded predictions is compared with the approximate equality the code uses."
 },
 "C50": {
  "note": "Run theorems hold in any scalar arithmetic (including regularised steps); gradient, descent and rate over the reals for unregularised steps."
 },
 "C51": {
  "note": "Random draws are an oracle parameter of the model; regret and contraction over the reals without regularisation."
 },
 "C52": {
  "note": "Run theorem in any arithmetic; optimality over the reals. One column is excluded because det of a 1x1 matrix is 0 in the code."
 },
 "C53": {
  "note": "Run theorem in any arithmetic; textbook recurrences (GlmSpec2.v) and the frozen-weights defect over the reals."
 },
 "C54": {
  "note": "Construction in any arithmetic; convergence and the ignored small parameters over the reals."
 },
 "C55": {
  "note": "Search and vote in any arithmetic with a strict weak order on the distances; score over the reals. The refuted parts (fewer neighbours, row-number votes) are stated as what the code does."
 },
 "C56": {
  "note": "silhouette_scores is not modelled; the random row numbers are a parameter. kmeans++ is covered for two clusters only (undefined behaviour)."
 },
 "C57": {
  "note": "Over an abstract scalar; images, strings and std::vector adapters of MLPPTensor3 are not modelled."
 },
 "C58": {
  "note": "z_slices_add_image and the other image functions are not modelled."
 },
 "C59": {
  "note": "Malformed set_from_mlpp_vectors input (null or wrongly sized later entries, which leave uninitialised rows) is modelled but not characterised."
 },
 "C60": {
  "note": "ui and save are not modelled; drawn values and indices are parameters; for the run theorems the unwritten hidden biases are assumed to be some readable values."
 },
 "C61": {
  "note": "Exact reals; the descent bound is existential; hypotheses met in ExMlp.v."
 },
 "C62": {
  "note": "Draws are parameters; std::normal_distribution is taken as mean/stddev times a standard draw; exact reals."
 },
 "C63": {
  "note": "The forward theorems assume the bias vector is readable, which holds after set_bias; C63_new_UB shows what a fresh layer does."
 },
 "C64": {
  "note": "Exact reals."
 },
 "C65": {
  "note": "Exact reals; draws are parameters of each call; ui and save are not modelled."
 },
 "C66": {
  "note": "Training theorems cover networks without hidden layers (a hidden layer cannot be added without undefined behaviour, C65_add_layer_UB); the adaptive optimisers (momentum .. amsgrad) are not modelled; MAE is excluded for mbgd and sgd because its derivative needs a matching shape that the code does not provide."
 },
 "C67": {
  "note": "Exact reals. model_set_test_bind only repacks its result and is not modelled."
 },
 "C68": {
  "note": "IEEE-754 floats of any precision and exponent range with all arithmetic in that format; log and exp are arbitrary except at zero, minus infinity and NaN (C Annex F). The default constructor is not modelled."
 },
 "C69": {
  "note": "Constructors draw weights: the draws are parameters. MLPPProbitReg::train_mbgd does not type-check as modelled and is left out."
 },
 "C70": {
  "note": "Run theorem over any scalar; gradients over exact reals. Regularisation is in the run theorem, not in the gradient theorems."
 },
 "C71": {
  "note": "The draws are parameters (any in-range indices)."
 },
 "C72": {
  "note": "MLPPProbitReg::train_mbgd is not modelled."
 },
 "C73": {
  "note": "Exact reals; the single_precision theorems state what becomes of the step 1e-10 in float."
 },
 "C74": {
  "note": "Exact reals."
 },
 "C75": {
  "note": "Entries over exact reals; third_order_tensorvt is not modelled."
 },
 "C76": {
  "note": "The branch of the test for other than two variables (eigenvalues) is a parameter."
 },
 "C77": {
  "note": "Weights and bias drawn by the constructor are parameters."
 },
 "C78": {
  "note": "The draws are a parameter."
 },
 "C79": {
  "note": "Exact reals; C79_gd_run for any arithmetic."
 },
 "C80": {
  "note": "Exact reals; C80_mbgd_run for any arithmetic."
 },
 "C81": {
  "note": "The values of Math::rand are a parameter."
 },
 "C82": {
  "note": "C82_range: s_inf stands for a number larger than all entries."
 },
 "C83": {
  "note": "C83_mean_centering and C83_mean_normalization hold in any arithmetic."
 },
 "C84": {
  "note": "Any arithmetic."
 },
 "C85": {
  "note": "Exact reals with cos and pi; sizes up to 2^30 (2 * k + 1 is an int)."
 },
 "C86": {
  "note": "Sums of loop counters are Z in the model. Filters with fs = 0 and fs > rows + 2P are outside the theorems."
 },
 "C87": {
  "note": "As C86; rectangular images only for global_pool_2d."
 },
 "C88": {
  "note": "Exact reals. In a float build the expressions with Math_PI are evaluated in double."
 },
 "C89": {
  "note": "Exact reals. grad_orientation (atan2) is not modelled."
 },
 "C90": {
  "note": "Exact reals; wide images inherit the defect of dx (C89) and are excluded. The answer is a square of side rows even for narrower images. compute_m is C91."
 },
 "C91": {
  "note": "Pooling: every scalar type for the slice-wise statements, exact reals for the averages. Square slices for pool_3d (non-square ones inherit C87)."
 },
 "C92": {
  "note": "Without padding; the padded branch is modelled (conv3_pad) but no theorem is proved about it. C92_bank_refuted and C92_one_channel_refuted state what the code does instead of a convolution."
 }
}