{"id": "C01", "title": "Vector API histories keep storage coherent", "statement": "After any finite sequence of MLPPVector calls (create, push_back, append, remove, remove_unordered, erase, erase_multiple_unordered, invert, resize, clear, reset, fill, insert, ordered_insert, element_set, set_from, add, destroy) with arbitrary integer arguments and arbitrary, possibly null or aliased, references, as long as the program is still running every vector's reported size equals the number of cells it owns, no two vectors share storage, no freed storage is referenced and no storage is leaked.", "quantifier": "every finite call sequence, every argument value, every aliasing pattern", "why_tests_cant": "the set of histories is infinite; a unit test replays a handful", "anchors": ["core/mlpp_vector.cpp: resize push_back remove ...", "core/mlpp_vector.h: reset clear"]}
{"id": "C02", "title": "Vector calls refine list operations", "statement": "push_back appends one element; append_mlpp_vector concatenates the other vector's elements (also when the other vector is the same object); insert(i,v) puts v before position i for 0<=i<=size; remove(i) deletes position i; invert reverses; fill overwrites all; and no other vector changes. Out-of-range indices and null references leave every vector unchanged.", "quantifier": "every vector content, index (negative included), value and aliasing", "why_tests_cant": "requires all lengths and indices", "anchors": ["core/mlpp_vector.cpp: push_back append_mlpp_vector insert remove invert fill"]}
{"id": "C03", "title": "find and erase act on the first occurrence", "statement": "find(v,from) with from>=0 returns the least index i>=from whose element compares equal to v, or -1 when there is none; erase(v) removes exactly that first element and keeps the order of the others.", "quantifier": "every content, value, start index, every equality predicate (NaN-like non-reflexive ones included)", "why_tests_cant": "depends on every position of the first match", "anchors": ["core/mlpp_vector.cpp: find erase"]}
{"id": "C04", "title": "erase_multiple_unordered removes every match", "statement": "erase_multiple_unordered(v) terminates, returns the number of elements comparing equal to v, and leaves exactly the other elements, as a permutation.", "quantifier": "every content and value", "why_tests_cant": "termination and count for all multisets", "anchors": ["core/mlpp_vector.cpp: erase_multiple_unordered remove_unordered find"]}
{"id": "C05", "title": "sort yields the sorted permutation and stays in bounds", "statement": "For every vector whose comparison is a strict weak order (any finite floats), sort() terminates, never reads or writes outside the vector, and leaves a non-decreasing permutation of the original elements.", "quantifier": "every length and content", "why_tests_cant": "introsort has depth-limit, heap and unguarded insertion phases that only occur for particular large inputs", "anchors": ["platform/sfw.h: SortArray introsort partitioner unguarded_linear_insert adjust_heap", "core/mlpp_vector.h: sort sort_custom"]}
{"id": "C06", "title": "ordered_insert keeps a sorted vector sorted", "statement": "If a vector is sorted, ordered_insert(v) leaves a sorted permutation of the old elements plus v, placing v after every equal element.", "quantifier": "every sorted content and value", "why_tests_cant": "all lengths/positions", "anchors": ["core/mlpp_vector.cpp: ordered_insert"]}
{"id": "C07", "title": "Element-wise vector arithmetic is pointwise in all three call forms", "statement": "add/sub/hadamard_product/max/min (in place, returning-new and into-target forms) put op(a[i],b[i]) at every i, whatever the scalar arithmetic does (rounding, NaN), also when target, a and b are the same object in any combination; every other object keeps its contents. Null or size-mismatched operands change nothing and the returning form yields a null reference.", "quantifier": "every content, every aliasing pattern, every scalar semantics", "why_tests_cant": "aliasing and rounding semantics are universally quantified", "anchors": ["core/mlpp_vector.cpp: add addn addb sub subn subb hadamard_product hadamard_productn hadamard_productb max maxn maxb min minn minb"]}
{"id": "C08", "title": "Unary element-wise vector maps are pointwise", "statement": "scalar_multiply, scalar_add, log, log10, exp, erf, exponentiate, sqrt, cbrt, abs, sin (all three forms) and cosn/cosb replace each element by the function of it, in any aliasing; the in-place cos() is the exception: it applies the square root.", "quantifier": "every content and scalar semantics", "why_tests_cant": "every length", "anchors": ["core/mlpp_vector.cpp: scalar_multiply scalar_add log log10 exp erf exponentiate sqrt cbrt abs sin cos"]}
{"id": "C09", "title": "Element-wise vector division: returning and into forms are pointwise; in-place form is undefined", "statement": "division_element_wisen/b compute the pointwise quotient; division_element_wise on any non-empty vectors of equal size writes through a null pointer (undefined behaviour) and on empty vectors does nothing.", "quantifier": "every non-empty content", "why_tests_cant": "needs all inputs, and undefined behaviour is not observable by a test", "anchors": ["core/mlpp_vector.cpp: division_element_wise division_element_wisen division_element_wiseb"]}
{"id": "C10", "title": "Copies are deep and independent", "statement": "duplicate_fast and set_from_mlpp_vector / set_from_mlpp_matrix give a target with equal size and contents; afterwards no write through either object is visible in the other.", "quantifier": "every content, every later write", "why_tests_cant": "independence quantifies over all subsequent writes", "anchors": ["core/mlpp_vector.cpp: duplicate_fast set_from_mlpp_vector", "core/mlpp_matrix.cpp: duplicate_fast set_from_mlpp_matrix"]}
{"id": "C11", "title": "Serialisation round trip", "statement": "set_data(get_data()) (vector and matrix) restores size and contents exactly; set_data with a malformed array (wrong arity or size mismatch) leaves a matrix unchanged.", "quantifier": "every size and content", "why_tests_cant": "all sizes", "anchors": ["core/mlpp_vector.cpp: get_data set_data", "core/mlpp_matrix.cpp: get_data set_data"]}
{"id": "C12", "title": "Reductions are the left-to-right folds of the elements", "statement": "dot, sum_elements, norm_sq, euclidean_distance_squared return the left fold over the index order, for any scalar arithmetic; over exact reals they are the mathematical sums, dot is symmetric and bilinear, |dot| is bounded by Cauchy-Schwarz and euclidean_distance is a metric; mismatched sizes and null give 0.", "quantifier": "every content", "why_tests_cant": "all lengths and real values", "anchors": ["core/mlpp_vector.cpp: dot sum_elements norm_sq norm_2 euclidean_distance euclidean_distance_squared"]}
{"id": "C13", "title": "max_element/min_element and their indices", "statement": "For a non-empty vector of finite numbers, max_element_index returns the first index of a greatest element and max_element its value (dually min); for the empty vector index -1.", "quantifier": "every content over any total order with bottom", "why_tests_cant": "all permutations / ties", "anchors": ["core/mlpp_vector.cpp: max_element max_element_index min_element min_element_index"]}
{"id": "C14", "title": "flatten_vectors concatenates", "statement": "flatten_vectors(A) / flatten_vectorsn(A) produce the concatenation of all the vectors in order, provided the target of the in-place form is not itself listed in A.", "quantifier": "every list of vectors", "why_tests_cant": "all list shapes", "anchors": ["core/mlpp_vector.cpp: flatten_vectors flatten_vectorsn"]}
{"id": "C15", "title": "Matrix element addressing is a bijection", "statement": "element_set(y,x,v) changes exactly entry (y,x) and element_get(y,x) then returns v; out-of-range coordinates (negative included) read 0 and write nothing; distinct coordinates never alias.", "quantifier": "every shape, coordinate pair and value", "why_tests_cant": "all coordinates", "anchors": ["core/mlpp_matrix.h: element_get element_set calculate_index"]}
{"id": "C16", "title": "Row operations act on the list of rows", "statement": "row_add_mlpp_vector appends a row, rows_add_mlpp_matrix appends all rows (also of itself), row_remove(i) deletes row i, row_remove_unordered(i) replaces it by the last, row_swap exchanges two rows, row_set/row_get overwrite/read one row; wrong-width, null or out-of-range arguments leave the rows unchanged.", "quantifier": "every shape, content and index", "why_tests_cant": "all shapes", "anchors": ["core/mlpp_matrix.cpp: row_add_mlpp_vector rows_add_mlpp_matrix row_remove row_remove_unordered row_swap row_set_mlpp_vector row_get_mlpp_vector"]}
{"id": "C17", "title": "Matrix multiplication computes the product", "statement": "multn(A,B), A.mult(B) and C.multb(A,B) leave at (i,j) the sum over k, in increasing k starting from 0, of a_ik*b_kj for every conformable pair, for any scalar arithmetic; the operands are unchanged. If the target is also the right operand (A.mult(A)), or either operand of multb, the result is instead the all-zero matrix of that size (over exact arithmetic).", "quantifier": "every shape, content and aliasing", "why_tests_cant": "aliasing and all shapes", "anchors": ["core/mlpp_matrix.cpp: mult multn multb"]}
{"id": "C18", "title": "Matrix algebra laws", "statement": "Over exact arithmetic: multn is associative, distributes over addn, identity_mat is a unit, transposen is an involution and transposen(A.multn(B)) equals transposen(B).multn(transposen(A)).", "quantifier": "every conformable shapes and contents over any commutative ring", "why_tests_cant": "algebraic laws over all matrices", "anchors": ["core/mlpp_matrix.cpp: multn addn identity_mat transposen"]}
{"id": "C19", "title": "Transposition in all three forms", "statement": "transpose, transposen and transposeb put entry (j,i) at (i,j) when the target is not the operand; transposeb(self) on a square matrix instead symmetrises it from one triangle.", "quantifier": "every shape, content, aliasing", "why_tests_cant": "all shapes", "anchors": ["core/mlpp_matrix.cpp: transpose transposen transposeb"]}
{"id": "C20", "title": "Kronecker product", "statement": "kronecker_productn and kronecker_productb give the Kronecker product; the in-place kronecker_product reads beyond the operand (undefined behaviour) unless the second operand is 1x1.", "quantifier": "every shape and content", "why_tests_cant": "out-of-bounds reads are invisible to tests", "anchors": ["core/mlpp_matrix.cpp: kronecker_product kronecker_productn kronecker_productb"]}
{"id": "C21", "title": "Element-wise matrix arithmetic is pointwise", "statement": "add, sub, hadamard_product, division_element_wise, max, min, scalar_multiply, scalar_add and the unary maps act entry by entry in all their forms and under any aliasing, for any scalar arithmetic. scalar_multiplyb/scalar_addb are the exception: they ignore their matrix argument's contents.", "quantifier": "every shape, content, aliasing, scalar semantics", "why_tests_cant": "aliasing and rounding universally quantified", "anchors": ["core/mlpp_matrix.cpp: add sub hadamard_product division_element_wise max min scalar_multiply scalar_multiplyb scalar_addb"]}
{"id": "C22", "title": "det is the determinant", "statement": "For every n x n matrix with n>=2 over a commutative ring, det() returns the (Leibniz) determinant; for every 1x1 matrix it returns 0.", "quantifier": "every n and every matrix", "why_tests_cant": "no bound on n", "anchors": ["core/mlpp_matrix.cpp: det detb"]}
{"id": "C23", "title": "inverse inverts", "statement": "For every n x n matrix, n>=2, over a field with non-zero determinant, adjoint() is the classical adjugate and A.inverse() is the two-sided inverse of A.", "quantifier": "every n and every invertible matrix", "why_tests_cant": "no bound on n", "anchors": ["core/mlpp_matrix.cpp: cofactor adjoint inverse"]}
{"id": "C24", "title": "solve solves", "statement": "For invertible A (n>=2) and any b of length n, A.mult_vec(A.solve(b)) equals b and it is the only solution.", "quantifier": "every n, A, b", "why_tests_cant": "no bound on n", "anchors": ["core/mlpp_matrix.cpp: solve mult_vec inverse"]}
{"id": "C25", "title": "matrix_powern is the matrix power", "statement": "matrix_powern(n) is the n-fold product for n>=0 and the |n|-fold product of the inverse for n<0 (square matrices).", "quantifier": "every exponent and square matrix", "why_tests_cant": "all exponents", "anchors": ["core/mlpp_matrix.cpp: matrix_powern"]}
{"id": "C26", "title": "pinverse is the transposed inverse", "statement": "For every invertible square matrix (n>=2) over a field, pinverse() returns the transpose of the inverse; hence X = A.pinverse() satisfies A X A = A exactly when A is symmetric (the function is not a pseudo-inverse in general).", "quantifier": "every invertible matrix, n>=2", "why_tests_cant": "all matrices", "anchors": ["core/mlpp_matrix.cpp: pinverse"]}
{"id": "C27", "title": "Rotation matrices are rotations", "statement": "create_rotation_matrix(theta, axis) is orthogonal with determinant 1 for every angle for axis 0 and 1, and rotating by theta then by -theta gives the matrix back; for axis -1 (2D) it is orthogonal only at angles where sin = cos; for axis 2 its determinant is 0 for every angle.", "quantifier": "every angle", "why_tests_cant": "all real angles", "anchors": ["core/mlpp_matrix.cpp: create_rotation_matrix"]}
{"id": "C28", "title": "Structural constructors", "statement": "identity, identity_mat, diagonal_set, diagonal_zeroed, diagnm, outer_product, trace, flatten, matn_zero/one/full produce exactly the documented entries for every shape.", "quantifier": "every shape", "why_tests_cant": "all shapes", "anchors": ["core/mlpp_matrix.cpp: identity identity_mat diagonal_set diagonal_zeroed outer_product trace flatten", "core/mlpp_vector.cpp: diagnm outer_product"]}
{"id": "C29", "title": "Matrix-vector operations", "statement": "mult_vec(b) gives sum_k a_ik b_k for i<rows (b may be shorter than the row), add_vec adds b to every row, subtract_matrix_rows subtracts every row; operands unchanged.", "quantifier": "every shape and content", "why_tests_cant": "all shapes", "anchors": ["core/mlpp_matrix.cpp: mult_vec mult_veco add_vec add_vecn add_vecb", "core/mlpp_vector.cpp: subtract_matrix_rows"]}
{"id": "C30", "title": "is_equal_approx is reflexive and symmetric and implied by equality", "statement": "a.is_equal_approx(b,tol) is true iff sizes agree and every pair of entries is equal or differs by less than tol (or both are the same object); it is symmetric over exact reals.", "quantifier": "every content and tolerance", "why_tests_cant": "all contents", "anchors": ["core/mlpp_vector.cpp: is_equal_approx", "core/mlpp_matrix.cpp: is_equal_approx", "platform/sfw.h: Math::is_equal_approx"]}
{"id": "C31", "title": "Mean, variance, covariance laws", "statement": "Over exact reals: meanv is translation-equivariant and linear; variancev is non-negative and zero iff constant; covariancev is symmetric, bilinear, covariancev(x,x)=variancev(x); |correlation|<=1.", "quantifier": "every vector of length >= 2", "why_tests_cant": "inequalities over all reals", "anchors": ["core/stat.cpp: meanv variancev covariancev correlation standard_deviationv"]}
{"id": "C32", "title": "Univariate regression minimises squared error", "statement": "The line with b1_estimation and b0_estimation minimises sum (y_i-(b0+b1 x_i))^2 over all real b0,b1, uniquely, whenever x is not constant.", "quantifier": "every data set and every competing line", "why_tests_cant": "optimality over all real pairs", "anchors": ["core/stat.cpp: b0_estimation b1_estimation", "modules/uni_lin_reg/uni_lin_reg.cpp"]}
{"id": "C33", "title": "median", "statement": "median of an even-sized vector is the mean of its two middle order statistics; for odd sizes it returns the element just below the middle (and 0 for size 1).", "quantifier": "every content", "why_tests_cant": "all permutations", "anchors": ["core/stat.cpp: median"]}
{"id": "C34", "title": "The means", "statement": "Over exact reals and for every non-empty vector of positive numbers, harmonic_mean <= geometric_mean <= mean <= root_mean_square <= contra_harmonic_mean, each equals its textbook formula, each returns the common value of a constant vector, a weighted mean with non-negative weights stays within the range of the data, and the two-argument means (heronian, heinz, log mean) lie between their arguments. neuman_sandor_mean is 0 on equal arguments (the code multiplies where it should divide).", "quantifier": "every non-empty vector of positive reals; every pair of positive reals; every exponent", "why_tests_cant": "inequalities between all real vectors of every length", "anchors": ["core/stat.cpp: geometric_mean harmonic_mean root_mean_square power_mean lehmer_mean weighted_lehmer_mean contra_harmonic_mean heronian_mean heinz_mean neuman_sandor_mean stolarsky_mean identric_mean log_mean weighted_meanv"]}
{"id": "C35", "title": "mode and range", "statement": "mode of a non-empty NaN-free vector of at most 2^24 (float) elements returns a new vector listing exactly the most frequent values, each once, leaving its argument unchanged; range is the largest minus the smallest element and midrange half of that; mode of an empty vector is undefined behaviour.", "quantifier": "every NaN-free content, including repeated values and signed zeros", "why_tests_cant": "every multiset of floats", "anchors": ["core/stat.cpp: mode range midrange", "core/data.h: vec_to_setnv", "core/lin_alg.cpp: maxvr minvr"]}
{"id": "C36", "title": "Scalar activation derivatives are derivatives", "statement": "Over exact reals, for each scalar activation f of MLPPActivation (linear, sigmoid, swish, mish, sinc, softplus, softsign, cloglog, logit, gaussian CDF, relu, leaky relu, elu, selu, sign, unit step, sinh, cosh, tanh, csch, sech, coth, arsinh, arcosh, artanh, arcsch, arcoth) and each point x where f is smooth, f_derivr(x) is the derivative of f_normr at x. selu_deriv misses the factor lambda, arsech is wrong in value and derivative, and the enum dispatch run_activation_deriv_real evaluates f itself: these are proved as refutations.", "quantifier": "every real argument in the function's smooth domain (and every parameter of leaky relu, elu, selu)", "why_tests_cant": "a derivative is a limit, and it has to hold at every real point", "anchors": ["core/activation.cpp: *_normr *_derivr run_activation_norm_real run_activation_deriv_real"]}
{"id": "C37", "title": "Vector and matrix activations are the scalar ones, element by element", "statement": "For every activation except softmax, adjusted softmax (and the explicitly listed defective ones), the vector and matrix forms return a NEW object of the same shape whose every element is the scalar form of the corresponding element of the argument, the argument and every other live object are unchanged, temporaries are released, and nothing is undefined. The forms that do not (wrong-suffix calls returning null, null dereference, cloglog derivative, infinite recursion in softmax_derivm) are proved as refutations. A null argument gives null or a null dereference, function by function.", "quantifier": "every vector/matrix content and shape, every other live object; element-wise-ness for every arithmetic, including floats", "why_tests_cant": "all shapes, all values, all heaps", "anchors": ["core/activation.cpp: run_activation_norm_vector run_activation_norm_matrix run_activation_deriv_vector run_activation_deriv_matrix *_normv *_normm *_derivv *_derivm"]}
{"id": "C38", "title": "Activation ranges, inverse pairs, softmax", "statement": "sigmoid, tanh, softsign, cloglog, sech, relu, softplus, unit step stay in their textbook ranges; arsinh/arcosh/artanh/arcsch/arcoth and logit invert their partners. softmax of a vector (of each row of a matrix) is the textbook softmax: positive, sums to 1, shift-invariant, order-preserving; softmax_deriv_normv is the Jacobian matrix of softmax. adj_softmax equals softmax when every element is in the int range and is undefined behaviour otherwise; softmax_derivv returns softmax itself.", "quantifier": "every real input, every non-empty vector/matrix", "why_tests_cant": "inequalities and identities over all reals", "anchors": ["core/activation.cpp: softmax_normv softmax_normm adj_softmax_normv adj_softmax_normm softmax_deriv_normv softmax_derivv"]}
{"id": "C39", "title": "Cost functions compute their textbook values", "statement": "For every pair of equally long predictions and targets (vectors, or matrices of the same shape), each cost function of MLPPCost returns the textbook value over exact reals (rmse, mae, mbe, log loss with its epsilon, cross entropy, huber, hinge, wasserstein; mse returns n/2 times the squared error sum, which is not the mean, and is refuted as such), allocates nothing that survives, and changes no object. Null arguments and a mismatched element count give the documented 0 and change nothing. The weighted hinge loss on matrices is always undefined behaviour; the vector one adds C times the ridge penalty.", "quantifier": "every prediction/target content, shape and heap; every cost enumerator", "why_tests_cant": "all sizes and all real contents", "anchors": ["core/cost.cpp: run_cost_norm_vector run_cost_norm_matrix msev rmsev maev mbev log_lossv cross_entropyv huber_lossv hinge_lossv hinge_losswv wasserstein_lossv and the m forms"]}
{"id": "C40", "title": "Cost derivatives are gradients", "statement": "Over exact reals, each cost derivative returns a new object of the predictions' shape holding the gradient (up to the constant factor 1/n or 2/n the code drops, which the theorem states) of the corresponding cost with respect to the predictions, at every point where the cost is differentiable; arguments are unchanged. Where the code does not (mae_deriv ignores the targets, huber outside its threshold, mbe on matrices has the transposed shape, mismatched matrices in three forms) the negation is proved.", "quantifier": "every real prediction/target content in the smooth domain, every shape, every other live object", "why_tests_cant": "a gradient is a limit in each coordinate", "anchors": ["core/cost.cpp: run_cost_deriv_vector run_cost_deriv_matrix mse_derivv rmse_derivv mae_derivv mbe_derivv log_loss_derivv cross_entropy_derivv huber_loss_derivv hinge_loss_derivv wasserstein_loss_derivv and the m forms"]}
{"id": "C41", "title": "What the costs are least at", "statement": "mse, rmse and mae are non-negative and zero exactly when predictions equal targets; huber lies between 0 and the squared error and is zero exactly at the targets; hinge is zero exactly when every margin is at least 1; cross entropy of equal-sum positive predictions is least at the targets.", "quantifier": "every real content and size", "why_tests_cant": "inequalities over all reals", "anchors": ["core/cost.cpp"]}
{"id": "C42", "title": "Regularisation term, gradient and weight update", "statement": "reg_term returns the ridge / lasso / elastic-net penalty; reg_deriv_term returns its gradient (off the kinks); reg_weights returns a new object w - gradient (for weight clipping: w moved into [lambda, alpha]) leaving w alone; ridge with 0<=lambda<=1 never increases any |w_i| nor flips a sign.", "quantifier": "every weight vector/matrix, lambda, alpha and regulariser", "why_tests_cant": "all real contents and shapes", "anchors": ["core/reg.cpp: reg_termv reg_termm reg_weightsv reg_weightsm reg_deriv_termv reg_deriv_termm"]}
{"id": "C43", "title": "Dual SVM objective and its gradient", "statement": "Over exact reals, dual_form_svm(alpha, X, y) returns -sum alpha_i + 1/2 sum_ij alpha_i alpha_j y_i y_j <x_i, x_j>, never less than -sum alpha_i; dual_form_svm_deriv returns a new vector, the gradient of that objective in alpha; arguments and every other object are unchanged and all temporaries are released.", "quantifier": "every sample matrix, label vector and multiplier vector of matching sizes, every other live object", "why_tests_cant": "a quadratic form over all reals, and a limit", "anchors": ["core/cost.cpp: dual_form_svm dual_form_svm_deriv"]}
{"id": "C44", "title": "Cholesky factorisation", "statement": "Over exact reals, cholesky of a symmetric positive definite matrix returns two new matrices L and L^T with L lower triangular, positive diagonal and L L^T = A; the factor is the only such one, so factoring L L^T gives L back; only the lower triangle of A is read; a non-square matrix is rejected with null results; nothing else changes.", "quantifier": "every size, every symmetric positive definite real matrix, every other live object", "why_tests_cant": "existence/uniqueness over all real matrices of all sizes", "anchors": ["core/lin_alg.cpp: cholesky"]}
{"id": "C45", "title": "Gram-Schmidt and QR", "statement": "Over exact reals, for a matrix with independent columns gram_schmidt_process returns a new matrix with orthonormal columns spanning the same flag of subspaces; qrd returns Q and R with A = Q R, Q having orthonormal columns and R upper triangular with positive diagonal, and Q and R are the only such pair; the argument is unchanged and temporaries are released.", "quantifier": "every shape with at least one column, every real matrix with independent columns", "why_tests_cant": "holds for all sizes by induction over columns", "anchors": ["core/lin_alg.cpp: gram_schmidt_process qrd vector_projection"]}
{"id": "C46", "title": "Inverse, pseudo-inverse, solve, covariance, projection", "statement": "Over exact reals, MLPPLinAlg::inversenm returns a two-sided inverse of every invertible matrix; pinversenm of a matrix with independent columns is a left inverse and maps every right-hand side to its unique least-squares solution; solve returns the unique solution of A x = b; covnm (rows >= columns) contains the covariances of the rows; vector_projection(a,b) is the multiple of a nearest to b (b minus it is orthogonal to a).", "quantifier": "every size from 2 on, every real content", "why_tests_cant": "optimality over all competitors", "anchors": ["core/lin_alg.cpp: inversenm pinversenm solve covnm vector_projection"]}
{"id": "C47", "title": "What linear_independence_checker decides", "statement": "For a square matrix linear_independence_checker returns true exactly when the columns are linearly independent; for a matrix with more rows than columns it always returns false, even when the columns are independent (defect); for more columns than rows it decides independence of the first r columns only (defect).", "quantifier": "every shape with at least 2 rows and every real content", "why_tests_cant": "linear independence quantifies over all coefficient vectors", "anchors": ["core/lin_alg.cpp: linear_independence_checker"]}
{"id": "C48", "title": "Mini-batch splitting", "statement": "create_mini_batchesmv(X, y, nb) creates nb fresh input batches holding the consecutive blocks of n/nb rows of X, so that each of the first nb*(n/nb) rows is in exactly one batch; but every label batch holds the FIRST n/nb labels, so batch i carries its own labels only when they equal the first ones (defect). create_mini_batchesm/mm start batch i at row nb*i: this is a partition exactly when nb = 1 or nb = n/nb, otherwise rows are duplicated or lost (defect). X and y are unchanged; nb = 0 (a batch size larger than the data set) is undefined behaviour.", "quantifier": "every data set, every number of batches", "why_tests_cant": "ranges over all shapes and batch counts; the exact condition under which the split is a partition is an iff over all of them", "anchors": ["core/utilities.cpp: create_mini_batchesm, create_mini_batchesmv, create_mini_batchesmm"]}
{"id": "C49", "title": "Performance measures count what they claim", "statement": "performance_vec returns the fraction of positions whose rounded prediction equals the label, performance_mat the fraction of rows all of whose rounded entries equal the labels, as long as all these numbers are integers below 10^5 in magnitude (above, predictions off by one count as right: defect). accuracy, precision, recall and f1_score of two sequences of equal length are the fraction of agreeing positions, TP/(predicted ones), TP/(actual ones) and the harmonic mean 2pr/(p+r); recall needs binary labels (with more classes it is wrong: defect) and fewer labels than predictions is undefined behaviour.", "quantifier": "every prediction and label sequence of every length", "why_tests_cant": "ranges over all real sequences", "anchors": ["core/utilities.cpp: performance_vec, performance_mat, performance_pool_int_arr_vec, accuracy, precision, recall, f1_score, tf_pn"]}
{"id": "C50", "title": "Batch gradient descent of linear and logistic regression minimises its cost", "statement": "After gradient_descent(lr, max) a LinReg/LogReg model holds exactly the weights and bias obtained by max(1,max) steps, the data set, every other object and the hyper-parameters are unchanged, and the stored predictions are those of the final weights; model_set_test returns the predictions of the given rows (score, or logistic of the score) and changes nothing. Without regularisation each step is w - lr * gradient of the true cost (half mean squared error / mean cross entropy); with lr <= 2/L the cost never increases and with lr <= 1/L, after T epochs, it exceeds the cost of ANY model u by at most |v0-u|^2/(2 lr T). Logistic mle computes exactly the same model as gradient_descent.", "quantifier": "every data set of every shape, every starting model, every number of epochs, every learning rate in range", "why_tests_cant": "convergence bound against all competitor models and over all data sets and epoch counts", "anchors": ["modules/lin_reg/lin_reg.cpp: gradient_descent, model_set_test", "modules/log_reg/log_reg.cpp: gradient_descent, mle, model_set_test"]}
{"id": "C51", "title": "Stochastic and mini-batch training of linear and logistic regression", "statement": "For every sequence of drawn rows, sgd makes max(1,max) single-example gradient steps on exactly the drawn rows, keeps data and other objects, and stores the final predictions; over the reals its total loss on the drawn examples is within |v0-u|^2/(2lr)+lr/2*sum|g|^2 of that of any fixed model, and linear sgd never moves away from a model that fits the data exactly when lr*|row|^2<=2. mbgd with 0<m<=n rows per batch performs max(1,max) sweeps over n/m batches of n/(n/m) rows, but each batch is trained against the FIRST labels (defect: later labels are never read); with a single batch it equals gradient_descent; a batch size of 0 or larger than the data set is undefined behaviour.", "quantifier": "every data set, every sequence of random draws, every batch size and epoch count", "why_tests_cant": "ranges over all random draws (schedules), data sets and horizon lengths", "anchors": ["modules/lin_reg/lin_reg.cpp: sgd, mbgd", "modules/log_reg/log_reg.cpp: sgd, mbgd"]}
{"id": "C52", "title": "Closed-form and Newton training of linear regression", "statement": "normal_equation on a data set with at least two, linearly independent columns replaces the weights by the unique minimiser of |Xu-y|^2 (plus lambda|u|^2 for ridge) and sets the bias so that the mean residual is 0; data, labels, hyper-parameters and other objects are unchanged. Because X is not centred, the result is the best model over weights AND bias exactly when the bias comes out 0 or every column has mean 0 (defect otherwise). When the first unregularised weight is NaN nothing changes. A newton_raphson epoch with learning rate n gives, from any starting weights, the least-squares weights for the old bias.", "quantifier": "every data set with independent columns, every starting model, every lambda >= 0", "why_tests_cant": "optimality is a statement about all competitor weight vectors for all data sets", "anchors": ["modules/lin_reg/lin_reg.cpp: normal_equation, newton_raphson"]}
{"id": "C53", "title": "Adaptive optimisers of linear regression (Momentum, Nag, Adagrad, Adadelta, Adam, Adamax, Nadam, AMSGrad)", "statement": "For every optimiser, learning rate, epoch count and batch size 0<m<=n the call ends without undefined behaviour, leaves the data set, hyper-parameters and every other object unchanged, stores the predictions of the final model, and every weight and the bias follow the coordinate-wise recurrence of the optimiser driven by the code's batch gradient. Because the code multiplies that gradient by the INTEGER quotient 1/size, with batches of two or more rows and no regularisation the weights never change at all (defect), and only the first label can influence the weights; a step of Adagrad moves a weight by at most the learning rate.", "quantifier": "every optimiser and hyper-parameters, data set, starting model, batch size and epoch count", "why_tests_cant": "states the whole run as a recurrence for all horizons and all data; the defect is a universally quantified non-learning statement", "anchors": ["modules/lin_reg/lin_reg.cpp: momentum, nag, adagrad, adadelta, adam, adamax, nadam, amsgrad"]}
{"id": "C54", "title": "Constructing a linear or logistic regression and fitting it", "statement": "Constructing LinReg/LogReg from an n x k data set gives a model with the k drawn weights and drawn bias, the given regularisation, and n stored predictions that are not yet initialised; data and all other objects are unchanged. LinReg stores lambda and alpha truncated to int: values that do not fit an int are undefined behaviour, and |lambda|,|alpha|<1 are silently ignored (training gives the same model as without regularisation; refutes the documented meaning). Construct followed by gradient_descent satisfies the convergence bound of C50 from the drawn weights.", "quantifier": "every data set, every drawn initial weights, every lambda and alpha", "why_tests_cant": "ranges over all random initialisations, data sets and parameters", "anchors": ["modules/lin_reg/lin_reg.cpp: MLPPLinReg::MLPPLinReg", "modules/log_reg/log_reg.cpp: MLPPLogReg::MLPPLogReg"]}
{"id": "C55", "title": "k-nearest-neighbour classification", "statement": "For every training set, query and k, model_test returns a label of the training set and changes and leaks nothing. The neighbours it uses are distinct, are the nearest rows in order of distance with ties broken by row number, but their number is min(k, 1 + number of rows strictly nearer than row 0): fewer than k are found as soon as fewer than k-1 rows are nearer than row 0 (defect). The class is not the majority label of these neighbours: a label gets its frequency in the training labels when it is numerically the ROW NUMBER of a neighbour, and the first label with the most is returned; with one neighbour the answer is the number of the nearest row if that is a label and the first label otherwise, and when no label is a row number every query gets the first label (defect). model_set_test agrees row by row with model_test, score is the fraction of training rows whose predicted class is the rounded label.", "quantifier": "every training set, label vector, query, k, and any distance order without NaN (the label-membership part for any arithmetic)", "why_tests_cant": "ranges over all data sets and all orders of the distances, including ties", "anchors": ["modules/knn/knn.cpp: MLPPKNN::model_test, model_set_test, score, nearest_neighbors, determine_class", "core/utilities.cpp: performance_pool_int_array_vec"]}
{"id": "C56", "title": "k-means: what training, classification and the score compute, and when training is not k-means", "statement": "MLPPKMeans: with centroid initialisation the first centroids are the data rows drawn; train(n) then performs exactly max(1,n) epochs on them and leaves in the assignment matrix one 1 per point. A point is put in the first nearest cluster only if some centroid is strictly nearer than centroid 0, otherwise it inherits the cluster of the previous point. When the number of clusters equals the dimension an epoch replaces each centroid by the mean of its points, which (over the reals) is the best possible choice for that assignment, so an epoch never increases the quantisation error if every point then sits at a nearest centroid; in general it can increase (shown). When the number of clusters differs from the dimension training never moves a centroid. score is the sum of squared distances of the points to their centroids; model_test and model_set_test return the first nearest centroid. k-means++ initialisation with two clusters leaves the second centroid uninitialised, so training is undefined behaviour. Null arguments and untrained objects return null / zero and change nothing.", "quantifier": "every data set, every sequence of drawn rows, every number of epochs, every k and dimension, every arithmetic with a strict weak order on the distances (exact reals for the error bounds)", "why_tests_cant": "the fixed points and the error behaviour depend on every data set and every random draw; a test sees a handful of runs", "anchors": ["modules/kmeans/kmeans.cpp: train, initialize, _centroid_initialization, _kmeanspp_initialization, _evaluate, _compute_mu, _cost, score, model_test, model_set_test"]}
{"id": "C57", "title": "Tensor entries, rows and x/y slices: what every index addresses", "statement": "MLPPTensor3: element_get(z,y,x) returns the entry of slice z, row y, column x, and 0 for any index outside the tensor; element_set changes exactly that entry and, outside, nothing; after a write every other index triple reads what it read before. Flat indexing visits the entries slice by slice, row by row. row_get_pool_vector / row_get_mlpp_vector / row_get_into_mlpp_vector return row y of slice z, row_set_* replace exactly that row, and bad indices, wrong lengths and null operands change nothing. Defects: row_get_vector ignores its slice argument and always reads slice 0; x_slice_get/x_slice_set and y_slice_get/y_slice_set exchange row and column.", "quantifier": "every tensor size, every contents, every (also negative and too large) index, every element arithmetic", "why_tests_cant": "an addressing mistake shows only for some combination of sizes and indices (square tensors and slice 0 hide the two defects found here)", "anchors": ["core/mlpp_tensor3.cpp, core/mlpp_tensor3.h: element_get, element_set, element_get_index, row_get_*, row_set_*, x_slice_get, x_slice_set, y_slice_get, y_slice_set"]}
{"id": "C58", "title": "The z-slices of a tensor behave as a list of slices", "statement": "z_slice_add* appends a slice, z_slice_remove deletes one and keeps the order of the others, z_slice_swap exchanges two, z_slice_set_* replaces one, z_slice_get_* returns one, in the list, vector and matrix forms alike; slices of the wrong size, empty slices, bad indices and null operands change nothing. Any sequence of such edits has the effect of the same sequence on a list. Defects: z_slice_remove_unordered reads beyond the buffer for every slice but the first, and z_slice_get_into_mlpp_vector/matrix dereference a null target.", "quantifier": "every tensor, every slice contents, every index, every finite sequence of edits within the int size limit", "why_tests_cant": "the effect of an edit depends on all sizes and on the whole history of edits", "anchors": ["core/mlpp_tensor3.cpp, core/mlpp_tensor3.h: z_slice_add, z_slice_add_pool_vector, z_slice_add_mlpp_vector, z_slice_add_mlpp_matrix, z_slice_remove, z_slice_remove_unordered, z_slice_swap, z_slice_get_*, z_slice_set_*"]}
{"id": "C59", "title": "Tensor arithmetic, copies, conversions and persistence", "statement": "add, sub, division_element_wise, hadamard_product, max, sqrt, exponentiate, abs, scalar_multiply, scalar_add and fill compute entry by entry, in the in-place, returning and into-target forms, for aliased operands too; operands of different sizes and null operands leave everything unchanged (the returning form returns null). set_from_mlpp_tensor3 and duplicate_fast give a deep copy that is independent of the original. shape_set keeps the flat entries and is refused when their number would change; resize keeps the common prefix. flatten, set_from_mlpp_matrix(es), set_from_mlpp_vectors and get_data/set_data move exactly the stated entries; malformed data are ignored. is_equal_approx is entry-wise; tensor_vec_mult returns the matrix of dot products of the rows with the vector. Defect: scalar_multiplyb and scalar_addb transform the target's own entries instead of the source's.", "quantifier": "every tensor size and contents, every aliasing of operands and target, every element arithmetic", "why_tests_cant": "element-wise agreement, isolation of copies and the aliased forms concern all sizes and contents", "anchors": ["core/mlpp_tensor3.cpp, core/mlpp_tensor3.h: add, addn, addb, sub*, division_element_wise*, hadamard_product*, max*, sqrt*, exponentiate*, abs*, scalar_multiply*, scalar_add*, fill, set_from_mlpp_tensor3, duplicate_fast, shape_set, resize, flatten, flatteno, set_from_mlpp_matrix, set_from_mlpp_matrices*, set_from_mlpp_vectors*, get_data, set_data, is_equal_approx, tensor_vec_mult"]}
{"id": "C60", "title": "Perceptron object: construction, re-initialisation and the runs of its three training methods", "statement": "MLPPMLP: the constructor leaves data, labels and everything else alone and holds exactly the drawn parameters; initialize does nothing without input, output or hidden units and on an initialised object; every setter makes the object uninitialised, training then does nothing, and the next initialize discards everything learned. gradient_descent, sgd and mbgd on any initialised object, for any element arithmetic, change nothing but the object and iterate the stated parameter update max(1, max_epoch) times; afterwards the stored predictions are those of the final parameters. Defects: the hidden biases of a fresh network are never written (bias_initializationv fills a temporary), so the first training or test call reads uninitialised memory; mbgd uses the first labels for every batch; a batch size of 0 or above the number of rows is undefined behaviour.", "quantifier": "every data set, shape, drawn weights, learning rate, epoch count, sequence of drawn rows, batch size, regularisation and element arithmetic", "why_tests_cant": "the claim ranges over all data and training lengths; the uninitialised read returns whatever memory holds, so a test may pass", "anchors": ["modules/mlp/mlp.cpp, modules/mlp/mlp.h: MLPPMLP, initialize, gradient_descent, sgd, mbgd, set_*, forward_pass, propagatem, propagatev, evaluatem, evaluatev", "core/utilities.cpp: bias_initializationv, weight_initializationm, weight_initializationv"]}
{"id": "C61", "title": "Perceptron over exact reals: answers, and what training does to the log-loss", "statement": "model_test returns the output of the one-hidden-layer logistic network at the point, model_set_test that value for every row, score the fraction of training predictions that round to their label. Without regularisation one epoch of gradient_descent moves the output layer along the gradient of the mean log-loss; for every non-stationary network there is a bound below which every learning rate lowers the cost; training stands still exactly at stationary points; sgd takes the same step on one drawn row per epoch. Defect: the hidden layer does not take a gradient step, because the errors are propagated through the output weights already updated in the same epoch (with zero output weights the hidden gradient is zero and the hidden layer moves all the same).", "quantifier": "every network, data set, labels, learning rate, number of epochs, sequence of drawn rows", "why_tests_cant": "a gradient and a descent guarantee concern all parameters and data; a wrong back-propagation still trains on most test data", "anchors": ["modules/mlp/mlp.cpp, modules/mlp/mlp.h: model_test, model_set_test, score, gradient_descent, sgd"]}
{"id": "C62", "title": "Weight initialisation fills every cell from the chosen distribution", "statement": "weight_initializationv and weight_initializationm write one draw of the selected distribution into every cell of the given object, in row-major order, and change nothing else; for vectors the uniform schemes stay within sqrt(6/(n+1)), sqrt(6/n), sqrt(3/n), 1/sqrt(n). Defects: the matrix form computes its scales by integer division, so the Xavier, He and LeCun schemes give the zero matrix as soon as the matrix has more than a few columns, and division by zero is undefined behaviour for a matrix without columns.", "quantifier": "every scheme, shape, sequence of draws", "why_tests_cant": "draws are random and the scale vanishes only beyond a size; a test sees one shape and one seed", "anchors": ["core/utilities.cpp: weight_initializationv, weight_initializationm, bias_initialization, bias_initializationv"]}
{"id": "C63", "title": "Hidden layer: forward pass, single-point test, setters and re-initialisation", "statement": "MLPPHiddenLayer: forward_pass of an initialised layer sets z = X W + bias on every row and a = activation(z), leaves input, weights, bias and every other object alone; test computes for one point the same values as the row of the forward pass; every setter stores exactly its value and makes the layer uninitialised; the next forward_pass or test then overwrites the weights with a fresh draw, so weights given by set_weights are lost. Defects: the bias of a freshly constructed layer is never written, so its first forward_pass reads uninitialised memory; with Xavier initialisation and more than six units plus inputs the output does not depend on the input.", "quantifier": "every input, shape, weights, biases, activation, draws", "why_tests_cant": "the equations hold for all inputs and shapes; reading uninitialised memory may look fine in a test", "anchors": ["modules/hidden_layer/hidden_layer.cpp: MLPPHiddenLayer, initialize, forward_pass, test, set_*", "core/utilities.cpp: weight_initializationv, weight_initializationm, bias_initialization, bias_initializationv"]}
{"id": "C64", "title": "Output layer: forward pass, single-point test, setters and re-initialisation", "statement": "MLPPOutputLayer: forward_pass of an initialised layer sets z_i = x_i . w + bias and a = activation(z) in new vectors and changes nothing else; an uninitialised layer first draws its weights and bias; test gives the same function of one point; every setter stores exactly its value and, except set_reg, makes the layer uninitialised; the constructor stores its arguments and the drawn parameters.", "quantifier": "every input, shape, weights, bias, activation, draws", "why_tests_cant": "the equations hold for all inputs and shapes", "anchors": ["modules/output_layer/output_layer.cpp: MLPPOutputLayer, initialize, forward_pass, test, set_*", "core/utilities.cpp: weight_initializationv, weight_initializationm, bias_initialization, bias_initializationv"]}
{"id": "C65", "title": "Neural network prediction, cost and score at any depth", "statement": "MLPPANN with any number of hidden layers: model_test returns the composition of the layers' affine maps and activations at the point with the stored parameters; forward_pass, model_set_test and score evaluate the network whose weights are drawn afresh in that call, so two networks that differ only in what they learned give the same predictions (defect); cost is the chosen loss plus the regularisation terms of all hidden layers but the last (defect) and of the output layer; add_layer reads uninitialised memory (defect); add_output_layer builds a layer of the right width fed by the last hidden layer or the input.", "quantifier": "every depth, widths, activations, data, draws", "why_tests_cant": "the claim is an induction over the depth and quantifies over weights and data; discarding learned weights looks like poor training in a test", "anchors": ["modules/ann/ann.cpp: model_set_test, model_test, score, cost, forward_pass, add_layer, add_output_layer", "modules/hidden_layer/hidden_layer.cpp: MLPPHiddenLayer, initialize, forward_pass, test, set_*", "modules/output_layer/output_layer.cpp: MLPPOutputLayer, initialize, forward_pass, test, set_*"]}
{"id": "C66", "title": "Neural network training and learning-rate schedules", "statement": "MLPPANN without hidden layers: apply_learning_rate_scheduler gives the stated formula for each schedule and never increases with the epoch; one update moves weights and bias by exactly the learning rate times the back-propagated error (loss derivative times activation derivative) averaged over the rows, with the regularisation step; gradient_descent and mbgd run for every epoch count, change nothing but the network, and end with the freshly drawn parameters of the last forward pass, so nothing is learned (defect); sgd dereferences a null reference unless the stored activation has one element (defect).", "quantifier": "every data set, cost, activation, regularisation, schedule, learning rate, epoch count, batch size, draws", "why_tests_cant": "the claim is over all training lengths and data; a test that checks only that training runs passes", "anchors": ["modules/ann/ann.cpp: gradient_descent, sgd, mbgd, update_parameters, compute_gradients, apply_learning_rate_scheduler"]}
{"id": "C67", "title": "Outlier finder reports exactly the elements beyond the threshold", "statement": "MLPPOutlierFinder with threshold t >= 0: model_test returns, in order and without changing anything, exactly the elements of the vector lying more than t sample standard deviations from its mean; model_set_test does that for every row of a matrix; model_set_test_indices returns exactly the (column, row) positions of those elements, each once, ordered by row and then column; null arguments give an empty result; at most (n-1)/t^2 of n elements are ever reported, so no vector of n elements has an outlier when t^2 > n-1 (threshold 3 never fires below ten elements); raising the threshold only removes elements.", "quantifier": "every vector, matrix, threshold", "why_tests_cant": "the count bound and the exact characterisation range over all data; a test sees a few vectors", "anchors": ["modules/outlier_finder/outlier_finder.cpp: model_set_test, model_set_test_indices, model_test, set_threshold"]}
{"id": "C68", "title": "Gaussian naive Bayes predictions", "statement": "MLPPGaussianNB: the constructor stores for each class the mean and standard deviation of all values in the rows with that label and predictions for all rows; model_set_test gives for every row what model_test gives for that row; null data is undefined behaviour. Defect: the class priors are never counted and stay zero, so every log-likelihood is minus infinity or NaN, and whatever the training data and the query point the predicted class is 0, unless some class is degenerate, in which case it is the class after the last degenerate one.", "quantifier": "every training set, label set, class count, query point, IEEE-754 format, every C library whose log and exp have the special values of the C standard", "why_tests_cant": "a test whose expected class is 0 passes; the claim that the data never matters ranges over all data and all points", "anchors": ["modules/gaussian_nb/gaussian_nb.cpp: MLPPGaussianNB, evaluate, model_test, model_set_test, score"]}
{"id": "C69", "title": "Link-function regressions: construction, predictions, refusal", "statement": "MLPPCLogLogReg, MLPPTanhReg, MLPPProbitReg: a constructed object has the drawn weights and bias; model_test returns link(x . weights + bias) for the class's link (complementary log-log, tanh, normal distribution function), model_set_test the vector of those for every row, both changing nothing else; the link is strictly increasing. A Tanh or Probit object without data, or whose data has changed size since initialisation, refuses every call, computing and changing nothing. Defect: MLPPTanhReg::set_output_set makes the object unusable whatever is passed.", "quantifier": "all data sets, weights, biases, rows, heaps and scalar types (values: exact reals)", "why_tests_cant": "ranges over every data set and model, and over every heap around the object", "anchors": ["modules/c_log_log_reg/c_log_log_reg.cpp:evaluatem", "modules/tanh_reg/tanh_reg.cpp:needs_init", "modules/probit_reg/probit_reg.cpp:model_test"]}
{"id": "C70", "title": "Link-function regressions: full-batch training follows the gradient", "statement": "gradient_descent of MLPPTanhReg and MLPPProbitReg, and mle of MLPPProbitReg, without regularisation: every epoch moves the model by exactly -learning_rate times the gradient of half the mean squared error; whenever that gradient is not zero every small enough rate strictly lowers the cost; the run always ends, after max_epoch (at least 1) epochs, with _y_hat the predictions of the final model and nothing else changed. Defects: MLPPCLogLogReg omits the factor exp(z) of the slope, so that for some data every small rate raises the cost; its mle steps in the opposite direction, and raises the cost on any single example not yet fitted.", "quantifier": "all data sets, labels, models, rates, epoch counts; all scalar types for the run theorem, exact reals for the gradient", "why_tests_cant": "equality with a derivative, for every data set and every number of epochs", "anchors": ["modules/c_log_log_reg/c_log_log_reg.cpp:gradient_descent", "modules/tanh_reg/tanh_reg.cpp:gradient_descent", "modules/probit_reg/probit_reg.cpp:mle"]}
{"id": "C71", "title": "Link-function regressions: stochastic training follows the gradient of the drawn example", "statement": "sgd of MLPPCLogLogReg and MLPPProbitReg without regularisation: for every sequence of draws, each epoch moves the model by -learning_rate times the gradient of the cost of the drawn example alone. Defect: MLPPTanhReg::sgd never changes the weights, only the bias follows the gradient.", "quantifier": "all data sets, models, rates, epoch counts and sequences of draws", "why_tests_cant": "ranges over every random schedule", "anchors": ["modules/c_log_log_reg/c_log_log_reg.cpp:sgd", "modules/tanh_reg/tanh_reg.cpp:sgd", "modules/probit_reg/probit_reg.cpp:sgd"]}
{"id": "C72", "title": "Link-function regressions: mini-batch training", "statement": "MLPPCLogLogReg::mbgd runs over n / batch_size batches per epoch, each step using the rows of the batch, the current model, the divisor n, and (defect) always the labels of the first batch, so the trained model does not depend on the other labels. Defect: MLPPTanhReg::mbgd is undefined behaviour unless the stored pre-activations have exactly the length of a batch: always on a new object, and after any training unless there is one batch.", "quantifier": "all data sets, labels, models, rates, epoch counts and batch sizes", "why_tests_cant": "ranges over all label vectors and batch sizes; undefined behaviour need not show in a run", "anchors": ["modules/c_log_log_reg/c_log_log_reg.cpp:mbgd", "modules/tanh_reg/tanh_reg.cpp:mbgd"]}
{"id": "C73", "title": "Finite differences and Taylor approximations of one variable", "statement": "MLPPNumericalAnalysis over exact reals: num_diffr / num_diff_2r / num_diff_3r of a differentiable function equal its exact first / second / third derivative at a point at most 1e-10 / 2e-5 / 3e-5 to the right of x; if the derivative is K-Lipschitz the error of num_diffr is at most K*1e-10; they are exact on polynomials of degree 1 / 2 / 3. The constant, linear and quadratic approximations have the value of the function at the centre, the linear one is exact on affine functions and has error at most K(|x-c|+1e-10)|x-c|, the quadratic one on quadratics is exact up to a*1e-10*(x-c). Defect: the cubic approximation is the quadratic one for every function (1/6 is an integer division). Defect: in the default single precision build num_diffr is +0 for every function at every point of absolute value at least 2^-8 where the function is finite, so the linear approximation is constant there.", "quantifier": "all real functions with the stated regularity, all points", "why_tests_cant": "ranges over all functions and points; the bounds are analytic", "anchors": ["core/numerical_analysis.cpp:num_diffr", "core/numerical_analysis.cpp:num_diff_2r", "core/numerical_analysis.cpp:num_diff_3r", "core/numerical_analysis.cpp:quadratic_approximationr", "core/numerical_analysis.cpp:cubic_approximationr"]}
{"id": "C74", "title": "Root finding and differential equations", "statement": "newton_raphson_method and halley_method run exactly the stated number of their iterations (a fractional count is rounded up, a non-positive one does nothing), leave a root fixed and find the root of any non-constant affine function in one iteration; on every convex function with a root r and slope at least m right of r, Newton from any x0 > r stays in [r, x0] and its error is at most (1 - m/s0)^n (x0 - r). inv_quadratic_interpolation performs n steps of inverse quadratic interpolation, dropping the oldest point, without changing its argument; fewer than three points abort. eulerian_methodr sums the slopes of floor((p-q0)/h) steps; its error is at most n*K*h^2 for a K-Lipschitz slope; eulerian_methodv has error at most K h^2 sum (1+hL)^i for slopes L-Lipschitz in y. growth_method solves y' = k y with y(0) = C. Defect: in single precision one Newton step from any finite point of absolute value at least 2^-8 never gives a finite number.", "quantifier": "all functions with the stated regularity, all starting points, step sizes and iteration counts (exact reals)", "why_tests_cant": "convergence for every function and number of iterations", "anchors": ["core/numerical_analysis.cpp:newton_raphson_method", "core/numerical_analysis.cpp:halley_method", "core/numerical_analysis.cpp:inv_quadratic_interpolation", "core/numerical_analysis.cpp:eulerian_methodr", "core/numerical_analysis.cpp:eulerian_methodv", "core/numerical_analysis.cpp:growth_method"]}
{"id": "C75", "title": "Partial derivatives, Jacobian, Hessian, third-order tensor, Laplacian", "statement": "For every side-effect-free callback: num_diffv / num_diff_2v / num_diff_3v return the first / second / third difference quotients along the given axes, which are exact (mixed) partial derivatives at a nearby point, leave their argument and all other objects as they were and leak nothing; jacobian, hessian and third_order_tensor return new objects of the right shape with all those entries; the Hessian and the tensor are symmetric whatever the function; on affine functions the Jacobian, on quadratic functions the Hessian, the tensor and the Laplacian are exact. An axis outside the vector aborts.", "quantifier": "all callbacks computing a function of the vector, all points, dimensions, axes and heaps", "why_tests_cant": "ranges over all functions, dimensions and heaps", "anchors": ["core/numerical_analysis.cpp:num_diffv", "core/numerical_analysis.cpp:num_diff_2v", "core/numerical_analysis.cpp:num_diff_3v", "core/numerical_analysis.cpp:jacobian", "core/numerical_analysis.cpp:hessian", "core/numerical_analysis.cpp:third_order_tensor", "core/numerical_analysis.cpp:laplacian"]}
{"id": "C76", "title": "Approximations of several variables and the second partial derivative test", "statement": "quadratic_approximationv returns the linear approximation plus half the quadratic form of the Hessian; the arguments are unchanged. Defects: linear_approximationv uses only the first coordinate of x - c (so on affine functions the terms of all other coordinates are missing), in every dimension; cubic_approximationv adds nothing to the quadratic one. second_partial_derivative_test at a critical point of any quadratic function of two variables answers 'min' if and only if the point is a strict global minimum, 'max' iff a strict maximum, 'saddle' iff the function takes both larger and smaller values.", "quantifier": "all callbacks, points, dimensions; all quadratic functions of two variables (exact reals)", "why_tests_cant": "an equivalence over all quadratic functions and all points", "anchors": ["core/numerical_analysis.cpp:linear_approximationv", "core/numerical_analysis.cpp:quadratic_approximationv", "core/numerical_analysis.cpp:cubic_approximationv", "core/numerical_analysis.cpp:second_partial_derivative_test"]}
{"id": "C77", "title": "Support vector classifier: construction, prediction, score", "statement": "For every data set of n rows and k columns, the MLPPSVC constructor yields an object whose model_test(x) is the sign (-1, 0 or 1) of the inner product of x and the weights plus the bias, and whose model_set_test gives that for each row of any matrix with k columns in a fresh vector, changing nothing else. set_c only replaces the constant. After training, score is the fraction of the training rows whose predicted sign is their label. An object whose data are missing or whose size does not fit its weights answers 0 / null / 0 and trains nothing. Defect: set_output_set takes a matrix where the label vector is stored: whatever is passed, the labels become null and the object refuses everything.", "quantifier": "all data sets, weights, biases, query points and heaps", "why_tests_cant": "ranges over all data sets, models and heaps", "anchors": ["modules/svc/svc.cpp:model_test", "modules/svc/svc.cpp:model_set_test", "modules/svc/svc.cpp:score", "modules/svc/svc.cpp:set_output_set", "modules/svc/svc.cpp:MLPPSVC"]}
{"id": "C78", "title": "Support vector classifier: train_sgd", "statement": "For every data set, rate, constant, number of epochs and sequence of drawn rows, train_sgd performs for each drawn row a subgradient step on C times its hinge loss and then multiplies the weights by 1 - lr: a row with label times score below 1 turns (w, b) into ((1 - lr)(w + lr C y x), b + lr C y), any other row into ((1 - lr) w, b). Hence for rates in [0, 1] the weights stay bounded by max(|w0|, (1 - lr) C B) for rows bounded by B, however long it runs, the bias moves by at most lr C per epoch, and the weights are (1 - lr)^t times the initial ones plus a combination of the rows with coefficients of the labels' signs.", "quantifier": "all data sets, rates, epochs and draws (exact reals for the bounds; any arithmetic for the run)", "why_tests_cant": "an invariant of unboundedly long runs over all data and all random draws", "anchors": ["modules/svc/svc.cpp:train_sgd"]}
{"id": "C79", "title": "Support vector classifier: train_gradient_descent", "statement": "Each epoch moves the weights by a subgradient step on C times the mean hinge loss and multiplies them by 1 - lr/n. Defect: the bias uses the predicted signs and the wrong direction: it moves by minus lr C/n times the sum of the labels of the rows whose label times predicted sign is below 1 (for labels -1 and 1: exactly the misclassified rows); for a misclassified all-zero row every run lowers the bias and raises the hinge loss.", "quantifier": "all data sets, rates, constants and epoch counts (exact reals)", "why_tests_cant": "holds for every data set and every number of epochs", "anchors": ["modules/svc/svc.cpp:train_gradient_descent"]}
{"id": "C80", "title": "Support vector classifier: train_mbgd", "statement": "Defect: the weights never depend on the data: after train_mbgd they are the initial ones times (1 - lr/n) to the power of the number of batches processed. The bias scores the rows of every batch against the labels of the first batch and adds lr C/n times the labels whose product with the predicted sign is below 1. All batches are released; the data set is unchanged.", "quantifier": "all data sets, batch sizes, rates and epoch counts (exact reals)", "why_tests_cant": "holds for every data set, batch size and number of epochs", "anchors": ["modules/svc/svc.cpp:train_mbgd"]}
{"id": "C81", "title": "train_test_split partitions the examples", "statement": "For every data set (inputs and outputs, as many rows as both have) and every test fraction whose product with the number of examples N truncates to t with 0 <= t <= N, and for every sequence of random numbers, train_test_split returns four new matrices: a test set of t examples and a training set of N - t; together they are a rearrangement of the N examples, each input row still paired with its output row, nothing lost or duplicated, and the arguments are unchanged. Every arrangement can occur. Fractions between 0 and 1 satisfy this and round down; a larger t fails an index check; without data both sets are empty.", "quantifier": "all data sets, fractions, sequences of random numbers", "why_tests_cant": "the split must be right for every shuffle", "anchors": ["core/data.cpp:train_test_split", "core/data.cpp:train_test_split_bind", "platform/sfw.cpp:shuffle"]}
{"id": "C82", "title": "feature_scaling maps each column onto [0, 1]", "statement": "For every data set, feature_scaling returns a new matrix whose column j holds (x - min)/(max - min) with the extremes of column j; over the reals a column that is not constant is mapped by an increasing affine function onto a set within [0, 1] that contains 0 and 1. Defect: in IEEE arithmetic every entry of a constant finite column becomes NaN.", "quantifier": "all data sets; exact reals for the range, all IEEE formats for the defect", "why_tests_cant": "range over all columns", "anchors": ["core/data.cpp:feature_scaling"]}
{"id": "C83", "title": "mean_centering and mean_normalization", "statement": "For every data set, mean_centering returns a new matrix in which each row has the mean of that row subtracted, and mean_normalization one in which in addition each row is divided by the standard deviation of the centred row. Over the reals every row of the former has mean zero, and every row of the latter that was not constant has mean zero and variance one (two or more columns). Defect: the means are those of the rows (examples), not of the features the comment names: a data set with one feature becomes all zeros.", "quantifier": "all data sets", "why_tests_cant": "algebraic law over all data", "anchors": ["core/data.cpp:mean_centering", "core/data.cpp:mean_normalization"]}
{"id": "C84", "title": "one_hot_rep", "statement": "For every vector of labels that convert to int and every number k of classes, one_hot_rep returns a new matrix with k columns whose row i has a one in the column numbered by label i truncated towards zero and zeros elsewhere (all zeros for labels outside 0..k-1), so labels 0..k-1 can be recovered. A null vector gives null; the three transformations above dereference null. A first label that is NaN or too large for int is undefined behaviour.", "quantifier": "all label vectors and class counts", "why_tests_cant": "law over all inputs", "anchors": ["core/data.cpp:one_hot_rep"]}
{"id": "C85", "title": "discrete_cosine_transform is the orthonormal DCT-II on square matrices", "statement": "For every matrix of n rows, discrete_cosine_transform returns a new matrix of the same size holding the DCT-II of the entries minus 128 with the basis of order n along both axes, and changes nothing else. Over the reals that basis is orthonormal, so for square matrices every entry can be recovered by the inverse transform, the sum of squares is kept and entry (0, 0) is the sum of the centred entries divided by n. Defect: the number of rows is also used along the rows of a rectangular matrix: for one row and two columns the second entry is always zero and different images share a transform. A null matrix is undefined behaviour.", "quantifier": "all matrices of every size (exact reals)", "why_tests_cant": "invertibility and energy preservation for every size and content", "anchors": ["core/transforms.cpp:discrete_cosine_transform"]}
{"id": "C86", "title": "convolve_2d computes the zero-padded cross-correlation for stride 1 only", "statement": "For stride 1, a square fs x fs filter and any padding P with fs <= rows + 2P, convolve_2d returns a new square matrix of side rows + 2P - fs + 1 whose entry (i, j) is the sum over k, p of X(i+k-P, j+p-P) K(k, p), X being zero outside the image, and changes nothing else: no temporary is left. For every stride s >= 1 on a square image, entry (i, j) is the same sum with the window starting at start(i), start(j), where start(0) = 0 and start(i) = i + s - 1. Defects: (a) for s >= 2 windows are therefore not s apart: with a 1x1 filter entry (2, 2) is pixel (s+1, s+1), not (2s, 2s); (b) the output side follows the rows, so columns from rows + P on of a wide image are never used; (c) a filter that is not square yields an all-zero result instead of an error; (d) stride 0 is undefined behaviour.", "quantifier": "every scalar type and arithmetic (formulas), exact reals (textbook comparison); all images, filters, strides and paddings within the int range", "why_tests_cant": "must hold for every image, filter, stride, padding and size", "anchors": ["core/convolutions.cpp:convolve_2d"]}
{"id": "C87", "title": "pool_2d and global_pool_2d summarise their windows", "statement": "pool_2d on a square image returns a new matrix whose entry (i, j) is the mean (Average), an attained upper bound (Max) or an attained lower bound (Min) of the fs x fs window starting at (start(i), start(j)), start(0) = 0 and start(i) = i + stride - 1, which always lies inside the image. global_pool_2d returns the mean, maximum or minimum of all pixels and leaves the heap as it was. Defect: because the windows are not stride apart, the pixels in rows and columns from ms + stride + fs - 2 on (ms the output side) are never read.", "quantifier": "all square images (global: all shapes), window sizes and strides; exact reals for the mean, reals with an infinity exceeding all pixels for the extremes", "why_tests_cant": "must hold for every image, filter, stride, padding and size", "anchors": ["core/convolutions.cpp:pool_2d", "core/convolutions.cpp:global_pool_2d"]}
{"id": "C88", "title": "gaussian_filter_2d multiplies the exponent by the variance", "statement": "gaussian_filter_2d(size, s) returns a new size x size matrix with entry exp(-(x^2+y^2)/2 * s^2) / (2 pi s^2) at offset (x, y) from the centre (size-1)/2. For s^2 = 1 that is the gaussian density. Defect: for every other nonzero s every entry off the centre differs from the gaussian density exp(-(x^2+y^2)/(2 s^2)) / (2 pi s^2). A filter of odd size is symmetric in both axes and under transposition.", "quantifier": "all sizes with size^2 in int, all standard deviations (exact reals)", "why_tests_cant": "the difference from the gaussian for every standard deviation and entry", "anchors": ["core/convolutions.cpp:gaussian_filter_2d", "core/convolutions.cpp:gaussian_2d"]}
{"id": "C89", "title": "dx, dy and grad_magnitude take zero-padded central differences", "statement": "dy returns a new matrix with entry X(i-1, j) - X(i+1, j), X being zero outside the image, for every image. dx has entry X(i, j+1) - X(i, j-1) everywhere except in column rows - 1 of an image with 2 <= rows < columns, where (defect) it is -X(i, rows-2): the column is compared with the number of rows. For images at least as high as wide grad_magnitude returns the square root of the sum of the squares of the two. Nothing else is changed and no temporary is left.", "quantifier": "all images of every shape (exact reals)", "why_tests_cant": "must hold for every image, filter, stride, padding and size", "anchors": ["core/convolutions.cpp:dx", "core/convolutions.cpp:dy", "core/convolutions.cpp:grad_magnitude"]}
{"id": "C90", "title": "harris_corner_detection classifies by the Harris response", "statement": "For every image of r >= 1 rows and at most r columns, harris_corner_detection returns r rows of r classes and leaves the heap as it was (no temporary remains): with a, b, m the sums of Ix^2, Iy^2 and Ix Iy over the 3x3 neighbourhood weighted by the gaussian of standard deviation 1 (zero outside the image) and R = ab - m^2 - (a+b)^2/20, position (i, j) is a corner if R > 0, an edge if R < 0 and neither if R = 0. Multiplying the image by any nonzero number leaves the answer unchanged. A position whose 5x5 neighbourhood does not vary along the rows, or not along the columns, is never reported as a corner. A null image is undefined behaviour.", "quantifier": "all images of every size and content with at most as many columns as rows (exact reals)", "why_tests_cant": "invariance under every scaling and absence of false corners for every image", "anchors": ["core/convolutions.cpp:harris_corner_detection", "core/convolutions.cpp:compute_mv"]}
{"id": "C91", "title": "Tensor pooling pools every slice; compute_m stores the structure tensor", "statement": "For every n x n x d tensor, window size 1 <= F <= n, stride S > 0 and pooling type, pool_3d returns a new tensor of d slices, each equal to what pool_2d returns for that slice alone, and changes nothing else (no temporary remains); global_pool_3d returns a new vector whose k-th entry is what global_pool_2d returns for slice k, for tensors of any shape. With average pooling the entries are the means of the windows, respectively of the slices. For every image with at most as many columns as rows, compute_m returns a new r x r x 3 tensor whose slices are the smoothed products Ix^2, Iy^2 and Ix Iy of C90. A null reference is undefined behaviour.", "quantifier": "all tensors of every size and content, window sizes, strides, pooling types; all images with at most as many columns as rows", "why_tests_cant": "agreement with the operation on matrices for every size, slice, window and stride", "anchors": ["core/convolutions.cpp:pool_3d", "core/convolutions.cpp:global_pool_3d", "core/convolutions.cpp:compute_m"]}
{"id": "C92", "title": "convolve_3d reads the image with its indices permuted, and a bank of filters gives zeros", "statement": "For every n x n x d image and every d-deep F x F filter with F <= n (stride 1, no padding) convolve_3d returns a new (n-F+1) x (n-F+1) x 1 tensor with entry (i, j) = sum over t, k, p of X[slice i+k, row j+p, column t] K[slice t, row k, column p], zero where the image has no such entry, instead of X[slice t, row i+k, column j+p]. REFUTED as a convolution: for an image of one channel every row of the result but the first is zero and the first depends only on the first column of the image. For a bank of m >= 2 filters stacked along z (any stride) the result is the zero tensor with m slices, whatever the image and the filters. Null image or filter: undefined behaviour.", "quantifier": "all square images, all square filters, numbers of channels and filters (exact reals; the zero result for every scalar type)", "why_tests_cant": "which entries are read, for every size and content", "anchors": ["core/convolutions.cpp:convolve_3d"]}
