# Formal model of Relintai/pmlpp in Rocq (Coq 8.16.1)

Files: `properties.jsonl` (what is claimed, in English), `MANIFEST.json` (which theorems prove it),
`ASSUMPTIONS.md` (output of `Print Assumptions` for every one of them, generated by `tools/assumptions.py`),
`rocq/theories/*.v` (model, specification, proofs), `seeded/LOG.jsonl` (wrong programs tried against the theorems).

## 1. Approach

**Heap model.** `MLPPVector`, `MLPPMatrix` and everything built on them is modelled at pointer level. A heap has *objects*
(size fields and a data pointer) and *blocks* (arrays of cells; a cell is `None` while uninitialised). Every C++ function is a
Gallina function in a state monad (`Base.v`) with four outcomes:

* `Ok v h` - normal return (an `ERR_FAIL_*` early return is a normal return);
* `UB` - undefined behaviour: null / dangling / out-of-bounds access, read of an uninitialised cell, signed overflow, division
  of an int by zero, conversion of a real that does not fit an int;
* `Crash` - a `CRASH_COND` (e.g. allocation of a negative size, `operator[]` out of range);
* `NoFuel` - only for the loops that are not bounded by a counter (sort, erase_multiple_unordered, `while (true)` training loops);
  every theorem excludes it.

`memrealloc` always returns a *new* block and kills the old one, so the use of a stale pointer is `UB`. References are `option loc`
(null is `None`); aliasing is equality of `loc`s. The abstraction `abs : heap -> gmap loc aobj` forgets the pointers; a theorem whose
conclusion is `abs h' = <[l := ...]> (abs h)` says what changed *and that nothing else did*. `wf h` (coherence: sizes match blocks, no two
objects share a block, ...) is the representation invariant; C01 proves it for every history of vector calls and `Pres.v` for every
primitive. `runs m h Q` (VecProofs.v) says: `m h` is `Ok a h'` with `wf h'` and `Q a h'` - no undefined behaviour, crash or divergence.

**Scalars.** `real_t` is an arbitrary type `F` with arbitrary operations (classes `Scalar F`, `Libm F`). Theorems quantified over it hold
for IEEE floats with rounding and NaN. Order-sensitive ones (sort, max, mode ...) are instantiated at Flocq's binary floats of every
format (PropFloat.v). Algebraic theorems add the laws they need and are proved over every commutative ring/field (mathcomp), analytic
ones (derivatives, inequalities, optimality, convergence) over Coq's reals `R` (RInst.v, LibmR.v).

**Layers.** For each class: `X.v` is the proof-free model, each definition citing file and lines; `XProofs.v` proves what it computes for
any arithmetic (the run as a pure function of lists / entry functions); `XMath.v` is mathematics about those pure functions;
`PropX.v` contains the theorems named `Cnn_...` and the small specification vocabulary they use; `ExX.v` runs concrete non-trivial cases
that meet the hypotheses. Names ending in `_refuted`, `_UB`, `_undefined` or `_iff` record, as theorems, where the code does not do what its name
promises.

## 2. Trusted base

* Coq's kernel (also re-checked by `coqchk` in `vcheck`) and, for `vm_compute`/`native` nothing beyond the kernel's `vm_compute`.
* Axioms: only those of Coq's standard library, listed per theorem in ASSUMPTIONS.md:
  `ClassicalDedekindReals.sig_forall_dec`, `ClassicalDedekindReals.sig_not_dec`, `FunctionalExtensionality.functional_extensionality_dep`
  (the construction of `R`), `Classical_Prop.classic` (real analysis, Flocq), `ClassicalEpsilon.constructive_indefinite_description`
  (only to give mathcomp a field structure on `R`, RField.v). Theorems about containers and matrix algebra have no axiom at all.
  `vcheck` additionally displays sealed *definitions* of the libraries used (e.g. `Rdefinitions.RbaseSymbolsImpl.*`, mathcomp's locked
  `bigop`, `finset`, `perm`, ssreflect's `Under_rel`): these are opaque constants with a body, not axioms. No axiom is added here.
* The reading of the C++ by hand, i.e. that the definitions of the model files say what the cited lines do. The mutants of
  `seeded/` test that the theorems notice changes of the model, not this correspondence.

### What is simplified everywhere

* One scalar type: where the C++ mixes `float real_t` with `double` literals and libm calls, the model rounds (if at all) in one type.
* Function arguments are evaluated left to right; a temporary is destroyed after its last use (C++: at the end of the statement).
* A `Ref` that is the only owner is destroyed when reassigned; reference counts themselves are not modelled.
* Allocation succeeds (out-of-memory is not modelled). `int` arithmetic in *sizes* is checked for overflow; loop counters are `Z`.
* Random draws are parameters of the model (every theorem is for all draws). Printing (`ui`, PLOG_MSG) is omitted.
* Containers `Vector<Ref<..>>` and the `HashMap` of `mode` are Coq lists / association lists.
* Godot bindings (`_bind_methods`, `Variant` conversions, property setters) are not modelled.

### What is modelled

| repo | model | not covered |
|---|---|---|
| core/mlpp_vector.{h,cpp} | Vec.v, Sort.v | `to_string`, bindings, `set_from_pool_vector` and similar engine containers only as lists |
| core/mlpp_matrix.{h,cpp} | Mat.v, DetCode.v | image conversions, `to_string`, `gaussian_noise` values (draws), eigen/SVD iterations |
| platform/sfw.h SortArray | Sort.v | the rest of sfw (CowData, HashMap, Ref counting, String) |
| core/stat.cpp, modules/uni_lin_reg | Stat.v | |
| core/activation.cpp | Act.v | the pure dispatch tables beyond `run_activation_*` |
| core/cost.cpp, core/reg.cpp | Cost.v, Svm.v | `*` overloads on std::vector |
| core/lin_alg.cpp | LinAlg.v | `eigen`, `svd`, `pca`-style iterations |
| core/utilities.cpp | Util.v | file I/O, weight initialisation distributions |
| modules/lin_reg, modules/log_reg | Glm.v | `save`, `ui` |
| modules/knn, kmeans, gaussian_nb, outlier_finder | Knn.v, Kmeans.v, Gnb.v, Outlier.v | `bind` methods; see the notes of C55, C56, C67, C68 |
| core/mlpp_tensor3.{h,cpp} | Ten.v | image import/export, bindings |
| modules/hidden_layer, output_layer; weight initialisation of core/utilities.cpp | Layer.v | Variant bindings |
| modules/mlp, modules/ann | Mlp.v, Ann.v | `save`, `ui`, the ANN optimisers beyond those of C66 |
| modules/c_log_log_reg, tanh_reg, probit_reg | Lnk.v | `save`, `ui` |
| modules/svc | Svc.v | `save`, `ui` |
| core/numerical_analysis.cpp | Num.v | callbacks with effects |
| core/data.cpp | Data.v | data-set loaders, text processing, recommenders (most of the file) |
| core/transforms.cpp | Dct.v | the commented-out code |
| core/convolutions.cpp | Conv.v, Harris.v, Conv3.v | `grad_orientation`, constant filters |
| other modules (auto_encoder, bernoulli_nb, multinomial_nb, dual_svc, exp_reg, gan, wgan, mann, multi_output_layer, pca, softmax_net, softmax_reg), gauss_markov_checker, hypothesis_testing | — | not modelled |

Known limits of particular models: `m_powern` does not model the negation of INT_MIN; adjointo / cofactoro / inverse-into / kronb are modelled for
non-overlapping targets and separately for the aliased calls the theorems name; over `R`, `s_inf` is 0, which matters only for the value returned by
max/min of an empty sequence (stated) and not in the softmax shift (shift-invariant).

## 3. Properties: model and proof

| id | model | proof |
|----|-------|-------|
| C01 | datatype of vector calls + interpreter (Hist.v) | invariant `wf` by induction over the history |
| C02-C04, C06-C16, C19-C21, C28-C30 | heap model functions | refinement to list / matrix operations through `abs`, loop invariants |
| C05 | SortArray (introsort) on an explicit array with bounds-checked accesses and fuel | loop invariants; permutation, sortedness, fuel sufficiency; IEEE instance |
| C17, C18 | `mult*`, spec = sums | loop invariants, ring laws |
| C22-C26 | det / cofactor / adjoint / inverse recursion tied to the heap program | equality with mathcomp `\det`, `\adj`, inverse |
| C27 | rotation matrices over R | trigonometric identities; refutations for 2-D and axis 2 |
| C31-C35 | stat functions | folds for any arithmetic; inequalities over R; mode/median over any order |
| C36-C38 | activation functions: a deep embedding of the vector/matrix expressions | evaluation lemma; derivatives with `derivable_pt_lim`; softmax Jacobian |
| C39-C43 | cost, regularisation, dual SVM | folds; `gradient` predicate on lists; convexity |
| C44-C47 | Cholesky, Gram-Schmidt, QR, inverse, least squares, independence test | loop invariants to recursions, then uniqueness/optimality over R |
| C48, C49 | mini-batches, scores | exact contents of each batch; counting |
| C50 | linear/logistic `gradient_descent`, `mle`, prediction | run = iterated pure step; step = gradient; descent lemma; O(1/T) rate |
| C51 | `sgd`, `mbgd` | run theorem for all draws; regret bound; contraction; refuted label handling |
| C52 | `normal_equation`, `newton_raphson` | run theorem; least-squares optimality and uniqueness; iff for the joint optimum |
| C53 | the eight adaptive optimisers, one parametric loop | run = iterated pure step; pure step = textbook recurrence per coordinate; invariant `weights unchanged` |
| C54 | constructors | run theorem; composition with C50; truncation of lambda, alpha |
| C55 | knn.cpp; PoolIntArray, HashMap as lists/maps | loop invariants; the search invariant says the found rows are a prefix of the (distance, index) order |
| C56 | Kmeans.v: constructor, setters, initialize, train, score, model_test, model_set_test of MLPPKMeans | loop invariants over the heap give train as an iteration of a pure step; pure facts about the step (first-nearest scan with a stale index; weighted mean minimises squared error) give the error bounds; a three-point run whose error rises and an undefined run with k-means++ are theorems |
| C57 | Ten.v: element and row accessors, x/y slices of MLPPTensor3 | index arithmetic (slice, row, column) <-> flat offset is injective; single-store frame lemma; nested-loop invariants for the x/y slices; concrete runs refute the intended reading of the defective accessors |
| C58 | Ten.v: z-slice operations | each operation refined to a list operation on the list of slices (loop invariants on the flat buffer), then induction on the sequence of edits |
| C59 | Ten.v: element-wise templates, copies, conversions, get_data/set_data, tensor_vec_mult | the element-wise loops of vectors/matrices reused; set_from_* by a gather loop invariant |
| C60 | Mlp.v: MLPPMLP (constructors, setters, initialize, evaluate/propagate, gradient_descent, sgd, mbgd, cost, score) | frame-style object invariant preserved by each step; induction on epochs and batches; direct execution for the undefined behaviour |
| C61 | MlpSpec.v (network, mean log-loss, gradient); Mlp.v over R | chain rule along differentiable paths in parameter space gives the gradient; the update is affine in the learning rate, its derivative at 0 is -|gradient|^2 |
| C62 | Layer.v: weight_initialization_v/_m | loop invariants over the filled prefix; real bounds by monotonicity of sqrt; integer division evaluated |
| C63 | Layer.v: MLPPHiddenLayer | wp of each method on the abstract heap; forward then test composed for the row theorem |
| C64 | Layer.v: MLPPOutputLayer | same |
| C65 | Ann.v: MLPPANN prediction part; AnnSpec.v: the network as a function | induction on the list of layers with a frame invariant (net_ready) |
| C66 | Ann.v: training part | step theorem, then invariant `rel` over epochs and batches; direct execution for the undefined behaviour |
| C67 | Outlier.v: MLPPOutlierFinder | the loop equals a filter; Chebyshev's bound from the sum of squares over R |
| C68 | Gnb.v: MLPPGaussianNB | loop invariants for moments, priors and scores over any scalar; then case analysis of IEEE-754 special values (Flocq) |
| C69 | Lnk.v: three link-function regressions as one parametrised model | view lemmas on the object; refusal by evaluation; monotone link from its derivative |
| C70 | Lnk.v gradient_descent, mle | loop invariant to a pure iteration over any scalar; over R the step equals the gradient; descent for small rates from the derivative along the step; counterexample for CLogLog |
| C71 | Lnk.v sgd | loop invariant to a fold over the draws; gradient of the one-example cost |
| C72 | Lnk.v mbgd | loop invariant over batches; UB by symbolic execution |
| C73 | Num.v: numerical_analysis.cpp, one variable | mean value theorem applied 1 to 3 times; algebra |
| C74 | Num.v: root finding, Euler | loop invariants to pure iterations; convexity argument for Newton; Gronwall-style induction for Euler |
| C75 | Num.v: vector callbacks as effect-free computations on a reference | symbolic execution of the duplicate/bump/call pattern; loop invariants filling the result; algebra over finite sums |
| C76 | Num.v: approximations, derivative test | symbolic execution; completing the square for the 2x2 form |
| C77 | Svc.v: svc.cpp construction, evaluate, score | symbolic execution on the heap view svS |
| C78 | Svc.v: train_sgd | loop invariant to a pure fold; invariants of the fold |
| C79 | Svc.v: train_gradient_descent | loop invariant to Nat.iter; convexity of the hinge |
| C80 | Svc.v: train_mbgd | loop invariants over batches and epochs; closed form |
| C81 | Data.v: data.cpp train_test_split, Array::shuffle | symbolic execution; the shuffle is a permutation, and onto (induction) |
| C82 | Data.v: feature_scaling | cell-by-cell fill invariant; scan_spec for the extremes; Flocq for the NaN |
| C83 | Data.v: mean_centering, mean_normalization | fill invariants; variance algebra over the reals |
| C84 | Data.v: one_hot_rep | fill invariant |
| C85 | Dct.v: transforms.cpp discrete_cosine_transform | fill invariant with nested fold; Dirichlet kernel by induction gives orthonormality |
| C86 | Conv.v: convolutions.cpp convolve_2d | wp_fill: generic cell-by-cell fill with a side invariant for the window buffer; fold over the flattened filter equals the double sum |
| C87 | Conv.v: pool_2d, global_pool_2d | as C86; scan specs of C81 for the extremes |
| C88 | Conv.v: gaussian_2d, gaussian_filter_2d | fill; injectivity of exp |
| C89 | Conv.v: dx, dy, grad_magnitude | fill with a case analysis at the borders |
| C90 | Harris.v: compute_mv, harris_corner_detection | symbolic execution over the wp lemmas of C86-C89; homogeneity of degree 4; vanishing of the smoothed products |
| C91 | Conv3.v: pool_3d, global_pool_3d, compute_m | symbolic execution slice by slice over wp lemmas of C87, C90 and the tensor |
| C92 | Conv3.v: convolve_3d, conv3_window, conv3_pad | symbolic execution; index arithmetic of the flattened window; exact reals for the sums |

Later properties are listed with their notes in MANIFEST.json.

Not expressible in this model: statistical quality of the random generators, running time, and anything about the
rounding error of particular computations beyond "the result is the one obtained by these operations in this order".
