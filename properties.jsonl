{"id": "C01", "title": "Highscore list is always sorted", "statement": "After any sequence of Highscore.Insert calls on a list made by NewHighscore(maxItems) the slice returned by Scores() is in descending order and BestScore() is its first entry (0.0 when empty).", "quantifier": "every maxItems other than 1 and every finite sequence of nodes whose scores are float64 values other than NaN (including infinities and ties)", "why_tests_cant": "order of insertion, ties and evictions interact; only an invariant over all insertion histories settles it", "anchors": ["featselect/highscore.go:Highscore.Insert", "featselect/highscore.go:Scores", "featselect/highscore.go:BestScore"]}
{"id": "C02", "title": "Highscore capacity", "statement": "Len() never exceeds MaxItems; as long as fewer than MaxItems nodes were inserted nothing is dropped; after n inserts Len() is at least min(n, MaxItems-1). With pairwise different scores at most MaxItems-1 entries are ever kept, so a list created for maxItems entries does not fill up. NewHighscore(1) panics on the first Insert; NewHighscore(0) stays empty.", "quantifier": "every maxItems and every finite insertion sequence without NaN scores", "why_tests_cant": "the capacity test uses MaxItems-1 in one place and MaxItems in another; which one wins depends on the whole history of ties", "anchors": ["featselect/highscore.go:Highscore.Insert", "featselect/highscore.go:Len", "featselect/highscore.go:NewHighscore"]}
{"id": "C03", "title": "Highscore keeps the best nodes ever inserted", "statement": "Scores() equals the first Len() entries of the descending sort of the scores of all nodes inserted so far; every kept node was inserted, and BestScore() is the maximum over everything inserted.", "quantifier": "every maxItems >= 2 and every finite non-empty insertion sequence without NaN scores", "why_tests_cant": "an eviction bug shows only for particular histories of insertions and ties", "anchors": ["featselect/highscore.go:Highscore.Insert", "featselect/highscore.go:BestScore", "featselect/highscore.go:Scores"]}
{"id": "C04", "title": "Highscore JSON round trip", "statement": "Decoding the JSON of a highscore list into a list made by NewHighscore gives back MaxItems and the same items in the same order whenever Len() < MaxItems; when Len() = MaxItems the last item can be lost.", "quantifier": "every highscore list reachable by insertions, at the level of the encoded fields", "why_tests_cant": "whether the decoder (which re-inserts) agrees with the encoder depends on every possible list content", "anchors": ["featselect/highscore.go:MarshalJSON", "featselect/highscore.go:UnmarshalJSON", "featselect/highscore.go:Equal"]}
{"id": "C05", "title": "Node JSON round trip", "statement": "Decoding the JSON of a node restores Model, Coeff, Level, Lower, Upper and Score exactly and NodesEqual holds between the two; WasFlipped is not restored.", "quantifier": "every node with finite number fields and any model length", "why_tests_cant": "model is re-encoded as an index list; the round trip must hold for all bit vectors", "anchors": ["featselect/node.go:MarshalJSON", "featselect/node.go:UnmarshalJSON", "featselect/node.go:NodesEqual"]}
{"id": "C06", "title": "Bit-array Model behaves like an array of booleans", "statement": "On a Model of a given size, for indices in range Get returns the last value produced by Set/Flip at that index, Set and Flip change no other index, ToBools lists Get for every index; indices in -7..-1 make Get return true and Set/Flip do nothing.", "quantifier": "every size, every sequence of Set/Flip operations, every index", "why_tests_cant": "packing into bytes uses division, shifts and masks; all indices and histories matter", "anchors": ["featselect/model.go:Get", "featselect/model.go:Set", "featselect/model.go:Flip", "featselect/model.go:ToBools"]}
{"id": "C07", "title": "Gcs and Lcs are the extremal models of a subtree", "statement": "Gcs(model,start) and Lcs(model,start) agree with model on the first start bits and every model agreeing with it on those bits has all features of Lcs and only features of Gcs; hence NumFeatures(Lcs) <= NumFeatures(m) <= NumFeatures(Gcs). start beyond the model length panics.", "quantifier": "every model, every start and every model in the subtree", "why_tests_cant": "ranges over exponentially many sub-models", "anchors": ["featselect/optimize.go:Gcs", "featselect/optimize.go:Lcs", "featselect/optimize.go:NumFeatures"]}
{"id": "C08", "title": "Selections and models convert losslessly", "statement": "SelectedFeatures(model) is strictly increasing, in range and has NumFeatures(model) entries; Selected2Model(SelectedFeatures(model), len(model)) = model; Selected2Model sets exactly the listed bits and panics exactly when an index is out of range; NewSAItem, ToSparseCoeff and MarshalJSON list the same indices.", "quantifier": "every bit vector and every index list", "why_tests_cant": "round trip over all bit vectors", "anchors": ["featselect/orthogonalMatchingPursuit.go:SelectedFeatures", "featselect/util.go:Selected2Model", "featselect/saScore.go:NewSAItem", "featselect/node.go:ToSparseCoeff"]}
{"id": "C09", "title": "Branching splits the search space in two", "statement": "The two children of a tree node at level L have level L+1, differ exactly in bit L, agree with the parent elsewhere, and every model in the parent's subtree is in the subtree of exactly one child.", "quantifier": "every model, level and sub-model", "why_tests_cant": "a partition statement about exponentially many models", "anchors": ["featselect/node.go:GetChildNode"]}
{"id": "C10", "title": "GetDesignMatrix picks exactly the selected columns", "statement": "GetDesignMatrix(model,X) has the rows of X, NumFeatures(model) columns and its k-th column is the column of X at the k-th selected index (the same as NewIndexedColView with SelectedFeatures); it panics exactly when no feature is selected or a selected index is not a column of X. The column view itself has the rows of X, one column per listed index, and reads the listed columns.", "quantifier": "every matrix and every model", "why_tests_cant": "indexing must be right for all shapes and selections", "anchors": ["featselect/util.go:GetDesignMatrix", "featselect/subview.go:IndexedColView"]}
{"id": "C11", "title": "Information criteria grow with features and residual", "statement": "Aic, Aicc and Bic do not decrease when the number of features grows or when the residual sum of squares grows (Bic for at least one data point); Aicc >= Aic; a zero residual gives -Inf.", "quantifier": "every feature count, data count and non-negative residual, in exact real arithmetic with IEEE infinities", "why_tests_cant": "monotonicity over unbounded integers and reals, including the switch of the Aicc denominator at numFeat = numData-1", "anchors": ["featselect/criteria.go:Aic", "featselect/criteria.go:Aicc", "featselect/criteria.go:Bic"]}
{"id": "C12", "title": "Fit returns a least-squares minimiser", "statement": "With an exact thin SVD of X whose singular values are each 0 or above 1e-6, Rss(X, Fit(X,y), y) <= Rss(X, w, y) for every coefficient vector w; for singular values in (0,1e-6] this can fail. Fit panics exactly on a row-count mismatch. PredictOne on a row equals that row's entry of Predict; it ignores coefficients in excess and panics when there are too few.", "quantifier": "every design matrix, target vector and competing coefficient vector, in exact real arithmetic", "why_tests_cant": "optimality compares against uncountably many competitors", "anchors": ["featselect/fit.go:Fit", "featselect/fit.go:Rss", "featselect/fit.go:Predict"]}
{"id": "C13", "title": "Bounds enclose the criterion of every sub-model", "statement": "For a model and level with Gcs having fewer features than rows, the lower value returned by BoundsAIC/BoundsAICC is at most and the upper value at least the criterion of every non-empty model sharing the first level bits. When Gcs has at least as many features as rows the lower value can exceed the criterion of a sub-model that fits exactly.", "quantifier": "every design matrix, target, model prefix and sub-model (exact arithmetic, exact SVD with no singular value in (0,1e-6])", "why_tests_cant": "a bound must hold for all of the exponentially many sub-models", "anchors": ["featselect/criteria.go:bounds", "featselect/criteria.go:BoundsAICC", "featselect/criteria.go:BoundsAIC"]}
{"id": "C14", "title": "Branch and bound finds the optimum under every schedule", "statement": "When SelectModel returns, the best score in the highscore list is at least the score (-AICC) of every model other than the root model, however the goroutines were scheduled - provided the bounds are valid, the models stay below the row count, the queue limit is not hit and no worker tests an empty highscore while the first node is being inserted.", "quantifier": "every dataset, every root model, every interleaving of the main loop, score workers and child workers", "why_tests_cant": "interleavings cannot be enumerated by tests; pruning must be safe for all of them", "anchors": ["featselect/optimize.go:SelectModel", "featselect/optimize.go:CreateChild", "featselect/optimize.go:CreateChildNodes", "featselect/optimize.go:ScoreWorker", "featselect/optimize.go:CleanQueue"]}
{"id": "C15", "title": "Race on the empty highscore can lose the optimum", "statement": "There is a schedule in which a child worker reads BestScore()=0 from the empty list, the main loop inserts the first node, the worker then sees Len()>0 and prunes the subtree with the optimum; SelectModel then returns a worse best score than BruteForceSelect.", "quantifier": "existence of a schedule (refutation of the unguarded optimality claim)", "why_tests_cant": "the bad interleaving is rare and timing dependent", "anchors": ["featselect/optimize.go:CreateChild", "featselect/highscore.go:BestScore"]}
{"id": "C16", "title": "The root model is never scored", "statement": "SelectModel never evaluates or stores params.RootModel itself, so a best-known start model (as cmd bnb passes it from simulated annealing) is missing from the highscore list unless another way of reaching it exists; every other model is scored at most once.", "quantifier": "every root model and every schedule", "why_tests_cant": "absence of a value in every execution", "anchors": ["featselect/optimize.go:SelectModel", "featselect/optimize.go:isNewNode", "featselect/optimize.go:ScoreWorker", "cmd/bnb.go:findOptimalSolution"]}
{"id": "C17", "title": "SelectModel channel protocol is deadlock and panic free", "statement": "In every reachable state of SelectModel and its workers some step is possible until the search loop ends, no goroutine ever sends on a closed channel, termination is always still reachable, the number of productive steps is bounded by the size of the search tree, and at most one child worker is ever busy.", "quantifier": "every interleaving of the main loop with the eight score workers and eight child workers SelectModel starts", "why_tests_cant": "deadlocks and close/send races depend on the schedule", "anchors": ["featselect/optimize.go:SelectModel", "featselect/optimize.go:ScoreWorker", "featselect/optimize.go:CreateChildNodes"]}
{"id": "C18", "title": "The cutoff parameter has no effect", "statement": "The documented test lower_bound + cutoff < best score is not what CreateChild computes: its result is the same for every cutoff.", "quantifier": "every node, dataset, highscore and pair of cutoffs", "why_tests_cant": "independence of a parameter for all inputs", "anchors": ["featselect/optimize.go:CreateChild", "featselect/optimize.go:SelectModelOptParams", "cmd/bnb.go:bnbCmd"]}
{"id": "C19", "title": "Pruned-model counter", "statement": "NewLog2Pruned(c,n) is log2(2^c+2^n). SelectModel feeds it ncols-parentLevel per pruned child, twice the number of models in the pruned subtree, starting from one, so after pruning exactly half of the space the reported number already exceeds the whole space.", "quantifier": "every counter value and level, exact arithmetic", "why_tests_cant": "algebraic identity over the reals and exact subtree sizes", "anchors": ["featselect/util.go:NewLog2Pruned", "featselect/optimize.go:SelectModel"]}
{"id": "C20", "title": "Queue cleaning keeps exactly the promising nodes", "statement": "CleanQueue keeps exactly the nodes whose Lower is not above the threshold, in order. RemoveLeastPromising never removes everything from a non-empty queue in exact arithmetic but with float64 rounding it can empty the queue, and with equal bounds it removes nothing so the queue can stay above MaxQueueSize.", "quantifier": "every queue content and threshold", "why_tests_cant": "all queue contents; rounding of the mean", "anchors": ["featselect/optimize.go:CleanQueue", "featselect/optimize.go:RemoveLeastPromising"]}
{"id": "C21", "title": "Brute force scores every non-empty model exactly once", "statement": "BruteForceSelect evaluates each of the 2^n-1 non-empty models exactly once, the returned list contains all of them sorted by score and its best score is the maximum over all models.", "quantifier": "every number of columns and every score function without NaN", "why_tests_cant": "exponentially many models", "anchors": ["featselect/optimize.go:BruteForceSelect"]}
{"id": "C22", "title": "SAScore bookkeeping", "statement": "After any sequence of SAScore.Insert calls the list has at most max(Cap,1) entries with pairwise different selections, WorstItem has the minimal score of the list, BestItem has the selection and score of an entry with the maximal score of the list, and with scores determined by the selection BestItem has the best score ever inserted and the list holds the Cap best distinct selections.", "quantifier": "every capacity and every insertion history without NaN scores", "why_tests_cant": "in-place overwriting of the worst entry through shared pointers; depends on the whole history", "anchors": ["featselect/saScore.go:Insert", "featselect/saScore.go:Exists"]}
{"id": "C23", "title": "SAScore entries can carry coefficients of another model", "statement": "When an entry is replaced only Selection and Score are copied, so an entry's Coeff can belong to a different selection and have the wrong length.", "quantifier": "existence of an insertion history (refutation)", "why_tests_cant": "needs a particular history of replacements", "anchors": ["featselect/saScore.go:Insert"]}
{"id": "C24", "title": "Simulated annealing stays inside the allowed models", "statement": "In every execution of SelectModelSA every model passed to the cost function is non-empty and is either a single feature or has fewer than rows/2 features; on return Selected lists the last accepted model in increasing order with Coeff equal to its fit, Scores.BestItem is a cheapest of all models evaluated, and every accepted model is in Scores or beaten by ten entries of it.", "quantifier": "every dataset on which all costs are finite, every number of sweeps and every random number stream", "why_tests_cant": "random walks of unbounded length", "anchors": ["featselect/simmulatedAnnealing.go:SelectModelSA"]}
{"id": "C25", "title": "Simulated annealing corner cases", "statement": "If every cost is NaN - for example because one observation is NaN - SelectModelSA never returns, for any random stream; with at most 5 rows and finite costs it evaluates and selects nothing but feature 0.", "quantifier": "every random number stream", "why_tests_cant": "non-termination cannot be observed by a test", "anchors": ["featselect/simmulatedAnnealing.go:SelectModelSA"]}
{"id": "C26", "title": "CSV columns are split correctly", "statement": "ParseCSV puts column targetCol (counted from the end when negative) in Y and the remaining columns, in order, in X; GetFeatName(i) is the header of X's column i and FeatNoByName is its inverse for distinct names; for the target's own name FeatNoByName answers TargetCol, the index of another column; unparsable cells become 0; no data rows, rows of unequal length, a single column or a target out of range panic.", "quantifier": "every table of cells and every target column", "why_tests_cant": "all table shapes and target positions", "anchors": ["featselect/csvIO.go:ParseCSV", "featselect/csvIO.go:GetFeatName", "featselect/csvIO.go:FeatNoByName"]}
{"id": "C27", "title": "Saving and re-reading a dataset", "statement": "Reading back what SaveHandle wrote with the same target column gives the dataset with every value replaced by its %f rendering: names, shape and column order survive, values survive exactly iff they are multiples of 10^-6, others come back within 5e-7, and anything below 5e-7 comes back as 0. A dataset without names loses its first row.", "quantifier": "every dataset with consistent dimensions", "why_tests_cant": "round trip over all datasets", "anchors": ["featselect/csvIO.go:SaveHandle", "featselect/csvIO.go:ParseCSV"]}
{"id": "C28", "title": "GetSubset, Copy and JSON of datasets", "statement": "GetSubset(features) has as k-th column and k-th name those of features[k], the target name last and the same Y; Copy is equal to and independent of the original; the JSON encoding round-trips for finite values and is refused otherwise; IsEqual ignores the names but implies equal shapes and values within 1e-10.", "quantifier": "every dataset and feature list", "why_tests_cant": "all shapes and feature lists", "anchors": ["featselect/csvIO.go:GetSubset", "featselect/csvIO.go:Copy", "featselect/csvIO.go:IsEqual", "featselect/csvIO.go:MarshalJSON", "featselect/csvIO.go:UnmarshalJSON"]}
{"id": "C29", "title": "Normalisation gives zero mean and unit variance", "statement": "After NormalizeArray / NormalizeCols / NewNormalizedData every non-constant column and the target have mean 0 and sample standard deviation 1; NormalizeRows does the same to every row; a shift or a positive factor of the data does not change the normalised array; a constant first column is set to zero and flagged as bias; a constant column elsewhere panics; a constant array becomes NaN in NormalizeArray.", "quantifier": "every matrix and target of any size, exact arithmetic with IEEE special values", "why_tests_cant": "all sizes and values", "anchors": ["featselect/util.go:NormalizeArray", "featselect/util.go:Std", "featselect/normalized_dataset.go:NewNormalizedData"]}
{"id": "C30", "title": "Unnormalised coefficients predict the same", "statement": "For a dataset whose bias column is all ones, the coefficients produced by Path2Unnormalized predict, on the original X, exactly stdY*(normalised prediction)+muY for every row; without a bias column the intercept is dropped and the predictions differ by that constant; a selection that contains the bias column itself panics.", "quantifier": "every dataset, every selection and coefficient list, every row (exact arithmetic)", "why_tests_cant": "algebraic identity over all data", "anchors": ["featselect/lasso_lars.go:Path2Unnormalized", "featselect/normalized_dataset.go:LinearTransformationBias", "featselect/normalized_dataset.go:LinearNormalizationTransformation"]}
{"id": "C31", "title": "SoftThreshold is the lasso proximal map", "statement": "For threshold t >= 0, SoftThreshold(x,t) is the unique minimiser of (z-x)^2/2 + t|z|, is 0 exactly when |x| <= t, is odd and non-expansive; in IEEE arithmetic a NaN argument is turned into 0.", "quantifier": "every real x and t >= 0", "why_tests_cant": "continuum of inputs", "anchors": ["featselect/lassoCrdDesc.go:SoftThreshold"]}
{"id": "C32", "title": "Coordinate descent invariants", "statement": "In LassoCrdDesc with the plain lasso, the cached product equals Cov*beta after every sweep, no sweep increases the lasso objective, coefficient 0 stays 0, and a coefficient that becomes 0 in a sweep stays 0 for the rest of the run.", "quantifier": "every dataset, symmetric covariance estimate with positive diagonal, lambda >= 0, iteration limit and tolerance (exact arithmetic)", "why_tests_cant": "an invariant over all iterations", "anchors": ["featselect/lassoCrdDesc.go:LassoCrdDesc", "featselect/lassoCrdDesc.go:UpdateCovDotBeta", "featselect/lassoCrdDesc.go:UnsatisfiedKKTConditions"]}
{"id": "C33", "title": "Coordinate descent can stop at a non-optimal point", "statement": "Because the KKT check never reports inactive features, LassoCrdDesc can return (with its convergence test satisfied) coefficients that violate the lasso optimality conditions.", "quantifier": "existence of a dataset (refutation)", "why_tests_cant": "needs a dataset in which a feature must re-enter", "anchors": ["featselect/lassoCrdDesc.go:UnsatisfiedKKTConditions", "featselect/lassoCrdDesc.go:LassoCrdDesc"]}
{"id": "C34", "title": "The start vector x0 is ignored and overwritten", "statement": "The result of LassoCrdDesc does not depend on x0, and the caller's x0 slice is overwritten with zeros.", "quantifier": "every dataset and every pair of start vectors", "why_tests_cant": "independence of an argument", "anchors": ["featselect/lassoCrdDesc.go:LassoCrdDesc"]}
{"id": "C35", "title": "Lasso path is schedule independent", "statement": "LassoCrdDescPath returns, for every interleaving of its workers, one node per lambda in reverse order of the lambda list (leading empty models dropped when some model is non-empty), never dereferences a missing node and never deadlocks. This is for corrections without state (none, elastic net); with CLasso, whose state all workers share, the result depends on the schedule.", "quantifier": "every lambda list, every schedule of the worker pool", "why_tests_cant": "results arrive in any order", "anchors": ["featselect/lassoCrdDesc.go:LassoCrdDescPath", "featselect/lassoCrdDesc.go:PerformLassoCrd"]}
{"id": "C36", "title": "LARS path structure", "statement": "Every node returned by LassoLars has a strictly increasing, non-empty, in-range selection with as many coefficients, its lambda is above lambMin, and lambdas do not increase along the path; the first node has lambda = max |X^T y| and the feature attaining it.", "quantifier": "every dataset, estimator and number of iterations (all comparisons as IEEE)", "why_tests_cant": "path length and active-set history are unbounded", "anchors": ["featselect/lasso_lars.go:LassoLars", "featselect/lasso_lars.go:maxJoinTime", "featselect/lasso_lars.go:maxCrossTime", "featselect/lasso_lars.go:tJoin"]}
{"id": "C37", "title": "LARS coefficients satisfy the lasso stationarity conditions", "statement": "If the estimator returns c,d with X_E^T X_E c = X_E^T y and X_E^T X_E d = s then X_E^T(y - X_E beta) = lambda*s with signs s for the coefficients of each node; with independent columns and no ties along the path each node minimises |y-Xb|^2/2 + lambda|b|_1 up to 2e-6|b'|_1 against any b'; MorsePenroseCD with an exact factorisation is such an estimator. Between two points of a path the one with the smaller lambda has, up to that tolerance, the larger L1 norm and the smaller residual.", "quantifier": "every active set, lambda and data (exact arithmetic)", "why_tests_cant": "identity over all data", "anchors": ["featselect/lasso_lars.go:betaLARS", "featselect/lasso_cd.go:MorsePenroseCD"]}
{"id": "C38", "title": "Pseudo-inverse", "statement": "PseudoInverse and PseudoInverseXTX built from an exact thin SVD without tiny singular values satisfy the Moore-Penrose equations, and the C parameter of MorsePenroseCD solves the normal equations.", "quantifier": "every matrix with such an SVD", "why_tests_cant": "matrix identities for all shapes", "anchors": ["featselect/util.go:PseudoInverse", "featselect/util.go:PseudoInverseXTX", "featselect/lasso_cd.go:C"]}
{"id": "C39", "title": "Orthogonal matching pursuit result is consistent", "statement": "Omp returns an Order without duplicates, in range and non-empty, and Coeff is zero for every feature outside Order and equals the least-squares fit on the chosen features. Each feature is the one most correlated with what the earlier ones leave; Omp goes on until the root mean square error is below the tolerance (or nothing can be gained) and no further.", "quantifier": "every dataset, tolerance and deterministic fit routine", "why_tests_cant": "duplicates and trimming depend on the whole history", "anchors": ["featselect/orthogonalMatchingPursuit.go:Omp", "featselect/orthogonalMatchingPursuit.go:Argmax"]}
{"id": "C40", "title": "Argmin, Argmax, Argsort and extrema", "statement": "Argmin/Argmax return the first index of an extremal entry, Argsort returns a permutation of the indices along which the values ascend; MaxInt/MinInt/MinFloat return the extremum of a non-empty slice within their sentinel range and the sentinel otherwise; a NaN in the first position makes Argmax/Argmin return 0; Abs replaces every entry by its absolute value.", "quantifier": "every non-empty slice without NaN", "why_tests_cant": "all lengths and orders", "anchors": ["featselect/util.go:Argmin", "featselect/orthogonalMatchingPursuit.go:Argmax", "featselect/orthogonalMatchingPursuit.go:Abs", "featselect/util.go:Argsort", "featselect/util.go:MinFloat", "featselect/util.go:MaxInt", "featselect/util.go:MinInt"]}
{"id": "C41", "title": "Integer-set helpers", "statement": "ExistInt is membership, UnionInt keeps s1 as a prefix, has exactly the members of both and adds no duplicates, EqualInt is equality, All and Sum are what they say.", "quantifier": "every pair of integer slices", "why_tests_cant": "all contents", "anchors": ["featselect/util.go:ExistInt", "featselect/util.go:UnionInt", "featselect/util.go:EqualInt", "featselect/util.go:All", "featselect/util.go:Sum"]}
{"id": "C42", "title": "Cartesian product via append aliasing", "statement": "IterProduct(values, repeat) returns all |values|^repeat tuples in lexicographic order for repeat <= 3; for repeat = 4 the shared backing arrays make rows overwrite each other and the result is wrong.", "quantifier": "every value slice (repeat <= 3), and existence of a wrong result", "why_tests_cant": "depends on slice capacity growth in the Go runtime", "anchors": ["featselect/util.go:IterProduct"]}
{"id": "C43", "title": "Lazy power matrix enumerates the monomials", "statement": "With at most three columns NewLazyMatrix adds exactly one column per monomial of total degree 2..maxPower, its columns are the products of powers, FullMatrix has the original columns first; with four columns monomials are missing.", "quantifier": "every matrix with at most three columns and every maxPower", "why_tests_cant": "all degrees", "anchors": ["featselect/lazyPowerMat.go:NewLazyMatrix", "featselect/lazyPowerMat.go:AddPowerSequence", "featselect/lazyPowerMat.go:GetCol", "featselect/lazyPowerMat.go:FullMatrix"]}
{"id": "C44", "title": "RearrangeDense permutes columns", "statement": "For a duplicate-free in-range colOrder (optionally followed by -1 entries) the result has the listed columns first and the remaining columns in original order; a -1 in front of other entries loses a column and duplicates panic.", "quantifier": "every matrix and column order", "why_tests_cant": "all orders", "anchors": ["featselect/util.go:RearrangeDense"]}
{"id": "C45", "title": "Cohen's kappa", "statement": "For duplicate-free selections in range CohenKappa is symmetric, at most 1 and at least -1, equals 1 for equal selections that are neither empty nor complete and for two empty selections, and is NaN for two complete selections; the formula equals the textbook kappa.", "quantifier": "every pair of selections and every total", "why_tests_cant": "all subsets", "anchors": ["featselect/util.go:CohenKappa"]}
{"id": "C46", "title": "Cohen sampling and the worker pool", "statement": "GetCohensKappa always splits the rows in two disjoint complementary halves of sizes n/2 and n-n/2; CalculateCohenSequence evaluates every target exactly once under every schedule, never deadlocks, and returns the hyper-parameters of a target with maximal kappa if that is positive and nil otherwise.", "quantifier": "every number of targets, every schedule, every shuffle", "why_tests_cant": "schedules and shuffles", "anchors": ["featselect/cohens_kappa.go:GetCohensKappa", "featselect/cohens_kappa.go:CalculateCohenSequence", "featselect/cohens_kappa.go:CohensKappaWorker"]}
{"id": "C47", "title": "Threshold operator", "statement": "Apply zeroes exactly the entries with |x| < threshold, leaves the others unchanged, counts them, is idempotent and preserves symmetry; it does not preserve positive semi-definiteness, so SparseThresholded.Get can return an indefinite matrix.", "quantifier": "every matrix and threshold", "why_tests_cant": "all entries incl. NaN and infinities", "anchors": ["featselect/thresholdCov.go:Apply"]}
{"id": "C48", "title": "Threshold search protocol", "statement": "In L2ConsistentCovTO every grid point receives exactly numSamples results, each round uses one row split for all its grid points, no grid index is out of range and the exchange never deadlocks, for every schedule.", "quantifier": "every grid size, sample count and schedule", "why_tests_cant": "schedules", "anchors": ["featselect/thresholdCov.go:L2ConsistentCovTO", "featselect/thresholdCov.go:PerformNormDiffWork", "featselect/thresholdCov.go:CalculateFNormDiff"]}
{"id": "C49", "title": "Random row split is a partition", "statement": "RandomRowSplit(X,num) returns num and N-num rows which together are exactly the rows of X, for 0 < num < N; it panics for num = 0 and num >= N.", "quantifier": "every matrix, num and shuffle", "why_tests_cant": "all shuffles", "anchors": ["featselect/thresholdCov.go:RandomRowSplit"]}
{"id": "C50", "title": "Covariance matrices", "statement": "CovarianceMatrix is symmetric, positive semi-definite and equals the mean of products of deviations; Empirical is symmetric positive semi-definite; Identity is the identity.", "quantifier": "every matrix (exact arithmetic)", "why_tests_cant": "all shapes", "anchors": ["featselect/thresholdCov.go:CovarianceMatrix", "featselect/covarianceMatrix.go:Empirical.Get", "featselect/covarianceMatrix.go:Identity.Get"]}
{"id": "C51", "title": "Logspace", "statement": "Logspace(min,max,num) for positive min<=max has num entries from min to max in ascending order with constant ratio; num = 1 gives [min], 0 gives nothing, negative num panics.", "quantifier": "every range and count (exact arithmetic)", "why_tests_cant": "all counts", "anchors": ["featselect/util.go:Logspace"]}
{"id": "C52", "title": "AIC weights", "statement": "WeightsFromAIC returns positive weights summing to 1, ordered opposite to the criteria and unchanged by shifting all of them; it overwrites its argument with the differences to the minimum.", "quantifier": "every non-empty list of finite criteria (exact arithmetic)", "why_tests_cant": "all lists", "anchors": ["featselect/util.go:WeightsFromAIC", "featselect/util.go:MinFloat"]}
{"id": "C53", "title": "Sparse coefficient expansion and averaging", "statement": "FullCoeffVector places coeff[i] at selection[i] and zero elsewhere; WeightedAveragedCoeff equals the weighted sum of the expansions for duplicate-free selections, also for the nodes of a lasso path; length mismatch and out-of-range selections panic.", "quantifier": "every selection, coefficient and weight list", "why_tests_cant": "all lists", "anchors": ["featselect/util.go:FullCoeffVector", "featselect/util.go:WeightedAveragedCoeff", "featselect/lasso_lars.go:LassoNodesSlice2SparsCoeff"]}
{"id": "C54", "title": "Lasso path queries", "statement": "ExtractPath gives each node's coefficient of the feature (0 when not selected); PickMostRelevantFeatures lists features in order of first entry without duplicates and stops at the first node reaching the requested number; MaxMinFeatNo are the extremes over all selections; PlotPath never draws the feature with the largest number.", "quantifier": "every path", "why_tests_cant": "all paths", "anchors": ["featselect/lassoPlot.go:ExtractPath", "featselect/lassoPlot.go:PickMostRelevantFeatures", "featselect/lassoPlot.go:MaxMinFeatNo", "featselect/lassoPlot.go:PlotPath"]}
{"id": "C55", "title": "Selections are mapped by name in nested lasso", "statement": "MapSelectionByName maps each index to the feature of the original dataset with the same name when the target is the last column of both; with another target position the first iteration of NestedLasso maps to the wrong features.", "quantifier": "every dataset with distinct names and every selection", "why_tests_cant": "all target positions", "anchors": ["featselect/nestedLasso.go:MapSelectionByName", "featselect/nestedLasso.go:NestedLasso", "featselect/csvIO.go:FeatNoByName"]}
{"id": "C56", "title": "SearchProgress never shows a torn state", "statement": "Under every interleaving of Set and Get calls each Get returns the three values of a single earlier Set (or the initial zeros), and in the order the sets took effect.", "quantifier": "every number of threads, calls and interleavings", "why_tests_cant": "interleavings", "anchors": ["featselect/searchProgress.go:Set", "featselect/searchProgress.go:Get"]}
{"id": "C57", "title": "Periodic saving during the search", "statement": "MarshalJSON of a highscore that is concurrently inserted into can panic (more items than allocated), and json encoding fails - leaving an empty result file - as soon as one stored number is infinite or NaN, e.g. for a perfect fit. A file without null entries is read back like the JSON of a list nobody touched.", "quantifier": "existence of a schedule; every list with a non-finite field", "why_tests_cant": "timing dependent", "anchors": ["cmd/bnb.go:findOptimalSolution", "cmd/bnb.go:saveHighscoreList", "featselect/highscore.go:MarshalJSON"]}
{"id": "C58", "title": "Lasso corrections", "statement": "PureLasso adds nothing; ElasticNet's correction is the gradient of Lamb*|beta|^2/2; CLasso's correction is the gradient of half eta times the squared projection on the last coefficients (0 while those vanish) and after Update with a vector the CLasso correction at that vector is eta*beta_k.", "quantifier": "every coefficient vector", "why_tests_cant": "calculus identities over all vectors", "anchors": ["featselect/lassoCorrections.go:CLasso.Deriv", "featselect/lassoCorrections.go:ElasticNet.Deriv", "featselect/lassoCorrections.go:CLasso.Update"]}
{"id": "C59", "title": "Hat matrix and GCV score", "statement": "For a design matrix of full column rank DenumMatrixGcv is the orthogonal projection on the columns of X (symmetric, idempotent, reproduces the columns, diagonal in [0,1]); Gcv returns sqrt(mean(r_i^2/(1-h_ii))), which is neither the leave-one-out nor the textbook generalised cross validation score.", "quantifier": "every design matrix, response and exact decomposition", "why_tests_cant": "linear-algebra identity over all matrices", "anchors": ["featselect/fit.go:DenumMatrixGcv", "featselect/fit.go:Gcv"]}
{"id": "C60", "title": "LassoLars ends", "statement": "With exact arithmetic, an exact estimator and a lower limit that is not negative, LassoLars returns (or panics) after at most (n+1)K+n rounds where n is the number of features and K*1e-6 bounds every |x_j.y|; it never loops forever.", "quantifier": "every dataset, estimator, start state and limit >= 0", "why_tests_cant": "termination cannot be tested", "anchors": ["featselect/lasso_lars.go:LassoLars", "featselect/lasso_lars.go:tCross", "featselect/lasso_lars.go:tJoin"]}
{"id": "C61", "title": "Criteria of a lasso path", "statement": "GetCriteria evaluates the criterion at the residual sum of squares of each node's own coefficients when the node's selection is in ascending order (as LassoLars makes them); for a selection in another order the coefficients are paired with the wrong columns.", "quantifier": "every path, dataset and criterion function (exact arithmetic)", "why_tests_cant": "all paths and orders", "anchors": ["featselect/lassoPlot.go:GetCriteria", "featselect/util.go:Selected2Model", "featselect/fit.go:Rss"]}
{"id": "C62", "title": "Nested lasso refits the survivors", "statement": "Each path returned by NestedLasso is the LARS path of the normalised target on those columns of the normalised data that entered the previous path first (all columns at the start, until int(keep*n) would be at most two), with its features renumbered as in the caller's dataset (except that the first path is off by one after the target column), its coefficients converted with the caller's scale and the criteria of the fit; the caller's dataset is left normalised.", "quantifier": "every dataset with distinct names and a non-constant target, estimator, limit and keep (exact arithmetic)", "why_tests_cant": "relates arbitrarily many nested fits", "anchors": ["featselect/nestedLasso.go:NestedLasso", "featselect/csvIO.go:GetSubset", "featselect/lassoPlot.go:PickMostRelevantFeatures"]}
{"id": "C63", "title": "Nested lasso ends", "statement": "If keep is below one then NestedLasso ends after at most one round per feature provided its LassoLars calls end; in binary64 rounding never makes int(keep*n) reach n. With keep of one or more it may never end, although all its LassoLars calls do.", "quantifier": "every dataset with up to 2^53 columns, every valid keep < 1, estimator and limit", "why_tests_cant": "termination cannot be tested", "anchors": ["featselect/nestedLasso.go:NestedLasso", "featselect/lassoPlot.go:PickMostRelevantFeatures"]}
{"id": "C64", "title": "A lasso kappa target has no memory", "statement": "The selection a lasso target returns for a set of rows does not depend on the rows it was asked about before: the start vector x0 kept between calls is ignored, the plain and elastic-net corrections have no state, and the coefficients a covariance-lasso correction remembers have no effect on the next run. So kappa only depends on the random splits. The elastic-net parameter Eta of cLassoCohen has no effect on kappa.", "quantifier": "every dataset, every history of calls", "why_tests_cant": "quantifies over call histories", "anchors": ["featselect/lassoCrdDesc.go:pureLassoCohen.GetSelection", "featselect/lassoCrdDesc.go:LassoCrdDesc", "featselect/lassoCorrections.go:CLasso.Deriv", "featselect/lassoCorrections.go:CLasso.Update"]}
{"id": "C65", "title": "Kappa of a lasso target can be impossible to compute", "statement": "GetSelection of a lasso target panics if some feature (not the first column) is constant on the rows it is given; hence GetCohensKappa panics for every shuffle if a feature differs from its common value in one row only, and for every dataset with fewer than four rows and two columns, although the dataset as a whole can be normalised.", "quantifier": "every dataset, every shuffle (exact arithmetic)", "why_tests_cant": "universal over shuffles", "anchors": ["featselect/cohens_kappa.go:GetCohensKappa", "featselect/lassoCrdDesc.go:pureLassoCohen.GetSelection", "featselect/normalized_dataset.go:NewNormalizedData"]}
{"id": "C66", "title": "Domain and range of the threshold search", "statement": "L2ConsistentCovTO panics exactly for fewer than four rows, no columns or a step outside of ]0, 9]; otherwise the threshold it returns lies between e^-10 and e^-1, whatever the data and the maximum threshold passed to it (which has no effect).", "quantifier": "every matrix, sample count, step and schedule (exact arithmetic)", "why_tests_cant": "universal over data and schedules", "anchors": ["featselect/thresholdCov.go:L2ConsistentCovTO", "featselect/thresholdCov.go:getThreshold", "featselect/thresholdCov.go:RandomRowSplit"]}
{"id": "C67", "title": "Blank padded CSV cells become zeros", "statement": "A CSV file whose data cells are padded with a blank on the left, as in the README's example, is read without an error, with the right names and sizes, and every number of the dataset is zero (ParseFloat accepts no leading blank, and its error is ignored).", "quantifier": "every rectangular file with padded cells, every target column", "why_tests_cant": "universal over files; the tests' files have no padding", "anchors": ["featselect/csvIO.go:ReadCSV", "featselect/csvIO.go:ParseCSV"]}
{"id": "C68", "title": "A lasso result file gives back the result", "statement": "If all numbers are finite then the JSON file of a lasso path is read back as the same dataset, nodes and scores; if any number is not finite nothing is produced to write.", "quantifier": "every dataset, path and scores", "why_tests_cant": "universal over values, in particular non-finite ones", "anchors": ["cmd/lasso.go:lassoFit", "featselect/lassoPlot.go:LassoLarsPathFromBytes", "featselect/csvIO.go:MarshalJSON", "featselect/csvIO.go:UnmarshalJSON"]}
{"id": "C69", "title": "The table of best models", "statement": "The table printed after a lasso fit has min(num, number of scores) rows ranked 1, 2, ...; the rows show different nodes of the path, each with its own penalty, size and scores; AICC does not improve down the table and no node left out has a better AICC than one shown. With more scores than nodes and all rows printed the program dies.", "quantifier": "every path, scores and row count, every correct sorting function", "why_tests_cant": "universal over lists of scores and over the unstable order of sort.Sort", "anchors": ["cmd/lasso.go:lassoFit", "featselect/util.go:PrintHighscore", "featselect/util.go:Argsort"]}
{"id": "C70", "title": "The bnb command's final file", "statement": "Whatever the interleaving of the search, the ticker and the statements of the periodic saves: if the bnb command ends, the output file holds the JSON of the list of all nodes found (no bytes if a number is not finite); only a periodic save racing with the search can kill the program, and it can; from every state the command comes to an end once the search does.", "quantifier": "all schedules of the two goroutines", "why_tests_cant": "quantifies over interleavings", "anchors": ["cmd/bnb.go:saveHighscoreList", "cmd/bnb.go:findOptimalSolution", "featselect/highscore.go:MarshalJSON"]}
{"id": "C71", "title": "The sasearch command's file", "statement": "After a simulated annealing run with finite costs the output file holds the whole list (capacity ten) with its best and worst item if all coefficients are finite; it is left empty, with the program ending normally, if some coefficient is not.", "quantifier": "every dataset, random stream, number of sweeps and finite cost function", "why_tests_cant": "universal over random streams; non-finite coefficients need singular data", "anchors": ["cmd/sasearch.go:saSearch", "featselect/saScore.go:SAScore.Insert"]}
{"id": "C72", "title": "Queue size advice", "statement": "goselect-mem prints the largest number of nodes that fit in the memory, a node of an n feature problem taking 9n+29 bytes; a negative number of features panics.", "quantifier": "every memory size and number of features (unbounded integers)", "why_tests_cant": "universal over integers", "anchors": ["cmdDepreciated/goselect-mem/main.go:main", "featselect/node.go:EstimateMemory"]}
{"id": "C73", "title": "Axis range flags of plotlasso", "statement": "The -coeffmin and -coeffmax flags of goselect-plotlasso have no effect: the variables are read before flag.Parse has run, so the range handed to the plot is always nil.", "quantifier": "every command line", "why_tests_cant": "universal over command lines", "anchors": ["cmdDepreciated/goselect-plotlasso/main.go:main"]}
{"id": "C74", "title": "What the lasso command writes", "statement": "On a CSV table whose first column is all ones, goselect lasso -type lars writes a file that reads back as the data of the table and, for every step of the path, the penalty, the features (the ones column first), the coefficients and the scores. In the units of the table each model minimises squared error / (2 sd(y)^2) + penalty * (sum of |coefficient| in units of sd(y)/sd(column), without the intercept), up to 2e-6 times the size of the competitor, and AICC and BIC are those of its own squared error on the table; the table on the screen is made from the same numbers.", "quantifier": "every finite dataset with a ones column, independent columns of deviation at least 1e-10 and a non-constant target, every penalty limit >= 0, exact singular value decompositions and no ties along the path", "why_tests_cant": "universal over real matrices; composes normalisation, path, conversion to original units, scoring and file format", "anchors": ["cmd/lasso.go:lassoFit", "featselect/lasso_lars.go:LassoLars", "featselect/lasso_lars.go:Path2Unnormalized", "featselect/lassoPlot.go:GetCriteria", "featselect/lassoPlot.go:LassoLarsPathFromBytes"]}
{"id": "C75", "title": "The arguments of the lasso command", "statement": "With -type cd an unknown covariance estimator ends the program before anything is computed or written. A misspelt -type is not noticed: a file with the data and no model is written. With -type lars the options lmax, num, cov and tol change nothing; a data file that cannot be read kills the program. With -type cd (empirical or identity) a non-positive lmin or lmax (the first penalty is then not a number) means that a fit is made and shown but no file is written.", "quantifier": "every dataset and all argument values; the last claim for every order of execution of the workers", "why_tests_cant": "universal over arguments and schedules", "anchors": ["cmd/lasso.go:lassoFit", "featselect/util.go:Logspace", "featselect/lassoCrdDesc.go:LassoCrdDescPath"]}
{"id": "C76", "title": "When coordinate descent is right", "statement": "If the covariance estimate shows no correlation between the features (in particular for the Identity estimator and for a single feature) LassoCrdDesc returns the minimiser of the lasso objective for every iteration limit of at least one, and reports convergence from the second pass on (positive tolerance, some coefficient above 1e-16). The returned model is empty exactly when the penalty is at least every |x_j.y|/rows; the empty model is then optimal, but convergence is never reported and every allowed pass is made.", "quantifier": "every dataset, covariance estimate with positive diagonal, penalty, tolerance, start vector and iteration limit >= 1", "why_tests_cant": "universal over real matrices and iteration limits", "anchors": ["featselect/lassoCrdDesc.go:LassoCrdDesc", "featselect/lassoCrdDesc.go:SoftThreshold"]}
{"id": "C77", "title": "The lasso command with coordinate descent", "statement": "On a CSV table whose first column is all ones, goselect lasso -type cd -cov empirical writes the penalties of the logarithmic grid from the largest to the smallest, leaving out the models before the first non-empty one (their coefficients are all at most 1e-16). Each written model carries the AICC and BIC of its own squared error on the table; its objective in the units of the table (penalty: rows times the grid penalty) is, up to 1e-16 per feature, no worse than that of the best constant, and no worse than that of any model if the features are uncorrelated. The file reads back as the data and these models, unless one of them reproduces the target exactly: then there is no file.", "quantifier": "every finite dataset with a ones column, columns of deviation at least 1e-10 and a non-constant target, 0 < lmin <= lmax, at least two penalties, every tolerance, every schedule of the workers", "why_tests_cant": "universal over real matrices and over schedules; composes normalisation, the path over workers, conversion, scoring and file format", "anchors": ["cmd/lasso.go:lassoFit", "featselect/lassoCrdDesc.go:LassoCrdDescPath", "featselect/lassoCrdDesc.go:LassoCrdDesc", "featselect/lasso_lars.go:Path2Unnormalized", "featselect/lassoPlot.go:GetCriteria"]}
{"id": "C78", "title": "The cohenlasso program", "statement": "goselect-cohenlasso panics without data, with data that cannot be normalised and for a negative number of penalties. Otherwise, in whatever order its goroutines run, it ends after at most 17 + 3*num steps without getting stuck, and unless a worker panics it prints every penalty of the grid once, each with a mean agreement of the selections on halves of the data, in ascending order of agreement. In exact arithmetic it never prints anything if some feature differs from its other values in a single row only, or if there are at most three rows: every order of execution ends in a panic.", "quantifier": "every dataset, grid and number of samples; every schedule of the workers", "why_tests_cant": "universal over data and schedules", "anchors": ["cmdDepreciated/goselect-cohenlasso/main.go:main", "featselect/cohens_kappa.go:CalculateCohenSequence", "featselect/lassoCrdDesc.go:NewPureLassoCohen"]}
{"id": "C79", "title": "What the nestedlasso program writes", "statement": "goselect-nestedlasso panics without data; otherwise it writes a file that reads back as the result of NestedLasso, or no file if a number is not finite. The data in the file are the standardised data, not those of the CSV file (the target is that of the CSV file only if it had mean 0 and deviation 1), while the coefficients are in the units of the CSV file. The expectation that the scores in the file are those of its models is false, on the data in the file and on the data that was read.", "quantifier": "every dataset, penalty limit and keep fraction for which NestedLasso ends", "why_tests_cant": "universal over data; composes normalisation, the nested paths, conversion and file format", "anchors": ["cmdDepreciated/goselect-nestedlasso/main.go:main", "featselect/nestedLasso.go:NestedLasso", "featselect/csvIO.go:MarshalJSON"]}
{"id": "C80", "title": "The figures of plotlasso", "statement": "goselect-plotlasso makes its figures in a fixed order and announces each of them whether or not its file could be written; it makes none when the file cannot be read or holds no models. The quality figure shows, for every model, the logarithm of its penalty and the AICC of its own residual, the deviation figure the logarithm of its penalty and of its root mean squared error, the entrance figure the largest penalty with each feature, and the path figure the coefficients of every feature but the one with the largest number. A model that fits the data exactly makes it panic after the first figure. In exact arithmetic all four figures are made from every file written by goselect lasso for a full rank dataset, and the quality figure shows the scores of the file.", "quantifier": "every path, dataset and outcome of saving; every dataset for the last part", "why_tests_cant": "universal over paths; composes LARS or coordinate descent, conversion, file format and plotting", "anchors": ["cmdDepreciated/goselect-plotlasso/main.go:analyseLasso", "featselect/lassoPlot.go:PlotQualityScores", "featselect/lassoPlot.go:PlotDeviations", "featselect/lassoPlot.go:PlotEntranceTimes", "featselect/lassoPlot.go:PlotPath"]}
{"id": "C81", "title": "The lasso does not depend on units or row order", "statement": "If the same observations are listed in another order, with every feature in another unit (new = a*old + b, a > 0) and the target in another unit (new = s*old + t, s > 0), goselect lasso finds the same models: the LARS path and the coordinate descent path on the normalised data are identical (same features, coefficients and penalties; for coordinate descent every call of LassoCrdDesc gives the identical result), and the models converted to the units of the files make the same prediction for every observation, namely s times the old one plus t.", "quantifier": "every finite dataset with a ones column, columns of deviation at least 1e-10 and a non-constant target, every order and units, every exact estimator or SVD, every penalty limit, grid, tolerance, correction and schedule of the workers", "why_tests_cant": "universal over real matrices, permutations and scalings; relates two runs", "anchors": ["featselect/normalized_dataset.go:NewNormalizedData", "featselect/lasso_lars.go:LassoLars", "featselect/lassoCrdDesc.go:LassoCrdDesc", "featselect/lassoCrdDesc.go:LassoCrdDescPath", "featselect/lasso_lars.go:Path2Unnormalized", "cmd/lasso.go:lassoFit"]}
{"id": "C82", "title": "The elastic net correction minimises the elastic net objective as long as its strength is below the diagonal", "statement": "LassoCrdDesc with the correction ElasticNet{Lamb: L} takes the derivative L*b_j at the coefficient before the update. For every symmetric covariance estimate with positive diagonal, each pass lowers the lasso objective plus L/2*|b|^2 by at least the sum of (C_jj - L)/2 times the squared change of b_j, so it never rises for L <= C_jj; and a run that reports convergence leaves the features in the model with the elastic net optimality conditions met up to tol times the largest coefficient times (|L| + row sum). Without correlations and with L < C_jj the coefficients approach the minimiser S(x_j.y/nr, lambda)/(C_jj + L) by exactly the factor L/C_jj per pass, and reported convergence means that the error is below tol times the largest coefficient. For L >= C_jj this is false: the second pass can overshoot to zero, after which the feature is lost for good although the minimiser contains it, and without the L1 part the coefficients alternate in sign and grow without bound.", "quantifier": "every finite dataset and covariance estimate, every strength L, penalty, tolerance, starting vector and iteration limit", "why_tests_cant": "universal over real data, strengths and numbers of passes; a limit behaviour", "anchors": ["featselect/lassoCorrections.go:ElasticNet", "featselect/lassoCorrections.go:ElasticNet.Deriv", "featselect/lassoCrdDesc.go:LassoCrdDesc"]}
{"id": "C83", "title": "goselect bnb never reports the model its annealing found", "statement": "goselect bnb starts its branch and bound search at the model simulated annealing returns, with the flags -cutoff and -maxqueue passed on, and never scores that model. Whatever the interleaving of goroutines and periodic saves, the output file of a completed run is empty or the JSON of at most ten different models, best first, each with its own score, and the annealing result is not among them. So if annealing has found the best model every model in the file is strictly worse; with at most five rows this always concerns the model made of the first column alone. Any other model whose way from the annealing result is not cut off is in the file or beaten by one there. A missing input file, or fewer than three features, kills the program.", "quantifier": "for all data files, random numbers of the annealing, fits and bounds, flags, schedules of the search and of the saving goroutine", "why_tests_cant": "the file depends on the random numbers and the interleaving, and a missing model cannot be noticed without knowing the best model; tests run fixed data and schedules", "anchors": ["cmd/bnb.go:findOptimalSolution", "featselect/optimize.go:SelectModel", "featselect/simmulatedAnnealing.go:SelectModelSA", "featselect/csvIO.go:ReadCSV"]}
{"id": "C84", "title": "Temperature schedule and termination of the simulated annealing", "statement": "In SelectModelSA the temperature starts at 500 and is doubled after each sweep until, at the end of a sweep, more than half of the proposals of the current level were accepted; afterwards it is halved after each level of nSweeps sweeps. The loop ends only after a level without acceptance or when the temperature has dropped below 1e-12. Every evaluation is counted once in the current level. If the scores are bounded by C and the random numbers by rho < 1, the number of evaluations is at most (2*d0 + 2*nSweeps + 48) * features * nSweeps as soon as 2*C < 500 * 2^d0 * (-ln rho), and with a fair source of indices the call returns; with AICC on finite data C is a number depending only on the data, so nothing is assumed of the scores. With at most five rows exactly 49 * features * nSweeps evaluations are made in binary64 and the call returns if feature 0 is proposed again and again, and it never returns if feature 0 is never proposed.", "quantifier": "for all data, cost functions, sources of randomness, numbers of sweeps and executions; the bound and AICC parts in exact arithmetic, the schedule in any arithmetic, the five-row part in binary64", "why_tests_cant": "Whether a randomised loop ends, and how many models it fits, concerns all sequences of random numbers; a test fixes one seed and one data set and cannot see a run that does not end.", "anchors": ["featselect/simmulatedAnnealing.go: SelectModelSA"]}
{"id": "C85", "title": "What NodesEqual and Highscore.Equal compare", "statement": "For nodes of real numbers NodesEqual is true exactly when the models and levels are the same, the bounds and scores differ by at most 1e-10 and the coefficients agree pairwise up to 1e-10, absolutely or relative to the larger one; WasFlipped is not compared. It is symmetric, as Highscore.Equal is, in binary64 too and for every value; it is not transitive. In binary64 a NaN coefficient makes a node different from every node, itself included, whereas a NaN score or bound is equal to any score or bound. Highscore.Equal is true exactly when capacities, lengths and the items position by position are equal: it holds between a list that is not full and the list restored from its JSON, and fails for a full list whose last two scores differ. NewNode gives one zero coefficient per feature and zero bounds and score; two new nodes are equal exactly when level and model agree.", "quantifier": "for all nodes and all highscore lists reached by insertions", "why_tests_cant": "Tolerances and NaN make this equality unlike the one a reader expects; a table of examples cannot show what it accepts in general.", "anchors": ["featselect/node.go: NodesEqual", "featselect/highscore.go: Equal"]}
{"id": "C86", "title": "Best subset selection does not depend on units or row order", "statement": "If every feature is multiplied by a non-zero constant of its own, the target by s, and the rows are reordered, then Aic, Aicc and Bic of every non-empty model change by n*log(s^2); with a bias column features and target may also be shifted, for the models containing the bias. So any two models compare alike, BruteForceSelect and SelectModel (every schedule, under the conditions of C14) end with the best score changed by that constant and the same best models. A change of units that makes a column shorter than 1e-6 can reverse the order of two models.", "quantifier": "for all data, all non-zero factors, all permutations of the rows, all models and the three criteria, all schedules of both searches, in exact arithmetic with exact decompositions", "why_tests_cant": "A test checks one pair of units; the claim quantifies over all data, factors, models and schedules, and the 1e-6 cut-off that breaks it is not visible in the API.", "anchors": ["featselect/optimize.go:SelectModel", "featselect/optimize.go:BruteForceSelect", "featselect/fit.go:Fit", "featselect/criteria.go:Aicc"]}
{"id": "C87", "title": "Orthogonal matching pursuit ignores units and is optimal on uncorrelated features", "statement": "Multiplying each feature by its own non-zero factor, the target by a non-zero factor s (and the tolerance by |s|) and reordering the rows leaves Omp's Order unchanged; the predictions are multiplied by s and, when the features are linearly independent, coefficient k is multiplied by s divided by the factor of feature k. When the features are uncorrelated (orthogonal and non-zero) the first k features of Order fit at least as well as any model with at most k coefficients, for every k, so Omp returns the sparsest model whose root mean square error is below the tolerance.", "quantifier": "every dataset, every choice of units, row order and tolerance; every competing coefficient vector (exact arithmetic, exact decomposition)", "why_tests_cant": "the claim relates two runs of a greedy loop whose every step depends on the residual of the step before, and compares the result with all the models not visited", "anchors": ["featselect/orthogonalMatchingPursuit.go:Omp", "featselect/orthogonalMatchingPursuit.go:Argmax", "featselect/fit.go:Fit"]}
{"id": "C88", "title": "What the optimality check of coordinate descent reports", "statement": "UnsatisfiedKKTConditions returns, in ascending order, exactly the features i other than the bias whose coefficient exceeds 1e-16 in absolute value and for which |Xy_i - n*(cov b)_i - Deriv_i| is below the penalty, where n is the number of entries of Xy (the features, not the observations). A feature with coefficient zero is never reported. Its documentation, that it returns the indices where the KKT conditions are not met, holds in neither direction: there is a minimiser of the lasso objective that meets every condition and is reported, and a coefficient vector that violates one by a factor of four and is not. The pass that converges and whose check reports nothing is the last one: a larger maxIter gives the same result.", "quantifier": "every vector of correlations, coefficients and penalty, with and without correction, for every number type", "why_tests_cant": "tests call it at one hand-picked point; what is reported at all other points, and whether that agrees with optimality, is a statement about all vectors", "anchors": ["featselect/lassoCrdDesc.go:UnsatisfiedKKTConditions", "featselect/lassoCrdDesc.go:LassoCrdDesc"]}
{"id": "C89", "title": "Reversing a sign changes nothing but signs", "statement": "If some of the features and possibly the target are recorded with the opposite sign, then in the code's own floating point arithmetic (and in exact arithmetic) NewNormalizedData gives the same numbers up to these signs, and LassoCrdDesc (empirical or identity covariance, any correction, penalty not negative) gives the same coefficients up to sign: that of feature j is reversed if exactly one of feature j and the target is. The convergence report, panics, the path of LassoCrdDescPath under every interleaving (penalties and selected features) and the models converted back to the units of the data agree in the same way. The path of LassoLars is mirrored in the same way in exact arithmetic (exact estimator, independent features) unless some feature could join the path with either sign on one segment; then the statement is false, because a feature joining at a penalty below 1e-6 is found only if its coefficient is positive.", "quantifier": "every matrix and target including infinities and NaN, every choice of reversed columns, every penalty >= 0, tolerance, iteration limit, correction and schedule; binary64 with arbitrary transcendental functions, and exact arithmetic", "why_tests_cant": "the claim is about every input in floating point and relates two complete runs of an iterative algorithm; a test can compare two runs for one dataset only", "anchors": ["featselect/lassoCrdDesc.go:LassoCrdDesc", "featselect/lassoCrdDesc.go:SoftThreshold", "featselect/normalized_dataset.go:NewNormalizedData", "featselect/lassoCrdDesc.go:LassoCrdDescPath", "featselect/lasso_lars.go:Path2Unnormalized", "featselect/lasso_lars.go:LassoLars"]}
{"id": "C90", "title": "Optional parameters of SelectModel: defaults and reuse", "statement": "Passing nil to SelectModel is the same as passing a struct with Cutoff 0, no RootModel and MaxQueueSize 10^10; with it, in exact arithmetic and with at most 34 features, the search finds the score of BruteForceSelect under the conditions of C14. SelectModel writes to the struct it is given: afterwards RootModel is the model the search started from. Passing the same struct again gives the same search as a new struct when the number of features is the same, and panics when it is different, although the caller never set a root model.", "quantifier": "for all datasets, parameters, highscore lists, schedules and number types (the optimality in exact arithmetic)", "why_tests_cant": "A unit test passes nil or a fresh struct to one search; that nothing of a search stays behind in the arguments, and that the defaults do not limit the search, are statements about all data and all sequences of calls.", "anchors": ["featselect/optimize.go:NewSelectModelOptParams", "featselect/optimize.go:SelectModelOptParams", "featselect/optimize.go:SelectModel"]}
{"id": "C91", "title": "The covariance lasso correction acts as the elastic net", "statement": "LassoCrdDesc hands a CLasso correction the coefficients it will be evaluated at, so in exact arithmetic a run with NewCLasso(n, eta), or with a used CLasso, returns the same coefficients, buffer and convergence report as a run with ElasticNet{Lamb: eta}, provided the elastic net run returns and its coefficients after every number of passes are all zero or have a sum of squares of at least 1e-10; the correction then remembers the coefficients returned. It follows that the passes can diverge for a large eta. For smaller coefficients the two differ, because the correction is dropped. Before its first Update a new CLasso adds nothing, also in floating point.", "quantifier": "every dataset, covariance estimator, penalty, buffer, tolerance, iteration limit, strength eta and remembered coefficients (exact arithmetic); every size and coefficients for the new correction (binary64 and exact)", "why_tests_cant": "it relates two complete runs of an iterative algorithm for every input; a test can only compare the two corrections on one dataset, and the documentation suggests they behave differently", "anchors": ["featselect/lassoCorrections.go:CLasso", "featselect/lassoCorrections.go:NewCLasso", "featselect/lassoCorrections.go:ElasticNet", "featselect/lassoCrdDesc.go:LassoCrdDesc"]}
{"id": "C92", "title": "Bounds of a subtree contain those of its parts", "statement": "Going down the search tree the bounds returned by BoundsAIC and BoundsAICC only get tighter: for a subtree inside another one, the lower bound is not below and the upper bound not above that of the larger subtree, and in particular for the two children GetChildNode makes of a node. When every feature is decided both bounds equal the criterion of the one model left. This holds in exact arithmetic when the largest model of the outer subtree has fewer features than there are rows; with as many features as rows it does not.", "quantifier": "every dataset, target, pair of nested subtrees and node (exact arithmetic, correct SVD)", "why_tests_cant": "it compares the bounds of every pair of nested subtrees for every dataset; tests look at the bounds of a few models", "anchors": ["featselect/criteria.go:BoundsAIC", "featselect/criteria.go:BoundsAICC", "featselect/node.go:GetChildNode"]}
{"id": "C93", "title": "Order of the feature columns", "statement": "Listing the feature columns in another order changes nothing but the positions: every criterion of a set of features is the same, BruteForceSelect returns the same list of scores, and a SelectModel run to its end returns the same best score, reached by the same sets of features. This does not hold for coordinate descent, where both listings can report convergence with different features selected.", "quantifier": "every dataset, target and permutation of the columns, every schedule of the search (exact arithmetic, correct SVD); a binary64 run for coordinate descent", "why_tests_cant": "it relates complete runs on all permutations of all datasets", "anchors": ["featselect/optimize.go:SelectModel", "featselect/optimize.go:BruteForceSelect", "featselect/criteria.go:Aicc", "featselect/lassoCrdDesc.go:LassoCrdDesc"]}
{"id": "C94", "title": "A stricter criterion never selects more features", "statement": "When no combination of the features is the target, a model with the least corrected AIC has at most as many features as one with the least AIC; with at least eight rows a model with the least BIC has at most as many as one with the least AIC, with at most seven rows at least as many. So the best model BruteForceSelect lists has at most as many features as one that is best by AIC. When the target can be fitted exactly this fails, because every model that does so has the criterion -Inf.", "quantifier": "every dataset and target, every pair of optimal models (exact arithmetic, correct SVD)", "why_tests_cant": "it compares the optima of two criteria over all models of all datasets", "anchors": ["featselect/criteria.go:Aic", "featselect/criteria.go:Aicc", "featselect/criteria.go:Bic", "featselect/optimize.go:BruteForceSelect"]}
{"id": "C95", "title": "A Highscore has to come from NewHighscore", "statement": "On a zero Highscore (var h Highscore) the methods Len, Insert, BestScore, Scores and MarshalJSON panic, and Equal panics unless the capacities differ. UnmarshalJSON into it panics for every file with at least one entry, including every file MarshalJSON writes for a list that is not empty; for a file without entries it reports success and the value still panics afterwards. On a list from NewHighscore with nodes that exist, all methods act as on a list of nodes.", "quantifier": "every value with a nil list, every file, every list and node", "why_tests_cant": "the tests only use NewHighscore; the usual Go idiom of decoding into a zero value is not exercised", "anchors": ["featselect/highscore.go:Highscore", "featselect/highscore.go:NewHighscore", "featselect/highscore.go:UnmarshalJSON", "featselect/highscore.go:MarshalJSON", "featselect/highscore.go:Equal"]}
{"id": "C96", "title": "Simulated annealing sees small models only and can miss the optimum of the exhaustive search", "statement": "Every entry of the list SelectModelSA returns (BestItem included) is a model of one feature or of fewer than half as many features as rows, with the cost of its least squares fit as score; the list is not empty. With the corrected AIC as cost no entry has a better score than BruteForceSelect reports, and if every model attaining the best score of BruteForceSelect has two or more and at least rows/2 features, every entry is strictly worse, however long the annealing runs and whatever is drawn.", "quantifier": "all data, cost functions, sequences of random draws and numbers of sweeps for the entries (both arithmetics); all real data without an exact fit and valid decompositions for the comparison", "why_tests_cant": "A comparison of two algorithms over all data sets and all random sequences; a test sees a few seeds on one data set and cannot tell a rare miss from an impossible hit.", "anchors": ["featselect/simmulatedAnnealing.go:SelectModelSA", "featselect/saScore.go:Insert", "featselect/optimize.go:BruteForceSelect"]}
{"id": "C97", "title": "The two lasso algorithms agree", "statement": "A node of a LassoLars path with penalty lambda and any minimiser of the objective of LassoCrdDesc on the same normalised data with penalty lambda/rows give fitted values whose squared distance is at most 4e-6 times the sum of the absolute coefficients of the minimiser. If the features are uncorrelated, LassoCrdDesc (with the empirical covariance, any start and at least one pass) returns a model whose coefficients differ from those of the LARS node by as little, feature by feature.", "quantifier": "all real data whose bias column is normalised away and whose other columns are independent, all exact estimators, all paths without ties, all nodes", "why_tests_cant": "Relates two different algorithms on every data set; comparing a few outputs cannot separate agreement up to tolerance from agreement by chance, and the penalties differ by a factor a test would hard-code.", "anchors": ["featselect/lasso_lars.go:LassoLars", "featselect/lassoCrdDesc.go:LassoCrdDesc", "featselect/covarianceMatrix.go:Get"]}
{"id": "C98", "title": "Orthogonal matching pursuit recovers sparse models", "statement": "If the target is an exact combination of k features and no two features have a cosine above mu in size with (2k-1) mu < 1, then Omp with a positive tolerance selects features of the combination only and ends with a root mean square error below the tolerance. If moreover no model that lacks one of these features has an error below the tolerance, Omp returns exactly the coefficients of the combination and its features. The bound on mu cannot be left out: there are data for which all the rest holds and Omp selects a feature outside the combination only.", "quantifier": "all real data sets with columns that are not zero, all targets that are such combinations, all positive tolerances, all valid decompositions", "why_tests_cant": "The guarantee is over all matrices of bounded coherence and all sparse combinations; tests sample a few and cannot exclude a wrong pick.", "anchors": ["featselect/orthogonalMatchingPursuit.go:Omp", "featselect/orthogonalMatchingPursuit.go:Argmax"]}
{"id": "C99", "title": "The bytes of CSV files", "statement": "At the level of bytes, with the quoting rules of encoding/csv: reading a written file gives the records back exactly if and only if none of them is blank (no field or a single empty one) and no field contains a carriage return directly followed by a newline; in general blank records vanish and those carriage returns do. Hence Save followed by ParseCSV keeps every column name with commas, quotes, newlines or leading blanks, but changes a name containing CR LF. ParseCSV reads a file the same with Windows line ends and with or without a final newline, comes to an end on every input, and panics when the first field has a quote that is not at its start.", "quantifier": "all byte sequences as files, all lists of records, all datasets, all parsers and white space tables", "why_tests_cant": "Quoting and line end rules interact on infinitely many names and files; a test writes one friendly header.", "anchors": ["featselect/csvIO.go:ParseCSV", "featselect/csvIO.go:SaveHandle", "featselect/csvIO.go:ReadCSV"]}
{"id": "C100", "title": "The options of the goselect command", "statement": "With options written --name value or --name=value in any order and mixed with other arguments, goselect bnb, lasso and sasearch call the search with the last value given for each option and with the documented default for the others; lasso without a file name only prints a message. An option with a single dash, an option the command does not have and a number that does not parse stop the command before anything is read or written. The examples in the help texts use single dashes: they are rejected.", "quantifier": "all command lines, all number parsers, both arithmetics", "why_tests_cant": "The values come out of an option parser over unboundedly many command lines; no test runs the commands, and the examples printed by the help text are never executed.", "anchors": ["cmd/bnb.go:init", "cmd/lasso.go:init", "cmd/sasearch.go:init"]}
{"id": "C101", "title": "The example data sets are what they are said to be", "statement": "In exact arithmetic: the target of GetExampleXY is the combination -3, 3, 0.2, 0, 0 of the columns and no other, and exactly the models containing features 0, 1 and 2 score minus infinity with Aic, Aicc and Bic, so the criteria do not single out the true model on it. No combination of the columns of GetExampleAllModelsWrong is its target, and all criteria are finite there. For every non-empty grid the targets of LinearCubic and Exponentials are the combinations given by ExpectCoeff, and the only ones if the grid has as many different points as there are columns; ExpectOrder is not right for every grid. MockCohenTarget with Mode 0 has kappa 1 for every number of samples; otherwise its selections are exactly the lists of fewer than ten numbers below ten, repetitions included.", "quantifier": "all coefficient vectors, models, valid decompositions, grids, random draws and sample counts", "why_tests_cant": "That no coefficient vector fits, or only one does, is a statement about all vectors; the tests use these data sets as ground truth without checking them.", "anchors": ["featselect/testfeatselect/demoDataset.go:GetExampleXY", "featselect/testfeatselect/demoDataset.go:GetExampleAllModelsWrong", "featselect/testfeatselect/testomp.go:LinearCubic", "featselect/testfeatselect/testomp.go:Exponentials", "featselect/testfeatselect/mock_cohen_target.go:GetSelection"]}
{"id": "C102", "title": "The lasso and sasearch commands from the command line to the output file", "statement": "What goselect lasso and goselect sasearch leave behind is determined by the last value given for each option, the bytes of the CSV file and whether the output file can be created: options with different names may be given in any order, and Windows line ends or a newline at the end of the CSV file make no difference. The only file ever written is the one named by --out, and its name has no influence on what is written or printed. After a usage error nothing is run, whatever the files. If the CSV file cannot be opened the command panics without writing (lasso without --csv prints its message instead). On a file written by Save lasso works on the dataset that was saved, with the numbers as printed. In exact arithmetic, for a full-rank dataset without ties, goselect lasso with the method lars writes a file that can be read back and whose every node is, up to 2e-6 times the size of the competitor, a minimiser of the lasso objective on the data of the CSV file.", "quantifier": "all command lines made of valid options and positional words, all file systems, CSV files, sorting routines, solvers and random draws", "why_tests_cant": "The commands have no tests; the statement relates all pairs of command lines and files, and joins option parsing, CSV reading, the fit and the saved file.", "anchors": ["cmd/lasso.go:lassoFit", "cmd/sasearch.go:saSearch", "cmd/root.go:Execute", "featselect/csvIO.go:ReadCSV"]}
{"id": "C103", "title": "The bytes of the JSON files", "statement": "A string written to a JSON file comes back with every byte that is not part of a UTF-8 character replaced by U+FFFD, and unchanged if and only if it is UTF-8; a document in UTF-8 whose numbers are written as JSON numbers comes back as it was. Reading ends for every file. A file that was cut off at any point, or is followed by anything but white space, is recognised as not being JSON, so no part of it is taken for a result. The path written by goselect lasso comes back with its dataset, nodes and scores, names repaired as described, and the highscore list written by goselect bnb comes back as decoding its structure gives it; with C68 and C04 this gives the round trip from the data to the bytes of the file and back. False: that names which differ still differ after reading; two Latin-1 column names can become equal.", "quantifier": "all byte strings, all JSON documents, all cut points and continuations, all datasets, paths and highscore lists, all names, and all ways of printing numbers that can be read back", "why_tests_cant": "Tests read back a few small structures with ASCII names and never look at damaged files or at names from files in another encoding.", "anchors": ["featselect/csvIO.go:MarshalJSON", "featselect/csvIO.go:UnmarshalJSON", "featselect/lassoPlot.go:LassoLarsPathFromBytes", "featselect/highscore.go:MarshalJSON", "featselect/highscore.go:UnmarshalJSON", "featselect/node.go:MarshalJSON", "cmd/lasso.go:lassoFit", "cmd/bnb.go:saveHighscoreList"]}
{"id": "C104", "title": "JSON files rewritten by other programs", "statement": "Every text that RFC 8259 allows for a document is read as that document: white space around any token, characters written as themselves, as short escapes or as \\u escapes with capital or small digits, characters beyond U+FFFF as surrogate pairs. No such text has two meanings. What goselect writes is such a text. The result file of goselect lasso or the highscore file of goselect bnb written out again by another program, with the members of every object in any order, is read exactly like the original file.", "quantifier": "all documents, all texts of a document in the sense of RFC 8259, all orders of members, all lasso results and highscore lists", "why_tests_cant": "A test reads files in the one layout that the program itself writes; layouts of other programs are infinitely many.", "anchors": ["featselect/lassoPlot.go:LassoLarsPathFromBytes", "featselect/highscore.go:UnmarshalJSON", "featselect/csvIO.go:UnmarshalJSON", "featselect/node.go:UnmarshalJSON"]}
{"id": "C105", "title": "From the command line to the figures", "statement": "When goselect lasso reports that it has written its result and goselect-plotlasso is then started on that file, the figures are exactly those of the result that was computed, whatever the columns are called. A result file that is missing, was cut off at any point, or is followed by anything but white space gives no figure at all. A run of goselect lasso or sasearch changes no file except the one named by --out, and that one only when it reports so; then its bytes are those of the result. Running the same command again gives the same result and leaves the same files, if the output does not replace the data. The file of sasearch comes back from its bytes as it was written. False: that the data file survives; --out may name it and then it is replaced without warning.", "quantifier": "all command lines, file systems, data files, results and ways of printing numbers that can be read back; all cut points and continuations", "why_tests_cant": "The programs are separate executables that share only a file; tests call their functions on values in memory.", "anchors": ["cmd/lasso.go:lassoFit", "cmd/sasearch.go:saSearch", "featselect/lassoPlot.go:LassoLarsPathFromJSON", "featselect/lassoPlot.go:LassoLarsPathFromBytes", "cmdDepreciated/goselect-plotlasso/main.go:analyseLasso"]}
{"id": "C106", "title": "Which files are accepted as JSON", "statement": "A file is accepted as JSON if and only if it is in the grammar of RFC 8259, and what is read is what that text means: a text is read as a document without U+FFFD exactly when the RFC says that it is a text of that document. Every other file is refused as not being JSON by the readers of lasso results and of highscore lists: a comma too many, comments, single quotes, bare words, NaN and Infinity, numbers with a plus sign, leading zeros or a bare point, unescaped control characters. No file in the grammar is refused as not being JSON.", "quantifier": "all byte strings", "why_tests_cant": "Both the accepted and the refused texts are infinitely many; tests try a few of the first and none of the second kind.", "anchors": ["featselect/lassoPlot.go:LassoLarsPathFromBytes", "featselect/highscore.go:UnmarshalJSON", "featselect/csvIO.go:UnmarshalJSON", "featselect/node.go:UnmarshalJSON"]}
{"id": "C107", "title": "goselect bnb from the command line to the list in its file", "statement": "goselect bnb searches the dataset in the file named by --csv with the column named by --target, a queue of --maxqueue nodes and the output named by --out (by default the last column, ten million, bnbSearch.json); a missing data file kills it before anything is written. When it ends, under every schedule of its goroutines and of the periodic saves, only the output file has changed. At any time before, too, only the output file differs, and it is as it was, empty, or one whole JSON object. If all numbers in the list of the search are finite, reading the bytes of that file gives the list back, of ten entries possibly without the last; otherwise the file is empty and is not JSON. The best entry read back is at least as good as every model other than the one of the annealing whose bounds are valid, unless the race of C15 or an overflowing queue intervened; for models of positive score a large enough queue suffices. False: that the data file survives; --out may name it, and the search replaces it when it ends.", "quantifier": "all command lines, file systems, data files, schedules, random numbers, fits and bounds, and all ways of printing numbers that can be read back", "why_tests_cant": "The claim spans option parsing, CSV, annealing, concurrent search, saving and JSON; tests call these parts one by one on small data, and schedules cannot be enumerated by running the program.", "anchors": ["cmd/bnb.go:findOptimalSolution", "cmd/bnb.go:saveHighscoreList", "featselect/optimize.go:SelectModel", "featselect/highscore.go:MarshalJSON", "featselect/highscore.go:UnmarshalJSON", "featselect/csvIO.go:ReadCSV"]}
{"id": "C108", "title": "goselect finds its command, and the configuration is not used", "statement": "goselect with the name of a command as its first argument gives all other arguments to that command. Options of the command may also be written before it, with the same effect, provided that none of their values is the name of the command; without this proviso the claim is false, and the command runs with other files than the ones named. Whatever the arguments are, a command is only run if its name is among them, and it gets all the others in their order; without a home directory nothing is computed unless some argument begins with --config. Without arguments and after -- no command is run, no command accepts the option --toggle of goselect, and a first argument that is neither an option nor a command is refused. The command runs if there is a home directory or a --config option with a value, and otherwise stops with an error, unless it only reports errors in its options or shows its help. Apart from that --config has no effect: the command does the same with and without it.", "quantifier": "all commands, all argument lists (for the value of --config and for options before the command: all lists of valid options), with and without a home directory", "why_tests_cant": "Tests of the package never go through the command line, and the interplay of option values with the search for the command shows up for particular values only.", "anchors": ["main.go:main", "cmd/root.go:Execute", "cmd/root.go:initConfig", "cmd/root.go:init"]}
