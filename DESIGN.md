# Formal model of davidkleiven/goselect in Rocq (Coq 8.16.1)

## Numbers

Go `float64` code is modelled once, generically over a record `Num` of the
operations Go uses, and instantiated twice:

* `F64 o` - IEEE binary64 as in Coq's standard library `SpecFloat`
  (`spec_float`, precision 53, emax 1024): NaN, infinities, signed zero, correct
  rounding.  Transcendental functions (exp, log, ...) come from an arbitrary
  oracle `o`.  Executable; used for every property that depends only on
  comparisons and for concrete refutations.
* `XR` - exact reals extended with +Inf, -Inf and NaN (no rounding, no signed
  zero).  Used for algebraic properties; rounding is *not* modelled there.

Go `int` is `Z` or `nat` without overflow unless said otherwise.  Go panics are
the explicit outcome `Panic`; loops are structural recursion or fuel with an
explicit `Fuel` outcome.  Goroutines and unbuffered channels are step relations
over explicit states (a rendezvous is one step); memory is sequentially
consistent.

External code is an explicit parameter: SVD (`mat.SVD`), random numbers,
`sort.Sort`, `encoding/json` byte encoding, `strconv.ParseFloat`.

## Plan per property

| id | modelled | proof |
|----|----------|-------|
| C01-C03 | `Highscore.Insert` on a list of nodes, F64 scores | induction over the insertion sequence; prefix-of-sorted invariant |
| C04 | Marshal/Unmarshal at field level | re-insertion of a sorted list; witness for the full list |
| C05 | nodeJsonified record | list/bit-vector round trip |
| C06 | byte list with div/mod, uint8 wrap | refinement to `nat -> bool`; bit lemmas |
| C07 | Gcs/Lcs loops | pointwise |
| C08 | SelectedFeatures etc. loops | induction |
| C09 | GetChildNode | pointwise |
| C10 | GetDesignMatrix loop over an abstract matrix | loop invariant |
| C11 | Aic/Aicc/Bic in XR | real arithmetic, monotone ln |
| C12 | Fit with SVD parameter, Rss | normal equations |
| C13 | bounds | C07 + C11 + C12 |
| C14-C17 | SelectModel, ScoreWorker, CreateChildNodes as one transition system | invariants over reachable states, coverage of the search tree, potential function; witness runs |
| C18 | CreateChild | conversion |
| C19 | NewLog2Pruned, counter | real arithmetic; witness run |
| C20 | CleanQueue, RemoveLeastPromising | filter lemma; mean >= min in XR; float witness |
| C21 | BruteForceSelect queue loop | breadth-first invariant |
| C22-C23 | SAScore with a heap of items (pointers) | invariants over insertion history; witness |
| C24-C25 | SelectModelSA as a fuelled loop over a random stream | loop invariants |
| C26-C28 | ParseCSV, SaveHandle, Dataset methods at the level of csv records / JSON fields | loop invariants, round trips |
| C29-C30 | normalisation | real sums |
| C31 | SoftThreshold | real arithmetic |
| C32-C34 | LassoCrdDesc | loop invariant, descent lemma; concrete witness |
| C35 | LassoCrdDescPath worker pool | transition-system invariants |
| C36-C38 | LassoLars loop with abstract estimator, betaLARS, pseudo inverse | invariants, matrix identities |
| C39 | Omp loop with abstract fit | determinism argument |
| C40-C41 | util.go helpers | induction |
| C42-C43 | IterProduct on a heap of backing arrays with Go's append growth; lazy matrix | induction; witness |
| C44 | RearrangeDense | loop invariant; witness |
| C45-C46 | CohenKappa, GetCohensKappa, CalculateCohenSequence | counting, real arithmetic; transition-system invariants |
| C47-C49 | ThresholdOperator, L2ConsistentCovTO protocol, RandomRowSplit | loop invariants; transition system |
| C50-C53 | covariance, Logspace, weights, sparse coefficients | real sums |
| C54-C55 | lassoPlot.go queries, MapSelectionByName | induction; witness |
| C56 | SearchProgress with RWMutex as micro-step system | invariants |
| C57 | MarshalJSON interleaved with Insert | witness schedule; JSON float encodability |
| C58 | lasso corrections | derivative identities |
| C59 | DenumMatrixGcv, Gcv | matrix identities; witness |
| C60 | LassoLars loop | strictly decreasing penalty, sign patterns never repeat |
| C61 | GetCriteria, Selected2Model | column correspondence; witness |
| C62-C63 | NestedLasso loop over datasets and path nodes | loop invariant; selection shrinks |
| C64-C65 | pureLassoCohen/cLassoCohen GetSelection, GetCohensKappa | state independence; zero draws |
| C66 | L2ConsistentCovTO arguments, getThreshold | guards, grid range |
| C67 | ReadCSV on padded cells | parse failure propagates to zero |
| C68 | pathMarshal, LassoLarsPathFromBytes | roundtrip |
| C69 | PrintHighscore | Argsort specification, loop invariant |
| C70 | bnb command: two goroutines, list, file | protocol invariant over all schedules; progress |
| C71 | sasearch: saMarshal after SelectModelSA | annealing invariant |
| C72 | goselect-mem | integer division |
| C73 | goselect-plotlasso flags | computation; witness |
| C74 | goselect lasso, end to end | scaling of the objective; C30, C37, C61, C68, C69 |
| C75 | goselect lasso, arguments | case analysis; C35, C68 |
| C76 | LassoCrdDesc, special cases | fixed point of the sweep; descent |
| C77 | goselect lasso -type cd, end to end | truncation bound; C32, C35, C76, C61, C68 |
| C78 | goselect-cohenlasso | C34-style pool invariant over all schedules; zero deviation on a half |
| C79 | goselect-nestedlasso | roundtrip; C62; witness |
| C80 | goselect-plotlasso figures | loop fill lemmas; C54, C61, C74, C77 |
| C81 | NewNormalizedData, LassoLars, LassoCrdDesc: two runs on remeasured data | simulation: the solvers see the data only through the Gram matrix and X^T y; C30, C35, C37 |
| C82 | coordinate descent | proximal coordinate step of size 1/C_jj on the lasso objective of C + L*I; exact per-feature recurrence when the off-diagonal is zero; geometric closed forms |
| C83 | Commands | composition of the models of ReadCSV, SelectModelSA, SelectModel and the saving loop; the list of the search equals the list the saving loop writes because both insert the same nodes |
| C84 | Model_SA | invariant relating evaluations, level counters and temperature (Proof_Anneal); acceptance at high temperature from exp(-x) > rho (Proof_Anneal2); five rows: all 49 temperatures computed in binary64 (Proof_Anneal3) |
| C85 | Model_Node | case analysis over exact arithmetic and binary64; C04 for the restored lists |
| C86 | search | the least-squares minimum of the transformed data is s^2 times the old one (both directions by transforming coefficients); criterion shift; C14 and C21 |
| C87 | Orthogonal matching pursuit | two runs related round by round (same correlations, same stop), exchange argument for sums of explained squares |
| C88 | Coordinate descent, optimality check | loop invariant for the reported indices; the two counterexamples use the sufficient conditions of C33 |
| C89 | Coordinate descent, reversed signs | relational proof through every statement of both functions; rounding to nearest commutes with negation |
| C90 | Optional search parameters | case analysis of the start of the search, C14 for the optimality |
| C91 | lasso | simulation between the two runs, pass by pass |
| C92 | Best subset selection | least squares over nested column sets is monotone, and so are the penalties; Gcs and Lcs of nested subtrees are nested |
| C93 | Best subset selection | the least residual over a set of columns does not depend on their order; the sorted list of scores is determined by its entries; C14 for the search |
| C94 | Best subset selection | the difference of the two penalties increases with the number of features, so exchanging the two optima would improve one of them |
| C95 | Highscore list | a model with nil pointers; refinement to the list model for lists made by NewHighscore |
| C96 | Simulated annealing | invariant over the passes of the loop; optimality of the exhaustive search |
| C97 | Lasso | strong convexity of the objective in the fitted values; optimality of both results |
| C98 | Orthogonal matching pursuit | induction over the selected features with the coherence bound on the scores |
| C99 | CSV | transcription of the encoding/csv reader and writer; simulation of the reader on the written bytes |
| C100 | Commands | fold over the options given; transcription of pflag |
| C101 | testfeatselect | polynomial division; differences of the sine; uniqueness |
| C102 | Commands | composition of C74, C99 and C100 |
| C103 | Files | Writer and reader of encoding/json on bytes; induction over documents and prefixes |
| C104 | Files | Grammar of RFC 8259 as an inductive relation (Spec_JSONText.v); induction over derivations |
| C105 | Files | Composition of the models of the command line (C102), the JSON bytes (C103) and the figures (C80) |
| C106 | Files | Soundness by induction on the fuel of the reader, completeness by mutual induction on the grammar |
| C107 | Files | Composition of the models of the options (C100), the CSV bytes (C99), the start of the search (C83), the schedules (C14, C16, C70) and the JSON bytes (C103) |
| C108 | main, Execute, initConfig, cobra Find | transcription of the search for the command; induction on the options; counterexample |

## Layout

* `Base.v`, `Num.v`, `Mat.v`, `Eval.v`, `Flt.v`, `RSum.v`, `Stats.v`: outcomes and loops,
  numbers, matrices, evaluation of closed terms, the link from `SpecFloat` to
  real numbers (Flocq), finite sums, sample statistics.
* `Model_*.v`: the code, one file per group of Go files, no proofs.
* `Spec_*.v`, and the definitions at the top of some `Props_*.v`: the small
  vocabulary the theorems are stated in; independent of the model.
* `Proof_*.v`: lemmas.  `Ex_*.v`: large worked examples.
* `Props_*.v`: the theorems `Cnn_...`, each followed by `Print Assumptions` and
  accompanied by examples that meet its hypotheses.

Names ending in `_refuted` are counterexamples: the property one would expect is
false of the code, and the theorem exhibits the inputs.

## Trusted base

1. Coq 8.16.1's kernel, including `vm_compute`.
2. The axioms listed per theorem at the end of this file, all from the standard
   library.  Flocq is used inside proofs only; it brings no axioms of its own.
3. The reading of the Go code.  The code was never run here; each definition of
   a `Model_*.v` file cites the lines it models.
4. The semantics given to Go and to the libraries the code calls, below.

### Go

* `int` is unbounded (`Z` or `nat`).  `uint8` arithmetic in model.go wraps.
  `go_int`, the conversion from float64, truncates and yields the amd64 value
  out of range.
* Slices are lists; where aliasing matters it is explicit: IterProduct runs on a
  heap of backing arrays with an arbitrary growth policy of `append`; SAScore
  holds pointers into a heap of items; list elements of the live highscore
  carry identities.
* Index out of range, nil dereference, division by zero and explicit `panic` give `Panic`.
* Goroutines: each program point that touches shared state or a channel is one
  step; an unbuffered channel operation is a joint step; sequential consistency;
  RWMutex without writer preference.  The Go race detector's notion of a data
  race is not modelled: the interleavings are of whole statements.
* Range over a map visits keys in an arbitrary order (a parameter).
* Printing, tickers' timing and logging are omitted unless a definition says otherwise.

### Libraries

* gonum `mat`, `floats`, `stat`: real-valued meaning with the summation order of
  a simple loop; shape panics included.  `mat.Norm` and `frob` without the
  rescaling against overflow.
* `mat.SVD`: a parameter returning `Some` factors or failure.  Theorems that
  depend on its quality say which factorisation they assume (`exact_svd` etc.).
* `math.Exp/Log/Log2/Pow`: oracle in `F64 o`, exact in `XR`.
* `math/rand`: an arbitrary stream or function.
* `sort.Sort`: any function with `sort_spec`; `sort.Ints` insertion sort.
* `encoding/json`: C04, C05, C28 and C68 work on the field values transported, with an error
  for NaN and infinities; C103 works on bytes, with writer and reader transcribed from the Go
  standard library (`Model_JSON.v`, `Model_JSONFiles.v`).  There the printing and reading of
  floating point numbers is a parameter, reflection is replaced by one writer and one reader
  for each structure, and well-formed text of another shape is only recognised as such.
* `encoding/csv`: C26-C28 and C67 work on records (`csv_transport`: what a written record reads
  back as); C99 works on bytes, with reader and writer transcribed from the Go
  standard library (`Model_CSVBytes.v`; options as in csvIO.go, error positions left out).
* `cobra` and `pflag`: the reading of the options of the subcommands is transcribed
  in `Model_Flags.v` (C100), the search for the subcommand in `Model_Root.v` (C108); the texts of help and errors are left out.
* `strconv.ParseFloat`: parameter `parse`; the concrete `parse_f` used for the
  round trip covers decimal notation as written by `%f`.
* Files: opening can fail where the code distinguishes it; a write is atomic.

### Simplifications by model file

| file | simplification |
|------|----------------|
| Model_Search | scoring of one model is atomic; the SelectModel loop, workers and child makers are separate processes |
| Model_SA | random numbers as an infinite stream; the criterion as a function |
| Model_CrdPath | the computation of one path node is one step; the shared correction state is explicit |
| Model_Lars | feature indices are `nat`; estimator methods are functions |
| Model_Nested | printed progress omitted; nodes are distinct objects |
| Model_Save | Insert is one step against the statements of MarshalJSON |
| Model_Omp | residual norm without scaling; printing omitted |
| Model_Cohen | targets are distinct objects; one evaluation is one step; GetSelection does not write its argument |
| Model_Threshold | no overflow of numSamples*numGrid; ticker omitted; maxThreshold unused as in the code |
| Model_Path | font and axis drawing omitted: `drawable` decides whether a line can be drawn |
| Model_Plot | a figure is the points handed to the plotter; gonum draws iff there are points and all are finite; Save may fail |
| Model_Cmd, Model_Cmd2 | flags are arguments; printing only for PrintHighscore and the summary of cohenlasso |

`XR` has no signed zero and no rounding: theorems over `XR` are about the
algorithm in exact arithmetic.  Theorems over `F64 o` or every `Num` hold for
binary64.

### Not modelled

* The values of the configuration file read by `initConfig` (`cmd/root.go`; used nowhere), and
  the help texts of the root command (`Model_Root.v` has the rest of `main.go` and `cmd/root.go`).
* `MockCohenTarget.StringRep` in `featselect/testfeatselect` (a text for printing).
* Drawing with gonum/plot apart from the points that are drawn.
* Termination messages and the text of errors.

## Findings

Properties a user would expect that are false of the code (each a `_refuted`
theorem or a theorem describing the failure):

* C04 Highscore JSON round trip. The full round trip is false of the code: UnmarshalJSON re-inserts the nodes and Insert drops one when the list reaches MaxItems (C04_highscore_json_roundtrip_refuted); proved for Len() < MaxItems.
* C12 Fit returns a least-squares minimiser. Least-squares optimality holds for every SVD whose singular values are exactly zero or above Fit's threshold; below it the claim is false (C12_tiny_singular_value_refuted).
* C13 Bounds enclose the criterion of every sub-model. The lower bound is false for saturated sub-models (C13_saturated_refuted); proved elsewhere, with the RssTol floor explicit.
* C14 Branch and bound finds the optimum under every schedule. Proved under the guard that excludes the race of C15; C15 shows that the guard is needed.
* C15 Race on the empty highscore can lose the optimum. A witness schedule loses the optimum (C15_optimal_without_guard_refuted).
* C16 The root model is never scored. 
* C18 The cutoff parameter has no effect. CreateChild never reads the cutoff, so the documented rule is false (C18_documented_rule_refuted).
* C20 Queue cleaning keeps exactly the promising nodes. Exact in real arithmetic; with rounding RemoveLeastPromising can drop every node (C20_remove_keeps_something_f64_refuted).
* C23 SAScore entries can carry coefficients of another model. The entry invariant one would expect is false (C23_one_coefficient_per_feature_refuted).
* C33 Coordinate descent can stop at a non-optimal point. Finding: converged runs need not be optimal, in real arithmetic and in binary64 (C33_stops_at_a_non_optimal_point_refuted, C33_binary64_refuted).
* C34 The start vector x0 is ignored and overwritten. 
* C35 Lasso path is schedule independent. Schedule independence for stateless corrections; with CLasso's shared state it fails (C35_shared_correction_refuted).
* C37 LARS coefficients satisfy the lasso stationarity conditions. Real arithmetic. Zero columns (the bias column of normalised data) are allowed; the non-zero columns must be linearly independent.
* C38 Pseudo-inverse. The Moore-Penrose identities hold for the pseudo inverse, but MorsePenroseCD.C leaves small singular values un-inverted (C38_small_singular_value_refuted).
* C42 Cartesian product via append aliasing. Correct up to three positions, wrong from four on because append reuses a backing array (C42_iter_product_refuted).
* C43 Lazy power matrix enumerates the monomials. Correct up to three columns, wrong from four on (C43_four_columns_refuted), a consequence of C42.
* C47 Threshold operator. Thresholding can destroy positive semi-definiteness (C47_not_positive_refuted).
* C55 Selections are mapped by name in nested lasso. Correct when the target column is the last one; otherwise wrong (C55_target_not_last_refuted).
* C57 Periodic saving during the search. Findings: saving while the search inserts can panic or write null entries; a list with a non-finite score leaves an empty file.
* C59 Hat matrix and GCV score. Gcv is not the textbook score (C59_gcv_is_not_textbook_refuted).
* C61 Criteria of a lasso path. Correct for ascending selections, false for others (C61_unsorted_refuted).
* C65 Kappa of a lasso target can be impossible to compute.
* C63 Nested lasso ends. NestedLasso need not end when keep is at least 1 (C63_keep_one_refuted).
* C73 Axis range flags of plotlasso. The flags of the range are dead (C73_documented_range_refuted).
* C79 What the nestedlasso program writes. The file mixes standardised data with coefficients in original units; its scores belong to neither (C79_scores_refuted).
* C82 The elastic net correction minimises the elastic net objective as long as its strength is below the diagonal. For a strength at or above the diagonal the result need not be a minimiser and the iteration can diverge (C82_minimiser_refuted, C82_bounded_refuted).
* C85 What NodesEqual and Highscore.Equal compare. Equality of nodes is not transitive, and equal nodes can have different scores (C85_transitive_refuted, C85_equal_scores_refuted).
* C86 Best subset selection does not depend on units or row order. A feature measured in very large units is ignored (C86_tiny_units_refuted).
* C88 What the optimality check of coordinate descent reports. The documentation comment of the check is wrong in both directions (C88_met_but_reported_refuted, C88_unmet_but_silent_refuted).
* C89 Reversing a sign changes nothing but signs. LassoLars can lose a feature with a negative coefficient that it finds with a positive one (C89_lars_refuted).
* C90 Optional parameters of SelectModel: defaults and reuse. Parameters cannot be shared between searches over different numbers of features (C90_shared_parameters_refuted).
* C91 The covariance lasso correction acts as the elastic net. No bound on the coefficients holds in general (C91_bounded_refuted, C91_tiny_refuted).
* C92 Bounds of a subtree contain those of its parts. Needs its hypothesis on the largest model (C92_saturated_refuted).
* C93 Order of the feature columns. In binary64 the result of coordinate descent can depend on the order of the columns (C93_cd_refuted).
* C94 A stricter criterion never selects more features. Needs a target that is not fitted exactly (C94_exact_fit_refuted).
* C98 Orthogonal matching pursuit recovers sparse models. The bound on the coherence is needed (C98_coherent_refuted).
* C99 The bytes of CSV files. A name with a carriage return before a newline is changed (C99_names_refuted).
* C100 The options of the goselect command. The examples of the help texts are refused (C100_documented_examples_refuted).
* C101 The example data sets are what they are said to be. ExpectOrder is wrong for a grid of one point (C101_order_refuted).
* C103 The bytes of the JSON files. Different names can be equal after the JSON file is read (C103_names_collide_refuted).
* C105 From the command line to the figures. --out naming the CSV file destroys the data (C105_data_kept_refuted).
* C107 goselect bnb from the command line to the list in its file. The same for bnb (C107_data_kept_refuted).
* C108 goselect finds its command, and the configuration is not used. An option value equal to the name of the command, written before it, is taken for the command (C108_value_named_as_command_refuted).

### Go functions and the definitions that model them

Every function outside `_test.go` files; "-" means not modelled.


`cmd/bnb.go`

| function | lines | model |
|---|---|---|
| init | 56-64 | Model_BnbShell: `BnbShell`; Model_Flags: `Flags`, `command`, `flags_of`, `set_flag`; Model_Root: `command_of` |
| saveHighscoreList | 66-72 | Model_BnbShell: `BnbShell`, `bnb_files`, `saved_bytes`; Model_JSON: `text`; Model_JSONFiles: `itoa`, `path_bytes`; Model_Save: `Save`, `write_file` |
| setSearchFinished | 74-76 | Model_BnbShell: `BnbShell` |
| findOptimalSolution | 78-125 | Model_Bnb: `Bnb`, `bnb_ready`, `bnb_start`; Model_BnbShell: `BnbShell`, `bnb_main`; Model_Cmd: `bnb_init`, `bnb_main`, `bnb_params`, `bnb_search`, `bnb_step`; Model_Progress: `initial`; Model_Save: `Save`, `label` |

`cmd/lasso.go`

| function | lines | model |
|---|---|---|
| init | 54-67 | Model_Flags: `Flags`, `command`, `flags_of`, `set_flag`; Model_Root: `command_of`; Model_Shell: `Shell` |
| lassoFit | 69-123 | Model_Chain: `Chain`, `after`, `content`; Model_Cmd: `crdF`, `larsF`, `lassoFit`, `lasso_finish`, `lasso_path`; Model_JSON: `text`; Model_JSONFiles: `itoa`, `path_bytes`; Model_Shell: `Shell`, `filesystem`, `lasso_main`, `srt`, `write_to` |

`cmd/root.go`

| function | lines | model |
|---|---|---|
| Execute | 46-51 | Model_BnbShell: `launch`; Model_Flags: `outcome`; Model_Root: `main`, `start`; Model_Shell: `shell` |
| init | 53-65 | Model_Flags: `flags_of`; Model_Root: `takes_next` |
| initConfig | 68-91 | Model_Flags: `Flags`; Model_Root: `init_config`, `start` |

`cmd/sasearch.go`

| function | lines | model |
|---|---|---|
| init | 56-63 | Model_Flags: `Flags`, `command`, `flags_of`, `set_flag`; Model_Root: `command_of`; Model_Shell: `Shell` |
| saSearch | 65-76 | Model_Chain: `Chain`, `after`, `content`; Model_Cmd: `saMarshal`, `sa_write`; Model_Shell: `Shell`, `filesystem`, `sasearch_main`, `svd`, `write_to` |

`cmdDepreciated/goselect-cohenlasso/main.go`

| function | lines | model |
|---|---|---|
| cohensKappaPureLasso | 9-28 | Model_Cmd: `mem_buffer`; Model_Cmd2: `cohenlasso_reaches`, `cohenlasso_targets`, `nestedMarshal`, `nestedlasso` |
| main | 30-41 | Model_Cmd: `plot_flags`, `plot_range` |

`cmdDepreciated/goselect-mem/main.go`

| function | lines | model |
|---|---|---|
| main | 10-26 | Model_Cmd: `mem_buffer`; Model_Cmd2: `cohenlasso_reaches`, `cohenlasso_targets`, `nestedMarshal`, `nestedlasso` |

`cmdDepreciated/goselect-nestedlasso/main.go`

| function | lines | model |
|---|---|---|
| nestedLasso | 12-25 | Model_Cmd: `mem_buffer`; Model_Cmd2: `cohenlasso_reaches`, `cohenlasso_targets`, `nestedMarshal`, `nestedlasso` |
| main | 27-36 | Model_Cmd2: `cohenlasso_reaches` |

`cmdDepreciated/goselect-plotlasso/main.go`

| function | lines | model |
|---|---|---|
| analyseLasso | 12-35 | Model_Cmd: `mem_buffer`; Model_Cmd2: `cohenlasso_reaches`, `cohenlasso_targets`, `nestedMarshal`, `nestedlasso` |
| main | 37-58 | Model_Cmd: `plot_flags`, `plot_range` |

`featselect/cohens_kappa.go`

| function | lines | model |
|---|---|---|
| GetCohensKappa | 26-44 | Model_Cohen: `GetCohensKappa`; Model_Cov: `shuffle_from` |
| CohensKappaWorker | 54-59 | Model_Cohen: `CWorker` |
| CalculateCohenSequence | 62-121 | Model_Cohen: `CMain`, `CState`, `cohenWorkers`, `cohen_finish`, `cohen_init` |

`featselect/covarianceMatrix.go`

| function | lines | model |
|---|---|---|
| Empirical.Get | 18-24 | Model_Cov: `Empirical_Get` |
| Identity.Get | 30-38 | Model_Cov: `Identity_Get` |
| NewSparseThreshold | 49-56 | Model_Cmd: `NewSparseThreshold`, `optimal_threshold` |
| SparseThresholded.Get | 59-69 | Model_Cov: `SparseThresholded` |

`featselect/criteria.go`

| function | lines | model |
|---|---|---|
| Aic | 17-19 | Model_Fit: `Aic` |
| Aicc | 23-30 | Model_Fit: `Aicc` |
| Bic | 33-35 | Model_Fit: `Bic` |
| bounds | 41-66 | Model_Fit: `bounds` |
| BoundsAIC | 69-71 | Model_Fit: `BoundsAIC` |
| BoundsAICC | 74-76 | Model_Fit: `BoundsAIC` |

`featselect/csvIO.go`

| function | lines | model |
|---|---|---|
| Dataset.GetFeatName | 26-31 | Model_CSV: `GetFeatName` |
| Dataset.FeatNoByName | 35-45 | Model_CSV: `FeatNoByName` |
| Dataset.GetSubset | 49-71 | Model_CSV: `GetSubset` |
| Dataset.IsEqual | 74-91 | Model_CSV: `IsEqual` |
| Dataset.Copy | 94-103 | Model_CSV: `dsCopy` |
| ReadCSV | 106-114 | Model_BnbShell: `bnb_main`; Model_Cmd: `ReadCSV`; Model_Shell: `ReadCSVFile`, `filesystem` |
| ParseCSV | 119-167 | Model_CSV: `ParseCSV`, `parse_f`; Model_CSVBytes: `ParseCSVBytes`, `bytes`, `read_records`, `read_slice` |
| Dataset.Save | 170-177 | Model_CSV: `SaveHandle` |
| Dataset.SaveHandle | 180-200 | Model_CSV: `SaveHandle`, `fmt6`, `sprintf_F64`, `sprintf_XR`; Model_CSVBytes: `SaveBytes`, `csv_write`, `special` |
| Dataset.MarshalJSON | 212-228 | Model_CSV: `dsMarshalJSON`; Model_Cmd2: `nestedMarshal`; Model_JSON: `text` |
| Dataset.UnmarshalJSON | 231-243 | Model_CSV: `dsUnmarshalJSON`; Model_JSON: `text`; Model_JSONFiles: `dec_dataset` |

`featselect/fit.go`

| function | lines | model |
|---|---|---|
| Fit | 11-49 | Model_Fit: `Fit` |
| PredictOne | 52-59 | Model_Fit: `PredictOne` |
| Predict | 63-68 | Model_Fit: `Predict` |
| Rss | 75-87 | Model_Fit: `Rss` |
| DenumMatrixGcv | 91-99 | Model_Fit: `DenumMatrixGcv` |
| Gcv | 102-108 | Model_Fit: `Gcv` |

`featselect/highscore.go`

| function | lines | model |
|---|---|---|
| NewHighscore | 15-20 | Model_HSPtr: `hpNew`; Model_Node: `NewHighscore` |
| Highscore.Insert | 23-49 | Model_HSPtr: `hpInsert`; Model_Node: `hsInsert`, `hs_insert_before`; Model_Save: `live_before`, `live_insert`, `ptr_before`, `ptr_insert` |
| Highscore.Len | 52-54 | Model_HSPtr: `hpLen`; Model_Node: `hsLen` |
| Highscore.BestScore | 57-64 | Model_HSPtr: `hpBestScore`; Model_Node: `hsBestScore` |
| Highscore.Scores | 67-75 | Model_HSPtr: `scores_ptr`; Model_Node: `hsScores` |
| Highscore.MarshalJSON | 78-92 | Model_HSPtr: `hpMarshalJSON`; Model_JSON: `text`; Model_JSONFiles: `hs_json`, `itoa`; Model_Node: `hsJSON`, `marshal_nodes`; Model_Save: `Save`, `content`, `loop_head`, `save_step` |
| Highscore.UnmarshalJSON | 95-110 | Model_HSPtr: `hpUnmarshalJSON`; Model_JSON: `text`; Model_JSONFiles: `hs_from_file`, `hs_of`, `itoa`; Model_Node: `hsJSON`, `hsUnmarshalJSON`; Model_Save: `load_file` |
| Highscore.Equal | 112-123 | Model_HSPtr: `hpEqual`, `pairs_equal`; Model_Node: `hsEqual` |

`featselect/lassoCorrections.go`

| function | lines | model |
|---|---|---|
| PureLasso.Deriv | 19-21 | Model_Cov: `Deriv` |
| PureLasso.Update | 24-24 | Model_Cov: `Update` |
| NewCLasso | 34-39 | Model_Cov: `NewCLasso` |
| CLasso.Update | 42-44 | Model_Cov: `Update` |
| CLasso.Deriv | 48-60 | Model_Cov: `Deriv` |
| ElasticNet.Deriv | 68-70 | Model_Cov: `Deriv` |
| ElasticNet.Update | 73-73 | Model_Cov: `Update` |

`featselect/lassoCrdDesc.go`

| function | lines | model |
|---|---|---|
| LassoCrdDesc | 16-92 | Model_Crd: `Crd`, `LassoCrdDesc`, `crd_change`, `crd_compact`, `crd_coord`; Model_CrdPath: `shared_loop` |
| SoftThreshold | 95-102 | Model_Cov: `SoftThreshold` |
| UnsatisfiedKKTConditions | 105-115 | Model_Crd: `UnsatisfiedKKTConditions` |
| MulSlice | 118-131 | Model_Crd: `MulSlice` |
| UpdateCovDotBeta | 134-139 | Model_Crd: `UpdateCovDotBeta` |
| PerformLassoCrd | 160-177 | Model_Crd: `crd_node`; Model_CrdPath: `Worker`, `Workload`, `perform` |
| LassoCrdDescPath | 180-256 | Model_CrdPath: `MainPC`, `Workload`, `avail0`, `first_with_features`, `node_at` |
| NewPureLassoCohen | 272-276 | Model_Cmd2: `cohenlasso_targets`; Model_Cohen: `Target` |
| pureLassoCohen.GetX | 279-281 | Model_Cohen: `Target` |
| pureLassoCohen.GetSelection | 285-312 | Model_Cohen: `Target`, `lasso_select` |
| pureLassoCohen.HyperParameters | 315-319 | Model_Cohen: `Target`, `pure_target` |
| pureLassoCohen.StringRep | 322-324 | Model_Cohen: `Target` |
| NewCLassoCohen | 333-337 | Model_Cohen: `Target`, `pure_target` |
| cLassoCohen.GetX | 339-341 | Model_Cohen: `Target`, `pure_target` |
| cLassoCohen.GetSelection | 343-345 | Model_Cohen: `Target`, `pure_target` |
| cLassoCohen.HyperParameters | 347-352 | Model_Cohen: `Target`, `pure_target` |
| cLassoCohen.StringRep | 354-356 | Model_Cohen: `Target`, `pure_target` |

`featselect/lassoPlot.go`

| function | lines | model |
|---|---|---|
| LassoLarsPathFromJSON | 26-35 | Model_Chain: `plotlasso_file`; Model_Cmd: `Cmd`; Model_JSON: `text`; Model_JSONFiles: `itoa`; Model_Path: `Path`; Model_Plot: `plotlasso` |
| LassoLarsPathFromBytes | 38-42 | Model_Chain: `plotlasso_file`, `zero_path`; Model_Cmd: `Cmd`, `LassoLarsPathFromBytes`; Model_JSON: `text`; Model_JSONFiles: `itoa`, `path_from_file`, `path_of`; Model_Path: `Path` |
| LassoLarsPath.MaxMinFeatNo | 45-61 | Model_Path: `MaxMinFeatNo` |
| LassoLarsPath.PlotEntranceTimes | 64-119 | Model_Path: `PlotEntranceTimes`, `entrance_tables` |
| LassoLarsPath.GetCriteria | 122-134 | Model_Path: `GetCriteria` |
| LassoLarsPath.PlotQualityScores | 137-159 | Model_Path: `PlotQualityScores` |
| LassoLarsPath.PlotDeviations | 162-189 | Model_Path: `PlotDeviations` |
| LassoLarsPath.ExtractPath | 192-210 | Model_Path: `ExtractPath`, `find_coeff` |
| LassoLarsPath.PlotPath | 218-260 | Model_Path: `PlotPath`; Model_Plot: `Figure` |
| LassoLarsPath.PickMostRelevantFeatures | 264-277 | Model_Path: `PickMostRelevantFeatures` |

`featselect/lasso_cd.go`

| function | lines | model |
|---|---|---|
| MorsePenroseCD.C | 39-61 | Model_Fit: `mpC`; Model_Lars: `MorsePenroseCD` |
| MorsePenroseCD.D | 64-69 | Model_Fit: `mpD`; Model_Lars: `MorsePenroseCD` |
| MorsePenroseCD.SetX | 72-74 | Model_Fit: `icv_mat`; Model_Lars: `MorsePenroseCD` |
| MorsePenroseCD.SetActiveSet | 77-83 | Model_Fit: `icv_mat`; Model_Lars: `MorsePenroseCD` |

`featselect/lasso_lars.go`

| function | lines | model |
|---|---|---|
| NewLassoLarsNode | 21-33 | Model_Norm: `NewLassoLarsNode` |
| LassoLars | 50-133 | Model_Lars: `LassoLars`, `lars_loop`, `lars_start`, `lars_step`, `lassoTol`; Model_Nested: `LassoLars_est` |
| maxJoinTime | 135-150 | Model_Lars: `lassoTol`, `maxJoinTime` |
| maxCrossTime | 152-162 | Model_Lars: `lassoTol`, `maxCrossTime` |
| tJoin | 165-210 | Model_Lars: `join_time`, `lassoTol`, `tJoin` |
| tCross | 213-224 | Model_Lars: `lassoTol`, `tCross` |
| betaLARS | 227-234 | Model_Lars: `betaLARS`, `lassoTol` |
| joinFeatSign | 236-248 | Model_Lars: `joinFeatSign`, `lassoTol` |
| Path2Unnormalized | 251-271 | Model_Norm: `Path2Unnormalized`, `unnormalize_node` |
| LassoNodesSlice2SparsCoeff | 275-282 | Model_Norm: `LassoNodesSlice2SparsCoeff` |

`featselect/lazyPowerMat.go`

| function | lines | model |
|---|---|---|
| LazyPowerMatrix.numOrigCols | 16-19 | Model_Lazy: `lzNumCols` |
| LazyPowerMatrix.NumCols | 22-25 | Model_Lazy: `lzNumCols` |
| LazyPowerMatrix.numRows | 27-30 | Model_Lazy: `lzGetCol` |
| LazyPowerMatrix.GetCol | 33-49 | Model_Lazy: `lzGetCol` |
| LazyPowerMatrix.AddPower | 52-54 | Model_Lazy: `lzAddPower` |
| NewLazyMatrix | 58-68 | Model_Lazy: `NewLazyMatrix` |
| LazyPowerMatrix.AddPowerSequence | 72-90 | Model_Lazy: `lzAddPowerSequence` |
| LazyPowerMatrix.FullMatrix | 93-99 | Model_Lazy: `lzFullMatrix` |

`featselect/model.go`

| function | lines | model |
|---|---|---|
| NewModel | 10-15 | Model_Bits: `NewModel` |
| Model.Get | 18-22 | Model_Bits: `bmGet` |
| Model.Set | 25-29 | Model_Bits: `bmSet` |
| Model.Flip | 32-36 | Model_Bits: `bmFlip` |
| Model.ToBools | 39-45 | Model_Bits: `bmToBools` |

`featselect/nestedLasso.go`

| function | lines | model |
|---|---|---|
| NestedLasso | 24-74 | Model_Nested: `NestedLasso`, `map_selections`, `nested_loop`, `normalized_in_place`, `unnormalize_paths` |
| MapSelectionByName | 78-83 | Model_Nested: `MapSelectionByName` |

`featselect/node.go`

| function | lines | model |
|---|---|---|
| Node.GetChildNode | 27-37 | Model_Node: `GetChildNode` |
| NodesEqual | 40-64 | Model_Node: `NodesEqual` |
| NewNode | 67-74 | Model_Node: `NewNode` |
| Node.MarshalJSON | 89-107 | Model_JSON: `text`; Model_Node: `NodeMarshalJSON`, `selected_loop` |
| Node.UnmarshalJSON | 110-126 | Model_JSON: `text`; Model_JSONFiles: `node_of`; Model_Node: `NodeUnmarshalJSON` |
| Node.EstimateMemory | 129-142 | Model_Node: `EstimateMemory` |
| Node.ToSparseCoeff | 145-159 | Model_Node: `ToSparseCoeff`, `selected_loop` |

`featselect/normalized_dataset.go`

| function | lines | model |
|---|---|---|
| NewNormalizedData | 23-64 | Model_Norm: `NewNormalizedData` |
| NormalizedData.LinearNormalizationTransformation | 69-74 | Model_Norm: `LinearNormalizationTransformation` |
| NormalizedData.LinearTransformationBias | 77-83 | Model_Norm: `LinearTransformationBias` |

`featselect/optimize.go`

| function | lines | model |
|---|---|---|
| Gcs | 15-22 | Model_Node: `Gcs` |
| Lcs | 27-35 | Model_Node: `Lcs` |
| NumFeatures | 38-46 | Model_Node: `NumFeatures` |
| NewSelectModelOptParams | 58-64 | Model_Cmd: `OptParams` |
| SelectModel | 71-171 | Model_Opt: `SelectModel_call`; Model_Search: `Search`, `main_prune`, `main_ready`, `main_score`, `mst` |
| BruteForceSelect | 174-199 | Model_Search: `Search`, `brute_loop` |
| all | 201-208 | Model_Search: `Search` |
| isNewNode | 210-215 | Model_Search: `Search`, `isNewNode` |
| ScoreWorker | 218-233 | Model_Fit: `fit_score`; Model_Search: `Search`, `problem`, `score_node`, `swst` |
| CreateChild | 237-256 | Model_Search: `CreateChild`, `Search`, `make_child` |
| CreateChildNodes | 259-274 | Model_Search: `Search`, `cwst` |
| CleanQueue | 278-287 | Model_Search: `CleanQueue`, `Search` |
| RemoveLeastPromising | 291-298 | Model_Search: `RemoveLeastPromising`, `Search` |

`featselect/orthogonalMatchingPursuit.go`

| function | lines | model |
|---|---|---|
| NewOmpResult | 20-29 | Model_Omp: `NewOmpResult`, `Omp` |
| Omp | 32-94 | Model_Omp: `Omp`, `omp_loop`, `omp_norms`, `omp_proj`, `omp_residuals` |
| Abs | 97-102 | Model_Util: `AbsSlice` |
| Argmax | 105-115 | Model_Util: `Argmax` |
| SelectedFeatures | 118-128 | Model_Node: `SelectedFeatures`, `selected_loop` |

`featselect/saScore.go`

| function | lines | model |
|---|---|---|
| NewSAItem | 11-28 | Model_Node: `selected_loop`; Model_SA: `NewSAItem` |
| NewSAScore | 40-44 | Model_SA: `NewSAScore` |
| SAScore.Insert | 47-84 | Model_SA: `saInsert` |
| SAScore.Exists | 87-94 | Model_SA: `saExists` |

`featselect/searchProgress.go`

| function | lines | model |
|---|---|---|
| SearchProgress.Set | 13-19 | Model_Progress: `run_pc` |
| SearchProgress.Get | 22-26 | Model_Progress: `run_pc` |

`featselect/simmulatedAnnealing.go`

| function | lines | model |
|---|---|---|
| SelectModelSA | 19-105 | Model_Node: `selected_loop`; Model_SA: `SelectModelSA`, `saInsertNew`, `sa_cost`, `sa_init`, `sa_result` |

`featselect/sliceVec.go`

| function | lines | model |
|---|---|---|
| SliceVec.AtVec | 14-16 | Model_Fit: `Predict` |
| SliceVec.Len | 19-21 | Model_Fit: `Predict` |
| SliceVec.At | 24-26 | Model_Fit: `Predict` |
| SliceVec.Dims | 29-31 | Model_Fit: `Predict` |
| SliceVec.T | 34-36 | Model_Fit: `Predict` |
| NewSliceVec | 39-43 | Model_Fit: `Predict` |

`featselect/subview.go`

| function | lines | model |
|---|---|---|
| IndexedColView.At | 15-17 | Model_Node: `IndexedColView` |
| IndexedColView.Dims | 20-23 | Model_Node: `IndexedColView` |
| IndexedColView.T | 26-28 | Model_Node: `IndexedColView` |
| NewIndexedColView | 33-35 | Model_Node: `IndexedColView` |
| NewIndexedColVecView | 44-49 | Model_Lars: `vec_view` |
| IndexedColVecView.At | 52-54 | Model_Lars: `vec_view` |
| IndexedColVecView.AtVec | 57-59 | Model_Lars: `vec_view` |
| IndexedColVecView.Dims | 62-64 | Model_Lars: `vec_view` |
| IndexedColVecView.T | 67-69 | Model_Lars: `vec_view` |
| IndexedColVecView.Len | 72-74 | Model_Lars: `vec_view` |

`featselect/testfeatselect/demoDataset.go`

| function | lines | model |
|---|---|---|
| GetExampleXY | 14-26 | Model_Demo: `GetExampleXY` |
| GetExampleAllModelsWrong | 30-43 | Model_Demo: `GetExampleAllModelsWrong` |

`featselect/testfeatselect/mock_cohen_target.go`

| function | lines | model |
|---|---|---|
| MockCohenTarget.GetX | 16-19 | Model_Demo: `MockCohenTarget` |
| MockCohenTarget.GetSelection | 22-33 | Model_Demo: `mock_selection` |
| MockCohenTarget.HyperParameters | 36-40 | Model_Demo: `MockCohenTarget` |
| MockCohenTarget.StringRep | 43-45 | Model_Demo: `Demo` |

`featselect/testfeatselect/testomp.go`

| function | lines | model |
|---|---|---|
| LinearCubic | 21-39 | Model_Demo: `LinearCubic` |
| Exponentials | 42-60 | Model_Demo: `Exponentials` |

`featselect/thresholdCov.go`

| function | lines | model |
|---|---|---|
| ThresholdOperator.Apply | 20-31 | Model_Cov: `Apply` |
| L2ConsistentCovTO | 53-124 | Model_Threshold: `TMain`, `TState`, `TWork`, `tNumGrid`, `tNumRows1` |
| getThreshold | 126-128 | Model_Cov: `getThreshold` |
| RandomRowSplit | 132-157 | Model_Cov: `RandomRowSplit`, `shuffle_from` |
| CalculateFNormDiff | 161-178 | Model_Cov: `CalculateFNormDiff` |
| CovarianceMatrix | 181-201 | Model_Cov: `CovarianceMatrix` |
| PerformNormDiffWork | 204-208 | Model_Threshold: `TWorker` |

`featselect/util.go`

| function | lines | model |
|---|---|---|
| GetDesignMatrix | 12-31 | Model_Node: `GetDesignMatrix` |
| All | 34-41 | Model_Util: `All` |
| IterProduct | 44-59 | Model_Util: `IterProduct_mem` |
| Sum | 62-68 | Model_Util: `Sum` |
| NewLog2Pruned | 73-76 | Model_Search: `NewLog2Pruned` |
| RearrangeDense | 82-109 | Model_Util: `RearrangeDense` |
| Selected2Model | 113-120 | Model_Node: `Selected2Model` |
| Mean | 123-129 | Model_Util: `Mean` |
| Std | 132-144 | Model_Util: `Std` |
| NormalizeArray | 147-154 | Model_Util: `NormalizeArray` |
| NormalizeRows | 157-162 | Model_Util: `NormalizeRows` |
| NormalizeCols | 165-178 | Model_Util: `NormalizeCols` |
| ExistInt | 181-188 | Model_Util: `ExistInt` |
| MaxInt | 191-200 | Model_Util: `MaxInt` |
| MinInt | 203-212 | Model_Util: `MinInt` |
| MinFloat | 215-224 | Model_Util: `MinFloat` |
| EqualInt | 227-238 | Model_Util: `EqualInt` |
| FullCoeffVector | 242-248 | Model_Util: `FullCoeffVector` |
| WeightedAveragedCoeff | 259-272 | Model_Util: `WeightedAveragedCoeff` |
| WeightsFromAIC | 275-292 | Model_Util: `WeightsFromAIC` |
| ByValue.Len | 303-303 | Model_Util: `byValueLess` |
| ByValue.Swap | 304-304 | Model_Util: `byValueLess` |
| ByValue.Less | 305-305 | Model_Util: `byValueLess` |
| Argsort | 308-323 | Model_Util: `Argsort` |
| Argmin | 326-337 | Model_Util: `Argmin` |
| PrintHighscore | 340-354 | Model_Cmd: `Cmd`, `PrintHighscore`, `ScoreRow` |
| PseudoInverseXTX | 358-375 | Model_Fit: `PseudoInverseXTX` |
| PseudoInverse | 378-399 | Model_Fit: `PseudoInverse` |
| Logspace | 402-421 | Model_Util: `Logspace` |
| UnionInt | 425-432 | Model_Util: `UnionInt` |
| CohenKappa | 435-468 | Model_Util: `CohenKappa` |

`main.go`

| function | lines | model |
|---|---|---|
| main | 20-22 | Model_Root: `command_of`, `main` |

## Print Assumptions of every theorem

The command stands below every theorem in the `Props_*.v` files.  The axioms it
lists are all from Coq's standard library (they come with the real numbers):

* `ClassicalDedekindReals.sig_forall_dec`, `ClassicalDedekindReals.sig_not_dec`
* `FunctionalExtensionality.functional_extensionality_dep`
* `Classical_Prop.classic`

No axiom is declared in this development.

* **Closed under the global context** (259 theorems): `C01_highscore_sorted`, `C02_capacity_one_panics`, `C02_capacity_zero_empty`, `C02_highscore_capacity`, `C03_highscore_keeps_best`, `C04_highscore_json_full_list`, `C04_highscore_json_roundtrip`, `C04_highscore_json_roundtrip_refuted`, `C05_node_json_nonfinite`, `C05_node_json_roundtrip`, `C05_nodesequal_sound`, `C06_bit_model_out_of_range`, `C06_bit_model_refines_array`, `C06_bit_model_slack_bits`, `C07_gcs_lcs_extremal`, `C07_gcs_lcs_panic`, `C08_sa_item`, `C08_same_listing`, `C08_selected2model`, `C08_selected_features`, `C09_branching_panic`, `C09_branching_partition`, `C100_bad_value`, `C100_bnb`, `C100_documented_examples_refuted`, `C100_lasso`, `C100_sasearch`, `C100_single_dash`, `C100_unknown_option`, `C102_determined`, `C102_line_ends`, `C102_missing_file`, `C102_order`, `C102_output`, `C102_saved`, `C102_saved_sa`, `C102_usage_error`, `C103_damaged_file`, `C103_documents`, `C103_highscore_file`, `C103_highscore_result`, `C103_integers`, `C103_lasso_result`, `C103_names_collide_refuted`, `C103_path_file`, `C103_reader_ends`, `C103_strings`, `C103_whole_file`, `C104_any_text`, `C104_highscore_rewritten`, `C104_path_rewritten`, `C104_written`, `C105_damaged_file`, `C105_figures`, `C105_lasso_then_plot`, `C105_other_files`, `C105_repeat`, `C105_sasearch_file`, `C106_accepted`, `C106_files`, `C106_meaning`, `C106_refused`, `C107_at_any_time`, `C107_finished`, `C107_no_data`, `C107_optimum`, `C107_started`, `C108_command_first`, `C108_config`, `C108_config_ignored`, `C108_no_command`, `C108_no_home`, `C108_only_named`, `C108_options_before`, `C108_refused_first`, `C108_toggle`, `C108_value_named_as_command_refuted`, `C10_column_view`, `C10_design_matrix`, `C10_design_matrix_total`, `C12_mismatch_panics`, `C14_branch_and_bound_optimal`, `C14_branch_and_bound_optimal_seeded`, `C14_branch_and_bound_positive_scores`, `C15_optimal_without_guard_refuted`, `C16_best_root_model_is_lost`, `C16_list_without_root`, `C16_nodes_of_the_list`, `C16_root_never_scored`, `C17_bounded_work`, `C17_no_deadlock`, `C17_no_panic`, `C17_one_child_worker_at_a_time`, `C17_terminates_if_fair`, `C18_cutoff_ignored_by_CreateChild`, `C18_cutoff_ignored_by_SelectModel`, `C18_documented_rule_refuted`, `C18_worker_runs_CreateChild`, `C19_counted_twice`, `C20_clean_queue`, `C20_queue_bound`, `C20_remove_keeps_something_f64_refuted`, `C21_brute_force`, `C22_sascore_invariant`, `C22_sascore_keeps_best`, `C23_one_coefficient_per_feature_refuted`, `C23_replaced_entry_keeps_old_coefficients`, `C24_allowed_models`, `C24_result`, `C25_five_rows`, `C25_nan_never_returns`, `C25_nan_observation_never_returns`, `C26_columns_split`, `C26_names`, `C26_otherwise_panics`, `C27_binary64_special`, `C27_save_and_read_back`, `C27_small_values_lost_binary64`, `C27_without_names_first_row_lost`, `C28_copy_independent`, `C28_isequal_ignores_names`, `C28_json_refuses_nonfinite`, `C28_json_roundtrip`, `C28_subset`, `C28_subset_panics`, `C28_write_seen`, `C29_rows`, `C30_bias_selected_panics`, `C31_nan_becomes_zero`, `C32_zero_stays`, `C33_binary64_refuted`, `C34_start_vector`, `C35_completes`, `C35_every_schedule`, `C35_shared_correction_refuted`, `C36_path_structure`, `C39_result`, `C40_abs`, `C40_arg_corner_cases`, `C40_argmax`, `C40_argmin`, `C40_argsort`, `C40_int_extrema`, `C40_minfloat`, `C41_equal_all_sum`, `C41_membership`, `C41_union`, `C42_iter_product_refuted`, `C42_iter_product_upto_3`, `C42_iter_product_with_sharing`, `C42_tuples_spec`, `C43_four_columns_refuted`, `C43_monomials_upto_3`, `C44_gaps`, `C44_panics`, `C44_rearrange`, `C46_completes`, `C46_every_schedule`, `C46_no_other_panic`, `C46_no_samples`, `C46_schedule_dependent`, `C46_split`, `C47_apply`, `C48_completes`, `C48_every_schedule`, `C48_no_samples`, `C48_panics`, `C48_schedule_independent`, `C49_panics`, `C49_partition`, `C51_logspace_small`, `C53_full_coeff`, `C53_weighted_average_panics`, `C54_entrance_times`, `C54_extract_path`, `C54_extremes`, `C54_most_relevant`, `C54_plot_empty_panics`, `C54_plot_misses_largest`, `C55_first_round`, `C55_maps_by_name`, `C55_target_not_last_refuted`, `C56_linearizable`, `C56_never_torn`, `C56_no_deadlock`, `C57_alone`, `C57_append_while_saving_panics`, `C57_file_alone`, `C57_insert_while_saving_panics`, `C57_nonfinite_empties_file`, `C57_null_in_file`, `C57_null_unreadable`, `C57_readable`, `C58_pure_and_panics`, `C63_ends`, `C64_eta_has_no_effect`, `C64_kappa`, `C64_x0_ignored`, `C67_padded_cells_are_zero`, `C68_lasso_file_roundtrip`, `C68_nonfinite_refused`, `C69_missing_node_panics`, `C69_table`, `C70_ends`, `C70_final_file`, `C70_only_periodic_saves_panic`, `C70_periodic_save_panics`, `C71_sasearch_file`, `C72_negative_panics`, `C72_queue_size`, `C73_documented_range_refuted`, `C73_range_flags_ignored`, `C75_lars_ignores`, `C75_nonfinite_penalty`, `C75_unknown_algorithm`, `C75_unknown_covariance`, `C78_starts`, `C78_summary`, `C79_file`, `C80_announced`, `C80_no_models`, `C80_no_range_binary64`, `C83_file`, `C83_five_rows`, `C83_no_start`, `C83_optimum_lost`, `C83_otherwise_optimal`, `C83_parameters`, `C84_rate`, `C84_schedule`, `C85_equal_scores_refuted`, `C85_highscore_equal`, `C85_highscore_symmetric`, `C85_nan_coefficient`, `C85_nan_score`, `C85_restored_full_list`, `C85_restored_is_equal`, `C85_symmetric_binary64`, `C88_reported`, `C90_nil`, `C90_other_width`, `C90_reused`, `C90_shared_parameters_refuted`, `C90_written`, `C91_tiny_refuted`, `C93_cd_refuted`, `C95_read`, `C95_same`, `C95_written`, `C95_zero_equal`, `C95_zero_value`, `C96_entries`, `C99_bare_quote`, `C99_dataset`, `C99_final_newline`, `C99_reader_ends`, `C99_records`, `C99_survive_iff`, `C99_windows`

* **functional_extensionality_dep, sig_forall_dec** (6 theorems): `C27_binary64_text`, `C32_objective_is_textbook`, `C33_conditions_sufficient`, `C82_conditions_sufficient`, `C99_names_refuted`, `C99_numbers_are_plain`

* **classic, functional_extensionality_dep, sig_forall_dec, sig_not_dec** (180 theorems): `C101_all_models_wrong`, `C101_example`, `C101_example_ties`, `C101_exponentials`, `C101_linear_cubic`, `C101_mock`, `C101_order_refuted`, `C102_lars`, `C105_data_kept_refuted`, `C107_data_kept_refuted`, `C11_aicc_above_aic`, `C11_monotone`, `C11_textbook`, `C11_zero_residual`, `C12_least_squares`, `C12_predict_one`, `C12_tiny_singular_value_refuted`, `C13_bounds_enclose`, `C13_saturated`, `C13_saturated_refuted`, `C14_end_to_end`, `C19_counter_adds`, `C19_counter_formula`, `C19_half_reported_as_more_than_all`, `C19_reported_value`, `C20_remove_equal_bounds_noop`, `C20_remove_keeps_something`, `C27_exact_iff`, `C27_six_decimals`, `C27_small_values_lost`, `C27_ties_to_even`, `C28_isequal_sound`, `C29_array`, `C29_array_constant`, `C29_cols`, `C29_constant_column_panics`, `C29_constant_target`, `C29_normalized_data`, `C29_units`, `C30_no_bias_column`, `C30_predictions`, `C31_prox`, `C31_zero_odd_nonexpansive`, `C32_cache_after_every_sweep`, `C32_cached_product`, `C32_descent`, `C32_settles`, `C33_active_features`, `C33_stops_at_a_non_optimal_point_refuted`, `C37_lasso_optimal`, `C37_morse_penrose_is_exact`, `C37_shrinkage`, `C37_stationary`, `C38_c_parameter`, `C38_d_parameter`, `C38_pseudo_inverse`, `C38_pseudo_inverse_xtx`, `C38_small_singular_value_refuted`, `C39_greedy`, `C39_least_squares`, `C39_no_sooner`, `C39_stops`, `C39_zero_first_column`, `C43_full_matrix`, `C45_corner_cases`, `C45_equal_selections`, `C45_range`, `C45_symmetric`, `C45_textbook`, `C47_estimator`, `C47_not_positive_refuted`, `C48_search`, `C48_value`, `C50_covariance`, `C50_empirical`, `C50_identity`, `C51_logspace`, `C52_shift_invariant`, `C52_weights`, `C53_path_average`, `C53_weighted_average`, `C57_perfect_fit_empties_file`, `C58_classo`, `C58_elastic_net`, `C58_update`, `C59_gcv_is_not_textbook_refuted`, `C59_gcv_value`, `C59_hat_matrix`, `C60_lars_ends`, `C61_criteria`, `C61_unsorted_refuted`, `C62_nested`, `C62_target_last`, `C63_keep_below_one`, `C63_keep_below_one_binary64`, `C63_keep_one_refuted`, `C64_classo`, `C65_constant_on_rows`, `C65_few_rows`, `C65_lone_row`, `C66_grid`, `C66_range`, `C66_rows`, `C66_when_it_panics`, `C74_lars_command`, `C75_nonpositive_limit`, `C76_large_penalty`, `C76_small_penalty`, `C76_uncorrelated`, `C77_cd_command`, `C78_never_finishes`, `C79_file_data`, `C79_scores_refuted`, `C79_target_lost`, `C80_cd_file`, `C80_deviations`, `C80_figures`, `C80_lars_file`, `C80_no_range`, `C80_perfect_fit`, `C80_quality`, `C81_cd`, `C81_cd_path`, `C81_lars`, `C81_lars_command`, `C82_active_features`, `C82_bounded_refuted`, `C82_descent`, `C82_diverges`, `C82_lost_feature`, `C82_minimiser_refuted`, `C82_uncorrelated`, `C84_aicc`, `C84_bounded`, `C84_five_rows`, `C84_returns`, `C85_new_nodes`, `C85_nodes_equal`, `C85_symmetric`, `C85_transitive_refuted`, `C86_same_selection`, `C86_search`, `C86_tiny_units_refuted`, `C86_units`, `C86_zero_points`, `C87_best_k`, `C87_sparsest`, `C87_units`, `C88_exact`, `C88_left_out`, `C88_met_but_reported_refuted`, `C88_stops`, `C88_unmet_but_silent_refuted`, `C89_descent`, `C89_lars`, `C89_lars_refuted`, `C89_normalise`, `C89_original_units`, `C89_path`, `C90_defaults_optimal`, `C91_bounded_refuted`, `C91_elastic_net`, `C91_new`, `C92_children`, `C92_leaf`, `C92_nested`, `C92_saturated_refuted`, `C93_brute_force`, `C93_criteria`, `C93_search`, `C94_aicc_aic`, `C94_bic_aic`, `C94_brute_force`, `C94_exact_fit_refuted`, `C96_never_better`, `C96_nonempty`, `C97_same_prediction`, `C97_uncorrelated`, `C98_coherent_refuted`, `C98_recovers`

