# Formal model of vandenheuvel/relp in Rocq (Coq 8.16.1)

## 1. Method

* The Rust source in `/repo` is read as text and re-stated, function by function, as total
  computable Gallina functions. Every definition cites the file and lines it models.
* Panics (`panic!`, `unwrap`, `expect`, `unreachable!`, index out of bounds) are an explicit error
  value; unbounded loops take fuel, and running out of fuel is an explicit value which every
  statement excludes (or, for termination theorems, proves unreachable).
* The model is that of a release build: `debug_assert!`s are not evaluated. The `Debug*` files model a
  debug build of the solver; C48 says that it gives the same answers.  `PresolveD` models a debug build of presolving (C49).
  `PipelineD` models a debug build from a general form to its solution (C50), `TextD` one from the text of a file (C51).
* The number type is Coq's `Qc` (canonical rationals, Leibniz equality): the exact field that
  `RationalBig` implements. Overflow of fixed size number types is outside the model except in the
  number parser, where `u64` overflow is modelled as an error value.
* Statements are written against small separate specification files (`Spec*.v`): a linear program
  is a set of points and a cost, stated without any function of the solver model.
* A property which the code violates is stated in full and refuted by a machine-checked concrete
  witness (suffix `_refuted`), together with the strongest positive theorem we can prove
  (suffix `_partial` when it does not cover the whole property).

## 2. Layers of the model

Model files hold definitions only and cite `/repo`. `Spec*.v` files hold what a reader of the
theorems needs. `Prop*.v` files hold only the theorems, with a concrete case beside each. `Ex*.v`
files hold those concrete cases. All other files are proofs.

| model files | code modelled | spec | proofs | theorems |
|---|---|---|---|---|
| `Base`, `Sparse` | `linear_algebra/vector/**`, `index_utils` operations used | `LinAlg` (sums, matrices as functions) | `Qcx`, `SparseP` | `PropSolver` |
| `Perm`, `Lu`, `InvRows` | `carry/lower_upper/**`, `carry/basis_inverse_rows.rs` | `Spec` | `PermP`, `TriP`, `LuP`, `LuC`, `LuF`, `LuG`, `LuL`, `InvRowsP`, rotations `SpecRotate`, `RotateP` | `PropSolver` (C12-C15), `PropRotate` (C15) |
| `Provider`, `Carry`, `Tableau`, `PivotRule`, `Solve` | `algorithm/two_phase/**` | `Spec` | `CarryP`, `TableauP`, `RuleP`, `InitP`, `ArtP`, `KindP`, `PhaseP`, `FinishP`, `KeptP`, `Runs`, `Reach`, `Bland`, `StallP`, `Cycle`, `Agree`, `Solve*P`, `SolverQ`, `VertexP` | `PropSolver` (C01-C11), `PropVertex` (C44) |
| `DebugLu`, `DebugSolve`, `DebugRun` | the `debug_assert!`s of the files of the two rows above | `Spec`, `Runs` | `DebugLuP`, `DebugLuC`, `DebugLuF`, `DebugTab`, `DebugRule`, `DebugPhase`, `DebugWhole`, `DebugInst`, `DebugP` | `PropDebug` (C48) |
| `GeneralForm`, `MatrixData`, `Pipeline` | `general_form/mod.rs`, `matrix_provider/matrix_data.rs` | `SpecGeneral` | `MatrixDataP`, `PipelineP`, `StandardP`, `StandardQ`, `StandardR`, `GeneralQ` | `PropGeneral` (C16-C21) |
| `Filter`, `Network`, `Matrix` | `matrix_provider/filter/**`, `network/representation.rs`, `linear_algebra/matrix.rs` | in the statements | `FilterP`, `NetworkP`, `MatrixP`, `DataP` | `PropData` (C34-C36) |
| `Presolve` | `general_form/presolve/**` without `scale` | `SpecGeneral`, `SafeRun` | `PreCount`, `PreRules`, `PreTerm`; `PreView`, `PreActs`, `PreTidy`, `PreDrop`, `PreBound`, `PreBoundRule`, `PreSlack`, `PreProp`, `PreSet`, `PreRow`, `PreLoop`, `PreStart`, `PreOrder`, `PreKept`, `PreResolve`, `PreFinal`, `PreSafe` | `PropPresolve` (C22-C27), `PropSafe` (C22-C24, C27) |
| `PresolveD` | the `debug_assert!`s of `general_form/presolve/**` and of what it calls | `SpecGeneral` | `PresolveDP`, `PreBooks`, `PreAgree`, `PreAgreeRules`, `PreAgreeProp`, `PreAgreeRow`, `PreAgreeLoop`, `PreAgreeEnd`, `PreAgreeWhole`, `PreAgreeTypes`, `PreAny` | `PropPreDebug` (C24, C49) |
| `PipelineD` | the `debug_assert!`s of `general_form/mod.rs`, `matrix_data.rs`, `filter/generic_wrapper.rs`, `vector/sparse.rs`, `matrix.rs` on the way from a program to its solution | `SpecSizes` | `SizesP`, `PipelineDP`, `PipelineDQ` | `PropPipeDebug` (C50), `PropGeneral` (C20), `PropPreDebug` (C24) |
| `TextD` | the `debug_assert!`s of `io/mps/parse/mod.rs` and `io/mps/convert.rs` | `SpecTextDebug` | `TextDP`, `TextDQ`, `TextDR`, `DebugSub`, `DebugSubS`, `DebugSubG` | `PropTextDebug` (C51), `PropDebug` (C48), `PropPipeDebug` (C50) |
| `MpsErr` | `io/error.rs` and the messages of `io/mps/parse/**`, `io/mps/number/parse.rs` | `SpecErr` | `MpsErrP`, `MpsErrQ`, `MpsErrR` | `PropErrors` (C52, C53) |
| (none) | optima of `Pipeline` and `TextPipeline` | `SpecVertex` | `VertexG` | `PropVertex` (C55) |
| (none) | answers of `Solve`, `Pipeline` and `TextPipeline` | `SpecDual`, `SpecGDual`, `SpecFDual` | `DualP`, `FarkasP`, `GDualP`, `FDualP` | `PropDual`, `PropFDual` (C56) |
| (none) | programs after calls of `standardize` and `presolve` | `SpecGeneral` | `StandardT` | `PropCalls` (C57) |
| (none) | sizes of the numbers of a run | `SpecSize`, `SpecGSize` (linear programs), `SpecFSize` (files) | `DetQ`, `SizeP`, `GSizeP`, `FSizeP`, `WarmSizeP` (chosen basis), `PreSizeP` (presolving) | `PropSize`, `PropPreSize` (C58) |
| (none) | presolving of programs of limits and of demands | `SpecSides`, `SpecFSides` (files) | `SidesP`, `PackP`, `FSidesP` | `PropSides` (C59) |
| (none) | numbers of steps of `Presolve`, `Pipeline`, `TextPipeline`, `TextPresolve`, `NetModel`, `ColumnRange` | `SpecSteps`, `SpecNetSteps` | `PreSteps`, `StepsP`, `NetStepsP` | `PropSteps`, `PropNetSteps` (C60) |
| (none) | a file and its dual, and files between two others | `SpecPair`, `SpecMix` | `PairP`, `MixP` | `PropPair` (C61, C62) |
| (none) | network programs in general form and as files | `SpecWhole` | `WholeP`, `WholeG`, `WholeS`, `WholeF`, with presolving `WholePre`, `WholePreG`, `WholePreF` | `PropWhole` (C63) |
| (none) | two files in one | `SpecBeside` | `BesideP` | `PropBeside` (C64) |
| (none) | prices of the constraints of a file | `SpecPrice` | `PriceP` | `PropPrice` (C65) |
| (none) | programs divided into cases | `SpecCases` | `CasesP` | `PropCases` (C66) |
| (none) | slack columns, parts of free columns, ranges, upper bounds and fixed columns written out in a file | `SpecReform` | `ReformP` | `PropReform` (C67) |
| (none) | integer columns of a file, branches and cuts | `SpecInteger` | `IntegerP`, `CutP` | `PropInteger` (C68) |
| (none) | pairs of files, solved with `TextPipeline` or `TextPresolve` | `SpecOrder`, `SpecUnits` | `OrderP`, `UnitsP`, `FuelP` | `PropOrder`, `PropUnits`, `PropFuel` (C54) |
| `Scale` | `general_form/presolve/scale/**` | `SpecScale` | `ScaleP`, `SearchP`, `PowerP`, `FactorP`, `ScaleRunP`, `ExponentP`, `ScaleQ`, `ScaleR` | `PropScale` (C28, C29) |
| `Mps` | `io/mps/number/**`, `io/mps/convert.rs` | `SpecMps` | `NumberP`, `BoundsP`, `RangesP`, `MpsP`, `ConvertP`, `MpsQ` | `PropMps` (C30-C32, C37) |
| `MpsParse` | `io/mps/parse/**` | `SpecParse` | `TextP`, `ParseP`, `GroupP`, `FileP`, `Accept*P`, `ParseQ` | `PropParse` (C33) |
| `MpsParse` (fixed format) | `io/mps/parse/fixed.rs` | `SpecFixed` | `FixedP`, `AcceptFixedP` | `PropFixed` (C41) |
| `Warm` | `carry/mod.rs` `from_basis`, `phase_two.rs`, as called by `examples/column_range.rs` | `SpecWarm` | `LuConv`, `WarmP` | `PropWarm` (C42) |
| `ColumnRange` | `examples/column_range.rs` | `SpecRange` | `RangeP`, `RangeQ`, `RangeR`, `RangeI`, `Whole` | `PropRange` (C43) |
| `TextPipeline` | the calls of `tests/netlib/mod.rs` without presolving | `SpecFile` | `TextSolveP` | `PropText` (C38) |
| `TextPresolve` | the calls of `tests/netlib/mod.rs` and `tests/unicamp/mod.rs` with presolving | `SpecFile`, `SafeRun` | `TextPresolveP` | `PropTextPre` (C45) |
| `Import` | `io/mod.rs` `import`, `std::path::Path::extension` | `SpecImport` | `ImportP` | `PropImport` (C46) |
| `Compare` | `linear_program/solution.rs` `is_probably_equal_to` | `SpecCompare` | `CompareP` | `PropCompare` (C47) |
| `NetModel` | `examples/shortest_path.rs`, `examples/max_flow.rs` | `SpecPath`, `SpecFlow` | `PathP`, `FlowP`, `FlowI` | `PropPath` (C39), `PropFlow` (C40) |

### How well the model fits the code

The code can not be run here, so the model is compared with what its authors expect of it: their own tests are
evaluated on the model by the kernel. These are tests of the model, not proofs, and no property rests on them.

* `TestLu`: the unit tests of `carry/lower_upper/**` and `carry/basis_inverse_rows.rs`.
* `TestPresolve`: the unit tests of `general_form/presolve/test/**`.
* `TestSolve`: the unit tests of the tableau, the pivot rules, both phases, `MatrixData`, `GeneralForm`, the matrices
  and vectors, the scaling, the MPS parser and converter, and `src/tests/problem_1.rs` and `problem_2.rs`, with the
  intermediate tableaus these list.
* `TestFiles`: problem files of `tests/{cook,burkardt,unicamp,netlib}`, from the text to the reported objective value.

All of them agree. Larger netlib files take too long inside the kernel; the model extracted to OCaml gives the
expected objective value on the ones that were tried outside of this repository.

## 3. Per property plan

* C01-C03 (answers are right): Solver modelled over an arbitrary problem record. Invariant of C05 by
  induction over the fuel of both phases; optimality by weak duality with the maintained `pi`;
  infeasibility from phase-one optimality; unboundedness from the ray of the entering column.
* C04 (no panic): the same invariants imply that no error value is returned.
* C05, C06: one-step preservation lemma for `bring_into_basis` with the ratio test, then induction.
* C07: rank argument: a row of the inverse which vanishes on all real columns, with coefficient 1 on
  its own row.
* C08: Bland's theorem, by the classical argument on a cycling set of columns, and finiteness of
  the set of bases.
* C09: expected refutation by an explicit cycling problem for the pricing rules which are not
  smallest-index.  For all rules: the values of a state depend on its basis only, there are finitely many bases, so a run that does not
  end comes back to a basis and has made a step that left the objective value as it was; such a step needs a basic
  variable that is zero, which a problem that is nowhere degenerate does not have (`StallP`).
* C10, C11: functional correctness of the rules; recurrence of the weights from the exact inverse.
* C12-C15: representation predicate "this structure represents the matrix N", shown to be preserved
  by every operation; C14 by showing that every query has a unique answer.
* C16, C17: explicit bijection between general form points and computational form points.
* C18-C20: one lemma per transformation, composed.
* C21: expected refutation (fixed cost and sign) plus positive theorem about the returned point.
* C22-C27: full model of the presolve state machine. Expected refutations with concrete witnesses
  for the whole-program statements; positive theorems for each rule.  For the runs that stay clear of
  the faults (`SafeRun.v` says which ones these are, by following the run) the whole-program
  statements are proved: a state is seen as a program over the variables and rows that are left
  (`PreView`), every rule keeps the optima of that view (`PreBoundRule` .. `PreRow`), and the final
  removal of rows and columns gives a program that agrees with the view (`PreKept`, `PreFinal`).  `SafeRun.v` notes for
  every propagated bound the rows it rests on; a row may be dropped as long as no bound rests on it.  Outside of this
  repository the check was evaluated on 44 netlib files: 35 of the runs are safe.
* C28, C29: algebra of scaling; a potential function argument for the search.
* C30-C33: model of the converter, the number parser and the free-format parser.
* C34-C36: denotation of sparse data as functions.
* C37: composition of the converter with the general form pipeline.
* C38: composition of C33 with C37; a program over named variables as the specification.
* C39: flows against walks; a positive flow is followed back from the sink, potentials from a Bellman recursion bound
  the cost when no closed walk is negative.
* C40: the rows are independent when every vertex is joined to the source or the sink; maximum flows against optima by
  adding slacks; minimum cut from the residual network.  Refutations for the other networks.
* C41: the parsing proofs of C33 are about any reader of fields; here for the reader that cuts lines at fixed places.
* C44: the inverse of the basis in the invariant of C05 gives the independence of the columns.  Used for C39 (a vertex that is
  positive on a path is that path), C40 (arcs with amounts that are not whole contain a closed walk or a path between the ends) and C43 (a vertex with a value that is not whole could be moved).
* C42: the invariant of phase two holds at the start for any basis with an inverse and non-negative values. That dependent columns are never accepted is proved from the factorization: when it returns, all pivots were nonzero.
* C43: the loops are characterized by the first cell of a column that has the extreme value; the inverse of the first basis is given explicitly; optima of the program against shifts.
* C45: composition of C33 and C41 with the safe runs of C22-C24; a text for which the run is not safe is refuted.
* C46: the components of a path and the last dot of a name against a description of the path; then C45.
* C47: the keys of the maps as lists without repetition.
* C48: every function with assertions is shown equal to the one without, on the states that the invariants of C05 and
  C12-C15 describe; then by induction along the run.
* C49: that assertions only add panics is shown function by function.  That 41 of the 42 never fail: an invariant of the
  books that presolving keeps (counters, queues, cached activities; `PreBooks`, `calm` in `PreAgreeRules`), which holds in
  every run and not only in the safe ones.  It also says where a release build can panic, which gives the theorems of C24
  about every run.
* C50: the assertions of the books (`is_consistent`), of the groups of types and of the matrix data follow from the
  specifications of the functions they check; those of the solver from C48, for which the number of rows that are not
  redundant is bounded from below by the number of inequalities of the program (`SizesP`).
* C51: reading a text with assertions is replayed along the lines of the text that a release build accepts (C33), which
  gives the exact condition on the text; the conversion likewise.  That any answer of a debug build is that of a release
  build, for all inputs of the solver, of the general form and of the reader, is a simulation by the structure of the
  functions (`DebugSub*`).
* C52: every section is shown to be local: what it makes of its lines does not depend on the lines after them, an error
  tells at most of the line it stopped at, and the lines before can be continued (`MpsErrQ`).  Leaving out the messages
  gives the reader of C33 (`MpsErrP`).  A mistake of `SpecErr` is reached by replaying the sections before it, and told with
  its line (`MpsErrR`).
* C53: printing is a function with fuel; by induction it never ends for an inconsistency.
* C54: every answer is right for its program (C38, C41, C45), so that outcomes compare as the programs do: from a solution
  of one program a solution of the other is built that costs as much, or as much times a number.  Optima are mapped to
  optima, so that the values agree too when there is one optimum (`UnitsP`).
  That more fuel never changes an answer (`FuelP`) is shown for every function with fuel on the way from a text, by induction.
* C55: standardizing is an affine map with an inverse when no variable is free, and the slacks of a point are determined by
  it, so that the vertex of C44 is mapped to a vertex (`VertexG`, specification `SpecVertex`).
* C56: when a loop finds no column, all relative costs are non-negative, which says that the first row holds multipliers that
  prove the objective value (`DualP`); rows that were removed get multiplier zero.  A run on the problem of finding
  multipliers decides every system of inequalities (`FarkasP`), so that optima of general form programs have them too (`GDualP`),
  and with names for rows and columns so do the contents of files (`FDualP`).
* C57: a program of standard shape has nothing left to split, flip, move, negate or sort, so `standardize` returns it unchanged
  (`StandardT`).  Expected refutation for `presolve` on a program whose variables have been moved.
* C58: at every state the inverse of the basis matrix is exact (C05), so by Cramer's rule its elements are quotients of determinants of
  the data; the formula of Leibniz bounds these, and an integer fraction bounds its form in lowest terms. The determinants are those of
  mathcomp (`\det`), over the rationals of the model; no axiom is used. The numbers inside of the factors of the LU decomposition are not part of the claim.
  For linear programs, `GSizeP` follows the size of every number through `standardize`; for files, `FSizeP` does so through the reading of ranges and bounds.
* C59: an invariant of the presolve loop: in a program of limits every bound that is found is an upper bound above the lower one, and every
  constraint that is left keeps room, so that none of the four situations excluded by `SafeRun` occurs and C22 to C24 apply without a
  condition on the run (`SidesP`).  A point far enough in the direction without bounds is feasible (`PackP`).  For files, the coefficients,
  right-hand sides and bounds of the program that is read are compared with the lines of the file (`FSidesP`).  Expected
  refutation without the condition that every variable counts in the objective.
* C60: the termination proof of C25 with numbers. No entry is twice in the queue of activity bounds, so it has at most 2m of them (`PreSteps`);
  the measure of C25 is at most 4n+2m, and the number of idle iterations at most n+m. For the solver the bound of C08 on the number of bases is taken with
  the sizes of the program that `standardize` and `derive_matrix_data` produce; the depth of the recursion that computes values of removed variables
  is at most their number (`StepsP`). More steps do not change an answer (C54).
  For networks and tables the rows and columns of the programs of C39, C40 and C43 are counted (`NetStepsP`).
* C61: the dual is a relation between two files, stated by the value of rows for one unit of a column. Weak duality is a sum over rows and columns.
  The multipliers of C56 for the optimum of the program, which exist for every file, are a solution of the dual, and those for a program without solution
  are a direction in which the dual gets better forever (`PairP`). Answers are right (C38, C41, C45), so that they match.
* C62: the point between two solutions is a solution of the program between, with the cost between (`MixP`).
* C63: the values that are not whole and the constraints whose values are whole give fewer equations than unknowns
  (every such constraint contains two of them, every variable is in at most two constraints, and when the counts are
  equal the signed sum of the constraints is zero). So there is a direction that keeps these constraints; the others and
  the bounds leave room, because their numbers are whole, and the point would not be a vertex (`WholeP`, `WholeG`).
  Splitting a free variable leaves a network program (`WholeS`); files are carried over (`WholeF`).
  With presolving: every number it works with stays whole (an invariant of its loop), what is left is a network program again, and the removed variables are whole combinations of the others.
* C64: values are feasible for both when they are feasible for each, because the rows and bounds of one do not mention the
  columns of the other, and the costs add up. Solutions of the two are glued by the names of the columns (`BesideP`).
* C65: the multipliers of C56 bound the cost by a sum of terms, one for each row and column; at the optimum every term
  is equal to its bound, which gives the signs of the prices. Conversely each term of a move to another solution is not
  negative; moved right-hand sides move the values of the rows (`PriceP`).
* C66: an answer is the optimum, or there is no solution or no bound (`OrderP`); the better one of two optima is an optimum of
  the union of the solutions, and an optimum of a larger set is one of a smaller set that it belongs to (`CasesP`).
* C67: solutions of one program become solutions of the other one at the same cost, in both directions (`ReformP`).
* C68: integer solutions are solutions, so that C54 and C66 apply; a whole number is at most n or at least n+1, and a statement about bounds that is
  added to a file adds what it says, except that a lower bound replaces the default zero; sums and products of whole numbers are
  whole numbers, so that costs are (`IntegerP`). A row that is added changes nothing else, and one whose value is a whole number less than z+1 is at
  most z (`CutP`).

## 4. Trusted base

* Coq 8.16.1 kernel (`coqc`, re-checked with `coqchk`).
* `Print Assumptions` for every theorem in the `Prop*.v` files: see section 6.
* mathcomp's library of matrices (definitions and lemmas without axioms), in the proof of C58 only. `coqchk` lists the
  fields of its sealed modules (`fintype.CardDef.card`, `bigop.BigOp.bigop`, …) and of `Coq.ssr.ssrunder` as assumptions, because it
  does not look into sealed modules; they are defined there, and `Print Assumptions` reports no axiom.
* The reading of the Rust source into Gallina (not machine-checked).
* External crates are modelled by their documented behaviour: `index_utils` (`remove_indices`,
  `remove_sparse_indices`, `inner_product_slice_iter`), `fifo_set`, `relp_num` (exact rationals),
  standard library collections and sorting.

## 5. Not modelled

File system access (`io::import`'s reading of the file is a function from paths to contents), the floating point comparison in
`is_probably_equal_to` (any function of the two numbers), `Debug` formatting, the texts
of errors of the standard library, floating point number types (`Parse` for `f64` included), performance characteristics.

## 6. Assumptions

Every theorem in the `Prop*.v` files is followed by `Print Assumptions`. Each of them prints
"Closed under the global context": no axiom is used, neither of the standard library nor our own.

The scaling layer takes the factorization of numbers (`relp_num`'s `NonZeroFactorizable`) as a
parameter `fac`. Theorems quantify over it with the hypothesis `factorizes fac g`: it factorizes the
numbers of that program. `ExScale` gives a concrete one.
