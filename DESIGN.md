# Design: a Rocq (Coq 8.16) model of adtzlr/trusspy

## Approach

* Shallow, executable Gallina functions that mirror the Python functions branch by branch.
  Exceptions are values (`Err ValueError`, ...); a `while` loop is recursion on fuel whose
  exhaustion is the separate outcome `Timeout` and never a normal-looking value.
* The arithmetic is a parameter: class `Num F` (operations only, **no laws**).
  * Theorems about control flow, bookkeeping, handlers and history are proved for *every* `Num`,
    so they hold for IEEE doubles including NaN/inf and rounding.
  * Theorems about mechanics (derivatives, symmetry, equilibrium bounds) are proved for the
    instance on Coq's real numbers `R` (exact arithmetic).
  * The instance on Coq's primitive 64-bit floats makes the model runnable; it is used only
    for tests, in particular to replay the recorded log `docs/examples/eNTA-A/analysis.md`.
  * A fixed-point instance (`NumFix.v`) is used for sample sessions evaluated inside the kernel.
  * Theorems on infinities and NaN (C57) are stated at IEEE doubles (`Double.v`), theorems on rounding (C58, C59)
    at the type of valid doubles (`Binary64.v`). Flocq relates the operations of SpecFloat to rounded real
    arithmetic; it adds no axioms.
* NumPy/SciPy calls with implementation freedom are parameters of the model and universally
  quantified in the theorems: the linear solver (`spsolve`) is an arbitrary function,
  `np.argsort` is any function (returning some sorting permutation where that is needed), and
  `os.listdir` returns the files in an arbitrary order.

## Files (rocq/theories)

| file | content |
|---|---|
| `Num.v`, `Vec.v` | arithmetic class, exceptions, 3-vectors, array primitives (`np.where`, `take`, `vstack`, ...) |
| `Handlers.v` | core classes and node/element/boundary/force handlers |
| `Material.v`, `Truss.v` | material laws, truss element |
| `Analysis.v`, `Equil.v` | analysis object, `Model.equilibrium`, `Model.stiffness` |
| `Solver.v` | `newton`, `f`, `dfdx`, `dxmax_control`, `pathfollow` |
| `Run.v` | `Model.build`, `Model.run`, result handler, settings |
| `Default.v` | the settings of a new model |
| `Text.v` | the same functions with the lines they print |
| `Plot.v`, `Logfile.v` | data extraction of the plot functions and frame order; stdout redirection |
| `NumR.v`, `NumFix.v`, `Double.v` | the instances on the reals, on fixed-point numbers and on IEEE doubles (SpecFloat) |
| `FloatRun.v` | primitive-float instance and replays (tests, not proofs) |
| `Spec*.v` | small independent specifications: the vocabulary of the theorem statements |
| `*Facts.v`, `*Props.v` | lemmas |
| `Prop*.v` | the property theorems, each with a short proof, `Print Assumptions` and an `Example` that meets its hypotheses |
| `Ex*.v` | sample trusses and callbacks used by those examples |

## Trusted base

1. Coq 8.16.1: the kernel including its virtual machine (`vm_compute` is used for the
   kernel-evaluated sample sessions), and `coqc` for reading the files. No plugins of our own,
   no switched-off checks, no axioms of our own, no functors or module types.
2. The axioms listed below, all from the standard library (its construction of the reals,
   functional extensionality and excluded middle). Coquelicot is used for derivative lemmas; it
   adds no axioms beyond these. `FloatRun.v` (tests only, nothing depends on it) uses Coq's
   primitive floats and integers, which are axioms of the standard library.
3. That the model says what the Python code does. Each definition cites its source lines; the
   replays in `FloatRun.v` compare the model with the recorded log shipped with the project.
4. The specifications in `Spec*.v` and the theorem statements in `Prop*.v`.

`Print Assumptions`, theorem by theorem:

<!-- assumptions begin -->
* **no axioms** (closed under the global context):
  C01_added_rows, C01_build_succeeds, C01_build_tables, C02_build_rejects, C02_single_node_refuted, C03_dof_partition, C03_single_node_refuted, C04_insertion_order, C05_add_element, C05_add_elements, C05_add_first_element, C05_add_succeeds, C05_arrays, C05_assign_etype, C05_assign_geometries, C05_assign_geometry, C05_assign_material, C05_assign_mtype, C05_assign_succeeds, C05_element, C06_add_after_delete, C06_delete_keeps, C06_delete_shifts_types, C07_assigned_geometry, C07_assigned_material, C07_dtype, C08_bound_history, C08_bound_round_trip, C08_force_history, C08_force_round_trip, C08_node_history, C08_node_round_trip, C08_single_bound_defect, C09_add_after_build, C09_build_again, C18_commutative, C18_double, C21_active, C21_active_newton, C21_locked, C21_predictor_refuted, C22_next_step, C22_run, C22_untouched, C22_written, C24_newton, C24_no_iterations, C25_records, C25_unknowns, C26_residual, C27_failed_in_results, C27_failed_kept, C27_results_converged_refuted, C27_steps, C28_increments, C28_run, C28_steps, C29_constant, C30_patience, C30_plain, C30_run_plain, C31_free, C31_j0_ignored, C31_locked, C32_no_steps, C32_results, C33_loads, C33_start, C34_rebuild, C34_rerun, C34_rerun_refuted, C34_same, C34_steps, C36_history, C36_increments, C36_lengths, C36_not_built, C36_path, C36_session, C36_state_refuted, C37_arrows, C37_members, C37_members_raise, C37_members_row, C37_nodes, C37_refuted, C37_total, C38_frames, C38_refuted, C38_total, C39_failed, C39_general, C39_nested, C39_rerun_refuted, C39_single, C39_two_refuted, C40_build, C40_first, C43_colours, C43_given, C45_names, C46_del_node_refuted, C46_failed_load, C46_failed_support, C46_nothing_half, C46_one_support_refuted, C46_same_adds, C46_same_deletes, C46_undo_load, C46_undo_support, C47_half_sorted_refuted, C47_ordered, C47_points, C47_rebuild, C47_resume, C48_build_after, C48_definition_kept, C48_interrupted, C48_raised, C48_same_methods, C52_history, C52_in_force, C52_predictor, C52_traced, C54_level, C54_level_refuted, C54_same, C54_silent, C54_silent_refuted, C55_lines, C55_step_width, C55_text, C56_stands, C57_failed_refuted, C57_finite, C63_longer, C63_works, C64_bar, C64_force, C64_nothing, C64_stiffness, C67_parameters, C67_summary, C67_tables, C71_members, C71_needed, C71_run, C71_run_locked, C73_recorded_point_refuted, C73_stored, C74_returns, C75_described, C75_script, C77_supported_loads.
* `ClassicalDedekindReals.sig_forall_dec`:
  C10_elastic_law.
* `FunctionalExtensionality.functional_extensionality_dep`:
  C40_run.
* `ClassicalDedekindReals.sig_forall_dec` + `FunctionalExtensionality.functional_extensionality_dep`:
  C30_bound_exists.
* `ClassicalDedekindReals.sig_forall_dec` + `ClassicalDedekindReals.sig_not_dec` + `FunctionalExtensionality.functional_extensionality_dep`:
  C07_stored_as_given_refuted, C11_runs_exist, C11_yield_bound, C12_kuhn_tucker, C12_split_and_hardening, C14_elastic_below_yield, C14_mirror, C14_reevaluation, C15_evaluations_succeed, C15_internal_forces, C15_residual, C16_self_equilibrium, C17_objectivity, C17_translation, C18_stiffness_symmetric, C20_extended_residual, C23_element_order_forces, C23_element_order_stiffness, C26_equilibrium, C27_recorded_not_converged_refuted, C29_above_maxfac_refuted, C29_below_minfac_refuted, C29_moves, C29_run, C29_step_limits, C30_cycl_refuted, C30_minfac_refuted, C30_run_control, C30_stepcontrol, C31_amount, C31_moves, C31_run, C31_schedule, C35_reactions, C41_equilibrium, C41_residual, C42_consistent, C43_auto, C44_redrawn, C49_increments, C49_no_gain, C49_plastic_work, C49_return, C49_slope, C50_least, C51_form, C51_positive, C51_regular, C51_rotation, C52_admissible, C52_plastic, C53_newton, C53_run, C53_tensile, C60_solver, C61_mirrored, C61_plane, C61_solver, C62_merged, C62_split, C65_reversed, C66_renumbered, C66_solver, C67_leaders, C68_evaluated, C68_rescaled, C68_solver, C70_linear_solution, C71_run_returns, C72_either, C72_elastic, C72_traded, C74_numbers, C75_readme, C76_at_rest, C76_supported.
* `ClassicalDedekindReals.sig_forall_dec` + `ClassicalDedekindReals.sig_not_dec` + `Classical_Prop.classic` + `FunctionalExtensionality.functional_extensionality_dep`:
  C10_elastic_tangent, C13_consistent_tangent, C19_stiffness_is_tangent, C20_extended_jacobian, C41_newton, C41_session, C41_stiffness, C50_gradient, C50_stationary, C58_balance, C58_nodes, C59_plastic, C59_session, C60_convergence, C60_small_steps, C69_load_control, C69_run, C70_any_control, C70_limit, C71_not_a_number_raises, C73_tangent.
<!-- assumptions end -->

## What is modelled

| source | modelled in | remarks |
|---|---|---|
| `core/node.py`, `core/element.py`, `core/boundary.py`, `core/external_force.py` | `Handlers.v` | all classes used by the handlers; coordinates are 3-vectors |
| `core/analysis.py` | `Analysis.v` | every field that is read anywhere; `element_stress0`, `rred` are never read and left out |
| `handlers/handler_node.py`, `_element.py`, `_boundary.py`, `_extforce.py` | `Handlers.v` | every method except the thermal ones; integer/float dtype of the property tables and the 1-D first boundary row are modelled |
| `handlers/handler_result.py`, `handler_settings.py` | `Run.v`, `Default.v` | all methods; tuples for `incs` and `xlimit`; the default values except `ndim` and the unread `lpf` |
| `materials/material_definition.py` | `Material.v` | both laws |
| `elements/element_definition.py` | `Truss.v` | |
| `model.py` | `Equil.v`, `Run.v`, `Text.v`, `Logfile.v` | `equilibrium`, `stiffness`, `build`, `run`, constructor; `Text.v` has the printed lines |
| `solvers/zerosearch.py`, `solvers/tpsolver.py` | `Solver.v`, `Text.v` | `newton`, `pathfollow` and its helpers; the ERROR/EXIT lines are recorded; `Text.v` has all printed lines |
| `tools/helper_functions2.py`, `plot_utilities.py`, `movie_generator.py` | `Plot.v` | the data handed to matplotlib and the order of frames |

## What is not modelled

* matplotlib drawing itself, imageio, figure files, the formatting of numbers in the printed lines
  (Text.v keeps the values before formatting), timing.
* Thermal boundaries: `add_bound_T` raises `AttributeError` for every input (it reads `self.Tnodes`, which is never set).
* `ndim != 3`, coordinates that are not 3-vectors.
* Rounding, in the theorems stated over `R` (C58 and C59 include it); in C57 to C59 the operations are performed one by
  one in the order written in the model, so a BLAS that sums a dot product in another order or fuses a multiply-add
  may differ from it in the last digits; integer overflow of NumPy integer dtypes; complex or object dtypes.
* The solver's numerical quality: `spsolve` is an arbitrary function; theorems that need a solution
  say so in a hypothesis.
* The analysis object inside a step that raises or is interrupted (all other fields of the model object
  between statements and after an exception: Crash.v, C46-C48); an assignment to an attribute is atomic.

## Plan per property

Handlers and build (any arithmetic):
* C01, C02, C03, C04, C09: model the handlers as tables of rows; `build` sorts with an arbitrary
  sorting permutation; prove by permutation reasoning (sorted list with distinct keys is unique).
* C05, C06, C07, C08: element/boundary tables with explicit dtype flag (integer/float) and the
  1-D shape of the first boundary row; proofs by list induction; defects as `_refuted` witnesses.

Materials (R): C10-C14 by real arithmetic and induction over the strain history.

Mechanics (R): C15 refinement of the assembly loop to a sum over elements; C16, C17, C18, C23
corollaries by vector algebra; C13, C19, C20 with `derivable_pt_lim` from the standard library.

State discipline (any arithmetic): C21, C22, C40 by induction over the element loop and lifting
to `pathfollow`/`run`.

Solver (any arithmetic unless said): C24 induction on the iteration; C25, C27, C28, C31 by a step
relation for increments; C26, C35, C42 combine C25 with C15 over R; C29, C30 over R with an
invariant on the common step factor and a lexicographic measure (factor, recycle counter); C30 for
whole runs by showing that no other part of `run` can exhaust its fuel, and monotonicity in fuel.

Run (any arithmetic): C32, C33, C34 by induction over steps.

Post-processing (any arithmetic): C36, C37, C38, C43 on the data handed to matplotlib; C39 a state
machine of `sys.stdout` with actions of several models.

C41 (R): direct calculation on the model, then a whole session.

C44 (R), C45 (any arithmetic): a forward simulation between the sessions of two models, from the
element loop up to a list of runs and changes of settings.

C46, C47, C48 (any arithmetic): the methods again, statement by statement, as actions that list the
states of the object after every assignment; proved to end as the methods of Handlers.v and Run.v;
invariants over histories of calls, and over the states of `build` and `run`.

C49 (R): the plastic law as a function of the committed state, then induction over the strain history.

C50 (R): derivative of each member's energy along one active displacement, summed; the plastic law's
energy is differentiable everywhere, so the yield limit needs no exception.

C51 (R): the assembled matrix as a sum over members, then the form member by member; definiteness by
propagating equal end displacements along the members to a locked component.

C52 (any F, plastic part R): sessions carried with the list of accepted increments; invariant: the state
row in force is the last row of the law's run. Uses C22_run per step.

C53 (R): the extended residual with locked displacement is affine in the load factor once the displacement
has its prescribed value, which the second equation forces after one iteration; so Newton ends after at most
three.  Induction over increments, steps and runs (SpecOne, OneFacts, OneRun); the material test on a plastic
bar adds C26, C42 and C52 (TensionFacts).  The solver is any function that solves regular 2x2 systems.

C54 (any F): text-carrying versions of newton, pathfollow, build and run in Text.v (text kept when an
exception is raised); erasing the text gives back the model (by induction); a relation "same outcome, fewer
lines" is kept by every construct.

C55 (any F): projections of the text (increments, final load factors, messages, ...) followed through
recycling, increments, steps and run; the text is cut into parts, one per record.

C56 (any F): an increment does not depend on the number of increments asked for; so a path cut after q
increments prints a prefix. Induction over increments and steps, for any outcome of the longer run.

C57 (IEEE doubles, Double.v): the acceptance test compares a norm with a tolerance, and no comparison with
NaN or infinity holds; so all addends of the residual are finite, and from there the operations are traced
back to load factor, member forces, stresses, stretches and displacements.

C58 (valid doubles, Binary64.v): the acceptance test bounds the computed norm; each of the finitely many operations
  between the recorded numbers and that norm has a relative error of at most 2^-53 (plus an underflow term), so the
  exact equilibrium equation of the recorded numbers holds within the tolerance and those errors (C58_balance). The
  error of the computed unit vectors and of the nodal sum is bounded the same way, so the reported member forces
  balance the reported loads at each active DOF (C58_nodes).

C59 (valid doubles): the radial return is bounded operation by operation (relative error of the computed excess of the
  trial stress, of the plastic increment and of the correction factor); the yield stress grows exactly because rounding
  is monotone. Induction over the history; sessions by C52_history, which holds for every number type.

C18 in floating point: the assembly adds the same products in the same order at transposed places; only the
  commutativity of multiplication is used.

C60 (exact arithmetic): the extended matrix is the derivative of the extended residual near the point (C20) and its
  entries are continuous there (members keep their length, materials keep their branch). A nonsingular matrix has a
  positive lower bound that nearby matrices share, so by the mean value inequality each Newton step contracts; the
  residual test and the step test are met after a number of steps that the tolerances determine. Gaussian elimination
  is proved to be a solver as assumed.

C61 (exact arithmetic): forward simulation of the whole session. Vectors of unknowns change sign where their degree
  of freedom is mirrored, equations likewise, the control equation with its component; each operation of the element,
  of the assembly, of the solver and of the step control commutes with the change. A plane truss equals its own mirror
  image, so its out-of-plane components equal their negatives. That pivoting ignores signs is proved for Gaussian
  elimination.

C62 (exact arithmetic): simulation of the whole session in both directions. The quantities of a part are those of the
bar with the normal force and the stiffness scaled by the ratio of the cross sections (SplitFacts.v); sums over the bars of
forces and stiffness blocks are regrouped by owner. `SimRun.v` lifts agreement of evaluations to runs for any relation
between the analysis objects; SplitRun.v instantiates it both ways. Cross section: first geometric property.

C63 (any arithmetic): within an increment only fields common to both settings are read; the increment loop with a smaller
count or a tighter limit is a prefix of the other; later steps only append behind the results already written.

C64 (any arithmetic): the entry of a node in the assembled vector is the sum, from zero and in the order of the bars, of what the
bars ending there add; likewise each block of the assembled matrix. Both sums, and the quantities of each bar, are functions of
the data named in the statement. No law of arithmetic is used.

C65 (exact arithmetic): the simulation of C61 with a sign for the load factor as well. The column of the loads in the bordered
matrix, the load factor and its control equation change sign; products of load and load factor do not.

C66 (exact arithmetic): a simulation. `SpecNumber` defines the second model by its tables, and result records by the order `sg`
of the nodes, the names `ax` of the axes and the order `p` of the free components. `PickFacts` has the algebra of `pick`,
`NumberEval` an evaluation, `NumberPath` Newton's method and the path, `NumberRun` sessions, `NumberBuild` the order that `build`
produces, `NumberSolve` an order-blind solver. The norms, sums and maxima used by the code do not depend on the order over the reals.

C67: `SpecTable` describes the tables as a grammar over the rows of the text (rows of iterations, row of totals, next cycle, next
increment) with the values each row shows. `TableFacts` has the rows of Newton's method and the leading components, `TablePath` the
tables of cycles, increments and a path by induction over them, `TableRun` steps, settings, constant forces and start vectors.

C68: `SpecUnit` defines the model in the other unit and the comparison of results. The evaluations are homogeneous in the material
numbers and loads (`UnitFacts`). In the path follower (`UnitPath`) the equilibrium rows of the bordered system are multiplied, the
control row is not; the solver is assumed not to care about that and to satisfy the control equation, so that the remaining residual
is multiplied as a whole and the comparison with the tolerance has the same outcome. `UnitRun` lifts this to sessions. `careful`
(rows scaled before Gaussian elimination) is proved to be such a solver.

C69: `SpecSmall` says what a mechanism is, which settings are meant and what the recorded path is compared with. C60 gives, near a regular
point, a step size below which Newton's method succeeds and a bound on how far it moves; this is applied from increment to increment, each
starting at the slightly unbalanced end of the previous one (`converges_from`), which stays possible as long as the path stays near the
origin. For load control the matrix at rest is regular: its quadratic form is the sum over the members of EA/L times the squared
elongation (C51), which vanishes only for a mechanism.
Plastic members are strained below their yield stress near rest; the state written for them (yield stress and plastic strain) responds like the one before,
so the objects of successive increments `respond alike` (`JacFacts.alike`) although they differ.

C70: `SpecLin` states linear truss theory by itself (elongation, Hooke's law, equilibrium of the undeformed bars). The rows of the extended matrix at rest are
the equations of that theory (`LinRun.linear_rows`), so regularity gives existence and uniqueness; the mean value form of the residual (C60's lemmas) bounds the
distance of a recorded point from the line through the origin (`LinFacts.approx`), and a second order estimate of the length of a bar gives the forces.

C71 (a run of a complete model does not raise): an invariant of the analysis object (array sizes,
load vectors, state rows of plastic members) under which both evaluations succeed and which they keep,
then through Newton iteration, predictor, recycle loop, increments, steps and runs; any arithmetic.
The hypotheses on the model and the settings are in SpecValid.v.
Conversely (NeedRun.v) a run that returns evaluated stiffness and forces at the start of
every step with an increment, and these evaluations read every member's area and
material parameters, the control component and three loads per node.

C72 (only modulus times cross section matters): the two trusses are run side by side by the
simulation argument of SimFacts/SimRun (as for C62): the element quantities of a traded bar are
those of the bar with stress, tangent and yield stress multiplied by its factor (the scaling lemma
of the material laws proved for C68), so that forces and stiffness blocks are equal.  Theorems
C72_traded, C72_either, C72_elastic.  Exact arithmetic.

C73 (the stored stiffness matrix): from the trace of Newton iterates of each record (C25) take the last evaluation of the stiffness; show that
the residual evaluations after it and the final one with the write flag leave the matrices alone (`TangentRun.v`),
then apply C18 and C19 to that evaluation (`PropTangent.v`).  A run shows that the recorded point has another matrix.

C74 (a new model with the default settings): `Default.v` has the settings a new model starts with. C01 gives the build, C03 a free
component, C71 and C30 the return, C28, C26 and C29_moves the numbers. C29_moves: an accepted increment passed the check of its
change against dxtol times the limits in use (`MoveRun`), and these are the multiples C29_run bounds.

C75 (the script of the README): `SpecScript` has the calls and the bars meant. The getters' results (C05) for distinct labels determine
the arrays, so a table that reads back the bars lists them; with C01 that is the hypothesis `described` of the theorems about runs.

C76 (no load, no deformation): at zero displacements the residual is zero and the extended matrix of load control is nonsingular (as in C69),
so each Newton iteration only changes the load factor. The rows of the plastic members then stay those of members that have not yielded, also when they are
written. `UnloadedRun` carries this through the recycle loop, the increments, the steps and the session. `C76_supported` follows with C77: the truss without the loads on its
supports has the same results.

C77 (loads on supports): the supported entries of a load vector are gathered nowhere, only those at free components are. `SupportLoadRun` runs two models side by
side, with analyses that agree except for the loads and the supported entries of the residual, through equilibrium, stiffness, pathfollow, steps and sessions.

All properties can be expressed in the model; none is marked not applicable. `_refuted` theorems
prove that a natural (or documented) stronger claim is false of the code and why the property has
the side condition it has.

## Findings about the code (proved or visible in the model)

* `del_element` leaves the type arrays as they were, so later elements report their neighbour's types (C06).
* Integer property tables truncate assigned floats (C07).
* The first boundary row is stored 1-D: a model with one node misbehaves (C02, C03, C08); `add_bound_T` always raises.
* Adding a support or load for an existing label after `build` makes the next `build` raise (C09).
* A failed increment is recorded and the session goes on (C27); a successful one-iteration predictor
  records the old vector while the displacements show the predictor (C21, C26).
* The adaptive step limits leave `[minfac, maxfac]` in both directions (C29); an increment need not
  terminate for `cycl <= 0` or `minfac = 0` (C30); `reduce = 0` divides by zero.
* `j0` given with `log > 1` raises a `TypeError`; `j_fixed` with `j0 = None` raises (C31).
* `run` twice without `build` duplicates the first result, overwrites the last one and uses the old
  load factors (C34); `nsteps <= 0` leaves a duplicated first result (C32); `nstatev` never goes back to 0.
* The initial result reports stretch 0 instead of 1.
* An unknown material type silently reuses the law of the previous element (C40).
* State-variable histories take the wrong entries (C36); the undeformed plot shows the full first
  reference load and indices below `-len` wrap twice (C37); movie frames can be out of order (C38).
* `plt_nodes`, `plt_elements`, `plt_extforces` always raise.
* Log files: a failed run leaves `sys.stdout` redirected, two models that are not nested mix their
  files, a second run of the same model logs to the screen, files are never closed (C39).

* A handler call that raises keeps the label without its row. With two nodes and one accepted support
  the next `build` then returns with wrong supports; an interrupted `del_node` can move a node (C46).
* `build` interrupted between the two halves of a sort exchanges nodes silently at the next `build` (C47).

## Wrong programs

`seeded/LOG.jsonl` lists the edits tried on scratch copies of the model: the definition, the edit,
the claim it breaks, the theorems that failed and those tightened.
