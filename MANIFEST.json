{
 "claims": [
  {
   "property": "C01",
   "status": "proved",
   "theorems": [
    "C01_build_tables",
    "C01_build_succeeds",
    "C01_added_rows"
   ],
   "note": "Every number type, every sorting argsort. At least two nodes (a single-node model stores its support row as a 1-D array, see C03_single_node_refuted)."
  },
  {
   "property": "C02",
   "status": "proved",
   "theorems": [
    "C02_build_rejects",
    "C02_single_node_refuted"
   ],
   "note": "Full statement; the refuted theorem shows that the restriction to two nodes is needed."
  },
  {
   "property": "C03",
   "status": "proved",
   "theorems": [
    "C03_dof_partition",
    "C03_single_node_refuted"
   ],
   "note": "In terms of the flags the user gave; the refuted theorem shows the one-node defect."
  },
  {
   "property": "C04",
   "status": "proved",
   "theorems": [
    "C04_insertion_order"
   ],
   "note": "The whole built model is equal, also for two different sort routines."
  },
  {
   "property": "C05",
   "status": "proved",
   "theorems": [
    "C05_arrays",
    "C05_element",
    "C05_add_elements",
    "C05_add_element",
    "C05_add_first_element",
    "C05_add_succeeds",
    "C05_assign_geometry",
    "C05_assign_geometries",
    "C05_assign_mtype",
    "C05_assign_etype",
    "C05_assign_material",
    "C05_assign_succeeds"
   ],
   "note": "Every number type; tables made by any history of add_element and assign_* calls."
  },
  {
   "property": "C06",
   "status": "proved",
   "theorems": [
    "C06_delete_keeps",
    "C06_delete_shifts_types",
    "C06_add_after_delete"
   ],
   "note": "Includes the defect: the exact wrong type every later element reports."
  },
  {
   "property": "C07",
   "status": "proved",
   "theorems": [
    "C07_dtype",
    "C07_assigned_geometry",
    "C07_assigned_material",
    "C07_stored_as_given_refuted"
   ],
   "note": "The refuted theorem shows that values are not always stored as given."
  },
  {
   "property": "C08",
   "status": "proved",
   "theorems": [
    "C08_node_history",
    "C08_force_history",
    "C08_bound_history",
    "C08_node_round_trip",
    "C08_force_round_trip",
    "C08_bound_round_trip",
    "C08_single_bound_defect"
   ],
   "note": "Histories by induction; the defect is proved for every label and support row."
  },
  {
   "property": "C09",
   "status": "proved",
   "theorems": [
    "C09_build_again",
    "C09_add_after_build"
   ],
   "note": ""
  },
  {
   "property": "C10",
   "status": "proved",
   "theorems": [
    "C10_elastic_law",
    "C10_elastic_tangent"
   ],
   "note": ""
  },
  {
   "property": "C11",
   "status": "proved",
   "theorems": [
    "C11_yield_bound",
    "C11_runs_exist"
   ],
   "note": ""
  },
  {
   "property": "C12",
   "status": "proved",
   "theorems": [
    "C12_split_and_hardening",
    "C12_kuhn_tucker"
   ],
   "note": ""
  },
  {
   "property": "C13",
   "status": "proved",
   "theorems": [
    "C13_consistent_tangent",
    "C10_elastic_tangent"
   ],
   "note": ""
  },
  {
   "property": "C14",
   "status": "proved",
   "theorems": [
    "C14_elastic_below_yield",
    "C14_reevaluation",
    "C14_mirror"
   ],
   "note": ""
  },
  {
   "property": "C15",
   "status": "proved",
   "theorems": [
    "C15_internal_forces",
    "C15_residual",
    "C15_evaluations_succeed"
   ],
   "note": ""
  },
  {
   "property": "C16",
   "status": "proved",
   "theorems": [
    "C16_self_equilibrium"
   ],
   "note": ""
  },
  {
   "property": "C17",
   "status": "proved",
   "theorems": [
    "C17_objectivity",
    "C17_translation"
   ],
   "note": ""
  },
  {
   "property": "C18",
   "status": "proved",
   "theorems": [
    "C18_stiffness_symmetric",
    "C18_commutative",
    "C18_double"
   ],
   "note": "Over the reals; the symmetry of the reduced stiffness also bit for bit in every arithmetic with commutative multiplication and in IEEE 754 binary64."
  },
  {
   "property": "C19",
   "status": "proved",
   "theorems": [
    "C19_stiffness_is_tangent"
   ],
   "note": ""
  },
  {
   "property": "C20",
   "status": "proved",
   "theorems": [
    "C20_extended_jacobian",
    "C20_extended_residual"
   ],
   "note": ""
  },
  {
   "property": "C21",
   "status": "proved",
   "theorems": [
    "C21_locked",
    "C21_active",
    "C21_active_newton",
    "C21_predictor_refuted"
   ],
   "note": "Any arithmetic. The active components are the recorded reduced vector except after a successful predictor, for which a run is shown to violate it."
  },
  {
   "property": "C22",
   "status": "proved",
   "theorems": [
    "C22_untouched",
    "C22_written",
    "C22_run",
    "C22_next_step"
   ],
   "note": "Any arithmetic; state_updated in SpecState.v."
  },
  {
   "property": "C23",
   "status": "proved",
   "theorems": [
    "C23_element_order_forces",
    "C23_element_order_stiffness"
   ],
   "note": ""
  },
  {
   "property": "C24",
   "status": "proved",
   "theorems": [
    "C24_newton",
    "C24_no_iterations"
   ],
   "note": "Any arithmetic, any callbacks and linear solver; both directions."
  },
  {
   "property": "C25",
   "status": "proved",
   "theorems": [
    "C25_records",
    "C25_unknowns"
   ],
   "note": "records_ok in SpecSolver.v: all records good (accepted or skipped) and no ERROR line, or all but the last good, the last failed and the last printed line is an ERROR line."
  },
  {
   "property": "C26",
   "status": "proved",
   "theorems": [
    "C26_equilibrium",
    "C26_residual"
   ],
   "note": "Exact arithmetic for the norms (C26_equilibrium), every arithmetic for the residual formula. Excepted, and stated in the theorem: increments in which the one-iteration predictor succeeded."
  },
  {
   "property": "C27",
   "status": "proved",
   "theorems": [
    "C27_failed_kept",
    "C27_steps",
    "C27_failed_in_results",
    "C27_recorded_not_converged_refuted",
    "C27_results_converged_refuted"
   ],
   "note": "pathfollow level and run level; both refutations exhibit recorded results that are not converged."
  },
  {
   "property": "C28",
   "status": "proved",
   "theorems": [
    "C28_increments",
    "C28_run",
    "C28_steps"
   ],
   "note": "Any arithmetic and callbacks; C28_run states it for every step of run()."
  },
  {
   "property": "C29",
   "status": "proved",
   "theorems": [
    "C29_step_limits",
    "C29_constant",
    "C29_above_maxfac_refuted",
    "C29_below_minfac_refuted",
    "C29_run",
    "C29_moves"
   ],
   "note": "Bounds in exact arithmetic; the documented interval is refuted in both directions by runs of pathfollow. C29_run lifts the bounds to every accepted increment of run(); C29_moves bounds how far a converged increment moves."
  },
  {
   "property": "C30",
   "status": "proved",
   "theorems": [
    "C30_plain",
    "C30_stepcontrol",
    "C30_bound_exists",
    "C30_cycl_refuted",
    "C30_minfac_refuted",
    "C30_patience",
    "C30_run_plain",
    "C30_run_control"
   ],
   "note": "Fuel counts Newton runs per increment; the non-terminating inputs give Timeout for every fuel. C30_run_* lift it to run() of every model, built or not; C30_patience: more fuel never changes a run that ended."
  },
  {
   "property": "C31",
   "status": "proved",
   "theorems": [
    "C31_locked",
    "C31_moves",
    "C31_free",
    "C31_run",
    "C31_amount",
    "C31_schedule",
    "C31_j0_ignored"
   ],
   "note": "pathfollow level for all callbacks; run level in exact arithmetic (C31_run, C31_amount: by du or dlpf without step control; C31_schedule: the position after q increments) and any arithmetic (C31_j0_ignored, log <= 1 because a larger log raises for j0 given)."
  },
  {
   "property": "C32",
   "status": "proved",
   "theorems": [
    "C32_results",
    "C32_no_steps"
   ],
   "note": "Any arithmetic."
  },
  {
   "property": "C33",
   "status": "proved",
   "theorems": [
    "C33_loads",
    "C33_start"
   ],
   "note": "Any arithmetic; constant and reference forces in terms of the user's load rows."
  },
  {
   "property": "C34",
   "status": "proved",
   "theorems": [
    "C34_rebuild",
    "C34_same",
    "C34_steps",
    "C34_rerun",
    "C34_rerun_refuted"
   ],
   "note": "Any arithmetic; the refutation is a kernel-evaluated run."
  },
  {
   "property": "C35",
   "status": "proved",
   "theorems": [
    "C35_reactions"
   ],
   "note": "Exact arithmetic; support flags 0 or 1."
  },
  {
   "property": "C36",
   "status": "proved",
   "theorems": [
    "C36_history",
    "C36_increments",
    "C36_lengths",
    "C36_session",
    "C36_path",
    "C36_not_built",
    "C36_state_refuted"
   ],
   "note": "Any arithmetic. The state-variable defect is C36_state_refuted."
  },
  {
   "property": "C37",
   "status": "proved",
   "theorems": [
    "C37_nodes",
    "C37_members",
    "C37_members_row",
    "C37_members_raise",
    "C37_arrows",
    "C37_total",
    "C37_refuted"
   ],
   "note": "Any arithmetic; the data handed to matplotlib, not the picture."
  },
  {
   "property": "C38",
   "status": "proved",
   "theorems": [
    "C38_frames",
    "C38_total",
    "C38_refuted"
   ],
   "note": "Any arithmetic; directory listing order is an arbitrary oracle."
  },
  {
   "property": "C39",
   "status": "proved",
   "theorems": [
    "C39_general",
    "C39_single",
    "C39_nested",
    "C39_failed",
    "C39_two_refuted",
    "C39_rerun_refuted"
   ],
   "note": "Every history of constructors, builds, runs, prints and stdout assignments. The lines a run prints are arbitrary."
  },
  {
   "property": "C40",
   "status": "proved",
   "theorems": [
    "C40_first",
    "C40_build",
    "C40_run"
   ],
   "note": "Any arithmetic."
  },
  {
   "property": "C41",
   "status": "proved",
   "theorems": [
    "C41_residual",
    "C41_equilibrium",
    "C41_stiffness",
    "C41_newton",
    "C41_session"
   ],
   "note": "Exact arithmetic; any solver exact on regular 2x2 systems. C41_session is a whole build and run with a locked control component and no step control."
  },
  {
   "property": "C42",
   "status": "proved",
   "theorems": [
    "C42_consistent"
   ],
   "note": "Exact arithmetic."
  },
  {
   "property": "C43",
   "status": "proved",
   "theorems": [
    "C43_colours",
    "C43_given",
    "C43_auto"
   ],
   "note": "C43_auto in exact arithmetic."
  },
  {
   "property": "C44",
   "status": "proved",
   "theorems": [
    "C44_redrawn"
   ],
   "note": "Exact arithmetic: sums change their order."
  },
  {
   "property": "C45",
   "status": "proved",
   "theorems": [
    "C45_names"
   ],
   "note": "Any arithmetic. Elements keep their order, since the order of the sums matters when rounding."
  },
  {
   "property": "C46",
   "status": "proved",
   "theorems": [
    "C46_nothing_half",
    "C46_failed_support",
    "C46_failed_load",
    "C46_undo_support",
    "C46_undo_load",
    "C46_same_adds",
    "C46_same_deletes",
    "C46_one_support_refuted",
    "C46_del_node_refuted"
   ],
   "note": "Any arithmetic. Assignments to an attribute are atomic."
  },
  {
   "property": "C47",
   "status": "proved",
   "theorems": [
    "C47_resume",
    "C47_points",
    "C47_ordered",
    "C47_rebuild",
    "C47_half_sorted_refuted"
   ],
   "note": "Any arithmetic. Assignments to an attribute are atomic."
  },
  {
   "property": "C48",
   "status": "proved",
   "theorems": [
    "C48_definition_kept",
    "C48_build_after",
    "C48_interrupted",
    "C48_raised",
    "C48_same_methods"
   ],
   "note": "Any arithmetic. The analysis object inside pathfollow is not followed."
  },
  {
   "property": "C49",
   "status": "proved",
   "theorems": [
    "C49_slope",
    "C49_increments",
    "C49_return",
    "C49_plastic_work",
    "C49_no_gain"
   ],
   "note": "Exact arithmetic."
  },
  {
   "property": "C50",
   "status": "proved",
   "theorems": [
    "C50_gradient",
    "C50_stationary",
    "C50_least"
   ],
   "note": "Exact arithmetic."
  },
  {
   "property": "C51",
   "status": "proved",
   "theorems": [
    "C51_form",
    "C51_positive",
    "C51_regular",
    "C51_rotation"
   ],
   "note": "Exact arithmetic."
  },
  {
   "property": "C52",
   "status": "proved",
   "theorems": [
    "C52_history",
    "C52_predictor",
    "C52_in_force",
    "C52_traced",
    "C52_plastic",
    "C52_admissible"
   ],
   "note": "The law statement for every number type; the plastic ones in exact arithmetic."
  },
  {
   "property": "C53",
   "status": "proved",
   "theorems": [
    "C53_newton",
    "C53_run",
    "C53_tensile"
   ],
   "note": "Exact arithmetic; no step control; the linear solver solves regular 2x2 systems."
  },
  {
   "property": "C54",
   "status": "proved",
   "theorems": [
    "C54_same",
    "C54_level",
    "C54_level_refuted",
    "C54_silent",
    "C54_silent_refuted"
   ],
   "note": "For every number type. Printed lines before formatting; measured times left out."
  },
  {
   "property": "C55",
   "status": "proved",
   "theorems": [
    "C55_text",
    "C55_lines",
    "C55_step_width"
   ],
   "note": "For every number type. Printed lines before formatting."
  },
  {
   "property": "C56",
   "status": "proved",
   "theorems": [
    "C56_stands"
   ],
   "note": "For every number type; any outcome of the longer run."
  },
  {
   "property": "C57",
   "status": "proved",
   "theorems": [
    "C57_finite",
    "C57_failed_refuted"
   ],
   "note": "IEEE 754 binary64 as specified in the standard library (SpecFloat)."
  },
  {
   "property": "C58",
   "status": "proved",
   "theorems": [
    "C58_balance",
    "C58_nodes"
   ],
   "note": "IEEE 754 binary64; operations in the order of the model. Flocq's correctness lemmas relate them to rounded reals."
  },
  {
   "property": "C59",
   "status": "proved",
   "theorems": [
    "C59_plastic",
    "C59_session"
   ],
   "note": "IEEE 754 binary64. For histories and sessions in which no shown stress, yield stress or plastic strain overflows."
  },
  {
   "property": "C60",
   "status": "proved",
   "theorems": [
    "C60_convergence",
    "C60_small_steps",
    "C60_solver"
   ],
   "note": "Exact arithmetic; the linear solver is assumed to solve nonsingular systems (Gaussian elimination is proved to)."
  },
  {
   "property": "C61",
   "status": "proved",
   "theorems": [
    "C61_mirrored",
    "C61_plane",
    "C61_solver"
   ],
   "note": "Exact arithmetic; the linear solver is assumed to follow sign changes of equations and unknowns (Gaussian elimination is proved to)."
  },
  {
   "property": "C62",
   "status": "proved",
   "theorems": [
    "C62_split",
    "C62_merged"
   ],
   "note": "Exact arithmetic; no assumption on the linear solver."
  },
  {
   "property": "C63",
   "status": "proved",
   "theorems": [
    "C63_longer",
    "C63_works"
   ],
   "note": "For every number type."
  },
  {
   "property": "C64",
   "status": "proved",
   "theorems": [
    "C64_force",
    "C64_bar",
    "C64_stiffness",
    "C64_nothing"
   ],
   "note": "For every number type."
  },
  {
   "property": "C65",
   "status": "proved",
   "theorems": [
    "C65_reversed"
   ],
   "note": "Exact arithmetic. For linear solvers indifferent to signs, which Gaussian elimination with partial pivoting is (C61_solver)."
  },
  {
   "property": "C66",
   "status": "proved",
   "theorems": [
    "C66_renumbered",
    "C66_solver"
   ],
   "note": "Exact arithmetic. For linear solvers whose answer follows the order of the unknowns; Gaussian elimination, restricted to systems with a unique solution, is one (C66_solver)."
  },
  {
   "property": "C67",
   "status": "proved",
   "theorems": [
    "C67_summary",
    "C67_parameters",
    "C67_tables",
    "C67_leaders"
   ],
   "note": "For every number type; C67_leaders restates the columns over the reals."
  },
  {
   "property": "C68",
   "status": "proved",
   "theorems": [
    "C68_rescaled",
    "C68_evaluated",
    "C68_solver"
   ],
   "note": "Exact arithmetic. For linear solvers indifferent to the scale of the equations and exact in the control equation; Gaussian elimination with scaled rows is one (C68_solver)."
  },
  {
   "property": "C69",
   "status": "proved",
   "theorems": [
    "C69_run",
    "C69_load_control"
   ],
   "note": "Exact arithmetic, members elastic at first (linear elastic, or plastic without softening), one step from rest; any linear solver that is exact on nonsingular systems (C60_solver)."
  },
  {
   "property": "C70",
   "status": "proved",
   "theorems": [
    "C70_linear_solution",
    "C70_any_control",
    "C70_limit"
   ],
   "note": "Exact arithmetic, members elastic at first (linear elastic, or plastic without softening), load control or control by a displacement that moves, one step from rest; any linear solver that is exact on nonsingular systems (C60_solver)."
  },
  {
   "property": "C71",
   "status": "proved",
   "theorems": [
    "C71_run",
    "C71_run_locked",
    "C71_run_returns",
    "C71_not_a_number_raises",
    "C71_needed",
    "C71_members"
   ],
   "note": "Any arithmetic: Ok, Timeout (excluded by C30) or ValueError with a free control component and NaN; exact arithmetic: always Ok with the fuel of C30. C71_not_a_number_raises: the exception is reachable in binary64 when the solver returns NaN, as spsolve does for singular matrices. C71_needed: the conditions follow from a run that returns, apart from the existence of the limit's component and the reduction factor, which are only looked at in some runs; C71_members: returns if and only if every member is complete."
  },
  {
   "property": "C72",
   "status": "proved",
   "theorems": [
    "C72_traded",
    "C72_either",
    "C72_elastic"
   ],
   "note": "Exact arithmetic; factors positive, one per bar; both material laws; any linear solver."
  },
  {
   "property": "C73",
   "status": "proved",
   "theorems": [
    "C73_stored",
    "C73_tangent",
    "C73_recorded_point_refuted"
   ],
   "note": "C73_stored for any arithmetic, C73_tangent in exact arithmetic; converged results only, at least one unknown."
  },
  {
   "property": "C74",
   "status": "proved",
   "theorems": [
    "C74_returns",
    "C74_numbers"
   ],
   "note": "Default settings of a new model: any arithmetic for returning, exact arithmetic for the numbers."
  },
  {
   "property": "C75",
   "status": "proved",
   "theorems": [
    "C75_described",
    "C75_script",
    "C75_readme"
   ],
   "note": "Any arithmetic for the tables; exact arithmetic for the run with the default settings."
  },
  {
   "property": "C76",
   "status": "proved",
   "theorems": [
    "C76_at_rest",
    "C76_supported"
   ],
   "note": "Exact arithmetic; load factor locked as control component, as without loads the matrix is singular for any other locked component. C76_supported allows any loads on supported components."
  },
  {
   "property": "C77",
   "status": "proved",
   "theorems": [
    "C77_supported_loads"
   ],
   "note": "Any arithmetic and any linear solver; three load columns per step, so that positions in the two load tables correspond."
  }
 ]
}