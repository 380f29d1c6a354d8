{
 "claims": [
  {
   "property": "C01",
   "status": "proved",
   "theorems": [
    "C01_found_refutes_every_condition",
    "C01_all_refuted_is_found",
    "C01_certificate_labels_distinct",
    "C01_stablesafe_refuted"
   ],
   "note": "success implies all conditions refuted for distinct labels; all certificates but STABLESAFE have distinct labels; STABLESAFE violates it (witness)"
  },
  {
   "property": "C02",
   "status": "proved",
   "theorems": [
    "C02_unknown_is_not_success",
    "C02_no_counterexample_unless_sat"
   ],
   "note": ""
  },
  {
   "property": "C03",
   "status": "proved",
   "theorems": [
    "C03_counterexample_shape",
    "C03_counterexample_keys"
   ],
   "note": "noise rows exact up to idealised reals"
  },
  {
   "property": "C04",
   "status": "proved",
   "theorems": [
    "C04_groups_evaluated_in_order",
    "C04_unreached_groups_irrelevant"
   ],
   "note": ""
  },
  {
   "property": "C05",
   "status": "proved",
   "theorems": [
    "C05_dreal_accepts_only_if_no_bounded_solution",
    "C05_dreal_sound_on_bounded_conditions",
    "C05_dreal_unbounded_refuted"
   ],
   "note": "sound for conditions confined to |x|<1000; refuted for unbounded ones"
  },
  {
   "property": "C06",
   "status": "proved",
   "theorems": [
    "C06_lyapunov_obligations"
   ],
   "note": "iff, both LLO modes"
  },
  {
   "property": "C07",
   "status": "proved",
   "theorems": [
    "C07_roa_obligations"
   ],
   "note": "iff, both LLO modes"
  },
  {
   "property": "C08",
   "status": "proved",
   "theorems": [
    "C08_barrier_obligations"
   ],
   "note": "iff"
  },
  {
   "property": "C09",
   "status": "proved",
   "theorems": [
    "C09_barrier_alt_obligations"
   ],
   "note": "iff"
  },
  {
   "property": "C10",
   "status": "proved",
   "theorems": [
    "C10_rws_obligations"
   ],
   "note": "iff"
  },
  {
   "property": "C11",
   "status": "proved",
   "theorems": [
    "C11_beta_search_true",
    "C11_beta_search_false_no_beta"
   ],
   "note": "soundness of a True answer and of a False answer (no beta exists)"
  },
  {
   "property": "C12",
   "status": "proved",
   "theorems": [
    "C12_rar_obligations",
    "C12_stablesafe_obligations",
    "C12_rar_labels"
   ],
   "note": "union of parts; RAR labels distinct; STABLESAFE label repeated"
  },
  {
   "property": "C13",
   "status": "proved",
   "theorems": [
    "C13_lyapunov_stability",
    "C13_unstable_system_certified",
    "C13_unstable_system_certified_by_network"
   ],
   "note": "stability, attractivity and strict decrease from a reported success, given V(0)=0; without it refuted (unstable system certified). V(0)=0 and the derivative hypothesis are discharged for networks in C22/C26 files"
  },
  {
   "property": "C14",
   "status": "proved",
   "theorems": [
    "C14_lyapunov_discrete_decrease",
    "C14_lyapunov_discrete_convergence"
   ],
   "note": "strict decrease along runs; convergence of runs staying in a closed bounded domain"
  },
  {
   "property": "C15",
   "status": "proved",
   "theorems": [
    "C15_barrier_safety"
   ],
   "note": ""
  },
  {
   "property": "C16",
   "status": "proved",
   "theorems": [
    "C16_barrier_alt_safety_continuous",
    "C16_barrier_alt_safety_discrete"
   ],
   "note": "continuous and discrete time"
  },
  {
   "property": "C17",
   "status": "proved",
   "theorems": [
    "C17_rws_reach_while_stay"
   ],
   "note": "with explicit time bound; geometry hypotheses (fence) discharged for rectangles/spheres in C30"
  },
  {
   "property": "C18",
   "status": "proved",
   "theorems": [
    "C18_rsws_reach_and_stay"
   ],
   "note": "always safe, eventually always in the goal"
  },
  {
   "property": "C19",
   "status": "proved",
   "theorems": [
    "C19_roa_llo_decrease",
    "C19_roa_nonincreasing",
    "C19_roa_llo_attraction",
    "C19_no_attraction_without_llo",
    "C19_edge_escape_without_llo"
   ],
   "note": "LLO: strict decrease and attraction with a uniform deadline; non-LLO: non-increase; convergence without LLO refuted"
  },
  {
   "property": "C20",
   "status": "proved",
   "theorems": [
    "C20_rar_reach_avoid_remain"
   ],
   "note": ""
  },
  {
   "property": "C21",
   "status": "proved",
   "theorems": [
    "C21_rounding",
    "C21_verified_function",
    "C21_dreal_always_translates"
   ],
   "note": "Continuous time, all back ends but cvc5: V is exactly the certificate function of a network of the same shape whose coefficients are the learned ones (ROUNDING<0) or within half a unit in the last place; numeric learner value agrees on torch's softplus range. dReal translation always defined. cvc5: see C22_cvc5_rounding_refuted."
  },
  {
   "property": "C22",
   "status": "proved",
   "theorems": [
    "C22_derivative_along_trajectories",
    "C22_smooth_networks",
    "C22_relu_kink_unsound",
    "C22_cvc5_rounding_refuted"
   ],
   "note": "Vdot is the derivative of V along every trajectory wherever no ReLU is at its kink, with or without factor; whole lie_derivative for smooth networks. Refutations: C22_relu_kink_unsound (a ReLU barrier certified although the unsafe set is reached) and C22_cvc5_rounding_refuted."
  },
  {
   "property": "C23",
   "status": "proved",
   "theorems": [
    "C23_discrete_difference",
    "C23_discrete_function",
    "C23_rounding_zero_fails",
    "C23_quadratic_factor_refuted"
   ],
   "note": "Difference formula correct without factors for every network; C23_quadratic_factor_refuted and C23_rounding_zero_fails are the violations."
  },
  {
   "property": "C24",
   "status": "proved",
   "theorems": [
    "C24_derivative",
    "C24_defined_together"
   ],
   "note": "Every class, every width, every solver front end: the symbolic derivative is neuron by neuron the derivative of the function the symbolic forward computes (ReLU away from 0); forward and derivative are defined together."
  },
  {
   "property": "C25",
   "status": "proved",
   "theorems": [
    "C25_symbolic_agrees_with_numeric",
    "C25_softplus_gap",
    "C25_name_implemented",
    "C25_polynomial_names",
    "C25_even_poly_refuted",
    "C25_requ_refuted",
    "C25_unsupported"
   ],
   "note": "Numeric and symbolic activations agree on every vector (softplus: on torch's x<=20 range, with the gap above bounded by exp(-20)); names select the intended function except RELU_SQUARE/REQU (C25_requ_refuted) and RATIONAL (C25_unsupported)."
  },
  {
   "property": "C26",
   "status": "proved",
   "theorems": [
    "C26_candidate_nonnegative",
    "C26_llo_positivity",
    "C26_llo_positivity_roa",
    "C26_llo_positivity_discrete",
    "C26_hypotheses_met",
    "C26_warning_only_refuted",
    "C26_stablesafe_sign_refuted",
    "C26_layer_of_ones",
    "C26_layer_as_drawn"
   ],
   "note": "For every random initial network that fossil's is_positive_definite accepts, every number of CEGIS rounds and every optimiser that respects parameter registration, the LLO candidate is non-negative everywhere (any rounding, factor, back-end except CVC5 whose symbolic rounding breaks C22), and success of the reduced LLO condition implies both Lyapunov conditions (continuous time, ROA, discrete time). Refutations: is_positive_definite=false is only a warning (C26_warning_only_refuted) and STABLESAFE never makes the output layer positive (C26_stablesafe_sign_refuted). The optimiser is abstract (any function); floats idealised. C26_layer_of_ones / C26_layer_as_drawn: which output layer."
  },
  {
   "property": "C27",
   "status": "proved",
   "theorems": [
    "C27_formula_denotes_set",
    "C27_complement"
   ],
   "note": "all classes with dim_select, arbitrarily nested combinators and complement; dimension-fitting parameters"
  },
  {
   "property": "C28",
   "status": "proved",
   "theorems": [
    "C28_containment_agrees",
    "C28_sphere_refuted"
   ],
   "note": "iff for boxes, differences, complements and round sets of radius 0/1; refuted for spheres of other radii"
  },
  {
   "property": "C29",
   "status": "proved",
   "theorems": [
    "C29_samples_in_set",
    "C29_row_count",
    "C29_border_samples_on_boundary",
    "C29_border_samples",
    "C29_border_count",
    "C29_can_sample",
    "C29_cannot_sample",
    "C29_sphere_dim1_refuted",
    "C29_sphere_dim4_refuted",
    "C29_torus_refuted",
    "C29_open_rectangle_refuted",
    "C29_open_sphere_refuted",
    "C29_hole_refuted",
    "C29_border_dim1_refuted"
   ],
   "note": "samples lie in the set for boxes, spheres (dim 2,3 or radius<=1), ellipses, orthant spheres and nested combinations; row counts; border samples lie on the boundary; refuted for spheres of dim 1/4 with radius 2, Torus, open sets, small holes and 1-dimensional borders"
  },
  {
   "property": "C30",
   "status": "proved",
   "theorems": [
    "C30_boundary_covers",
    "C30_leaving_crosses_boundary",
    "C30_interior_boundary_partition",
    "C30_open_rectangle_refuted"
   ],
   "note": "generated boundary covers the topological boundary, so every continuous path leaving the set meets it; interior/boundary partition; refuted for OpenRectangle"
  },
  {
   "property": "C31",
   "status": "proved",
   "theorems": [
    "C31_iteration_budget",
    "C31_returns_a_result",
    "C31_negative_budget_runs_forever"
   ],
   "note": "For arbitrary (even iteration-dependent) components: with CEGIS_MAX_ITERS = m >= 0 solve stops after at most m+1 iterations, exactly m+1 if it fails, and returns a result if no component raises; a negative budget runs forever. CEGIS_MAX_TIME_S is never consulted by the loop."
  },
  {
   "property": "C32",
   "status": "proved",
   "theorems": [
    "C32_result_was_verified",
    "C32_first_success_is_returned",
    "C32_rswa_skips_stay"
   ],
   "note": "res=True implies the returned symbolic certificate is the translation of the returned network and passed verification (and the stay check for RSWS) in the last iteration; conversely the first success is returned. C32_rswa_skips_stay is the violation."
  },
  {
   "property": "C33",
   "status": "proved",
   "theorems": [
    "C33_data_only_grows",
    "C33_counterexamples_are_added",
    "C33_reported_sample_count"
   ],
   "note": "Labels fixed, data grows by appending exactly the counterexamples (and the trajectory), one derivative row per sample; equal to f of the sample when the dynamics have no learned part (with a controller, rows of labels without new counterexamples are stale); N_data is the total."
  },
  {
   "property": "C34",
   "status": "proved",
   "theorems": [
    "C34_search_terminates_when_admissible_interval",
    "C34_unknown_is_an_error",
    "C34_search_can_diverge"
   ],
   "note": "termination when an admissible interval exists; divergence witness for every deciding solver; unknown is an error"
  },
  {
   "property": "C35",
   "status": "proved",
   "theorems": [
    "C35_trajectory"
   ],
   "note": "length bounds, step equation, monotonicity, reasons for stopping; reals for floats"
  },
  {
   "property": "C36",
   "status": "proved",
   "theorems": [
    "C36_returned_result",
    "C36_returns",
    "C36_hangs",
    "C36_never_returns"
   ],
   "note": "a returned result is a worker's; the supervisor returns iff some worker posts a result, and as pinned (no clean method on the solution) it never returns"
  },
  {
   "property": "C37",
   "status": "proved",
   "theorems": [
    "C37_characters",
    "C37_characters_accepted",
    "C37_characters_example",
    "C37_usual_precedence",
    "C37_accepted",
    "C37_minus_power",
    "C37_minus_power_accepted",
    "C37_paren_minus_rejected",
    "C37_argument_rejected",
    "C37_sympy_square_root",
    "C37_sympy_logarithm"
   ],
   "note": "M_Parser models pyparsing's infixNotation/nestedExpr as the recursive descent they denote, on tokens; M_Lexer the characters (blanks, signed and unsigned numbers with decimal point and exponent, variables, function names as keywords); quoted strings and the logical functions are not modelled; numbers are exact rationals. S_Parser has the usual grammar and its values, S_Lexer how a token is written. C37_usual_precedence/C37_accepted: right value, acceptance (tokens); C37_characters/C37_characters_accepted: the same from the characters. The other theorems are the violations: C37_minus_power(_accepted), C37_paren_minus_rejected, C37_argument_rejected, C37_sympy_square_root. Instances: C37_example_*, C37_characters_example."
  },
  {
   "property": "C38",
   "status": "proved",
   "theorems": [
    "C38_constant_refused",
    "C38_constant_refused_numbers",
    "C38_numbers",
    "C38_numbers_beyond_ten",
    "C38_numbers_missing",
    "C38_symbols",
    "C38_symbols_missing",
    "C38_controllable",
    "C38_same_system",
    "C38_dreal_repeated"
   ],
   "note": "M_Variables models make_var (with the identity of solver variables), the substitutions, sympy's sorted free symbols and lambdify; sympy's simplification and extra variables made by failing parse attempts are not modelled. C38_numbers, C38_symbols: right components; C38_same_system: both paths agree; C38_numbers_beyond_ten, C38_dreal_repeated, C38_numbers_missing, C38_symbols_missing, C38_constant_refused(_numbers): the violations; C38_controllable: what the assertions guarantee. Instances: C38_example_*."
  },
  {
   "property": "C39",
   "status": "proved",
   "theorems": [
    "C39_time_domain",
    "C39_check_is_exact",
    "C39_command_line",
    "C39_advertised_api",
    "C39_scalar_n_data",
    "C39_conditions_use_required_sets",
    "C39_condition_labels_have_data",
    "C39_counterexamples_have_data"
   ],
   "note": "Model M_Labels.v of _assert_state, get_certificate_sets, get_required_borders, _initialise_domains and the CLI functions; specification S_Labels.v (needs_domain, needs_data, means). C39_scalar_n_data and C39_advertised_api state the two defects found. C39_counterexamples_have_data discharges the hypothesis cex_labels_ok of C31-C33 for the assembled tool. YAML parsing itself is outside."
  },
  {
   "property": "C40",
   "status": "proved",
   "theorems": [
    "C40_rar_command_line_order",
    "C40_rar_command_line_images",
    "C40_lyapunov_roa",
    "C40_barrier",
    "C40_rws",
    "C40_rsws",
    "C40_stablesafe_in_order",
    "C40_stablesafe_mislabelled",
    "C40_rar",
    "C40_rar_wrong_images"
   ],
   "note": "all dictionaries for LYAPUNOV..RSWS; STABLESAFE and RAR: exact order condition and the violation otherwise"
  },
  {
   "property": "C41",
   "status": "proved",
   "theorems": [
    "C41_lyapunov_roa",
    "C41_barrier",
    "C41_barrier_small",
    "C41_barrier_alt",
    "C41_rws",
    "C41_rar",
    "C41_barrier_samples",
    "C41_lyapunov_roa_samples",
    "C41_rws_samples",
    "C41_tolerance",
    "C41_training_stops_twice",
    "C41_training_stops"
   ],
   "note": "iff characterisations; reals for floats"
  },
  {
   "property": "C42",
   "status": "proved",
   "theorems": [
    "C42_verified_closed_loop",
    "C42_numeric_closed_loop",
    "C42_rounding_error",
    "C42_exact_with_five_decimals",
    "C42_success_certifies_rounded_controller",
    "C42_unrounded_controller_unstable"
   ],
   "note": "The symbolic closed loop equals f(s,u(s)) with the controller's weights rounded to 5 decimals (every state, every controller shape), the numeric one f(s,u(s)) with unrounded weights; rounding error at most 0.5e-5 per weight, none when weights have five decimals; a successful run certifies the rounded loop. C42_unrounded_controller_unstable: a complete successful LYAPUNOV run whose returned (unrounded) controller gives an unstable loop."
  },
  {
   "property": "C43",
   "status": "proved",
   "theorems": [
    "C43_statistics",
    "C43_stop_needs_start",
    "C43_decorator",
    "C43_average_of_zero_intervals"
   ],
   "note": "statistics over any history of start/stop/reset; decorator; min/max/avg"
  },
  {
   "property": "C44",
   "status": "proved",
   "theorems": [
    "C44_row_matches_header",
    "C44_recording_raises",
    "C44_recorded",
    "C44_names",
    "C44_file"
   ],
   "note": "row lengths, header match, which configurations raise, file contents over any history"
  },
  {
   "property": "C45",
   "status": "proved",
   "theorems": [
    "C45_lyapunov_success_means_stability",
    "C45_lyapunov_discrete_success_means_convergence"
   ],
   "note": "Continuous and discrete time. Hypotheses beyond the configuration: lawful optimiser, honest solver, V(0)=0 by construction, continuity of the field; see C45_example and C45_discrete_example for complete runs meeting them. Not covered: cvc5 (C22 refutation), ReLU, discrete+quadratic factors (C49)."
  },
  {
   "property": "C46",
   "status": "proved",
   "theorems": [
    "C46_barrier_success_means_safety",
    "C46_barrier_success_means_safety_discrete"
   ],
   "note": "Both time domains; discrete also with quadratic factors (the missing factor is harmless for barriers). Instances: C46_example, C46_discrete_example."
  },
  {
   "property": "C47",
   "status": "proved",
   "theorems": [
    "C47_roa_success_means_attraction"
   ],
   "note": "With LLO; without LLO there is no attraction (C19_no_attraction_without_llo). Instance: C47_example."
  },
  {
   "property": "C48",
   "status": "proved",
   "theorems": [
    "C48_reach_while_stay",
    "C48_reach_and_stay"
   ],
   "note": "Instance: C48_example (RSWS, including the sublevel search)."
  },
  {
   "property": "C49",
   "status": "proved",
   "theorems": [
    "C49_lyapunov_success_unstable",
    "C49_barrier_success_unsafe_relu",
    "C49_rswa_success_leaves_goal",
    "C49_discrete_success_grows"
   ],
   "note": "Four complete runs of the model that report success while the advertised property fails; these are defects of the code."
  },
  {
   "property": "C50",
   "status": "proved",
   "theorems": [
    "C50_level_is_maximum",
    "C50_quadratic_factor_ignored",
    "C50_goal_level_is_minimum",
    "C50_goal_level_ignores_factor"
   ],
   "note": "holds without factors (ROA maximum over the initial samples, RSWS minimum over the goal border); both violated with QUADRATIC (witnesses)"
  },
  {
   "property": "C51",
   "status": "proved",
   "theorems": [
    "C51_lyapunov",
    "C51_activations",
    "C51_barrier",
    "C51_barrier_alt",
    "C51_rws",
    "C51_beta",
    "C51_barrier_zero"
   ],
   "note": ""
  },
  {
   "property": "C52",
   "status": "proved",
   "theorems": [
    "C52_rar_success_means_reach_avoid_remain",
    "C52_stablesafe_success_means_safety",
    "C52_stablesafe_success_means_attraction"
   ],
   "note": "M_Double assembles DoubleCegis (both learners, CTDouble translation without factors, constraints, verifier, freezing) on the CEGIS loop; arbitrary optimiser, level, noise, controller training, consolidator. Hypotheses: honest solver, smooth activations, solver other than CVC5, the geometry of the sets; attraction needs LLO and a decisive solver. Instances: C52_rar_example, C52_stablesafe_example."
  },
  {
   "property": "C53",
   "status": "proved",
   "theorems": [
    "C53_frozen_certificate_is_valid",
    "C53_frozen_network_never_changes",
    "C53_undecided_certificate_frozen_refuted"
   ],
   "note": "C53_frozen_certificate_is_valid, C53_frozen_network_never_changes (frozen parameters get no optimiser step: torch semantics of requires_grad=False is in the model); C53_undecided_certificate_frozen_refuted is the violation with unknown answers. Instance: C53_example."
  },
  {
   "property": "C54",
   "status": "proved",
   "theorems": [
    "C54_candidate_lie_derivative",
    "C54_lyapunov_candidate_stable",
    "C54_barrier_candidate_safe",
    "C54_reach_while_stay_candidate",
    "C54_other_candidates_raise",
    "C54_discrete_candidate_refuted",
    "C54_llo_candidate_refuted",
    "C54_stay_candidate_refuted"
   ],
   "note": "Symbolic differentiation proved correct by the chain rule for all elementary expressions; property theorems compose with C13, C15, C16, C17. Positive theorems are for continuous time; the three refutations show where verify() accepts wrong candidates. dReal's Differentiate is modelled by the textbook rules."
  },
  {
   "property": "C55",
   "status": "proved",
   "theorems": [
    "C55_activation_backward",
    "C55_learner_agrees",
    "C55_gradient",
    "C55_learner_agrees_discrete",
    "C55_lyapunov_training",
    "C55_discrete_factor_refuted",
    "C55_double_factor_refuted",
    "C55_softplus_refuted"
   ],
   "note": "Autograd is modelled as torch's vector-Jacobian products over exact reals. Reverse accumulation is proved equal to the translator's Jacobian product for every network; composed with C40/C41 for Lyapunov training. Three counterexamples."
  },
  {
   "property": "C56",
   "status": "proved",
   "theorems": [
    "C56_set_text",
    "C56_unambiguous",
    "C56_lenient_refuted",
    "C56_plain_characters",
    "C56_domains_section"
   ],
   "note": "Character-level model of the pyparsing grammar; quoted strings left out; numbers exact instead of floats. Leniencies of the grammar are proved as C56_lenient_refuted."
  },
  {
   "property": "C57",
   "status": "proved",
   "theorems": [
    "C57_reproducible",
    "C57_worker_reproducible",
    "C57_repetition_seeds",
    "C57_worker_seeds_distinct",
    "C57_worker_seeds_consecutive",
    "C57_unseeded_refuted"
   ],
   "note": "Random numbers abstracted to a seeded stream; the solver is assumed to be a function of its query (time limits are not)."
  },
  {
   "property": "C58",
   "status": "proved",
   "theorems": [
    "C58_settings",
    "C58_accepted",
    "C58_refused",
    "C58_order_irrelevant",
    "C58_unknown_ignored",
    "C58_defaults_refuted",
    "C58_lenient_refuted",
    "C58_amounts"
   ],
   "note": "M_Cli models the loop of parse_yaml_to_cegis_config on the tree yaml.safe_load returns (YAML syntax itself external), the enumerations and the defaults of CegisConfig; str.upper on ASCII. C58_settings: value or default; C58_accepted/C58_refused; C58_order_irrelevant; C58_unknown_ignored; C58_defaults_refuted, C58_lenient_refuted: the violations. Instance: C58_example (the README's file)."
  },
  {
   "property": "C59",
   "status": "proved",
   "theorems": [
    "C59_field",
    "C59_continuous",
    "C59_safety",
    "C59_safety_discrete",
    "C59_stability",
    "C59_convergence",
    "C59_reach_while_stay",
    "C59_reach_and_stay",
    "C59_attraction",
    "C59_stable_safe",
    "C59_stable_safe_attraction",
    "C59_reach_avoid_remain",
    "C59_hole"
   ],
   "note": "Composition of C58 (file), C37/C38 (equations), C56 (sets), C42 (controller), C45-C48 (runs): session_of is what the CLI builds from the file; the conclusions are stated on the text (S_Config). C59_continuous discharges continuity for right-hand sides without division (except by numbers), log and sqrt. C59_hole: README-style torus XD. P_ConfigDouble: the same for STABLESAFE and RAR (two networks, session2_of, C52)."
  },
  {
   "property": "C60",
   "status": "proved",
   "theorems": [
    "C60_lyapunov_roa",
    "C60_others",
    "C60_stablesafe",
    "C60_rar",
    "C60_safe_roa_half"
   ],
   "note": "Specification S_Loops.trained_until; arbitrary tests and optimiser steps. What the tests mean is C41."
  },
  {
   "property": "C61",
   "status": "proved",
   "theorems": [
    "C61_candidate_positive",
    "C61_candidate_separates",
    "C61_one_candidate",
    "C61_safety",
    "C61_stability",
    "C61_reach_while_stay",
    "C61_unmentioned_variable",
    "C61_no_verdict",
    "C61_discrete_refuted"
   ],
   "note": "From the text of the file to trajectories, composing the reading of the file (C37, C38, C56, C58, C59) with C54. C61_candidate_positive, C61_candidate_separates: the candidate as it is written, for any values of the variables that are not states (dReal's fresh variables). The controller of a CTRLAYER is the one before training (verify trains nothing). Discrete time: refuted."
  },
  {
   "property": "C62",
   "status": "proved",
   "theorems": [
    "C62_settings",
    "C62_sets",
    "C62_networks",
    "C62_second_network",
    "C62_simulation"
   ],
   "note": "C62_settings: every setting of the problem against the file or the default; C62_sets; C62_networks and C62_second_network: widths, activations (by their C25 meaning), biases; C62_simulation: the numerical right-hand side is the written system in feedback with the unrounded controller, for up to ten states and ten inputs (C38) and where no softplus is fed more than 20 (C25). The sample numbers are C58_amounts. Instances: C62_example, C62_second_network_example. The weights are random: only their shape is claimed."
  },
  {
   "property": "C63",
   "status": "proved",
   "theorems": [
    "C63_components",
    "C63_translator",
    "C63_parser",
    "C63_none_is_not_checked",
    "C63_none_accepts",
    "C63_none_double",
    "C63_none_rsws_raises",
    "C63_none_success_unstable"
   ],
   "note": "components of every configuration; with NONE the run reports success for any candidate, also for an unstable system (a refutation of soundness there)."
  },
  {
   "property": "C64",
   "status": "proved",
   "theorems": [
    "C64_meaning",
    "C64_accepts",
    "C64_zero_exponent_refuted"
   ],
   "note": "for exponents other than zero; with exponent zero refuted."
  },
  {
   "property": "C65",
   "status": "proved",
   "theorems": [
    "C65_table",
    "C65_available",
    "C65_success_rate",
    "C65_merged",
    "C65_order",
    "C65_benchmarks"
   ],
   "note": "given non-empty LaTeX, domain and model texts; decimal printing and pandas' reading of cells are simplified (see M_Analyser)."
  },
  {
   "property": "C66",
   "status": "proved",
   "theorems": [
    "C66_one_field",
    "C66_missing_function",
    "C66_history",
    "C66_history_closed",
    "C66_silent_none",
    "C66_closed_loop",
    "C66_shipped",
    "C66_declared",
    "C66_closable",
    "C66_transposed_refuted",
    "C66_satellite_raises",
    "C66_euler",
    "C66_lqr"
   ],
   "note": "Ranges over models whose two right-hand sides are transcribed expressions; the shipped classes are transcribed by tools/gen_models.py. LinearDiscreteNVars, LinearSatellite and Quadrotor2d are the exceptions (C66_transposed_refuted, C66_satellite_raises)."
  },
  {
   "property": "C67",
   "status": "proved",
   "theorems": [
    "C67_success",
    "C67_example_class_stability",
    "C67_grouping",
    "C67_nothing_asked",
    "C67_single_dictionary_refuted",
    "C67_refused",
    "C67_keys_need_data",
    "C67_same_as_builtin",
    "C67_repeated_key_refuted"
   ],
   "note": "Keys are the names of consts.DomainNames. C67_success ranges over all classes; the four dangers are theorems (C67_repeated_key_refuted is a complete run that certifies x' = x)."
  },
  {
   "property": "C68",
   "status": "proved",
   "theorems": [
    "C68_linearisation",
    "C68_partial_derivatives",
    "C68_not_an_equilibrium",
    "C68_input_dependent_refused",
    "C68_polynomials_accepted"
   ],
   "note": "Sympy's simplification is a parameter assumed to keep values; a constant-folding instance is shown to meet the assumptions. C68_partial_derivatives gives the entries, C68_input_dependent_refused the missing substitution of the inputs."
  },
  {
   "property": "C69",
   "status": "proved",
   "theorems": [
    "C69_is_stable",
    "C69_is_sufficiently_stable",
    "C69_worst_pole",
    "C69_model"
   ],
   "note": "eigvals is assumed to return the diagonal of a similar upper triangular matrix (what a Schur decomposition gives), only at the matrix in question. Floats are exact reals."
  },
  {
   "property": "C70",
   "status": "proved",
   "theorems": [
    "C70_construction",
    "C70_gain",
    "C70_cost",
    "C70_optimal",
    "C70_stabilising",
    "C70_stable",
    "C70_nonlinear",
    "C70_equation_is_not_enough"
   ],
   "note": "solve_continuous_are and inv are parameters; C70_equation_is_not_enough shows why definiteness is assumed. Existence of motions is not proved (the theorems range over all motions)."
  },
  {
   "property": "C71",
   "status": "proved",
   "theorems": [
    "C71_range",
    "C71_extremes",
    "C71_distance",
    "C71_loss",
    "C71_stop_lyapunov",
    "C71_stop_reach",
    "C71_stop_remain",
    "C71_goal",
    "C71_discrete",
    "C71_discrete_runs",
    "C71_conflict",
    "C71_others"
   ],
   "note": "For exact reals and both versions of torch's bound on the norms; the gradient step itself is arbitrary."
  },
  {
   "property": "C72",
   "status": "proved",
   "theorems": [
    "C72_start",
    "C72_settings",
    "C72_simulation",
    "C72_reach",
    "C72_reach_stay",
    "C72_remain",
    "C72_stabsafe",
    "C72_stabsafe_forever",
    "C72_stabsafe_attraction",
    "C72_attraction",
    "C72_safety",
    "C72_safety_discrete",
    "C72_quadrotor",
    "C72_ring",
    "C72_ring_discrete"
   ],
   "note": "For the 47 scripts of the seven directories (not archive/), as translated by tools/gen_scripts.py; the sets of DATA matter only by their labels. custom_lyap_cert.py, with a certificate class of its own, is only covered by C72_start (its class by C64)."
  },
  {
   "property": "C73",
   "status": "proved",
   "theorems": [
    "C73_start",
    "C73_barrier",
    "C73_stable_safe",
    "C73_reach",
    "C73_remain",
    "C73_pendulum",
    "C73_lyapunov",
    "C73_verify",
    "C73_attraction_refuted",
    "C73_stay_refuted"
   ],
   "note": "The files are read into Coq from their text by tools/gen_documents.py; every theorem is about fossil run on that text, from YAML to verdict. C73_attraction_refuted shows what roa-test.yaml does not prove. learn.yaml uses VERIFIER NONE, so nothing is verified (C63); config.yaml is empty. rswa-test.yaml only proves reach-while-stay: with the name RSWA the search for the stay level is skipped (C49). ctrl_rar_sine.yaml lists two activations for one layer: the second is unused. Every claim but the pendulum's has an example showing that its file can succeed."
  },
  {
   "property": "C74",
   "status": "proved",
   "theorems": [
    "C74_same_run",
    "C74_each_matters"
   ],
   "note": "C74_same_run: non-interference, with LEARNING_RATE and CEGIS_MAX_TIME_S positive (cegis.py:349-350 asserts this and nothing else). PRECISION and DREAL_JOBS reach only the solver, LEARNING_RATE and SYMMETRIC_BELT only the training, both arbitrary in the model. C74_each_matters: none of the sixteen can be dropped from the list. That no code reads LOSS_MARGIN, ACCURACY_MARGIN or (beyond the assertion) CEGIS_MAX_TIME_S is by search of the source; the user guide calls the last the maximum time."
  },
  {
   "property": "C75",
   "status": "proved",
   "theorems": [
    "C75_starts",
    "C75_returns",
    "C75_returns_two",
    "C75_refused"
   ],
   "note": "documented is a record of what the documentation asks (S_Start); every documented file starts (C75_starts) and every run from it returns (C75_returns, C75_returns_two for StableSafe and RAR) provided the parts outside the model return; nine kinds of files are refused (C75_refused). A file that sets ROUNDING 0 with discrete time is not covered by C75_returns (it would crash in the translator, C21/C22). Examples: P_StartExamples."
  },
  {
   "property": "C76",
   "status": "proved",
   "theorems": [
    "C76_success_iff_valid",
    "C76_success_iff_valid_two",
    "C76_document",
    "C76_document_two"
   ],
   "note": "both directions for the eight single certificates and the two double ones; C76_document composes it with C75. C76_undecided shows what an undecided query costs. Validity is about the expressions handed to the verifier (that the second is the derivative of the first: C24, C35)."
  },
  {
   "property": "C77",
   "status": "proved",
   "theorems": [
    "C77_training_ends",
    "C77_kept",
    "C77_samples_respected",
    "C77_counterexamples_respected",
    "C77_rounding_refuted",
    "C77_equality_refuted",
    "C77_training_ends_two",
    "C77_kept_two",
    "C77_samples_respected_two",
    "C77_counterexamples_respected_two",
    "C77_document",
    "C77_document_two"
   ],
   "note": "proved for all ten certificates without controller and with ROUNDING < 0 (softplus hidden units must not saturate; C77_*_two: STABLESAFE and RAR, data in the order of the certificate and without the extra set XR). The one sample in a thousand that the tests leave out is named (left_out, left_out2). C77_rounding_refuted: false under the default ROUNDING = 3. C77_equality_refuted: the excused equality cases occur. C77_document and C77_document_two: the same stated for configuration files (no controller, at most 10 states, ROUNDING < 0)."
  },
  {
   "property": "C78",
   "status": "proved",
   "theorems": [
    "C78_new_counterexample",
    "C78_terminates",
    "C78_margin",
    "C78_document",
    "C78_document_two",
    "C78_rounding_refuted",
    "C78_new_counterexample_two",
    "C78_terminates_two",
    "C78_backup_data_refuted"
   ],
   "note": "proved for the certificates other than RSWS (whose search for a level can fail without a counterexample); C78_terminates_two: STABLESAFE and RAR. C78_margin: for BARRIERALT the strictness is automatic. C78_rounding_refuted: under the default ROUNDING = 3 a run that never ends. C78_backup_data_refuted: STABLESAFE with the extra set XR, as in two shipped experiments, can run for ever. C78_document and C78_document_two: the same stated for configuration files, where moreover no pass raises; C78_document_example and C78_document_two_example are files whose runs meet all hypotheses."
  },
  {
   "property": "C79",
   "status": "proved",
   "theorems": [
    "C79_zero_iff_contained",
    "C79_zero_iff_member",
    "C79_contained_is_zero",
    "C79_rectangle_refuted",
    "C79_open_refuted",
    "C79_complement_refuted",
    "C79_dim_select_raises"
   ],
   "note": "proved for spheres, ellipses, tori and intervals (C79_zero_iff_contained; C79_zero_iff_member where numeric containment is exact, C28); C79_contained_is_zero for rectangles; refuted for rectangles of every dimension >= 2, open sets, complements; raises with dim_select"
  }
 ]
}