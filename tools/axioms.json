{
 "axioms": {
  "C01_all_refuted_is_found": [
   "ClassicalDedekindReals.sig_forall_dec",
   "FunctionalExtensionality.functional_extensionality_dep"
  ],
  "C01_certificate_labels_distinct": [],
  "C01_found_refutes_every_condition": [
   "ClassicalDedekindReals.sig_forall_dec",
   "ClassicalDedekindReals.sig_not_dec",
   "Classical_Prop.classic",
   "FunctionalExtensionality.functional_extensionality_dep"
  ],
  "C01_stablesafe_refuted": [
   "ClassicalDedekindReals.sig_forall_dec",
   "ClassicalDedekindReals.sig_not_dec",
   "Classical_Prop.classic",
   "FunctionalExtensionality.functional_extensionality_dep"
  ],
  "C02_no_counterexample_unless_sat": [
   "ClassicalDedekindReals.sig_forall_dec",
   "FunctionalExtensionality.functional_extensionality_dep"
  ],
  "C02_unknown_is_not_success": [
   "ClassicalDedekindReals.sig_forall_dec",
   "FunctionalExtensionality.functional_extensionality_dep"
  ],
  "C03_counterexample_keys": [
   "ClassicalDedekindReals.sig_forall_dec",
   "FunctionalExtensionality.functional_extensionality_dep"
  ],
  "C03_counterexample_shape": [
   "ClassicalDedekindReals.sig_forall_dec",
   "ClassicalDedekindReals.sig_not_dec",
   "Classical_Prop.classic",
   "FunctionalExtensionality.functional_extensionality_dep"
  ],
  "C04_groups_evaluated_in_order": [
   "ClassicalDedekindReals.sig_forall_dec",
   "FunctionalExtensionality.functional_extensionality_dep"
  ],
  "C04_unreached_groups_irrelevant": [
   "ClassicalDedekindReals.sig_forall_dec",
   "FunctionalExtensionality.functional_extensionality_dep"
  ],
  "C05_dreal_accepts_only_if_no_bounded_solution": [
   "ClassicalDedekindReals.sig_forall_dec",
   "ClassicalDedekindReals.sig_not_dec",
   "Classical_Prop.classic",
   "FunctionalExtensionality.functional_extensionality_dep"
  ],
  "C05_dreal_sound_on_bounded_conditions": [
   "ClassicalDedekindReals.sig_forall_dec",
   "ClassicalDedekindReals.sig_not_dec",
   "Classical_Prop.classic",
   "FunctionalExtensionality.functional_extensionality_dep"
  ],
  "C05_dreal_unbounded_refuted": [
   "ClassicalDedekindReals.sig_forall_dec",
   "ClassicalDedekindReals.sig_not_dec",
   "Classical_Prop.classic",
   "FunctionalExtensionality.functional_extensionality_dep"
  ],
  "C06_lyapunov_obligations": [
   "ClassicalDedekindReals.sig_forall_dec",
   "ClassicalDedekindReals.sig_not_dec",
   "Classical_Prop.classic",
   "FunctionalExtensionality.functional_extensionality_dep"
  ],
  "C07_roa_obligations": [
   "ClassicalDedekindReals.sig_forall_dec",
   "ClassicalDedekindReals.sig_not_dec",
   "Classical_Prop.classic",
   "FunctionalExtensionality.functional_extensionality_dep"
  ],
  "C08_barrier_obligations": [
   "ClassicalDedekindReals.sig_forall_dec",
   "ClassicalDedekindReals.sig_not_dec",
   "Classical_Prop.classic",
   "FunctionalExtensionality.functional_extensionality_dep"
  ],
  "C09_barrier_alt_obligations": [
   "ClassicalDedekindReals.sig_forall_dec",
   "ClassicalDedekindReals.sig_not_dec",
   "Classical_Prop.classic",
   "FunctionalExtensionality.functional_extensionality_dep"
  ],
  "C10_rws_obligations": [
   "ClassicalDedekindReals.sig_forall_dec",
   "ClassicalDedekindReals.sig_not_dec",
   "Classical_Prop.classic",
   "FunctionalExtensionality.functional_extensionality_dep"
  ],
  "C11_beta_search_false_no_beta": [
   "ClassicalDedekindReals.sig_forall_dec",
   "ClassicalDedekindReals.sig_not_dec",
   "Classical_Prop.classic",
   "FunctionalExtensionality.functional_extensionality_dep"
  ],
  "C11_beta_search_true": [
   "ClassicalDedekindReals.sig_forall_dec",
   "ClassicalDedekindReals.sig_not_dec",
   "Classical_Prop.classic",
   "FunctionalExtensionality.functional_extensionality_dep"
  ],
  "C12_rar_labels": [],
  "C12_rar_obligations": [
   "ClassicalDedekindReals.sig_forall_dec",
   "ClassicalDedekindReals.sig_not_dec",
   "Classical_Prop.classic",
   "FunctionalExtensionality.functional_extensionality_dep"
  ],
  "C12_stablesafe_obligations": [
   "ClassicalDedekindReals.sig_forall_dec",
   "ClassicalDedekindReals.sig_not_dec",
   "Classical_Prop.classic",
   "FunctionalExtensionality.functional_extensionality_dep"
  ],
  "C13_lyapunov_stability": [
   "ClassicalDedekindReals.sig_forall_dec",
   "ClassicalDedekindReals.sig_not_dec",
   "Classical_Prop.classic",
   "FunctionalExtensionality.functional_extensionality_dep"
  ],
  "C13_unstable_system_certified": [
   "ClassicalDedekindReals.sig_forall_dec",
   "ClassicalDedekindReals.sig_not_dec",
   "Classical_Prop.classic",
   "FunctionalExtensionality.functional_extensionality_dep"
  ],
  "C13_unstable_system_certified_by_network": [
   "ClassicalDedekindReals.sig_forall_dec",
   "ClassicalDedekindReals.sig_not_dec",
   "Classical_Prop.classic",
   "FunctionalExtensionality.functional_extensionality_dep"
  ],
  "C14_lyapunov_discrete_convergence": [
   "ClassicalDedekindReals.sig_forall_dec",
   "ClassicalDedekindReals.sig_not_dec",
   "Classical_Prop.classic",
   "FunctionalExtensionality.functional_extensionality_dep"
  ],
  "C14_lyapunov_discrete_decrease": [
   "ClassicalDedekindReals.sig_forall_dec",
   "ClassicalDedekindReals.sig_not_dec",
   "Classical_Prop.classic",
   "FunctionalExtensionality.functional_extensionality_dep"
  ],
  "C15_barrier_safety": [
   "ClassicalDedekindReals.sig_forall_dec",
   "ClassicalDedekindReals.sig_not_dec",
   "Classical_Prop.classic",
   "FunctionalExtensionality.functional_extensionality_dep"
  ],
  "C16_barrier_alt_safety_continuous": [
   "ClassicalDedekindReals.sig_forall_dec",
   "ClassicalDedekindReals.sig_not_dec",
   "Classical_Prop.classic",
   "FunctionalExtensionality.functional_extensionality_dep"
  ],
  "C16_barrier_alt_safety_discrete": [
   "ClassicalDedekindReals.sig_forall_dec",
   "ClassicalDedekindReals.sig_not_dec",
   "Classical_Prop.classic",
   "FunctionalExtensionality.functional_extensionality_dep"
  ],
  "C17_rws_reach_while_stay": [
   "ClassicalDedekindReals.sig_forall_dec",
   "ClassicalDedekindReals.sig_not_dec",
   "Classical_Prop.classic",
   "FunctionalExtensionality.functional_extensionality_dep"
  ],
  "C18_rsws_reach_and_stay": [
   "ClassicalDedekindReals.sig_forall_dec",
   "ClassicalDedekindReals.sig_not_dec",
   "Classical_Prop.classic",
   "FunctionalExtensionality.functional_extensionality_dep"
  ],
  "C19_edge_escape_without_llo": [
   "ClassicalDedekindReals.sig_forall_dec",
   "ClassicalDedekindReals.sig_not_dec",
   "Classical_Prop.classic",
   "FunctionalExtensionality.functional_extensionality_dep"
  ],
  "C19_no_attraction_without_llo": [
   "ClassicalDedekindReals.sig_forall_dec",
   "ClassicalDedekindReals.sig_not_dec",
   "Classical_Prop.classic",
   "FunctionalExtensionality.functional_extensionality_dep"
  ],
  "C19_roa_llo_attraction": [
   "ClassicalDedekindReals.sig_forall_dec",
   "ClassicalDedekindReals.sig_not_dec",
   "Classical_Prop.classic",
   "FunctionalExtensionality.functional_extensionality_dep"
  ],
  "C19_roa_llo_decrease": [
   "ClassicalDedekindReals.sig_forall_dec",
   "ClassicalDedekindReals.sig_not_dec",
   "Classical_Prop.classic",
   "FunctionalExtensionality.functional_extensionality_dep"
  ],
  "C19_roa_nonincreasing": [
   "ClassicalDedekindReals.sig_forall_dec",
   "ClassicalDedekindReals.sig_not_dec",
   "Classical_Prop.classic",
   "FunctionalExtensionality.functional_extensionality_dep"
  ],
  "C20_rar_reach_avoid_remain": [
   "ClassicalDedekindReals.sig_forall_dec",
   "ClassicalDedekindReals.sig_not_dec",
   "Classical_Prop.classic",
   "FunctionalExtensionality.functional_extensionality_dep"
  ],
  "C21_dreal_always_translates": [
   "ClassicalDedekindReals.sig_forall_dec",
   "ClassicalDedekindReals.sig_not_dec",
   "Classical_Prop.classic",
   "FunctionalExtensionality.functional_extensionality_dep"
  ],
  "C21_rounding": [
   "ClassicalDedekindReals.sig_forall_dec",
   "FunctionalExtensionality.functional_extensionality_dep"
  ],
  "C21_verified_function": [
   "ClassicalDedekindReals.sig_forall_dec",
   "ClassicalDedekindReals.sig_not_dec",
   "Classical_Prop.classic",
   "FunctionalExtensionality.functional_extensionality_dep"
  ],
  "C22_cvc5_rounding_refuted": [
   "ClassicalDedekindReals.sig_forall_dec",
   "ClassicalDedekindReals.sig_not_dec",
   "Classical_Prop.classic",
   "FunctionalExtensionality.functional_extensionality_dep"
  ],
  "C22_derivative_along_trajectories": [
   "ClassicalDedekindReals.sig_forall_dec",
   "ClassicalDedekindReals.sig_not_dec",
   "Classical_Prop.classic",
   "FunctionalExtensionality.functional_extensionality_dep"
  ],
  "C22_relu_kink_unsound": [
   "ClassicalDedekindReals.sig_forall_dec",
   "ClassicalDedekindReals.sig_not_dec",
   "Classical_Prop.classic",
   "FunctionalExtensionality.functional_extensionality_dep"
  ],
  "C22_smooth_networks": [
   "ClassicalDedekindReals.sig_forall_dec",
   "ClassicalDedekindReals.sig_not_dec",
   "Classical_Prop.classic",
   "FunctionalExtensionality.functional_extensionality_dep"
  ],
  "C23_discrete_difference": [
   "ClassicalDedekindReals.sig_forall_dec",
   "ClassicalDedekindReals.sig_not_dec",
   "Classical_Prop.classic",
   "FunctionalExtensionality.functional_extensionality_dep"
  ],
  "C23_discrete_function": [
   "ClassicalDedekindReals.sig_forall_dec",
   "ClassicalDedekindReals.sig_not_dec",
   "Classical_Prop.classic",
   "FunctionalExtensionality.functional_extensionality_dep"
  ],
  "C23_quadratic_factor_refuted": [
   "ClassicalDedekindReals.sig_forall_dec",
   "ClassicalDedekindReals.sig_not_dec",
   "Classical_Prop.classic",
   "FunctionalExtensionality.functional_extensionality_dep"
  ],
  "C23_rounding_zero_fails": [],
  "C24_defined_together": [],
  "C24_derivative": [
   "ClassicalDedekindReals.sig_forall_dec",
   "ClassicalDedekindReals.sig_not_dec",
   "Classical_Prop.classic",
   "FunctionalExtensionality.functional_extensionality_dep"
  ],
  "C25_even_poly_refuted": [
   "ClassicalDedekindReals.sig_forall_dec",
   "ClassicalDedekindReals.sig_not_dec",
   "Classical_Prop.classic",
   "FunctionalExtensionality.functional_extensionality_dep"
  ],
  "C25_name_implemented": [
   "ClassicalDedekindReals.sig_forall_dec",
   "ClassicalDedekindReals.sig_not_dec",
   "Classical_Prop.classic",
   "FunctionalExtensionality.functional_extensionality_dep"
  ],
  "C25_polynomial_names": [
   "ClassicalDedekindReals.sig_forall_dec",
   "ClassicalDedekindReals.sig_not_dec",
   "Classical_Prop.classic",
   "FunctionalExtensionality.functional_extensionality_dep"
  ],
  "C25_requ_refuted": [
   "ClassicalDedekindReals.sig_forall_dec",
   "ClassicalDedekindReals.sig_not_dec",
   "Classical_Prop.classic",
   "FunctionalExtensionality.functional_extensionality_dep"
  ],
  "C25_softplus_gap": [
   "ClassicalDedekindReals.sig_forall_dec",
   "ClassicalDedekindReals.sig_not_dec",
   "Classical_Prop.classic",
   "FunctionalExtensionality.functional_extensionality_dep"
  ],
  "C25_symbolic_agrees_with_numeric": [
   "ClassicalDedekindReals.sig_forall_dec",
   "ClassicalDedekindReals.sig_not_dec",
   "Classical_Prop.classic",
   "FunctionalExtensionality.functional_extensionality_dep"
  ],
  "C25_unsupported": [],
  "C26_candidate_nonnegative": [
   "ClassicalDedekindReals.sig_forall_dec",
   "ClassicalDedekindReals.sig_not_dec",
   "Classical_Prop.classic",
   "FunctionalExtensionality.functional_extensionality_dep"
  ],
  "C26_hypotheses_met": [
   "ClassicalDedekindReals.sig_forall_dec",
   "ClassicalDedekindReals.sig_not_dec",
   "Classical_Prop.classic",
   "FunctionalExtensionality.functional_extensionality_dep"
  ],
  "C26_layer_as_drawn": [],
  "C26_layer_of_ones": [],
  "C26_llo_positivity": [
   "ClassicalDedekindReals.sig_forall_dec",
   "ClassicalDedekindReals.sig_not_dec",
   "Classical_Prop.classic",
   "FunctionalExtensionality.functional_extensionality_dep"
  ],
  "C26_llo_positivity_discrete": [
   "ClassicalDedekindReals.sig_forall_dec",
   "ClassicalDedekindReals.sig_not_dec",
   "Classical_Prop.classic",
   "FunctionalExtensionality.functional_extensionality_dep"
  ],
  "C26_llo_positivity_roa": [
   "ClassicalDedekindReals.sig_forall_dec",
   "ClassicalDedekindReals.sig_not_dec",
   "Classical_Prop.classic",
   "FunctionalExtensionality.functional_extensionality_dep"
  ],
  "C26_stablesafe_sign_refuted": [
   "ClassicalDedekindReals.sig_forall_dec",
   "ClassicalDedekindReals.sig_not_dec",
   "Classical_Prop.classic",
   "FunctionalExtensionality.functional_extensionality_dep"
  ],
  "C26_warning_only_refuted": [
   "ClassicalDedekindReals.sig_forall_dec",
   "ClassicalDedekindReals.sig_not_dec",
   "Classical_Prop.classic",
   "FunctionalExtensionality.functional_extensionality_dep"
  ],
  "C27_complement": [
   "ClassicalDedekindReals.sig_forall_dec",
   "ClassicalDedekindReals.sig_not_dec",
   "Classical_Prop.classic",
   "FunctionalExtensionality.functional_extensionality_dep"
  ],
  "C27_formula_denotes_set": [
   "ClassicalDedekindReals.sig_forall_dec",
   "ClassicalDedekindReals.sig_not_dec",
   "Classical_Prop.classic",
   "FunctionalExtensionality.functional_extensionality_dep"
  ],
  "C28_containment_agrees": [
   "ClassicalDedekindReals.sig_forall_dec",
   "ClassicalDedekindReals.sig_not_dec",
   "FunctionalExtensionality.functional_extensionality_dep"
  ],
  "C28_sphere_refuted": [
   "ClassicalDedekindReals.sig_forall_dec",
   "ClassicalDedekindReals.sig_not_dec",
   "FunctionalExtensionality.functional_extensionality_dep"
  ],
  "C29_border_count": [
   "ClassicalDedekindReals.sig_forall_dec",
   "ClassicalDedekindReals.sig_not_dec",
   "Classical_Prop.classic",
   "FunctionalExtensionality.functional_extensionality_dep"
  ],
  "C29_border_dim1_refuted": [
   "ClassicalDedekindReals.sig_forall_dec",
   "ClassicalDedekindReals.sig_not_dec",
   "Classical_Prop.classic",
   "FunctionalExtensionality.functional_extensionality_dep"
  ],
  "C29_border_samples": [
   "ClassicalDedekindReals.sig_forall_dec",
   "ClassicalDedekindReals.sig_not_dec",
   "Classical_Prop.classic",
   "FunctionalExtensionality.functional_extensionality_dep"
  ],
  "C29_border_samples_on_boundary": [
   "ClassicalDedekindReals.sig_forall_dec",
   "ClassicalDedekindReals.sig_not_dec",
   "Classical_Prop.classic",
   "FunctionalExtensionality.functional_extensionality_dep"
  ],
  "C29_can_sample": [
   "ClassicalDedekindReals.sig_forall_dec",
   "ClassicalDedekindReals.sig_not_dec",
   "Classical_Prop.classic",
   "FunctionalExtensionality.functional_extensionality_dep"
  ],
  "C29_cannot_sample": [
   "ClassicalDedekindReals.sig_forall_dec",
   "ClassicalDedekindReals.sig_not_dec",
   "Classical_Prop.classic",
   "FunctionalExtensionality.functional_extensionality_dep"
  ],
  "C29_hole_refuted": [
   "ClassicalDedekindReals.sig_forall_dec",
   "ClassicalDedekindReals.sig_not_dec",
   "Classical_Prop.classic",
   "FunctionalExtensionality.functional_extensionality_dep"
  ],
  "C29_open_rectangle_refuted": [
   "ClassicalDedekindReals.sig_forall_dec",
   "ClassicalDedekindReals.sig_not_dec",
   "Classical_Prop.classic",
   "FunctionalExtensionality.functional_extensionality_dep"
  ],
  "C29_open_sphere_refuted": [
   "ClassicalDedekindReals.sig_forall_dec",
   "ClassicalDedekindReals.sig_not_dec",
   "Classical_Prop.classic",
   "FunctionalExtensionality.functional_extensionality_dep"
  ],
  "C29_row_count": [
   "ClassicalDedekindReals.sig_forall_dec",
   "ClassicalDedekindReals.sig_not_dec",
   "Classical_Prop.classic",
   "FunctionalExtensionality.functional_extensionality_dep"
  ],
  "C29_samples_in_set": [
   "ClassicalDedekindReals.sig_forall_dec",
   "ClassicalDedekindReals.sig_not_dec",
   "Classical_Prop.classic",
   "FunctionalExtensionality.functional_extensionality_dep"
  ],
  "C29_sphere_dim1_refuted": [
   "ClassicalDedekindReals.sig_forall_dec",
   "ClassicalDedekindReals.sig_not_dec",
   "Classical_Prop.classic",
   "FunctionalExtensionality.functional_extensionality_dep"
  ],
  "C29_sphere_dim4_refuted": [
   "ClassicalDedekindReals.sig_forall_dec",
   "ClassicalDedekindReals.sig_not_dec",
   "Classical_Prop.classic",
   "FunctionalExtensionality.functional_extensionality_dep"
  ],
  "C29_torus_refuted": [
   "ClassicalDedekindReals.sig_forall_dec",
   "ClassicalDedekindReals.sig_not_dec",
   "Classical_Prop.classic",
   "FunctionalExtensionality.functional_extensionality_dep"
  ],
  "C30_boundary_covers": [
   "ClassicalDedekindReals.sig_forall_dec",
   "ClassicalDedekindReals.sig_not_dec",
   "Classical_Prop.classic",
   "FunctionalExtensionality.functional_extensionality_dep"
  ],
  "C30_interior_boundary_partition": [
   "ClassicalDedekindReals.sig_forall_dec",
   "ClassicalDedekindReals.sig_not_dec",
   "Classical_Prop.classic",
   "FunctionalExtensionality.functional_extensionality_dep"
  ],
  "C30_leaving_crosses_boundary": [
   "ClassicalDedekindReals.sig_forall_dec",
   "ClassicalDedekindReals.sig_not_dec",
   "Classical_Prop.classic",
   "FunctionalExtensionality.functional_extensionality_dep"
  ],
  "C30_open_rectangle_refuted": [
   "ClassicalDedekindReals.sig_forall_dec",
   "ClassicalDedekindReals.sig_not_dec",
   "Classical_Prop.classic",
   "FunctionalExtensionality.functional_extensionality_dep"
  ],
  "C31_iteration_budget": [],
  "C31_negative_budget_runs_forever": [],
  "C31_returns_a_result": [],
  "C32_first_success_is_returned": [],
  "C32_result_was_verified": [],
  "C32_rswa_skips_stay": [],
  "C33_counterexamples_are_added": [],
  "C33_data_only_grows": [],
  "C33_reported_sample_count": [],
  "C34_search_can_diverge": [
   "ClassicalDedekindReals.sig_forall_dec",
   "ClassicalDedekindReals.sig_not_dec",
   "Classical_Prop.classic",
   "FunctionalExtensionality.functional_extensionality_dep"
  ],
  "C34_search_terminates_when_admissible_interval": [
   "ClassicalDedekindReals.sig_forall_dec",
   "ClassicalDedekindReals.sig_not_dec",
   "Classical_Prop.classic",
   "FunctionalExtensionality.functional_extensionality_dep"
  ],
  "C34_unknown_is_an_error": [],
  "C35_trajectory": [
   "ClassicalDedekindReals.sig_forall_dec",
   "FunctionalExtensionality.functional_extensionality_dep"
  ],
  "C36_hangs": [],
  "C36_never_returns": [],
  "C36_returned_result": [],
  "C36_returns": [],
  "C37_accepted": [
   "ClassicalDedekindReals.sig_forall_dec",
   "FunctionalExtensionality.functional_extensionality_dep"
  ],
  "C37_argument_rejected": [
   "ClassicalDedekindReals.sig_forall_dec",
   "FunctionalExtensionality.functional_extensionality_dep"
  ],
  "C37_characters": [
   "ClassicalDedekindReals.sig_forall_dec",
   "FunctionalExtensionality.functional_extensionality_dep"
  ],
  "C37_characters_accepted": [
   "ClassicalDedekindReals.sig_forall_dec",
   "FunctionalExtensionality.functional_extensionality_dep"
  ],
  "C37_characters_example": [
   "ClassicalDedekindReals.sig_forall_dec",
   "FunctionalExtensionality.functional_extensionality_dep"
  ],
  "C37_minus_power": [
   "ClassicalDedekindReals.sig_forall_dec",
   "FunctionalExtensionality.functional_extensionality_dep"
  ],
  "C37_minus_power_accepted": [
   "ClassicalDedekindReals.sig_forall_dec",
   "FunctionalExtensionality.functional_extensionality_dep"
  ],
  "C37_paren_minus_rejected": [
   "ClassicalDedekindReals.sig_forall_dec",
   "FunctionalExtensionality.functional_extensionality_dep"
  ],
  "C37_sympy_logarithm": [
   "ClassicalDedekindReals.sig_forall_dec",
   "FunctionalExtensionality.functional_extensionality_dep"
  ],
  "C37_sympy_square_root": [
   "ClassicalDedekindReals.sig_forall_dec",
   "FunctionalExtensionality.functional_extensionality_dep"
  ],
  "C37_usual_precedence": [
   "ClassicalDedekindReals.sig_forall_dec",
   "FunctionalExtensionality.functional_extensionality_dep"
  ],
  "C38_constant_refused": [
   "ClassicalDedekindReals.sig_forall_dec",
   "FunctionalExtensionality.functional_extensionality_dep"
  ],
  "C38_constant_refused_numbers": [
   "ClassicalDedekindReals.sig_forall_dec",
   "FunctionalExtensionality.functional_extensionality_dep"
  ],
  "C38_controllable": [
   "ClassicalDedekindReals.sig_forall_dec",
   "FunctionalExtensionality.functional_extensionality_dep"
  ],
  "C38_dreal_repeated": [
   "ClassicalDedekindReals.sig_forall_dec",
   "FunctionalExtensionality.functional_extensionality_dep"
  ],
  "C38_numbers": [
   "ClassicalDedekindReals.sig_forall_dec",
   "FunctionalExtensionality.functional_extensionality_dep"
  ],
  "C38_numbers_beyond_ten": [
   "ClassicalDedekindReals.sig_forall_dec",
   "FunctionalExtensionality.functional_extensionality_dep"
  ],
  "C38_numbers_missing": [
   "ClassicalDedekindReals.sig_forall_dec",
   "FunctionalExtensionality.functional_extensionality_dep"
  ],
  "C38_same_system": [
   "ClassicalDedekindReals.sig_forall_dec",
   "FunctionalExtensionality.functional_extensionality_dep"
  ],
  "C38_symbols": [
   "ClassicalDedekindReals.sig_forall_dec",
   "FunctionalExtensionality.functional_extensionality_dep"
  ],
  "C38_symbols_missing": [
   "ClassicalDedekindReals.sig_forall_dec",
   "FunctionalExtensionality.functional_extensionality_dep"
  ],
  "C39_advertised_api": [],
  "C39_check_is_exact": [],
  "C39_command_line": [],
  "C39_condition_labels_have_data": [],
  "C39_conditions_use_required_sets": [],
  "C39_counterexamples_have_data": [
   "ClassicalDedekindReals.sig_forall_dec",
   "FunctionalExtensionality.functional_extensionality_dep"
  ],
  "C39_scalar_n_data": [],
  "C39_time_domain": [],
  "C40_barrier": [],
  "C40_lyapunov_roa": [],
  "C40_rar": [],
  "C40_rar_command_line_images": [],
  "C40_rar_command_line_order": [],
  "C40_rar_wrong_images": [],
  "C40_rsws": [
   "ClassicalDedekindReals.sig_forall_dec"
  ],
  "C40_rws": [],
  "C40_stablesafe_in_order": [],
  "C40_stablesafe_mislabelled": [],
  "C41_barrier": [
   "ClassicalDedekindReals.sig_forall_dec",
   "FunctionalExtensionality.functional_extensionality_dep"
  ],
  "C41_barrier_alt": [
   "ClassicalDedekindReals.sig_forall_dec",
   "ClassicalDedekindReals.sig_not_dec",
   "Classical_Prop.classic",
   "FunctionalExtensionality.functional_extensionality_dep"
  ],
  "C41_barrier_samples": [
   "ClassicalDedekindReals.sig_forall_dec",
   "FunctionalExtensionality.functional_extensionality_dep"
  ],
  "C41_barrier_small": [
   "ClassicalDedekindReals.sig_forall_dec",
   "FunctionalExtensionality.functional_extensionality_dep"
  ],
  "C41_lyapunov_roa": [
   "ClassicalDedekindReals.sig_forall_dec",
   "FunctionalExtensionality.functional_extensionality_dep"
  ],
  "C41_lyapunov_roa_samples": [
   "ClassicalDedekindReals.sig_forall_dec",
   "FunctionalExtensionality.functional_extensionality_dep"
  ],
  "C41_rar": [
   "ClassicalDedekindReals.sig_forall_dec",
   "ClassicalDedekindReals.sig_not_dec",
   "Classical_Prop.classic",
   "FunctionalExtensionality.functional_extensionality_dep"
  ],
  "C41_rws": [
   "ClassicalDedekindReals.sig_forall_dec",
   "ClassicalDedekindReals.sig_not_dec",
   "Classical_Prop.classic",
   "FunctionalExtensionality.functional_extensionality_dep"
  ],
  "C41_rws_samples": [
   "ClassicalDedekindReals.sig_forall_dec",
   "ClassicalDedekindReals.sig_not_dec",
   "Classical_Prop.classic",
   "FunctionalExtensionality.functional_extensionality_dep"
  ],
  "C41_tolerance": [
   "ClassicalDedekindReals.sig_forall_dec",
   "FunctionalExtensionality.functional_extensionality_dep"
  ],
  "C41_training_stops": [],
  "C41_training_stops_twice": [],
  "C42_exact_with_five_decimals": [
   "ClassicalDedekindReals.sig_forall_dec",
   "ClassicalDedekindReals.sig_not_dec",
   "Classical_Prop.classic",
   "FunctionalExtensionality.functional_extensionality_dep"
  ],
  "C42_numeric_closed_loop": [
   "ClassicalDedekindReals.sig_forall_dec",
   "ClassicalDedekindReals.sig_not_dec",
   "Classical_Prop.classic",
   "FunctionalExtensionality.functional_extensionality_dep"
  ],
  "C42_rounding_error": [
   "ClassicalDedekindReals.sig_forall_dec",
   "FunctionalExtensionality.functional_extensionality_dep"
  ],
  "C42_success_certifies_rounded_controller": [
   "ClassicalDedekindReals.sig_forall_dec",
   "ClassicalDedekindReals.sig_not_dec",
   "Classical_Prop.classic",
   "FunctionalExtensionality.functional_extensionality_dep"
  ],
  "C42_unrounded_controller_unstable": [
   "ClassicalDedekindReals.sig_forall_dec",
   "ClassicalDedekindReals.sig_not_dec",
   "Classical_Prop.classic",
   "FunctionalExtensionality.functional_extensionality_dep"
  ],
  "C42_verified_closed_loop": [
   "ClassicalDedekindReals.sig_forall_dec",
   "ClassicalDedekindReals.sig_not_dec",
   "Classical_Prop.classic",
   "FunctionalExtensionality.functional_extensionality_dep"
  ],
  "C43_average_of_zero_intervals": [],
  "C43_decorator": [],
  "C43_statistics": [],
  "C43_stop_needs_start": [],
  "C44_file": [],
  "C44_names": [],
  "C44_recorded": [],
  "C44_recording_raises": [],
  "C44_row_matches_header": [],
  "C45_lyapunov_discrete_success_means_convergence": [
   "ClassicalDedekindReals.sig_forall_dec",
   "ClassicalDedekindReals.sig_not_dec",
   "Classical_Prop.classic",
   "FunctionalExtensionality.functional_extensionality_dep"
  ],
  "C45_lyapunov_success_means_stability": [
   "ClassicalDedekindReals.sig_forall_dec",
   "ClassicalDedekindReals.sig_not_dec",
   "Classical_Prop.classic",
   "FunctionalExtensionality.functional_extensionality_dep"
  ],
  "C46_barrier_success_means_safety": [
   "ClassicalDedekindReals.sig_forall_dec",
   "ClassicalDedekindReals.sig_not_dec",
   "Classical_Prop.classic",
   "FunctionalExtensionality.functional_extensionality_dep"
  ],
  "C46_barrier_success_means_safety_discrete": [
   "ClassicalDedekindReals.sig_forall_dec",
   "ClassicalDedekindReals.sig_not_dec",
   "Classical_Prop.classic",
   "FunctionalExtensionality.functional_extensionality_dep"
  ],
  "C47_roa_success_means_attraction": [
   "ClassicalDedekindReals.sig_forall_dec",
   "ClassicalDedekindReals.sig_not_dec",
   "Classical_Prop.classic",
   "FunctionalExtensionality.functional_extensionality_dep"
  ],
  "C48_reach_and_stay": [
   "ClassicalDedekindReals.sig_forall_dec",
   "ClassicalDedekindReals.sig_not_dec",
   "Classical_Prop.classic",
   "FunctionalExtensionality.functional_extensionality_dep"
  ],
  "C48_reach_while_stay": [
   "ClassicalDedekindReals.sig_forall_dec",
   "ClassicalDedekindReals.sig_not_dec",
   "Classical_Prop.classic",
   "FunctionalExtensionality.functional_extensionality_dep"
  ],
  "C49_barrier_success_unsafe_relu": [
   "ClassicalDedekindReals.sig_forall_dec",
   "ClassicalDedekindReals.sig_not_dec",
   "Classical_Prop.classic",
   "FunctionalExtensionality.functional_extensionality_dep"
  ],
  "C49_discrete_success_grows": [
   "ClassicalDedekindReals.sig_forall_dec",
   "ClassicalDedekindReals.sig_not_dec",
   "Classical_Prop.classic",
   "FunctionalExtensionality.functional_extensionality_dep"
  ],
  "C49_lyapunov_success_unstable": [
   "ClassicalDedekindReals.sig_forall_dec",
   "ClassicalDedekindReals.sig_not_dec",
   "Classical_Prop.classic",
   "FunctionalExtensionality.functional_extensionality_dep"
  ],
  "C49_rswa_success_leaves_goal": [
   "ClassicalDedekindReals.sig_forall_dec",
   "ClassicalDedekindReals.sig_not_dec",
   "Classical_Prop.classic",
   "FunctionalExtensionality.functional_extensionality_dep"
  ],
  "C50_goal_level_ignores_factor": [
   "ClassicalDedekindReals.sig_forall_dec",
   "ClassicalDedekindReals.sig_not_dec",
   "Classical_Prop.classic",
   "FunctionalExtensionality.functional_extensionality_dep"
  ],
  "C50_goal_level_is_minimum": [
   "ClassicalDedekindReals.sig_forall_dec",
   "ClassicalDedekindReals.sig_not_dec",
   "Classical_Prop.classic",
   "FunctionalExtensionality.functional_extensionality_dep"
  ],
  "C50_level_is_maximum": [
   "ClassicalDedekindReals.sig_forall_dec",
   "ClassicalDedekindReals.sig_not_dec",
   "Classical_Prop.classic",
   "FunctionalExtensionality.functional_extensionality_dep"
  ],
  "C50_quadratic_factor_ignored": [
   "ClassicalDedekindReals.sig_forall_dec",
   "ClassicalDedekindReals.sig_not_dec",
   "Classical_Prop.classic",
   "FunctionalExtensionality.functional_extensionality_dep"
  ],
  "C51_activations": [
   "ClassicalDedekindReals.sig_forall_dec",
   "ClassicalDedekindReals.sig_not_dec",
   "Classical_Prop.classic",
   "FunctionalExtensionality.functional_extensionality_dep"
  ],
  "C51_barrier": [
   "ClassicalDedekindReals.sig_forall_dec",
   "FunctionalExtensionality.functional_extensionality_dep"
  ],
  "C51_barrier_alt": [
   "ClassicalDedekindReals.sig_forall_dec",
   "ClassicalDedekindReals.sig_not_dec",
   "Classical_Prop.classic",
   "FunctionalExtensionality.functional_extensionality_dep"
  ],
  "C51_barrier_zero": [
   "ClassicalDedekindReals.sig_forall_dec",
   "FunctionalExtensionality.functional_extensionality_dep"
  ],
  "C51_beta": [
   "ClassicalDedekindReals.sig_forall_dec",
   "ClassicalDedekindReals.sig_not_dec",
   "Classical_Prop.classic",
   "FunctionalExtensionality.functional_extensionality_dep"
  ],
  "C51_lyapunov": [
   "ClassicalDedekindReals.sig_forall_dec",
   "FunctionalExtensionality.functional_extensionality_dep"
  ],
  "C51_rws": [
   "ClassicalDedekindReals.sig_forall_dec",
   "ClassicalDedekindReals.sig_not_dec",
   "Classical_Prop.classic",
   "FunctionalExtensionality.functional_extensionality_dep"
  ],
  "C52_rar_success_means_reach_avoid_remain": [
   "ClassicalDedekindReals.sig_forall_dec",
   "ClassicalDedekindReals.sig_not_dec",
   "Classical_Prop.classic",
   "FunctionalExtensionality.functional_extensionality_dep"
  ],
  "C52_stablesafe_success_means_attraction": [
   "ClassicalDedekindReals.sig_forall_dec",
   "ClassicalDedekindReals.sig_not_dec",
   "Classical_Prop.classic",
   "FunctionalExtensionality.functional_extensionality_dep"
  ],
  "C52_stablesafe_success_means_safety": [
   "ClassicalDedekindReals.sig_forall_dec",
   "ClassicalDedekindReals.sig_not_dec",
   "Classical_Prop.classic",
   "FunctionalExtensionality.functional_extensionality_dep"
  ],
  "C53_frozen_certificate_is_valid": [
   "ClassicalDedekindReals.sig_forall_dec",
   "ClassicalDedekindReals.sig_not_dec",
   "Classical_Prop.classic",
   "FunctionalExtensionality.functional_extensionality_dep"
  ],
  "C53_frozen_network_never_changes": [
   "ClassicalDedekindReals.sig_forall_dec",
   "FunctionalExtensionality.functional_extensionality_dep"
  ],
  "C53_undecided_certificate_frozen_refuted": [
   "ClassicalDedekindReals.sig_forall_dec",
   "ClassicalDedekindReals.sig_not_dec",
   "Classical_Prop.classic",
   "FunctionalExtensionality.functional_extensionality_dep"
  ],
  "C54_barrier_candidate_safe": [
   "ClassicalDedekindReals.sig_forall_dec",
   "ClassicalDedekindReals.sig_not_dec",
   "Classical_Prop.classic",
   "FunctionalExtensionality.functional_extensionality_dep"
  ],
  "C54_candidate_lie_derivative": [
   "ClassicalDedekindReals.sig_forall_dec",
   "ClassicalDedekindReals.sig_not_dec",
   "Classical_Prop.classic",
   "FunctionalExtensionality.functional_extensionality_dep"
  ],
  "C54_discrete_candidate_refuted": [
   "ClassicalDedekindReals.sig_forall_dec",
   "ClassicalDedekindReals.sig_not_dec",
   "Classical_Prop.classic",
   "FunctionalExtensionality.functional_extensionality_dep"
  ],
  "C54_llo_candidate_refuted": [
   "ClassicalDedekindReals.sig_forall_dec",
   "ClassicalDedekindReals.sig_not_dec",
   "Classical_Prop.classic",
   "FunctionalExtensionality.functional_extensionality_dep"
  ],
  "C54_lyapunov_candidate_stable": [
   "ClassicalDedekindReals.sig_forall_dec",
   "ClassicalDedekindReals.sig_not_dec",
   "Classical_Prop.classic",
   "FunctionalExtensionality.functional_extensionality_dep"
  ],
  "C54_other_candidates_raise": [
   "ClassicalDedekindReals.sig_forall_dec",
   "FunctionalExtensionality.functional_extensionality_dep"
  ],
  "C54_reach_while_stay_candidate": [
   "ClassicalDedekindReals.sig_forall_dec",
   "ClassicalDedekindReals.sig_not_dec",
   "Classical_Prop.classic",
   "FunctionalExtensionality.functional_extensionality_dep"
  ],
  "C54_stay_candidate_refuted": [
   "ClassicalDedekindReals.sig_forall_dec",
   "ClassicalDedekindReals.sig_not_dec",
   "Classical_Prop.classic",
   "FunctionalExtensionality.functional_extensionality_dep"
  ],
  "C55_activation_backward": [
   "ClassicalDedekindReals.sig_forall_dec",
   "ClassicalDedekindReals.sig_not_dec",
   "Classical_Prop.classic",
   "FunctionalExtensionality.functional_extensionality_dep"
  ],
  "C55_discrete_factor_refuted": [
   "ClassicalDedekindReals.sig_forall_dec",
   "ClassicalDedekindReals.sig_not_dec",
   "Classical_Prop.classic",
   "FunctionalExtensionality.functional_extensionality_dep"
  ],
  "C55_double_factor_refuted": [
   "ClassicalDedekindReals.sig_forall_dec",
   "ClassicalDedekindReals.sig_not_dec",
   "Classical_Prop.classic",
   "FunctionalExtensionality.functional_extensionality_dep"
  ],
  "C55_gradient": [
   "ClassicalDedekindReals.sig_forall_dec",
   "ClassicalDedekindReals.sig_not_dec",
   "Classical_Prop.classic",
   "FunctionalExtensionality.functional_extensionality_dep"
  ],
  "C55_learner_agrees": [
   "ClassicalDedekindReals.sig_forall_dec",
   "ClassicalDedekindReals.sig_not_dec",
   "Classical_Prop.classic",
   "FunctionalExtensionality.functional_extensionality_dep"
  ],
  "C55_learner_agrees_discrete": [
   "ClassicalDedekindReals.sig_forall_dec",
   "ClassicalDedekindReals.sig_not_dec",
   "Classical_Prop.classic",
   "FunctionalExtensionality.functional_extensionality_dep"
  ],
  "C55_lyapunov_training": [
   "ClassicalDedekindReals.sig_forall_dec",
   "ClassicalDedekindReals.sig_not_dec",
   "Classical_Prop.classic",
   "FunctionalExtensionality.functional_extensionality_dep"
  ],
  "C55_softplus_refuted": [
   "ClassicalDedekindReals.sig_forall_dec",
   "ClassicalDedekindReals.sig_not_dec",
   "Classical_Prop.classic",
   "FunctionalExtensionality.functional_extensionality_dep"
  ],
  "C56_domains_section": [],
  "C56_lenient_refuted": [],
  "C56_plain_characters": [],
  "C56_set_text": [
   "ClassicalDedekindReals.sig_forall_dec",
   "ClassicalDedekindReals.sig_not_dec",
   "Classical_Prop.classic",
   "FunctionalExtensionality.functional_extensionality_dep"
  ],
  "C56_unambiguous": [
   "ClassicalDedekindReals.sig_forall_dec",
   "ClassicalDedekindReals.sig_not_dec",
   "Classical_Prop.classic",
   "FunctionalExtensionality.functional_extensionality_dep"
  ],
  "C57_repetition_seeds": [],
  "C57_reproducible": [],
  "C57_unseeded_refuted": [],
  "C57_worker_reproducible": [],
  "C57_worker_seeds_consecutive": [],
  "C57_worker_seeds_distinct": [],
  "C58_accepted": [],
  "C58_amounts": [],
  "C58_defaults_refuted": [],
  "C58_lenient_refuted": [],
  "C58_order_irrelevant": [],
  "C58_refused": [],
  "C58_settings": [],
  "C58_unknown_ignored": [],
  "C59_attraction": [
   "ClassicalDedekindReals.sig_forall_dec",
   "ClassicalDedekindReals.sig_not_dec",
   "Classical_Prop.classic",
   "FunctionalExtensionality.functional_extensionality_dep"
  ],
  "C59_continuous": [
   "ClassicalDedekindReals.sig_forall_dec",
   "ClassicalDedekindReals.sig_not_dec",
   "Classical_Prop.classic",
   "FunctionalExtensionality.functional_extensionality_dep"
  ],
  "C59_convergence": [
   "ClassicalDedekindReals.sig_forall_dec",
   "ClassicalDedekindReals.sig_not_dec",
   "Classical_Prop.classic",
   "FunctionalExtensionality.functional_extensionality_dep"
  ],
  "C59_field": [
   "ClassicalDedekindReals.sig_forall_dec",
   "ClassicalDedekindReals.sig_not_dec",
   "Classical_Prop.classic",
   "FunctionalExtensionality.functional_extensionality_dep"
  ],
  "C59_hole": [
   "ClassicalDedekindReals.sig_forall_dec",
   "ClassicalDedekindReals.sig_not_dec",
   "Classical_Prop.classic",
   "FunctionalExtensionality.functional_extensionality_dep"
  ],
  "C59_reach_and_stay": [
   "ClassicalDedekindReals.sig_forall_dec",
   "ClassicalDedekindReals.sig_not_dec",
   "Classical_Prop.classic",
   "FunctionalExtensionality.functional_extensionality_dep"
  ],
  "C59_reach_avoid_remain": [
   "ClassicalDedekindReals.sig_forall_dec",
   "ClassicalDedekindReals.sig_not_dec",
   "Classical_Prop.classic",
   "FunctionalExtensionality.functional_extensionality_dep"
  ],
  "C59_reach_while_stay": [
   "ClassicalDedekindReals.sig_forall_dec",
   "ClassicalDedekindReals.sig_not_dec",
   "Classical_Prop.classic",
   "FunctionalExtensionality.functional_extensionality_dep"
  ],
  "C59_safety": [
   "ClassicalDedekindReals.sig_forall_dec",
   "ClassicalDedekindReals.sig_not_dec",
   "Classical_Prop.classic",
   "FunctionalExtensionality.functional_extensionality_dep"
  ],
  "C59_safety_discrete": [
   "ClassicalDedekindReals.sig_forall_dec",
   "ClassicalDedekindReals.sig_not_dec",
   "Classical_Prop.classic",
   "FunctionalExtensionality.functional_extensionality_dep"
  ],
  "C59_stability": [
   "ClassicalDedekindReals.sig_forall_dec",
   "ClassicalDedekindReals.sig_not_dec",
   "Classical_Prop.classic",
   "FunctionalExtensionality.functional_extensionality_dep"
  ],
  "C59_stable_safe": [
   "ClassicalDedekindReals.sig_forall_dec",
   "ClassicalDedekindReals.sig_not_dec",
   "Classical_Prop.classic",
   "FunctionalExtensionality.functional_extensionality_dep"
  ],
  "C59_stable_safe_attraction": [
   "ClassicalDedekindReals.sig_forall_dec",
   "ClassicalDedekindReals.sig_not_dec",
   "Classical_Prop.classic",
   "FunctionalExtensionality.functional_extensionality_dep"
  ],
  "C60_lyapunov_roa": [],
  "C60_others": [],
  "C60_rar": [],
  "C60_safe_roa_half": [],
  "C60_stablesafe": [],
  "C61_candidate_positive": [
   "ClassicalDedekindReals.sig_forall_dec",
   "ClassicalDedekindReals.sig_not_dec",
   "Classical_Prop.classic",
   "FunctionalExtensionality.functional_extensionality_dep"
  ],
  "C61_candidate_separates": [
   "ClassicalDedekindReals.sig_forall_dec",
   "ClassicalDedekindReals.sig_not_dec",
   "Classical_Prop.classic",
   "FunctionalExtensionality.functional_extensionality_dep"
  ],
  "C61_discrete_refuted": [
   "ClassicalDedekindReals.sig_forall_dec",
   "ClassicalDedekindReals.sig_not_dec",
   "Classical_Prop.classic",
   "FunctionalExtensionality.functional_extensionality_dep"
  ],
  "C61_no_verdict": [
   "ClassicalDedekindReals.sig_forall_dec",
   "ClassicalDedekindReals.sig_not_dec",
   "Classical_Prop.classic",
   "FunctionalExtensionality.functional_extensionality_dep"
  ],
  "C61_one_candidate": [
   "ClassicalDedekindReals.sig_forall_dec",
   "ClassicalDedekindReals.sig_not_dec",
   "Classical_Prop.classic",
   "FunctionalExtensionality.functional_extensionality_dep"
  ],
  "C61_reach_while_stay": [
   "ClassicalDedekindReals.sig_forall_dec",
   "ClassicalDedekindReals.sig_not_dec",
   "Classical_Prop.classic",
   "FunctionalExtensionality.functional_extensionality_dep"
  ],
  "C61_safety": [
   "ClassicalDedekindReals.sig_forall_dec",
   "ClassicalDedekindReals.sig_not_dec",
   "Classical_Prop.classic",
   "FunctionalExtensionality.functional_extensionality_dep"
  ],
  "C61_stability": [
   "ClassicalDedekindReals.sig_forall_dec",
   "ClassicalDedekindReals.sig_not_dec",
   "Classical_Prop.classic",
   "FunctionalExtensionality.functional_extensionality_dep"
  ],
  "C61_unmentioned_variable": [
   "ClassicalDedekindReals.sig_forall_dec",
   "ClassicalDedekindReals.sig_not_dec",
   "Classical_Prop.classic",
   "FunctionalExtensionality.functional_extensionality_dep"
  ],
  "C62_networks": [
   "ClassicalDedekindReals.sig_forall_dec",
   "ClassicalDedekindReals.sig_not_dec",
   "Classical_Prop.classic",
   "FunctionalExtensionality.functional_extensionality_dep"
  ],
  "C62_second_network": [
   "ClassicalDedekindReals.sig_forall_dec",
   "ClassicalDedekindReals.sig_not_dec",
   "Classical_Prop.classic",
   "FunctionalExtensionality.functional_extensionality_dep"
  ],
  "C62_sets": [
   "ClassicalDedekindReals.sig_forall_dec",
   "ClassicalDedekindReals.sig_not_dec",
   "Classical_Prop.classic",
   "FunctionalExtensionality.functional_extensionality_dep"
  ],
  "C62_settings": [
   "ClassicalDedekindReals.sig_forall_dec",
   "ClassicalDedekindReals.sig_not_dec",
   "Classical_Prop.classic",
   "FunctionalExtensionality.functional_extensionality_dep"
  ],
  "C62_simulation": [
   "ClassicalDedekindReals.sig_forall_dec",
   "ClassicalDedekindReals.sig_not_dec",
   "Classical_Prop.classic",
   "FunctionalExtensionality.functional_extensionality_dep"
  ],
  "C63_components": [],
  "C63_none_accepts": [
   "ClassicalDedekindReals.sig_forall_dec",
   "FunctionalExtensionality.functional_extensionality_dep"
  ],
  "C63_none_double": [
   "ClassicalDedekindReals.sig_forall_dec",
   "FunctionalExtensionality.functional_extensionality_dep"
  ],
  "C63_none_is_not_checked": [
   "ClassicalDedekindReals.sig_forall_dec",
   "FunctionalExtensionality.functional_extensionality_dep"
  ],
  "C63_none_rsws_raises": [
   "ClassicalDedekindReals.sig_forall_dec",
   "FunctionalExtensionality.functional_extensionality_dep"
  ],
  "C63_none_success_unstable": [
   "ClassicalDedekindReals.sig_forall_dec",
   "ClassicalDedekindReals.sig_not_dec",
   "Classical_Prop.classic",
   "FunctionalExtensionality.functional_extensionality_dep"
  ],
  "C63_parser": [],
  "C63_translator": [],
  "C64_accepts": [],
  "C64_meaning": [
   "ClassicalDedekindReals.sig_forall_dec",
   "ClassicalDedekindReals.sig_not_dec",
   "FunctionalExtensionality.functional_extensionality_dep"
  ],
  "C64_zero_exponent_refuted": [
   "ClassicalDedekindReals.sig_forall_dec",
   "ClassicalDedekindReals.sig_not_dec",
   "FunctionalExtensionality.functional_extensionality_dep"
  ],
  "C65_available": [],
  "C65_benchmarks": [],
  "C65_merged": [],
  "C65_order": [],
  "C65_success_rate": [],
  "C65_table": [],
  "C66_closable": [],
  "C66_closed_loop": [
   "ClassicalDedekindReals.sig_forall_dec",
   "ClassicalDedekindReals.sig_not_dec",
   "Classical_Prop.classic",
   "FunctionalExtensionality.functional_extensionality_dep"
  ],
  "C66_declared": [],
  "C66_euler": [
   "ClassicalDedekindReals.sig_forall_dec",
   "ClassicalDedekindReals.sig_not_dec",
   "Classical_Prop.classic",
   "FunctionalExtensionality.functional_extensionality_dep"
  ],
  "C66_history": [
   "ClassicalDedekindReals.sig_forall_dec",
   "ClassicalDedekindReals.sig_not_dec",
   "Classical_Prop.classic",
   "FunctionalExtensionality.functional_extensionality_dep"
  ],
  "C66_history_closed": [
   "ClassicalDedekindReals.sig_forall_dec",
   "ClassicalDedekindReals.sig_not_dec",
   "Classical_Prop.classic",
   "FunctionalExtensionality.functional_extensionality_dep"
  ],
  "C66_lqr": [
   "ClassicalDedekindReals.sig_forall_dec",
   "ClassicalDedekindReals.sig_not_dec",
   "Classical_Prop.classic",
   "FunctionalExtensionality.functional_extensionality_dep"
  ],
  "C66_missing_function": [
   "ClassicalDedekindReals.sig_forall_dec",
   "ClassicalDedekindReals.sig_not_dec",
   "Classical_Prop.classic",
   "FunctionalExtensionality.functional_extensionality_dep"
  ],
  "C66_one_field": [
   "ClassicalDedekindReals.sig_forall_dec",
   "ClassicalDedekindReals.sig_not_dec",
   "Classical_Prop.classic",
   "FunctionalExtensionality.functional_extensionality_dep"
  ],
  "C66_satellite_raises": [
   "ClassicalDedekindReals.sig_forall_dec",
   "FunctionalExtensionality.functional_extensionality_dep"
  ],
  "C66_shipped": [
   "ClassicalDedekindReals.sig_forall_dec",
   "ClassicalDedekindReals.sig_not_dec",
   "Classical_Prop.classic",
   "FunctionalExtensionality.functional_extensionality_dep"
  ],
  "C66_silent_none": [
   "ClassicalDedekindReals.sig_forall_dec",
   "ClassicalDedekindReals.sig_not_dec",
   "Classical_Prop.classic",
   "FunctionalExtensionality.functional_extensionality_dep"
  ],
  "C66_transposed_refuted": [
   "ClassicalDedekindReals.sig_forall_dec",
   "ClassicalDedekindReals.sig_not_dec",
   "Classical_Prop.classic",
   "FunctionalExtensionality.functional_extensionality_dep"
  ],
  "C67_example_class_stability": [
   "ClassicalDedekindReals.sig_forall_dec",
   "ClassicalDedekindReals.sig_not_dec",
   "Classical_Prop.classic",
   "FunctionalExtensionality.functional_extensionality_dep"
  ],
  "C67_grouping": [
   "ClassicalDedekindReals.sig_forall_dec",
   "ClassicalDedekindReals.sig_not_dec",
   "Classical_Prop.classic",
   "FunctionalExtensionality.functional_extensionality_dep"
  ],
  "C67_keys_need_data": [
   "ClassicalDedekindReals.sig_forall_dec",
   "FunctionalExtensionality.functional_extensionality_dep"
  ],
  "C67_nothing_asked": [
   "ClassicalDedekindReals.sig_forall_dec",
   "FunctionalExtensionality.functional_extensionality_dep"
  ],
  "C67_refused": [
   "ClassicalDedekindReals.sig_forall_dec",
   "FunctionalExtensionality.functional_extensionality_dep"
  ],
  "C67_repeated_key_refuted": [
   "ClassicalDedekindReals.sig_forall_dec",
   "ClassicalDedekindReals.sig_not_dec",
   "Classical_Prop.classic",
   "FunctionalExtensionality.functional_extensionality_dep"
  ],
  "C67_same_as_builtin": [
   "ClassicalDedekindReals.sig_forall_dec",
   "FunctionalExtensionality.functional_extensionality_dep"
  ],
  "C67_single_dictionary_refuted": [
   "ClassicalDedekindReals.sig_forall_dec",
   "FunctionalExtensionality.functional_extensionality_dep"
  ],
  "C67_success": [
   "ClassicalDedekindReals.sig_forall_dec",
   "ClassicalDedekindReals.sig_not_dec",
   "Classical_Prop.classic",
   "FunctionalExtensionality.functional_extensionality_dep"
  ],
  "C68_input_dependent_refused": [
   "ClassicalDedekindReals.sig_forall_dec",
   "ClassicalDedekindReals.sig_not_dec",
   "Classical_Prop.classic",
   "FunctionalExtensionality.functional_extensionality_dep"
  ],
  "C68_linearisation": [
   "ClassicalDedekindReals.sig_forall_dec",
   "ClassicalDedekindReals.sig_not_dec",
   "Classical_Prop.classic",
   "FunctionalExtensionality.functional_extensionality_dep"
  ],
  "C68_not_an_equilibrium": [
   "ClassicalDedekindReals.sig_forall_dec",
   "ClassicalDedekindReals.sig_not_dec",
   "Classical_Prop.classic",
   "FunctionalExtensionality.functional_extensionality_dep"
  ],
  "C68_partial_derivatives": [
   "ClassicalDedekindReals.sig_forall_dec",
   "ClassicalDedekindReals.sig_not_dec",
   "Classical_Prop.classic",
   "FunctionalExtensionality.functional_extensionality_dep"
  ],
  "C68_polynomials_accepted": [
   "ClassicalDedekindReals.sig_forall_dec",
   "ClassicalDedekindReals.sig_not_dec",
   "Classical_Prop.classic",
   "FunctionalExtensionality.functional_extensionality_dep"
  ],
  "C69_is_stable": [
   "ClassicalDedekindReals.sig_forall_dec",
   "ClassicalDedekindReals.sig_not_dec",
   "Classical_Prop.classic",
   "FunctionalExtensionality.functional_extensionality_dep"
  ],
  "C69_is_sufficiently_stable": [
   "ClassicalDedekindReals.sig_forall_dec",
   "ClassicalDedekindReals.sig_not_dec",
   "Classical_Prop.classic",
   "FunctionalExtensionality.functional_extensionality_dep"
  ],
  "C69_model": [
   "ClassicalDedekindReals.sig_forall_dec",
   "ClassicalDedekindReals.sig_not_dec",
   "Classical_Prop.classic",
   "FunctionalExtensionality.functional_extensionality_dep"
  ],
  "C69_worst_pole": [
   "ClassicalDedekindReals.sig_forall_dec",
   "ClassicalDedekindReals.sig_not_dec",
   "Classical_Prop.classic",
   "FunctionalExtensionality.functional_extensionality_dep"
  ],
  "C70_construction": [
   "ClassicalDedekindReals.sig_forall_dec",
   "FunctionalExtensionality.functional_extensionality_dep"
  ],
  "C70_cost": [
   "ClassicalDedekindReals.sig_forall_dec",
   "ClassicalDedekindReals.sig_not_dec",
   "Classical_Prop.classic",
   "FunctionalExtensionality.functional_extensionality_dep"
  ],
  "C70_equation_is_not_enough": [
   "ClassicalDedekindReals.sig_forall_dec",
   "ClassicalDedekindReals.sig_not_dec",
   "Classical_Prop.classic",
   "FunctionalExtensionality.functional_extensionality_dep"
  ],
  "C70_gain": [
   "ClassicalDedekindReals.sig_forall_dec",
   "FunctionalExtensionality.functional_extensionality_dep"
  ],
  "C70_nonlinear": [
   "ClassicalDedekindReals.sig_forall_dec",
   "ClassicalDedekindReals.sig_not_dec",
   "Classical_Prop.classic",
   "FunctionalExtensionality.functional_extensionality_dep"
  ],
  "C70_optimal": [
   "ClassicalDedekindReals.sig_forall_dec",
   "ClassicalDedekindReals.sig_not_dec",
   "Classical_Prop.classic",
   "FunctionalExtensionality.functional_extensionality_dep"
  ],
  "C70_stabilising": [
   "ClassicalDedekindReals.sig_forall_dec",
   "ClassicalDedekindReals.sig_not_dec",
   "Classical_Prop.classic",
   "FunctionalExtensionality.functional_extensionality_dep"
  ],
  "C70_stable": [
   "ClassicalDedekindReals.sig_forall_dec",
   "ClassicalDedekindReals.sig_not_dec",
   "Classical_Prop.classic",
   "FunctionalExtensionality.functional_extensionality_dep"
  ],
  "C71_conflict": [
   "ClassicalDedekindReals.sig_forall_dec",
   "ClassicalDedekindReals.sig_not_dec",
   "FunctionalExtensionality.functional_extensionality_dep"
  ],
  "C71_discrete": [
   "ClassicalDedekindReals.sig_forall_dec",
   "ClassicalDedekindReals.sig_not_dec",
   "FunctionalExtensionality.functional_extensionality_dep"
  ],
  "C71_discrete_runs": [
   "ClassicalDedekindReals.sig_forall_dec",
   "FunctionalExtensionality.functional_extensionality_dep"
  ],
  "C71_distance": [
   "ClassicalDedekindReals.sig_forall_dec",
   "ClassicalDedekindReals.sig_not_dec",
   "FunctionalExtensionality.functional_extensionality_dep"
  ],
  "C71_extremes": [
   "ClassicalDedekindReals.sig_forall_dec",
   "ClassicalDedekindReals.sig_not_dec",
   "FunctionalExtensionality.functional_extensionality_dep"
  ],
  "C71_goal": [
   "ClassicalDedekindReals.sig_forall_dec",
   "ClassicalDedekindReals.sig_not_dec",
   "FunctionalExtensionality.functional_extensionality_dep"
  ],
  "C71_loss": [
   "ClassicalDedekindReals.sig_forall_dec",
   "ClassicalDedekindReals.sig_not_dec",
   "Classical_Prop.classic",
   "FunctionalExtensionality.functional_extensionality_dep"
  ],
  "C71_others": [
   "ClassicalDedekindReals.sig_forall_dec",
   "ClassicalDedekindReals.sig_not_dec",
   "Classical_Prop.classic",
   "FunctionalExtensionality.functional_extensionality_dep"
  ],
  "C71_range": [
   "ClassicalDedekindReals.sig_forall_dec",
   "ClassicalDedekindReals.sig_not_dec",
   "FunctionalExtensionality.functional_extensionality_dep"
  ],
  "C71_stop_lyapunov": [
   "ClassicalDedekindReals.sig_forall_dec",
   "ClassicalDedekindReals.sig_not_dec",
   "FunctionalExtensionality.functional_extensionality_dep"
  ],
  "C71_stop_reach": [
   "ClassicalDedekindReals.sig_forall_dec",
   "ClassicalDedekindReals.sig_not_dec",
   "Classical_Prop.classic",
   "FunctionalExtensionality.functional_extensionality_dep"
  ],
  "C71_stop_remain": [
   "ClassicalDedekindReals.sig_forall_dec",
   "ClassicalDedekindReals.sig_not_dec",
   "Classical_Prop.classic",
   "FunctionalExtensionality.functional_extensionality_dep"
  ],
  "C72_attraction": [
   "ClassicalDedekindReals.sig_forall_dec",
   "ClassicalDedekindReals.sig_not_dec",
   "Classical_Prop.classic",
   "FunctionalExtensionality.functional_extensionality_dep"
  ],
  "C72_quadrotor": [
   "ClassicalDedekindReals.sig_forall_dec",
   "ClassicalDedekindReals.sig_not_dec",
   "Classical_Prop.classic",
   "FunctionalExtensionality.functional_extensionality_dep"
  ],
  "C72_reach": [
   "ClassicalDedekindReals.sig_forall_dec",
   "ClassicalDedekindReals.sig_not_dec",
   "Classical_Prop.classic",
   "FunctionalExtensionality.functional_extensionality_dep"
  ],
  "C72_reach_stay": [
   "ClassicalDedekindReals.sig_forall_dec",
   "ClassicalDedekindReals.sig_not_dec",
   "Classical_Prop.classic",
   "FunctionalExtensionality.functional_extensionality_dep"
  ],
  "C72_remain": [
   "ClassicalDedekindReals.sig_forall_dec",
   "ClassicalDedekindReals.sig_not_dec",
   "Classical_Prop.classic",
   "FunctionalExtensionality.functional_extensionality_dep"
  ],
  "C72_ring": [
   "ClassicalDedekindReals.sig_forall_dec",
   "ClassicalDedekindReals.sig_not_dec",
   "Classical_Prop.classic",
   "FunctionalExtensionality.functional_extensionality_dep"
  ],
  "C72_ring_discrete": [
   "ClassicalDedekindReals.sig_forall_dec",
   "ClassicalDedekindReals.sig_not_dec",
   "Classical_Prop.classic",
   "FunctionalExtensionality.functional_extensionality_dep"
  ],
  "C72_safety": [
   "ClassicalDedekindReals.sig_forall_dec",
   "ClassicalDedekindReals.sig_not_dec",
   "Classical_Prop.classic",
   "FunctionalExtensionality.functional_extensionality_dep"
  ],
  "C72_safety_discrete": [
   "ClassicalDedekindReals.sig_forall_dec",
   "ClassicalDedekindReals.sig_not_dec",
   "Classical_Prop.classic",
   "FunctionalExtensionality.functional_extensionality_dep"
  ],
  "C72_settings": [
   "ClassicalDedekindReals.sig_forall_dec",
   "ClassicalDedekindReals.sig_not_dec",
   "Classical_Prop.classic",
   "FunctionalExtensionality.functional_extensionality_dep"
  ],
  "C72_simulation": [
   "ClassicalDedekindReals.sig_forall_dec",
   "ClassicalDedekindReals.sig_not_dec",
   "Classical_Prop.classic",
   "FunctionalExtensionality.functional_extensionality_dep"
  ],
  "C72_stabsafe": [
   "ClassicalDedekindReals.sig_forall_dec",
   "ClassicalDedekindReals.sig_not_dec",
   "Classical_Prop.classic",
   "FunctionalExtensionality.functional_extensionality_dep"
  ],
  "C72_stabsafe_attraction": [
   "ClassicalDedekindReals.sig_forall_dec",
   "ClassicalDedekindReals.sig_not_dec",
   "Classical_Prop.classic",
   "FunctionalExtensionality.functional_extensionality_dep"
  ],
  "C72_stabsafe_forever": [
   "ClassicalDedekindReals.sig_forall_dec",
   "ClassicalDedekindReals.sig_not_dec",
   "Classical_Prop.classic",
   "FunctionalExtensionality.functional_extensionality_dep"
  ],
  "C72_start": [
   "ClassicalDedekindReals.sig_forall_dec",
   "ClassicalDedekindReals.sig_not_dec",
   "Classical_Prop.classic",
   "FunctionalExtensionality.functional_extensionality_dep"
  ],
  "C73_attraction_refuted": [
   "ClassicalDedekindReals.sig_forall_dec",
   "ClassicalDedekindReals.sig_not_dec",
   "Classical_Prop.classic",
   "FunctionalExtensionality.functional_extensionality_dep"
  ],
  "C73_barrier": [
   "ClassicalDedekindReals.sig_forall_dec",
   "ClassicalDedekindReals.sig_not_dec",
   "Classical_Prop.classic",
   "FunctionalExtensionality.functional_extensionality_dep"
  ],
  "C73_lyapunov": [
   "ClassicalDedekindReals.sig_forall_dec",
   "ClassicalDedekindReals.sig_not_dec",
   "Classical_Prop.classic",
   "FunctionalExtensionality.functional_extensionality_dep"
  ],
  "C73_pendulum": [
   "ClassicalDedekindReals.sig_forall_dec",
   "ClassicalDedekindReals.sig_not_dec",
   "Classical_Prop.classic",
   "FunctionalExtensionality.functional_extensionality_dep"
  ],
  "C73_reach": [
   "ClassicalDedekindReals.sig_forall_dec",
   "ClassicalDedekindReals.sig_not_dec",
   "Classical_Prop.classic",
   "FunctionalExtensionality.functional_extensionality_dep"
  ],
  "C73_remain": [
   "ClassicalDedekindReals.sig_forall_dec",
   "ClassicalDedekindReals.sig_not_dec",
   "Classical_Prop.classic",
   "FunctionalExtensionality.functional_extensionality_dep"
  ],
  "C73_stable_safe": [
   "ClassicalDedekindReals.sig_forall_dec",
   "ClassicalDedekindReals.sig_not_dec",
   "Classical_Prop.classic",
   "FunctionalExtensionality.functional_extensionality_dep"
  ],
  "C73_start": [
   "ClassicalDedekindReals.sig_forall_dec",
   "ClassicalDedekindReals.sig_not_dec",
   "Classical_Prop.classic",
   "FunctionalExtensionality.functional_extensionality_dep"
  ],
  "C73_stay_refuted": [
   "ClassicalDedekindReals.sig_forall_dec",
   "ClassicalDedekindReals.sig_not_dec",
   "Classical_Prop.classic",
   "FunctionalExtensionality.functional_extensionality_dep"
  ],
  "C73_verify": [
   "ClassicalDedekindReals.sig_forall_dec",
   "ClassicalDedekindReals.sig_not_dec",
   "Classical_Prop.classic",
   "FunctionalExtensionality.functional_extensionality_dep"
  ],
  "C74_each_matters": [
   "ClassicalDedekindReals.sig_forall_dec",
   "ClassicalDedekindReals.sig_not_dec",
   "Classical_Prop.classic",
   "FunctionalExtensionality.functional_extensionality_dep"
  ],
  "C74_same_run": [
   "ClassicalDedekindReals.sig_forall_dec",
   "ClassicalDedekindReals.sig_not_dec",
   "Classical_Prop.classic",
   "FunctionalExtensionality.functional_extensionality_dep"
  ],
  "C75_refused": [
   "ClassicalDedekindReals.sig_forall_dec",
   "ClassicalDedekindReals.sig_not_dec",
   "Classical_Prop.classic",
   "FunctionalExtensionality.functional_extensionality_dep"
  ],
  "C75_returns": [
   "ClassicalDedekindReals.sig_forall_dec",
   "ClassicalDedekindReals.sig_not_dec",
   "Classical_Prop.classic",
   "FunctionalExtensionality.functional_extensionality_dep"
  ],
  "C75_returns_two": [
   "ClassicalDedekindReals.sig_forall_dec",
   "ClassicalDedekindReals.sig_not_dec",
   "Classical_Prop.classic",
   "FunctionalExtensionality.functional_extensionality_dep"
  ],
  "C75_starts": [
   "ClassicalDedekindReals.sig_forall_dec",
   "ClassicalDedekindReals.sig_not_dec",
   "Classical_Prop.classic",
   "FunctionalExtensionality.functional_extensionality_dep"
  ],
  "C76_document": [
   "ClassicalDedekindReals.sig_forall_dec",
   "ClassicalDedekindReals.sig_not_dec",
   "Classical_Prop.classic",
   "FunctionalExtensionality.functional_extensionality_dep"
  ],
  "C76_document_two": [
   "ClassicalDedekindReals.sig_forall_dec",
   "ClassicalDedekindReals.sig_not_dec",
   "Classical_Prop.classic",
   "FunctionalExtensionality.functional_extensionality_dep"
  ],
  "C76_success_iff_valid": [
   "ClassicalDedekindReals.sig_forall_dec",
   "ClassicalDedekindReals.sig_not_dec",
   "Classical_Prop.classic",
   "FunctionalExtensionality.functional_extensionality_dep"
  ],
  "C76_success_iff_valid_two": [
   "ClassicalDedekindReals.sig_forall_dec",
   "ClassicalDedekindReals.sig_not_dec",
   "Classical_Prop.classic",
   "FunctionalExtensionality.functional_extensionality_dep"
  ],
  "C77_counterexamples_respected": [
   "ClassicalDedekindReals.sig_forall_dec",
   "ClassicalDedekindReals.sig_not_dec",
   "Classical_Prop.classic",
   "FunctionalExtensionality.functional_extensionality_dep"
  ],
  "C77_counterexamples_respected_two": [
   "ClassicalDedekindReals.sig_forall_dec",
   "ClassicalDedekindReals.sig_not_dec",
   "Classical_Prop.classic",
   "FunctionalExtensionality.functional_extensionality_dep"
  ],
  "C77_document": [
   "ClassicalDedekindReals.sig_forall_dec",
   "ClassicalDedekindReals.sig_not_dec",
   "Classical_Prop.classic",
   "FunctionalExtensionality.functional_extensionality_dep"
  ],
  "C77_document_two": [
   "ClassicalDedekindReals.sig_forall_dec",
   "ClassicalDedekindReals.sig_not_dec",
   "Classical_Prop.classic",
   "FunctionalExtensionality.functional_extensionality_dep"
  ],
  "C77_equality_refuted": [
   "ClassicalDedekindReals.sig_forall_dec",
   "ClassicalDedekindReals.sig_not_dec",
   "Classical_Prop.classic",
   "FunctionalExtensionality.functional_extensionality_dep"
  ],
  "C77_kept": [
   "ClassicalDedekindReals.sig_forall_dec",
   "FunctionalExtensionality.functional_extensionality_dep"
  ],
  "C77_kept_two": [
   "ClassicalDedekindReals.sig_forall_dec",
   "FunctionalExtensionality.functional_extensionality_dep"
  ],
  "C77_rounding_refuted": [
   "ClassicalDedekindReals.sig_forall_dec",
   "ClassicalDedekindReals.sig_not_dec",
   "Classical_Prop.classic",
   "FunctionalExtensionality.functional_extensionality_dep"
  ],
  "C77_samples_respected": [
   "ClassicalDedekindReals.sig_forall_dec",
   "ClassicalDedekindReals.sig_not_dec",
   "Classical_Prop.classic",
   "FunctionalExtensionality.functional_extensionality_dep"
  ],
  "C77_samples_respected_two": [
   "ClassicalDedekindReals.sig_forall_dec",
   "ClassicalDedekindReals.sig_not_dec",
   "Classical_Prop.classic",
   "FunctionalExtensionality.functional_extensionality_dep"
  ],
  "C77_training_ends": [
   "ClassicalDedekindReals.sig_forall_dec",
   "FunctionalExtensionality.functional_extensionality_dep"
  ],
  "C77_training_ends_two": [
   "ClassicalDedekindReals.sig_forall_dec",
   "FunctionalExtensionality.functional_extensionality_dep"
  ],
  "C78_backup_data_refuted": [
   "ClassicalDedekindReals.sig_forall_dec",
   "ClassicalDedekindReals.sig_not_dec",
   "Classical_Prop.classic",
   "FunctionalExtensionality.functional_extensionality_dep"
  ],
  "C78_document": [
   "ClassicalDedekindReals.sig_forall_dec",
   "ClassicalDedekindReals.sig_not_dec",
   "Classical_Prop.classic",
   "FunctionalExtensionality.functional_extensionality_dep"
  ],
  "C78_document_two": [
   "ClassicalDedekindReals.sig_forall_dec",
   "ClassicalDedekindReals.sig_not_dec",
   "Classical_Prop.classic",
   "FunctionalExtensionality.functional_extensionality_dep"
  ],
  "C78_margin": [
   "ClassicalDedekindReals.sig_forall_dec",
   "ClassicalDedekindReals.sig_not_dec",
   "Classical_Prop.classic",
   "FunctionalExtensionality.functional_extensionality_dep"
  ],
  "C78_new_counterexample": [
   "ClassicalDedekindReals.sig_forall_dec",
   "ClassicalDedekindReals.sig_not_dec",
   "Classical_Prop.classic",
   "FunctionalExtensionality.functional_extensionality_dep"
  ],
  "C78_new_counterexample_two": [
   "ClassicalDedekindReals.sig_forall_dec",
   "ClassicalDedekindReals.sig_not_dec",
   "Classical_Prop.classic",
   "FunctionalExtensionality.functional_extensionality_dep"
  ],
  "C78_rounding_refuted": [
   "ClassicalDedekindReals.sig_forall_dec",
   "ClassicalDedekindReals.sig_not_dec",
   "Classical_Prop.classic",
   "FunctionalExtensionality.functional_extensionality_dep"
  ],
  "C78_terminates": [
   "ClassicalDedekindReals.sig_forall_dec",
   "ClassicalDedekindReals.sig_not_dec",
   "Classical_Prop.classic",
   "FunctionalExtensionality.functional_extensionality_dep"
  ],
  "C78_terminates_two": [
   "ClassicalDedekindReals.sig_forall_dec",
   "ClassicalDedekindReals.sig_not_dec",
   "Classical_Prop.classic",
   "FunctionalExtensionality.functional_extensionality_dep"
  ],
  "C79_complement_refuted": [
   "ClassicalDedekindReals.sig_forall_dec",
   "ClassicalDedekindReals.sig_not_dec",
   "FunctionalExtensionality.functional_extensionality_dep"
  ],
  "C79_contained_is_zero": [
   "ClassicalDedekindReals.sig_forall_dec",
   "ClassicalDedekindReals.sig_not_dec",
   "FunctionalExtensionality.functional_extensionality_dep"
  ],
  "C79_dim_select_raises": [
   "ClassicalDedekindReals.sig_forall_dec",
   "ClassicalDedekindReals.sig_not_dec",
   "FunctionalExtensionality.functional_extensionality_dep"
  ],
  "C79_open_refuted": [
   "ClassicalDedekindReals.sig_forall_dec",
   "ClassicalDedekindReals.sig_not_dec",
   "FunctionalExtensionality.functional_extensionality_dep"
  ],
  "C79_rectangle_refuted": [
   "ClassicalDedekindReals.sig_forall_dec",
   "ClassicalDedekindReals.sig_not_dec",
   "FunctionalExtensionality.functional_extensionality_dep"
  ],
  "C79_zero_iff_contained": [
   "ClassicalDedekindReals.sig_forall_dec",
   "ClassicalDedekindReals.sig_not_dec",
   "FunctionalExtensionality.functional_extensionality_dep"
  ],
  "C79_zero_iff_member": [
   "ClassicalDedekindReals.sig_forall_dec",
   "ClassicalDedekindReals.sig_not_dec",
   "FunctionalExtensionality.functional_extensionality_dep"
  ]
 },
 "file": {
  "C01_all_refuted_is_found": "P_Verifier",
  "C01_certificate_labels_distinct": "P_Verifier",
  "C01_found_refutes_every_condition": "P_Verifier",
  "C01_stablesafe_refuted": "P_Verifier",
  "C02_no_counterexample_unless_sat": "P_Verifier",
  "C02_unknown_is_not_success": "P_Verifier",
  "C03_counterexample_keys": "P_Verifier",
  "C03_counterexample_shape": "P_Verifier",
  "C04_groups_evaluated_in_order": "P_Verifier",
  "C04_unreached_groups_irrelevant": "P_Verifier",
  "C05_dreal_accepts_only_if_no_bounded_solution": "P_Verifier",
  "C05_dreal_sound_on_bounded_conditions": "P_Verifier",
  "C05_dreal_unbounded_refuted": "P_Verifier",
  "C06_lyapunov_obligations": "P_Certificates",
  "C07_roa_obligations": "P_Certificates",
  "C08_barrier_obligations": "P_Certificates",
  "C09_barrier_alt_obligations": "P_Certificates",
  "C10_rws_obligations": "P_Certificates",
  "C11_beta_search_false_no_beta": "P_BetaSearch",
  "C11_beta_search_true": "P_BetaSearch",
  "C12_rar_labels": "P_Certificates",
  "C12_rar_obligations": "P_Certificates",
  "C12_stablesafe_obligations": "P_Certificates",
  "C13_lyapunov_stability": "P_Stability",
  "C13_unstable_system_certified": "P_Stability",
  "C13_unstable_system_certified_by_network": "P_TranslatorBugs",
  "C14_lyapunov_discrete_convergence": "P_Stability",
  "C14_lyapunov_discrete_decrease": "P_Stability",
  "C15_barrier_safety": "P_Safety",
  "C16_barrier_alt_safety_continuous": "P_Safety",
  "C16_barrier_alt_safety_discrete": "P_Safety",
  "C17_rws_reach_while_stay": "P_Safety",
  "C18_rsws_reach_and_stay": "P_Safety",
  "C19_edge_escape_without_llo": "P_Stability",
  "C19_no_attraction_without_llo": "P_Stability",
  "C19_roa_llo_attraction": "P_Stability",
  "C19_roa_llo_decrease": "P_Stability",
  "C19_roa_nonincreasing": "P_Stability",
  "C20_rar_reach_avoid_remain": "P_Safety",
  "C21_dreal_always_translates": "P_Translator",
  "C21_rounding": "P_Translator",
  "C21_verified_function": "P_Translator",
  "C22_cvc5_rounding_refuted": "P_TranslatorBugs",
  "C22_derivative_along_trajectories": "P_Translator",
  "C22_relu_kink_unsound": "P_TranslatorBugs",
  "C22_smooth_networks": "P_Translator",
  "C23_discrete_difference": "P_Translator",
  "C23_discrete_function": "P_Translator",
  "C23_quadratic_factor_refuted": "P_TranslatorBugs",
  "C23_rounding_zero_fails": "P_Translator",
  "C24_defined_together": "P_Activations",
  "C24_derivative": "P_Activations",
  "C25_even_poly_refuted": "P_Activations",
  "C25_name_implemented": "P_Activations",
  "C25_polynomial_names": "P_Activations",
  "C25_requ_refuted": "P_Activations",
  "C25_softplus_gap": "P_Activations",
  "C25_symbolic_agrees_with_numeric": "P_Activations",
  "C25_unsupported": "P_Activations",
  "C26_candidate_nonnegative": "P_LLO",
  "C26_hypotheses_met": "P_LLO",
  "C26_layer_as_drawn": "P_LLO",
  "C26_layer_of_ones": "P_LLO",
  "C26_llo_positivity": "P_LLO",
  "C26_llo_positivity_discrete": "P_LLO",
  "C26_llo_positivity_roa": "P_LLO",
  "C26_stablesafe_sign_refuted": "P_LLO",
  "C26_warning_only_refuted": "P_LLO",
  "C27_complement": "P_Domains",
  "C27_formula_denotes_set": "P_Domains",
  "C28_containment_agrees": "P_Domains",
  "C28_sphere_refuted": "P_Domains",
  "C29_border_count": "P_Sampling",
  "C29_border_dim1_refuted": "P_Sampling",
  "C29_border_samples": "P_Sampling",
  "C29_border_samples_on_boundary": "P_Sampling",
  "C29_can_sample": "P_Sampling",
  "C29_cannot_sample": "P_Sampling",
  "C29_hole_refuted": "P_Sampling",
  "C29_open_rectangle_refuted": "P_Sampling",
  "C29_open_sphere_refuted": "P_Sampling",
  "C29_row_count": "P_Sampling",
  "C29_samples_in_set": "P_Sampling",
  "C29_sphere_dim1_refuted": "P_Sampling",
  "C29_sphere_dim4_refuted": "P_Sampling",
  "C29_torus_refuted": "P_Sampling",
  "C30_boundary_covers": "P_Domains",
  "C30_interior_boundary_partition": "P_Domains",
  "C30_leaving_crosses_boundary": "P_Domains",
  "C30_open_rectangle_refuted": "P_Domains",
  "C31_iteration_budget": "P_Cegis",
  "C31_negative_budget_runs_forever": "P_Cegis",
  "C31_returns_a_result": "P_Cegis",
  "C32_first_success_is_returned": "P_Cegis",
  "C32_result_was_verified": "P_Cegis",
  "C32_rswa_skips_stay": "P_Cegis",
  "C33_counterexamples_are_added": "P_Cegis",
  "C33_data_only_grows": "P_Cegis",
  "C33_reported_sample_count": "P_Cegis",
  "C34_search_can_diverge": "P_BetaSearch",
  "C34_search_terminates_when_admissible_interval": "P_BetaSearch",
  "C34_unknown_is_an_error": "P_BetaSearch",
  "C35_trajectory": "P_Consolidator",
  "C36_hangs": "P_Supervisor",
  "C36_never_returns": "P_Supervisor",
  "C36_returned_result": "P_Supervisor",
  "C36_returns": "P_Supervisor",
  "C37_accepted": "P_Parser",
  "C37_argument_rejected": "P_Parser",
  "C37_characters": "P_Lexer",
  "C37_characters_accepted": "P_Lexer",
  "C37_characters_example": "P_Lexer",
  "C37_minus_power": "P_Parser",
  "C37_minus_power_accepted": "P_Parser",
  "C37_paren_minus_rejected": "P_Parser",
  "C37_sympy_logarithm": "P_Parser",
  "C37_sympy_square_root": "P_Parser",
  "C37_usual_precedence": "P_Parser",
  "C38_constant_refused": "P_Variables",
  "C38_constant_refused_numbers": "P_Variables",
  "C38_controllable": "P_Variables",
  "C38_dreal_repeated": "P_Variables",
  "C38_numbers": "P_Variables",
  "C38_numbers_beyond_ten": "P_Variables",
  "C38_numbers_missing": "P_Variables",
  "C38_same_system": "P_Variables",
  "C38_symbols": "P_Variables",
  "C38_symbols_missing": "P_Variables",
  "C39_advertised_api": "P_Labels",
  "C39_check_is_exact": "P_Labels",
  "C39_command_line": "P_Labels",
  "C39_condition_labels_have_data": "P_Labels",
  "C39_conditions_use_required_sets": "P_Labels",
  "C39_counterexamples_have_data": "P_Labels",
  "C39_scalar_n_data": "P_Labels",
  "C39_time_domain": "P_Labels",
  "C40_barrier": "P_Learning",
  "C40_lyapunov_roa": "P_Learning",
  "C40_rar": "P_Learning",
  "C40_rar_command_line_images": "P_Labels",
  "C40_rar_command_line_order": "P_Labels",
  "C40_rar_wrong_images": "P_Learning",
  "C40_rsws": "P_Learning",
  "C40_rws": "P_Learning",
  "C40_stablesafe_in_order": "P_Learning",
  "C40_stablesafe_mislabelled": "P_Learning",
  "C41_barrier": "P_Learning",
  "C41_barrier_alt": "P_Learning",
  "C41_barrier_samples": "P_Learning",
  "C41_barrier_small": "P_Learning",
  "C41_lyapunov_roa": "P_Learning",
  "C41_lyapunov_roa_samples": "P_Learning",
  "C41_rar": "P_Learning",
  "C41_rws": "P_Learning",
  "C41_rws_samples": "P_Learning",
  "C41_tolerance": "P_Learning",
  "C41_training_stops": "P_Training",
  "C41_training_stops_twice": "P_Training",
  "C42_exact_with_five_decimals": "P_Control",
  "C42_numeric_closed_loop": "P_Control",
  "C42_rounding_error": "P_Control",
  "C42_success_certifies_rounded_controller": "P_Control",
  "C42_unrounded_controller_unstable": "P_Control",
  "C42_verified_closed_loop": "P_Control",
  "C43_average_of_zero_intervals": "P_Timer",
  "C43_decorator": "P_Timer",
  "C43_statistics": "P_Timer",
  "C43_stop_needs_start": "P_Timer",
  "C44_file": "P_Recorder",
  "C44_names": "P_Recorder",
  "C44_recorded": "P_Recorder",
  "C44_recording_raises": "P_Recorder",
  "C44_row_matches_header": "P_Recorder",
  "C45_lyapunov_discrete_success_means_convergence": "P_Fossil",
  "C45_lyapunov_success_means_stability": "P_Fossil",
  "C46_barrier_success_means_safety": "P_Fossil",
  "C46_barrier_success_means_safety_discrete": "P_Fossil",
  "C47_roa_success_means_attraction": "P_Fossil",
  "C48_reach_and_stay": "P_Fossil",
  "C48_reach_while_stay": "P_Fossil",
  "C49_barrier_success_unsafe_relu": "P_FossilExamples",
  "C49_discrete_success_grows": "P_FossilExamples",
  "C49_lyapunov_success_unstable": "P_FossilExamples",
  "C49_rswa_success_leaves_goal": "P_FossilExamples",
  "C50_goal_level_ignores_factor": "P_Training",
  "C50_goal_level_is_minimum": "P_Training",
  "C50_level_is_maximum": "P_Training",
  "C50_quadratic_factor_ignored": "P_Training",
  "C51_activations": "P_Training",
  "C51_barrier": "P_Training",
  "C51_barrier_alt": "P_Training",
  "C51_barrier_zero": "P_Training",
  "C51_beta": "P_Training",
  "C51_lyapunov": "P_Training",
  "C51_rws": "P_Training",
  "C52_rar_success_means_reach_avoid_remain": "P_Double",
  "C52_stablesafe_success_means_attraction": "P_Double",
  "C52_stablesafe_success_means_safety": "P_Double",
  "C53_frozen_certificate_is_valid": "P_Double",
  "C53_frozen_network_never_changes": "P_Double",
  "C53_undecided_certificate_frozen_refuted": "P_DoubleExamples",
  "C54_barrier_candidate_safe": "P_Verify",
  "C54_candidate_lie_derivative": "P_Verify",
  "C54_discrete_candidate_refuted": "P_Verify",
  "C54_llo_candidate_refuted": "P_Verify",
  "C54_lyapunov_candidate_stable": "P_Verify",
  "C54_other_candidates_raise": "P_Verify",
  "C54_reach_while_stay_candidate": "P_Verify",
  "C54_stay_candidate_refuted": "P_Verify",
  "C55_activation_backward": "P_Gradient",
  "C55_discrete_factor_refuted": "P_Gradient",
  "C55_double_factor_refuted": "P_Gradient",
  "C55_gradient": "P_Gradient",
  "C55_learner_agrees": "P_Gradient",
  "C55_learner_agrees_discrete": "P_Gradient",
  "C55_lyapunov_training": "P_Gradient",
  "C55_softplus_refuted": "P_Gradient",
  "C56_domains_section": "P_DomainParser",
  "C56_lenient_refuted": "P_DomainParser",
  "C56_plain_characters": "P_DomainParser",
  "C56_set_text": "P_DomainParser",
  "C56_unambiguous": "P_DomainParser",
  "C57_repetition_seeds": "P_Main",
  "C57_reproducible": "P_Main",
  "C57_unseeded_refuted": "P_Main",
  "C57_worker_reproducible": "P_Main",
  "C57_worker_seeds_consecutive": "P_Main",
  "C57_worker_seeds_distinct": "P_Main",
  "C58_accepted": "P_Cli",
  "C58_amounts": "P_Cli",
  "C58_defaults_refuted": "P_Cli",
  "C58_lenient_refuted": "P_Cli",
  "C58_order_irrelevant": "P_Cli",
  "C58_refused": "P_Cli",
  "C58_settings": "P_Cli",
  "C58_unknown_ignored": "P_Cli",
  "C59_attraction": "P_Config",
  "C59_continuous": "P_Config",
  "C59_convergence": "P_Config",
  "C59_field": "P_Config",
  "C59_hole": "P_ConfigExamples",
  "C59_reach_and_stay": "P_Config",
  "C59_reach_avoid_remain": "P_ConfigDouble",
  "C59_reach_while_stay": "P_Config",
  "C59_safety": "P_Config",
  "C59_safety_discrete": "P_Config",
  "C59_stability": "P_Config",
  "C59_stable_safe": "P_ConfigDouble",
  "C59_stable_safe_attraction": "P_ConfigDouble",
  "C60_lyapunov_roa": "P_Loops",
  "C60_others": "P_Loops",
  "C60_rar": "P_Loops",
  "C60_safe_roa_half": "P_Loops",
  "C60_stablesafe": "P_Loops",
  "C61_candidate_positive": "P_ConfigCandidate",
  "C61_candidate_separates": "P_ConfigCandidate",
  "C61_discrete_refuted": "P_ConfigVerifyExamples",
  "C61_no_verdict": "P_ConfigVerify",
  "C61_one_candidate": "P_ConfigCandidate",
  "C61_reach_while_stay": "P_ConfigVerify",
  "C61_safety": "P_ConfigVerify",
  "C61_stability": "P_ConfigVerify",
  "C61_unmentioned_variable": "P_ConfigVerify",
  "C62_networks": "P_Session",
  "C62_second_network": "P_Session",
  "C62_sets": "P_Session",
  "C62_settings": "P_Session",
  "C62_simulation": "P_Session",
  "C63_components": "P_Dispatch",
  "C63_none_accepts": "P_Dispatch",
  "C63_none_double": "P_Dispatch",
  "C63_none_is_not_checked": "P_Dispatch",
  "C63_none_rsws_raises": "P_Dispatch",
  "C63_none_success_unstable": "P_Dispatch",
  "C63_parser": "P_Dispatch",
  "C63_translator": "P_Dispatch",
  "C64_accepts": "P_SympyConverter",
  "C64_meaning": "P_SympyConverter",
  "C64_zero_exponent_refuted": "P_SympyConverter",
  "C65_available": "P_Analyser",
  "C65_benchmarks": "P_Analyser",
  "C65_merged": "P_Analyser",
  "C65_order": "P_Analyser",
  "C65_success_rate": "P_Analyser",
  "C65_table": "P_Analyser",
  "C66_closable": "P_Model",
  "C66_closed_loop": "P_Model",
  "C66_declared": "P_Model",
  "C66_euler": "P_Model",
  "C66_history": "P_Model",
  "C66_history_closed": "P_Model",
  "C66_lqr": "P_Model",
  "C66_missing_function": "P_Model",
  "C66_one_field": "P_Model",
  "C66_satellite_raises": "P_Model",
  "C66_shipped": "P_Model",
  "C66_silent_none": "P_Model",
  "C66_transposed_refuted": "P_Model",
  "C67_example_class_stability": "P_Custom",
  "C67_grouping": "P_Custom",
  "C67_keys_need_data": "P_Custom",
  "C67_nothing_asked": "P_Custom",
  "C67_refused": "P_Custom",
  "C67_repeated_key_refuted": "P_CustomExamples",
  "C67_same_as_builtin": "P_CustomExamples",
  "C67_single_dictionary_refuted": "P_Custom",
  "C67_success": "P_Custom",
  "C68_input_dependent_refused": "P_Linear",
  "C68_linearisation": "P_Linear",
  "C68_not_an_equilibrium": "P_Linear",
  "C68_partial_derivatives": "P_Linear",
  "C68_polynomials_accepted": "P_Linear",
  "C69_is_stable": "P_Eigen",
  "C69_is_sufficiently_stable": "P_Eigen",
  "C69_model": "P_Eigen",
  "C69_worst_pole": "P_Eigen",
  "C70_construction": "P_LQR",
  "C70_cost": "P_LQR",
  "C70_equation_is_not_enough": "P_LQR",
  "C70_gain": "P_LQR",
  "C70_nonlinear": "P_LQR",
  "C70_optimal": "P_LQR",
  "C70_stabilising": "P_LQR",
  "C70_stable": "P_LQR",
  "C71_conflict": "P_Regulariser",
  "C71_discrete": "P_Regulariser",
  "C71_discrete_runs": "P_Regulariser",
  "C71_distance": "P_Regulariser",
  "C71_extremes": "P_Regulariser",
  "C71_goal": "P_Regulariser",
  "C71_loss": "P_Regulariser",
  "C71_others": "P_Regulariser",
  "C71_range": "P_Regulariser",
  "C71_stop_lyapunov": "P_Regulariser",
  "C71_stop_reach": "P_Regulariser",
  "C71_stop_remain": "P_Regulariser",
  "C72_attraction": "P_Experiment",
  "C72_quadrotor": "P_Experiment",
  "C72_reach": "P_Experiment",
  "C72_reach_stay": "P_Experiment",
  "C72_remain": "P_Experiment",
  "C72_ring": "P_Experiment",
  "C72_ring_discrete": "P_Experiment",
  "C72_safety": "P_Experiment",
  "C72_safety_discrete": "P_Experiment",
  "C72_settings": "P_Experiment",
  "C72_simulation": "P_Experiment",
  "C72_stabsafe": "P_Experiment",
  "C72_stabsafe_attraction": "P_Experiment",
  "C72_stabsafe_forever": "P_Experiment",
  "C72_start": "P_Experiment",
  "C73_attraction_refuted": "P_DocumentsMore",
  "C73_barrier": "P_Documents",
  "C73_lyapunov": "P_DocumentsMore",
  "C73_pendulum": "P_Documents",
  "C73_reach": "P_Documents",
  "C73_remain": "P_Documents",
  "C73_stable_safe": "P_Documents",
  "C73_start": "P_Documents",
  "C73_stay_refuted": "P_DocumentsStay",
  "C73_verify": "P_DocumentsMore",
  "C74_each_matters": "P_Settings",
  "C74_same_run": "P_Settings",
  "C75_refused": "P_Start",
  "C75_returns": "P_Start",
  "C75_returns_two": "P_Start",
  "C75_starts": "P_Start",
  "C76_document": "P_CompleteExamples",
  "C76_document_two": "P_CompleteExamples",
  "C76_success_iff_valid": "P_Complete",
  "C76_success_iff_valid_two": "P_Complete",
  "C77_counterexamples_respected": "P_Progress",
  "C77_counterexamples_respected_two": "P_ProgressTwo",
  "C77_document": "P_TerminatesDocument",
  "C77_document_two": "P_TerminatesDocument",
  "C77_equality_refuted": "P_ProgressExamples",
  "C77_kept": "P_Progress",
  "C77_kept_two": "P_ProgressTwo",
  "C77_rounding_refuted": "P_ProgressExamples",
  "C77_samples_respected": "P_Progress",
  "C77_samples_respected_two": "P_ProgressTwo",
  "C77_training_ends": "P_Progress",
  "C77_training_ends_two": "P_ProgressTwo",
  "C78_backup_data_refuted": "P_TerminatesTwoExamples",
  "C78_document": "P_TerminatesDocument",
  "C78_document_two": "P_TerminatesDocument",
  "C78_margin": "P_Terminates",
  "C78_new_counterexample": "P_Terminates",
  "C78_new_counterexample_two": "P_TerminatesTwo",
  "C78_rounding_refuted": "P_TerminatesExamples",
  "C78_terminates": "P_Terminates",
  "C78_terminates_two": "P_TerminatesTwo",
  "C79_complement_refuted": "P_Containment",
  "C79_contained_is_zero": "P_Containment",
  "C79_dim_select_raises": "P_Containment",
  "C79_open_refuted": "P_Containment",
  "C79_rectangle_refuted": "P_Containment",
  "C79_zero_iff_contained": "P_Containment",
  "C79_zero_iff_member": "P_Containment"
 }
}