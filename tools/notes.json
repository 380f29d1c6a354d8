{
 "C01": [
  "proved",
  "success implies all conditions refuted for distinct labels; all certificates but STABLESAFE have distinct labels; STABLESAFE violates it (witness)"
 ],
 "C02": [
  "proved",
  ""
 ],
 "C03": [
  "proved",
  "noise rows exact up to idealised reals"
 ],
 "C04": [
  "proved",
  ""
 ],
 "C05": [
  "proved",
  "sound for conditions confined to |x|<1000; refuted for unbounded ones"
 ],
 "C06": [
  "proved",
  "iff, both LLO modes"
 ],
 "C07": [
  "proved",
  "iff, both LLO modes"
 ],
 "C08": [
  "proved",
  "iff"
 ],
 "C09": [
  "proved",
  "iff"
 ],
 "C10": [
  "proved",
  "iff"
 ],
 "C12": [
  "proved",
  "union of parts; RAR labels distinct; STABLESAFE label repeated"
 ],
 "C11": [
  "proved",
  "soundness of a True answer and of a False answer (no beta exists)"
 ],
 "C13": [
  "proved",
  "stability, attractivity and strict decrease from a reported success, given V(0)=0; without it refuted (unstable system certified). V(0)=0 and the derivative hypothesis are discharged for networks in C22/C26 files"
 ],
 "C14": [
  "proved",
  "strict decrease along runs; convergence of runs staying in a closed bounded domain"
 ],
 "C15": [
  "proved",
  ""
 ],
 "C16": [
  "proved",
  "continuous and discrete time"
 ],
 "C17": [
  "proved",
  "with explicit time bound; geometry hypotheses (fence) discharged for rectangles/spheres in C30"
 ],
 "C18": [
  "proved",
  "always safe, eventually always in the goal"
 ],
 "C19": [
  "proved",
  "LLO: strict decrease and attraction with a uniform deadline; non-LLO: non-increase; convergence without LLO refuted"
 ],
 "C20": [
  "proved",
  ""
 ],
 "C34": [
  "proved",
  "termination when an admissible interval exists; divergence witness for every deciding solver; unknown is an error"
 ],
 "C27": [
  "proved",
  "all classes with dim_select, arbitrarily nested combinators and complement; dimension-fitting parameters"
 ],
 "C28": [
  "proved",
  "iff for boxes, differences, complements and round sets of radius 0/1; refuted for spheres of other radii"
 ],
 "C30": [
  "proved",
  "generated boundary covers the topological boundary, so every continuous path leaving the set meets it; interior/boundary partition; refuted for OpenRectangle"
 ],
 "C29": [
  "proved",
  "samples lie in the set for boxes, spheres (dim 2,3 or radius<=1), ellipses, orthant spheres and nested combinations; row counts; border samples lie on the boundary; refuted for spheres of dim 1/4 with radius 2, Torus, open sets, small holes and 1-dimensional borders"
 ],
 "C24": [
  "proved",
  "Every class, every width, every solver front end: the symbolic derivative is neuron by neuron the derivative of the function the symbolic forward computes (ReLU away from 0); forward and derivative are defined together."
 ],
 "C25": [
  "proved",
  "Numeric and symbolic activations agree on every vector (softplus: on torch's x<=20 range, with the gap above bounded by exp(-20)); names select the intended function except RELU_SQUARE/REQU (C25_requ_refuted) and RATIONAL (C25_unsupported)."
 ],
 "C21": [
  "proved",
  "Continuous time, all back ends but cvc5: V is exactly the certificate function of a network of the same shape whose coefficients are the learned ones (ROUNDING<0) or within half a unit in the last place; numeric learner value agrees on torch's softplus range. dReal translation always defined. cvc5: see C22_cvc5_rounding_refuted."
 ],
 "C22": [
  "proved",
  "Vdot is the derivative of V along every trajectory wherever no ReLU is at its kink, with or without factor; whole lie_derivative for smooth networks. Refutations: C22_relu_kink_unsound (a ReLU barrier certified although the unsafe set is reached) and C22_cvc5_rounding_refuted."
 ],
 "C23": [
  "proved",
  "Difference formula correct without factors for every network; C23_quadratic_factor_refuted and C23_rounding_zero_fails are the violations."
 ],
 "C26": [
  "proved",
  "For every random initial network that fossil's is_positive_definite accepts, every number of CEGIS rounds and every optimiser that respects parameter registration, the LLO candidate is non-negative everywhere (any rounding, factor, back-end except CVC5 whose symbolic rounding breaks C22), and success of the reduced LLO condition implies both Lyapunov conditions (continuous time, ROA, discrete time). Refutations: is_positive_definite=false is only a warning (C26_warning_only_refuted) and STABLESAFE never makes the output layer positive (C26_stablesafe_sign_refuted). The optimiser is abstract (any function); floats idealised. C26_layer_of_ones / C26_layer_as_drawn: which output layer."
 ],
 "C31": [
  "proved",
  "For arbitrary (even iteration-dependent) components: with CEGIS_MAX_ITERS = m >= 0 solve stops after at most m+1 iterations, exactly m+1 if it fails, and returns a result if no component raises; a negative budget runs forever. CEGIS_MAX_TIME_S is never consulted by the loop."
 ],
 "C32": [
  "proved",
  "res=True implies the returned symbolic certificate is the translation of the returned network and passed verification (and the stay check for RSWS) in the last iteration; conversely the first success is returned. C32_rswa_skips_stay is the violation."
 ],
 "C33": [
  "proved",
  "Labels fixed, data grows by appending exactly the counterexamples (and the trajectory), one derivative row per sample; equal to f of the sample when the dynamics have no learned part (with a controller, rows of labels without new counterexamples are stale); N_data is the total."
 ],
 "C45": [
  "proved",
  "Continuous and discrete time. Hypotheses beyond the configuration: lawful optimiser, honest solver, V(0)=0 by construction, continuity of the field; see C45_example and C45_discrete_example for complete runs meeting them. Not covered: cvc5 (C22 refutation), ReLU, discrete+quadratic factors (C49)."
 ],
 "C46": [
  "proved",
  "Both time domains; discrete also with quadratic factors (the missing factor is harmless for barriers). Instances: C46_example, C46_discrete_example."
 ],
 "C47": [
  "proved",
  "With LLO; without LLO there is no attraction (C19_no_attraction_without_llo). Instance: C47_example."
 ],
 "C48": [
  "proved",
  "Instance: C48_example (RSWS, including the sublevel search)."
 ],
 "C49": [
  "proved",
  "Four complete runs of the model that report success while the advertised property fails; these are defects of the code."
 ],
 "C42": [
  "proved",
  "The symbolic closed loop equals f(s,u(s)) with the controller's weights rounded to 5 decimals (every state, every controller shape), the numeric one f(s,u(s)) with unrounded weights; rounding error at most 0.5e-5 per weight, none when weights have five decimals; a successful run certifies the rounded loop. C42_unrounded_controller_unstable: a complete successful LYAPUNOV run whose returned (unrounded) controller gives an unstable loop."
 ],
 "C35": [
  "proved",
  "length bounds, step equation, monotonicity, reasons for stopping; reals for floats"
 ],
 "C36": [
  "proved",
  "a returned result is a worker's; the supervisor returns iff some worker posts a result, and as pinned (no clean method on the solution) it never returns"
 ],
 "C43": [
  "proved",
  "statistics over any history of start/stop/reset; decorator; min/max/avg"
 ],
 "C44": [
  "proved",
  "row lengths, header match, which configurations raise, file contents over any history"
 ],
 "C40": [
  "proved",
  "all dictionaries for LYAPUNOV..RSWS; STABLESAFE and RAR: exact order condition and the violation otherwise"
 ],
 "C41": [
  "proved",
  "iff characterisations; reals for floats"
 ],
 "C50": [
  "proved",
  "holds without factors (ROA maximum over the initial samples, RSWS minimum over the goal border); both violated with QUADRATIC (witnesses)"
 ],
 "C51": [
  "proved",
  ""
 ],
 "C39": [
  "proved",
  "Model M_Labels.v of _assert_state, get_certificate_sets, get_required_borders, _initialise_domains and the CLI functions; specification S_Labels.v (needs_domain, needs_data, means). C39_scalar_n_data and C39_advertised_api state the two defects found. C39_counterexamples_have_data discharges the hypothesis cex_labels_ok of C31-C33 for the assembled tool. YAML parsing itself is outside."
 ],
 "C37": [
  "proved",
  "M_Parser models pyparsing's infixNotation/nestedExpr as the recursive descent they denote, on tokens; M_Lexer the characters (blanks, signed and unsigned numbers with decimal point and exponent, variables, function names as keywords); quoted strings and the logical functions are not modelled; numbers are exact rationals. S_Parser has the usual grammar and its values, S_Lexer how a token is written. C37_usual_precedence/C37_accepted: right value, acceptance (tokens); C37_characters/C37_characters_accepted: the same from the characters. The other theorems are the violations: C37_minus_power(_accepted), C37_paren_minus_rejected, C37_argument_rejected, C37_sympy_square_root. Instances: C37_example_*, C37_characters_example."
 ],
 "C38": [
  "proved",
  "M_Variables models make_var (with the identity of solver variables), the substitutions, sympy's sorted free symbols and lambdify; sympy's simplification and extra variables made by failing parse attempts are not modelled. C38_numbers, C38_symbols: right components; C38_same_system: both paths agree; C38_numbers_beyond_ten, C38_dreal_repeated, C38_numbers_missing, C38_symbols_missing, C38_constant_refused(_numbers): the violations; C38_controllable: what the assertions guarantee. Instances: C38_example_*."
 ],
 "C52": [
  "proved",
  "M_Double assembles DoubleCegis (both learners, CTDouble translation without factors, constraints, verifier, freezing) on the CEGIS loop; arbitrary optimiser, level, noise, controller training, consolidator. Hypotheses: honest solver, smooth activations, solver other than CVC5, the geometry of the sets; attraction needs LLO and a decisive solver. Instances: C52_rar_example, C52_stablesafe_example."
 ],
 "C53": [
  "proved",
  "C53_frozen_certificate_is_valid, C53_frozen_network_never_changes (frozen parameters get no optimiser step: torch semantics of requires_grad=False is in the model); C53_undecided_certificate_frozen_refuted is the violation with unknown answers. Instance: C53_example."
 ],
 "C54": [
  "proved",
  "Symbolic differentiation proved correct by the chain rule for all elementary expressions; property theorems compose with C13, C15, C16, C17. Positive theorems are for continuous time; the three refutations show where verify() accepts wrong candidates. dReal's Differentiate is modelled by the textbook rules."
 ],
 "C55": [
  "proved",
  "Autograd is modelled as torch's vector-Jacobian products over exact reals. Reverse accumulation is proved equal to the translator's Jacobian product for every network; composed with C40/C41 for Lyapunov training. Three counterexamples."
 ],
 "C56": [
  "proved",
  "Character-level model of the pyparsing grammar; quoted strings left out; numbers exact instead of floats. Leniencies of the grammar are proved as C56_lenient_refuted."
 ],
 "C57": [
  "proved",
  "Random numbers abstracted to a seeded stream; the solver is assumed to be a function of its query (time limits are not)."
 ],
 "C58": [
  "proved",
  "M_Cli models the loop of parse_yaml_to_cegis_config on the tree yaml.safe_load returns (YAML syntax itself external), the enumerations and the defaults of CegisConfig; str.upper on ASCII. C58_settings: value or default; C58_accepted/C58_refused; C58_order_irrelevant; C58_unknown_ignored; C58_defaults_refuted, C58_lenient_refuted: the violations. Instance: C58_example (the README's file)."
 ],
 "C59": [
  "proved",
  "Composition of C58 (file), C37/C38 (equations), C56 (sets), C42 (controller), C45-C48 (runs): session_of is what the CLI builds from the file; the conclusions are stated on the text (S_Config). C59_continuous discharges continuity for right-hand sides without division (except by numbers), log and sqrt. C59_hole: README-style torus XD. P_ConfigDouble: the same for STABLESAFE and RAR (two networks, session2_of, C52)."
 ],
 "C60": [
  "proved",
  "Specification S_Loops.trained_until; arbitrary tests and optimiser steps. What the tests mean is C41."
 ],
 "C61": [
  "proved",
  "From the text of the file to trajectories, composing the reading of the file (C37, C38, C56, C58, C59) with C54. C61_candidate_positive, C61_candidate_separates: the candidate as it is written, for any values of the variables that are not states (dReal's fresh variables). The controller of a CTRLAYER is the one before training (verify trains nothing). Discrete time: refuted."
 ],
 "C62": [
  "proved",
  "C62_settings: every setting of the problem against the file or the default; C62_sets; C62_networks and C62_second_network: widths, activations (by their C25 meaning), biases; C62_simulation: the numerical right-hand side is the written system in feedback with the unrounded controller, for up to ten states and ten inputs (C38) and where no softplus is fed more than 20 (C25). The sample numbers are C58_amounts. Instances: C62_example, C62_second_network_example. The weights are random: only their shape is claimed."
 ],
 "C63": [
  "proved",
  "components of every configuration; with NONE the run reports success for any candidate, also for an unstable system (a refutation of soundness there)."
 ],
 "C64": [
  "proved",
  "for exponents other than zero; with exponent zero refuted."
 ],
 "C65": [
  "proved",
  "given non-empty LaTeX, domain and model texts; decimal printing and pandas' reading of cells are simplified (see M_Analyser)."
 ],
 "C66": [
  "proved",
  "Ranges over models whose two right-hand sides are transcribed expressions; the shipped classes are transcribed by tools/gen_models.py. LinearDiscreteNVars, LinearSatellite and Quadrotor2d are the exceptions (C66_transposed_refuted, C66_satellite_raises)."
 ],
 "C67": [
  "proved",
  "Keys are the names of consts.DomainNames. C67_success ranges over all classes; the four dangers are theorems (C67_repeated_key_refuted is a complete run that certifies x' = x)."
 ],
 "C68": [
  "proved",
  "Sympy's simplification is a parameter assumed to keep values; a constant-folding instance is shown to meet the assumptions. C68_partial_derivatives gives the entries, C68_input_dependent_refused the missing substitution of the inputs."
 ],
 "C69": [
  "proved",
  "eigvals is assumed to return the diagonal of a similar upper triangular matrix (what a Schur decomposition gives), only at the matrix in question. Floats are exact reals."
 ],
 "C70": [
  "proved",
  "solve_continuous_are and inv are parameters; C70_equation_is_not_enough shows why definiteness is assumed. Existence of motions is not proved (the theorems range over all motions)."
 ],
 "C71": [
  "proved",
  "For exact reals and both versions of torch's bound on the norms; the gradient step itself is arbitrary."
 ],
 "C72": [
  "proved",
  "For the 47 scripts of the seven directories (not archive/), as translated by tools/gen_scripts.py; the sets of DATA matter only by their labels. custom_lyap_cert.py, with a certificate class of its own, is only covered by C72_start (its class by C64)."
 ],
 "C73": [
  "proved",
  "The files are read into Coq from their text by tools/gen_documents.py; every theorem is about fossil run on that text, from YAML to verdict. C73_attraction_refuted shows what roa-test.yaml does not prove. learn.yaml uses VERIFIER NONE, so nothing is verified (C63); config.yaml is empty. rswa-test.yaml only proves reach-while-stay: with the name RSWA the search for the stay level is skipped (C49). ctrl_rar_sine.yaml lists two activations for one layer: the second is unused. Every claim but the pendulum's has an example showing that its file can succeed."
 ],
 "C74": [
  "proved",
  "C74_same_run: non-interference, with LEARNING_RATE and CEGIS_MAX_TIME_S positive (cegis.py:349-350 asserts this and nothing else). PRECISION and DREAL_JOBS reach only the solver, LEARNING_RATE and SYMMETRIC_BELT only the training, both arbitrary in the model. C74_each_matters: none of the sixteen can be dropped from the list. That no code reads LOSS_MARGIN, ACCURACY_MARGIN or (beyond the assertion) CEGIS_MAX_TIME_S is by search of the source; the user guide calls the last the maximum time."
 ],
 "C75": [
  "proved",
  "documented is a record of what the documentation asks (S_Start); every documented file starts (C75_starts) and every run from it returns (C75_returns, C75_returns_two for StableSafe and RAR) provided the parts outside the model return; nine kinds of files are refused (C75_refused). A file that sets ROUNDING 0 with discrete time is not covered by C75_returns (it would crash in the translator, C21/C22). Examples: P_StartExamples."
 ],
 "C76": [
  "proved",
  "both directions for the eight single certificates and the two double ones; C76_document composes it with C75. C76_undecided shows what an undecided query costs. Validity is about the expressions handed to the verifier (that the second is the derivative of the first: C24, C35)."
 ],
 "C77": [
  "proved",
  "proved for all ten certificates without controller and with ROUNDING < 0 (softplus hidden units must not saturate; C77_*_two: STABLESAFE and RAR, data in the order of the certificate and without the extra set XR). The one sample in a thousand that the tests leave out is named (left_out, left_out2). C77_rounding_refuted: false under the default ROUNDING = 3. C77_equality_refuted: the excused equality cases occur. C77_document and C77_document_two: the same stated for configuration files (no controller, at most 10 states, ROUNDING < 0)."
 ],
 "C78": [
  "proved",
  "proved for the certificates other than RSWS (whose search for a level can fail without a counterexample); C78_terminates_two: STABLESAFE and RAR. C78_margin: for BARRIERALT the strictness is automatic. C78_rounding_refuted: under the default ROUNDING = 3 a run that never ends. C78_backup_data_refuted: STABLESAFE with the extra set XR, as in two shipped experiments, can run for ever. C78_document and C78_document_two: the same stated for configuration files, where moreover no pass raises; C78_document_example and C78_document_two_example are files whose runs meet all hypotheses."
 ],
 "C79": [
  "proved",
  "proved for spheres, ellipses, tori and intervals (C79_zero_iff_contained; C79_zero_iff_member where numeric containment is exact, C28); C79_contained_is_zero for rectangles; refuted for rectangles of every dimension >= 2, open sets, complements; raises with dim_select"
 ]
}