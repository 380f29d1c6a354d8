{
 "C01": [
  "`Verifier.verify` as a fold over groups with a call-indexed solver oracle; insertion-ordered dictionaries (M_Verifier); all certificates' constraints",
  "invariant of the fold (every label answered unsat); refutation for STABLESAFE by its repeated label"
 ],
 "C02": [
  "`Verifier.verify` as a fold over groups with a call-indexed solver oracle; insertion-ordered dictionaries (M_Verifier); `solve_with_timeout`",
  "case analysis over answers, induction over groups"
 ],
 "C03": [
  "counterexample extraction, `randomise_counterex`",
  "induction over model values and noise rows"
 ],
 "C04": [
  "`Verifier.verify` as a fold over groups with a call-indexed solver oracle; insertion-ordered dictionaries (M_Verifier)",
  "induction over the list of groups; early-exit equation"
 ],
 "C05": [
  "`VerifierDReal._solver_solve/is_unsat/within_bounds` with an arbitrary box oracle",
  "case analysis; refutation by a far witness"
 ],
 "C06": [
  "`Lyapunov.get_constraints` as a formula generator (M_Certificates)",
  "iff with a state-level specification (S_Certificates), by semantics of formulas, for all states and expressions"
 ],
 "C07": [
  "`ROA.get_constraints` as a formula generator (M_Certificates)",
  "iff with a state-level specification (S_Certificates), by semantics of formulas, for all states and expressions"
 ],
 "C08": [
  "`Barrier.get_constraints` as a formula generator (M_Certificates)",
  "iff with a state-level specification (S_Certificates), by semantics of formulas, for all states and expressions"
 ],
 "C09": [
  "`BarrierAlt.get_constraints` as a formula generator (M_Certificates)",
  "iff with a state-level specification (S_Certificates), by semantics of formulas, for all states and expressions"
 ],
 "C10": [
  "`RWS.get_constraints` as a formula generator (M_Certificates)",
  "iff with a state-level specification (S_Certificates), by semantics of formulas, for all states and expressions"
 ],
 "C11": [
  "`RSWS.stay_in_goal_check` (M_BetaSearch)",
  "soundness of both answers from an honest solver"
 ],
 "C12": [
  "`ReachAvoidRemain`/`StableSafe.get_constraints`",
  "list equality; label clash exhibited"
 ],
 "C13": [
  "verify on Lyapunov conditions; curves with `is_derive`",
  "first-exit argument, compactness in n dimensions, mean value theorem; unstable counterexample without V(0)=0"
 ],
 "C14": [
  "same, runs of maps",
  "induction on the run; monotone convergence + continuity"
 ],
 "C15": [
  "verify on Barrier conditions",
  "first crossing of the zero level, mean value theorem"
 ],
 "C16": [
  "verify on BarrierAlt conditions",
  "monotonicity along trajectories / induction on runs"
 ],
 "C17": [
  "verify on RWS conditions",
  "time bound from uniform decrease; exit only through the boundary"
 ],
 "C18": [
  "RWS + beta search",
  "C17, then invariance of the sublevel set"
 ],
 "C19": [
  "ROA conditions",
  "invariance of the level set, attraction by uniform decrease; counterexample without LLO"
 ],
 "C20": [
  "RAR conditions",
  "C17 + C15"
 ],
 "C21": [
  "`TranslatorCT/DT.get_symbolic_formula` over lists of weights, rounding (M_Network)",
  "induction over layers; rounding error bound and half-even rounding"
 ],
 "C22": [
  "Jacobian product, `get_nn_derivative`, `lie_derivative`",
  "chain rule by induction over layers; counterexamples"
 ],
 "C23": [
  "TranslatorDT",
  "evaluation of substituted expressions; counterexamples"
 ],
 "C24": [
  "forward_symbolic/derivative_symbolic of every class of activations.py (M_Activations)",
  "derivative lemma per class, any width"
 ],
 "C25": [
  "numeric and symbolic activations, name table",
  "case analysis per activation over all vectors"
 ],
 "C26": [
  "learner `__init__`, `is_positive_definite`, training loop with arbitrary lawful optimiser",
  "invariant over rounds: last layer positive; non-negativity of the composed network"
 ],
 "C27": [
  "`domains.py` sets as an inductive type; symbolic membership",
  "structural induction: formula denotes the set"
 ],
 "C28": [
  "`check_containment`",
  "iff by cases; refutation"
 ],
 "C29": [
  "samplers with arbitrary random stream",
  "structural induction over combinators, geometry of sphere sampling; refutations"
 ],
 "C30": [
  "`generate_boundary`",
  "topological boundary (closure/interior) covered; intermediate value argument"
 ],
 "C31": [
  "`SingleCegis.solve` as a state machine over arbitrary components (M_Cegis)",
  "induction on the budget"
 ],
 "C32": [
  "same",
  "invariant relating the returned network, translation and verdict"
 ],
 "C33": [
  "same + data updates",
  "invariant over iterations"
 ],
 "C34": [
  "`beta_search` iterated with fuel",
  "bisection measure; divergence by induction on fuel"
 ],
 "C35": [
  "`compute_trajectory` gradient steps",
  "induction over steps"
 ],
 "C36": [
  "supervisor and workers as a transition system",
  "invariant over arbitrary schedules"
 ],
 "C37": [
  "token and character grammars (M_Parser, M_Lexer)",
  "print/parse by structural induction; refutations by computation"
 ],
 "C38": [
  "make_var, substitution, sympy symbol order (M_Variables)",
  "induction over the text; sortedness; refutations"
 ],
 "C39": [
  "`_assert_state`, advertised sets, CLI domains/data",
  "set equality over label lists for every certificate"
 ],
 "C40": [
  "slices in `learn`",
  "list lemmas over arbitrary dictionaries"
 ],
 "C41": [
  "accuracy tests",
  "counting lemmas, iff"
 ],
 "C42": [
  "controllers, closed loops (M_Control)",
  "induction over layers; rounding bound; complete refuting run"
 ],
 "C43": [
  "`Timer` state machine",
  "induction over histories"
 ],
 "C44": [
  "recorder rows and files",
  "computation over all configurations; induction over histories"
 ],
 "C45": [
  "M_Fossil: the whole SingleCegis run with controller",
  "composition of C01, C06, C13/C14, C21–C26, C32, C42"
 ],
 "C46": [
  "same, barriers",
  "composition with C15/C16"
 ],
 "C47": [
  "same, ROA",
  "composition with C19"
 ],
 "C48": [
  "same, RWS/RSWS with beta search",
  "composition with C17/C18"
 ],
 "C49": [
  "same",
  "four complete runs evaluated in the model"
 ],
 "C50": [
  "ROA and RSWS level computation (M_Learning roa_level, rsws_level, beta_loss)",
  "maximum / minimum over samples; the RSWS loss against the filtered goal samples; refutations"
 ],
 "C51": [
  "loss functions",
  "monotonicity of each loss in the sampled values"
 ],
 "C52": [
  "M_Double: DoubleCegis assembled",
  "composition of C12, C15, C19/C20 with the loop invariant"
 ],
 "C53": [
  "DoubleCegis freezing",
  "invariant over iterations; refutation"
 ],
 "C54": [
  "main.verify, symbolic differentiation (M_Verify)",
  "chain rule by structural induction; composition with C13–C17; refutations"
 ],
 "C55": [
  "autograd as vector–Jacobian products (M_Gradient)",
  "reverse accumulation = Jacobian product, induction over layers"
 ],
 "C56": [
  "DomainParser on characters (M_DomainParser)",
  "print/parse round trip for every way of writing a set"
 ],
 "C57": [
  "seeding of run_benchmark/synthesise/workers over a seeded stream (M_Main)",
  "induction over programs that draw numbers"
 ],
 "C58": [
  "parse_yaml_to_cegis_config (M_Cli)",
  "induction over the document; permutation invariance"
 ],
 "C59": [
  "the path file → session → run, for one certificate and for two (M_Config)",
  "composition of C37, C38, C42, C45–C48, C52, C56, C58"
 ],
 "C60": [
  "the learn loops (M_Learner)",
  "induction on the remaining steps against the specification trained_until"
 ],
 "C61": [
  "the path file → candidate → verify (M_ConfigVerify)",
  "composition of C54, C37, C38, C56, C58, C59; a refutation for discrete time; examples meeting all hypotheses"
 ],
 "C62": [
  "the path file → problem (M_Config): settings, sets, networks, numerical right-hand side",
  "against a specification of settings, choices and shapes (S_Session); composition of C25, C37, C38, C42, C56, C58"
 ],
 "C63": [
  "get_learner, get_translator_type, get_verifier(_type), get_parser_from_verifier, get_certificate, get_cegis and the run with VerifierNone (M_Dispatch)",
  "case analysis against tables of components; the NONE run by unfolding the loop of C14; an unstable system as witness"
 ],
 "C64": [
  "sympy_converter.py (M_SympyConverter)",
  "induction on expression trees against a real-valued semantics (S_SympyConverter)"
 ],
 "C65": [
  "analysis.py Analyser, ratio (M_Analyser) on the recorder of C44",
  "induction over the recorded rows; grouping, minimum, mean, maximum against their mathematical definitions (S_Analyser)"
 ],
 "C66": [
  "DynamicalModel.__call__/f, ControllableDynamicalModel, GeneralClosedLoopModel, contains_object, the FNCS tables (M_Model) and experiments/benchmarks/models.py transcribed by tools/gen_models.py (M_Benchmarks)",
  "induction on expressions against a real semantics (S_Model); the shipped classes by reflection of a syntactic check; induction over call histories"
 ],
 "C67": [
  "SingleCegis with an arbitrary user class, lazily consumed conditions, and custom_cert.py (M_Custom)",
  "C32 and C01/C22 composed for an arbitrary class; induction over groups for a deciding solver; a simulation between the example class and LYAPUNOV; complete runs as witnesses"
 ],
 "C68": [
  "Lineariser: get_model, the checks, jacobian, substitution, conversion to floats (M_Linear); sympy as a parameter",
  "Frechet calculus for terms (L_Frechet): eval has the derivative diff; the checks give f(0,0)=0 and absence of the inputs"
 ],
 "C69": [
  "EigenCalculator (M_Linear); numpy.linalg.eigvals as a parameter, assumed to return the diagonal of a similar triangular matrix",
  "weighted form from triangularisation (L_Eigen) and its decay (L_Quadratic); eigenvectors by back substitution give motions for the converse; perturbation by the first-order error for the model"
 ],
 "C70": [
  "LQR (M_Linear); the Riccati solver and the inverse as parameters",
  "completing the square along motions; stable systems have definite forms (least multiple of a decreasing form)"
 ],
 "C71": [
  "the regularisers of control.py and one loop of the four learn methods that use cosine_reg (M_Regulariser)",
  "Cauchy-Schwarz with its equality case; means at the end of their range; the derivative of the squared distance"
 ],
 "C72": [
  "main.run_benchmark on a Python configuration (M_Experiment) and the shipped scripts, generated from their text (M_Scripts)",
  "a script passes a computed check, which implies the hypotheses of C46-C48 and C52; inclusions between the sets by computed bounds (L_Boxes); ring arguments by compactness (L_Annulus)"
 ],
 "C73": [
  "the shipped YAML files, generated from their text (M_Documents), through cli, parser, domain parser, learner and CEGIS (M_Config)",
  "the texts are recognised by computed checks (L_Texts), which give the hypotheses of C59; roa-test by an explicit orbit"
 ],
 "C74": [
  "cli.parse_yaml_to_cegis_config and the construction of the search (M_Cli, M_Config)",
  "the attributes read are functions of the deciding fields; data only enters through its labels; a witness per setting"
 ],
 "C75": [
  "the whole path from a configuration file to the result: cli, parser, model construction, learner, translator, CEGIS loop (M_Config, M_Fossil, M_Double)",
  "each stage is shown to be defined on documented input (L_Start); an invariant (shapes of the networks and controller) carries this through the loop (P_Cegis.passes_return)"
 ],
 "C76": [
  "the CEGIS loop with the concrete verifier, constraints and the search for a level (M_Fossil, M_Double, M_Cegis, M_BetaSearch); S_Complete says when a candidate is valid and a solver right",
  "verify() of decided groups (P_Custom) + the obligations of each certificate (C06-C12) give: found iff valid; bisection is complete by monotonicity; induction over the visited states gives the run"
 ],
 "C77": [
  "the CEGIS loop with training loops, batches, tests and gradients of the learner, translator and constraints (M_Cegis, M_Fossil, M_Learner, M_Learning, M_Gradient, M_Certificates); S_Progress, and S_ProgressTwo for STABLESAFE and RAR, name what is excused",
  "C60 (how training ends) + C41 (what the test means on samples) + C55 (learner and formulas agree) + C33 (counterexamples are added); then each query against its test"
 ],
 "C78": [
  "as C77; S_Terminates (S_ProgressTwo for STABLESAFE and RAR) says which solvers and trainings are meant",
  "C77 gives a new point of the pool per failed iteration; induction over the visited states collects distinct points, and NoDup_incl_length bounds the iterations"
 ],
 "C79": [
  "M_Containment (check_containment_grad of Rectangle, Sphere, Ellipse, Torus, Complement), M_Domains (check_containment), S_Domains (the sets)",
  "relu sums are zero iff both arguments are non-positive; witnesses for every dimension"
 ]
}
