# Formal model of oxford-oxcav/fossil in Rocq (Coq 8.16.1)

First written before the proofs, kept current as the model grows (sections 4 and 7 are generated by `tools/design.py`
from `tools/plan.json`, `properties.jsonl`, `MANIFEST.json` and `tools/axioms.json`).

## 1. Organisation

All files are in `rocq/theories`, logical name `Verif`.

* `M_*.v` – the **model**: Gallina transcriptions of the Python code, function by function, every definition citing file
  and lines. No proofs. Simplifications are stated in the comment at the head of the file or at the definition.
* `S_*.v` – the **specification**: small files that do not use the model's helpers (what "solves the ODE", "stable",
  "reaches while staying", "is a subset", "is a loss for", "the text of a number" ... mean).
* `L_*.v` – lemmas.
* `P_*.v` – the **property theorems** `Cnn_...`. Beside them, `Example`/`Theorem Cnn_..._example` give concrete,
  non-trivial instances meeting the hypotheses. A theorem `Cnn_..._refuted` (or one described as a violation in
  `MANIFEST.json`) states, of the model of the pinned code, that the wished-for property *fails*, with a witness: these
  are the defects listed in section 6. For such a property the manifest also lists what does hold.

No functors, module types, axioms, `Admitted`, plugins or disabled checks are used. Libraries: Coq's standard library and
Coquelicot (whose definitions add no axioms beyond the standard library's).

## 2. Modelling choices

* **External components are parameters.** SMT solvers, the optimiser (loss → AdamW step), random numbers, clocks, the
  process scheduler, sympy's simplifier: they are arguments of the model functions and universally quantified in the
  theorems. What is assumed of them is an explicit hypothesis: "honest solver" (an `unsat` answer is right, a `sat`
  answer's model satisfies the query; nothing about `unknown`), "lawful optimiser" (changes only the numbers of the
  registered parameters with `requires_grad`, not shapes). Assumed facts about torch are transcribed from its
  documentation (vector-Jacobian products, softplus threshold 20).
* **Exceptions** are `None`; a model function returning `None` means the Python call raises.
* **Symbolic formulas** (z3/dReal/cvc5/sympy objects) are a deep embedding (`M_Syntax.expr`, `fml`) evaluated over real
  states. `simplify`/`expand` are the identity on meaning. Division is total as in SMT-LIB.
* **Floats are idealised**: weights, parameters and numerals are exact rationals; sampled points and losses are reals.
  `translator.round` (the `ROUNDING` option) *is* modelled exactly, because it changes which function is verified; so is
  the rounding of controllers and of the cvc5 back end. Floating point error of the numeric learner is not modelled: it
  only influences which candidates are proposed, never which are certified. It does matter for C28/C29/C41 (numeric
  containment, samples, accuracies), whose theorems are about the idealised arithmetic.
* **Loops without a bound** (beta search, CEGIS loop, parsers) carry fuel; the theorems quantify over all fuel, or show
  that some fuel suffices, or that none does.
* **Concurrency** (supervisor): transition system over arbitrary schedules.

## 3. What of the code is modelled and what is not

| file of /repo/fossil | modelled in | not modelled |
|----|----|----|
| verifier.py | M_Verifier, M_Dispatch (VerifierNone, the choice of components; verify, solve_with_timeout, counterexamples, noise; dReal, Z3, CVC5 front ends), M_Syntax | Marabou's network encoding, quality-of-life printing, the *time* a solver takes |
| certificate.py | M_Certificates (get_constraints of all classes), M_BetaSearch (RSWS), M_Learning (learn, compute_loss), M_Learner (training loops, LLO), M_Labels (_assert_state), M_Cegis (certificate table) | AutoSets and estimate_beta (unused), plotting, printing, backpropagation through the losses (the optimiser is arbitrary) |
| cegis.py | M_Cegis (the loop), M_Fossil (SingleCegis assembled), M_Double (DoubleCegis assembled) | process_timers, printing |
| learner.py | M_Network, M_Learner, M_Gradient (autograd of forward/gradients), M_Learning | AdamW itself; find_closest_unsat, diagonalisation (unused helpers) |
| translator.py | M_Network (CT, DT, double), M_Verify | Marabou translators, timing |
| activations.py | M_Activations | – |
| domains.py | M_Domains, M_Containment | plotting, pickling helpers, AutoSets (its methods raise or do nothing; unused) |
| control.py | M_Control, M_Config, M_Variables, M_Model, M_Linear, M_Regulariser | the optimiser's steps on the controller (arbitrary), trajectories for plots; sympy, numpy.linalg and scipy.linalg behind Lineariser, EigenCalculator and LQR (parameters) |
| parser.py | M_Parser, M_Lexer, M_Variables, M_DomainParser | quoted strings, formula functions (Not, And, Or, If, sum), sympy simplification |
| cli.py | M_Cli, M_Labels, M_Config | YAML syntax (external), interactive prompts, argparse |
| consts.py | M_Activations, M_Cegis, M_Labels, M_Recorder, M_Cli | – |
| consolidator.py | M_Consolidator | NaN handling |
| cegis_supervisor.py | M_Supervisor, M_Main | time-outs of the operating system |
| main.py | M_Main (seeds, repeats), M_Verify (verify) | argument parsing, printing |
| utils.py | M_Timer, M_Model (contains_object) | the symbolic-formula, equilibrium and trajectory helpers of fossil 1.0 that nothing in the package calls; Timeout |
| analysis.py | M_Recorder, M_Analyser | printing and exporting of tables, the LaTeX texts of systems and sets |
| sympy_converter.py | M_SympyConverter | – |
| ../experiments/benchmarks/models.py | M_Benchmarks (generated by tools/gen_models.py) | plotting helpers |
| ../experiments/benchmarks/{rwa,rswa,rar,stabsafe,lyap,roa,barrier}/*.py | M_Experiment, M_Scripts (generated by tools/gen_scripts.py) | archive/, plotting; Quadrotor2d's dynamics |
| ../experiments/benchmarks/cli/*.yaml, ../lyap-test.yaml, ../config.yaml | M_Documents (generated by tools/gen_documents.py) | YAML syntax: the files are loaded by a YAML reader before generation |
| ../custom_cert.py | M_Custom | the accuracies' and losses' numbers (arbitrary) |
| component.py, logger.py, plotting.py | – | whole files (no semantic property stated) |

## 4. Per property: what is modelled and how it is proved

| id | property | what is modelled | how it is proved |
|----|----|----|----|
| C01 | A reported success means every proof obligation was refuted | `Verifier.verify` as a fold over groups with a call-indexed solver oracle; insertion-ordered dictionaries (M_Verifier); all certificates' constraints | invariant of the fold (every label answered unsat); refutation for STABLESAFE by its repeated label |
| C02 | Unknown answers and timeouts are never turned into a certificate or a counterexample | `Verifier.verify` as a fold over groups with a call-indexed solver oracle; insertion-ordered dictionaries (M_Verifier); `solve_with_timeout` | case analysis over answers, induction over groups |
| C03 | Counterexamples are genuine and have the documented shape | counterexample extraction, `randomise_counterex` | induction over model values and noise rows |
| C04 | Conditions are checked group by group with early exit | `Verifier.verify` as a fold over groups with a call-indexed solver oracle; insertion-ordered dictionaries (M_Verifier) | induction over the list of groups; early-exit equation |
| C05 | dReal verdicts are only trusted where they are valid | `VerifierDReal._solver_solve/is_unsat/within_bounds` with an arbitrary box oracle | case analysis; refutation by a far witness |
| C06 | LYAPUNOV obligations are the Lyapunov conditions | `Lyapunov.get_constraints` as a formula generator (M_Certificates) | iff with a state-level specification (S_Certificates), by semantics of formulas, for all states and expressions |
| C07 | ROA obligations are the region-of-attraction conditions | `ROA.get_constraints` as a formula generator (M_Certificates) | iff with a state-level specification (S_Certificates), by semantics of formulas, for all states and expressions |
| C08 | BARRIER obligations are the barrier conditions | `Barrier.get_constraints` as a formula generator (M_Certificates) | iff with a state-level specification (S_Certificates), by semantics of formulas, for all states and expressions |
| C09 | BARRIERALT obligations are the barrier conditions | `BarrierAlt.get_constraints` as a formula generator (M_Certificates) | iff with a state-level specification (S_Certificates), by semantics of formulas, for all states and expressions |
| C10 | RWS obligations are the reach-while-stay conditions | `RWS.get_constraints` as a formula generator (M_Certificates) | iff with a state-level specification (S_Certificates), by semantics of formulas, for all states and expressions |
| C11 | RSWS stay check is the stay condition at the returned beta | `RSWS.stay_in_goal_check` (M_BetaSearch) | soundness of both answers from an honest solver |
| C12 | RAR and STABLESAFE obligations are the union of their parts under the right labels | `ReachAvoidRemain`/`StableSafe.get_constraints` | list equality; label clash exhibited |
| C13 | LYAPUNOV success implies stability of the origin (continuous time) | verify on Lyapunov conditions; curves with `is_derive` | first-exit argument, compactness in n dimensions, mean value theorem; unstable counterexample without V(0)=0 |
| C14 | LYAPUNOV success implies decrease along every run (discrete time) | same, runs of maps | induction on the run; monotone convergence + continuity |
| C15 | BARRIER success implies safety (continuous time) | verify on Barrier conditions | first crossing of the zero level, mean value theorem |
| C16 | BARRIERALT success implies safety (continuous and discrete time) | verify on BarrierAlt conditions | monotonicity along trajectories / induction on runs |
| C17 | RWS success implies reach-while-stay with a time bound | verify on RWS conditions | time bound from uniform decrease; exit only through the boundary |
| C18 | RSWS success implies reach-and-stay | RWS + beta search | C17, then invariance of the sublevel set |
| C19 | ROA success implies attraction of the initial set | ROA conditions | invariance of the level set, attraction by uniform decrease; counterexample without LLO |
| C20 | RAR success implies reach-avoid-remain | RAR conditions | C17 + C15 |
| C21 | The verified function is the learned network | `TranslatorCT/DT.get_symbolic_formula` over lists of weights, rounding (M_Network) | induction over layers; rounding error bound and half-even rounding |
| C22 | The verified Vdot is the derivative of the verified V along trajectories | Jacobian product, `get_nn_derivative`, `lie_derivative` | chain rule by induction over layers; counterexamples |
| C23 | The discrete-time difference is V(f(x))-V(x) | TranslatorDT | evaluation of substituted expressions; counterexamples |
| C24 | Activation derivatives are the derivatives of the activations | forward_symbolic/derivative_symbolic of every class of activations.py (M_Activations) | derivative lemma per class, any width |
| C25 | Symbolic and numeric activations agree | numeric and symbolic activations, name table | case analysis per activation over all vectors |
| C26 | Skipping the positivity check with LLO is justified | learner `__init__`, `is_positive_definite`, training loop with arbitrary lawful optimiser | invariant over rounds: last layer positive; non-negativity of the composed network |
| C27 | Set combinators are set algebra | `domains.py` sets as an inductive type; symbolic membership | structural induction: formula denotes the set |
| C28 | Numeric containment agrees with the symbolic set | `check_containment` | iff by cases; refutation |
| C29 | Sampled training data lies in the set it is labelled with | samplers with arbitrary random stream | structural induction over combinators, geometry of sphere sampling; refutations |
| C30 | A trajectory leaving a set crosses the generated boundary | `generate_boundary` | topological boundary (closure/interior) covered; intermediate value argument |
| C31 | CEGIS terminates within the iteration budget | `SingleCegis.solve` as a state machine over arbitrary components (M_Cegis) | induction on the budget |
| C32 | res=True is only returned for the verified candidate | same | invariant relating the returned network, translation and verdict |
| C33 | Training data only grows and stays consistent with the dynamics | same + data updates | invariant over iterations |
| C34 | The beta search of RSWS terminates | `beta_search` iterated with fuel | bisection measure; divergence by induction on fuel |
| C35 | Trajectory extension of counterexamples is bounded | `compute_trajectory` gradient steps | induction over steps |
| C36 | The supervisor returns the first success, or a failure only when all workers failed | supervisor and workers as a transition system | invariant over arbitrary schedules |
| C37 | Parsed dynamics follow the usual precedence | token and character grammars (M_Parser, M_Lexer) | print/parse by structural induction; refutations by computation |
| C38 | Variables of a parsed system denote the right state component | make_var, substitution, sympy symbol order (M_Variables) | induction over the text; sortedness; refutations |
| C39 | Label checks accept exactly the required sets | `_assert_state`, advertised sets, CLI domains/data | set equality over label lists for every certificate |
| C40 | Loss terms see the samples of their own label | slices in `learn` | list lemmas over arbitrary dictionaries |
| C41 | Training stops early only when the samples satisfy the learned conditions | accuracy tests | counting lemmas, iff |
| C42 | The synthesised controller verified is the controller returned | controllers, closed loops (M_Control) | induction over layers; rounding bound; complete refuting run |
| C43 | Timers report consistent statistics | `Timer` state machine | induction over histories |
| C44 | Recorded result rows match the header | recorder rows and files | computation over all configurations; induction over histories |
| C45 | A successful LYAPUNOV run proves stability of the returned closed loop | M_Fossil: the whole SingleCegis run with controller | composition of C01, C06, C13/C14, C21–C26, C32, C42 |
| C46 | A successful BARRIER/BARRIERALT run proves safety of the returned closed loop | same, barriers | composition with C15/C16 |
| C47 | A successful ROA run with LLO proves that the initial set is a region of attraction of the small ball | same, ROA | composition with C19 |
| C48 | A successful RWS/RWA/RSWS/RSWA run proves reach-while-stay; RSWS also remain-in-goal | same, RWS/RSWS with beta search | composition with C17/C18 |
| C49 | Where success does not mean what it says | same | four complete runs evaluated in the model |
| C50 | The ROA level covers the initial samples, the RSWS level stays below the goal border | ROA and RSWS level computation (M_Learning roa_level, rsws_level, beta_loss) | maximum / minimum over samples; the RSWS loss against the filtered goal samples; refutations |
| C51 | Losses push in the direction of the conditions | loss functions | monotonicity of each loss in the sampled values |
| C52 | A successful STABLESAFE or RAR run proves its property | M_Double: DoubleCegis assembled | composition of C12, C15, C19/C20 with the loop invariant |
| C53 | When the search turns to the second certificate the first is settled and frozen | DoubleCegis freezing | invariant over iterations; refutation |
| C54 | verify() of a user's certificate proves its property | main.verify, symbolic differentiation (M_Verify) | chain rule by structural induction; composition with C13–C17; refutations |
| C55 | Training differentiates the function that is verified | autograd as vector–Jacobian products (M_Gradient) | reverse accumulation = Jacobian product, induction over layers |
| C56 | The text of a set in a configuration file denotes that set | DomainParser on characters (M_DomainParser) | print/parse round trip for every way of writing a set |
| C57 | A recorded seed reproduces the run, and the runs of a benchmark are distinct | seeding of run_benchmark/synthesise/workers over a seeded stream (M_Main) | induction over programs that draw numbers |
| C58 | A configuration file sets what it says, in any order | parse_yaml_to_cegis_config (M_Cli) | induction over the document; permutation invariance |
| C59 | From the text of a configuration file to the guarantee | the path file → session → run, for one certificate and for two (M_Config) | composition of C37, C38, C42, C45–C48, C52, C56, C58 |
| C60 | Every training call is bounded, and stops early exactly at a network that passes its test | the learn loops (M_Learner) | induction on the remaining steps against the specification trained_until |
| C61 | A CANDIDATE in the configuration file: what the printed verdict means | the path file → candidate → verify (M_ConfigVerify) | composition of C54, C37, C38, C56, C58, C59; a refutation for discrete time; examples meeting all hypotheses |
| C62 | The problem fossil works on is the one the configuration file describes | the path file → problem (M_Config): settings, sets, networks, numerical right-hand side | against a specification of settings, choices and shapes (S_Session); composition of C25, C37, C38, C42, C56, C58 |
| C63 | VERIFIER, TIME_DOMAIN and CERTIFICATE choose the components; with VERIFIER NONE nothing is checked | get_learner, get_translator_type, get_verifier(_type), get_parser_from_verifier, get_certificate, get_cegis and the run with VerifierNone (M_Dispatch) | case analysis against tables of components; the NONE run by unfolding the loop of C14; an unstable system as witness |
| C64 | Converting a sympy expression to a solver keeps its value | sympy_converter.py (M_SympyConverter) | induction on expression trees against a real-valued semantics (S_SympyConverter) |
| C65 | The summary table counts every recorded run exactly once | analysis.py Analyser, ratio (M_Analyser) on the recorder of C44 | induction over the recorded rows; grouping, minimum, mean, maximum against their mathematical definitions (S_Analyser) |
| C66 | A model written in Python is the same system in the simulation and in every solver | DynamicalModel.__call__/f, ControllableDynamicalModel, GeneralClosedLoopModel, contains_object, the FNCS tables (M_Model) and experiments/benchmarks/models.py transcribed by tools/gen_models.py (M_Benchmarks) | induction on expressions against a real semantics (S_Model); the shipped classes by reflection of a syntactic check; induction over call histories |
| C67 | A user's own certificate class is proved when its conditions say what the user means, and only then | SingleCegis with an arbitrary user class, lazily consumed conditions, and custom_cert.py (M_Custom) | C32 and C01/C22 composed for an arbitrary class; induction over groups for a deciding solver; a simulation between the example class and LYAPUNOV; complete runs as witnesses |
| C68 | Lineariser returns the true first-order model at the origin, or raises | Lineariser: get_model, the checks, jacobian, substitution, conversion to floats (M_Linear); sympy as a parameter | Frechet calculus for terms (L_Frechet): eval has the derivative diff; the checks give f(0,0)=0 and absence of the inputs |
| C69 | EigenCalculator's verdicts are the stability of the system | EigenCalculator (M_Linear); numpy.linalg.eigvals as a parameter, assumed to return the diagonal of a similar triangular matrix | weighted form from triangularisation (L_Eigen) and its decay (L_Quadratic); eigenvectors by back substitution give motions for the converse; perturbation by the first-order error for the model |
| C70 | LQR's gain is optimal and stabilising when the Riccati solution is definite | LQR (M_Linear); the Riccati solver and the inverse as parameters | completing the square along motions; stable systems have definite forms (least multiple of a decreasing form) |
| C71 | The term added to a controller's loss is bounded, never decides success, and looks only at the origin | the regularisers of control.py and one loop of the four learn methods that use cosine_reg (M_Regulariser) | Cauchy-Schwarz with its equality case; means at the end of their range; the derivative of the squared distance |
| C72 | What a success of each shipped experiment proves about its system | main.run_benchmark on a Python configuration (M_Experiment) and the shipped scripts, generated from their text (M_Scripts) | a script passes a computed check, which implies the hypotheses of C46-C48 and C52; inclusions between the sets by computed bounds (L_Boxes); ring arguments by compactness (L_Annulus) |
| C73 | What a success on each shipped configuration file proves | the shipped YAML files, generated from their text (M_Documents), through cli, parser, domain parser, learner and CEGIS (M_Config) | the texts are recognised by computed checks (L_Texts), which give the hypotheses of C59; roa-test by an explicit orbit |
| C74 | Only sixteen settings can change what is searched for and verified | cli.parse_yaml_to_cegis_config and the construction of the search (M_Cli, M_Config) | the attributes read are functions of the deciding fields; data only enters through its labels; a witness per setting |
| C75 | A configuration file written as documented starts, and the run returns a result | the whole path from a configuration file to the result: cli, parser, model construction, learner, translator, CEGIS loop (M_Config, M_Fossil, M_Double) | each stage is shown to be defined on documented input (L_Start); an invariant (shapes of the networks and controller) carries this through the loop (P_Cegis.passes_return) |
| C76 | With a solver that decides, a run succeeds exactly if it comes to a valid candidate | the CEGIS loop with the concrete verifier, constraints and the search for a level (M_Fossil, M_Double, M_Cegis, M_BetaSearch); S_Complete says when a candidate is valid and a solver right | verify() of decided groups (P_Custom) + the obligations of each certificate (C06-C12) give: found iff valid; bisection is complete by monotonicity; induction over the visited states gives the run |
| C77 | A counterexample is respected by every later candidate whose training succeeded | the CEGIS loop with training loops, batches, tests and gradients of the learner, translator and constraints (M_Cegis, M_Fossil, M_Learner, M_Learning, M_Gradient, M_Certificates); S_Progress, and S_ProgressTwo for STABLESAFE and RAR, name what is excused | C60 (how training ends) + C41 (what the test means on samples) + C55 (learner and formulas agree) + C33 (counterexamples are added); then each query against its test |
| C78 | With finitely many possible counterexamples and successful training the synthesis loop ends with a certificate | as C77; S_Terminates (S_ProgressTwo for STABLESAFE and RAR) says which solvers and trainings are meant | C77 gives a new point of the pool per failed iteration; induction over the visited states collects distinct points, and NoDup_incl_length bounds the iterations |
| C79 | The distance-like measure of a set is zero exactly on the set | M_Containment (check_containment_grad of Rectangle, Sphere, Ellipse, Torus, Complement), M_Domains (check_containment), S_Domains (the sets) | relu sums are zero iff both arguments are non-positive; witnesses for every dimension |

## 5. Trusted base

* Coq 8.16.1's kernel (`coqc`; the compiled files were also checked with `coqchk`).
* The axioms of the standard library listed per theorem in section 7: the real numbers
  (`ClassicalDedekindReals.sig_forall_dec`, `sig_not_dec`), `functional_extensionality_dep`, and `Classical_Prop.classic`.
  No axiom of another library and none of our own. (`vcheck` also prints fields of the sealed standard-library modules
  `RbaseSymbolsImpl`, `QcharacSymbolsImpl` and `ssrunder.Under_rel`: those have bodies and are not axioms of any theorem here.)
* The transcription of the Python text into `M_*.v` (by reading; citations at each definition).
* The facts about external libraries written into the model (section 2): meaning of solver formulas, torch's documented
  formulas, pyparsing's combinators, yaml.safe_load's result tree, Python's dict order and Enum lookup.
* The specifications `S_*.v` and the hypotheses of each theorem ("honest solver", "lawful optimiser", geometry of the
  sets, continuity of the vector field), which are stated in the theorem and shown satisfiable by examples.

## 6. Findings about the pinned code (each is a theorem unless marked "by reading")

1. **STABLESAFE overwrites a label** (C01, C12, C49, C52): both parts use label XD, so an *unknown* for the first part is overwritten by
   `unsat` of the second and success is reported.
2. **Unknown freezes** (C53): in DoubleCegis an undecided first certificate counts as found and is frozen; after freezing, the
   STABLESAFE level is still recomputed.
3. **ReLU kink** (C22): the symbolic derivative at the kink makes Vdot wrong on a set of measure zero; a ReLU barrier is certified
   although the unsafe set is reached.
4. **cvc5 rounding** (C22), **ROUNDING = 0** (C23), **quadratic factor in discrete time** (C23, C49, C55): Vdot/ΔV is not that of V.
5. **LLO** (C26): `is_positive_definite` false is only a warning; STABLESAFE never makes the last layer positive.
6. **Lyapunov without V(0)=0** (C13): an unstable system is certified when the network has biases.
7. **Controller rounding** (C42): the verified loop uses the controller rounded to five decimals, the returned one is not; a
   complete run returns an unstable closed loop.
8. **RSWA does not run the beta search** (C32, C48, C49): the dispatch tests RSWS only.
9. **beta search** (C34): diverges for some candidates, raises on unknown.
10. **dReal bounds** (C05): conditions not confined to |x| < 1000 are accepted on unsat of the clipped problem.
11. **Sets** (C28–C30): `Sphere.check_containment` compares the norm with the radius squared; samplers of open sets, Torus, spheres of dimension
    1/≥4, and 1-dimensional borders leave the set; OpenRectangle's border.
12. **Activations** (C25): RELU_SQUARE/REQU and RATIONAL have no translation; EVEN_POLY_n has a constant term and degree 2(n−1); softplus above 20.
13. **ROA** (C50, C39): the level ignores the quadratic factor; the advertised sets are refused by the API; `verify` raises AttributeError (C54).
14. **Losses** (C40, C41): STABLESAFE/RAR batches depend on dictionary order; 99.9 % tolerance of accuracies.
15. **Labels** (C39): a scalar N_DATA with borders is rejected; RAR through the CLI builds domains in another order.
16. **Supervisor** (C36): the solution has no `clean` method, so it never returns; timers' `avg` asserts (C43); recorder raises KeyError for
    shifted softplus and CUSTOM (C44).
17. **Parser** (C37, C38): `-p**e` is `(-p)**e`; `((t1)-t2)`, `f((t1)*t2)` refused; sympy's sqrt has a second argument; `x10` reads
    component 2 numerically; in dReal a repeated `u` is never substituted; an unmentioned state variable and a constant
    right-hand side raise.
18. **Domain parser leniency** (C56); **CLI** (C58): documented defaults unused, dictionaries or `""` accepted as activations;
    README's torus XD excludes the origin (C59_hole).
19. **Seeds** (C57): an unseeded `synthesise` records the same seed every time; non-concurrent repeats use seeds four apart.
20. **verify()** (C54, C61): three ways in which a wrong candidate is accepted; the time domain is ignored; with CTRLAYER the candidate is
    checked against a controller with untrained random weights.
21. **VERIFIER NONE** (C63; used by experiments/benchmarks/cli/learn.yaml): "found" after one training call whatever the candidate is; with RSWS it raises;
    MARABOU always raises (CegisConfig has no INNER_RADIUS).
22. **sympy_converter** (C64): an unevaluated x**0 becomes x with z3 numerals. **Analyser** (C65): runs which differ in verifier, time domain,
    factors or LLO are averaged on one line; underscores are escaped in the activations' LaTeX too, which breaks their subscripts.
23. **Models in Python** (C66): a call whose first element is not a solver variable (a dReal expression, a number) returns None without an error;
    numpy arrays and constant components raise; Z3 has no sin/cos/exp table entries (KeyError); LinearDiscreteNVars is simulated transposed;
    LinearSatellite declares 5 states and reads 6; BenchmarkDT1 and CtrlCar cannot be closed; Quadrotor2d raises; `Eulerised` has neither `n_vars` nor `_f_torch`;
    a text argument sends `contains_object` into an infinite recursion; `check_similarity` reads a missing attribute (the last three by reading).
24. **User certificates** (C67): results are stored per key, so an undecided condition is overwritten by a later one with the same key and the run succeeds;
    yielding nothing (or an empty dictionary) always succeeds; the documented "single dictionary" raises AttributeError; the documented discrete-time use is refused;
    a key without data raises KeyError at its first counterexample.
25. `Lineariser` substitutes zero for the states but not for the inputs in the Jacobian, so a model whose derivatives depend on the inputs (x' = x u - x) raises a
    TypeError although it has a linearisation at (0, 0) (C68); it returns no B although `LQR` needs one, and `LQR`'s default `B=None` always raises AttributeError.
26. **The controller's regulariser** (C71): `cosine_reg` is written for a continuous-time loop that should reach the origin, but RWS, RSWS and RAR use it unchanged, where it
    penalises going to a goal that lies farther out; with TIME_DOMAIN discrete it rewards x -> -2x and penalises x -> x/2.
27. **Shipped experiments** (C72): barrier/ctrlbarr_quadrotor2d.py cannot run (its model's `f_torch` raises) and its XD, with third bounds pi and pi, contains no initial and no unsafe
    state, so any barrier would be accepted; lyap/'s rings say nothing about the origin itself (as with C59_hole); barr_2.py's XD only bounds x below and y above.
28. **Shipped configuration files** (C73): roa-test.yaml leaves LLO off, so it can succeed with a controller under which motions circle the origin; rswa-test.yaml only proves
    reach-while-stay; more activations than layers are accepted in silence (ctrl_rar_sine.yaml), while with LLO the check of the last activation looks at the unused one.
29. **Settings without effect** (C74): nothing reads LOSS_MARGIN and ACCURACY_MARGIN, and CEGIS_MAX_TIME_S, documented as the maximum time, is only asserted to be positive.
30. **Files that are refused** (C75): N_DATA has a default (500) but a file without it raises; so do an equation without variables (x' = 1) and a CTRLAYER with a single entry.
31. **Counterexamples can come back for ever** (C77): with ROUNDING >= 0 (the default) the learner tests the unrounded network but the verifier gets the rounded one, so training stops at once on the same counterexample (C77_rounding_refuted; C78_rounding_refuted has a run that never ends although the network is right at every sample from the start). Without rounding the zero network passes the Lyapunov test (`<=` against the query's strict inequality, C77_equality_refuted). ROA labels counterexamples of its initial-set condition XD, so they are added to the samples of the domain and never raise the level.
32. **STABLESAFE with backup data never learns from some counterexamples** (C78): with XR among the data (experiments/benchmarks/stabsafe/stablesafe2.py and ctrl_stablesafe3.py) the loss of the first function reads only the samples of XR (certificate.py:1365-1373), but its counterexamples are added to XD. C78_backup_data_refuted is a run without end in which training passes its test every time and every candidate fails at the same point.
33. **check_containment_grad** (C79): for rectangles of two or more dimensions points outside get 0 ((1.5, -0.5) and the unit square), for Complement it is never positive, for open sets zero on the border, and with dim_select it raises on a table of points.
34. By reading only (not in the model): Marabou's `_DiffNet` raises TypeError; CTRLACTIVATION and CTRLAYER of different
    length are silently zipped; a bare repeated dReal variable returns the Variable without substitution; Python's `1/0` in a parsed constant.

## 7. Axioms per theorem (Print Assumptions, generated by tools/axioms.py)

`none`: closed under the global context; `A` = {sig_forall_dec}; `B` = A + {functional_extensionality_dep}; `C` = B + {sig_not_dec}; `D` = C + {classic}. Full names: `ClassicalDedekindReals.sig_forall_dec`, `ClassicalDedekindReals.sig_not_dec`, `FunctionalExtensionality.functional_extensionality_dep`, `Classical_Prop.classic`. No others occur.

| property | status | theorems (file: name [axioms]) |
|----|----|----|
| C01 | proved | `P_Verifier`: C01_found_refutes_every_condition [D], C01_all_refuted_is_found [B], C01_certificate_labels_distinct [none], C01_stablesafe_refuted [D] |
| C02 | proved | `P_Verifier`: C02_unknown_is_not_success [B], C02_no_counterexample_unless_sat [B] |
| C03 | proved | `P_Verifier`: C03_counterexample_shape [D], C03_counterexample_keys [B] |
| C04 | proved | `P_Verifier`: C04_groups_evaluated_in_order [B], C04_unreached_groups_irrelevant [B] |
| C05 | proved | `P_Verifier`: C05_dreal_accepts_only_if_no_bounded_solution [D], C05_dreal_sound_on_bounded_conditions [D], C05_dreal_unbounded_refuted [D] |
| C06 | proved | `P_Certificates`: C06_lyapunov_obligations [D] |
| C07 | proved | `P_Certificates`: C07_roa_obligations [D] |
| C08 | proved | `P_Certificates`: C08_barrier_obligations [D] |
| C09 | proved | `P_Certificates`: C09_barrier_alt_obligations [D] |
| C10 | proved | `P_Certificates`: C10_rws_obligations [D] |
| C11 | proved | `P_BetaSearch`: C11_beta_search_true [D], C11_beta_search_false_no_beta [D] |
| C12 | proved | `P_Certificates`: C12_rar_obligations [D], C12_stablesafe_obligations [D], C12_rar_labels [none] |
| C13 | proved | `P_Stability`: C13_lyapunov_stability [D], C13_unstable_system_certified [D]; `P_TranslatorBugs`: C13_unstable_system_certified_by_network [D] |
| C14 | proved | `P_Stability`: C14_lyapunov_discrete_decrease [D], C14_lyapunov_discrete_convergence [D] |
| C15 | proved | `P_Safety`: C15_barrier_safety [D] |
| C16 | proved | `P_Safety`: C16_barrier_alt_safety_continuous [D], C16_barrier_alt_safety_discrete [D] |
| C17 | proved | `P_Safety`: C17_rws_reach_while_stay [D] |
| C18 | proved | `P_Safety`: C18_rsws_reach_and_stay [D] |
| C19 | proved | `P_Stability`: C19_roa_llo_decrease [D], C19_roa_nonincreasing [D], C19_roa_llo_attraction [D], C19_no_attraction_without_llo [D], C19_edge_escape_without_llo [D] |
| C20 | proved | `P_Safety`: C20_rar_reach_avoid_remain [D] |
| C21 | proved | `P_Translator`: C21_rounding [B], C21_verified_function [D], C21_dreal_always_translates [D] |
| C22 | proved | `P_Translator`: C22_derivative_along_trajectories [D], C22_smooth_networks [D]; `P_TranslatorBugs`: C22_relu_kink_unsound [D], C22_cvc5_rounding_refuted [D] |
| C23 | proved | `P_Translator`: C23_discrete_difference [D], C23_discrete_function [D], C23_rounding_zero_fails [none]; `P_TranslatorBugs`: C23_quadratic_factor_refuted [D] |
| C24 | proved | `P_Activations`: C24_derivative [D], C24_defined_together [none] |
| C25 | proved | `P_Activations`: C25_symbolic_agrees_with_numeric [D], C25_softplus_gap [D], C25_name_implemented [D], C25_polynomial_names [D], C25_even_poly_refuted [D], C25_requ_refuted [D], C25_unsupported [none] |
| C26 | proved | `P_LLO`: C26_candidate_nonnegative [D], C26_llo_positivity [D], C26_llo_positivity_roa [D], C26_llo_positivity_discrete [D], C26_hypotheses_met [D], C26_warning_only_refuted [D], C26_stablesafe_sign_refuted [D], C26_layer_of_ones [none], C26_layer_as_drawn [none] |
| C27 | proved | `P_Domains`: C27_formula_denotes_set [D], C27_complement [D] |
| C28 | proved | `P_Domains`: C28_containment_agrees [C], C28_sphere_refuted [C] |
| C29 | proved | `P_Sampling`: C29_samples_in_set [D], C29_row_count [D], C29_border_samples_on_boundary [D], C29_border_samples [D], C29_border_count [D], C29_can_sample [D], C29_cannot_sample [D], C29_sphere_dim1_refuted [D], C29_sphere_dim4_refuted [D], C29_torus_refuted [D], C29_open_rectangle_refuted [D], C29_open_sphere_refuted [D], C29_hole_refuted [D], C29_border_dim1_refuted [D] |
| C30 | proved | `P_Domains`: C30_boundary_covers [D], C30_leaving_crosses_boundary [D], C30_interior_boundary_partition [D], C30_open_rectangle_refuted [D] |
| C31 | proved | `P_Cegis`: C31_iteration_budget [none], C31_returns_a_result [none], C31_negative_budget_runs_forever [none] |
| C32 | proved | `P_Cegis`: C32_result_was_verified [none], C32_first_success_is_returned [none], C32_rswa_skips_stay [none] |
| C33 | proved | `P_Cegis`: C33_data_only_grows [none], C33_counterexamples_are_added [none], C33_reported_sample_count [none] |
| C34 | proved | `P_BetaSearch`: C34_search_terminates_when_admissible_interval [D], C34_unknown_is_an_error [none], C34_search_can_diverge [D] |
| C35 | proved | `P_Consolidator`: C35_trajectory [B] |
| C36 | proved | `P_Supervisor`: C36_returned_result [none], C36_returns [none], C36_hangs [none], C36_never_returns [none] |
| C37 | proved | `P_Lexer`: C37_characters [B], C37_characters_accepted [B], C37_characters_example [B]; `P_Parser`: C37_usual_precedence [B], C37_accepted [B], C37_minus_power [B], C37_minus_power_accepted [B], C37_paren_minus_rejected [B], C37_argument_rejected [B], C37_sympy_square_root [B], C37_sympy_logarithm [B] |
| C38 | proved | `P_Variables`: C38_constant_refused [B], C38_constant_refused_numbers [B], C38_numbers [B], C38_numbers_beyond_ten [B], C38_numbers_missing [B], C38_symbols [B], C38_symbols_missing [B], C38_controllable [B], C38_same_system [B], C38_dreal_repeated [B] |
| C39 | proved | `P_Labels`: C39_time_domain [none], C39_check_is_exact [none], C39_command_line [none], C39_advertised_api [none], C39_scalar_n_data [none], C39_conditions_use_required_sets [none], C39_condition_labels_have_data [none], C39_counterexamples_have_data [B] |
| C40 | proved | `P_Labels`: C40_rar_command_line_order [none], C40_rar_command_line_images [none]; `P_Learning`: C40_lyapunov_roa [none], C40_barrier [none], C40_rws [none], C40_rsws [A], C40_stablesafe_in_order [none], C40_stablesafe_mislabelled [none], C40_rar [none], C40_rar_wrong_images [none] |
| C41 | proved | `P_Learning`: C41_lyapunov_roa [B], C41_barrier [B], C41_barrier_small [B], C41_barrier_alt [D], C41_rws [D], C41_rar [D], C41_barrier_samples [B], C41_lyapunov_roa_samples [B], C41_rws_samples [D], C41_tolerance [B]; `P_Training`: C41_training_stops_twice [none], C41_training_stops [none] |
| C42 | proved | `P_Control`: C42_verified_closed_loop [D], C42_numeric_closed_loop [D], C42_rounding_error [B], C42_exact_with_five_decimals [D], C42_success_certifies_rounded_controller [D], C42_unrounded_controller_unstable [D] |
| C43 | proved | `P_Timer`: C43_statistics [none], C43_stop_needs_start [none], C43_decorator [none], C43_average_of_zero_intervals [none] |
| C44 | proved | `P_Recorder`: C44_row_matches_header [none], C44_recording_raises [none], C44_recorded [none], C44_names [none], C44_file [none] |
| C45 | proved | `P_Fossil`: C45_lyapunov_success_means_stability [D], C45_lyapunov_discrete_success_means_convergence [D] |
| C46 | proved | `P_Fossil`: C46_barrier_success_means_safety [D], C46_barrier_success_means_safety_discrete [D] |
| C47 | proved | `P_Fossil`: C47_roa_success_means_attraction [D] |
| C48 | proved | `P_Fossil`: C48_reach_while_stay [D], C48_reach_and_stay [D] |
| C49 | proved | `P_FossilExamples`: C49_lyapunov_success_unstable [D], C49_barrier_success_unsafe_relu [D], C49_rswa_success_leaves_goal [D], C49_discrete_success_grows [D] |
| C50 | proved | `P_Training`: C50_level_is_maximum [D], C50_quadratic_factor_ignored [D], C50_goal_level_is_minimum [D], C50_goal_level_ignores_factor [D] |
| C51 | proved | `P_Training`: C51_lyapunov [B], C51_activations [D], C51_barrier [B], C51_barrier_alt [D], C51_rws [D], C51_beta [D], C51_barrier_zero [B] |
| C52 | proved | `P_Double`: C52_rar_success_means_reach_avoid_remain [D], C52_stablesafe_success_means_safety [D], C52_stablesafe_success_means_attraction [D] |
| C53 | proved | `P_Double`: C53_frozen_certificate_is_valid [D], C53_frozen_network_never_changes [B]; `P_DoubleExamples`: C53_undecided_certificate_frozen_refuted [D] |
| C54 | proved | `P_Verify`: C54_candidate_lie_derivative [D], C54_lyapunov_candidate_stable [D], C54_barrier_candidate_safe [D], C54_reach_while_stay_candidate [D], C54_other_candidates_raise [B], C54_discrete_candidate_refuted [D], C54_llo_candidate_refuted [D], C54_stay_candidate_refuted [D] |
| C55 | proved | `P_Gradient`: C55_activation_backward [D], C55_learner_agrees [D], C55_gradient [D], C55_learner_agrees_discrete [D], C55_lyapunov_training [D], C55_discrete_factor_refuted [D], C55_double_factor_refuted [D], C55_softplus_refuted [D] |
| C56 | proved | `P_DomainParser`: C56_set_text [D], C56_unambiguous [D], C56_lenient_refuted [none], C56_plain_characters [none], C56_domains_section [none] |
| C57 | proved | `P_Main`: C57_reproducible [none], C57_worker_reproducible [none], C57_repetition_seeds [none], C57_worker_seeds_distinct [none], C57_worker_seeds_consecutive [none], C57_unseeded_refuted [none] |
| C58 | proved | `P_Cli`: C58_settings [none], C58_accepted [none], C58_refused [none], C58_order_irrelevant [none], C58_unknown_ignored [none], C58_defaults_refuted [none], C58_lenient_refuted [none], C58_amounts [none] |
| C59 | proved | `P_Config`: C59_field [D], C59_continuous [D], C59_safety [D], C59_safety_discrete [D], C59_stability [D], C59_convergence [D], C59_reach_while_stay [D], C59_reach_and_stay [D], C59_attraction [D]; `P_ConfigDouble`: C59_stable_safe [D], C59_stable_safe_attraction [D], C59_reach_avoid_remain [D]; `P_ConfigExamples`: C59_hole [D] |
| C60 | proved | `P_Loops`: C60_lyapunov_roa [none], C60_others [none], C60_stablesafe [none], C60_rar [none], C60_safe_roa_half [none] |
| C61 | proved | `P_ConfigCandidate`: C61_candidate_positive [D], C61_candidate_separates [D], C61_one_candidate [D]; `P_ConfigVerify`: C61_safety [D], C61_stability [D], C61_reach_while_stay [D], C61_unmentioned_variable [D], C61_no_verdict [D]; `P_ConfigVerifyExamples`: C61_discrete_refuted [D] |
| C62 | proved | `P_Session`: C62_settings [D], C62_sets [D], C62_networks [D], C62_second_network [D], C62_simulation [D] |
| C63 | proved | `P_Dispatch`: C63_components [none], C63_translator [none], C63_parser [none], C63_none_is_not_checked [B], C63_none_accepts [B], C63_none_double [B], C63_none_rsws_raises [B], C63_none_success_unstable [D] |
| C64 | proved | `P_SympyConverter`: C64_meaning [C], C64_accepts [none], C64_zero_exponent_refuted [C] |
| C65 | proved | `P_Analyser`: C65_table [none], C65_available [none], C65_success_rate [none], C65_merged [none], C65_order [none], C65_benchmarks [none] |
| C66 | proved | `P_Model`: C66_one_field [D], C66_missing_function [D], C66_history [D], C66_history_closed [D], C66_silent_none [D], C66_closed_loop [D], C66_shipped [D], C66_declared [none], C66_closable [none], C66_transposed_refuted [D], C66_satellite_raises [B], C66_euler [D], C66_lqr [D] |
| C67 | proved | `P_Custom`: C67_success [D], C67_example_class_stability [D], C67_grouping [D], C67_nothing_asked [B], C67_single_dictionary_refuted [B], C67_refused [B], C67_keys_need_data [B]; `P_CustomExamples`: C67_same_as_builtin [B], C67_repeated_key_refuted [D] |
| C68 | proved | `P_Linear`: C68_linearisation [D], C68_partial_derivatives [D], C68_not_an_equilibrium [D], C68_input_dependent_refused [D], C68_polynomials_accepted [D] |
| C69 | proved | `P_Eigen`: C69_is_stable [D], C69_is_sufficiently_stable [D], C69_worst_pole [D], C69_model [D] |
| C70 | proved | `P_LQR`: C70_construction [B], C70_gain [B], C70_cost [D], C70_optimal [D], C70_stabilising [D], C70_stable [D], C70_nonlinear [D], C70_equation_is_not_enough [D] |
| C71 | proved | `P_Regulariser`: C71_range [C], C71_extremes [C], C71_distance [C], C71_loss [D], C71_stop_lyapunov [C], C71_stop_reach [D], C71_stop_remain [D], C71_goal [C], C71_discrete [C], C71_discrete_runs [B], C71_conflict [C], C71_others [D] |
| C72 | proved | `P_Experiment`: C72_start [D], C72_settings [D], C72_simulation [D], C72_reach [D], C72_reach_stay [D], C72_remain [D], C72_stabsafe [D], C72_stabsafe_forever [D], C72_stabsafe_attraction [D], C72_attraction [D], C72_safety [D], C72_safety_discrete [D], C72_quadrotor [D], C72_ring [D], C72_ring_discrete [D] |
| C73 | proved | `P_Documents`: C73_start [D], C73_barrier [D], C73_stable_safe [D], C73_reach [D], C73_remain [D], C73_pendulum [D]; `P_DocumentsMore`: C73_lyapunov [D], C73_verify [D], C73_attraction_refuted [D]; `P_DocumentsStay`: C73_stay_refuted [D] |
| C74 | proved | `P_Settings`: C74_same_run [D], C74_each_matters [D] |
| C75 | proved | `P_Start`: C75_starts [D], C75_returns [D], C75_returns_two [D], C75_refused [D] |
| C76 | proved | `P_Complete`: C76_success_iff_valid [D], C76_success_iff_valid_two [D]; `P_CompleteExamples`: C76_document [D], C76_document_two [D] |
| C77 | proved | `P_Progress`: C77_training_ends [B], C77_kept [B], C77_samples_respected [D], C77_counterexamples_respected [D]; `P_ProgressExamples`: C77_rounding_refuted [D], C77_equality_refuted [D]; `P_ProgressTwo`: C77_training_ends_two [B], C77_kept_two [B], C77_samples_respected_two [D], C77_counterexamples_respected_two [D]; `P_TerminatesDocument`: C77_document [D], C77_document_two [D] |
| C78 | proved | `P_Terminates`: C78_new_counterexample [D], C78_terminates [D], C78_margin [D]; `P_TerminatesDocument`: C78_document [D], C78_document_two [D]; `P_TerminatesExamples`: C78_rounding_refuted [D]; `P_TerminatesTwo`: C78_new_counterexample_two [D], C78_terminates_two [D]; `P_TerminatesTwoExamples`: C78_backup_data_refuted [D] |
| C79 | proved | `P_Containment`: C79_zero_iff_contained [C], C79_zero_iff_member [C], C79_contained_is_zero [C], C79_rectangle_refuted [C], C79_open_refuted [C], C79_complement_refuted [C], C79_dim_select_raises [C] |
