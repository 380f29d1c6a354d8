import json
P=[]
def p(title, statement, quantifier, why, anchors):
    P.append(dict(id="C%02d"%(len(P)+1), title=title, statement=statement, quantifier=quantifier, why_tests_cant=why, anchors=anchors))

# --- verifier
p("A reported success means every proof obligation was refuted",
  "When Verifier.verify(C, dC) returns found=True, then every formula yielded by the certificate's get_constraints was answered 'unsat' by the solver, hence (for a solver whose unsat answers are right) no state satisfies any of the negated conditions. Violated for certificates whose groups reuse a label (STABLESAFE yields the label 'lie' twice).",
  "all constraint generators, all solver answer sequences (sat/unsat/unknown in any order), all states",
  "the solver's answers (timeouts, unknowns) cannot be enumerated and the claim is about every state of R^n",
  ["fossil/verifier.py:Verifier.verify","fossil/certificate.py:SafeROA.get_constraints"])
p("Unknown answers and timeouts are never turned into a certificate or a counterexample",
  "If the solver answers neither sat nor unsat for some condition, verify returns found=False, and the counterexample list of every label whose last answer is not sat is empty (distinct labels).",
  "all constraint generators with distinct labels and all solver answer sequences",
  "needs every interleaving of unknown/sat/unsat answers",
  ["fossil/verifier.py:Verifier.verify","fossil/verifier.py:VerifierZ3.is_sat","fossil/verifier.py:VerifierZ3.is_unsat"])
p("Counterexamples are genuine and have the documented shape",
  "For each label reported sat, cex[label] is a (21, n) tensor whose last row is exactly the solver's model, which violates the certificate condition of that label; the 20 other rows are model + noise. Labels not reported sat have an empty list, and only evaluated labels occur as keys.",
  "all conditions, models, noise values and dimensions n",
  "real-valued models and random noise",
  ["fossil/verifier.py:Verifier.verify","fossil/verifier.py:Verifier.randomise_counterex","fossil/verifier.py:Verifier.compute_model"])
p("Conditions are checked group by group with early exit",
  "verify evaluates the groups in order, always finishes the current group, and evaluates group k+1 if and only if no answer so far is sat; the returned dictionary has exactly the labels of the evaluated groups.",
  "all lists of groups and all solver answer sequences",
  "quantifies over all answer sequences",
  ["fossil/verifier.py:Verifier.verify"])
p("dReal verdicts are only trusted where they are valid",
  "With the dReal back-end, an accepted condition (is_unsat) has no solution. Holds when the condition itself confines every variable to |x|<1000 (first answer unsat otherwise needed); violated for unbounded conditions because a far-away witness is replaced by a re-check on |x|<1000.",
  "all formulas and all dReal answers (boxes anywhere)",
  "solutions range over an unbounded real space",
  ["fossil/verifier.py:VerifierDReal._solver_solve","fossil/verifier.py:VerifierDReal.is_unsat","fossil/verifier.py:VerifierDReal.within_bounds"])
# --- certificate conditions
p("LYAPUNOV obligations are the Lyapunov conditions",
  "All constraints of a Lyapunov certificate are unsatisfiable iff V>0 and Vdot<0 at every domain state other than the origin (with LLO: iff Vdot<0 there).",
  "all V, Vdot, domains, dimensions and states",
  "equivalence over all real states and all candidate functions",
  ["fossil/certificate.py:Lyapunov.get_constraints"])
p("ROA obligations are the region-of-attraction conditions",
  "All constraints of ROA are unsatisfiable iff XI lies in {V<=1.1*beta} and, on that sublevel set outside the 0.01-ball, V>0 and Vdot<=0 (LLO: Vdot<0). The strict decrease promised for an attraction region is not part of the non-LLO obligations.",
  "all V, Vdot, beta, XI, states",
  "equivalence over all real states",
  ["fossil/certificate.py:ROA.get_constraints"])
p("BARRIER obligations are the barrier conditions",
  "All constraints of Barrier are unsatisfiable iff within the domain B<0 on init, B>0 on unsafe and Bdot<0 wherever B=0.",
  "all B, Bdot, sets, states",
  "equivalence over all real states",
  ["fossil/certificate.py:Barrier.get_constraints"])
p("BARRIERALT obligations are the barrier conditions",
  "All constraints of BarrierAlt are unsatisfiable iff within the domain B<0 on init, B>0 on unsafe and Bdot<=0 everywhere.",
  "all B, Bdot, sets, states",
  "equivalence over all real states",
  ["fossil/certificate.py:BarrierAlt.get_constraints"])
p("RWS obligations are the reach-while-stay conditions",
  "All constraints of RWS are unsatisfiable iff C<=0 on init (within the domain), C>0 on the safe border (within the domain) and Cdot<=-0.01 on every safe non-goal state with C<=0.",
  "all C, Cdot, sets, states",
  "equivalence over all real states",
  ["fossil/certificate.py:RWS.get_constraints"])
p("RSWS stay check is the stay condition at the returned beta",
  "If beta_search returns True, the learner's beta satisfies: C>beta on the goal border and Cdot<=-0.01 at every goal state that is not both safe and with C<beta.",
  "all C, Cdot, sets, solver answers",
  "the search visits arbitrarily many betas",
  ["fossil/certificate.py:RSWS.stay_in_goal_check","fossil/certificate.py:RSWS.beta_search"])
p("RAR and STABLESAFE obligations are the union of their parts under the right labels",
  "RAR's constraints are RWS's plus the barrier conditions from goal to not-final, under pairwise distinct labels; STABLESAFE's are ROA's plus Barrier's (but with a repeated label).",
  "all V, B, sets, states",
  "equivalence over all real states",
  ["fossil/certificate.py:ReachAvoidRemain.get_constraints","fossil/certificate.py:SafeROA.get_constraints"])
# --- end to end
p("LYAPUNOV success implies stability of the origin (continuous time)",
  "If synthesis reports success for LYAPUNOV on a continuous-time system with a bias-free network whose activations vanish at 0, then the origin is Lyapunov stable: every trajectory starting close enough stays as close as desired, and V strictly decreases along it. For activations with phi(0)<>0 the claim is false: an unstable system can be certified.",
  "all networks, dynamics, trajectories, epsilon",
  "quantifies over all trajectories of all ODEs",
  ["fossil/certificate.py:Lyapunov.get_constraints","fossil/translator.py:TranslatorCT.get_symbolic_formula"])
p("LYAPUNOV success implies decrease along every run (discrete time)",
  "If synthesis reports success for LYAPUNOV on a discrete-time system, V is positive and strictly decreasing along every run inside the domain until the origin is hit.",
  "all networks, maps, runs",
  "infinitely many runs of unbounded length",
  ["fossil/certificate.py:Lyapunov.get_constraints","fossil/translator.py:TranslatorDT.get_symbolic_formula"])
p("BARRIER success implies safety (continuous time)",
  "If synthesis reports success for BARRIER, no trajectory that starts in the initial set and stays in the domain ever enters the unsafe set.",
  "all trajectories, all times",
  "uncountably many trajectories, unbounded time",
  ["fossil/certificate.py:Barrier.get_constraints","fossil/translator.py:TranslatorCT.get_symbolic_formula"])
p("BARRIERALT success implies safety (continuous and discrete time)",
  "If synthesis reports success for BARRIERALT, no trajectory/run that starts in the initial set and stays in the domain ever enters the unsafe set.",
  "all trajectories/runs, all times",
  "uncountably many trajectories, unbounded time",
  ["fossil/certificate.py:BarrierAlt.get_constraints"])
p("RWS success implies reach-while-stay with a time bound",
  "If synthesis reports success for RWS, every trajectory from the initial set stays in the safe set until it reaches the goal, and reaches it within (C(x0)-m)/0.01 time units where m bounds C from below on the safe set.",
  "all trajectories and times",
  "uncountably many trajectories, unbounded time",
  ["fossil/certificate.py:RWS.get_constraints"])
p("RSWS success implies reach-and-stay",
  "If synthesis reports success for RSWS, every trajectory from the initial set stays safe, reaches the goal and from some time on remains in the goal forever.",
  "all trajectories and times",
  "uncountably many trajectories, unbounded time",
  ["fossil/certificate.py:RSWS","fossil/cegis.py:SingleCegis.process_certificate"])
p("ROA success implies attraction of the initial set",
  "If synthesis reports success for ROA, every trajectory from XI stays in the certified sublevel set with V non-increasing until it enters the 0.01-ball; with LLO (strict decrease) it does enter the ball when the sublevel set is bounded. Without LLO convergence is not implied (violated).",
  "all trajectories and times",
  "uncountably many trajectories, unbounded time",
  ["fossil/certificate.py:ROA.get_constraints"])
p("RAR success implies reach-avoid-remain",
  "If synthesis reports success for RAR, every trajectory from the initial set stays safe until it reaches the goal, and from then on remains in the final set forever.",
  "all trajectories and times",
  "uncountably many trajectories, unbounded time",
  ["fossil/certificate.py:ReachAvoidRemain"])
# --- translator
p("The verified function is the learned network",
  "The symbolic V handed to the verifier evaluates at every state to the network's output times the factor, computed with the rounded weights; with rounding off (ROUNDING<0) it is exactly the learned function.",
  "all networks (any depth/width), activations, states",
  "infinitely many networks and states",
  ["fossil/translator.py:TranslatorCT.get_symbolic_formula","fossil/learner.py:LearnerNN.forward"])
p("The verified Vdot is the derivative of the verified V along trajectories",
  "For smooth activations, at every time of every trajectory of xdot=f(x), d/dt V(x(t)) equals the symbolic Vdot at x(t), with or without the quadratic factor. For ReLU this holds wherever no hidden pre-activation is zero. Violated with the CVC5 back-end, which rounds one gradient entry separately.",
  "all networks, factors, dynamics, trajectories, times",
  "calculus fact over all networks and trajectories",
  ["fossil/translator.py:TranslatorCT.get_symbolic_formula","fossil/translator.py:TranslatorCT.network_until_last_layer"])
p("The discrete-time difference is V(f(x))-V(x)",
  "TranslatorDT's second formula evaluates to V(f(x))-V(x). Holds without factors; violated with FACTORS=QUADRATIC.",
  "all networks, maps, states",
  "infinitely many networks and states",
  ["fossil/translator.py:TranslatorDT.get_symbolic_formula"])
p("Activation derivatives are the derivatives of the activations",
  "For each activation type, derivative_symbolic is elementwise the derivative of forward_symbolic (ReLU: away from 0), for every layer width including widths not divisible by the polynomial order.",
  "all activation types, widths, inputs",
  "calculus over all reals and widths",
  ["fossil/activations.py"])
p("Symbolic and numeric activations agree",
  "For each activation type and each back-end that supports it, forward_symbolic evaluates to forward elementwise; the class selected by activation_fcn implements the named function (violated by RELU_SQUARE and REQU, which select plain ReLU).",
  "all activation types, back-ends, widths, inputs",
  "all reals and widths",
  ["fossil/activations.py","fossil/consts.py"])
p("Skipping the positivity check with LLO is justified",
  "With LLO and an activation for which no warning is emitted, after any training run (at least one step) the candidate is non-negative everywhere, and the LLO obligations imply V>0 off the origin. Violated for polynomial final layers of odd degree (only a warning) and for STABLESAFE, whose training loop never makes the weights positive. The output layer consists of ones, throughout training, exactly when LLO is set and the last activation is polynomial (its type name contains POLY or SQUARE).",
  "all training histories, weights, states",
  "all optimizer trajectories",
  ["fossil/learner.py:LearnerNN.__init__","fossil/certificate.py:Lyapunov.learn","fossil/certificate.py:SafeROA.learn"])
# --- domains
p("Set combinators are set algebra",
  "Union, Intersection, SetMinus and Complement generate formulas whose solutions are the union, intersection, difference and complement of the operands' solutions, for arbitrarily nested sets.",
  "all set expressions, all states",
  "unbounded nesting, all states",
  ["fossil/domains.py"])
p("Numeric containment agrees with the symbolic set",
  "check_containment(x) is true iff x satisfies generate_domain. Holds for rectangles and combinators over them; violated by Sphere/Ellipse (radius squared).",
  "all sets, all points",
  "all real points",
  ["fossil/domains.py:Rectangle.check_containment","fossil/domains.py:Sphere.check_containment"])
p("Sampled training data lies in the set it is labelled with",
  "Every row returned by generate_data lies in the set, for every random draw: rectangles, spheres in dimension 1-3 where correct, ellipses; violated for spheres of dimension >=4 with radius > 1 and for Torus.",
  "all sets, batch sizes, random draws",
  "random draws over reals",
  ["fossil/domains.py:square_init_data","fossil/domains.py:round_init_data"])
p("A trajectory leaving a set crosses the generated boundary",
  "For Rectangle and Sphere, a continuous path from inside the set to outside passes through a state satisfying generate_boundary while still inside the set up to then; interior and boundary partition the set.",
  "all continuous paths",
  "uncountably many paths",
  ["fossil/domains.py:Rectangle.generate_boundary","fossil/domains.py:Sphere.generate_boundary"])
# --- cegis
p("CEGIS terminates within the iteration budget",
  "If every component call returns, solve() returns after at most CEGIS_MAX_ITERS+1 iterations and reports that many iters.",
  "all component behaviours",
  "all histories of component outputs",
  ["fossil/cegis.py:SingleCegis.solve"])
p("res=True is only returned for the verified candidate",
  "If solve() returns res=True, then the returned symbolic certificate is the candidate of the last iteration, whose verification succeeded against the dynamics used in that iteration (and for RSWS also the stay check). Violated for RSWA, an alias of RSWS that skips the stay check.",
  "all component behaviours / histories",
  "all histories",
  ["fossil/cegis.py:SingleCegis.solve","fossil/cegis.py:SingleCegis.process_certificate"])
p("Training data only grows and stays consistent with the dynamics",
  "Throughout solve(), each data set keeps its earlier samples as a prefix, S and Sdot have the same labels and lengths, each Sdot row is f of the corresponding S row, and the reported N_data is the total number of samples.",
  "all histories of counterexamples",
  "all histories",
  ["fossil/cegis.py:SingleCegis.add_ces_to_data","fossil/cegis.py:SingleCegis.process_cex"])
p("The beta search of RSWS terminates",
  "beta_search returns for every C, Cdot and sets. Violated: with solver answers that alternate the search never ends; it returns within k steps when a k-step bisection hits an admissible interval.",
  "all solver behaviours",
  "unbounded loop",
  ["fossil/certificate.py:RSWS.beta_search"])
p("Trajectory extension of counterexamples is bounded",
  "The consolidator returns at most 21 points, starting with the counterexample, each next point is a gradient step from the previous one and (before the last) Vdot does not decrease.",
  "all networks, points, gradients",
  "all reals",
  ["fossil/consolidator.py:Consolidator.compute_trajectory"])
p("The supervisor returns the first success, or a failure only when all workers failed",
  "For every order of worker completions the parallel supervisor returns the first successful result dequeued, otherwise a failed result after max_P failures. Violated in practice: each worker raises before reporting, so the supervisor never returns.",
  "all completion orders of worker processes",
  "all schedules",
  ["fossil/cegis_supervisor.py:CegisSupervisorQ.solve","fossil/cegis_supervisor.py:worker_Q"])
# --- parser
p("Parsed dynamics follow the usual precedence",
  "Every expression written in the usual notation (sums of products of signed powers of numbers, variables, function calls and parentheses) without a minus sign in front of a power, if the parser accepts it, denotes its usual value; and the parser accepts every such expression without adjacent opening parentheses that uses only functions the solver's library has. Violated: '-p**e' means (-p)**e for all p, e; '((t1)-t2)' and 'f((t1)*t2)' are refused for all t1, t2; with sympy 'sqrt((t1)-t2)' silently means sqrt(t1).",
  "all expressions, all interpretations of variables and functions, all libraries (dReal, sympy, Z3/CVC5)",
  "infinitely many expressions",
  ["fossil/parser.py:SymbolicParser.create_grammar","fossil/parser.py:SymbolicParser.convert_parse_to_ast"])
p("Variables of a parsed system denote the right state component",
  "A parsed system of at most ten states and ten inputs, whose expressions mention exactly x0..x(n-1) and u0..u(m-1) and none of which is a plain number, computes numerically and symbolically the value of its expressions with x_i read as component i of the state and u_i as component i of the input (symbolically for every number of states; for dReal if every control variable occurs once); whenever both right-hand sides are defined they agree. Violated: with more than ten states x10 reads component 2 in the numerical right-hand side; with dReal a control variable that occurs again later is never replaced by the feedback; a system that does not mention one of its state variables cannot be used (the right-hand side raises), and neither can a system with a right-hand side without variables and functions (such as x' = 1).",
  "all systems of expressions, dimensions, states, inputs, libraries",
  "all dimensions and expressions",
  ["fossil/parser.py:parse_dynamical_system_to_numpy","fossil/parser.py:SymbolicParser.make_var","fossil/parser.py:DrealParser.substition_function_u","fossil/control.py:_ParsedDynamicalModel","fossil/control.py:_ParsedControllableDynamicalModel"])
# --- cli/config
p("Label checks accept exactly the required sets",
  "Each certificate accepts a configuration iff the labels of its symbolic sets and of its data are exactly the required ones (STABLESAFE also with the extra sample set XR). A user of the command line who names the sets advertised by get_certificate_sets (the border sets may be left out) and gives N_DATA for each advertised data set gets a configuration which is accepted and in which every sample set and every symbolic set is the one its label stands for (borders are borders of the named set, XU of the reach-while-avoid family is XD minus XS, XNF is XD minus XF). Each certificate reads only required sets and reports counterexamples only under labels which have data. Violated: a single number for N_DATA is refused for every certificate with a border; through the API the advertised sets of ROA are refused.",
  "all label dictionaries, domains, sample numbers, certificates",
  "all subsets of labels / configurations",
  ["fossil/certificate.py:_set_assertion","fossil/consts.py:CertificateType.get_certificate_sets","fossil/cli.py","fossil/cegis.py:SingleCegis._initialise_domains"])
p("Loss terms see the samples of their own label",
  "In each learn method the batch handed to the loss for a set is exactly the network's output on the samples of that set (in order), and each derivative uses the dynamics at its own sample, whatever the order of the data dictionary and the sizes. Violated for STABLESAFE unless the dictionary lists XD, (XR,) XI, XU in this order, and for ReachAvoidRemain without a controller unless it lists XD, XI, XU, XG, XF, XNF in this order (which no command-line configuration does).",
  "all data dictionaries, sizes, orders, networks, dynamics",
  "all sizes and orders",
  ["fossil/certificate.py:Lyapunov.learn","fossil/certificate.py:ROA.learn","fossil/certificate.py:Barrier.learn","fossil/certificate.py:BarrierAlt.learn","fossil/certificate.py:RWS.learn","fossil/certificate.py:RSWS.learn","fossil/certificate.py:SafeROA.learn","fossil/certificate.py:ReachAvoidRemain.learn"])
p("Training stops early only when the samples satisfy the learned conditions",
  "The accuracy of Lyapunov/ROA is 100 iff every sample has a non-positive derivative and (without LLO) a non-negative value. The stopping test of the other certificates holds iff every initial and unsafe sample has the right sign (margin 0.05 for BARRIERALT), the derivative region (belt, or V < 0) is not empty, and at most one in a thousand of its samples violates the derivative condition (none for RAR's first half); in particular none when there are fewer than 1000. The returned network is the result of 1000 optimiser steps or passes the test itself (twice in a row where required).",
  "all batches, networks, optimisers",
  "all batch sizes and values",
  ["fossil/certificate.py:Lyapunov.compute_loss","fossil/certificate.py:Barrier.compute_loss","fossil/certificate.py:BarrierAlt.compute_loss","fossil/certificate.py:RWS.compute_loss","fossil/certificate.py:ReachAvoidRemain.learn"])
p("The synthesised controller verified is the controller returned",
  "The symbolic controller substituted into the verified closed loop equals, at every state, the numeric controller with weights rounded to 5 decimals; the numeric closed loop applies the controller at the same state.",
  "all controllers, states",
  "all networks and states",
  ["fossil/control.py:GeneralController","fossil/control.py:GeneralClosedLoopModel"])
p("Timers report consistent statistics",
  "For any well-bracketed sequence of start/stop calls the timer's sum, count, min, max and average equal those of the measured intervals; a stop without a start is rejected, a second start replaces the first (so nested use of one timed function is rejected at the outer stop), reset clears. The average of intervals that all have length zero raises.",
  "all call sequences and clock readings",
  "all histories",
  ["fossil/utils.py:Timer"])
p("Recorded result rows match the header",
  "Every row written by the recorder has as many fields as the header and each field is the value named by the column; the file is the header followed by the recorded rows in order. Violated for networks with shifted softplus activations and for custom certificates, whose recording raises.",
  "all results and configurations",
  "all configurations",
  ["fossil/analysis.py:Recorder"])
p("A successful LYAPUNOV run proves stability of the returned closed loop",
  "If solve() returns success for a LYAPUNOV configuration (smooth activations, V(0)=0 guaranteed by quadratic factors or a bias-free zero-preserving network; positive-definite network when LLO), then the origin of the returned closed loop is Lyapunov stable and attractive (continuous time), and in discrete time every run that stays in the domain converges to the origin.",
  "all configurations, networks, optimisers, sound solvers, noise, data, iteration counts, trajectories",
  "quantifies over all runs of the synthesis loop and over all trajectories of the dynamical system",
  ["fossil/cegis.py:SingleCegis.solve","fossil/certificate.py:Lyapunov","fossil/translator.py:TranslatorCT","fossil/verifier.py:Verifier.verify"])
p("A successful BARRIER/BARRIERALT run proves safety of the returned closed loop",
  "If solve() returns success for a BARRIER or BARRIERALT configuration, no trajectory of the returned closed loop that starts in the initial set and stays in the domain ever enters the unsafe set (continuous time; discrete time for BARRIERALT).",
  "all configurations, networks, optimisers, sound solvers, noise, data, iteration counts, trajectories",
  "quantifies over all runs of the synthesis loop and over all trajectories",
  ["fossil/cegis.py:SingleCegis.solve","fossil/certificate.py:Barrier","fossil/certificate.py:BarrierAlt"])
p("A successful ROA run with LLO proves that the initial set is a region of attraction of the small ball",
  "If solve() returns success for a ROA configuration with LLO and the certified sublevel set is bounded, there is a time by which every trajectory from the initial set has entered any ball of radius above 0.01.",
  "all configurations, networks, optimisers, sound solvers, trajectories",
  "quantifies over all runs of the synthesis loop and over all trajectories",
  ["fossil/cegis.py:SingleCegis.solve","fossil/certificate.py:ROA"])
p("A successful RWS/RWA/RSWS/RSWA run proves reach-while-stay; RSWS also remain-in-goal",
  "If solve() returns success for RWS, RWA, RSWS or RSWA, there is a time T0 such that every trajectory from the initial set reaches the goal within T0 while staying in the safe set; for RSWS it stays safe for ever and is in the goal for ever after T0.",
  "all configurations, networks, optimisers, sound solvers, trajectories",
  "quantifies over all runs of the synthesis loop and over all trajectories",
  ["fossil/cegis.py:SingleCegis.solve","fossil/cegis.py:SingleCegis.process_certificate","fossil/certificate.py:RWS","fossil/certificate.py:RSWS"])
p("Where success does not mean what it says",
  "The hypotheses of C45-C48 cannot be dropped: there are runs, with an honest solver and exact arithmetic, that report success although (a) the system is unstable (activation with a constant term, V(0) != 0), (b) a trajectory enters the unsafe set (ReLU network), (c) RSWA: a trajectory leaves the goal and the safe set, (d) discrete LYAPUNOV with quadratic factors: V grows at every step.",
  "existence of runs of the whole tool",
  "a statement about what no verification run can exclude; needs the semantics of trajectories",
  ["fossil/cegis.py:SingleCegis.process_certificate","fossil/translator.py","fossil/activations.py"])
p("The ROA level covers the initial samples, the RSWS level stays below the goal border",
  "The level fixed by ROA training is the maximum of the candidate V over the initial samples, so every initial sample lies in the sublevel set handed to the verifier. The level of RSWS training is the minimum of V over the border samples of the goal, and the loss on the goal looks exactly at the goal samples below it. Both are violated with quadratic factors: the levels are taken from the network alone.",
  "all networks, data",
  "all networks and sample sets",
  ["fossil/certificate.py:ROA.learn","fossil/learner.py:LearnerNN.compute_maximum","fossil/learner.py:LearnerNN.forward"])
p("Losses push in the direction of the conditions",
  "Every loss is monotone: lowering a value that must be negative (initial samples, derivatives) or raising one that must be positive (unsafe samples, Lyapunov values) never increases it. The Barrier loss is never negative, and zero exactly when every initial, unsafe and belt sample satisfies its condition.",
  "all batches",
  "all real-valued batches of every size",
  ["fossil/certificate.py:Lyapunov.compute_loss","fossil/certificate.py:ROA.compute_loss","fossil/certificate.py:Barrier.compute_loss","fossil/certificate.py:BarrierAlt.compute_loss","fossil/certificate.py:RWS.compute_loss","fossil/certificate.py:RSWS.compute_beta_loss"])
p("A successful STABLESAFE or RAR run proves its property",
  "If solve() returns success for RAR, there is a time T0 such that every trajectory of the returned closed loop from the initial set reaches the goal while staying safe, and once in the goal (and inside the domain) it stays in the final set for ever. For STABLESAFE no trajectory from the initial set that stays in the domain enters the unsafe set; with LLO and a solver that never answers unknown, the initial set is a region of attraction of the small ball.",
  "all configurations, pairs of networks, optimisers, sound solvers, noise, data, iteration counts, trajectories",
  "quantifies over all runs of the synthesis loop and over all trajectories",
  ["fossil/cegis.py:DoubleCegis","fossil/certificate.py:SafeROA","fossil/certificate.py:ReachAvoidRemain","fossil/translator.py:TranslatorCTDouble"])
p("When the search turns to the second certificate the first is settled and frozen",
  "In STABLESAFE and RAR runs without controller, the first network is frozen only after all conditions of its certificate were refuted (for STABLESAFE: at the level of that moment), and from then on it is never changed, up to and including the returned result. Violated when the solver answers unknown: a wrong first network is frozen.",
  "all runs, iterations, optimisers, solvers",
  "quantifies over every point of every run of the synthesis loop",
  ["fossil/cegis.py:DoubleCegis.solve","fossil/learner.py:LearnerNN.freeze","fossil/verifier.py:Verifier.verify"])
p("verify() of a user's certificate proves its property",
  "If verify(opts) reports found for a candidate that is an elementary function (defined everywhere), the derivative it checked is the candidate's true derivative along every trajectory of the system, and: for LYAPUNOV without LLO (candidate 0 at the origin) the origin is stable, and attractive if the dynamics are continuous; for BARRIER and BARRIERALT no trajectory from the initial set that stays in the domain becomes unsafe; for RWS/RWA/RSWS/RSWA the goal is reached while staying safe. Candidates for another verifier than dReal, and for ROA, STABLESAFE and RAR, raise. Violated (with counterexamples proved) in discrete time (the gradient is used instead of the one-step difference), with LLO (positivity is not checked), and for the stay part of RSWS (no level is searched).",
  "all candidates, systems, sets, sound solvers, trajectories",
  "quantifies over all candidate expressions, all states of a continuum and all trajectories",
  ["fossil/main.py:verify","fossil/verifier.py:Verifier.compute_gradient","fossil/verifier.py:VerifierDReal.differentiate","fossil/cli.py:read_candidate"])
p("Training differentiates the function that is verified",
  "At every sample, the value and the Lie derivative (continuous time) or one-step difference (discrete time) that the training loss is computed from are exactly the values of the certificate and derivative formulas handed to the verifier, for every network shape, activation, factor and vector field - including the kinks of ReLU - when rounding is off (with rounding: those of a network of the same shape with coefficients within half a unit of the last kept decimal). The gradient used by the losses is the true gradient of the certificate away from kinks, and backpropagation multiplies by the true derivative of every activation. Hence Lyapunov training reports success iff the formulas to be verified hold (weakly) at every sample. Violated (proved): discrete time with a quadratic factor, two-certificate runs with a quadratic factor, softplus inputs above 20.",
  "all networks, activations, widths, depths, factors, vector fields and samples",
  "quantifies over all networks and all real samples; tests compare a few floats with a tolerance",
  ["fossil/learner.py:LearnerNN.compute_net_gradnet","fossil/learner.py:LearnerNN.compute_V_gradV","fossil/learner.py:LearnerCT.get_all","fossil/learner.py:LearnerCT.compute_dV","fossil/learner.py:LearnerDT.get_all","fossil/translator.py:TranslatorCT.get_symbolic_formula","fossil/translator.py:TranslatorDT.get_symbolic_formula"])
p("The text of a set in a configuration file denotes that set",
  "Every text Sphere([c], r), Rectangle([lo], [hi]) or Torus([c], outer, inner), with numbers written as integers or decimals with optional sign and white space anywhere between the parts, is accepted and the formula generated for it holds exactly at the points of that ball, box or shell (numbers read in base ten, arguments in this order). A text has at most one reading. A text containing any other character after the keyword (exponents, variables, operators) is refused. Every entry of the DOMAINS section is stored under its own label. Violated in leniency (proved): [1-2] is read as the two entries 1, -2; a missing comma is ignored; a second argument list is ignored.",
  "all texts, all dimensions, all points",
  "quantifies over all texts and all points of a continuum",
  ["fossil/parser.py:DomainParser","fossil/parser.py:parse_domain","fossil/cli.py:CegisConfigParser.read_domains","fossil/domains.py:Sphere","fossil/domains.py:Rectangle","fossil/domains.py:Torus"])
p("A recorded seed reproduces the run, and the runs of a benchmark are distinct",
  "Every result of run_benchmark, and of every worker process, is obtained again by synthesise with SEED set to the seed stored in its statistics, whatever ran before in that process. Repetition i records seed 167 + 4 i; the workers of m concurrent repetitions have the 4 m different seeds 167, ..., 166 + 4 m under every schedule. Violated without SEED (proved): two consecutive synthesise calls record the same seed but draw different numbers.",
  "all configurations, numbers of repetitions, generators, schedules",
  "quantifies over all random streams, histories of the process and schedules",
  ["fossil/main.py:run_benchmark","fossil/main.py:synthesise","fossil/cegis_supervisor.py:worker_Q","fossil/cegis_supervisor.py:CegisSupervisorQ.solve","fossil/cegis.py:SingleCegis.solve"])
p("A configuration file sets what it says, in any order",
  "Reading a configuration file whose fields have distinct names gives every setting the value written in the file and the documented default if the file does not mention it; the names of certificates, time domains, verifiers, factors and activations are recognised in any mixture of upper and lower case and nothing else is; the order of the fields does not matter; fields with other names are ignored; N_DATA is one number of samples for all sets or one number for each set named; a file is accepted if SYSTEM, CERTIFICATE, DOMAINS and TIME_DOMAIN are there and every setting given has a meaning, and refused if one of them is missing or a choice is not one of the names. Violated: the default of N_DATA is never used (a file without it is refused), without N_VARS the dimension is 0, and a dictionary or an empty string passes for a list of activations.",
  "all files (as trees of scalars, lists and dictionaries), all orders of their fields",
  "quantifies over all files, spellings and orders",
  ["fossil/cli.py:parse_yaml_to_cegis_config","fossil/cli.py:CegisConfigParser.string_to_enum_value","fossil/cli.py:CegisConfigParser.read_activations","fossil/cli.py:ENUM_ATTR_MAP","fossil/consts.py:CegisConfig"])
p("From the text of a configuration file to the guarantee",
  "If a run started from a configuration file reports success, then the system whose equations are written in the file (in the usual notation, x_i the i-th state, u_i the i-th output of the returned feedback network with weights rounded to five decimals) has the property named by CERTIFICATE on the sets written in DOMAINS: BARRIER/BARRIERALT - no trajectory from XI meets XU while it stays in XD (continuous time; BARRIERALT also discrete time); LYAPUNOV - the origin is stable and attractive if XD contains a ball around it (discrete time: trajectories that stay in XD tend to the origin); RWS/RWA/RSWS/RSWA - after a uniform time every trajectory from XI has reached XG without leaving XS before; RSWS - it then stays in XG; ROA with LLO - every trajectory from XI comes close to the origin. The hypotheses left are about the file (no CVC5, no ReLU activations, for LYAPUNOV no activations with a constant unless FACTORS is QUADRATIC), about the optimiser (it keeps the shapes) and about the solver (its 'unsat' is right). Violated (proved): with the README's choice of a torus for XD, a run reports success for an unstable origin.",
  "all configuration files (as trees), equations, sets, networks, controllers, optimisers, solvers, iteration counts, trajectories",
  "quantifies over all files, systems, runs of the loop and all trajectories of the closed loop",
  ["fossil/cli.py:parse_yaml_to_cegis_config","fossil/parser.py","fossil/control.py:_ParsedControllableDynamicalModel","fossil/control.py:GeneralController","fossil/cegis.py:SingleCegis","fossil/verifier.py:Verifier.verify","fossil/certificate.py"])
p("Every training call is bounded, and stops early exactly at a network that passes its test",
  "Each call of learn makes at most 1000 optimiser steps. LYAPUNOV and ROA make at least one step and then return the first network whose test (C41) holds; BARRIER, BARRIERALT, RWS, RWA, RSWS, RSWA and RAR return the first network for which the test holds and also held for the network before; STABLESAFE makes at least two steps. The returned network is the one that was tested, and it is returned unchanged; without such a network the result of the 1000th step is returned. With LLO and a learned last layer every step ends by making that layer non-negative; a frozen first network (STABLESAFE, RAR) is the same before and after.",
  "all certificates, initial networks, data, tests and optimisers",
  "quantifies over all optimisers and all sequences of training steps",
  ["fossil/certificate.py:Lyapunov.learn","fossil/certificate.py:ROA.learn","fossil/certificate.py:Barrier.learn","fossil/certificate.py:RWS.learn","fossil/certificate.py:SafeROA.learn","fossil/certificate.py:ReachAvoidRemain.learn"])
p("A CANDIDATE in the configuration file: what the printed verdict means",
  "When the command line is given a file with a CANDIDATE and reports it valid (the solver's unsat answers being right), the system written in the file has the property asked for on the sets written in the file: for Barrier no trajectory from XI that stays in XD meets XU; for Lyapunov without LLO, when the candidate is zero at the origin and XD contains a ball around it, the origin is stable (and attractive); for RWS/RWA/RSWS/RSWA every trajectory from XI reaches XG before leaving XS, within a common time. The time domain of the file is not used: a discrete-time file is accepted although its candidate grows along every run. The candidate itself satisfies the pointwise conditions as it is written (Lyapunov: positive on XD except at the origin; Barrier: negative on XI and positive on XU), whatever the values of variables in it that are not state variables. A CANDIDATE list with other than one expression, a candidate that does not mention every state variable, a verifier other than dReal, and ROA, STABLESAFE or RAR certificates give no verdict at all.",
  "every configuration file, every way to write the system, the sets and the candidate, every solver, every trajectory",
  "quantifies over all files and all trajectories of the system; a test runs one file and can only look at the printed verdict",
  ["fossil/main.py:verify","fossil/main.py:_cli_entry","fossil/cli.py:CegisConfigParser.read_candidate","fossil/parser.py:parse_certificate","fossil/cli.py:parse_yaml_to_cegis_config"])
p("The problem fossil works on is the one the configuration file describes",
  "When a configuration file is accepted, the problem it leads to is the one written in it: the certificate, the time domain, the solver, the learning factors, N_VARS, ROUNDING (default 3), CEGIS_MAX_ITERS (default 10) and LLO are the given ones or the defaults; a controller is trained exactly if CTRLAYER is given; each set is the set of points described by its text, and for RAR the set XNF is the complement of XF; the network (the second network for STABLESAFE and RAR) has one hidden layer per entry of N_HIDDEN_NEURONS(_ALT) of that width with the named activation, N_VARS inputs, one output, and biases in all layers except for LYAPUNOV, ROA and the first network of STABLESAFE, which have none; and the values of the right-hand side used for the training data are those of the written equations with the controller's current (unrounded) feedback substituted for the inputs, for up to ten states.",
  "every accepted configuration file, every spelling of names and numbers, every initial weight, every controller and every sample point",
  "quantifies over all files and all points; a unit test compares a few parsed fields of one file",
  ["fossil/cli.py:parse_yaml_to_cegis_config","fossil/consts.py:CegisConfig","fossil/cegis.py:SingleCegis","fossil/cegis.py:DoubleCegis","fossil/learner.py:LearnerNN","fossil/control.py:_ParsedControllableDynamicalModel","fossil/parser.py:parse_dynamical_system_to_numpy"])
p("VERIFIER, TIME_DOMAIN and CERTIFICATE choose the components; with VERIFIER NONE nothing is checked",
  "For every configuration the learner, the translator, the verifier, the parser and the certificate that are built are those of the requested time domain, certificate and solver (the lie derivative's formula is the continuous-time one exactly for CONTINUOUS, a verifier of solver S only gets formulas of S), or building raises (unknown or unsupported combinations). With VERIFIER NONE the run ends after one training call and reports a certificate whatever the network is, also for systems that have none (or raises for RSWS).",
  "every setting of the three options, every problem, network and learner",
  "quantifies over all candidates the learner can return, including wrong ones",
  ["fossil/verifier.py:get_verifier","fossil/verifier.py:get_verifier_type","fossil/verifier.py:VerifierNone","fossil/translator.py:get_translator_type","fossil/learner.py:get_learner","fossil/certificate.py:get_certificate","fossil/parser.py:get_parser_from_verifier","fossil/cegis.py:Cegis"])
p("Converting a sympy expression to a solver keeps its value",
  "sympy_converter succeeds exactly on the expressions built from bound symbols, numbers, sums, products, powers and sin, cos, exp, tanh of the given dictionary; everything else raises. What it returns has the value of the source expression at every point, for both ways of expanding powers, provided the numbers are converted exactly and no exponent is zero. With z3 numerals the unevaluated power x**0 becomes x (refuted).",
  "every expression tree, dictionary of symbols, number conversion and point",
  "quantifies over all expressions and points",
  ["fossil/sympy_converter.py:sympy_converter"])
p("The summary table counts every recorded run exactly once",
  "After any history of recorded runs, the summary of the results file has exactly one line per benchmark (system, sets, model, numbers of states and inputs, property, network sizes and activations), in which the success rate is the number of successful runs out of all recorded runs of that benchmark in percent rounded down (100 exactly if all succeeded), and the three times are the least, mean and greatest total and learner times of those runs. Runs that could not be recorded are not counted, and there is a table exactly if one was. Runs which differ only in the verifier, the time domain, the learning factors, LLO or the controller's hidden layers share a line.",
  "every sequence of runs, configurations and results",
  "quantifies over histories of a file",
  ["fossil/analysis.py:Analyser","fossil/analysis.py:ratio","fossil/analysis.py:Recorder"])
p("A model written in Python is the same system in the simulation and in every solver",
  "A system is supplied as a Python class with one right-hand side for tensors and one for symbolic variables. If the two write the same expressions, then calling the model on a batch of states (and inputs) gives, row by row, exactly the value of the terms that the same call returns for the variables of any solver that offers the functions used; where a solver lacks a function the call raises. The result does not depend on which calls were made before with which solver (the model caches its solver functions), closing the loop with a controller substitutes the controller's output in both worlds, and Euler discretisation preserves the agreement. All shipped benchmark models declaring their dimensions satisfy this, with the listed exceptions; an argument that does not start with a variable gives None without any error.",
  "all models, controllers, batches, variables, solvers, and all histories of earlier calls; all 50 shipped benchmark classes",
  "A test calls the model with a few states; agreement is over all real states, all solvers and all call histories.",
  ["fossil/control.py:DynamicalModel", "fossil/control.py:ControllableDynamicalModel", "fossil/control.py:GeneralClosedLoopModel", "fossil/utils.py:contains_object", "fossil/consts.py:DREAL_FNCS", "experiments/benchmarks/models.py"])
p("A user's own certificate class is proved when its conditions say what the user means, and only then",
  "With CERTIFICATE=CUSTOM a class supplied by the user provides the conditions. If every pair of candidate and derivative without a solution of the yielded (negated) conditions has property P, each key is used for one condition and the solver is sound, then a run that returns success returns a network whose function, with its derivative along the returned closed loop, has property P. With a deciding solver the verdict does not depend on how conditions are grouped, ordered or keyed. The shipped example class proves asymptotic stability and behaves exactly like the built-in LYAPUNOV. Where the interface is dangerous: a key used in two groups loses an undecided answer (a false certificate), a class that yields nothing always succeeds, a single dictionary (allowed by the documentation) and discrete time raise, and a key without data raises at its first counterexample.",
  "all user classes (constructors, training, conditions, exceptions), solvers, configurations, controllers, data and run lengths",
  "The class is written by the user: no test of fossil sees it, and success must hold for every class and every solver behaviour.",
  ["fossil/certificate.py:Certificate", "fossil/certificate.py:get_certificate", "fossil/verifier.py:Verifier.verify", "fossil/cegis.py:SingleCegis", "custom_cert.py:CustomLyapunov"])
p("Lineariser returns the true first-order model at the origin, or raises",
  "Lineariser(model).linearise() returns a matrix A only if the model rests at the origin with zero input; then, for every admissible value of the inputs, f(x, u) = f(0, u) + A x up to an error that vanishes faster than the size of x, and the entries of A are the partial derivatives of f at the origin. A model that does not rest at the origin, or whose derivatives at the origin depend on the inputs (the inputs are left in the Jacobian), is refused. Every polynomial model without inputs that rests at the origin is accepted.",
  "every model (expressions without poles at the origin), every input value and every behaviour of the simplifier that keeps values",
  "quantifies over all models and is a statement about limits at the origin",
  ["fossil/control.py:Lineariser"])
p("EigenCalculator's verdicts are the stability of the system",
  "For the eigenvalues of A: is_stable() holds exactly if the origin of x' = A x attracts (and then it is stable, exponentially); is_sufficiently_stable() exactly if all motions shrink faster than exp(-t); get_worst_pole() is the exact rate of decay (any smaller rate is achieved, no greater one) and decides both. If A is the linearisation of a model without inputs, then is_stable() implies that the origin of the model itself is stable and attractive, and is_sufficiently_stable() that motions near it shrink like exp(-t).",
  "every dimension, matrix (also defective ones with complex eigenvalues), model and motion",
  "quantifies over all motions of all linear and nonlinear systems",
  ["fossil/control.py:EigenCalculator", "fossil/control.py:Lineariser"])
p("LQR's gain is optimal and stabilising when the Riccati solution is definite",
  "LQR(A, B, Q, R).solve() returns K with R K = B' P for the solution P of the Riccati equation; identity weights are used if none are given, and a B with the wrong number of rows is refused. For every input, the cost up to any time plus the value of the final state is at least the value of the initial state, with equality for u = -K x; hence u = -K x costs no more than any input that steers the state to zero. With Q positive definite the loop x' = (A - B K) x is stable exactly if P is positive definite, and then also the loop around any nonlinear system with that linearisation is. The equation alone does not suffice: an indefinite solution gives a gain that drives the state away.",
  "every dimension, matrices, inputs, motions and horizons; every solver of the Riccati equation",
  "quantifies over all inputs and motions of all systems",
  ["fossil/control.py:LQR"])
p("The term added to a controller's loss is bounded, never decides success, and looks only at the origin",
  "When a controller is trained for LYAPUNOV, RWS, RSWS or RAR, the loss gets an extra term (the mean cosine between each sample and its image). It is between -1 and 1, so it changes the loss by at most 1, and whether training stops in a loop (or raises) is the same with and without it. In continuous time it is -1 exactly if every sample moves straight towards the origin, 1 exactly if every one moves straight away, and a sample's own term is negative exactly if the motion through it is getting closer to the origin. It says nothing about the certificate: it is positive at a sample of a loop with a quadratic Lyapunov function. It does not look at the goal of RWS, RSWS or RAR: between the origin and the goal's centre, going straight to the goal costs most and straight back least. In discrete time it asks for the next state to lie opposite, at any distance: x -> -2x is rewarded most, x -> x/2 least. The other terms that control.py offers vanish exactly where their comments say.",
  "all dimensions, batches, images, networks' values, loop numbers, motions, goals",
  "quantifies over all batches and all motions through the samples",
  ["fossil/control.py:cosine_reg", "fossil/control.py:saturated_cosine_reg2", "fossil/control.py:ridge_reg", "fossil/control.py:nonzero_loss1", "fossil/certificate.py:Lyapunov.learn", "fossil/certificate.py:RWS.learn", "fossil/certificate.py:RSWS.learn", "fossil/certificate.py:ReachAvoidRemain.learn"])
p("What a success of each shipped experiment proves about its system",
  "Every script of experiments/benchmarks (rwa, rswa, rar, stabsafe, lyap, roa, barrier) except the quadrotor's starts a search whatever the random initial weights. If that search reports success, then for the system and the sets written in the script, with the trained feedback: rwa - every motion from XI reaches XG within a fixed time and stays in XS until then; rswa - and then stays in XG for ever; rar - once in XG it stays in XF for ever; stabsafe and barrier - no motion from XI that stays in XD enters XU, and in the two stabsafe scripts with a controller none leaves XD; stabsafe and roa - every motion from XI comes as close to the origin as wanted beyond 0.01, if the sublevel set is bounded; lyap - XD is a ring around the origin, every motion leaves it within a fixed time, and into the hole if it starts below the values of the function on the outer sphere. The quadrotor's script cannot succeed at anything: its XI and XU do not meet its XD.",
  "all the shipped scripts, all initial weights, all training steps, all honest solvers, all motions",
  "quantifies over all runs of each experiment and all trajectories of its system",
  ["experiments/benchmarks/rwa", "experiments/benchmarks/rswa", "experiments/benchmarks/rar", "experiments/benchmarks/stabsafe", "experiments/benchmarks/lyap", "experiments/benchmarks/roa", "experiments/benchmarks/barrier", "experiments/benchmarks/models.py", "fossil/main.py:run_benchmark", "fossil/cegis.py:Cegis"])
p("What a success on each shipped configuration file proves",
  "Every configuration file under experiments/benchmarks/cli, and lyap-test.yaml in the root, that asks for a verified certificate is read and starts a search, whatever the random initial weights. If fossil then reports success, with the returned controller: barr-test and stable-safe-test - no motion of x' = y + u, y' = x - y from the disc of radius 0.1 that stays within 1.1 of the origin enters the disc of radius 0.1 around (0.8, 0.8); rwa-test and rswa-test - every motion from the disc of radius 0.1 comes within 0.05 of the origin in a common time and stays within 1 until then; rar-test - and, having come within 0.05, it stays within 0.075 as long as it stays within 1.1; ctrl_rar_sine - the pendulum from [-2,2]^2 reaches [-0.1,0.1]^2 within [-3,3]^2 and then stays in [-0.2,0.2]^2 as long as it stays in [-3.5,3.5]^2; lyap-test - the returned network, rounded to three decimals, is a Lyapunov function of x' = y, y' = - y - x in the unit disc; verify - the candidate is never given a counterexample and a complete solver accepts it. roa-test proves less than its name says: it can succeed with a controller under which a motion from XI never comes within 0.06 of the origin, because LLO is off and then the derivative need only be non-positive. So does rswa-test: it can succeed with a controller under which a motion from XI is within 0.05 of the origin at time 1 and outside at time 4.",
  "all the shipped files, all initial weights, all training steps, all honest solvers, all motions",
  "quantifies over all runs of each file and all trajectories of its system",
  ["experiments/benchmarks/cli", "lyap-test.yaml", "fossil/cli.py:parse_yaml_to_cegis_config", "fossil/parser.py", "fossil/cegis.py:Cegis", "fossil/certificate.py:ROA.get_constraints"])
p("Only sixteen settings can change what is searched for and verified",
  "Two configuration files that give the same values to SYSTEM, N_VARS, CERTIFICATE, DOMAINS, TIME_DOMAIN, VERIFIER, CEGIS_MAX_ITERS, N_HIDDEN_NEURONS, ACTIVATION, CTRLAYER, CTRLACTIVATION, N_HIDDEN_NEURONS_ALT, ACTIVATION_ALT, ROUNDING, FACTORS and LLO, and name the same sets under N_DATA, are both refused or start the same search: the same conditions on the same sets and system, and, with the same random weights, the same networks and controller; with the same CANDIDATE they get the same verdict from the same solver. So no other setting (LEARNING_RATE, SYMMETRIC_BELT, PRECISION, DREAL_JOBS, SEED, VERBOSE, the amounts of N_DATA, ...) can change what a success means, and CEGIS_MAX_TIME_S, LOSS_MARGIN and ACCURACY_MARGIN, which nothing reads, have no effect at all. Each of the sixteen does matter.",
  "all pairs of configuration files",
  "non-interference relates all pairs of inputs; a test compares two",
  ["fossil/consts.py:CegisConfig", "fossil/cli.py:parse_yaml_to_cegis_config", "fossil/cegis.py:SingleCegis", "fossil/cegis.py:DoubleCegis", "user-guide.md"])
p("A configuration file written as documented starts, and the run returns a result",
  "A YAML file with a supported certificate and time domain, a listed verifier (Z3, DREAL, CVC5 or none given), N_VARS equations in the usual notation in which every state occurs and every right-hand side has a variable, inputs u0..u(m-1) exactly when CTRLAYER ends with m and has a hidden layer, the certificate's sets as spheres, rectangles or tori, N_DATA for the sampled sets, and one activation the verifier supports per hidden layer (the documented defaults apply to what is missing) is never refused: the search starts, its closed loop has one right-hand side per state for every controller of the architecture asked for, and the run returns a result object, with success or without, within CEGIS_MAX_ITERS + 1 learning rounds, whatever the optimiser does to the weights and whatever the solver answers, as long as trajectory sampling, the level estimate and (RSWS) the stay search return. Conversely the program raises for a file without N_DATA, one N_DATA for a certificate with border sets, discrete time for other certificates than Lyapunov and BarrierAlt, a wrong N_VARS, a constant right-hand side, inputs without CTRLAYER or CTRLAYER without inputs, a single-entry CTRLAYER, or fewer activations than hidden layers.",
  "all configuration files, initial weights, optimisers, solvers and runs",
  "a test tries one file and one run; totality over every documented file and every solver answer is a universal claim",
  ["fossil/cli.py:parse_yaml_to_cegis_config", "fossil/cegis.py:SingleCegis.solve", "fossil/cegis.py:DoubleCegis.solve", "fossil/parser.py:Parser", "fossil/control.py:DynamicalModel", "fossil/consts.py:CegisConfig", "user-guide.md"])
p("With a solver that decides, a run succeeds exactly if it comes to a valid candidate",
  "If the solver answers each query about the candidates rightly, Result.res is True exactly if in some iteration the trained network (rounded, with its derivative) meets all conditions of the certificate; no valid candidate is passed over, and a failed run has made all CEGIS_MAX_ITERS + 1 iterations, each with an invalid candidate. So every documented configuration file gives such a run. For RSWS valid includes that some level stays in the goal: the bisection never misses one that exists. If the solver does not decide, a valid candidate can be rejected.",
  "all problems of each certificate, networks, optimisers, data, solvers that answer rightly, and runs of any length",
  "needs validity over all states of the domain and every candidate of an unbounded run; tests see one run and cannot decide validity",
  ["fossil/cegis.py:SingleCegis.solve", "fossil/cegis.py:DoubleCegis.solve", "fossil/verifier.py:Verifier.verify", "fossil/certificate.py:*.get_constraints", "fossil/certificate.py:RSWS.beta_search"])
p("A counterexample is respected by every later candidate whose training succeeded",
  "For systems without a controller and without rounding: a counterexample stays in the samples of its set for the rest of the run; training ends with a network that passes its test on all samples or after 1000 optimiser steps; and a candidate whose network passed the test violates no earlier counterexample (nor any sample) again, except at equality (where the test is weaker than the query) or, for ROA and STABLESAFE, at initial states above the level or, with 1000 or more domain samples, at the one sample in a thousand that the barrier and reach-avoid tests may leave out. For STABLESAFE and RAR this holds of both functions. With rounding this is false: training can succeed strictly at a counterexample and the rounded candidate violates it again.",
  "all problems of the ten certificates without controller, networks, optimisers, data, solvers, iterations j < it and reported points",
  "ranges over every pair of iterations of unbounded runs and over all networks; it relates the learner's floating computation, the translated formulas and the queries",
  ["fossil/cegis.py:SingleCegis.solve", "fossil/cegis.py:SingleCegis.process_cex", "fossil/certificate.py:*.learn", "fossil/certificate.py:*.get_constraints", "fossil/translator.py:TranslatorNN.get", "fossil/verifier.py:Verifier.verify"])
p("With finitely many possible counterexamples and successful training the synthesis loop ends with a certificate",
  "For systems without a controller and without rounding: if the solver answers every query, its models are real solutions from a finite pool (say, the floats of a bounded domain), and training always passes its test strictly at the pool's points, then each failed iteration finds a counterexample that is not yet a sample; hence the loop ends, even without an iteration limit, after at most one iteration more than there are points in the pool, and with Result.res = True unless CEGIS_MAX_ITERS is smaller than the pool. With rounding it can run for ever although training is right at every sample from the start. So it can for STABLESAFE with backup data (XR), since the counterexamples to the first function join samples that its loss never looks at.",
  "all problems of the certificates except RSWS (also the two with two functions), networks, optimisers, data, solvers, pools, and runs of any length",
  "termination of an unbounded loop for every solver and optimiser; a test can only see that some run has ended",
  ["fossil/cegis.py:SingleCegis.solve", "fossil/cegis.py:SingleCegis.process_cex", "fossil/certificate.py:*.learn", "fossil/certificate.py:*.get_constraints", "fossil/verifier.py:Verifier.verify"])
p("The distance-like measure of a set is zero exactly on the set",
  "check_containment_grad(x), whose comment promises 0 for contained points and a positive number otherwise, is never negative and zero exactly where check_containment holds, for spheres, ellipses, tori and intervals. For rectangles a contained point has measure zero, but in two or more dimensions so do points outside (the deviations of the coordinates are added before they are clipped and cancel). Violated too by open sets (zero on their border), by Complement (never positive, zero on the points it excludes), and with dim_select, where it raises.",
  "all sets of these classes, dimensions and points",
  "all real points and parameters; the violations need points off the axes-aligned cases a test would try",
  ["fossil/domains.py:Rectangle.check_containment_grad","fossil/domains.py:Sphere.check_containment_grad","fossil/domains.py:Ellipse.check_containment_grad","fossil/domains.py:Torus.check_containment_grad","fossil/domains.py:Complement.check_containment_grad"])
with open('/verif/properties.jsonl','w') as f:
    for x in P: f.write(json.dumps(x)+"\n")
print(len(P))
