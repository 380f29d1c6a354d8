# Formal model of oxford-oxcav/fossil in Rocq (Coq 8.16.1)

First written before the proofs, kept current as the model grows (sections 4 and 7 are generated by `tools/design.py`
from `tools/plan.json`, `properties.jsonl`, `MANIFEST.json` and `tools/axioms.json`).

## 1. Organisation

All files are in `rocq/theories`, logical name `Verif`.

* `M_*.v` – the **model**: Gallina transcriptions of the Python code, function by function, every definition citing file
  and lines. No proofs. Simplifications are stated in the comment at the head of the file or at the definition.
* `S_*.v` – the **specification**: small files that do not use the model's helpers (what "solves the ODE", "stable",
  "reaches while staying", "is a subset", "is a loss for", "the text of a number" ... mean).
* `L_*.v` – lemmas.
* `P_*.v` – the **property theorems** `Cnn_...`. Beside them, `Example`/`Theorem Cnn_..._example` give concrete,
  non-trivial instances meeting the hypotheses. A theorem `Cnn_..._refuted` (or one described as a violation in
  `MANIFEST.json`) states, of the model of the pinned code, that the wished-for property *fails*, with a witness: these
  are the defects listed in section 6. For such a property the manifest also lists what does hold.

No functors, module types, axioms, `Admitted`, plugins or disabled checks are used. Libraries: Coq's standard library and
Coquelicot (whose definitions add no axioms beyond the standard library's).

## 2. Modelling choices

* **External components are parameters.** SMT solvers, the optimiser (loss → AdamW step), random numbers, clocks, the
  process scheduler, sympy's simplifier: they are arguments of the model functions and universally quantified in the
  theorems. What is assumed of them is an explicit hypothesis: "honest solver" (an `unsat` answer is right, a `sat`
  answer's model satisfies the query; nothing about `unknown`), "lawful optimiser" (changes only the numbers of the
  registered parameters with `requires_grad`, not shapes). Assumed facts about torch are transcribed from its
  documentation (vector-Jacobian products, softplus threshold 20).
* **Exceptions** are `None`; a model function returning `None` means the Python call raises.
* **Symbolic formulas** (z3/dReal/cvc5/sympy objects) are a deep embedding (`M_Syntax.expr`, `fml`) evaluated over real
  states. `simplify`/`expand` are the identity on meaning. Division is total as in SMT-LIB.
* **Floats are idealised**: weights, parameters and numerals are exact rationals; sampled points and losses are reals.
  `translator.round` (the `ROUNDING` option) *is* modelled exactly, because it changes which function is verified; so is
  the rounding of controllers and of the cvc5 back end. Floating point error of the numeric learner is not modelled: it
  only influences which candidates are proposed, never which are certified. It does matter for C28/C29/C41 (numeric
  containment, samples, accuracies), whose theorems are about the idealised arithmetic.
* **Loops without a bound** (beta search, CEGIS loop, parsers) carry fuel; the theorems quantify over all fuel, or show
  that some fuel suffices, or that none does.
* **Concurrency** (supervisor): transition system over arbitrary schedules.

## 3. What of the code is modelled and what is not

| file of /repo/fossil | modelled in | not modelled |
|----|----|----|
| verifier.py | M_Verifier, M_Dispatch (VerifierNone, the choice of components; verify, solve_with_timeout, counterexamples, noise; dReal, Z3, CVC5 front ends), M_Syntax | Marabou's network encoding, quality-of-life printing, the *time* a solver takes |
| certificate.py | M_Certificates (get_constraints of all classes), M_BetaSearch (RSWS), M_Learning (learn, compute_loss), M_Learner (training loops, LLO), M_Labels (_assert_state), M_Cegis (certificate table) | AutoSets and estimate_beta (unused), plotting, printing, backpropagation through the losses (the optimiser is arbitrary) |
| cegis.py | M_Cegis (the loop), M_Fossil (SingleCegis assembled), M_Double (DoubleCegis assembled) | process_timers, printing |
| learner.py | M_Network, M_Learner, M_Gradient (autograd of forward/gradients), M_Learning | AdamW itself; find_closest_unsat, diagonalisation (unused helpers) |
| translator.py | M_Network (CT, DT, double), M_Verify | Marabou translators, timing |
| activations.py | M_Activations | – |
| domains.py | M_Domains, M_Containment | plotting, pickling helpers, AutoSets (its methods raise or do nothing; unused) |
| control.py | M_Control, M_Config, M_Variables, M_Model, M_Linear, M_Regulariser | the optimiser's steps on the controller (arbitrary), trajectories for plots; sympy, numpy.linalg and scipy.linalg behind Lineariser, EigenCalculator and LQR (parameters) |
| parser.py | M_Parser, M_Lexer, M_Variables, M_DomainParser | quoted strings, formula functions (Not, And, Or, If, sum), sympy simplification |
| cli.py | M_Cli, M_Labels, M_Config | YAML syntax (external), interactive prompts, argparse |
| consts.py | M_Activations, M_Cegis, M_Labels, M_Recorder, M_Cli | – |
| consolidator.py | M_Consolidator | NaN handling |
| cegis_supervisor.py | M_Supervisor, M_Main | time-outs of the operating system |
| main.py | M_Main (seeds, repeats), M_Verify (verify) | argument parsing, printing |
| utils.py | M_Timer, M_Model (contains_object) | the symbolic-formula, equilibrium and trajectory helpers of fossil 1.0 that nothing in the package calls; Timeout |
| analysis.py | M_Recorder, M_Analyser | printing and exporting of tables, the LaTeX texts of systems and sets |
| sympy_converter.py | M_SympyConverter | – |
| ../experiments/benchmarks/models.py | M_Benchmarks (generated by tools/gen_models.py) | plotting helpers |
| ../experiments/benchmarks/{rwa,rswa,rar,stabsafe,lyap,roa,barrier}/*.py | M_Experiment, M_Scripts (generated by tools/gen_scripts.py) | archive/, plotting; Quadrotor2d's dynamics |
| ../experiments/benchmarks/cli/*.yaml, ../lyap-test.yaml, ../config.yaml | M_Documents (generated by tools/gen_documents.py) | YAML syntax: the files are loaded by a YAML reader before generation |
| ../custom_cert.py | M_Custom | the accuracies' and losses' numbers (arbitrary) |
| component.py, logger.py, plotting.py | – | whole files (no semantic property stated) |

## 4. Per property: what is modelled and how it is proved

