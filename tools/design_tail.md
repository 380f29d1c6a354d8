
## 5. Trusted base

* Coq 8.16.1's kernel (`coqc`; the compiled files were also checked with `coqchk`).
* The axioms of the standard library listed per theorem in section 7: the real numbers
  (`ClassicalDedekindReals.sig_forall_dec`, `sig_not_dec`), `functional_extensionality_dep`, and `Classical_Prop.classic`.
  No axiom of another library and none of our own. (`vcheck` also prints fields of the sealed standard-library modules
  `RbaseSymbolsImpl`, `QcharacSymbolsImpl` and `ssrunder.Under_rel`: those have bodies and are not axioms of any theorem here.)
* The transcription of the Python text into `M_*.v` (by reading; citations at each definition).
* The facts about external libraries written into the model (section 2): meaning of solver formulas, torch's documented
  formulas, pyparsing's combinators, yaml.safe_load's result tree, Python's dict order and Enum lookup.
* The specifications `S_*.v` and the hypotheses of each theorem ("honest solver", "lawful optimiser", geometry of the
  sets, continuity of the vector field), which are stated in the theorem and shown satisfiable by examples.

## 6. Findings about the pinned code (each is a theorem unless marked "by reading")

1. **STABLESAFE overwrites a label** (C01, C12, C49, C52): both parts use label XD, so an *unknown* for the first part is overwritten by
   `unsat` of the second and success is reported.
2. **Unknown freezes** (C53): in DoubleCegis an undecided first certificate counts as found and is frozen; after freezing, the
   STABLESAFE level is still recomputed.
3. **ReLU kink** (C22): the symbolic derivative at the kink makes Vdot wrong on a set of measure zero; a ReLU barrier is certified
   although the unsafe set is reached.
4. **cvc5 rounding** (C22), **ROUNDING = 0** (C23), **quadratic factor in discrete time** (C23, C49, C55): Vdot/ΔV is not that of V.
5. **LLO** (C26): `is_positive_definite` false is only a warning; STABLESAFE never makes the last layer positive.
6. **Lyapunov without V(0)=0** (C13): an unstable system is certified when the network has biases.
7. **Controller rounding** (C42): the verified loop uses the controller rounded to five decimals, the returned one is not; a
   complete run returns an unstable closed loop.
8. **RSWA does not run the beta search** (C32, C48, C49): the dispatch tests RSWS only.
9. **beta search** (C34): diverges for some candidates, raises on unknown.
10. **dReal bounds** (C05): conditions not confined to |x| < 1000 are accepted on unsat of the clipped problem.
11. **Sets** (C28–C30): `Sphere.check_containment` compares the norm with the radius squared; samplers of open sets, Torus, spheres of dimension
    1/≥4, and 1-dimensional borders leave the set; OpenRectangle's border.
12. **Activations** (C25): RELU_SQUARE/REQU and RATIONAL have no translation; EVEN_POLY_n has a constant term and degree 2(n−1); softplus above 20.
13. **ROA** (C50, C39): the level ignores the quadratic factor; the advertised sets are refused by the API; `verify` raises AttributeError (C54).
14. **Losses** (C40, C41): STABLESAFE/RAR batches depend on dictionary order; 99.9 % tolerance of accuracies.
15. **Labels** (C39): a scalar N_DATA with borders is rejected; RAR through the CLI builds domains in another order.
16. **Supervisor** (C36): the solution has no `clean` method, so it never returns; timers' `avg` asserts (C43); recorder raises KeyError for
    shifted softplus and CUSTOM (C44).
17. **Parser** (C37, C38): `-p**e` is `(-p)**e`; `((t1)-t2)`, `f((t1)*t2)` refused; sympy's sqrt has a second argument; `x10` reads
    component 2 numerically; in dReal a repeated `u` is never substituted; an unmentioned state variable and a constant
    right-hand side raise.
18. **Domain parser leniency** (C56); **CLI** (C58): documented defaults unused, dictionaries or `""` accepted as activations;
    README's torus XD excludes the origin (C59_hole).
19. **Seeds** (C57): an unseeded `synthesise` records the same seed every time; non-concurrent repeats use seeds four apart.
20. **verify()** (C54, C61): three ways in which a wrong candidate is accepted; the time domain is ignored; with CTRLAYER the candidate is
    checked against a controller with untrained random weights.
21. **VERIFIER NONE** (C63; used by experiments/benchmarks/cli/learn.yaml): "found" after one training call whatever the candidate is; with RSWS it raises;
    MARABOU always raises (CegisConfig has no INNER_RADIUS).
22. **sympy_converter** (C64): an unevaluated x**0 becomes x with z3 numerals. **Analyser** (C65): runs which differ in verifier, time domain,
    factors or LLO are averaged on one line; underscores are escaped in the activations' LaTeX too, which breaks their subscripts.
23. **Models in Python** (C66): a call whose first element is not a solver variable (a dReal expression, a number) returns None without an error;
    numpy arrays and constant components raise; Z3 has no sin/cos/exp table entries (KeyError); LinearDiscreteNVars is simulated transposed;
    LinearSatellite declares 5 states and reads 6; BenchmarkDT1 and CtrlCar cannot be closed; Quadrotor2d raises; `Eulerised` has neither `n_vars` nor `_f_torch`;
    a text argument sends `contains_object` into an infinite recursion; `check_similarity` reads a missing attribute (the last three by reading).
24. **User certificates** (C67): results are stored per key, so an undecided condition is overwritten by a later one with the same key and the run succeeds;
    yielding nothing (or an empty dictionary) always succeeds; the documented "single dictionary" raises AttributeError; the documented discrete-time use is refused;
    a key without data raises KeyError at its first counterexample.
25. `Lineariser` substitutes zero for the states but not for the inputs in the Jacobian, so a model whose derivatives depend on the inputs (x' = x u - x) raises a
    TypeError although it has a linearisation at (0, 0) (C68); it returns no B although `LQR` needs one, and `LQR`'s default `B=None` always raises AttributeError.
26. **The controller's regulariser** (C71): `cosine_reg` is written for a continuous-time loop that should reach the origin, but RWS, RSWS and RAR use it unchanged, where it
    penalises going to a goal that lies farther out; with TIME_DOMAIN discrete it rewards x -> -2x and penalises x -> x/2.
27. **Shipped experiments** (C72): barrier/ctrlbarr_quadrotor2d.py cannot run (its model's `f_torch` raises) and its XD, with third bounds pi and pi, contains no initial and no unsafe
    state, so any barrier would be accepted; lyap/'s rings say nothing about the origin itself (as with C59_hole); barr_2.py's XD only bounds x below and y above.
28. **Shipped configuration files** (C73): roa-test.yaml leaves LLO off, so it can succeed with a controller under which motions circle the origin; rswa-test.yaml only proves
    reach-while-stay; more activations than layers are accepted in silence (ctrl_rar_sine.yaml), while with LLO the check of the last activation looks at the unused one.
29. **Settings without effect** (C74): nothing reads LOSS_MARGIN and ACCURACY_MARGIN, and CEGIS_MAX_TIME_S, documented as the maximum time, is only asserted to be positive.
30. **Files that are refused** (C75): N_DATA has a default (500) but a file without it raises; so do an equation without variables (x' = 1) and a CTRLAYER with a single entry.
31. **Counterexamples can come back for ever** (C77): with ROUNDING >= 0 (the default) the learner tests the unrounded network but the verifier gets the rounded one, so training stops at once on the same counterexample (C77_rounding_refuted; C78_rounding_refuted has a run that never ends although the network is right at every sample from the start). Without rounding the zero network passes the Lyapunov test (`<=` against the query's strict inequality, C77_equality_refuted). ROA labels counterexamples of its initial-set condition XD, so they are added to the samples of the domain and never raise the level.
32. **STABLESAFE with backup data never learns from some counterexamples** (C78): with XR among the data (experiments/benchmarks/stabsafe/stablesafe2.py and ctrl_stablesafe3.py) the loss of the first function reads only the samples of XR (certificate.py:1365-1373), but its counterexamples are added to XD. C78_backup_data_refuted is a run without end in which training passes its test every time and every candidate fails at the same point.
33. **check_containment_grad** (C79): for rectangles of two or more dimensions points outside get 0 ((1.5, -0.5) and the unit square), for Complement it is never positive, for open sets zero on the border, and with dim_select it raises on a table of points.
34. By reading only (not in the model): Marabou's `_DiffNet` raises TypeError; CTRLACTIVATION and CTRLAYER of different
    length are silently zipped; a bare repeated dReal variable returns the Variable without substitution; Python's `1/0` in a parsed constant.
