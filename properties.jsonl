{"id": "C01", "title": "Flavour/colour ratio is never stale", "statement": "After any history of calls to the consts setters, starting from the library defaults, the quark weight used by the global-variable QCD functions equals (current number of fermions)/(current number of colors).", "quantifier": "every finite sequence of setter calls with arbitrary arguments", "why_tests_cant": "A test fixes one call sequence; the claim is about every call history.", "anchors": ["qcd-sme/src/consts.rs: set_number_of_colors, set_number_of_fermions, nf_div_nc"]}
{"id": "C02", "title": "Setters and getters behave as independent variables", "statement": "Each getter returns the argument of the last accepted call of the matching setter in the history (or the documented default when there is none); calls of the other setters do not change it.", "quantifier": "every finite sequence of setter calls", "why_tests_cant": "A test fixes one call sequence; the claim is about every call history.", "anchors": ["qcd-sme/src/consts.rs: set_*/get_*"]}
{"id": "C03", "title": "Integration tolerance and Matsubara regulator stay positive", "statement": "set_default_tol_integral / set_matsubara_reg panic exactly when the argument is not strictly positive (NaN included), a panicking call changes nothing, and in every reachable state both values are > 0.", "quantifier": "every finite sequence of setter calls, all binary64 arguments including NaN and infinities", "why_tests_cant": "A test fixes one call sequence; the claim is about every call history.", "anchors": ["qcd-sme/src/consts.rs: set_default_tol_integral, set_matsubara_reg"]}
{"id": "C04", "title": "Default integration method follows the globals", "statement": "In every reachable state the default integration method is Gauss-Kronrod G7K15 with the current default tolerance and iteration cap, and all *_landau wrappers without an explicit method integrate with it.", "quantifier": "every reachable state of the consts module, every wrapper", "why_tests_cant": "A test fixes one call sequence; the claim is about every call history.", "anchors": ["qcd-sme/src/consts.rs: get_default_integration_method", "qcd-sme/src/low_level/oneloop/thermal/gluon.rs, ghost.rs: non _w_method wrappers"]}
{"id": "C05", "title": "A customised tolerance is honoured in the Matsubara limit", "statement": "The comment on the zero-Matsubara wrappers promises that the tolerance is only replaced by 1E-8 'unless the user customized the integration method'. Whether a user-set default tolerance reaches the integrator must be decided for every reachable state.", "quantifier": "every reachable state of the consts module", "why_tests_cant": "A test fixes one call sequence; the claim is about every call history.", "anchors": ["qcd-sme/src/low_level/oneloop/thermal/gluon.rs: zero_matsubara::native::polarization_*_thermal_part_landau, DEFAULT_TOL_INT_REPL"]}
{"id": "C06", "title": "find_root is sound", "statement": "Whenever find_root returns Some((z,w)), w is f(z), w is not NaN and |w| < tol.", "quantifier": "every function f, every pair of guesses, every tolerance, every iteration cap, every arithmetic (including IEEE NaN)", "why_tests_cant": "Soundness quantifies over all functions and all runs.", "anchors": ["qcd-sme/src/utils.rs: find_root"]}
{"id": "C07", "title": "find_root panics, fails and stops exactly as documented", "statement": "find_root panics iff the guesses are equal or tol is not > 0; otherwise it terminates after at most max_iter secant steps evaluating f at most max_iter+2 times; with max_iter = 0 it returns None even when a guess is a root; returning None without NaN means that all tested iterates had |f| >= tol.", "quantifier": "every function, guesses, tolerance and iteration cap", "why_tests_cant": "Termination and the exact evaluation budget are statements on all runs.", "anchors": ["qcd-sme/src/utils.rs: find_root"]}
{"id": "C08", "title": "find_root solves affine equations in one secant step", "statement": "For f(z)=a z+b with a<>0 and any two distinct guesses that are not yet within tolerance, find_root with max_iter>=2 returns exactly (-b/a, 0), over the reals and over the complex numbers.", "quantifier": "all a<>0, b, guesses, tol>0, max_iter>=2", "why_tests_cant": "A test samples finitely many numeric points; the claim is an identity/inequality over a continuum of inputs.", "anchors": ["qcd-sme/src/utils.rs: find_root"]}
{"id": "C09", "title": "Residue is exact on simple poles and converges otherwise", "statement": "For f(z)=c/(z-z0), compute_residue_with_eps returns c for every eps<>0; for every f whose reciprocal is differentiable at z0 with 1/f -> 0 there and non-zero derivative, the result converges to the residue as eps -> 0.", "quantifier": "all c, z0, eps; all functions with a simple pole", "why_tests_cant": "A limit is a statement about infinitely many points approaching one; sampling cannot establish it and floating-point noise hides errors near the limit.", "anchors": ["qcd-sme/src/utils.rs: compute_residue_with_eps, compute_residue"]}
{"id": "C10", "title": "Spectral function is real, linear and Lorentzian on a pole", "statement": "spectral_function_with_eps is linear in f; at real z it is real and equals -Im f(z+i eps)/pi for every f with f(conj z)=conj f(z); for a pole c/(z-z0) at real z0 with c>0 it is the Lorentzian of half-width eps, in particular positive; it vanishes where f is unchanged across the cut.", "quantifier": "all f with reflection symmetry, all real z, all eps>0", "why_tests_cant": "A test samples finitely many numeric points; the claim is an identity/inequality over a continuum of inputs.", "anchors": ["qcd-sme/src/utils.rs: spectral_function_with_eps"]}
{"id": "C11", "title": "Fermi and Bose distributions obey their defining identities", "statement": "Fermi values lie strictly in (0,1), are strictly decreasing in energy (beta>0), satisfy n(mu+x)+n(mu-x)=1; the doubled distribution is even in mu and lies in (0,2); Bose is positive for en>mu, satisfies n(x)+n(-x)=-1; the zero-chemical-potential variants are the mu=0 case, for real and complex energies.", "quantifier": "all real energies, beta>0, mu", "why_tests_cant": "A test samples finitely many numeric points; the claim is an identity/inequality over a continuum of inputs.", "anchors": ["qcd-sme/src/common/thermal.rs: fermi_distribution*, bose_distribution*"]}
{"id": "C12", "title": "Zero-temperature occupation is the beta->infinity limit", "statement": "For every energy different from mu (from +-mu for the doubled one) the finite-temperature Fermi distribution converges to the zero-temperature one as beta->+infinity; at en=mu it stays 1/2 while the zero-temperature function returns 1.", "quantifier": "all real energies and chemical potentials", "why_tests_cant": "A limit is a statement about infinitely many points approaching one; sampling cannot establish it and floating-point noise hides errors near the limit.", "anchors": ["qcd-sme/src/common/thermal.rs: fermi_distribution_zero_temp, fermi_distribution_double_zero_temp"]}
{"id": "C13", "title": "Fermi momentum is the occupation edge", "statement": "If |mu|>=|m| then energy(fermi_momentum(m,mu),m)=|mu|; at zero temperature the doubled occupation of momentum q>=0 is 1 for q<k_F with m<>0 or mu<>0, and 0 for q>k_F; if |mu|<|m| it is 0 for all q.", "quantifier": "all masses, chemical potentials and momenta", "why_tests_cant": "A test samples finitely many numeric points; the claim is an identity/inequality over a continuum of inputs.", "anchors": ["qcd-sme/src/common/thermal.rs: fermi_momentum, fermi_distribution_double_zero_temp", "qcd-sme/src/common/mod.rs: energy"]}
{"id": "C14", "title": "Zero-temperature charge density is the integral of the occupied states", "statement": "charge_density_zero_temp(m,mu) equals the Riemann integral over [0,K], for every K>=k_F, of the zero-temperature charge integrand Nc q^2 (n(E,mu)-n(E,-mu))/pi^2; it is odd and non-decreasing in mu, even in m, zero exactly for |mu|<=|m|, and continuous at the threshold.", "quantifier": "all real m, mu, all cut-offs K above the Fermi momentum, all Nc", "why_tests_cant": "A test samples finitely many numeric points; the claim is an identity/inequality over a continuum of inputs.", "anchors": ["qcd-sme/src/qcd/thermal.rs: quark::charge_density_zero_temp, quark::inlines::charge_density_i"]}
{"id": "C15", "title": "Zero-temperature density and chemical potential are mutually inverse", "statement": "charge_density_zero_temp(m, chemical_potential_zero_temp(m,n)) = n for every n, and chemical_potential_zero_temp(m, charge_density_zero_temp(m,mu)) = mu for every |mu|>|m|; inside the gap |mu|<=|m| the round trip returns 0.", "quantifier": "all m, n, mu and Nc>=1", "why_tests_cant": "A test samples finitely many numeric points; the claim is an identity/inequality over a continuum of inputs.", "anchors": ["qcd-sme/src/qcd/thermal.rs: quark::chemical_potential_zero_temp, quark::charge_density_zero_temp"]}
{"id": "C16", "title": "Finite-temperature chemical potential meets its tolerance", "statement": "If chemical_potential_with_method(m,beta,n,method) returns mu, then mu=0 for n=0 and otherwise |n - charge_density_with_method(m,beta,mu,method)| is below the tolerance of the method; it panics when the secant iteration finds nothing; it never trips find_root's distinct-guesses assertion.", "quantifier": "all m, beta, n, every integration routine and method", "why_tests_cant": "The claim quantifies over all densities and over every behaviour of the integrator.", "anchors": ["qcd-sme/src/qcd/thermal.rs: quark::chemical_potential_with_method", "qcd-sme/src/utils.rs: find_root"]}
{"id": "C17", "title": "Charge-density integrand has the right symmetries and limit", "statement": "The finite-temperature integrand is odd in mu, has the sign of mu, is increasing in mu, and converges pointwise to the zero-temperature integrand as beta->infinity (off the Fermi surface).", "quantifier": "all q>0, m, beta>0, mu", "why_tests_cant": "A limit is a statement about infinitely many points approaching one; sampling cannot establish it and floating-point noise hides errors near the limit.", "anchors": ["qcd-sme/src/qcd/thermal.rs: quark::inlines::charge_density_i"]}
{"id": "C18", "title": "Real and complex vacuum functions agree", "statement": "For real s>0 the complex instantiation of every vacuum ghost/gluon function evaluated at s+0i equals the real instantiation.", "quantifier": "all s>0 and all real parameters", "why_tests_cant": "A test samples finitely many numeric points; the claim is an identity/inequality over a continuum of inputs.", "anchors": ["qcd-sme/src/low_level/oneloop/ghost.rs, gluon.rs: inlines", "qcd-sme/src/ym/ghost.rs, ym/gluon.rs, qcd/gluon.rs"]}
{"id": "C19", "title": "Vacuum functions are reflection symmetric", "statement": "For complex s off the non-positive real axis every vacuum function satisfies F(conj s) = conj F(s).", "quantifier": "all complex s off the cut", "why_tests_cant": "A test samples finitely many numeric points; the claim is an identity/inequality over a continuum of inputs.", "anchors": ["qcd-sme/src/low_level/oneloop/ghost.rs, gluon.rs: inlines", "qcd-sme/src/ym/*.rs, qcd/gluon.rs"]}
{"id": "C20", "title": "Dressing, inverse dressing and propagator are consistent", "statement": "Wherever the inverse dressing is non-zero: dressing*dressing_inv=1 and s*propagator=dressing; the Landau-gauge functions are the xi=0 case; the gauge term is linear in xi; f0/g0 are additive constants; the *_sep variants fed with the logarithms agree with the one-argument functions.", "quantifier": "all s, masses, gauges and constants, real and complex", "why_tests_cant": "A test samples finitely many numeric points; the claim is an identity/inequality over a continuum of inputs.", "anchors": ["qcd-sme/src/ym/ghost.rs, ym/gluon.rs, qcd/gluon.rs", "qcd-sme/src/low_level/oneloop/*.rs: *_sep"]}
{"id": "C21", "title": "Quark functions vanish at zero momentum", "statement": "f_q(s)->0 and f_q_crossed(s)->0 as s->0+ (the normalisation stated in the comments).", "quantifier": "limit over all s->0+", "why_tests_cant": "A limit is a statement about infinitely many points approaching one; sampling cannot establish it and floating-point noise hides errors near the limit.", "anchors": ["qcd-sme/src/low_level/oneloop/gluon.rs: f_q, f_q_crossed"]}
{"id": "C22", "title": "Crossed quark function is the advertised derivative", "statement": "For every s>0, f_q is differentiable and f_q_crossed(s)=f_q(s)+2 s f_q'(s)+const with one and the same constant (namely 0 or the value fixed by the normalisation at 0).", "quantifier": "all s>0", "why_tests_cant": "A limit is a statement about infinitely many points approaching one; sampling cannot establish it and floating-point noise hides errors near the limit.", "anchors": ["qcd-sme/src/low_level/oneloop/gluon.rs: f_q, f_q_crossed"]}
{"id": "C23", "title": "Infrared behaviour: massive gluon, massless ghost", "statement": "As s->0+, s*dressing_inv of the gluon tends to 5/8 for every f0, so the Landau-gauge propagator tends to 8/5 (dynamical mass); the ghost inverse dressing tends to 5/24+g0.", "quantifier": "limit s->0+, all f0,g0", "why_tests_cant": "A limit is a statement about infinitely many points approaching one; sampling cannot establish it and floating-point noise hides errors near the limit.", "anchors": ["qcd-sme/src/low_level/oneloop/gluon.rs: f_sep", "qcd-sme/src/low_level/oneloop/ghost.rs: g_sep", "qcd-sme/src/ym/gluon.rs: propagator_landau"]}
{"id": "C24", "title": "Ultraviolet logarithms have the perturbative coefficients", "statement": "As s->infinity: f(s)/ln s -> 13/18, f_xi(s)/ln s -> -1/6, g(s)/ln s -> 1/4, f_q(s)/ln s -> -2/9, so the QCD inverse dressing grows like (13/18 - xi/6 - (2/9) nf/nc) ln s.", "quantifier": "limit s->infinity, all parameters", "why_tests_cant": "A limit is a statement about infinitely many points approaching one; sampling cannot establish it and floating-point noise hides errors near the limit.", "anchors": ["qcd-sme/src/low_level/oneloop/gluon.rs: f, f_xi, f_q", "qcd-sme/src/low_level/oneloop/ghost.rs: g, g_xi"]}
{"id": "C25", "title": "Field configurations add quark loops", "statement": "The *_w_field_config vacuum functions equal the pure Yang-Mills function plus the sum over listed quarks of (nf/nc) f_q(s m^2/mq^2): invariant under reordering, two entries with equal mass merge, an empty list or nf=0 gives Yang-Mills, a single entry gives the global-variable function with the same nf,nc, and the result never depends on the global variables.", "quantifier": "all configurations (lists of any length), all s, all global states", "why_tests_cant": "A test samples finitely many numeric points; the claim is an identity/inequality over a continuum of inputs.", "anchors": ["qcd-sme/src/qcd/gluon.rs: *_w_field_config", "qcd-sme/src/qcd/types.rs: FieldConfig::new"]}
{"id": "C26", "title": "Heavy quarks decouple", "statement": "For fixed s>0 the QCD inverse dressing converges to the pure Yang-Mills one when the quark mass goes to infinity.", "quantifier": "limit mq->infinity, all s>0", "why_tests_cant": "A limit is a statement about infinitely many points approaching one; sampling cannot establish it and floating-point noise hides errors near the limit.", "anchors": ["qcd-sme/src/qcd/gluon.rs: dressing_inv_landau"]}
{"id": "C27", "title": "The massless-quark shift of f0 is the right one", "statement": "With f0 shifted by (4/9)(nf/nc) ln(m/mq) as done by the phase-diagram program, the QCD inverse dressing has a finite limit as mq->0; without the shift it diverges.", "quantifier": "limit mq->0+, all s>0, m>0", "why_tests_cant": "A limit is a statement about infinitely many points approaching one; sampling cannot establish it and floating-point noise hides errors near the limit.", "anchors": ["tc_long_prop/src/bin/physical_tc.rs: Config::new, set_correctedf0", "qcd-sme/src/low_level/oneloop/gluon.rs: f_q"]}
{"id": "C28", "title": "FieldConfig's public fields determine the physics", "statement": "FieldConfig exposes nc, gluon and quarks as public mutable fields; the results of the *_w_field_config functions should be those of a configuration freshly built from the current public fields.", "quantifier": "every configuration and every sequence of public-field writes", "why_tests_cant": "A test fixes one call sequence; the claim is about every call history.", "anchors": ["qcd-sme/src/qcd/types.rs: FieldConfig, QuarkInternal"]}
{"id": "C29", "title": "Thermal logarithms never hit the branch cut off zero frequency", "statement": "For real om<>0 and q>0, p<>0, en>0 (any real mass difference) the argument of the thermal logarithm is finite, non-zero and not a negative real, so the integrands are regular.", "quantifier": "all real om<>0, q, p, masses", "why_tests_cant": "A test samples finitely many numeric points; the claim is an identity/inequality over a continuum of inputs.", "anchors": ["qcd-sme/src/low_level/oneloop/thermal/mod.rs: tlog, r_0"]}
{"id": "C30", "title": "Thermal integrands are real and even at real frequency", "statement": "For real om<>0 all one-loop thermal integrands (i_*, d_i_*, glue and quark polarizations, ghost self-energy) have vanishing imaginary part and are unchanged under om->-om.", "quantifier": "all real om<>0, q, p>0, masses, beta>0", "why_tests_cant": "A test samples finitely many numeric points; the claim is an identity/inequality over a continuum of inputs.", "anchors": ["qcd-sme/src/low_level/oneloop/thermal/mod.rs, ghost.rs, gluon.rs: inlines"]}
{"id": "C31", "title": "Special-mass integrands are specialisations of the general one", "statement": "i_m_m_i with m1=m2 is i_m_m_i_same_mass, with m2=0 is i_m_0_i, i_m_0_i with m=0 is i_0_0_i, and likewise for the longitudinal, transverse and derivative families and for the j functions.", "quantifier": "all q>0, om, p, m, beta", "why_tests_cant": "A test samples finitely many numeric points; the claim is an identity/inequality over a continuum of inputs.", "anchors": ["qcd-sme/src/low_level/oneloop/thermal/mod.rs, zero_matsubara.rs, zero_momentum.rs: inlines"]}
{"id": "C32", "title": "Two-mass integrands are symmetric in the masses", "statement": "i_m_m_i, i_m_m_l_i and i_m_m_t_i are unchanged when the masses are exchanged, at general kinematics and in both limits.", "quantifier": "all q, om, p, m1, m2, beta", "why_tests_cant": "A test samples finitely many numeric points; the claim is an identity/inequality over a continuum of inputs.", "anchors": ["qcd-sme/src/low_level/oneloop/thermal/mod.rs: i_m_m_*"]}
{"id": "C33", "title": "Zero-Matsubara integrands are the om->0 limits", "statement": "Every function of the zero_matsubara module (and the corresponding ghost/gluon/quark polarization integrands) is the limit as real om->0 of the general function, away from the logarithmic singularities.", "quantifier": "all q,p>0, masses, beta with non-singular logarithm", "why_tests_cant": "A limit is a statement about infinitely many points approaching one; sampling cannot establish it and floating-point noise hides errors near the limit.", "anchors": ["qcd-sme/src/low_level/oneloop/thermal/zero_matsubara.rs", "qcd-sme/src/low_level/oneloop/thermal/gluon.rs, ghost.rs: zero_matsubara"]}
{"id": "C34", "title": "Zero-momentum integrands are the p->0 limits and L=T there", "statement": "Every function of the zero_momentum module is the limit p->0+ of the general one, for the longitudinal and for the transverse projection alike.", "quantifier": "all q>0, om<>0, masses, beta", "why_tests_cant": "A limit is a statement about infinitely many points approaching one; sampling cannot establish it and floating-point noise hides errors near the limit.", "anchors": ["qcd-sme/src/low_level/oneloop/thermal/zero_momentum.rs", "qcd-sme/src/low_level/oneloop/thermal/gluon.rs, ghost.rs: zero_momentum"]}
{"id": "C35", "title": "Tadpole derivative integrands are mass derivatives", "statement": "d_j_* equals the derivative of j_* with respect to m^2 up to an explicit total derivative in q whose boundary values at q=0 and q=infinity vanish; d2_j_* is the same for d_j_*.", "quantifier": "all q>0, m, beta>0", "why_tests_cant": "A limit is a statement about infinitely many points approaching one; sampling cannot establish it and floating-point noise hides errors near the limit.", "anchors": ["qcd-sme/src/low_level/oneloop/thermal/mod.rs: d_j_*, d2_j_*"]}
{"id": "C36", "title": "Bubble derivative integrands are mass derivatives", "statement": "d_i_m_m_*, d_i_m_0_* equal the derivative of i_m_m_*, i_m_0_* with respect to the first mass squared up to an explicit total q-derivative.", "quantifier": "all q,p>0, real om<>0, masses, beta>0", "why_tests_cant": "A limit is a statement about infinitely many points approaching one; sampling cannot establish it and floating-point noise hides errors near the limit.", "anchors": ["qcd-sme/src/low_level/oneloop/thermal/mod.rs: d_i_*"]}
{"id": "C37", "title": "All thermal integrands are dimensionally homogeneous", "statement": "Rescaling all momenta, masses and frequencies by lambda>0 and beta by 1/lambda multiplies each integrand by a fixed power of lambda (polarizations and self-energy: lambda).", "quantifier": "all lambda>0 and all inputs", "why_tests_cant": "A test samples finitely many numeric points; the claim is an identity/inequality over a continuum of inputs.", "anchors": ["qcd-sme/src/low_level/oneloop/thermal/*.rs: inlines"]}
{"id": "C38", "title": "Quark polarization: charge conjugation, colour factor, zero-temperature limit", "statement": "The quark polarization integrands are even in mu, inversely proportional to the number of colors, and converge to the zero-temperature integrands as beta->infinity (off the Fermi surface).", "quantifier": "all q,om,p,mq,beta,mu,nc", "why_tests_cant": "A test samples finitely many numeric points; the claim is an identity/inequality over a continuum of inputs.", "anchors": ["qcd-sme/src/low_level/oneloop/thermal/gluon.rs: polarization_quark_*"]}
{"id": "C39", "title": "Cutting the zero-temperature integral at the Fermi momentum loses nothing", "statement": "For |mu|<|mq| the zero-temperature quark integrand vanishes identically, matching the early return of 0; for |mu|>=|mq| it vanishes for every q above the upper integration limit.", "quantifier": "all om,p,mq,mu,q", "why_tests_cant": "A test samples finitely many numeric points; the claim is an identity/inequality over a continuum of inputs.", "anchors": ["qcd-sme/src/low_level/oneloop/thermal/gluon.rs: polarization_quark_*_zero_temp_landau_w_method"]}
{"id": "C40", "title": "The compactified integral is the half-line integral", "statement": "For every integrand f continuous on [0,Q], integrating f((1-t)/t)/t^2 over [1/(1+Q),1] gives the integral of f over [0,Q].", "quantifier": "all continuous f, all Q>0", "why_tests_cant": "A test samples finitely many numeric points; the claim is an identity/inequality over a continuum of inputs.", "anchors": ["qcd-sme/src/low_level/oneloop/thermal/gluon.rs, ghost.rs: *_w_method (1.-t)/t"]}
{"id": "C41", "title": "Matsubara regulator is removable", "statement": "The zero-Matsubara polarizations integrate the real part of the general integrand at om = regulator; as the regulator goes to 0 this integrand converges to the documented zero-Matsubara integrand.", "quantifier": "all q,p,m,beta, limit regulator->0+", "why_tests_cant": "A limit is a statement about infinitely many points approaching one; sampling cannot establish it and floating-point noise hides errors near the limit.", "anchors": ["qcd-sme/src/low_level/oneloop/thermal/gluon.rs: zero_matsubara::native::*_w_method", "qcd-sme/src/consts.rs: matsubara_reg"]}
{"id": "C42", "title": "Thermal propagators are consistent with their dressings and reduce to vacuum", "statement": "At finite temperature (all kinematic limits, with and without field configuration) dressing*dressing_inv=1, (om^2+p^2)*propagator=dressing, and whenever the thermal integrals vanish the inverse dressing is the vacuum one at s=(om^2+p^2)/m^2 with quark mass mq/m.", "quantifier": "all inputs and every integration routine", "why_tests_cant": "A test samples finitely many numeric points; the claim is an identity/inequality over a continuum of inputs.", "anchors": ["qcd-sme/src/ym/thermal.rs", "qcd-sme/src/qcd/thermal.rs"]}
{"id": "C43", "title": "QCD without quarks is Yang-Mills at finite temperature", "statement": "With an empty (or all nf=0) field configuration, or nf=0 globally, every thermal QCD gluon function equals the Yang-Mills one, for every integration routine.", "quantifier": "all kinematics, temperatures and integrators", "why_tests_cant": "A test samples finitely many numeric points; the claim is an identity/inequality over a continuum of inputs.", "anchors": ["qcd-sme/src/qcd/thermal.rs", "qcd-sme/src/ym/thermal.rs"]}
{"id": "C44", "title": "Thermal field configurations: single, merged, permuted", "statement": "A configuration with one quark species agrees with the global-variable functions when the globals hold the same nf and nc; equal-mass entries merge; order is irrelevant.", "quantifier": "all configurations and kinematics, every integrator", "why_tests_cant": "A test samples finitely many numeric points; the claim is an identity/inequality over a continuum of inputs.", "anchors": ["qcd-sme/src/qcd/thermal.rs: *_w_field_config"]}
{"id": "C45", "title": "Thermal *_w_field_config functions use the configuration's number of colors", "statement": "The result of a thermal *_w_field_config call should be determined by the configuration, not by the global number of colors.", "quantifier": "all configurations and global states", "why_tests_cant": "A test fixes one call sequence; the claim is about every call history.", "anchors": ["qcd-sme/src/qcd/thermal.rs: *_w_field_config", "qcd-sme/src/low_level/oneloop/thermal/gluon.rs: nc()", "qcd-sme/build.rs: known-bug warning"]}
{"id": "C46", "title": "Thread-safety of the field-configuration functions", "statement": "While another thread changes the number of colors, vacuum *_w_field_config results are unaffected for every schedule; thermal ones are unaffected iff the colour number seen by all evaluations is the same.", "quantifier": "all interleavings of integrand evaluations and setter calls", "why_tests_cant": "Interleavings cannot be enumerated by tests.", "anchors": ["qcd-sme/src/consts.rs: module warning", "qcd-sme/src/qcd/thermal.rs"]}
{"id": "C47", "title": "Concurrent setters keep nf/nc consistent", "statement": "If two threads call set_number_of_fermions and set_number_of_colors concurrently, the stored ratio should equal nf/nc afterwards.", "quantifier": "all interleavings of the individual loads and stores of two setter calls", "why_tests_cant": "Race outcomes depend on schedules a test does not control.", "anchors": ["qcd-sme/src/consts.rs: set_number_of_colors, set_number_of_fermions"]}
{"id": "C48", "title": "find_critical_temperature returns the first global maximiser", "statement": "For non-empty inputs the result is the temperature at the smallest index whose value is >= all others (over the common length); it panics iff one list is empty. With IEEE NaN in first position it returns the first temperature regardless of the data.", "quantifier": "all lists of any length", "why_tests_cant": "A test samples finitely many numeric points; the claim is an identity/inequality over a continuum of inputs.", "anchors": ["tc_long_prop/src/lib.rs: find_critical_temperature"]}
{"id": "C49", "title": "reduce_phase_boundary is an idempotent prefix cut", "statement": "The result is the longest prefix without a zero critical temperature; applying it twice is the same as once.", "quantifier": "all phase-boundary lists", "why_tests_cant": "A test samples finitely many numeric points; the claim is an identity/inequality over a continuum of inputs.", "anchors": ["tc_long_prop/src/lib.rs: reduce_phase_boundary"]}
{"id": "C50", "title": "Phase classification agrees with the interpolated boundary", "statement": "For a boundary with strictly increasing mu and strictly decreasing non-zero T, and mu within the tabulated range, is_deconfined_phase(mu,t) holds iff t exceeds the piecewise linear interpolation (t>0), resp. iff mu exceeds the last tabulated mu (t=0); above the range the answer is deconfined; it panics exactly when the reduced boundary is empty or mu is below its first point.", "quantifier": "all such boundaries, all mu, t", "why_tests_cant": "A test samples finitely many numeric points; the claim is an identity/inequality over a continuum of inputs.", "anchors": ["tc_long_prop/src/lib.rs: is_deconfined_phase"]}
{"id": "C51", "title": "Boundary points count as confined", "statement": "The documentation says the boundary itself belongs to the confined phase; this should hold for every tabulated boundary with non-increasing temperatures, including flat segments produced by the temperature grid.", "quantifier": "all boundaries with strictly increasing mu and non-increasing T", "why_tests_cant": "A test samples finitely many numeric points; the claim is an identity/inequality over a continuum of inputs.", "anchors": ["tc_long_prop/src/lib.rs: is_deconfined_phase"]}
{"id": "C52", "title": "Phase-boundary polynomial is evaluated correctly", "statement": "parametric_phase_diagram(mu,params) equals sum_i params[i] mu^i for every non-empty parameter list and panics on an empty one.", "quantifier": "all parameter lists of any length, all mu", "why_tests_cant": "A test samples finitely many numeric points; the claim is an identity/inequality over a continuum of inputs.", "anchors": ["tc_long_prop/src/lib.rs: parametric_phase_diagram"]}
{"id": "C53", "title": "Corrected renormalisation constant is the one of the corrected masses", "statement": "Correcting a configuration built with masses mq to masses mqc (same nf, nc, gluon mass) gives the same f0 as building the configuration with mqc from the start; a corrected list longer than the original panics.", "quantifier": "all configurations with positive masses", "why_tests_cant": "A test samples finitely many numeric points; the claim is an identity/inequality over a continuum of inputs.", "anchors": ["tc_long_prop/src/bin/physical_tc.rs: Config::new, set_correctedf0"]}
{"id": "C54", "title": "Corrected data selection never sees an inconsistent configuration", "statement": "maybe_corrected_data panics exactly when only one of {corrected field configuration, phase boundary} has been set through the setters; otherwise it returns the corrected pair in the deconfined phase and the original pair elsewhere; setting both to None restores the original behaviour.", "quantifier": "every history of setter calls", "why_tests_cant": "A test fixes one call sequence; the claim is about every call history.", "anchors": ["tc_long_prop/src/bin/physical_tc.rs: Config::set_correctedfieldconfig, set_phase_boundary, maybe_corrected_data"]}
{"id": "C55", "title": "Public fields of the phase-diagram Config are independent", "statement": "The comment says public fields can be modified independently of other fields; writing fieldconfig or correctedfieldconfig directly should keep f0 / corrected f0 consistent.", "quantifier": "every write to the public fields", "why_tests_cant": "A test fixes one call sequence; the claim is about every call history.", "anchors": ["tc_long_prop/src/bin/physical_tc.rs: Config"]}
{"id": "C56", "title": "Sampling grids cover the requested interval", "statement": "compute_vec((min,max,step)) with step>0, max>=min has round((max-min)/step)+1 points, starts at min, has constant spacing, and its last point is within step/2 of max.", "quantifier": "all min<=max, step>0", "why_tests_cant": "A test samples finitely many numeric points; the claim is an identity/inequality over a continuum of inputs.", "anchors": ["tc_long_prop/src/bin/physical_tc.rs: Config::compute_vec"]}
{"id": "C57", "title": "Thermal parts vanish at zero temperature", "statement": "Every Bose-type integrand (tadpoles, bubbles, glue polarization, ghost self-energy) tends to 0 pointwise as beta->infinity for q>0.", "quantifier": "all q>0, kinematics, limit beta->infinity", "why_tests_cant": "A limit is a statement about infinitely many points approaching one; sampling cannot establish it and floating-point noise hides errors near the limit.", "anchors": ["qcd-sme/src/low_level/oneloop/thermal/*.rs"]}
{"id": "C58", "title": "Zero-momentum wrappers: longitudinal equals transverse", "statement": "In the zero-momentum modules every transverse dressing and propagator equals the longitudinal one.", "quantifier": "all inputs, every integrator", "why_tests_cant": "A test samples finitely many numeric points; the claim is an identity/inequality over a continuum of inputs.", "anchors": ["qcd-sme/src/ym/thermal.rs: zero_momentum", "qcd-sme/src/qcd/thermal.rs: zero_momentum"]}
{"id": "C59", "title": "Real and complex instances of the generic integrands agree", "statement": "Every generic one-loop integrand gives the same value when an argument (frequency or mass) is passed as a real number and when the same number is passed as a complex number, in every combination of real and complex arguments.", "quantifier": "all q, om, p, masses, beta, mu, nc", "why_tests_cant": "A test samples finitely many numeric points and type combinations; the claim is an identity over a continuum of inputs and all instances.", "anchors": ["qcd-sme/src/low_level/oneloop/thermal/mod.rs, zero_matsubara.rs, zero_momentum.rs, gluon.rs, ghost.rs: generic inlines (Num)"]}
{"id": "C60", "title": "Tables of the physical_tc program hold the normalised propagators", "statement": "compute_longitudinal/transverse_propagators write one file per (chemical potential, temperature), labelled with them, whose rows are (p, m^2/mu_0^2 * D(pm)/D(mu_0)) on the momentum grid with the (possibly corrected) data of that phase point; at the renormalisation point the value is the free one, m^2/mu_0^2.", "quantifier": "every history of Config setter calls, all propagators, all grids", "why_tests_cant": "A test fixes a few inputs and compares printed numbers; the claim is about every configuration, every history of setter calls and every integration routine.", "anchors": ["tc_long_prop/src/bin/physical_tc.rs: compute_longitudinal_propagators, compute_transverse_propagators"]}
{"id": "C61", "title": "The phase boundary consists of the first maximisers of the infrared propagator", "statement": "compute_phase_diagram returns, for each chemical potential in order, the first temperature of the grid at which the normalised propagator at p = pbase is largest, zero temperature being represented by the first grid entry.", "quantifier": "every history of Config setter calls, all propagators", "why_tests_cant": "A test fixes a few inputs and compares printed numbers; the claim is about every configuration, every history of setter calls and every integration routine.", "anchors": ["tc_long_prop/src/bin/physical_tc.rs: compute_phase_diagram, compute_ir_limit"]}
{"id": "C62", "title": "Exact panic conditions of the physical_tc program", "statement": "compute_phase_diagram panics iff there are fewer than 4 chemical potentials or the data selection panics at a point of the grid; the whole program panics iff there are fewer than 4 chemical potentials in the fine grid, or the critical temperature at the first chemical potential is 0, or some used chemical potential is below the first one of the fine grid, or the fit panics.", "quantifier": "all inputs, every integration routine, every fit", "why_tests_cant": "A test fixes a few inputs and compares printed numbers; the claim is about every configuration, every history of setter calls and every integration routine.", "anchors": ["tc_long_prop/src/bin/physical_tc.rs: main, compute_phase_diagram"]}
{"id": "C63", "title": "Second derivatives of the phase boundary", "statement": "The table of second derivatives has four rows fewer than the boundary; each row is the central second difference with spacing 2*dmu around its chemical potential, exact on parabolas and non-positive for concave boundaries.", "quantifier": "all grids and boundaries", "why_tests_cant": "A test fixes a few inputs and compares printed numbers; the claim is about every configuration, every history of setter calls and every integration routine.", "anchors": ["tc_long_prop/src/bin/physical_tc.rs: compute_phase_diagram"]}
{"id": "C64", "title": "Output files do not overwrite each other", "statement": "The files written for different (temperature, chemical potential) have different names; this needs grid steps above the 4 printed decimals.", "quantifier": "every history of Config setter calls, all grids, any rounding rule of the formatter", "why_tests_cant": "A test fixes a few inputs and compares printed numbers; the claim is about every configuration, every history of setter calls and every integration routine.", "anchors": ["tc_long_prop/src/bin/physical_tc.rs: compute_longitudinal_propagators, compute_transverse_propagators"]}
{"id": "C65", "title": "tc.out of the overall programs", "statement": "one_mass_overall and two_masses_overall never panic (I/O aside) and write one row per (nf, masses, mu) in loop order; every row holds the first maximiser over T = 0 and the temperature grid of the normalised propagator of that field configuration, unaffected by the previously set number of flavours.", "quantifier": "every integration routine, all global settings; the loop for all grids", "why_tests_cant": "A test fixes a few inputs and compares printed numbers; the claim is about every configuration, every history of setter calls and every integration routine.", "anchors": ["tc_long_prop/src/bin/one_mass_overall.rs: main", "tc_long_prop/src/bin/two_masses_overall.rs: main"]}
{"id": "C66", "title": "The overall programs agree where they overlap", "statement": "Running the two-mass program with equal masses and n flavours each gives the rows of the one-mass program with 2n flavours; the special nf = 0 branch (Yang-Mills functions, vacuum propagator in units of m) gives the result of the general branch for a configuration without quarks.", "quantifier": "every integration routine, all masses, chemical potentials and grids", "why_tests_cant": "A test fixes a few inputs and compares printed numbers; the claim is about every configuration, every history of setter calls and every integration routine.", "anchors": ["tc_long_prop/src/bin/one_mass_overall.rs: main", "tc_long_prop/src/bin/two_masses_overall.rs: main"]}
{"id": "C67", "title": "Truncated grids of the overall programs", "statement": "The grids built with `as usize` stay within [min,max], start at min, have constant spacing and end less than one step below max; they coincide with the rounded grids of physical_tc on exact multiples, while an arbitrarily small negative defect of max costs the last point.", "quantifier": "all min<=max, step>0", "why_tests_cant": "A test fixes a few inputs and compares printed numbers; the claim is about every configuration, every history of setter calls and every integration routine.", "anchors": ["tc_long_prop/src/bin/one_mass_overall.rs: main", "tc_long_prop/src/bin/two_masses_overall.rs: main"]}
{"id": "C68", "title": "Vacuum functions equal the Python reference", "statement": "The ghost and gluon vacuum functions and the Yang-Mills, QCD and crossed QCD inverse gluon dressings equal the formulas of tests/numerics.py (py_g up to its missing factor 1/12): the rewriting of two square roots and one logarithm into one square root and two logarithms never changes branch.", "quantifier": "all complex s off the cut (-oo,0], all positive real s; all f0, xi, nf/nc and quark masses different from 0", "why_tests_cant": "The unit tests compare the Rust functions with numbers this script printed at a handful of points; agreement at those points does not exclude different branches, signs or powers elsewhere.", "anchors": ["qcd-sme/src/low_level/oneloop/gluon.rs: f, f_xi, f_q, f_q_crossed", "qcd-sme/src/low_level/oneloop/ghost.rs: g", "tests/numerics.py: f, f_xi, f_q, f_q_crossed, g, ym_gluon_dressing_inv, qcd_gluon_dressing_inv"]}
{"id": "C69", "title": "Tadpole integrands equal the Python reference", "statement": "The nine tadpole integrands (and their massless versions) equal the formulas of tests/numerics.py.", "quantifier": "all q, beta, complex masses with q^2+m^2 different from 0; all real masses with q>0", "why_tests_cant": "The unit tests compare the Rust functions with numbers this script printed at a handful of points; agreement at those points does not exclude different branches, signs or powers elsewhere.", "anchors": ["qcd-sme/src/low_level/oneloop/thermal/mod.rs: j_m_i ... d2_j_m_t_i", "tests/numerics.py: j_m_i ... d2_j_m_t_i"]}
{"id": "C70", "title": "Bubble integrands equal the Python reference", "statement": "The six bubble integrands and their equal-mass, one-massless and massless specialisations equal the formulas of tests/numerics.py.", "quantifier": "all q>0, p, om, beta and complex or real masses away from the poles of both formulas", "why_tests_cant": "The unit tests compare the Rust functions with numbers this script printed at a handful of points; agreement at those points does not exclude different branches, signs or powers elsewhere.", "anchors": ["qcd-sme/src/low_level/oneloop/thermal/mod.rs: i_m_m_i ... d_i_0_0_t_i", "tests/numerics.py: i_m_m_i ... d_i_m_m_t_i"]}
{"id": "C71", "title": "Zero-momentum bubble integrands equal the Python reference", "statement": "The zero-momentum bubble integrands and their mass specialisations equal the zero-momentum formulas of tests/numerics.py; the transverse derivative equals the script's longitudinal derivative.", "quantifier": "all q>0, om, beta and complex or real masses with q^2+m^2 different from 0", "why_tests_cant": "The unit tests compare the Rust functions with numbers this script printed at a handful of points; agreement at those points does not exclude different branches, signs or powers elsewhere.", "anchors": ["qcd-sme/src/low_level/oneloop/thermal/mod.rs: zero_momentum", "tests/numerics.py: i_m_m_i_zp ... d_i_m_m_l_i_zp"]}
{"id": "C72", "title": "Ghost self-energy and glue polarization equal the Python reference", "statement": "The thermal ghost self-energy and the longitudinal and transverse glue polarization integrands equal the formulas of tests/numerics.py, at general and at zero momentum.", "quantifier": "all q>0, om, p, beta, gluon mass different from 0", "why_tests_cant": "The unit tests compare the Rust functions with numbers this script printed at a handful of points; agreement at those points does not exclude different branches, signs or powers elsewhere.", "anchors": ["qcd-sme/src/low_level/oneloop/thermal/ghost.rs", "qcd-sme/src/low_level/oneloop/thermal/gluon.rs: polarization_glue_*", "tests/numerics.py: ghost_se, gluon_pol_l, gluon_pol_t and _zp versions"]}
{"id": "C73", "title": "Quark polarization equals the Python reference", "statement": "The thermal quark polarization integrands equal 3/nc times the formulas of tests/numerics.py; the transverse one agrees although the script obtains it from the trace and the longitudinal one.", "quantifier": "all nc>0, q>0, p, om, quark masses, beta, mu", "why_tests_cant": "The unit tests compare the Rust functions with numbers this script printed at a handful of points; agreement at those points does not exclude different branches, signs or powers elsewhere.", "anchors": ["qcd-sme/src/low_level/oneloop/thermal/gluon.rs: polarization_quark_*", "tests/numerics.py: gluon_pol_quark_l, gluon_pol_quark_t, gluon_pol_quark_l_zp"]}
{"id": "C74", "title": "Quark loop reproduces the hard-thermal-loop self-energy", "statement": "When the external momenta and the quark mass are scaled to zero at fixed temperature (equivalently, the temperature to infinity), the longitudinal and transverse quark polarization integrands converge to the fermionic weight times the hard-thermal-loop functions f_htl and g_htl of examples/qed_htl_limit.rs, whose integrals over the loop momentum are exactly f_htl and g_htl; the same at zero temperature with the Fermi sea.", "quantifier": "all nc>0, loop momenta q>0, frequencies om different from 0, momenta k>0, quark masses, temperatures T>0, chemical potentials", "why_tests_cant": "The limit is an infinite process; the example program only plots both sides at four temperatures.", "anchors": ["qcd-sme/examples/qed_htl_limit.rs: f_htl, g_htl, f_ours, g_ours", "qcd-sme/src/low_level/oneloop/thermal/gluon.rs: polarization_quark_*"]}
{"id": "C75", "title": "Gluon loop reproduces the hard-thermal-loop self-energy", "statement": "In the same limit the longitudinal and transverse glue polarization integrands converge to the bosonic weight times the hard-thermal-loop functions plus the derivative of a function vanishing at both ends of the integration range, so that the integral of the limit is the hard-thermal-loop self-energy; the ghost self-energy integrand converges to 0.", "quantifier": "all q>0, om different from 0, k>0, gluon masses different from 0, T>0", "why_tests_cant": "The limit is an infinite process and the individual bubbles diverge like inverse powers of the mass; the cancellation cannot be tested at finitely many points.", "anchors": ["qcd-sme/src/low_level/oneloop/thermal/gluon.rs: polarization_glue_*", "qcd-sme/src/low_level/oneloop/thermal/ghost.rs"]}
{"id": "C76", "title": "Thermal gluon mass of the asymptotics example", "statement": "The bosonic, fermionic and zero-temperature weights integrate to 1, 1+3mu^2/(pi T)^2 and 3mu^2/pi^2; the limit of the full gluon polarization with nf quarks integrates to minus the hard-thermal-loop function times the mass squared of asymptotics_known divided by nc.", "quantifier": "all T>0, mu, nc>0, nf, om different from 0, k>0, gluon mass different from 0, quark masses", "why_tests_cant": "The example program compares plots at four temperatures with a hand-tuned constant; the dependence on nc, nf, T and mu is proved here for all values.", "anchors": ["qcd-sme/examples/qcd_gluon_propagator_asymptotics.rs: asymptotics_known", "qcd-sme/src/low_level/oneloop/thermal/gluon.rs"]}
{"id": "C77", "title": "Symmetries of the thermal functions at complex frequency", "statement": "At every complex frequency om all bubble, ghost, glue and quark integrands (general kinematics and zero momentum, any temperature and zero temperature) and all dressing functions and propagators built from them take the same value at om and -om. At real masses the zero-momentum integrands take conjugate values at om and conj om without any condition, the general-momentum integrands do so when Re om is not 0 and |Im om| differs from the loop energies, and the zero-momentum dressing functions and propagators do so for Re om not 0 with any integrator that commutes with conjugation.", "quantifier": "all loop momenta, temperatures, chemical potentials, masses, complex om, all integrators (commuting with conjugation for the reflection of the dressing functions), all field configurations with non-zero masses", "why_tests_cant": "The tests of the repository compare a handful of frequencies with stored numbers; the symmetries concern a continuum of complex frequencies and every integration routine.", "anchors": ["qcd-sme/src/low_level/oneloop/thermal/mod.rs", "qcd-sme/src/low_level/oneloop/thermal/zero_momentum.rs", "qcd-sme/src/low_level/oneloop/thermal/gluon.rs", "qcd-sme/src/ym/thermal.rs", "qcd-sme/src/qcd/thermal.rs"]}
{"id": "C78", "title": "The gluon-pole program", "statement": "examples/ym_thermal_gluon_poles.rs can only stop with \"Found no root\": its check \"Roots are not symmetric!\" never fires. Otherwise it writes seven rows; the row of each temperature carries a complex energy p such that the inverse dressing function with the mass and constant of that temperature is smaller than 1e-12 in modulus at the Euclidean frequencies ip, -ip, i conj p (at s=-(p/m)^2 in vacuum), and p lies in the first quadrant whenever the root lies in the third. The residue formulas (division by the root; times two over the root, conjugated) converge, as the finite-difference step goes to 0, to the residue of the propagator as a function of the squared momentum.", "quantifier": "all integrators commuting with conjugation, all global settings; residues: all simple poles, all masses, temperatures and constants", "why_tests_cant": "The program is an example without tests; the conversion factors between poles in om and in om^2 and the pairing of three parameter lists by zip are not checked anywhere.", "anchors": ["qcd-sme/examples/ym_thermal_gluon_poles.rs", "qcd-sme/src/utils.rs: find_root, compute_residue"]}
{"id": "C79", "title": "The thermal integrals converge", "statement": "For real om <> 0, p > 0, gluon mass m <> 0 and beta > 0 every half-line integral computed by the library (ghost self-energies, glue and quark polarizations, general and zero-momentum kinematics, the regulated zero-Matsubara polarizations, the charge density) has an integrand that is Riemann integrable after the compactification q=(1-t)/t, on all of (0,1); so have the Fermi-sea integrals of the zero-temperature functions. With a routine that returns Riemann integrals, each wrapper therefore returns the integral of its integrand.", "quantifier": "all p > 0, m <> 0, quark masses, beta > 0, chemical potentials, om <> 0, global settings with a positive number of colors and a non-zero regulator, all integrators", "why_tests_cant": "A test evaluates the quadrature at a few points; existence of the integral for all parameters (cancellation of the 1/q and 1/m^2 singularities at both ends) cannot be observed numerically.", "anchors": ["qcd-sme/src/low_level/oneloop/thermal/ghost.rs", "qcd-sme/src/low_level/oneloop/thermal/gluon.rs", "qcd-sme/src/qcd/thermal.rs"]}
{"id": "C80", "title": "Zero-temperature limit of the integrated functions", "statement": "As beta goes to infinity the integrated ghost and glue thermal parts go to 0 and the integrated quark polarizations and the charge density go to the separately implemented zero-temperature functions (integrals cut at the Fermi momentum; closed form for the density). Consequently all Yang-Mills dressing functions and propagators go to the vacuum ones and all QCD ones, also with field configurations, to their _zero_temp counterparts (dressings and propagators when the limit of the inverse dressing is not 0).", "quantifier": "all exact integrators, p > 0, m <> 0, om <> 0 (regulated at zero Matsubara frequency), all quark masses, chemical potentials, additive constants and quark lists", "why_tests_cant": "The limit is an exchange of limit and integral over an infinite range; tests can compare only finite temperatures within a tolerance.", "anchors": ["qcd-sme/src/low_level/oneloop/thermal/gluon.rs", "qcd-sme/src/qcd/thermal.rs", "qcd-sme/src/ym/thermal.rs"]}
{"id": "C81", "title": "The finite-temperature charge density", "statement": "With an exact integrator the charge density of massless quarks is Nc (mu^3/(3 pi^2) + mu T^2/3). For every mass it is odd, continuous and strictly increasing in mu and takes every real value exactly once, so the chemical potential of a given density exists and is unique. It decreases with the mass (mu >= 0) and lies between the massless values at mu-|m| and mu. For massless quarks a chemical potential returned by the root search differs from the exact one by less than 3 beta^2 tol/Nc.", "quantifier": "all exact integrators, temperatures, masses, chemical potentials, densities, tolerances", "why_tests_cant": "Closed forms and uniqueness hold for all parameters; tests compare with stored numbers.", "anchors": ["qcd-sme/src/qcd/thermal.rs: charge_density, chemical_potential"]}
{"id": "C82", "title": "The zero-Matsubara ghost self-energy integrates over a pole", "statement": "The integrand of the ghost self-energy at zero Matsubara frequency, which the code integrates over the whole half line without the regulator used for the gluon, has a simple pole at q2=(p^2+m^2)/(2p) with residue q2^2 n_B(q2)/(16 pi^2) > 0. It is not integrable, and for every real v there is an integration routine that is exact on all integrable functions and for which the self-energy (or the inverse ghost dressing function) equals v: the values of the zero-Matsubara ghost functions are not determined by the formulas.", "quantifier": "all p > 0, m <> 0, beta > 0, additive constants, methods, global settings", "why_tests_cant": "A quadrature that does not hit the pole returns a finite number; nothing in a numerical result shows that the integral does not exist.", "anchors": ["qcd-sme/src/low_level/oneloop/thermal/ghost.rs: zero_matsubara", "qcd-sme/src/ym/thermal.rs: zero_matsubara::ghost"]}
{"id": "C83", "title": "High-temperature and high-density limits of the integrated quark polarizations", "statement": "At fixed external frequency, momentum and quark mass, and for any chemical potential mu(T) with mu(T)/T -> nu, each integrated quark polarization divided by T^2 goes to -(1+3 nu^2/pi^2)/(2 Nc) times the hard-thermal-loop function (longitudinal or transverse; 1/9 at zero momentum; evaluated at the regulator at zero Matsubara frequency). The zero-temperature polarizations divided by mu^2 go to -3/(2 pi^2 Nc) times the same functions. The charge density divided by T^3 goes to Nc (nu^3/(3 pi^2) + nu/3) for every quark mass.", "quantifier": "all exact integrators, p > 0, om <> 0, quark masses, chemical potentials mu(T) with mu(T)/T convergent, global settings with a positive number of colors", "why_tests_cant": "The statement is a limit of integrals over an infinite range; the example programs only plot a few temperatures.", "anchors": ["qcd-sme/src/low_level/oneloop/thermal/gluon.rs", "qcd-sme/src/qcd/thermal.rs", "qcd-sme/examples/qed_htl_limit.rs"]}
{"id": "C84", "title": "High-temperature limit of the integrated gluon and ghost loops", "statement": "At fixed external frequency, momentum and gluon mass, each integrated gluon-loop polarization divided by T^2 goes to minus the hard-thermal-loop function (longitudinal or transverse; 1/9 at zero momentum; evaluated at the regulator at zero Matsubara frequency), and the ghost self-energy divided by T^2 goes to 0 (general frequency and zero momentum). The hard-thermal-loop functions are positive.", "quantifier": "all exact integrators, p > 0, om <> 0, nonzero gluon masses, integration methods and global settings", "why_tests_cant": "The statement is a limit of integrals over an infinite range, whose individual terms grow faster than T^2 and cancel between the massless and massive lines.", "anchors": ["qcd-sme/src/low_level/oneloop/thermal/gluon.rs", "qcd-sme/src/low_level/oneloop/thermal/ghost.rs", "qcd-sme/examples/qed_htl_limit.rs"]}
{"id": "C85", "title": "Screening of the gluon at high temperature and density", "statement": "With mu(T)/T -> nu, the thermal inverse gluon dressing functions divided by T^2 go to l/s and T^2 times the dressing functions and propagators goes to s/l and 1/l, where s is the squared momentum and l = 16 pi^2/3 (1 + nf (1+3 nu^2/pi^2)/(2 Nc)) times the hard-thermal-loop function (nf = 0 for Yang-Mills; nf = total number of quarks for a field configuration). At zero temperature the same holds with mu^2 in place of T^2 and l = 16 pi^2/3 nf 3/(2 pi^2 Nc) times the same function, if there is at least one quark.", "quantifier": "all exact integrators, p > 0, om <> 0, nonzero gluon masses, quark masses, renormalization constants, field configurations, chemical potentials with mu(T)/T convergent; positive number of colors", "why_tests_cant": "A statement about the limit of infinite temperature or density for all parameters.", "anchors": ["qcd-sme/src/qcd/thermal.rs", "qcd-sme/src/ym/thermal.rs"]}
{"id": "C86", "title": "The asymptotics program and limits uniform in temperature and chemical potential", "statement": "The integrated quark polarizations equal -h/(2 Nc)(T^2 + 3 mu^2/pi^2), h the hard-thermal-loop function, up to eps (T^2+mu^2) + K(eps) uniformly in T > 0 and mu; the gluon and ghost loops equal their high-temperature term up to eps T^2 + K(eps). Hence along every curve on which D = (Nc + nf/2) T^2 + 3 nf mu^2/(2 pi^2) grows without bound the inverse gluon propagators are asymptotically 16 pi^2/(3 Nc) h D. In examples/qcd_gluon_propagator_asymptotics.rs the two compared functions differ asymptotically, for T -> infinity at fixed mu and for mu -> infinity at fixed T, by ln(32 pi^2/9 (1 - pi/4)), independent of nc, nf, T, mu, which rounds to the 2.02 used by the program; every call restores the numbers of colours and flavours.", "quantifier": "all exact integrators, frequencies, momenta, masses, renormalization constants, colours, flavours, field configurations, and all curves (T, mu) along any filter", "why_tests_cant": "The program plots four points per curve; the claim is about the limits and all nc, nf.", "anchors": ["qcd-sme/examples/qcd_gluon_propagator_asymptotics.rs:12-108", "qcd-sme/src/qcd/thermal.rs", "qcd-sme/src/ym/thermal.rs"]}
{"id": "C87", "title": "Failure and success of the root search for the chemical potential", "statement": "With exact arithmetic and an exact integration routine, chemical_potential(m, beta, n) panics at every sufficiently low temperature whenever tol < |n| < |m| (both guesses inside the mass gap: the secant steps alternate between the flat and the steep part of the density), although the chemical potential exists, is unique and tends to chemical_potential_zero_temp(m, n). For massless quarks at high temperature the search succeeds and the result is within 3 beta^2 tol/Nc of the exact one.", "quantifier": "all exact integrators, masses, densities, tolerances, numbers of colors", "why_tests_cant": "Whether 1000 secant steps suffice is a statement about all parameters; the tests evaluate a few warm points.", "anchors": ["qcd-sme/src/qcd/thermal.rs: quark::chemical_potential_with_method, quark::chemical_potential", "qcd-sme/src/utils.rs: find_root"]}
{"id": "C88", "title": "Sampling grids of the programs in binary64", "statement": "In IEEE binary64, points min + step*k and min + range*k/n are finite, non-decreasing, start exactly at min and are within a few roundings of the exact values; a truncated number of steps ends the grid between one step below the maximum and one rounding above it, a rounded number within half a step, a divided range at the maximum. For every grid of the example and command-line programs the number of points and each point (within 1e-13) are as listed, strictly increasing; the grid of qcd_gluon_polarization_quark_integrand.rs has 1900 instead of 1901 points and therefore not the requested spacing. Labels in MeV are right for every whole number of MeV up to 1 GeV.", "quantifier": "all finite parameters without overflow, all indices up to 2^53; all points of all grids of the programs", "why_tests_cant": "Truncation of a rounded quotient depends on the last bit; the programs are not run by the tests.", "anchors": ["qcd-sme/examples/*.rs", "tc_long_prop/src/bin/one_mass_overall.rs", "tc_long_prop/src/bin/two_masses_overall.rs", "tc_long_prop/src/bin/physical_tc.rs:184-189, 600-610"]}
{"id": "C89", "title": "Plots and tables of the example programs", "statement": "qcd_quark_charge_density.rs, qcd_quark_chemical_potential.rs, qcd_gluon_propagator.rs, qcd_gluon_propagator_compare.rs, qcd_gluon_polarization_quark.rs, qcd_gluon_polarization_quark_integrand.rs, qcd_gluon_quark_polarization.rs, qed_htl_limit.rs and ym_thermal_gluon_propagator.rs plot and write what their legends and file names say: each curve holds the function at the named parameters at each point of the domain, detail plots are the middle part of the curves, plotted chemical potentials solve their equation, density curves are increasing and odd, curves labelled by temperature 0 or momentum 0 are the limits of the others, the vacuum curves with their shift of f0 have the asymptotics of a plain propagator, the photon curves agree with the hard-thermal-loop reference at high temperature for three colours and have no imaginary part, tables are normalised to 1/mu^2 at the renormalisation point mu = 4 GeV. The density and chemical-potential programs panic on grids of less than 2500 points.", "quantifier": "all settings, all exact integrators, all grids", "why_tests_cant": "The programs are not run by the tests and their output is pictures; limits and solutions need all parameters.", "anchors": ["qcd-sme/examples/*.rs"]}
{"id": "C90", "title": "Charge density of quarks at finite and at zero temperature", "statement": "The charge density at temperature T is the average of the zero-temperature charge density over the chemical potential with the weight 1/(4 cosh^2(y/2)) at mu + yT. Hence, at fixed positive chemical potential it increases with temperature and exceeds the zero-temperature one; at fixed positive density the chemical potential falls with temperature, below chemical_potential_zero_temp; above the quark mass it is the zero-temperature density plus Nc (2 mu^2 - m^2)/(6 sqrt(mu^2 - m^2)) T^2 up to O(T^3); below the mass it is exponentially small in (|m| - |mu|)/T. The curves of qcd_quark_charge_density.rs at positive chemical potential lie in the order of their temperatures.", "quantifier": "all masses, chemical potentials, temperatures, settings, methods, all exact integrators", "why_tests_cant": "The tests compare a few values; the identity relates two functions implemented independently, for all parameters, and the comparisons are between all pairs of temperatures.", "anchors": ["qcd-sme/src/qcd/thermal.rs:297-392", "qcd-sme/examples/qcd_quark_charge_density.rs:40-54"]}
{"id": "C91", "title": "Whole runs of the phase-diagram program", "statement": "The corrected tables of physical_tc are put together from the tables of two plain runs, with the uncorrected masses at confined points and with the corrected masses at deconfined points; with equal masses the corrected outputs repeat the uncorrected ones; beyond the end of the boundary the corrected critical temperature is the one of a plain run with the corrected masses; the correction does not lower the critical temperature (true on strictly falling boundaries, false on plateaus); the parameters of the fit of the corrected phase diagram describe the corrected boundary (they describe the uncorrected one and do not depend on the corrected masses).", "quantifier": "all inputs, all integration routines, all fits, all propagators", "why_tests_cant": "The program has no tests; the claims compare outputs of runs with different inputs, for all inputs.", "anchors": ["tc_long_prop/src/bin/physical_tc.rs:582-731", "tc_long_prop/src/lib.rs:139-183"]}
{"id": "C92", "title": "The polynomial fit of the phase boundary", "statement": "parametrize_phase_boundary hands the optimizer a model function with the value of the polynomial and the Jacobian mu^j; with an optimizer that returns optima it returns the least-squares polynomial of degree n through the points before the first vanishing critical temperature and plots it at these points; it panics exactly if the optimizer does; data behind the first zero has no influence. The fit exists, is characterised by the normal equations, is unique exactly if there are more different chemical potentials than the degree, passes through all points if there are at most n + 1, recovers exact polynomials, preserves the mean, improves with the degree and transforms with the units. In a run of physical_tc (degree 8) the written parameters are determined exactly if the boundary has at least nine points.", "quantifier": "all boundaries, degrees, parameters, optimizers and integration routines", "why_tests_cant": "The function has no tests; existence and uniqueness concern all data sets and all coefficients.", "anchors": ["tc_long_prop/src/lib.rs:49-137", "tc_long_prop/src/bin/physical_tc.rs:714-720"]}
{"id": "C93", "title": "Quadrature errors propagate linearly and boundedly", "statement": "If the integration routine is off by at most eps on the compactified thermal integrals, every integrated thermal part is off by at most eps, every inverse dressing function by at most (16 pi^2/3)/|om^2+p^2| times the sum of the weights times eps, and away from poles every dressing function and propagator by the corresponding amount over the square of the inverse dressing function. For the gluon propagators of a field configuration the factor is 1 plus the number of flavours (the number of flavours at zero temperature) and this bound is attained. The critical temperature found in data with errors up to d is one at which the true data are within 2d of their maximum, and it is the true one if the maximum is clear by more than 2d. In runs of the phase-diagram program without poles, a routine that is accurate enough gives curves and infrared data within any prescribed error, almost-maximal critical temperatures, and the same phase diagram if the exact maxima are unique.", "quantifier": "all integration routines, error bounds, kinematics, masses, temperatures, chemical potentials, field configurations and grids", "why_tests_cant": "The tests run one quadrature rule with one tolerance; the claim is about every routine with a given error.", "anchors": ["qcd-sme/src/qcd/thermal.rs", "qcd-sme/src/ym/thermal.rs", "tc_long_prop/src/lib.rs", "tc_long_prop/src/bin/physical_tc.rs"]}
{"id": "C94", "title": "The Fermi momentum in floating point", "statement": "In binary64 the Fermi momentum sqrt(mu^2-m^2), computed with a fused multiply-add, is for |mu| > |m| a finite nonnegative number with one relative rounding error each in m^2, the radicand and the root; for |mu| < |m| it is NaN or zero; at |mu| = |m|, where it should be zero, it is NaN exactly when m*m rounds up, otherwise at most 2^-26 |m|. The zero-temperature functions return zero for |mu| < |m| and integrate up to the Fermi momentum otherwise, so the integration routine gets NaN as a limit only at |mu| = |m|. The zero-temperature charge density is always finite, has the sign of mu, is zero for |mu| <= |m|, and away from underflow is accurate to 2^-49 relative to the Fermi momentum used. A NaN integral of one quark makes the propagator and the infrared data at zero temperature NaN. In the default configuration of the phase-diagram program this occurs at mu = 0.45 on the grids with 81 and 33 chemical potentials, and at mu = 0.225 for the corrected masses on the second one; with a routine that returns NaN for a NaN limit the phase boundary ends before mu = 0.45 whatever the data.", "quantifier": "all finite binary64 masses and chemical potentials up to 2^500 (2^250 for the charge density), all integration routines, quark lists and data", "why_tests_cant": "Whether a square rounds up depends on the last bit of the mass; tests at a few masses see either case, and no test compares the limit with the threshold.", "anchors": ["qcd-sme/src/common/thermal.rs", "qcd-sme/src/qcd/thermal.rs", "tc_long_prop/src/bin/physical_tc.rs", "tc_long_prop/src/lib.rs"]}
{"id": "C95", "title": "Thermal distributions and energies in floating point", "statement": "In binary64, with any exponential that is never negative or NaN, Fermi distributions are finite numbers between 0 and 1 for all finite energies, chemical potentials and positive beta, even when the exponential or its argument overflows; the particle-antiparticle sum is between 0 and 2 and even in mu to the last bit; at zero temperature they are exact. With an exponential of relative error at most 2^-52 the Fermi distributions at x = beta (en - mu), |x| <= 500, have a relative error of at most (3 + 5|x|) 2^-52, and the Bose distribution for 2^-40 <= x <= 500 one of at most (3 + 5x)(1 + 1/x) 2^-52. The Bose distribution is never negative or NaN for energies not below the chemical potential if the exponential is at least 1 for nonnegative arguments. It is finite for positive x: this fails, with a correctly rounded exponential it is infinite for all x up to 2^-55. Energies sqrt(p^2+m^2) have a relative error of at most 2^-51.", "quantifier": "all finite binary64 arguments in the stated ranges, all exponentials with the stated properties", "why_tests_cant": "The ranges where cancellation or overflow matter depend on the magnitude of the arguments and on the platform's exponential; tests compare a few values with a tolerance.", "anchors": ["qcd-sme/src/common/thermal.rs", "qcd-sme/src/common/mod.rs", "qcd-sme/src/low_level/common/mod.rs", "qcd-sme/src/types.rs"]}
{"id": "C96", "title": "Phase classification in floating point", "statement": "In binary64 is_deconfined_phase gives, for every table of finite moderate numbers with increasing chemical potentials, the answer of exact arithmetic unless the temperature is within 10 roundings (relative to the two neighbouring temperatures) of the interpolated critical temperature; it panics exactly where exact arithmetic does; at tabulated chemical potentials, at zero temperature and beyond the table it is exact. A point gets the same phase on the coarse grid of the corrected propagators and on the fine grid of the boundary: with the default grids this holds at the nonzero temperatures as long as the boundary goes on beyond the point, but fails at mu = 0.3 and mu = 0.6 if the boundary ends there, because 0.1*3 and 0.1*6 are one rounding above 0.01*30 and 0.01*60.", "quantifier": "all finite binary64 tables, chemical potentials and temperatures in the stated ranges; all falling boundaries on the default grids", "why_tests_cant": "The equality tests on floating-point chemical potentials and temperatures fail or succeed depending on the rounding of grid points; the tests have no phase boundary data.", "anchors": ["tc_long_prop/src/lib.rs: is_deconfined_phase, reduce_phase_boundary", "tc_long_prop/src/bin/physical_tc.rs: compute_vec, main"]}
{"id": "C97", "title": "Fitted phase boundary in floating point", "statement": "In binary64 parametric_phase_diagram evaluates the fitted polynomial of degree n to a finite number whose error is at most 4n+2 roundings (2^-53) of the sum of the magnitudes of its terms, plus 4n+2 times 2^-1075; for non-negative coefficients this is relative to the value itself. At zero chemical potential the result is exactly the constant coefficient. It panics exactly for an empty coefficient list.", "quantifier": "all finite chemical potentials of magnitude at most 1, all lists of finite coefficients of magnitude at most 2^100, all degrees up to 2^19", "why_tests_cant": "The rounding error of the nested evaluation depends on all coefficients and on the degree; no test evaluates the polynomial.", "anchors": ["tc_long_prop/src/lib.rs: parametric_phase_diagram"]}
{"id": "C98", "title": "Critical temperature in floating point", "statement": "On binary64 propagators that may overflow or be NaN, find_critical_temperature returns the temperature beside the first of the largest propagators, passing over NaNs, provided that the first propagator is not a NaN; if it is, the first temperature is returned whatever follows. On finite propagators the result is that of exact arithmetic, and it panics exactly if one of the lists is empty.", "quantifier": "all lists of binary64 temperatures and propagators, including infinities and NaNs", "why_tests_cant": "No test contains propagators that are NaN or infinite, and the choice depends on the comparison of all pairs of entries.", "anchors": ["tc_long_prop/src/lib.rs: find_critical_temperature"]}
{"id": "C99", "title": "Numerical residues in floating point", "statement": "In binary64 compute_residue, with its step of 1e-12, finds the residue one of 1/(x-z) at z with an error of at most (|z|+1)/4000 for |z| up to 1000, also at complex z, with the real part of z in place of z. At z = 10000 it finds less than 0.55. From |z| = 32768 on (up to 2^1000) z + eps and z - eps are both z, so that the result is not finite for any function whatever, and at complex points with a real part of that size both parts are NaN.", "quantifier": "all binary64 points of the stated magnitude; for the last claim all functions and all steps below 2^-39", "why_tests_cant": "The loss of the step depends on the magnitude of the point; no test computes residues.", "anchors": ["qcd-sme/src/utils.rs: compute_residue_with_eps, compute_residue"]}
{"id": "C100", "title": "Numerical spectral functions in floating point", "statement": "In binary64 spectral_function_with_eps, at a real point of a function that takes mirrored values at mirrored points, gives a finite number with imaginary part exactly zero and real part -Im f(x + i eps)/pi within six roundings. The step is exact there for every point and step of moderate size. At points with an imaginary part of 32768 or more the step is lost, and the result is zero or NaN for every function, also for one with a discontinuity at that line.", "quantifier": "all functions of binary64 complex numbers, all points and steps of the stated magnitude", "why_tests_cant": "The claim is about all functions and points, and about signs of zero, rounding of the shifted point and cancellation; no test computes spectral functions in floating point at such points.", "anchors": ["qcd-sme/src/utils.rs: spectral_function_with_eps, spectral_function"]}
{"id": "C101", "title": "Failure of the secant method in floating point", "statement": "In binary64, for a function that maps infinities and NaNs to infinities or NaNs, find_root never returns a root that is not finite, fails (None) from any two guesses with equal function values not below the tolerance, although a division by zero occurs, and fails from a second guess that is infinite or NaN. It does not panic in these cases for distinct guesses and a positive tolerance.", "quantifier": "all such functions, all guesses, tolerances and numbers of iterations", "why_tests_cant": "After a division by zero the iteration goes on with infinities and NaNs for the rest of its budget; no test covers it.", "anchors": ["qcd-sme/src/utils.rs: find_root"]}
