{"id": "C01", "title": "All representations of a particle's momentum agree after any history of assignments", "statement": "After any sequence of assignments to r_sp_d, r_sp_u, l_sp_d, l_sp_u, r2_sp, r2_sp_b, four_mom, four_mom_d and calls of angles_for_squares that raise no exception, r2_sp, r2_sp_b, four_mom and four_mom_d describe one and the same four-momentum (four_mom/four_mom_d may be None, but are never stale), and the raised/lowered versions of each spinor agree.", "quantifier": "every sequence of assignments, every value of the components in every field of characteristic other than 2, both spinor conventions", "why_tests_cant": "tests assign one or two attributes at random points; staleness only shows for particular orders of assignment", "anchors": ["lips/particle.py:Particle.r_sp_d/l_sp_d/r_sp_u/l_sp_u/r2_sp/r2_sp_b/four_mom/four_mom_d setters", "lips/particle.py:Particle.angles_for_squares"]}
{"id": "C02", "title": "Massless momentum determines spinors that reproduce it", "statement": "Assigning r2_sp, r2_sp_b, four_mom or four_mom_d a massless momentum with p0+p3 != 0 yields spinors with |l]<r| = r2_sp and |r>[l| = r2_sp_b, in both spinor conventions; if p0+p3 = 0 the symmetric convention stores no spinors (None) and the asymmetric one raises ZeroDivisionError.", "quantifier": "every massless momentum, both conventions, every field containing the needed square root and i", "why_tests_cant": "random momenta almost never have p0+p3 = 0 and tests check only floating-point closeness", "anchors": ["lips/particle.py:Particle._set_r_sp_d/_set_l_sp_d/_r2_sp_to_r_sp_d/_four_mom_to_r_sp_d"]}
{"id": "C03", "title": "Assigning one spinor keeps the particle on-shell and leaves the other chirality alone", "statement": "Assigning any of the four spinor attributes of a particle that has both spinors leaves the spinors of the other chirality unchanged, makes the mass exactly zero and makes r2_sp the outer product of the current spinors; assigning to one index position and reading back the same attribute returns the assigned value.", "quantifier": "every particle state with both spinors defined, every assigned value", "why_tests_cant": "the four setters share code by copy and paste; a sign or transposition slip in one survives tests of the others", "anchors": ["lips/particle.py:Particle.r_sp_d/l_sp_d/r_sp_u/l_sp_u setters"]}
{"id": "C04", "title": "Mass squared is the determinant of the rank two spinor and the Minkowski square", "statement": "In every state reachable as in C01, m2 (lsq) equals det(r2_sp), equals det(r2_sp_b), equals E^2-p1^2-p2^2-p3^2 of four_mom when that is defined, and ldot(A,B) is the Minkowski product, symmetric and bilinear.", "quantifier": "every reachable particle state, massless or massive", "why_tests_cant": "identity between differently coded quantities must hold at every point, tests sample random points up to tolerance", "anchors": ["lips/particle.py:Particle.lsq/m2", "lips/tools.py:ldot", "lips/particles_compute.py:Particles_Compute.ldot"]}
{"id": "C05", "title": "Particle arithmetic acts linearly on momenta", "statement": "p+q, p-q, c*p, p*c, p/c, -p and sum() over a list of particles return a particle whose r2_sp is the corresponding linear combination of the operands' r2_sp; 0+p and p+0 return p with its spinors; == holds exactly when the momenta are equal; operands are not modified; division by zero raises.", "quantifier": "all pairs/lists of particle states and scalars, including massive sums and sums with p0+p3=0", "why_tests_cant": "tests use a handful of random particles; corner cases (zero sums, zero p0+p3) are measure zero", "anchors": ["lips/particle.py:Particle.__add__/__radd__/__sub__/__mul__/__truediv__/__neg__/__eq__"]}
{"id": "C06", "title": "Equal objects have equal hashes", "statement": "If two Particle (or Particles) objects compare equal with ==, then hash() gives the same value for both.", "quantifier": "all pairs of particle states", "why_tests_cant": "tests never hash little-group-rescaled copies; the contract quantifies over all equal pairs", "anchors": ["lips/particle.py:Particle.__eq__/__hash__", "lips/particles.py:Particles.__eq__/__hash__"]}
{"id": "C07", "title": "angles_for_squares is an involution exchanging the two kinds of brackets", "statement": "angles_for_squares applied twice restores every observable of the particle; applied once to all particles it maps <a|b> to [b|a] and [a|b] to <b|a>, and every closed spinor chain to the reversed chain with brackets exchanged, and it preserves every mass, every s_ijk, every Gram determinant, momentum conservation and on-shellness, and flips tr5.", "quantifier": "all phase space points, all chains of any length", "why_tests_cant": "chains have unbounded length and points are continuous", "anchors": ["lips/particle.py:Particle.angles_for_squares", "lips/particles.py:Particles.angles_for_squares", "lips/particles_compute.py:compute"]}
{"id": "C08", "title": "Particles is a base-one list", "statement": "oPs[i] for 1<=i<=n is the i-th particle, assignment and deletion at i affect exactly that position, insert at i (1<=i<=n) puts the value at position i and shifts the rest, and any integer index outside 1..n (including 0, negatives and insertion at n+1) raises IndexError leaving the list unchanged.", "quantifier": "all lists, all integer indices, all sequences of operations", "why_tests_cant": "off-by-one errors at the ends and for negative indices require all indices and histories", "anchors": ["lips/tools.py:indexing_decorator", "lips/particles.py:Particles.__getitem__/__setitem__/__delitem__/insert"]}
{"id": "C09", "title": "Equality of phase space points is an equivalence relation", "statement": "Particles == Particles is reflexive, symmetric and transitive, never raises, and holds exactly when both points have the same number of particles with pairwise equal momenta.", "quantifier": "all pairs of phase space points of all multiplicities", "why_tests_cant": "tests only compare points of equal multiplicity", "anchors": ["lips/particles.py:Particles.__eq__"]}
{"id": "C10", "title": "fix_mom_cons (complex) restores momentum conservation exactly", "statement": "For distinct A, B in 1..n with [A|B] != 0 (axis=1) or <A|B> != 0 (axis=2), fix_mom_cons(A,B,axis=axis) returns a point with total momentum exactly zero in which A and B are massless, all other particles are unchanged and the spinors of A and B of the untouched chirality are unchanged; if that bracket vanishes it raises ZeroDivisionError.", "quantifier": "all multiplicities n>=2, all A != B, all points, all exact fields", "why_tests_cant": "must hold for every multiplicity, pair and point, exactly rather than to tolerance", "anchors": ["lips/particles.py:Particles.fix_mom_cons"]}
{"id": "C11", "title": "fix_mom_cons (real momenta) restores momentum conservation with light-like legs", "statement": "For distinct A, B and axis in 1..3, with K the sum of the other momenta and K0 != K_axis, fix_mom_cons(A,B,real_momenta=True,axis=axis) gives total momentum exactly zero, both A and B massless, all others unchanged, and if all other momenta are real then so are those of A and B.", "quantifier": "all multiplicities n>=3, all A != B, all axes, all points", "why_tests_cant": "as C10; also reality is a closed condition random tests cannot certify", "anchors": ["lips/particles.py:Particles.fix_mom_cons"]}
{"id": "C12", "title": "Freshly generated phase space points are on-shell and conserve momentum", "statement": "If Particles(n, field=F) (for a field whose spinors are drawn at random) or randomise_all returns normally, then the point has n particles, all exactly massless, with total momentum exactly zero, whatever random numbers were drawn and whatever pair of legs was used.", "quantifier": "all n, all outcomes of the random draws, both axes", "why_tests_cant": "depends on all random draws, including degenerate ones", "anchors": ["lips/particles.py:Particles.__init__/randomise_all/fix_mom_cons", "lips/particle.py:Particle.randomise_spinors_in_field"]}
{"id": "C13", "title": "image permutes legs and is a group action", "statement": "For a permutation string of 1..n (n<=9) and a point with pairwise different momenta, particle perm[i] of oPs.image(perm) is particle i of oPs; image by the identity is the same point, image by perm then by inverse(perm) restores the point, images compose, and the conjugation flag composes by exclusive or and commutes with permutations.", "quantifier": "all n<=9, all permutations, all points with distinct momenta", "why_tests_cant": "n! permutations times a continuum of points", "anchors": ["lips/particles.py:Particles.image", "lips/symmetries.py:inverse/identity"]}
{"id": "C14", "title": "copy() returns an equal point for every multiplicity", "statement": "oPs.copy() has the same particles in the same order as oPs, for every multiplicity and every point.", "quantifier": "all multiplicities, all points (also with coinciding momenta)", "why_tests_cant": "tests stop at small multiplicity and generic momenta", "anchors": ["lips/particles.py:Particles.copy/image", "lips/symmetries.py:identity"]}
{"id": "C15", "title": "Relabelling a spinor string and permuting the point commute", "statement": "Evaluating on oPs.image(perm) the string obtained by replacing every leg i by perm(i) gives the value of the original string on oPs; with the conjugation flag set, the value of the bracket-exchanged reversed string.", "quantifier": "all strings (chains of any length, s, traces, Gram determinants), all permutations, all points", "why_tests_cant": "unbounded strings times n! permutations", "anchors": ["lips/particles.py:Particles.image", "lips/particles_compute.py:compute"]}
{"id": "C16", "title": "Clustering preserves momentum and invariants of the corners", "statement": "oPs.cluster(corners) has one particle per corner whose momentum is the sum over the corner; a one-leg corner keeps its spinors; if the corners partition the legs the total momentum is unchanged; s_I, chains and Gram determinants over clusters equal those over the union of the corners; oPs is unchanged.", "quantifier": "all points, all lists of corners of any size", "why_tests_cant": "corners range over all partitions", "anchors": ["lips/particles.py:Particles.cluster"]}
{"id": "C17", "title": "Massive fermion clusters satisfy the Dirac equation and completeness", "statement": "For a two-leg corner declared as massive fermion with spin index up or down, P|i^I> = m |i^I] type relations hold for each value of the index with the same mass m, m^2 up to sign is the mass squared of the cluster, and the sum over the spin index of |i^I>[i_I| reproduces the momentum.", "quantifier": "all points, all two-leg corners, both index positions and values", "why_tests_cant": "signs and index conventions must be right at all points", "anchors": ["lips/particles.py:Particles.cluster"]}
{"id": "C18", "title": "Mass aliases keep their value under clustering", "statement": "If an internal mass is declared as an alias string s_I, then after cluster(corners) compute of that mass gives the same value as before whenever the union I is expressible by corners.", "quantifier": "all alias strings, all clusterings", "why_tests_cant": "tests try one alias which is exactly a corner", "anchors": ["lips/particles.py:Particles.cluster", "lips/tools.py:subs_dict", "lips/particles_compute.py:compute"]}
{"id": "C19", "title": "Two-particle spinor products obey antisymmetry, Schouten and s_ij = <ij>[ji]", "statement": "compute of <a|b> and [a|b] is antisymmetric, vanishes for a=b, satisfies the Schouten identity for any four legs, and for massless legs compute('s_ab') = <a|b>[b|a] = 2 p_a.p_b.", "quantifier": "all points, all legs", "why_tests_cant": "identities at all points, exactly", "anchors": ["lips/particles_compute.py:compute (pA2,pS2,pSijk branches)"]}
{"id": "C20", "title": "Spinor chains are multilinear, factorise on massless legs and reverse with the right sign", "statement": "compute of a chain is additive in each slash entry, a single massless momentum k inside a chain splits it into the product of two chains, and reversing a chain (with brackets exchanged as appropriate) multiplies it by -1 if its two ends are of the same kind and by +1 otherwise.", "quantifier": "chains of every length, all entries (sums and differences of legs), all points", "why_tests_cant": "unbounded chain length", "anchors": ["lips/particles_compute.py:compute (pNB branch)"]}
{"id": "C21", "title": "Momentum conservation can be used inside invariants", "statement": "On a point with zero total momentum, replacing a slash entry by minus the complementary set of legs leaves every chain unchanged, adding to the first (last) entry the massless leg at that end of the chain changes nothing, s_I = s_{complement of I}, and sum_j <a|j>[j|b] = 0.", "quantifier": "all n, all subsets, all chains, all momentum conserving points", "why_tests_cant": "subsets and chain lengths unbounded", "anchors": ["lips/particles_compute.py:compute", "lips/particles.py:Particles._complementary"]}
{"id": "C22", "title": "Little group covariance", "statement": "Rescaling |i> by t and |i] by 1/t for any leg leaves s, traces, tr5 and Gram determinants unchanged and multiplies a chain with ends a, b by the product of the weights of its ends.", "quantifier": "all legs, all t != 0, all strings, all points", "why_tests_cant": "continuum of t, points and unbounded strings", "anchors": ["lips/particles_compute.py:compute", "lips/particle.py:setters"]}
{"id": "C23", "title": "Every closed string is Lorentz invariant", "statement": "Transforming all left spinors by one SL(2) matrix and all right spinors by another leaves compute of every closed string (brackets, chains, s, even traces, tr5, Gram determinants, Omega, Pi, delta5) unchanged.", "quantifier": "all pairs of unimodular matrices, all closed strings, all points", "why_tests_cant": "this is the defining property of the package and quantifies over a continuous group and all strings", "anchors": ["lips/particles_compute.py:compute"]}
{"id": "C24", "title": "Mismatched brackets are rejected, and ASCII brackets mean the same as unicode ones", "statement": "compute of a chain raises SyntaxError exactly when the closing bracket does not fit the opening one and the number of entries; replacing unicode angle brackets by < and > never changes the value.", "quantifier": "all chains, all four bracket combinations and ASCII variants", "why_tests_cant": "the tests never use ASCII brackets in chains", "anchors": ["lips/particles_compute.py:compute", "lips/tools.py:pNB"]}
{"id": "C25", "title": "tr5 is linear and totally antisymmetric in its four momenta", "statement": "compute of tr5 is additive in each of its four entries, changes sign under exchange of two entries and vanishes if two entries coincide, also when some entries are sums of legs.", "quantifier": "all points, all entries (single legs or sums of legs)", "why_tests_cant": "tests evaluate tr5 with a massive first entry at most against itself", "anchors": ["lips/particles_compute.py:compute (ptr5 branch)"]}
{"id": "C26", "title": "Traces: cyclicity, reversal and relation to dot products", "statement": "For an even number of entries tr(P1|...|P2k) is invariant under cyclic rotation by two entries and under reversal of the entries, tr(P|Q) = 2 P.Q, and tr(a|b|c|d)-tr(b|c|d|a) = tr5 of the same entries.", "quantifier": "all even lengths, all entries, all points", "why_tests_cant": "unbounded lengths", "anchors": ["lips/particles_compute.py:compute (ptr branch)"]}
{"id": "C27", "title": "delta5 is the square of tr5 at five points", "statement": "On every five-particle massless momentum-conserving point compute('δ5') = compute('tr5_1234')**2, so the two notions of the five-point Gram determinant agree.", "quantifier": "all five-point phase space points over all fields", "why_tests_cant": "polynomial identity on a variety; random tests only give probabilistic evidence for one field", "anchors": ["lips/particles_compute.py:compute (pd5, ptr5 branches)"]}
{"id": "C28", "title": "Gram determinants do not depend on how the corners are listed", "statement": "Δ_{K1|...|Kn} is invariant under every permutation of its corners when the corners sum to zero, is invariant under permutations of the first n-1 corners always, for three corners equals (K1.K2)^2-K1^2 K2^2, and the deprecated shorthand Δ_ijk gives the value of the three-corner form for the corresponding adjacent corners.", "quantifier": "all numbers of corners, all permutations, all momentum conserving points", "why_tests_cant": "n! orders and unbounded n", "anchors": ["lips/particles_compute.py:compute (pDijk branch)", "lips/tools.py:det"]}
{"id": "C29", "title": "det computes the determinant", "statement": "det(M) equals the mathematical determinant (sum over permutations) for every square matrix of size at least 1.", "quantifier": "all sizes, all entries", "why_tests_cant": "tests use 2x2 and 3x3 at most", "anchors": ["lips/tools.py:det"]}
{"id": "C30", "title": "The shorthand ijk always denotes a partition of the legs into three arcs", "statement": "ijk_to_3NonOverlappingLists(ijk) terminates and returns three pairwise disjoint lists covering 1..n, each consisting of cyclically consecutive legs starting at i, j, k.", "quantifier": "all n, all i, j, k", "why_tests_cant": "termination on out of range labels cannot be tested", "anchors": ["lips/particles.py:Particles.ijk_to_3NonOverlappingLists", "lips/particles_compute.py:compute (Δ_ijk, Ω_ijk, Π_ijk)"]}
{"id": "C31", "title": "Complement of a list of legs", "statement": "_complementary(l) returns in increasing order exactly the legs of 1..n that are not in l; applied twice to a subset it returns the subset; momentum of l plus momentum of the complement is the total momentum.", "quantifier": "all n, all nonempty lists with any nesting or repetition", "why_tests_cant": "all subsets of all sizes", "anchors": ["lips/particles.py:Particles._complementary"]}
{"id": "C32", "title": "Omega and Pi invariants have their documented meaning", "statement": "Π_ijk and Ω_ijk evaluate to the documented combinations of Mandelstam invariants of the three arcs, e.g. Π_351 = s_123 - s_124 on six legs, and at momentum-conserving points Ω_ijk/Π_ijk are related to the chains they arise from.", "quantifier": "all n, all distinct i, j, k, all points", "why_tests_cant": "arcs vary with n and ijk", "anchors": ["lips/particles_compute.py:compute (pOijk, pPijk branches)"]}
{"id": "C33", "title": "Changing the number field commutes with evaluation", "statement": "If the components of all spinors are mapped to another field by to_field through a map that respects +,-,*,0,1 (for example reduction modulo p of p-integral rationals), then compute of every closed string on the mapped point is the image of compute on the original point.", "quantifier": "all points, all strings, all such maps", "why_tests_cant": "tests compare one string for one prime", "anchors": ["lips/particles.py:Particles.to_field", "lips/particle.py:Particle.to_field", "lips/particles_compute.py:compute"]}
{"id": "C34", "title": "Setting a two-bracket invariant", "statement": "_set('<A|B>', X) (and '[A|B]') on n>=4 particles, when it returns, leaves <A|B> exactly equal to X, conserves momentum exactly, keeps all legs massless, and changes only A's spinor and the two legs used to restore momentum conservation.", "quantifier": "all n>=4, all A != B, all X, all points", "why_tests_cant": "all points, legs and targets exactly", "anchors": ["lips/hardcoded_limits/particles_set.py:_set_A2/_set_S2/_set_inner"]}
{"id": "C35", "title": "Setting a longer spinor chain", "statement": "_set of a chain invariant to X, when the generic branch conditions hold and the relevant denominators are non-zero, leaves the chain exactly equal to X with momentum conserved and all legs massless.", "quantifier": "all chain lengths, entries and points", "why_tests_cant": "unbounded chain length and many branches", "anchors": ["lips/hardcoded_limits/particles_set.py:_set_NB"]}
{"id": "C36", "title": "Setting a Mandelstam invariant", "statement": "_set('s_I', X) leaves s_I exactly equal to X with momentum conserved and all legs massless whenever it returns.", "quantifier": "all n, all I, all X, all points", "why_tests_cant": "all subsets and points exactly", "anchors": ["lips/hardcoded_limits/particles_set.py:_set_Sijk"]}
{"id": "C37", "title": "Setting a three-mass Gram determinant", "statement": "_set('Δ_ijk', X) leaves the Gram determinant exactly equal to X with momentum conserved and all legs massless whenever the square root and denominators it needs exist.", "quantifier": "all n>=6, all ijk, all X, all points", "why_tests_cant": "roots of a quadratic whose coefficients are long hard coded expressions", "anchors": ["lips/hardcoded_limits/particles_set.py:_set_Dijk"]}
{"id": "C38", "title": "Setting Omega and Pi invariants", "statement": "_set('Ω_ijk', X) and _set('Π_ijk', X) leave the invariant exactly equal to X with momentum conserved and all legs massless whenever the roots and denominators they need exist.", "quantifier": "all ijk and points at six legs", "why_tests_cant": "hard coded polynomials", "anchors": ["lips/hardcoded_limits/particles_set.py:_set_Oijk/_set_Pijk"]}
{"id": "C39", "title": "Setting tr5 and five-bracket differences", "statement": "_set('tr5_ijkl', X) and _set('(<a|b|c+d|e|a]-<b|f|c+d|e|b])', X) leave the invariant exactly equal to X with momentum conserved and all legs massless whenever they return.", "quantifier": "all n>=5, all labels, all X, all points", "why_tests_cant": "hard coded five-point solution with hundreds of terms", "anchors": ["lips/hardcoded_limits/particles_set.py:_set_tr5/_set_p5Bdiff"]}
{"id": "C40", "title": "A setter that returns has achieved its goal", "statement": "If _set, _set_pair or variety returns without an exception then the point conserves momentum, every leg is massless and the requested invariants have the requested values (up to sign for variety in characteristic zero, zero for variety in a finite field).", "quantifier": "all points, invariants, targets and all behaviours of the inner solvers", "why_tests_cant": "the checks must be complete for every path through the solvers", "anchors": ["lips/hardcoded_limits/particles_set.py:_set", "lips/hardcoded_limits/particles_set_pair.py:_set_pair", "lips/particles_variety.py:variety"]}
{"id": "C41", "title": "variety hands the original point to the fallback solver", "statement": "If the hard coded setter fails at any point during its work, the algebraic solver of variety is started from exactly the particles present when variety was called.", "quantifier": "all points at which the hard coded setter can fail, all partial modifications it may have made", "why_tests_cant": "failure can occur after any partial modification", "anchors": ["lips/particles_variety.py:variety"]}
{"id": "C42", "title": "phase_weights_compatible_symmetries returns exactly the compatible symmetries", "statement": "The returned list contains (perm, False) exactly for permutations preserving the phase weights and (perm, True) exactly for permutations that negate but do not preserve them, each once.", "quantifier": "all lists of weights of length at most 9", "why_tests_cant": "all weights and permutations", "anchors": ["lips/symmetries.py:phase_weights_compatible_symmetries"]}
{"id": "C43", "title": "inverse and identity behave as in the symmetric group", "statement": "inverse is an involution on permutation strings, inverse(perm) composed with perm is the identity, inverse of the identity is the identity, and all_symmetries(n) lists every permutation once, all without conjugation.", "quantifier": "all n<=9 and all permutations", "why_tests_cant": "n! permutations", "anchors": ["lips/symmetries.py:inverse/identity/all_symmetries"]}
{"id": "C44", "title": "Symmetries act consistently on ideals and on phase space points", "statement": "The image of a covariant polynomial under a rule evaluated on the image of a point under the same rule equals the original polynomial on the original point; for invariant polynomials the same holds without conjugation and up to the sign (-1)^degree with conjugation.", "quantifier": "all polynomials, permutations and points, n<=9", "why_tests_cant": "unbounded polynomials", "anchors": ["lips/algebraic_geometry/covariant_ideal.py:covariant_poly_image", "lips/algebraic_geometry/invariant_ideal.py:invariant_poly_image", "lips/particles.py:Particles.image"]}
{"id": "C45", "title": "The generated list of invariants is complete and free of repetitions", "statement": "Invariants(n) contains every <i|j>, [i|j] with i<j exactly once (only <i|j> for n=4), every s_I with 3<=|I|<=n/2 exactly once up to complement, every tr5 of four legs not involving n exactly once, and every adjacent three-mass Gram determinant with corners of size at least two exactly once up to relabelling.", "quantifier": "all n up to 9", "why_tests_cant": "counting arguments over all subsets", "anchors": ["lips/invariants.py:all_strings/recurse_s_ijk_gen/generate_D_ijk/generate_tr5_ijkls"]}
{"id": "C46", "title": "Invariants(n, options) does not depend on previous calls or crashes", "statement": "The result of Invariants(n, options) is a function of n and the options only: it is the same whether or not other Invariants objects were created before, with whatever options, and a crash or exception in an earlier call never makes a later call fail.", "quantifier": "all histories of calls with all options, all crash points during generation and cache writing", "why_tests_cant": "histories and crash points are unbounded", "anchors": ["lips/invariants.py:Invariants.__init__"]}
{"id": "C47", "title": "phasespace_consistency_check reports exactly the outliers", "statement": "The check terminates, pairs every invariant with its own value, returns as small outliers exactly the invariants with modulus at most the threshold in increasing order and as big outliers exactly those with modulus at least its inverse, and does not modify the caller's list.", "quantifier": "all lists of invariants and values", "why_tests_cant": "hand written bubble sort with early exit, all inputs", "anchors": ["lips/particles.py:Particles.phasespace_consistency_check"]}
{"id": "C48", "title": "Internal masses are remembered and retrievable", "statement": "For internal_masses given as dict, set, list or tuple of names, and for later attribute assignments, every mass name is listed in internal_masses and compute(name) returns its value; two points never share their bookkeeping.", "quantifier": "all sequences of constructions and assignments", "why_tests_cant": "aliasing between objects needs histories", "anchors": ["lips/particles.py:Particles.__init__/__setattr__/internal_masses_dict", "lips/particles_compute.py:compute (pMVar branch)"]}
{"id": "C49", "title": "Twistor generated points are physical", "statement": "If randomise_twistor returns, all momenta are massless and the total momentum is exactly zero, for any number of particles and any random twistors.", "quantifier": "all n, all twistors with non-vanishing adjacent products", "why_tests_cant": "telescoping sum over any n", "anchors": ["lips/particles.py:Particles.randomise_twistor", "lips/particle.py:randomise_twist/comp_twist_x/twist_x_to_mom"]}
{"id": "C50", "title": "Polarisation contractions are transverse and gauge consistent", "statement": "ep(i,i)=0, the sum over j of ep(i,j) vanishes on momentum-conserving points, ep(i,j) is linear in p_j, ee(i,j)=ee(j,i), ee vanishes for equal helicities, changing the reference vector shifts ep(i,j) by a multiple of p_i.p_j, and the functions return for every helicity configuration written with the accepted symbols.", "quantifier": "all points, helicities and reference vectors", "why_tests_cant": "all points and all mixtures of the accepted symbols", "anchors": ["lips/particles_compute.py:ep/pe/ee"]}
{"id": "C51", "title": "Numeric sub-expressions are evaluated with the usual precedence", "statement": "Evaluating an arithmetic expression of integers and invariants built with +,-,*,/,^ and parentheses gives its usual mathematical value.", "quantifier": "all expressions", "why_tests_cant": "unbounded expressions; the textual folding of fractions interacts with precedence", "anchors": ["lips/particles_eval.py:_parse/_eval_node"]}
{"id": "C52", "title": "Points returned by image and copy are independent of the original", "statement": "Mutating a point returned by image or copy never changes the original and vice versa, for every later sequence of mutations of either.", "quantifier": "all sequences of mutations through either object", "why_tests_cant": "aliasing needs all histories", "anchors": ["lips/particles.py:Particles.image/copy/__getitem__/cluster"]}
{"id": "C53", "title": "Saving a phase space point never destroys an earlier one", "statement": "Each call of save_phase_space_point writes a new file, leaving earlier saved points intact.", "quantifier": "all numbers of calls", "why_tests_cant": "needs three calls", "anchors": ["lips/particles.py:Particles.save_phase_space_point"]}
{"id": "C54", "title": "Setting pairs of two-bracket invariants", "statement": "_set_pair of two two-bracket invariants, when it returns, leaves both exactly at their targets with momentum conserved and all legs massless.", "quantifier": "all n, legs, targets and points, shared or disjoint legs", "why_tests_cant": "many leg coincidence patterns", "anchors": ["lips/hardcoded_limits/particles_set_pair.py:_set_pair_A2_and_A2 etc."]}
{"id": "C55", "title": "Univariate slices", "statement": "If the shift coefficients solve the equations univariate_slice builds, then for every value of t the sliced point is on-shell and conserves momentum, and every <i|j> and [i|j] is affine in t.", "quantifier": "all t, all n, all solutions of the equations", "why_tests_cant": "holds for all t", "anchors": ["lips/particles_slices.py:univariate_slice"]}
{"id": "C56", "title": "Strings are computed as what they show", "statement": "compute applied to a string in any of its documented forms (two-brackets, spinors, chains, open chains, s, m, tr, tr5, Delta, Omega, Pi, delta5), in unicode or ascii, with ordinary or bold digits, returns the value of the invariant written in the string, and no string shows two invariants.", "quantifier": "all strings of all forms, all labels, all numbers and sizes of entries, all points", "why_tests_cant": "19 regular expressions are tried in order on strings of any length; tests try a few strings of each form", "anchors": ["lips/particles_compute.py:compute", "lips/tools.py:ptr5..pMVar, bold_digits, rsubs_dict"]}
{"id": "C57", "title": "Chains are taken apart and put together without loss", "statement": "_lNB_to_string writes the chain with the given brackets, labels and middle parts, and _get_lNB applied to it returns the same labels and parts.", "quantifier": "all labels, all numbers and sizes of middle parts, all brackets", "why_tests_cant": "round trip over unbounded strings", "anchors": ["lips/particles.py:_lNB_to_string/_get_lNB"]}
{"id": "C58", "title": "Subscripts by strings", "statement": "After assigning to oPs['⟨i|'], oPs['|i⟩'], oPs['|i]'] or oPs['[i|'], the same subscript gives the assigned spinor, and the other legs and the spinors of the other kind are unchanged; other strings select the leg they name.", "quantifier": "all points, labels, spinors and strings", "why_tests_cant": "the selection by regular expressions is over unbounded strings", "anchors": ["lips/particles.py:Particles.__getitem__/__setitem__"]}
{"id": "C59", "title": "Every generated invariant can be computed", "statement": "Every string listed by Invariants for n legs is recognised by compute and has a number as its value at every point of n legs with spinors.", "quantifier": "all n, all options, all set orders, all points", "why_tests_cant": "the lists have thousands of entries that depend on options and set orders; the points are unbounded", "anchors": ["lips/invariants.py:Invariants", "lips/particles_compute.py:compute"]}
{"id": "C60", "title": "Analytic points", "statement": "make_analytical_d replaces the spinor components by symbols (except those that are to be kept) and leaves a consistent point; inserting the values of analytical_subs_d of a massless point t for the symbols turns any invariant or covariant of the analytic point into that of t, with the same exceptions; identities between invariants of the analytic point hold at every massless point.", "quantifier": "all points, masks, number fields, invariants and covariants", "why_tests_cant": "an identity of rational functions in 4n symbols is a statement about all points; tests insert a few numbers", "anchors": ["lips/particles.py:Particles.make_analytical_d", "lips/particles.py:Particles.analytical_subs_d"]}
{"id": "C61", "title": "Generators of Lorentz covariant ideals", "statement": "The generators that LipsIdeal derives from covariants all vanish at a massless point exactly if all the covariants vanish there and, unless momentum_conservation is False, momentum is conserved; and every tuple of covariants that can be computed has generators.", "quantifier": "all multiplicities, tuples of covariants, points and number fields", "why_tests_cant": "vanishing loci are sets of points; tests look at single points", "anchors": ["lips/algebraic_geometry/covariant_ideal.py:LipsIdeal.__init__"]}
{"id": "C62", "title": "Points on singular varieties", "statement": "update_particles puts a dictionary of components into a point, consistently and independently of what the point was, raises KeyError if a component is missing, and is the inverse of analytical_subs_d; _singular_variety and from_singular_variety end at a point where the covariants vanish and momentum is conserved exactly if the solver's dictionary annihilates the generators of the ideal.", "quantifier": "all points, dictionaries, solvers, tuples of covariants and number fields", "why_tests_cant": "the solver is a black box; the statement has to hold for whatever it returns", "anchors": ["lips/algebraic_geometry/particles_singular_variety.py:update_particles", "lips/algebraic_geometry/particles_singular_variety.py:_singular_variety"]}
{"id": "C63", "title": "Four brackets that are products", "statement": "Of the four brackets ⟨a|I|J|d⟩ and [a|I|J|d] that the generation writes, exactly those are left out that are products of shorter invariants: if I and J (each possibly replaced by the other legs) are equal, differ by one leg while a = d, or differ by the leg of the other end, the bracket is, at every momentum conserving point of every field, up to a sign a product of two shorter invariants and it is not generated; and every bracket left out is such a product.", "quantifier": "all multiplicities, brackets, points and number fields", "why_tests_cant": "that a bracket factorises is an identity on all of phase space; tests at random points neither prove it nor run over all multiplicities", "anchors": ["lips/invariants.py:all_strings"]}
{"id": "C64", "title": "Four brackets that agree", "statement": "If the legs other than a are shared out among I, J and L, then ⟨a|I|J|a⟩, -⟨a|I|L|a⟩ and -⟨a|L|J|a⟩ agree at every momentum conserving point; the second loop of the generation takes away only brackets which agree up to the sign with another one, and of those that agree one is kept.", "quantifier": "all multiplicities, set orders, brackets, points and number fields", "why_tests_cant": "an identity on all of phase space and a loop over a list whose length grows with the multiplicity", "anchors": ["lips/invariants.py:all_strings"]}
{"id": "C65", "title": "Restricted lists keep the neighbouring brackets", "statement": "With Restrict3Brackets the three brackets ⟨i|S|j] that are kept are exactly those for which i, j and S, or i, j and the legs not in the bracket, are consecutive in the cyclic order 1, ..., n; with Restrict4Brackets and FurtherRestrict4Brackets the four brackets ⟨a|I|J|d⟩ that are kept are exactly those with two parts of two legs for which a with I and d with J are consecutive.", "quantifier": "all multiplicities, options, set orders and brackets", "why_tests_cant": "the tests are fixed point iterations over growing lists; that the number of iterations suffices is a statement about all sets of legs", "anchors": ["lips/invariants.py:Purge3Brackets", "lips/invariants.py:Brackets3NeedsToBeRemoved", "lips/invariants.py:Purge4Brackets", "lips/invariants.py:Brackets4IsIndividuallyNeighbouring"]}
{"id": "C66", "title": "Five brackets", "statement": "The generated five brackets are exactly the ⟨i|A|B|C|i] where A, B, C are the legs other than i in cyclic order, cut into three runs of at least two legs, starting at any of the three runs; each is generated once.", "quantifier": "all multiplicities, options and set orders", "why_tests_cant": "completeness of a nested enumeration with a fixed point test, for all multiplicities and orders of sets", "anchors": ["lips/invariants.py:generate_5Brackets", "lips/invariants.py:CheckIfNeighbouring"]}
{"id": "C67", "title": "Legs that may absorb the violation of momentum conservation", "statement": "For a spinor bracket and a longer spinor string, the two legs and the axis that _can_fix_mom_cons returns are such that restoring momentum conservation with them (or a division by zero) leaves the values of both strings unchanged. If exactly one leg occurs in neither string and None is returned, no other leg could have been used together with it.", "quantifier": "all strings, multiplicities, set orders, fields and points", "why_tests_cant": "a decision table over coincidences of labels, for any length of the string and any multiplicity", "anchors": ["lips/hardcoded_limits/particles_set_pair.py:_can_fix_mom_cons"]}
{"id": "C68", "title": "Legs that may absorb the violation for two three-brackets", "statement": "The two legs and the axis that are chosen for two three-brackets are such that restoring momentum conservation with them (or a division by zero) leaves both values unchanged.", "quantifier": "all pairs of three-brackets, multiplicities, set orders, fields and points", "why_tests_cant": "a decision table over coincidences of labels, for sums of any length and any multiplicity", "anchors": ["lips/hardcoded_limits/particles_set_pair.py:_set_pair_3B_and_3B"]}
{"id": "C69", "title": "Closed formula for two three-brackets on three legs", "statement": "Setting ⟨A|B+C|A] to X and ⟨B|A+C|B] to Y with two further legs p, q gives exactly these two values at a massless momentum conserving point, changing only A, p and q, if ⟨BC⟩, [AB], [AC] and [pq] are not zero, and divides by zero if one of them is.", "quantifier": "all fields, points, multiplicities, labels and values", "why_tests_cant": "an identity of rational functions in twelve variables with exact conditions", "anchors": ["lips/hardcoded_limits/particles_set_pair.py:_set_pair_3B_and_3B"]}
{"id": "C70", "title": "Strings are rewritten to equal strings", "statement": "The string that is finally set in place of a spinor string next to a bracket, and the two strings that are set in place of two three-brackets, have at every massless momentum conserving point the same values as the original ones up to sign.", "quantifier": "all strings, multiplicities, set orders, fields and points", "why_tests_cant": "composition of rewritings by momentum conservation, reversal and reordering chosen by case analysis", "anchors": ["lips/hardcoded_limits/particles_set_pair.py:_set_pair_A2_or_S2_and_NB", "lips/hardcoded_limits/particles_set_pair.py:_set_pair_3B_and_3B"]}
{"id": "C71", "title": "Setting a bracket and a longer string", "statement": "If two legs occur in neither string, _set_pair of ⟨a|b⟩ (or [a|b]) and a spinor string that is not determined by it either divides by zero or returns with both values up to sign, at a massless momentum conserving point.", "quantifier": "all fields, points, multiplicities, strings and values", "why_tests_cant": "the second setter must not disturb the first value, for every coincidence of labels", "anchors": ["lips/hardcoded_limits/particles_set_pair.py:_set_pair_A2_or_S2_and_NB"]}
{"id": "C72", "title": "Setting two three-brackets", "statement": "If two legs occur in neither string, _set_pair of two three-brackets with different values as functions either divides by zero or returns with both values, at a massless momentum conserving point.", "quantifier": "all fields, points, multiplicities, labels and values", "why_tests_cant": "the second setter must not disturb the first value, for every coincidence of labels", "anchors": ["lips/hardcoded_limits/particles_set_pair.py:_set_pair_3B_and_3B"]}
{"id": "C73", "title": "Classes of equal ideals under permutations", "statement": "LipsIdeal.equivalenceClass lists images of the ideal under permutations of the legs such that no two listed ideals are equal, every image is equal to a listed one, each is listed with the first permutation leading to it, the ideal itself comes first, and the number listed times the number of permutations that fix the ideal is n!. The union of their varieties is mapped to itself by permutations of the legs.", "quantifier": "all n up to nine, all generators, all notions of equality of ideals that are equivalence relations", "why_tests_cant": "all ideals and n! permutations each; the set is closed under the group only by an algebraic argument", "anchors": ["lips/algebraic_geometry/covariant_ideal.py:LipsIdeal.equivalenceClass"]}
{"id": "C74", "title": "Membership of a covariant in an ideal", "statement": "If `covariant in ideal` is True then the covariant vanishes at every massless point where the covariants that made the ideal vanish (and momentum is conserved, if asked for); each of these covariants is in the ideal; there is an answer for every covariant that can be computed.", "quantifier": "all fields, points, multiplicities, lists of covariants and sound membership tests of polynomials", "why_tests_cant": "a statement about all points of a variety", "anchors": ["lips/algebraic_geometry/covariant_ideal.py:LipsIdeal.__contains__"]}
{"id": "C75", "title": "Conversion between spinor components and invariants", "statement": "The generators of conversionIdeal vanish at a massless point together with values for A1, A2, ..., B1, B2, ... exactly if the values are the brackets <i|j> and [i|j] in the order of the pairs. The generators that SpinorIdeal obtains from invariants by elimination vanish for the brackets of every massless point where the invariants do.", "quantifier": "all fields, points, multiplicities, invariants and eliminations that return consequences", "why_tests_cant": "a statement about all points of a variety", "anchors": ["lips/algebraic_geometry/tools.py:conversionIdeal", "lips/algebraic_geometry/invariant_ideal.py:SpinorIdeal.__init__"]}
{"id": "C76", "title": "Variables of the polynomial rings", "statement": "The ring of covariants for n legs has the variables a1, b1, c1, d1, a2, ... in the order of the components of a point; the ring of invariants has A1, A2, ... and B1, B2, ..., one of each for every pair of legs. The number of legs that the ideals compute from the number of variables is n.", "quantifier": "all n", "why_tests_cant": "all multiplicities, and a square root in floating point", "anchors": ["lips/algebraic_geometry/tools.py:lips_covariant_symbols", "lips/algebraic_geometry/tools.py:lips_invariant_symbols", "lips/algebraic_geometry/covariant_ideal.py:LipsIdeal.__init__", "lips/algebraic_geometry/invariant_ideal.py:SpinorIdeal.__init__"]}
{"id": "C77", "title": "Closed formulas for a sum of momenta and a Gram determinant", "statement": "The two machine-generated formulas expression_for_a and expression_for_e give the first components of |A> and |B> for which s_ABC = Y and Delta_AB|CD|... = X hold exactly; otherwise they divide by zero or lack a square root. Setting the pair s_ijk, Delta through them gives a massless momentum-conserving point with exactly both values, changing only A, B and two legs of the third corner.", "quantifier": "all fields, all points, all values, all labelings and orders of the corners with two corners of two legs, both ways of writing the sum", "why_tests_cant": "250 kB of formula in 18 variables; a wrong sign in one of a thousand monomials shows only where it does not vanish, and failures of the pair setter are retried with other points", "anchors": ["lips/hardcoded_limits/DoubleCollinearLimit_D_and_S_a.py:expression_for_a", "lips/hardcoded_limits/DoubleCollinearLimit_D_and_S_e.py:expression_for_e", "lips/hardcoded_limits/particles_set_pair.py:Particles_SetPair._set_pair_Sijk_and_Dijk"]}
{"id": "C78", "title": "Expressions evaluated at a point", "statement": "Calling a phase space point on the text of an arithmetic expression in brackets, chains, Mandelstams, traces, Gram determinants and their like gives the value of that expression in the invariants of the point: the text is not taken for a single invariant, each invariant inside it is recognised and computed as such, and numbers, signs, products without a sign, fractions and powers have their usual meaning. Spaces, ascii angle brackets and a unicode minus sign change nothing.", "quantifier": "all fields, all points, all expression trees, all placements of spaces", "why_tests_cant": "expressions are unboundedly nested, and the patterns for single invariants, those for expressions and the textual substitutions interact at every boundary of two symbols", "anchors": ["lips/particles.py:Particles.__call__", "lips/particles_eval.py:Particles_Eval._parse", "lips/particles_eval.py:Particles_Eval._eval_node", "lips/particles_compute.py:Particles_Compute.compute"]}
{"id": "C79", "title": "Brackets of massive spinors", "statement": "In a text such as <3_|5> or [3^|5u], a label with a spin index stands for the spinor of the next leg: the bracket evaluates to the bracket of those legs, with one minus sign for each upper index. The arrays that the text is rewritten into (the two spinors of a massive leg stacked in a block, multiplied by the Levi-Civita tensor, sliced and multiplied) are evaluated as numpy would. Nothing changes for texts without arrays.", "quantifier": "all fields, all points, all labels of any number of digits, both brackets, both ways of writing the index", "why_tests_cant": "the rewriting passes through some forty textual substitutions that interact at every symbol, and the labels have unboundedly many digits", "anchors": ["lips/particles_eval.py:Particles_Eval._parse", "lips/particles_eval.py:Particles_Eval._eval_node", "lips/particles_eval.py:Particles_Eval._eval", "lips/particles_compute.py:Particles_Compute.compute"]}
{"id": "C80", "title": "Chains between massive spinors", "statement": "A chain <i_|P|j^] or [i^|P|j_> with a sum of momenta P between two massive spinors evaluates to minus the chain of the legs after i and j with the same P, and is the same number read from either end.", "quantifier": "all fields, all points, all labels of any number of digits, all sums and differences of momenta, with or without round brackets, both ways of writing the indices and the brackets", "why_tests_cant": "which of two patterns wraps the middle of a chain depends on what was written before it by earlier substitutions; the tests have one-digit labels", "anchors": ["lips/particles_eval.py:Particles_Eval._parse", "lips/particles_eval.py:pNB_double_open", "lips/particles_eval.py:pNB_double_open_disambiguate_alphadot", "lips/particles_compute.py:Particles_Compute.compute"]}
{"id": "C81", "title": "Chains with a massless and a massive end", "statement": "A chain with a sum of momenta between an angle spinor and a square one, each massless or massive, evaluates to the chain of the legs that its ends stand for, with a minus sign exactly when the square end is massive, and is the same number read from either end; when one end is massless and the other massive this needs the label of the sum next to the massless end to have one digit and a single label to be without round brackets.", "quantifier": "all fields, all points, all labels at the ends, all sums and differences of momenta, both ways of writing the indices and the brackets", "why_tests_cant": "the patterns that wrap an open spinor look two characters into the sum, so what they do depends on the number of digits of a label; the tests have one-digit labels", "anchors": ["lips/particles_eval.py:Particles_Eval._parse", "lips/particles_eval.py:pAu", "lips/particles_eval.py:pNB_open_begin", "lips/particles_eval.py:pNB_open_end", "lips/particles_compute.py:Particles_Compute.compute"]}
{"id": "C82", "title": "Every text keeps its value modulo a prime", "statement": "If the spinors of a point with massless legs are reduced modulo a prime (padic_to_finite_field), the new point has massless legs with the reduced spinors, conserves momentum if the old one does, and every text evaluated there - invariants, chains, masses, expressions with fractions, powers and divisions - is the reduction of its old value or raises the same exception, unless a denominator becomes zero. finite_field_to_padic followed by padic_to_finite_field restores the point.", "quantifier": "all pairs of fields and all maps between them that respect the operations where they are defined, all points, all texts, all masses", "why_tests_cant": "the tests reduce a few points of one prime and compare a few expressions", "anchors": ["lips/algebraic_geometry/particles_singular_variety.py:padic_to_finite_field", "lips/algebraic_geometry/particles_singular_variety.py:finite_field_to_padic", "lips/particles_compute.py:Particles_Compute.compute", "lips/particles_eval.py:Particles_Eval._eval"]}
{"id": "C83", "title": "check_consistency agrees with compute", "statement": "check_consistency returns for every string of compute, and has no complaint exactly for chains and brackets with fitting unicode brackets, s, Omega, Pi and Delta with an underscore, and delta5. A unicode chain that it complains about is one that compute rejects. It raises exactly for the empty text, a single letter s, S, Delta, Omega, Pi, delta, and tr5 followed by at most one character.", "quantifier": "all strings of compute, all labels, all lengths; all texts for the exceptions", "why_tests_cant": "no test calls it; the complaint is constructed and never raised", "anchors": ["lips/particles.py:Particles.check_consistency", "lips/hardcoded_limits/particles_set.py:Particles_Set._set_inner"]}
{"id": "C84", "title": "!= and hash of points", "statement": "a != b of two points never raises and is true exactly when they differ in the number of legs or in a momentum; for the same number of legs it is the negation of ==. Points with massless legs can be hashed, equal keys mean equal momenta, and equal spinors mean equal keys.", "quantifier": "all fields, all pairs of points", "why_tests_cant": "!= is inherited from list while == is not, so the two can disagree; the tests compare points of the same length", "anchors": ["lips/particles.py:Particles.__eq__", "lips/particles.py:Particles.__hash__", "lips/particle.py:Particle.__hash__"]}
{"id": "C85", "title": "Sums of products of brackets with massive spinors", "statement": "A text made of angle and square brackets with + - and *, any of which may have massive ends (a label with a spin index), evaluates to the sum of products of the values of its brackets: each bracket is that of the legs its ends stand for, with a minus sign for each massive end of a square bracket, * comes before + and -, and these associate to the left.", "quantifier": "all fields, all points with spinors, all numbers of terms and factors, all labels and spin indices, unicode and ASCII brackets", "why_tests_cant": "the tests evaluate single massive brackets; the text handed to Python contains matrix products @, which have the precedence of *, so that the value of a product is not obvious", "anchors": ["lips/particles_eval.py:Particles_Eval._parse", "lips/particles_eval.py:Particles_Eval._eval"]}
{"id": "C86", "title": "The text for Mathematica", "statement": "four_momenta_for_mathematica writes one line per leg, DeclareSpinorMomentum[i, {...}] with the four components of momentum i (or the two spinors), every number with its digits unchanged and *^ as the mark of exponents. save_phase_space_point writes the components of the spinors as Subscript[...,i,k] = number; in the same notation.", "quantifier": "all numbers of legs, all finite decimal numbers with any number of digits, signs and exponents", "why_tests_cant": "no test looks at the text; it is produced by chains of replacements that act on each other's results and on the braces of the format string", "anchors": ["lips/particles.py:Particles._r_sp_d_for_mathematica", "lips/particles.py:Particles._l_sp_d_for_mathematica", "lips/particles.py:Particles.four_momenta_for_mathematica", "lips/particles.py:Particles.save_phase_space_point"]}
{"id": "C87", "title": "Three momenta, their masses and the Kallen function", "statement": "For three different legs i, j, k ijk_to_3Ks returns three momenta, the sums over the arcs that begin there; their squared masses are the Mandelstam invariants of the arcs and they add up to the total momentum. If momentum is conserved, four times Delta_ijk is the Kallen function of the squared masses, and Delta_ijk vanishes exactly when one of a+b+c, a+b-c, a-b+c, a-b-c of the three masses (ms) is zero.", "quantifier": "all fields, all points, all multiplicities, all triples of different legs", "why_tests_cant": "the tests evaluate Delta at random points, where it is not zero, and never call ijk_to_3Ks or ms", "anchors": ["lips/particles.py:Particles.ijk_to_3Ks", "lips/particles.py:Particles.m2s", "lips/particles.py:Particles.ms", "lips/particle.py:Particle.m", "lips/particles_compute.py:Particles_Compute.compute"]}
{"id": "C88", "title": "Outer products of spinors in expressions", "statement": "A text that is a sum or difference of terms, each a product of two-brackets of massless spinors and of one column |i> or |i] with one row <j| or [j| directly behind it, evaluates to the corresponding combination of the matrices. In particular |i]<i|+|j]<j|+... is the momentum of those massless legs, and written with all legs it is the zero matrix exactly if momentum is conserved. Matrices written side by side or squared with ^2 are matrix products.", "quantifier": "all fields, all points, all legs, any number of terms and factors", "why_tests_cant": "tests evaluate a few expressions with given labels; that every text of this form survives the chain of substitutions needs an induction over it", "anchors": ["lips/particles_eval.py:Particles_Eval._parse", "lips/particles_eval.py:Particles_Eval._eval", "lips/particles_compute.py:Particles_Compute.compute"]}
{"id": "C89", "title": "Random complex or real momenta", "statement": "The components that randomise_mpc draws are fractions between -100 and 100. The loop ends with the first momentum that has spinors. The momentum is then light-like, for real momenta with positive energy, and the spinors reproduce it.", "quantifier": "all draws of the random numbers of any length, both choices of spinors, real and complex momenta, all fields with a real and an imaginary part and square roots", "why_tests_cant": "tests draw a few momenta; the momenta without spinors have measure zero and are not drawn in tests", "anchors": ["lips/particle.py:Particle.randomise_mpc", "lips/particle.py:Particle.randomise", "lips/tools.py:rand_frac"]}
{"id": "C90", "title": "Points of random complex or real momenta", "statement": "Particles(n) over mpc conserves momentum and has light-like legs with spinors that reproduce their momenta. With real_momenta=True all momenta are real, two legs are incoming and the others are outgoing, for every n from 2 on. The constructor only raises for momenta for which there is no solution.", "quantifier": "all numbers of legs, all draws of random numbers, all choices of the two legs that are adjusted", "why_tests_cant": "tests construct a few points with given multiplicities; the statement is for every draw and every number of legs", "anchors": ["lips/particles.py:Particles.__init__", "lips/particles.py:Particles.fix_mom_cons", "lips/particle.py:Particle.randomise_mpc"]}
{"id": "C91", "title": "Lists derived from the families of invariants", "statement": "full_minus_4_brackets is the full list of invariants without its four brackets, and invs_N is the part of the full list that consists of brackets with sums between their ends, in the same order, for every number of legs, all options and all orders of sets.", "quantifier": "all numbers of legs, all options, all orders in which sets are iterated, all outcomes of the numerical tests for six legs", "why_tests_cant": "tests count the strings of a few multiplicities; a count does not say which strings they are", "anchors": ["lips/invariants.py:Invariants.full_minus_4_brackets", "lips/invariants.py:Invariants.invs_N", "lips/invariants.py:Invariants.full"]}
{"id": "C92", "title": "Signs and conjugates at real points", "statement": "At a point of real momenta s of legs that are all outgoing or all incoming is never negative and s of one outgoing and one incoming leg never positive, and the square bracket [ji] of two legs is the complex conjugate of <ij> times the signs of the two energies, for both spinor conventions.", "quantifier": "all drawn numbers, all numbers of legs from three on, all pairs and lists of legs, both spinor conventions, every field with real and imaginary parts", "why_tests_cant": "tests draw a few points and compare with a tolerance; a sign that is wrong only for incoming legs or only for one convention needs a pair of legs of that kind", "anchors": ["lips/particles.py:Particles.__init__", "lips/particle.py:Particle._r2_sp_to_r_sp_d", "lips/particle.py:Particle._r2_sp_to_l_sp_d", "lips/particles_compute.py:Particles_Compute.compute"]}
{"id": "C93", "title": "Substitution by dictionaries", "statement": "subs_dict replaces, from left to right and without looking at what it has written, the first key of the dictionary that fits at each place, and rsubs_dict with the same dictionary gives the old text back.", "quantifier": "all texts and all dictionaries with non-empty keys", "why_tests_cant": "the functions are only used with a few fixed dictionaries; keys that begin with other keys and texts that contain values do not occur in the tests", "anchors": ["lips/tools.py:subs_dict", "lips/tools.py:rsubs_dict"]}
{"id": "C94", "title": "Values for the symbols of a point", "statement": "subs gives the spinor components and the internal masses of a point over a finite field the values that they had with the values of the dictionary put in for the symbols. If every symbol gets an integer all components become numbers of the field, and two substitutions one after the other give the value of both together.", "quantifier": "all fields, all components that are polynomials with integer coefficients, all dictionaries of polynomials, all values of the remaining symbols", "why_tests_cant": "tests substitute one set of symbols in points of one kind; a component of an unusual shape, such as a square of one symbol, does not occur in them", "anchors": ["lips/particles.py:Particles.subs"]}
