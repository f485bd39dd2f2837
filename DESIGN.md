# Formal model of lips: design

Repository modelled: GDeLaurentis/lips 0.5.1 (python, `/repo`, read as text, never run).
Prover: Coq 8.16.1, sources in `/verif/rocq/theories`.

## How the development is organised

* *Model files* (`Base Fld Str Particle Index Phase Symm Cluster Compute Arcs Det ToField ModP Masses
  SetOne Tr5 SetPair SetPairMore Variety Sort Save Twistor Polar Slice Gen Cache Regex Parse Ideal Heap Text
  RatFun RatPoly Analytic Class Member ClosedText Closed`; `FldInst` has the
  instances of the numbers) are total
  computable Gallina functions.  Every definition carries a comment with file and lines in `/repo/lips`
  and the simplifications made there.
* *Specification files* (`*Spec.v`) say what the property means, without using the model's helper
  functions beyond its data types.  Model files never import them.
* *Proof files* (`*Thm.v`, `Parse{Chars,Text,Wrap,Open,Stars,Lex,Fold,Tree,Eval}.v`).
* *Property files* `Properties01.v` … : the theorems of `MANIFEST.json`, closed by `exact` or a short
  script, each with `Print Assumptions` beneath and concrete `Example`s that satisfy the hypotheses.

Conventions:

* Numbers.  Theorems about kinematics quantify over a record `Fld`: a field of characteristic other than
  two with decidable equality, a partial square root and possibly an imaginary unit.  This is the exact
  reading of `syngular.Field`.  `abs(x) <= field.tollerance` is read as `x = 0`.  Instances used in
  examples and witnesses: rationals, Gaussian rationals, integers modulo 7, 13 and modulo any odd prime.
* Python exceptions are values (`result`).  Object mutation is a state monad that returns the state also
  when an exception escapes, so that half-done mutations are visible.
* `while` loops and unbounded recursion use fuel; running out is the separate value `Diverges`, and
  theorems either prove termination or quantify over every fuel.
* Random numbers, the iteration order of python sets, results of numerical tests and of external solvers
  are universally quantified arguments.
* A name ending in `_refuted` is a theorem that the property (or the named clause) is false of the model,
  with a concrete witness.  A name ending in `_partial` is a theorem with an extra hypothesis that the
  property text does not have.

## Trusted base

* Coq's kernel (8.16.1), including its virtual machine (`vm_compute` is used for examples and witnesses).
* `Print Assumptions` prints "Closed under the global context" for every theorem of the manifest: no
  axiom, neither own nor of a library, is used in any of them.
* Axioms that exist in the loaded standard library without being used by a theorem here:
  `Coq.ssr.ssrunder.Under_rel.{Under_rel, Under_rel_from_rel, Under_relE, under_rel_done, Over_rel,
  over_rel, over_rel_done}` (parameters of a module type of the standard library's `ssrunder`, loaded
  through `Coq.ssr`).
* The translation from python to Gallina by hand; the citations in the comments are there to let it be
  checked.  Python, numpy, sympy, mpmath, shelve and re are modelled where the code uses them and only to
  the extent described in the comments.
* No functors, module types, section-less variables, `Admitted`, disabled checks or plugins.

## What is modelled

| source | modelled | not modelled |
| --- | --- | --- |
| `particle.py` | constructor, to_field, operators, hash key, all setters and conversions, both spinor conventions, angles_for_squares with spin index, lsq, twistor methods, randomise (draws as arguments; for complex and real momenta MpcRandom.v, exact) | printing, `__getitem__` of a particle, sympy branches, `m` |
| `particles.py` | constructors, to_field, `__setattr__`, equality, hash key, total_mom, image, copy, cluster (with massive fermions and mass aliases), fix_mom_cons, randomise_all, randomise_twistor, angles_for_squares, list methods with integer indices and slices, `_complementary`, ijk_to_3NonOverlappingLists, ijk_to_3Ks, m2s, ms, momentum, on-shell and consistency checks, check_consistency, the inherited !=, internal masses, save_phase_space_point, the Mathematica output, make_analytical_d, analytical_subs_d, subscripts by strings, `_lNB_to_string`, `_get_lNB`, subs over finite fields (polynomials in expanded form) | subs over p-adic numbers, printing |
| `particles_compute.py` | compute from the characters (Text.v: all patterns of tools.py, in order, bold digits) and on the invariants they show (Compute.v); ep, pe, ee, ldot; bracket checks | unicode digits other than 0-9 and the bold ones; entries with signs in a row |
| `particles_eval.py` | all of `_parse` with every pattern, a parser for expressions, `_eval_node` for numbers, operators and calls of invariants; with arrays, subscripts, attributes and calls of the tensor expressions of C79-C81 and C88 (Tensor.v and following) | other attributes and functions of numpy |
| `particles_variety.py` | variety with arbitrary setters and fallback solver | p-adic valuations as targets |
| `particles_slices.py` | univariate_slice, bivariate_slice with the solver's answer as argument | the Groebner basis computation |
| `hardcoded_limits/particles_set.py` | `_set` and all inner setters, labels of one digit | |
| `hardcoded_limits/particles_set_pair.py` | `_set_pair`, the dispatch `_set_pair_inner`, two x two, two x s, two x Delta, s x s, three-bracket x s (SetPair.v); two x longer chain, 3B x 3B, 3B x Delta, s x Delta, chain x chain, chain x Delta, `_can_fix_mom_cons` (SetPairMore.v) | nothing; except for s x Delta the closed formulas are any functions |
| `hardcoded_limits/DoubleCollinearLimit_D_and_S_a.py`, `_e.py` | the two formulas as texts (ClosedText.v), their parser and their values (Closed.v) | floating point: `mpmath.sqrt` is a square root of the field, or an error |
| `symmetries.py` | everything | |
| `invariants.py` | generation of all families, purging with the numerical tests as oracles, caching through shelve | dbm back ends (file layout), printing |
| `tools.py` | Levi-Civita, metric, Pauli matrices, det, ldot, indexing_decorator, subs_dict, rsubs_dict, rand_frac (exact, its draws given), all the patterns for invariants (Text.v) | printing |
| `algebraic_geometry/*` | images of covariant and invariant polynomials and ideals, equivalence classes, membership, the generators of LipsIdeal (also from covariants), SpinorIdeal and conversionIdeal, the rings, update_particles, `_singular_variety` and from_singular_variety around the solver, padic_to_finite_field and finite_field_to_padic | Singular, quotient rings, the solver point_on_variety, conversions between finite field and p-adic points |

Notes on simplifications that touch several files:

* Floating point and p-adic rounding are not modelled.
* `None @ array` raises ValueError or TypeError in numpy depending on the shapes; it is TypeError here.
  compute of `⟨a|` on a leg without spinors returns None in the code and TypeError here.
* Labels in strings for `_set` and `_set_pair` have one digit, as the code itself breaks on longer ones.
* Three-bracket strings given to `_set_pair` have ends of different kinds.
* The character `<` passes every bracket check of `compute` (C24); the open-bracket patterns reject ASCII.

## Properties

For each property: what is modelled and how it is proved, the theorems, and the result.  "proved" means the
full statement (possibly with additional refutations of neighbouring readings); "partial" means that the
statement as written is false of the model or proved only with an extra hypothesis, as said in the result.


### C01 All representations of a particle's momentum agree after any history of assignments — proved

*Model and proof.* Particle.v holds the eight private attributes of a particle and every setter as a program in a state monad that keeps the state when an exception escapes. The specification (ParticleSpec.v) says independently what it means that the attributes describe one four-vector. Invariant, induction over the list of operations.

*Theorems* (Properties01.v): `C01_representations_agree`, `C01_representations_agree_despite_exceptions`, `C01_stale_after_exception_refuted`.

*Result.* Invariant by induction over operation lists; extra theorem covers caught exceptions when i is in the field; without i a caught TypeError leaves a stale momentum (finding).

### C02 Massless momentum determines spinors that reproduce it — proved

*Model and proof.* Particle.v; direct computation from the specification of the square root of the field.

*Theorems* (Properties01.v): `C02_massless_spinors`.

*Result.* All four momentum setters, both conventions, both the p0+p3<>0 and =0 case.

### C03 Assigning one spinor keeps the particle on-shell and leaves the other chirality alone — proved

*Model and proof.* Particle.v; direct computation.

*Theorems* (Properties01.v): `C03_spinor_assignment`.

### C04 Mass squared is the determinant of the rank two spinor and the Minkowski square — proved

*Model and proof.* Particle.v (`lsq`, `ldot`); ring identities on top of the invariant of C01.

*Theorems* (Properties01.v): `C04_mass`, `C04_ldot`, `C04_ldot_bilinear`.

### C05 Particle arithmetic acts linearly on momenta — partial

*Model and proof.* Particle.v (operators); induction over the list for sum(). Objects of other types as operands are an inductive `operand`.

*Theorems* (Properties01.v): `C05_arithmetic`, `C05_sum`, `C05_eq_all_representations`, `C05_asymmetric_sum_refuted`.

*Result.* Full statement proved for the default symmetric convention; REFUTED for the asymmetric convention: a sum with p0+p3=0 raises ZeroDivisionError.

### C06 Equal objects have equal hashes — partial

*Model and proof.* Particle.v: the tuple that is fed to hash() is modelled, hash() itself is any function of that tuple.

*Theorems* (Properties01.v): `C06_equal_hash_refuted`, `C06_hash_raises_refuted`, `C06_equal_hash_partial`.

*Result.* REFUTED: little-group rescaled equal particles feed different tuples to hash(); hash of a massless particle without spinors raises. Guarded version proved.

### C07 angles_for_squares is an involution exchanging the two kinds of brackets — partial

*Model and proof.* Particle.v (`angles_for_squares`), ComputeThm4.v: simulation between a point and the flipped point, induction over chains.

*Theorems* (Properties03.v): `C07_flip_involution`, `C07_flip_compute`, `C07_flip_tr5`, `C07_flip_physical`, `C07_spin_index_refuted`.

*Result.* Proved for all legs without spin index (all chains of any length). REFUTED for legs carrying a spin index: applying it twice negates both spinors.

### C08 Particles is a base-one list — proved

*Model and proof.* Index.v: the wrapper of tools.py:122-140 around the list methods; refinement to operations of ordinary lists, induction over histories.

*Theorems* (Properties02.v): `C08_base_one_index`, `C08_base_one_history`, `C08_two_digit_string_refuted`.

*Result.* Integer indices; subscripts by strings are C58. Side finding: oPs["12"] returns particle 1.

### C09 Equality of phase space points is an equivalence relation — partial

*Model and proof.* Index.v (`ps_eq`) with particle equality from Particle.v.

*Theorems* (Properties02.v): `C09_equality_partial`, `C09_equality_exact`, `C09_equality_refuted`.

*Result.* REFUTED: a proper prefix compares equal, the converse raises IndexError. Equivalence relation proved among points of equal multiplicity; exact characterisation proved.

### C10 fix_mom_cons (complex) restores momentum conservation exactly — proved

*Model and proof.* Phase.v (`fix_mom_cons`); the legs are a list of any length, sums by list induction, the identity is Schouten's.

*Theorems* (Properties02.v): `C10_fix_mom_cons`, `C10_same_leg`, `C10_one_zero_label_silent_refuted`.

*Result.* All n, A<>B, both axes, all fields, error branch included. Side finding: exactly one zero label is a silent no-op.

### C11 fix_mom_cons (real momenta) restores momentum conservation with light-like legs — proved

*Model and proof.* Phase.v, axis 1..3; reality is stated for any subset of the field closed under field operations.

*Theorems* (Properties02.v): `C11_fix_mom_cons_real`.

*Result.* Reality is closure under any subfield; error branch K0=K_axis included.

### C12 Freshly generated phase space points are on-shell and conserve momentum — proved

*Model and proof.* Phase.v (constructor and `randomise_all`); every random number and the pair drawn by random.sample are arguments, so the theorem covers all outcomes.

*Theorems* (Properties02.v): `C12_new_point`, `C12_randomise_all`.

*Result.* Random draws and random.sample are universally quantified arguments.

### C13 image permutes legs and is a group action — proved

*Model and proof.* Symm.v: permutation strings are lists of characters; sorted() is a stable insertion sort by key; `list.index` with particle equality is modelled as in the code, which is why equal momenta matter.

*Theorems* (Properties05.v, Properties36.v): `C13_image`, `C13_identity`, `C13_compose`, `C13_inverse`, `C13_conjugation_commutes`, `C13_rearrangement`, `C13_stable`, `C13_short`, `C13_inverse_any`, `C13_inverse_out`, `C13_equal_momenta_refuted`.

*Result.* Strings are lists of digit characters. image succeeds, sends particle i to position perm(i), and is determined by that; identity, composition with exclusive or of the flags, inverse. With equal momenta the clause fails (refuted).

### C14 copy() returns an equal point for every multiplicity — partial

*Model and proof.* Symm.v (`copy` calls image with the identity string, which for ten or more legs has two-character labels).

*Theorems* (Properties05.v): `C14_copy_partial`, `C14_ten_legs`, `C14_ten_legs_refuted`, `C14_equal_momenta_refuted`, `C14_empty_refuted`.

*Result.* True for one to nine legs with pairwise different momenta. False at every point with ten or more legs of different momenta, false with equal momenta, ValueError for the empty list.

### C15 Relabelling a spinor string and permuting the point commute — proved

*Model and proof.* SymmThm.v, ComputeThm5.v: relabelling of the syntax of strings (Compute.v `inv`), simulation.

*Theorems* (Properties05.v): `C15_relabel`, `C15_relabel_conjugate`.

*Result.* For every string whose letters are leg labels (chains, traces, tr5, s, Gram determinants with explicit corners); Omega, Pi, Delta_ijk and delta5 refer to the cyclic order and are excluded.

### C16 Clustering preserves momentum and invariants of the corners — proved

*Model and proof.* Cluster.v; induction over corners; the interface to strings is the relabelling of each entry by its corner.

*Theorems* (Properties06.v): `C16_momentum`, `C16_invariants`, `C16_defined`, `C16_empty_corner_refuted`.

*Result.* every string over clusters (spinor ends being one-leg clusters) equals the string with labels replaced by corners; an empty corner is refuted

### C17 Massive fermion clusters satisfy the Dirac equation and completeness — proved

*Model and proof.* Cluster.v (massive fermions: lines 176-191) with slices for spin indices.

*Theorems* (Properties06.v): `C17_dirac`, `C17_completeness`, `C17_slices`, `C17_frame`.

*Result.* both positions and values of the spin index; index_value=all through spinors_all

### C18 Mass aliases keep their value under clustering — partial

*Model and proof.* Str.v and Masses.v: the regular expressions of tools.py:32-34 and `subs_dict` at the level of characters.

*Theorems* (Properties06.v): `C18_alias_partial`, `C18_numbers`, `C18_union_refuted`, `C18_order_refuted`, `C18_no_corners_refuted`.

*Result.* true when the alias is exactly a corner and no earlier corner is a beginning of it; unions of corners and reordered corners are refuted

### C19 Two-particle spinor products obey antisymmetry, Schouten and s_ij = <ij>[ji] — proved

*Model and proof.* Compute.v; ring identities.

*Theorems* (Properties03.v): `C19_two_brackets`, `C19_s_ab`.

### C20 Spinor chains are multilinear, factorise on massless legs and reverse with the right sign — proved

*Model and proof.* Compute.v; a chain of any length is a fold of 2x2 matrices, induction over it.

*Theorems* (Properties03.v): `C20_chain_additive`, `C20_chain_factor`, `C20_chain_reverse`.

*Result.* Chains of every length by induction; unicode brackets.

### C21 Momentum conservation can be used inside invariants — proved

*Model and proof.* Compute.v with C20 and C31.

*Theorems* (Properties03.v): `C21_chain_complement`, `C21_end_legs`, `C21_s_complement`, `C21_sum_j`.

### C22 Little group covariance — proved

*Model and proof.* Compute.v; one covariance theorem for scalings and SL(2) x SL(2) at once (ComputeThm2/3.v).

*Theorems* (Properties03.v): `C22_little_group`, `C22_C23_covariance`.

### C23 Every closed string is Lorentz invariant — proved

*Model and proof.* As C22.

*Theorems* (Properties03.v): `C23_lorentz`, `C22_C23_covariance`, `C23_odd_trace_refuted`.

*Result.* All closed strings (even traces). Side finding: odd traces are accepted and not Lorentz invariant.

### C24 Mismatched brackets are rejected, and ASCII brackets mean the same as unicode ones — partial

*Model and proof.* Compute.v has the opening and closing character as data (unicode angle, ASCII angle, square) and tests them as the code does.

*Theorems* (Properties03.v): `C24_brackets_partial`, `C24_ascii_refuted`.

*Result.* Proved for unicode brackets. REFUTED for ASCII: <1|2|3|4> skips the bracket check and evaluates [1|2|3|4].

### C25 tr5 is linear and totally antisymmetric in its four momenta — partial

*Model and proof.* Compute.v; the code rewrites tr5 as a difference of two chains after rotating the entries.

*Theorems* (Properties03.v): `C25_tr5_legs`, `C25_tr5_first_leg`, `C25_tr5_value_partial`, `C25_T5_multilinear_antisymmetric`, `C25_tr5_sum_refuted`.

*Result.* Proved when the first entry is a one-digit massless leg; exact value in all cases. REFUTED: tr5(1+2|3|4|5) is minus the sum of its parts (rotation of the entries drops a sign).

### C26 Traces: cyclicity, reversal and relation to dot products — proved

*Model and proof.* Compute.v; traces of products of any even number of matrices.

*Theorems* (Properties03.v): `C26_traces`, `C26_rotation_by_one_refuted`.

*Result.* The first version of the statement claimed that rotation by one equals the reversed trace; that clause is false mathematically (refuted) and was replaced by reversal invariance.

### C27 delta5 is the square of tr5 at five points — proved

*Model and proof.* Compute.v (`Id5`, `ITr5`), GramThm.v: polynomial identity on momentum-conserving massless points, for each choice of four of the five legs.

*Theorems* (Properties04.v): `C27_delta5_is_tr5_squared`.

*Result.* For every choice and order of four of the five legs, not only 1234.

### C28 Gram determinants do not depend on how the corners are listed — proved

*Model and proof.* Compute.v (`IDelta`), Det.v; determinants over permutations, developed in GramThm.v/DetThm.v (own development, no library of determinants is used).

*Theorems* (Properties04.v): `C28_first_corners`, `C28_all_corners`, `C28_three_corners`, `C28_shorthand`.

*Result.* Any number of corners; shorthand unconditional on legs i,j,k of three arcs.

### C29 det computes the determinant — proved

*Model and proof.* Det.v (Laplace expansion of tools.py:95-104); equality with the Leibniz sum by induction on the size.

*Theorems* (Properties04.v): `C29_det`.

*Result.* Laplace recursion equals the Leibniz sum over any enumeration of all permutations, n>=1 (n=0 returns 0 in the code).

### C30 The shorthand ijk always denotes a partition of the legs into three arcs — partial

*Model and proof.* Arcs.v: the while loops with fuel; termination and partition; divergence is proved for every fuel.

*Theorems* (Properties04.v): `C30_three_arcs`, `C30_out_of_range_refuted`, `C30_repeated_label_refuted`.

*Result.* Proved, with uniqueness, for three different legs of 1..n. REFUTED for labels that are not legs (infinite loop for every fuel) and for repeated labels (overlap).

### C31 Complement of a list of legs — proved

*Model and proof.* Index.v (`complementary`); the iteration order of python's set is an arbitrary argument.

*Theorems* (Properties02.v): `C31_complementary`, `C31_momentum`.

*Result.* Iteration order of python sets is a universally quantified oracle.

### C32 Omega and Pi invariants have their documented meaning — proved

*Model and proof.* Compute.v (`IOm`, `IPi`), Arcs.v.

*Theorems* (Properties04.v): `C32_Omega`, `C32_Pi`, `C32_Omega_Pi_chains`, `C32_Pi_one_leg_refuted`.

*Result.* Side finding: Pi with a one-leg first arc raises IndexError.

### C33 Changing the number field commutes with evaluation — proved

*Model and proof.* ToField.v, ModP.v; logical relation between two fields through every string.

*Theorems* (Properties04.v): `C33_to_field`, `C33_mod_p`, `C33_massive_refuted`.

*Result.* Any ring relation; concrete reduction modulo every odd prime. Massless legs; side finding: to_field turns massive legs into massless ones.

### C34 Setting a two-bracket invariant — proved

*Model and proof.* SetOne.v (`set_A2`, `set_S2`).

*Theorems* (Properties07.v): `C34_angle`, `C34_square`, `C40_set`.

*Result.* for every point, labels, value and mode; the code changes the second label's spinor, not the first one's as the property text says, and the two free legs; the exact conditions for ZeroDivisionError are part of the theorems

### C35 Setting a longer spinor chain — proved

*Model and proof.* SetOne.v (`set_NB`): head, loop, tail, middle, one-free-leg and flipped branches.

*Theorems* (Properties07.v): `C35_head`, `C35_loop`, `C35_tail`, `C35_middle`, `C35_one_free`, `C35_flip`, `C40_set`, `C35_tail_even_refuted`, `C35_last_entry_refuted`, `C35_flip_tail_refuted`.

*Result.* one theorem per branch, labels of one character; the branches that cannot work (even reversal, last-entry label) are refuted

### C36 Setting a Mandelstam invariant — proved

*Model and proof.* SetOne.v (`set_Sijk`).

*Theorems* (Properties07.v): `C36_sijk`, `C36_all_but_one`, `C36_two_labels`, `C40_set`, `C36_two_labels_refuted`.

*Result.* three or more labels with two free legs reach the value; two labels are left alone

### C37 Setting a three-mass Gram determinant — proved

*Model and proof.* SetOne.v (`set_Dijk`).

*Theorems* (Properties07.v): `C37_Delta`, `C37_Delta_ijk`, `C40_set`.

*Result.* explicit corners and three numbers, every mode

### C38 Setting Omega and Pi invariants — proved

*Model and proof.* SetOne.v (`set_Oijk`, `set_Pijk`).

*Theorems* (Properties07.v): `C38_Omega`, `C38_Pi`, `C40_set`, `C38_short_arc_refuted`.

*Result.* all arcs with at least two legs where the code takes two; one-leg arcs raise IndexError

### C39 Setting tr5 and five-bracket differences — proved

*Model and proof.* SetOne.v, Tr5.v (the solution of particles_set.py:493-497 translated literally).

*Theorems* (Properties07.v): `C39_tr5`, `C39_tr5_five`, `C39_tr5_no_single`, `C39_five_brackets`, `C40_set`, `C39_tr5_odd_refuted`.

*Result.* at five points the solution is for tr5_1234 whatever the labels, so odd orders raise

### C40 A setter that returns has achieved its goal — proved

*Model and proof.* SetOne.v, SetPair.v, Variety.v: the wrappers with the inner solver as an arbitrary state transformer.

*Theorems* (Properties07.v, Properties08.v): `C40_set_returns`, `C40_set`, `C40_pair_returns`, `C40_pair`, `C40_variety`, `C40_pair_switch_refuted`, `C40_pair_endless`, `C40_variety_nonzero_refuted`.

*Result.* for every inner solver; _set_pair accepts either sign of either value, and checks other invariants when the solver for <i|j+k|i] and s_ijk switches them (refuted)

### C41 variety hands the original point to the fallback solver — proved

*Model and proof.* Variety.v.

*Theorems* (Properties08.v): `C41_fallback`, `C41_library`, `C41_no_fallback`.

*Result.* for every setter that keeps the number of particles, and the setters of the library do; p-adic targets are not modelled

### C42 phase_weights_compatible_symmetries returns exactly the compatible symmetries — proved

*Model and proof.* Symm.v; itertools.permutations is modelled and proved to list each permutation once.

*Theorems* (Properties05.v): `C42_symmetries`, `C42_any_length`.

*Result.* Integer weights.

### C43 inverse and identity behave as in the symmetric group — proved

*Model and proof.* Symm.v.

*Theorems* (Properties05.v): `C43_inverse`, `C43_identity`, `C43_all_symmetries`, `C43_no_conjugation`, `C43_ten_refuted`, `C43_eleven_refuted`.

*Result.* For n <= 9 as stated; the refuted theorems show why the bound is needed.

### C44 Symmetries act consistently on ideals and on phase space points — proved

*Model and proof.* Ideal.v: the regular expressions replace letters in the text of polynomials; the meaning of a text is a relation (IdealSpec.v) independent of the substitution.

*Theorems* (Properties14.v): `C44_covariant`, `C44_invariant`, `C44_conjugated`, `C44_lips_ideal`, `C44_spinor_ideal`, `C44_inhomogeneous_refuted`.

*Result.* Proved on the texts of polynomials (sums of products of powers, parentheses) for every field, permutation and point, up to 9 legs, and for the generators of LipsIdeal and SpinorIdeal. For polynomials in the invariants that are not homogeneous the conjugated case is refuted.

### C45 The generated list of invariants is complete and free of repetitions — proved

*Model and proof.* Gen.v: the generators for every family, with itertools.combinations and string rendering; counting occurrences in the final list.

*Theorems* (Properties11.v): `C45_two`, `C45_two_only`, `C45_s`, `C45_s_only`, `C45_tr5`, `C45_tr5_only`, `C45_delta`, `C45_delta_only`, `C45_three`.

*Result.* For every run of GenerateFromScratch that does not raise, with any options, set order and outcome of the numerical tests, n<=9; occurrences are counted in the whole list. C45_three is about the brackets before Purge3Brackets and holds for every n.

### C46 Invariants(n, options) does not depend on previous calls or crashes — partial

*Model and proof.* Cache.v: shelve and the two caching layers as a state machine with exceptions and crashes between writes.

*Theorems* (Properties12.v): `C46_uncached_partial`, `C46_first`, `C46_afterwards`, `C46_poisoned`, `C46_same_calls_partial`, `C46_small`, `C46_refuted`, `C46_options_refuted`, `C46_failure_refuted`, `C46_killed_refuted`, `C46_process_refuted`, `C46_eight_refuted`.

*Result.* The property is false of the code, in five ways: options of an earlier call, an exception, a killed process, and for seven and eight legs the order of python sets in one process. What happens is characterised completely: without the cache as promised, with the cache everything is decided by the first construction for n. For up to six legs the set orders do not matter (proved for all orders).

### C47 phasespace_consistency_check reports exactly the outliers — proved

*Model and proof.* Sort.v: the bubble sort with fuel, moduli in any strict weak order.

*Theorems* (Properties09.v): `C47_outliers`, `C47_nan`, `C47_error`, `C47_default`.

*Result.* For every strict weak order of moduli and every list. The bubble sort terminates within length^2 + 1 passes. The list is a value in the model, so the copy of the caller's list (particles.py:329) is part of the reading of the code, not of a theorem. nan is modelled as a test on moduli, not as an incomparable element. The printing and the choice of the threshold for each field are not modelled.

### C48 Internal masses are remembered and retrievable — partial

*Model and proof.* Masses.v: a heap of sets (python sets are shared by reference), programs of constructions and assignments. MassNameThm.v: the names accepted, by induction on the text, and that sets hold no name twice, an invariant of all programs.

*Theorems* (Properties06.v, Properties38.v): `C48_listed_partial`, `C48_assign_partial`, `C48_construct_partial`, `C48_set_partial`, `C48_shared_set_refuted`, `C48_list_refuted`, `C48_legs`, `C48_leg_name_refuted`, `C48_property_refuted`, `C48_names`, `C48_once`, `C48_given`.

*Result.* which names are names of masses, and that no set of names holds a name twice, proved for all programs; the rest proved for dicts and for sets given to one point only; lists, tuples, shared sets, names m_i and names of properties refuted

### C49 Twistor generated points are physical — proved

*Model and proof.* Twistor.v; telescoping sums.

*Theorems* (Properties09.v): `C49_physical`, `C49_returns`, `C49_one`.

*Result.* For every field, convention, number of particles and list of twistors. The state left behind by a call that raises is not modelled.

### C50 Polarisation contractions are transverse and gauge consistent — partial

*Model and proof.* Polar.v; recursion depth as fuel.

*Theorems* (Properties10.v, Properties33.v): `C50_ep`, `C50_transverse`, `C50_conservation`, `C50_linear`, `C50_reference`, `C50_ee_partial`, `C50_ee_symmetric_partial`, `C50_ee_equal`, `C50_labels`, `C50_ee_minus_refuted`, `C50_ee_plus_endless`.

*Result.* Everything about ep is proved for all accepted symbols, points and reference vectors. ee is proved when both symbols are of one style (+ and -, or p and m); for m against - the value is neither zero nor symmetric (refuted), and + against p recurses for ever (proved for every recursion limit).

### C51 Numeric sub-expressions are evaluated with the usual precedence — partial

*Model and proof.* Parse.v: every substitution of `_parse` on characters (the patterns with repetitions through the matcher of Regex.v), a lexer and parser for python expressions and `_eval_node`. The specification (ParseSpec.v) is a tree with its ordinary value and its rendering. Each pass is shown to change exactly the symbols it is meant for, by what can stand at each position of the text (ParseChars, ParseText, ParseWrap, ParseOpen, ParseStars).

*Theorems* (Properties13.v): `C51_partial`, `C51_power_of_fraction_refuted`, `C51_repeated_division_refuted`, `C51_power_over_refuted`, `C51_float_refuted`, `C51_wrapped_twice_refuted`.

*Result.* Proved from the text: all substitutions of _parse in their order, a python lexer and parser, and _eval_node, for every expression of whole numbers and invariants (two-brackets, s, chains, tr, tr5, Omega, Pi and Delta with bars) with + - * / ^, parentheses and products without a sign, however spaced, with either brackets and minus signs. Side conditions are needed, and dropping each is refuted: no whole numbers taken together around a / against the precedence, no division or negative power of whole numbers that makes a float, and, for the longer invariants, labels of one digit in chains and traces. m_i, Delta without bars and a chain starting with two digits are wrapped twice and give SyntaxError.

### C52 Points returned by image and copy are independent of the original — proved

*Model and proof.* Heap.v: objects by reference (arrays with shared buffers, particles, points, sets), all setters and list methods as heap programs, deepcopy with its memo. Separation invariant, induction over interleaved commands of two clients.

*Theorems* (Properties15.v): `C52_image`, `C52_copy`, `C52_unchanged`, `C52_cluster_refuted`, `C52_slice_refuted`.

*Result.* Proved on a heap model (arrays with shared buffers, particles with private attributes, points) for every interleaving of commands of two clients, one holding the original and the other the image or the copy. For cluster (a corner of one leg) and for slices the same statement is false, with witnesses.

### C53 Saving a phase space point never destroys an earlier one — partial

*Model and proof.* Save.v: a directory as a dictionary from names to contents.

*Theorems* (Properties09.v): `C53_third_refuted`, `C53_first`, `C53_later`, `C53_first_forever`, `C53_two`, `C53_third`.

*Result.* The property as stated is false: the third call for the same invariant overwrites the file of the second. Proved: the first file is never touched again by any sequence of calls, the first two calls are kept. The directory is a dictionary; the contents are opaque.

### C54 Setting pairs of two-bracket invariants — proved

*Model and proof.* SetPair.v.

*Theorems* (Properties08.v, Properties33.v): `C54_two_free`, `C54_variety`, `C54_returns`, `C40_pair`, `C54_sign_refuted`, `C54_same_error`.

*Result.* exact unless momentum conservation is restored with legs of the other bracket; then only up to sign (refuted at four legs)

### C55 Univariate slices — proved

*Model and proof.* Slice.v: polynomials in one or two parameters as coefficient lists.

*Theorems* (Properties10.v): `C55_slice`, `C55_affine`, `C55_bivariate`, `C55_unused`.

*Result.* The values returned by the Groebner basis library are an input: any solution of the equations the code builds. The unknowns of the code are values here, the polynomials are in t. Also the bivariate slice, whose fourth family of unknowns is never used.

### C56 Strings are computed as what they show — proved

*Model and proof.* Text.v: a backtracking matcher for the regular expressions, the 19 patterns, the order of the tests. Specification: an inductive relation between invariants and texts (TextSpec.v). Soundness and completeness of the matcher give uniqueness of the match; each pattern is shown to match or not to match each form.

*Theorems* (Properties16.v): `C56_reads`, `C56_one_meaning`, `C56_open_refuted`, `C56_glued`.

*Result.* Proved from the characters: the regular expressions are matched by a backtracking matcher with the order of python, all 19 patterns in the order of compute. The forms are those of TextSpec.v. Round brackets around several entries of an open chain are not recognised (refuted), and round brackets without a bar between them run together.

### C57 Chains are taken apart and put together without loss — proved

*Model and proof.* Text.v: both functions on characters.

*Theorems* (Properties16.v): `C57_writes`, `C57_back`, `C57_reads`, `C57_minus_refuted`.

*Result.* For sums of labels, which is what _lNB_to_string can write. _get_lNB raises ValueError for chains with a minus.

### C58 Subscripts by strings — partial

*Model and proof.* Text.v: getitem and setitem by strings, on top of Particle.v.

*Theorems* (Properties16.v): `C58_set_get`, `C58_ignored`, `C58_first_digit`, `C58_label_refuted`.

*Result.* Proved for the four spinors of every leg. For other strings the property is false: reading gives the leg of the first digit only (refuted for labels of two digits), and assigning does nothing. \d is the digits 0 to 9 in the model.

### C59 Every generated invariant can be computed — partial

*Model and proof.* Gen.v and Text.v together: every generator of strings is shown to write names in the sense of TextSpec.v whose labels exist.

*Theorems* (Properties16.v): `C59_computed`, `C59_ten_refuted`.

*Result.* Proved for up to nine legs, all options, all set orders and all outcomes of the numerical tests. For ten legs it is false: s_1210 is read as the labels 1, 2, 1, 0.

### C60 Analytic points — proved

*Model and proof.* RatPoly.v, RatFun.v: the field of rational functions over any field, as reduced fractions, with a proof that it is a field; Analytic.v iterates it once per symbol. Specification: the value of an expression as a relation (AnalyticSpec.v). It is a homomorphism, and every invariant respects homomorphisms (ComputeThm5.v).

*Theorems* (Properties17.v): `C60_exists`, `C60_consistent`, `C60_substitution`, `C60_values`, `C60_identity`.

*Result.* Two expressions with equal values are the same expression in the model.

### C61 Generators of Lorentz covariant ideals — partial

*Model and proof.* Analytic.v: the generators as expressions. From C60 and uniqueness of values; constants are recognised by having one value only.

*Theorems* (Properties17.v): `C61_variety`, `C61_exists`, `C61_constant_refuted`.

*Result.* The vanishing locus is proved for all covariants. The generators exist if no entry of a covariant is constant; in general this is false: for a covariant that is identically zero, like ⟨1|1⟩, sympy.Poly raises (refuted).

### C62 Points on singular varieties — proved

*Model and proof.* Analytic.v: the loop over the legs, invariant over the legs done so far; the solver is a universally quantified function.

*Theorems* (Properties17.v): `C62_update`, `C62_forgets`, `C62_missing`, `C62_roundtrip`, `C62_singular_variety`, `C62_from_singular_variety`.

*Result.* point_on_variety (syngular, Singular) is an arbitrary function.

### C63 Four brackets that are products — partial

*Model and proof.* On Gen.v. Specification (FourSpec.v): points of every field, products of proper shorter invariants, the three ways to be reducible as statements on sets of legs. The identities follow from momentum conservation and Pmat·Pmat = mass; the generated parts have at most half of the legs, which excludes the exceptional cases.

*Theorems* (Properties18.v): `C63_value`, `C63_products`, `C63_left_out`, `C63_all_left_out`, `C63_refuted`.

*Result.* Proved for all multiplicities: the reducible brackets are products and are left out, and what is left out is characterised. That only products are left out is false: the third test looks at the difference of the sets in one direction only, so that ⟨1|(2+5)|(1+3)|2⟩ for five legs is left out though it is no product (refuted, with a point where it vanishes and nothing listed does).

### C64 Four brackets that agree — partial

*Model and proof.* On Gen.v: an invariant of the removing loop, every bracket missing from the list has a double in the list the loop started from.

*Theorems* (Properties18.v): `C64_three_forms`, `C64_removed`, `C64_refuted`.

*Result.* The identities and that only doubles are taken away are proved for all multiplicities and set orders. That one of them is kept is false: for seven legs and ascending set order ⟨4|(2+3)|(5+6)|4⟩ and all that agrees with it is taken away (refuted, with a point where it vanishes and nothing listed does).

### C65 Restricted lists keep the neighbouring brackets — partial

*Model and proof.* On Gen.v. Specification: runs of consecutive legs (RestrictSpec.v). The iteration is shown to compute reachability within the set: a pass that adds no member closes the list, so that as many passes as members suffice; connected subsets of a cycle are runs.

*Theorems* (Properties19.v): `C65_three`, `C65_four`, `C65_ten_refuted`.

*Result.* Proved for three brackets and all multiplicities, and for four brackets up to nine legs. From ten legs on it is false for four brackets: the length of a part is the number of characters, so that (9+10) counts as too long (refuted).

### C66 Five brackets — proved

*Model and proof.* On Gen.v, with the lemmas of C65: a part that crosses the place of i is not consecutive, so that the cuts are those of the cyclic order.

*Theorems* (Properties19.v): `C66_five`.

*Result.* The last part is written in the order of a python set, which is an arbitrary reordering.

### C67 Legs that may absorb the violation of momentum conservation — proved

*Model and proof.* SetPairMore.v models `_can_fix_mom_cons` on strings taken apart; SetMoreSpec.v says which spinors a string is made of. Each branch is shown to return legs whose changed spinor is in neither string; fix_mom_cons then keeps both values (view machinery of SetThm.v).

*Theorems* (Properties20.v): `C67_sound`, `C67_restores`, `C67_complete`, `C67_no_free_refuted`.

*Result.* Completeness is stated for exactly one free leg; without a free leg it is false: nothing is found for a bracket and a string without a common leg.

### C68 Legs that may absorb the violation for two three-brackets — proved

*Model and proof.* As C67, for three-brackets, where a leg that is both in the sum and next to it drops out.

*Theorems* (Properties20.v, Properties37.v): `C68_sound`, `C68_restores`, `C68_or_raises`, `C68_mixed_refuted`.

*Result.* The choice is not complete: with one free leg nothing is tried for brackets of different kinds.

### C69 Closed formula for two three-brackets on three legs — proved

*Model and proof.* The formula solves two linear equations for the two components of |A⟩ (`field`); restoring momentum conservation with axis 1 needs [pq], which is exact in both directions.

*Theorems* (Properties20.v): `C69_formula`, `C69_labels_refuted`.

*Result.* The code also uses the formula for other strings on the same three labels, with a wrong result.

### C70 Strings are rewritten to equal strings — proved

*Model and proof.* Each rewriting (complement of a sum, reversal, reordering) keeps the value up to sign; the compositions follow by case analysis of the plans.

*Theorems* (Properties20.v): `C70_chain`, `C70_three`.

### C71 Setting a bracket and a longer string — partial

*Model and proof.* The plan is computed for two free legs (the string is turned round at most once); the setters of C35-C37 are exact and change one spinor, which the bracket does not contain.

*Theorems* (Properties20.v): `C71_head`, `C71_middle`, `C71_shared_end_refuted`, `C71_empty_refuted`.

*Result.* False as stated. Proved when the leg that is changed occurs once: at the start of the string as it is set (C71_head) or as the first entry of the first sum that occurs nowhere else (C71_middle). Otherwise the end that is shared with the bracket may be changed; and without free legs an empty complement raises TypeError.

### C72 Setting two three-brackets — partial

*Model and proof.* As C71 for two three-brackets.

*Theorems* (Properties20.v): `C72_middle`, `C72_ends`, `C72_reorder_refuted`, `C72_shorter_refuted`, `C72_turned_refuted`, `C72_unassigned_refuted`.

*Result.* False as stated. Proved when the second sum has a leg of its own that is not an end (C72_middle) and when the sums agree and the starts differ (C72_ends). Four other branches fail for different reasons.

### C73 Classes of equal ideals under permutations — proved

*Model and proof.* Class.v models `equivalenceClass` with its dictionary by value. Specification (ClassSpec.v): equivalence, no two values the same, zeros of texts. The images are an action of the permutations on texts (on C44); grouping by an equivalence gives classes whose sizes add up to n!, and each has the size of the stabiliser.

*Theorems* (Properties21.v): `C73_classes`, `C73_itself`, `C73_number`, `C73_points`.

*Result.* Equality of ideals (syngular, Singular) is an arbitrary equivalence relation on lists of generators; the count needs that it is preserved by permutations, the statement on points that equal ideals have the same zeros. Generators are texts of polynomials as in C44, up to nine legs.

### C74 Membership of a covariant in an ideal — proved

*Model and proof.* Member.v models `__contains__`; members of the generated ideal are combinations of the generators (MemberSpec.v), substitution of a point is a ring morphism (C60, C61).

*Theorems* (Properties21.v): `C74_vanishes`, `C74_given`, `C74_answers`.

*Result.* The membership test of polynomials (syngular, Singular) is an argument that has to be sound; that it finds the generators themselves is needed for C74_given only.

### C75 Conversion between spinor components and invariants — proved

*Model and proof.* Member.v models conversionIdeal and the constructor of SpinorIdeal on pairs (variable, polynomial). The variety is the graph of the brackets; the number of a pair in the order of the code is a closed formula in the specification.

*Theorems* (Properties21.v): `C75_conversion`, `C75_exists`, `C75_spinor_ideal`, `C75_values`.

*Result.* The elimination (Singular) is an argument whose results have to be consequences. Whether the ranges of variables given to it are the right ones depends on how syngular counts them, which is not in the repository.

### C76 Variables of the polynomial rings — proved

*Model and proof.* Induction on n; the multiplicity is recovered by an integer square root.

*Theorems* (Properties21.v): `C76_covariant`, `C76_invariant`, `C76_pairs`, `C76_no_legs_refuted`.

*Result.* The square root is exact in the model. For no legs the number found is 1 (refuted), which cannot occur in a ring.

### C77 Closed formulas for a sum of momenta and a Gram determinant — proved

*Model and proof.* ClosedText.v holds the text of the two formulas, cut where their subexpressions repeat; Closed.v parses and evaluates it. The parsed trees are reflected into polynomials of the standard library (Ring_polynom), where the identity 4 D^2 (X - Delta) = A e^2 - B e + C (1139 monomials) is checked by computation; the lemma that equal normal forms have equal values carries it to every field. Then the pair setter, as for C72.

*Theorems* (Properties22.v): `C77_formulas`, `C77_formulas_total`, `C77_pair`, `C77_outcome`, `C77_larger_corner_refuted`.

*Result.* The text of the formulas is in the model, and is parsed by it. A square root that does not exist is an error. With a larger corner the code fails (refuted).

### C78 Expressions evaluated at a point — proved

*Model and proof.* ExprSpec.v says which invariant each word of an expression stands for. TextThm7.v: the text of an expression with more than one symbol matches none of the 19 patterns (what can stand before the end of a match), a single word is shown by the relation of C56, and C51 gives the value. ParseVary.v: spaces, brackets and minus signs are undone by the first substitutions.

*Theorems* (Properties23.v): `C78_value`, `C78_invariant`.

*Result.* The conditions on the expression are those of C51 (whole numbers next to a slash). Without new lines, which the patterns of python treat specially at the end of a text. The value of a single invariant is that of compute (C04, C05, C28 and others).

### C79 Brackets of massive spinors — proved

*Model and proof.* Tensor.v models the part of the expression grammar with arrays (matrix products, lists, numpy.block, numpy.transpose, subscripts) and its evaluation. TensorThm.v: it extends the evaluation of Parse.v. TensorText.v and TensorTree.v run all substitutions of _parse on texts whose labels are variables (a rewriting strategy over lemmas that say where each pattern can match), then the tokens and the tree. TensorEval.v: the values of the blocks, by ring identities.

*Theorems* (Properties24.v, Properties35.v, Properties36.v): `C79_same`, `C79_angle`, `C79_square`, `C79_slice`, `C79_block`.

*Result.* Brackets of two spinors; chains are C80.

### C80 Chains between massive spinors — partial

*Model and proof.* TensorChain.v extends the walk of C79 to texts with an arbitrary sum between two bars (what can be matched at and after the bars; that the middle is matched as a whole). The square of the Levi-Civita tensor turns the matrix of a momentum into its adjoint.

*Theorems* (Properties25.v): `C80_angle`, `C80_square`, `C80_reversed`, `C80_two_digits_refuted`.

*Result.* Chains with one sum of momenta between two massive spinors. When the leg in a square bracket at the beginning has two digits the value is wrong (refuted): the look-behind pattern expects one digit. Chains with one massless end are C81.

### C81 Chains with a massless and a massive end — proved

*Model and proof.* TensorMixed.v follows chains with one massive end through the substitutions: the two patterns for open chains match exactly the part beside the massive spinor, and the patterns for open spinors are blocked by what follows or precedes the bar. The value is a product of an open chain (C57) and a massive row or column (C79).

*Theorems* (Properties25.v): `C81_ends_angle`, `C81_ends_square`, `C81_ends_reversed`, `C81_mixed_refuted`.

*Result.* The condition on the label next to the massless end is needed (C81_mixed_refuted): otherwise the text made of the chain is not Python. Two massive ends with a square bracket first need a one-digit leg, as in C80; two massless ends need the unicode brackets.

### C82 Every text keeps its value modulo a prime — proved

*Model and proof.* Reduce.v models the two functions for an arbitrary conversion of numbers. ReduceThm.v: a relation between the two points that every operation of compute preserves, by induction over chains, determinants and sums; then over the tree of an expression, where each division either has a zero denominator after the conversion or is converted; then over the recursion of compute on texts. ReduceWide.v: the same for arrays. ReduceInst.v: the rational numbers modulo p.

*Theorems* (Properties26.v): `C82_text`, `C82_wide`, `C82_invariants`, `C82_legs`, `C82_defined`, `C82_conserved`, `C82_back`, `C82_mod_p`, `C82_same_refuted`, `C82_massive_refuted`.

*Result.* The map of numbers (pyadic) is any place between two fields; rational numbers modulo an odd prime are one (C82_mod_p). The exception for denominators is needed (C82_same_refuted). A massive leg loses its mass (C82_massive_refuted). The precision of p-adic numbers is not modelled.

### C83 check_consistency agrees with compute — proved

*Model and proof.* Consist.v models the function with its slices and splits. The strings are those of C56 (relation shows); for each of the twenty kinds the result is computed, for chains by counting the pieces between separators by induction over the entries.

*Theorems* (Properties26.v): `C83_verdict`, `C83_rejected`, `C83_raises`, `C83_tr5_refuted`, `C83_letter_refuted`.

*Result.* tr5_1234 is among the strings that are complained about although it has its underscore (C83_tr5_refuted).

### C84 != and hash of points — proved

*Model and proof.* Points.v models list.__ne__ and the key of the hash; induction over the legs.

*Theorems* (Properties26.v): `C84_not_equal`, `C84_negation`, `C84_both_refuted`, `C84_hash`, `C84_hash_same`, `C84_hash_raises`.

*Result.* For different numbers of legs a == b and a != b can both be true (C84_both_refuted). What is fed to hash() is modelled, not the number it returns.

### C85 Sums of products of brackets with massive spinors — proved

*Model and proof.* TensorSum.v to TensorSumTree.v follow the text of a sum bracket by bracket through every substitution of _parse, through the lexer and the parser, by induction over the factors and terms; TensorSumThm.v evaluates the tree. TensorSumSpec.v says which texts are meant and their values.

*Theorems* (Properties27.v): `C85_sums`, `C85_power_refuted`, `C85_quotient_refuted`, `C85_side_by_side_refuted`.

*Result.* At least one bracket has a massive end; without one it is C78. Only + - and *: powers of a massive bracket and division by one are silently wrong (C85_power_refuted, C85_quotient_refuted), and two brackets without * between them can be an error (C85_side_by_side_refuted).

### C86 The text for Mathematica — partial

*Model and proof.* Mathematica.v models str.replace and the functions; MathematicaThm.v follows a line with arbitrary numbers through each replacement, character by character for the fixed parts and by lemmas about the characters of numbers for the others; induction over the legs.

*Theorems* (Properties28.v): `C86_momenta`, `C86_spinors`, `C86_file`, `C86_file_never`, `C86_sign_refuted`.

*Result.* Momenta and spinors are proved. The files of save_phase_space_point are never as stated: every number is followed by a stray quote, because repr(x)[5:-1] keeps the quote of mpf('...') (C86_file says what is written, C86_file_never that it is always wrong). The replacement of +- by - has no effect (C86_sign_refuted). The text that mpmath prints for a number is given, not modelled.

### C87 Three momenta, their masses and the Kallen function — proved

*Model and proof.* ThreeKs.v composes Arcs.v and Cluster.v; the Gram determinant of the arcs (C28) with the sum of two corners replaced by minus the third.

*Theorems* (Properties29.v): `C87_momenta`, `C87_kallen`, `C87_masses`, `C87_thresholds`.

*Result.* Existence of the three momenta is for the symmetric choice of spinors of the sums; the other statements are for every choice. A mass that is not in the field is an error in the model, an element of the field extension in the code.

### C88 Outer products of spinors in expressions — partial

*Model and proof.* OuterText.v follows the text through every substitution of _parse with the parts of the text as an inductive type, OuterTree.v through the lexer and the parser; OuterThm.v evaluates the tree with the broadcasting of Tensor.v. OuterSpec.v says which texts are meant and the matrices they stand for.

*Theorems* (Properties30.v): `C88_matrices`, `C88_momentum`, `C88_conserved`, `C88_product_refuted`, `C88_square_refuted`.

*Result.* Sums, the momentum of massless legs and its conservation are proved. Side by side, |i>[j||k]<l| is the product of the entries one by one and not the matrix product, which needs an @ (C88_product_refuted), and |i>[j|^2 squares the entries of the row only (C88_square_refuted).

### C89 Random complex or real momenta — partial

*Model and proof.* MpcRandom.v models the loop with the drawn numbers as a list, over any field with real and imaginary part, an order of the real numbers and the principal square root (record Cx, instance GQX in MpcInst.v: rational numbers with i). Induction over the draws; for the spinors, e + z = 0 is solved with the sign of the principal root.

*Theorems* (Properties31.v, Properties33.v): `C89_fraction`, `C89_components`, `C89_loop`, `C89_real`, `C89_complex`, `C89_complex_refuted`.

*Result.* Proved for real momenta. For complex ones the test of the loop lets momenta without spinors pass, for example pz = -i or (1, i, -1) (C89_complex_refuted); C89_complex says exactly which. Numbers are exact and square roots are those of the field with the sign of mpmath, there is no rounding; a root that is not in the field is no result.

### C90 Points of random complex or real momenta — partial

*Model and proof.* MpcPoint.v builds the legs of MpcRandom.v and hands them to the model of fix_mom_cons (Phase.v). For real momenta the sum of the outgoing legs is positive by induction and the two adjusted legs follow from it.

*Theorems* (Properties31.v): `C90_real`, `C90_error`, `C90_complex`, `C90_three`, `C90_two`, `C90_spinors_refuted`, `C90_two_refuted`.

*Result.* Proved for real points with three or more legs except that one of the two adjusted legs can have zero momentum and then no spinors, which for three legs is always so (C90_three, C90_spinors_refuted). For two real legs the constructor always raises TypeError (C90_two, C90_two_refuted). Complex points are physical if the drawn momenta have spinors (C89).

### C91 Lists derived from the families of invariants — partial

*Model and proof.* Derived.v models the two properties of Invariants on the lists of Gen.v. DerivedSpec.v tells brackets by their characters: an opening ⟨ or [ and the number of parentheses. DerivedThm.v counts the parentheses of each family by induction over the parts of a bracket.

*Theorems* (Properties32.v): `C91_minus`, `C91_N`, `C91_seven`, `C91_seven_refuted`.

*Result.* Proved for every number of legs but seven. For seven legs invariants.py:103 appends the Gram determinant Δ_12|347|56 to the four brackets, so full_minus_4_brackets loses it and invs_N contains it (C91_seven_refuted); C91_seven says that this is the only difference.

### C92 Signs and conjugates at real points — partial

*Model and proof.* MpcSignSpec.v defines the conjugate, the factor of a leg and not negative. MpcSignThm.v: the forward cone is closed under sums (induction), so the determinant of a sum of outgoing momenta is not negative; the square spinor is the conjugate of the angle spinor because the square root of E + pz is real or imaginary with the sign of the energy.

*Theorems* (Properties33.v): `C92_outgoing`, `C92_incoming`, `C92_mixed`, `C92_brackets`, `C92_asymmetric_refuted`.

*Result.* The signs of the invariants are proved for all lists of legs. The conjugation of brackets is proved for the symmetric convention; for the asymmetric one C92_brackets gives the factors 1/(E+pz) of the two legs, and with them [ji] is not the conjugate up to a sign (C92_asymmetric_refuted).

### C93 Substitution by dictionaries — partial

*Model and proof.* Str.v models the scan of re.sub with the position and the rest of the match. SubsSpec.v defines the replacement as an inductive relation on texts; SubsThm.v proves that the scan gives the only text in that relation, by induction over the length of the text. For single characters the scan is a map.

*Theorems* (Properties34.v): `C93_subs`, `C93_shadow`, `C93_round_trip`, `C93_round_trip_refuted`, `C93_empty`.

*Result.* The substitution is proved for all texts and dictionaries; a key that begins with an earlier key is never found (C93_shadow), and an empty dictionary raises KeyError. The round trip is proved for keys and values of one character when the text contains no value that is not a key, as for the bold digits; otherwise it is false (C93_round_trip_refuted). Only escape=True is modelled; a dictionary with the empty string as a key is not.

### C94 Values for the symbols of a point — partial

*Model and proof.* PartSubs.v models the components as numbers or polynomials of sympy in expanded form, with the class of each expression (Integer, Symbol, Pow, Mul, Add). PartSubsSpec.v gives a polynomial its value for an assignment of the symbols; PartSubsThm.v proves by induction over the terms that collecting, multiplying, substituting and reducing the coefficients keep the value.

*Theorems* (Properties35.v): `C94_value`, `C94_numbers`, `C94_power`, `C94_reduced`, `C94_point`, `C94_points`, `C94_twice`, `C94_relation`, `C94_mass`, `C94_pow_refuted`, `C94_integer_refuted`.

*Result.* Proved for every component that is not a power of one symbol with coefficient 1. Such a power is a sympy.Pow, which is not among the classes of particles.py:238, so it is left as it is (C94_power), and two substitutions in a row can give another value than both together (C94_pow_refuted). A component whose symbols vanish modulo the characteristic stays an integer of sympy (C94_integer_refuted). Finite fields only; p-adic numbers are not modelled here.

## Findings about the code

Each of these is a theorem ending in `_refuted` (or an error theorem) unless marked "read only", which means
that it was seen in the text and not modelled.

* A caught exception inside a momentum setter leaves a stale `four_mom` (C01).
* Particle sums with p0+p3 = 0 raise in the asymmetric convention (C05).
* Equal particles have different hashes after a little group rescaling; hashing a massless particle without
  spinors raises (C06).  `Particles([]) == anything` is True; a proper prefix compares equal, the converse
  raises IndexError (C09).
* angles_for_squares twice negates both spinors of a leg with a spin index (C07).
* `oPs["12"]` is particle 1 (C08).  fix_mom_cons with one zero label silently does nothing (C10).
* image and copy mix up legs with equal momenta; copy is wrong from ten legs on and raises on the empty
  point (C13, C14); symmetries of ten or more legs are ambiguous strings (C43); `all_symmetries` never
  returns a conjugated entry.
* cluster with an empty corner fails (C16); mass aliases of unions or reordered corners are lost (C18).
* Odd traces are accepted and are not Lorentz invariant (C23).  `<1|2|3|4>` evaluates `[1|2|3|4]` (C24).
  tr5 of a massive first entry has the wrong sign (C25).
* ijk_to_3NonOverlappingLists loops for ever on labels that are not legs (C30).  Π with a one-leg first arc
  raises IndexError (C32).  to_field makes massive legs massless (C33).
* `_set`: reversed even chains, labels in the last entry, two-label s, one-leg arcs, odd orders of tr5 fail
  (C35, C36, C38, C39).  `myException(...)` is created but not raised in particles_set.py:85, 101, 113
  (read only).  Oijk and Pijk ignore fix_mom (read only).
* `_set_pair` checks other invariants than requested when its solver switches them, may recurse for ever, and
  is only exact up to sign (C40, C54).  Unknown kinds return None silently (read only).  s × s exchanges the
  strings but not the values when the first is longer (read only).
* `_can_fix_mom_cons` finds nothing for a bracket and a string without common leg that use all legs (C67); the
  choice for two three-brackets tries nothing for different kinds and one free leg (C68).  The closed formula
  for two three-brackets is used for strings to which it does not apply (C69).
* A bracket next to a string whose end it shares is destroyed by the second setter; an empty complement raises
  TypeError (C71).  Two three-brackets: a closing bracket in place of an opening one (particles_set_pair.py:531),
  the shorter string set first with the other's mode, starts compared before one string is turned round, and a
  mode that is never assigned (C72).
* Lists, tuples and shared sets of internal masses lose names; `m_i` as a name returns s_i; the mass pattern
  matches names of properties; a failed `oPs.name = x` leaves the name behind (C48).
* The third saved point overwrites the second (C53).  Mixed helicity symbols give wrong or endless `ee` (C50).
* `_parse` folds fractions against the precedence, integer quotients become floats, and `m_1`, `Δ_135` and `⟨10|2+3|11]` are wrapped twice, which is a syntax error (C51).
* `[9^|5|1_⟩` is not `⟨1_|5|9^]`: the look-behind that finds a square bracket before the middle of a chain expects one
  digit, and 9^ stands for leg 10 (C80).
* `[4^|5+12|3⟩` and `⟨3|(5)|4^]` are rejected with a SyntaxError, `⟨3|5+12|4^]` is not: the look-aheads that keep an
  open spinor from being taken out of a chain expect one digit beside the bar, without round brackets (C81).
- padic_to_finite_field and finite_field_to_padic set only r_sp_d and l_sp_d of new particles, so a massive leg
  becomes one with a different momentum (C82_massive_refuted).
- check_consistency looks at the fifth character of `tr5_...` for the underscore, which is the fourth, so it complains
  about every well formed `tr5_1234`; the complaint is built but never raised (C83_tr5_refuted).
- check_consistency raises IndexError for the text `s` (C83_letter_refuted).
- `Particles` overrides `==` but inherits `!=` from list; `==` compares leg by leg along the left point, so a prefix
  is both equal and not equal to a longer point (C84_both_refuted).
- The power of a bracket with a massive end and the quotient by one have silently wrong values: `_parse` turns the bracket into
  `a@b` without round brackets, so `⟨1_|3⟩^2` becomes `a@b**2` and `x/⟨1_|3⟩` becomes `(x/a)@b` (C85_power_refuted,
  C85_quotient_refuted).
- The files of save_phase_space_point do not contain the spinors: `repr(x)[5:-1]` (particles.py:532 and three more lines) leaves the closing
  quote of `mpf('...')` behind each number, which Mathematica takes for a derivative (C86_file, C86_file_never).
- In four_momenta_for_mathematica `+-` is replaced before the quotes between `+` and `-` are removed, so it stays (C86_sign_refuted).
* Invariants(n) depends on earlier options, failures, killed processes and the order of python sets at seven
  and eight legs; the cache is keyed by n only (C46).
* A one-leg corner of cluster shares arrays with the original; so do slices (C52).
* bivariate_slice never uses its fourth family of unknowns (C55).
* Conjugated images of inhomogeneous invariant polynomials are wrong (C44); covariant_poly_image reads one
  digit only, so that ten or more legs are wrong (read only); recurse_s_ijk_gen is wrong from eleven legs on
  (read only).
* Four brackets that are no products are left out from five legs on; at seven legs and ascending set order all
  representatives of ⟨4|(2+3)|(5+6)|4⟩ are removed (C63, C64).
* Purge4Brackets counts characters, so that it drops neighbouring brackets with the leg 10 (C65).
* LipsIdeal of a covariant that is identically zero raises (C61).
* The text of C34 says that A's spinor changes; the code changes B's.

## Mutation tests

`/verif/seeded/LOG.jsonl` has one line per wrong program tried: the definition edited, the edit, the claim it
breaks, the theorems that failed and the theorems that had to be tightened.

## A check of the model against numbers in the source

The comments in `particles_set_pair.py` say how many pairs of the six-leg invariants fail for each solver
(lines 157, 210, 278, 329, 372, 585, 673, 787, 833).  The model was evaluated (`vm_compute`, in scratch files, at
several points modulo 211 and 1009) on all these pairs, with the lists of invariants taken from the model of
`invariants.py`.  It gives the same numbers of pairs and the same numbers of failures: 0/870, 48/4680, 0/300, 0/60,
180/6972, 0/840, 38/168, 0/90, 8/20.  Failures to find a square root in the finite field are not counted; the 0/840
needs equal targets (with different targets 30 pairs fail, see C40_pair_switch_refuted).
