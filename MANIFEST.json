{
 "claims": [
  {
   "property": "C01",
   "status": "proved",
   "theorems": [
    "C01_representations_agree",
    "C01_representations_agree_despite_exceptions",
    "C01_stale_after_exception_refuted"
   ],
   "note": "Invariant by induction over operation lists; extra theorem covers caught exceptions when i is in the field; without i a caught TypeError leaves a stale momentum (finding)."
  },
  {
   "property": "C02",
   "status": "proved",
   "theorems": [
    "C02_massless_spinors"
   ],
   "note": "All four momentum setters, both conventions, both the p0+p3<>0 and =0 case."
  },
  {
   "property": "C03",
   "status": "proved",
   "theorems": [
    "C03_spinor_assignment"
   ],
   "note": ""
  },
  {
   "property": "C04",
   "status": "proved",
   "theorems": [
    "C04_mass",
    "C04_ldot",
    "C04_ldot_bilinear"
   ],
   "note": ""
  },
  {
   "property": "C05",
   "status": "partial",
   "theorems": [
    "C05_arithmetic",
    "C05_sum",
    "C05_eq_all_representations",
    "C05_asymmetric_sum_refuted"
   ],
   "note": "Full statement proved for the default symmetric convention; REFUTED for the asymmetric convention: a sum with p0+p3=0 raises ZeroDivisionError."
  },
  {
   "property": "C06",
   "status": "partial",
   "theorems": [
    "C06_equal_hash_refuted",
    "C06_hash_raises_refuted",
    "C06_equal_hash_partial"
   ],
   "note": "REFUTED: little-group rescaled equal particles feed different tuples to hash(); hash of a massless particle without spinors raises. Guarded version proved."
  },
  {
   "property": "C07",
   "status": "partial",
   "theorems": [
    "C07_flip_involution",
    "C07_flip_compute",
    "C07_flip_tr5",
    "C07_flip_physical",
    "C07_spin_index_refuted"
   ],
   "note": "Proved for all legs without spin index (all chains of any length). REFUTED for legs carrying a spin index: applying it twice negates both spinors."
  },
  {
   "property": "C08",
   "status": "proved",
   "theorems": [
    "C08_base_one_index",
    "C08_base_one_history",
    "C08_two_digit_string_refuted"
   ],
   "note": "Integer indices; subscripts by strings are C58. Side finding: oPs[\"12\"] returns particle 1."
  },
  {
   "property": "C09",
   "status": "partial",
   "theorems": [
    "C09_equality_partial",
    "C09_equality_exact",
    "C09_equality_refuted"
   ],
   "note": "REFUTED: a proper prefix compares equal, the converse raises IndexError. Equivalence relation proved among points of equal multiplicity; exact characterisation proved."
  },
  {
   "property": "C10",
   "status": "proved",
   "theorems": [
    "C10_fix_mom_cons",
    "C10_same_leg",
    "C10_one_zero_label_silent_refuted"
   ],
   "note": "All n, A<>B, both axes, all fields, error branch included. Side finding: exactly one zero label is a silent no-op."
  },
  {
   "property": "C11",
   "status": "proved",
   "theorems": [
    "C11_fix_mom_cons_real"
   ],
   "note": "Reality is closure under any subfield; error branch K0=K_axis included."
  },
  {
   "property": "C12",
   "status": "proved",
   "theorems": [
    "C12_new_point",
    "C12_randomise_all"
   ],
   "note": "Random draws and random.sample are universally quantified arguments."
  },
  {
   "property": "C13",
   "status": "proved",
   "theorems": [
    "C13_image",
    "C13_identity",
    "C13_compose",
    "C13_inverse",
    "C13_conjugation_commutes",
    "C13_rearrangement",
    "C13_stable",
    "C13_short",
    "C13_inverse_any",
    "C13_inverse_out",
    "C13_equal_momenta_refuted"
   ],
   "note": "Strings are lists of digit characters. image succeeds, sends particle i to position perm(i), and is determined by that; identity, composition with exclusive or of the flags, inverse. With equal momenta the clause fails (refuted)."
  },
  {
   "property": "C14",
   "status": "partial",
   "theorems": [
    "C14_copy_partial",
    "C14_ten_legs",
    "C14_ten_legs_refuted",
    "C14_equal_momenta_refuted",
    "C14_empty_refuted"
   ],
   "note": "True for one to nine legs with pairwise different momenta. False at every point with ten or more legs of different momenta, false with equal momenta, ValueError for the empty list."
  },
  {
   "property": "C15",
   "status": "proved",
   "theorems": [
    "C15_relabel",
    "C15_relabel_conjugate"
   ],
   "note": "For every string whose letters are leg labels (chains, traces, tr5, s, Gram determinants with explicit corners); Omega, Pi, Delta_ijk and delta5 refer to the cyclic order and are excluded."
  },
  {
   "property": "C16",
   "status": "proved",
   "theorems": [
    "C16_momentum",
    "C16_invariants",
    "C16_defined",
    "C16_empty_corner_refuted"
   ],
   "note": "every string over clusters (spinor ends being one-leg clusters) equals the string with labels replaced by corners; an empty corner is refuted"
  },
  {
   "property": "C17",
   "status": "proved",
   "theorems": [
    "C17_dirac",
    "C17_completeness",
    "C17_slices",
    "C17_frame"
   ],
   "note": "both positions and values of the spin index; index_value=all through spinors_all"
  },
  {
   "property": "C18",
   "status": "partial",
   "theorems": [
    "C18_alias_partial",
    "C18_numbers",
    "C18_union_refuted",
    "C18_order_refuted",
    "C18_no_corners_refuted"
   ],
   "note": "true when the alias is exactly a corner and no earlier corner is a beginning of it; unions of corners and reordered corners are refuted"
  },
  {
   "property": "C19",
   "status": "proved",
   "theorems": [
    "C19_two_brackets",
    "C19_s_ab"
   ],
   "note": ""
  },
  {
   "property": "C20",
   "status": "proved",
   "theorems": [
    "C20_chain_additive",
    "C20_chain_factor",
    "C20_chain_reverse"
   ],
   "note": "Chains of every length by induction; unicode brackets."
  },
  {
   "property": "C21",
   "status": "proved",
   "theorems": [
    "C21_chain_complement",
    "C21_end_legs",
    "C21_s_complement",
    "C21_sum_j"
   ],
   "note": ""
  },
  {
   "property": "C22",
   "status": "proved",
   "theorems": [
    "C22_little_group",
    "C22_C23_covariance"
   ],
   "note": ""
  },
  {
   "property": "C23",
   "status": "proved",
   "theorems": [
    "C23_lorentz",
    "C22_C23_covariance",
    "C23_odd_trace_refuted"
   ],
   "note": "All closed strings (even traces). Side finding: odd traces are accepted and not Lorentz invariant."
  },
  {
   "property": "C24",
   "status": "partial",
   "theorems": [
    "C24_brackets_partial",
    "C24_ascii_refuted"
   ],
   "note": "Proved for unicode brackets. REFUTED for ASCII: <1|2|3|4> skips the bracket check and evaluates [1|2|3|4]."
  },
  {
   "property": "C25",
   "status": "partial",
   "theorems": [
    "C25_tr5_legs",
    "C25_tr5_first_leg",
    "C25_tr5_value_partial",
    "C25_T5_multilinear_antisymmetric",
    "C25_tr5_sum_refuted"
   ],
   "note": "Proved when the first entry is a one-digit massless leg; exact value in all cases. REFUTED: tr5(1+2|3|4|5) is minus the sum of its parts (rotation of the entries drops a sign)."
  },
  {
   "property": "C26",
   "status": "proved",
   "theorems": [
    "C26_traces",
    "C26_rotation_by_one_refuted"
   ],
   "note": "The first version of the statement claimed that rotation by one equals the reversed trace; that clause is false mathematically (refuted) and was replaced by reversal invariance."
  },
  {
   "property": "C27",
   "status": "proved",
   "theorems": [
    "C27_delta5_is_tr5_squared"
   ],
   "note": "For every choice and order of four of the five legs, not only 1234."
  },
  {
   "property": "C28",
   "status": "proved",
   "theorems": [
    "C28_first_corners",
    "C28_all_corners",
    "C28_three_corners",
    "C28_shorthand"
   ],
   "note": "Any number of corners; shorthand unconditional on legs i,j,k of three arcs."
  },
  {
   "property": "C29",
   "status": "proved",
   "theorems": [
    "C29_det"
   ],
   "note": "Laplace recursion equals the Leibniz sum over any enumeration of all permutations, n>=1 (n=0 returns 0 in the code)."
  },
  {
   "property": "C30",
   "status": "partial",
   "theorems": [
    "C30_three_arcs",
    "C30_out_of_range_refuted",
    "C30_repeated_label_refuted"
   ],
   "note": "Proved, with uniqueness, for three different legs of 1..n. REFUTED for labels that are not legs (infinite loop for every fuel) and for repeated labels (overlap)."
  },
  {
   "property": "C31",
   "status": "proved",
   "theorems": [
    "C31_complementary",
    "C31_momentum"
   ],
   "note": "Iteration order of python sets is a universally quantified oracle."
  },
  {
   "property": "C32",
   "status": "proved",
   "theorems": [
    "C32_Omega",
    "C32_Pi",
    "C32_Omega_Pi_chains",
    "C32_Pi_one_leg_refuted"
   ],
   "note": "Side finding: Pi with a one-leg first arc raises IndexError."
  },
  {
   "property": "C33",
   "status": "proved",
   "theorems": [
    "C33_to_field",
    "C33_mod_p",
    "C33_massive_refuted"
   ],
   "note": "Any ring relation; concrete reduction modulo every odd prime. Massless legs; side finding: to_field turns massive legs into massless ones."
  },
  {
   "property": "C34",
   "status": "proved",
   "theorems": [
    "C34_angle",
    "C34_square",
    "C40_set"
   ],
   "note": "for every point, labels, value and mode; the code changes the second label's spinor, not the first one's as the property text says, and the two free legs; the exact conditions for ZeroDivisionError are part of the theorems"
  },
  {
   "property": "C35",
   "status": "proved",
   "theorems": [
    "C35_head",
    "C35_loop",
    "C35_tail",
    "C35_middle",
    "C35_one_free",
    "C35_flip",
    "C40_set",
    "C35_tail_even_refuted",
    "C35_last_entry_refuted",
    "C35_flip_tail_refuted"
   ],
   "note": "one theorem per branch, labels of one character; the branches that cannot work (even reversal, last-entry label) are refuted"
  },
  {
   "property": "C36",
   "status": "proved",
   "theorems": [
    "C36_sijk",
    "C36_all_but_one",
    "C36_two_labels",
    "C40_set",
    "C36_two_labels_refuted"
   ],
   "note": "three or more labels with two free legs reach the value; two labels are left alone"
  },
  {
   "property": "C37",
   "status": "proved",
   "theorems": [
    "C37_Delta",
    "C37_Delta_ijk",
    "C40_set"
   ],
   "note": "explicit corners and three numbers, every mode"
  },
  {
   "property": "C38",
   "status": "proved",
   "theorems": [
    "C38_Omega",
    "C38_Pi",
    "C40_set",
    "C38_short_arc_refuted"
   ],
   "note": "all arcs with at least two legs where the code takes two; one-leg arcs raise IndexError"
  },
  {
   "property": "C39",
   "status": "proved",
   "theorems": [
    "C39_tr5",
    "C39_tr5_five",
    "C39_tr5_no_single",
    "C39_five_brackets",
    "C40_set",
    "C39_tr5_odd_refuted"
   ],
   "note": "at five points the solution is for tr5_1234 whatever the labels, so odd orders raise"
  },
  {
   "property": "C40",
   "status": "proved",
   "theorems": [
    "C40_set_returns",
    "C40_set",
    "C40_pair_returns",
    "C40_pair",
    "C40_variety",
    "C40_pair_switch_refuted",
    "C40_pair_endless",
    "C40_variety_nonzero_refuted"
   ],
   "note": "for every inner solver; _set_pair accepts either sign of either value, and checks other invariants when the solver for <i|j+k|i] and s_ijk switches them (refuted)"
  },
  {
   "property": "C41",
   "status": "proved",
   "theorems": [
    "C41_fallback",
    "C41_library",
    "C41_no_fallback"
   ],
   "note": "for every setter that keeps the number of particles, and the setters of the library do; p-adic targets are not modelled"
  },
  {
   "property": "C42",
   "status": "proved",
   "theorems": [
    "C42_symmetries",
    "C42_any_length"
   ],
   "note": "Integer weights."
  },
  {
   "property": "C43",
   "status": "proved",
   "theorems": [
    "C43_inverse",
    "C43_identity",
    "C43_all_symmetries",
    "C43_no_conjugation",
    "C43_ten_refuted",
    "C43_eleven_refuted"
   ],
   "note": "For n <= 9 as stated; the refuted theorems show why the bound is needed."
  },
  {
   "property": "C44",
   "status": "proved",
   "theorems": [
    "C44_covariant",
    "C44_invariant",
    "C44_conjugated",
    "C44_lips_ideal",
    "C44_spinor_ideal",
    "C44_inhomogeneous_refuted"
   ],
   "note": "Proved on the texts of polynomials (sums of products of powers, parentheses) for every field, permutation and point, up to 9 legs, and for the generators of LipsIdeal and SpinorIdeal. For polynomials in the invariants that are not homogeneous the conjugated case is refuted."
  },
  {
   "property": "C45",
   "status": "proved",
   "theorems": [
    "C45_two",
    "C45_two_only",
    "C45_s",
    "C45_s_only",
    "C45_tr5",
    "C45_tr5_only",
    "C45_delta",
    "C45_delta_only",
    "C45_three"
   ],
   "note": "For every run of GenerateFromScratch that does not raise, with any options, set order and outcome of the numerical tests, n<=9; occurrences are counted in the whole list. C45_three is about the brackets before Purge3Brackets and holds for every n."
  },
  {
   "property": "C46",
   "status": "partial",
   "theorems": [
    "C46_uncached_partial",
    "C46_first",
    "C46_afterwards",
    "C46_poisoned",
    "C46_same_calls_partial",
    "C46_small",
    "C46_refuted",
    "C46_options_refuted",
    "C46_failure_refuted",
    "C46_killed_refuted",
    "C46_process_refuted",
    "C46_eight_refuted"
   ],
   "note": "The property is false of the code, in five ways: options of an earlier call, an exception, a killed process, and for seven and eight legs the order of python sets in one process. What happens is characterised completely: without the cache as promised, with the cache everything is decided by the first construction for n. For up to six legs the set orders do not matter (proved for all orders)."
  },
  {
   "property": "C47",
   "status": "proved",
   "theorems": [
    "C47_outliers",
    "C47_nan",
    "C47_error",
    "C47_default"
   ],
   "note": "For every strict weak order of moduli and every list. The bubble sort terminates within length^2 + 1 passes. The list is a value in the model, so the copy of the caller's list (particles.py:329) is part of the reading of the code, not of a theorem. nan is modelled as a test on moduli, not as an incomparable element. The printing and the choice of the threshold for each field are not modelled."
  },
  {
   "property": "C48",
   "status": "partial",
   "theorems": [
    "C48_listed_partial",
    "C48_assign_partial",
    "C48_construct_partial",
    "C48_set_partial",
    "C48_shared_set_refuted",
    "C48_list_refuted",
    "C48_legs",
    "C48_leg_name_refuted",
    "C48_property_refuted",
    "C48_names",
    "C48_once",
    "C48_given"
   ],
   "note": "which names are names of masses, and that no set of names holds a name twice, proved for all programs; the rest proved for dicts and for sets given to one point only; lists, tuples, shared sets, names m_i and names of properties refuted"
  },
  {
   "property": "C49",
   "status": "proved",
   "theorems": [
    "C49_physical",
    "C49_returns",
    "C49_one"
   ],
   "note": "For every field, convention, number of particles and list of twistors. The state left behind by a call that raises is not modelled."
  },
  {
   "property": "C50",
   "status": "partial",
   "theorems": [
    "C50_ep",
    "C50_transverse",
    "C50_conservation",
    "C50_linear",
    "C50_reference",
    "C50_ee_partial",
    "C50_ee_symmetric_partial",
    "C50_ee_equal",
    "C50_labels",
    "C50_ee_minus_refuted",
    "C50_ee_plus_endless"
   ],
   "note": "Everything about ep is proved for all accepted symbols, points and reference vectors. ee is proved when both symbols are of one style (+ and -, or p and m); for m against - the value is neither zero nor symmetric (refuted), and + against p recurses for ever (proved for every recursion limit)."
  },
  {
   "property": "C51",
   "status": "partial",
   "theorems": [
    "C51_partial",
    "C51_power_of_fraction_refuted",
    "C51_repeated_division_refuted",
    "C51_power_over_refuted",
    "C51_float_refuted",
    "C51_wrapped_twice_refuted"
   ],
   "note": "Proved from the text: all substitutions of _parse in their order, a python lexer and parser, and _eval_node, for every expression of whole numbers and invariants (two-brackets, s, chains, tr, tr5, Omega, Pi and Delta with bars) with + - * / ^, parentheses and products without a sign, however spaced, with either brackets and minus signs. Side conditions are needed, and dropping each is refuted: no whole numbers taken together around a / against the precedence, no division or negative power of whole numbers that makes a float, and, for the longer invariants, labels of one digit in chains and traces. m_i, Delta without bars and a chain starting with two digits are wrapped twice and give SyntaxError."
  },
  {
   "property": "C52",
   "status": "proved",
   "theorems": [
    "C52_image",
    "C52_copy",
    "C52_unchanged",
    "C52_cluster_refuted",
    "C52_slice_refuted"
   ],
   "note": "Proved on a heap model (arrays with shared buffers, particles with private attributes, points) for every interleaving of commands of two clients, one holding the original and the other the image or the copy. For cluster (a corner of one leg) and for slices the same statement is false, with witnesses."
  },
  {
   "property": "C53",
   "status": "partial",
   "theorems": [
    "C53_third_refuted",
    "C53_first",
    "C53_later",
    "C53_first_forever",
    "C53_two",
    "C53_third"
   ],
   "note": "The property as stated is false: the third call for the same invariant overwrites the file of the second. Proved: the first file is never touched again by any sequence of calls, the first two calls are kept. The directory is a dictionary; the contents are opaque."
  },
  {
   "property": "C54",
   "status": "proved",
   "theorems": [
    "C54_two_free",
    "C54_variety",
    "C54_returns",
    "C40_pair",
    "C54_sign_refuted",
    "C54_same_error"
   ],
   "note": "exact unless momentum conservation is restored with legs of the other bracket; then only up to sign (refuted at four legs)"
  },
  {
   "property": "C55",
   "status": "proved",
   "theorems": [
    "C55_slice",
    "C55_affine",
    "C55_bivariate",
    "C55_unused"
   ],
   "note": "The values returned by the Groebner basis library are an input: any solution of the equations the code builds. The unknowns of the code are values here, the polynomials are in t. Also the bivariate slice, whose fourth family of unknowns is never used."
  },
  {
   "property": "C56",
   "status": "proved",
   "theorems": [
    "C56_reads",
    "C56_one_meaning",
    "C56_open_refuted",
    "C56_glued"
   ],
   "note": "Proved from the characters: the regular expressions are matched by a backtracking matcher with the order of python, all 19 patterns in the order of compute. The forms are those of TextSpec.v. Round brackets around several entries of an open chain are not recognised (refuted), and round brackets without a bar between them run together."
  },
  {
   "property": "C57",
   "status": "proved",
   "theorems": [
    "C57_writes",
    "C57_back",
    "C57_reads",
    "C57_minus_refuted"
   ],
   "note": "For sums of labels, which is what _lNB_to_string can write. _get_lNB raises ValueError for chains with a minus."
  },
  {
   "property": "C58",
   "status": "partial",
   "theorems": [
    "C58_set_get",
    "C58_ignored",
    "C58_first_digit",
    "C58_label_refuted"
   ],
   "note": "Proved for the four spinors of every leg. For other strings the property is false: reading gives the leg of the first digit only (refuted for labels of two digits), and assigning does nothing. \\d is the digits 0 to 9 in the model."
  },
  {
   "property": "C59",
   "status": "partial",
   "theorems": [
    "C59_computed",
    "C59_ten_refuted"
   ],
   "note": "Proved for up to nine legs, all options, all set orders and all outcomes of the numerical tests. For ten legs it is false: s_1210 is read as the labels 1, 2, 1, 0."
  },
  {
   "property": "C60",
   "status": "proved",
   "theorems": [
    "C60_exists",
    "C60_consistent",
    "C60_substitution",
    "C60_values",
    "C60_identity"
   ],
   "note": "Two expressions with equal values are the same expression in the model."
  },
  {
   "property": "C61",
   "status": "partial",
   "theorems": [
    "C61_variety",
    "C61_exists",
    "C61_constant_refuted"
   ],
   "note": "The vanishing locus is proved for all covariants. The generators exist if no entry of a covariant is constant; in general this is false: for a covariant that is identically zero, like ⟨1|1⟩, sympy.Poly raises (refuted)."
  },
  {
   "property": "C62",
   "status": "proved",
   "theorems": [
    "C62_update",
    "C62_forgets",
    "C62_missing",
    "C62_roundtrip",
    "C62_singular_variety",
    "C62_from_singular_variety"
   ],
   "note": "point_on_variety (syngular, Singular) is an arbitrary function."
  },
  {
   "property": "C63",
   "status": "partial",
   "theorems": [
    "C63_value",
    "C63_products",
    "C63_left_out",
    "C63_all_left_out",
    "C63_refuted"
   ],
   "note": "Proved for all multiplicities: the reducible brackets are products and are left out, and what is left out is characterised. That only products are left out is false: the third test looks at the difference of the sets in one direction only, so that ⟨1|(2+5)|(1+3)|2⟩ for five legs is left out though it is no product (refuted, with a point where it vanishes and nothing listed does)."
  },
  {
   "property": "C64",
   "status": "partial",
   "theorems": [
    "C64_three_forms",
    "C64_removed",
    "C64_refuted"
   ],
   "note": "The identities and that only doubles are taken away are proved for all multiplicities and set orders. That one of them is kept is false: for seven legs and ascending set order ⟨4|(2+3)|(5+6)|4⟩ and all that agrees with it is taken away (refuted, with a point where it vanishes and nothing listed does)."
  },
  {
   "property": "C65",
   "status": "partial",
   "theorems": [
    "C65_three",
    "C65_four",
    "C65_ten_refuted"
   ],
   "note": "Proved for three brackets and all multiplicities, and for four brackets up to nine legs. From ten legs on it is false for four brackets: the length of a part is the number of characters, so that (9+10) counts as too long (refuted)."
  },
  {
   "property": "C66",
   "status": "proved",
   "theorems": [
    "C66_five"
   ],
   "note": "The last part is written in the order of a python set, which is an arbitrary reordering."
  },
  {
   "property": "C67",
   "status": "proved",
   "theorems": [
    "C67_sound",
    "C67_restores",
    "C67_complete",
    "C67_no_free_refuted"
   ],
   "note": "Completeness is stated for exactly one free leg; without a free leg it is false: nothing is found for a bracket and a string without a common leg."
  },
  {
   "property": "C68",
   "status": "proved",
   "theorems": [
    "C68_sound",
    "C68_restores",
    "C68_or_raises",
    "C68_mixed_refuted"
   ],
   "note": "The choice is not complete: with one free leg nothing is tried for brackets of different kinds."
  },
  {
   "property": "C69",
   "status": "proved",
   "theorems": [
    "C69_formula",
    "C69_labels_refuted"
   ],
   "note": "The code also uses the formula for other strings on the same three labels, with a wrong result."
  },
  {
   "property": "C70",
   "status": "proved",
   "theorems": [
    "C70_chain",
    "C70_three"
   ],
   "note": ""
  },
  {
   "property": "C71",
   "status": "partial",
   "theorems": [
    "C71_head",
    "C71_middle",
    "C71_shared_end_refuted",
    "C71_empty_refuted"
   ],
   "note": "False as stated. Proved when the leg that is changed occurs once: at the start of the string as it is set (C71_head) or as the first entry of the first sum that occurs nowhere else (C71_middle). Otherwise the end that is shared with the bracket may be changed; and without free legs an empty complement raises TypeError."
  },
  {
   "property": "C72",
   "status": "partial",
   "theorems": [
    "C72_middle",
    "C72_ends",
    "C72_reorder_refuted",
    "C72_shorter_refuted",
    "C72_turned_refuted",
    "C72_unassigned_refuted"
   ],
   "note": "False as stated. Proved when the second sum has a leg of its own that is not an end (C72_middle) and when the sums agree and the starts differ (C72_ends). Four other branches fail for different reasons."
  },
  {
   "property": "C73",
   "status": "proved",
   "theorems": [
    "C73_classes",
    "C73_itself",
    "C73_number",
    "C73_points"
   ],
   "note": "Equality of ideals (syngular, Singular) is an arbitrary equivalence relation on lists of generators; the count needs that it is preserved by permutations, the statement on points that equal ideals have the same zeros. Generators are texts of polynomials as in C44, up to nine legs."
  },
  {
   "property": "C74",
   "status": "proved",
   "theorems": [
    "C74_vanishes",
    "C74_given",
    "C74_answers"
   ],
   "note": "The membership test of polynomials (syngular, Singular) is an argument that has to be sound; that it finds the generators themselves is needed for C74_given only."
  },
  {
   "property": "C75",
   "status": "proved",
   "theorems": [
    "C75_conversion",
    "C75_exists",
    "C75_spinor_ideal",
    "C75_values"
   ],
   "note": "The elimination (Singular) is an argument whose results have to be consequences. Whether the ranges of variables given to it are the right ones depends on how syngular counts them, which is not in the repository."
  },
  {
   "property": "C76",
   "status": "proved",
   "theorems": [
    "C76_covariant",
    "C76_invariant",
    "C76_pairs",
    "C76_no_legs_refuted"
   ],
   "note": "The square root is exact in the model. For no legs the number found is 1 (refuted), which cannot occur in a ring."
  },
  {
   "property": "C77",
   "status": "proved",
   "theorems": [
    "C77_formulas",
    "C77_formulas_total",
    "C77_pair",
    "C77_outcome",
    "C77_larger_corner_refuted"
   ],
   "note": "The text of the formulas is in the model, and is parsed by it. A square root that does not exist is an error. With a larger corner the code fails (refuted)."
  },
  {
   "property": "C78",
   "status": "proved",
   "theorems": [
    "C78_value",
    "C78_invariant"
   ],
   "note": "The conditions on the expression are those of C51 (whole numbers next to a slash). Without new lines, which the patterns of python treat specially at the end of a text. The value of a single invariant is that of compute (C04, C05, C28 and others)."
  },
  {
   "property": "C79",
   "status": "proved",
   "theorems": [
    "C79_same",
    "C79_angle",
    "C79_square",
    "C79_slice",
    "C79_block"
   ],
   "note": "Brackets of two spinors; chains are C80."
  },
  {
   "property": "C80",
   "status": "partial",
   "theorems": [
    "C80_angle",
    "C80_square",
    "C80_reversed",
    "C80_two_digits_refuted"
   ],
   "note": "Chains with one sum of momenta between two massive spinors. When the leg in a square bracket at the beginning has two digits the value is wrong (refuted): the look-behind pattern expects one digit. Chains with one massless end are C81."
  },
  {
   "property": "C81",
   "status": "proved",
   "theorems": [
    "C81_ends_angle",
    "C81_ends_square",
    "C81_ends_reversed",
    "C81_mixed_refuted"
   ],
   "note": "The condition on the label next to the massless end is needed (C81_mixed_refuted): otherwise the text made of the chain is not Python. Two massive ends with a square bracket first need a one-digit leg, as in C80; two massless ends need the unicode brackets."
  },
  {
   "property": "C82",
   "status": "proved",
   "theorems": [
    "C82_text",
    "C82_wide",
    "C82_invariants",
    "C82_legs",
    "C82_defined",
    "C82_conserved",
    "C82_back",
    "C82_mod_p",
    "C82_same_refuted",
    "C82_massive_refuted"
   ],
   "note": "The map of numbers (pyadic) is any place between two fields; rational numbers modulo an odd prime are one (C82_mod_p). The exception for denominators is needed (C82_same_refuted). A massive leg loses its mass (C82_massive_refuted). The precision of p-adic numbers is not modelled."
  },
  {
   "property": "C83",
   "status": "proved",
   "theorems": [
    "C83_verdict",
    "C83_rejected",
    "C83_raises",
    "C83_tr5_refuted",
    "C83_letter_refuted"
   ],
   "note": "tr5_1234 is among the strings that are complained about although it has its underscore (C83_tr5_refuted)."
  },
  {
   "property": "C84",
   "status": "proved",
   "theorems": [
    "C84_not_equal",
    "C84_negation",
    "C84_both_refuted",
    "C84_hash",
    "C84_hash_same",
    "C84_hash_raises"
   ],
   "note": "For different numbers of legs a == b and a != b can both be true (C84_both_refuted). What is fed to hash() is modelled, not the number it returns."
  },
  {
   "property": "C85",
   "status": "proved",
   "theorems": [
    "C85_sums",
    "C85_power_refuted",
    "C85_quotient_refuted",
    "C85_side_by_side_refuted"
   ],
   "note": "At least one bracket has a massive end; without one it is C78. Only + - and *: powers of a massive bracket and division by one are silently wrong (C85_power_refuted, C85_quotient_refuted), and two brackets without * between them can be an error (C85_side_by_side_refuted)."
  },
  {
   "property": "C86",
   "status": "partial",
   "theorems": [
    "C86_momenta",
    "C86_spinors",
    "C86_file",
    "C86_file_never",
    "C86_sign_refuted"
   ],
   "note": "Momenta and spinors are proved. The files of save_phase_space_point are never as stated: every number is followed by a stray quote, because repr(x)[5:-1] keeps the quote of mpf('...') (C86_file says what is written, C86_file_never that it is always wrong). The replacement of +- by - has no effect (C86_sign_refuted). The text that mpmath prints for a number is given, not modelled."
  },
  {
   "property": "C87",
   "status": "proved",
   "theorems": [
    "C87_momenta",
    "C87_kallen",
    "C87_masses",
    "C87_thresholds"
   ],
   "note": "Existence of the three momenta is for the symmetric choice of spinors of the sums; the other statements are for every choice. A mass that is not in the field is an error in the model, an element of the field extension in the code."
  },
  {
   "property": "C88",
   "status": "partial",
   "theorems": [
    "C88_matrices",
    "C88_momentum",
    "C88_conserved",
    "C88_product_refuted",
    "C88_square_refuted"
   ],
   "note": "Sums, the momentum of massless legs and its conservation are proved. Side by side, |i>[j||k]<l| is the product of the entries one by one and not the matrix product, which needs an @ (C88_product_refuted), and |i>[j|^2 squares the entries of the row only (C88_square_refuted)."
  },
  {
   "property": "C89",
   "status": "partial",
   "theorems": [
    "C89_fraction",
    "C89_components",
    "C89_loop",
    "C89_real",
    "C89_complex",
    "C89_complex_refuted"
   ],
   "note": "Proved for real momenta. For complex ones the test of the loop lets momenta without spinors pass, for example pz = -i or (1, i, -1) (C89_complex_refuted); C89_complex says exactly which. Numbers are exact and square roots are those of the field with the sign of mpmath, there is no rounding; a root that is not in the field is no result."
  },
  {
   "property": "C90",
   "status": "partial",
   "theorems": [
    "C90_real",
    "C90_error",
    "C90_complex",
    "C90_three",
    "C90_two",
    "C90_spinors_refuted",
    "C90_two_refuted"
   ],
   "note": "Proved for real points with three or more legs except that one of the two adjusted legs can have zero momentum and then no spinors, which for three legs is always so (C90_three, C90_spinors_refuted). For two real legs the constructor always raises TypeError (C90_two, C90_two_refuted). Complex points are physical if the drawn momenta have spinors (C89)."
  },
  {
   "property": "C91",
   "status": "partial",
   "theorems": [
    "C91_minus",
    "C91_N",
    "C91_seven",
    "C91_seven_refuted"
   ],
   "note": "Proved for every number of legs but seven. For seven legs invariants.py:103 appends the Gram determinant Δ_12|347|56 to the four brackets, so full_minus_4_brackets loses it and invs_N contains it (C91_seven_refuted); C91_seven says that this is the only difference."
  },
  {
   "property": "C92",
   "status": "partial",
   "theorems": [
    "C92_outgoing",
    "C92_incoming",
    "C92_mixed",
    "C92_brackets",
    "C92_asymmetric_refuted"
   ],
   "note": "The signs of the invariants are proved for all lists of legs. The conjugation of brackets is proved for the symmetric convention; for the asymmetric one C92_brackets gives the factors 1/(E+pz) of the two legs, and with them [ji] is not the conjugate up to a sign (C92_asymmetric_refuted)."
  },
  {
   "property": "C93",
   "status": "partial",
   "theorems": [
    "C93_subs",
    "C93_shadow",
    "C93_round_trip",
    "C93_round_trip_refuted",
    "C93_empty"
   ],
   "note": "The substitution is proved for all texts and dictionaries; a key that begins with an earlier key is never found (C93_shadow), and an empty dictionary raises KeyError. The round trip is proved for keys and values of one character when the text contains no value that is not a key, as for the bold digits; otherwise it is false (C93_round_trip_refuted). Only escape=True is modelled; a dictionary with the empty string as a key is not."
  },
  {
   "property": "C94",
   "status": "partial",
   "theorems": [
    "C94_value",
    "C94_numbers",
    "C94_power",
    "C94_reduced",
    "C94_point",
    "C94_points",
    "C94_twice",
    "C94_relation",
    "C94_mass",
    "C94_pow_refuted",
    "C94_integer_refuted"
   ],
   "note": "Proved for every component that is not a power of one symbol with coefficient 1. Such a power is a sympy.Pow, which is not among the classes of particles.py:238, so it is left as it is (C94_power), and two substitutions in a row can give another value than both together (C94_pow_refuted). A component whose symbols vanish modulo the characteristic stays an integer of sympy (C94_integer_refuted). Finite fields only; p-adic numbers are not modelled here."
  }
 ]
}