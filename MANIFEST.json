{
 "claims": [
  {
   "property": "C01",
   "status": "proved",
   "theorems": [
    "C01_exposet",
    "C01_exposet_back",
    "C01_vector",
    "C01_weight",
    "C01_Binv_intval",
    "C01_Binv_length",
    "C01_Binv_length_rejected",
    "C01_Binv_minimal_length",
    "C01_Binv_any_logarithm",
    "C01_Binv_negative",
    "C01_Binv_roundtrip",
    "C01_Binv_vector_rejected",
    "C01_exposet_attribute",
    "C01_Binv_exposet",
    "C01_flip_bit",
    "C01_changes",
    "C01_bitwise",
    "C01_bitwise_smaller",
    "C01_required_length",
    "C01_complement",
    "C01_order"
   ],
   "note": "The floating point logarithm of the code is a parameter; exact results for the exact logarithm, and what any logarithm changes."
  },
  {
   "property": "C02",
   "status": "proved",
   "theorems": [
    "C02_evil",
    "C02_odious",
    "C02_evil_onto",
    "C02_odious_onto",
    "C02_increasing",
    "C02_rejected",
    "C02_negative"
   ],
   "note": ""
  },
  {
   "property": "C03",
   "status": "proved",
   "theorems": [
    "C03_number_roundtrip",
    "C03_perm_roundtrip",
    "C03_factorial",
    "C03_right_rank",
    "C03_right_rank_total"
   ],
   "note": ""
  },
  {
   "property": "C04",
   "status": "proved",
   "theorems": [
    "C04_left",
    "C04_left_total",
    "C04_left_reject",
    "C04_right",
    "C04_right_total",
    "C04_right_reject",
    "C04_inversion_set"
   ],
   "note": ""
  },
  {
   "property": "C05",
   "status": "proved",
   "theorems": [
    "C05_length",
    "C05_no_duplicates",
    "C05_complete",
    "C05_entry",
    "C05_order"
   ],
   "note": ""
  },
  {
   "property": "C06",
   "status": "proved",
   "theorems": [
    "C06_finite",
    "C06_periodic",
    "C06_rejects_sequence",
    "C06_rejects_dict",
    "C06_rejects_perilen",
    "C06_bijective",
    "C06_sequence",
    "C06_sequence_default"
   ],
   "note": ""
  },
  {
   "property": "C07",
   "status": "proved",
   "theorems": [
    "C07_overlapping_cycles_refuted",
    "C07_disjoint_cycles"
   ],
   "note": "False as stated (overlapping cycles); refuted with a witness and proved for disjoint cycles."
  },
  {
   "property": "C08",
   "status": "proved",
   "theorems": [
    "C08_equality",
    "C08_attributes",
    "C08_kind",
    "C08_minimal_period"
   ],
   "note": ""
  },
  {
   "property": "C09",
   "status": "proved",
   "theorems": [
    "C09_product",
    "C09_product_rejected",
    "C09_inverse",
    "C09_power",
    "C09_associative",
    "C09_inverse_law"
   ],
   "note": ""
  },
  {
   "property": "C10",
   "status": "proved",
   "theorems": [
    "C10_cycles",
    "C10_rebuild",
    "C10_order",
    "C10_cycles_dynamic"
   ],
   "note": ""
  },
  {
   "property": "C11",
   "status": "proved",
   "theorems": [
    "C11_apply",
    "C11_apply_general",
    "C11_apply_short",
    "C11_action",
    "C11_parity",
    "C11_parity_additive",
    "C11_parity_periodic_refuted"
   ],
   "note": "Parity additivity is proved for finite permutations; for periodic ones it is refuted with a witness."
  },
  {
   "property": "C12",
   "status": "proved",
   "theorems": [
    "C12_digits",
    "C12_signed_digits",
    "C12_product",
    "C12_inverse",
    "C12_faithful",
    "C12_signed_product",
    "C12_signed_inverse",
    "C12_signed_faithful"
   ],
   "note": ""
  },
  {
   "property": "C13",
   "status": "proved",
   "theorems": [
    "C13_atompattern",
    "C13_schoute",
    "C13_schoute_sound",
    "C13_schoute_rejected",
    "C13_schoute_list_rejected",
    "C13_sequence",
    "C13_action_unique",
    "C13_from_sequence",
    "C13_from_sequence_rejected",
    "C13_valneg",
    "C13_keyneg",
    "C13_pair",
    "C13_pair_back",
    "C13_negator_indices",
    "C13_matrix",
    "C13_from_matrix",
    "C13_product",
    "C13_inverse",
    "C13_associative",
    "C13_apply_vector",
    "C13_apply_product",
    "C13_apply_natural"
   ],
   "note": "All constructors; the argument schoute_perm alone or with nothing else given."
  },
  {
   "property": "C14",
   "status": "proved",
   "theorems": [
    "C14_equal_sound",
    "C14_equal_complete",
    "C14_no_surplus",
    "C14_equal_perm",
    "C14_equal_refuted"
   ],
   "note": "False as stated (refuted with a witness): sound always, complete for negators without surplus zeros."
  },
  {
   "property": "C15",
   "status": "proved",
   "theorems": [
    "C15_inverse_available",
    "C15_accepted",
    "C15_rejected",
    "C15_accepted_refuted",
    "C15_first_entry",
    "C15_entries_refuted",
    "C15_vector",
    "C15_vector_rejected",
    "C15_linear",
    "C15_matrix",
    "C15_vectors",
    "C15_degree",
    "C15_neutral",
    "C15_period",
    "C15_product",
    "C15_inverse",
    "C15_transpose",
    "C15_power",
    "C15_equality",
    "C15_equal_perm",
    "C15_product_perm",
    "C15_from_list",
    "C15_list_rejected",
    "C15_from_perm",
    "C15_neutral_perm_refuted",
    "C15_sequence",
    "C15_neutral_sequence_refuted",
    "C15_complement_pattern"
   ],
   "note": "Acceptance is false as stated (refuted): singular matrices that differ from the identity only in the first entry are accepted as neutral; everything else proved. numpy.linalg.inv enters as a parameter with the hypothesis exact_inverse."
  },
  {
   "property": "C16",
   "status": "proved",
   "theorems": [
    "C16_determinant",
    "C16_unique",
    "C16_invertible",
    "C16_unimodular",
    "C16_walsh"
   ],
   "note": ""
  },
  {
   "property": "C17",
   "status": "proved",
   "theorems": [
    "C17_new",
    "C17_new_reject",
    "C17_canonical",
    "C17_lookup",
    "C17_merge_pair",
    "C17_merge_pair_reject",
    "C17_merge_pair_unchanged",
    "C17_merge_many",
    "C17_history",
    "C17_merge_many_atomic_refuted"
   ],
   "note": "Histories with caught exceptions. 'Rejected without change' holds for merge_pair; for merge_many it is refuted with a witness (a prefix of the pairs stays merged)."
  },
  {
   "property": "C18",
   "status": "proved",
   "theorems": [
    "C18_meet",
    "C18_meet_reject",
    "C18_join",
    "C18_le",
    "C18_lt",
    "C18_eq",
    "C18_eq_reject",
    "C18_partial_order",
    "C18_meet_glb",
    "C18_join_lub",
    "C18_meet_prototype",
    "C18_join_prototype",
    "C18_join_prototype_improved",
    "C18_join_prototype_improved_refuted"
   ],
   "note": "All clauses proved for the fast implementations; prototypes agree; the improved join prototype agrees for natural elements and is refuted for negative ones."
  },
  {
   "property": "C19",
   "status": "proved",
   "theorems": [
    "C19_join_domain_is_N",
    "C19_le_raises",
    "C19_refuted"
   ],
   "note": "False of the code: proved for all inputs that join has domain N and that <= raises for every other domain; witness given."
  },
  {
   "property": "C20",
   "status": "proved",
   "theorems": [
    "C20_pairs",
    "C20_intval",
    "C20_singletons",
    "C20_canonical",
    "C20_frozen",
    "C20_refuted",
    "C20_label_refuted"
   ],
   "note": "False of the code (refuted with a witness); proved for attributes not read before, and that a read attribute never changes again."
  },
  {
   "property": "C21",
   "status": "proved",
   "theorems": [
    "C21_pairs",
    "C21_pairs_NoDup",
    "C21_intval"
   ],
   "note": ""
  },
  {
   "property": "C22",
   "status": "proved",
   "theorems": [
    "C22_history",
    "C22_outcome",
    "C22_inventory_list",
    "C22_inventory_dict"
   ],
   "note": ""
  },
  {
   "property": "C23",
   "status": "proved",
   "theorems": [
    "C23_refine",
    "C23_accept",
    "C23_reject",
    "C23_labels_refuted"
   ],
   "note": "Rejection without change is proved for block mismatches; refuted for a wrong number of labels."
  },
  {
   "property": "C24",
   "status": "proved",
   "theorems": [
    "C24_reported",
    "C24_semantic",
    "C24_calls"
   ],
   "note": "Chains of statements and, equivalently, all assignments that fulfil the statements; exceptions are caught and the object used on."
  },
  {
   "property": "C25",
   "status": "proved",
   "theorems": [
    "C25_set_comp_self",
    "C25_set_comp_self_refuted"
   ],
   "note": "False as stated (refuted with a witness); characterised for all elements."
  },
  {
   "property": "C26",
   "status": "proved",
   "theorems": [
    "C26_boolf",
    "C26_boolf_atoms",
    "C26_boolf_int",
    "C26_boolf_negative",
    "C26_int_matches"
   ],
   "note": "Integer filter proved for every value of the floating point length; Boolean function for natural elements, its rejection for negative ones."
  },
  {
   "property": "C27",
   "status": "proved",
   "theorems": [
    "C27_arguments",
    "C27_skip_deflation",
    "C27_atom_argument",
    "C27_objects",
    "C27_reachable",
    "C27_table",
    "C27_table_default",
    "C27_integer",
    "C27_equality",
    "C27_equality_inflated_refuted",
    "C27_rejected",
    "C27_atom",
    "C27_fullspots",
    "C27_multi"
   ],
   "note": "For every way to construct an object; made false = the reduced objects exactly. Equality is not semantic for objects made with skip_deflation (refuted with a witness)."
  },
  {
   "property": "C28",
   "status": "proved",
   "theorems": [
    "C28_exact",
    "C28_right_iff_involution",
    "C28_any_order_refuted",
    "C28_any_inverse"
   ],
   "note": "False as stated (refuted with a witness); the exact meaning is proved for every order, and that it is the stated one iff the sorting permutation is an involution."
  },
  {
   "property": "C29",
   "status": "proved",
   "theorems": [
    "C29_and",
    "C29_or",
    "C29_xor",
    "C29_not",
    "C29_lt",
    "C29_le"
   ],
   "note": ""
  },
  {
   "property": "C30",
   "status": "proved",
   "theorems": [
    "C30_strict_refuted",
    "C30_exact"
   ],
   "note": "False of the code (refuted with a witness); the exact meaning of bitwise_gt is proved."
  },
  {
   "property": "C31",
   "status": "proved",
   "theorems": [
    "C31_getitem",
    "C31_tt_default",
    "C31_tt_arity",
    "C31_tt_atoms"
   ],
   "note": ""
  },
  {
   "property": "C32",
   "status": "proved",
   "theorems": [
    "C32_vector",
    "C32_vector_rejected",
    "C32_int",
    "C32_int_rejected",
    "C32_zhe",
    "C32_polynomials_differ",
    "C32_zhe_determines",
    "C32_zhe_roundtrip",
    "C32_zhe_inverse",
    "C32_twin",
    "C32_twin_twice",
    "C32_twin_arity",
    "C32_is_noble"
   ],
   "note": "Moebius transform stated independently; zhe, twin, constructor round trip for every object and every arity."
  },
  {
   "property": "C33",
   "status": "proved",
   "theorems": [
    "C33_enumerates",
    "C33_index",
    "C33_noble",
    "C33_arity_zero_refuted",
    "C33_patron",
    "C33_patron_arity_rejected",
    "C33_quadrants",
    "C33_quadrant_not_noble",
    "C33_quadrants_arity_zero_refuted",
    "C33_royal"
   ],
   "note": "Proved for arity >= 1, with exact acceptance. At arity 0 the enumeration misses the table [1] (refuted with a witness), and the two quadrant computations differ (refuted with a witness)."
  },
  {
   "property": "C34",
   "status": "proved",
   "theorems": [
    "C34_apply",
    "C34_apply_rejected",
    "C34_apply_constant_raises",
    "C34_sigperm",
    "C34_action",
    "C34_perm",
    "C34_sequence"
   ],
   "note": "f.apply() on a constant raises IndexError (stated); everything else for all objects."
  },
  {
   "property": "C35",
   "status": "proved",
   "theorems": [
    "C35_hangs",
    "C35_stops",
    "C35_terminates_refuted",
    "C35_no_arguments"
   ],
   "note": "False of the code: refuted with a witness; the non-terminating argument combinations are characterised exactly."
  },
  {
   "property": "C36",
   "status": "proved",
   "theorems": [
    "C36_table",
    "C36_leader",
    "C36_index",
    "C36_index_rejected",
    "C36_index_trusted",
    "C36_index_length",
    "C36_changes",
    "C36_oddness",
    "C36_matrix"
   ],
   "note": "Proved for all arities and tables."
  },
  {
   "property": "C37",
   "status": "proved",
   "theorems": [
    "C37_submasks",
    "C37_increasing",
    "C37_increasing_ascending",
    "C37_increasing_refuted"
   ],
   "note": "Order claim false for Python's set iteration order (refuted); listing proved for every iteration order, increasing iff the order is."
  },
  {
   "property": "C38",
   "status": "proved",
   "theorems": [
    "C38_roundtrip",
    "C38_rows",
    "C38_back",
    "C38_rejected"
   ],
   "note": ""
  },
  {
   "property": "C39",
   "status": "proved",
   "theorems": [
    "C39_prime_factors",
    "C39_prime_exponents",
    "C39_multi_lcm",
    "C39_binom",
    "C39_pascal",
    "C39_binom_rejected"
   ],
   "note": ""
  },
  {
   "property": "C40",
   "status": "proved",
   "theorems": [
    "C40_filtrate",
    "C40_filtrate_ascending",
    "C40_any_order_refuted",
    "C40_rejected",
    "C40_filtrated_pairs",
    "C40_filtrated_pair_up",
    "C40_filtrated_pair_down",
    "C40_filtrated_pair_two_sided",
    "C40_filtrated_pair_refuted",
    "C40_filtrated_pair_rejected",
    "C40_pair_questions",
    "C40_border",
    "C40_crossing_atoms",
    "C40_splits",
    "C40_spotints",
    "C40_overlap_counts",
    "C40_three_overlaps",
    "C40_splits_equal",
    "C40_onesided",
    "C40_onesided_inflated",
    "C40_onesided_inflated_refuted"
   ],
   "note": "filtrated_boolf for ascending atoms and for orders whose sorting permutation is an involution; other orders, filtrated_pair with descending one-sided keys and inflated functions of one atom are refuted with witnesses."
  },
  {
   "property": "C41",
   "status": "proved",
   "theorems": [
    "C41_segments",
    "C41_numbers",
    "C41_any_order",
    "C41_closed",
    "C41_spots",
    "C41_links",
    "C41_neighboring_links",
    "C41_adjacent_spots",
    "C41_adjacent_spots_rejected",
    "C41_find_segments"
   ],
   "note": "Holds for every order of the spots; also the spots, links and squares derived from the collection and the connectedness result of find_segments."
  },
  {
   "property": "C42",
   "status": "proved",
   "theorems": [
    "C42_family",
    "C42_faction",
    "C42_clan",
    "C42_numbers",
    "C42_family_class",
    "C42_faction_class",
    "C42_clan_class",
    "C42_malerep",
    "C42_malerep_only",
    "C42_malerep_class",
    "C42_root_boolf",
    "C42_sierpinski_partition",
    "C42_sierpinski_twin",
    "C42_coset",
    "C42_layers",
    "C42_inflated_refuted",
    "C42_order_refuted"
   ],
   "note": "For deflated objects and ascending iteration of sets of exponents (the case on CPython for exponents below 8); both conditions are shown necessary by C42_inflated_refuted and C42_order_refuted."
  },
  {
   "property": "C43",
   "status": "proved",
   "theorems": [
    "C43_edges",
    "C43_listing"
   ],
   "note": ""
  },
  {
   "property": "C44",
   "status": "proved",
   "theorems": [
    "C44_partitions",
    "C44_zero_refuted"
   ],
   "note": "Proved for n >= 1; at 0 refuted with a witness."
  },
  {
   "property": "C45",
   "status": "proved",
   "theorems": [
    "C45_atompattern",
    "C45_atompattern_rejected",
    "C45_atompatterns"
   ],
   "note": ""
  },
  {
   "property": "C46",
   "status": "proved",
   "theorems": [
    "C46_constructor",
    "C46_constructor_refuted"
   ],
   "note": "Refuted without the condition on the pairs."
  },
  {
   "property": "C47",
   "status": "proved",
   "theorems": [
    "C47_set_equal_self",
    "C47_set_equal_self_loses",
    "C47_set_equal_self_refuted"
   ],
   "note": "False as stated for lone elements with a complement (refuted with a witness, and proved for all of them); proved for all other elements."
  },
  {
   "property": "C48",
   "status": "proved",
   "theorems": [
    "C48_derived",
    "C48_equality"
   ],
   "note": ""
  },
  {
   "property": "C49",
   "status": "proved",
   "theorems": [
    "C49_matrix_acceptance_refuted",
    "C49_matrix_checked"
   ],
   "note": "False of the code: refuted with a witness, and what the constructor checks is characterised for all matrices."
  },
  {
   "property": "C50",
   "status": "proved",
   "theorems": [
    "C50_which",
    "C50_which_rejected",
    "C50_where"
   ],
   "note": ""
  },
  {
   "property": "C51",
   "status": "proved",
   "theorems": [
    "C51_foibles",
    "C51_sharp",
    "C51_sharp_rejected",
    "C51_leader",
    "C51_leader_arity",
    "C51_reverse",
    "C51_reverse_twice",
    "C51_leader_inflated"
   ],
   "note": ""
  },
  {
   "property": "C52",
   "status": "proved",
   "theorems": [
    "C52_consul",
    "C52_prefect"
   ],
   "note": "np.dot is the sum of products of bits."
  },
  {
   "property": "C53",
   "status": "proved",
   "theorems": [
    "C53_spectrum",
    "C53_roundtrip",
    "C53_distances",
    "C53_linear"
   ],
   "note": "sympy's fwht is modelled by its defining formula (trusted base); lists whose length is not a power of two are padded and not covered by the acceptance theorem."
  },
  {
   "property": "C54",
   "status": "proved",
   "theorems": [
    "C54_hasse",
    "C54_hasse_all",
    "C54_symmetric",
    "C54_symmetric_bijection"
   ],
   "note": ""
  },
  {
   "property": "C55",
   "status": "proved",
   "theorems": [
    "C55_bloat",
    "C55_blot",
    "C55_blight",
    "C55_order",
    "C55_tests"
   ],
   "note": "For every iteration order of the Python set of pairs; objects as made by the constructor without inflation."
  },
  {
   "property": "C56",
   "status": "proved",
   "theorems": [
    "C56_bloat_boolf",
    "C56_blot_boolf",
    "C56_blight_boolf"
   ],
   "note": "Semantic statement for all assignments."
  },
  {
   "property": "C57",
   "status": "proved",
   "theorems": [
    "C57_blocks",
    "C57_bloatless_boolf",
    "C57_bloatless_atomkeys",
    "C57_bloatless_spotint",
    "C57_blightless_boolf",
    "C57_blightless_spotint",
    "C57_blightless_spotint_refuted"
   ],
   "note": "Spots of non-constant functions; the constant true is refuted with a witness (C57_blightless_spotint_refuted)."
  },
  {
   "property": "C58",
   "status": "proved",
   "theorems": [
    "C58_gapless_boolf"
   ],
   "note": "Complete characterisation, acceptance and rejection."
  },
  {
   "property": "C59",
   "status": "proved",
   "theorems": [
    "C59_bundles",
    "C59_is_bundle",
    "C59_bundle_overlap_counts",
    "C59_bundle_grid_partitions"
   ],
   "note": "Components are stated as the reflexive symmetric transitive closure of crossing pairs."
  },
  {
   "property": "C60",
   "status": "proved",
   "theorems": [
    "C60_hasse",
    "C60_reduction",
    "C60_empty_refuted"
   ],
   "note": "Complete; the empty node list is refuted with a witness."
  },
  {
   "property": "C61",
   "status": "proved",
   "theorems": [
    "C61_key_tuples",
    "C61_different",
    "C61_flatten"
   ],
   "note": "Keys of dictionaries are naturals in the model."
  },
  {
   "property": "C62",
   "status": "proved",
   "theorems": [
    "C62_slice",
    "C62_range",
    "C62_errors",
    "C62_python_slices_refuted"
   ],
   "note": "Python-like reversed and negative slices are refuted with witnesses."
  },
  {
   "property": "C63",
   "status": "proved",
   "theorems": [
    "C63_product_sound",
    "C63_product_complete",
    "C63_product_reject",
    "C63_multisubset",
    "C63_distri"
   ],
   "note": "Acceptance and rejection are characterised."
  },
  {
   "property": "C64",
   "status": "proved",
   "theorems": [
    "C64_transposition",
    "C64_transposition_errors",
    "C64_transposition_negative_refuted",
    "C64_repeat",
    "C64_swap_rows",
    "C64_entry_counts",
    "C64_powerset",
    "C64_subdict",
    "C64_subdict_default",
    "C64_multigrade",
    "C64_multigrade_short"
   ],
   "note": "Negative arguments of make_transposition are refuted with a witness; subdict is proved to raise without fresh."
  },
  {
   "property": "C65",
   "status": "proved",
   "theorems": [
    "C65_walsh",
    "C65_leader",
    "C65_increase",
    "C65_increase_vector",
    "C65_spread"
   ],
   "note": "Without the string arguments."
  },
  {
   "property": "C66",
   "status": "proved",
   "theorems": [
    "C66_rcv",
    "C66_length"
   ],
   "note": "Chains are counted by a duplicate-free list of all of them."
  },
  {
   "property": "C67",
   "status": "proved",
   "theorems": [
    "C67_layered",
    "C67_total_order",
    "C67_sort"
   ],
   "note": "Complete."
  },
  {
   "property": "C68",
   "status": "proved",
   "theorems": [
    "C68_atoms",
    "C68_mod_tt_neg",
    "C68_ternary"
   ],
   "note": "mod_tt_perm is not modelled."
  },
  {
   "property": "C69",
   "status": "proved",
   "theorems": [
    "C69_cycle_partition",
    "C69_colors",
    "C69_sort_rows",
    "C69_sort_cols",
    "C69_no_rows_refuted"
   ],
   "note": "sort_rows_together for matrices with at least one row, sort_cols_together with at least one row and column."
  },
  {
   "property": "C70",
   "status": "proved",
   "theorems": [
    "C70_family",
    "C70_members",
    "C70_shares",
    "C70_infeasible"
   ],
   "note": "Complete."
  },
  {
   "property": "C71",
   "status": "proved",
   "theorems": [
    "C71_faction",
    "C71_abbreviated",
    "C71_members",
    "C71_shares",
    "C71_errors"
   ],
   "note": "The elements of the abbreviated case (pairs) are numbered in lexicographic order."
  },
  {
   "property": "C72",
   "status": "proved",
   "theorems": [
    "C72_clan",
    "C72_abbreviated",
    "C72_members",
    "C72_shares",
    "C72_errors",
    "C72_never_ends"
   ],
   "note": "The elements (pairs and triples) are numbered in lexicographic order. The endless recursion is stated for every depth."
  },
  {
   "property": "C73",
   "status": "proved",
   "theorems": [
    "C73_splinters",
    "C73_factions"
   ],
   "note": "Complete."
  },
  {
   "property": "C74",
   "status": "proved",
   "theorems": [
    "C74_perm_symmetry",
    "C74_symmetric_spots"
   ],
   "note": "Complete."
  },
  {
   "property": "C75",
   "status": "proved",
   "theorems": [
    "C75_partitioned",
    "C75_gap_refuted"
   ],
   "note": "Proved for functions whose atoms are the first ones; C75_gap_refuted shows that the order of sets matters for the others."
  },
  {
   "property": "C76",
   "status": "proved",
   "theorems": [
    "C76_self_complementary",
    "C76_quadrants",
    "C76_too_small"
   ],
   "note": "Complete."
  },
  {
   "property": "C77",
   "status": "proved",
   "theorems": [
    "C77_hypersplits",
    "C77_atoms",
    "C77_rejected"
   ],
   "note": "Complete."
  },
  {
   "property": "C78",
   "status": "proved",
   "theorems": [
    "C78_combined",
    "C78_combined_rejected",
    "C78_detailed"
   ],
   "note": "Complete."
  },
  {
   "property": "C79",
   "status": "proved",
   "theorems": [
    "C79_cores",
    "C79_exclusive",
    "C79_rejected"
   ],
   "note": "Complete."
  },
  {
   "property": "C80",
   "status": "proved",
   "theorems": [
    "C80_by_weight",
    "C80_links",
    "C80_layered_weight",
    "C80_symmetric"
   ],
   "note": "Complete."
  },
  {
   "property": "C81",
   "status": "proved",
   "theorems": [
    "C81_hyperfission",
    "C81_parts",
    "C81_rejected",
    "C81_spectra",
    "C81_labeled",
    "C81_fissions",
    "C81_fission_spectra"
   ],
   "note": "Complete."
  },
  {
   "property": "C82",
   "status": "proved",
   "theorems": [
    "C82_weight_fract",
    "C82_weight_operations",
    "C82_weight_extremes",
    "C82_value_fract",
    "C82_value_order"
   ],
   "note": "Complete."
  },
  {
   "property": "C83",
   "status": "proved",
   "theorems": [
    "C83_sierpinski",
    "C83_pascal",
    "C83_sierpinski_rejected",
    "C83_diagonals",
    "C83_spread",
    "C83_inflated_fullspots",
    "C83_walsh_layers",
    "C83_permuted_table"
   ],
   "note": "Complete."
  },
  {
   "property": "C84",
   "status": "proved",
   "theorems": [
    "C84_pretty",
    "C84_sorted_colex",
    "C84_swan",
    "C84_swan_rejected"
   ],
   "note": "Complete."
  },
  {
   "property": "C85",
   "status": "proved",
   "theorems": [
    "C85_matrix",
    "C85_alignment",
    "C85_sizes",
    "C85_weights",
    "C85_exposets",
    "C85_rejected"
   ],
   "note": "Complete for functions without gap and at most five atoms; all others are rejected (C85_rejected)."
  },
  {
   "property": "C86",
   "status": "proved",
   "theorems": [
    "C86_text",
    "C86_evaluates",
    "C86_faithful",
    "C86_hash",
    "C86_order",
    "C86_comparisons",
    "C86_inflated_refuted"
   ],
   "note": "Complete for deflated objects; C86_inflated_refuted for objects made with skip_deflation."
  },
  {
   "property": "C87",
   "status": "proved",
   "theorems": [
    "C87_binv",
    "C87_perm",
    "C87_sigperm",
    "C87_mixed_hash_refuted",
    "C87_mixed",
    "C87_walsh",
    "C87_setpart",
    "C87_setpartcomp"
   ],
   "note": "Complete. Elements of set partitions are integers. WalshPerm, SetPart and SetPartComp define no hash."
  },
  {
   "property": "C88",
   "status": "proved",
   "theorems": [
    "C88_generators",
    "C88_generators_reject",
    "C88_relations"
   ],
   "note": "Complete. The truthiness of sum % 2 in XOR is modelled as a boolean."
  },
  {
   "property": "C89",
   "status": "proved",
   "theorems": [
    "C89_tables",
    "C89_group",
    "C89_sign_part",
    "C89_sign_matrices",
    "C89_permutations"
   ],
   "note": "Complete, for every n. The tables are lists of labelled pairs; the scripts keep them as labels of a SetPart. bidict is modelled as a list with refusal of repeated values."
  },
  {
   "property": "C90",
   "status": "proved",
   "theorems": [
    "C90_rejected",
    "C90_names",
    "C90_bundles",
    "C90_fullspot_atoms",
    "C90_fullspotlinks_refuted",
    "C90_pairs",
    "C90_repeated_names_refuted",
    "C90_hypersplits",
    "C90_cores",
    "C90_large_atoms"
   ],
   "note": "Complete, with refutations for repeated names, fullspotlinks_by_atom_pretty and (C90_large_atoms) numbers as names. print_only is taken to be False; names given are texts. That Boolf has no attribute fullspotlinks_by_atom was read from the source and is part of the model."
  },
  {
   "property": "C91",
   "status": "proved",
   "theorems": [
    "C91_exact",
    "C91_always",
    "C91_rejected",
    "C91_refuted",
    "C91_arity",
    "C91_tt_length",
    "C91_arity_refuted",
    "C91_zhe",
    "C91_binary_length_refuted",
    "C91_zhe_refuted",
    "C91_available"
   ],
   "note": "axiom-free: a floating point number is a fraction with 53 bits, the true logarithm is compared with fractions by comparing integer powers; log2 and log are parameters with stated accuracy; C91_available shows that the strongest assumption can be met; refuted parts have witnesses"
  },
  {
   "property": "C92",
   "status": "proved",
   "theorems": [
    "C92_row",
    "C92_formats",
    "C92_rejected",
    "C92_half",
    "C92_text",
    "C92_cells"
   ],
   "note": "decimal_length and the two formatted quotients (floating point) are parameters; C92_half shows that VFractERROR is unreachable"
  },
  {
   "property": "C93",
   "status": "proved",
   "theorems": [
    "C93_table",
    "C93_functions",
    "C93_base",
    "C93_literals",
    "C93_rejected"
   ],
   "note": "the varying parts of the HTML are values of the model; functions with at most five atoms and no gap, others are rejected by the code (C93_rejected); the order of sets is a parameter"
  },
  {
   "property": "C94",
   "status": "proved",
   "theorems": [
    "C94_path",
    "C94_fill",
    "C94_corners",
    "C94_order",
    "C94_determines"
   ],
   "note": "the loops of the code have fuel in the model, proved sufficient; the argument is an array of 0 and 1"
  },
  {
   "property": "C95",
   "status": "proved",
   "theorems": [
    "C95_decimal",
    "C95_decimal_powers",
    "C95_decimal_refuted",
    "C95_powers_of_two",
    "C95_binary",
    "C95_not_positive",
    "C95_power_refuted"
   ],
   "note": "math.log of floating point numbers is a parameter; its accuracy is a hypothesis of the theorems, which the rounded logarithm of the real numbers meets. The claims that the functions are right for all numbers are refuted. Uses the stdlib's axioms of the real numbers."
  },
  {
   "property": "C96",
   "status": "proved",
   "theorems": [
    "C96_text",
    "C96_text_rejected",
    "C96_read_back",
    "C96_reverse",
    "C96_set_part",
    "C96_set_part_equal",
    "C96_signs",
    "C96_signs_layout",
    "C96_have_only",
    "C96_regular",
    "C96_regular_refuted",
    "C96_literals"
   ],
   "note": "int() of a character is a parameter that is known for the ten figures. The claim that default_to_regular_dict leaves no defaultdict is refuted for a defaultdict in a dict."
  },
  {
   "property": "C97",
   "status": "proved",
   "theorems": [
    "C97_twin",
    "C97_reverse",
    "C97_complement",
    "C97_acute",
    "C97_acute_zero",
    "C97_patron_foibles",
    "C97_patron_refuted",
    "C97_zhegalkin",
    "C97_male",
    "C97_royal",
    "C97_royal_identifies",
    "C97_royal_one"
   ],
   "note": "proved on the model of boolf/methods/_foibles, metributes/_foibles, _patron, a/_noble; one README remark is refuted (C97_patron_refuted)"
  },
  {
   "property": "C98",
   "status": "proved",
   "theorems": [
    "C98_twin_prefect",
    "C98_family_even",
    "C98_family_odd",
    "C98_clan_even",
    "C98_inflated"
   ],
   "note": "proved for the families and clans that the code accepts"
  },
  {
   "property": "C99",
   "status": "proved",
   "theorems": [
    "C99_parity",
    "C99_inflated",
    "C99_distances",
    "C99_squares",
    "C99_clan"
   ],
   "note": "proved for the plain spectrum and the distances at every sufficient arity"
  },
  {
   "property": "C100",
   "status": "proved",
   "theorems": [
    "C100_block",
    "C100_back",
    "C100_coset",
    "C100_duplicates",
    "C100_spread",
    "C100_triples",
    "C100_sequence"
   ],
   "note": "the pairs of a block are exactly those whose SigPerm turns f into g; the way back by inverses; cosets; triples and pairs; spread literals"
  },
  {
   "property": "C101",
   "status": "proved",
   "theorems": [
    "C101_king",
    "C101_classes",
    "C101_king_of_king",
    "C101_rejected",
    "C101_patron",
    "C101_patron_rejected"
   ],
   "note": "king as least permuted royal, classification of nobles up to permutation, rejected numbers, kings of patrons in a faction"
  },
  {
   "property": "C102",
   "status": "proved",
   "theorems": [
    "C102_zhe",
    "C102_zhe_object",
    "C102_exposet",
    "C102_sum",
    "C102_linear",
    "C102_linear_inflated",
    "C102_patron_zero",
    "C102_patron_constant",
    "C102_patron_index",
    "C102_patron_royal",
    "C102_patron_prefect",
    "C102_oddness_refuted"
   ],
   "note": "prefect as a sum over monomials; linearity; patrons of constants, nobles and at the next arity; one claim of the tests refuted at arity 3"
  },
  {
   "property": "C103",
   "status": "proved",
   "theorems": [
    "C103_inversion_vector",
    "C103_inversion_rejected",
    "C103_solid",
    "C103_block_from_element",
    "C103_affected"
   ],
   "note": "all parts proved"
  },
  {
   "property": "C104",
   "status": "proved",
   "theorems": [
    "C104_relations",
    "C104_filtrate_again",
    "C104_gapless_closure",
    "C104_gapless_again",
    "C104_contradiction_refuted"
   ],
   "note": "Classification of pairs of splits by README; filtrate tower; gapless function = least majority-closed function above (refuted for the contradiction)."
  },
  {
   "property": "C105",
   "status": "proved",
   "theorems": [
    "C105_praetor",
    "C105_praetor_zero",
    "C105_praetor_each",
    "C105_praetor_xor",
    "C105_praetor_twin",
    "C105_praetor_noble",
    "C105_rows"
   ],
   "note": "Praetor bitwise, zero case, fibres, linearity, twins, nobles; recursion of the rows of twin_int."
  },
  {
   "property": "C106",
   "status": "proved",
   "theorems": [
    "C106_pair_acts",
    "C106_array",
    "C106_unmoved_unsigned",
    "C106_unsigned_unmoved",
    "C106_transposed"
   ],
   "note": "The pair as an action, the array with 2^n rows and n! columns, products of unmoved and unsigned permutations, transposed matrices."
  },
  {
   "property": "C107",
   "status": "proved",
   "theorems": [
    "C107_commute",
    "C107_numbers",
    "C107_signed_atoms",
    "C107_signed_spectrum"
   ],
   "note": "Permutations commute with twin, patron, leader, reverse, complement; signed permutations and the Walsh spectrum, consul, weight, gender."
  },
  {
   "property": "C108",
   "status": "proved",
   "theorems": [
    "C108_cycles",
    "C108_moved",
    "C108_cycles_dynamic",
    "C108_cycles_dynamic_default",
    "C108_cycles_dynamic_refused",
    "C108_neutral_cycles_refuted",
    "C108_order",
    "C108_matrix_product",
    "C108_matrix_transposed",
    "C108_transposed_product",
    "C108_transposed_twice",
    "C108_transposed_inverse",
    "C108_transposed_order",
    "C108_apply",
    "C108_apply_length",
    "C108_apply_short",
    "C108_left_product"
   ],
   "note": "Cycles, moved numbers, cycles_dynamic, order, vectors, products with a Perm on the left; matrices of products and transposes, order of the transpose."
  },
  {
   "property": "C109",
   "status": "proved",
   "theorems": [
    "C109_digits",
    "C109_schoute",
    "C109_from_schoute",
    "C109_product",
    "C109_inverse",
    "C109_order",
    "C109_faithful",
    "C109_only",
    "C109_vector",
    "C109_reorder"
   ],
   "note": "Vector of powers of two, Schoute permutation and WalshPerm made from it; products, inverse = transpose, order, faithfulness, converse, reordering."
  },
  {
   "property": "C110",
   "status": "proved",
   "theorems": [
    "C110_code",
    "C110_neighbours",
    "C110_inverse",
    "C110_power",
    "C110_order"
   ],
   "note": "Gray code, one changed digit, inverse, powers of two, order."
  },
  {
   "property": "C111",
   "status": "proved",
   "theorems": [
    "C111_cycles_unique",
    "C111_shortened",
    "C111_back",
    "C111_cycles_dynamic",
    "C111_cycles",
    "C111_order",
    "C111_product",
    "C111_inverse",
    "C111_power",
    "C111_continued",
    "C111_continued_product",
    "C111_continued_inverse",
    "C111_continued_order",
    "C111_continued_cycles"
   ],
   "note": "Uniqueness of cycles; shortening and continuation: action, round trip, cycles, order, products, inverses, powers."
  },
  {
   "property": "C112",
   "status": "proved",
   "theorems": [
    "C112_bloat",
    "C112_bloatless",
    "C112_equalities",
    "C112_equal_pair",
    "C112_complement",
    "C112_complements_refuted",
    "C112_parts"
   ],
   "note": "Links, bloat_boolf and bloatless_boolf of a conjunction; equalities, one equal pair, one complement, refutation for two complements; the two parts of any function."
  },
  {
   "property": "C113",
   "status": "proved",
   "theorems": [
    "C113_loop",
    "C113_cores",
    "C113_gaps",
    "C113_gapless",
    "C113_rejected",
    "C113_all_cores_refuted"
   ],
   "note": "Exact result of loop_hypersplits, its cores, new places are gaps, nothing new without gaps, rejection; refutation of a core for every hypersplit."
  },
  {
   "property": "C114",
   "status": "proved",
   "theorems": [
    "C114_is_natural",
    "C114_is_natural_total",
    "C114_is_natural_text_refuted",
    "C114_type_like_int",
    "C114_type_clean_int",
    "C114_try_except",
    "C114_binv_add",
    "C114_negate_text",
    "C114_negate_text_which"
   ],
   "note": "Exact conditions for the three checks of numbers, a text that makes is_natural fail, try_except, Binv concatenation, texts of negated literals."
  },
  {
   "property": "C115",
   "status": "proved",
   "theorems": [
    "C115_frame",
    "C115_separate",
    "C115_calls",
    "C115_part_changed",
    "C115_shared_refuted",
    "C115_merged_refuted",
    "C115_domain_refuted"
   ],
   "note": "Frame theorem for all commands, reports and rejections in all careful programs, three witnesses for other programs."
  },
  {
   "property": "C116",
   "status": "proved",
   "theorems": [
    "C116_lcm",
    "C116_order",
    "C116_order_small",
    "C116_order_refuted",
    "C116_product",
    "C116_product_refuted"
   ],
   "note": "numpy.lcm with wrap-around at 64 bits; sufficient conditions and witnesses beyond them."
  },
  {
   "property": "C117",
   "status": "proved",
   "theorems": [
    "C117_blight",
    "C117_tests",
    "C117_functions",
    "C117_gapless",
    "C117_bundles",
    "C117_hypersplits",
    "C117_contradiction",
    "C117_one_atom_refuted",
    "C117_gapless_refuted"
   ],
   "note": "C55 to C59 and C77 for functions with superfluous atoms, and what goes wrong for them."
  },
  {
   "property": "C118",
   "status": "proved",
   "theorems": [
    "C118_length",
    "C118_no_length",
    "C118_fullspots",
    "C118_fullspots_refused",
    "C118_superfluous",
    "C118_superfluous_refuted"
   ],
   "note": "Negative members of exponent sets and full spots; atoms checked after deflation."
  },
  {
   "property": "C119",
   "status": "proved",
   "theorems": [
    "C119_dict",
    "C119_period",
    "C119_period_order_refuted",
    "C119_inverse",
    "C119_cycles",
    "C119_order",
    "C119_product",
    "C119_power",
    "C119_apply",
    "C119_apply_refuted",
    "C119_sequence",
    "C119_natural"
   ],
   "note": "Perm from a dict with arbitrary integers: constructor, entries, period, inverse, cycles, order, product, power, vector, sequence."
  },
  {
   "property": "C120",
   "status": "proved",
   "theorems": [
    "C120_nonlinearity",
    "C120_bound",
    "C120_clan",
    "C120_arity"
   ],
   "note": "Nonlinearity as described in the README of walsh_distances: meaning, zero, bound, clans, arity, parity."
  },
  {
   "property": "C121",
   "status": "proved",
   "theorems": [
    "C121_minreps",
    "C121_minreps_class",
    "C121_constant_family",
    "C121_constant_faction",
    "C121_constant_clan",
    "C121_shares",
    "C121_labels"
   ],
   "note": "C70, C71 and C72 hold for these objects as well (their theorems take both kinds of objects; the sizes of blocks of abbreviated classes are shown for deflated functions only, others in C121_shares). The results for constants are reported as findings."
  },
  {
   "property": "C122",
   "status": "proved",
   "theorems": [
    "C122_same",
    "C122_same_arity",
    "C122_same_apply",
    "C122_equality",
    "C122_le",
    "C122_noble",
    "C122_noble_quadrant",
    "C122_male",
    "C122_symmetric",
    "C122_leader",
    "C122_depends_refuted",
    "C122_noble_refuted"
   ],
   "note": "the theorems about SigPerms and linear functions (C34, C53) also take both kinds of objects."
  },
  {
   "property": "C123",
   "status": "proved",
   "theorems": [
    "C123_root",
    "C123_raises",
    "C123_symmetries",
    "C123_gaps",
    "C123_malerep",
    "C123_self_complementary"
   ],
   "note": "the theorems about splinters, clan factions and male functions (C73, C97) also take both kinds of objects."
  },
  {
   "property": "C124",
   "status": "proved",
   "theorems": [
    "C124_grows",
    "C124_stays",
    "C124_partition",
    "C124_label",
    "C124_label_refused"
   ],
   "note": "the labels in C124_label and C124_label_refused are the first ones of the object."
  },
  {
   "property": "C125",
   "status": "proved",
   "theorems": [
    "C125_list",
    "C125_dict",
    "C125_length",
    "C125_eq",
    "C125_extend",
    "C125_slice",
    "C125_str"
   ],
   "note": "slices are shown for the full range and for a negative start; slices in general are C62."
  },
  {
   "property": "C126",
   "status": "proved",
   "theorems": [
    "C126_block",
    "C126_keeps",
    "C126_element",
    "C126_merge",
    "C126_merge_same",
    "C126_element_again",
    "C126_element_merge"
   ],
   "note": "labels of lists that are no blocks (given to the constructor) are allowed; such a label is replaced if its list becomes the merged block."
  },
  {
   "property": "C127",
   "status": "proved",
   "theorems": [
    "C127_natural",
    "C127_one",
    "C127_one_rejected",
    "C127_several"
   ],
   "note": "negative dimensions are accepted by one branch of hyperfission and refused by the other."
  },
  {
   "property": "C128",
   "status": "proved",
   "theorems": [
    "C128_count",
    "C128_same",
    "C128_inversions",
    "C128_any",
    "C128_refuted"
   ],
   "note": "C128_refuted: {(0, 2)} gives 0 2 1, whose inversion is (1, 2)."
  },
  {
   "property": "C129",
   "status": "proved",
   "theorems": [
    "C129_other",
    "C129_outcome",
    "C129_refused",
    "C129_naturals",
    "C129_refuted"
   ],
   "note": "C129_refuted: entry 4 of the pair (3, 5) gives 3 or 5."
  },
  {
   "property": "C130",
   "status": "proved",
   "theorems": [
    "C130_outcome",
    "C130_labels",
    "C130_refused",
    "C130_refuted",
    "C130_live"
   ],
   "note": "C130_refuted: the label of the singleton 2 is gone after merge_many([2]) when there is no other block than singletons."
  },
  {
   "property": "C131",
   "status": "proved",
   "theorems": [
    "C131_vector",
    "C131_orthogonal",
    "C131_inverse",
    "C131_back",
    "C131_shape"
   ],
   "note": ""
  }
 ]
}