# Formal model of discrete_helpers

Source: `/repo/discretehelpers` (Python). Prover: Rocq/Coq 8.16.1.

## Approach

* Every modelled Python function is a total, computable Gallina function that follows the
  source branch by branch. Exceptions are values (`Err e` of the type `res`).
* Python lists and tuples are `list`. Python dicts are association lists in insertion order.
  Python sets are duplicate-free lists; theorems about code that iterates a set hold for
  every order of that list.
* Natural numbers (indices, moved elements, places, integers read as bits) are `nat`.
  Integers that may be negative (literals `~k`, determinant entries, set elements) are `Z`.
* Loops are structural recursion, folds, or recursion on fuel with an explicit out-of-fuel
  result that a theorem excludes.
* `Model_*.v` contain definitions only, each citing file and lines. `Spec_*.v` contain small
  independent specifications. `Proof_*.v` contain lemmas. `Props_*.v` contain the property
  theorems, `Print Assumptions` and examples showing the hypotheses are satisfiable.

## Plan per property

| id | modelled | proof idea |
|----|----------|------------|
| C01 | `a/_binary`, `Binv` constructor and attributes | induction on bits |
| C02 | `a/evil_odious` | parity of bit count of 2i+b |
| C03 | `int_to_factoradic`, `int_to_perm`, ranks | mixed radix digits + C04 |
| C04 | `perm/a/inversion_related_vectors` | pop/insert on stacks |
| C05 | `rev_colex_perms` | lexicographic listing vs factoradic |
| C06, C07 | `Perm` constructor, `__getitem__` | finite injections; C07 has a counterexample |
| C08 | `reduce_period`, `__eq__` | descent through prime divisors |
| C09 | `__mul__`, `__pow__`, `inverse`, `broaden_moved` | extensional reasoning on actions |
| C10 | `cycles`, `order` | orbits; lcm |
| C11 | `apply_on_vector`, `inversion_set`, `parity` | sign homomorphism by counting pairs |
| C12 | `schoute_perm`, `make_atompattern` | bit semantics |
| C13, C14, C49 | `SigPerm` | signed matrices as signed maps |
| C15 | `WalshPerm` | GF(2) linear algebra on bit lists |
| C16 | `integer_determinant` | Bareiss identity through mathcomp matrices |
| C17-C23 | `SetPart` with its caches | invariants over operation histories |
| C24-C26, C46-C48 | `SetPartComp` | parity closure of histories |
| C27-C31, C34, C35 | `Boolf` | assignments `nat -> bool` as semantics |
| C32, C33, C51-C54 | Zhegalkin transform, nobles, leaders, prefects, Walsh spectra of `Boolf` | the transform as XOR over submasks; halves of tables; orthogonality of signs |
| C36 | Walsh functions | induction on arity |
| C37-C39, C43-C45, C50 | helpers | induction |
| C40 | filtrates, pairs of atoms, splits, one-sided atoms | satisfying assignments versus full spots; four regions per pair |
| C41 | segments, links and squares, connectedness | postcondition of the recursive `add` by induction on its depth (no segment twice, so at most 3^valency deep): every new vector has its common superiors; then induction on the dimension |
| C42 | minimal representatives of families, factions and clans (both variants), `family_malerep`, `root_boolf` | column vectors of Zhegalkin coefficients: a greedy elimination from the highest coefficient keeps exactly the candidates that agree with the lexicographic minimum; Zhegalkin numbers compare like these vectors. Male representative: shifting a table of odd weight shifts its consul |
| C55, C56 | `bloat`, `blot`, `blight` and their functions | the accepted statements of the `SetPartComp` are exactly what the satisfying assignments share |
| C57 | equality blocks, `bloatless_*`, `blightless_*` | a satisfying assignment is determined by its representatives; existential quantification over the other atoms |
| C58, C59 | `gapless_boolf`, bundles and grids | three or four overlaps per pair; merging of pairs gives the classes of the closure (`Proof_Blocks.v`) |
| C60 | `create_hasse_matrix` | invariant of the passes; induction on the number of nodes between two nodes |
| C61, C62 | `key_tuples`, `flatten`, slices | paths in nested containers, in lexicographic order; arithmetic progressions |
| C63, C64 | `inverse_cartesian_product`, multisets, list, matrix and dictionary helpers | sorted permutations of a list are equal; induction on lists |
| C65, C66 | `make_linear_boolf`, literals, `int_to_rcv` | the XOR constructor (C35); lists of chains by their length |
| C67, C68 | `layered_is_greater`, chosen bits, `mod_tt_neg`, balanced ternary vectors | lexicographic products of strict orders; digits |
| C69 | `cycle_partition`, `apply_sigperm_to_colors`, sorted matrices | cycles (C10) and partitions (C17); Schoute permutations (C12) |
| C70 to C73 | `ec_family`, `ec_faction`, `ec_clan`, `ec_family_splinters`, `ec_clan_factions` | labelled partitions (C21) as functions; the actions of C42; injections between blocks |
| C74 | `symmetric_spots`, `perm_symmetry_partition` | symmetries are the block of the root in its clan; the group generates the merged pairs |
| C75 | `ec_clan_partitioned` | the loops may only stop when the classes cover the clan |
| C76 | `family_is_self_complementary`, `_quadrant_extensions` | XOR with the negation pattern is an involution of the places; C42, C51 |
| C77, C78 | `hypersplits`, `hypersplits_detailed`, `splits_combined` | a set of atoms is independent exactly if the partition of the true places has 2^n blocks; every independent set of n+1 atoms is the union of two of n atoms |
| C79 | `hypersplits_potential_cores` | two borders on different sides would contradict a pair of values of independent atoms |
| C80 | `fullspots_by_weight`, `fullspotlinks_by_weight`, `_layered`, `is_symmetric` | the loop over the weights keeps the groups of the places read so far; a counting function is invariant under permutations, and two places of equal weight are exchanged by one |
| C81 | `_fissions`, `_hyperfission` (all variants) | a place is a pair of its bits at the dimensions and its other bits, and the order of the places of a part is the order of the other bits |
| C82 | `weight_fract`, `value_fract` | places of a greater arity project onto those of the root, equally many to each; the table of the next arity is the table twice, so numerator and denominator grow by the same factor |
| C83 | `sierpinski`, `diagonal_adjacency_matrix`, `spread_vector`, `inflated_fullspots`, layered `walsh_spectrum`, `mod_tt_perm` | the loop fills the matrix row by row; Lucas' theorem modulo 2 by halving; the double inverse of a Walsh permutation is itself |
| C84 | `to_pretty_string`, `sorted_colex`, `boolfs_to_swan` | three-way comparisons that are total orders; the string with spaces compares like the digits |
| C85 | `ec_clan_matrix` | a permutation of the atoms carries splinters to splinters, so sizes agree; sorting by symmetry, then by columns, keeps equal symmetries in one place; the dictionaries of sets are folds over the signed permutations of all members |
| C86 | `__str__`, `__hash__` and the comparisons of `Boolf` | each part of the text has a prefix-free encoding, so the parts can be read back; evaluation is an inductive relation on texts (`Spec_Str.denotes`); the order is lexicographic |
| C87 | `__str__` and `__hash__` of `Binv`, `Perm`, `SigPerm`, `WalshPerm`, `SetPart`, `SetPartComp` | prefix-free encodings; the cycles depend only on the mapping, not on the order of the dictionary, and rebuild the permutation (C10) |
| C88 | `raw_gen` with its nine operators | `raw_gen_spec` gives the bits of the place; the criteria are compared with conditions on the numbers of true and false atoms |
| C89 | the three scripts for Cayley tables, for every n | `rep` relates a number to an object; `product_iff` compares the products; equality of the objects, of the matrices and of the vertex permutations each decide equality of the numbers |
| C90 | `boolf/methods/_pretty` | the pattern of a pair of atoms decides its word (16 cases); dictionaries with new keys only are lists; labels of equal names differ in a sign at the same place |
| C91 | `a/_log`, `intval_to_arity`, `binary_length` and `zhe` with floating point logarithms as parameters | a/2^j is compared with log2 x by comparing 2^a with x^(2^j); Bernoulli's inequality in both directions shows when the distance to an integer is less than that to the next floating point number |
| C92 | `wiki_table_row` with its template; `decimal_length` and formatted quotients are parameters | the value fraction is compared with 1/2 by the first digit of the repeated table; the text is read back from the left |
| C93 | `ec_clan_matrix_wiki` on top of `ec_clan_matrix` (C85); the varying parts of the HTML are values | sorting by weights with marks where they change; the matrix of sets has exactly the triples of the exposets; literals of signed permutations |
| C94 | `bin2svg` with all inner functions; the corner matrix is changed as in the code, indices behave as in numpy, an unassigned `oldval` would be an error | the boundary as a permutation of directed unit edges; the stored value of a point tells which of its turning edges are unvisited; the first point with a value has exactly one, so `oldval` is always assigned; winding numbers as telescoping sums over edges |
| C95 | `decimal_length`, `binary_length`, `is_power_of_two` with `math.log(n, base)` as a rounded quotient of real numbers (Flocq); `math.log` of one argument is a parameter | ln 2 and ln 10 from a power series with an error bound, scaled by 2^120; rounding and division of intervals by integer arithmetic; for numbers between two powers an error bound of 3 * 2^-52 |
| C96 | `Binv` of a text, `to_pretty_string` of a text, `reverse`, `set_part`; `pretty_signs` with `str.replace`; `have_only`; `default_to_regular_dict` | texts and their transformations are followed from left to right; the partition by C17 and C18 |
| C97 | claims of the README files about foibles of twins, reverses, complements; patron quadrant; nobles and royals | first and last coefficient and the parity of the weight are calculated from the twin and reverse theorems; 8 cases |
| C98 | claims about `consul`, with `ec_family` and `ec_clan` | the consul is linear in the table: moving the arguments adds a multiple of the moved place or permutes digits |
| C99 | claims about `walsh_spectrum` and `walsh_distances` | entries are counts of true places; Parseval's identity by exchanging sums |
| C100 | blocks of `ec_clan` as conversions, with `apply_sigperm`, SigPerm products and inverses, `spread_sigperm_to_sigvar` | `turns f g m r`: the SigPerm of the pair, applied to f, gives g; uniqueness of pairs below (2^n, n!), action of products and inverses, number of combinations |
| C101 | `noble_to_king_and_quadrant`, `noble_to_king_index_and_quadrant`, `patron_king_index_and_quadrant` | tables moved by permutations of atoms; `same_faction` as an equivalence; royals and quadrants of moved tables |
| C102 | `zhe_to_prefect`, `zhe_exposet_to_prefect_gen`, `prefect`, `patron`, `noble_to_index` | the prefect as exclusive or over the monomials; `over`, linearity, the monomials of a patron at the next arity |
| C103 | `inversion_vector`, `is_solid`, `get_block_from_element`, `number_of_affected_elements` | places of values, middle entries of tables, label calls, histories of `SetPartComp` |
| C104 | `splits`, `splits_overlap_counts`, `filtrated_boolf`, `gapless_boolf` once more | the four intersections as truth values; an assignment that fits to each pair of atoms is glued from three by majority, by induction on the number of atoms |
| C105 | `praetor_int`, `twin_int` | the two halves of a table and the step of the Moebius transform from one arity to the next |
| C106 | `SigPerm(pair=…)`, `pair`, `*`, `inverse`, `matrix`, `keyneg_index` | a signed permutation as a function from atoms to literals; the number of a permutation depends only on its images; the factorial number system bounds the columns |
| C107 | the methods of Boolf after `apply_perm` and `apply_sigperm` | a permutation of the atoms permutes the places of the table; subsets of places go to subsets, so the Moebius transform commutes; sums over places are reordered |
| C108 | what a WalshPerm inherits from Perm: `cycles`, `order`, `apply_on_vector`, `p * w`; its own `moved` and `cycles_dynamic` | the view of the object as a periodic permutation has the facts of C10 and C11; matrices are determined by the images of the powers of two, so products and transposes are compared entry by entry, powers by induction |
| C109 | `WalshPerm(vector)`, `Perm.schoute_perm`, `apply_on_vector` on permutations of binary digits (models of C12 and C15) | the matrix has a single 1 in each column, so a product with a vector is a reordering; everything else follows because a map that moves the digits is determined by the permutation |
| C110 | `WalshPerm` of the Gray vector, its inverse, powers and order (models of C15 and C108) | the matrix has two diagonals, its inverse is the upper triangle; squares double the distance of the diagonals; v ^ (v+1) is a block of ones |
| C111 | `Perm(p.sequence(n))`, `Perm(p.sequence(n), n)`, `cycles`, `cycles_dynamic`, `order` (models of C06 - C10) | a cycle that follows the map is determined by its first element, the first elements are the minima of the orbits; the other claims compare actions below n and periods |
| C112 | `boolf_and`, `bloat`, `bloat_boolf`, `bloatless_boolf` (models of C29, C55 - C57) | a satisfying assignment of f is spread over the classes, so that the links of the conjunction are those of g; the representatives that C57 describes are one atom of each class |
| C113 | `loop_hypersplits`, `demand` (Model_LoopHyper; no code calls it) | demands keep the collection closed under inferior and superior vectors; C79 gives the potential cores; a border gives an implication between two atoms, which shows that all pairs of values in a forced core occur |
| C114 | `is_natural`, `type_like_int`, `type_clean_int`, `try_except`, `Binv.__add__`, `logic_negate*` with want_string (Model_Values) | Python numbers as a datatype (float = m * 2^e, infinity or NaN), compared with their value in Q; the other parts by unfolding and list lemmas |
| C115 | programs with several `SetPart` and `SetPartComp` objects; a SetPart is referred to, not copied (Model_Shared) | induction over programs with a list of statements per object; calls reduce to the single-object theorems of C25, C46 and C47; elements without complements are merged in the same way for all objects |
| C116 | `numpy.lcm` and `numpy.lcm.reduce` for int64, in `order` and `broaden_moved` (Model_Int64) | partial results divide the final one; k^3 <= 3^k, so the product of the cycle lengths is at most 3^(119/3) < 2^63; witnesses by evaluation |
| C117 | objects made with `skip_deflation` (`made i`) in the models of C55 to C59 and C77 | the proofs of C55 to C59 and C77 need only a satisfiable function without the special case of one atom (`splittable`); contradictions by calculation with empty splits |
| C118 | `Binv`, `subinit_fs`, `deflate` with integers (`list Z`) | the loop of assignments marks places; deflation commutes with naming the places (`deflate_map`), so the atoms that are left are those that matter |
| C119 | `Perm` from dicts of integers (Model_PermInt), `None` for entries at negative numbers | names are shifted to natural numbers, where the theorems about Model_Perm hold; a block pattern with a negative number cannot repeat, so no period is reduced; None among the values makes `sorted` fail |
| C120 | `walsh_distances`, `is_linear` (Model_BoolfMore); the nonlinearity itself is only in the README | length minus twice the distance is the spectrum of the signed table, whose squares add up to the square of the length (from `parseval`) |
| C121 | `family_minrep`, `faction_minrep`, `clan_minrep`, `clan_minrep_prototype` (Model_MinRep), `ec_*` (Model_Ec) for objects with superfluous atoms | the proofs of C42 and C70 to C72 need only a well made object that is not constant (`wellmade`, `changing`); constants: the Zhegalkin columns are all zero above 0 |
| C122 | `boolf_eqb`, `bitwise_le`, `is_noble`, `noble_quadrant`, `is_male`, `is_symmetric`, `leader` and what depends on the function only (Model_Boolf, Model_BoolfMore, Model_Layers, Model_Misc) | most results are deflated objects or numbers determined by the function; weight of the root compared with that of the deflated object; a transposition of a superfluous and an essential atom |
| C123 | `root_boolf`, `perm_symmetry_partition`, `symmetric_spots`, `family_malerep`, `family_is_self_complementary` (Model_MinRep, Model_Ec) | the root has the table of the object; no label of a partition has superfluous atoms (`shows_stranger`); C74 for the root without gaps; C121 for the representatives of f and NOT f |
| C124 | `read_canonical`, `merge_pair`, `add_label_to_element` with the shared inner lists (`c_alias`, Model_SetPart) | a stored list that shares nothing stays (`loose`) under all operations; case analysis of the merge; the sorted block is the appended list iff b is the greatest |
| C125 | `Vector`, `Vector_of_dict`, `Vector_length`, `Vector_item`, `Vector_slice`, `Vector_eqb`, `Vector_str`, `extend_to_length` (Model_WalshPerm, Model_VectorClass) | the mapping has no default entries, so it is determined by the entries; the text of a tuple by the first character that is no digit |
| C126 | `add_label_to_block`, `add_label_to_element`, `merge_pair` with labels (Model_SetPart) | the labels of a SetPart have distinct blocks and distinct values (`wf_labels`); case analysis on the two look-ups |
| C127 | `atom_indices_to_sequence_int`, `hyperfission_int`, `hyperfission_walsh_spectra_int` and its variants (Model_HyperInt) | reduction to the model with natural numbers (C81); the loop over the dimensions fails exactly at the first negative one |
| C128 | `set_to_count`, `set_to_permutation` (Model_InvSet) | invariant of the loop over the pairs; a transitive and cotransitive set of pairs is a strict total order of the places, whose ranks are the permutation |
| C129 | `other_entry` (Model_OtherEntry) | the order of sets is any function that permutes its argument; `C129_naturals` ties it to the special case in Model_Splits |
| C130 | `merge_many` (Model_SetPart) for objects with labels | invariant of the loop over pairs: the blocks are unions of the old ones and carry their labels; a refused pair is traced back to two labelled blocks of the given elements |
| C131 | `sg_matrix`, `sg_apply`, `sg_inv` (Model_SigPerm), `matrix_to_sequence_arg` (Model_SigMatrix) | each row has one entry, in the column that is mapped to it; the scalar product is defined beside the theorems; `C131_shape` takes all matrices of integers and reads the literals off their entries (as a set: the order of the result is in `C131_back`) |

Every property is expressible in the model. What is proved so far is recorded in
`MANIFEST.json`; deviations between code and intended property are listed below.

## Trusted base

* Coq's kernel (8.16.1), including its virtual machine (used by `vm_compute` in examples and
  witnesses).
* `Print Assumptions` reports "Closed under the global context" for every theorem except those of
  C95. These use real numbers, and depend on the stdlib's axioms `ClassicalDedekindReals.sig_not_dec`,
  `ClassicalDedekindReals.sig_forall_dec`, `FunctionalExtensionality.functional_extensionality_dep` and
  `Classical_Prop.classic`. No other axiom is used.
* The reading of the Python source. The code is not run; each definition of `Model_*.v` cites
  the lines it was read from and says where it is simplified.
* Behaviour of the runtime and of third-party packages, taken from their documentation:
  Python lists, dicts, sets, `itertools`; `bidict`; `numpy.lcm` (taken as unbounded, except in Model_Int64, where it is that of numpy's C source for int64);
  `numpy.linalg.inv` (a parameter of the model; theorems that use it have the hypothesis
  `exact_inverse` of `Spec_WalshPerm.v`, which `C15_inverse_available` shows can be met); `sympy.primefactors`; `factoradic.from_factoradic`; floating point logarithms (parameters
  in `Model_Log.v`, in `Binv_with` of `Model_Binary.v` and in the methods that call it; exact in all other files, which is
  justified by `C91_exact` for lengths up to 2^47 where the code calls `math.log2`. Where it calls
  `math.log(n, 2)` the exact model deviates from the code, C95 shows where: `is_power_of_two(2**29)` is False, and
  `binary_length(2**48 - 1)` is 49); `networkx.connected_components` (a merging of blocks in
  `Model_Segments.v`, proved to give the classes of the graph); `sympy.fwht` and `ifwht` (their defining sum, see
  `Model_Boolf.v`); `itertools.permutations`; `numpy.ones`, `numpy.nonzero` and `&` on the boolean
  matrices of the clan prototype; ratios of layers compared with 0, 1/2 and 1 without rounding
  (`Model_MinRep.v`).

## What is modelled

| code | model |
|------|-------|
| `perm/` without `schoute_perm`, drawing and printing | `Model_Perm.v` |
| `perm/metributes/schoute_perm`, `sig_perm/`, `a/logic_abs`, `a/logic_negate` | `Model_SigPerm.v` |
| the argument `schoute_perm` of `SigPerm`, `sig_perm/a/schoute_to_finite_inverse`, `a/_atompatterns` (`atompattern_to_signed_index`) | `Model_Schoute.v` |
| `binv/`, `a/_binary`, `a/evil_odious`, number and list helpers of `a/` | `Model_Binary.v` |
| `a/integer_determinant`, `a/is_integer_matrix` (integer entries), `walsh_perm` attribute `determinant` | `Model_Determinant.v` |
| `walsh_perm/` without `determinant`, `a/walsh_function_to_index`, `a/_linear_to_index_pair`, `a/is_power_of_two` (exact logarithms) | `Model_WalshPerm.v` |
| `walsh_perm` attribute `moved`, method `cycles_dynamic`; `cycles`, `order`, `apply_on_vector`, `__mul__` of `perm` for a WalshPerm | `Model_WalshMore.v` |
| `set_part/`, `a/inventory_partition` | `Model_SetPart.v` |
| `set_part_comp/` | `Model_SetPartComp.v`, its method `boolf` in `Model_SetPartBoolf.v` |
| `boolf/a/simple_gens`, `boolf/a/twin_misc`, `boolf/a/praetor_int` | `Model_Twin.v` |
| `boolf/__init__`, `boolf/subinit_methods`, `boolf/a/deflate`, `boolf/a/reorder_if_atomvals_not_asc`, truth tables, bitwise operators, `val`, `vals`, `apply`, `apply_sigperm` | `Model_Boolf.v` |
| `boolf/metributes`: `zhe`, `_foibles`, `quadrant`, `reverse`, `_prefect`, `is_linear`; `boolf/methods`: `twin`, `is_noble`, `noble_quadrant`, `_patron`, `leader`, `_foibles`, `consul`, `walsh_spectrum` (without `layered`), `walsh_distances`, `hasse_matrix_coordinates`; `boolf/a`: `_noble`, `hasse_matrix_coordinates_to_tt`, `symmetric_to_index` | `Model_BoolfMore.v` |
| `boolf/methods`: `filtrated_boolf`, `filtrated_pair`, `atom_pair_*`, `atom_border_in_atom_side`; `boolf/metributes`: `filtrated_pairs`, `atom_to_crossing_atoms`, `fullspots`, `splits`, `splits_overlap_counts`, `split_pairs_with_3_overlaps`, `splits_equal_and_onesided`, `onesided_*`; `boolf/a`: `spotints_to_splits`, `count_split_regions` | `Model_Splits.v` |
| `boolf/metributes/_ec_reps` (`family_minrep`, `faction_minrep`, `clan_minrep` variants 0 and 1, `family_malerep`), `boolf/metributes`: `root_boolf`, `is_root`; `boolf/a`: `flat_to_layered`, `sierpinski_partition`, `sierpinski_twin`; `a/schoute_coset_gen` | `Model_MinRep.v` |
| `boolf/methods/find_segments` (without `print_segments`), `boolf/metributes/_basics/fullspot_atoms`, `boolf/a/segment_to_adjacent_spots` | `Model_Segments.v`, `Model_LoopHyper.v` |
| `boolf/metributes/_blight` (all), `boolf/methods`: `bloatless_spotint`, `blightless_spotint`; `boolf/metributes`: `gapless_boolf`, `_bundle` (all), `_splits/splits_eq_blocks_and_pref_side`, `_splits/number_of_distinct_splits` | `Model_Blight.v` |
| `a/`: `create_hasse_matrix`, `key_tuples`, `flatten`, `slice_to_range`, `is_multisubset`, `multigrade_bitwise`, `inverse_cartesian_product`, `make_transposition`, `repeat_sequence`, `swap_matrix_rows`, `sequence_element_counts`, `subdict`, `powerset`, `logic_abs_increase`, `make_linear_boolf`, `balanced_ternary_walsh_matrix`, `sort_rows_together`, `sort_cols_together`; `boolf/a`: `spread_sigperm_to_sigvar`, `layered_is_greater`, `int_to_rcv`, `atom_indices_to_sequence`, `_mod_tt/mod_tt_neg`, `sort_each_layer`, `apply_sigperm_to_colors`; `perm`: slices, `cycle_partition` | `Model_Helpers.v` |
| `boolf/methods/_ec` (without `ec_clan_matrix`), `boolf/methods/_quadrant_extensions`; `boolf/metributes`: `symmetric_spots`, `perm_symmetry_partition`, `family_is_self_complementary` | `Model_Ec.v` |
| `boolf/metributes`: `hypersplits`, `hypersplits_detailed`, `hypersplits_potential_cores`; `boolf/methods/splits_combined` | `Model_Hyper.v` |
| `boolf/metributes`: `_basics/fullspots_by_weight`, `_basics/fullspotlinks_by_weight`, `_layered`, `is_symmetric`, `_fissions` (all); `boolf/methods/_hyperfission` (all, dimensions are natural numbers) | `Model_Layers.v` |
| `boolf/methods/_hyperfission` and `boolf/a/atom_indices_to_sequence` with any integers | `Model_HyperInt.v` |
| `boolf/metributes/weight_fract`, `spread_vector`; `boolf/methods/value_fract`, `inflated_fullspots`, `walsh_spectrum` (absolute and layered), `diagonal_adjacency_matrix`; `a/sierpinski`, `a/sorted_colex`; `binv/a/to_pretty_string`; `boolf/a/boolfs_to_swan`, `_mod_tt/mod_tt_perm` | `Model_Misc.v` |
| `boolf/methods/_ec/ec_clan_matrix` (the pairs that are elements of `ec_clan` are numbers in the model) | `Model_ClanMatrix.v` |
| `perm/scripts/01_cayley`, `sig_perm/scripts/01_cayley` (the tables), `sig_perm/scripts/02_cayley_compare` | `Model_Cayley.v` |
| `__str__` and `__hash__` of all classes, comparisons of `Boolf`; texts are lists of code points | `Model_Str.v` |
| `a/_log`, `boolf/a/intval_to_arity`, `binv/a/binary_length`, `boolf/subinit_methods/zhe` with floating point logarithms | `Model_Log.v` |
| `boolf/methods/_pretty` (`print_only` is False), `a/alphabet_subset`, `a/balanced_ternary_vector_to_string` | `Model_Pretty.v` |
| `boolf/methods/wiki_table_row`, `boolf/methods/_ec/ec_clan_matrix_wiki` (values instead of the HTML text) | `Model_Wiki.v` |
| `a/bin2svg` | `Model_Svg.v` |
| `a/decimal_length`, `a/is_power_of_two`, `binv/a/binary_length` with `math.log(n, base)` as a rounded quotient | `Model_LogQuot.v` |
| `binv/__init__.py` for texts, `binv/a/to_pretty_string` for texts, `binv/metributes/` `string`, `pretty`, `reverse`, `set_part`; `a/pretty_signs`, `a/have_only`, `a/default_to_regular_dict` | `Model_BinvText.v` |
| `boolf/a/_noble`: `noble_to_king_and_quadrant`, `noble_to_king_index_and_quadrant`; `boolf/methods/_patron`: `patron_king_index_and_quadrant` | `Model_King.v` |
| `perm/a/inversion_related_vectors`: `inversion_vector`; `boolf/methods/_foibles`: `is_solid`; `set_part/methods/block_labels`: `get_block_from_element`; `set_part_comp`: `number_of_affected_elements` | `Model_Rest.v` |
| `a/is_natural`, `a/type_like_int`, `a/type_clean_int`, `a/try_except`; `binv`: `__add__`; `a/logic_negate` with want_string | `Model_Values.v` |
| `set_part_comp`: constructor with a SetPart, objects that share it | `Model_Shared.v` |
| `perm`: `order` and `broaden_moved` with integers of 64 bits | `Model_Int64.v` |
| `perm`: constructor, entries, `reduce_period`, products, powers, `inverse`, `cycles`, `order`, `apply_on_vector`, `sequence` for dicts of any integers | `Model_PermInt.v` |
| `walsh_perm/a/vector_class` (slices, text, dict) | `Model_VectorClass.v` |
| `perm/a/inversion_related_vectors`: `inversion_set_to_count` with both variants and its dictionary, `inversion_set_to_permutation` | `Model_InvSet.v` |
| `a/other_entry_in_pair` with its exceptions (entries are integers, the order of sets is a parameter) | `Model_OtherEntry.v` |
| `sig_perm/a/matrix_to_sequence` with its argument `inverse` | `Model_SigMatrix.v` |

Not modelled: the type checks of arguments inside the other functions (`isinstance`, `a/is_error`), output to the console (arguments like `print_only`, `print_list`, the method `print_segments`), the HTML around the values of
`ec_clan_matrix_wiki`, file access (`a/misc`), `a/abbrev_testing`, `SigPerm.__pow__` (its body is `pass`, so a power of a SigPerm is None).

### The model compared with the tests of the code

The code cannot be run here, so the model rests on reading it.  To check that reading, the `Conf_*.v` files transcribe assertions of the code's own test files (`_test.py`) and evaluate them in the model:
the expected values were written by the authors of the code, not derived from the model.  `Conf_Examples.v` transcribes the example functions of `boolf/examples`.  These files are tests on literals,
contain no theorems and support no claim in MANIFEST.json; they only say that the definitions agree with the code where its authors wrote down what it does.  No transcribed assertion disagreed.
The assertions of `boolf/test` (`Conf_BoolfTA/TB/TC/TD/TE.v`) were translated mechanically, with loops unrolled: 719 of 839; those left out use names or values that the translation does not know.
In the larger files the values are computed when the file is compiled (`Eval vm_compute`), so that coqchk, which does not use the virtual machine, only compares results.
Assertions on pandas frames, printed output, and tables too large to evaluate with unary numbers are left out.

## Findings (code deviates from the stated property)

Each has a theorem with the suffix `_refuted` and a witness.

* `Perm` accepts overlapping cycles and then is no permutation (C07).
* The parity of periodic permutations is not additive (C11).
* `find_integer_partitions(0)` gives `{(0,)}` (C44).
* `Binv(intval=0, length=0)` has length 1 (C01).
* Several listings depend on the iteration order of a Python set (C37).
* `SetPart.merge_many` keeps a part of the merges when it raises (C17).
* `_join_prototype_improved` raises for negative elements of domain Z (C18).
* `SetPart.join` always has domain N, so `<=` and `<` raise for all other domains (C19).
* `pairs`, `intval`, `canonical_blocks_with_singletons` and `singletons` stay at the value of
  the first read; because of that a block made after the first labelling can not be labelled
  (C20).
* `refine_block` with a wrong number of labels raises after it has changed the blocks (C23).
* `SetPartComp.set_comp(a, a)` is accepted for an element without relations (C25).
* The `SetPartComp` constructor stores complementary pairs that do not match as they are, and
  accepts a pair of two equal elements (C46).
* `SetPartComp.set_equal(a, a)` for a lone element with a complement raises a `KeyError` and
  loses the complement (C47).
* Two `SigPerm` with the same action compare unequal when a negator vector has surplus zeros (C14).
* `SigPerm(matrix=...)` accepts matrices that are no signed permutation matrices (C49).
* `WalshPerm` accepts singular matrices that differ from the identity only in the first entry,
  and some matrices with other entries than 0 and 1, as neutral (C15).
* `WalshPerm(perm=Perm())` raises a `ValueError`; `WalshPerm().sequence(length=n)` raises a
  `TypeError` (C15).
* `Boolf(tt, atomvals)` with unsorted atoms permutes the table with the inverse of the right
  permutation, so the function is wrong unless sorting is an involution (C28).
* `Boolf.bitwise_gt` is not strict (C30).
* `f.apply()` of a constant raises an `IndexError` (C34).
* The `Boolf` constructor does not stop for contradictory combinations of arguments, e.g.
  `Boolf(atom=0, arity=1)` (C35).
* Constant tables of any length and with negative atoms are accepted (C27).
* Objects made with `skip_deflation` can be unequal although they are the same function (C27).
* At arity 0 both tables are their own twins, but `index_to_noble` misses the table 1 and
  `noble_to_index` rejects it; `noble_quadrant` raises an `IndexError` there (C33).
* `filtrated_pair(a, b)` with a > b does not swap the middle digits when one of the atoms is
  one-sided, e.g. for `x0 & ~x1` (C40).
* `filtrated_boolf` with unsorted atoms inherits the wrong reordering of C28 (C40).
* `splits_onesided` of an inflated function of one atom is always `[True]` (C40).
* The searches for minimal representatives rely on `int_to_sierpinski_row` being ascending, but
  it iterates a set of exponents. In another order `family_minrep` gives a function that is not
  the smallest, or `None`, and `clan_minrep` fails at its assertion (C42). CPython iterates sets
  of numbers below 8 in ascending order, but e.g. {2, 8} as 8, 2, so functions of 9 arguments
  are affected: with this one order the model gives `None` for the conjunction of the atoms 0, 1,
  3 to 7 and the negated atom 8 (calculated, 3 minutes, not part of the build).
* `family_minrep` of an inflated constant gives `None` (C42).
* `blightless_spotint` of the constant true raises `BinvLengthError` (C57).
* The `_pretty` methods accept names that are given twice, if there are surplus names, so two atoms
  can have the same name; `fullspotlinks_by_atom_pretty` always raises an `AttributeError`, because
  `Boolf` has no attribute `fullspotlinks_by_atom`; with an atom above 25 and no names given the
  methods for hypersplits raise a `TypeError` (`C90_large_atoms`) (C90).
* `bundles` rejects functions with links only; its error says that the function is not
  blightless, but one-sided atoms are accepted (C59, stated in the theorem).
* `create_hasse_matrix([])` raises a `TypeError` (C60).
* Slices of permutations do not follow Python's rules for sequences: `p[::-1]` and `p[:-1]` are
  empty, `p[-1:]` starts with `None` (C62).
* `make_transposition` accepts negative arguments and then gives no permutation (C64).
* `subdict` without `fresh` (the default) always raises an `AttributeError` (C64).
* `multigrade_bitwise` of a list with one integer gives the list instead of the integer (C64).
* `mod_tt_neg` raises an `AttributeError` for a signet that is a list or a `Binv` (C68).
* `sort_rows_together` gives an empty tuple for matrices without rows (C69).
* `ec_clan(arity, suppress_abbreviation=True)` of the constant false (and of the constant true with
  arity 0) calls itself until the `RecursionError` (C72, `C72_never_ends`).
* `ec_clan_partitioned` of a function with a gap in its atoms depends on the order of a set and may
  miss members of the clan, e.g. for x1 (C75).
* Two different functions made with `skip_deflation` can have the same text and hash: with the atoms
  0 to 4 the negated conjunctions of the atoms 0 to 3 and of the atoms 1 to 4 are both shown as
  `~Boolf(fullspots=[15], arity=5)`, because the complement is deflated (C86).
* A `SigPerm` that equals a `Perm` has a different hash (C87). `WalshPerm`, `SetPart` and `SetPartComp`
  define `__eq__` without `__hash__`, so their objects can not be hashed (read from the source).
* `log_floor`, `log_ceil` and `log_int` are wrong next to powers of two from 2^49 on, so the arity of a
  Zhegalkin number can be one too great. `Boolf(t, arity=n)` with n of 6 or more raises a `LengthError` for every
  truth table t that ends with 54 ones, because `binary_length` is one too great; so `Boolf(zhe=2**64-2)`, the
  disjunction of 6 atoms, raises it too (C91). `math.log(2**29, 2)` is not
  an integer, so `is_power_of_two(2**29)` is False, but `is_power_of_two(2**48 - 1)` is True; `math.log(1000, 10)` is
  below 3, so `decimal_length(1000)` is 3, also for some other powers of ten (C95; for correctly rounded logarithms).
* `VFractERROR` of `wiki_table_row` is unreachable (C92). Read, not proved: `format(wnum / wden, '.20g')[1::]` is meant to cut
  the leading 0, but it cuts the first digit of the scientific notation, which is used for weights below 10^-4 (conjunction of 14 or more atoms),
  and gives an empty text for both constants.
* `pretty_signs` puts a space after the point of a floating point number: the text of 1.5 becomes ` 1. 5` (C96, example).
* `default_to_regular_dict` does not change a defaultdict that is the value of a dict (C96).
* `Binv` of a text accepts the digits of other scripts, because `int` does (C96: the value of a character is what `int` gives).
* `methods/_foibles/README.md` says that a function is acute iff the patron quadrant is 1 or 2, "i.e. the patron's oddness and odiousness are
  different". The remark is false of the patron as a function, which is never odd (`C97_patron_refuted`: the negated atom 1 at arity 2),
  and at arity 0 the claim itself fails for the constant true (`C97_acute_zero`).
* `metributes/_foibles/README.md` describes the property of the root for `ugly` where `male` is meant (C97).
* `walsh_distances/README.md` ("apparently") holds from index 1 on; at index 0 the distance is not shifted (C99).
* `_ec/README.md` calls `get_block_from_label(basori, suppress_abbreviation=True)`; that argument belongs to `ec_clan`, the call as written is a TypeError (the result shown there is that of the clan with pairs, C100).
* `_patron/_test.py` compares the oddness of the prefect of the patron at the next arity with that of the function; this holds at arity 2,
  not at arity 3 (`C102_oddness_refuted`).
* `is_solid` raises a TypeError at arity 0 and a ValueError at arity 1 (C103).
* `WalshPerm().cycles_dynamic` raises an error for every argument (NotPeriodicError, with `length` TypeError), although the degree is 0 (C108_neutral_cycles_refuted).
* `SetPart.merge_many` ends with a new initialisation, and that forgets all labels while every block is a singleton (`C130_refuted`).
* `other_entry_in_pair` accepts an entry that is not in the pair; its result then depends on the order of a set (`C129_refuted`).
* `inversion_set_to_permutation` accepts sets that are no inversion sets, and gives a permutation with other inversions (`C128_refuted`).
* `hyperfission([d])` reads `fissions[d]`, so it accepts a negative dimension as counted from the last atom; the zipped and the labelled spectrum and every call with more dimensions refuse it, some with a TypeError (C127).
* Lines 15 to 22 of `block_labels/__init__.py` have no effect: a label that another block already has raises the exception ValueDuplicationError of bidict, while the same label given to an element merges the blocks (C126).
* `canonical_blocks_with_singletons` of a SetPart shares its inner lists with `blocks`: a merge after the first read appends one element to the stored list without removing its singleton, so the stored list shows that element twice (C124_partition), and whether the merged block can be labelled depends on the order of its elements (C124_label, C124_label_refused).
* `perm_symmetry_partition` and `symmetric_spots` raise TypeError for a root with superfluous atoms, and ValueError for an object whose root keeps gaps between its atoms. The comment `same as self.fullspots` in symmetric_spots is not true for objects with superfluous atoms (C123, `C123_ex_symmetries`).
* Objects with superfluous atoms: `is_noble` is always false (it compares with the deflated twin), so `noble_quadrant` raises ValueError even for the contradiction, which is its own twin; `is_male` is always false; `bitwise_le(f, g)` is false for two objects of the same function with different atoms (C122).
* For constant functions with atoms (made with `skip_deflation`) `family_minrep` gives None and `faction_minrep` gives the object with its superfluous atoms; `clan_minrep` gives the constant without atoms, but None for the tautology with the atom 0 (C121).
* `Perm` checks that sequences and cycles have natural numbers, but a dict may have negative ones: `p = Perm({-1: 0, 0: -1})` exists, `p * p.inverse` raises TypeError (`C119_power`), `p.apply_on_vector([5, 6, 7])` is `[7, 6, 7]` (`C119_apply_refuted`), `Perm({1: -1, -1: 1}, perilen=4)` raises KeyError and `Perm({-1: 1, 1: -1}, perilen=4)` does not (`C119_period_order_refuted`).
* `Boolf(fullspots=[1, 3], atomvals=[4, 4])` and `Boolf(fullspots=[1, 3], atomvals=[4, -2])` are accepted, because the superfluous atom is removed before the check; the same table given as `'0101'` is refused for both (`C118_superfluous_refuted`). `Binv(exposet=[-1])` raises IndexError, `Binv(exposet=[-1], length=2)` is 01 (`C118_length`, `C118_no_length`).
* `Boolf('1111 1111', skip_deflation=True).gapless_boolf` raises SmallerThanSelfERROR, because `==` distinguishes the result from the function (`C117_gapless_refuted`). `Boolf('11', skip_deflation=True).blot` says that atom 0 is always true (`C117_one_atom_refuted`). `Boolf('0000 0000', skip_deflation=True)` passes as blightless (`C117_contradiction`); bundles are refused for every function with superfluous atoms (`C117_bundles`).
* `Perm.order` uses numpy.lcm with 64 bits: cycles of the lengths 2, 3, 5, ..., 53 have the order -4304329670229058502 (`C116_order_refuted`); the product of Perms with period lengths 7 and 2635249153387078803 gets the period length 5 (`C116_product_refuted`).
* `SetPartComp(part)` keeps a reference to the SetPart.  With `c = SetPartComp(p); d = SetPartComp(p); c.set_comp(1, 2); d.set_equal(1, 0)` the complement of c is lost and `c.set_equal(1, 2)` raises KeyError (`C115_shared_refuted`); `p.merge_pair(1, 2)` makes complements of c equal (`C115_merged_refuted`).
* `c = SetPartComp(SetPart([])); c.set_comp(1, 2); c.set_equal(1, -5)` raises NotInDomainError after the complementary pair was removed (`C115_domain_refuted`).
* `is_natural('%')` raises ValueError instead of returning False (`C114_is_natural_text_refuted`); `type_like_int` of a complex number raises TypeError (`C114_type_like_int`).
* `loop_hypersplits` (call commented out) leaves hypersplits without a core if the core is not forced (`C113_all_cores_refuted`; its TO DO).
* `boolf/test/05_blight` expects `(f & bloat).bloatless_boolf == f` for f without bloat and compatible bloat; with two complements it can fail (`C112_complements_refuted`: not both 0 and 1, with 1 ≠ 2 and 0 ≠ 3, becomes a function of 0 and 2).
* `gapless_boolf` of the contradiction is the tautology, although that of every other function is the smallest function of its kind above it (C104).
* A filtrate has only the atoms that still matter, so `f.filtrated_boolf(a).filtrated_boolf(b)` can raise an AtomvalsMismatchError although `b` is a subset of `a` (C104).
* Read, not proved: `have_only` counts None with `==`, so `SigPerm(pair=…, valneg=Binv(…))` fails in the `assert` of `Binv.__eq__`
  instead of raising `ArgComboError`.
