{"id": "C01", "title": "Integer, exponent set, bit vector and Binv conversions are mutually inverse", "statement": "Converting a natural number to its exponent set and back, or to a little-endian Binv (with or without a given length) and back, returns the number; an exponent set is strictly increasing and contains exactly the positions of the one bits; a Binv with a given length has exactly that length (the single exception intval=0, length=0, which yields length 1, is stated explicitly); a length that is too small is rejected.", "quantifier": "all natural numbers n, all bit vectors, all duplicate-free exponent sets, all lengths", "why_tests_cant": "tests pin a few numbers; the claim is about unboundedly large integers and all lengths including zero", "anchors": ["discretehelpers/a/_binary/__init__.py: int_to_exposet, exposet_to_int, vector_to_int, int_to_weight", "discretehelpers/binv/__init__.py: Binv.__init__, has_index, flip_bit", "discretehelpers/binv/metributes: intval, exposet, weight, changes"]}
{"id": "C02", "title": "Evil and odious numbers are enumerated bijectively and in order", "statement": "index_to_evil is a strictly increasing bijection from the naturals onto the numbers with an even number of one bits and evil_to_index is its inverse; the same for odious with an odd number of one bits; the inverse functions reject exactly the numbers of the other kind.", "quantifier": "all natural numbers", "why_tests_cant": "tests check a short prefix; the claim covers every natural number and the exact rejection set", "anchors": ["discretehelpers/a/evil_odious/__init__.py: index_to_evil, index_to_odious, evil_to_index, odious_to_index"]}
{"id": "C03", "title": "Permutation number round trip", "statement": "int_to_perm followed by left_rank is the identity on the naturals, left_rank followed by int_to_perm is the identity on finite permutations; numbers below n! give exactly the permutations of length at most n; right_rank is the lexicographic rank.", "quantifier": "all natural numbers and all finite permutations", "why_tests_cant": "there are infinitely many permutations and tests only cover lengths up to 4", "anchors": ["discretehelpers/a/int_to_perm/__init__.py", "discretehelpers/a/int_to_factoradic/__init__.py", "discretehelpers/perm/a/inversion_related_vectors/__init__.py", "discretehelpers/perm/metributes/ranks"]}
{"id": "C04", "title": "Inversion vectors determine the permutation", "statement": "left_inversion_count_to_permutation inverts left_inversion_count and right_inversion_count_to_permutation inverts right_inversion_count; conversely every vector within the digit bounds (entry i at most i from the left, at most n-1-i for the right variant) is the inversion count of the permutation returned, and the inversion set is recovered likewise.", "quantifier": "all permutations of all lengths, all admissible count vectors", "why_tests_cant": "the number of permutations of each length grows factorially; tests use single examples", "anchors": ["discretehelpers/perm/a/inversion_related_vectors/__init__.py"]}
{"id": "C05", "title": "rev_colex_perms lists every permutation once, at its own number", "statement": "rev_colex_perms(n) has n! entries, no duplicates, contains every permutation of 0..n-1, and its entry number k is the permutation int_to_perm(k) written with length n.", "quantifier": "all n, all k < n!", "why_tests_cant": "equivalence-class code indexes this list by permutation number; tests check n<=4 only", "anchors": ["discretehelpers/a/rev_colex_perms/__init__.py", "discretehelpers/a/int_to_perm/__init__.py", "discretehelpers/boolf/methods/_ec"]}
{"id": "C06", "title": "Perm: a constructed permutation is a bijection of the naturals described by its argument", "statement": "A Perm built from a sequence, from disjoint cycles or from a dict acts as a bijection of the natural numbers that sends each index, cycle member or key where the argument says and fixes everything else (periodically repeated if a period length is given); sequences that are no permutation, dicts whose keys and values differ and too small period lengths are rejected.", "quantifier": "all sequences, cycle lists, dicts, period lengths and all natural arguments", "why_tests_cant": "the action is a function on an infinite set; no finite number of evaluations settles bijectivity", "anchors": ["discretehelpers/perm/__init__.py: Perm.__init__, __getitem__", "discretehelpers/perm/a/reduce_period/__init__.py"]}
{"id": "C07", "title": "Perm built from overlapping cycles", "statement": "Every Perm that the constructor accepts acts as a bijection of the naturals, even if the given cycles overlap. (False of the code: cycles are not checked to be disjoint; the counterexample [[0,1],[1,2]] is proved, and the claim is proved for disjoint cycles.)", "quantifier": "all lists of cycles accepted by the constructor", "why_tests_cant": "tests only construct well-formed cycle lists", "anchors": ["discretehelpers/perm/__init__.py: Perm.__init__ (list of cycles branch)"]}
{"id": "C08", "title": "Perm equality is equality of actions", "statement": "Two accepted permutations compare equal if and only if they have the same period-kind and send every natural number to the same value; in particular the stored period length is the smallest possible period and does not depend on how the permutation was written.", "quantifier": "all pairs of permutations (finite or periodic) and all natural arguments", "why_tests_cant": "minimality of the reduced period quantifies over all divisors and all arguments; a test checks chosen periods only", "anchors": ["discretehelpers/perm/__init__.py: Perm.__eq__", "discretehelpers/perm/a/reduce_period/__init__.py: reduce_period, block_repeats"]}
{"id": "C09", "title": "Perm product, inverse and power are composition, inversion and iteration", "statement": "(p*q)[i] = p[q[i]], p.inverse[p[i]] = i = p[p.inverse[i]], (p**k)[i] is the k-fold image (negative k through the inverse) for all natural i; products of a non-neutral finite and a periodic permutation are rejected and all other products are accepted; hence the permutations of each kind form a group under *.", "quantifier": "all permutations, all integers k, all natural arguments", "why_tests_cant": "group laws over infinitely many elements of arbitrary length and period", "anchors": ["discretehelpers/perm/__init__.py: __mul__, __pow__", "discretehelpers/perm/metributes/inverse.py", "discretehelpers/perm/a/broaden_moved/__init__.py"]}
{"id": "C10", "title": "Perm cycles and order", "statement": "cycles is the canonical cycle decomposition: disjoint cycles of length at least two covering exactly the moved elements, each starting with its smallest element, sorted by that element, following the action; building a Perm from them gives the permutation back; order is the least positive k with p**k neutral.", "quantifier": "all permutations finite or periodic", "why_tests_cant": "least exponent is a statement about all smaller exponents and all arguments", "anchors": ["discretehelpers/perm/metributes/cycles.py", "discretehelpers/perm/metributes/order.py"]}
{"id": "C11", "title": "Perm action on vectors and parity", "statement": "apply_on_vector moves the entry at place i to place p[i] and is an action of the product; parity is the parity of the number of inversions and is additive modulo two for products.", "quantifier": "all finite permutations and all vectors at least as long as the permutation", "why_tests_cant": "homomorphism law over all pairs of permutations", "anchors": ["discretehelpers/perm/__init__.py: apply_on_vector", "discretehelpers/perm/metributes/parity/__init__.py", "discretehelpers/perm/metributes/inversion_set/__init__.py"]}
{"id": "C12", "title": "Schoute permutation permutes binary digits", "statement": "The Schoute permutation of a finite or signed permutation p of length n is the bijection of 0..2^n-1 (repeated with period 2^n) that moves bit i of its argument to place p[i], complementing negated places; products and inverses of permutations correspond to products and inverses of Schoute permutations.", "quantifier": "all finite permutations and signed permutations of all lengths and all naturals", "why_tests_cant": "domain size is exponential in the length and the length is unbounded", "anchors": ["discretehelpers/perm/metributes/schoute_perm/__init__.py", "discretehelpers/a/_atompatterns/__init__.py: make_atompattern"]}
{"id": "C13", "title": "SigPerm product, inverse and sequence form the signed permutation group", "statement": "A signed permutation acts on literals (k or its negation ~k) compatibly with negation; the product acts as the composition, the inverse undoes it, the sequence lists the images of 0,1,2..., and the constructors from sequence, matrix, valneg, keyneg, index pair and Schoute permutation agree with it.", "quantifier": "all signed permutations and all literals", "why_tests_cant": "hyperoctahedral groups of unbounded rank", "anchors": ["discretehelpers/sig_perm/__init__.py", "discretehelpers/sig_perm/a", "discretehelpers/sig_perm/metributes"]}
{"id": "C14", "title": "SigPerm equality is equality of actions", "statement": "Two signed permutations compare equal if and only if they act equally on all literals. (False of the code when a negator vector longer than needed is given: valneg=[1,0,0] and valneg=[1,0] with perm=[1,0] act equally but compare unequal; proved for negator vectors without surplus trailing zeros.)", "quantifier": "all pairs of signed permutations and all literals", "why_tests_cant": "needs all argument representations; tests use matching lengths only", "anchors": ["discretehelpers/sig_perm/__init__.py: __init__, __eq__"]}
{"id": "C15", "title": "Walsh permutations are the invertible GF(2)-linear maps", "statement": "A vector or binary matrix is accepted exactly when the matrix is invertible modulo 2; then the permutation sends the natural number with bits x to the number with bits Mx, so it is linear for XOR, bijective, and products, inverses and transposes correspond to matrix products, inverses and transposes modulo 2; equal action means equal minimal vector.", "quantifier": "all sizes, all binary matrices, all natural arguments", "why_tests_cant": "invertibility and bijectivity for matrices of every size", "anchors": ["discretehelpers/walsh_perm/__init__.py", "discretehelpers/walsh_perm/metributes/mapping", "discretehelpers/walsh_perm/metributes/inverse", "discretehelpers/walsh_perm/a"]}
{"id": "C16", "title": "integer_determinant is the determinant", "statement": "integer_determinant returns the determinant of any square integer matrix, its internal divisibility assertion never fires and no division is by zero.", "quantifier": "all n and all n x n integer matrices", "why_tests_cant": "fraction-free elimination with row swaps is exact only because of a theorem about minors; tests use some matrices", "anchors": ["discretehelpers/a/integer_determinant/__init__.py"]}
{"id": "C17", "title": "SetPart after any sequence of merges is the generated equivalence relation", "statement": "After any sequence of merge_pair and merge_many calls on a partition, two elements are in the same block if and only if they are related by the equivalence relation generated by the initial blocks and the merged pairs; the blocks stay canonical (sorted, disjoint, at least two elements, sorted by content); a merge with an element outside the domain is rejected and leaves the partition unchanged.", "quantifier": "all initial partitions, all finite operation sequences, all elements", "why_tests_cant": "histories of unbounded length; tests run single scenarios", "anchors": ["discretehelpers/set_part/__init__.py", "discretehelpers/set_part/methods/merge_pair/__init__.py", "discretehelpers/set_part/methods/merge_many/__init__.py"]}
{"id": "C18", "title": "SetPart meet and join are the lattice operations", "statement": "meet gives the intersection and join the generated union of the two equivalence relations; for domain N, <= is refinement of equivalence relations, a partial order for which meet and join are greatest lower and least upper bound; the prototype implementations give the same result.", "quantifier": "all pairs of partitions", "why_tests_cant": "the join loop is a fixpoint computation; lattice laws quantify over all partitions", "anchors": ["discretehelpers/set_part/methods/meet_and_join", "discretehelpers/set_part/__init__.py: __eq__, __le__, __lt__"]}
{"id": "C19", "title": "SetPart join keeps the domain and <= works for every domain", "statement": "The join of two partitions with a common domain has that domain, so that <= and < answer for partitions of every domain. (False of the code: join always returns a partition with domain N, so <= raises DomainsNotEqualError for domain Z and for finite domains; both are proved as refutations.)", "quantifier": "all pairs of partitions with equal domain", "why_tests_cant": "tests use the default domain", "anchors": ["discretehelpers/set_part/methods/meet_and_join/join/_1_fast.py", "discretehelpers/set_part/__init__.py: __le__"]}
{"id": "C20", "title": "SetPart derived attributes always describe the current blocks", "statement": "After any history of operations, pairs, intval, canonical_blocks_with_singletons and singletons describe the current blocks. (False of the code: these are cached on first access and the cache survives merges; refuted with a witness, and proved for attributes not read before the last change.)", "quantifier": "all histories of merges, refinements and attribute reads", "why_tests_cant": "depends on the interleaving of reads and writes; unit tests build a fresh object for each read", "anchors": ["discretehelpers/set_part/metributes", "discretehelpers/set_part/__init__.py: set_dummies", "discretehelpers/set_part/methods/merge_pair/__init__.py"]}
{"id": "C21", "title": "SetPart pairs and intval identify the partition", "statement": "pairs is the set of all two-element subsets of blocks with the smaller element first; two partitions of the naturals have the same intval if and only if they are equal.", "quantifier": "all partitions of the naturals with finitely many non-singletons", "why_tests_cant": "injectivity over all pairs of partitions", "anchors": ["discretehelpers/set_part/metributes/pairs/__init__.py", "discretehelpers/set_part/metributes/intval/__init__.py"]}
{"id": "C22", "title": "SetPart labels: inventory and label lookup", "statement": "After any sequence of add_label_to_element calls that does not raise, two labelled elements are in the same block if and only if they were given the same label, get_label_from_element returns the label given, and inventory_partition of a sequence partitions its places by value.", "quantifier": "all finite domains, all sequences of labelings", "why_tests_cant": "history property with label/block bijection maintained through merges", "anchors": ["discretehelpers/set_part/methods/block_labels/__init__.py", "discretehelpers/a/inventory_partition/__init__.py"]}
{"id": "C23", "title": "refine_block splits exactly one block", "statement": "refine_block replaces one block by the given disjoint non-empty parts and leaves all other blocks unchanged: two elements are in the same block afterwards iff they are in a common part or in a common other block; blocks that do not add up to an existing block are rejected without change.", "quantifier": "all partitions, all refinements", "why_tests_cant": "includes rejected calls and their effect on the object state", "anchors": ["discretehelpers/set_part/methods/refine_block/__init__.py"]}
{"id": "C24", "title": "SetPartComp after any history is the generated equality/complement relation", "statement": "After any sequence of set_equal and set_comp calls on distinct elements starting from an empty object, two different elements are reported equal (complementary) iff this follows from the accepted statements by parity of chains; a call that contradicts the earlier ones is rejected and leaves the object unchanged, and all other calls are accepted.", "quantifier": "all finite sequences of set_equal/set_comp calls and all elements", "why_tests_cant": "unbounded histories; the five-way case analysis of complement blocks interacts across calls", "anchors": ["discretehelpers/set_part_comp/__init__.py", "discretehelpers/set_part_comp/methods/set_equal/__init__.py", "discretehelpers/set_part_comp/methods/set_comp/__init__.py", "discretehelpers/set_part_comp/helpers.py"]}
{"id": "C25", "title": "SetPartComp rejects making an element complementary to itself", "statement": "set_comp(a, a) is always rejected. (False of the code for an element not yet in any block: are_equal(a, a) is False for singletons, the pair (a, a) is stored; refuted with a witness and proved for elements in a block.)", "quantifier": "all objects and all elements", "why_tests_cant": "tests never use the same element twice", "anchors": ["discretehelpers/set_part_comp/__init__.py: are_equal", "discretehelpers/set_part_comp/methods/set_comp/__init__.py"]}
{"id": "C26", "title": "SetPartComp as a Boolean function and as an integer filter", "statement": "The Boolean function of a SetPartComp is true under exactly the assignments that give equal atoms equal values and complementary atoms different values, and int_matches accepts exactly the numbers whose bits do so.", "quantifier": "all reachable objects, all assignments, all natural numbers", "why_tests_cant": "assignments range over all subsets of an unbounded atom set", "anchors": ["discretehelpers/set_part_comp/methods/boolf/__init__.py", "discretehelpers/set_part_comp/methods/int_matches/__init__.py"]}
{"id": "C27", "title": "Boolf from a truth table denotes that function; equality is semantic equality", "statement": "A Boolf built from a truth table (and ascending atoms) has exactly the essential atoms as atomvals, a root table of length 2^valency, evaluates like the given table for every assignment, and two Boolfs are equal if and only if they evaluate equally under all assignments.", "quantifier": "all truth tables of length 2^n, all ascending atom lists, all assignments", "why_tests_cant": "canonical-form claim over all Boolean functions", "anchors": ["discretehelpers/boolf/__init__.py", "discretehelpers/boolf/subinit_methods", "discretehelpers/boolf/a/deflate"]}
{"id": "C28", "title": "Boolf with unsorted atomvals", "statement": "In Boolf(tt, atomvals) bit k of a table index is the value of atom atomvals[k], for every order of atomvals. (False of the code when sorting the atoms is not an involution, e.g. [2,0,1]: the inverse bit permutation is applied; refuted with a witness, proved for all orders whose sorting permutation is an involution, and the exact function obtained is proved for every order.)", "quantifier": "all truth tables, all duplicate-free atom lists", "why_tests_cant": "the tests pin the observed output for one order", "anchors": ["discretehelpers/boolf/a/reorder_if_atomvals_not_asc", "discretehelpers/boolf/subinit_methods"]}
{"id": "C29", "title": "Boolf bitwise operators and comparisons are pointwise", "statement": "&, |, ^, ~ evaluate pointwise for every assignment and give canonical results; bitwise_le/lt/ge compare pointwise over all assignments.", "quantifier": "all pairs of Boolfs over arbitrary atoms, all assignments", "why_tests_cant": "atoms and valency are unbounded", "anchors": ["discretehelpers/boolf/methods/bitwise"]}
{"id": "C30", "title": "Boolf.bitwise_gt is strict", "statement": "f.bitwise_gt(g) holds iff g is pointwise below f and different from f. (False of the code: bitwise_gt(f, f) is True; refuted with a witness.)", "quantifier": "all pairs of Boolfs", "why_tests_cant": "tests compare different functions only", "anchors": ["discretehelpers/boolf/methods/bitwise"]}
{"id": "C31", "title": "Truth tables at any arity or over any atoms", "statement": "tt(arity) and tt(atomvals) list the values of the function under all assignments to the first arity atoms, respectively the given ascending superset of its atoms, and building a Boolf from that table gives the function back; indexing a Boolf by an integer evaluates it under the assignment given by its bits.", "quantifier": "all Boolfs, all sufficient arities and atom sets, all naturals", "why_tests_cant": "tables of unbounded size", "anchors": ["discretehelpers/boolf/methods/tt", "discretehelpers/boolf/__init__.py: __getitem__", "discretehelpers/boolf/metributes/atomvals_sierpinski"]}
{"id": "C32", "title": "Twin is the Zhegalkin (Moebius) transform and an involution", "statement": "vector_to_twin_gen and twin_int compute the algebraic normal form: entry k is the XOR of the values at all submasks of k; applying it twice gives the original; zhe does not depend on the arity, determines the function, and Boolf(zhe=f.zhe) == f.", "quantifier": "all truth tables of length 2^n for all n", "why_tests_cant": "involution over all tables of all sizes", "anchors": ["discretehelpers/boolf/a/twin_int", "discretehelpers/boolf/a/vector_to_twin_gen", "discretehelpers/boolf/metributes/zhe", "discretehelpers/boolf/methods/twin"]}
{"id": "C33", "title": "Noble functions: index round trip and patrons", "statement": "index_to_noble enumerates exactly the tables of the given arity that are their own twin, noble_to_index inverts it; the patron f ^ twin(f) is always noble.", "quantifier": "all arities and all indices", "why_tests_cant": "counts 2^(2^(n-1)) objects per arity", "anchors": ["discretehelpers/boolf/a/index_to_noble", "discretehelpers/boolf/a/noble_to_index", "discretehelpers/boolf/methods/_patron", "discretehelpers/boolf/methods/is_noble"]}
{"id": "C34", "title": "Applying signed permutations or literals is substitution", "statement": "f.apply(l0, l1, ...) evaluates like f with each atom replaced by the literal, f.apply_sigperm is an action of the signed permutation group on Boolean functions.", "quantifier": "all Boolfs, all literal lists, all signed permutations, all assignments", "why_tests_cant": "substitution lemma over all functions and assignments", "anchors": ["discretehelpers/boolf/methods/vals_apply", "discretehelpers/boolf/a/mod_tt_perm", "discretehelpers/boolf/a/mod_tt_neg"]}
{"id": "C35", "title": "Boolf constructor terminates", "statement": "Boolf(...) returns or raises for every combination of given and missing arguments. (False of the code: contradictory combinations such as atom together with arity make the constructor loop forever; refuted with a witness; the looping combinations are characterised exactly.)", "quantifier": "all combinations of present/absent constructor arguments", "why_tests_cant": "a hanging call cannot be asserted by a unit test and 2^k combinations exist", "anchors": ["discretehelpers/boolf/__init__.py: __init__", "discretehelpers/a/subinit_bouncer/__init__.py", "discretehelpers/boolf/subinit_methods"]}
{"id": "C36", "title": "Walsh functions: index, table, matrix", "statement": "make_linear_binv(i, n) is the table of the parity of the bits selected by i; walsh_function_to_index returns i for exactly these tables and rejects all others; the Walsh matrix is symmetric and its rows are XOR-closed.", "quantifier": "all arities n, all i < 2^n, all tables", "why_tests_cant": "recognition must reject every one of the other 2^(2^n) tables", "anchors": ["discretehelpers/a/make_linear_binv/__init__.py", "discretehelpers/a/walsh_function_to_index/__init__.py", "discretehelpers/a/arity_to_walsh_matrix/__init__.py", "discretehelpers/a/_linear_to_index_pair/__init__.py"]}
{"id": "C37", "title": "Sierpinski rows list the submasks in order", "statement": "int_to_sierpinski_row(n) lists, in increasing order and without repetition, exactly the numbers whose one bits are among those of n. (The order is false of the code: it iterates over a Python set, and {1, 8} is iterated as 8, 1, so the row of 258 is [0, 256, 2, 258]. Proved: the repetition-free listing for every iteration order, and that the row is increasing iff the set is iterated in increasing order; the order claim is refuted.)", "quantifier": "all natural numbers", "why_tests_cant": "exponentially long rows for unbounded n", "anchors": ["discretehelpers/a/int_to_sierpinski_row/__init__.py"]}
{"id": "C38", "title": "Zipping apart and together are inverse", "statement": "vector_zip_together(vector_zip_apart(v, pattern), pattern) == v, and zipping apart keeps the relative order of the entries with the same pattern value.", "quantifier": "all vectors and patterns of equal length", "why_tests_cant": "arbitrary lengths and patterns", "anchors": ["discretehelpers/a/vector_zip_apart/__init__.py", "discretehelpers/a/vector_zip_together/__init__.py"]}
{"id": "C39", "title": "prime_factors, multi_lcm and binom are number-theoretically correct", "statement": "prime_factors(n) maps exactly the prime divisors of n to their multiplicities (product gives n) for n >= 1; multi_lcm of positive integers is their least common multiple; binom(n,k) satisfies Pascal's rule and counts k-subsets.", "quantifier": "all positive integers", "why_tests_cant": "infinite domain", "anchors": ["discretehelpers/a/prime_factors/__init__.py", "discretehelpers/a/multi_lcm/__init__.py", "discretehelpers/a/binom/__init__.py"]}
{"id": "C40", "title": "Splits, filtrates and one-sided atoms", "statement": "filtrated_boolf(atoms) is existential quantification over the other atoms; filtrated pairs, splits, overlap counts and one-sidedness reported for atoms agree with the set of true places.", "quantifier": "all Boolfs and all atom subsets", "why_tests_cant": "quantification over all functions and all assignments", "anchors": ["discretehelpers/boolf/methods/filtrated_boolf", "discretehelpers/boolf/metributes/_splits", "discretehelpers/boolf/a/count_split_regions"]}
{"id": "C41", "title": "find_segments builds exactly the cubes of full spots", "statement": "The collection of segments of a Boolf contains a signed vector (entries -1, 0, 1) if and only if all spots obtained by replacing zeros with signs are full spots; the result does not depend on insertion order and construction terminates.", "quantifier": "all Boolfs", "why_tests_cant": "mutually recursive demand mechanism; termination and closure for all functions", "anchors": ["discretehelpers/boolf/methods/find_segments"]}
{"id": "C42", "title": "Minimal representatives of families, factions and clans", "statement": "family_minrep (faction_minrep, clan_minrep in both variants) returns the function with the smallest Zhegalkin number among all functions obtained by negating (permuting, both) the arguments, and never returns None; two functions have the same representative exactly when they are in the same class. family_malerep of a function of odd weight is the only member of its family whose root has the consul 0. (False for constant objects made with skip_deflation (see C121), and when a set of exponents is not iterated in ascending order; refuted with witnesses.)", "quantifier": "all deflated Boolfs, ascending iteration of exponents", "why_tests_cant": "greedy column elimination versus minimum over an exponentially large class", "anchors": ["discretehelpers/boolf/metributes/_ec_reps/minimal", "discretehelpers/boolf/metributes/_ec_reps/fast/family_malerep/__init__.py", "discretehelpers/a/schoute_coset_gen/__init__.py", "discretehelpers/boolf/a/sierpinski_twin/__init__.py"]}
{"id": "C43", "title": "Hypercube edges are the pairs differing in one bit", "statement": "hypercube_edges(n) lists, in lexicographic order and without repetition, exactly the pairs (a, b) with b below 2^n where b has exactly one more one bit than a and otherwise the same bits; there are n*2^(n-1) of them.", "quantifier": "all dimensions n", "why_tests_cant": "the list doubles with each dimension; tests show one or two dimensions", "anchors": ["discretehelpers/a/hypercube_edges/__init__.py"]}
{"id": "C44", "title": "find_integer_partitions is the set of all partitions", "statement": "For n >= 1 find_integer_partitions(n) contains exactly the non-decreasing tuples of positive integers with sum n, each once. (At n = 0 it is {(0,)}, which is no partition; refuted with a witness.)", "quantifier": "all natural numbers n >= 1", "why_tests_cant": "the number of partitions grows superpolynomially; tests compare one small list", "anchors": ["discretehelpers/a/find_integer_partitions/__init__.py"]}
{"id": "C45", "title": "Atom patterns are the columns of binary digits", "statement": "make_atompattern(k, n) is the table of length 2^n whose entry i is bit k of i, complemented for ~k and complemented again for negate; atoms outside the arity are rejected; make_atompatterns(n) lists the n patterns in order.", "quantifier": "all atoms, arities and signs", "why_tests_cant": "periodic bit patterns are compared for single arities in tests; the claim is about all table entries of all arities", "anchors": ["discretehelpers/a/_atompatterns/__init__.py"]}
{"id": "C46", "title": "SetPartComp constructor from blocks and complementary pairs", "statement": "For disjoint blocks and pairs of different elements, where two pairs that meet a common block join the same two blocks, the constructor raises exactly if a pair lies in one block; otherwise the object reports exactly what follows from the blocks and the pairs. (Without the condition on the pairs this is false: [(1,2),(2,3)] is stored as given and 1 = 3 is not reported; refuted with a witness.)", "quantifier": "all lists of disjoint blocks and all lists of pairs", "why_tests_cant": "the canonical pairs depend on the block minima; tests construct a few fixed objects", "anchors": ["discretehelpers/set_part_comp/__init__.py: __init__"]}
{"id": "C47", "title": "SetPartComp.set_equal of an element with itself changes nothing", "statement": "set_equal(a, a) leaves the reported relations unchanged. (False of the code for an element that is alone in its block and has a complement: the pair is removed twice, a KeyError is raised and the complement is lost; refuted with a witness and proved for all other elements.)", "quantifier": "all reachable objects and all elements", "why_tests_cant": "tests never use the same element twice", "anchors": ["discretehelpers/set_part_comp/methods/set_equal/__init__.py"]}
{"id": "C48", "title": "Derived values of SetPartComp", "statement": "get_block, get_repr, get_comp (smallest complement), all_complement_pairs, related_part, affected_elements, length and == are what the accepted statements imply, for every iteration order of the set of pairs.", "quantifier": "all reachable objects, all elements, all set iteration orders", "why_tests_cant": "values are stored for block minima only and set iteration order is not fixed", "anchors": ["discretehelpers/set_part_comp/__init__.py", "discretehelpers/set_part_comp/methods/all_complement_pairs/__init__.py"]}
{"id": "C49", "title": "SigPerm(matrix=...) accepts exactly the signed permutation matrices", "statement": "SigPerm(matrix=m) is accepted if and only if m is a signed permutation matrix. (False of the code: [[1,0],[1,0]] and [[1,5],[7,1]] are accepted; refuted with witnesses, and proved what is checked instead: the rows of the entries 1 and -1, read column by column, must be a permutation.)", "quantifier": "all square integer matrices", "why_tests_cant": "tests construct from valid matrices only; a rejection claim ranges over all wrong matrices", "anchors": ["discretehelpers/sig_perm/a/matrix_to_sequence/__init__.py", "discretehelpers/sig_perm/__init__.py: __init__"]}
{"id": "C50", "title": "logic_negate negates exactly the chosen literals", "statement": "logic_negate_vector with 'which' negates exactly the literals whose atom is chosen, is rejected exactly if a chosen atom does not appear, and with 'where' negates exactly the chosen places and is rejected exactly for a different length.", "quantifier": "all lists of literals and all choices", "why_tests_cant": "tests show single vectors", "anchors": ["discretehelpers/a/logic_negate/__init__.py", "discretehelpers/a/logic_abs/__init__.py"]}
{"id": "C51", "title": "Quadrants, leaders, reverse and foibles", "statement": "is_odd and is_odious are the values at all-false and all-true, quadrant combines them; is_sharp(n) tells whether the number of true places at arity n is odd, which is so exactly for male functions at the arity that is the number of their atoms; leader(n) is always in quadrant 0 and differs from the function nowhere, only at place 0, everywhere but at place 0, or everywhere, depending on the quadrant; reverse negates all arguments and is an involution.", "quantifier": "all Boolfs, all arities", "why_tests_cant": "leader goes through two twin transforms; the claims concern all tables of all arities", "anchors": ["discretehelpers/boolf/methods/leader/__init__.py", "discretehelpers/boolf/metributes/_foibles/__init__.py", "discretehelpers/boolf/methods/_foibles/__init__.py", "discretehelpers/boolf/metributes/reverse/__init__.py", "discretehelpers/boolf/metributes/quadrant/__init__.py"]}
{"id": "C52", "title": "Consul and prefect", "statement": "consul(n) is the XOR of the true places at arity n, and the slow matrix computation gives the same; the prefect is a linear function whose Walsh index is the XOR of the numbers of the monomials of the Zhegalkin polynomial and whose constant is the parity of the number of monomials of even size; its leader index is half its Walsh index and the quadrant is that of the prefect.", "quantifier": "all Boolfs, all arities", "why_tests_cant": "two different algorithms are claimed to agree on all functions; a matrix product over exponentially many entries", "anchors": ["discretehelpers/boolf/methods/consul/__init__.py", "discretehelpers/boolf/metributes/_prefect/__init__.py"]}
{"id": "C53", "title": "Walsh spectra determine the function", "statement": "Entry k of walsh_spectrum(n) is the signed sum of the true places; Boolf(walsh_spectrum=ws) for a list of length 2^n is accepted exactly if ws is the spectrum of a function, and the object is that function; entry k of walsh_distances(n) is the number of places where the function differs from Walsh function k; is_linear holds exactly for XORs of atoms and a constant.", "quantifier": "all Boolfs, all lists of length 2^n, all arities", "why_tests_cant": "orthogonality of the Walsh matrix of every size; acceptance ranges over all integer lists", "anchors": ["discretehelpers/boolf/methods/walsh_spectrum/__init__.py", "discretehelpers/boolf/subinit_methods/ws/__init__.py", "discretehelpers/boolf/methods/walsh_distances/__init__.py", "discretehelpers/boolf/metributes/is_linear/__init__.py"]}
{"id": "C54", "title": "Hasse coordinates and symmetric tables", "statement": "hasse_matrix_coordinates and hasse_matrix_coordinates_to_tt are inverse bijections between the functions of arity n >= 1 and the pairs of numbers below 2^2^(n-1); symmetric_to_index accepts exactly the palindromic tables and is a bijection onto the numbers below 2^2^(n-1).", "quantifier": "all arities n >= 1, all functions and pairs", "why_tests_cant": "bijections between sets of doubly exponential size", "anchors": ["discretehelpers/boolf/methods/hasse_matrix_coordinates/__init__.py", "discretehelpers/boolf/a/hasse_matrix_coordinates_to_tt/__init__.py", "discretehelpers/boolf/a/symmetric_to_index/__init__.py"]}
{"id": "C55", "title": "Bloat, blot and blight are what all satisfying assignments have in common", "statement": "bloat relates two atomkeys exactly if the atoms are equal (or complementary) in all satisfying assignments, and nothing else; blot relates exactly the atoms with a fixed value to each other and to -1, which stands for true; blight relates both; is_bloatless, is_blotless and is_blightless tell whether there are such relations; the results do not depend on the iteration order of sets.", "quantifier": "all Boolfs, all set iteration orders", "why_tests_cant": "the relation ranges over all satisfying assignments; set order is not fixed by tests", "anchors": ["discretehelpers/boolf/metributes/_blight/bloat/__init__.py", "discretehelpers/boolf/metributes/_blight/blot/__init__.py", "discretehelpers/boolf/metributes/_blight/blight/__init__.py", "discretehelpers/boolf/metributes/_blight/is_bloatless/__init__.py", "discretehelpers/boolf/metributes/_blight/is_blightless/__init__.py"]}
{"id": "C56", "title": "bloat_boolf, blot_boolf and blight_boolf are the conjunctions of these relations", "statement": "bloat_boolf is true exactly for the assignments that have all equalities and complements that the satisfying assignments of the function share, blot_boolf exactly for those that have all its fixed values, blight_boolf for those with both; each is implied by the function.", "quantifier": "all Boolfs, all assignments", "why_tests_cant": "a semantic claim over all assignments", "anchors": ["discretehelpers/boolf/metributes/_blight/bloat_boolf/__init__.py", "discretehelpers/boolf/metributes/_blight/blot_boolf/__init__.py", "discretehelpers/boolf/metributes/_blight/blight_boolf/__init__.py"]}
{"id": "C57", "title": "bloatless_boolf and blightless_boolf keep exactly what is left", "statement": "The equality blocks are the classes of tied atoms, each with the right preferred side, sorted by representatives. bloatless_boolf has no links, depends on representatives only, and its conjunction with bloat_boolf is the function; blightless_boolf has neither links nor fixed atoms and its conjunction with blight_boolf is the function; each is the function itself exactly if there is nothing to remove. bloatless_spotint and blightless_spotint keep the digits of the remaining atoms and reject exactly the spots that contradict the relations. (blightless_spotint of the constant true raises BinvLengthError; refuted with a witness.)", "quantifier": "all Boolfs, all assignments, all spots", "why_tests_cant": "decomposition claim about all functions; rejection ranges over all spots", "anchors": ["discretehelpers/boolf/metributes/_blight/bloatless_boolf/__init__.py", "discretehelpers/boolf/metributes/_blight/blightless_boolf/__init__.py", "discretehelpers/boolf/metributes/_splits/splits_eq_blocks_and_pref_side/__init__.py", "discretehelpers/boolf/methods/bloatless_spotint/__init__.py", "discretehelpers/boolf/methods/blightless_spotint/__init__.py"]}
{"id": "C58", "title": "gapless_boolf is what pairs of atoms tell about the function", "statement": "For a blightless function gapless_boolf is true for an assignment exactly if each pair of atoms has values that it also has in a satisfying assignment; it is implied by the function; its internal assertions never fail. All other functions are rejected.", "quantifier": "all Boolfs, all assignments", "why_tests_cant": "a semantic claim over all assignments; unreachability of assertions", "anchors": ["discretehelpers/boolf/metributes/gapless_boolf/__init__.py"]}
{"id": "C59", "title": "Bundles are the connected components of crossing atoms", "statement": "For a function without equal or complementary atoms, bundles are the classes of atomkeys connected by chains of pairs with four overlaps, sorted by first keys; bundle_overlap_counts lists each pair of a bundle exactly once under its count, which is always 3 or 4; bundle_grid_partitions connects the pairs with three overlaps within each bundle. Other functions are rejected.", "quantifier": "all Boolfs, all set iteration orders", "why_tests_cant": "connectedness over all functions; absence of the KeyError for other counts", "anchors": ["discretehelpers/boolf/metributes/_bundle/bundles/__init__.py", "discretehelpers/boolf/metributes/_bundle/is_bundle/__init__.py", "discretehelpers/boolf/metributes/_bundle/bundle_overlap_counts/__init__.py", "discretehelpers/boolf/metributes/_bundle/bundle_grid_partitions/__init__.py"]}
{"id": "C60", "title": "create_hasse_matrix finds exactly the covering pairs", "statement": "Entry (i, j) is 1 exactly if node i is directly under node j (related, with no node between them), with with_indirect_edges it is 2 exactly if it is indirectly under it, and 0 otherwise. For a partial order the edges are the transitive reduction: they generate the relation and every generating set of edges contains them. (create_hasse_matrix([]) raises TypeError; refuted with a witness.)", "quantifier": "all node lists, all relations, all partial orders", "why_tests_cant": "quantifies over all relations; minimality ranges over all generating sets", "anchors": ["discretehelpers/a/create_hasse_matrix/__init__.py"]}
{"id": "C61", "title": "key_tuples and flatten go through nested containers depth first", "statement": "key_tuples lists the keys on the way to every leaf (anything that is no container or empty) exactly once, in the order of positions, for dictionaries and lists nested to any depth; the tuples are different if the keys of every dictionary are; flatten lists exactly the values in nested lists, in the order of positions.", "quantifier": "all nested containers", "why_tests_cant": "containers of unbounded depth", "anchors": ["discretehelpers/a/key_tuples/__init__.py", "discretehelpers/a/flatten/__init__.py"]}
{"id": "C62", "title": "Slices of permutations", "statement": "p[a:b:s] with a >= 0 and s > 0 lists the images of a, a+s, ... below b; a missing stop is the length of p; slice_to_range gives the arithmetic progression in both directions and raises exactly for a missing stop or step 0. (p[::-1], p[:-1] and p[-1:] are not what Python's sequences give; refuted with witnesses.)", "quantifier": "all permutations, all integers a, b, s", "why_tests_cant": "tests show a few slices", "anchors": ["discretehelpers/a/slice_to_range/__init__.py", "discretehelpers/perm/__init__.py: __getitem__"]}
{"id": "C63", "title": "Cartesian products and multisets are recognised", "statement": "inverse_cartesian_product accepts a list of pairs exactly if it is a product of two repetition-free lists in any order, and returns the sorted factors; is_multisubset compares multiplicities; multiset_to_distri lists the multiplicities of the values and rejects exactly those multisets that have other elements.", "quantifier": "all lists of pairs, all multisets", "why_tests_cant": "acceptance ranges over all lists of pairs", "anchors": ["discretehelpers/a/inverse_cartesian_product/__init__.py", "discretehelpers/a/is_multisubset/__init__.py"]}
{"id": "C64", "title": "Helpers for sequences, matrices and dictionaries", "statement": "make_transposition exchanges exactly two entries, repeat_sequence is periodic and accepts exactly multiples of the length, swap_matrix_rows is an involution, sequence_element_counts counts earlier occurrences, powerset lists the 2^n sublists by length, subdict drops and overrides keys, multigrade_bitwise combines all integers bitwise. (Negative arguments of make_transposition give no permutation; subdict without fresh always raises; multigrade_bitwise of one integer returns a list.)", "quantifier": "all lists, all sizes, all set iteration orders", "why_tests_cant": "counting and membership claims for all sizes", "anchors": ["discretehelpers/a/make_transposition/__init__.py", "discretehelpers/a/repeat_sequence/__init__.py", "discretehelpers/a/swap_matrix_rows/__init__.py", "discretehelpers/a/sequence_element_counts/__init__.py", "discretehelpers/a/powerset/__init__.py", "discretehelpers/a/subdict/__init__.py", "discretehelpers/a/multigrade_bitwise/__init__.py"]}
{"id": "C65", "title": "Linear functions and shifted literals", "statement": "make_linear_boolf(walsh, parity) is the XOR of the atoms at the one bits of walsh and the parity; with leader and quadrant it is the linear function in that quadrant whose Walsh index has that half; logic_abs_increase moves the atom of a literal and keeps its sign, and is rejected exactly if the atom would be negative; spread_sigperm_to_sigvar moves every literal by the spread of its atom.", "quantifier": "all indices, literals and vectors", "why_tests_cant": "semantic claim over all assignments", "anchors": ["discretehelpers/a/make_linear_boolf/__init__.py", "discretehelpers/a/logic_abs_increase/__init__.py", "discretehelpers/boolf/a/spread_sigperm_to_sigvar/__init__.py"]}
{"id": "C66", "title": "int_to_rcv counts chains of exponents", "statement": "Entry i of int_to_rcv(n) is the number of chains of length i+1 that start below n, where every member is the position of a one bit of the number before; trailing zeros are removed, or the vector is filled up to the given length, which is rejected exactly if it is too short.", "quantifier": "all naturals n and lengths", "why_tests_cant": "a loop that ends when nothing is left; counting of nested exponents", "anchors": ["discretehelpers/boolf/a/int_to_rcv/__init__.py"]}
{"id": "C67", "title": "layered_is_greater is a strict total order", "statement": "layered_is_greater(a, b) compares the sum of all entries, then the sums of the layers, then the layers; the order is strict, transitive and total.", "quantifier": "all lists of lists of integers", "why_tests_cant": "an order relation over all layered vectors", "anchors": ["discretehelpers/boolf/a/layered_is_greater/__init__.py"]}
{"id": "C68", "title": "Chosen bits, negated tables and balanced ternary vectors", "statement": "Bit i of entry j of atom_indices_to_sequence is the bit of j at the i-th chosen position; mod_tt_neg exchanges the places that differ by the signet and is an involution; balanced_ternary_walsh_matrix has the balanced ternary vectors in the order of their values, and the scalar products modulo 3 as entries -1, 0, 1. (mod_tt_neg raises for a signet that is no integer.)", "quantifier": "all lists of atoms, tables and sizes", "why_tests_cant": "matrices of exponential size", "anchors": ["discretehelpers/boolf/a/atom_indices_to_sequence/__init__.py", "discretehelpers/boolf/a/_mod_tt/mod_tt_neg/__init__.py", "discretehelpers/a/balanced_ternary_walsh_matrix/__init__.py"]}
{"id": "C69", "title": "Cycle partitions, permuted colours, sorted matrices", "statement": "Perm.cycle_partition joins exactly the elements of the same orbit (below the period); apply_sigperm_to_colors gives to every spot the colour of the spot whose binary digits the signed permutation moves and negates to its own; sort_rows_together and sort_cols_together apply one permutation to all matrices so that the tuples of rows or columns are ascending.", "quantifier": "all permutations, signed permutations and matrices", "why_tests_cant": "orbits are unbounded; the claim about colours concerns all spots of all arities", "anchors": ["discretehelpers/perm/metributes/cycle_partition/__init__.py", "discretehelpers/boolf/a/apply_sigperm_to_colors/__init__.py", "discretehelpers/a/sort_rows_together/__init__.py", "discretehelpers/a/sort_cols_together/__init__.py"]}
{"id": "C70", "title": "ec_family labels every negation pattern with its function", "statement": "ec_family() labels the element i < 2^valency with the function where the atoms at the places of the bits of i are negated; the labels are exactly the functions of the family, each once, with blocks of equal size; more than ten atoms are rejected.", "quantifier": "all Boolfs", "why_tests_cant": "a partition of exponentially many elements; completeness and equal sizes are claims about all functions", "anchors": ["discretehelpers/boolf/methods/_ec/ec_family/__init__.py"]}
{"id": "C71", "title": "ec_faction labels every permutation or variation with its function", "statement": "ec_faction(arity) labels the element r < arity! (or the pair of a permutation and a combination, when the function has fewer atoms and abbreviation is not suppressed) with the function whose atoms are permuted (replaced) accordingly; the labels are exactly the functions of the faction with atoms below the arity, each once, with blocks of equal size; the rejections are exactly more than five atoms and a smaller arity.", "quantifier": "all Boolfs, all arities", "why_tests_cant": "completeness of the labels is a claim about all functions of the class", "anchors": ["discretehelpers/boolf/methods/_ec/ec_faction/__init__.py"]}
{"id": "C72", "title": "ec_clan labels every signed permutation or variation with its function", "statement": "ec_clan(arity) is the same for signed permutations; the labels are exactly the functions of the clan with atoms below the arity, each once, with blocks of equal size. (With suppress_abbreviation the constant false, and the constant true with arity 0, are called again and again until the RecursionError; refuted for every depth. Without arity it is a TypeError.)", "quantifier": "all Boolfs, all arities, every recursion limit", "why_tests_cant": "completeness of the labels is a claim about all functions of the class; non-termination", "anchors": ["discretehelpers/boolf/methods/_ec/ec_clan/__init__.py"]}
{"id": "C73", "title": "Splinters of families and factions of clans are the classes of permuted functions", "statement": "ec_family_splinters and ec_clan_factions divide the Zhegalkin numbers of the family (the clan with atoms below the arity) into the classes of functions that differ by a permutation of atoms; each list is ascending and found under its smallest entry, the keys of ec_clan_factions ascend and are the smallest numbers of the whole factions, so its assertion never fails.", "quantifier": "all Boolfs, all arities", "why_tests_cant": "unreachability of an assertion; a claim about classes of functions", "anchors": ["discretehelpers/boolf/methods/_ec/ec_family_splinters/__init__.py", "discretehelpers/boolf/methods/_ec/ec_clan_factions/__init__.py"]}
{"id": "C74", "title": "Symmetry partitions are the orbits of the symmetries", "statement": "symmetric_spots joins two true places of the root exactly if a permutation and negation of atoms that leaves the function unchanged moves one to the other; perm_symmetry_partition joins exactly the places moved to each other by permutations that leave the function unchanged.", "quantifier": "all Boolfs with at most five atoms", "why_tests_cant": "orbits of a group given by all symmetries of the function", "anchors": ["discretehelpers/boolf/metributes/symmetric_spots/__init__.py", "discretehelpers/boolf/metributes/perm_symmetry_partition/__init__.py"]}
{"id": "C75", "title": "ec_clan_partitioned divides the clan into factions and families", "statement": "For a function whose atoms are the first ones, ec_clan_partitioned gives all factions and all families of the clan, sorted by their smallest Zhegalkin numbers, and the intersection of each faction with each family, for every iteration order of sets. (False for other functions: for x1 the loop may stop before the faction of the negations is complete, and the result depends on the order of a set; refuted with a witness.)", "quantifier": "all Boolfs with at most five atoms, all set iteration orders", "why_tests_cant": "set iteration order is not fixed by tests; a claim about all functions of the class", "anchors": ["discretehelpers/boolf/methods/_ec/ec_clan_partitioned/__init__.py"]}
{"id": "C76", "title": "Self-complementary families, weight quadrants and octants", "statement": "family_is_self_complementary holds exactly if the complement can be reached by negating atoms (the test of the weight never rejects such a function); weight_quadrant, acute_quadrant and octant combine the first and last entry of the truth table with the parity of its weight, and reject exactly the arities below the adicity.", "quantifier": "all Boolfs, all arities", "why_tests_cant": "a semantic claim over all negations of atoms", "anchors": ["discretehelpers/boolf/metributes/family_is_self_complementary/__init__.py", "discretehelpers/boolf/methods/_quadrant_extensions/__init__.py"]}
{"id": "C77", "title": "Hypersplits are the sets of independent atoms", "statement": "For a function without linked or fixed atoms, hypersplits has an entry for each size from 1 to the greatest size of a set of atoms that take all combinations of values in the satisfying assignments; the entry has exactly the sets of this size, each once, with the partition of the true places into the classes of equal values of these atoms. Other functions are rejected. The result does not depend on the iteration order of sets.", "quantifier": "all Boolfs, all set iteration orders", "why_tests_cant": "the search grows sets level by level; completeness is a claim about all sets of atoms of all functions", "anchors": ["discretehelpers/boolf/metributes/hypersplits/__init__.py"]}
{"id": "C78", "title": "Combined splits and labelled hypersplits are the classes of equal values", "statement": "splits_combined gives the classes of the true places in which the chosen atoms have equal values, ascending and in the order of their smallest places; a missing atom is an IndexError. hypersplits_detailed has the same sets as hypersplits, with one nonempty block for each combination of values, in binary order, containing exactly the true places with these values.", "quantifier": "all Boolfs, all lists of keys", "why_tests_cant": "the meet of partitions is a global construction over all true places", "anchors": ["discretehelpers/boolf/metributes/_blight/splits_combined/__init__.py", "discretehelpers/boolf/metributes/hypersplits_detailed/__init__.py"]}
{"id": "C79", "title": "Potential cores are all choices of signs that fit the borders", "statement": "For each set of independent atoms, hypersplits_potential_cores divides the other atoms into free ones, which cross all atoms of the set, and determined ones, whose sign is the side on which a border of an atom of the set is; two borders never contradict each other, so the assertions hold; the vectors are exactly the choices of signs 1 and -1 outside of the set that have the determined signs, each once, with 0 in the set.", "quantifier": "all Boolfs without linked or fixed atoms, all sets of independent atoms", "why_tests_cant": "the absence of contradictions is a claim about all functions; the number of vectors is exponential", "anchors": ["discretehelpers/boolf/metributes/hypersplits_potential_cores/__init__.py"]}
{"id": "C80", "title": "True places by weight, their links, and symmetric functions", "statement": "fullspots_by_weight, layered_fullspots and fullspot_weights group the true places by the number of ones, with their atoms; fullspotlinks_by_weight has for each pair of neighbouring weights exactly the edges of the hypercube between true places, in lexicographic order, and number_of_fullspotlinks is the number of all edges; layered_weight counts the true places of each weight; is_symmetric holds exactly if the value depends only on the number of true atoms, which is so exactly if no permutation of the atoms changes the function.", "quantifier": "all Boolfs, all set iteration orders, all permutations of the atoms", "why_tests_cant": "invariance under all permutations; the result must not depend on the order of a set", "anchors": ["discretehelpers/boolf/metributes/_basics/fullspots_by_weight/__init__.py", "discretehelpers/boolf/metributes/_basics/fullspotlinks_by_weight/__init__.py", "discretehelpers/boolf/metributes/_layered/__init__.py", "discretehelpers/boolf/metributes/is_symmetric/__init__.py"]}
{"id": "C81", "title": "Fissions and hyperfissions divide the truth table by the values of atoms", "statement": "Part k of hyperfission(dimensions) has the values at the places whose bits at the dimensions form the number k; the parts are disjoint, equally large and contain all places; the Walsh spectra of the parts, plain, absolute, by weight, zipped together and labelled with the places, are the signed sums over the places of the part; fissions and their weights are the same for single atoms. Repeated or too great dimensions are rejected.", "quantifier": "all Boolfs, all lists of dimensions", "why_tests_cant": "all choices of dimensions; an index calculation over exponentially many places", "anchors": ["discretehelpers/boolf/metributes/_fissions/fissions/work.py", "discretehelpers/boolf/metributes/_fissions/fissions_weight/work.py", "discretehelpers/boolf/metributes/_fissions/fission_walsh_spectra/work.py", "discretehelpers/boolf/metributes/_fissions/fission_walsh_spectra_zipped/work.py", "discretehelpers/boolf/methods/_hyperfission/hyperfission/__init__.py", "discretehelpers/boolf/methods/_hyperfission/hyperfission_walsh_spectra_labeled/__init__.py", "discretehelpers/boolf/methods/_hyperfission/hyperfission_walsh_spectra_zipped/__init__.py"]}
{"id": "C82", "title": "Fractions of a function do not depend on the arity", "statement": "weight_fract is the reduced share of true places at any sufficient arity; shares of complements add up to 1, those of conjunction and disjunction to those of the operands; it is 0 or 1 exactly for constants. value_fract is the reduced number whose binary digits are the truth table repeated forever, at any sufficient arity; different functions have different numbers, ordered by the first place where they differ; complements add up to 1.", "quantifier": "all Boolfs, all arities", "why_tests_cant": "independence of the arity and injectivity are claims about all functions", "anchors": ["discretehelpers/boolf/metributes/weight_fract/__init__.py", "discretehelpers/boolf/methods/value_fract/__init__.py"]}
{"id": "C83", "title": "Sierpinski and diagonal matrices, layered spectra, permuted tables", "statement": "sierpinski has a 1 exactly where the binary digits of the indices are contained in (apart from, together all of) each other, by orientation; two orientations are Pascal's triangle modulo 2; exactly the other sizes are rejected. diagonal_adjacency_matrix is symmetric in the true places with signs by Hamming distance, and raises exactly if the list of signs is too short. spread_vector counts the missing atoms below each atom; inflated_fullspots are the true places at a set of atoms; the layered and absolute Walsh spectra are sorted by weight; mod_tt_perm moves the bits of the places by the permutation.", "quantifier": "all sizes, Boolfs, sets of atoms, permutations", "why_tests_cant": "matrices of exponential size; binomial coefficients of all sizes", "anchors": ["discretehelpers/a/sierpinski/__init__.py", "discretehelpers/boolf/methods/diagonal_adjacency_matrix/__init__.py", "discretehelpers/boolf/metributes/spread_vector/__init__.py", "discretehelpers/boolf/methods/inflated_fullspots/__init__.py", "discretehelpers/boolf/methods/walsh_spectrum/__init__.py", "discretehelpers/boolf/a/_mod_tt/mod_tt_perm/__init__.py"]}
{"id": "C84", "title": "Pretty strings, colexicographic sorting, swans", "statement": "to_pretty_string puts one space after each four digits and a second after each sixteen, accepts exactly lengths 1 to 64 that are powers of 2, and can be read back. sorted_colex gives the same lists sorted by their last difference. boolfs_to_swan returns that member of the collection which is greatest (smallest, reflected) by the numbers of true places in the layers, then the layers, then the truth table, for every order of the collection; functions with atoms above 5 are rejected.", "quantifier": "all vectors, all lists over an ordered type, all collections of Boolfs", "why_tests_cant": "claims about all orders of a collection; the spaces in the sort key must not change the order", "anchors": ["discretehelpers/binv/a/to_pretty_string/__init__.py", "discretehelpers/a/sorted_colex/__init__.py", "discretehelpers/boolf/a/boolfs_to_swan/__init__.py"]}
{"id": "C85", "title": "The matrix of a clan: aligned splinters, sizes, weights and exposets", "statement": "ec_clan_matrix of a function with at most five atoms and no gap returns the factions and families of the clan with their intersections (splinters). The splinters of a faction have one size; their least common multiple is returned; the Zhegalkin polynomials of a faction have the same number of monomials. Splinters of a family with the same symmetries are aligned: functions at the same place have the same symmetry orbits, the first such splinter is ascending, functions with the same symmetries are ascending in all of them. The exposets are exactly the negations, permutations and signed permutations that lead to the faction, family or function. No assertion fails.", "quantifier": "all functions with at most five atoms and no gap, all orders of the sets involved", "why_tests_cant": "clans have thousands of members; the symmetries of every member are compared", "anchors": ["discretehelpers/boolf/methods/_ec/ec_clan_matrix/__init__.py", "discretehelpers/a/sort_together/__init__.py", "discretehelpers/a/sort_cols_together/__init__.py"]}
{"id": "C86", "title": "Texts, hashes and order of Boolfs", "statement": "Every Boolf has a text; evaluating the text (reading the table or the true places, the atoms or the arity, and the leading ~) gives the same object; two Boolfs have the same text exactly if they are the same function, so hashes fit to equality; < on texts is a strict total order of the functions, and >, <= and >= fit to it. (False for objects made with skip_deflation: two different functions can have the same text; refuted with a witness.)", "quantifier": "all Boolfs, all hash functions of texts", "why_tests_cant": "injectivity of the text and totality of the order are claims about all pairs of functions", "anchors": ["discretehelpers/boolf/methods/str/__init__.py"]}
{"id": "C87", "title": "Texts of binary vectors, permutations and partitions", "statement": "Binv, Perm, SigPerm, WalshPerm: two objects have the same text exactly if they are the same vector, permutation, signed permutation, linear map; so equal objects have equal hashes. SetPart: same text exactly if same domain and same partition. SetPartComp: same text only if equal, in whatever order the set of pairs is shown. (A SigPerm can equal a Perm, but their texts, and thus their hashes, always differ.)", "quantifier": "all objects of these classes, all hash functions of texts", "why_tests_cant": "injectivity of texts is a claim about all pairs of objects; set iteration order", "anchors": ["discretehelpers/binv/methods/str.py", "discretehelpers/perm/__init__.py", "discretehelpers/sig_perm/__init__.py", "discretehelpers/walsh_perm/__init__.py", "discretehelpers/set_part/__init__.py", "discretehelpers/set_part_comp/__init__.py"]}
{"id": "C88", "title": "Generators of simple tables", "statement": "For each of the nine operators (AND, XAND, OR, XOR, EQ, SAND, GAND, ESAND, OSAND), each list of atoms and each arity, the table has 2 ** arity entries, and entry i is true exactly if the numbers of true and false atoms in i meet the condition of the operator (SAND: exactly one is false, ...), also for no atoms (EQ of nothing is false). Atoms outside of the arity are refused. OR is the dual of AND; GAND and SAND are union and intersection of ESAND and OSAND, which differ exactly where AND is true.", "quantifier": "all operators, all lists of atoms, all arities", "why_tests_cant": "the test covers arity 3 only", "anchors": ["discretehelpers/boolf/a/simple_gens/__init__.py"]}
{"id": "C89", "title": "Cayley tables of the signed permutations", "statement": "For every n the table of products of the numbered signed permutations (m, k) (m: negated values, k: number of the permutation) is the same whether calculated from SigPerm objects, from their n x n matrices or from their cube vertex permutations; every number is found again, every pair has one entry, and that is the number of the composition. It is the table of a group: neutral number (0, 0), associative, each number once in each row and column. With (pm, pn) = (am, an) * (bm, bn): pn is the product of an and bn in the table of the unsigned permutations, pm = cvp(am, an)[bm] = am ^ cvp(0, an)[bm]; the sign table depends on an only, and differs for different an.", "quantifier": "all n, all pairs of signed permutations", "why_tests_cant": "the scripts print the results for n = 3; the claims in their comments are about a pattern seen there", "anchors": ["discretehelpers/sig_perm/scripts/01_cayley/__main__.py", "discretehelpers/sig_perm/scripts/02_cayley_compare/__main__.py", "discretehelpers/perm/scripts/01_cayley/__main__.py"]}
{"id": "C90", "title": "Results with names of atoms", "statement": "bundles_pretty, fullspot_atoms_pretty, filtrated_pairs_pretty, hypersplits_pretty and hypersplits_potential_cores_pretty give the results of the plain methods with names in the place of keys. Names are those given, if the number of different ones is the valency, otherwise capital letters, or numbers if an atom is above 25; without usable names all methods raise the same error. filtrated_pairs_pretty lists each pair of atoms exactly once, under the word for the set of pairs of values that occur (the subset before its superset), or four digits if there is no word; the words come first in a fixed order. The labels of the blocks of a hypersplit are different for all names. (Refuted: names given twice are accepted, so a pair can have the same name on both sides; fullspotlinks_by_atom_pretty always raises an AttributeError; with an atom above 25 and no names given the methods for hypersplits raise a TypeError.)", "quantifier": "all Boolfs, all lists of names, all set iteration orders", "why_tests_cant": "the classification must fit all functions and all choices of names; the dictionary of labels must not lose entries", "anchors": ["discretehelpers/boolf/methods/_pretty/bundles_pretty/__init__.py", "discretehelpers/boolf/methods/_pretty/filtrated_pairs_pretty/__init__.py", "discretehelpers/boolf/methods/_pretty/hypersplits_pretty/__init__.py", "discretehelpers/boolf/methods/_pretty/hypersplits_potential_cores_pretty/__init__.py", "discretehelpers/boolf/methods/_pretty/fullspot_atoms_pretty/__init__.py", "discretehelpers/a/alphabet_subset/__init__.py", "discretehelpers/a/balanced_ternary_vector_to_string/__init__.py"]}
{"id": "C91", "title": "Logarithms in floating point", "statement": "log_floor, log_ceil and log_int are exact for all arguments up to 2^47 if math.log2 returns one of the two floating point numbers next to the true logarithm (or the logarithm itself, where that is a floating point number). For greater arguments the result of log_floor is at most one too great, that of log_ceil at most one too small, and for powers of two all are exact; arguments below 1 are rejected. With a log2 that rounds to nearest, log_floor(2^k-1), log_int(2^k-1), log_int(2^k+1) and log_ceil(2^k+1) are k for k from 49 to 63, so they are wrong. intval_to_arity is sufficient, at most one too great, and exact for arguments below 2^47 and for those whose number of binary digits is not a power of two; for 2^64-1 it is 7 instead of 6. A Boolean function made from a Zhegalkin number is the right one or is rejected with a LengthError; numbers below 2^32 are accepted, but the disjunction of 6 or more atoms is rejected, and so is every integer truth table of 6 or more atoms that ends with 54 ones.", "quantifier": "all integers with less than 2^52 binary digits, all functions log2 with the stated accuracy", "why_tests_cant": "an error of rounding occurs only for special large arguments; the tests use small ones, and one platform", "anchors": ["discretehelpers/a/_log/log_floor/__init__.py", "discretehelpers/a/_log/log_ceil/__init__.py", "discretehelpers/a/_log/log_int/__init__.py", "discretehelpers/boolf/a/intval_to_arity/__init__.py", "discretehelpers/binv/a/binary_length/__init__.py", "discretehelpers/boolf/subinit_methods/zhe/__init__.py"]}
{"id": "C92", "title": "A row of the wiki table", "statement": "wiki_table_row is accepted exactly for functions without linked or fixed atoms and with no gap in the atoms; it shows the Zhegalkin number and its parity, the reduced value fraction, whether it is above one half (exactly if the Zhegalkin number is odd; it is never one half, so that error is unreachable), the reduced and the unreduced weight fraction and its interval, the valency and the number of bundles. Two calls give the same row only if the function and the names cell are the same.", "quantifier": "all Boolfs, all set iteration orders, all formats of decimals", "why_tests_cant": "an unreachable error and injectivity of the text are claims about all functions", "anchors": ["discretehelpers/boolf/methods/wiki_table_row/__init__.py", "discretehelpers/boolf/methods/wiki_table_row/string.txt", "discretehelpers/boolf/methods/wiki_table_row/ex.py"]}
{"id": "C93", "title": "The wiki table of a clan", "statement": "ec_clan_matrix_wiki makes a table with the least functions of the families in the header and those of the factions before the lines; every function of the clan is in exactly one cell, in the line of its faction and the block of its family; the blocks have the width of the column, which is the least common multiple that is possible, and end with a border; exactly one cell is marked as the function itself; a cell shows the right polynomial, truth table and marks, and exactly the signed permutations that give the function, by negations in the order of their weights, with borders exactly where the weight changes; the shown literals put in place of the atoms give the function of the cell.", "quantifier": "all functions with at most five atoms and no gap, all orders of the sets involved", "why_tests_cant": "clans have thousands of members; completeness of the shown signed permutations is a claim about all of them", "anchors": ["discretehelpers/boolf/methods/_ec/ec_clan_matrix_wiki/__init__.py", "discretehelpers/a/sort_together/__init__.py"]}
{"id": "C94", "title": "The outline of a binary matrix", "statement": "bin2svg always ends, without an error and without reading an unassigned variable, with the text of a path of closed polygons whose horizontal and vertical lines alternate. The polygons go exactly once around each cell with 1 and not around the others, so both fill rules of SVG show the matrix. A point is written as often as the boundary has a corner there: once if one or three of the four cells around it are 1, twice if two cells that touch only there are 1, otherwise not at all. The polygons are in the order of their first points. Matrices of the same size with the same path are equal.", "quantifier": "all binary matrices of all sizes", "why_tests_cant": "the corners are changed while the outlines are followed; termination and completeness are claims about all matrices, with holes inside of areas inside of holes", "anchors": ["discretehelpers/a/bin2svg/__init__.py"]}
{"id": "C95", "title": "math.log(n, base) is not exact", "statement": "The logarithm to a base is the rounded quotient of two rounded logarithms. If math.log has a relative error of at most 2^-52, decimal_length is right for all numbers below 10^13 that are not powers of ten, and a power of ten gets at most one digit less. If math.log is correctly rounded, exactly the powers 10^k with k in 3, 6, 9, 12, 13, 15, 18, 21 below 10^23 get one digit less; binary_length is right for all numbers below 2^45 and for all powers of two below 2^1024; below 2^45 is_power_of_two accepts only powers of two, and rejects exactly those of a given list, which begins with 2^29. But 2^48 - 1 is accepted as a power of two and gets 49 binary digits.", "quantifier": "all functions math.log with the stated accuracy, all integers below the stated limits", "why_tests_cant": "the numbers that go wrong are single points in a large range, and tests see only one implementation of math.log", "anchors": ["discretehelpers/a/decimal_length/__init__.py", "discretehelpers/a/is_power_of_two/__init__.py", "discretehelpers/binv/a/binary_length/__init__.py"]}
{"id": "C96", "title": "Texts of binary vectors and small helpers", "statement": "Binv(text) is accepted exactly if all characters but the spaces are digits with the value 0 or 1. The texts `string` and `pretty` of a vector are read as the same vector, and the pretty text of a pretty text is the same text. `reverse` is an involution that keeps weight and changes. The partition of a vector joins the places with equal entries; vectors of the same length have the same partition exactly if they are equal or complements. pretty_signs shows nested containers with a sign or a space before every integer, so containers of the same layout have texts of the same length. have_only is True if the checked arguments are given and no others, and an error if others are given too. default_to_regular_dict keeps all entries, and makes dicts of nested defaultdicts (but not of defaultdicts in dicts).", "quantifier": "all texts and all meanings of the Unicode digits, all vectors, all nested containers of integers, truth values and None, all argument lists, all nested dicts", "why_tests_cant": "texts and nested containers are infinite in number; tests look at some", "anchors": ["discretehelpers/binv/__init__.py", "discretehelpers/binv/metributes/set_part.py", "discretehelpers/binv/metributes/reverse.py", "discretehelpers/binv/a/to_pretty_string/__init__.py", "discretehelpers/a/pretty_signs/__init__.py", "discretehelpers/a/have_only/__init__.py", "discretehelpers/a/default_to_regular_dict/__init__.py"]}
{"id": "C97", "title": "Foibles of twins, reverses, complements, patrons and nobles", "statement": "The twin of a sharp function is odious, that of a rude one is ugly, that of a rough one is rough, oddness and acuteness stay; the reverse swaps oddness with odiousness and rude with rough; the complement (arity above 0) negates oddness, odiousness, rudeness and roughness and keeps sharpness, ugliness and acuteness. A function is acute exactly if its patron quadrant is 1 or 2 (arity above 0; false for the constant true at arity 0) and exactly if its weight quadrant differs from its quadrant. The patron as a function is never odd. Oddness is the first digit of the Zhegalkin index, odiousness the parity of its weight. A function is male exactly if its root is sharp. From arity 2 on a noble is identified by a royal and any of the four quadrants; at arity 1 only two quadrants occur.", "quantifier": "all functions, all sufficient arities; all nobles", "why_tests_cant": "the README files state these for all functions, the tests check tables up to arity 3 or 4", "anchors": ["discretehelpers/boolf/methods/_foibles/README.md", "discretehelpers/boolf/methods/_foibles/__init__.py", "discretehelpers/boolf/metributes/_foibles/README.md", "discretehelpers/boolf/metributes/_foibles/__init__.py", "discretehelpers/boolf/methods/_patron/__init__.py", "discretehelpers/boolf/a/_noble/README.md", "discretehelpers/boolf/a/_noble/__init__.py"]}
{"id": "C98", "title": "Consuls", "statement": "The consul is the Walsh index of the prefect of the twin. In a family with even weight all functions have the same consul; one with odd weight at arity n has 2^n members, and each number below 2^n is the consul of exactly one. In a clan with even weight all consuls have the same number of ones. When the arity is increased by one, the consul is the new power of two for sharp functions and 0 for the others; when it is increased by more, the consul is 0.", "quantifier": "all functions, all sufficient arities (families up to 10 atoms, clans up to 5, as accepted by the code)", "why_tests_cant": "tests show a few families with 3 or 4 atoms", "anchors": ["discretehelpers/boolf/methods/consul/README.md", "discretehelpers/boolf/methods/consul/__init__.py", "discretehelpers/boolf/methods/_ec/ec_family", "discretehelpers/boolf/methods/_ec/ec_clan"]}
{"id": "C99", "title": "Walsh spectra: parity, longer tables, distances, squares, clans", "statement": "All entries of the spectrum have the parity of the weight (so a zero needs an even weight), and modulo four an entry is the weight plus twice the product of index and consul. With the next arity the spectrum is the doubled one followed by zeros. The distance to a Walsh function is the entry at its index plus half of the length, except at index 0, where it is the entry. The sum of the squares is the length times the weight. Functions in the same clan have the same absolute values, in a different order.", "quantifier": "all functions, all sufficient arities", "why_tests_cant": "infinitely many functions; the README says apparently", "anchors": ["discretehelpers/boolf/methods/walsh_spectrum/README.md", "discretehelpers/boolf/methods/walsh_spectrum/__init__.py", "discretehelpers/boolf/methods/walsh_distances/README.md", "discretehelpers/boolf/methods/walsh_distances/__init__.py", "discretehelpers/boolf/methods/consul/__init__.py"]}
{"id": "C100", "title": "Conversions between the functions of a clan", "statement": "In the clan of f (pairs) the block with the label g contains exactly the pairs (m, r) whose signed permutation turns f into g. The block of f in the clan of g contains exactly the pairs of the inverse signed permutations, so it is as long, and one exists exactly if the other one does. A triple in the block gives the signed variation of its combination, and those are exactly the ones that turn f into g. For root functions the sequence of the signed permutation can be given as arguments. The pairs that keep f can be multiplied to any pair that turns f into g. With k > 0 ignored places the clan with triples has the same members, and 2^k * k! times shorter blocks. If a signed permutation turns f into the root of g, then it turns f into g after its literals are moved by the spread vector of g, and vice versa.", "quantifier": "all non-constant functions with atoms below 5 (limit of the code) and all arities; the last one for all functions", "why_tests_cant": "the tests convert six pairs of functions", "anchors": ["discretehelpers/boolf/methods/_ec/README.md", "discretehelpers/boolf/methods/_ec/ec_clan", "discretehelpers/boolf/test/15_conversions/README.md", "discretehelpers/boolf/methods/vals_apply/apply_sigperm.py", "discretehelpers/boolf/a/spread_sigperm_to_sigvar/__init__.py"]}
{"id": "C101", "title": "Kings of nobles and of patrons", "statement": "The king of a noble is the least number that its royal can get by permuting the atoms, and it is a royal itself; together with the quadrant it tells nobles apart exactly up to permutations of the atoms, and the king of the king is the king. Numbers that are no nobles are rejected with ArgValueError, those that are too large with ArgTooBigError. Functions in the same faction have patrons with the same king and quadrant.", "quantifier": "all arities within the limit of the code, all nobles, all functions of a faction", "why_tests_cant": "nobles of arity 3 and 4 only are in the tests", "anchors": ["discretehelpers/boolf/a/_noble/__init__.py", "discretehelpers/boolf/methods/_patron/__init__.py"]}
{"id": "C102", "title": "Prefects from Zhegalkin indices, prefects of patrons", "statement": "zhe_to_prefect and zhe_exposet_to_prefect_gen, applied to the Zhegalkin index of a function, give its prefect. The prefect is linear: that of an exclusive or is the exclusive or of the prefects; the functions that are their own prefects are exactly the linear ones. The patron is 0 exactly for nobles; that of a function at the next arity has the index that is the truth table; patron and royal of the constants; the prefect of the patron at the next arity is known from that of the function and its sharpness. (The claim in the test that the oddness of this prefect is that of the function holds at arity 2, and is refuted at arity 3.)", "quantifier": "all functions, all arities", "why_tests_cant": "tests check all functions of arity 2 or 3", "anchors": ["discretehelpers/boolf/a/twin_misc/__init__.py", "discretehelpers/boolf/metributes/_prefect/__init__.py", "discretehelpers/boolf/methods/_patron/__init__.py", "discretehelpers/boolf/methods/_patron/_test.py", "discretehelpers/boolf/a/_noble/__init__.py"]}
{"id": "C103", "title": "Remaining small methods", "statement": "inversion_vector of a permutation has at each value the number of greater values left of it (it is the right inversion count of the inverse permutation); an entry that is not below the length is an IndexError; is_solid is the parity of the four entries in the middle of the table (from arity 2 on; below it raises); get_block_from_element of a labelled partition returns the block of the element if a label was given to it, otherwise None; number_of_affected_elements of a SetPartComp is the number of elements that were merged with others.", "quantifier": "all sequences, all functions and arities, all partitions, all histories of a SetPartComp", "why_tests_cant": "tests look at single examples", "anchors": ["discretehelpers/perm/a/inversion_related_vectors/__init__.py", "discretehelpers/boolf/methods/_foibles/__init__.py", "discretehelpers/set_part/methods/block_labels/__init__.py", "discretehelpers/set_part_comp/__init__.py"]}
{"id": "C104", "title": "Relations of splits, filtrates of filtrates, gapless functions", "statement": "Two splits have four overlaps exactly if they are different, have two sides each and their borders cross; three exactly if they do not cross; two exactly if they are different and one of them has an empty side, or if they are the same and have two sides; one exactly if they are the same and one side is empty; none exactly if the function is a contradiction. A filtrate of a filtrate is the filtrate on the smaller set; atoms that the first one does not have any more must be left out. The gapless function of a function that is not contradictory is the smallest function above it whose satisfying assignments are closed under majority; so it is its own gapless function, a function is gapless exactly if it is closed under majority, and the order of functions is kept. (Refuted for the contradiction: its gapless function is the tautology.)", "quantifier": "all Boolfs, all pairs of atoms, all sets of atoms, all set iteration orders", "why_tests_cant": "the README classifies the cases by pictures; minimality is a claim about all functions above", "anchors": ["discretehelpers/boolf/metributes/_splits/splits/README.md", "discretehelpers/boolf/metributes/_splits/splits_overlap_counts/__init__.py", "discretehelpers/boolf/methods/filtrated_boolf/__init__.py", "discretehelpers/boolf/metributes/gapless_boolf/__init__.py"]}
{"id": "C105", "title": "Praetors and the triangle of Zhegalkin permutations", "statement": "The praetor of a table of arity n+1 tells for each place of the lower half whether the last atom makes a difference. It is 0 exactly for the functions that do not use the last atom. Each number below 2^2^n is the praetor of one function for each lower half, and of exactly one noble. The praetor of an exclusive or is the exclusive or of the praetors; the praetor of the twin is the twin of the upper half. Numbers too large and arity 0 are rejected. Each row of the triangle A197819 follows from the one before: twin(l + 2^2^n h) = twin(l) + 2^2^n (twin(l) ^ twin(h)), so the left half of a row is the row before times 2^2^n + 1.", "quantifier": "all arities, all numbers of truth tables", "why_tests_cant": "tests compare the rows up to arity 3", "anchors": ["discretehelpers/boolf/a/praetor_int/README.md", "discretehelpers/boolf/a/praetor_int/__init__.py", "discretehelpers/boolf/a/twin_misc/README.md", "discretehelpers/boolf/a/twin_misc/__init__.py"]}
{"id": "C106", "title": "The array of signed permutations", "statement": "SigPerm(pair=(i, j)) sends k to its image under the permutation with the number j, negated if the binary digit of i at that image is 1. Each signed permutation has exactly one pair, and the pairs of those with length at most n are exactly the pairs with i < 2^n and j < n!. The product (m, 0) * (0, r) is (m, r): the negators belong to the values. In the product (0, r) * (m, 0) the negators belong to the keys: its keyneg_index is m, its perm_index is r. The inverse has the same length and, for each sufficient size, the transposed matrix.", "quantifier": "all pairs of numbers, all signed permutations, all sizes", "why_tests_cant": "The tests check single products and one matrix; the array is infinite in both directions.", "anchors": ["discretehelpers/sig_perm/README.md", "discretehelpers/sig_perm/__init__.py", "discretehelpers/sig_perm/metributes/_indices/__init__.py"]}
{"id": "C107", "title": "Permuted and negated atoms", "statement": "twin, patron, leader, reverse and complement commute with a permutation of the atoms. The digits of the Zhegalkin index are moved like the places of the truth table, those of the prefect's Walsh index and of the consul like the atoms; oddness of the prefect, all foibles and the quadrant of the patron stay the same. A signed permutation moves the atoms of a function and keeps their number, the weight fraction, the gender and the sharpness; an entry of the Walsh spectrum is moved with the atoms of its index and negated if the index contains an odd number of negated atoms; the consul is moved, and if the weight is odd, changed at the negated atoms.", "quantifier": "all functions, all permutations and signed permutations, all sufficient arities", "why_tests_cant": "Tests know single functions with at most four atoms; a method that treats one atom differently from the others would have to be called with just that atom.", "anchors": ["discretehelpers/boolf/methods/vals_apply/__init__.py", "discretehelpers/boolf/methods/consul/__init__.py", "discretehelpers/boolf/methods/walsh_spectrum/__init__.py", "discretehelpers/boolf/methods/leader/__init__.py", "discretehelpers/boolf/methods/twin/__init__.py"]}
{"id": "C108", "title": "Walsh permutations as permutations", "statement": "The cycles of a Walsh permutation contain exactly the moved numbers of one period and follow the map; cycles_dynamic gives those below 2^degree (or below the length, which has to be a power of two) and without argument the same as cycles. Two powers are equal exactly if the order divides the difference of the exponents. The matrix of a product is the product of the matrices modulo two, that of the transpose is the transposed matrix; transposing reverses products, commutes with the inverse, is undone by itself and keeps the degree and the order. apply_on_vector moves entry i to place f(i). p * w with a periodic Perm p on the left is the composition, with a finite one it is refused. (The neutral element has the degree 0, but cycles_dynamic raises an error for it.)", "quantifier": "all Walsh permutations, exponents, degrees, lists, Perms", "why_tests_cant": "matrices of all sizes, all exponents", "anchors": ["discretehelpers/walsh_perm/__init__.py", "discretehelpers/walsh_perm/metributes/moved/__init__.py", "discretehelpers/walsh_perm/metributes/transpose/__init__.py", "discretehelpers/perm/metributes/cycles.py", "discretehelpers/perm/metributes/order.py"]}
{"id": "C109", "title": "Permutations of binary digits", "statement": "For a finite permutation p of at most n places the vector of the powers of two with the exponents p(0), ..., p(n-1) is accepted by WalshPerm; the object moves the binary digit i of every number to place p(i), its degree is the length of p, and it is equal to p.schoute_perm. Made from p.schoute_perm it is the same object; the Schoute permutation of the neutral permutation is refused. Products, inverses and orders correspond; the inverse is the transpose; different permutations give different objects, and these are exactly the Walsh permutations whose vectors consist of powers of two. The vector is what the inverse of p makes of 1, 2, 4, ...; permuting the binary digits of all numbers below 2^n is permuting the list of these numbers.", "quantifier": "all finite permutations, all sufficient lengths, all numbers", "why_tests_cant": "three classes have to agree; the tests compare them for three permutations of 3 or 4 digits", "anchors": ["discretehelpers/walsh_perm/__init__.py", "discretehelpers/walsh_perm/a/vector_to_matrix/__init__.py", "discretehelpers/walsh_perm/a/perm_to_matrix/__init__.py", "discretehelpers/perm/metributes/schoute_perm/__init__.py", "discretehelpers/walsh_perm/test/03_bitperm/wp_3_test.py"]}
{"id": "C110", "title": "The Gray code as a Walsh permutation", "statement": "The vector 1, 3, 6, 12, ... of n+1 numbers is accepted and sends every v below 2^(n+1) to its Gray code v ^ (v >> 1). The codes of v and v+1 differ in exactly one digit, at the place that is the number of factors two of v+1. The inverse has the vector 1, 3, 7, 15, ...; a digit of its result is the parity of the digits of the argument from that place on. The power with the exponent 2^j sends v to v ^ (v >> 2^j). The order is the least power of two that is not below n+1.", "quantifier": "all lengths, all numbers below 2^(n+1), all j", "why_tests_cant": "the test looks at one length", "anchors": ["discretehelpers/walsh_perm/__init__.py", "discretehelpers/walsh_perm/metributes/inverse/__init__.py", "discretehelpers/walsh_perm/metributes/mapping/__init__.py", "discretehelpers/perm/metributes/order.py", "discretehelpers/perm/__init__.py"]}
{"id": "C111", "title": "Finite copies of periodic permutations, and uniqueness of cycles", "statement": "The list of cycles of a permutation is the only list of disjoint cycles of its moved elements (of one period) that follow it, begin with their smallest elements and are sorted by them. For a multiple n of the period, Perm(p.sequence(n)) has the values of p below n and fixes all other numbers; its cycles are p.cycles_dynamic(n), element by element, its order is that of p, and made periodic again it is p. Shortening respects products, inverses and powers. A finite permutation that fixes everything from n on can be continued with the period n; that respects products and inverses, keeps the order, and cycles_dynamic(n) of the result are the cycles.", "quantifier": "all permutations, all lengths and exponents", "why_tests_cant": "the tests compare one product of two permutations of period 3 and 5", "anchors": ["discretehelpers/perm/__init__.py", "discretehelpers/perm/metributes/cycles.py", "discretehelpers/perm/metributes/order.py"]}
{"id": "C112", "title": "A function without bloat together with bloat", "statement": "Let f be a satisfiable function without links between its atoms, and g a function that is nothing but links (every atom equals the first one of its class, or its complement), no two atoms of f being in the same class. Then the bloat of f & g consists of exactly the links of g, and bloat_boolf is g. bloatless_boolf is f up to the choice of one atom of each class. If all links are equalities, the least atom of each class is chosen; so the result is f itself, if the atoms of f are the least ones. For a single new atom b that equals the atom a of f the lower one of the two remains. For a new atom above all atoms of f that is the complement of a, the result is f, unless a is false whenever f is true; then b remains. With two complements the result can have other atoms than f. For every function the bloatless part has no bloat, the bloat part is its own bloat and has the bloatless part true, and their conjunction is the function.", "quantifier": "all Boolfs made without skip_deflation, all systems of links, all orders of iteration", "why_tests_cant": "the tests know nine pairs of functions and one family of four", "anchors": ["discretehelpers/boolf/metributes/_blight/bloat/__init__.py", "discretehelpers/boolf/metributes/_blight/bloat_boolf/__init__.py", "discretehelpers/boolf/metributes/_blight/bloatless_boolf/__init__.py", "discretehelpers/boolf/metributes/_splits/splits_eq_blocks_and_pref_side/__init__.py", "discretehelpers/boolf/test/05_blight/boolf_5_test.py"]}
{"id": "C113", "title": "The cores that hypersplits must have", "statement": "For a function without links and fixed atoms, loop_hypersplits on its collection of segments ends without an error, whatever the orders of the sets are. Afterwards the collection has exactly the cubes all whose places are true places of the function or places of a forced core, each once, and counts them by dimension. (A forced core is a cube crossed by exactly the atoms of an independent set, on whose side of each other atom the border of one of these atoms is.) So no segment is lost, and every forced core is there. All new places are gaps, i.e. true places of the gapless function; a function without gaps gets nothing new. If the core is not forced, none is added, and a hypersplit may remain without a core. With links or fixed atoms there is an AssertionError.", "quantifier": "all Boolfs made without skip_deflation, all orders of iteration", "why_tests_cant": "the function is not called by any code or test", "anchors": ["discretehelpers/boolf/methods/find_segments/a/functions/loop_hypersplits/__init__.py", "discretehelpers/boolf/methods/find_segments/a/classes/collection_of_segments/__init__.py", "discretehelpers/boolf/metributes/hypersplits_potential_cores/__init__.py"]}
{"id": "C114", "title": "Checks of Python values, replaced exceptions, concatenation", "statement": "is_natural is true exactly for the numbers (int, bool, float, Fraction) whose exact value is a natural number, and type_like_int exactly for those whose value is an integer; type_clean_int gives this integer, and is an AssertionError for all other values but complex numbers. is_natural has a result for all values but some texts: the text % raises ValueError. try_except succeeds exactly if the attempt does; a failure becomes the given exception, or stays as it is if it is not of the given classes. The sum of two Binvs is their concatenation: lengths and weights are added, and the second one is shifted by the length of the first one in bits, integer and exposet. With want_string, logic_negate_vector gives the text of the list that it gives without, with the same rejections.", "quantifier": "all values, exceptions, vectors, lists of literals", "why_tests_cant": "floats, Fractions, infinities and texts are not tried in the tests", "anchors": ["discretehelpers/a/is_natural/__init__.py", "discretehelpers/a/type_like_int/__init__.py", "discretehelpers/a/type_clean_int/__init__.py", "discretehelpers/a/try_except/__init__.py", "discretehelpers/a/logic_negate/__init__.py", "discretehelpers/binv/__init__.py"]}
{"id": "C115", "title": "SetParts shared between SetPartComps", "statement": "A SetPart passed to the constructor of SetPartComp is not copied. A command changes only the objects that refer to the same SetPart. In programs with any number of SetParts and SetPartComps, where equalities of elements with complements are only told through an object that does not share its SetPart, each SetPartComp reports exactly the equalities and complements that follow from its own statements and those equalities that are told for its SetPart, and rejects exactly the calls that contradict these; and the SetPart itself has the equalities of its SetPartComps. In other programs a complement can get lost by a call of another object, and later calls raise KeyError, or complements become equal; with the default domain of SetPart a call can raise after it removed a complement.", "quantifier": "all programs of constructor calls, set_equal, set_comp and merge_pair", "why_tests_cant": "no test passes the same SetPart to two objects or changes it afterwards", "anchors": ["discretehelpers/set_part_comp/__init__.py", "discretehelpers/set_part_comp/methods/set_equal/__init__.py", "discretehelpers/set_part_comp/methods/set_comp/__init__.py", "discretehelpers/set_part/methods/merge_pair/__init__.py"]}
{"id": "C116", "title": "Orders and period lengths with 64 bits", "statement": "numpy calculates least common multiples with 64 bits. The order of a Perm is right whenever it is below 2^63, in particular for every permutation that moves at most 119 elements; and the period length and the elements of a product of periodic permutations are right whenever the least common multiple of the period lengths is below 2^63. Beyond that they are not: the order of a permutation of 381 elements is a negative number, and its power with that exponent is not neutral; and a product can get a period length that is smaller than that of a factor.", "quantifier": "all permutations, all period lengths", "why_tests_cant": "tests have small permutations", "anchors": ["discretehelpers/perm/metributes/order.py", "discretehelpers/perm/a/broaden_moved/__init__.py"]}
{"id": "C117", "title": "Functions made with skip_deflation", "statement": "A Boolf made with skip_deflation can have atoms its value does not depend on. If it is satisfiable and does not have exactly one atom, then bloat, blot, blight, their tests and functions, and hypersplits tell the same about its satisfying assignments as for other functions; the gapless function is returned unless it agrees with the function and some atom is superfluous (then SmallerThanSelfERROR is raised); and bundles are refused if some atom is superfluous. A contradiction with two or more atoms passes as blightless, and its hypersplits are the empty splits of its atoms. A tautology with one atom is reported to have an atom that is always true.", "quantifier": "all functions the constructor can return, all iteration orders", "why_tests_cant": "one test file has four such functions", "anchors": ["discretehelpers/boolf/subinit_methods/tt/__init__.py", "discretehelpers/boolf/metributes/_splits/splits_equal_and_onesided/__init__.py", "discretehelpers/boolf/metributes/gapless_boolf/__init__.py", "discretehelpers/boolf/metributes/hypersplits/__init__.py"]}
{"id": "C118", "title": "Negative numbers in exponent sets and full spots", "statement": "In Binv(exposet=s, length=l) a number from -l to -1 means the place that many from the end; greater numbers raise BinvLengthError, smaller ones IndexError. Without a length the greatest member decides about the length, and a set of negative numbers only raises IndexError. The same numbers are accepted as full spots of Boolf, where the object is the one for the remainders. For full spots the atoms are only checked after superfluous ones are gone: the constructor works exactly if the atoms that matter are different and not negative; the same table given as a list is refused.", "quantifier": "all lists of integers, lengths and lists of atoms", "why_tests_cant": "no test uses a negative member or a bad superfluous atom", "anchors": ["discretehelpers/binv/__init__.py", "discretehelpers/boolf/subinit_methods/fs/__init__.py", "discretehelpers/boolf/subinit_methods/tt/__init__.py", "discretehelpers/boolf/a/deflate/__init__.py"]}
{"id": "C119", "title": "Permutations made from dicts with negative integers", "statement": "Perm(d) for a dict d of integers exists exactly if the values are the keys in some order. Its entries at natural numbers are those of the dict, at negative numbers None; the length is one more than the greatest number moved and may be zero or negative. If a negative number is moved, a given period is never reduced, and whether there is a KeyError instead depends on the order of the items. Inverse, cycles and order are those of the bijection of the integers that the dict describes, but the cycles are refused as an argument. Products with such an object raise TypeError (so only the powers -1, 0 and 1 exist), also the product with the inverse. Vectors are read with negative places counted from the end, so the result need not be a rearrangement. The sequence is accepted again exactly if no natural number is sent to a negative one.", "quantifier": "all dicts of integers, periods, exponents and vectors", "why_tests_cant": "no test uses a negative key", "anchors": ["discretehelpers/perm/__init__.py", "discretehelpers/perm/a/reduce_period/__init__.py", "discretehelpers/perm/a/broaden_moved/__init__.py", "discretehelpers/perm/metributes/inverse.py"]}
{"id": "C120", "title": "Nonlinearity from the Walsh distances", "statement": "The number that the README of walsh_distances describes (the minimum of the distances, or the length minus their maximum, if that is smaller) is the smallest number of places where the truth table differs from that of a linear function. It is zero exactly for linear functions, at most half of the length less half of its square root, and equal to that bound exactly if all distances are that far from half of the length. It is the same for the complement and in the whole clan, twice as big for the next arity, and has the parity of the weight for arities above one.", "quantifier": "all Boolfs and arities", "why_tests_cant": "tests have distances of a few functions of small arity", "anchors": ["discretehelpers/boolf/methods/walsh_distances/__init__.py", "discretehelpers/boolf/methods/walsh_distances/README.md", "discretehelpers/boolf/metributes/is_linear/__init__.py"]}
{"id": "C121", "title": "Minimal representatives and classes of functions with superfluous atoms", "statement": "For objects made with skip_deflation that are not constant, the representatives of family, faction and clan are the deflated minimal functions of these classes, and the labels of the classes are those of the deflated function; two such objects have the same representative exactly if they are in the same class. For constant functions with atoms the family search gives None, the faction search gives the object with its superfluous atoms, and the clan search gives the constant without atoms, except for the tautology with the atom 0, where it gives None.", "quantifier": "all Boolfs made with skip_deflation", "why_tests_cant": "no test calls the searches for inflated objects", "anchors": ["discretehelpers/boolf/metributes/_ec_reps/minimal", "discretehelpers/boolf/methods/_ec/ec_family/__init__.py", "discretehelpers/boolf/methods/_ec/ec_faction/__init__.py", "discretehelpers/boolf/methods/_ec/ec_clan/__init__.py"]}
{"id": "C122", "title": "Superfluous atoms do not matter, and where they do", "statement": "Two objects of the same function, with or without superfluous atoms, have the same truth values, Zhegalkin index, quadrant, truth tables, spectra, twins, patrons, prefects, consuls and fractions, and give the same results for NOT, AND, OR, XOR, reverse, permutations and the strict order. They are equal only if they also have the same atoms, and otherwise neither is below or equal to the other. An object with a superfluous atom is never noble (not even the contradiction) and never male, it is symmetric only if it is constant, and it is its own leader in quadrant 0, while leaders in other quadrants have no superfluous atoms.", "quantifier": "all pairs of Boolfs of the same function, made with skip_deflation or without; all arities", "why_tests_cant": "tests hardly use skip_deflation, and only for the properties of single objects", "anchors": ["discretehelpers/boolf/__init__.py", "discretehelpers/boolf/methods/is_noble/__init__.py", "discretehelpers/boolf/metributes/_foibles/__init__.py", "discretehelpers/boolf/metributes/is_symmetric/__init__.py", "discretehelpers/boolf/methods/leader/__init__.py", "discretehelpers/boolf/methods/noble_quadrant/__init__.py"]}
{"id": "C123", "title": "Roots and symmetries of functions with superfluous atoms", "statement": "The root of an object with atoms 0, 1, ... is the object itself, with its superfluous atoms; otherwise superfluous atoms are dropped, and the root has one atom for the place of each essential atom (so it can have gaps). The symmetry partitions raise TypeError for an object with superfluous atoms that is its own root, because it is not among the labels of its own faction and clan. They raise ValueError if the root has gaps between its atoms, and otherwise are those of the root. The male representative is refused for every object with superfluous atoms, and self-complementarity of the family depends on the function only.", "quantifier": "all Boolfs made with skip_deflation (up to five atoms for the symmetries)", "why_tests_cant": "tests of these attributes use no superfluous atoms", "anchors": ["discretehelpers/boolf/metributes/root_boolf/__init__.py", "discretehelpers/boolf/metributes/perm_symmetry_partition/__init__.py", "discretehelpers/boolf/metributes/symmetric_spots/__init__.py", "discretehelpers/boolf/metributes/_ec_reps/fast/family_malerep/__init__.py", "discretehelpers/boolf/metributes/family_is_self_complementary/__init__.py"]}
{"id": "C124", "title": "What the stored list of blocks with singletons shows after a merge", "statement": "canonical_blocks_with_singletons of a SetPart is stored when it is first read, and its inner lists are those of blocks. The first merge after the read that adds a single element b to the block of a appends b to the list that was already handed out, and after that the stored list stays for ever; any other merge leaves it unchanged. With a set as domain the stored list then shows b twice, so it is no partition. A label for the merged block is accepted if b is greater than all elements of the old block, and UnknownBlockError if it is smaller than one of them.", "quantifier": "all SetParts whose list is read before the merge, and all later sequences of operations", "why_tests_cant": "the tests read the attribute only after the last merge", "anchors": ["discretehelpers/set_part/metributes/canonical_blocks_with_singletons/__init__.py", "discretehelpers/set_part/methods/merge_pair/__init__.py", "discretehelpers/set_part/methods/block_labels/__init__.py", "discretehelpers/set_part/methods/blocks_with_singletons/__init__.py"]}
{"id": "C125", "title": "The class Vector of walsh_perm", "statement": "A Vector made from a list, from a dict or from nothing has the given entries and 2^k at every other place k. Its length is the smallest one beyond which all entries are the defaults. Two Vectors are equal exactly when all their entries are. extend_to_length is refused exactly when it would leave out an entry that is no default; otherwise it gives the entries, and a Vector made from it is equal to the first. A slice shows the entries, and None for each negative index. The text determines the Vector.", "quantifier": "all lists and dicts of naturals, all lengths", "why_tests_cant": "the tests show a few vectors, and neither slices, equality nor texts", "anchors": ["discretehelpers/walsh_perm/a/vector_class/__init__.py"]}
{"id": "C126", "title": "Labels of blocks: every outcome", "statement": "add_label_to_block raises UnknownBlockError for a list that canonical_blocks_with_singletons does not show, LabelContradictionError if the block has another label, ValueDuplicationError (of bidict) if another block has the label, and otherwise adds the pair and nothing else. When it raises, no label has changed; labels are never replaced, and the blocks never change. add_label_to_element raises UnknownElementError outside the domain and LabelContradictionError if the block of the element has another label, without changing anything, and does the same as add_label_to_block if the label is new. If its own block has the label nothing happens, and if another block has it the two are merged. merge_pair refuses to merge two blocks with labels and changes nothing then; otherwise it joins the two blocks, gives the label of one of them to the merged block, and keeps all others.", "quantifier": "all SetParts with any stored values and labels, all blocks, elements and labels", "why_tests_cant": "the tests show one case of each error, and none of a label that another block has", "anchors": ["discretehelpers/set_part/methods/block_labels/__init__.py", "discretehelpers/set_part/methods/merge_pair/__init__.py"]}
{"id": "C127", "title": "Hyperfissions along negative dimensions", "statement": "For natural dimensions the integer version of hyperfission and its spectra is that of C81. A single negative dimension d with -n <= d is the atom n + d: hyperfission and its Walsh spectra (plain, absolute, layered) are those of that atom, but the zipped and the labelled spectrum are refused, with an assertion for -1 and with TypeError (a list times a float) below. A single dimension below -n raises IndexError, or fails an assertion if the function is constant. Several dimensions with a negative one are always refused, with TypeError if they are distinct and all below -1, otherwise by an assertion.", "quantifier": "all Boolfs and all lists of integers as dimensions", "why_tests_cant": "the tests use natural dimensions only", "anchors": ["discretehelpers/boolf/methods/_hyperfission/hyperfission/__init__.py", "discretehelpers/boolf/methods/_hyperfission/hyperfission_walsh_spectra/__init__.py", "discretehelpers/boolf/methods/_hyperfission/hyperfission_walsh_spectra_zipped/__init__.py", "discretehelpers/boolf/methods/_hyperfission/hyperfission_walsh_spectra_labeled/__init__.py", "discretehelpers/boolf/a/atom_indices_to_sequence/__init__.py"]}
{"id": "C128", "title": "Vectors and permutations from sets of pairs", "statement": "inversion_set_to_count never raises: its vector is just long enough for all entries of the pairs, and counts how often a number is the second (left variant) or first (right variant) entry. For the inversions of a finite permutation, in any order, the two variants are the left and the right inversion count, and either gives the permutation back. inversion_set_to_permutation gives a permutation for every set of ascending pairs; its inversions are the given pairs exactly when these are transitive and with (a, c) contain (a, b) or (b, c) for each b between. Other sets are not refused, so the result can have other inversions.", "quantifier": "all lists of pairs of naturals, all finite permutations", "why_tests_cant": "the tests show a few permutations, only the left variant, and no sets that are no inversion sets", "anchors": ["discretehelpers/perm/a/inversion_related_vectors/__init__.py"]}
{"id": "C129", "title": "Every outcome of other_entry_in_pair", "statement": "For a list, tuple or set with two different entries, giving one of them returns the other one, whatever the order in which Python lists sets. WrongTypeError is raised exactly for other types, WrongLengthError exactly for lists and tuples that do not have two entries and sets that do not have two different ones, IndexError exactly for a list or tuple with the given entry twice. In all other cases the result is an entry of the pair other than the given one; if the given entry is not in the pair nothing is raised, and the result depends on the order of sets.", "quantifier": "all arguments, all integers, all orders of sets", "why_tests_cant": "no test covers an entry outside the pair or a repeated entry, and a test sees only one order of sets", "anchors": ["discretehelpers/a/other_entry_in_pair/__init__.py"]}
{"id": "C130", "title": "merge_many with labelled blocks", "statement": "If the constructor gets no labels, and only elements are labelled (not blocks), then after any merges and reads every label is that of a block. For a set partition whose labels all belong to blocks and elements of its domain, merge_many raises LabelContradictionError exactly if two of the elements are in different blocks with labels, and otherwise succeeds. After a call that succeeds the given elements are in one block together with their old blocks, nothing else is merged, and an element is in a block with a label exactly if one of that block had this label before. After a refused call the labels are carried in the same way, and only blocks of the given elements can have been merged. After a successful call this is false while all blocks are singletons: merge_many with one element then removes all labels.", "quantifier": "all set partitions with labels that any sequence of calls can make, all lists of elements of the domain", "why_tests_cant": "the tests of merge_many have no labels, and the tests of labels merge only pairs", "anchors": ["discretehelpers/set_part/methods/merge_many/__init__.py", "discretehelpers/set_part/methods/merge_pair/__init__.py", "discretehelpers/set_part/methods/block_labels/__init__.py", "discretehelpers/set_part/__init__.py"]}
{"id": "C131", "title": "Matrices of signed permutations as linear maps", "statement": "apply_on_vector gives the matrix times the vector, except that negated entries are ~x = -x-1 instead of -x: its entry at place j is one less exactly if the binary digit j of valneg_index is 1. The matrix of every sufficient size is orthogonal, and the matrix of the inverse is the transpose. matrix_to_sequence and sequence_to_matrix convert between the sequence and the matrix, and with inverse=True they give the sequence and the matrix of the inverse. matrix_to_sequence refuses every matrix that is not square with ValueError, for both values of inverse; of every square matrix, whatever its entries, the result holds exactly the row numbers (with inverse=True the column numbers) of the entries 1 and the complements of those of the entries -1.", "quantifier": "all signed permutations, all vectors of integers and all sizes that are long enough; all matrices of integers", "why_tests_cant": "the tests compare two products of a matrix and a vector, and convert one 3x3 matrix", "anchors": ["discretehelpers/sig_perm/__init__.py", "discretehelpers/sig_perm/a/sequence_to_matrix/__init__.py", "discretehelpers/sig_perm/a/matrix_to_sequence/__init__.py"]}
