{"id": "C01", "title": "Every value has exactly one kind and survives boxing", "statement": "Every 64-bit value representation is classified as exactly one of: number, character, or heap/other tagged object; a character code point or 48-bit payload put into a value is read back unchanged; and every finite number, infinity and canonical NaN is classified as a number and never as a reference-counted object.", "quantifier": "all 2^64 bit patterns; all code points; all payloads below 2^48", "why_tests_cant": "2^64 patterns cannot be enumerated; the tests use wrapped subtractions whose boundary cases are exactly the ones a sample misses", "anchors": ["src/h.h: isF64,isC32,isVal,isAtm,tag,ptr2u64,o2cG,m_c32"]}
{"id": "C02", "title": "Live heap objects never overlap", "statement": "After any sequence of allocations, releases and free-list merges, the memory ranges of any two live objects are disjoint, each range is at least as large as requested, and it lies inside memory obtained from the operating system.", "quantifier": "all finite histories of allocate / free / merge requests with arbitrary sizes", "why_tests_cant": "fragmentation-dependent; only histories that split and re-merge particular neighbours expose an overlap", "anchors": ["src/opt/mm_buddyTemplate.c", "src/opt/mm_buddyTemplate.h: mm_alloc,mm_free,BN(splitTo),BN(freeFreedAndMerge)"]}
{"id": "C03", "title": "Heap accounting is exact", "statement": "At every point of every allocation history the reported used-heap figure equals the sum of the block sizes of live objects, and merging free memory neither loses nor duplicates a single byte of the heap.", "quantifier": "all finite histories of allocate / free / merge", "why_tests_cant": "counters drift only after long specific histories", "anchors": ["src/opt/mm_buddyTemplate.c", "src/opt/mm_buddyTemplate.h: mm_heapUsed, BN(freeFreedAndMerge)"]}
{"id": "C04", "title": "The heap limit is honoured", "statement": "Memory obtained for the heap never exceeds the configured maximum; a request that cannot be served inside the limit fails without changing the heap.", "quantifier": "all histories and all limits", "why_tests_cant": "needs every history and limit", "anchors": ["src/opt/mm_buddyTemplate.c: BN(allocS)", "src/opt/mm_buddy.c"]}
{"id": "C05", "title": "Garbage collection never frees a reachable value and leaves exact reference counts", "statement": "Collection started with any heap graph, including cyclic ones, leaves every object that is reachable from a root, or that is referenced from outside the heap graph (a C local), alive with its contents unchanged, and leaves its reference count equal to the number of references that remain to it. The collection itself never touches a freed block and never frees a block twice.", "quantifier": "all finite heap graphs, root sets and external reference counts", "why_tests_cant": "the graphs are unbounded and cyclic", "anchors": ["src/opt/gc.c: gc_visitRoots,gc_run,gc_tryFree"]}
{"id": "C06", "title": "A collection reclaims all garbage", "statement": "A collection frees every object that is not reachable from a root or from a reference held outside of the heap (a C local), including cycles. Scratch memory that is in use counts as held.", "quantifier": "all finite heap graphs", "why_tests_cant": "unbounded cyclic graphs", "anchors": ["src/opt/gc.c: gc_run,gc_markReset,gc_tryFree"]}
{"id": "C07", "title": "UTF-8 output round-trips", "statement": "Encoding any sequence of code points to UTF-8 and decoding the bytes returns the same sequence, and the length computed in advance equals the number of bytes written.", "quantifier": "all sequences of code points up to 0x10FFFF (surrogates included as the encoder accepts them)", "why_tests_cant": "unbounded strings over 1.1M code points", "anchors": ["src/utils/utf.c: utf8lenB,toUTF8,utf8Decode,utf8_p,utf8DecodeN"]}
{"id": "C08", "title": "UTF-8 input is validated", "statement": "Decoding a byte string succeeds only if the bytes are a valid UTF-8 encoding; everything else raises an error.", "quantifier": "all byte strings", "why_tests_cant": "unbounded strings; finding is a refutation", "anchors": ["src/utils/utf.c: utf8DecodeN,utf8_ta"]}
{"id": "C09", "title": ".HashMap behaves as an insertion-ordered map", "statement": "For every history of set, delete, has, get, keys, values and count operations, a hash map object answers exactly as a finite map whose keys are listed in order of first insertion since last deletion, and deleting or getting a missing key fails and changes nothing.", "quantifier": "all finite operation histories, all hash values (adversarial collisions included)", "why_tests_cant": "open addressing with backward-shift deletion fails only for specific collision patterns and histories", "anchors": ["src/builtins/search.c: hashmap_set,hashmap_delete,hashmap_lookup,hashmap_resize,hashmap_compact,hashmap_build,hashmap_keys_ordered"]}
{"id": "C10", "title": "Internal hash tables behave as finite maps", "statement": "Any sequence of insert, swap, insert-or-get and lookup requests on the interpreter's generic hash table returns what a finite map would return, through all internal growth steps, and a lookup always terminates.", "quantifier": "all operation histories and all hash values", "why_tests_cant": "collision- and growth-dependent", "anchors": ["src/utils/hashmapTemplate.h"]}
{"id": "C11", "title": "Equal values hash equally", "statement": "Two arrays that match hash to the same value whatever their internal element representations (bit, i8, i16, i32, f64, c8, c16, c32, boxed), and -0 hashes as 0.", "quantifier": "all pairs of matching nested values, all representations", "why_tests_cant": "representation combinations times nesting are unbounded", "anchors": ["src/utils/hash.c: bqn_hashP,bqn_hashObj", "src/utils/hash.h"]}
{"id": "C12", "title": "Copies and fills of bit-packed arrays touch exactly the requested range", "statement": "Copying any number of elements between any bit offsets of packed boolean arrays, or filling such a range, gives exactly the requested elements and leaves every element outside of the range unchanged.", "quantifier": "all offsets, lengths and contents", "why_tests_cant": "alignments mod 64 in both operands times lengths", "anchors": ["src/utils/mut.c: bit_cpyN,m_copyG_B_bit,bit_fill", "src/utils/mut.h"]}
{"id": "C13", "title": "Bit-array search, popcount and boundaries are exact", "statement": "The first index of a bit, whether a bit occurs in the first n, the number of ones, and the all-zero / all-one tests give the exact answer for every length, ignoring the bits past the end.", "quantifier": "all packed arrays and lengths", "why_tests_cant": "word-boundary handling for arbitrary garbage in the unused tail", "anchors": ["src/utils/mut.c", "src/utils/bits.c: bit_find,bit_has,allZeroes,allOnes"]}
{"id": "C14", "title": "Representation squeezing preserves values and is minimal", "statement": "Converting an array to its smallest element type keeps every element equal to what it was, and the chosen type is the smallest that holds all elements.", "quantifier": "all arrays of numbers / characters of all element types", "why_tests_cant": "range boundaries and mixed contents over unbounded arrays", "anchors": ["src/builtins/squeeze.c"]}
{"id": "C15", "title": "Comparison of values is a total order consistent with match", "statement": "Comparing any two data values is reflexive, antisymmetric and transitive, numbers precede characters, and the result 0 coincides with order-equivalence.", "quantifier": "all triples of nested arrays", "why_tests_cant": "transitivity over triples of arbitrary shape", "anchors": ["src/builtins/compare.c: compareF,compareR"]}
{"id": "C16", "title": "Match is an equivalence and ignores representation", "statement": "Match is symmetric and transitive over data values, reflexive on those that contain no NaN, and depends only on shape and elements, not on element type or on the unused bits of storage.", "quantifier": "all values and representation choices", "why_tests_cant": "unbounded nesting and representation pairs", "anchors": ["src/builtins/compare.c: equal,atomEqual", "matchFns"]}
{"id": "C17", "title": "Sorting returns an ordered rearrangement", "statement": "Sort up/down returns an ordered permutation of its argument in every internal algorithm (insertion, counting, radix, merge), whatever the size and values.", "quantifier": "all lists of all element types (bits, integers, characters, doubles, nested data)", "why_tests_cant": "algorithm choice depends on size/range thresholds", "anchors": ["src/builtins/sort.c", "src/builtins/radix.h", "src/builtins/sortTemplate.h"]}
{"id": "C18", "title": "Grade is the stable ordering permutation", "statement": "Grade up/down returns a permutation of the indices that orders the argument and keeps equal elements in index order.", "quantifier": "all lists of all element types", "why_tests_cant": "stability over all inputs and algorithms", "anchors": ["src/builtins/grade.h", "src/builtins/sort.c", "src/builtins/sortTemplate.h"]}
{"id": "C19", "title": "Bins counts the preceding cells", "statement": "Bins of a sorted list returns, for every searched value, the number of cells not exceeding (for down: not preceding) it.", "quantifier": "all sorted lists and searched values of all element types; an unsorted list is an error", "why_tests_cant": "binary search boundaries for every length", "anchors": ["src/builtins/grade.h: bins"]}
{"id": "C20", "title": "Index-of, member-of and progressive index-of are exact", "statement": "Index-of returns the first position of each searched cell (or the length), member-of whether there is one, progressive index-of never reuses a position and takes the earliest unused; all internal methods (scan, table, hash) agree.", "quantifier": "all argument pairs", "why_tests_cant": "table/hash/brute-force path selection and duplicates", "anchors": ["src/builtins/search.c: indexOf_c2,memberOf_c2,count_c2"]}
{"id": "C21", "title": "Self-search functions are exact", "statement": "Mark-firsts, occurrence-count, classify and deduplicate return what their definitions say, in every internal method.", "quantifier": "all arrays", "why_tests_cant": "same", "anchors": ["src/builtins/selfsearch.c"]}
{"id": "C22", "title": "Replicate and Indices are exact", "statement": "Replicate copies every cell as many times as requested in order, and Indices lists every index as many times as its count; the specialised bit, sparse, dense and run-length methods all agree with it.", "quantifier": "all counts and arguments", "why_tests_cant": "block-boundary and density-dependent code paths", "anchors": ["src/builtins/slash.c"]}
{"id": "C23", "title": "Inverse of Indices undoes Indices", "statement": "The inverse of Indices applied to the indices of a count list (without trailing zeros) returns the list; applied to any list of natural numbers it gives how often each number up to the largest occurs, and it errors on anything else.", "quantifier": "all lists", "why_tests_cant": "unbounded", "anchors": ["src/builtins/slash.c: slash_im"]}
{"id": "C24", "title": "Select is exact with negative wrap-around and bounds errors", "statement": "Selecting with any index array returns the cell at each index, negative indices counting from the end, and any out-of-range index raises an error instead of reading out of bounds.", "quantifier": "all index arrays and lengths", "why_tests_cant": "memory safety over all indices", "anchors": ["src/builtins/select.c"]}
{"id": "C25", "title": "Group partitions its argument", "statement": "Group puts each cell in exactly the group its index says, in order, drops those with index -1, and makes exactly the needed number of groups; all internal strategies agree.", "quantifier": "all index lists and arguments", "why_tests_cant": "strategy selected by statistics", "anchors": ["src/builtins/group.c"]}
{"id": "C26", "title": "Transpose and Reorder Axes move every element to the right place", "statement": "Transposing moves the element at each multi-index to the permuted multi-index, and undoing returns the original.", "quantifier": "all shapes and axis lists", "why_tests_cant": "unbounded rank and shape", "anchors": ["src/builtins/transpose.c"]}
{"id": "C27", "title": "Joining may reuse memory but never changes another visible array", "statement": "Appending to or joining arrays yields the concatenation, and no other reference to the arguments observes a change, even when the left argument's storage is extended in place.", "quantifier": "all sharing patterns and all capacities", "why_tests_cant": "aliasing depends on reference-count histories", "anchors": ["src/core/arrFns.h", "src/utils/mut.c: arr_join_inline", "src/utils/mut.h"]}
{"id": "C28", "title": "Integer arithmetic never wraps", "statement": "Adding, subtracting, multiplying integer arrays of any storage width gives the mathematically exact result that a double computation gives; overflow of the storage width is never observable.", "quantifier": "all operand values and widths", "why_tests_cant": "2^64 operand pairs per width and array position", "anchors": ["src/builtins/arithd.c"]}
{"id": "C29", "title": "Bytecode execution stays inside its reserved operand stack", "statement": "For every body accepted by block compilation, execution never pops from an empty operand stack and never pushes beyond the reserved height.", "quantifier": "all bytecode sequences accepted by the compiler", "why_tests_cant": "all programs", "anchors": ["src/vm.c: compileBlock,evalBC,stackDiff,stackConsumed"]}
{"id": "C30", "title": "Reading a variable that has no value always raises an error", "statement": "A program can never observe an internal placeholder through a variable: reading a variable before definition, or while or after a failed modification cleared it, raises an error; a read otherwise gives the value last stored.", "quantifier": "all finite execution trees over definition, assignment, modification, spread assignment, calls, catches and reads of (REPL-extended) variables; the same claim for namespace fields is refuted", "why_tests_cant": "all histories", "anchors": ["src/vm.c: v_get,v_checkBadRead,evalBC FLDG", "src/ns.c"]}
{"id": "C31", "title": "Catching an error restores the interpreter's stacks", "statement": "After an error is caught, the operand stack and environment stack have the height they had when the catch was installed, however deep the failing computation was nested.", "quantifier": "all nestings of calls, catches and throws", "why_tests_cant": "unbounded nesting", "anchors": ["src/vm.c: prepareCatch,throwImpl,unwindEnv"]}
{"id": "C32", "title": "Namespace field access finds the exported variable", "statement": "Reading a field returns the value of the exported variable with that name whatever the descriptor order and cached position, and fails exactly if there is none.", "quantifier": "all descriptors, names and cache histories", "why_tests_cant": "cache correctness depends on history", "anchors": ["src/ns.c: ns_getU,ns_getNU,pos2gid"]}
{"id": "C33", "title": "Collection sees every live variable", "statement": "The references held by a scope (including REPL extensions) that are visited by the collector are all of those it holds.", "quantifier": "all scope sizes", "why_tests_cant": "needs tens of thousands of variables", "anchors": ["src/vm.c: scExt_visit,bBlks_visit,scope_visit"]}
{"id": "C34", "title": "Structural functions are exact", "statement": "Reshape, take, drop, rotate, reverse, join, windows, prefixes and suffixes return arrays whose element at every index is the one the definition gives, for every length and (negative, oversize) argument.", "quantifier": "all shapes and arguments", "why_tests_cant": "unbounded", "anchors": ["src/builtins/sfns.c"]}
{"id": "C35", "title": "Fast folds and scans equal the defining recursion", "statement": "Fold and scan with a primitive operand give the result of applying the operand element by element in the defined order, including the boolean word-parallel methods and integer overflow fallbacks.", "quantifier": "all arrays and initial elements", "why_tests_cant": "word-parallel code over all lengths and carries", "anchors": ["src/builtins/fold.c", "src/builtins/scan.c"]}
{"id": "C36", "title": "Bit casts and width conversions round-trip", "statement": "Reinterpreting data at another element width and back returns the original, and widening then narrowing bit rows returns the original.", "quantifier": "all data, widths, row lengths", "why_tests_cant": "alignments", "anchors": ["src/builtins/bit.c", "src/utils/bits.c: bitwiden,bitnarrow"]}
{"id": "C37", "title": "Sortedness caching is invisible", "statement": "Results of a function do not depend on which other functions were applied to the same array before (cached sortedness information is only recorded when true).", "quantifier": "all operation histories on a shared array", "why_tests_cant": "history dependent", "anchors": ["src/builtins/sort.c", "src/builtins/selfsearch.c: FL_SET fl_asc", "src/builtins/scan.c"]}
{"id": "C38", "title": "Result sizes that do not fit raise an error", "statement": "When the number of elements of a result does not fit the size type an out-of-memory error is raised; a smaller buffer is never allocated and overrun.", "quantifier": "all counts and shapes", "why_tests_cant": "needs sizes beyond memory to test", "anchors": ["src/builtins/slash.c: slash_c2", "src/builtins/sfns.c", "src/core/stuff.h: mulOn,addOn"]}
{"id": "C39", "title": "Merge sort for boxed values is stable and its run stack suffices", "statement": "The natural merge sort used for large generic arrays gives the stable ordering for every input, always terminates, and never needs more than its fixed number of pending runs.", "quantifier": "all arrays of up to 2^64 elements", "why_tests_cant": "pathological run-length sequences", "anchors": ["src/builtins/sortTemplate.h"]}
{"id": "C40", "title": "Number formatting round-trips", "statement": "The text •Repr gives for a finite number is a decimal numeral that •ParseFloat (with the high minus replaced by the ASCII one) turns back into exactly that number; zero prints as 0.", "quantifier": "all finite doubles", "why_tests_cant": "2^64 doubles", "anchors": ["src/utils/ryu.c: d2d,to_chars,ryu_d2s,ryu_s2d_n", "src/builtins/sysfn.c: repr_c1,parseFloat_c1"]}
{"id": "C41", "title": "GCD and LCM are exact", "statement": "•math.GCD of two naturals that doubles hold is their greatest common divisor; •math.LCM is their least common multiple.", "quantifier": "all pairs of naturals below 2^64", "why_tests_cant": "2^106 pairs", "anchors": ["src/builtins/arithd.c: gcd_u64,lcm_u64"]}
{"id": "C42", "title": "•ParseFloat rounds correctly and takes exactly the numerals", "statement": "•ParseFloat of a text with at most 17 digits gives the double nearest to the written decimal (to even on a tie, infinity on overflow, zero or a subnormal on underflow); it takes exactly the texts of the form digits with an optional dot and exponent, raises an error for every other text, and never does anything undefined.", "quantifier": "all texts", "why_tests_cant": "unboundedly many texts and decimal exponents; ties and table entries are hit by single inputs only", "anchors": ["src/utils/ryu.c: ryu_s2d_n", "src/builtins/sysfn.c: parseFloat_c1", "docs/system.md: •ParseFloat"]}
{"id": "C43", "title": "•bit operations act on every bit and every group", "statement": "•bit._not, _and, _or and _xor apply the logical operation to every bit of the data and •bit._neg, _add, _sub and _mul the arithmetic one, modulo 2 to the operation width, to every group of that many bits, whatever the element widths of arguments and result; a single group is combined with all of the other argument; the result has the leading shape of the argument with the last axis rescaled, and widths or lengths that do not fit are errors.", "quantifier": "all data, shapes, widths and storage reuse", "why_tests_cant": "unbounded data, tails of words, combinations of four widths", "anchors": ["src/builtins/bit.c: bitop1,bitop2,set_bit_result"]}
{"id": "C44", "title": "•rand gives valid results from every seed", "statement": "For every starting number of •MakeRand and every sequence of calls: Range gives naturals less than 𝕩 (or fractions from 0 to less than 1), in an array of the wanted shape; Deal gives a rearrangement of ↕𝕩, and with 𝕨 that many different naturals less than 𝕩; Subset gives that many naturals less than 𝕩 in ascending order. All calls end.", "quantifier": "all seeds, arguments and sequences of calls", "why_tests_cant": "2^64 seeds; a biased or repeated element, a full hash table or an endless search shows only for few of them", "anchors": ["src/builtins/sysfn.c: rand_range_c1,rand_range_c2,rand_deal_c1,rand_deal_c2,rand_subset_c2,makeRand_c1", "src/utils/wyhash.h: wyrand,wy2u0k,wy2u01"]}
{"id": "C45", "title": "Each, Table and Repeat call their operand exactly as defined", "statement": "For every operand, with any effects and errors: 𝔽¨ and 𝔽⌜ call it once per element in order, 𝕨𝔽¨𝕩 on the elements at equal leading index, 𝕨𝔽⌜𝕩 on every pair, each call seeing what the ones before it did, and put the results at the right index; the first error ends the call; shapes that do not agree and results that are too large are errors. 𝔽⍟𝔾 replaces each number of 𝔾's result with 𝕩 after that many calls of 𝔽 (of its inverse, if negative), making no call twice. In-place writing and special cases do not change any of this.", "quantifier": "all operands, arguments, shapes and ways the arrays are stored or shared", "why_tests_cant": "unboundedly many operands, shapes and depths of 𝔾's result; which loop runs depends on reference counts and storage", "anchors": ["src/builtins/md1.c: each_c1,tbl_c2,each_c2", "src/utils/each.c: eachd_fn,eachm_fn", "src/builtins/md2.c: repeat_bounds,repeat_replace,REPEAT_T"]}
{"id": "C46", "title": "Cells and Rank call their operand once per cell", "statement": "For every operand, with any effects and errors: 𝔽˘ and 𝔽⎉𝕘 call it once on each cell (subarray of as many last axes as 𝕘 says, counted from the other end if negative) in index order, or on the cells of 𝕨 and 𝕩 at equal leading index, and the results, which must have one shape, are the cells of the result; results of different shapes or too many elements or axes, leading shapes that do not agree and rank operands that are not one to three whole numbers are errors. The separate code for ⊢ ⊣ < ⊏ ⊑ ≍ ⥊ » « ⌽ and constants gives the same results as calling them on each cell.", "quantifier": "all operands, arguments, shapes, ranks and rank operands", "why_tests_cant": "unboundedly many shapes and operands; a dozen special cases that skip the calls", "anchors": ["src/builtins/cells.c: for_cells_c1,for_cells_AS,for_cells_SA,for_cells_AA,rank_c1,rank_c2,cell_c1,cell_c2,interleave_cells,shift_cells", "src/builtins/select.c: select_cells_single", "src/builtins/transpose.c: join_cells"]}
{"id": "C47", "title": "Arrays built piece by piece hold exactly what was put into them", "statement": "While a result is being built, from values written to positions in any order, ranges of one value, ranges copied from other arrays, or pieces appended one after the other, every element has the value last put there, however the numbers, characters and other values are mixed and however often the storage has to be widened. Merging pieces of equal shape gives their joined shape and all elements in order, pieces of different shapes are an error, and the result has a fill exactly if all pieces share it.", "quantifier": "all histories of writes and appends, all mixes of element types, all initial memory contents", "why_tests_cant": "unboundedly many histories; 9 storage types and 81 pairs of widening", "anchors": ["src/utils/mut.c: mut_to,m_set_*,m_fill_*,m_copy_*,cpy*Arr,apd_tot_*,apd_sh0_*,apd_sh1_*,apd_sh2_*,apd_shE_*,apd_widen,apd_tot_init,apd_sh_init", "src/utils/mut.h: Mut,ApdMut,el_or"]}
{"id": "C48", "title": "Range, Windows, Shape and Find are exact", "statement": "↕n holds the naturals below n; ↕ of a list of lengths has that shape and holds at every position the index of that position; 𝕨↕𝕩 holds at index p∾q∾r the element of 𝕩 at (p+q)∾r for every place p of a window of lengths 𝕨; ≢𝕩 is the shape of 𝕩; 𝕨⍷𝕩 is 1 exactly at the places where all elements of 𝕨 equal those of 𝕩 from there. All have the shape these rules give, and arguments outside their domain, or results too large, throw an error instead of anything else.", "quantifier": "all lengths, shapes, ranks, element types and contents", "why_tests_cant": "unboundedly many shapes and contents; several type-specialised loops and a multi-axis odometer", "anchors": ["src/builtins/fns.c: ud_c1,ud_rec_T,intRange16,intRange32,intRangeF64,ud_c2,fne_c1,find_c2", "src/h.h: o2s"]}
{"id": "C49", "title": "Under with a selecting function changes exactly what was selected", "statement": "𝔽⌾(𝕨⊸𝔾)𝕩 for 𝔾 one of Select, Replicate, Take, Drop, Reshape, Deshape, First and Pick has the shape of 𝕩; what 𝔾 selects from it is what 𝔽 gave for the selection from 𝕩, and everything else is as in 𝕩. It is an error exactly if the selection is, if 𝔽 is, if 𝔽 gives another shape, or if it gives different values for two copies of one element; whatever the new array's memory held before, and however the operand is recognised (an array, a constant for each element, a function).", "quantifier": "all arrays, shapes, selections with repeats and negative indices, operands and initial memory contents", "why_tests_cant": "unboundedly many shapes, selections and operands; repeated indices and wide cells meet rarely", "anchors": ["src/builtins/select.c: select_ucw,select_replace", "src/builtins/slash.c: slash_ucw", "src/builtins/sfns.c: take_ucw,drop_ucw,takedrop_ucw,shape_uc1,shape_ucw,pick_uc1,pick_ucw,pick_replaceOne"]}
{"id": "C50", "title": "Comparisons reach every pair of atoms", "statement": "𝕨 = ≠ < ≤ > or ≥ 𝕩, for arguments of any depth whose leading axes agree, has the shape of the argument of higher rank, and at every place the comparison of the two elements there, down to the atoms: numbers by value (NaN is unlike everything), characters by code point, numbers before characters, a function, modifier or namespace like nothing but itself. It is an error exactly where shapes disagree or an order is asked of something that is neither a number nor a character. Equal arguments give equal results however they are stored.", "quantifier": "all arguments, shapes, ranks, depths, element types and contents of memory after the elements", "why_tests_cant": "9 storage types on either side, unboundedly many shapes and depths; the loops read and write beyond the end and convert one side", "anchors": ["src/builtins/cmp.c: eq_c2,ne_c2,le_c2,ge_c2,lt_c2,gt_c2,aMakeEq,cmp_slow", "src/builtins/cells.c: leading_axis_arith", "src/utils/each.c: eachd_fn"]}
{"id": "C51", "title": "Files are read back as written, lines and paths split exactly", "statement": "After 𝕨 •file.Chars 𝕩 without an error the file holds the UTF-8 of 𝕩 and nothing else, no other file has changed, and •file.Chars 𝕨 is 𝕩; likewise •file.Bytes for bytes and •file.Lines for lists of characters other than line ends. •file.Lines of any file gives the text between line ends (LF, CR or CR LF), without an empty line after the last one. •file.Name is what follows the last slash, •file.Parent what precedes it, •file.At joins two paths with one slash and leaves absolute ones; the name of a path at its parent is the path.", "quantifier": "all contents, texts, lists of lines and paths, all ways reading and writing can stop", "why_tests_cant": "unboundedly many contents; mixes of line ends at chunk and file ends; full disks and read errors", "anchors": ["src/utils/file.c: path_bytes,stream_bytes,path_chars,path_lines,path_wChars,path_wBytes,get_chars,file_openWriteClose,path_rel,path_parent,path_name", "src/builtins/sysfn.c: flines_c2,fileAt_c1,fName_c1,fParent_c1"]}
{"id": "C52", "title": "Arithmetic functions of one argument act on every number, however it is stored", "statement": "+ - | ⌊ ⌈ × ¬ of any value give a value of the same shapes in which every number x is replaced by x, -x, |x|, the largest whole number not above x, the smallest not below it, the sign of x, or the double nearest to 1-x; there is an error exactly if some atom at any depth is not a number; the result does not depend on the types in which the numbers are stored. Hence --x is x, and + | ⌊ ⌈ × of their own result change nothing.", "quantifier": "all values: atoms, arrays of every element type and shape, nested to any depth; all doubles, including infinities, subnormals and not-a-number", "why_tests_cant": "the boundaries are the lowest integers of the types, doubles near whole numbers, and combinations of depth and storage; 2^64 doubles cannot be enumerated", "anchors": ["src/builtins/arithm.c: GC1i,add_c1,sub_c1,stile_c1,floor_c1,ceil_c1,mul_c1,not_c1,arith_recm,bit_negate", "src/builtins/arithd.c: sub_SA,REG_SA", "src/utils/each.c: eachm_fn", "src/utils/bits.c: bit_sel"]}
{"id": "C53", "title": "Fills: the prototype of any value, and attaching a fill to any array", "statement": "The prototype of a value has its shape and nesting, with 0 for every number and a space for every character; there is none exactly if an atom of another kind is in the value; it does not depend on how the value is stored, and a prototype is its own prototype. Attaching a fill to an array changes none of its elements, and the array then has a fill equal in value to the one asked for. Two arrays have a common fill exactly if both have fills that are equal. An array of one element has the prototype of that element as its fill; the empty list made from an array keeps its fill.", "quantifier": "all values nested to any depth, in every storage; all fills", "why_tests_cant": "the fill is kept in three different ways (by the element type, in the array, not at all) and changing it may change the storage of the elements; combinations of these at all depths cannot be enumerated", "anchors": ["src/core/fillarr.c: asFill,withFill,fillEqualF,m_oneItemArr,m_funit,m_fvec1,emptyVec", "src/core/fillarr.h: fillEqual,getFillR,fill_both,numFill,chrFill"]}
{"id": "C54", "title": "Trains and combinators call their operands exactly as defined", "statement": "A call of a 2-train, a 3-train, or of a function made with ∘ ○ ⊸ ⟜ ⊘ ◶ ⎊ ˜ ˙ or •_while_ gives the value or the error of the BQN expression that defines it, after the same calls of its operands with the same arguments in the same order, from right to left; operands that are data are constants, operands that are modifiers are errors; the handler of ⎊ sees the error that was thrown. What earlier calls of the same function object have left behind makes no difference.", "quantifier": "all functions built from these and from arbitrary other functions with side effects and errors, to any depth; all arguments; all earlier calls; loops of any length", "why_tests_cant": "a 3-train replaces its own code at the first call, chosen from the kinds of its operands, separately for one and two arguments; all combinations of kinds, nesting and history cannot be enumerated", "anchors": ["src/core/derv.c: fork_c1,fork_c2,fork_c1_general,fork_c1_fff,fork_c1_vff,fork_c1_nff,tr2D_c1,tr2D_c2", "src/builtins/md2.c: val_c1,catch_c1,before_c1,after_c1,atop_c1,over_c2,cond_c1,cond_c2,while_c1", "src/builtins/md1.c: const_c1,swap_c1", "src/h.h: c1,c2,c1I,c1G,errMd", "src/core/stuff.c: c1F,c2F"]}
