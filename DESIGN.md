# Formal model of dzaima/CBQN in Rocq (Coq 8.16.1)

## Layout

* `rocq/theories/<Area>Model.v` – executable Gallina model, each definition citing the C lines it models. No proofs.
* `rocq/theories/<Area>Spec.v` – small specifications (only where the statement needs one), independent of the model.
* `rocq/theories/<Area>Proof.v` – lemmas.
* `rocq/theories/<Area>Thm.v` – property theorems only (`Theorem … Proof. exact lemma. Qed. Print Assumptions …`), each with
  an `Example` that a concrete non-trivial case meets its hypotheses.
* `properties.jsonl` – the properties; `MANIFEST.json` – property → theorem map; `seeded/LOG.jsonl` – mutation log.

## Modelling conventions

* Machine words are `N`/`Z` with explicit `mod 2^k`; arrays are lists (or functions from index to value for memory), bit-packed
  arrays are lists of 64-bit words with `N.testbit`; C loops are structural recursion, folds, or fuel with an explicit
  out-of-fuel outcome. Out-of-bounds reads/writes are a distinct `None`/`UB` outcome, so theorems that a function
  returns `Some r` include memory safety at the array level.
* Numbers: elements of integer arrays are `Z`; doubles that are not integers appear only through the operations the code does on
  them (comparison, integrality test) – either as an abstract ordered carrier or as the 64-bit pattern, as said per file.
* SIMD (Singeli) paths are not modelled; the portable C path (`#if !SINGELI`) is.

## Plan per property

| id | model | proof |
|----|-------|-------|
| C01 | bit-pattern predicates of h.h with wrapped subtraction over N | arithmetic on ranges; exhaustive/exclusive theorem |
| C02 C03 C04 | buddy allocator state: buckets of free blocks, live list, chunk list; alloc/free/merge steps | invariant: blocks partition the chunks, induction over op lists |
| C05 C06 | heap = finite list of objects with refcount and child list; both collection modes | counting invariants; reachability closure |
| C07 C08 | byte-level encoder/decoder | round trip by code-point range case analysis; refutation by witness for C08 |
| C09 | hash array with 64-bit (hash,index) words, insertion order arrays | refinement to an association list, invariant "sorted by hash, probe-contiguous" |
| C10 | open addressing with doubling | refinement to finite map |
| C11 C15 C16 | nested value type with per-representation arrays; compare/equal/hash functions | structural induction |
| C12 C13 C36 | word-level bit functions | bitwise extensionality (`N.bits_inj`) |
| C14 | per-type squeeze loops with the OR-trick | bit-level lemma for the OR accumulator, induction |
| C17 C18 C39 | insertion, counting, radix, timsort models | permutation + sortedness + stability; run-stack bound |
| C19 | branchless and classic binary search | loop invariant |
| C20 C21 C22 C23 C25 | per-strategy models | each strategy refines one list-level spec |
| C26 | arrays as shape and elements; every method of 𝕨⍉𝕩 (slice, copying cells, strided transposes, selection with computed indices), word-level interleaving of two rows of bits | multi-index specification, mixed-radix induction; inverse permutation of axes |
| C24 C34 C35 | per-function models | index-wise extensional equality with spec |
| C27 | heap of arrays with capacity and refcount; join in place | invariant over histories: visible contents of other references unchanged |
| C28 | per-width op with overflow check + fallback | exactness over Z |
| C29 | bytecode list, compile-time max-stack pass, runtime stack height | invariant; refutation of the unqualified bound |
| C30 C32 C33 | variables, namespaces, visit loops | case analysis; refutations with witnesses |
| C31 | env stack/operand stack/catch stack | induction on nested execution |
| C37 | heap of arrays with a sorted mark | invariant over histories: a set mark is true; refutation for replacing under ⌾⊑ (F24) |
| C38 | size computations with wrap | refutation for Replicate with cells and Reshape with ⌊, positive for the others |
| C40 | the printer of ryu.c (tables, digit removal, layout of the text) | the decimal stays in the interval that rounds back; with C42 the round trip |
| C41 | binary GCD loop on 64-bit words | invariant of the loop; refutation for LCM of 2^64 and more |
| C42 | the parser of ryu.c (text, table multiplication, rounding) | the table products are exact floors (a computed certificate per table entry bounds how near a multiple can come to an integer), then rounding of the exact value; refutation for 18 digits |
| C43 | bitop1, bitop2 and set_bit_result of bit.c over words | loop invariants over words and over groups of bits, bit extensionality; refutation for 2^32 bits and for overflowing products |
| C44 | the functions of •rand in sysfn.c with the generator of wyhash.h; memory not yet written holds any content | permutation invariants of the shuffles and of the random split, a virtual array for the hash shuffle with probing invariants and pigeonhole, an ordered table for Subset, bit fields for Range; refutations for limits above 2^53 and for sizes that wrap |
| C45 | each_c1, each_c2, tbl_c2, eachm_fn, eachd_fn with all their loops, and Repeat, over an arbitrary state-changing operand; storage and sharing are arbitrary booleans | loop invariants turn each loop into one sequence of calls; index arithmetic for the leading-axis pairs; induction over nested counts for Repeat |
| C46 | the drivers of Cells and Rank with one and two arguments, their special cases for primitives and constants (all but arithmetic, folds, insert, scan, ⍉ and nested Cells) and the reading of the rank operand, over an arbitrary state-changing operand | the cells are slices of the ravel; every special case is shown to equal calling the primitive on each slice and merging; `placed` covers the errors. Frames without cells are not covered: their result depends on fills |
| C47 | the builders `Mut` and `ApdMut` of utils/mut.c for all nine storage types, on machine values (stores wrap, conversions between kinds are undefined) and packed bits, with arbitrary initial memory; the appends of one piece only (`apd_reshape`) are not modelled | a simulation: storage decodes to the list of what was written. Widening is a copy that `el_or` makes lossless. The fill invariant is that all pieces so far share it |
| C48 | fns.c `ud_c1` with `ud_rec`, the packed counter for lengths up to 2 and the three integer widths, `ud_c2` with its odometer in 32-bit arithmetic, `fne_c1` of an array, `find_c2`; Find of other operands than the two typed cases, an atom or an empty 𝕩 is BQN code and not modelled | induction on the axes for the recursion, an invariant tying the odometer to the index of the window, comparison of the candidates left after each element | 
| C49 | select.c `select_ucw` with `select_replace` and the constant-operand path, slash.c `slash_ucw`, sfns.c `take_ucw`, `drop_ucw`, `takedrop_ucw`, `shape_uc1`, `shape_ucw`, `pick_uc1`, `pick_ucw`; new arrays and mark bits begin with arbitrary contents; 𝔽 is an arbitrary partial function on arrays. Structural induction on the index list with an invariant naming the positions already written. Select for cells below 256 bytes (partial: F48), 𝕨 one array of numbers; Take and Drop for one number 𝕨 above ¯2⋆63; the runtime-defined remaining cases are not modelled; equality of two values is exact (`compat`), so values that match without being identical (¯0 and 0, fills) are outside |
| C50 | cmp.c `eq_c2` … `gt_c2`, `*_AA`, `*_SA`, `aMakeEq`, the portable loops over two arrays (whole 64-bit words of result, reading and writing past the end into the padding) and over an array and an atom with their special constants, cells.c `leading_axis_arith` (replicating or cell by cell), each.c `eachd_fn` as the recursion into elements. Specification: an inductive relation on trees of atoms (`PervSpec.perv`), shown to give at most one result. Induction on the depth of the arguments; per type pair the loops against the relation on atoms; errors exactly where the relation has no result. Not modelled: fills of empty results; SIMD code |
| C51 | file.c `path_bytes`, `stream_bytes`, `path_chars`, `path_lines`, `path_wChars`, `path_wBytes`, `get_chars`, `file_openWriteClose`, `path_rel`, `path_parent`, `path_name`; sysfn.c `flines_c2`; on top of the UTF-8 functions of C07. Specification: an inductive relation of contents to lines, shown unique; files as a map from paths to contents. What the calls of the operating system report is arbitrary. Induction on the relation for both loops of `path_lines`. Partial: the round trips need that closing stores what was written (F50) |
| C52 | arithm.c `GC1i` with all of its bodies, `add_c1`, `arith_recm`, `bit_negate`; arithd.c `sub_SA` for an integer atom; bits.c `bit_sel` of 0 and ¯1; each.c `eachm_fn` by C45. Values are those of PervModel (C50), doubles are their 64-bit patterns, the operations of IEEE 754 are defined on them (MonModel.v `fenc`, `fneg`, `ffloor`, `fsub`, with `rnd` of C28) | The encoder of values is shown right for every number a double can hold; each loop is shown to send each element to the value the specification gives; then induction on the nesting. `C52_*` follow from the specification being a function of the value |
| C53 | fillarr.c `asFill`, `withFill`, `fillEqualF`, `m_oneItemArr`, `m_funit`, `m_fvec1`, `emptyVec`, `emptyArr`, `emptyWithFill`; fillarr.h `getFillR`, `fillEqual`, `fill_both`; squeezing by C14. A value (FillModel.v `fv`) is an atom, an array of one element type, or an array of values with its fill if known | Structural induction on values. The prototype is an inductive relation on the trees of C50; a fill consists of zeros and spaces; equality of fills is shown to be equality of their trees for all storages; squeezing keeps the elements, and keeps a fill a fill. That the very fill asked for is attached, with the fills inside it, is refuted: all empty arrays of a shape count as the same fill (F53) |
| C54 | derv.c `fork_c1`, `fork_c2` with their four specialised bodies and the code pointers they leave in the object, `tr2D_c1/c2`; md2.c ⊘ ⎊ ⊸ ⟜ ∘ ○ ◶ •_while_; md1.c ˙ ˜; h.h `c1`, `c2`, `c1I`, `c1G`, `errMd`. Other functions are opaque: any effect on an arbitrary world, any error | The specification is a table of BQN expressions (TrainSpec.v `body`) and a big-step semantics that evaluates from right to left. Soundness by induction on the depth of calls, completeness by mutual induction on derivations, with the invariant that the pointers of each fork are initial or those chosen for its operands. For a fork of a modifier and two functions the definition is not met (F54); the theorems without the suffix `_partial` hold for all forks, with the definition changed for these (`body_as_is`), the others exclude them |

Nothing in the list is declared inexpressible; parts that live in floating point rounding (fold `+`
on doubles) are outside of the model and will be marked partial.

## Findings so far (from reading; each becomes a `_refuted` theorem where the model covers it)

* F1 `compileBlock` (src/vm.c): the reserved operand stack height ignores the namespace pushed by `RETD` and the prologue that
  `remapArgs` inserts, so a body can exceed its reservation by one slot.
* F2 `scExt_visit`/`scExt_freeO` (src/vm.c): `u16 am = varAm*2` truncates for ≥ 32768 extension variables.
* F3 `FLDG` (src/vm.c): reading a namespace field does not check for the cleared placeholder.
* F4 •HashMap load check (src/builtins/search.c) enforces load < 1, not ≤ 7/8 as its comment says.
* F5 `memberOf_c1` (src/builtins/selfsearch.c) records "sorted" on arrays of incomparable elements.
* F6 `slash_c2` (src/builtins/slash.c): result element count `s×cellsize` is not checked against the size type.
* F7 `utf8DecodeN` accepts invalid continuation bytes and overlong forms.
* F8 `hashmap_set` (src/builtins/hashmap.c or search.c): when growing fails (out of memory / too large), the map object keeps a
  cleared table slot, and the next operation dereferences it.
* F9 `m_fillG_bit` (src/utils/mut.c:178-194): a fill whose end is a multiple of 64 does a value-preserving read-modify-write of the word
  after the last one. The allocator keeps 1024 accessible bytes around every chunk (utils/mem.h), so this cannot fault.
* F10 `bit_cpy`, `bit_find`, `rbuu64` read (but do not use) a word just outside of the array; also covered by that padding.
* F11 `widenBitArr` (src/utils/bits.c:264-270): `cam*ncsz` is computed in `usz`; with 2^29+1 rows of 5 bits it wraps to 8, and
  `bitwiden` then writes past the allocation.
* F12 `0⥊5` (sfns.c:148-181) makes an empty 8-bit array flagged "squeezed"; appending 1 in place (`inplace_add`, mut.h:205-230) keeps
  the flag, so the list ⟨1⟩ is flagged squeezed while stored as 8-bit numbers. Its hash then differs from that of a bit list ⟨1⟩,
  and searches that go by hash can miss it (`C11_appended_empty_refuted`).
* F13 `w⊐x` with w of 2^31 or more elements gives negative or wrong positions (`C20_long_list_refuted`).
* F14 `⊐x` for x of exactly 2^31 elements of 8 or 16 bits: the table is filled with `(i32)n = -2^31` and compared as `u64`; every result
  is -2^31 (`C21_classify_length_refuted`).
* F15 `compileBlock` reads one word past bytecode without a terminator; zero-length opcodes loop; counts ≥ 2^31 of `LSTO`/`ARM` pass the
  stack check; `finalVam = vam+argAm` may exceed 2^16 and is stored in 16 bits (vm.c:131). These need hand-made bytecode.
* F16 `allocMore_rec` stays set if an interrupt is thrown inside a nested allocation; mapped bytes exceed `heapAlloc` by padding per chunk.
* F17 hash tables made with fewer than 4 entries would probe forever (`C10_tiny_table_refuted`); no caller does so.
* F18 Select with two or more indices does not check them if the cells of 𝕩 have no elements (`C24_empty_cells_refuted`): `5‿6⊏2‿0⥊0`.
* F19 •math.LCM wraps if the least common multiple is 2^64 or more (`C41_lcm_overflow_refuted`): the result for 2^40 and 2^40-1 is no multiple of either; the scalar product would round, not wrap.
* F20 a character plus a large integer in a 32-bit array overflows a signed C integer, which is undefined behaviour (`C28_character_overflow_refuted`): `'a'+⟨2147483647⟩`.
* F21 `¯2147483648 -´ bits` for an odd number of bits negates the smallest 32-bit integer, a signed overflow (`C35_fold_negate_overflow_refuted`): fold.c computes `-wi` on an int.
* F22 `𝕨⊔𝕩` with few changes in 𝕨 and a run of 2^31 or more equal numbers: run lengths are computed in a 32-bit type, so the group gets a negative length (`C25_group_large_refuted`): group.c:160-172.
* F23 filling bits with a value up to a position that is a multiple of 64 (`64↑0‿1`) rewrites the machine word after the last one (utils/mut.c, m_fillG_bit): the word is one past the end of the result when the result's length is a multiple of 64 too. Same bits are written back, so nothing changes, but the access is outside the array.
* F24 `∧ "z"⌾⊑ ∧ "b"‿"a"`: replacing an element with `⌾⊑` or `⌾(n⊸⊑)` in a generic array nobody else refers to is done in place and keeps the mark "known to be sorted", so the next `∧` (and the order test) believes it (sfns.c, pick_replaceOne): the result is not sorted (`C37_pick_under_refuted`).
* F25 `3‿1431655766‿⌊⥊↕4` (sfns.c:258-303): an overflowing product of the given axes is let pass when the computed axis is `⌊`, and the
  wrapped product is used: the result has 4 elements but a shape whose product is 8589934596 (`C38_reshape_floor_refuted`).
* F26 a length that does not fit 32 bits is cut to 32 bits when the result has no elements: `(2⋆32)↑3‿0⥊0` has shape `0‿0`, `(5+2⋆32)‿0↑1‿1⥊0` has shape `5‿0`; with elements it is an error (`C34_take_length_refuted`, `C34_take_length_list_refuted`): sfns.c takedrop_highrank, take_c2.
* F27 `¯9223372036854775808↓𝕩` and `↑`: the negation of 𝕨 is a signed overflow, undefined behaviour (`C34_drop_lowest_refuted`): sfns.c drop_c2, take_c2, takedrop_highrank.
* F28 `(2⋆62)↓3‿4⥊0` is an out-of-memory error although the result is empty: the number of elements to drop is computed with an overflow check meant for Take (`C34_drop_huge_refuted`): sfns.c takedrop init.
* F29 `/⁼⟨4294967295⟩`: the result's length 2^32 is cast from a double to the 32-bit size type, which is undefined; the code expects the cast to give 0 and then raises the out-of-memory error. If it gave anything else the result would be too short and be written outside of its end (`C23_cast_refuted`): slash.c:1006.
* F30 `•ParseFloat "72057594037927944.5"` is one unit too small (`C42_18_digits_refuted`): the parser keeps 18 digits, but its test for dropped bits is only right while the kept integer is below 2^57: ryu.c:521-593. docs/system.md promises 17 digits only, which is proved; still a zero behind the dot matters: `"72057594037927945.0"` and `"72057594037927945"` give different numbers (`C42_trailing_zero_refuted`).
* F31 digits after the 18th are dropped, so that `"9007199254740993.001"` is taken for a tie: ryu.c:475-487.
* F32 `∾256⥊<(2⋆24)⥊0` writes outside of its allocation: the length of the result of Join of a list is summed in 32 bits without a check, is 0 here, and the items are then appended without a bounds test (`C38_join_refuted`): sfns.c join_c1, mut.c apd_tot.
* F33 `∾⟨0,(255⥊1)⥊0⟩` reads a null pointer: ranks are subtracted in 8 bits, so an atom and an array of rank 255 look like ranks that differ by one (`C34_join_rank_refuted`): sfns.c join_c1 `ur cd = rm - cr`.
* F34 `((2⋆31)‿0⥊0)∾(2⋆31)‿0⥊0` has shape `0‿0`, as F26 (`C34_join_to_length_refuted`): sfns.c join_c2.
* F35 `w⊑<7` for a `w` of shape `0‿2` is an error if `w` is stored as 8-bit numbers (`0↑3‿2⥊5`) and 7 if as bits (`0↑3‿2⥊0`), though the two match (`C34_pick_storage_refuted`): sfns.c recPick.
* F36 `8 •bit._not (2⋆29)⥊0`, and every •bit operation on 2^32 bits (512 MB) or more: the number of bits is computed in 32 bits, here as 0, so a new result is allocated without memory for its elements (reading it reads foreign memory), and an argument overwritten in place comes back unchanged (`C43_size_refuted`): bit.c:204, 288.
* F37 `8‿1 •bit._cast 1048576‿512⥊0` has the shape `1048576‿4096` and 0 elements: only the last axis is checked (`C36_cast_size_refuted`): bit.c:79-101.
* F38 `⟨65536⟩ 32 •bit._mul ⟨65536⟩` multiplies signed 32-bit numbers and overflows, which C leaves undefined (64 bits likewise; the path without Singeli) (`C43_mul_refuted`): bit.c:325.
* F39 `(•MakeRand ¯1.0350497021170833e186).Range 2⋆60` is `2⋆60`, which is not less than 𝕩: the drawn integer is less than 𝕩, but above 2^53 its conversion to a double may round up to 𝕩 (`C44_range_one_refuted`): sysfn.c:353.
* F40 `(2⋆30) •rand.Range 1000000`, `(2⋆31) •rand.Range 200`, `(¯1+2⋆32) •rand.Range 2` and others allocate no memory for their elements, which are then written or read outside of it: the size is computed in 32 bits and m_arr does not check it (`C44_range_size_refuted`): sysfn.c:386-395.
* F41 `⥊⎉0` on an array of rank 255 makes a result of rank 256: the rank becomes 0 and 256 axis lengths are written to it (`C46_deshape_refuted`): cells.c:462-
* F42 `𝕨≍⎉0 𝕩` with both of rank 255, the same, without a check (`C46_couple_refuted`): cells.c 27-36 interleave_cells
* F43 `𝕨⊏⎉∞‿1 𝕩` with 𝕨 of rank 2 and 𝕩 of rank 255, the same (`C46_select_refuted`): cells.c:725-
* F44 `𝔽⎉1` on an array of shape 65536‿65536‿0: the number of cells is computed in 32 bits and wraps to 0, and the result has shape 65536‿65536 but no elements (`C46_many_cells_refuted`)
* F45 `>` of empty lists of different type takes the fill of the first: `>""‿(↕0)` has the fill `' '`, although `>"a"‿⟨1⟩` has none (`C47_merge_fill_refuted`); a unit array without a fill that holds a number does not take the fill away (`C47_unit_fill_refuted`)
* F46 `1↕((2⋆32)-1)‿0⥊0` is an error although every window fits, and `0↕` of it has an axis of length 0 (`C48_windows_axis_refuted`: `usz l = xsh[i]+1` wraps); `2↕` of a list of 2⋆31 elements is an error although the result has fewer than 2⋆32 elements (`C48_windows_pairs_refuted`): fns.c ud_c2.
* F47 `⟨⟩⍷𝕩` of a list of (2⋆32)-1 numbers is an empty list (`C48_find_wrap_refuted`: `xl+1` wraps); `⟨5⟩⍷65536‿65536‿0⥊0` is an out-of-memory error although the result is empty (`C48_find_empty_refuted`): fns.c find_c2.
* F48 `𝔽⌾(0‿0⊸⊏)𝕩` accepts two different new rows for one row of 256 bytes and `⊢⌾(1‿1⊸⊏)2‿256⥊↕512` is an error (`C49_select_conflict_refuted`, `C49_select_refused_refuted`: `u8 cwidth = csz * elWidth(re)` truncates the byte width of a cell, select.c).
* F49 `𝔽⌾(n⊸↑)` and `𝔽⌾(n⊸↓)` with n the lowest 64-bit integer negate it in signed arithmetic (`C49_take_lowest_refuted`); `⊢⌾(1⊸↑)5` is a list, not 5 (`C49_take_atom_refuted`).
* F50 `•file.Chars`, `•file.Bytes` and `•file.Lines` report success when the last, buffered bytes cannot be stored, for instance on a full disk: the result of `fclose` is dropped (`C51_full_disk_refuted`).
* F51 A read error of a file that cannot be positioned, such as a pipe, gives the part before the error as the whole: `stream_bytes` does not look at `ferror` (`C51_stream_error_refuted`).
* F52 `𝕨 •file.Bytes 𝕩` writes a character above 255 as its low byte without an error, and converts a number beyond 32 bits out of range (`C51_wide_byte_refuted`).
* F53 An empty list whose fill is an empty text, when it is to get an empty list of numbers as its fill, keeps the text: `fillEqual` takes all empty arrays of a shape as equal, so the fill of the fill is a space where 0 was asked for (`C53_exact_fill_refuted`).
* F54 A 3-train whose left operand is a modifier, and whose other operands are functions, passes the modifier on as data; everywhere else calling a modifier is an error, also for the same train if another operand is not a function (`C54_modifier_operand_refuted`).

## Trusted base

* Coq 8.16.1's kernel (with the `vm_compute` machine, used by examples and to check the certificates of RyuCert.v) and the standard library.
* `Print Assumptions` says "Closed under the global context" for every theorem that MANIFEST.json names: no axiom, neither our own nor
  one of the standard library, is used. (Library files loaded from Coq's standard library declare fields of the module type in
  `Coq.ssr.ssrunder`; no theorem depends on them.)
* No Variable or Hypothesis outside of a Section, no Admitted, no functor or module type, no switched-off check.
* The correspondence between the C code and the Gallina definitions. It is by reading: every definition names the lines it follows.
  What is checked about it is what the theorems say and the mutation log in `seeded/`.

### What is modelled

| area | files of /repo | model |
|------|----------------|-------|
| value tagging, number conversion | src/h.h, src/utils/float.h | TagModel |
| allocator | src/opt/mm_buddy.*, mm_buddyTemplate.*  | BuddyModel |
| reference counting, cycle collection | src/opt/gc.c, src/core/heap.* | GcModel |
| UTF-8 | src/utils/utf.c | UtfModel |
| •HashMap | src/builtins/hashmap.c with hashmapTemplate.h | HashMapModel |
| generic hash table | src/utils/hashmapTemplate.h, hash.h | HtabModel |
| hashing of values | src/utils/hash.c | HashModel |
| bit-packed arrays | src/utils/bits.c, mut.c | BitsModel, WidenModel |
| element type narrowing | src/builtins/squeeze.c | SqueezeModel |
| Match and Compare | src/core/stuff.c (equal, atomEqual), src/builtins/compare.c | MatchModel, CompareModel |
| sort, grade, binary search | src/builtins/sort.c, grade.h, radix.h, sortTemplate.h, src/utils/ | SortModel, SortTopModel, TimsortModel, BinsModel |
| searches | src/builtins/search.c, selfsearch.c | SearchModel, SelfModel |
| Indices, Replicate: every storage of counts and cells, single bits by counts (word-wise scan and overwrite loops), cells without elements; 𝕨 a list of lists goes to the BQN runtime and is not modelled; doubles with bits are written element by element | src/builtins/slash.c | SlashModel, SlashModel2 to 5 |
| Select with an array of numbers | src/builtins/select.c | SelectModel |
| Arithmetic + - × ∧ ∨ ⌊ ⌈ on arrays of whole numbers; - | × ¬ of one argument; modulus and floor of quotient of integers; GCD, LCM; characters plus or minus integers. Doubles only as whole numbers; infinities and the sign of zero left out; for modulus and division the roundings to float and double are parameters of which an error bound and exactness on small integers are assumed | src/builtins/arithd.c, arithm.c (SINGELI=0) | ArithModel, ArithModel2 |
| Fold with arithmetic, comparison, ⊣ and ⊢ operands over lists of whole numbers, with and without an initial value: bit methods, blocks of small integers, overflow fallbacks, the generic loop. Conversions of doubles out of the range of an integer type give any value of the type; identities of empty lists, higher ranks and Insert left out; comparison folds over bits need the spare word that the allocator rounds up to | src/builtins/fold.c (SINGELI=0) | FoldModel |
| Scan with the same operands over lists of whole numbers, with and without an initial value: word-parallel methods on bits, running sums of bits (dense, and sparse through Indices), overflow fallback of +`, ⌊` and ⌈` with initial values out of the type's range, the generic loop. Higher ranks left out | src/builtins/scan.c (SINGELI=0) | ScanModel |
| The inverse of Indices for every storage of 𝕩, portable code, 32-bit sizes; squeezing of the result left out | src/builtins/slash.c 887-1029 (SINGELI_SIMD=0) | CountModel |
| Group with a list of integers: bits, sorted, few-changes, filtered ¯1 and plain methods over cells of any width; nested 𝕨 not modelled; Indices, Replicate, Take and bit copies replaced by their results | src/builtins/group.c (SINGELI=0) | GroupModel |
| Histories over shared lists: heap with reference counts, slices (incl. fill slices) with parents, capacities; slicing, Take of a prefix (in place, copy, slice), Join To and append in place, Sort and the order test with their remembered marks, replacing one element under ⌾⊑; higher ranks, contents of generic elements' own reference counts and other mark-setting functions not modelled; sorting itself is insertion sort over any total order | src/builtins/sfns.c, src/core/{fillarr.c,stuff.h}, src/utils/mut.c, src/builtins/grade.h | ReuseModel |
| Transpose, Reorder Axes, their inverses and Under, portable kernels; two rows of bits word by word. SIMD and PDEP kernels, conversion of other bit tables to bytes and back, fills, reading of 𝕨's elements as naturals (o2s) and join_cells not modelled | src/builtins/transpose.c | TransModel, TransBitModel |
| Reshape: the shape with at most one computed axis, repetition of bits (word and byte doubling), of elements of 1 to 8 bytes and of other elements, one repeated element, padding. Squeezing before repetition and the choice of reuse or slice in a shorter result are left out | src/builtins/sfns.c 66-392 | ReshapeModel |
| Take and Drop with a number and with a list, Prefixes, Suffixes, Rotate and its inverse with a number and with a list, Reverse (also of packed bits), shifts with and without 𝕨. Reuse of 𝕩 in place and slices are given by their elements (their sharing is ReuseModel); cells of several elements that fit a machine word are moved cell by cell; 𝕨 is a list of integers already read; fills other than the padding element are left out | src/builtins/sfns.c 66-127, 488-757, 1094-1337; src/core/stuff.h 12-18 | MoveModel, RevBitModel |
| Join of a list of arrays, Join To of any ranks, Merge, First, Pick with nested 𝕨. Element types of the growing buffers (their values are kept), fills, Join of arrays of rank 2 and more are left out | src/builtins/sfns.c 395-488, 790-850, 993-1050; src/core/stuff.c 477-503; src/utils/mut.c 597-752 | JoinModel |
| •bit._cast, _not, _neg, _and, _or, _xor, _add, _sub, _mul on data already stored at the argument width (convert, with its truncation of numbers that do not fit, is left out; reads of a whole word at the end of the data are taken to be in the allocation) | src/builtins/bit.c | BitopModel |
| •rand and •MakeRand: Range, Deal, Subset, for every state. Out of memory (the size check of 32-bit results) is left out; elements of Deal and Subset are integers of any width; slash_c1, cpyBitArr and filter_ne_i32 are given by their results | src/builtins/sysfn.c 343-668; src/utils/wyhash.h wyrand, wy2u0k, wy2u01 | RandModel.v |
| Each, Table and Repeat over any operand. Fills of the results (homFil1, homFil2), squeezing of the result storage and reference counts are left out; Replicate, reshape and pervasion inside of Table are given by their results | src/builtins/md1.c 39-166; src/utils/each.c 5-115; src/builtins/md2.c 60-136; src/builtins/search.c 53-61 | MapModel.v |
| •ParseFloat of a list of characters and •Repr of a number: tables, parsing, multiplication with 128-bit products, rounding, digit removal, layout. The 128-bit products are over integers; the #else versions for compilers without a 128-bit type are not modelled. The tables RyuTable.v and certificates RyuCert.v are generated; the first are the repository's numbers, the second are checked in Coq | src/utils/ryu.c, ryu_common.h; src/builtins/sysfn.c | RyuModel (proofs RyuExact, RyuRound, RyuParse, RyuDigits, RyuPrint, RyuText) |
| Cells and Rank: the special cases that avoid calling the operand per cell, and the general loops. The operands are abstract functions | src/builtins/cells.c | CellsModel |
| The array builders used by most functions: storage of nine types with widening. `apd_reshape` left out | src/utils/mut.c, src/utils/mut.h | MutModel |
| Range, Windows, Shape of an array, Find. Copies by builders (C47), comparison (C23) and Indices (C22) are taken as those properties state them | src/builtins/fns.c 1-248, 274-396 | FnsModel |
| Under of Select, Replicate, Take, Drop, Reshape, Deshape, First, Pick. 𝔽 is a function on arrays without effects; the selection itself is taken as C24, C22 and C34 state it | src/builtins/select.c `select_ucw`, `select_replace`; slash.c `slash_ucw`; sfns.c `*_uc1`, `*_ucw` | UnderModel |
| Comparison functions on atoms and arrays. Reference counts, reuse of arguments and fills of empty results are left out; what `eequal`'s decomposition of two functions answers is a parameter, taken to be symmetric; at least 64 elements after an array can be read (`ALLOC_PADDING`) | src/builtins/cmp.c; cells.c `leading_axis_arith`; utils/each.c `eachd_fn` | PervModel |
| Arithmetic functions of one argument on atoms and arrays. Reference counts, reuse, fills and flags of arrays are left out; double arithmetic is IEEE 754 with round to nearest even, defined in the model; ÷ √ and the functions of •math are not modelled | src/builtins/arithm.c `GC1i`, `add_c1`; arithd.c `sub_SA`; utils/bits.c `bit_sel`; utils/each.c `eachm_fn` | MonModel |
| Fills of arrays: prototypes, attaching and comparing fills. Reference counts are left out; whether an array may be reused or is marked as squeezed is arbitrary; slices are arrays with their elements; the fills of primitives are not modelled | src/core/fillarr.c, fillarr.h | FillModel |
| Trains and combinators. Reference counts are left out; other functions are opaque; the inverses and Under of derived functions, ⍟ (C45) and Pick inside ◶ are not in this model | src/core/derv.c, src/builtins/md2.c, md1.c, src/h.h | TrainModel |
| Files and paths on a system with paths of '/'. The operating system is a map from paths to contents and arbitrary reports of its calls; an element of a list is a character, an integer or something else | src/utils/file.c; src/builtins/sysfn.c •file functions | FileModel |
| bytecode: stack check, variables, namespaces, catching, scopes | src/vm.c, src/ns.c | VmModel, VarModel, NsModel, CatchModel, ScopeModel |

### What is not modelled

* Everything under `#if SINGELI` and in src/singeli; the JIT (src/jit); the FFI; the REPL; the BQN-language runtime and compiler
  bytecode (src/gen); system functions other than •HashMap, •rand, •MakeRand, •bit, •ParseFloat, •Repr of a number, •math.GCD and •math.LCM; threads (there are none).
* Reference counts and freeing in the array functions: a result is the array made, arguments are not consumed. The counting discipline is
  modelled on its own in C05 and C06.
* Running out of memory, and interrupts, except where a theorem says so.
* Floating-point rounding, except where an operation is exact, and in •ParseFloat.
* Stack overflow of the C stack in recursive functions.
