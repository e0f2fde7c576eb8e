# Verification of `vers` (v1.9.1) in Rocq/Coq 8.16.1

This file is the plan and the trusted-base statement. The properties are in `properties.jsonl`,
the development is in `rocq/theories`, the claim/theorem mapping is in `MANIFEST.json`.

## Modelling conventions

* Machine words and `usize` values are `N` (binary naturals). Where Rust truncates (shifts left,
  `!x`, wrapping operations) the truncation `mod 2^64` is written out. Limbs are `N` below `2^64`.
* Vectors are Coq lists. Indexing is checked: an out-of-bounds index is a panic.
* Every modelled function that can panic returns `res A = Ok a | Panic | Diverge`. Arithmetic
  underflow is `Panic` (the overflow-checked build; when a theorem shows `Ok`, no
  overflow happens and the release build computes the same value).
  `Diverge` is the out-of-fuel value of a `while` loop; a theorem that shows `Ok` excludes it.
* Additions on internally computed lengths are not checked against `2^64`: a vector that large
  cannot exist in memory. Additions on caller-supplied values before a bounds check
  (`pos + len` in `get_bits`) are checked.
* Rust intrinsics (`count_ones`, `trailing_zeros`, `leading_zeros`, `reverse_bits`,
  `next_power_of_two`) are modelled by their mathematical definition.
* Floating point `log2().ceil()` is an oracle: theorems hold for every value that passes the
  subtraction and shift checks (Elias-Fano), or it is modelled by the exact ceiling logarithm
  (min-max tree; noted in the definition).
* Where the debug build panics on a caller's argument, `ReleaseModel.v`, `BpReleaseModel.v`, `BpNodeReleaseModel.v`, `SparseReleaseModel.v`, `SparseFullReleaseModel.v`, `BuildReleaseModel.v`, `UncheckedReleaseModel.v`, `WaveletUncheckedReleaseModel.v`, `EFReleaseModel.v` and `EFIterReleaseModel.v` model the wrapping release build (C77-C81, C88, C105, C106, C112, C117, C123-C125, C128-C131, C134, C135, C137, C140-C142).
* `debug_assert!` panics like `assert!` (the debug build). A theorem that shows `Ok` therefore also
  covers the release build.
* SIMD: `BitSetIter` and the AVX-512 block search of select are modelled by lane-wise list functions;
  the hardware `pdep` instruction is not (its software version is).
* Both lookup modules of the BP tree are modelled: the 8-bit table (`lookup_query.rs`, the
  default) and the 16-bit table (`lookup.rs`, feature `bp_u16_lookup`). BP theorems quantify over both (`a_lookup`).
* BP excess values are `i64`: model integers are `Z`, and additions that the code performs on
  caller-supplied excess values are overflow-checked.
* The generic parameters of the code (`BLOCK_SIZE` of the BP tree, `ZERO` of the select and bit set
  iterators, element widths of `pack`) are ordinary arguments of the model, so theorems quantify
  over them. The closures that read and write symbols in the wavelet matrix are arguments too.

## Specification

`Spec.v` contains the whole specification vocabulary: a bit vector is a `list bool`;
`count`, `positions`, `slice`, little-endian value of a bit list, sorted lists, order statistics,
argmin, ordered trees and their parenthesis encoding. Nothing in it mentions the model.

The link between a model state and the specification is one abstraction function per structure
(`bits : bitvec -> list bool`), and `get`/`len` are proved to read exactly that list, so the
abstraction is determined by the public API.

## Plan per property

| Property | Modelled | Proof |
|---|---|---|
| C01 | `append*` on limbs | bitwise extensionality of the result |
| C02 | an operation datatype and its interpreter over the model and over lists | induction on the operation list, invariant `wf` |
| C03 | `drop_last`, `extend_bitvec`, `split_at` | loop invariant over limbs |
| C04 | `get_bits` | bitwise; the "never panics" half is false for `pos + n` overflow: refuted separately |
| C05 | `pack_*` | induction on the sequence |
| C06 | `count_ones` | sum of popcounts = count |
| C07 | `eq` | false when `len % 64 = 0` (last limb ignored): `_refuted`; proved for other lengths |
| C08 | `hash` as the list of words written | as C07 |
| C09, C10 | `MaskedBitVec` | bitwise; C10 false for width 64 unaligned: `_refuted` |
| C11 | `append_bits(_, 0)` | false: `_refuted` |
| C12-C14 | `RsVec::from_bit_vec`, `rank`, `select` with naive block search and software pdep | construction-loop invariant, search invariants |
| C15, C16 | accessors, equality | C15's empty query at the end panics: `_refuted` |
| C17, C18 | select iterators with both caches | state invariant, refinement of "list consumed from both ends"; C18 false for `nth_back`: `_refuted` |
| C19, C20 | generic iterator macro | same; C20 false: `_refuted` |
| C21-C26 | Elias-Fano | from the rank/select theorems; C26 false for `last`/`max`: `_refuted` |
| C27 | `SparseRSVec` | from C21-C26 |
| C28-C31 | both RMQ structures | table invariant; C30 and C31 false: `_refuted` |
| C32-C40 | wavelet matrix | per-level stable partition; C38 and C39 false: `_refuted` |
| C41-C49 | min-max tree, BP tree with the 8-bit lookup tables, builder | discrete intermediate value property of excess, tree induction; C42 false for block sizes that are neither multiples nor divisors of 8, C49 false: `_refuted` |
| C50, C67 | `BitSetIter` with vector compress-store as list filter | C50 false: `_refuted`; C67 is the exact output |
| C68 | select with the AVX-512 block search | the number of lanes below the target is the index the scalar search finds |
| C70, C71 | wavelet constructors | loops over a bad element panic; direct computation for width 0 |
| C72-C76 | the `heap_size` functions | lengths of the vectors each constructor builds; C73 false for dense data: `_refuted` |
| C77-C81 | the functions whose arithmetic wraps in a release build | wrapped differences cancel level by level; the wrapped value is compared with the debug model |
| C82, C83 | `range_min` of both structures on ties | table cells hold the last minimum of their window, block tables the first of their prefix; the choice rule is stated as a predicate that has one solution; C82 and C83 also show by `_refuted` that simpler rules fail |
| C84 | `MaskedBitVec::get_bits` | C10 plus the remaining case |
| C85-C87 | no new code | two structures over the same data compared call by call |
| C88 | `get_bits` in a release build | the wrapped start lies beyond all limbs |
| C89 | unchecked accessors of `BitVec` | three zones: inside, stored above the length, beyond the limbs |
| C90-C93 | `select0`, `select1`, Elias-Fano queries | copies with a budget for each loop (`CostModel.v`), equal to the original exactly when the budget suffices; C90-C92 also show by `_refuted` that no multiple of the logarithm suffices |
| C94, C95 | searches and operations of the balanced parentheses tree | budgets as in C90-C93; node numbers halve on the way up and double on the way down; C95 shows by `_refuted` that `node_handle` is not logarithmic |
| C96, C97 | unchecked queries of `EliasFanoVec` | beyond the end select returns the length of the upper vector and the low part comes from unused bits |
| C98, C99 | `pdep` for every integer type, and the instruction | bit at a mask position = bit of the value at its rank, by induction over the loop; C99 shows by `_refuted` that the signed types panic |
| C100, C101 | `(n as f64).log2().ceil()` | conversion and ceiling are exact rational arithmetic; `log2` is any function with an error below one unit in the last place; C100 shows by `_refuted` that the result is not always exact |
| C102-C104 | unchecked queries of `WaveletMatrix` | the level loops with clamped ranks; C103 and C104 show by `_refuted` that the documented outcomes do not hold |
| C105, C106 | tree searches and level queries in a release build | the debug answer carries over; an excess too large for the debug build stays too far from zero to meet any entry or node, even after wrapping |
| C107 | `FastRmq` on inverted ranges | the suffix vector is correct up to the length of a short last block and clear behind it; the search over it is off by the missing elements |
| C108 | surplus limbs after zero-width appends | the limbs are those of a longer ordinary vector; calls see a prefix of it, and `from_bit_vec` depends on the length only through its remainder mod 64 and the number of ones |
| C109 | `WaveletMatrix` `u64` queries with wide elements, range statistics out of bounds | the shift register keeps the low 64 bits; shifts by 64 or more and the debug assertions panic before anything is read |
| C110 | unchecked access of `BitVec`, `MaskedBitVec`, `RsVec` behind the length | one list of stored bits explains all reads and writes |
| C111 | `range_min` of both structures with indices out of bounds | prefix bits behind the end of a short block are clear, so such a position counts as a new prefix minimum and is found by the search for itself |
| C112 | `FastRmq::range_min` and `range_min_with_range` with wrapping arithmetic | ranks within an existing block are between 1 and 128, positions below 2^39; so every wrapping operation is exact |
| C113 | copies of `rank` and `FastRmq::range_min` that stop when the slice to be scanned is longer than a budget | the slice lies within one block of 512 bits or 128 elements; witnesses for the attained bounds |
| C114 | copies of the wavelet selects whose level selects have budgets | C90 and C91 on every level; for the refutation one level with 8192 m ones before the only zero |
| C115 | copies of the wavelet queries that pay for each rank query from a budget; copying of the prefix bit vector in predecessor and successor is not counted | two queries for each level passed; the fallback search starts at level 1 or later, the direct one at the current level |
| C116 | `CostIterModel.v` | the state after r calls is explicit, so the cache test is a comparison of positions; the search is charged as in C90 and C91 |
| C117 | `SparseModel.v`; constructor and rank0 of a release build in `SparseReleaseModel.v` | the Elias-Fano theorems hold for all non-decreasing data; strictly increasing numbers below i are at most i many |
| C118 | `CostIterModel.v` | a call costs at most the distance from its select sample; 8192 calls share a sample and the distances between samples telescope |
| C119 | `CostEFIterModel.v` | the upper iterator is charged as in C116 and C118; the position of each one-bit is known from the data |
| C120 | `CostBackModel.v` | the back state after n calls is explicit; the cache test compares ranks, so it is a comparison of the super-blocks of the neighbouring one-bits; the total telescopes as in C118 |
| C121 | `CostBuildModel.v` | a predicate saying that a budgeted copy takes exactly c steps, composed over sequencing and loops |
| C122 | `CostBuildModel.v` | as C121; the lengths of the chunks add up to the length of the data |
| C123 | `BuildReleaseModel.v` | the loops agree iteration by iteration where no operation overflows; otherwise a checked index fails |
| C124 | `unpack_element` in both builds (`UncheckedReleaseModel.v`) | reduction to the exact behaviour of `get_bits` at the wrapped position |
| C125 | `get_unchecked` with wrapping arithmetic | select behind the last one is the length of the upper vector; modular arithmetic |
| C126 | `CostBuild2Model.v` | composition of exact loop costs; the width bounds the upper vector (C54) |
| C127 | `CostBuild2Model.v` | induction over the levels, whose sizes are powers of two |
| C128 | release builds of the unchecked wavelet matrix queries (WaveletUncheckedReleaseModel.v) | Cut the ends at the length level by level, transfer the debug result where nothing wraps, for inverted ranges follow the wrapped number down to the first level that has a zero, and show that a wrapped start below the first copy of the symbol always leads to the length. |
| C129 | `EFReleaseModel.v`: search_element_in_block and the queries of elias_fano/mod.rs with wrapping arithmetic | wherever the debug model answers, the wrapping model takes the same steps; for the other queries the search stops at the first bit of the upper vector, whose stored bits behind the end are zero |
| C130 | `UncheckedReleaseModel.v`: get_unchecked with wrapping arithmetic | the stored bits of the lower vector are the binary digits of one number, followed by zeros; C110 describes reads of stored bits |
| C131 | `from_slice` in a release build (`EFReleaseModel.v`) | every flip changes the number of visible ones by at most one, so that all elements read right forces n ones at increasing places |
| C132 | `MinMaxTree::excess_tree`, `fwd_search`, `bwd_search` (`BpModel.v`) | each level summarises the one below; the searches keep the sought excess relative to the border of the current node |
| C133 | BpModel: bp_close, bp_open, bp_enclose and the node queries | a piece of the expression whose excess returns for the first time is the encoding of a tree; the searches of C41/C42 then give matched pieces |
| C134 | BpModel: bp_excess, bp_is_empty, bp_size; BpNodeReleaseModel: bp_excess_rel | rank of both bits; the assertion fails beyond the end; wrapping of index + 1 |
| C135 | BpNodeReleaseModel: bp_close_rel, bp_enclose_rel, bp_parent_rel and the other node queries, level queries and iterators | where the debug build answers the release build gives the same answer; the searches of C105 at closing positions; guards beyond the end |
| C136 | the iterators of BpModel on arbitrary expressions | the closed piece is an encoded tree, so ranks at its ends differ by the tree's size and the select iterator restricted to it lists its parentheses; an unclosed node makes the length 0 (pre-order) or 1 (post-order) |
| C137 | multi-bit reads without assertion, with wrapping addition, `as u32` and masked shift amounts (`UncheckedReleaseModel.v`) | bitwise comparison of the shifted limbs with the stored bits; the shift by 64 - 0 is a shift by 0 |
| C138 | all of BpModel with two parameter sets | the searches are determined by the excess sequence (C41, C42); everything else is a function of searches, ranks and selects, and iterators are compared step by step |
| C139 | `WaveletModel`, `EFModel`, `RmqModel` | sorted lists of the same elements are equal, predecessors and minima are unique |
| C140 | `SparseFullReleaseModel.v` | release Elias-Fano queries (C129-C131); behind the end the high part found is that of the query, so only low bits decide |
| C141 | `EFIterReleaseModel.v`: the iterators of elias_fano_iter.rs with wrapping arithmetic | where the debug model answers, the wrapping one takes the same steps; otherwise the wrapped index lies before the front, so the index test passes while the select iterator has fewer elements than asked for |
| C142 | `from_slice` and the iterators in a release build (`EFReleaseModel.v`, `EFIterReleaseModel.v`) | the bit at a place is the parity of the number of elements put there; the select iterator enumerates these bits from both ends (C17) |
| C143 | BpModel | every law compares answers of the modelled functions with each other; derived from the exact answers of C133 |
| C144 | EFModel, WaveletModel | every law compares answers of the modelled functions with each other; the sorted list splits at the rank |
| C51-C66, C69 | the same models | exact behaviour where an earlier property is false, and the strongest true variant |

## Claims that are false of the code

Each has a theorem `..._refuted` with a concrete witness; the note names the exact positive statement.

| Claim | Theorem | What happens | Exact behaviour |
|---|---|---|---|
| C04 | `C04_get_bits_refuted` | `get_bits(pos, n)` panics when `pos + n` overflows | `C04_get_bits_partial` |
| C07 | `C07_eq_refuted` | `BitVec ==` ignores the last limb if the length is a multiple of 64 | C51 |
| C10 | `C10_masked_get_bits_refuted` | masked `get_bits` of 64 bits at an unaligned position is wrong | C84 |
| C11 | `C11_usable_refuted` | `append_bits(_, 0)` at a length that is a multiple of 64 pushes a surplus limb | `C11_usable_partial`, C108 |
| C15 | `C15_get_bits_refuted`, `C15_get_bits_overflow_refuted` | empty read at the end panics; `pos + len` overflow panics | `C15_get_bits_partial` |
| C18 | `C18_nth_back_refuted` | `nth_back` past the end panics | `C18_nth_back_panics` |
| C20 | `C20_nth_exhausts_refuted` | `nth` past the end does not exhaust the iterator | C52 |
| C26 | `C26_last_refuted` | `last`/`max` of an Elias-Fano iterator omit the base value | C53 |
| C27 | `C27_from_refuted` | `SparseRSVec::from(BitVec)` stores the complement | `C27_from_bitvec` |
| C30 | `C30_no_panic_refuted` | empty/inverted ranges panic or give an index outside | C56, C107 |
| C31 | `C31_accepts_refuted` | `FastRmq` rejects 2^39-127 or more elements | C57 |
| C35 | `C35_refuted` | `select_offset` panics when `range_start + rank` overflows | C59 |
| C38 | `C38_refuted` | symbols wider than `k` bits are reduced modulo 2^k | C58 |
| C39 | `C39_refuted` | inverted ranges panic | C60 |
| C41 | `C41_refuted` | `fwd_search` on the empty expression and near the ends of `i64` panics | C61 |
| C42-C44, C48 | `C42_refuted`, `C43_refuted`, `C44_refuted`, `C48_refuted` | backward search in a block whose size neither divides the lookup width nor is a multiple of it reads the wrong bits (witness: 12) | C63-C65 |
| C46, C49 | `C46_refuted`, `C49_refuted` | `level_rightmost(0)` on one node, levels beyond `i64`, empty trees | C61, C62 |
| C50 | `C50_refuted` | `BitSetIter` reports the last chunk twice, and stored bits past the length | C67 |
| C55 | `C55_get_unchecked_refuted` | `SparseRSVec::get_unchecked` panics left of the first set bit | C69 |
| C73 | `C73_refuted` | Elias-Fano data dense enough for low parts of width 0 costs a 64-bit limb per element | C74 |
| documented results, release build | `C78_refuted`, `C79_refuted`, `C81_refuted` | where the debug build panics on an overflow, the release build returns a value | C77-C81, C112 |
| documented `get_unchecked` of a sparse vector in bounds, release build | `C140_refuted` | with low parts of width 0, positions before the first set bit are reported as set | `C140_unchecked`, `C140_width_0` |
| documented `rank1` of a sparse vector beyond its end | `C117_refuted` | positions beyond the length are accepted and counted | C117 |
| range minimum on ties | `C82_refuted`, `C83_refuted` | the index is neither the first nor the last minimum, and the two structures differ | C82, C83 |
| documented panic of `EliasFanoVec::get_unchecked` | `C96_refuted` | an index beyond the length can return a number | C96, C125 |
| documented result of `pdep` for signed types | `C99_refuted` | `mask - 1` overflows for negative masks | C99 |
| exact logarithms | `C100_refuted` | `f64` rounding gives the ceiling logarithm of 2^50 + 1 as 50 | C100, C101 |
| documented outcome of unchecked access to a wavelet matrix | `C103_refuted`, `C104_refuted` | beyond the end a number comes back | C103, C104 |
| C124 | `C124_refuted` | `unpack_element` panics when `index * n` overflows (debug build) or returns another element (release build) | `C124_debug_partial`, `C124_release` |
| documented `excess` beyond the end and `is_empty` of trees | `C134_refuted` | `excess` panics beyond the end (debug build) or is 0 for `usize::MAX` (release build); closing parentheses alone are not "empty" | `C134_partial`, `C134_release` |
| documented logarithmic worst case of select, of Elias-Fano queries, and of all tree operations; documented `O(k)` of wavelet select; documented constant time of `max` of an Elias-Fano iterator | `C90_refuted`, `C91_refuted`, `C92_refuted`, `C95_refuted`, `C114_refuted`, `C116_refuted`, `C119_refuted` | the last select sample is a copy of the one before it, so the last select block is searched linearly; `search_super_block1` compares the rank with 8192 plus the ones before `middle`, so its binary search never advances; `node_handle` is a select, wavelet select makes one on each level; outside its cached super-block a select iterator starts again from the sample, and never caches the last super-block | C90-C95, C114, C116, C119 |
| documented `O(kn)` of the prefix counting constructors | `C121_exponential` | each level also walks over all `2^level` prefixes twice, so a single element of `k` bits takes more than `2^(k+1)` steps; with at most 63 bits this is a constant, so the theorem gives the bound for each `k` rather than a `_refuted` for all constants | C121 |

## Trusted base

* Coq's kernel (8.16.1). No plugin, no axiom of our own, no disabled check.
* `Print Assumptions` answers `Closed under the global context` for every theorem listed in
  `MANIFEST.json`. No standard-library axiom is used. A checker that lists
  the axioms of all loaded libraries also sees `Coq.ssr.ssrunder.Under_rel.*`: these are the sealed
  module fields of the standard library's ssreflect plugin file, loaded with `lia`'s dependencies,
  and no theorem depends on them.
* The hand transcription of the Rust code in the `*Model.v` files. Each definition cites its source
  lines, and states its simplifications.

### Modelled

| Source | Model |
|---|---|
| `bit_vec/mod.rs` | `BitVecModel.v`: constructors, appends, pack/unpack, edits, get, bits, counts, split/extend, eq, hash |
| `bit_vec/mask.rs` | `BitVecModel.v` |
| `bit_vec/fast_rs_vec/mod.rs`, `select.rs` (scalar and AVX-512), `util/pdep.rs` (software), `util/unroll.rs` | `RsVecModel.v` |
| `bit_vec/fast_rs_vec/iter.rs` | `RsIterModel.v` |
| `bit_vec/fast_rs_vec/bitset.rs` | `BitSetModel.v` |
| `bit_vec/sparse.rs` | `SparseModel.v` |
| `util/general_iter.rs` | `GenIterModel.v` |
| `elias_fano/mod.rs`, `util/elias_fano_iter.rs` | `EFModel.v` |
| `rmq/binary_rmq/mod.rs`, `rmq/fast_rmq/mod.rs` | `RmqModel.v` |
| `wavelet/mod.rs` | `WaveletModel.v` |
| `trees/mmt.rs`, `trees/bp/*.rs`, `trees/mod.rs` | `BpModel.v`, 16-bit tables in `BpLookup.v` |
| `util/pdep.rs` for every integer type, and the `pdep` instruction | `PdepModel.v` |
| `f64` logarithms in `elias_fano/mod.rs` and `trees/mmt.rs` | `FloatModel.v` |
| `heap_size` of every structure | `HeapModel.v` (64-bit target) |
| wrapping arithmetic of a release build, where a caller's argument can overflow | `ReleaseModel.v`, trees in `BpReleaseModel.v` and `BpNodeReleaseModel.v`, sparse vectors in `SparseReleaseModel.v` and `SparseFullReleaseModel.v`, wavelet constructors and `pdep` in `BuildReleaseModel.v`, reads at a product of arguments in `UncheckedReleaseModel.v`, unchecked wavelet queries in `WaveletUncheckedReleaseModel.v`, Elias-Fano searches in `EFReleaseModel.v` and iterators in `EFIterReleaseModel.v` |
| loops of `select.rs`, `elias_fano/mod.rs`, `mmt.rs`, `bp/mod.rs`, rank, select and Elias-Fano iterators, `fast_rmq/mod.rs` and wavelet queries with an iteration budget | `CostModel.v`, `CostBpModel.v`, `CostQueryModel.v`, `CostWaveletModel.v`, `CostIterModel.v`, `CostBackModel.v`, `CostEFIterModel.v`, `CostBuildModel.v` and `CostBuild2Model.v` (constructors) |

### Not modelled

* `serde`/`mem_dbg` derives, `Debug` output, allocation failure and capacity.
* The `f64` function `log2` itself: C100 and C101 assume an error below one unit in the last place.
  Elsewhere, Elias-Fano theorems hold for every low-part width below 64 (C21-C27), C54 uses exact
  logarithms, and the min-max tree size uses the exact ceiling logarithm; C101 relates these to `f64`.
* Single instructions: the `pdep` instruction is modelled by its published pseudo-code.
* Additions of internal lengths are not checked against `usize`; a vector that long cannot exist.
* The deprecated `WaveletMatrix::bit_len` (`wavelet/mod.rs` 2034-2038) casts `bits_per_element` to `u16`.
* Custom mask functions of `MaskedBitVec` are pure and total functions.
* `split_at_unchecked` behind the end in a release build, where a huge allocation fails.
* Wavelet matrices with `k = 0` bits per element are outside the theorems of C32-C40; C71 covers them.

## Seeded faults

`seeded/LOG.jsonl` records the wrong programs the theorems were tried against, one edit of a model
definition per line. Each edit was made in a copy of the project and the copy rebuilt. Whenever a
proof script broke, that lemma was admitted in the copy and the build continued, so that the run
finds every broken lemma. A theorem counts as failed if it no longer checks or if its proof uses a
lemma that no longer checks (`Print Assumptions` lists the admitted lemmas). A sentence that ran into
the time limit was tried again with ten times the limit before it counted. Three control runs add a
blank only; they break nothing. One edit of `br_arg_min` changes a branch that cannot be reached and
breaks nothing either.
